(** * Near-minimality of the recorded temperatures without regularization: C118. *)
From Coq Require Import Reals Lra Lia List Psatz String ZArith.
From Coquelicot Require Import Coquelicot.
From Verif.Spec Require Import GridSpec QuadSpec InterpSpec RefineSpec PotentialSpec.
From Verif.Model Require Import Py Num Tensors Domain Refine Quadrature Integrators Bell Interp Helpers Steps Simulation.
From Verif.Spec Require Import ConvSpec ConsistSpec NearSpec SimSpec LiveSpec StepSpec EnergySpec MotionSpec ThermSpec TractionSpec MechSpec IdealSpec WorkSpec Near1Spec HeatLimitSpec.
From Verif.Proofs Require Import Lib GridP RectMesh GridCover StepP StepU StepF StepG StepH StepE StepC SimP SimQ SimR SimH SimC SimL SimA InterpP HatP MechV MechP ConvP ConvQ ThermP ThermQ SideP ConsistP.
From Verif.Props Require Import GridProps RefineProps SimProps EnergyProps AffineProps ThermProps ExistProps TractionProps ConsistProps ConsistExamples MechExistProps IdealProps Near1Props HeatLimitProps.
Local Open Scope R_scope.
Import ListNotations.
Local Notation length := List.length.

Lemma in_combine_nth {A B} (xs : list A) (ys : list B) j x y : nth_error xs j = Some x -> nth_error ys j = Some y -> In (x, y) (combine xs ys).
Proof. revert ys j. induction xs as [|z xs IH]; intros [|q ys] [|j] Hx Hy; try discriminate; cbn in *; [left; congruence|right; exact (IH ys j Hx Hy)]. Qed.

Lemma near2 : forall w h k d, 0 <= k -> 0 < d -> exists C, forall u lg sm i a b nx ny y v theta0 q ext,
  let s := p_scale (se_params u) in let fps := p_fps (se_params u) in let rad := p_search_radius (se_params u) in
  undisturbed u sm -> exact lg (se_solver u) -> midpoint_rule lg -> LiveSpec.fine_enough u -> p_regularization (se_params u) = None -> 0 < fps ->
  se_width u = w -> se_height u = h -> INR nx * s = w -> INR ny * s = h -> (1 <= nx)%nat -> (1 <= ny)%nat -> s <= Rmin 1 d / (12 * (k + 1) ^ 2) ->
  nth_error (s_steps sm) i = Some a -> nth_error (s_steps sm) (S i) = Some b ->
  positions_of (s_grid sm) y (st_y_data a) -> positions_of (s_grid sm) v (st_y_data b) -> nodal (s_grid sm) theta0 (nd_data (st_theta_data a)) ->
  regular_motion (rectangle w h) k y -> regular_motion (rectangle w h) k v ->
  (forall x, rectangle w h x -> d <= det2 (gradient_of y x)) -> (forall x, rectangle w h x -> d <= det2 (gradient_of v x)) ->
  lipschitz_on (rectangle w h) k theta0 -> between_on (rectangle w h) k theta0 -> regular_heat (rectangle w h) k q ->
  (forall x, rectangle w h x -> Rabs (temp q x - theta0 x) <= rad) -> se_external u (INR i / fps) = Ok ext -> ext <= k ->
  exists t J, let t' := fst (therm_solve (sv_therm (se_solver u) (2 * i + 1) t) t) in
    therm_problem_from u sm a (st_y_data b) (INR i / fps) t /\ therm_theta t' = st_theta_data b /\
    therm_objective lg t (map v_val (ts_theta t')) = Ok J /\
    J <= heat_functional w h fps ext y v theta0 q + C * (1 + fps) ^ 2 * s /\
    forall q0, regular_heat (rectangle w h) k q0 -> nodal (s_grid sm) (temp q0) (nd_data (st_theta_data b)) -> heat_functional w h fps ext y v theta0 q0 <= J + C * (1 + fps) ^ 2 * s.
Proof.
  intros w h k d Hk Hd. destruct (C116_thermal_objective w h k d Hk Hd) as [C T]. exists C. intros u lg sm i a b nx ny y v theta0 q ext s fps rad H EX LG FE Preg FP Ew Eh Nw Nh Hnx Hny Hss Ha Hb AR AV NT RY RV DY DV L0 B0 RQ NB EE HE.
  pose proof (undisturbed_reachable u sm H) as HR. destruct (C57_grid_of_the_domain u sm HR) as (EG & _ & ER & _). pose proof (proj2 ER Preg) as Hr. clear ER.
  destruct (undisturbed_chain u sm H) as (g0 & rg0 & ps0 & G & _). pose proof (params_ok u (gr_valid _ _ _ _ G)) as (_ & P2 & P3 & P4 & _). clear G g0 rg0 ps0.
  fold s in P4, EG. fold fps in P3. fold rad in P2. assert (Fw : fits (se_width u) s nx) by (rewrite Ew, <- Nw; split; [lra|rewrite plus_INR; cbn [INR]; lra]). assert (Fh : fits (se_height u) s ny) by (rewrite Eh, <- Nh; split; [lra|rewrite plus_INR; cbn [INR]; lra]).
  assert (Hw1 : s <= se_width u) by (rewrite Ew, <- Nw; apply le_INR in Hnx; cbn [INR] in Hnx; nra). assert (Hh1 : s <= se_height u) by (rewrite Eh, <- Nh; apply le_INR in Hny; cbn [INR] in Hny; nra).
  assert (HL : p_regularization (se_params u) = None -> midpoint_rule lg) by (intros _; exact LG).
  destruct (exact_steps u lg HL EX FE Hw1 Hh1 sm HR) as [AA _]. destruct (sim_thermal_from u lg HL FE Hw1 Hh1 FP sm i a b AA H Ha Hb) as (t & mc & nc & qq & TP & TB & TPr & TQ & OK & NN & NF).
  pose proof (sized_len t (proj1 TPr)) as TL. destruct (tp_grid _ _ _ _ _ _ TP) as [Gm Rm]. rewrite Hr in Rm. destruct (tp_constants _ _ _ _ _ _ TP) as [_ Fm]. destruct (tp_external _ _ _ _ _ _ TP Hr) as [Em E0]. fold fps in Fm. assert (Em' : ext = ts_ext t) by (assert (Q : Ok ext = Ok (ts_ext t)) by exact (eq_trans (eq_sym EE) Em); injection Q as Q; exact Q). clear Em. rename Em' into Em.
  destruct (proj1 TPr) as (Z1 & Z2 & Z3 & Z4 & Z5 & Z6). rewrite Rm in Z1, Z2, Z3, Z4, Z5, Z6. cbn [dofs] in Z1, Z2, Z3, Z4. cbn [theta_grid] in Z5, Z6. rewrite Nat.mul_1_r in Z1, Z2, Z3, Z4. rewrite Gm in Z1, Z2, Z3, Z4, Z5, Z6.
  set (g := s_grid sm) in *. pose proof (proj1 (C27_rectangle_grid_is_mesh _ _ _ _ _ _ _ _ P4 Fw Fh EG Hnx Hny)) as M. pose proof (eq_sym (mesh_length _ _ _ _ M)) as LP.
  assert (YA : y_array g None (ts_prev_y1 t) (ts_prev_y2 t) = st_y_data a) by (rewrite <- (tp_prev_y _ _ _ _ _ _ TP); unfold therm_prev_y; rewrite Gm, Rm; reflexivity).
  assert (VA : y_array g None (ts_y1 t) (ts_y2 t) = st_y_data b) by (rewrite <- (tp_y _ _ _ _ _ _ TP); unfold therm_y; rewrite Gm, Rm; reflexivity).
  destruct (positions_nodal g y _ _ _ LP Z1 Z2 YA AR) as [Nu1 Nu2]. destruct (positions_nodal g v _ _ _ LP Z3 Z4 VA AV) as [Nv1 Nv2].
  assert (NTm : nodal g theta0 (ts_prev_theta t)) by (rewrite <- (tp_prev_theta _ _ _ _ _ _ TP) in NT; exact NT).
  destruct (nodal_exists g s nx ny (temp q) M) as [p Np].
  assert (VV : forall j, (j < length (g_vertices g))%nat -> exists x, point_at g j x /\ rectangle w h x).
  { intros j Hj. assert (Ij : In j (g_vertices g)) by (rewrite (mesh_numbers _ _ _ _ M); apply in_seq; rewrite <- LP in Hj; lia). destruct (mesh_inside _ _ _ _ M j Ij) as (c & e & C1 & C2 & _ & P). exists (INR c * s, INR e * s). split; [exact P|]. pose proof (pos_INR c). pose proof (pos_INR e). apply le_INR in C1, C2. split; cbn [fst snd]; [rewrite <- Nw|rewrite <- Nh]; split; nra. }
  assert (FEAS : feasible t p).
  { destruct NTm as [NT1 NT2]. destruct Np as [Np1 Np2]. split; [rewrite Z6; exact Np1|]. split.
    - intros z Iz. apply In_nth_error in Iz as [j Hj]. destruct (VV j) as (x & P & RX); [rewrite <- Np1; apply nth_error_Some; congruence|]. pose proof (Np2 j x P) as Q. rewrite Hj in Q. injection Q as ->. apply (proj2 RQ x RX).
    - intros j x z Hx Hz. destruct (VV j) as (pt & P & RX); [rewrite <- Np1; apply nth_error_Some; congruence|]. pose proof (Np2 j pt P) as Q. rewrite Hz in Q. injection Q as ->. pose proof (NT2 j pt P) as Q.
      destruct (tp_box _ _ _ _ _ _ TP x _ (in_combine_nth _ _ _ _ _ Hx Q)) as [-> ->]. fold rad. specialize (NB pt RX). apply Rabs_le_between in NB. lra. }
  rewrite <- Gm in EG, Nu1, Nu2, Nv1, Nv2, NTm, Np.
  destruct (T t lg (se_order u) (se_width u) (se_height u) (se_fix u) s nx ny y v theta0 q p) as (J' & EJ' & BJ); try assumption; [rewrite Fm; lra|rewrite <- Em, Rabs_right by lra; exact HE|]. rewrite Fm, <- Em in BJ.
  destruct (C88_solution_exists lg t _ mc nc qq TPr TQ OK (ex_intro _ _ FEAS)) as [z Mz]. destruct EX as (_ & _ & _ & ET). pose proof (ET (2 * i + 1)%nat t z NF Mz) as MM. cbv zeta in MM. destruct MM as (_ & J & EJ & MIN).
  exists t, J. cbv zeta. split; [exact TP|]. split; [symmetry; exact TB|]. split; [exact EJ|]. pose proof (MIN _ _ FEAS EJ') as LE. apply Rabs_le_between in BJ. split; [lra|]. clear FEAS MIN EJ' BJ LE J' p Np q RQ NB.
  intros q0 R0 N0. rewrite TB in N0. destruct (T t lg (se_order u) (se_width u) (se_height u) (se_fix u) s nx ny y v theta0 q0 (map v_val (ts_theta (fst (therm_solve (sv_therm (se_solver u) (2 * i + 1) t) t))))) as (J' & EJ' & BJ); try assumption; [rewrite Fm; lra|rewrite <- Em, Rabs_right by lra; exact HE|rewrite Gm; exact N0|].
  rewrite Fm, <- Em, EJ in *. injection EJ' as <-. apply Rabs_le_between in BJ. lra.
Qed.
(** In a simulation without regularization and with an exact solver the temperatures of every recorded step nearly minimize the
    continuous functional of the thermal step: conduction minus heat produced, exchange with the surroundings and storage, as computed,
    are at most those of any regular temperature within the search radius, up to an error proportional to the mesh width. *)
Theorem C118_near_minimal : forall w h k d, 0 <= k -> 0 < d -> exists C, forall u lg sm i a b nx ny y v theta0 q ext,
  let s := p_scale (se_params u) in let fps := p_fps (se_params u) in let rad := p_search_radius (se_params u) in
  undisturbed u sm -> exact lg (se_solver u) -> midpoint_rule lg -> LiveSpec.fine_enough u -> p_regularization (se_params u) = None -> 0 < fps ->
  se_width u = w -> se_height u = h -> INR nx * s = w -> INR ny * s = h -> (1 <= nx)%nat -> (1 <= ny)%nat -> s <= Rmin 1 d / (12 * (k + 1) ^ 2) ->
  nth_error (s_steps sm) i = Some a -> nth_error (s_steps sm) (S i) = Some b ->
  positions_of (s_grid sm) y (st_y_data a) -> positions_of (s_grid sm) v (st_y_data b) -> nodal (s_grid sm) theta0 (nd_data (st_theta_data a)) ->
  regular_motion (rectangle w h) k y -> regular_motion (rectangle w h) k v ->
  (forall x, rectangle w h x -> d <= det2 (gradient_of y x)) -> (forall x, rectangle w h x -> d <= det2 (gradient_of v x)) ->
  lipschitz_on (rectangle w h) k theta0 -> between_on (rectangle w h) k theta0 -> regular_heat (rectangle w h) k q ->
  (forall x, rectangle w h x -> Rabs (temp q x - theta0 x) <= rad) -> se_external u (INR i / fps) = Ok ext -> ext <= k ->
  exists t J, let t' := fst (therm_solve (sv_therm (se_solver u) (2 * i + 1) t) t) in
    therm_problem_from u sm a (st_y_data b) (INR i / fps) t /\ therm_theta t' = st_theta_data b /\
    therm_objective lg t (map v_val (ts_theta t')) = Ok J /\
    J <= heat_functional w h fps ext y v theta0 q + C * (1 + fps) ^ 2 * s.
Proof.
  intros w h k d Hk Hd. destruct (near2 w h k d Hk Hd) as [C T]. exists C. intros u lg sm i a b nx ny y v theta0 q ext s fps rad H EX LG FE Preg FP Ew Eh Nw Nh Hnx Hny Hss Ha Hb AR AV NT RY RV DY DV L0 B0 RQ NB EE HE.
  destruct (T u lg sm i a b nx ny y v theta0 q ext H EX LG FE Preg FP Ew Eh Nw Nh Hnx Hny Hss Ha Hb AR AV NT RY RV DY DV L0 B0 RQ NB EE HE) as (t & J & A1 & A2 & A3 & A4 & _). exists t, J. cbv zeta. auto.
Qed.
Print Assumptions C118_near_minimal.
(** If the recorded temperatures of the new step are values of a regular temperature, that temperature nearly minimizes the continuous
    functional. *)
Theorem C118_recorded : forall w h k d, 0 <= k -> 0 < d -> exists C, forall u lg sm i a b nx ny y v theta0 q0 q ext,
  let s := p_scale (se_params u) in let fps := p_fps (se_params u) in let rad := p_search_radius (se_params u) in
  undisturbed u sm -> exact lg (se_solver u) -> midpoint_rule lg -> LiveSpec.fine_enough u -> p_regularization (se_params u) = None -> 0 < fps ->
  se_width u = w -> se_height u = h -> INR nx * s = w -> INR ny * s = h -> (1 <= nx)%nat -> (1 <= ny)%nat -> s <= Rmin 1 d / (12 * (k + 1) ^ 2) ->
  nth_error (s_steps sm) i = Some a -> nth_error (s_steps sm) (S i) = Some b ->
  positions_of (s_grid sm) y (st_y_data a) -> positions_of (s_grid sm) v (st_y_data b) -> nodal (s_grid sm) theta0 (nd_data (st_theta_data a)) -> nodal (s_grid sm) (temp q0) (nd_data (st_theta_data b)) ->
  regular_motion (rectangle w h) k y -> regular_motion (rectangle w h) k v ->
  (forall x, rectangle w h x -> d <= det2 (gradient_of y x)) -> (forall x, rectangle w h x -> d <= det2 (gradient_of v x)) ->
  lipschitz_on (rectangle w h) k theta0 -> between_on (rectangle w h) k theta0 -> regular_heat (rectangle w h) k q0 -> regular_heat (rectangle w h) k q ->
  (forall x, rectangle w h x -> Rabs (temp q x - theta0 x) <= rad) -> se_external u (INR i / fps) = Ok ext -> ext <= k ->
  heat_functional w h fps ext y v theta0 q0 <= heat_functional w h fps ext y v theta0 q + C * (1 + fps) ^ 2 * s.
Proof.
  intros w h k d Hk Hd. destruct (near2 w h k d Hk Hd) as [C T]. exists (2 * C). intros u lg sm i a b nx ny y v theta0 q0 q ext s fps rad H EX LG FE Preg FP Ew Eh Nw Nh Hnx Hny Hss Ha Hb AR AV NT N0 RY RV DY DV L0 B0 R0 RQ NB EE HE.
  destruct (T u lg sm i a b nx ny y v theta0 q ext H EX LG FE Preg FP Ew Eh Nw Nh Hnx Hny Hss Ha Hb AR AV NT RY RV DY DV L0 B0 RQ NB EE HE) as (t & J & _ & _ & _ & A4 & A5). specialize (A5 q0 R0 N0). fold s fps in A4, A5. lra.
Qed.
Print Assumptions C118_recorded.
