(** * Near-minimality of the recorded temperatures with regularization: C119. *)
From Coq Require Import Reals Lra Lia List Psatz String ZArith.
From Coquelicot Require Import Coquelicot.
From Verif.Spec Require Import GridSpec QuadSpec BellSpec InterpSpec RefineSpec PotentialSpec.
From Verif.Model Require Import Py Num Tensors Domain Refine Quadrature Integrators Bell Interp Helpers Steps Simulation.
From Verif.Spec Require Import ConvSpec TaylorSpec ConsistSpec ConsistRSpec NearSpec SimSpec LiveSpec StepSpec EnergySpec MotionSpec ThermSpec TractionSpec MechSpec IdealSpec WorkSpec Near1Spec HeatLimitSpec HeatLimitRSpec.
From Verif.Proofs Require Import Lib GridP RectMesh GridCover StepP StepU StepF StepG StepH StepE StepC SimP SimQ SimR SimH SimC SimL SimA InterpP HatP MechV MechP ConvP ConvQ ThermP ThermQ SideP ConsistP.
From Verif.Props Require Import GridProps RefineProps SimProps EnergyProps AffineProps ThermProps ExistProps TractionProps ConsistProps ConsistExamples ConsistRProps ConsistRExamples MechExistProps IdealProps NearProps HeatLimitProps HeatLimitRProps Near2Props.
Local Open Scope R_scope.
Import ListNotations.
Local Notation length := List.length.

Lemma near3 :
  forall w h k d, 0 <= k -> 0 < d -> exists C, forall u lg sm i a b r reg K nx ny y1 y2 v1 v2 theta0 q,
  let s := p_scale (se_params u) in let fps := p_fps (se_params u) in let rad := p_search_radius (se_params u) in
  undisturbed u sm -> exact lg (se_solver u) -> LiveSpec.fine_enough u -> p_regularization (se_params u) = Some reg -> p_refinement_factor (se_params u) = Some K -> s_refined sm = Some r -> 0 < fps ->
  se_width u = w -> se_height u = h -> INR nx * s = w -> INR ny * s = h -> (1 <= nx)%nat -> (1 <= ny)%nat -> s <= Rmin 1 d / (960 * (k + 1) ^ 2) ->
  nth_error (s_steps sm) i = Some a -> nth_error (s_steps sm) (S i) = Some b ->
  array_of (s_grid sm) y1 y2 (st_y_data a) -> array_of (s_grid sm) v1 v2 (st_y_data b) -> nodal (r_grid r) theta0 (nd_data (st_theta_data a)) ->
  smooth_field (rectangle w h) k y1 -> smooth_field (rectangle w h) k y2 -> smooth_field (rectangle w h) k v1 -> smooth_field (rectangle w h) k v2 ->
  (forall x, rectangle w h x -> d <= det2 (gradient_of (motion_of y1 y2) x)) -> (forall x, rectangle w h x -> d <= det2 (gradient_of (motion_of v1 v2) x)) ->
  lipschitz_on (rectangle w h) k theta0 -> between_on (rectangle w h) k theta0 -> regular_heat (rectangle w h) k q ->
  (forall x, rectangle w h x -> Rabs (temp q x - theta0 x) <= rad) ->
  let HE := heat_energy w h fps (motion_of y1 y2) (motion_of v1 v2) theta0 q in let HS := heat_storage w h (motion_of y1 y2) (motion_of v1 v2) theta0 q in
  exists t J, let t' := fst (therm_solve (sv_therm (se_solver u) (2 * i + 1) t) t) in
    therm_problem_from u sm a (st_y_data b) (INR i / fps) t /\ therm_theta t' = st_theta_data b /\
    therm_objective lg t (map v_val (ts_theta t')) = Ok J /\
    J <= HE + fps * HS + C * (1 + fps) ^ 2 * (s ^ 4 + s / IZR K) + 1 / 10 ^ 14 * (Rabs HE + fps * Rabs HS) /\
    forall q0, regular_heat (rectangle w h) k q0 -> nodal (r_grid r) (temp q0) (nd_data (st_theta_data b)) ->
    let HE0 := heat_energy w h fps (motion_of y1 y2) (motion_of v1 v2) theta0 q0 in let HS0 := heat_storage w h (motion_of y1 y2) (motion_of v1 v2) theta0 q0 in
    HE0 + fps * HS0 <= J + C * (1 + fps) ^ 2 * (s ^ 4 + s / IZR K) + 1 / 10 ^ 14 * (Rabs HE0 + fps * Rabs HS0).
Proof.
  intros w h k d Hk Hd. destruct (C117_thermal_objective w h k d Hk Hd) as [C T]. exists C. intros u lg sm i a b r reg K nx ny y1 y2 v1 v2 theta0 q s fps rad H EX FE Preg PK Hr FP Ew Eh Nw Nh Hnx Hny Hss Ha Hb AR AV NT RY1 RY2 RV1 RV2 DY DV L0 B0 RQ NB HE HS.
  pose proof (undisturbed_reachable u sm H) as HR. destruct (C57_grid_of_the_domain u sm HR) as (EG & _ & _ & RR). destruct (RR r Hr) as (K' & PK' & RF). rewrite PK in PK'. injection PK' as <-. clear RR.
  destruct (undisturbed_chain u sm H) as (g0 & rg0 & ps0 & G & _). pose proof (params_ok u (gr_valid _ _ _ _ G)) as (_ & P2 & P3 & P4 & P5). clear G g0 rg0 ps0. rewrite Preg, PK in P5. destruct P5 as (R0 & K' & PK' & KP). injection PK' as <-.
  fold s in P4, EG. fold fps in P3. fold rad in P2. assert (Fw : fits (se_width u) s nx) by (rewrite Ew, <- Nw; split; [lra|rewrite plus_INR; cbn [INR]; lra]). assert (Fh : fits (se_height u) s ny) by (rewrite Eh, <- Nh; split; [lra|rewrite plus_INR; cbn [INR]; lra]).
  assert (Hw1 : s <= se_width u) by (rewrite Ew, <- Nw; apply le_INR in Hnx; cbn [INR] in Hnx; nra). assert (Hh1 : s <= se_height u) by (rewrite Eh, <- Nh; apply le_INR in Hny; cbn [INR] in Hny; nra).
  assert (HL : p_regularization (se_params u) = None -> midpoint_rule lg) by (rewrite Preg; discriminate).
  destruct (exact_steps u lg HL EX FE Hw1 Hh1 sm HR) as [AA _]. destruct (sim_thermal_from u lg HL FE Hw1 Hh1 FP sm i a b AA H Ha Hb) as (t & mc & nc & qq & TP & TB & TPr & TQ & OK & NN & NF).
  destruct (tp_grid _ _ _ _ _ _ TP) as [Gm Rm]. rewrite Hr in Rm. destruct (tp_constants _ _ _ _ _ _ TP) as [_ Fm]. fold fps in Fm.
  destruct (proj1 TPr) as (Z1 & Z2 & Z3 & Z4 & Z5 & Z6). rewrite Rm in Z1, Z2, Z3, Z4, Z5, Z6. cbn [dofs] in Z1, Z2, Z3, Z4. cbn [theta_grid] in Z5, Z6. rewrite Gm in Z1, Z2, Z3, Z4.
  set (g := s_grid sm) in *. pose proof (proj1 (C27_rectangle_grid_is_mesh _ _ _ _ _ _ _ _ P4 Fw Fh EG Hnx Hny)) as M. pose proof (eq_sym (mesh_length _ _ _ _ M)) as LP.
  assert (YA : y_array g (Some r) (ts_prev_y1 t) (ts_prev_y2 t) = st_y_data a) by (rewrite <- (tp_prev_y _ _ _ _ _ _ TP); unfold therm_prev_y; rewrite Gm, Rm; reflexivity).
  assert (VA : y_array g (Some r) (ts_y1 t) (ts_y2 t) = st_y_data b) by (rewrite <- (tp_y _ _ _ _ _ _ TP); unfold therm_y; rewrite Gm, Rm; reflexivity).
  destruct (array_nodal g r y1 y2 _ _ _ LP Z1 Z2 YA AR) as [Nu1 Nu2]. destruct (array_nodal g r v1 v2 _ _ _ LP Z3 Z4 VA AV) as [Nv1 Nv2].
  assert (NTm : nodal (r_grid r) theta0 (ts_prev_theta t)) by (rewrite <- (tp_prev_theta _ _ _ _ _ _ TP) in NT; exact NT).
  assert (EK : INR (Z.to_nat K) = IZR K) by (rewrite INR_IZR_INZ, Z2Nat.id by lia; reflexivity). assert (K1 : 1 <= IZR K) by (apply (IZR_le 1 K); lia).
  assert (FS : / 10 ^ 15 <= s / INR (Z.to_nat K)). { unfold LiveSpec.fine_enough in FE. rewrite Preg, PK in FE. destruct FE as (_ & _ & F). fold s in F. rewrite EK. apply (Rle_trans _ _ _ F). apply Rmult_le_compat_l; [lra|]. apply Rinv_le_contravar; lra. }
  assert (RF' : refine g (Z.of_nat (Z.to_nat K)) = Ok r) by (rewrite Z2Nat.id by lia; exact RF).
  assert (RG : regularized_heat t r s nx ny (Z.to_nat K)).
  { split; [exact Rm|]. rewrite Gm. split; [|split; [lia|split; [exact FS|exact RF']]]. split; [exact P4|]. split; [exact Hnx|]. split; [exact Hny|]. split; [exists (se_order u), (se_width u), (se_height u), (se_fix u); auto|]. exists (Z.to_nat K). split; [lia|]. split; [exact FS|exact RF']. }
  destruct (rheat_parts t r s nx ny (Z.to_nat K) RG) as (_ & _ & _ & _ & _ & _ & _ & M' & Hs' & EA & EB & _). set (s' := s / INR (Z.to_nat K)) in *.
  destruct (nodal_exists (r_grid r) s' _ _ (temp q) M') as [p Np]. pose proof (eq_sym (mesh_length _ _ _ _ M')) as LP'.
  assert (VV : forall j, (j < length (g_vertices (r_grid r)))%nat -> exists x, point_at (r_grid r) j x /\ rectangle w h x).
  { intros j Hj. assert (Ij : In j (g_vertices (r_grid r))) by (rewrite (mesh_numbers _ _ _ _ M'); apply in_seq; rewrite <- LP' in Hj; lia). destruct (mesh_inside _ _ _ _ M' j Ij) as (c & e & C1 & C2 & _ & P). exists (INR c * s', INR e * s'). split; [exact P|]. pose proof (pos_INR c). pose proof (pos_INR e). apply le_INR in C1, C2. split; cbn [fst snd]; [rewrite <- Nw, <- EA|rewrite <- Nh, <- EB]; split; nra. }
  assert (FEAS : feasible t p).
  { destruct NTm as [NT1 NT2]. destruct Np as [Np1 Np2]. split; [rewrite Z6; exact Np1|]. split.
    - intros z Iz. apply In_nth_error in Iz as [j Hj]. destruct (VV j) as (x & P & RX); [rewrite <- Np1; apply nth_error_Some; congruence|]. pose proof (Np2 j x P) as Q. rewrite Hj in Q. injection Q as ->. apply (proj2 RQ x RX).
    - intros j x z Hx Hz. destruct (VV j) as (pt & P & RX); [rewrite <- Np1; apply nth_error_Some; congruence|]. pose proof (Np2 j pt P) as Q. rewrite Hz in Q. injection Q as ->. pose proof (NT2 j pt P) as Q.
      destruct (tp_box _ _ _ _ _ _ TP x _ (in_combine_nth _ _ _ _ _ Hx Q)) as [-> ->]. fold rad. specialize (NB pt RX). apply Rabs_le_between in NB. lra. }
  rewrite <- Gm in Nu1, Nu2, Nv1, Nv2.
  destruct (T t lg r s nx ny (Z.to_nat K) y1 y2 v1 v2 theta0 q p) as (J' & EJ' & BJ); try assumption; [rewrite Fm; lra|]. cbv zeta in BJ. rewrite Fm in BJ. fold s' in BJ. fold HE HS in BJ. replace s' with (s / IZR K) in BJ by (unfold s'; rewrite EK; reflexivity).
  destruct (C88_solution_exists lg t _ mc nc qq TPr TQ OK (ex_intro _ _ FEAS)) as [z Mz]. destruct EX as (_ & _ & _ & ET). pose proof (ET (2 * i + 1)%nat t z NF Mz) as MM. cbv zeta in MM. destruct MM as (_ & J & EJ & MIN).
  exists t, J. cbv zeta. split; [exact TP|]. split; [symmetry; exact TB|]. split; [exact EJ|]. pose proof (MIN _ _ FEAS EJ') as LE. apply Rabs_le_between in BJ. fold fps s HE HS. split; [lra|]. clear FEAS MIN EJ' BJ LE J' p Np HE HS q RQ NB.
  intros q0 Q0 N0. rewrite TB in N0. destruct (T t lg r s nx ny (Z.to_nat K) y1 y2 v1 v2 theta0 q0 (map v_val (ts_theta (fst (therm_solve (sv_therm (se_solver u) (2 * i + 1) t) t))))) as (J' & EJ' & BJ); try assumption; [rewrite Fm; lra|].
  cbv zeta in BJ. rewrite Fm in BJ. fold s' in BJ. replace s' with (s / IZR K) in BJ by (unfold s'; rewrite EK; reflexivity). assert (Q : Ok J = Ok J') by exact (eq_trans (eq_sym EJ) EJ'). injection Q as <-. apply Rabs_le_between in BJ. fold fps. lra.
Qed.
(** In a regularized simulation with an exact solver the temperatures of every recorded step nearly minimize the continuous functional
    of the regularized thermal step (the body is insulated): conduction minus heat produced and storage, as computed, are at most those
    of any regular temperature within the search radius, up to an error that vanishes with the mesh widths. *)
Theorem C119_near_minimal :
  forall w h k d, 0 <= k -> 0 < d -> exists C, forall u lg sm i a b r reg K nx ny y1 y2 v1 v2 theta0 q,
  let s := p_scale (se_params u) in let fps := p_fps (se_params u) in let rad := p_search_radius (se_params u) in
  undisturbed u sm -> exact lg (se_solver u) -> LiveSpec.fine_enough u -> p_regularization (se_params u) = Some reg -> p_refinement_factor (se_params u) = Some K -> s_refined sm = Some r -> 0 < fps ->
  se_width u = w -> se_height u = h -> INR nx * s = w -> INR ny * s = h -> (1 <= nx)%nat -> (1 <= ny)%nat -> s <= Rmin 1 d / (960 * (k + 1) ^ 2) ->
  nth_error (s_steps sm) i = Some a -> nth_error (s_steps sm) (S i) = Some b ->
  array_of (s_grid sm) y1 y2 (st_y_data a) -> array_of (s_grid sm) v1 v2 (st_y_data b) -> nodal (r_grid r) theta0 (nd_data (st_theta_data a)) ->
  smooth_field (rectangle w h) k y1 -> smooth_field (rectangle w h) k y2 -> smooth_field (rectangle w h) k v1 -> smooth_field (rectangle w h) k v2 ->
  (forall x, rectangle w h x -> d <= det2 (gradient_of (motion_of y1 y2) x)) -> (forall x, rectangle w h x -> d <= det2 (gradient_of (motion_of v1 v2) x)) ->
  lipschitz_on (rectangle w h) k theta0 -> between_on (rectangle w h) k theta0 -> regular_heat (rectangle w h) k q ->
  (forall x, rectangle w h x -> Rabs (temp q x - theta0 x) <= rad) ->
  let HE := heat_energy w h fps (motion_of y1 y2) (motion_of v1 v2) theta0 q in let HS := heat_storage w h (motion_of y1 y2) (motion_of v1 v2) theta0 q in
  exists t J, let t' := fst (therm_solve (sv_therm (se_solver u) (2 * i + 1) t) t) in
    therm_problem_from u sm a (st_y_data b) (INR i / fps) t /\ therm_theta t' = st_theta_data b /\
    therm_objective lg t (map v_val (ts_theta t')) = Ok J /\
    J <= HE + fps * HS + C * (1 + fps) ^ 2 * (s ^ 4 + s / IZR K) + 1 / 10 ^ 14 * (Rabs HE + fps * Rabs HS).
Proof.
  intros w h k d Hk Hd. destruct (near3 w h k d Hk Hd) as [C T]. exists C. intros u lg sm i a b r reg K nx ny y1 y2 v1 v2 theta0 q s fps rad H EX FE Preg PK Hr FP Ew Eh Nw Nh Hnx Hny Hss Ha Hb AR AV NT RY1 RY2 RV1 RV2 DY DV L0 B0 RQ NB HE HS.
  destruct (T u lg sm i a b r reg K nx ny y1 y2 v1 v2 theta0 q H EX FE Preg PK Hr FP Ew Eh Nw Nh Hnx Hny Hss Ha Hb AR AV NT RY1 RY2 RV1 RV2 DY DV L0 B0 RQ NB) as (t & J & A1 & A2 & A3 & A4 & _). exists t, J. cbv zeta. auto.
Qed.
Print Assumptions C119_near_minimal.
(** If the recorded temperatures of the new step are values of a regular temperature, that temperature nearly minimizes the continuous
    functional. *)
Theorem C119_recorded :
  forall w h k d, 0 <= k -> 0 < d -> exists C, forall u lg sm i a b r reg K nx ny y1 y2 v1 v2 theta0 q0 q,
  let s := p_scale (se_params u) in let fps := p_fps (se_params u) in let rad := p_search_radius (se_params u) in
  undisturbed u sm -> exact lg (se_solver u) -> LiveSpec.fine_enough u -> p_regularization (se_params u) = Some reg -> p_refinement_factor (se_params u) = Some K -> s_refined sm = Some r -> 0 < fps ->
  se_width u = w -> se_height u = h -> INR nx * s = w -> INR ny * s = h -> (1 <= nx)%nat -> (1 <= ny)%nat -> s <= Rmin 1 d / (960 * (k + 1) ^ 2) ->
  nth_error (s_steps sm) i = Some a -> nth_error (s_steps sm) (S i) = Some b ->
  array_of (s_grid sm) y1 y2 (st_y_data a) -> array_of (s_grid sm) v1 v2 (st_y_data b) -> nodal (r_grid r) theta0 (nd_data (st_theta_data a)) -> nodal (r_grid r) (temp q0) (nd_data (st_theta_data b)) ->
  smooth_field (rectangle w h) k y1 -> smooth_field (rectangle w h) k y2 -> smooth_field (rectangle w h) k v1 -> smooth_field (rectangle w h) k v2 ->
  (forall x, rectangle w h x -> d <= det2 (gradient_of (motion_of y1 y2) x)) -> (forall x, rectangle w h x -> d <= det2 (gradient_of (motion_of v1 v2) x)) ->
  lipschitz_on (rectangle w h) k theta0 -> between_on (rectangle w h) k theta0 -> regular_heat (rectangle w h) k q0 -> regular_heat (rectangle w h) k q ->
  (forall x, rectangle w h x -> Rabs (temp q x - theta0 x) <= rad) ->
  let HE0 := heat_energy w h fps (motion_of y1 y2) (motion_of v1 v2) theta0 q0 in let HS0 := heat_storage w h (motion_of y1 y2) (motion_of v1 v2) theta0 q0 in
  let HE := heat_energy w h fps (motion_of y1 y2) (motion_of v1 v2) theta0 q in let HS := heat_storage w h (motion_of y1 y2) (motion_of v1 v2) theta0 q in
  HE0 + fps * HS0 <= HE + fps * HS + C * (1 + fps) ^ 2 * (s ^ 4 + s / IZR K) + 1 / 10 ^ 14 * (Rabs HE0 + fps * Rabs HS0 + Rabs HE + fps * Rabs HS).
Proof.
  intros w h k d Hk Hd. destruct (near3 w h k d Hk Hd) as [C T]. exists (2 * C). intros u lg sm i a b r reg K nx ny y1 y2 v1 v2 theta0 q0 q s fps rad H EX FE Preg PK Hr FP Ew Eh Nw Nh Hnx Hny Hss Ha Hb AR AV NT N0 RY1 RY2 RV1 RV2 DY DV L0 B0 R0 RQ NB HE0 HS0 HE HS.
  destruct (T u lg sm i a b r reg K nx ny y1 y2 v1 v2 theta0 q H EX FE Preg PK Hr FP Ew Eh Nw Nh Hnx Hny Hss Ha Hb AR AV NT RY1 RY2 RV1 RV2 DY DV L0 B0 RQ NB) as (t & J & _ & _ & _ & A4 & A5). specialize (A5 q0 R0 N0). cbv zeta in A4, A5. fold s fps HE HS HE0 HS0 in A4, A5. lra.
Qed.
Print Assumptions C119_recorded.
