(** * Near-minimality of the recorded steps without regularization: C115. *)
From Coq Require Import Reals Lra Lia List Psatz String ZArith.
From Coquelicot Require Import Coquelicot.
From Verif.Spec Require Import GridSpec QuadSpec InterpSpec RefineSpec PotentialSpec.
From Verif.Model Require Import Py Num Tensors Domain Refine Quadrature Integrators Bell Interp Helpers Steps Simulation.
From Verif.Spec Require Import ConvSpec ConsistSpec NearSpec SimSpec LiveSpec StepSpec EnergySpec MotionSpec ThermSpec TractionSpec MechSpec IdealSpec WorkSpec Near1Spec.
From Verif.Proofs Require Import Lib GridP RectMesh GridCover StepP StepU StepF StepG StepH StepE StepC SimP SimQ SimR SimH SimC SimL SimA InterpP HatP MechV MechP ConvP ConvQ ThermQ SideP ConsistP.
From Verif.Props Require Import GridProps RefineProps SimProps EnergyProps AffineProps TractionProps ConsistProps ConsistExamples MechExistProps IdealProps NearProps WorkProps.
Local Open Scope R_scope.
Import ListNotations.
Local Notation length := List.length.

Lemma dget_in (d : dict nat R) v x : dget Nat.eqb v d = Ok x -> In v (map fst d).
Proof.
  unfold dget. induction d as [|[k y] d IH]; [discriminate|]. cbn [dfind map fst]. destruct (Nat.eqb v k) eqn:E; [intros _; left; symmetry; apply Nat.eqb_eq, E|]. intros H. right. exact (IH H).
Qed.
Lemma positions_nodal g (u : motion) arr y1 y2 : length (g_points g) = length (g_vertices g) -> length y1 = num_vertices g -> length y2 = num_vertices g -> y_array g None y1 y2 = arr -> positions_of g u arr -> nodal g (m1 u) y1 /\ nodal g (m2 u) y2.
Proof.
  intros LP L1 L2 <- A. assert (HV : forall v x, point_at g v x -> (v < num_vertices g)%nat) by (intros v x P; unfold num_vertices; rewrite <- LP; apply nth_error_Some; unfold point_at in P; rewrite P; discriminate).
  split; (split; [rewrite ?L1, ?L2; reflexivity|]); intros v x P; destruct (A v x P) as [A1 A2]; pose proof (HV v x P) as Hv.
  - rewrite (y_at_array g None y1 y2 v 0 0) in A1 by (cbn [dofs]; lia). cbn [Nat.eqb dofs] in A1. rewrite Nat.mul_1_r, Nat.add_0_r in A1. exact A1.
  - rewrite (y_at_array g None y1 y2 v 1 0) in A2 by (cbn [dofs]; lia). cbn [Nat.eqb dofs] in A2. rewrite Nat.mul_1_r, Nat.add_0_r in A2. exact A2.
Qed.
Lemma competitor1_admitted g (xs : list pvar) (prev p : list R) (u v : R * R -> R) w h rad (fixed : nat -> Prop) : length xs = length prev -> map v_val xs = prev -> nodal g u prev -> nodal g v p ->
  (forall i, (i < length (g_vertices g))%nat -> exists x, point_at g i x /\ rectangle w h x) -> (forall i x y, nth_error xs i = Some x -> nth_error prev i = Some y -> v_lb x = y - rad /\ v_ub x = y + rad) ->
  (forall i x, nth_error xs i = Some x -> v_fixed x = true -> fixed i) -> (forall q x, fixed q -> point_at g q x -> v x = u x) -> (forall x, rectangle w h x -> Rabs (v x - u x) <= rad) -> Forall2 admits xs p.
Proof.
  intros LX VX [LU NU] [LV NV] HV BX FX EQ WR. apply admits_list; [congruence|]. intros i x z Hx Hz. assert (Hi : (i < length (g_vertices g))%nat) by (rewrite <- LV; apply nth_error_Some; congruence).
  destruct (HV i Hi) as (pt & P & RP). pose proof (NU _ _ P) as U. pose proof (NV _ _ P) as V. assert (z = v pt) as -> by congruence. destruct (BX i x _ Hx U) as [B1 B2]. specialize (WR pt RP). unfold admits. destruct (v_fixed x) eqn:F.
  - rewrite (EQ i pt (FX i x Hx F) P). assert (Q : nth_error (map v_val xs) i = Some (v_val x)) by (rewrite nth_error_map, Hx; reflexivity). rewrite VX, U in Q. injection Q as ->. reflexivity.
  - rewrite B1, B2. apply Rabs_le_between in WR. lra.
Qed.

Lemma near1 : forall w h k d, 0 <= k -> 0 < d -> exists C, forall u lg sm i a b nx ny t1 t2 y v theta,
  let s := p_scale (se_params u) in let fps := p_fps (se_params u) in let rad := p_search_radius (se_params u) in
  undisturbed u sm -> exact lg (se_solver u) -> midpoint_rule lg -> LiveSpec.fine_enough u -> p_regularization (se_params u) = None ->
  se_width u = w -> se_height u = h -> INR nx * s = w -> INR ny * s = h -> (1 <= nx)%nat -> (1 <= ny)%nat -> s <= Rmin 1 d / (12 * (k + 1) ^ 2) ->
  nth_error (s_steps sm) i = Some a -> nth_error (s_steps sm) (S i) = Some b ->
  positions_of (s_grid sm) y (st_y_data a) -> nodal (s_grid sm) theta (nd_data (st_theta_data a)) -> pulls w h u (INR i / fps) t1 t2 ->
  lipschitz_on (rectangle w h) k t1 -> lipschitz_on (rectangle w h) k t2 -> bounded_on (rectangle w h) k t1 -> bounded_on (rectangle w h) k t2 ->
  regular_motion (rectangle w h) k y -> regular_motion (rectangle w h) k v -> regular_temperature (rectangle w h) k theta ->
  bounded_on (rectangle w h) k (m1 v) -> bounded_on (rectangle w h) k (m2 v) -> (forall x, rectangle w h x -> d <= det2 (gradient_of v x)) ->
  held w h (se_fix u) v -> nearby w h rad y v ->
  exists m J, let m' := fst (mech_solve (sv_mech (se_solver u) (2 * i) m) m) in
    mech_problem_from u sm a (INR i / fps) m /\ mech_y m' = st_y_data b /\
    mech_objective lg m (map v_val (ms_y1 m')) (map v_val (ms_y2 m')) = Ok J /\
    J <= elastic_energy w h v theta - boundary_work w h (se_fix u) t1 t2 (m1 v) (m2 v) + fps * dissipated w h y v + C * (1 + fps) * s /\
    forall v0, regular_motion (rectangle w h) k v0 -> bounded_on (rectangle w h) k (m1 v0) -> bounded_on (rectangle w h) k (m2 v0) -> (forall x, rectangle w h x -> d <= det2 (gradient_of v0 x)) -> positions_of (s_grid sm) v0 (st_y_data b) ->
    elastic_energy w h v0 theta - boundary_work w h (se_fix u) t1 t2 (m1 v0) (m2 v0) + fps * dissipated w h y v0 <= J + C * (1 + fps) * s.
Proof.
  intros w h k d Hk Hd. destruct (objective_near w h k d Hk Hd) as [C T]. exists C. intros u lg sm i a b nx ny t1 t2 y v theta s fps rad H EX LG FE Preg Ew Eh Nw Nh Hnx Hny Hss Ha Hb AR NT PU Lt1 Lt2 Bt1 Bt2 RY RV RT Bv1 Bv2 HD CL NB.
  pose proof (undisturbed_reachable u sm H) as HR. destruct (C57_grid_of_the_domain u sm HR) as (EG & _ & ER & _). pose proof (proj2 ER Preg) as Hr. clear ER.
  destruct (undisturbed_chain u sm H) as (g0 & rg0 & ps0 & G & _). pose proof (params_ok u (gr_valid _ _ _ _ G)) as (_ & P2 & P3 & P4 & _). clear G g0 rg0 ps0.
  fold s in P4, EG. fold fps in P3. fold rad in P2. assert (Fw : fits (se_width u) s nx) by (rewrite Ew, <- Nw; split; [lra|rewrite plus_INR; cbn [INR]; lra]). assert (Fh : fits (se_height u) s ny) by (rewrite Eh, <- Nh; split; [lra|rewrite plus_INR; cbn [INR]; lra]).
  assert (Hw1 : s <= se_width u) by (rewrite Ew, <- Nw; apply le_INR in Hnx; cbn [INR] in Hnx; nra). assert (Hh1 : s <= se_height u) by (rewrite Eh, <- Nh; apply le_INR in Hny; cbn [INR] in Hny; nra).
  assert (HL : p_regularization (se_params u) = None -> midpoint_rule lg) by (intros _; exact LG).
  destruct (exact_steps u lg HL EX FE Hw1 Hh1 sm HR) as [AA AC]. destruct (sim_mechanical u lg HL FE Hw1 Hh1 sm i a b AA AC H Ha Hb) as (m & mc & nc & J0 & MP & MY & PG & MS & ML & L1 & L2 & MF & MO).
  pose proof (proj1 MS) as Len. destruct (mp_grid _ _ _ _ _ MP) as [Gm Rm]. rewrite Hr in Rm. destruct (mp_constants _ _ _ _ _ MP) as (_ & Fm & _). destruct (proj2 MS Rm) as [K1 K2].
  set (g := s_grid sm) in *. pose proof (proj1 (C27_rectangle_grid_is_mesh _ _ _ _ _ _ _ _ P4 Fw Fh EG Hnx Hny)) as M. pose proof (eq_sym (mesh_length _ _ _ _ M)) as LP.
  destruct Len as [Lp1 Lp2 Ly1 Ly2 Lth]. rewrite Gm, Rm in Lp1, Lp2, Ly1, Ly2, Lth. cbn [dofs] in Lp1, Lp2, Ly1, Ly2. rewrite Nat.mul_1_r in Lp1, Lp2, Ly1, Ly2.
  assert (YA : y_array g None (ms_prev_y1 m) (ms_prev_y2 m) = st_y_data a) by (rewrite <- (mp_prev_y _ _ _ _ _ MP); unfold mech_prev_y; rewrite Gm, Rm; reflexivity).
  destruct (positions_nodal g y _ _ _ LP Lp1 Lp2 YA AR) as [Nu1 Nu2]. assert (NTm : nodal g theta (ms_prev_theta m)) by (rewrite <- (mp_prev_theta _ _ _ _ _ MP) in NT; exact NT).
  destruct (nodal_exists g s nx ny (m1 v) M) as [p1 Nv1]. destruct (nodal_exists g s nx ny (m2 v) M) as [p2 Nv2].
  assert (VV : forall j, (j < length (g_vertices g))%nat -> exists x, point_at g j x /\ rectangle w h x).
  { intros j Hj. assert (Ij : In j (g_vertices g)) by (rewrite (mesh_numbers _ _ _ _ M); apply in_seq; rewrite <- LP in Hj; lia). destruct (mesh_inside _ _ _ _ M j Ij) as (c & e & C1 & C2 & _ & P). exists (INR c * s, INR e * s). split; [exact P|]. pose proof (pos_INR c). pose proof (pos_INR e). apply le_INR in C1, C2. split; cbn [fst snd]; [rewrite <- Nw|rewrite <- Nh]; split; nra. }
  assert (VR : forall j x, point_at g j x -> rectangle w h x).
  { intros j x P. destruct (VV j) as (x' & P' & RX); [rewrite <- LP; apply nth_error_Some; unfold point_at in P; rewrite P; discriminate|]. replace x with x'; [exact RX|]. unfold point_at in P, P'. rewrite P in P'. injection P' as X1 X2. destruct x, x'; cbn in *; congruence. }
  assert (TV : holds_values g t1 (ms_g1 m) /\ holds_values g t2 (ms_g2 m)).
  { split; intros j [x1 x2] z Dj P; pose proof (dget_in _ _ _ Dj) as Ij; rewrite ?K1, ?K2, Gm in Ij; destruct (mp_traction _ _ _ _ _ MP Hr j Ij) as (x' & y' & l & z1 & z2 & Pj & El & E1 & E2 & D1 & D2);
      fold g in Pj; unfold point_at in P; cbn [fst snd] in P; rewrite Pj in P; injection P as -> ->; pose proof (PU (x1, x2) (VR j (x1, x2) Pj)) as Q; cbn [fst snd] in Q; fold fps in El; rewrite Q in El; injection El as <-; cbn [nth_error] in E1, E2; congruence. }
  destruct TV as [TV1 TV2].
  rewrite <- Gm in Nu1, Nu2, Nv1, Nv2, NTm, TV1, TV2, EG.
  destruct (T m lg (se_order u) (se_width u) (se_height u) (se_fix u) s nx ny t1 t2 y v theta p1 p2) as (J' & EJ' & BJ); try assumption; [rewrite Fm; exact P3|]. rewrite Fm in BJ. fold fps in BJ.
  assert (FEAS : mech_feasible m p1 p2).
  { assert (BX : forall xs ps, (xs = ms_y1 m /\ ps = ms_prev_y1 m \/ xs = ms_y2 m /\ ps = ms_prev_y2 m) -> forall j x y, nth_error xs j = Some x -> nth_error ps j = Some y -> v_lb x = y - rad /\ v_ub x = y + rad).
    { assert (CI : forall (xs : list pvar) (ps : list R) j x y, nth_error xs j = Some x -> nth_error ps j = Some y -> In (x, y) (combine xs ps)) by (induction xs as [|z xs IH]; intros [|q ps] [|j] x z' Hx Hy; try discriminate; cbn in *; [left; congruence|right; exact (IH ps j x z' Hx Hy)]).
      assert (CA : forall (xs xs' : list pvar) (ps ps' : list R), length xs = length ps -> combine (xs ++ xs') (ps ++ ps') = combine xs ps ++ combine xs' ps') by (induction xs as [|z xs IH]; intros xs' [|q ps] ps' L; try discriminate; cbn in *; [reflexivity|f_equal; apply IH; lia]).
      intros xs ps Q j x z Hx Hy. apply (mp_box _ _ _ _ _ MP). rewrite CA by congruence. apply in_or_app. destruct Q as [[-> ->]|[-> ->]]; [left|right]; exact (CI _ _ j x z Hx Hy). }
    assert (FX : forall xs, (xs = ms_y1 m \/ xs = ms_y2 m) -> forall j x, nth_error xs j = Some x -> v_fixed x = true -> In j (b_vertices (g_dirichlet g))).
    { intros xs Q j x Hx Fx. destruct (proj1 (mp_fixed _ _ _ _ _ MP j x ltac:(destruct Q as [-> | ->]; auto)) Fx) as (q & Q1 & Q2). rewrite Hr in Q2. cbn [dofs] in Q2. rewrite Nat.mul_1_r in Q2. subst q. exact Q1. }
    assert (DV : forall q x, In q (b_vertices (g_dirichlet g)) -> point_at g q x -> m1 v x = m1 y x /\ m2 v x = m2 y x).
    { intros q x Hq P. destruct (C57_dirichlet_vertices_stay u sm a q (fst x) (snd x) HR (nth_error_In _ _ Ha) Hq P) as [Y1 Y2]. destruct (AR q x P) as [Z1 Z2]. rewrite Y1 in Z1. rewrite Y2 in Z2. injection Z1 as Z1. injection Z2 as Z2. rewrite <- Z1, <- Z2.
      rewrite Gm in EG. apply (proj2 (C17_dirichlet_vertices _ _ _ _ _ _ _ _ P4 Fw Fh EG)) in Hq as (sd & HF & c & e & [Iq Pq] & OS).
      apply (CL sd x HF (VR q x P)). unfold point_at in P. rewrite Pq in P. injection P as X1 X2. destruct sd; cbn in OS |- *; subst; rewrite <- ?X1, <- ?X2; rewrite <- ?Nw, <- ?Nh; cbn; ring. }
    rewrite Gm in Nu1, Nu2, Nv1, Nv2. split; [|split].
    - exact (competitor1_admitted g (ms_y1 m) (ms_prev_y1 m) p1 (m1 y) (m1 v) w h rad (fun q => In q (b_vertices (g_dirichlet g))) ltac:(congruence) L1 Nu1 Nv1 VV (BX _ _ (or_introl (conj eq_refl eq_refl))) (FX _ (or_introl eq_refl)) (fun q x Q P => proj1 (DV q x Q P)) (fun x Hx => proj1 (NB x Hx))).
    - exact (competitor1_admitted g (ms_y2 m) (ms_prev_y2 m) p2 (m2 y) (m2 v) w h rad (fun q => In q (b_vertices (g_dirichlet g))) ltac:(congruence) L2 Nu2 Nv2 VV (BX _ _ (or_intror (conj eq_refl eq_refl))) (FX _ (or_intror eq_refl)) (fun q x Q P => proj2 (DV q x Q P)) (fun x Hx => proj2 (NB x Hx))).
    - rewrite Rm. intros N. exfalso. apply N. reflexivity. }
  destruct (solution_exists lg m _ _ _ _ _ J0 PG MS ML MF MO) as (z1 & z2 & MM). destruct EX as (_ & _ & EM & _). pose proof (EM (2 * i)%nat _ _ _ MM) as MM'. cbv zeta in MM'. destruct MM' as ((FE1 & FE2 & _) & J & EJ & MIN).
  exists m, J. cbv zeta. split; [exact MP|]. split; [symmetry; exact MY|]. split; [exact EJ|]. pose proof (MIN _ _ _ FEAS EJ') as LE. apply Rabs_le_between in BJ. split; [lra|]. clear FEAS MIN EJ' BJ LE J' p1 Nv1 p2 Nv2 RV Bv1 Bv2 HD CL NB.
  intros v0 R0 B1 B2 D0 A0. set (m' := fst (mech_solve (sv_mech (se_solver u) (2 * i) m) m)) in *.
  assert (VA : y_array g None (map v_val (ms_y1 m')) (map v_val (ms_y2 m')) = st_y_data b).
  { assert (Q : y_array (ms_grid m) (ms_refined m) (map v_val (ms_y1 m')) (map v_val (ms_y2 m')) = st_y_data b) by (symmetry; exact MY). rewrite Gm, Rm in Q. exact Q. }
  apply Forall2_len in FE1, FE2. assert (Q1 : length (map v_val (ms_y1 m')) = num_vertices g) by congruence. assert (Q2 : length (map v_val (ms_y2 m')) = num_vertices g) by congruence.
  destruct (positions_nodal g v0 _ _ _ LP Q1 Q2 VA A0) as [Nv1 Nv2]. rewrite <- Gm in Nv1, Nv2.
  destruct (T m lg (se_order u) (se_width u) (se_height u) (se_fix u) s nx ny t1 t2 y v0 theta (map v_val (ms_y1 m')) (map v_val (ms_y2 m'))) as (J' & EJ' & BJ); try assumption; [rewrite Fm; exact P3|]. rewrite Fm in BJ. fold fps in BJ.
  assert (Q : Ok J = Ok J') by exact (eq_trans (eq_sym EJ) EJ'). injection Q as <-. apply Rabs_le_between in BJ. lra.
Qed.
(** In a simulation without regularization and with an exact solver every recorded step nearly minimizes the continuous functional:
    elastic energy minus work of the traction plus dissipation of the new deformation, as computed, are at most those of any regular
    deformation that is the identity on the fixed sides and within the search radius, up to an error proportional to the mesh width. *)
Theorem C115_near_minimal : forall w h k d, 0 <= k -> 0 < d -> exists C, forall u lg sm i a b nx ny t1 t2 y v theta,
  let s := p_scale (se_params u) in let fps := p_fps (se_params u) in let rad := p_search_radius (se_params u) in
  undisturbed u sm -> exact lg (se_solver u) -> midpoint_rule lg -> LiveSpec.fine_enough u -> p_regularization (se_params u) = None ->
  se_width u = w -> se_height u = h -> INR nx * s = w -> INR ny * s = h -> (1 <= nx)%nat -> (1 <= ny)%nat -> s <= Rmin 1 d / (12 * (k + 1) ^ 2) ->
  nth_error (s_steps sm) i = Some a -> nth_error (s_steps sm) (S i) = Some b ->
  positions_of (s_grid sm) y (st_y_data a) -> nodal (s_grid sm) theta (nd_data (st_theta_data a)) -> pulls w h u (INR i / fps) t1 t2 ->
  lipschitz_on (rectangle w h) k t1 -> lipschitz_on (rectangle w h) k t2 -> bounded_on (rectangle w h) k t1 -> bounded_on (rectangle w h) k t2 ->
  regular_motion (rectangle w h) k y -> regular_motion (rectangle w h) k v -> regular_temperature (rectangle w h) k theta ->
  bounded_on (rectangle w h) k (m1 v) -> bounded_on (rectangle w h) k (m2 v) -> (forall x, rectangle w h x -> d <= det2 (gradient_of v x)) ->
  held w h (se_fix u) v -> nearby w h rad y v ->
  exists m J, let m' := fst (mech_solve (sv_mech (se_solver u) (2 * i) m) m) in
    mech_problem_from u sm a (INR i / fps) m /\ mech_y m' = st_y_data b /\
    mech_objective lg m (map v_val (ms_y1 m')) (map v_val (ms_y2 m')) = Ok J /\
    J <= elastic_energy w h v theta - boundary_work w h (se_fix u) t1 t2 (m1 v) (m2 v) + fps * dissipated w h y v + C * (1 + fps) * s.
Proof.
  intros w h k d Hk Hd. destruct (near1 w h k d Hk Hd) as [C T]. exists C. intros u lg sm i a b nx ny t1 t2 y v theta s fps rad H EX LG FE Preg Ew Eh Nw Nh Hnx Hny Hss Ha Hb AR NT PU Lt1 Lt2 Bt1 Bt2 RY RV RT Bv1 Bv2 HD CL NB.
  destruct (T u lg sm i a b nx ny t1 t2 y v theta H EX LG FE Preg Ew Eh Nw Nh Hnx Hny Hss Ha Hb AR NT PU Lt1 Lt2 Bt1 Bt2 RY RV RT Bv1 Bv2 HD CL NB) as (m & J & A1 & A2 & A3 & A4 & _). exists m, J. cbv zeta. auto.
Qed.
Print Assumptions C115_near_minimal.
(** If the recorded positions of the new step are values of a regular deformation, that deformation nearly minimizes the continuous
    functional. *)
Theorem C115_recorded : forall w h k d, 0 <= k -> 0 < d -> exists C, forall u lg sm i a b nx ny t1 t2 y v v0 theta,
  let s := p_scale (se_params u) in let fps := p_fps (se_params u) in let rad := p_search_radius (se_params u) in
  undisturbed u sm -> exact lg (se_solver u) -> midpoint_rule lg -> LiveSpec.fine_enough u -> p_regularization (se_params u) = None ->
  se_width u = w -> se_height u = h -> INR nx * s = w -> INR ny * s = h -> (1 <= nx)%nat -> (1 <= ny)%nat -> s <= Rmin 1 d / (12 * (k + 1) ^ 2) ->
  nth_error (s_steps sm) i = Some a -> nth_error (s_steps sm) (S i) = Some b ->
  positions_of (s_grid sm) y (st_y_data a) -> positions_of (s_grid sm) v0 (st_y_data b) -> nodal (s_grid sm) theta (nd_data (st_theta_data a)) -> pulls w h u (INR i / fps) t1 t2 ->
  lipschitz_on (rectangle w h) k t1 -> lipschitz_on (rectangle w h) k t2 -> bounded_on (rectangle w h) k t1 -> bounded_on (rectangle w h) k t2 ->
  regular_motion (rectangle w h) k y -> regular_motion (rectangle w h) k v -> regular_temperature (rectangle w h) k theta ->
  bounded_on (rectangle w h) k (m1 v) -> bounded_on (rectangle w h) k (m2 v) -> (forall x, rectangle w h x -> d <= det2 (gradient_of v x)) ->
  regular_motion (rectangle w h) k v0 -> bounded_on (rectangle w h) k (m1 v0) -> bounded_on (rectangle w h) k (m2 v0) -> (forall x, rectangle w h x -> d <= det2 (gradient_of v0 x)) ->
  held w h (se_fix u) v -> nearby w h rad y v ->
  elastic_energy w h v0 theta - boundary_work w h (se_fix u) t1 t2 (m1 v0) (m2 v0) + fps * dissipated w h y v0 <=
  elastic_energy w h v theta - boundary_work w h (se_fix u) t1 t2 (m1 v) (m2 v) + fps * dissipated w h y v + C * (1 + fps) * s.
Proof.
  intros w h k d Hk Hd. destruct (near1 w h k d Hk Hd) as [C T]. exists (2 * C). intros u lg sm i a b nx ny t1 t2 y v v0 theta s fps rad H EX LG FE Preg Ew Eh Nw Nh Hnx Hny Hss Ha Hb AR A0 NT PU Lt1 Lt2 Bt1 Bt2 RY RV RT Bv1 Bv2 HD R0 B01 B02 D0 CL NB.
  destruct (T u lg sm i a b nx ny t1 t2 y v theta H EX LG FE Preg Ew Eh Nw Nh Hnx Hny Hss Ha Hb AR NT PU Lt1 Lt2 Bt1 Bt2 RY RV RT Bv1 Bv2 HD CL NB) as (m & J & _ & _ & _ & A4 & A5). specialize (A5 v0 R0 B01 B02 D0 A0). fold s fps in A4, A5. lra.
Qed.
Print Assumptions C115_recorded.
