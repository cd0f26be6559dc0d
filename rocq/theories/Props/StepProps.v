(** * Properties of single time steps: C60-C62. *)
From Coq Require Import Reals Lra Lia List ZArith String Permutation.
From Verif.Spec Require Import GridSpec QuadSpec BellSpec InterpSpec RefineSpec.
From Verif.Model Require Import Py Num Tensors Domain Refine Bell Interp Steps Simulation.
From Verif.Spec Require Import SimSpec LiveSpec StepSpec.
From Verif.Proofs Require Import Lib GridP GridCover StdOrder BellQ InterpP StepP SimP SimQ SimR SimH SimL SimA SimE SimF StepC StepD SimC.
From Verif.Props Require Import GridProps RefineProps InterpProps SimProps.
Local Open Scope R_scope.
Import ListNotations.

(** ** C62 *)
(** The constraints of a regularized mechanical problem on the grid of a rectangle hold for given parameters exactly if the C1
    deformation with these parameters is the identity along every Dirichlet edge. *)
Theorem C62_constraints_pin_the_edges : forall so w h f s m n pb y1 y2 i1 i2, 0 < s -> fits w s m -> fits h s n -> (1 <= m)%nat -> (1 <= n)%nat ->
  let g := ms_grid pb in domain_grid so w h f s = Ok g ->
  C1Interpolation_ g (chunks (List.length (g_vertices g)) 6 y1) = Ok i1 -> C1Interpolation_ g (chunks (List.length (g_vertices g)) 6 y2) = Ok i2 ->
  (dirichlet_constraints_hold pb y1 y2 <->
   forall a b p q t, In (a, b) (b_edges (g_dirichlet g)) -> point_at g a p -> point_at g b q -> 0 <= t <= 1 ->
     deform_on_edge i1 i2 (a, b) t = Ok [t * fst p + (1 - t) * fst q; t * snd p + (1 - t) * snd q]).
Proof.
  intros so w h f s m n pb y1 y2 i1 i2 Hs Hm Hn M1 N1 g Hg. apply constraints_iff. exact (rect_good_edges _ _ _ _ _ _ _ _ Hs Hm Hn M1 N1 Hg).
Qed.
Print Assumptions C62_constraints_pin_the_edges.
(** And then it is the identity there in every triangle that has the edge as a side. *)
Theorem C62_identity_in_triangles : forall so w h f s m n pb y1 y2 i1 i2 a b c p q t pt qt rt L lam, 0 < s -> fits w s m -> fits h s n -> (1 <= m)%nat -> (1 <= n)%nat ->
  let g := ms_grid pb in domain_grid so w h f s = Ok g ->
  C1Interpolation_ g (chunks (List.length (g_vertices g)) 6 y1) = Ok i1 -> C1Interpolation_ g (chunks (List.length (g_vertices g)) 6 y2) = Ok i2 ->
  dirichlet_constraints_hold pb y1 y2 -> In (a, b) (b_edges (g_dirichlet g)) -> point_at g a p -> point_at g b q -> 0 <= lam <= 1 ->
  triangle_at g t pt qt rt -> Permutation [(a, lam); (b, 1 - lam); (c, 0)] (weights t L) ->
  deform_call i1 i2 t L = Ok [lam * fst p + (1 - lam) * fst q; lam * snd p + (1 - lam) * snd q].
Proof.
  intros so w h f s m n pb y1 y2 i1 i2 a b c p q t pt qt rt L lam Hs Hm Hn M1 N1 g Hg H1 H2 C He Hp Hq Ht T W.
  pose proof (proj1 (C62_constraints_pin_the_edges _ _ _ _ _ _ _ pb y1 y2 i1 i2 Hs Hm Hn M1 N1 Hg H1 H2) C a b p q lam He Hp Hq Ht) as D.
  pose proof (proj1 (C27_rectangle_grid_is_mesh _ _ _ _ _ _ _ _ Hs Hm Hn Hg M1 N1)) as M.
  destruct (C45_C1_on_edge g s m n _ i1 a b c lam t pt qt rt L Hs M H1 T W) as [v1 [A1 [B1 _]]]. destruct (C45_C1_on_edge g s m n _ i2 a b c lam t pt qt rt L Hs M H2 T W) as [v2 [A2 [B2 _]]].
  apply bind_ok' in D as [x [X D]]. apply bind_ok' in D as [y [Y D]]. pose proof (eq_trans (eq_sym X) B1) as XX. injection XX as ->. pose proof (eq_trans (eq_sym Y) B2) as YY. injection YY as ->.
  unfold deform_call. rewrite A1, A2. exact D.
Qed.
Print Assumptions C62_identity_in_triangles.

(** Recorded deformations: with a solver respecting the constraints, every recorded step of every regularized simulation with at
    least one cell, also after runs that raised, is the identity along the Dirichlet edges. *)
Theorem C62_recorded_steps : forall u s st a b p q t, reachable u s -> s_refined s <> None -> respects_constraints (se_solver u) ->
  p_scale (se_params u) <= se_width u -> p_scale (se_params u) <= se_height u ->
  In st (s_steps s) -> In (a, b) (b_edges (g_dirichlet (s_grid s))) -> point_at (s_grid s) a p -> point_at (s_grid s) b q -> 0 <= t <= 1 ->
  deform_on_edge (st_y1 st) (st_y2 st) (a, b) t = Ok [t * fst p + (1 - t) * fst q; t * snd p + (1 - t) * snd q].
Proof.
  intros u s st a b p q t H Hr RC Hw1 Hh1 Hst He Hp Hq Ht.
  set (P := fun (g : grid R) (rg : option (refined_grid R)) (y1 y2 : list R) => rg <> None -> forall m, ms_grid m = g -> dirichlet_constraints_hold m y1 y2).
  assert (GE : forall g rg ps, ground u g rg ps -> good_edges g).
  { intros g rg ps G. pose proof (gr_valid _ _ _ _ G) as V. pose proof (params_ok u V) as (_ & _ & _ & PS & _). destruct V as [Hw [Hh _]].
    destruct (fits_exists _ _ Hw PS) as [mc Hmc]. destruct (fits_exists _ _ Hh PS) as [nc Hnc]. exact (rect_good_edges _ _ _ _ _ _ _ _ PS Hmc Hnc (fits_one _ _ _ PS Hw1 Hmc) (fits_one _ _ _ PS Hh1 Hnc) (gr_grid _ _ _ _ G)). }
  assert (INIT : forall g rg ps, ground u g rg ps -> P g rg (iref1 rg ps) (iref2 rg ps)).
  { intros g rg ps G NR m Em. destruct rg as [r|]; [|congruence]. subst g. apply reference_feasible; [exact (gr_points _ _ _ _ G)|exact (gr_len _ _ _ _ G)|exact (GE _ _ _ G)]. }
  assert (KEEP : forall g rg ps m c a1 a2 th time, ground u g rg ps -> posed_m u g rg (ifx g rg) (iref1 rg ps) (iref2 rg ps) m a1 a2 th time -> P g rg a1 a2 -> P g rg (map v_val (ms_y1 (m_loaded u c m))) (map v_val (ms_y2 (m_loaded u c m)))).
  { intros g rg ps m c a1 a2 th time G PM HP NR m' Em. pose proof (pm_inv _ _ _ _ _ _ _ _ _ _ _ PM) as IM. apply (constraints_grid m); [rewrite Em; apply IM|].
    apply (RC c m); [rewrite (mi_ref _ _ _ _ _ _ _ _ IM); exact NR|]. rewrite (pm_v1 _ _ _ _ _ _ _ _ _ _ _ PM), (pm_v2 _ _ _ _ _ _ _ _ _ _ _ PM). apply (HP NR). apply IM. }
  destruct (reachable_y u P INIT KEEP s H) as (g & rg & ps & G & [HH NOW ST]). destruct (hist_grid _ _ _ _ _ HH) as (Eg & Er & _). rewrite Eg in He, Hp, Hq. rewrite Er in Hr. clear Eg Er.
  destruct (ST st Hst) as (a1 & a2 & th & HO & L1 & L2 & C). destruct rg as [r|]; [|congruence]. specialize (C ltac:(discriminate)).
  rewrite (ho_i1 _ _ _ _ _ _ HO), (ho_i2 _ _ _ _ _ _ HO).
  pose proof (si_m _ _ _ _ _ _ _ (hi_inv _ _ _ _ _ HH)) as IM. pose proof (mi_grid _ _ _ _ _ _ _ _ IM) as Em. specialize (C (s_mech s) Em). subst g.
  assert (C1 : forall l, List.length l = (num_vertices (ms_grid (s_mech s)) * 6)%nat -> C1Interpolation_ (ms_grid (s_mech s)) (chunks (num_vertices (ms_grid (s_mech s))) 6 l) = Ok (C1I (ms_grid (s_mech s)) (chunks (num_vertices (ms_grid (s_mech s))) 6 l))).
  { intros l Hl. destruct (chunks_ok (ms_grid (s_mech s)) None l Hl) as [Q1 Q2]. unfold C1Interpolation_. rewrite Q1. unfold num_vertices at 1. rewrite Nat.eqb_refl. destruct (existsb _ _) eqn:EX; [|reflexivity]. exfalso. apply existsb_exists in EX as [z [Z1 Z2]]. rewrite (Q2 z Z1) in Z2. discriminate. }
  refine (proj1 (constraints_iff (s_mech s) a1 a2 _ _ (GE _ _ _ G) (C1 a1 L1) (C1 a2 L2)) C a b p q t He Hp Hq Ht).
Qed.
Print Assumptions C62_recorded_steps.
(** Example: a solver that drives all parameters to their upper bounds except those of vertices of Dirichlet edges. *)
Definition keep_edges (m : mech) (xs : list pvar) (i : nat) : R :=
  if existsb (fun e : edge => Nat.eqb (fst e) (i / 6) || Nat.eqb (snd e) (i / 6))%bool (b_edges (g_dirichlet (ms_grid m))) then match nth_error xs i with Some x => v_val x | None => 0 end else upper xs i.
Definition careful : solver := mkSolver (fun _ m => mkMA (keep_edges m (ms_y1 m)) (keep_edges m (ms_y2 m)) None) (fun _ t => mkTA (upper (ts_theta t)) None).
Lemma careful_row m xs v : existsb (fun e : edge => Nat.eqb (fst e) v || Nat.eqb (snd e) v)%bool (b_edges (g_dirichlet (ms_grid m))) = true ->
  forall N, nth_error (chunks N 6 (map v_val (load (keep_edges m xs) xs))) v = nth_error (chunks N 6 (map v_val xs)) v.
Proof.
  intros T N. unfold chunks. rewrite !nth_error_map. destruct (nth_error (range N) v) as [w|] eqn:E; [|reflexivity]. cbn [option_map]. f_equal.
  assert (w = v). { assert (Hv : (v < N)%nat) by (rewrite <- (range_length N); apply nth_error_Some; congruence). unfold range in E. rewrite nth_error_nth' with (d := 0%nat) in E by (rewrite seq_length; exact Hv). rewrite seq_nth in E by exact Hv. injection E as <-. reflexivity. } subst w.
  unfold slice. assert (K : forall j, nth_error (firstn 6 (skipn (v * 6) (map v_val (load (keep_edges m xs) xs)))) j = nth_error (firstn 6 (skipn (v * 6) (map v_val xs))) j).
  { intros j. destruct (Nat.lt_ge_cases j 6) as [Hj|Hj].
    - pose proof (slice_nth (v * 6) 6 (map v_val (load (keep_edges m xs) xs)) j Hj) as A. pose proof (slice_nth (v * 6) 6 (map v_val xs) j Hj) as B. unfold slice in A, B. rewrite A, B, !nth_error_map. destruct (nth_error xs (v * 6 + j)) as [x|] eqn:Ex.
      + rewrite (load_nth _ _ _ _ Ex). cbn [option_map]. f_equal. destruct (v_fixed x); [reflexivity|]. cbn [v_val]. unfold keep_edges. replace ((v * 6 + j) / 6)%nat with v; [rewrite T, Ex; reflexivity|]. rewrite Nat.div_add_l by lia. rewrite (Nat.div_small j 6 Hj). lia.
      + apply nth_error_None in Ex. rewrite (proj2 (nth_error_None _ _)); [reflexivity|]. rewrite load_length. exact Ex.
    - assert (Z : forall l : list R, nth_error (firstn 6 l) j = None) by (intros l; apply nth_error_None; pose proof (firstn_le_length 6 l); lia). rewrite !Z. reflexivity. }
  apply nth_error_ext; [rewrite !firstn_length, !skipn_length, !map_length, load_length; reflexivity|]. intros i _. apply K.
Qed.
Lemma careful_respects : respects_constraints careful.
Proof.
  intros k m m' _ C e He pp qq p q EV Xp Xq j Hj. unfold m'. specialize (C e He pp qq p q EV Xp Xq j Hj). cbn [mech_solve fst ms_grid ms_y1 ms_y2 careful sv_mech ma_y1 ma_y2].
  assert (T : forall v, v = fst e \/ v = snd e -> existsb (fun e : edge => Nat.eqb (fst e) v || Nat.eqb (snd e) v)%bool (b_edges (g_dirichlet (ms_grid m))) = true).
  { intros v Hv. apply existsb_exists. exists e. split; [exact He|]. destruct Hv as [-> | ->]; rewrite Nat.eqb_refl; [reflexivity|apply Bool.orb_true_r]. }
  unfold dirichlet_constraint, py_nth in *. rewrite !careful_row by auto. exact C.
Qed.
Definition ex_careful : setting :=
  {| se_order := std_order; se_solver := careful; se_width := 1; se_height := 1; se_fix := FixOne "left"; se_params := ex_params (Some 1);
     se_external := fun t => Ok (1 + t); se_traction := fun t x y => Ok [t; x * y] |}.
Lemma careful_domain : respects_domain careful.
Proof. exact (push_domain []). Qed.
(** In step 1 the vertex at (1, 1/2) has moved by (1/10, 1/10). *)
Example C62_example : let u := ex_careful in exists s st w, reachable u s /\ s_refined s <> None /\ respects_constraints (se_solver u) /\ p_scale (se_params u) <= se_width u /\ p_scale (se_params u) <= se_height u /\
  List.length (s_steps s) = 5%nat /\ nth_error (s_steps s) 1 = Some st /\ nth_error (g_points (s_grid s)) w = Some [1; 1/2] /\ y_at (st_y_data st) w 0 0 = Some (11/10) /\ y_at (st_y_data st) w 1 0 = Some (6/10).
Proof.
  intros u. assert (H1 : forall e, Some 1 = Some e -> 0 <= e) by (intros e E; injection E as <-; lra).
  assert (V : valid_setting u) by exact (ex_valid (Some 1) [] H1). assert (FF : forall t, 0 <= t -> forcing_fine u t) by exact (ex_forcing (Some 1) []). assert (NR : never_raises careful) by (split; reflexivity). assert (PF : 0 < p_fps (se_params u)) by exact (ex_fps (Some 1) []).
  destruct (construct_live u V PF (ex_fine (Some 1) []) (FF 0 (Rle_refl 0)) NR) as [s0 C]. assert (U0 : undisturbed u s0) by (apply u_construct; assumption).
  destruct (run_live u s0 3 U0 PF FF NR careful_domain ltac:(lia)) as [s E]. pose proof (u_run u 3 s0 s U0 E) as U. pose proof (undisturbed_reachable u s U) as RS.
  assert (L : List.length (s_steps s) = 5%nat). { destruct (C65_run_adds_steps u s0 3 s (undisturbed_reachable u s0 U0) E) as [_ [new [En Ln]]]. rewrite En, app_length, (C65_construction u s0 V C). lia. }
  destruct (C57_grid_of_the_domain u s RS) as (Eg & _ & Er & _). pose proof (ex_vertex u _ 2 1 Eg ltac:(lia) ltac:(lia)) as W. set (w := pair_to_vertex 3 2 1) in *.
  destruct (nth_error (s_steps s) 1) as [st|] eqn:Hst; [|apply nth_error_None in Hst; lia]. exists s, st, w. split; [exact RS|]. split; [intros Z; apply Er in Z; discriminate|]. split; [exact careful_respects|]. cbn [u ex_careful se_params ex_params p_scale se_width se_height]. split; [lra|]. split; [lra|]. split; [exact L|]. split; [exact Hst|].
  pose proof W as [Wv Wp]. cbn [INR] in Wp. replace ((1 + 1) * (1/2)) with 1 in Wp by lra. replace (1 * (1/2)) with (1/2) in Wp by lra. split; [exact Wp|].
  destruct (undisturbed_chain u s U) as (g & rg & ps & G & CH). pose proof (ch_hist _ _ _ _ _ CH) as HH. destruct (hist_grid _ _ _ _ _ HH) as (Eg' & Er' & _). rewrite Eg' in *.
  destruct (hi_first _ _ _ _ _ HH) as (st0 & rest & Es & HO0 & _). assert (Hst0 : nth_error (s_steps s) 0 = Some st0) by (rewrite Es; reflexivity).
  destruct (ch_links _ _ _ _ _ CH 0%nat st0 st Hst0 Hst) as (a1 & a2 & th & m & t & HO & PM & PT & HB). cbv zeta in HB.
  pose proof (pm_inv _ _ _ _ _ _ _ _ _ _ _ PM) as IM. assert (I2 : minv (se_params u) g rg (se_traction u) (ifx g rg) (iref1 rg ps) (iref2 rg ps) (m_loaded u (2 * 0) m)) by (apply m_solve_inv, IM).
  pose proof (gr_vertices _ _ _ _ G) as GV. rewrite GV in Wv. apply in_seq in Wv. rewrite (gr_len _ _ _ _ G) in Wv.
  rewrite (ho_y _ _ _ _ _ _ HB). rewrite !y_at_zero by (rewrite ?map_length; try lia; first [exact (mi_y1 _ _ _ _ _ _ _ _ I2)|exact (mi_y2 _ _ _ _ _ _ _ _ I2)]). cbn [Nat.eqb].
  destruct (iref_length rg ps) as [RL1 RL2]. rewrite (gr_len _ _ _ _ G) in RL1, RL2.
  destruct (holds_comp g rg _ _ _ _ HO0 RL1 RL2) as [A1 [A2 _]]. destruct (holds_comp g rg _ _ _ _ HO) as [B1 [B2 _]]; [rewrite <- (pm_p1 _ _ _ _ _ _ _ _ _ _ _ PM); apply IM|rewrite <- (pm_p2 _ _ _ _ _ _ _ _ _ _ _ PM); apply IM|].
  rewrite A1 in B1. rewrite A2 in B2. subst a1 a2. apply (points_nth g ps w _ _ (gr_points _ _ _ _ G)) in Wp. destruct (iref_nth rg ps w _ _ Wp) as [N1 N2].
  assert (R6 : dofs rg = 6%nat). { destruct rg as [r|]; [reflexivity|]. exfalso. assert (Z : Some 1 = @None R); [|discriminate]. apply Er. rewrite Er'. reflexivity. }
  assert (NF : forall d i' j', edge_on_side g (1/2) 2 2 d (i', j') -> fixed_side (FixOne "left") d -> i' <> w /\ j' <> w).
  { intros d i' j' (i & j & k & l & [_ P1] & [_ P2] & S1 & S2 & _) FS. assert (d = Left) as -> by (destruct FS as [FS|[]]; destruct d; try discriminate; reflexivity). cbn in S1, S2. subst i k. cbn [fst snd INR] in P1, P2. rewrite Rmult_0_l in P1, P2.
    apply (points_nth g ps w _ _ (gr_points _ _ _ _ G)) in Wp. split; intros ->; [rewrite Wp in P1; injection P1 as P1 _|rewrite Wp in P2; injection P2 as P2 _]; lra. }
  assert (FREE : existsb (fun e : edge => Nat.eqb (fst e) w || Nat.eqb (snd e) w)%bool (b_edges (g_dirichlet g)) = false).
  { destruct (existsb _ _) eqn:X; [|reflexivity]. exfalso. apply existsb_exists in X as [[a b] [Hab X]]. apply (proj2 (C16_dirichlet_edges _ _ _ _ _ _ _ _ ex_pos ex_fits1 ex_fits1 Eg)) in Hab as [d [FS D]]. destruct (NF d a b D FS) as [Q1 Q2]. cbn in X. apply Bool.orb_true_iff in X as [X|X]; apply Nat.eqb_eq in X; congruence. }
  assert (FX : nth_error (ifx g rg) (w * dofs rg) = Some false).
  { destruct (nth_error (ifx g rg) (w * dofs rg)) as [[]|] eqn:F; [exfalso|reflexivity|apply nth_error_None in F; unfold ifx in F; rewrite map_length, range_length, R6 in F; lia]. apply ifx_spec in F as [_ [v' [Hv' E']]]. assert (w = v') as <- by lia.
    apply (C17_dirichlet_vertices _ _ _ _ _ _ _ _ ex_pos ex_fits1 ex_fits1 Eg) in Hv' as (sd & FS & i' & j' & [_ Q] & OS). assert (sd = Left) as -> by (destruct FS as [FS|[]]; destruct sd; try discriminate; reflexivity). cbn in OS. subst i'. apply (points_nth g ps w _ _ (gr_points _ _ _ _ G)) in Q. rewrite Wp in Q. injection Q as Q _. cbn [INR] in Q. lra. }
  assert (STEP : forall xs ref x, map v_val xs = ref -> map v_ub xs = map (fun v => v + 1/10) ref -> map v_fixed xs = ifx g rg -> nth_error ref (w * dofs rg) = Some x -> nth_error (map v_val (load (keep_edges m xs) xs)) (w * dofs rg) = Some (x + 1/10)).
  { intros xs ref x <- UB FB Nx. rewrite nth_error_map in Nx. destruct (nth_error xs (w * dofs rg)) as [v|] eqn:Ev; [|discriminate]. injection Nx as Nx. rewrite (load_vals_nth _ _ _ _ Ev). pose proof (f_equal (fun l => nth_error l (w * dofs rg)) FB) as Fi. cbv beta in Fi. rewrite nth_error_map, Ev, FX in Fi. injection Fi as Fi. rewrite Fi.
    f_equal. unfold keep_edges. rewrite R6, Nat.div_mul by lia. rewrite (mi_grid _ _ _ _ _ _ _ _ IM), FREE. unfold upper. rewrite <- R6, Ev. pose proof (f_equal (fun l => nth_error l (w * dofs rg)) UB) as Ui. cbv beta in Ui. rewrite !nth_error_map, Ev in Ui. injection Ui as Ui. cbn in Ui. lra. }
  unfold m_loaded, mech_solve. cbn [fst ms_y1 ms_y2 u ex_careful se_solver careful sv_mech ma_y1 ma_y2].
  rewrite (STEP (ms_y1 m) _ _ (pm_v1 _ _ _ _ _ _ _ _ _ _ _ PM) (pm_u1 _ _ _ _ _ _ _ _ _ _ _ PM) (mi_f1 _ _ _ _ _ _ _ _ IM) N1). rewrite (STEP (ms_y2 m) _ _ (pm_v2 _ _ _ _ _ _ _ _ _ _ _ PM) (pm_u2 _ _ _ _ _ _ _ _ _ _ _ PM) (mi_f2 _ _ _ _ _ _ _ _ IM) N2). split; f_equal; lra.
Qed.
