(** * Concrete cases that meet the hypotheses of C120 and C121. *)
From Coq Require Import Reals Lra Lia List ZArith Psatz String.
From Coquelicot Require Import Coquelicot.
From Verif.Spec Require Import GridSpec QuadSpec BellSpec InterpSpec RefineSpec PotentialSpec.
From Verif.Model Require Import Py Num Tensors Domain Refine Quadrature Integrators Expr Bell Interp Helpers Steps Simulation.
From Verif.Spec Require Import ConsistSpec SimSpec LiveSpec StepSpec EnergySpec MotionSpec TractionSpec ThermSpec MechSpec MomentumSpec IdealSpec RestSpec WarmSpec.
From Verif.Proofs Require Import Lib GridP RectMesh GridCover StdOrder InterpP HatP StepP StepU StepE StepF StepG StepH SimP SimQ SimR SimH SimL SimA SimC SimE StepC ThermP MechP MechV.
From Verif.Props Require Import GridProps RefineProps SimProps PotentialProps EnergyProps EnergyExamples AffineProps TractionProps MechExistProps IdealProps ConsistExamples Near1Examples WarmProps RigidProps StillProps.
Local Open Scope string_scope.
Local Open Scope R_scope.
Import ListNotations.
Local Notation length := List.length.

Lemma warm_1 : warm 1 /\ ~ warm 0.
Proof. unfold warm. pose proof (ln_bound (3 / 2) ltac:(lra)). assert (0 < ln (3 / 2)) by (rewrite <- ln_1; apply ln_increasing; lra). split; lra. Qed.
(** C120_transition: both sides of the equivalence are true at 1 and false at 0. *)
Example C120_transition_example : (warm 1 /\ ~ warm 0) /\ 0 < det2 id2.
Proof. split; [exact warm_1|]. unfold det2, id2, PotentialSpec.st. cbn. lra. Qed.
(** The unit square at temperature 1 without traction, with and without regularization. *)
Example C120_rest_example : forall reg, reg = None \/ reg = Some 1 -> exists m, problem_grids (ms_grid m) (ms_refined m) (1/2) 2 2 /\ mech_history m /\ (ms_refined m = None <-> reg = None) /\ midpoint_rule lg0 /\
  (forall x, In x (ms_prev_theta m) -> warm x) /\ unloaded m /\ 0 <= ms_fps m /\ (ms_refined m <> None -> 0 <= ms_reg m) /\ mech_feasible m (ms_prev_y1 m) (ms_prev_y2 m) /\ rotation id2 /\
  affine_field (ms_grid m) (ms_refined m) (f11 id2) (f12 id2) 0 (ms_prev_y1 m) /\ affine_field (ms_grid m) (ms_refined m) (f21 id2) (f22 id2) 0 (ms_prev_y2 m) /\
  0 < ms_fps m /\ (forall e, reg = Some e -> ms_reg m = e).
Proof.
  intros reg Hr. assert (Hr' : forall e, reg = Some e -> 0 <= e) by (intros e E; destruct Hr as [-> | ->]; [discriminate|injection E as <-; lra]).
  destruct (free_state reg Hr') as (s & U & _ & _ & Er). destruct (undisturbed_chain _ s U) as (g & rg & ps & G & CH). destruct (hist_grid _ _ _ _ _ (ch_hist _ _ _ _ _ CH)) as (_ & Er' & _). rewrite Er' in Er. clear CH Er' U s.
  pose proof (free_grids reg g rg ps G) as PG. pose proof (gr_points _ _ _ _ G) as GP. pose proof (gr_len _ _ _ _ G) as GL. assert (LP : length (g_points g) = length (g_vertices g)) by (rewrite GP, map_length; exact GL).
  destruct (loaded_step 0 0 reg g rg ps G Er) as (m & NM & Em & Rm & P1 & P2 & PT & (fx & FX & V1 & V2) & RA & FP & RG1 & RG0 & T1 & T2). assert (HM : mech_history m) by exact (mh_new _ _ _ _ _ _ _ _ LP NM).
  destruct (mech_history_len m HM) as [_ _ _ _ LT]. rewrite Em, Rm in LT. destruct (reference_affine (ex_free reg) g rg ps G) as [A1 A2].
  set (th := repeat 1 (num_vertices (theta_grid g rg))). destruct (mech_update_prev_theta m (theta_array g rg th)) as [m' r] eqn:UP. assert (HM' : mech_history m') by exact (mh_prev_theta m _ m' r HM (theta_array_wf g rg th (repeat_length _ _)) UP).
  unfold mech_update_prev_theta in UP. rewrite Em, Rm, theta_shape_array in UP. cbn [negb nd_data theta_array] in UP. rewrite set_nonneg_ok in UP; [|rewrite LT; symmetry; apply repeat_length|intros v Hv; apply repeat_spec in Hv; lra]. injection UP as UP _. exists m'. subst m'. cbn [ms_grid ms_refined ms_prev_y1 ms_prev_y2 ms_prev_theta ms_fps ms_reg ms_y1 ms_y2 mech_set_prev_theta] in *. rewrite Em, Rm, P1, P2.
  split; [exact PG|]. split; [exact HM'|]. split; [exact Er|]. split; [reflexivity|]. split; [intros x Hx; apply repeat_spec in Hx; rewrite Hx; apply warm_1|]. split; [intros _ v t [H|H]; [exact (T1 v t H)|exact (T2 v t H)]|]. split; [lra|]. split.
  { intros _. destruct Hr as [-> | ->]; [rewrite RG0 by reflexivity; lra|rewrite (RG1 1 eq_refl); lra]. }
  split; [|split; [exact rotation_id|split; [assumption|split; [assumption|split; [lra|exact RG1]]]]].
  destruct (ivars_maps 1 fx (iref1 rg ps)) as (B1 & B2 & B3 & _). destruct (ivars_maps 1 fx (iref2 rg ps)) as (C1 & C2 & C3 & _). rewrite <- V1 in B1, B2, B3. rewrite <- V2 in C1, C2, C3.
  split; [apply (box_admits 1); [lra|assumption..]|]. split; [apply (box_admits 1); [lra|assumption..]|]. cbn [ms_refined ms_grid]. intros NR.
  destruct (init_good (ex_free reg) (free_fine reg) ltac:(cbn; lra) ltac:(cbn; lra) g rg ps G) as [_ Q]. assert (NR' : rg <> None) by (rewrite <- Rm; exact NR). exact (Q NR' (mech_set_prev_theta m th) Em).
Qed.
(** Arbitrarily fine meshes of the unit square at temperature 1 without traction, fixed at the left side. *)
Example C121_held_example : forall N, (1 <= N)%nat -> exists m, let s := 1 / INR N in 0 < s /\ fits 1 s N /\ domain_grid std_order 1 1 (FixOne "left") s = Ok (ms_grid m) /\ mech_history m /\ ms_refined m = None /\
  midpoint_rule lg0 /\ (forall x, In x (ms_prev_theta m) -> warm x) /\ unloaded m /\ 0 <= ms_fps m /\ mech_feasible m (ms_prev_y1 m) (ms_prev_y2 m) /\
  affine_field (ms_grid m) None 1 0 0 (ms_prev_y1 m) /\ affine_field (ms_grid m) None 0 1 0 (ms_prev_y2 m) /\ map v_val (ms_y1 m) = ms_prev_y1 m /\ map v_val (ms_y2 m) = ms_prev_y2 m /\
  fixed_side (FixOne "left") Left /\ (forall v x, In v (b_vertices (g_dirichlet (ms_grid m))) -> nth_error (ms_y1 m) v = Some x \/ nth_error (ms_y2 m) v = Some x -> v_fixed x = true).
Proof.
  intros N HN. assert (NP : 0 < INR N) by (apply lt_0_INR; lia). assert (S0 : 0 < 1 / INR N) by (apply Rdiv_lt_0_compat; lra).
  assert (FT : fits 1 (1 / INR N) N). { unfold fits. rewrite plus_INR. change (INR 1) with 1. assert (E : INR N * (1 / INR N) = 1) by (field; lra). rewrite Rmult_plus_distr_r, E. lra. }
  destruct (rect_grid_ok std_order (S N) (S N) (FixOne "left") (1 / INR N) (Rlt_le _ _ S0)) as (mean & E & _). rewrite <- (domain_grid_rect std_order 1 1 (FixOne "left") (1 / INR N) N N S0 FT FT) in E.
  match type of E with _ = Ok ?G => set (g := G) in E end. pose proof (rect_mesh std_order 1 1 (FixOne "left") (1 / INR N) N N _ S0 FT FT E HN HN) as M. pose proof (mesh_length g _ _ _ M) as LP.
  assert (PL : forall q, In q (g_points g) -> exists x y, q = [x; y]).
  { intros q Hq. apply In_nth_error in Hq as [v Hv]. assert (Iv : In v (g_vertices g)) by (rewrite (mesh_numbers _ _ _ _ M); apply in_seq; split; [lia|]; cbn [Nat.add]; apply nth_error_Some; rewrite Hv; discriminate). destruct (mesh_inside _ _ _ _ M v Iv) as (i & j & _ & _ & _ & P). unfold point_at in P. rewrite Hv in P. injection P as ->. eauto. }
  destruct (mapM_total xy (g_points g)) as [ps EP]. { intros q Hq. destruct (PL q Hq) as (x & y & ->). exists (x, y). reflexivity. }
  assert (IT : exists g12, init_traction g (fun _ _ _ => Ok [0; 0]) = Ok g12).
  { unfold init_traction. match goal with |- context [mapM ?F ?l] => assert (AL : exists rows, mapM F l = Ok rows); [apply mapM_total|destruct AL as [rows ->]; eexists; reflexivity] end.
    intros v Hv. destruct (rect_neumann std_order 1 1 (FixOne "left") (1 / INR N) N N S0 FT FT HN HN g E) as [_ NV]. apply NV in Hv. destruct (mesh_inside _ _ _ _ M v Hv) as (i & j & _ & _ & _ & P). unfold point_at in P. rewrite (nth_py _ _ _ P). eexists. reflexivity. }
  destruct IT as [[g1 g2] IT]. destruct (constant_traction _ _ _ _ _ IT) as [T1 T2]. set (fx := fun i => existsb (Nat.eqb i) (b_vertices (g_dirichlet g))).
  assert (EM : exists m, mechanical_step g 1 1 1 None None (fun _ _ _ => Ok [0; 0]) = Ok m /\ ms_grid m = g /\ ms_refined m = None /\ ms_prev_y1 m = map fst ps /\ ms_prev_y2 m = map snd ps /\ ms_prev_theta m = map (fun _ => 1) (g_vertices g) /\
    ms_y1 m = ivars 1 fx (map fst ps) /\ ms_y2 m = ivars 1 fx (map snd ps) /\ ms_g1 m = g1 /\ ms_g2 m = g2 /\ ms_fps m = 1).
  { unfold mechanical_step, mech_init_plain. rewrite EP. cbn [bind]. rewrite (proj2 (Rltb_false 1 0)) by lra. rewrite IT. cbn [bind]. eexists. split; [reflexivity|]. repeat split. }
  destruct EM as (m & EM & E1 & E2 & E3 & E4 & E5 & E6 & E7 & E8 & E9 & E10). exists m. cbv zeta. rewrite E1, E3, E4, E5, E6, E7, E10.
  assert (NX : forall v p, point_at g v p -> nth_error ps v = Some p).
  { intros v [x y] P. unfold point_at in P. clear -EP P. revert ps v EP P. induction (g_points g) as [|q qs IH]; intros ps [|v] EP P; try discriminate; cbn [mapM] in EP; apply bind_ok' in EP as (z & Ez & EP); apply bind_ok' in EP as (zs & Ezs & EP); injection EP as <-.
    - injection P as ->. cbn in Ez. injection Ez as <-. reflexivity.
    - exact (IH zs v Ezs P). }
  assert (LPS : length ps = length (g_vertices g)) by (rewrite LP; apply (mapM_length _ _ _ EP)).
  destruct (ivars_maps 1 fx (map fst ps)) as (B1 & B2 & B3 & B4). destruct (ivars_maps 1 fx (map snd ps)) as (C1 & C2 & C3 & C4).
  split; [exact S0|]. split; [exact FT|]. split; [exact E|]. split; [exact (mh_new g 1 1 1 None None _ m (eq_sym LP) EM)|]. split; [exact E2|]. split; [reflexivity|]. split; [intros x Hx; apply in_map_iff in Hx as (v & <- & _); apply warm_1|].
  split; [intros _ v t [H|H]; [rewrite E8 in H; exact (T1 v t H)|rewrite E9 in H; exact (T2 v t H)]|]. split; [lra|]. split.
  { split; [rewrite E6; apply (box_admits 1); [lra|assumption..]|]. split; [rewrite E7; apply (box_admits 1); [lra|assumption..]|]. rewrite E2. intros Q. exfalso. apply Q. reflexivity. }
  split; [|split].
  { split; [cbn [dofs]; rewrite map_length, Nat.mul_1_r; exact LPS|]. intros v p P j Hj. cbn [dofs] in Hj |- *. assert (j = 0%nat) as -> by lia. rewrite Nat.mul_1_r, Nat.add_0_r, nth_error_map, (NX v p P). cbn [option_map nth_error]. apply f_equal. ring. }
  { split; [cbn [dofs]; rewrite map_length, Nat.mul_1_r; exact LPS|]. intros v p P j Hj. cbn [dofs] in Hj |- *. assert (j = 0%nat) as -> by lia. rewrite Nat.mul_1_r, Nat.add_0_r, nth_error_map, (NX v p P). cbn [option_map nth_error]. apply f_equal. ring. }
  split; [exact B1|]. split; [exact C1|]. split; [left; reflexivity|].
  assert (FIX : forall l v x, In v (b_vertices (g_dirichlet g)) -> nth_error (ivars 1 fx l) v = Some x -> v_fixed x = true).
  { intros l v x Iv Hx. destruct (ivars_maps 1 fx l) as (_ & _ & _ & D4). assert (Q : nth_error (map v_fixed (ivars 1 fx l)) v = Some (v_fixed x)) by (rewrite nth_error_map, Hx; reflexivity). rewrite D4, nth_error_map in Q.
    destruct (nth_error (range (length l)) v) as [k|] eqn:K; [|discriminate]. unfold range in K. assert (Hv : (v < length l)%nat) by (rewrite <- (seq_length (length l) 0); apply nth_error_Some; congruence). rewrite (nth_error_nth' _ 0%nat) in K by (rewrite seq_length; exact Hv). rewrite seq_nth in K by exact Hv. injection K as <-. cbn [Nat.add option_map] in Q. injection Q as <-. unfold fx. apply existsb_exists. exists v. split; [exact Iv|apply Nat.eqb_refl]. }
  intros v x Iv [Hx|Hx]; exact (FIX _ v x Iv Hx).
Qed.
(** Simulations of the unit square, fixed at the left side, without traction, everything at temperature 1, with an exact solver. *)
Definition calm (N : nat) : setting :=
  {| se_order := std_order; se_solver := ideal lg0; se_width := 1; se_height := 1; se_fix := FixOne "left"; se_params := fine1_params N;
     se_external := fun _ => Ok 1; se_traction := fun _ _ _ => Ok [0; 0] |}.
Lemma calm_valid N : (1 <= N)%nat -> valid_setting (calm N).
Proof.
  intros HN. assert (NP : 0 < INR N) by (apply lt_0_INR; lia). assert (SP : 0 < 1 / INR N) by (apply Rdiv_lt_0_compat; lra). unfold valid_setting. cbn [calm se_width se_height se_params]. split; [lra|]. split; [lra|]. exists (fine1_params N). unfold SimulationParams_, fine1_params, Rleb0. cbn [p_initial_temperature p_search_radius p_fps p_scale p_regularization p_refinement_factor].
  rewrite (proj2 (Rltb_false 1 0)) by lra. rewrite (proj2 (Rltb_true 0 1)) by lra. rewrite (proj2 (Rltb_false 10 0)) by lra. rewrite (proj2 (Rltb_true 0 (1 / INR N))) by lra. reflexivity.
Qed.
Example C121_example : forall N n, (1 <= N)%nat -> (1 <= n)%nat -> exists sm, let u := calm N in undisturbed u sm /\ exact lg0 (se_solver u) /\ midpoint_rule lg0 /\ LiveSpec.fine_enough u /\ p_regularization (se_params u) = None /\
  p_scale (se_params u) <= se_width u /\ p_scale (se_params u) <= se_height u /\ 0 < p_fps (se_params u) /\ (forall t x y, se_traction u t x y = Ok [0; 0]) /\ (exists d, fixed_side (se_fix u) d) /\
  warm 1 /\ p_initial_temperature (se_params u) = 1 /\ (forall t, 0 <= t -> se_external u t = Ok 1) /\ length (s_steps sm) = (n + 2)%nat.
Proof.
  intros N n HN Hn. set (u := calm N). assert (V : valid_setting u) by exact (calm_valid N HN). assert (FE : LiveSpec.fine_enough u) by exact I. assert (PF : 0 < p_fps (se_params u)) by (cbn; lra).
  assert (FF : forall t, 0 <= t -> forcing_fine u t) by (intros t Ht; split; [intros x y; eexists _, _; reflexivity|exists 1; split; [reflexivity|lra]]).
  destruct (ideal_exact lg0) as (NR & RD & _). destruct (construct_live u V PF FE (FF 0 (Rle_refl 0)) NR) as [s0 C]. assert (U0 : undisturbed u s0) by (apply u_construct; assumption).
  destruct (run_live u s0 (Z.of_nat n) U0 PF FF NR RD ltac:(lia)) as [s E]. pose proof (u_run u (Z.of_nat n) s0 s U0 E) as U. exists s. cbv zeta. split; [exact U|]. split; [exact (ideal_exact lg0)|]. split; [reflexivity|]. split; [exact FE|]. split; [reflexivity|].
  assert (SL : 1 / INR N <= 1). { apply (le_INR 1) in HN. change (INR 1) with 1 in HN. unfold Rdiv. rewrite Rmult_1_l. assert (Q : / INR N <= / 1) by (apply Rinv_le_contravar; lra). lra. }
  split; [exact SL|]. split; [exact SL|]. split; [exact PF|]. split; [reflexivity|]. split; [exists Left; left; reflexivity|]. split; [apply warm_1|]. split; [reflexivity|]. split; [reflexivity|].
  destruct (C65_run_adds_steps u s0 (Z.of_nat n) s (undisturbed_reachable u s0 U0) E) as [_ [new [En Ln]]]. rewrite En, app_length, (C65_construction u s0 V C). lia.
Qed.
