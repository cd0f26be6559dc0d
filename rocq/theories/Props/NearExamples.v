(** * Concrete simulations that meet the hypotheses of C113: fine meshes of the unit square fixed at its left side. *)
From Coq Require Import Reals Lra Lia List Psatz ZArith String.
From Coquelicot Require Import Coquelicot.
From Verif.Spec Require Import GridSpec QuadSpec BellSpec InterpSpec RefineSpec PotentialSpec.
From Verif.Model Require Import Py Num Tensors Domain Refine Quadrature Integrators Expr Bell Interp Helpers Steps Simulation.
From Verif.Spec Require Import ConvSpec TaylorSpec ConsistSpec ConsistRSpec NearSpec SimSpec LiveSpec StepSpec EnergySpec MotionSpec ThermSpec MechSpec IdealSpec.
From Verif.Proofs Require Import Lib GridP RectMesh GridCover StdOrder StepP StepU StepF StepG StepH StepE StepC SimP SimQ SimR SimH SimC SimL SimA SimE InterpP HatP PotP MechV MechP ConvP NearP.
From Verif.Props Require Import RefineProps GridProps IntegProps InterpProps SimProps EnergyProps EnergyExamples AffineProps ThermProps ConvProps ConsistProps ConsistExamples ConsistRProps ConsistRExamples MechExistProps IdealProps NearProps.
Local Open Scope string_scope.
Local Open Scope R_scope.
Local Notation length := List.length.
Import ListNotations.

Definition fine_params (N : nat) : sim_params := mkParams 1 1 10 (1 / INR N) (Some 1) (Some 2%Z).
Definition fine_ideal (N : nat) : setting :=
  {| se_order := std_order; se_solver := ideal lg0; se_width := 1; se_height := 1; se_fix := FixOne "left"; se_params := fine_params N;
     se_external := fun t => Ok (1 + t); se_traction := fun t x y => Ok [t; x * y] |}.
Lemma jet_bend x : jet bend x = [fst x + fst x * fst x / 8; 1 + fst x / 4; 0; 1 / 4; 0; 0].
Proof.
  assert (X : forall a b, d_x bend a b = 1 + a / 4) by (intros a b; unfold d_x, bend; apply is_derive_unique; auto_derive; [exact I|field]).
  assert (Y : forall a b, d_y bend a b = 0) by (intros a b; unfold d_y, bend; apply Derive_const).
  unfold jet. rewrite X, Y. f_equal. f_equal. f_equal. f_equal; [|f_equal; [|f_equal]].
  - unfold d_x at 1. rewrite (Derive_ext _ (fun s => 1 + s / 4)) by (intros; apply X). apply is_derive_unique. auto_derive; [exact I|field].
  - unfold d_y at 1. rewrite (Derive_ext _ (fun _ => 1 + fst x / 4)) by (intros; apply X). apply Derive_const.
  - unfold d_y at 1. rewrite (Derive_ext _ (fun _ => 0)) by (intros; apply Y). apply Derive_const.
Qed.
Example C113_example : forall s0, / 10 ^ 13 <= s0 -> exists N u sm r a b, u = fine_ideal N /\ (1 <= N)%nat /\ p_scale (se_params u) <= s0 /\ undisturbed u sm /\ exact lg0 (se_solver u) /\ LiveSpec.fine_enough u /\ s_refined sm = Some r /\
  INR N * p_scale (se_params u) = 1 /\ nth_error (s_steps sm) 0 = Some a /\ nth_error (s_steps sm) 1 = Some b /\
  array_of (s_grid sm) along across (st_y_data a) /\ nodal (r_grid r) (fun _ => 1) (nd_data (st_theta_data a)) /\
  smooth_field (rectangle 1 1) 12 along /\ smooth_field (rectangle 1 1) 12 across /\ smooth_field (rectangle 1 1) 12 bend /\ regular_temperature (rectangle 1 1) 12 (fun _ => 1) /\
  (forall x, rectangle 1 1 x -> 1 <= det2 (gradient_of (motion_of bend across) x)) /\
  clamped 1 1 (se_fix u) bend across /\ within_reach 1 1 (p_search_radius (se_params u)) along bend /\ within_reach 1 1 (p_search_radius (se_params u)) across across.
Proof.
  intros s0 H0. assert (P13 : 0 < / 10 ^ 13) by (apply Rinv_0_lt_compat, pow_lt; lra). destruct (archimed (/ s0)) as [A A']. assert (I0 : 0 < / s0) by (apply Rinv_0_lt_compat; lra). assert (I1 : / s0 <= 10 ^ 13) by (rewrite <- (Rinv_involutive (10 ^ 13)) by (apply pow_nonzero; lra); apply Rinv_le_contravar; assumption).
  assert (Z0 : (0 < up (/ s0))%Z) by (apply lt_IZR; lra). set (N := Z.to_nat (up (/ s0))). assert (HN : (1 <= N)%nat) by (unfold N; lia).
  assert (EN : INR N = IZR (up (/ s0))) by (unfold N; rewrite INR_IZR_INZ, Z2Nat.id by lia; reflexivity). assert (NP : 0 < INR N) by lra. assert (N13 : INR N <= 2 * 10 ^ 13) by (clear -EN A' I1; lra).
  assert (SP : 0 < 1 / INR N) by (apply Rdiv_lt_0_compat; lra). assert (S1 : 1 / INR N <= 1) by (apply (Rmult_le_reg_r (INR N)); [lra|]; apply le_INR in HN; cbn [INR] in HN; replace (1 / INR N * INR N) with 1 by (field; lra); lra).
  set (u := fine_ideal N). assert (V : valid_setting u).
  { unfold valid_setting. cbn [u fine_ideal se_width se_height se_params]. split; [lra|]. split; [lra|]. exists (fine_params N). unfold SimulationParams_, fine_params, Rleb0. cbn [p_initial_temperature p_search_radius p_fps p_scale p_regularization p_refinement_factor].
    rewrite (proj2 (Rltb_false 1 0)) by lra. rewrite (proj2 (Rltb_true 0 1)) by lra. rewrite (proj2 (Rltb_false 10 0)) by lra. rewrite (proj2 (Rltb_true 0 (1 / INR N))) by lra. reflexivity. }
  assert (FE : LiveSpec.fine_enough u).
  { unfold LiveSpec.fine_enough. cbn [u fine_ideal fine_params se_params se_width se_height p_regularization p_refinement_factor p_scale]. split; [lra|]. split; [lra|]. replace (1 / INR N / (5 * 2)) with (/ (INR N * 10)) by (field; lra). apply Rinv_le_contravar; [lra|]. clear -N13. lra. }
  assert (FF : forall t, 0 <= t -> forcing_fine u t) by (intros t Ht; split; [intros x y; eexists _, _; reflexivity|eexists; split; [reflexivity|lra]]). assert (PF : 0 < p_fps (se_params u)) by (cbn; lra).
  destruct (ideal_exact lg0) as (NR & RD & _). destruct (construct_live u V PF FE (FF 0 (Rle_refl 0)) NR) as [sm C]. assert (U0 : undisturbed u sm) by (apply u_construct; assumption).
  pose proof (undisturbed_reachable u sm U0) as HR. destruct (C57_grid_of_the_domain u sm HR) as (EG & _ & ER & _). destruct (s_refined sm) as [r|] eqn:Hr; [|pose proof (proj1 ER eq_refl); discriminate]. clear ER.
  pose proof (C65_construction u sm V C) as LS. destruct (s_steps sm) as [|a [|b [|? ?]]] eqn:ES; try discriminate.
  destruct (reachable_hist u sm HR) as (g & rg & ps & G & HI). destruct (hist_grid _ _ _ _ _ HI) as (Eg & Er & _). destruct (hi_first _ _ _ _ _ HI) as (st & rest & Es & HO & _). rewrite ES in Es. injection Es as <- <-. rewrite Hr in Er. subst rg. rewrite Eg in *.
  assert (FT : fits 1 (1 / INR N) N). { unfold fits. rewrite plus_INR. change (INR 1) with 1. assert (E : INR N * (1 / INR N) = 1) by (field; lra). rewrite Rmult_plus_distr_r, E. lra. }
  pose proof (proj1 (C27_rectangle_grid_is_mesh _ _ _ _ _ _ _ _ SP FT FT EG HN HN)) as M. pose proof (eq_sym (mesh_length _ _ _ _ M)) as LP. pose proof (gr_len _ _ _ _ G) as LPS. destruct (iref_length (Some r) ps) as [LR1 LR2]. rewrite LPS in LR1, LR2. cbn [dofs] in LR1, LR2.
  exists N, u, sm, r, a, b. split; [reflexivity|]. split; [exact HN|]. split. { cbn. unfold Rdiv. rewrite Rmult_1_l, <- (Rinv_involutive s0) by lra. apply Rinv_le_contravar; lra. } split; [exact U0|]. split; [exact (ideal_exact lg0)|]. split; [exact FE|]. split; [exact Hr|]. split; [cbn; field; lra|]. rewrite ES, Eg. split; [reflexivity|]. split; [reflexivity|].
  split. { rewrite (ho_y _ _ _ _ _ _ HO). intros v x i P Hi. assert (Hv : (v < num_vertices g)%nat) by (unfold num_vertices; rewrite <- LP; apply nth_error_Some; unfold point_at in P; rewrite P; discriminate).
    assert (NX : nth_error ps v = Some x) by (destruct x; exact (proj1 (points_nth g ps v _ _ (gr_points _ _ _ _ G)) P)). rewrite !(y_at_array g (Some r)) by (cbn; assumption || lia). cbn [Nat.eqb dofs iref1 iref2]. rewrite (Nat.mul_comm v 6). split.
    - rewrite (flat6 _ ps v i x) by (try (intros []; reflexivity); assumption). rewrite jet_along. destruct x; reflexivity.
    - rewrite (flat6 _ ps v i x) by (try (intros []; reflexivity); assumption). rewrite jet_across. destruct x; reflexivity. }
  split. { rewrite (ho_th _ _ _ _ _ _ HO). cbn [theta_array nd_data theta_grid]. unfold itheta. cbn [theta_grid u fine_ideal fine_params se_params p_initial_temperature]. split; [apply map_length|]. intros v x P.
    destruct (gr_ref _ _ _ _ G) as [[Z _]|(e & k' & r' & E1 & E2 & E3 & E4)]; [discriminate|]. injection E4 as <-. cbn in E2. injection E2 as <-.
    assert (HE : / 10 ^ 15 <= 1 / INR N / INR 2) by (replace (1 / INR N / INR 2) with (/ (INR N * 2)) by (change (INR 2) with 2; field; lra); apply Rinv_le_contravar; [lra|]; clear -N13; lra).
    destruct (C27_refinement_is_fine_mesh g (1 / INR N) N N 2 SP HN HN ltac:(lia) HE M) as (r' & Rf & _ & M' & _). change (Z.of_nat 2) with 2%Z in Rf. assert (r' = r) as -> by congruence. pose proof (mesh_length _ _ _ _ M') as LF.
    unfold point_at in P. assert (Hv : (v < length (g_vertices (r_grid r)))%nat) by (rewrite LF; apply nth_error_Some; rewrite P; discriminate). rewrite nth_error_map. destruct (nth_error (g_vertices (r_grid r)) v) eqn:E; [reflexivity|]. apply nth_error_None in E. lia. }
  split; [exact along_smooth|]. split; [exact across_smooth|]. split; [exact bend_smooth|]. split; [split; [apply const_lip; lra|intros; lra]|]. split; [exact bend_det|].
  split. { intros d [x y] F R L. cbn [u fine_ideal se_fix] in F. destruct F as [F|[]]. destruct d; try discriminate. cbn [on_line fst snd] in *. unfold bend, across. subst x. split; [field|reflexivity]. }
  split. { intros [x y] i [[X0 X1] _] Hi. cbn [fst snd] in X0, X1. rewrite jet_along, jet_bend. cbn [fst]. destruct i as [|[|[|[|[|[|i]]]]]]; try lia; cbn [nth]; apply Rabs_le; cbn; nra. }
  intros x i _ _. rewrite Rminus_eq_0, Rabs_R0. cbn. lra.
Qed.
