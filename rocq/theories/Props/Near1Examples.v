(** * Concrete cases that meet the hypotheses of C114 and C115: fine meshes of the unit square. *)
From Coq Require Import Reals Lra Lia List Psatz ZArith String.
From Coquelicot Require Import Coquelicot.
From Verif.Spec Require Import GridSpec QuadSpec BellSpec InterpSpec RefineSpec PotentialSpec.
From Verif.Model Require Import Py Num Tensors Domain Refine Quadrature Integrators Expr Bell Interp Helpers Steps Simulation.
From Verif.Spec Require Import ConvSpec ConsistSpec NearSpec SimSpec LiveSpec StepSpec EnergySpec MotionSpec ThermSpec MechSpec IdealSpec WorkSpec Near1Spec.
From Verif.Proofs Require Import Lib GridP RectMesh GridCover StdOrder StepP StepU StepF StepG StepH StepE StepC SimP SimQ SimR SimH SimC SimL SimA SimE InterpP HatP PotP MechV MechP ConvP ConvQ NearP.
From Verif.Props Require Import RefineProps GridProps IntegProps InterpProps SimProps EnergyProps EnergyExamples AffineProps ThermProps ConvProps ConsistProps ConsistExamples MechExistProps IdealProps Near1Props.
Local Open Scope string_scope.
Local Open Scope R_scope.
Local Notation length := List.length.
Import ListNotations.

Lemma const_bounded D k c : Rabs c <= k -> bounded_on D k (fun _ => c).
Proof. intros H x _. exact H. Qed.
Lemma square_bounds : bounded_on (rectangle 1 1) 2 (m1 stretched) /\ bounded_on (rectangle 1 1) 2 (m2 stretched).
Proof. split; intros x [Hx Hy]; cbn [m1 m2 stretched]; apply Rabs_le; nra. Qed.
Lemma product_regular : lipschitz_on (rectangle 1 1) 2 (fun x => fst x * snd x) /\ bounded_on (rectangle 1 1) 2 (fun x => fst x * snd x).
Proof.
  split.
  - intros x y [X1 X2] [Y1 Y2]. replace (fst x * snd x - fst y * snd y) with (fst x * (snd x - snd y) + (fst x - fst y) * snd y) by ring. eapply Rle_trans; [apply Rabs_triang|]. rewrite !Rabs_mult. rewrite (Rabs_right (fst x)), (Rabs_right (snd y)) by lra.
    pose proof (abs_fst x y). pose proof (abs_snd x y). pose proof (Rabs_pos (fst x - fst y)). pose proof (Rabs_pos (snd x - snd y)). nra.
  - intros x [X1 X2]. apply Rabs_le. nra.
Qed.
Lemma constant_traction g c1 c2 g1 g2 : init_traction g (fun _ _ _ => Ok [c1; c2]) = Ok (g1, g2) -> (forall v t, In (v, t) g1 -> t = c1) /\ (forall v t, In (v, t) g2 -> t = c2).
Proof.
  intros IT. unfold init_traction in IT. apply bind_ok' in IT as (rows & ER & IT). injection IT as <- <-. pose proof (mapM_img _ _ _ ER) as IMG.
  split; intros v t Hv; apply in_map_iff in Hv as ([v' [t1 t2]] & EQ & Hv); injection EQ as <- <-; destruct (IMG _ Hv) as (w & _ & Hw); apply bind_ok' in Hw as (p & _ & Hw); apply bind_ok' in Hw as ([x y] & _ & Hw); cbn in Hw; injection Hw; congruence.
Qed.
(** Arbitrarily fine meshes: the first mechanical problem of the unit square pulled by the constant traction (1, 2). *)
Example C114_example : forall s0, 0 < s0 -> exists m s N p1 p2, s <= s0 /\ 0 < s /\ fits 1 s N /\ (1 <= N)%nat /\ INR N * s = 1 /\ mech_history m /\ ms_refined m = None /\ domain_grid std_order 1 1 FixNone s = Ok (ms_grid m) /\ midpoint_rule lg0 /\ 0 <= ms_fps m /\
  lipschitz_on (rectangle 1 1) 2 (fun _ => 1) /\ lipschitz_on (rectangle 1 1) 2 (fun _ => 2) /\ bounded_on (rectangle 1 1) 2 (fun _ => 1) /\ bounded_on (rectangle 1 1) 2 (fun _ => 2) /\
  regular_motion (rectangle 1 1) 2 undeformed /\ regular_motion (rectangle 1 1) 2 stretched /\ regular_temperature (rectangle 1 1) 2 (fun _ => 1) /\ bounded_on (rectangle 1 1) 2 (m1 stretched) /\ bounded_on (rectangle 1 1) 2 (m2 stretched) /\ (forall x, rectangle 1 1 x -> 1 <= det2 (gradient_of stretched x)) /\
  holds_values (ms_grid m) (fun _ => 1) (ms_g1 m) /\ holds_values (ms_grid m) (fun _ => 2) (ms_g2 m) /\
  nodal (ms_grid m) (m1 stretched) p1 /\ nodal (ms_grid m) (m2 stretched) p2 /\ nodal (ms_grid m) (fun _ => 1) (ms_prev_theta m) /\
  nodal (ms_grid m) (m1 undeformed) (ms_prev_y1 m) /\ nodal (ms_grid m) (m2 undeformed) (ms_prev_y2 m).
Proof.
  intros s0 H0. destruct (archimed (/ s0)) as [A _]. assert (I0 : 0 < / s0) by (apply Rinv_0_lt_compat, H0). assert (Z0 : (0 < up (/ s0))%Z) by (apply lt_IZR; lra). set (N := Z.to_nat (up (/ s0))). assert (HN : (1 <= N)%nat) by (unfold N; lia).
  assert (EN : INR N = IZR (up (/ s0))) by (unfold N; rewrite INR_IZR_INZ, Z2Nat.id by lia; reflexivity). assert (NP : 0 < INR N) by lra.
  destruct (unit_problem N HN) as (m & PG & MH & NR & NT & N1 & N2 & EG & EM). destruct (problem_good _ _ _ _ _ PG) as (_ & _ & _ & M & _). destruct (nodal_exists _ _ _ _ (m1 stretched) M) as [p1 P1]. destruct (nodal_exists _ _ _ _ (m2 stretched) M) as [p2 P2]. destruct stretched_regular as (R1 & R2 & RD). destruct square_bounds as [SB1 SB2].
  assert (S0 : 0 < 1 / INR N) by (apply Rdiv_lt_0_compat; lra). assert (FT : fits 1 (1 / INR N) N). { unfold fits. rewrite plus_INR. change (INR 1) with 1. assert (E : INR N * (1 / INR N) = 1) by (field; lra). rewrite Rmult_plus_distr_r, E. lra. }
  assert (TR : (forall v x, dget Nat.eqb v (ms_g1 m) = Ok x -> x = 1) /\ (forall v x, dget Nat.eqb v (ms_g2 m) = Ok x -> x = 2) /\ ms_fps m = 1).
  { assert (DIN : forall (d : dict nat R) v x c, (forall k y, In (k, y) d -> y = c) -> dget Nat.eqb v d = Ok x -> x = c).
    { intros d v x c. unfold dget. induction d as [|[k y] d IH]; intros HC; [discriminate|]. cbn [dfind]. destruct (Nat.eqb v k); [intros Q; injection Q as <-; exact (HC k y (or_introl eq_refl))|]. intros Q. apply IH; [|exact Q]. intros k' y' I. exact (HC k' y' (or_intror I)). }
    unfold mechanical_step, mech_init_plain in EM. apply bind_ok' in EM as (ps & Eps & EM). rewrite (proj2 (Rltb_false 1 0)) in EM by lra. apply bind_ok' in EM as ([g1 g2] & IT & EM). injection EM as EM.
    pose proof (constant_traction _ _ _ _ _ IT) as IG.
    destruct IG as [I1 I2]. rewrite <- EM. cbn [ms_g1 ms_g2 ms_fps]. split; [intros v x; exact (DIN g1 v x 1 I1)|]. split; [intros v x; exact (DIN g2 v x 2 I2)|]. reflexivity. }
  destruct TR as (T1 & T2 & TF).
  exists m, (1 / INR N), N, p1, p2. split.
  { unfold Rdiv. rewrite Rmult_1_l. rewrite <- (Rinv_involutive s0) by lra. apply Rinv_le_contravar; lra. }
  split; [exact S0|]. split; [exact FT|]. split; [exact HN|]. split; [field; lra|]. split; [exact MH|]. split; [exact NR|]. split; [exact EG|]. split; [reflexivity|]. split; [rewrite TF; lra|].
  split; [apply const_lip; lra|]. split; [apply const_lip; lra|]. split; [apply const_bounded, Rabs_le; lra|]. split; [apply const_bounded, Rabs_le; lra|].
  split; [exact R2|]. split; [exact R1|]. split; [split; [apply const_lip; lra|intros; lra]|]. split; [exact SB1|]. split; [exact SB2|]. split; [exact RD|].
  split; [intros v p x D _; exact (T1 v x D)|]. split; [intros v p x D _; exact (T2 v x D)|]. auto 10.
Qed.

(** Simulations of the unit square, fixed at its left side and pulled by the traction (t, x y), with an exact solver. *)
Definition fine1_params (N : nat) : sim_params := mkParams 1 1 10 (1 / INR N) None None.
Definition fine1_ideal (N : nat) : setting :=
  {| se_order := std_order; se_solver := ideal lg0; se_width := 1; se_height := 1; se_fix := FixOne "left"; se_params := fine1_params N;
     se_external := fun t => Ok (1 + t); se_traction := fun t x y => Ok [t; x * y] |}.
Example C115_example : forall s0, 0 < s0 -> exists N u sm a b, u = fine1_ideal N /\ (1 <= N)%nat /\ p_scale (se_params u) <= s0 /\ undisturbed u sm /\ exact lg0 (se_solver u) /\ midpoint_rule lg0 /\ LiveSpec.fine_enough u /\ p_regularization (se_params u) = None /\
  INR N * p_scale (se_params u) = 1 /\ nth_error (s_steps sm) 0 = Some a /\ nth_error (s_steps sm) 1 = Some b /\
  positions_of (s_grid sm) undeformed (st_y_data a) /\ nodal (s_grid sm) (fun _ => 1) (nd_data (st_theta_data a)) /\ pulls 1 1 u (INR 0 / p_fps (se_params u)) (fun _ => 0) (fun x => fst x * snd x) /\
  lipschitz_on (rectangle 1 1) 2 (fun _ => 0) /\ lipschitz_on (rectangle 1 1) 2 (fun x => fst x * snd x) /\ bounded_on (rectangle 1 1) 2 (fun _ => 0) /\ bounded_on (rectangle 1 1) 2 (fun x => fst x * snd x) /\
  regular_motion (rectangle 1 1) 2 undeformed /\ regular_motion (rectangle 1 1) 2 stretched /\ regular_temperature (rectangle 1 1) 2 (fun _ => 1) /\ bounded_on (rectangle 1 1) 2 (m1 stretched) /\ bounded_on (rectangle 1 1) 2 (m2 stretched) /\ (forall x, rectangle 1 1 x -> 1 <= det2 (gradient_of stretched x)) /\
  held 1 1 (se_fix u) stretched /\ nearby 1 1 (p_search_radius (se_params u)) undeformed stretched.
Proof.
  intros s0 H0. destruct (archimed (/ s0)) as [A _]. assert (I0 : 0 < / s0) by (apply Rinv_0_lt_compat, H0). assert (Z0 : (0 < up (/ s0))%Z) by (apply lt_IZR; lra). set (N := Z.to_nat (up (/ s0))). assert (HN : (1 <= N)%nat) by (unfold N; lia).
  assert (EN : INR N = IZR (up (/ s0))) by (unfold N; rewrite INR_IZR_INZ, Z2Nat.id by lia; reflexivity). assert (NP : 0 < INR N) by lra.
  assert (SP : 0 < 1 / INR N) by (apply Rdiv_lt_0_compat; lra). destruct stretched_regular as (R1 & R2 & RD). destruct square_bounds as [SB1 SB2]. destruct product_regular as [PL PB].
  set (u := fine1_ideal N). assert (V : valid_setting u).
  { unfold valid_setting. cbn [u fine1_ideal se_width se_height se_params]. split; [lra|]. split; [lra|]. exists (fine1_params N). unfold SimulationParams_, fine1_params, Rleb0. cbn [p_initial_temperature p_search_radius p_fps p_scale p_regularization p_refinement_factor].
    rewrite (proj2 (Rltb_false 1 0)) by lra. rewrite (proj2 (Rltb_true 0 1)) by lra. rewrite (proj2 (Rltb_false 10 0)) by lra. rewrite (proj2 (Rltb_true 0 (1 / INR N))) by lra. reflexivity. }
  assert (FE : LiveSpec.fine_enough u) by exact I.
  assert (FF : forall t, 0 <= t -> forcing_fine u t) by (intros t Ht; split; [intros x y; eexists _, _; reflexivity|eexists; split; [reflexivity|lra]]). assert (PF : 0 < p_fps (se_params u)) by (cbn; lra).
  destruct (ideal_exact lg0) as (NR & RD' & _). destruct (construct_live u V PF FE (FF 0 (Rle_refl 0)) NR) as [sm C]. assert (U0 : undisturbed u sm) by (apply u_construct; assumption).
  pose proof (undisturbed_reachable u sm U0) as HR. destruct (C57_grid_of_the_domain u sm HR) as (EG & _ & ER & _). pose proof (proj2 ER eq_refl) as Hr. clear ER.
  pose proof (C65_construction u sm V C) as LS. destruct (s_steps sm) as [|a [|b [|? ?]]] eqn:ES; try discriminate.
  destruct (reachable_hist u sm HR) as (g & rg & ps & G & HI). destruct (hist_grid _ _ _ _ _ HI) as (Eg & Er & _). destruct (hi_first _ _ _ _ _ HI) as (st & rest & Es & HO & _). rewrite ES in Es. injection Es as <- <-. rewrite Hr in Er. subst rg. rewrite Eg in *.
  assert (FT : fits 1 (1 / INR N) N). { unfold fits. rewrite plus_INR. change (INR 1) with 1. assert (E : INR N * (1 / INR N) = 1) by (field; lra). rewrite Rmult_plus_distr_r, E. lra. }
  pose proof (proj1 (C27_rectangle_grid_is_mesh _ _ _ _ _ _ _ _ SP FT FT EG HN HN)) as M. pose proof (eq_sym (mesh_length _ _ _ _ M)) as LP. pose proof (gr_len _ _ _ _ G) as LPS.
  exists N, u, sm, a, b. split; [reflexivity|]. split; [exact HN|]. split. { cbn. unfold Rdiv. rewrite Rmult_1_l, <- (Rinv_involutive s0) by lra. apply Rinv_le_contravar; lra. } split; [exact U0|]. split; [exact (ideal_exact lg0)|]. split; [reflexivity|]. split; [exact FE|]. split; [reflexivity|]. split; [cbn; field; lra|]. rewrite ES, Eg. split; [reflexivity|]. split; [reflexivity|].
  split. { rewrite (ho_y _ _ _ _ _ _ HO). intros v x P. assert (Hv : (v < num_vertices g)%nat) by (unfold num_vertices; rewrite <- LP; apply nth_error_Some; unfold point_at in P; rewrite P; discriminate).
    assert (NX : nth_error ps v = Some x) by (destruct x; exact (proj1 (points_nth g ps v _ _ (gr_points _ _ _ _ G)) P)). cbn [iref1 iref2]. rewrite !(y_at_array g None) by (cbn [dofs]; rewrite ?map_length, ?LPS, ?Nat.mul_1_r; auto; lia). cbn [Nat.eqb dofs]. rewrite Nat.mul_1_r, Nat.add_0_r, !nth_error_map, NX. split; reflexivity. }
  split. { rewrite (ho_th _ _ _ _ _ _ HO). cbn [theta_array nd_data theta_grid]. unfold itheta. cbn [theta_grid u fine1_ideal fine1_params se_params p_initial_temperature]. split; [apply map_length|]. intros v x P.
    unfold point_at in P. assert (Hv : (v < length (g_vertices g))%nat) by (rewrite <- LP; apply nth_error_Some; rewrite P; discriminate). rewrite nth_error_map. destruct (nth_error (g_vertices g) v) eqn:E; [reflexivity|]. apply nth_error_None in E. lia. }
  split. { intros x _. cbn. repeat f_equal. lra. }
  split; [apply const_lip; lra|]. split; [exact PL|]. split; [apply const_bounded; rewrite Rabs_R0; lra|]. split; [exact PB|]. split; [exact R2|]. split; [exact R1|]. split; [split; [apply const_lip; lra|intros; lra]|]. split; [exact SB1|]. split; [exact SB2|]. split; [exact RD|].
  split. { intros d [x y] F R L. cbn [u fine1_ideal se_fix] in F. destruct F as [F|[]]. destruct d; try discriminate. cbn [on_line fst snd m1 m2 stretched] in *. subst x. split; [field|reflexivity]. }
  intros [x y] [[X0 X1] _]. cbn [fst snd m1 m2 stretched undeformed] in *. split; apply Rabs_le; cbn; nra.
Qed.
