(** * Concrete cases that meet the hypotheses of C116 and C118: fine meshes of the unit square at rest. *)
From Coq Require Import Reals Lra Lia List ZArith Psatz String.
From Coquelicot Require Import Coquelicot.
From Verif.Spec Require Import GridSpec QuadSpec BellSpec InterpSpec RefineSpec PotentialSpec.
From Verif.Model Require Import Py Num Tensors Domain Refine Quadrature Integrators Expr Bell Interp Helpers Steps Simulation.
From Verif.Spec Require Import ConvSpec ConsistSpec NearSpec SimSpec LiveSpec StepSpec EnergySpec MotionSpec TractionSpec ThermSpec MechSpec MomentumSpec IdealSpec RestSpec WorkSpec Near1Spec HeatLimitSpec WarmSpec.
From Verif.Proofs Require Import Lib GridP RectMesh GridCover StdOrder InterpP HatP StepP StepU StepE StepF StepG StepH SimP SimQ SimR SimH SimL SimA SimC SimE StepC ThermP MechP MechV ConvP.
From Verif.Props Require Import GridProps RefineProps SimProps PotentialProps EnergyProps EnergyExamples AffineProps TractionProps ThermProps MechExistProps IdealProps ConsistProps ConsistExamples Near1Props Near1Examples WarmProps RigidProps StillProps StillExamples.
Local Open Scope string_scope.
Local Open Scope R_scope.
Import ListNotations.
Local Notation length := List.length.

Definition mild : heat := {| temp := fun x => 1 + fst x / 2; temp_x := fun _ => 1 / 2; temp_y := fun _ => 0 |}.
Definition even : heat := {| temp := fun _ => 1; temp_x := fun _ => 0; temp_y := fun _ => 0 |}.
Lemma heats_regular : regular_heat (rectangle 1 1) 2 mild /\ regular_heat (rectangle 1 1) 2 even.
Proof.
  assert (HM : regular_field (rectangle 1 1) 2 (fun x => 1 + fst x / 2) (fun _ => 1 / 2) (fun _ => 0)).
  { apply affine_regular; [lra|rewrite Rabs_right; lra|rewrite Rabs_R0; lra|intros; field]. }
  assert (HE : regular_field (rectangle 1 1) 2 (fun _ => 1) (fun _ => 0) (fun _ => 0)).
  { apply affine_regular; [lra|rewrite Rabs_R0; lra|rewrite Rabs_R0; lra|intros; ring]. }
  split; (split; [first [exact HM|exact HE]|]); intros [x y] [X Y]; cbn [fst snd temp mild even] in *; lra.
Qed.
Lemma undeformed_det : forall x, rectangle 1 1 x -> 1 <= det2 (gradient_of undeformed x).
Proof. intros x _. unfold det2, gradient_of, undeformed, PotentialSpec.st. cbn. lra. Qed.
(** The recorded steps of [calm N]. *)
Lemma calm_steps N : (1 <= N)%nat -> exists sm a b, undisturbed (calm N) sm /\ nth_error (s_steps sm) 0 = Some a /\ nth_error (s_steps sm) 1 = Some b /\
  positions_of (s_grid sm) undeformed (st_y_data a) /\ positions_of (s_grid sm) undeformed (st_y_data b) /\ nodal (s_grid sm) (fun _ => 1) (nd_data (st_theta_data a)) /\ nodal (s_grid sm) (fun _ => 1) (nd_data (st_theta_data b)).
Proof.
  intros HN. destruct (C121_example N 1 HN ltac:(lia)) as (sm & U & EX & LG & FE & Pr & W & Hh & FP & UT & FS & WT & IT & XT & LS). cbv zeta in *. exists sm.
  pose proof (C121_simulation (calm N) lg0 sm 1 U EX LG FE Pr W Hh FP UT FS WT IT XT) as ST. pose proof (undisturbed_reachable _ _ U) as HR.
  assert (NO : forall st, In st (s_steps sm) -> positions_of (s_grid sm) undeformed (st_y_data st) /\ nodal (s_grid sm) (fun _ => 1) (nd_data (st_theta_data st))).
  { intros st Ist. destruct (ST st Ist) as [A B]. split; [exact A|]. destruct (reachable_hist _ _ HR) as (g & rg & ps & G & HI). destruct (hist_grid _ _ _ _ _ HI) as (Eg & Er & _). rewrite (st_plain (calm N) sm U Pr) in Er. subst rg.
    destruct (gs_holds _ _ _ _ _ (hi_good _ _ _ _ _ HI st Ist)) as (a1 & a2 & th & HO & _ & _ & LT & _). rewrite (ho_th _ _ _ _ _ _ HO) in B |- *. cbn [theta_array nd_data theta_grid] in B, LT |- *. rewrite Eg. split; [exact LT|]. intros v x P.
    destruct (st_grid (calm N) sm U W Hh) as (a & b & _ & _ & _ & _ & _ & _ & M). pose proof (mesh_length _ _ _ _ M) as LP. rewrite Eg in LP. assert (Hv : (v < length th)%nat). { rewrite LT. unfold num_vertices. rewrite LP. apply nth_error_Some. unfold point_at in P. rewrite P. discriminate. }
    destruct (nth_error th v) as [z|] eqn:Z; [|apply nth_error_None in Z; lia]. rewrite (B z (nth_error_In _ _ Z)). reflexivity. }
  destruct (s_steps sm) as [|a [|b l]] eqn:ES; try (cbn in LS; lia). exists a, b. split; [exact U|]. split; [reflexivity|]. split; [reflexivity|]. destruct (NO a ltac:(left; reflexivity)) as [A1 A2]. destruct (NO b ltac:(right; left; reflexivity)) as [B1 B2]. auto.
Qed.
Lemma fine_number s0 : 0 < s0 -> exists N, (1 <= N)%nat /\ 1 / INR N <= s0.
Proof.
  intros H0. destruct (archimed (/ s0)) as [A _]. assert (I0 : 0 < / s0) by (apply Rinv_0_lt_compat, H0). assert (Z0 : (0 < up (/ s0))%Z) by (apply lt_IZR; lra). exists (Z.to_nat (up (/ s0))). split; [lia|].
  assert (EN : INR (Z.to_nat (up (/ s0))) = IZR (up (/ s0))) by (rewrite INR_IZR_INZ, Z2Nat.id by lia; reflexivity). rewrite EN. set (z := IZR (up (/ s0))) in *. unfold Rdiv. rewrite Rmult_1_l. assert (Q : / z <= / / s0) by (apply Rinv_le_contravar; lra). rewrite Rinv_involutive in Q by lra. exact Q.
Qed.
Example C118_example : forall s0, 0 < s0 -> exists N u sm a b, u = calm N /\ (1 <= N)%nat /\ p_scale (se_params u) <= s0 /\ undisturbed u sm /\ exact lg0 (se_solver u) /\ midpoint_rule lg0 /\ LiveSpec.fine_enough u /\ p_regularization (se_params u) = None /\ 0 < p_fps (se_params u) /\
  INR N * p_scale (se_params u) = 1 /\ nth_error (s_steps sm) 0 = Some a /\ nth_error (s_steps sm) 1 = Some b /\
  positions_of (s_grid sm) undeformed (st_y_data a) /\ positions_of (s_grid sm) undeformed (st_y_data b) /\ nodal (s_grid sm) (fun _ => 1) (nd_data (st_theta_data a)) /\ nodal (s_grid sm) (temp even) (nd_data (st_theta_data b)) /\
  regular_motion (rectangle 1 1) 2 undeformed /\ (forall x, rectangle 1 1 x -> 1 <= det2 (gradient_of undeformed x)) /\ lipschitz_on (rectangle 1 1) 2 (fun _ => 1) /\ between_on (rectangle 1 1) 2 (fun _ => 1) /\
  regular_heat (rectangle 1 1) 2 even /\ regular_heat (rectangle 1 1) 2 mild /\ (forall x, rectangle 1 1 x -> Rabs (temp mild x - 1) <= p_search_radius (se_params u)) /\ se_external u (INR 0 / p_fps (se_params u)) = Ok 1 /\ 1 <= 2.
Proof.
  intros s0 H0. destruct (fine_number s0 H0) as (N & HN & SN). destruct (calm_steps N HN) as (sm & a & b & U & Ha & Hb & A1 & B1 & A2 & B2). exists N, (calm N), sm, a, b. destruct stretched_regular as (_ & R2 & _). destruct heats_regular as [HM HE]. assert (NP : 0 < INR N) by (apply lt_0_INR; lia).
  split; [reflexivity|]. split; [exact HN|]. split; [exact SN|]. split; [exact U|]. split; [exact (ideal_exact lg0)|]. split; [reflexivity|]. split; [exact I|]. split; [reflexivity|]. split; [cbn; lra|]. split; [cbn; field; lra|]. split; [exact Ha|]. split; [exact Hb|]. split; [exact A1|]. split; [exact B1|]. split; [exact A2|]. split; [exact B2|].
  split; [exact R2|]. split; [exact undeformed_det|]. split; [apply const_lip; lra|]. split; [intros x _; lra|]. split; [exact HE|]. split; [exact HM|]. split; [|split; [reflexivity|lra]].
  intros [x y] [X Y]. cbn [temp mild fst snd calm se_params fine1_params p_search_radius] in *. apply Rabs_le. lra.
Qed.
(** The thermal problem that the first recorded step of such a simulation solves. *)
Example C116_example : forall s0, 0 < s0 -> exists th s N p, s <= s0 /\ 0 < s /\ fits 1 s N /\ (1 <= N)%nat /\ INR N * s = 1 /\ ts_refined th = None /\ domain_grid std_order 1 1 (FixOne "left") s = Ok (ts_grid th) /\ midpoint_rule lg0 /\ 0 <= ts_fps th /\ Rabs (ts_ext th) <= 2 /\
  regular_motion (rectangle 1 1) 2 undeformed /\ (forall x, rectangle 1 1 x -> 1 <= det2 (gradient_of undeformed x)) /\ lipschitz_on (rectangle 1 1) 2 (fun _ => 1) /\ between_on (rectangle 1 1) 2 (fun _ => 1) /\ regular_heat (rectangle 1 1) 2 mild /\
  nodal (ts_grid th) (m1 undeformed) (ts_prev_y1 th) /\ nodal (ts_grid th) (m2 undeformed) (ts_prev_y2 th) /\ nodal (ts_grid th) (m1 undeformed) (ts_y1 th) /\ nodal (ts_grid th) (m2 undeformed) (ts_y2 th) /\ nodal (ts_grid th) (fun _ => 1) (ts_prev_theta th) /\ nodal (ts_grid th) (temp mild) p.
Proof.
  intros s0 H0. destruct (fine_number s0 H0) as (N & HN & SN). destruct (calm_steps N HN) as (sm & a & b & U & Ha & Hb & A1 & B1 & A2 & B2). destruct stretched_regular as (_ & R2 & _). destruct heats_regular as [HM _]. assert (NP : 0 < INR N) by (apply lt_0_INR; lia). assert (S0 : 0 < 1 / INR N) by (apply Rdiv_lt_0_compat; lra).
  set (u := calm N) in *. assert (SL : 1 / INR N <= 1). { apply (le_INR 1) in HN. change (INR 1) with 1 in HN. unfold Rdiv. rewrite Rmult_1_l. assert (Q : / INR N <= / 1) by (apply Rinv_le_contravar; lra). lra. }
  assert (FE : LiveSpec.fine_enough u) by exact I. assert (HL : p_regularization (se_params u) = None -> midpoint_rule lg0) by reflexivity. assert (FP : 0 < p_fps (se_params u)) by (cbn; lra). pose proof (undisturbed_reachable u sm U) as HR.
  destruct (exact_steps u lg0 HL (ideal_exact lg0) FE SL SL sm HR) as [AA _]. destruct (sim_thermal_from u lg0 HL FE SL SL FP sm 0 a b AA U Ha Hb) as (t & mc & nc & q & TP & TB & TPr & TQ & OK & NN & NF).
  destruct (C57_grid_of_the_domain u sm HR) as (EG & _). destruct (tp_grid _ _ _ _ _ _ TP) as [Gm Rm]. rewrite (st_plain u sm U eq_refl) in Rm. destruct (tp_constants _ _ _ _ _ _ TP) as [_ Fm]. destruct (tp_external _ _ _ _ _ _ TP (st_plain u sm U eq_refl)) as [Em _]. cbn in Em. injection Em as Em.
  destruct (st_grid u sm U SL SL) as (x & y & _ & _ & _ & _ & _ & _ & M0). pose proof (eq_sym (mesh_length _ _ _ _ M0)) as LP. clear x y M0.
  assert (FT : fits 1 (1 / INR N) N). { unfold fits. rewrite plus_INR. change (INR 1) with 1. assert (E : INR N * (1 / INR N) = 1) by (field; lra). rewrite Rmult_plus_distr_r, E. lra. }
  pose proof (proj1 (C27_rectangle_grid_is_mesh _ _ _ _ _ _ _ _ S0 FT FT EG HN HN)) as M. destruct (nodal_exists _ _ _ _ (temp mild) M) as [p Np].
  destruct (proj1 TPr) as (Z1 & Z2 & Z3 & Z4 & Z5 & Z6). rewrite Rm in Z1, Z2, Z3, Z4. cbn [dofs] in Z1, Z2, Z3, Z4. rewrite Nat.mul_1_r in Z1, Z2, Z3, Z4. rewrite Gm in Z1, Z2, Z3, Z4. set (g := s_grid sm) in *.
  assert (YA : y_array g None (ts_prev_y1 t) (ts_prev_y2 t) = st_y_data a) by (rewrite <- (tp_prev_y _ _ _ _ _ _ TP); unfold therm_prev_y; rewrite Gm, Rm; reflexivity).
  assert (VA : y_array g None (ts_y1 t) (ts_y2 t) = st_y_data b) by (rewrite <- (tp_y _ _ _ _ _ _ TP); unfold therm_y; rewrite Gm, Rm; reflexivity).
  destruct (positions_nodal g undeformed _ _ _ LP Z1 Z2 YA A1) as [Nu1 Nu2]. destruct (positions_nodal g undeformed _ _ _ LP Z3 Z4 VA B1) as [Nv1 Nv2].
  exists t, (1 / INR N), N, p. rewrite Gm. split; [exact SN|]. split; [exact S0|]. split; [exact FT|]. split; [exact HN|]. split; [field; lra|]. split; [exact Rm|]. split; [exact EG|]. split; [reflexivity|]. split; [rewrite Fm; lra|]. split; [rewrite <- Em, Rabs_R1; lra|].
  split; [exact R2|]. split; [exact undeformed_det|]. split; [apply const_lip; lra|]. split; [intros x _; lra|]. split; [exact HM|]. split; [exact Nu1|]. split; [exact Nu2|]. split; [exact Nv1|]. split; [exact Nv2|]. split; [|exact Np].
  rewrite <- (tp_prev_theta _ _ _ _ _ _ TP) in A2. exact A2.
Qed.
