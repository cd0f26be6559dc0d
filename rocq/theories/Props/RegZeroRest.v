(** * C122, C123: solutions and simulations of undeformed regularized bodies are translations.
    Vocabulary: Spec/EnergySpec.v, Spec/WarmSpec.v, Spec/FlatSpec.v. *)
From Coq Require Import Reals Lra Lia List ZArith Psatz.
From Coquelicot Require Import Coquelicot.
From Verif.Spec Require Import GridSpec QuadSpec BellSpec InterpSpec RefineSpec PotentialSpec.
From Verif.Model Require Import Py Num Tensors Domain Refine Quadrature Integrators Expr Bell Interp Helpers Steps Simulation.
From Verif.Spec Require Import SimSpec LiveSpec StepSpec EnergySpec MotionSpec MechSpec IdealSpec WarmSpec CalmRSpec FlatSpec.
From Verif.Proofs Require Import Lib Lattice MeshLat MeshP RefineSetup GridP GridCover InterpP HatP QuadP IntegP StepP StepU StepE StepF StepG StepH SimP SimH SimL SimA SimR ThermP MechP FlatF FlatH.
From Verif.Props Require Import GridProps QuadProps RefineProps SimProps EnergyProps EnergyExamples AffineProps MechExistProps IdealProps RestProps WarmProps FlatProps FlatRestProps RegZeroProps.
Local Open Scope R_scope.
Import ListNotations.
Local Notation length := List.length.

Lemma some_fine_triangle g r s a b : good_grids g (Some r) s a b -> exists t, In t (g_triangles (r_grid r)).
Proof.
  intros (Hs & Ha & Hb & M & (N & HN & He & Rf)). destruct (setup_of g s a b N r Hs Ha Hb HN He M Rf) as (Hh & QQ & C & Ts & E & SU). pose proof (su_lm _ _ _ _ _ _ _ _ _ SU) as LM.
  assert (TI : ltri_in a b (low 0 0)) by (apply low_in; unfold cbox; cbn [fst snd]; lia). apply (lm_tin _ _ _ _ _ _ _ LM) in TI.
  destruct (fine_in_coarse g s a b N r C Ts E _ Hs Ha Hb HN He M Rf SU TI) as ([[i j] k] & p & q & q' & (IT & _) & _). eauto.
Qed.
(** A flat deformation with constant strain is affine with that gradient. *)
Lemma flat_strain_affine g r s a b F y1 y2 : good_grids g (Some r) s a b -> length y1 = (length (g_vertices g) * 6)%nat -> length y2 = (length (g_vertices g) * 6)%nat ->
  strains_are g r (fun _ _ => F) y1 y2 -> flat g r y1 y2 -> exists c1 c2, affine_field g (Some r) (f11 F) (f12 F) c1 y1 /\ affine_field g (Some r) (f21 F) (f22 F) c2 y2.
Proof.
  intros GG L1 L2 SA FL. destruct (flat_components g r s a b y1 y2 GG L1 L2 FL) as (A & c1 & c2 & A1 & A2). exists c1, c2.
  destruct (some_fine_triangle g r s a b GG) as [t Ht]. destruct dun5_good as (q & Eq & Gq). assert (NE : exists l, In l (q_points q)) by (destruct Gq as (_ & N & _); destruct (q_points q) as [|l ls]; [contradiction N; reflexivity|exists l; left; reflexivity]). destruct NE as [l Hl].
  destruct (field _ _ _ _ _ GG t l Ht (proj2 (proj2 Gq) l Hl)) as (X & Y & FU). pose proof (SA q t l Eq Ht Hl) as ES. rewrite (field_strain _ _ t l X Y _ _ FU L1 L2), (strain_affine _ _ t l X Y A c1 c2 _ _ FU A1 A2) in ES.
  assert (EA : A = F) by (apply mat_inj; congruence). subst A. split; assumption.
Qed.
Lemma affine_strains_are g r s a b F c1 c2 y1 y2 : good_grids g (Some r) s a b -> affine_field g (Some r) (f11 F) (f12 F) c1 y1 -> affine_field g (Some r) (f21 F) (f22 F) c2 y2 -> strains_are g r (fun _ _ => F) y1 y2.
Proof.
  intros GG A1 A2 q t p Eq Ht Hp. destruct dun5_good as (q0 & E0 & G0). assert (q = q0) as -> by congruence. destruct (field _ _ _ _ _ GG t p Ht (proj2 (proj2 G0) p Hp)) as (X & Y & FU).
  rewrite (field_strain _ _ t p X Y _ _ FU (proj1 A1) (proj1 A2)), (strain_affine _ _ t p X Y F c1 c2 _ _ FU A1 A2). reflexivity.
Qed.
(** With regularization and dissipation, at or above the transition temperature: from a rotated and shifted undeformed state all
    solutions of the mechanical step are translations of that state. *)
Theorem C123_solutions : forall lg m r h a b Q c1 c2, problem_grids (ms_grid m) (ms_refined m) h a b -> mech_history m -> ms_refined m = Some r ->
  (forall x, In x (ms_prev_theta m) -> warm x) -> 0 < ms_fps m -> 0 < ms_reg m -> mech_feasible m (ms_prev_y1 m) (ms_prev_y2 m) ->
  rotation Q -> affine_field (ms_grid m) (ms_refined m) (f11 Q) (f12 Q) c1 (ms_prev_y1 m) -> affine_field (ms_grid m) (ms_refined m) (f21 Q) (f22 Q) c2 (ms_prev_y2 m) ->
  forall y1 y2, mech_minimizes lg m y1 y2 ->
  exists d1 d2, affine_field (ms_grid m) (ms_refined m) (f11 Q) (f12 Q) d1 y1 /\ affine_field (ms_grid m) (ms_refined m) (f21 Q) (f22 Q) d2 y2.
Proof.
  intros lg m r h a b Q c1 c2 PG HM Hr WT F0 R0 FE RQ A1 A2 y1 y2 MY. pose proof (mech_history_sized m HM) as MS. pose proof (problem_good _ _ _ _ _ PG) as GG.
  assert (NR : ms_refined m <> None) by congruence. pose proof (C78_hyperelastic_energy_affine m h a b Q c1 c2 _ _ PG NR A1 A2) as HZ.
  destruct (energy_rule_good (ms_grid m) (ms_refined m)) as (q & Eq & Gq & Pq). assert (E5 : DUNAVANT5 = Ok q) by (unfold energy_rule in Eq; rewrite Hr in Eq; exact Eq). destruct (grid_integrator _ _ h a b GG q) as [I EI]. destruct (proj1 MS) as [P1 P2 Y1 Y2 _].
  apply (flat_iff m r h a b PG Hr q E5 Gq Pq I EI _ _ P1 P2) in HZ. rewrite Hr in GG, A1, A2 |- *. pose proof (affine_strains_are _ r h a b Q c1 c2 _ _ GG A1 A2) as SA.
  destruct (C122_mechanical_step lg m r h a b (fun _ _ => Q) PG HM Hr WT F0 R0 FE (fun _ _ => RQ) SA HZ) as [_ UN]. destruct (UN y1 y2 MY) as [SY FY]. destruct MY as ((F1 & F2 & _) & _).
  pose proof (Forall2_len _ _ _ F1) as K1. pose proof (Forall2_len _ _ _ F2) as K2. rewrite Hr in Y1, Y2. cbn [dofs] in Y1, Y2. unfold num_vertices in Y1, Y2.
  apply (flat_strain_affine _ r h a b Q y1 y2 GG); [congruence|congruence|exact SY|exact FY].
Qed.
Print Assumptions C123_solutions.
(** The simulations of C122 only shift the body ... *)
Theorem C122_translation : forall u lg sm r T0, undisturbed u sm -> exact lg (se_solver u) -> LiveSpec.fine_enough u -> s_refined sm = Some r -> (forall e, p_regularization (se_params u) = Some e -> 0 < e) ->
  p_scale (se_params u) <= se_width u -> p_scale (se_params u) <= se_height u -> 0 < p_fps (se_params u) -> warm T0 -> p_initial_temperature (se_params u) = T0 ->
  forall a, In a (s_steps sm) -> exists c1 c2, shifted_step (s_grid sm) c1 c2 T0 a.
Proof.
  intros u lg sm r T0 H EX FE Hr RP Hw Hh FP WT IT a Ia. destruct (C122_simulation u lg sm r T0 H EX FE Hr RP Hw Hh FP WT IT a Ia) as [(y1 & y2 & K1 & K2 & YA & SA & FL) TT].
  destruct (reachable_hist u sm (undisturbed_reachable u sm H)) as (g0 & rg & ps & G & HI). destruct (hist_grid _ _ _ _ _ HI) as (Eg & Er & _). rewrite Hr in Er. subst rg.
  destruct (ground_grids u FE Hw Hh g0 (Some r) ps G) as (mc & nc & GG & _). rewrite <- Eg in GG. destruct (flat_strain_affine _ r _ mc nc id2 y1 y2 GG K1 K2 SA FL) as (c1 & c2 & A1 & A2).
  exists c1, c2. split; [|exact TT]. intros v x P j Hj. assert (Hv : (v < num_vertices (s_grid sm))%nat).
  { pose proof (proj2 A1 v x P 0%nat ltac:(cbn; lia)) as A. cbn [dofs nth_error] in A. assert (v * 6 + 0 < length y1)%nat by (apply nth_error_Some; congruence). rewrite K1 in H0. lia. }
  rewrite <- YA. rewrite (y_at_array _ (Some r) y1 y2 v 0 j K1 K2 Hv ltac:(lia) Hj), (y_at_array _ (Some r) y1 y2 v 1 j K1 K2 Hv ltac:(lia) Hj). cbn [Nat.eqb].
  rewrite (proj2 A1 v x P j Hj), (proj2 A2 v x P j Hj). unfold id2, PotentialSpec.st. cbn [f11 f12 f21 f22]. split; do 2 f_equal; ring.
Qed.
Print Assumptions C122_translation.
(** ... and do not move it at all if a side is fixed. *)
Theorem C122_held : forall u lg sm r T0, undisturbed u sm -> exact lg (se_solver u) -> LiveSpec.fine_enough u -> s_refined sm = Some r -> (forall e, p_regularization (se_params u) = Some e -> 0 < e) ->
  p_scale (se_params u) <= se_width u -> p_scale (se_params u) <= se_height u -> 0 < p_fps (se_params u) -> warm T0 -> p_initial_temperature (se_params u) = T0 -> (exists d, fixed_side (se_fix u) d) ->
  forall a, In a (s_steps sm) -> shifted_step (s_grid sm) 0 0 T0 a.
Proof.
  intros u lg sm r T0 H EX FE Hr RP Hw Hh FP WT IT [d FS] a Ia. destruct (C122_translation u lg sm r T0 H EX FE Hr RP Hw Hh FP WT IT a Ia) as (c1 & c2 & SH & TT).
  pose proof (undisturbed_reachable u sm H) as HR. destruct (C57_grid_of_the_domain u sm HR) as (DG & _). destruct (reachable_hist u sm HR) as (g0 & rg & ps & G & HI). destruct (hist_grid _ _ _ _ _ HI) as (Eg & _).
  destruct (ground_grids u FE Hw Hh g0 rg ps G) as (mc & nc & GG & Fw & Fh). destruct GG as (Hs & Hm & Hn & _). pose proof (grid_spec _ _ _ _ _ _ _ _ Hs Fw Fh DG) as HG.
  assert (VS : exists v x, In v (b_vertices (g_dirichlet (s_grid sm))) /\ point_at (s_grid sm) v x).
  { set (i := match d with Right => mc | _ => 0%nat end). set (j := match d with Upper => nc | _ => 0%nat end). assert (Bi : (i <= mc)%nat) by (unfold i; destruct d; lia). assert (Bj : (j <= nc)%nat) by (unfold j; destruct d; lia).
    pose proof (proj2 (vertex_at_ptv (s_grid sm) (se_order u) mc nc (se_fix u) _ Hs HG (pair_to_vertex (S mc) i j) i j) (conj Bi (conj Bj eq_refl))) as VA. exists (pair_to_vertex (S mc) i j), (INR i * p_scale (se_params u), INR j * p_scale (se_params u)). split; [|exact (proj2 VA)].
    apply (proj2 (C17_dirichlet_vertices _ _ _ _ _ _ _ _ Hs Fw Fh DG)). exists d. split; [exact FS|]. exists i, j. split; [exact VA|]. unfold on_side, i, j. destruct d; auto. }
  destruct VS as (v & [x1 x2] & ID & P). destruct (C57_dirichlet_vertices_stay u sm a v x1 x2 HR Ia ID P) as [B1 B2]. destruct (SH v _ P 0%nat ltac:(lia)) as [S1 S2]. cbn [nth_error fst snd] in S1, S2.
  assert (c1 = 0) as -> by (assert (x1 + c1 = x1) by congruence; lra). assert (c2 = 0) as -> by (assert (x2 + c2 = x2) by congruence; lra). split; assumption.
Qed.
Print Assumptions C122_held.
