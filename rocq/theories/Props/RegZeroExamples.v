(** * Concrete cases that meet the hypotheses of C123 and of the theorems on translations of C122. *)
From Coq Require Import Reals Lra Lia List ZArith Psatz String.
From Coquelicot Require Import Coquelicot.
From Verif.Spec Require Import GridSpec QuadSpec BellSpec InterpSpec RefineSpec PotentialSpec.
From Verif.Model Require Import Py Num Tensors Domain Refine Quadrature Integrators Expr Bell Interp Helpers Steps Simulation.
From Verif.Spec Require Import SimSpec LiveSpec StepSpec EnergySpec MotionSpec MechSpec IdealSpec WarmSpec CalmRSpec FlatSpec.
From Verif.Proofs Require Import Lib Lattice RefineP MeshLat MeshP RefineOut RefineEdge StdOrder ThermP MechP SimP SimQ SimR SimH SimL SimA SimC SimE.
From Verif.Props Require Import SimProps EnergyProps EnergyExamples AffineProps MechExistProps IdealProps RestProps WarmProps NearExamples StillExamples FlatProps FlatRestProps FlatRestExamples RegZeroProps RegZeroRest.
Local Open Scope R_scope.
Import ListNotations.
Local Notation length := List.length.

(** The unit square in 2 x 2 cells with regularization: the undeformed body has no regularization energy, a deformation that lifts a
    single vertex has some. *)
Example C123_example : exists m z, problem_grids (ms_grid m) (ms_refined m) (1/2) 2 2 /\ ms_refined m <> None /\
  length (ms_prev_y1 m) = (num_vertices (ms_grid m) * 6)%nat /\ length (ms_prev_y2 m) = (num_vertices (ms_grid m) * 6)%nat /\ length z = (num_vertices (ms_grid m) * 6)%nat /\
  mech_hyper_elastic_energy m (ms_prev_y1 m) (ms_prev_y2 m) = Ok 0 /\ mech_hyper_elastic_energy m z (ms_prev_y2 m) <> Ok 0.
Proof.
  destruct (C120_rest_example (Some 1) (or_intror eq_refl)) as (m & PG & HM & Er & _ & _ & _ & _ & _ & _ & _ & A1 & A2 & _).
  assert (NR : ms_refined m <> None) by (intros N; apply Er in N; discriminate).
  destruct (problem_good _ _ _ _ _ PG) as (Hs & Ha & Hb & M & _). destruct (lmesh_of_mesh _ _ _ _ Hs Ha Hb M) as (C & Ts & E & LM).
  assert (LC : num_vertices (ms_grid m) = length C) by (unfold num_vertices; rewrite (lm_v _ _ _ _ _ _ _ LM); unfold range; apply seq_length).
  assert (B0 : box 2 2 (0, 0)%Z) by (unfold box; cbn; lia). assert (B1 : box 2 2 (1, 0)%Z) by (unfold box; cbn; lia). set (v0 := idx C (0, 0)%Z). set (v1 := idx C (1, 0)%Z).
  assert (V0 : (v0 < length C)%nat) by (apply idx_lt, (lm_box _ _ _ _ _ _ _ LM), B0). assert (V1 : (v1 < length C)%nat) by (apply idx_lt, (lm_box _ _ _ _ _ _ _ LM), B1).
  assert (NE : v1 <> v0). { intros Q. apply idx_inj in Q; [discriminate|apply (lm_box _ _ _ _ _ _ _ LM), B1|apply (lm_box _ _ _ _ _ _ _ LM), B0]. }
  pose proof (proj1 A1) as L1. pose proof (proj1 A2) as L2. destruct (ms_refined m) as [r|] eqn:Hr; [|congruence]. cbn [dofs] in L1, L2.
  set (NK := (num_vertices (ms_grid m) * 6)%nat). set (z := map (fun i => if Nat.eqb i (v0 * 6) then 1 else 0) (seq 0 NK)).
  assert (ZN : forall i, (i < NK)%nat -> nth_error z i = Some (if Nat.eqb i (v0 * 6) then 1 else 0)).
  { intros i Hi. unfold z. rewrite nth_error_map, nth_error_nth' with (d := 0%nat) by (rewrite seq_length; exact Hi). rewrite seq_nth by exact Hi. reflexivity. }
  assert (LZ : length z = NK) by (unfold z; rewrite map_length; apply seq_length).
  exists m, z. rewrite Hr. split; [exact PG|]. split; [exact NR|]. split; [exact L1|]. split; [exact L2|]. split; [exact LZ|]. rewrite <- Hr in PG, A1, A2, NR.
  split; [exact (C78_hyperelastic_energy_affine m _ _ _ id2 0 0 _ _ PG NR A1 A2)|]. intros Q.
  apply (C123_regularization_zero m _ _ _ z (ms_prev_y2 m) PG NR LZ L2) in Q as (A & c1 & c2 & [_ Z1] & _). rewrite Hr in Z1. cbn [dofs] in Z1.
  pose proof (Z1 v0 _ (at_lp _ _ _ _ _ _ _ LM _ B0)) as P0. pose proof (Z1 v1 _ (at_lp _ _ _ _ _ _ _ LM _ B1)) as P1. unfold lp in P0, P1. cbn [fst snd] in P0, P1.
  pose proof (P0 0%nat ltac:(lia)) as Q0. pose proof (P0 1%nat ltac:(lia)) as Q1. pose proof (P1 0%nat ltac:(lia)) as Q2.
  rewrite ZN in Q0, Q1, Q2 by (unfold NK; rewrite LC; lia). cbn [nth_error] in Q0, Q1, Q2.
  rewrite (proj2 (Nat.eqb_eq _ _)) in Q0 by lia. rewrite (proj2 (Nat.eqb_neq _ _)) in Q1 by lia. rewrite (proj2 (Nat.eqb_neq _ _)) in Q2 by lia.
  injection Q0 as Q0. injection Q1 as Q1. injection Q2 as Q2. rewrite <- Q1 in Q0, Q2. lra.
Qed.
(** The same body at temperature 1 with dissipation and regularization, and a solution of its next step. *)
Example C123_solutions_example : exists m r y1 y2, problem_grids (ms_grid m) (ms_refined m) (1/2) 2 2 /\ mech_history m /\ ms_refined m = Some r /\
  (forall x, In x (ms_prev_theta m) -> warm x) /\ 0 < ms_fps m /\ 0 < ms_reg m /\ mech_feasible m (ms_prev_y1 m) (ms_prev_y2 m) /\ rotation id2 /\
  affine_field (ms_grid m) (ms_refined m) (f11 id2) (f12 id2) 0 (ms_prev_y1 m) /\ affine_field (ms_grid m) (ms_refined m) (f21 id2) (f22 id2) 0 (ms_prev_y2 m) /\ mech_minimizes lg0 m y1 y2.
Proof.
  destruct (C120_rest_example (Some 1) (or_intror eq_refl)) as (m & PG & HM & Er & LG & WT & UL & F0 & R0 & FE & RQ & A1 & A2 & FP & RG). destruct (ms_refined m) as [r|] eqn:Hr; [|pose proof (proj1 Er eq_refl); discriminate].
  exists m, r, (ms_prev_y1 m), (ms_prev_y2 m). rewrite Hr. split; [exact PG|]. split; [exact HM|]. split; [reflexivity|]. split; [exact WT|]. split; [exact FP|]. split; [rewrite (RG 1 eq_refl); lra|]. split; [exact FE|]. split; [exact RQ|]. split; [exact A1|]. split; [exact A2|].
  rewrite <- Hr in PG, R0, A1, A2. refine (proj1 (C120_rest lg0 m _ _ _ id2 0 0 PG HM (fun _ => LG) WT UL F0 R0 FE RQ A1 A2)).
Qed.
(** The simulations of C122_example have a fixed side. *)
Example C122_held_example : forall N n, (1 <= N)%nat -> INR N <= 10 ^ 13 -> (1 <= n)%nat -> exists sm r, let u := fine_ideal N in undisturbed u sm /\ exact lg0 (se_solver u) /\ LiveSpec.fine_enough u /\ s_refined sm = Some r /\
  (forall e, p_regularization (se_params u) = Some e -> 0 < e) /\ p_scale (se_params u) <= se_width u /\ p_scale (se_params u) <= se_height u /\ 0 < p_fps (se_params u) /\ warm 1 /\ p_initial_temperature (se_params u) = 1 /\
  (exists d, fixed_side (se_fix u) d) /\ length (s_steps sm) = (n + 2)%nat.
Proof.
  intros N n HN N13 Hn. destruct (C122_example N n HN N13 Hn) as (sm & r & H). exists sm, r. cbv zeta in *. destruct H as (H1 & H2 & H3 & H4 & H5 & H6 & H7 & H8 & H9 & H10 & H11).
  do 10 (split; [assumption|]). split; [exists Left; left; reflexivity|assumption].
Qed.
