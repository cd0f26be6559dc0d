(** * A concrete case that meets the hypotheses of C122. *)
From Coq Require Import Reals Lra Lia List ZArith Psatz String.
From Coquelicot Require Import Coquelicot.
From Verif.Spec Require Import GridSpec QuadSpec BellSpec InterpSpec RefineSpec PotentialSpec.
From Verif.Model Require Import Py Num Tensors Domain Refine Quadrature Integrators Expr Bell Interp Helpers Steps Simulation.
From Verif.Spec Require Import SimSpec LiveSpec StepSpec EnergySpec IdealSpec WarmSpec CalmRSpec.
From Verif.Proofs Require Import Lib StdOrder SimP SimQ SimR SimH SimL SimA SimC SimE.
From Verif.Props Require Import SimProps IdealProps EnergyExamples NearExamples StillExamples FlatProps FlatRestProps.
Local Open Scope R_scope.
Import ListNotations.
Local Notation length := List.length.

(** Simulations of any length of the unit square at temperature 1 with the traction [[t, x * y]] and the external temperature
    [1 + t], on arbitrarily fine meshes down to width 1e-13, with regularization and an exact solver. *)
Example C122_example : forall N n, (1 <= N)%nat -> INR N <= 10 ^ 13 -> (1 <= n)%nat -> exists sm r, let u := fine_ideal N in undisturbed u sm /\ exact lg0 (se_solver u) /\ LiveSpec.fine_enough u /\ s_refined sm = Some r /\
  (forall e, p_regularization (se_params u) = Some e -> 0 < e) /\ p_scale (se_params u) <= se_width u /\ p_scale (se_params u) <= se_height u /\ 0 < p_fps (se_params u) /\ warm 1 /\ p_initial_temperature (se_params u) = 1 /\
  length (s_steps sm) = (n + 2)%nat.
Proof.
  intros N n HN N13 Hn. set (u := fine_ideal N). assert (NP : 0 < INR N) by (apply lt_0_INR; lia). assert (SP : 0 < 1 / INR N) by (apply Rdiv_lt_0_compat; lra). assert (PF : 0 < p_fps (se_params u)) by (cbn; lra).
  assert (V : valid_setting u).
  { unfold valid_setting. cbn [u fine_ideal se_width se_height se_params]. split; [lra|]. split; [lra|]. exists (fine_params N). unfold SimulationParams_, fine_params, Rleb0. cbn [p_initial_temperature p_search_radius p_fps p_scale p_regularization p_refinement_factor].
    rewrite (proj2 (Rltb_false 1 0)) by lra. rewrite (proj2 (Rltb_true 0 1)) by lra. rewrite (proj2 (Rltb_false 10 0)) by lra. rewrite (proj2 (Rltb_true 0 (1 / INR N))) by lra. reflexivity. }
  assert (SL : 1 / INR N <= 1). { apply (le_INR 1) in HN. change (INR 1) with 1 in HN. unfold Rdiv. rewrite Rmult_1_l. assert (Q : / INR N <= / 1) by (apply Rinv_le_contravar; lra). lra. }
  assert (FE : LiveSpec.fine_enough u).
  { unfold LiveSpec.fine_enough. cbn [u fine_ideal fine_params se_params se_width se_height p_regularization p_refinement_factor p_scale]. split; [exact SL|]. split; [exact SL|]. replace (1 / INR N / (5 * 2)) with (/ (INR N * 10)) by (field; lra). apply Rinv_le_contravar; [lra|]. clear -N13. lra. }
  assert (FF : forall t, 0 <= t -> forcing_fine u t) by (intros t Ht; split; [intros x y; eexists _, _; reflexivity|eexists; split; [reflexivity|lra]]).
  destruct (ideal_exact lg0) as (NR & RD & _). destruct (construct_live u V PF FE (FF 0 (Rle_refl 0)) NR) as [s0 C]. assert (U0 : undisturbed u s0) by (apply u_construct; assumption).
  destruct (run_live u s0 (Z.of_nat n) U0 PF FF NR RD ltac:(lia)) as [s E]. pose proof (u_run u (Z.of_nat n) s0 s U0 E) as U.
  destruct (C57_grid_of_the_domain u s (undisturbed_reachable u s U)) as (_ & _ & ER & _). destruct (s_refined s) as [r|] eqn:Hr; [|pose proof (proj1 ER eq_refl); discriminate].
  exists s, r. cbv zeta. split; [exact U|]. split; [exact (ideal_exact lg0)|]. split; [exact FE|]. split; [exact Hr|]. split; [intros e E1; cbn in E1; injection E1 as <-; lra|].
  split; [exact SL|]. split; [exact SL|]. split; [exact PF|]. split; [apply warm_1|]. split; [reflexivity|].
  destruct (C65_run_adds_steps u s0 (Z.of_nat n) s (undisturbed_reachable u s0 U0) E) as [_ [new [En Ln]]]. rewrite En, app_length, (C65_construction u s0 V C). lia.
Qed.
