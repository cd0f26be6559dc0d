(** Every recorded step was built by the constructor from the simulation's own grids. *)
From Coq Require Import Reals Lra Lia List ZArith.
From Verif.Model Require Import Py Num Tensors Domain Refine Interp Steps Simulation.
From Verif.Spec Require Import SimSpec.
From Verif.Proofs Require Import Lib.
Local Open Scope R_scope.
Import ListNotations.

Definition made (s : sim) : Prop := forall st, In st (s_steps s) -> exists y th, new_step (s_params s) (s_grid s) (s_refined s) y th = Ok st.
Definition same4 (s s' : sim) : Prop := s_params s' = s_params s /\ s_grid s' = s_grid s /\ s_refined s' = s_refined s.
Definition keeps (f : sim -> sim * res unit) : Prop := forall s s' r, made s -> f s = (s', r) -> made s'.
Lemma keeps_mech f s s' r : made s -> on_mech f s = (s', r) -> made s'.
Proof. unfold on_mech. destruct (f (s_mech s)) as [m e]. intros H E. injection E as <- _. exact H. Qed.
Lemma keeps_therm f s s' r : made s -> on_therm f s = (s', r) -> made s'.
Proof. unfold on_therm. destruct (f (s_therm s)) as [m e]. intros H E. injection E as <- _. exact H. Qed.
Lemma keeps_andthen x k s' r : (forall s e, x = (s, e) -> made s) -> keeps k -> andthen x k = (s', r) -> made s'.
Proof. intros H K E. destruct x as [s [[]|e]]; cbn in E; [exact (K _ _ _ (H _ _ eq_refl) E)|]. injection E as <- _. exact (H _ _ eq_refl). Qed.
Lemma keeps_append y th : keeps (fun s => append_step s y th).
Proof.
  intros s s' r H E. unfold append_step in E.
  destruct (np_max (nd_data th)) as [mt|]; [|injection E as <- _; exact H].
  destruct (np_min (lims_data s 0 y)) as [x0|]; [|injection E as <- _; exact H]. destruct (np_max (lims_data s 0 y)) as [x1|]; [|injection E as <- _; exact H].
  destruct (np_min (lims_data s 1 y)) as [y0|]; [|injection E as <- _; exact H]. destruct (np_max (lims_data s 1 y)) as [y1|]; [|injection E as <- _; exact H].
  destruct (new_step (s_params s) (s_grid s) (s_refined s) y th) as [st|] eqn:N; [|injection E as <- _; exact H]. injection E as <- _.
  intros st' I. cbn in I |- *. apply in_app_or in I as [I|[<- |[]]]; [exact (H _ I)|eauto].
Qed.
Lemma keeps_single sv : keeps (run_single_step sv).
Proof.
  intros s s' r H E. unfold run_single_step, update_mechanical_step, update_thermal_step, solve_mech, solve_therm in E.
  eapply keeps_andthen; [| |exact E].
  - intros s1 e E1. eapply keeps_andthen; [| |exact E1]; [intros ? ? Q; exact (keeps_mech _ _ _ _ H Q)|]. intros s2 s2' r2 H2 E2. eapply keeps_andthen; [| |exact E2]; [intros ? ? Q; exact (keeps_mech _ _ _ _ H2 Q)|].
    intros s3 s3' r3 H3 E3. exact (keeps_mech _ _ _ _ H3 E3).
  - clear. intros s s' r H0 E. eapply keeps_andthen; [| |exact E]; [intros s1 e E1; refine (keeps_mech _ _ _ _ _ E1); exact H0|].
    clear. intros s s' r H0 E. eapply keeps_andthen; [| |exact E].
    + intros s1 e E1. eapply keeps_andthen; [| |exact E1]; [intros ? ? Q; exact (keeps_therm _ _ _ _ H0 Q)|]. intros s2 s2' r2 H2 E2. eapply keeps_andthen; [| |exact E2]; [intros ? ? Q; exact (keeps_therm _ _ _ _ H2 Q)|].
      intros s3 s3' r3 H3 E3. eapply keeps_andthen; [| |exact E3]; [intros ? ? Q; exact (keeps_therm _ _ _ _ H3 Q)|]. intros s4 s4' r4 H4 E4. exact (keeps_therm _ _ _ _ H4 E4).
    + clear. intros s s' r H0 E. eapply keeps_andthen; [| |exact E]; [intros s1 e E1; refine (keeps_therm _ _ _ _ _ E1); exact H0|]. intros s2 s2' r2 H2 E2. exact (keeps_append _ _ _ _ _ H2 E2).
Qed.
Lemma keeps_loop sv n : keeps (run_loop sv n).
Proof. induction n as [|n IH]; intros s s' r H E; cbn in E; [injection E as <- _; exact H|]. eapply keeps_andthen; [| |exact E]; [intros ? ? Q; exact (keeps_single _ _ _ _ H Q)|exact IH]. Qed.
Lemma keeps_run sv n s s' r : made s -> run sv n s = (s', r) -> made s'.
Proof.
  intros H E. unfold run in E. destruct (n <=? 0)%Z; [injection E as <- _; exact H|]. destruct (n =? 1)%Z; [exact (keeps_single _ _ _ _ H E)|exact (keeps_loop _ _ _ _ _ H E)].
Qed.
Lemma reachable_made u s : reachable u s -> made s.
Proof.
  induction 1 as [s V C|n s s' r HR IH E]; [|exact (keeps_run _ _ _ _ _ IH E)].
  unfold construct, Simulation_ in C. apply bind_ok in C as (g & _ & C). apply bind_ok in C as (rg & _ & C). apply bind_ok in C as (m0 & _ & C). apply bind_ok in C as (m & _ & C). apply bind_ok in C as (tau & _ & C).
  cbv zeta in C. destruct (append_step _ _ _) as [s1 [[]|e]] eqn:E1 in C; [|discriminate]. cbn [finish] in C. apply bind_ok in C as (t0 & _ & C). apply bind_ok in C as (t & _ & C).
  assert (H1 : made s1). { eapply keeps_append; [|exact E1]. intros st []. }
  destruct (append_step _ _ _) as [s2 [[]|e]] eqn:E2 in C; [|discriminate]. cbn [finish] in C. injection C as <-. eapply keeps_append; [|exact E2]. exact H1.
Qed.
(** The grid a step is drawn on. *)
Lemma made_grid p g rg y th st : new_step p g rg y th = Ok st ->
  match p_regularization p with
  | None => st_grid st = g
  | Some _ => exists r pg, rg = Some r /\ refine (r_grid r) PLOTTING_REFINEMENT_FACTOR = Ok pg /\ st_grid st = r_grid pg
  end.
Proof.
  unfold new_step. destruct (p_regularization p) as [e|].
  - unfold RegularizedStep_. destruct rg as [r|]; [|discriminate]. destruct (negb _); [discriminate|]. destruct (negb _); [discriminate|]. intros E.
    apply bind_ok in E as (i1 & _ & E). apply bind_ok in E as (i2 & _ & E). apply bind_ok in E as (it & _ & E). apply bind_ok in E as (pg & P & E). injection E as <-. eauto.
  - unfold Step_. cbv zeta. destruct (negb _); [discriminate|]. destruct (negb _); [discriminate|]. intros E.
    apply bind_ok in E as (i1 & _ & E). apply bind_ok in E as (i2 & _ & E). apply bind_ok in E as (it & _ & E). injection E as <-. reflexivity.
Qed.
