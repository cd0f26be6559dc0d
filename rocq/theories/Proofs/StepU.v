(** * Update methods of the steps: invariants of histories and the loops over temperatures (C61). *)
From Coq Require Import Reals Lra Lia List ZArith.
From Verif.Model Require Import Py Num Tensors Domain Refine Bell Interp Steps.
From Verif.Spec Require Import StepSpec.
From Verif.Proofs Require Import Lib StepP.
Local Open Scope R_scope.
Import ListNotations.

Lemma set_nonneg_cases old new : length old = length new ->
  (set_nonneg old new = (new, Ok tt) /\ (forall v, In v new -> 0 <= v)) \/
  (exists k, first_negative new k /\ set_nonneg old new = (firstn k new ++ skipn k old, Err ValueError)).
Proof.
  revert new. induction old as [|o old IH]; intros [|v new] L; try discriminate.
  - left. split; [reflexivity|]. intros ? [].
  - cbn [set_nonneg]. destruct (Rltb v 0) eqn:E.
    + right. exists 0%nat. split; [|reflexivity]. split; [exists v; split; [reflexivity|apply Rltb_true; exact E]|]. intros j w Hj. lia.
    + assert (Hv : 0 <= v) by (apply Rltb_false in E; lra). injection L as L. destruct (IH new L) as [[-> F]|(k & [[w [Hw Nw]] FN] & ->)].
      * left. split; [reflexivity|]. intros w [<- |Hw]; auto.
      * right. exists (S k). split; [|reflexivity]. split; [exists w; auto|]. intros [|j] x Hj Hx; [injection Hx as <-; exact Hv|]. apply (FN j); [lia|exact Hx].
Qed.
Lemma theta_loop_cases r old xs new : length old = length new -> length xs = length new ->
  (theta_loop r old xs new = (new, recenter_all r xs new, Ok tt) /\ (forall v, In v new -> 0 <= v)) \/
  (exists k, first_negative new k /\ theta_loop r old xs new = (firstn k new ++ skipn k old, recenter_all r (firstn k xs) (firstn k new) ++ skipn k xs, Err ValueError)).
Proof.
  revert xs new. induction old as [|o old IH]; intros [|x xs] [|v new] L L'; try discriminate.
  - left. split; [reflexivity|]. intros ? [].
  - cbn [theta_loop]. destruct (Rltb v 0) eqn:E.
    + right. exists 0%nat. split; [|reflexivity]. split; [exists v; split; [reflexivity|apply Rltb_true; exact E]|]. intros j w Hj. lia.
    + assert (Hv : 0 <= v) by (apply Rltb_false in E; lra). injection L as L. injection L' as L'. destruct (IH xs new L L') as [[-> F]|(k & [[w [Hw Nw]] FN] & ->)].
      * left. split; [reflexivity|]. intros w [<- |Hw]; auto.
      * right. exists (S k). split; [|reflexivity]. split; [exists w; auto|]. intros [|j] y Hj Hy; [injection Hy as <-; exact Hv|]. apply (FN j); [lia|exact Hy].
Qed.

Record mlen (m : mech) : Prop := {
  ml_p1 : length (ms_prev_y1 m) = (num_vertices (ms_grid m) * dofs (ms_refined m))%nat;
  ml_p2 : length (ms_prev_y2 m) = (num_vertices (ms_grid m) * dofs (ms_refined m))%nat;
  ml_y1 : length (ms_y1 m) = (num_vertices (ms_grid m) * dofs (ms_refined m))%nat;
  ml_y2 : length (ms_y2 m) = (num_vertices (ms_grid m) * dofs (ms_refined m))%nat;
  ml_th : length (ms_prev_theta m) = num_vertices (theta_grid (ms_grid m) (ms_refined m)) }.
Record tlen (t : therm) : Prop := {
  tl_p1 : length (ts_prev_y1 t) = (num_vertices (ts_grid t) * dofs (ts_refined t))%nat;
  tl_p2 : length (ts_prev_y2 t) = (num_vertices (ts_grid t) * dofs (ts_refined t))%nat;
  tl_y1 : length (ts_y1 t) = (num_vertices (ts_grid t) * dofs (ts_refined t))%nat;
  tl_y2 : length (ts_y2 t) = (num_vertices (ts_grid t) * dofs (ts_refined t))%nat;
  tl_pt : length (ts_prev_theta t) = num_vertices (theta_grid (ts_grid t) (ts_refined t));
  tl_th : length (ts_theta t) = num_vertices (theta_grid (ts_grid t) (ts_refined t)) }.

Lemma y_data_length g rg a : well_formed a -> nd_shape a = y_shape g rg -> length (nd_data a) = (num_vertices g * (2 * dofs rg))%nat.
Proof. intros W S. unfold well_formed in W. rewrite W, S. destruct rg; cbn; lia. Qed.
Lemma theta_data_length g rg a : well_formed a -> nd_shape a = theta_shape g rg -> length (nd_data a) = num_vertices (theta_grid g rg).
Proof. intros W S. unfold well_formed in W. rewrite W, S. unfold theta_shape. cbn. lia. Qed.
Lemma y_array_unpack g rg a : well_formed a -> nd_shape a = y_shape g rg -> y_array g rg (unpack (num_vertices g) (dofs rg) 0 (nd_data a)) (unpack (num_vertices g) (dofs rg) 1 (nd_data a)) = a.
Proof. intros W S. unfold y_array. rewrite pack_unpack by (apply y_data_length; assumption). rewrite <- S. destruct a; reflexivity. Qed.
Lemma theta_array_data g rg a : nd_shape a = theta_shape g rg -> theta_array g rg (nd_data a) = a.
Proof. intros S. unfold theta_array. rewrite <- S. destruct a; reflexivity. Qed.

Lemma traction_loop_same t vs : forall m, let m' := fst (traction_loop m t vs) in
  ms_grid m' = ms_grid m /\ ms_refined m' = ms_refined m /\ ms_prev_y1 m' = ms_prev_y1 m /\ ms_prev_y2 m' = ms_prev_y2 m /\ ms_y1 m' = ms_y1 m /\ ms_y2 m' = ms_y2 m /\ ms_prev_theta m' = ms_prev_theta m.
Proof.
  induction vs as [|v vs IH]; intros m; [cbn; repeat split; reflexivity|]. cbn [traction_loop]. destruct (traction_at m t v) as [[a b]|e]; [|cbn; repeat split; reflexivity]. exact (IH (mech_set_g m (dreplace v a (ms_g1 m)) (dreplace v b (ms_g2 m)))).
Qed.

Lemma mech_history_len m : mech_history m -> mlen m.
Proof.
  induction 1 as [g theta0 radius fps reg rg f m LP H|m a m' r HM IH W H|m a m' r HM IH W H|m t m' r HM IH H|m x m' r HM IH H].
  - assert (VL : forall l r fx, length (map (fun '(i, v) => new_var r (fx i) v) (zip (range (length l)) l)) = length l) by (intros l r fx; rewrite map_length; unfold zip; rewrite combine_length, range_length; lia).
    unfold mechanical_step in H. destruct reg as [e|].
    + destruct rg as [rg|]; [|discriminate]. unfold mech_init_reg in H. apply bind_ok in H as [ps [P H]]. destruct (Rltb theta0 0); [discriminate|]. injection H as <-.
      pose proof (mapM_length _ _ _ P) as L.
      assert (F : forall (A : Type) (h : R * R -> list A) (l : list (R * R)), (forall z, length (h z) = 6%nat) -> length (flat_map h l) = (length l * 6)%nat) by (intros A h l Hh; induction l as [|z l IHl]; [reflexivity|cbn [flat_map]; rewrite app_length, Hh, IHl; cbn; lia]).
      constructor; cbn [ms_prev_y1 ms_prev_y2 ms_y1 ms_y2 ms_prev_theta ms_grid ms_refined dofs theta_grid]; rewrite ?VL, ?map_length; rewrite ?F by (intros []; reflexivity); unfold num_vertices; rewrite ?L, ?LP; reflexivity.
    + unfold mech_init_plain in H. apply bind_ok in H as [ps [P H]]. destruct (Rltb theta0 0); [discriminate|]. apply bind_ok in H as [[g1 g2] [_ H]]. injection H as <-.
      pose proof (mapM_length _ _ _ P) as L.
      constructor; cbn [ms_prev_y1 ms_prev_y2 ms_y1 ms_y2 ms_prev_theta ms_grid ms_refined dofs theta_grid]; rewrite ?VL, ?map_length; unfold num_vertices; rewrite ?L, ?LP; lia.
  - destruct IH as [P1 P2 Y1 Y2 TH]. unfold mech_update_prev_y in H. destruct (shape_is a _) eqn:S; cbn [negb] in H; injection H as <- _; [|constructor; assumption]. apply shape_is_spec in S.
    pose proof (y_data_length _ _ _ W S) as D.
    assert (U : forall c, (c < 2)%nat -> length (unpack (num_vertices (ms_grid m)) (dofs (ms_refined m)) c (nd_data a)) = (num_vertices (ms_grid m) * dofs (ms_refined m))%nat) by (intros c Hc; apply unpack_length; [exact Hc|exact D]).
    constructor; cbn [ms_prev_y1 ms_prev_y2 ms_y1 ms_y2 ms_prev_theta ms_grid ms_refined]; try rewrite recenter_length; rewrite ?U by lia; try assumption; lia.
  - destruct IH as [P1 P2 Y1 Y2 TH]. unfold mech_update_prev_theta in H. destruct (shape_is a _) eqn:S; cbn [negb] in H; [|injection H as <- _; constructor; assumption].
    destruct (set_nonneg _ _) as [l e] eqn:E. injection H as <- _. constructor; cbn; try assumption. pose proof (set_nonneg_length (ms_prev_theta m) (nd_data a)) as L. rewrite E in L. cbn in L. rewrite L. exact TH.
  - destruct IH as [P1 P2 Y1 Y2 TH]. unfold mech_update_boundary_traction in H. destruct (ms_refined m) eqn:Er; [injection H as <- _; constructor; rewrite ?Er; assumption|].
    pose proof (traction_loop_same t (b_vertices (g_neumann (ms_grid m))) m) as T. rewrite H in T. cbn [fst] in T. destruct T as (A & B & C & D & E & F & G). constructor; rewrite ?A, ?B, ?C, ?D, ?E, ?F, ?G, ?Er; assumption.
  - destruct IH as [P1 P2 Y1 Y2 TH]. unfold mech_solve in H. injection H as <- _. constructor; cbn; rewrite ?load_length; assumption.
Qed.
Lemma therm_history_len t : therm_history t -> tlen t.
Proof.
  induction 1 as [g py y pt radius fps reg ext rg t W1 W2 W3 H|t a t' r HM IH W H|t a t' r HM IH W H|t a t' r HM IH W H|t x t' r HM IH H|t x t' r HM IH H].
  - assert (K : exists rg', therm_init g rg' py y pt radius fps ext = Ok t) by (unfold thermal_step in H; destruct reg as [e|]; [destruct rg as [rg|]; [|discriminate]|]; eauto). clear H. destruct K as [rg' H].
    unfold therm_init in H. apply bind_ok in H as [e0 [_ H]]. apply bind_ok in H as [[] [C H]]. unfold check_prev_step_data in C.
    destruct (shape_is py _) eqn:S1; cbn [negb] in C; [|discriminate]. destruct (shape_is y _) eqn:S2; cbn [negb] in C; [|discriminate]. destruct (shape_is pt _) eqn:S3; cbn [negb] in C; [|discriminate].
    apply shape_is_spec in S1, S2, S3. destruct (all_nonneg _); cbn [negb] in H; [|discriminate]. destruct (Rltb e0 0); [discriminate|]. injection H as <-.
    constructor; cbn [ts_prev_y1 ts_prev_y2 ts_y1 ts_y2 ts_prev_theta ts_theta ts_grid ts_refined]; rewrite ?map_length; try (apply unpack_length; [lia|apply y_data_length; assumption]); apply theta_data_length; assumption.
  - destruct IH. unfold therm_update_prev_y in H. destruct (shape_is a _) eqn:S; cbn [negb] in H; injection H as <- _; [|constructor; assumption]. apply shape_is_spec in S.
    constructor; cbn [ts_prev_y1 ts_prev_y2 ts_y1 ts_y2 ts_prev_theta ts_theta ts_grid ts_refined]; try assumption; (apply unpack_length; [lia|apply y_data_length; assumption]).
  - destruct IH. unfold therm_update_y in H. destruct (shape_is a _) eqn:S; cbn [negb] in H; injection H as <- _; [|constructor; assumption]. apply shape_is_spec in S.
    constructor; cbn [ts_prev_y1 ts_prev_y2 ts_y1 ts_y2 ts_prev_theta ts_theta ts_grid ts_refined]; try assumption; (apply unpack_length; [lia|apply y_data_length; assumption]).
  - destruct IH. unfold therm_update_prev_theta in H. destruct (shape_is a _) eqn:S; cbn [negb] in H; [|injection H as <- _; constructor; assumption].
    pose proof (theta_loop_length (ts_radius t) (ts_prev_theta t) (ts_theta t) (nd_data a)) as L. destruct (theta_loop _ _ _ _) as [[ps xs] e]. injection H as <- _. destruct L as [L1 L2].
    constructor; cbn [ts_prev_y1 ts_prev_y2 ts_y1 ts_y2 ts_prev_theta ts_theta ts_grid ts_refined]; try assumption; congruence.
  - destruct IH as [A B C D E F]. unfold therm_update_external_temperature in H. destruct (ts_refined t) eqn:Er; [injection H as <- _; constructor; rewrite ?Er; assumption|].
    destruct (ts_external t x) as [v|e]; [destruct (Rltb v 0)|]; injection H as <- _; constructor; cbn; rewrite ?Er; assumption.
  - destruct IH. unfold therm_solve in H. injection H as <- _. constructor; cbn; rewrite ?load_length; assumption.
Qed.

(** The steps of a simulation are histories. *)
From Verif.Model Require Import Simulation.
From Verif.Spec Require Import SimSpec.
Lemma y_array_wf g rg y1 y2 : length y1 = (num_vertices g * dofs rg)%nat -> length y2 = (num_vertices g * dofs rg)%nat -> well_formed (y_array g rg y1 y2).
Proof. intros A B. unfold well_formed, y_array. cbn [nd_data nd_shape]. rewrite pack_length by assumption. destruct rg; cbn; lia. Qed.
Lemma theta_array_wf g rg l : length l = num_vertices (theta_grid g rg) -> well_formed (theta_array g rg l).
Proof. intros A. unfold well_formed, theta_array, theta_shape. cbn. lia. Qed.
Definition hists (s : sim) : Prop := mech_history (s_mech s) /\ therm_history (s_therm s).
Lemma hists_andthen x k : hists (fst x) -> (forall s, hists s -> hists (fst (k s))) -> hists (fst (andthen x k)).
Proof. destruct x as [s [[]|e]]; cbn; auto. Qed.
Lemma on_mech_hist f s : hists s -> (forall m', m' = fst (f (s_mech s)) -> mech_history m') -> hists (fst (on_mech f s)).
Proof. intros [A B] F. unfold on_mech. destruct (f (s_mech s)) as [m e]. split; cbn; auto. Qed.
Lemma on_therm_hist f s : hists s -> (forall t', t' = fst (f (s_therm s)) -> therm_history t') -> hists (fst (on_therm f s)).
Proof. intros [A B] F. unfold on_therm. destruct (f (s_therm s)) as [m e]. split; cbn; auto. Qed.
Lemma surj {A B} (x : A * B) a : a = fst x -> x = (a, snd x). Proof. intros ->. destruct x; reflexivity. Qed.
Lemma mech_wf m : mech_history m -> well_formed (mech_prev_y m) /\ well_formed (mech_y m) /\ well_formed (mech_prev_theta m).
Proof. intros H. destruct (mech_history_len m H). unfold mech_prev_y, mech_y, mech_prev_theta. repeat split; first [apply y_array_wf|apply theta_array_wf]; rewrite ?map_length; assumption. Qed.
Lemma therm_wf t : therm_history t -> well_formed (therm_prev_y t) /\ well_formed (therm_y t) /\ well_formed (therm_prev_theta t) /\ well_formed (therm_theta t).
Proof. intros H. destruct (therm_history_len t H). unfold therm_prev_y, therm_y, therm_prev_theta, therm_theta. repeat split; first [apply y_array_wf|apply theta_array_wf]; rewrite ?map_length; assumption. Qed.
Lemma append_hist s y th : hists s -> hists (fst (append_step s y th)).
Proof.
  intros H. assert (K : s_mech (fst (append_step s y th)) = s_mech s /\ s_therm (fst (append_step s y th)) = s_therm s).
  { unfold append_step. repeat match goal with |- context [match ?x with _ => _ end] => destruct x end; split; reflexivity. }
  destruct K as [K1 K2]. unfold hists. rewrite K1, K2. exact H.
Qed.
Lemma single_hist sv s : hists s -> hists (fst (run_single_step sv s)).
Proof.
  intros H. unfold run_single_step. apply hists_andthen.
  { unfold update_mechanical_step. apply hists_andthen; [|clear s H; intros s H; apply hists_andthen; [|clear s H; intros s H]].
    - apply on_mech_hist; [exact H|]. intros m' E. eapply mh_prev_y; [apply H| |apply surj; exact E]. apply therm_wf, H.
    - apply on_mech_hist; [exact H|]. intros m' E. eapply mh_prev_theta; [apply H| |apply surj; exact E]. apply therm_wf, H.
    - apply on_mech_hist; [exact H|]. intros m' E. eapply mh_traction; [apply H|apply surj; exact E]. }
  clear s H; intros s H. apply hists_andthen.
  { unfold solve_mech. apply on_mech_hist; [exact H|]. intros m' E. eapply mh_solve; [apply H|apply surj; exact E]. }
  clear s H; intros s H. apply hists_andthen.
  { unfold update_thermal_step. apply hists_andthen; [|clear s H; intros s H; apply hists_andthen; [|clear s H; intros s H; apply hists_andthen; [|clear s H; intros s H]]].
    - apply on_therm_hist; [exact H|]. intros m' E. eapply th_prev_y; [apply H| |apply surj; exact E]. apply mech_wf, H.
    - apply on_therm_hist; [exact H|]. intros m' E. eapply th_prev_theta; [apply H| |apply surj; exact E]. apply mech_wf, H.
    - apply on_therm_hist; [exact H|]. intros m' E. eapply th_y; [apply H| |apply surj; exact E]. apply mech_wf, H.
    - apply on_therm_hist; [exact H|]. intros m' E. eapply th_external; [apply H|apply surj; exact E]. }
  clear s H; intros s H. apply hists_andthen.
  { unfold solve_therm. apply on_therm_hist; [exact H|]. intros m' E. eapply th_solve; [apply H|apply surj; exact E]. }
  clear s H; intros s H. apply append_hist, H.
Qed.
Lemma loop_hist sv n : forall s, hists s -> hists (fst (run_loop sv n s)).
Proof. induction n as [|n IH]; intros s H; [exact H|]. cbn [run_loop]. apply hists_andthen; [apply single_hist, H|exact IH]. Qed.
Lemma run_hist sv n s : hists s -> hists (fst (run sv n s)).
Proof. intros H. unfold run. destruct (n <=? 0)%Z; [exact H|]. destruct (n =? 1)%Z; [apply single_hist, H|apply loop_hist, H]. Qed.
