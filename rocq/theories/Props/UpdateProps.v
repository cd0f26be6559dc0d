(** * Properties of the update methods of single time steps: C61. *)
From Coq Require Import Reals Lra Lia List ZArith String.
From Verif.Spec Require Import GridSpec.
From Verif.Model Require Import Py Num Tensors Domain Refine Bell Interp Steps Simulation.
From Verif.Spec Require Import SimSpec LiveSpec StepSpec.
From Verif.Proofs Require Import Lib GridP StepP SimP SimR SimH SimL SimA SimE StepU.
From Verif.Props Require Import GridProps SimProps.
Local Open Scope R_scope.
Import ListNotations.

Lemma construct_hist u s : valid_setting u -> construct u = Ok s -> hists s.
Proof.
  intros V H. pose proof (params_ok u V) as (PT0 & PR & PF & PS & _). destruct V as [Hw [Hh _]]. unfold construct, Simulation_ in H.
  apply bind_ok in H as [g [Eg H]]. apply bind_ok in H as [rg [Er H]]. apply bind_ok in H as [m0 [Em H]]. apply bind_ok in H as [m [Es H]]. apply bind_ok in H as [tau [_ H]].
  destruct (fits_exists _ _ Hw PS) as [mc Hmc]. destruct (fits_exists _ _ Hh PS) as [nc Hnc]. destruct (C11_vertices_numbered _ _ _ _ _ _ _ _ PS Hmc Hnc Eg) as [GV GL].
  assert (LP : List.length (g_points g) = List.length (g_vertices g)) by (rewrite GL, GV, seq_length; reflexivity).
  pose proof (mh_new _ _ _ _ _ _ _ _ LP Em) as M0. assert (M : mech_history m).
  { unfold mech_solved in Es. destruct (mech_solve _ m0) as [m1 e] eqn:E. apply bind_ok in Es as [[] [_ Es]]. injection Es as <-. eapply mh_solve; eassumption. }
  destruct (append_step _ (mech_prev_y m) _) as [s1 [[]|e]] eqn:A1; cbn [finish] in H; [|discriminate].
  apply bind_ok in H as [t0 [Et H]]. apply bind_ok in H as [t [Ets H]].
  destruct (mech_wf m M) as (W1 & W2 & W3). pose proof (th_new _ _ _ _ _ _ _ _ _ _ W1 W2 W3 Et) as T0. assert (T : therm_history t).
  { unfold therm_solved in Ets. destruct (therm_solve _ t0) as [t1 e] eqn:E. apply bind_ok in Ets as [[] [_ Ets]]. injection Ets as <-. eapply th_solve; eassumption. }
  destruct (append_step (count_call _) _ _) as [s2 [[]|e]] eqn:A2; cbn [finish] in H; [|discriminate]. injection H as <-.
  assert (K : forall s y th, s_mech (fst (append_step s y th)) = s_mech s) by (intros; unfold append_step; repeat match goal with |- context [match ?x with _ => _ end] => destruct x end; reflexivity).
  assert (S1 : s_mech s1 = m). { pose proof (K (mkSim (se_params u) g rg m (mkTherm g rg 0 0 [] [] [] [] [] [] 0 (se_external u)) [] tau (- tau) 0 None None 1) (mech_prev_y m) (mech_prev_theta m)) as Z. rewrite A1 in Z. exact Z. }
  assert (B : hists (count_call (set_therm s1 t))) by (split; [cbn; rewrite S1; exact M|exact T]). pose proof (append_hist _ (therm_y t) (therm_theta t) B) as C. rewrite A2 in C. exact C.
Qed.

(** ** C61 *)
(** The mechanical and thermal steps inside every simulation, at every crash point, are among the steps quantified over below. *)
Theorem C61_steps_of_simulations : forall u s, reachable u s -> mech_history (s_mech s) /\ therm_history (s_therm s).
Proof.
  intros u s H. change (hists s). induction H as [s V C|n s s' r H IH R]; [exact (construct_hist u s V C)|].
  pose proof (run_hist (se_solver u) n s IH) as K. rewrite R in K. exact K.
Qed.
Print Assumptions C61_steps_of_simulations.

(** Deformations: the ValueError exactly for a wrong shape, then nothing has changed; otherwise the getters return the new array. *)
Theorem C61_mech_update_prev_y : forall m a m' r, mech_history m -> well_formed a -> mech_update_prev_y m a = (m', r) ->
  (nd_shape a <> deformation_shape (ms_grid m) (ms_refined m) -> m' = m /\ r = Err ValueError) /\
  (nd_shape a = deformation_shape (ms_grid m) (ms_refined m) ->
     r = Ok tt /\ mech_prev_y m' = a /\ mech_y m' = a /\ mech_prev_theta m' = mech_prev_theta m /\ same_mech_setup m m' /\
     boxed (ms_radius m) (ms_y1 m') (ms_prev_y1 m') /\ boxed (ms_radius m) (ms_y2 m') (ms_prev_y2 m') /\
     map v_fixed (ms_y1 m') = map v_fixed (ms_y1 m) /\ map v_fixed (ms_y2 m') = map v_fixed (ms_y2 m)).
Proof.
  intros m a m' r HM W H. unfold mech_update_prev_y in H. destruct (shape_is a _) eqn:S; cbn [negb] in H.
  - apply shape_is_spec in S. injection H as <- <-. split; [intros N; exfalso; apply N; exact S|]. intros _. split; [reflexivity|]. destruct (mech_history_len m HM).
    assert (U : forall c, (c < 2)%nat -> List.length (unpack (num_vertices (ms_grid m)) (dofs (ms_refined m)) c (nd_data a)) = (num_vertices (ms_grid m) * dofs (ms_refined m))%nat) by (intros c Hc; apply unpack_length; [exact Hc|apply y_data_length; assumption]).
    assert (U0 := U 0%nat ltac:(lia)). assert (U1 := U 1%nat ltac:(lia)).
    unfold mech_prev_y, mech_y, mech_prev_theta, same_mech_setup, boxed. cbn [ms_grid ms_refined ms_prev_y1 ms_prev_y2 ms_y1 ms_y2 ms_prev_theta ms_radius ms_fps ms_reg ms_traction ms_g1 ms_g2].
    rewrite !recenter_vals by congruence. rewrite y_array_unpack by assumption. rewrite !recenter_fixed by congruence.
    destruct (recenter_bounds (ms_radius m) (ms_y1 m) _ (eq_trans ml_y1 (eq_sym U0))) as [-> ->]. destruct (recenter_bounds (ms_radius m) (ms_y2 m) _ (eq_trans ml_y2 (eq_sym U1))) as [-> ->]. auto 20.
  - injection H as <- <-. split; [auto|]. intros E. exfalso. pose proof (proj2 (shape_is_spec a (y_shape (ms_grid m) (ms_refined m))) E). congruence.
Qed.
Print Assumptions C61_mech_update_prev_y.
Theorem C61_therm_update_prev_y : forall t a t' r, therm_history t -> well_formed a -> therm_update_prev_y t a = (t', r) ->
  (nd_shape a <> deformation_shape (ts_grid t) (ts_refined t) -> t' = t /\ r = Err ValueError) /\
  (nd_shape a = deformation_shape (ts_grid t) (ts_refined t) ->
     r = Ok tt /\ therm_prev_y t' = a /\ therm_y t' = therm_y t /\ therm_prev_theta t' = therm_prev_theta t /\ ts_theta t' = ts_theta t /\ same_therm_setup t t').
Proof.
  intros t a t' r HM W H. unfold therm_update_prev_y in H. destruct (shape_is a _) eqn:S; cbn [negb] in H.
  - apply shape_is_spec in S. injection H as <- <-. split; [intros N; exfalso; apply N; exact S|]. intros _.
    unfold therm_prev_y, therm_y, therm_prev_theta, same_therm_setup. cbn [ts_grid ts_refined ts_prev_y1 ts_prev_y2 ts_y1 ts_y2 ts_prev_theta ts_theta ts_radius ts_fps ts_ext ts_external].
    rewrite y_array_unpack by assumption. auto 20.
  - injection H as <- <-. split; [auto|]. intros E. exfalso. pose proof (proj2 (shape_is_spec a (y_shape (ts_grid t) (ts_refined t))) E). congruence.
Qed.
Print Assumptions C61_therm_update_prev_y.
Theorem C61_therm_update_y : forall t a t' r, therm_history t -> well_formed a -> therm_update_y t a = (t', r) ->
  (nd_shape a <> deformation_shape (ts_grid t) (ts_refined t) -> t' = t /\ r = Err ValueError) /\
  (nd_shape a = deformation_shape (ts_grid t) (ts_refined t) ->
     r = Ok tt /\ therm_y t' = a /\ therm_prev_y t' = therm_prev_y t /\ therm_prev_theta t' = therm_prev_theta t /\ ts_theta t' = ts_theta t /\ same_therm_setup t t').
Proof.
  intros t a t' r HM W H. unfold therm_update_y in H. destruct (shape_is a _) eqn:S; cbn [negb] in H.
  - apply shape_is_spec in S. injection H as <- <-. split; [intros N; exfalso; apply N; exact S|]. intros _.
    unfold therm_prev_y, therm_y, therm_prev_theta, same_therm_setup. cbn [ts_grid ts_refined ts_prev_y1 ts_prev_y2 ts_y1 ts_y2 ts_prev_theta ts_theta ts_radius ts_fps ts_ext ts_external].
    rewrite y_array_unpack by assumption. auto 20.
  - injection H as <- <-. split; [auto|]. intros E. exfalso. pose proof (proj2 (shape_is_spec a (y_shape (ts_grid t) (ts_refined t))) E). congruence.
Qed.
Print Assumptions C61_therm_update_y.

(** Temperatures: a wrong shape raises and changes nothing, a non-negative array of the right shape is set.  An array of the right shape with
    a negative entry raises as well, but the entries before the first negative one have been set: "all-or-nothing" fails (next theorem). *)
Theorem C61_mech_update_prev_theta_partial : forall m a m' r, mech_history m -> well_formed a -> mech_update_prev_theta m a = (m', r) ->
  (nd_shape a <> temperature_shape (ms_grid m) (ms_refined m) -> m' = m /\ r = Err ValueError) /\
  (nd_shape a = temperature_shape (ms_grid m) (ms_refined m) ->
     mech_prev_y m' = mech_prev_y m /\ ms_y1 m' = ms_y1 m /\ ms_y2 m' = ms_y2 m /\ same_mech_setup m m' /\
     (non_negative_array a /\ r = Ok tt /\ mech_prev_theta m' = a \/
      exists k, first_negative (nd_data a) k /\ r = Err ValueError /\
        nd_data (mech_prev_theta m') = (firstn k (nd_data a) ++ skipn k (nd_data (mech_prev_theta m)))%list)).
Proof.
  intros m a m' r HM W H. unfold mech_update_prev_theta in H. destruct (shape_is a _) eqn:S; cbn [negb] in H.
  - apply shape_is_spec in S. split; [intros N; exfalso; apply N; rewrite S; unfold theta_shape, temperature_shape; destruct (ms_refined m); reflexivity|]. intros _.
    destruct (set_nonneg_cases (ms_prev_theta m) (nd_data a)) as [[E F]|(k & FN & E)]; [rewrite (ml_th m (mech_history_len m HM)); symmetry; apply theta_data_length; assumption| |]; rewrite E in H; injection H as <- <-; unfold mech_prev_y, same_mech_setup; cbn; (do 3 (split; [reflexivity|])); (split; [auto 10|]).
    + left. split; [exact F|]. split; [reflexivity|]. apply theta_array_data, S.
    + right. exists k. auto.
  - injection H as <- <-. split; [auto|]. intros E. exfalso. assert (E' : nd_shape a = theta_shape (ms_grid m) (ms_refined m)) by (rewrite E; unfold theta_shape, temperature_shape; destruct (ms_refined m); reflexivity). apply shape_is_spec in E'. congruence.
Qed.
Print Assumptions C61_mech_update_prev_theta_partial.
Theorem C61_therm_update_prev_theta_partial : forall t a t' r, therm_history t -> well_formed a -> therm_update_prev_theta t a = (t', r) ->
  (nd_shape a <> temperature_shape (ts_grid t) (ts_refined t) -> t' = t /\ r = Err ValueError) /\
  (nd_shape a = temperature_shape (ts_grid t) (ts_refined t) ->
     therm_prev_y t' = therm_prev_y t /\ therm_y t' = therm_y t /\ same_therm_setup t t' /\
     (non_negative_array a /\ r = Ok tt /\ therm_prev_theta t' = a /\ therm_theta t' = a /\ boxed (ts_radius t) (ts_theta t') (nd_data a) \/
      exists k, first_negative (nd_data a) k /\ r = Err ValueError /\
        nd_data (therm_prev_theta t') = (firstn k (nd_data a) ++ skipn k (nd_data (therm_prev_theta t)))%list /\
        nd_data (therm_theta t') = (firstn k (nd_data a) ++ skipn k (nd_data (therm_theta t)))%list)).
Proof.
  intros t a t' r HM W H. pose proof (therm_history_len t HM) as TL. unfold therm_update_prev_theta in H. destruct (shape_is a _) eqn:S; cbn [negb] in H.
  - apply shape_is_spec in S. split; [intros N; exfalso; apply N; rewrite S; unfold theta_shape, temperature_shape; destruct (ts_refined t); reflexivity|]. intros _.
    pose proof (theta_data_length _ _ _ W S) as L. assert (L1 : List.length (ts_theta t) = List.length (nd_data a)) by (rewrite (tl_th t TL); symmetry; exact L).
    destruct (theta_loop_cases (ts_radius t) (ts_prev_theta t) (ts_theta t) (nd_data a)) as [[E F]|(k & FN & E)]; [rewrite (tl_pt t TL); symmetry; exact L|exact L1| |]; rewrite E in H; injection H as <- <-; unfold therm_prev_y, therm_y, same_therm_setup, therm_prev_theta, therm_theta; cbn [ts_grid ts_refined ts_prev_y1 ts_prev_y2 ts_y1 ts_y2 ts_prev_theta ts_theta ts_radius ts_fps ts_ext ts_external]; (do 2 (split; [reflexivity|])); (split; [auto 10|]).
    + left. split; [exact F|]. split; [reflexivity|]. rewrite recenter_vals by exact L1. rewrite theta_array_data by exact S. split; [reflexivity|]. split; [reflexivity|]. split; [apply recenter_vals, L1|apply recenter_bounds, L1].
    + right. exists k. split; [exact FN|]. split; [reflexivity|]. split; [reflexivity|]. cbn [theta_array nd_data]. rewrite map_app, recenter_vals by (rewrite !firstn_length; lia). rewrite skipn_map. reflexivity.
  - injection H as <- <-. split; [auto|]. intros E. exfalso. assert (E' : nd_shape a = theta_shape (ts_grid t) (ts_refined t)) by (rewrite E; unfold theta_shape, temperature_shape; destruct (ts_refined t); reflexivity). apply shape_is_spec in E'. congruence.
Qed.
Print Assumptions C61_therm_update_prev_theta_partial.
(** On every step with at least two temperature vertices there are arrays of the right shape whose rejection leaves the step changed. *)
Theorem C61_temperature_all_or_nothing_refuted :
  (forall m, mech_history m -> (2 <= num_vertices (theta_grid (ms_grid m) (ms_refined m)))%nat -> exists a m', well_formed a /\ nd_shape a = temperature_shape (ms_grid m) (ms_refined m) /\
     mech_update_prev_theta m a = (m', Err ValueError) /\ mech_prev_theta m' <> mech_prev_theta m) /\
  (forall t, therm_history t -> (2 <= num_vertices (theta_grid (ts_grid t) (ts_refined t)))%nat -> exists a t', well_formed a /\ nd_shape a = temperature_shape (ts_grid t) (ts_refined t) /\
     therm_update_prev_theta t a = (t', Err ValueError) /\ therm_prev_theta t' <> therm_prev_theta t).
Proof.
  assert (ONE : forall o, Rabs o + 1 <> o) by (intros o E; pose proof (Rle_abs o); lra). assert (POS : forall o, Rltb (Rabs o + 1) 0 = false) by (intros o; apply Rltb_false; pose proof (Rabs_pos o); lra). assert (NEG : Rltb (-1) 0 = true) by (apply Rltb_true; lra).
  split.
  - intros m HM N2. pose proof (ml_th m (mech_history_len m HM)) as L. destruct (ms_prev_theta m) as [|o [|o' rest]] eqn:E; cbn [List.length] in L; [lia|lia|].
    exists (mkArr (theta_shape (ms_grid m) (ms_refined m)) (Rabs o + 1 :: -1 :: rest)). eexists. split; [unfold well_formed, theta_shape; cbn; lia|]. split; [unfold theta_shape, temperature_shape; destruct (ms_refined m); reflexivity|].
    unfold mech_update_prev_theta. rewrite (proj2 (shape_is_spec _ _)) by reflexivity. cbn [negb nd_data]. rewrite E. cbn [set_nonneg]. rewrite POS, NEG. split; [reflexivity|]. unfold mech_prev_theta. cbn. rewrite E. intros Q. injection Q as Q. exact (ONE o Q).
  - intros t HM N2. pose proof (therm_history_len t HM) as TL. pose proof (tl_pt t TL) as L. pose proof (tl_th t TL) as L'. destruct (ts_prev_theta t) as [|o [|o' rest]] eqn:E; cbn [List.length] in L; [lia|lia|]. destruct (ts_theta t) as [|x [|x' xs]] eqn:E'; cbn [List.length] in L'; [lia|lia|].
    exists (mkArr (theta_shape (ts_grid t) (ts_refined t)) (Rabs o + 1 :: -1 :: rest)). eexists. split; [unfold well_formed, theta_shape; cbn; lia|]. split; [unfold theta_shape, temperature_shape; destruct (ts_refined t); reflexivity|].
    unfold therm_update_prev_theta. rewrite (proj2 (shape_is_spec _ _)) by reflexivity. cbn [negb nd_data]. rewrite E, E'. cbn [theta_loop]. rewrite POS, NEG. split; [reflexivity|]. unfold therm_prev_theta. cbn. rewrite E. intros Q. injection Q as Q. exact (ONE o Q).
Qed.
Print Assumptions C61_temperature_all_or_nothing_refuted.
(** Example: the steps of a simulation with 2x2 cells after 3 runs; they accept a deformation array of shape (9, 2) and reject one of shape (2, 9). *)
Example C61_example : let u := ex_setting None [] in exists s a b, reachable u s /\ mech_history (s_mech s) /\ therm_history (s_therm s) /\
  (2 <= num_vertices (theta_grid (ms_grid (s_mech s)) (ms_refined (s_mech s))))%nat /\ (2 <= num_vertices (theta_grid (ts_grid (s_therm s)) (ts_refined (s_therm s))))%nat /\
  well_formed a /\ well_formed b /\ nd_shape a = [9%nat; 2%nat] /\ nd_shape b = [2%nat; 9%nat] /\
  snd (mech_update_prev_y (s_mech s) a) = Ok tt /\ mech_update_prev_y (s_mech s) b = (s_mech s, Err ValueError).
Proof.
  intros u. destruct (ex_state None ltac:(discriminate)) as (s & U & L & Eg & Er & _). pose proof (undisturbed_reachable _ _ U) as H. destruct (C61_steps_of_simulations u s H) as [HM HT].
  destruct (undisturbed_chain u s U) as (g & rg & ps & G & CH). pose proof (ch_hist _ _ _ _ _ CH) as HH. destruct (hist_grid _ _ _ _ _ HH) as (Eg' & Er' & _).
  pose proof (SimQ.si_m _ _ _ _ _ _ _ (hi_inv _ _ _ _ _ HH)) as IM. pose proof (SimQ.si_t _ _ _ _ _ _ _ (hi_inv _ _ _ _ _ HH)) as IT. apply proj2 in Er. specialize (Er eq_refl).
  assert (NV : num_vertices g = 9%nat). { rewrite <- Eg'. destruct (C11_vertices_numbered _ _ _ _ _ _ _ _ ex_pos ex_fits1 ex_fits1 Eg) as [V _]. unfold num_vertices. rewrite V, seq_length. reflexivity. }
  assert (A : ms_grid (s_mech s) = g) by apply IM. assert (B : ts_grid (s_therm s) = g) by apply IT. assert (C : ms_refined (s_mech s) = None) by (rewrite <- Er, Er'; apply IM). assert (D : ts_refined (s_therm s) = None) by (rewrite <- Er, Er'; apply IT).
  exists s, (mkArr [9%nat; 2%nat] (repeat 7 18)), (mkArr [2%nat; 9%nat] (repeat 7 18)). rewrite A, B, C, D. cbn [theta_grid]. rewrite NV.
  repeat (split; [first [exact H|exact HM|exact HT|lia|reflexivity]|]).
  unfold mech_update_prev_y. rewrite A, C. unfold y_shape. rewrite NV. split; reflexivity.
Qed.
