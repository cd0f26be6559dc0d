(** Steps that raise: what is left behind. *)
From Coq Require Import Reals Lra Lia List ZArith.
From Verif.Model Require Import Py Num Tensors Domain Refine Bell Interp Steps Simulation.
From Verif.Spec Require Import GridSpec SimSpec.
From Verif.Proofs Require Import Lib StepP SimP SimQ.
Local Open Scope R_scope.
Import ListNotations.

Section F.
Context (u : setting) (g : grid R) (rg : option (refined_grid R)) (fx : list bool) (ref1 ref2 : list R) (ST : statics u g rg).
Let p := se_params u.
Let sv := se_solver u.
Let rad := p_search_radius p.

(** A failing update of the thermal step with non-negative previous temperatures: only the external temperature can raise. *)
Lemma update_t_fail s s' e : sinv u g rg fx ref1 ref2 s -> (forall v, In v (ms_prev_theta (s_mech s)) -> 0 <= v) -> update_thermal_step s = (s', Err e) ->
  ts_y1 (s_therm s') = map v_val (ms_y1 (s_mech s)) /\ ts_y2 (s_therm s') = map v_val (ms_y2 (s_mech s)) /\ map v_val (ts_theta (s_therm s')) = ms_prev_theta (s_mech s) /\
  s_calls s' = s_calls s /\ rg = None /\ ((exists e', se_external u (s_time s) = Err e') \/ exists v, se_external u (s_time s) = Ok v /\ v < 0).
Proof.
  intros V NN E. pose proof V as [_ _ _ Jm Jt _]. destruct (mech_getters _ _ _ _ _ _ _ Jm) as [Gp [Gy Gth]]. unfold update_thermal_step in E. rewrite Gp in E. unfold on_therm at 1 in E.
  pose proof (mi_p1 _ _ _ _ _ _ _ _ Jm) as L1. pose proof (mi_p2 _ _ _ _ _ _ _ _ Jm) as L2. pose proof (mi_y1 _ _ _ _ _ _ _ _ Jm) as L3. pose proof (mi_y2 _ _ _ _ _ _ _ _ Jm) as L4. destruct (mi_pin _ _ _ _ _ _ _ _ Jm) as [P1 [P2 [P3 P4]]].
  rewrite (t_update_prev_y (se_params u) g rg _ _ _ _ _ _ _ Jt L1 L2) in E. cbn [andthen] in E. pose proof (t_with_prev_y_inv (se_params u) g rg _ _ _ _ _ _ _ Jt L1 L2 P1 P2) as J1. set (t0 := t_with_prev_y g rg (s_therm s) _ _) in *.
  change (s_mech (set_therm s t0)) with (s_mech s) in E. rewrite Gth in E. unfold on_therm at 1 in E. change (s_therm (set_therm s t0)) with t0 in E.
  destruct (therm_update_prev_theta t0 _) as [t1 r1] eqn:E1. destruct (t_update_theta _ g rg _ _ _ _ _ _ _ _ J1 (mi_th _ _ _ _ _ _ _ _ Jm) E1) as [J2 [_ [OK BAD]]].
  destruct r1 as [[]|e1]; [|destruct (BAD e1 eq_refl) as [_ [v [Hv Lv]]]; specialize (NN v Hv); lra]. destruct (OK eq_refl) as [Et1 _].
  cbn [andthen] in E. change (s_mech (set_therm (set_therm s t0) t1)) with (s_mech s) in E. rewrite Gy in E. unfold on_therm at 1 in E. change (s_therm (set_therm (set_therm s t0) t1)) with t1 in E.
  rewrite (t_update_y (se_params u) g rg _ _ _ _ _ _ _ J2 ltac:(rewrite map_length; exact L3) ltac:(rewrite map_length; exact L4)) in E. cbn [andthen] in E.
  assert (J3 : tinv (se_params u) g rg (se_external u) fx ref1 ref2 (t_with_y g rg t1 (map v_val (ms_y1 (s_mech s))) (map v_val (ms_y2 (s_mech s))))) by (apply t_with_y_inv; rewrite ?map_length; assumption).
  set (t2 := t_with_y g rg t1 _ _) in *. unfold on_therm in E. change (s_therm (set_therm (set_therm (set_therm s t0) t1) t2)) with t2 in E. change (s_time (set_therm (set_therm (set_therm s t0) t1) t2)) with (s_time s) in E.
  assert (Z : s_therm s' = t2 /\ s_calls s' = s_calls s /\ rg = None /\ ((exists e', se_external u (s_time s) = Err e') \/ exists v, se_external u (s_time s) = Ok v /\ v < 0)).
  { unfold therm_update_external_temperature in E. rewrite (ti_ref _ _ _ _ _ _ _ _ J3), (ti_ext _ _ _ _ _ _ _ _ J3) in E. destruct (opt_case rg) as [[r0 Er] | Er]; rewrite Er in E; [discriminate|].
    destruct (se_external u (s_time s)) as [v|e'] eqn:X; [destruct (Rltb v 0) eqn:LT; [apply Rltb_true in LT|discriminate]|]; injection E as <- <-; repeat split; try exact Er; eauto. }
  destruct Z as (-> & Z2 & Z3 & Z4). split; [reflexivity|]. split; [reflexivity|]. split; [|auto].
  unfold t2. cbn [t_with_y ts_theta]. rewrite Et1. cbn [t_with_theta ts_theta]. apply recenter_vals. pose proof (ti_th _ _ _ _ _ _ _ _ J1). pose proof (mi_th _ _ _ _ _ _ _ _ Jm). congruence.
Qed.

(** A failing step: either the thermal model is untouched, or it already carries the deformation of the unrecorded step. *)
Lemma failed_step s s' e : sinv u g rg fx ref1 ref2 s -> run_single_step sv s = (s', Err e) ->
  s_therm s' = s_therm s /\ (s_calls s' = s_calls s \/ s_calls s' = S (s_calls s) /\ exists m, ma_exn (sv_mech sv (s_calls s) m) = Some e) \/
  exists m1, posed_m u g rg fx ref1 ref2 m1 (ts_y1 (s_therm s)) (ts_y2 (s_therm s)) (map v_val (ts_theta (s_therm s))) (s_time s) /\
    let m2 := m_loaded u (s_calls s) m1 in
    (ts_y1 (s_therm s') = map v_val (ms_y1 m2) /\ ts_y2 (s_therm s') = map v_val (ms_y2 m2)) /\
    (s_calls s' = S (s_calls s) /\ map v_val (ts_theta (s_therm s')) = map v_val (ts_theta (s_therm s)) /\
       rg = None /\ ((exists e', se_external u (s_time s) = Err e') \/ exists v, se_external u (s_time s) = Ok v /\ v < 0) \/
     s_calls s' = S (S (s_calls s)) /\ (exists t, ta_exn (sv_therm sv (S (s_calls s)) t) = Some e) /\ exists t1, posed_t u g rg fx ref1 ref2 t1 (ts_y1 (s_therm s)) (ts_y2 (s_therm s)) (map v_val (ms_y1 m2)) (map v_val (ms_y2 m2)) (map v_val (ts_theta (s_therm s))) (s_time s) /\
       s_therm s' = t_loaded u (S (s_calls s)) t1).
Proof.
  intros I E. unfold run_single_step in E. apply andthen_inv in E as [[e0 [E _]]|[s1 [E1 E]]].
  { destruct (update_m_inv _ _ _ _ _ _ ST _ _ _ I E) as [m1 [-> _]]. left. cbn. auto. }
  destruct (update_m_inv _ _ _ _ _ _ ST _ _ _ I E1) as [m1 [-> [I1 PM]]]. specialize (PM eq_refl). set (m2 := m_loaded u (s_calls s) m1).
  assert (I2 : minv p g rg (se_traction u) fx ref1 ref2 m2) by (apply m_solve_inv, I1). apply andthen_inv in E as [[e0 [E ER]]|[s2 [E2 E]]].
  { unfold solve_mech, on_mech, mech_solve in E. cbn in E. injection E as <- X. left. cbn. split; [reflexivity|]. right. split; [reflexivity|]. exists m1. destruct (ma_exn _); congruence. }
  assert (S2 : s2 = with_models s m2 (s_therm s) (S (s_calls s))). { unfold solve_mech, on_mech, mech_solve in E2. cbn in E2. injection E2 as <- _. reflexivity. }
  assert (V2 : sinv u g rg fx ref1 ref2 s2) by (rewrite S2; apply sinv_models; [exact I|exact I2|apply I]). clear E1 E2. right. exists m1. split; [exact PM|]. cbv zeta. fold m2.
  assert (TH : ms_prev_theta (s_mech s2) = map v_val (ts_theta (s_therm s))) by (rewrite S2; exact (pm_th _ _ _ _ _ _ _ _ _ _ _ PM)).
  apply andthen_inv in E as [[e0 [E _]]|[s3 [E3 E]]].
  { destruct (update_t_fail s2 s' e0 V2) as (A & B & C & D & F); [rewrite TH; exact (pm_nn _ _ _ _ _ _ _ _ _ _ _ PM)|exact E|]. rewrite A, B, C, D, TH. rewrite S2 in *. cbn in *. split; [auto|]. left. auto. }
  destruct (update_t_inv _ _ _ _ _ _ _ _ _ V2 E3) as [t1 [S3 [J1 PT]]]. specialize (PT eq_refl). rewrite S2 in PT, S3. cbn in PT, S3. clear E3. set (t2 := t_loaded u (S (s_calls s)) t1). assert (J2 : tinv p g rg (se_external u) fx ref1 ref2 t2) by (apply t_solve_inv, J1).
  assert (Y1 : ts_y1 t2 = map v_val (ms_y1 m2)) by exact (pt_y1 _ _ _ _ _ _ _ _ _ _ _ _ _ PT). assert (Y2 : ts_y2 t2 = map v_val (ms_y2 m2)) by exact (pt_y2 _ _ _ _ _ _ _ _ _ _ _ _ _ PT).
  apply andthen_inv in E as [[e0 [E ER]]|[s4 [E4 E]]].
  { unfold solve_therm, on_therm, therm_solve in E. rewrite S3 in E. cbn in E. injection E as <- X. cbn. split; [exact (conj Y1 Y2)|]. right. split; [reflexivity|]. split; [exists t1; destruct (ta_exn _); congruence|]. exists t1.
    assert (Q1 : ms_prev_y1 m2 = ms_prev_y1 m1) by reflexivity. assert (Q2 : ms_prev_y2 m2 = ms_prev_y2 m1) by reflexivity. assert (Q3 : ms_prev_theta m2 = ms_prev_theta m1) by reflexivity.
    rewrite ?Q1, ?Q2, ?Q3, (pm_p1 _ _ _ _ _ _ _ _ _ _ _ PM), (pm_p2 _ _ _ _ _ _ _ _ _ _ _ PM), (pm_th _ _ _ _ _ _ _ _ _ _ _ PM) in PT. split; [exact PT|reflexivity]. }
  exfalso. assert (S4 : s4 = with_models s m2 t2 (S (S (s_calls s)))). { unfold solve_therm, on_therm, therm_solve in E4. rewrite S3 in E4. cbn in E4. injection E4 as <- _. reflexivity. }
  assert (V4 : sinv u g rg fx ref1 ref2 s4) by (rewrite S4; apply sinv_models; assumption). assert (T4 : s_therm s4 = t2) by (rewrite S4; reflexivity). rewrite T4 in E. destruct (therm_getters _ _ _ _ _ _ _ J2) as [_ [Gy [_ Gth]]]. rewrite Gy, Gth in E.
  destruct (append_ok u g rg ST s4 (ts_y1 t2) (ts_y2 t2) (map v_val (ts_theta t2))) as [st [mx [x0 [x1 [y0 [y1 [EA _]]]]]]]; [apply V4|apply V4|apply V4|exact (ti_y1 _ _ _ _ _ _ _ _ J2)|exact (ti_y2 _ _ _ _ _ _ _ _ J2)|rewrite map_length; exact (ti_th _ _ _ _ _ _ _ _ J2)|].
  rewrite EA in E. discriminate.
Qed.
End F.
