(** One step of the simulation. *)
From Coq Require Import Reals Lra Lia List ZArith.
From Verif.Model Require Import Py Num Tensors Domain Refine Bell Interp Steps Simulation.
From Verif.Spec Require Import GridSpec SimSpec.
From Verif.Proofs Require Import Lib StepP SimP.
Local Open Scope R_scope.
Import ListNotations.

Lemma unit_tt (x : unit) : x = tt. Proof. destruct x. reflexivity. Qed.
Lemma andthen_inv x k s' r : andthen x k = (s', r) -> (exists e, x = (s', Err e) /\ r = Err e) \/ (exists s1, x = (s1, Ok tt) /\ k s1 = (s', r)).
Proof. destruct x as [s [a|e]]; cbn; intros H; [right; exists s; rewrite (unit_tt a); auto|left; exists e; injection H as -> <-; auto]. Qed.

Lemma fold_max l a : let m := fold_left Rmax l a in (forall x, In x (a :: l) -> x <= m) /\ In m (a :: l).
Proof.
  revert a. induction l as [|b l IH]; intros a; cbn; [split; [intros x [-> |[]]; lra|auto]|]. destruct (IH (Rmax a b)) as [A B]. cbn in A, B. split.
  - pose proof (A _ (or_introl eq_refl)) as T. pose proof (Rmax_l a b). pose proof (Rmax_r a b). intros x [<- |[<- |Hx]]; [lra|lra|apply A; auto].
  - destruct B as [B|B]; [|auto]. rewrite <- B. unfold Rmax. destruct (Rle_dec a b); auto.
Qed.
Lemma fold_min l a : let m := fold_left Rmin l a in (forall x, In x (a :: l) -> m <= x) /\ In m (a :: l).
Proof.
  revert a. induction l as [|b l IH]; intros a; cbn; [split; [intros x [-> |[]]; lra|auto]|]. destruct (IH (Rmin a b)) as [A B]. cbn in A, B. split.
  - pose proof (A _ (or_introl eq_refl)) as T. pose proof (Rmin_l a b). pose proof (Rmin_r a b). intros x [<- |[<- |Hx]]; [lra|lra|apply A; auto].
  - destruct B as [B|B]; [|auto]. rewrite <- B. unfold Rmin. destruct (Rle_dec a b); auto.
Qed.
Lemma np_max_ok l : l <> [] -> exists m, np_max l = Ok m /\ is_max l m.
Proof. destruct l as [|a l]; [congruence|]. intros _. destruct (fold_max l a) as [A B]. eexists. split; [reflexivity|]. split; assumption. Qed.
Lemma np_min_ok l : l <> [] -> exists m, np_min l = Ok m /\ is_min l m.
Proof. destruct l as [|a l]; [congruence|]. intros _. destruct (fold_min l a) as [A B]. eexists. split; [reflexivity|]. split; assumption. Qed.

Section One.
Context (u : setting) (g : grid R) (rg : option (refined_grid R)) (fx : list bool) (ref1 ref2 : list R).
Let p := se_params u.
Let sv := se_solver u.
Let N := num_vertices g.
Let K := dofs rg.
Let NT := num_vertices (theta_grid g rg).
Let rad := p_search_radius p.
Let MI := minv p g rg (se_traction u) fx ref1 ref2.
Let TI := tinv p g rg (se_external u) fx ref1 ref2.

(** What never changes. *)
Record statics : Prop := {
  sta_N : (0 < N)%nat; sta_NT : (0 < NT)%nat;
  sta_planar : forall q, In q (g_points g) -> exists x y, q = [x; y];
  sta_reg : match p_regularization p with None => rg = None | Some _ => exists r pg, rg = Some r /\ refine (r_grid r) PLOTTING_REFINEMENT_FACTOR = Ok pg end
}.
Record sinv (s : sim) : Prop := {
  si_p : s_params s = p; si_g : s_grid s = g; si_r : s_refined s = rg; si_m : MI (s_mech s); si_t : TI (s_therm s); si_tau : ndiv 1 (p_fps p) = Ok (s_tau s)
}.
Context (ST : statics).

(** The step object holding given data. *)
Record holds (st : step) (a1 a2 th : list R) : Prop := {
  ho_y : st_y_data st = y_array g rg a1 a2; ho_th : st_theta_data st = theta_array g rg th;
  ho_i1 : st_y1 st = match rg with None => P1I g a1 | Some _ => C1I g (chunks N 6 a1) end;
  ho_i2 : st_y2 st = match rg with None => P1I g a2 | Some _ => C1I g (chunks N 6 a2) end;
  ho_ith : st_theta st = P1I (theta_grid g rg) th
}.
Lemma chunks_ok {A} (l : list A) : length l = (N * 6)%nat -> length (chunks N 6 l) = N /\ forall c, In c (chunks N 6 l) -> length c = 6%nat.
Proof.
  intros H. unfold chunks. rewrite map_length, range_length. split; [reflexivity|]. intros c Hc. apply in_map_iff in Hc as [i [<- Hi]]. apply in_range in Hi. apply slice_length. rewrite H. lia.
Qed.
Lemma new_step_ok a1 a2 th : length a1 = (N * K)%nat -> length a2 = (N * K)%nat -> length th = NT ->
  exists st, new_step p g rg (y_array g rg a1 a2) (theta_array g rg th) = Ok st /\ holds st a1 a2 th.
Proof.
  intros H1 H2 H3. destruct (unpack_pack N K a1 a2 H1 H2) as [E1 E2]. pose proof (sta_reg ST) as SR. unfold new_step. destruct (p_regularization p) as [e|].
  - destruct SR as [r [pg [Er Epg]]]. unfold y_array, theta_array. unfold K in *. rewrite Er in *. cbn [RegularizedStep_ dofs y_shape theta_shape theta_grid] in *. unfold RegularizedStep_. unfold shape_is. cbn [nd_shape]. fold N.
    assert (Q1 : nats_eqb [N; 2%nat; 6%nat] [N; 2%nat; 6%nat] = true) by (apply nats_eqb_spec; reflexivity). assert (Q2 : nats_eqb [num_vertices (r_grid r)] [num_vertices (r_grid r)] = true) by (apply nats_eqb_spec; reflexivity).
    unfold y_shape, theta_shape, theta_grid. fold N. rewrite Q1, Q2. cbn [negb nd_data]. rewrite E1, E2.
    assert (C : forall a, length a = (N * 6)%nat -> C1Interpolation_ g (chunks N 6 a) = Ok (C1I g (chunks N 6 a))).
    { intros a Ha. destruct (chunks_ok a Ha) as [L6 L]. unfold C1Interpolation_. destruct (existsb _ _) eqn:X.
      - apply existsb_exists in X as [c [Hc X]]. rewrite (L c Hc) in X. discriminate.
      - rewrite L6. unfold N, num_vertices. rewrite Nat.eqb_refl. reflexivity. }
    rewrite (C a1 H1), (C a2 H2). cbn [bind]. unfold P1Interpolation_. assert (L3 : length th = length (g_vertices (r_grid r))) by (unfold NT in H3; rewrite Er in H3; exact H3). rewrite L3, Nat.eqb_refl. cbn [negb bind]. rewrite Epg. cbn [bind].
    eexists. split; [reflexivity|]. split; cbn; rewrite ?Er; reflexivity.
  - unfold y_array, theta_array. unfold K in *. rewrite SR in *. cbn [dofs y_shape theta_shape theta_grid] in *. unfold Step_. unfold shape_is. cbn [nd_shape]. fold N.
    assert (Q1 : nats_eqb [N; 2%nat] [N; 2%nat] = true) by (apply nats_eqb_spec; reflexivity). assert (Q2 : nats_eqb [N] [N] = true) by (apply nats_eqb_spec; reflexivity).
    unfold y_shape, theta_shape, theta_grid. fold N. rewrite Q1, Q2. cbn [negb nd_data]. rewrite E1, E2. unfold P1Interpolation_. assert (LN : length (g_vertices g) = N) by reflexivity. assert (L3 : length th = N) by (unfold NT in H3; rewrite SR in H3; exact H3).
    rewrite LN, L3, H1, H2, !Nat.mul_1_r, !Nat.eqb_refl. cbn [negb bind]. eexists. split; [reflexivity|]. split; cbn; rewrite ?SR; reflexivity.
Qed.
Lemma lims_ok s a1 a2 : s_grid s = g -> length a1 = (N * K)%nat -> length a2 = (N * K)%nat -> lims_data s 0 (y_array g rg a1 a2) = a1 /\ lims_data s 1 (y_array g rg a1 a2) = a2.
Proof.
  intros Hg H1 H2. destruct (unpack_pack N K a1 a2 H1 H2) as [E1 E2]. unfold lims_data, y_array. rewrite Hg. cbn [nd_shape nd_data]. fold N. fold K in E1, E2 |- *.
  assert (Q : match y_shape g rg with [_; _; k] => k | _ => 1%nat end = K) by (unfold K, y_shape, dofs; destruct (opt_case rg) as [[r Er] | Er]; rewrite Er; reflexivity). rewrite Q. auto.
Qed.
Lemma K_pos : (0 < K)%nat. Proof. unfold K, dofs. destruct (opt_case rg) as [[r Er] | Er]; rewrite Er; lia. Qed.
Lemma append_ok s a1 a2 th : s_params s = p -> s_grid s = g -> s_refined s = rg -> length a1 = (N * K)%nat -> length a2 = (N * K)%nat -> length th = NT ->
  exists st mx x0 x1 y0 y1, append_step s (y_array g rg a1 a2) (theta_array g rg th) =
     (push_step (set_plot s (Rmax (s_max_temp s) mx) (join_lims (s_xlims s) x0 x1) (join_lims (s_ylims s) y0 y1)) st, Ok tt) /\
  holds st a1 a2 th /\ is_max th mx /\ is_min a1 x0 /\ is_max a1 x1 /\ is_min a2 y0 /\ is_max a2 y1.
Proof.
  intros Hp Hg Hr H1 H2 H3. pose proof (sta_N ST) as PN. pose proof (sta_NT ST) as PNT. pose proof K_pos as PK.
  assert (Z : forall A (l : list A) n, length l = n -> (0 < n)%nat -> l <> []) by (intros A [|a l] n E Q; [cbn in E; lia|discriminate]).
  destruct (np_max_ok th (Z _ _ _ H3 PNT)) as [mx [Emx Mmx]].
  assert (PNK : (0 < N * K)%nat) by nia. destruct (np_min_ok a1 (Z _ _ _ H1 PNK)) as [x0 [Ex0 Mx0]]. destruct (np_max_ok a1 (Z _ _ _ H1 PNK)) as [x1 [Ex1 Mx1]]. destruct (np_min_ok a2 (Z _ _ _ H2 PNK)) as [y0 [Ey0 My0]]. destruct (np_max_ok a2 (Z _ _ _ H2 PNK)) as [y1 [Ey1 My1]].
  destruct (new_step_ok a1 a2 th H1 H2 H3) as [st [Est Hst]]. exists st, mx, x0, x1, y0, y1. split; [|auto 10].
  unfold append_step. destruct (lims_ok s a1 a2 Hg H1 H2) as [L1 L2]. rewrite L1, L2. unfold theta_array at 1. cbn [nd_data]. rewrite Emx, Ex0, Ex1, Ey0, Ey1, Hp, Hg, Hr, Est. reflexivity.
Qed.

(** Replacing the two models. *)
Definition with_models (s : sim) (m : mech) (t : therm) (c : nat) : sim :=
  mkSim (s_params s) (s_grid s) (s_refined s) m t (s_steps s) (s_tau s) (s_time s) (s_max_temp s) (s_xlims s) (s_ylims s) c.
Lemma sinv_models s m t c : sinv s -> MI m -> TI t -> sinv (with_models s m t c).
Proof. intros [A B C D E F] Hm Ht. split; auto. Qed.

Lemma mech_getters m : MI m -> mech_prev_y m = y_array g rg (ms_prev_y1 m) (ms_prev_y2 m) /\ mech_y m = y_array g rg (map v_val (ms_y1 m)) (map v_val (ms_y2 m)) /\ mech_prev_theta m = theta_array g rg (ms_prev_theta m).
Proof. intros I. unfold mech_prev_y, mech_y, mech_prev_theta. rewrite (mi_grid _ _ _ _ _ _ _ _ I), (mi_ref _ _ _ _ _ _ _ _ I). auto. Qed.
Lemma therm_getters t : TI t -> therm_prev_y t = y_array g rg (ts_prev_y1 t) (ts_prev_y2 t) /\ therm_y t = y_array g rg (ts_y1 t) (ts_y2 t) /\ therm_prev_theta t = theta_array g rg (ts_prev_theta t) /\ therm_theta t = theta_array g rg (map v_val (ts_theta t)).
Proof. intros I. unfold therm_prev_y, therm_y, therm_prev_theta, therm_theta. rewrite (ti_grid _ _ _ _ _ _ _ _ I), (ti_ref _ _ _ _ _ _ _ _ I). auto. Qed.

(** The mechanical problem posed for given previous data. *)
Record posed_m (m : mech) (a1 a2 th : list R) (time : R) : Prop := {
  pm_inv : MI m; pm_p1 : ms_prev_y1 m = a1; pm_p2 : ms_prev_y2 m = a2; pm_th : ms_prev_theta m = th;
  pm_v1 : map v_val (ms_y1 m) = a1; pm_v2 : map v_val (ms_y2 m) = a2;
  pm_l1 : map v_lb (ms_y1 m) = map (fun v => v - rad) a1; pm_l2 : map v_lb (ms_y2 m) = map (fun v => v - rad) a2;
  pm_u1 : map v_ub (ms_y1 m) = map (fun v => v + rad) a1; pm_u2 : map v_ub (ms_y2 m) = map (fun v => v + rad) a2;
  pm_nn : forall v, In v th -> 0 <= v;
  pm_tr : rg = None -> forall v, In v (b_vertices (g_neumann g)) -> exists x y l c1 c2, nth_error (g_points g) v = Some [x; y] /\ se_traction u time x y = Ok l /\ nth_error l 0 = Some c1 /\ nth_error l 1 = Some c2 /\ dget Nat.eqb v (ms_g1 m) = Ok c1 /\ dget Nat.eqb v (ms_g2 m) = Ok c2
}.
Record posed_t (t : therm) (a1 a2 b1 b2 th : list R) (time : R) : Prop := {
  pt_inv : TI t; pt_p1 : ts_prev_y1 t = a1; pt_p2 : ts_prev_y2 t = a2; pt_y1 : ts_y1 t = b1; pt_y2 : ts_y2 t = b2; pt_th : ts_prev_theta t = th;
  pt_v : map v_val (ts_theta t) = th; pt_l : map v_lb (ts_theta t) = map (fun v => v - rad) th; pt_u : map v_ub (ts_theta t) = map (fun v => v + rad) th;
  pt_nn : forall v, In v th -> 0 <= v;
  pt_ext : rg = None -> se_external u time = Ok (ts_ext t) /\ 0 <= ts_ext t
}.
Lemma xy_inv q x y : In q (g_points g) -> xy q = Ok (x, y) -> q = [x; y].
Proof. intros H. destruct (sta_planar ST q H) as [a [b ->]]. intros E. injection E as -> ->. reflexivity. Qed.

Lemma update_m_inv s s' r : sinv s -> update_mechanical_step s = (s', r) ->
  exists m1, s' = with_models s m1 (s_therm s) (s_calls s) /\ MI m1 /\ (r = Ok tt -> posed_m m1 (ts_y1 (s_therm s)) (ts_y2 (s_therm s)) (map v_val (ts_theta (s_therm s))) (s_time s)).
Proof.
  intros [Hp Hg Hr Im It Htau] E. destruct (therm_getters _ It) as [_ [Gy [_ Gth]]]. set (t := s_therm s) in *. unfold TI in It.
  unfold update_mechanical_step in E. fold t in E. rewrite Gy in E. unfold on_mech at 1 in E. rewrite (m_update_y p g rg _ _ _ _ _ _ _ Im (ti_y1 _ _ _ _ _ _ _ _ It) (ti_y2 _ _ _ _ _ _ _ _ It)) in E. cbn [andthen] in E.
  destruct (ti_pin _ _ _ _ _ _ _ _ It) as [_ [_ [P1 P2]]].
  pose proof (m_with_y_inv p g rg _ _ _ _ _ _ _ Im (ti_y1 _ _ _ _ _ _ _ _ It) (ti_y2 _ _ _ _ _ _ _ _ It) P1 P2) as I1.
  set (m0 := m_with_y p g rg (s_mech s) (ts_y1 t) (ts_y2 t)) in *.
  assert (T0 : s_therm (set_mech s m0) = t) by reflexivity. rewrite T0, Gth in E. unfold on_mech at 1 in E. assert (M0 : s_mech (set_mech s m0) = m0) by reflexivity. rewrite M0 in E.
  destruct (mech_update_prev_theta m0 (theta_array g rg (map v_val (ts_theta t)))) as [m1 r1] eqn:E1.
  destruct (m_update_theta p g rg _ _ _ _ _ _ _ _ I1 ltac:(rewrite map_length; exact (ti_th _ _ _ _ _ _ _ _ It)) E1) as [I2 [_ [OK _]]].
  apply andthen_inv in E as [[e [E ->]]|[s1 [E E3]]].
  - injection E as <- ->. exists m1. split; [reflexivity|]. split; [exact I2|discriminate].
  - injection E as <- ->. destruct (OK eq_refl) as [Em1 NN]. unfold on_mech in E3. assert (M1 : s_mech (set_mech (set_mech s m0) m1) = m1) by reflexivity. assert (T1 : s_time (set_mech (set_mech s m0) m1) = s_time s) by reflexivity. rewrite M1, T1 in E3.
    destruct (mech_update_boundary_traction m1 (s_time s)) as [m2 r2] eqn:E2. destruct (m_update_traction p g rg _ _ _ _ _ _ _ _ I2 E2) as [I3 [g1 [g2 [Em2 TR]]]]. injection E3 as <- <-. exists m2. split; [reflexivity|]. split; [exact I3|]. intros ->.
    pose proof (mi_y1 _ _ _ _ _ _ _ _ Im) as L1. pose proof (mi_y2 _ _ _ _ _ _ _ _ Im) as L2. pose proof (ti_y1 _ _ _ _ _ _ _ _ It) as L3. pose proof (ti_y2 _ _ _ _ _ _ _ _ It) as L4.
    destruct (recenter_bounds rad (ms_y1 (s_mech s)) (ts_y1 t)) as [B1 B2]; [congruence|]. destruct (recenter_bounds rad (ms_y2 (s_mech s)) (ts_y2 t)) as [B3 B4]; [congruence|].
    split; try exact I3; try exact NN; rewrite ?Em2; cbn; rewrite ?Em1; cbn; try reflexivity; try apply recenter_vals; try congruence; try assumption.
    intros Hn v Hv. destruct (TR eq_refl Hn v Hv) as [c1 [c2 [T [D1 D2]]]]. unfold traction_at in T. rewrite (mi_grid _ _ _ _ _ _ _ _ I2), (mi_tr _ _ _ _ _ _ _ _ I2) in T. apply bind_ok' in T as [q [Q T]]. apply bind_ok' in T as [[x y] [X T]]. apply bind_ok' in T as [l [L T]].
    destruct l as [|a [|b [|c l]]]; try discriminate. injection T as -> ->. exists x, y, [c1; c2], c1, c2. apply py_nth_ok in Q. apply xy_inv in X as ->; [auto 10|exact (nth_error_In _ _ Q)].
Qed.
Lemma update_t_inv s s' r : sinv s -> update_thermal_step s = (s', r) ->
  exists t1, s' = with_models s (s_mech s) t1 (s_calls s) /\ TI t1 /\
    (r = Ok tt -> posed_t t1 (ms_prev_y1 (s_mech s)) (ms_prev_y2 (s_mech s)) (map v_val (ms_y1 (s_mech s))) (map v_val (ms_y2 (s_mech s))) (ms_prev_theta (s_mech s)) (s_time s)).
Proof.
  intros [Hp Hg Hr Im It Htau] E. destruct (mech_getters _ Im) as [Gp [Gy Gth]]. set (m := s_mech s) in *. unfold MI in Im.
  pose proof (mi_p1 _ _ _ _ _ _ _ _ Im) as L1. pose proof (mi_p2 _ _ _ _ _ _ _ _ Im) as L2. pose proof (mi_y1 _ _ _ _ _ _ _ _ Im) as L3. pose proof (mi_y2 _ _ _ _ _ _ _ _ Im) as L4. destruct (mi_pin _ _ _ _ _ _ _ _ Im) as [P1 [P2 [P3 P4]]].
  unfold update_thermal_step in E. fold m in E. rewrite Gp in E. unfold on_therm at 1 in E. rewrite (t_update_prev_y p g rg _ _ _ _ _ _ _ It L1 L2) in E. cbn [andthen] in E.
  pose proof (t_with_prev_y_inv p g rg _ _ _ _ _ _ _ It L1 L2 P1 P2) as I1. set (t0 := t_with_prev_y g rg (s_therm s) (ms_prev_y1 m) (ms_prev_y2 m)) in *.
  assert (M0 : s_mech (set_therm s t0) = m) by reflexivity. assert (T0 : s_therm (set_therm s t0) = t0) by reflexivity. rewrite M0, Gth in E. unfold on_therm at 1 in E. rewrite T0 in E.
  destruct (therm_update_prev_theta t0 (theta_array g rg (ms_prev_theta m))) as [t1 r1] eqn:E1.
  destruct (t_update_theta p g rg _ _ _ _ _ _ _ _ I1 (mi_th _ _ _ _ _ _ _ _ Im) E1) as [I2 [_ [OK _]]].
  apply andthen_inv in E as [[e [E ->]]|[s1 [E E3]]].
  - injection E as <- ->. exists t1. split; [reflexivity|]. split; [exact I2|discriminate].
  - injection E as <- ->. destruct (OK eq_refl) as [Et1 NN]. unfold on_therm at 1 in E3. assert (M1 : s_mech (set_therm (set_therm s t0) t1) = m) by reflexivity. assert (T1 : s_therm (set_therm (set_therm s t0) t1) = t1) by reflexivity. rewrite M1, T1, Gy in E3.
    rewrite (t_update_y p g rg _ _ _ _ _ _ _ I2) in E3 by (rewrite map_length; assumption). cbn [andthen] in E3.
    pose proof (t_with_y_inv p g rg _ _ _ _ t1 (map v_val (ms_y1 m)) (map v_val (ms_y2 m)) I2 ltac:(rewrite map_length; exact L3) ltac:(rewrite map_length; exact L4) P3 P4) as I3.
    set (t2 := t_with_y g rg t1 (map v_val (ms_y1 m)) (map v_val (ms_y2 m))) in *. unfold on_therm in E3. assert (T2 : s_therm (set_therm (set_therm (set_therm s t0) t1) t2) = t2) by reflexivity. assert (T3 : s_time (set_therm (set_therm (set_therm s t0) t1) t2) = s_time s) by reflexivity. rewrite T2, T3 in E3.
    destruct (therm_update_external_temperature t2 (s_time s)) as [t3 r3] eqn:E4. destruct (t_update_ext p g rg _ _ _ _ _ _ _ _ I3 E4) as [I4 [[v0 Ev0] EX]]. injection E3 as <- <-. exists t3. split; [reflexivity|]. split; [exact I4|]. intros ->.
    pose proof (ti_th _ _ _ _ _ _ _ _ It) as L5. pose proof (mi_th _ _ _ _ _ _ _ _ Im) as L6.
    destruct (recenter_bounds rad (ts_theta (s_therm s)) (ms_prev_theta m)) as [B1 B2]; [congruence|].
    split; try exact I4; try exact NN; try (rewrite ?Ev0; cbn; rewrite ?Et1; cbn; try reflexivity; try apply recenter_vals; try congruence; assumption).
    intros Hn. destruct (EX eq_refl Hn) as [v [-> [X Y]]]. cbn. auto.
Qed.
(** A whole step. *)
Definition m_loaded (c : nat) (m : mech) : mech := fst (mech_solve (sv_mech sv c m) m).
Definition t_loaded (c : nat) (t : therm) : therm := fst (therm_solve (sv_therm sv c t) t).
Lemma single_step s s' r : sinv s -> run_single_step sv s = (s', r) -> sinv s' /\
  ((exists e, r = Err e /\ s_steps s' = s_steps s /\ s_time s' = s_time s /\ s_max_temp s' = s_max_temp s /\ s_xlims s' = s_xlims s /\ s_ylims s' = s_ylims s) \/
   (r = Ok tt /\ exists m1 t1 st mx x0 x1 y0 y1,
      posed_m m1 (ts_y1 (s_therm s)) (ts_y2 (s_therm s)) (map v_val (ts_theta (s_therm s))) (s_time s) /\
      let m2 := m_loaded (s_calls s) m1 in
      posed_t t1 (ts_y1 (s_therm s)) (ts_y2 (s_therm s)) (map v_val (ms_y1 m2)) (map v_val (ms_y2 m2)) (map v_val (ts_theta (s_therm s))) (s_time s) /\
      let t2 := t_loaded (S (s_calls s)) t1 in
      s_mech s' = m2 /\ s_therm s' = t2 /\ s_steps s' = s_steps s ++ [st] /\ s_time s' = s_time s + s_tau s /\ s_calls s' = S (S (s_calls s)) /\
      holds st (map v_val (ms_y1 m2)) (map v_val (ms_y2 m2)) (map v_val (ts_theta t2)) /\
      s_max_temp s' = Rmax (s_max_temp s) mx /\ s_xlims s' = join_lims (s_xlims s) x0 x1 /\ s_ylims s' = join_lims (s_ylims s) y0 y1 /\
      is_max (map v_val (ts_theta t2)) mx /\ is_min (map v_val (ms_y1 m2)) x0 /\ is_max (map v_val (ms_y1 m2)) x1 /\ is_min (map v_val (ms_y2 m2)) y0 /\ is_max (map v_val (ms_y2 m2)) y1)).
Proof.
  intros I E. unfold run_single_step in E. apply andthen_inv in E as [[e [E ->]]|[s1 [E1 E]]].
  { destruct (update_m_inv _ _ _ I E) as [m1 [-> [I1 _]]]. split; [apply sinv_models; [exact I|exact I1|apply I]|]. left. exists e. auto 10. }
  destruct (update_m_inv _ _ _ I E1) as [m1 [-> [I1 PM]]]. specialize (PM eq_refl). set (m2 := m_loaded (s_calls s) m1).
  assert (I2 : MI m2) by (apply m_solve_inv, I1). apply andthen_inv in E as [[e [E ->]]|[s2 [E2 E]]].
  { unfold solve_mech, on_mech, mech_solve in E. cbn in E. injection E as <- _. split; [apply (sinv_models s m2 (s_therm s) (S (s_calls s)) I I2); apply I|]. left. exists e. auto 10. }
  assert (S2 : s2 = with_models s m2 (s_therm s) (S (s_calls s))). { unfold solve_mech, on_mech, mech_solve in E2. cbn in E2. injection E2 as <- _. reflexivity. }
  assert (V2 : sinv s2) by (rewrite S2; apply sinv_models; [exact I|exact I2|apply I]). clear E1 E2.
  apply andthen_inv in E as [[e [E ->]]|[s3 [E3 E]]].
  { destruct (update_t_inv _ _ _ V2 E) as [t1 [-> [J1 _]]]. split; [apply sinv_models; [exact V2|apply V2|exact J1]|]. left. exists e. rewrite S2. auto 10. }
  destruct (update_t_inv _ _ _ V2 E3) as [t1 [S3 [J1 PT]]]. specialize (PT eq_refl). rewrite S2 in PT, S3. cbn in PT, S3. clear E3. set (t2 := t_loaded (S (s_calls s)) t1). assert (J2 : TI t2) by (apply t_solve_inv, J1).
  apply andthen_inv in E as [[e [E ->]]|[s4 [E4 E]]].
  { unfold solve_therm, on_therm, therm_solve in E. rewrite S3 in E. cbn in E. injection E as <- _. split; [apply (sinv_models s m2 t2 (S (S (s_calls s))) I I2 J2)|]. left. exists e. auto 10. }
  assert (S4 : s4 = with_models s m2 t2 (S (S (s_calls s)))). { unfold solve_therm, on_therm, therm_solve in E4. rewrite S3 in E4. cbn in E4. injection E4 as <- _. reflexivity. }
  assert (V4 : sinv s4) by (rewrite S4; apply sinv_models; assumption). assert (T4 : s_therm s4 = t2) by (rewrite S4; reflexivity). rewrite T4 in E. destruct (therm_getters _ J2) as [_ [Gy [_ Gth]]]. rewrite Gy, Gth in E.
  destruct (append_ok s4 (ts_y1 t2) (ts_y2 t2) (map v_val (ts_theta t2))) as [st [mx [x0 [x1 [y0 [y1 [EA [HO [A1 [A2 [A3 [A4 A5]]]]]]]]]]]]; [apply V4|apply V4|apply V4|exact (ti_y1 _ _ _ _ _ _ _ _ J2)|exact (ti_y2 _ _ _ _ _ _ _ _ J2)|rewrite map_length; exact (ti_th _ _ _ _ _ _ _ _ J2)|].
  rewrite EA in E. injection E as <- <-. pose proof (pt_y1 _ _ _ _ _ _ _ PT) as Y1. pose proof (pt_y2 _ _ _ _ _ _ _ PT) as Y2.
  assert (Z1 : ts_y1 t2 = map v_val (ms_y1 m2)) by exact Y1. assert (Z2 : ts_y2 t2 = map v_val (ms_y2 m2)) by exact Y2. rewrite Z1, Z2 in *.
  split; [split; cbn; try apply V4|]. right. split; [reflexivity|]. exists m1, t1, st, mx, x0, x1, y0, y1. split; [exact PM|]. cbv zeta. split.
  - assert (Q1 : ms_prev_y1 m2 = ms_prev_y1 m1) by reflexivity. assert (Q2 : ms_prev_y2 m2 = ms_prev_y2 m1) by reflexivity. assert (Q3 : ms_prev_theta m2 = ms_prev_theta m1) by reflexivity.
    rewrite ?Q1, ?Q2, ?Q3, (pm_p1 _ _ _ _ _ PM), (pm_p2 _ _ _ _ _ PM), (pm_th _ _ _ _ _ PM) in PT. exact PT.
  - rewrite S4. cbn. repeat (split; [solve [auto]|]). auto.
Qed.
End One.
