(** Histories: what holds in every reachable state and along undisturbed runs. *)
From Coq Require Import Reals Lra Lia List ZArith.
From Verif.Model Require Import Py Num Tensors Domain Refine Bell Interp Steps Simulation.
From Verif.Spec Require Import GridSpec SimSpec.
From Verif.Proofs Require Import Lib StepP SimP SimQ SimR.
Local Open Scope R_scope.
Import ListNotations.

(** ** run *)
Lemma loop_pres sv (P : sim -> Prop) : (forall s s' r, P s -> run_single_step sv s = (s', r) -> P s') -> forall n s s' r, P s -> run_loop sv n s = (s', r) -> P s'.
Proof.
  intros H n. induction n as [|n IH]; intros s s' r HP E; cbn in E; [injection E as <- _; exact HP|]. apply andthen_inv in E as [[e [E _]]|[s1 [E1 E]]]; [exact (H _ _ _ HP E)|]. exact (IH _ _ _ (H _ _ _ HP E1) E).
Qed.
Lemma run_pres sv (P : sim -> Prop) : (forall s s' r, P s -> run_single_step sv s = (s', r) -> P s') -> forall n s s' r, P s -> run sv n s = (s', r) -> P s'.
Proof.
  intros H n s s' r HP E. unfold run in E. destruct (n <=? 0)%Z; [injection E as <- _; exact HP|]. destruct (n =? 1)%Z; [exact (H _ _ _ HP E)|exact (loop_pres sv P H _ _ _ _ HP E)].
Qed.
Lemma loop_pres_ok sv (P : sim -> Prop) : (forall s s', P s -> run_single_step sv s = (s', Ok tt) -> P s') -> forall n s s', P s -> run_loop sv n s = (s', Ok tt) -> P s'.
Proof.
  intros H n. induction n as [|n IH]; intros s s' HP E; cbn in E; [injection E as <-; exact HP|]. apply andthen_inv in E as [[e [_ E]]|[s1 [E1 E]]]; [discriminate|]. exact (IH _ _ (H _ _ HP E1) E).
Qed.
Lemma run_pres_ok sv (P : sim -> Prop) : (forall s s', P s -> run_single_step sv s = (s', Ok tt) -> P s') -> forall n s s', P s -> run sv n s = (s', Ok tt) -> P s'.
Proof.
  intros H n s s' HP E. unfold run in E. destruct (n <=? 0)%Z; [discriminate|]. destruct (n =? 1)%Z; [exact (H _ _ HP E)|exact (loop_pres_ok sv P H _ _ _ HP E)].
Qed.
Lemma undisturbed_reachable u s : undisturbed u s -> reachable u s.
Proof. induction 1; [apply r_construct; assumption|eapply r_run; eauto]. Qed.

(** ** Extremes *)
Lemma is_max_app l l' a b : is_max l a -> is_max l' b -> is_max (l ++ l') (Rmax a b).
Proof.
  intros [A1 A2] [B1 B2]. split; [apply in_or_app; unfold Rmax; destruct (Rle_dec a b); auto|]. intros x Hx. apply in_app_or in Hx as [Hx|Hx]; [apply Rle_trans with a; [apply A2, Hx|apply Rmax_l]|apply Rle_trans with b; [apply B2, Hx|apply Rmax_r]].
Qed.
Lemma is_min_app l l' a b : is_min l a -> is_min l' b -> is_min (l ++ l') (Rmin a b).
Proof.
  intros [A1 A2] [B1 B2]. split; [apply in_or_app; unfold Rmin; destruct (Rle_dec a b); auto|]. intros x Hx. apply in_app_or in Hx as [Hx|Hx]; [apply Rle_trans with a; [apply Rmin_l|apply A2, Hx]|apply Rle_trans with b; [apply Rmin_r|apply B2, Hx]].
Qed.

Section H.
Context (u : setting) (g : grid R) (rg : option (refined_grid R)) (ps : list (R * R)).
Let p := se_params u.
Let N := num_vertices g.
Let K := dofs rg.
Let NT := num_vertices (theta_grid g rg).
Let fx := ifx g rg.
Let ref1 := iref1 rg ps.
Let ref2 := iref2 rg ps.

(** All parameters of component [c] of a step. *)
Definition comp (c : nat) (st : step) : list R := unpack N K c (nd_data (st_y_data st)).
Lemma holds_comp st a1 a2 th : holds g rg st a1 a2 th -> length a1 = (N * K)%nat -> length a2 = (N * K)%nat -> comp 0 st = a1 /\ comp 1 st = a2 /\ nd_data (st_theta_data st) = th.
Proof.
  intros H H1 H2. unfold comp. rewrite (ho_y _ _ _ _ _ _ H), (ho_th _ _ _ _ _ _ H). unfold y_array. cbn [nd_data]. destruct (unpack_pack N K a1 a2 H1 H2) as [E1 E2]. auto.
Qed.
Record good_step (st : step) : Prop := {
  gs_holds : exists a1 a2 th, holds g rg st a1 a2 th /\ length a1 = (N * K)%nat /\ length a2 = (N * K)%nat /\ length th = NT /\ pinned fx ref1 a1 /\ pinned fx ref2 a2;
  gs_nn : respects_domain (se_solver u) -> forall v, In v (nd_data (st_theta_data st)) -> 0 <= v
}.
Definition lims_ok (s : sim) : Prop :=
  is_max (0 :: temperatures (s_steps s)) (s_max_temp s) /\
  (exists a b, s_xlims s = Some (a, b) /\ is_min (flat_map (comp 0) (s_steps s)) a /\ is_max (flat_map (comp 0) (s_steps s)) b) /\
  (exists a b, s_ylims s = Some (a, b) /\ is_min (flat_map (comp 1) (s_steps s)) a /\ is_max (flat_map (comp 1) (s_steps s)) b).
Record hist (s : sim) : Prop := {
  hi_rad : 0 < p_search_radius p;
  hi_st : statics u g rg;
  hi_inv : sinv u g rg fx ref1 ref2 s;
  hi_good : forall st, In st (s_steps s) -> good_step st;
  hi_first : exists st0 rest, s_steps s = st0 :: rest /\ holds g rg st0 ref1 ref2 (itheta g rg (p_initial_temperature p)) /\ rest <> [];
  hi_lims : lims_ok s
}.
Lemma boxes (xs : list pvar) vs r : 0 < r -> map v_lb xs = map (fun v => v - r) vs -> map v_ub xs = map (fun v => v + r) vs -> consistent xs /\ ((forall v, In v vs -> 0 <= v) -> room_above_zero xs).
Proof.
  intros Hr. revert vs. induction xs as [|x xs IH]; intros [|v vs] B1 B2; try discriminate; [split; [intros ? []|intros _ ? []]|]. cbn in B1, B2. injection B1 as B1 B1'. injection B2 as B2 B2'. destruct (IH vs B1' B2') as [A1 A2]. split.
  - intros y [<- |Hy]; [lra|apply A1, Hy].
  - intros NN y [<- |Hy]; [pose proof (NN v (or_introl eq_refl)); lra|apply A2; [intros; apply NN; right; assumption|exact Hy]].
Qed.
Lemma loaded_nonneg c t a1 a2 b1 b2 th tm : respects_domain (se_solver u) -> 0 < p_search_radius p -> posed_t u g rg fx ref1 ref2 t a1 a2 b1 b2 th tm -> forall v, In v (map v_val (ts_theta (t_loaded u c t))) -> 0 <= v.
Proof.
  intros RD Hr PT v Hv. pose proof (pt_inv _ _ _ _ _ _ _ _ _ _ _ _ _ PT) as I. destruct (boxes (ts_theta t) th _ Hr (pt_l _ _ _ _ _ _ _ _ _ _ _ _ _ PT) (pt_u _ _ _ _ _ _ _ _ _ _ _ _ _ PT)) as [_ RA]. specialize (RA (pt_nn _ _ _ _ _ _ _ _ _ _ _ _ _ PT)).
  apply in_map_iff in Hv as [x [<- Hx]]. apply in_nth in Hx as [i Hi]. cbn in Hi. destruct (nth_error (ts_theta t) i) as [y|] eqn:E.
  - rewrite (load_nth _ _ _ _ E) in Hi. rewrite (ti_fixed _ _ _ _ _ _ _ _ I y (nth_error_In _ _ E)) in Hi. injection Hi as <-. cbn. apply RD; [exact RA|]. apply nth_error_Some. congruence.
  - exfalso. apply nth_error_None in E. assert (i < length (load (ta_theta (sv_therm (se_solver u) c t)) (ts_theta t)))%nat by (apply nth_error_Some; congruence). rewrite load_length in *. lia.
Qed.
Lemma good_loaded st c c' m1 t1 a1 a2 th tm b1 b2 : 0 < p_search_radius p -> posed_m u g rg fx ref1 ref2 m1 a1 a2 th tm -> let m2 := m_loaded u c m1 in posed_t u g rg fx ref1 ref2 t1 a1 a2 b1 b2 th tm ->
  let t2 := t_loaded u c' t1 in holds g rg st (map v_val (ms_y1 m2)) (map v_val (ms_y2 m2)) (map v_val (ts_theta t2)) -> good_step st.
Proof.
  intros PR PM m2 PT t2 HO. pose proof (pm_inv _ _ _ _ _ _ _ _ _ _ _ PM) as IM. pose proof (pt_inv _ _ _ _ _ _ _ _ _ _ _ _ _ PT) as IT.
  assert (I2 : minv p g rg (se_traction u) fx ref1 ref2 m2) by (apply m_solve_inv, IM). assert (J2 : tinv p g rg (se_external u) fx ref1 ref2 t2) by (apply t_solve_inv, IT).
  destruct (mi_pin _ _ _ _ _ _ _ _ I2) as [_ [_ [P1 P2]]]. split.
  - eexists _, _, _. split; [exact HO|]. rewrite !map_length. split; [exact (mi_y1 _ _ _ _ _ _ _ _ I2)|]. split; [exact (mi_y2 _ _ _ _ _ _ _ _ I2)|]. split; [exact (ti_th _ _ _ _ _ _ _ _ J2)|]. auto.
  - intros RD v Hv. rewrite (ho_th _ _ _ _ _ _ HO) in Hv. cbn [theta_array nd_data] in Hv. exact (loaded_nonneg c' t1 _ _ _ _ _ _ RD PR PT v Hv).
Qed.
Lemma hist_single s s' r : hist s -> run_single_step (se_solver u) s = (s', r) -> hist s'.
Proof.
  intros [HR HS HI HG HF HL] E. destruct (single_step u g rg fx ref1 ref2 HS s s' r HI E) as [HI' [(e & _ & E1 & _ & E3 & E4 & E5)|(-> & m1 & t1 & st & mx & x0 & x1 & y0 & y1 & PM & PT & E1 & E2 & E3 & E4 & _ & HO & EM & EX & EY & M1 & M2 & M3 & M4 & M5)]].
  - split; auto; unfold lims_ok in *; rewrite ?E1, ?E3, ?E4, ?E5; auto.
  - pose proof (good_loaded st _ _ m1 t1 _ _ _ _ _ _ HR PM PT HO) as GS. split; auto.
    + intros st' Hst. rewrite E3 in Hst. apply in_app_or in Hst as [Hst|[<- |[]]]; [apply HG, Hst|exact GS].
    + destruct HF as [st0 [rest [Es [H0 Hn]]]]. exists st0, (rest ++ [st]). rewrite E3, Es. split; [reflexivity|]. split; [exact H0|]. intros Z. apply app_eq_nil in Z as [_ Z]. discriminate.
    + pose proof (pm_inv _ _ _ _ _ _ _ _ _ _ _ PM) as IM. assert (I2 : minv p g rg (se_traction u) fx ref1 ref2 (m_loaded u (s_calls s) m1)) by (apply m_solve_inv, IM).
      destruct (holds_comp _ _ _ _ HO) as [C0 [C1 CT]]; [rewrite map_length; exact (mi_y1 _ _ _ _ _ _ _ _ I2)|rewrite map_length; exact (mi_y2 _ _ _ _ _ _ _ _ I2)|].
      destruct HL as [L1 [[a [b [La [Lb Lc]]]] [a' [b' [La' [Lb' Lc']]]]]]. unfold lims_ok, temperatures. rewrite E3, !flat_map_app. cbn [flat_map]. rewrite !app_nil_r, C0, C1, CT, EM, EX, EY, La, La'. cbn [join_lims].
      split; [apply (is_max_app (0 :: _) _ _ _ L1 M1)|]. split; eexists _, _; (split; [reflexivity|]); split; [apply is_min_app|apply is_max_app|apply is_min_app|apply is_max_app]; assumption.
Qed.
End H.

(** The data of the grid behind a simulation. *)
Record ground (u : setting) (g : grid R) (rg : option (refined_grid R)) (ps : list (R * R)) : Prop := {
  gr_valid : valid_setting u;
  gr_grid : domain_grid (se_order u) (se_width u) (se_height u) (se_fix u) (p_scale (se_params u)) = Ok g;
  gr_ref : p_regularization (se_params u) = None /\ rg = None \/ exists e k r, p_regularization (se_params u) = Some e /\ p_refinement_factor (se_params u) = Some k /\ refine g k = Ok r /\ rg = Some r;
  gr_points : g_points g = map (fun '(x, y) => [x; y]) ps; gr_len : length ps = num_vertices g; gr_vertices : g_vertices g = seq 0 (length ps)
}.
Lemma reachable_hist u s : reachable u s -> exists g rg ps, ground u g rg ps /\ hist u g rg ps s.
Proof.
  induction 1 as [s V C|n s s' r HR IH E].
  - destruct (construct_inv u s V C) as (g & rg & ps & Eg & RG & GP & LP & GV & ST & SI & m0 & t0 & st0 & st1 & mx & x0 & x1 & y0 & y1 & mx' & x0' & x1' & y0' & y1' & PM & PT & E1 & E2 & E3 & E4 & E5 & HO0 & HO1 & EM & EX & EY & (A1 & A2 & A3 & A4 & A5) & (B1 & B2 & B3 & B4 & B5)).
    exists g, rg, ps. split; [split; assumption|].
    pose proof (pm_inv _ _ _ _ _ _ _ _ _ _ _ PM) as IM. assert (I2 : minv (se_params u) g rg (se_traction u) (ifx g rg) (iref1 rg ps) (iref2 rg ps) (m_loaded u 0 m0)) by (apply m_solve_inv, IM).
    destruct (iref_length rg ps) as [LR1 LR2]. rewrite LP in LR1, LR2.
    destruct (holds_comp g rg _ _ _ _ HO0 LR1 LR2) as [C0 [C1 CT]]. destruct (holds_comp g rg _ _ _ _ HO1) as [D0 [D1 DT]]; [rewrite map_length; exact (mi_y1 _ _ _ _ _ _ _ _ I2)|rewrite map_length; exact (mi_y2 _ _ _ _ _ _ _ _ I2)|].
    split; auto; [exact (proj1 (proj2 (params_ok u V)))| | |].
    + intros st Hst. rewrite E3 in Hst. destruct Hst as [<- |[<- |[]]]; [|exact (good_loaded u g rg ps st1 0 1 m0 t0 _ _ _ _ _ _ (proj1 (proj2 (params_ok u V))) PM PT HO1)]. split.
      * exists (iref1 rg ps), (iref2 rg ps), (itheta g rg (p_initial_temperature (se_params u))). split; [exact HO0|]. split; [exact LR1|]. split; [exact LR2|]. split; [unfold itheta; rewrite map_length; reflexivity|]. split; intros i _; reflexivity.
      * intros _ v Hv. rewrite CT in Hv. exact (pm_nn _ _ _ _ _ _ _ _ _ _ _ PM v Hv).
    + exists st0, [st1]. split; [exact E3|]. split; [exact HO0|discriminate].
    + unfold lims_ok, temperatures. rewrite E3. cbn [flat_map]. rewrite !app_nil_r, C0, C1, CT, D0, D1, DT, EM, EX, EY. cbn [join_lims].
      split; [apply (is_max_app (0 :: _) _ _ _)|split; eexists _, _; (split; [reflexivity|]); split; [apply is_min_app|apply is_max_app|apply is_min_app|apply is_max_app]; assumption]; [|exact B1].
      apply (is_max_app [0] _ 0 mx); [|exact A1]. split; [left; reflexivity|]. intros x [<- |[]]. lra.
  - destruct IH as [g [rg [ps [GR HI]]]]. exists g, rg, ps. split; [exact GR|]. apply (run_pres (se_solver u) (hist u g rg ps) (hist_single u g rg ps) n s s' r HI E).
Qed.

(** ** Undisturbed runs: every recorded step is linked to its predecessor. *)
Section L.
Context (u : setting) (g : grid R) (rg : option (refined_grid R)) (ps : list (R * R)).
Let fx := ifx g rg.
Let ref1 := iref1 rg ps.
Let ref2 := iref2 rg ps.
Definition linked (tau : R) (k : nat) (a b : step) : Prop := exists a1 a2 th m1 t1,
  holds g rg a a1 a2 th /\ posed_m u g rg fx ref1 ref2 m1 a1 a2 th (INR k * tau) /\
  let m2 := m_loaded u (2 * k) m1 in
  posed_t u g rg fx ref1 ref2 t1 a1 a2 (map v_val (ms_y1 m2)) (map v_val (ms_y2 m2)) th (INR k * tau) /\
  let t2 := t_loaded u (2 * k + 1) t1 in
  holds g rg b (map v_val (ms_y1 m2)) (map v_val (ms_y2 m2)) (map v_val (ts_theta t2)).
Record chain (s : sim) : Prop := {
  ch_hist : hist u g rg ps s;
  ch_last : exists l st, s_steps s = l ++ [st] /\ holds g rg st (ts_y1 (s_therm s)) (ts_y2 (s_therm s)) (map v_val (ts_theta (s_therm s))) /\
     s_calls s = (2 * length l)%nat /\ s_time s = INR (length l) * s_tau s;
  ch_links : forall k a b, nth_error (s_steps s) k = Some a -> nth_error (s_steps s) (S k) = Some b -> linked (s_tau s) k a b
}.
Lemma chain_single s s' : chain s -> run_single_step (se_solver u) s = (s', Ok tt) -> chain s'.
Proof.
  intros [HH [l [st [El [HO [EC ET]]]]] HL] E. pose proof (hist_single u g rg ps _ _ _ HH E) as HH'. destruct HH as [_ HS HI _ _ _].
  destruct (single_step u g rg fx ref1 ref2 HS s s' _ HI E) as [HI' [(e & Z & _)|(_ & m1 & t1 & st' & mx & x0 & x1 & y0 & y1 & PM & PT & E1 & E2 & E3 & E4 & E5 & HO' & _)]]; [discriminate|].
  assert (TAU : s_tau s' = s_tau s). { pose proof (si_tau _ _ _ _ _ _ _ HI) as T1. pose proof (si_tau _ _ _ _ _ _ _ HI') as T2. rewrite T1 in T2. injection T2 as ->. reflexivity. }
  split; [exact HH'| |].
  - exists (l ++ [st]), st'. rewrite E3, El. split; [reflexivity|]. rewrite E2. split.
    + pose proof (pt_y1 _ _ _ _ _ _ _ _ _ _ _ _ _ PT) as Y1. pose proof (pt_y2 _ _ _ _ _ _ _ _ _ _ _ _ _ PT) as Y2.
      assert (Z1 : ts_y1 (t_loaded u (S (s_calls s)) t1) = map v_val (ms_y1 (m_loaded u (s_calls s) m1))) by exact Y1. assert (Z2 : ts_y2 (t_loaded u (S (s_calls s)) t1) = map v_val (ms_y2 (m_loaded u (s_calls s) m1))) by exact Y2. rewrite Z1, Z2. exact HO'.
    + rewrite app_length, E5, EC, E4, ET, TAU, plus_INR. cbn. split; [lia|ring].
  - rewrite E3, TAU. intros k a b Ha Hb. destruct (Nat.lt_ge_cases (S k) (length (s_steps s))) as [Lt|Ge].
    + rewrite nth_error_app1 in Ha by lia. rewrite nth_error_app1 in Hb by lia. exact (HL k a b Ha Hb).
    + assert (Lk : (S k < length (s_steps s ++ [st']))%nat) by (apply nth_error_Some; congruence). rewrite app_length in Lk. cbn in Lk. assert (Sk : S k = length (s_steps s)) by lia. assert (kl : k = length l) by (rewrite El, app_length in Sk; cbn in Sk; lia).
      rewrite nth_error_app2 in Hb by lia. rewrite Sk, Nat.sub_diag in Hb. injection Hb as <-. rewrite nth_error_app1, El, nth_error_app2, kl, Nat.sub_diag in Ha by lia. injection Ha as <-.
      exists (ts_y1 (s_therm s)), (ts_y2 (s_therm s)), (map v_val (ts_theta (s_therm s))), m1, t1. rewrite kl, <- ET, <- EC. replace (s_calls s + 1)%nat with (S (s_calls s)) by lia. auto.
Qed.
End L.
Lemma undisturbed_chain u s : undisturbed u s -> exists g rg ps, ground u g rg ps /\ chain u g rg ps s.
Proof.
  induction 1 as [s V C|n s s' HR IH E].
  - pose proof (reachable_hist u s (r_construct u s V C)) as [g' [rg' [ps' [GR' HH']]]].
    destruct (construct_inv u s V C) as (g & rg & ps & Eg & RG & GP & LP & GV & ST & SI & m0 & t0 & st0 & st1 & mx & x0 & x1 & y0 & y1 & mx' & x0' & x1' & y0' & y1' & PM & PT & E1 & E2 & E3 & E4 & E5 & HO0 & HO1 & _).
    assert (g' = g) by (pose proof (gr_grid _ _ _ _ GR'); congruence). subst g'.
    assert (rg' = rg) by (destruct (gr_ref _ _ _ _ GR') as [[A ->]|[e [k [r [A [B [D ->]]]]]]]; destruct RG as [[A' ->]|[e' [k' [r' [A' [B' [D' ->]]]]]]]; congruence). subst rg'.
    assert (ps' = ps). { pose proof (gr_points _ _ _ _ GR') as Q. rewrite GP in Q. clear - Q. revert ps' Q. induction ps as [|[a b] ps IH]; intros [|[a' b'] ps'] Q; try discriminate; [reflexivity|]. cbn in Q. injection Q as -> -> Q. f_equal. apply IH, Q. } subst ps'.
    exists g, rg, ps. split; [exact GR'|]. split; [exact HH'| |].
    + exists [st0], st1. split; [exact E3|]. rewrite E2. split.
      * pose proof (pt_y1 _ _ _ _ _ _ _ _ _ _ _ _ _ PT) as Y1. pose proof (pt_y2 _ _ _ _ _ _ _ _ _ _ _ _ _ PT) as Y2. assert (Z1 : ts_y1 (t_loaded u 1 t0) = map v_val (ms_y1 (m_loaded u 0 m0))) by exact Y1. assert (Z2 : ts_y2 (t_loaded u 1 t0) = map v_val (ms_y2 (m_loaded u 0 m0))) by exact Y2. rewrite Z1, Z2. exact HO1.
      * cbn. rewrite E5, E4. split; [reflexivity|ring].
    + intros k a b Ha Hb. rewrite E3 in Ha, Hb. destruct k as [|[|k]]; [|discriminate|discriminate]. injection Ha as <-. injection Hb as <-. exists (iref1 rg ps), (iref2 rg ps), (itheta g rg (p_initial_temperature (se_params u))), m0, t0. cbn [INR]. rewrite Rmult_0_l. auto.
  - destruct IH as [g [rg [ps [GR CH]]]]. exists g, rg, ps. split; [exact GR|]. apply (run_pres_ok (se_solver u) (chain u g rg ps) (chain_single u g rg ps) n s s' CH E).
Qed.
