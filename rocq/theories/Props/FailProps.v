(** * Runs that raise: C69. *)
From Coq Require Import Reals Lra Lia List ZArith String.
From Verif.Spec Require Import GridSpec.
From Verif.Model Require Import Py Num Tensors Domain Refine Bell Interp Steps Simulation.
From Verif.Spec Require Import SimSpec LiveSpec.
From Verif.Proofs Require Import Lib GridP StdOrder StepP SimP SimQ SimR SimH SimL SimA SimE SimF SimC.
From Verif.Props Require Import GridProps SimProps.
Local Open Scope R_scope.
Import ListNotations.
Local Notation length := List.length.

(** ** The recorded steps survive every exception *)

(** [s'] has the steps of [s] and then [n] more; the clock went on accordingly. *)
Definition extends (n : nat) (s s' : sim) : Prop := exists new, s_steps s' = s_steps s ++ new /\ length new = n /\ s_time s' = s_time s + INR n * s_tau s /\ s_tau s' = s_tau s.
Lemma extends_refl s : extends 0 s s.
Proof. exists []. rewrite app_nil_r. cbn. repeat split; lra. Qed.
Lemma extends_trans a b s1 s2 s3 : extends a s1 s2 -> extends b s2 s3 -> extends (a + b) s1 s3.
Proof.
  intros (l & E1 & L1 & T1 & U1) (l' & E2 & L2 & T2 & U2). exists (l ++ l'). rewrite E2, E1, app_assoc, app_length, L1, L2, T2, T1, U2, U1, plus_INR. repeat split; lra.
Qed.
Lemma single_extends u g rg ps s s' r : hist u g rg ps s -> run_single_step (se_solver u) s = (s', r) -> hist u g rg ps s' /\ ((exists e, r = Err e) /\ extends 0 s s' \/ r = Ok tt /\ extends 1 s s').
Proof.
  intros H E. pose proof (hist_single u g rg ps s s' r H E) as H'. split; [exact H'|].
  assert (TAU : s_tau s' = s_tau s). { pose proof (si_tau _ _ _ _ _ _ _ (hi_inv _ _ _ _ _ H)) as T1. pose proof (si_tau _ _ _ _ _ _ _ (hi_inv _ _ _ _ _ H')) as T2. rewrite T1 in T2. injection T2 as ->. reflexivity. }
  destruct (single_step u g rg _ _ _ (hi_st _ _ _ _ _ H) s s' r (hi_inv _ _ _ _ _ H) E) as [_ [(e & -> & E1 & E2 & _)|(-> & m1 & t1 & st & mx & x0 & x1 & y0 & y1 & _ & _ & _ & _ & E3 & E4 & _)]].
  - left. split; [eauto|]. exists []. rewrite app_nil_r. cbn. repeat split; try assumption. lra.
  - right. split; [reflexivity|]. exists [st]. cbn. repeat split; try assumption. lra.
Qed.
Lemma loop_extends u g rg ps n : forall s s' r, hist u g rg ps s -> run_loop (se_solver u) n s = (s', r) -> hist u g rg ps s' /\ ((exists e, r = Err e) /\ (exists k, (k < n)%nat /\ extends k s s') \/ r = Ok tt /\ extends n s s').
Proof.
  induction n as [|n IH]; intros s s' r H E; cbn in E; [injection E as <- <-; split; [exact H|]; right; split; [reflexivity|apply extends_refl]|].
  apply andthen_inv in E as [[e [E ->]]|[s1 [E1 E]]].
  - destruct (single_extends u g rg ps s s' _ H E) as [H' [[_ X]|[Z _]]]; [|discriminate]. split; [exact H'|]. left. split; [eauto|]. exists 0%nat. split; [lia|exact X].
  - destruct (single_extends u g rg ps s s1 _ H E1) as [H1 [[[e Z] _]|[_ X]]]; [discriminate|]. destruct (IH s1 s' r H1 E) as [H' [[Er (k & Hk & X')]|[-> X']]]; split; try exact H'.
    + left. split; [exact Er|]. exists (S k). split; [lia|]. exact (extends_trans 1 k _ _ _ X X').
    + right. split; [reflexivity|]. exact (extends_trans 1 n _ _ _ X X').
Qed.
(** Whatever [run n] does in a reachable state - in particular when it raises in the middle - the steps recorded before
    are still there, in order, fewer than [n] complete steps are added if it raises and exactly [n] otherwise, and the
    clock shows the time of the last recorded step. *)
Theorem C69_steps_kept : forall u s n s' r, reachable u s -> run (se_solver u) n s = (s', r) ->
  exists new, s_steps s' = s_steps s ++ new /\ ((exists e, r = Err e) /\ (Z.of_nat (length new) < Z.max 1 n)%Z \/ r = Ok tt /\ Z.of_nat (length new) = n) /\
  s_time s' = (INR (length (s_steps s')) - 1) / p_fps (se_params u).
Proof.
  intros u s n s' r H E. assert (H' : reachable u s') by (eapply r_run; eassumption).
  assert (TM : forall s, reachable u s -> s_time s = (INR (length (s_steps s)) - 1) / p_fps (se_params u)).
  { clear. intros s H. destruct (reachable_hist u s H) as (g & rg & ps & G & HI). pose proof (si_tau _ _ _ _ _ _ _ (hi_inv _ _ _ _ _ HI)) as T.
    assert (Z : p_fps (se_params u) <> 0). { intros Z. rewrite Z, ndiv_R0 in T. discriminate. } rewrite ndiv_R in T by exact Z.
    assert (Q : s_time s = (INR (length (s_steps s)) - 1) * s_tau s); [|rewrite Q; injection T as <-; field; exact Z]. clear Z T HI g rg ps G.
    induction H as [s V C|n s s' r HR IH E].
    - destruct (construct_inv u s V C) as (g & rg & ps & _ & _ & _ & _ & _ & _ & _ & m0 & t0 & st0 & st1 & mx & x0 & x1 & y0 & y1 & mx' & x0' & x1' & y0' & y1' & _ & _ & _ & _ & E3 & E4 & _). rewrite E3, E4. cbn. ring.
    - destruct (reachable_hist u s HR) as (g & rg & ps & G & HI). apply (run_pres (se_solver u) (fun s => hist u g rg ps s /\ s_time s = (INR (length (s_steps s)) - 1) * s_tau s)) with (n := n) (s := s) (r := r); [|auto|exact E].
      intros s1 s2 r' [H1 T1] E'. destruct (single_extends u g rg ps s1 s2 r' H1 E') as [H2 [[_ (l & El & L & T & U)]|[_ (l & El & L & T & U)]]]; (split; [exact H2|]); rewrite T, T1, El, app_length, L, plus_INR, U; cbn; ring. }
  destruct (reachable_hist u s H) as (g & rg & ps & G & HI). unfold run in E. destruct (n <=? 0)%Z eqn:A.
  - apply Z.leb_le in A. injection E as <- <-. exists []. rewrite app_nil_r. split; [reflexivity|]. split; [left; split; [eauto|cbn; lia]|exact (TM s H)].
  - apply Z.leb_gt in A. assert (X : (exists e, r = Err e) /\ (exists k, (k < Z.to_nat n)%nat /\ extends k s s') \/ r = Ok tt /\ extends (Z.to_nat n) s s').
    { destruct (n =? 1)%Z eqn:B; [|exact (proj2 (loop_extends u g rg ps _ s s' r HI E))]. apply Z.eqb_eq in B. subst n. destruct (proj2 (single_extends u g rg ps s s' r HI E)) as [[Q X]|[Q X]]; [left; split; [exact Q|]; exists 0%nat; split; [cbn; lia|exact X]|right; auto]. }
    destruct X as [[Q (k & Hk & (l & El & L & _ & _))]|[Q (l & El & L & _ & _)]]; exists l; (split; [exact El|]); (split; [|exact (TM s' H')]); [left; split; [exact Q|lia]|right; split; [exact Q|lia]].
Qed.
Print Assumptions C69_steps_kept.

(** ** When runs after a failure continue from the last recorded step *)

(** Only failures before the thermal step is touched: a thermal solve never raises and (without regularization) the
    external temperature is fine at every time k/fps.  The mechanical solver and the traction may fail at any time. *)
Definition thermal_part_fine (u : setting) : Prop :=
  (forall k t, ta_exn (sv_therm (se_solver u) k t) = None) /\
  (p_regularization (se_params u) = None -> forall k : nat, exists v, se_external u (INR k / p_fps (se_params u)) = Ok v /\ 0 <= v).
Section Chain.
Context (u : setting) (g : grid R) (rg : option (refined_grid R)) (ps : list (R * R)) (G : ground u g rg ps) (F : thermal_part_fine u).
Let fx := ifx g rg.
Let ref1 := iref1 rg ps.
Let ref2 := iref2 rg ps.
Definition linked_at (tm : R) (c : nat) (a b : Simulation.step) : Prop := exists a1 a2 th m1 t1,
  holds g rg a a1 a2 th /\ posed_m u g rg fx ref1 ref2 m1 a1 a2 th tm /\
  let m2 := m_loaded u c m1 in
  posed_t u g rg fx ref1 ref2 t1 a1 a2 (map v_val (ms_y1 m2)) (map v_val (ms_y2 m2)) th tm /\
  let t2 := t_loaded u (S c) t1 in
  holds g rg b (map v_val (ms_y1 m2)) (map v_val (ms_y2 m2)) (map v_val (ts_theta t2)).
Record rough_chain (s : sim) : Prop := {
  rc_hist : hist u g rg ps s;
  rc_last : exists l st, s_steps s = l ++ [st] /\ holds g rg st (ts_y1 (s_therm s)) (ts_y2 (s_therm s)) (map v_val (ts_theta (s_therm s))) /\ s_time s = INR (length l) * s_tau s;
  rc_links : forall k a b, nth_error (s_steps s) k = Some a -> nth_error (s_steps s) (S k) = Some b -> exists c, linked_at (INR k * s_tau s) c a b
}.
Lemma tau_div s k : hist u g rg ps s -> INR k * s_tau s = INR k / p_fps (se_params u).
Proof.
  intros HH. pose proof (si_tau _ _ _ _ _ _ _ (hi_inv _ _ _ _ _ HH)) as T. destruct (Req_dec (p_fps (se_params u)) 0) as [Z|Z].
  - rewrite Z in T. rewrite ndiv_R0 in T. discriminate.
  - rewrite ndiv_R in T by exact Z. injection T as <-. field. exact Z.
Qed.
Lemma rough_single s s' r : rough_chain s -> run_single_step (se_solver u) s = (s', r) -> rough_chain s'.
Proof.
  intros [HH [l [st [El [HO ET]]]] HL] E. pose proof (hist_single u g rg ps _ _ _ HH E) as HH'. pose proof HH as [_ HS HI _ _ _].
  assert (TAU : s_tau s' = s_tau s). { pose proof (si_tau _ _ _ _ _ _ _ HI) as T1. pose proof (si_tau _ _ _ _ _ _ _ (hi_inv _ _ _ _ _ HH')) as T2. rewrite T1 in T2. injection T2 as ->. reflexivity. }
  destruct (single_step u g rg fx ref1 ref2 HS s s' _ HI E) as [HI' [(e & Z & E1 & E2 & _)|(_ & m1 & t1 & st' & mx & x0 & x1 & y0 & y1 & PM & PT & E1 & E2 & E3 & E4 & E5 & HO' & _)]].
  - subst r. assert (TH : s_therm s' = s_therm s).
    { destruct (failed_step u g rg fx ref1 ref2 HS s s' e HI E) as [[X _]|(m1 & _ & _ & [(_ & _ & Hn & X)|(_ & (t & X) & _)])]; [exact X|exfalso|rewrite (proj1 F) in X; discriminate].
      rewrite ET, (tau_div s _ HH) in X. assert (RN : p_regularization (se_params u) = None) by (destruct (gr_ref _ _ _ _ G) as [[A _]|(e' & k & r & _ & _ & _ & A)]; [exact A|congruence]). destruct (proj2 F RN (length l)) as (v & Ev & Hv). rewrite Ev in X. destruct X as [[e' X]|(v' & X & Lv)]; [discriminate|]. injection X as ->. lra. }
    split; [exact HH'| |].
    + exists l, st. rewrite E1, TH, E2, TAU. auto.
    + rewrite E1, TAU. exact HL.
  - split; [exact HH'| |].
    + exists (l ++ [st]), st'. rewrite E3, El. split; [reflexivity|]. rewrite E2. split.
      * pose proof (pt_y1 _ _ _ _ _ _ _ _ _ _ _ _ _ PT) as Y1. pose proof (pt_y2 _ _ _ _ _ _ _ _ _ _ _ _ _ PT) as Y2.
        assert (Z1 : ts_y1 (t_loaded u (S (s_calls s)) t1) = map v_val (ms_y1 (m_loaded u (s_calls s) m1))) by exact Y1. assert (Z2 : ts_y2 (t_loaded u (S (s_calls s)) t1) = map v_val (ms_y2 (m_loaded u (s_calls s) m1))) by exact Y2. rewrite Z1, Z2. exact HO'.
      * rewrite app_length, E4, ET, TAU, plus_INR. cbn. ring.
    + rewrite E3, TAU. intros k a b Ha Hb. destruct (Nat.lt_ge_cases (S k) (length (s_steps s))) as [Lt|Ge].
      * rewrite nth_error_app1 in Ha by lia. rewrite nth_error_app1 in Hb by lia. exact (HL k a b Ha Hb).
      * assert (Lk : (S k < length (s_steps s ++ [st']))%nat) by (apply nth_error_Some; congruence). rewrite app_length in Lk. cbn in Lk. assert (Sk : S k = length (s_steps s)) by lia. assert (kl : k = length l) by (rewrite El, app_length in Sk; cbn in Sk; lia).
        rewrite nth_error_app2 in Hb by lia. rewrite Sk, Nat.sub_diag in Hb. injection Hb as <-. rewrite nth_error_app1, El, nth_error_app2, kl, Nat.sub_diag in Ha by lia. injection Ha as <-.
        exists (s_calls s), (ts_y1 (s_therm s)), (ts_y2 (s_therm s)), (map v_val (ts_theta (s_therm s))), m1, t1. rewrite kl, <- ET. auto.
Qed.
End Chain.
Lemma reachable_rough u s : thermal_part_fine u -> reachable u s -> exists g rg ps, ground u g rg ps /\ rough_chain u g rg ps s.
Proof.
  intros F. induction 1 as [s V C|n s s' r HR IH E].
  - destruct (undisturbed_chain u s (u_construct u s V C)) as (g & rg & ps & G & CH). exists g, rg, ps. split; [exact G|]. destruct CH as [HH (l & st & El & HO & _ & ET) HL]. split; [exact HH|exists l, st; auto|].
    intros k a b Ha Hb. exists (2 * k)%nat. destruct (HL k a b Ha Hb) as (a1 & a2 & th & m1 & t1 & A & B & CC & D). replace (2 * k + 1)%nat with (S (2 * k)) in D by lia. exists a1, a2, th, m1, t1. auto.
  - destruct IH as (g & rg & ps & G & RC). exists g, rg, ps. split; [exact G|]. exact (run_pres (se_solver u) (rough_chain u g rg ps) (rough_single u g rg ps G F) n s s' r RC E).
Qed.
(** Then every recorded step continues the step recorded before it, also after any number of failed runs: it is the
    solver's answer (in calls c and c + 1, for some c) to the mechanical and then the thermal problem posed by that step,
    with the forcing at time k/fps. *)
Theorem C69_continues_from_last_step_partial : forall u s k a b, reachable u s -> thermal_part_fine u -> nth_error (s_steps s) k = Some a -> nth_error (s_steps s) (S k) = Some b ->
  exists c m t,
    let time := INR k / p_fps (se_params u) in
    mech_problem_from u s a time m /\
    let y := mech_y (fst (mech_solve (sv_mech (se_solver u) c m) m)) in
    therm_problem_from u s a y time t /\
    st_y_data b = y /\ st_theta_data b = therm_theta (fst (therm_solve (sv_therm (se_solver u) (S c) t) t)).
Proof.
  intros u s k a b H F Ha Hb. destruct (reachable_rough u s F H) as (g & rg & ps & G & RC). pose proof (rc_hist _ _ _ _ _ RC) as HH. destruct (rc_links _ _ _ _ _ RC k a b Ha Hb) as (c & a1 & a2 & th & m & t & HO & PM & PT & HB). exists c, m, t. cbv zeta.
  rewrite (tau_div u g rg ps s k HH) in *. exact (link_problems u g rg ps s a b a1 a2 th m t _ _ _ HH HO PM PT HB).
Qed.
Print Assumptions C69_continues_from_last_step_partial.

(** ** Examples and refutation: solvers that raise in single calls *)
Lemma construct_push reg bad : (forall k, In k bad -> (2 <= k)%nat) -> construct (ex_setting reg bad) = construct (ex_setting reg []).
Proof.
  intros H. assert (E : forall k, (k < 2)%nat -> existsb (Nat.eqb k) bad = false). { intros k Hk. apply Bool.not_true_is_false. intros X. apply existsb_exists in X as (j & Hj & X). apply Nat.eqb_eq in X. subst j. specialize (H k Hj). lia. }
  unfold construct, Simulation_. cbn [ex_setting se_order se_width se_height se_fix se_params se_external se_traction se_solver].
  assert (M : sv_mech (push bad) 0 = sv_mech (push []) 0) by (cbn [push sv_mech]; rewrite (E 0%nat) by lia; reflexivity). assert (T : sv_therm (push bad) 1 = sv_therm (push []) 1) by (cbn [push sv_therm]; rewrite (E 1%nat) by lia; reflexivity).
  rewrite M, T. reflexivity.
Qed.
Lemma andthen_ext x k k' : (forall s, x = (s, Ok tt) -> k s = k' s) -> andthen x k = andthen x k'.
Proof. intros H. destruct x as [s [[]|e]]; cbn; [apply H; reflexivity|reflexivity]. Qed.
(** The invariants do not mention the solver. *)
Lemma hist_swap reg bad bad' g rg ps s : hist (ex_setting reg bad) g rg ps s -> hist (ex_setting reg bad') g rg ps s.
Proof.
  intros [A1 [S1 S2 S3 S4] [I1 I2 I3 I4 I5 I6] A4 A5 A6]. split; [exact A1|split; assumption|split; assumption| |exact A5|exact A6]. intros st Hst. destruct (A4 st Hst) as [B1 B2]. split; [exact B1|]. intros _. exact (B2 (push_domain bad)).
Qed.
Lemma ground_swap reg bad bad' g rg ps : ground (ex_setting reg bad) g rg ps -> ground (ex_setting reg bad') g rg ps.
Proof. intros [A1 A2 A3 A4 A5 A6]. split; assumption. Qed.
(** The four stages of a step. *)
Lemma stages u g rg ps s : hist u g rg ps s -> forall s1, run_single_step (se_solver u) s = (s1, Ok tt) ->
  exists sa sb sc sd, update_mechanical_step s = (sa, Ok tt) /\ s_calls sa = s_calls s /\ solve_mech (se_solver u) sa = (sb, Ok tt) /\ update_thermal_step sb = (sc, Ok tt) /\ s_calls sc = S (s_calls s) /\ s_calls sd = S (S (s_calls s)) /\
    solve_therm (se_solver u) sc = (sd, Ok tt) /\ append_step sd (therm_y (s_therm sd)) (therm_theta (s_therm sd)) = (s1, Ok tt) /\ sd = with_models s (s_mech sd) (s_therm sd) (S (S (s_calls s))).
Proof.
  intros HH s1 E. pose proof (hi_inv _ _ _ _ _ HH) as I. pose proof (hi_st _ _ _ _ _ HH) as ST. unfold run_single_step in E. apply andthen_inv in E as [[e0 [_ E]]|[sa [Ea E]]]; [discriminate|].
  destruct (update_m_inv _ _ _ _ _ _ ST _ _ _ I Ea) as [m1 [Sa [I1 _]]]. apply andthen_inv in E as [[e0 [_ E]]|[sb [Eb E]]]; [discriminate|].
  assert (Sb : sb = with_models s (m_loaded u (s_calls s) m1) (s_therm s) (S (s_calls s))). { rewrite Sa in Eb. unfold solve_mech, on_mech, mech_solve in Eb. cbn in Eb. injection Eb as <- _. reflexivity. }
  assert (I2 : minv (se_params u) g rg (se_traction u) (ifx g rg) (iref1 rg ps) (iref2 rg ps) (m_loaded u (s_calls s) m1)) by (apply m_solve_inv, I1).
  assert (V2 : sinv u g rg (ifx g rg) (iref1 rg ps) (iref2 rg ps) sb) by (rewrite Sb; apply sinv_models; [exact I|exact I2|apply I]).
  apply andthen_inv in E as [[e0 [_ E]]|[sc [Ec E]]]; [discriminate|]. destruct (update_t_inv _ _ _ _ _ _ _ _ _ V2 Ec) as [t1 [Sc _]]. apply andthen_inv in E as [[e0 [_ E]]|[sd [Ed E]]]; [discriminate|].
  exists sa, sb, sc, sd. assert (Ca : s_calls sa = s_calls s) by (rewrite Sa; reflexivity). assert (Cc : s_calls sc = S (s_calls s)) by (rewrite Sc, Sb; reflexivity). 
  assert (Sd : sd = with_models s (s_mech sd) (s_therm sd) (S (S (s_calls s)))). { unfold solve_therm, on_therm, therm_solve in Ed. rewrite Sc, Sb in Ed. cbn in Ed. injection Ed as <- _. reflexivity. }
  repeat (split; [assumption|]). split; [rewrite Sd; reflexivity|]. auto.
Qed.

(** The setting of the examples with a thermal solve that raises in call 3, i.e. in the first step of the first run. *)
Section Retry.
Context (rg0 : option R) (H0 : forall e, rg0 = Some e -> 0 <= e).
Let u := ex_setting rg0 [3%nat].
Let u0 := ex_setting rg0 [].
Lemma retry : exists s0 s1 s2 a b, construct u = Ok s0 /\ run (se_solver u) 1 s0 = (s1, Err SolverError) /\ run (se_solver u) 1 s1 = (s2, Ok tt) /\
  s_steps s1 = s_steps s0 /\ s_steps s2 = s_steps s0 ++ [b] /\ nth_error (s_steps s2) 1 = Some a /\ nth_error (s_steps s2) 2 = Some b /\
  domain_grid std_order 1 1 (FixOne "left") (1/2) = Ok (s_grid s2) /\
  forall v i j, vertex_at (s_grid s2) (1/2) v i j -> i <> 0%nat ->
    y_at (st_y_data a) v 0 0 = Some (INR i * (1/2) + 1/10) /\ y_at (st_y_data b) v 0 0 = Some (INR i * (1/2) + 3/10).
Proof.
  destruct (ex_runs rg0 1 H0 ltac:(lia)) as (s0 & s1' & C & E & U0 & U1). fold u0 in C, E, U0, U1.
  assert (Cu : construct u = Ok s0). { unfold u. rewrite construct_push by (intros k [<- |[]]; lia). exact C. }
  assert (V : valid_setting u) by (apply ex_valid; exact H0).
  assert (R0 : reachable u s0) by (apply r_construct; assumption). 
  destruct (undisturbed_chain u0 s0 U0) as (g & rg & ps & G & CH). pose proof (ch_hist _ _ _ _ _ CH) as HH.
  destruct (reachable_hist u s0 R0) as (g' & rg' & ps' & G' & HH').
  destruct (ground_unique u0 _ _ _ _ _ _ G (ground_swap _ _ [] _ _ _ G')) as (-> & -> & ->).
  change (run (se_solver u0) 1 s0) with (run_single_step (se_solver u0) s0) in E.
  destruct (stages u0 g rg ps s0 HH s1' E) as (sa & sb & sc & sd & Ea & Ca & Eb & Ec & Cc & Cd & Ed & Eap & Sd).
  destruct (ch_last _ _ _ _ _ CH) as (l & stl & El & HOl & ECl & ETl).
  assert (L2 : length (s_steps s0) = 2%nat) by (apply (C65_construction u0 s0); [apply ex_valid; exact H0|exact C]). assert (Ll : length l = 1%nat) by (rewrite El, app_length in L2; cbn in L2; lia). rewrite Ll in ECl. cbn in ECl. rewrite ECl in *.
  assert (Fail : run_single_step (se_solver u) s0 = (sd, Err SolverError)).
  { unfold run_single_step. rewrite Ea. cbn [andthen]. assert (Eb' : solve_mech (se_solver u) sa = (sb, Ok tt)). { rewrite <- Eb. unfold solve_mech. rewrite Ca. reflexivity. } rewrite Eb'. cbn [andthen]. rewrite Ec. cbn [andthen].
    assert (Ed' : solve_therm (se_solver u) sc = (sd, Err SolverError)). { unfold solve_therm in *. rewrite Cc in *. unfold on_therm, therm_solve in *. cbn [u u0 ex_setting se_solver push sv_therm existsb Nat.eqb orb ta_exn ta_theta] in *. injection Ed as <-. reflexivity. }
    rewrite Ed'. reflexivity. }
  pose proof (hist_single u g rg ps s0 sd _ HH' Fail) as HD. pose proof (hist_swap _ _ [] _ _ _ _ HD) as HD0. fold u0 in HD0.
  (* what the first attempt left behind *)
  pose proof (undisturbed_chain u0 s1' U1) as (g2 & rg2 & ps2 & G2 & CH1). destruct (ground_unique u0 _ _ _ _ _ _ G G2) as (-> & -> & ->).
  assert (Sdt : s_steps sd = s_steps s0 /\ s_time sd = s_time s0) by (rewrite Sd; auto). destruct Sdt as [Sds Sdt].
  assert (AP : s_therm s1' = s_therm sd /\ s_steps s1' <> s_steps s0).
  { pose proof (hi_inv _ _ _ _ _ HD0) as ID. destruct (therm_getters _ _ _ _ _ _ _ (si_t _ _ _ _ _ _ _ ID)) as [_ [Gy [_ Gth]]]. rewrite Gy, Gth in Eap.
    destruct (append_ok u0 g rg (hi_st _ _ _ _ _ HH) sd (ts_y1 (s_therm sd)) (ts_y2 (s_therm sd)) (map v_val (ts_theta (s_therm sd)))) as (st & mx & x0 & x1 & y0 & y1 & EA & _); [apply ID|apply ID|apply ID|apply (si_t _ _ _ _ _ _ _ ID)|apply (si_t _ _ _ _ _ _ _ ID)|rewrite map_length; apply (si_t _ _ _ _ _ _ _ ID)|].
    rewrite EA in Eap. injection Eap as <-. split; [reflexivity|]. cbn. rewrite Sds. intros Z. apply (f_equal (@length Simulation.step)) in Z. rewrite app_length in Z. cbn in Z. lia. }
  destruct AP as [AP _].
  (* the retry *)
  destruct (run_single_step (se_solver u0) sd) as [s2 r2] eqn:E2. assert (T0 : 0 <= s_time s0). { rewrite ETl. apply Rmult_le_pos; [apply pos_INR|]. pose proof (si_tau _ _ _ _ _ _ _ (hi_inv _ _ _ _ _ HH)) as T. rewrite ndiv_R in T by (cbn; lra). injection T as <-. cbn. lra. }
  destruct (ch_last _ _ _ _ _ CH1) as (l1 & st1 & El1 & HO1 & EC1 & ET1).
  assert (L3 : length (s_steps s1') = 3%nat). { destruct (C65_run_adds_steps u0 s0 1 s1' (undisturbed_reachable _ _ U0) E) as (_ & new & En & Ln). rewrite En, app_length, L2. lia. } assert (Ll1 : length l1 = 2%nat) by (rewrite El1, app_length in L3; cbn in L3; lia).
  assert (N1 : nth_error (s_steps s1') 2 = Some st1) by (rewrite El1, nth_error_app2, Ll1 by lia; reflexivity).
  pose proof (push_links u0 g rg ps s1' G CH1 eq_refl 2 st1 N1) as HO1'. cbv zeta in HO1'. set (d2 := INR 2 * p_search_radius (se_params u0)) in *.
  assert (FL : length (ifx g rg) = (num_vertices g * dofs rg)%nat) by (unfold ifx; rewrite map_length; apply range_length). destruct (iref_length rg ps) as [RL1 RL2]. rewrite (gr_len _ _ _ _ G) in RL1, RL2.
  pose proof (si_t _ _ _ _ _ _ _ (hi_inv _ _ _ _ _ (ch_hist _ _ _ _ _ CH1))) as IT.
  assert (TD : ts_y1 (s_therm sd) = shift d2 (ifx g rg) (iref1 rg ps) /\ ts_y2 (s_therm sd) = shift d2 (ifx g rg) (iref2 rg ps) /\ map v_val (ts_theta (s_therm sd)) = map (fun x => x + d2) (itheta g rg (p_initial_temperature (se_params u0)))).
  { rewrite <- AP. destruct (holds_comp g rg _ _ _ _ HO1 (ti_y1 _ _ _ _ _ _ _ _ IT) (ti_y2 _ _ _ _ _ _ _ _ IT)) as (A1 & A2 & A3). destruct (holds_comp g rg _ _ _ _ HO1') as (B1 & B2 & B3); [rewrite shift_length; congruence|rewrite shift_length; congruence|]. repeat split; congruence. }
  destruct TD as (TD1 & TD2 & TD3).
  assert (NN : forall v, In v (map v_val (ts_theta (s_therm sd))) -> 0 <= v). { rewrite TD3. intros v Hv. apply in_map_iff in Hv as (x & <- & Hx). unfold itheta in Hx. apply in_map_iff in Hx as (z & <- & _). unfold d2. cbn. lra. }
  destruct (grid_bounds (se_order u) 1 1 (se_fix u) (1/2) g) as (_ & _ & _ & NB & _); [lra|lra|lra|exact (gr_grid _ _ _ _ G)|].
  assert (r2 = Ok tt) as ->. { apply (single_live u0 g rg (ifx g rg) (iref1 rg ps) (iref2 rg ps) (hi_st _ _ _ _ _ HD0) NB sd s2 r2 (hi_inv _ _ _ _ _ HD0)); [rewrite Sdt; apply ex_forcing; exact T0|exact push_quiet|exact NN|exact E2]. }
  destruct (single_step u0 g rg _ _ _ (hi_st _ _ _ _ _ HD0) sd s2 _ (hi_inv _ _ _ _ _ HD0) E2) as [_ [(e & Z & _)|(_ & m1 & t1 & st & mx & x0 & x1 & y0 & y1 & PM & PT & EE1 & EE2 & EE3 & EE4 & EE5 & HO' & _)]]; [discriminate|].
  assert (E2' : run_single_step (se_solver u) sd = (s2, Ok tt)).
  { destruct (stages u0 g rg ps sd HD0 s2 E2) as (za & zb & zc & zd & Za & Qa & Zb & Zc & Qc & Qd & Zd & Zap & _). rewrite Cd in *. unfold run_single_step. rewrite Za. cbn [andthen]. assert (Zb' : solve_mech (se_solver u) za = (zb, Ok tt)) by (rewrite <- Zb; unfold solve_mech; rewrite Qa; reflexivity). rewrite Zb'. cbn [andthen]. rewrite Zc. cbn [andthen].
    assert (Zd' : solve_therm (se_solver u) zc = (zd, Ok tt)) by (rewrite <- Zd; unfold solve_therm; rewrite Qc; reflexivity). rewrite Zd'. cbn [andthen]. exact Zap. }
  assert (N0 : nth_error (s_steps s0) 1 = Some stl) by (rewrite El, nth_error_app2, Ll by lia; reflexivity).
  exists s0, sd, s2, stl, st. split; [exact Cu|]. split; [exact Fail|]. split; [exact E2'|]. split; [exact Sds|]. split; [rewrite EE3, Sds; reflexivity|]. split; [rewrite EE3, Sds, nth_error_app1 by lia; exact N0|]. split; [rewrite EE3, Sds, nth_error_app2, L2 by lia; reflexivity|].
  assert (Gs2 : s_grid s2 = g). { pose proof (hist_single u g rg ps sd s2 _ HD E2') as H2. apply (hist_grid _ _ _ _ _ H2). } rewrite Gs2. split; [exact (gr_grid _ _ _ _ G)|].
  intros v i j [Hv Hp] Hi.
  assert (Yb : map v_val (ms_y1 (m_loaded u0 (s_calls sd) m1)) = shift (3/10) (ifx g rg) (iref1 rg ps)).
  { unfold m_loaded, mech_solve. cbn [fst ms_y1]. cbn [u0 ex_setting se_solver push sv_mech ma_y1]. rewrite (load_upper _ _ _ _ (pm_v1 _ _ _ _ _ _ _ _ _ _ _ PM) (pm_u1 _ _ _ _ _ _ _ _ _ _ _ PM) (mi_f1 _ _ _ _ _ _ _ _ (pm_inv _ _ _ _ _ _ _ _ _ _ _ PM))). rewrite TD1, shift_shift by congruence. f_equal. unfold d2. cbn. lra. }
  destruct (hist_grid _ _ _ _ _ HH) as (Gs0 & _).
  assert (Ya : y_at (st_y_data stl) v 0 0 = Some (INR i * (1/2) + 1/10)).
  { destruct (ex_entry rg0 s0 1 stl v i j U0 N0) as (A & _); [rewrite Gs0; split; assumption|exact Hi|]. rewrite A. f_equal. cbn. lra. }
  split; [exact Ya|]. rewrite (ho_y _ _ _ _ _ _ HO'), Yb. rewrite (gr_vertices _ _ _ _ G) in Hv. apply in_seq in Hv. rewrite (gr_len _ _ _ _ G) in Hv. pose proof (pm_inv _ _ _ _ _ _ _ _ _ _ _ PM) as IM. assert (I2 : minv (se_params u0) g rg (se_traction u0) (ifx g rg) (iref1 rg ps) (iref2 rg ps) (m_loaded u0 (s_calls sd) m1)) by (apply m_solve_inv, IM).
  rewrite y_at_zero by first [lia|rewrite shift_length; congruence|rewrite map_length; exact (mi_y2 _ _ _ _ _ _ _ _ I2)]. cbn [Nat.eqb]. rewrite shift_nth.
  rewrite (ho_y _ _ _ _ _ _ (push_links u0 g rg ps s0 G CH eq_refl 1 stl N0)) in Ya. rewrite y_at_zero in Ya by (try lia; rewrite shift_length; congruence). cbn [Nat.eqb] in Ya. rewrite shift_nth in Ya.
  apply (points_nth g ps v _ _ (gr_points _ _ _ _ G)) in Hp. destruct (iref_nth rg ps v _ _ Hp) as [Q _]. rewrite Q in *. destruct (nth_error (ifx g rg) (v * dofs rg)) as [[]|]; [|f_equal; lra|discriminate]. injection Ya as Ya. exfalso. lra.
Qed.
End Retry.

(** Refuted: a thermal solve that raises in the first step of the first run; the run leaves the two recorded steps alone,
    but the next run starts from the deformation of the step that was never recorded: the step it records is two search
    radii away from its predecessor, although the solver respects the bounds in every call, with and without
    regularization. *)
Theorem C69_retry_refuted : forall reg, reg = None \/ reg = Some 1 -> let u := ex_setting reg [3%nat] in exists s0 s1 s2 a b v x x',
  valid_setting u /\ respects_bounds (se_solver u) /\ construct u = Ok s0 /\ run (se_solver u) 1 s0 = (s1, Err SolverError) /\ run (se_solver u) 1 s1 = (s2, Ok tt) /\
  s_steps s1 = s_steps s0 /\ s_steps s2 = s_steps s1 ++ [b] /\ nth_error (s_steps s2) 1 = Some a /\ nth_error (s_steps s2) 2 = Some b /\
  y_at (st_y_data a) v 0 0 = Some x /\ y_at (st_y_data b) v 0 0 = Some x' /\ x' - x = 2 * p_search_radius (se_params u).
Proof.
  intros reg H u. assert (H0 : forall e, reg = Some e -> 0 <= e) by (intros e E; destruct H; subst; [discriminate|injection E as <-; lra]).
  destruct (retry reg H0) as (s0 & s1 & s2 & a & b & C & E1 & E2 & S1 & S2 & Na & Nb & Eg & Q). pose proof (ex_vertex u _ 2 1 Eg ltac:(lia) ltac:(lia)) as W. destruct (Q _ _ _ W ltac:(lia)) as [Ya Yb].
  exists s0, s1, s2, a, b, (pair_to_vertex 3 2 1). eexists _, _. split; [exact (ex_valid reg _ H0)|]. split; [exact (push_bounds _)|]. split; [exact C|]. split; [exact E1|]. split; [exact E2|]. split; [exact S1|]. split; [rewrite S1; exact S2|]. split; [exact Na|]. split; [exact Nb|]. split; [exact Ya|]. split; [exact Yb|]. cbn. lra.
Qed.
Print Assumptions C69_retry_refuted.

(** A case for C69_continues_from_last_step_partial: only mechanical solves raise, in call 2, i.e. in the first step of the
    first run; the second run succeeds and its step continues the last recorded one. *)
Definition push_mech (bad : list nat) : solver := mkSolver (sv_mech (push bad)) (sv_therm (push [])).
Definition ex_setting_m (reg : option R) (bad : list nat) : setting :=
  {| se_order := std_order; se_solver := push_mech bad; se_width := 1; se_height := 1; se_fix := FixOne "left"; se_params := ex_params reg;
     se_external := fun t => Ok (1 + t); se_traction := fun t x y => Ok [t; x * y] |}.
Lemma fine_m reg bad : thermal_part_fine (ex_setting_m reg bad).
Proof.
  split; [reflexivity|]. intros _ k. cbn. exists (1 + INR k / 10). split; [reflexivity|]. pose proof (pos_INR k). lra.
Qed.
Lemma hist_swap_m reg bad g rg ps s : hist (ex_setting_m reg bad) g rg ps s -> hist (ex_setting reg []) g rg ps s.
Proof.
  intros [A1 [S1 S2 S3 S4] [I1 I2 I3 I4 I5 I6] A4 A5 A6]. split; [exact A1|split; assumption|split; assumption| |exact A5|exact A6]. intros st Hst. destruct (A4 st Hst) as [B1 B2]. split; [exact B1|]. intros RD. exact (B2 RD).
Qed.
Lemma ground_swap_m reg bad g rg ps : ground (ex_setting_m reg bad) g rg ps -> ground (ex_setting reg []) g rg ps.
Proof. intros [A1 A2 A3 A4 A5 A6]. split; assumption. Qed.
Example C69_example : forall reg, reg = None \/ reg = Some 1 -> let u := ex_setting_m reg [2%nat] in exists s0 s1 s2 a b,
  thermal_part_fine u /\ construct u = Ok s0 /\ run (se_solver u) 1 s0 = (s1, Err SolverError) /\ run (se_solver u) 1 s1 = (s2, Ok tt) /\ reachable u s2 /\
  nth_error (s_steps s2) 1 = Some a /\ nth_error (s_steps s2) 2 = Some b /\ length (s_steps s2) = 3%nat.
Proof.
  intros reg H u. assert (H0 : forall e, reg = Some e -> 0 <= e) by (intros e E; destruct H; subst; [discriminate|injection E as <-; lra]). set (u0 := ex_setting reg []).
  destruct (ex_runs reg 1 H0 ltac:(lia)) as (s0 & s1' & C & E & U0 & U1). fold u0 in C, E, U0, U1.
  assert (Cu : construct u = Ok s0) by exact C. assert (V : valid_setting u) by exact (ex_valid reg [] H0). assert (R0 : reachable u s0) by (apply r_construct; assumption).
  destruct (undisturbed_chain u0 s0 U0) as (g & rg & ps & G & CH). pose proof (ch_hist _ _ _ _ _ CH) as HH.
  destruct (reachable_hist u s0 R0) as (g' & rg' & ps' & G' & HH'). destruct (ground_unique u0 _ _ _ _ _ _ G (ground_swap_m _ _ _ _ _ G')) as (-> & -> & ->).
  change (run (se_solver u0) 1 s0) with (run_single_step (se_solver u0) s0) in E.
  destruct (stages u0 g rg ps s0 HH s1' E) as (sa & sb & sc & sd & Ea & Ca & Eb & Ec & Cc & Cd & Ed & Eap & Sd). destruct (ch_last _ _ _ _ _ CH) as (l & stl & El & HOl & ECl & ETl).
  assert (L2 : length (s_steps s0) = 2%nat) by (apply (C65_construction u0 s0); [apply ex_valid; exact H0|exact C]). assert (Ll : length l = 1%nat) by (rewrite El, app_length in L2; cbn in L2; lia). rewrite Ll in ECl. cbn in ECl. rewrite ECl in *.
  assert (Fail : run_single_step (se_solver u) s0 = (sb, Err SolverError)).
  { unfold run_single_step. rewrite Ea. cbn [andthen]. assert (Eb' : solve_mech (se_solver u) sa = (sb, Err SolverError)). { unfold solve_mech in *. rewrite Ca in *. unfold on_mech, mech_solve in *. cbn [u u0 ex_setting ex_setting_m se_solver push push_mech sv_mech existsb Nat.eqb orb ma_exn ma_y1 ma_y2] in *. injection Eb as <-. reflexivity. } rewrite Eb'. reflexivity. }
  pose proof (hist_single u g rg ps s0 sb _ HH' Fail) as HB. pose proof (hist_swap_m _ _ _ _ _ _ HB) as HB0. fold u0 in HB0.
  destruct (failed_step u g rg _ _ _ (hi_st _ _ _ _ _ HH') s0 sb _ (hi_inv _ _ _ _ _ HH') Fail) as [[TB CB]|(m1 & _ & _ & [(_ & _ & _ & X)|(_ & (t & X) & _)])]; [|exfalso|discriminate].
  2:{ cbn in X. destruct X as [[e X]|(v & X & Lv)]; [discriminate|]. injection X as <-. rewrite ETl in Lv. assert (0 <= INR (length l) * s_tau s0); [|lra]. apply Rmult_le_pos; [apply pos_INR|]. pose proof (si_tau _ _ _ _ _ _ _ (hi_inv _ _ _ _ _ HH)) as T. rewrite ndiv_R in T by (cbn; lra). injection T as <-. cbn. lra. }
  assert (CB' : s_calls sb = 3%nat). { unfold solve_mech, on_mech, mech_solve in Eb. injection Eb as <-. cbn. rewrite Ca. reflexivity. }
  destruct (single_step u g rg _ _ _ (hi_st _ _ _ _ _ HH') s0 sb _ (hi_inv _ _ _ _ _ HH') Fail) as [_ [(e & _ & ES & ET & _)|(Z & _)]]; [|discriminate].
  assert (T0 : 0 <= s_time s0). { rewrite ETl. apply Rmult_le_pos; [apply pos_INR|]. pose proof (si_tau _ _ _ _ _ _ _ (hi_inv _ _ _ _ _ HH)) as T. rewrite ndiv_R in T by (cbn; lra). injection T as <-. cbn. lra. }
  assert (NN : forall v, In v (map v_val (ts_theta (s_therm sb))) -> 0 <= v). { rewrite TB. intros v Hv. apply (C59_temperatures_non_negative u0 s0 stl v); [exact (undisturbed_reachable _ _ U0)|exact (push_domain [])|rewrite El; apply in_or_app; right; left; reflexivity|]. rewrite (ho_th _ _ _ _ _ _ HOl). exact Hv. }
  destruct (grid_bounds (se_order u) 1 1 (se_fix u) (1/2) g) as (_ & _ & _ & NB & _); [lra|lra|lra|exact (gr_grid _ _ _ _ G)|].
  destruct (run_single_step (se_solver u0) sb) as [s2 r2] eqn:E2.
  assert (r2 = Ok tt) as ->. { apply (single_live u0 g rg (ifx g rg) (iref1 rg ps) (iref2 rg ps) (hi_st _ _ _ _ _ HB0) NB sb s2 r2 (hi_inv _ _ _ _ _ HB0)); [rewrite ET; apply ex_forcing; exact T0|exact push_quiet|exact NN|exact E2]. }
  assert (E2' : run_single_step (se_solver u) sb = (s2, Ok tt)).
  { destruct (stages u0 g rg ps sb HB0 s2 E2) as (za & zb & zc & zd & Za & Qa & Zb & Zc & Qc & Qd & Zd & Zap & _). rewrite CB' in *. unfold run_single_step. rewrite Za. cbn [andthen]. assert (Zb' : solve_mech (se_solver u) za = (zb, Ok tt)) by (rewrite <- Zb; unfold solve_mech; rewrite Qa; reflexivity). rewrite Zb'. cbn [andthen]. rewrite Zc. cbn [andthen].
    assert (Zd' : solve_therm (se_solver u) zc = (zd, Ok tt)) by (rewrite <- Zd; reflexivity). rewrite Zd'. cbn [andthen]. exact Zap. }
  assert (R2 : reachable u s2) by (apply (r_run u 1 sb s2 (Ok tt)); [apply (r_run u 1 s0 sb (Err SolverError)); [exact R0|exact Fail]|exact E2']).
  destruct (C65_run_adds_steps u sb 1 s2) as (_ & new & En & Ln); [apply (r_run u 1 s0 sb (Err SolverError)); [exact R0|exact Fail]|exact E2'|]. assert (L3 : length (s_steps s2) = 3%nat) by (rewrite En, app_length, ES, L2; lia).
  destruct (nth_error (s_steps s2) 1) as [a|] eqn:Na; [|apply nth_error_None in Na; lia]. destruct (nth_error (s_steps s2) 2) as [b|] eqn:Nb; [|apply nth_error_None in Nb; lia].
  exists s0, sb, s2, a, b. split; [exact (fine_m reg _)|]. split; [exact Cu|]. split; [exact Fail|]. split; [exact E2'|]. split; [exact R2|]. auto.
Qed.
