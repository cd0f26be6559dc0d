(** * The thermal step: C83-C87. *)
From Coq Require Import Reals Lra Lia List ZArith.
From Coquelicot Require Import Coquelicot.
From Verif.Spec Require Import GridSpec QuadSpec BellSpec InterpSpec RefineSpec PotentialSpec.
From Verif.Model Require Import Py Num Tensors Domain Refine Quadrature Integrators Expr Bell Interp Helpers Steps Simulation.
From Verif.Spec Require Import SimSpec LiveSpec StepSpec EnergySpec MotionSpec TractionSpec ThermSpec.
From Verif.Proofs Require Import Lib InterpP PotP StepP StepD SimP HatP QuadP IntegP StepU StepE StepF StepG StepH ThermV ThermP ThermQ.
From Verif.Props Require Import GridProps QuadProps IntegProps InterpProps RefineProps MeshIntegProps PotentialProps AffineProps ThermProps.
Local Open Scope R_scope.
Import ListNotations.

(** ** C83 *)
(** At a strain with positive determinant the internal energy increases with the temperature exactly if the energy of martensite
    exceeds that of austenite by at most 2e = 5.43.... *)
Theorem C83_internal_energy_increasing_partial : forall F wa wm, austenite_potential (mat F) = Ok wa -> martensite_potential (mat F) = Ok wm ->
  (forall t t', 0 <= t -> t < t' -> exists E E', internal_energy (mat F) t = Ok E /\ internal_energy (mat F) t' = Ok E' /\ E < E') <-> wm - wa <= 2 * exp 1.
Proof.
  intros F wa wm Ea Em. assert (D : 0 < det2 F). { destruct (Rlt_dec 0 (det2 F)) as [D|D]; [exact D|]. rewrite aus_fail in Ea by lra. discriminate. }
  rewrite aus_value in Ea by exact D. rewrite mar_value in Em by lra. injection Ea as <-. injection Em as <-. split.
  - intros H. destruct (Rle_dec (WM F - (norm2 F - 2 - 2 * ln (det2 F) + (det2 F - 1) ^ 2)) (2 * exp 1)) as [L|L]; [exact L|]. exfalso.
    destruct (U_decreasing F) as (x & y & X0 & XY & LT); [unfold dW, WA; lra|]. destruct (H x y X0 XY) as (E & E' & E1 & E2 & E3). rewrite U_value in E1, E2 by exact D. injection E1 as <-. injection E2 as <-. lra.
  - intros H t t' T0 TT. exists (U F t), (U F t'). rewrite !U_value by exact D. split; [reflexivity|]. split; [reflexivity|]. apply U_increasing; [unfold dW, WA; lra|exact T0|exact TT].
Qed.
Print Assumptions C83_internal_energy_increasing_partial.
Lemma half_dW : 2 * exp 1 < - dW (PotentialSpec.st (1/2) 0 0 (1/2)).
Proof.
  unfold dW, WA, WM, norm2, det2, PotentialSpec.st. cbn [f11 f12 f21 f22].
  replace (1 / 2 * (1 / 2) - 0 * 0) with (1 / 4) by field. assert (L : ln (1 / 4) > -3).
  { assert (E : -3 = ln (exp (-3))) by (symmetry; apply ln_exp). rewrite E. apply ln_increasing; [apply exp_pos|]. assert (Z : exp 3 * exp (-3) = 1) by (rewrite <- exp_plus; replace (3 + -3) with 0 by ring; apply exp_0). assert (4 < exp 3) by (pose proof (exp_ineq1 3 ltac:(lra)); lra). pose proof (exp_pos (-3)). nra. }
  pose proof exp_le_3. lra.
Qed.
(** Not at every strain: at a compression by the factor 1/2 in both directions the internal energy decreases with the temperature
    somewhere. *)
Theorem C83_always_increasing_refuted : ~ forall F t t', 0 < det2 F -> 0 <= t -> t < t' -> exists E E', internal_energy (mat F) t = Ok E /\ internal_energy (mat F) t' = Ok E' /\ E < E'.
Proof.
  intros H. set (F := PotentialSpec.st (1/2) 0 0 (1/2)). assert (D : 0 < det2 F) by (unfold det2, F; cbn; lra). destruct (U_decreasing F half_dW) as (x & y & X0 & XY & LT).
  destruct (H F x y D X0 XY) as (E & E' & E1 & E2 & E3). rewrite U_value in E1, E2 by exact D. injection E1 as <-. injection E2 as <-. lra.
Qed.
Print Assumptions C83_always_increasing_refuted.
(** At the identity martensite exceeds austenite by 1/16. *)
Example C83_example : austenite_potential (mat id2) = Ok 0 /\ martensite_potential (mat id2) = Ok (1 / 16) /\ 1 / 16 - 0 <= 2 * exp 1.
Proof.
  assert (D : det2 id2 = 1) by (unfold det2, id2; cbn; ring). rewrite aus_value, mar_value by lra. unfold WM. rewrite D, ln_1. unfold norm2, id2, PotentialSpec.st. cbn [f11 f12 f21 f22]. split; [|split].
  - apply (f_equal Ok). ring.
  - apply (f_equal Ok). field.
  - pose proof (exp_ineq1_le 1). lra.
Qed.

Lemma source_rest fps F t : source fps F F t = 0.
Proof.
  assert (Z : add2 F (scal2 (-1) F) = PotentialSpec.st 0 0 0 0) by (destruct F as [x y z w]; unfold add2, scal2, PotentialSpec.st; cbn [f11 f12 f21 f22]; f_equal; ring).
  unfold source, sym_delta. rewrite Z. set (C := coupl F t). destruct F as [x y z w], C as [c d e f]. unfold norm2, frob, add2, mul2, tr2, scal2, PotentialSpec.st. cbn [f11 f12 f21 f22]. field.
Qed.
Section T.
Context (lg : Z -> res (list R * list R)) (s : therm) (h : R) (a b : nat) (TP : thermal_problem lg s h a b) (q : rule R) (Eq : therm_rule s = Ok q).
Let tg := theta_grid (ts_grid s) (ts_refined s). Let NV := length (g_vertices tg).
Let GG : good_grids (ts_grid s) (ts_refined s) h a b := problem_good _ _ _ _ _ (proj1 (proj2 TP)).
Let PG := proj1 (proj2 TP). Let TL := sized_len s (proj1 TP). Let FP := proj1 (proj2 (proj2 TP)). Let LG := proj2 (proj2 (proj2 TP)).
Let GQ := proj1 (rule_of s q Eq). Let PQ := proj2 (rule_of s q Eq).
Lemma feasible_mid th th' : feasible s th -> feasible s th' -> feasible s (lincomb (1/2) th (1/2) th').
Proof.
  intros (L & N & B) (L' & N' & B').
  assert (K : forall i v, nth_error (lincomb (1/2) th (1/2) th') i = Some v -> exists x y, nth_error th i = Some x /\ nth_error th' i = Some y /\ v = 1/2 * x + 1/2 * y).
  { intros i v E. assert (I : (i < length (lincomb (1/2) th (1/2) th'))%nat) by (apply nth_error_Some; congruence). rewrite lincomb_length in I by congruence.
    assert (I' : (i < length th')%nat) by congruence. exists (nth i th 0), (nth i th' 0). pose proof (nth_error_nth' th 0 I) as A. pose proof (nth_error_nth' th' 0 I') as A'. split; [exact A|]. split; [exact A'|]. pose proof (lincomb_nth (1/2) _ (1/2) _ _ _ _ A A') as Z. congruence. }
  split; [rewrite lincomb_length; congruence|]. split.
  - intros v Hv. apply In_nth_error in Hv as [i Hi]. destruct (K i v Hi) as (x & y & X & Y & ->). pose proof (N x (nth_error_In _ _ X)). pose proof (N' y (nth_error_In _ _ Y)). lra.
  - intros i z v Z V. destruct (K i v V) as (x & y & X & Y & ->). pose proof (B i z x Z X). pose proof (B' i z y Z Y). lra.
Qed.
Lemma feasible_len th : feasible s th -> length th = NV.
Proof. intros (L & _). rewrite L. exact (tl_th _ TL). Qed.
Lemma defined_kept th J : temperatures_of s th -> therm_objective lg s th = Ok J -> orientation_kept s q.
Proof. intros L EJ. apply (proj1 (C82_objective_defined lg s h a b q th TP Eq L)). eauto. Qed.
Lemma obj_defined th : orientation_kept s q -> temperatures_of s th -> exists J, therm_objective lg s th = Ok J.
Proof. intros PJ L. apply (C82_objective_defined lg s h a b q th TP Eq L), PJ. Qed.

Lemma unique (MM : moderate_martensite s q (2 * exp 1)) th th' : minimizes lg s th -> minimizes lg s th' -> th = th'.
Proof.
  intros (F1 & J & EJ & M1) (F2 & J' & EJ' & M2). pose proof (feasible_len th F1) as L. pose proof (feasible_len th' F2) as L'. pose proof (defined_kept th J L EJ) as PJ.
  pose proof (feasible_mid th th' F1 F2) as FM. set (m := lincomb (1/2) th (1/2) th') in *. pose proof (feasible_len m FM) as LM. destruct (obj_defined m PJ LM) as [JM EM].
  destruct (gap lg s h a b PG TL LG q Eq GQ PQ PJ FP MM m th JM J LM L (proj1 (proj2 FM)) (proj1 (proj2 F1)) EM EJ) as (D1 & ED1 & G1 & H1).
  destruct (gap lg s h a b PG TL LG q Eq GQ PQ PJ FP MM m th' JM J' LM L' (proj1 (proj2 FM)) (proj1 (proj2 F2)) EM EJ') as (D2 & ED2 & G2 & H2).
  pose proof (M1 m JM FM EM) as B1. pose proof (M1 th' J' F2 EJ') as B2. pose proof (M2 th J F1 EJ) as B3.
  assert (S : D1 + D2 = 0).
  { destruct (therm_integ s h a b GG q Eq) as (I & _ & EI). assert (X : forall z, length z = NV -> length (lincomb 1 z (-1) m) = NV) by (intros z Lz; rewrite lincomb_length; congruence).
    rewrite (form_value lg s h a b PG TL LG q Eq GQ PJ 2 m _ I LM (X th L) EI) in ED1. rewrite (form_value lg s h a b PG TL LG q Eq GQ PJ 2 m _ I LM (X th' L') EI) in ED2. injection ED1 as <-. injection ED2 as <-.
    rewrite !(bform_lin s h a b PG) by assumption.
    assert (W : forall z, length z = NV -> WSum s q I (form s 2 m (lincomb 1 z (-1) m)) = 1 * WSum s q I (form s 2 m z) + -1 * WSum s q I (form s 2 m m)).
    { intros z Lz. rewrite <- WSum_comb. apply WSum_ext. intros t p Ht _. apply (form_lin s h a b PG); assumption. }
    rewrite !W by assumption.
    assert (W2 : WSum s q I (form s 2 m m) = 1/2 * WSum s q I (form s 2 m th) + 1/2 * WSum s q I (form s 2 m th')).
    { rewrite <- WSum_comb. apply WSum_ext. intros t p Ht _. unfold m at 2. apply (form_lin s h a b PG); assumption. }
    assert (B : bform s h m m = 1/2 * bform s h m th + 1/2 * bform s h m th') by (unfold m at 2; apply (bform_lin s h a b PG); assumption).
    rewrite W2, B. lra. }
  assert (m = th) by (apply H1; lra). assert (m = th') by (apply H2; lra). congruence.
Qed.

Lemma const_min (PJ : orientation_kept s q) (MM : moderate_martensite s q (2 * exp 1)) c th : 0 <= c -> temperatures_of s th -> constant c th -> (ts_refined s = None -> ts_ext s = c) ->
  (forall t p, In t (g_triangles tg) -> In p (q_points q) -> ts_fps s * (U (sat s (ts_y1 s) (ts_y2 s) t p) c - U (sat s (ts_prev_y1 s) (ts_prev_y2 s) t p) (vat (ts_prev_theta s) t p)) = source (ts_fps s) (sat s (ts_prev_y1 s) (ts_prev_y2 s) t p) (sat s (ts_y1 s) (ts_y2 s) t p) (vat (ts_prev_theta s) t p)) ->
  exists J, therm_objective lg s th = Ok J /\ forall th' J', temperatures_of s th' -> non_negative_values th' -> therm_objective lg s th' = Ok J' -> J <= J' /\ (J = J' -> th' = th).
Proof.
  intros C0 L C X BAL. destruct (obj_defined th PJ L) as [J EJ]. exists J. split; [exact EJ|]. intros th' J' L' N' EJ'.
  assert (N : non_negative_values th) by (intros x Hx; rewrite (C x Hx); exact C0).
  destruct (gap lg s h a b PG TL LG q Eq GQ PQ PJ FP MM th th' J J' L L' N N' EJ EJ') as (D & ED & G & H).
  assert (LL : length (lincomb 1 th' (-1) th) = NV) by (rewrite lincomb_length; [exact L'|exact (eq_trans L' (eq_sym L))]).
  assert (D0 : D = 0).
  { destruct (therm_integ s h a b GG q Eq) as (I & _ & EI). rewrite (form_value lg s h a b PG TL LG q Eq GQ PJ 2 th _ I L LL EI) in ED. injection ED as <-.
    assert (W : WSum s q I (form s 2 th (lincomb 1 th' (-1) th)) = 0).
    { rewrite (WSum_ext s q I _ (fun t p => 0 * 0 + 0 * 0)), WSum_comb; [ring|]. intros t p Ht Hp. destruct (vat_const s h a b GG q GQ th c t p Ht L C Hp) as [V1 V2]. unfold form. rewrite V1, V2. cbn [fst snd]. rewrite (BAL t p Ht Hp). unfold qf. ring. }
    assert (B : bform s h th (lincomb 1 th' (-1) th) = 0).
    { unfold bform. destruct (opt_case (ts_refined s)) as [[r Hr]|Hr]; rewrite !Hr; [reflexivity|]. rewrite (sum_ext _ (fun e => 0 * 0 + 0 * 0)), sum_comb; [ring|]. intros e He. destruct (boundary_ends s h a b PG e Hr He) as [U1 U2].
      rewrite (X Hr). unfold mean_of_ends, at_vertex. rewrite (C (nth (fst e) th 0)), (C (nth (snd e) th 0)) by (apply nth_In; unfold temperatures_of in L; lia). field. }
    rewrite W, B. ring. }
  subst D. split; [lra|]. intros E. symmetry. apply H. lra.
Qed.
End T.

(** ** C84 *)
(** If the body does not move, has constant temperature and (without regularization) this is the external temperature, then
    keeping the temperature is the strict minimum of the objective among all non-negative temperatures; if martensite exceeds
    austenite by at most 2e at the points of the rule. *)
Theorem C84_equilibrium_partial : forall lg s h a b q c, thermal_problem lg s h a b -> therm_rule s = Ok q -> orientation_kept s q -> moderate_martensite s q (2 * exp 1) ->
  ts_prev_y1 s = ts_y1 s -> ts_prev_y2 s = ts_y2 s -> 0 <= c -> constant c (ts_prev_theta s) -> (ts_refined s = None -> ts_ext s = c) ->
  exists J, therm_objective lg s (ts_prev_theta s) = Ok J /\
  forall theta J', temperatures_of s theta -> non_negative_values theta -> therm_objective lg s theta = Ok J' -> J <= J' /\ (J = J' -> theta = ts_prev_theta s).
Proof.
  intros lg s h a b q c TP Eq PJ MM Y1 Y2 C0 C X. destruct (sized_len s (proj1 TP)) as [_ _ _ _ LT _]. apply (const_min lg s h a b TP q Eq PJ MM c); try assumption.
  intros t p Ht Hp. rewrite Y1, Y2. destruct (vat_const s h a b (problem_good _ _ _ _ _ (proj1 (proj2 TP))) q (proj1 (rule_of s q Eq)) (ts_prev_theta s) c t p Ht LT C Hp) as [-> _].
  rewrite source_rest. ring.
Qed.
Print Assumptions C84_equilibrium_partial.
(** More generally a constant temperature for which heat production and change of internal energy balance at every point. *)
Theorem C84_homogeneous_partial : forall lg s h a b q c theta, thermal_problem lg s h a b -> therm_rule s = Ok q -> orientation_kept s q -> moderate_martensite s q (2 * exp 1) ->
  0 <= c -> temperatures_of s theta -> constant c theta -> (ts_refined s = None -> ts_ext s = c) ->
  (forall t p, In t (g_triangles (theta_grid (ts_grid s) (ts_refined s))) -> In p (q_points q) -> exists E E0 S,
     inner_energy s (ts_y1 s) (ts_y2 s) theta t p = Ok E /\ inner_energy s (ts_prev_y1 s) (ts_prev_y2 s) (ts_prev_theta s) t p = Ok E0 /\ heat_source s t p = Ok S /\ ts_fps s * (E - E0) = S) ->
  exists J, therm_objective lg s theta = Ok J /\
  forall theta' J', temperatures_of s theta' -> non_negative_values theta' -> therm_objective lg s theta' = Ok J' -> J <= J' /\ (J = J' -> theta' = theta).
Proof.
  intros lg s h a b q c th TP Eq PJ MM C0 L C X BAL. apply (const_min lg s h a b TP q Eq PJ MM c); try assumption.
  intros t p Ht Hp. pose proof (problem_good _ _ _ _ _ (proj1 (proj2 TP))) as GG. pose proof (proj1 (rule_of s q Eq)) as GQ. pose proof (sized_len s (proj1 TP)) as TL. destruct (dets s h a b (proj1 (proj2 TP)) TL q GQ PJ t p Ht Hp) as [D0 D1].
  destruct (vat_const s h a b GG q GQ th c t p Ht L C Hp) as [V _]. destruct (BAL t p Ht Hp) as (E & E0 & S & B1 & B2 & B3 & B4). destruct TL as [P1 P2 Y1 Y2 LT _].
  destruct (temp_ok s h a b GG t p Ht) as (c1 & c2 & c3 & d1 & d2 & d3 & K). destruct t as [[i j] k]. destruct K as (_ & _ & _ & K & _). destruct (K th L) as (V1 & _). destruct (K _ LT) as (V0 & _).
  unfold inner_energy in B1, B2. unfold heat_source in B3. rewrite (sat_ok s h a b GG q GQ _ _ _ p P1 P2 Ht Hp), V0 in B2. rewrite (sat_ok s h a b GG q GQ _ _ _ p Y1 Y2 Ht Hp), V1 in B1. rewrite (sat_ok s h a b GG q GQ _ _ _ p P1 P2 Ht Hp), (sat_ok s h a b GG q GQ _ _ _ p Y1 Y2 Ht Hp), V0 in B3. cbn [bind] in B1, B2, B3.
  rewrite U_value in B1, B2 by assumption. rewrite coupl_value in B3 by assumption. rewrite sub_mat in B3. unfold dissipation_rate in B3. rewrite dis_value in B3. cbn [bind] in B3. rewrite mul_mat in B3. cbn [bind] in B3. rewrite scalar_mat in B3. cbn [bind] in B3.
  injection B1 as <-. injection B2 as <-. injection B3 as <-. rewrite <- V. exact B4.
Qed.
Print Assumptions C84_homogeneous_partial.

(** ** C85 *)
(** The thermal problem has at most one solution, if martensite exceeds austenite by at most 2e at the points of the rule. *)
Theorem C85_unique_partial : forall lg s h a b q theta theta', thermal_problem lg s h a b -> therm_rule s = Ok q -> moderate_martensite s q (2 * exp 1) ->
  minimizes lg s theta -> minimizes lg s theta' -> theta = theta'.
Proof. intros lg s h a b q th th' TP Eq MM. exact (unique lg s h a b TP q Eq MM th th'). Qed.
Print Assumptions C85_unique_partial.

(** ** C86 *)
Lemma open_interval v lo w : lo < v -> exists d, 0 < d /\ forall x, Rabs x < d -> lo <= v + x * w.
Proof.
  intros H. exists ((v - lo) / (Rabs w + 1)). pose proof (Rabs_pos w) as W. split; [apply Rdiv_lt_0_compat; lra|]. intros x Hx.
  assert (A : Rabs (x * w) <= v - lo). { rewrite Rabs_mult. apply Rle_trans with ((v - lo) / (Rabs w + 1) * (Rabs w + 1)); [|right; field; lra]. apply Rmult_le_compat; try apply Rabs_pos; lra. }
  pose proof (Rle_abs (- (x * w))) as B. rewrite Rabs_Ropp in B. lra.
Qed.
Lemma interior_ball s th et : interior s th -> length et = length th -> exists d, 0 < d /\ forall x, Rabs x < d -> feasible s (lincomb 1 th x et).
Proof.
  intros (L & N & B) LE.
  assert (K : forall n, exists d, 0 < d /\ forall x, Rabs x < d -> forall i, (i < n)%nat -> forall z v w, nth_error (ts_theta s) i = Some z -> nth_error th i = Some v -> nth_error et i = Some w -> 0 <= v + x * w /\ v_lb z <= v + x * w <= v_ub z).
  { induction n as [|n (d & D0 & IH)]; [exists 1; split; [lra|]; intros; lia|].
    destruct (nth_error (ts_theta s) n) as [z|] eqn:Z; [|exists d; split; [exact D0|]; intros x Hx i Hi z' v w A1 A2 A3; destruct (Nat.eq_dec i n) as [-> |NE]; [congruence|apply (IH x Hx i ltac:(lia) z' v w A1 A2 A3)]].
    destruct (nth_error th n) as [v|] eqn:V; [|exists d; split; [exact D0|]; intros x Hx i Hi z' v' w A1 A2 A3; destruct (Nat.eq_dec i n) as [-> |NE]; [congruence|apply (IH x Hx i ltac:(lia) z' v' w A1 A2 A3)]].
    destruct (nth_error et n) as [w|] eqn:W; [|exists d; split; [exact D0|]; intros x Hx i Hi z' v' w' A1 A2 A3; destruct (Nat.eq_dec i n) as [-> |NE]; [congruence|apply (IH x Hx i ltac:(lia) z' v' w' A1 A2 A3)]].
    pose proof (N v (nth_error_In _ _ V)) as V0. destruct (B n z v Z V) as [B1 B2].
    destruct (open_interval v 0 w V0) as (d1 & P1 & Q1). destruct (open_interval v (v_lb z) w B1) as (d2 & P2 & Q2). destruct (open_interval (- v) (- v_ub z) (- w)) as (d3 & P3 & Q3); [lra|].
    exists (Rmin d (Rmin d1 (Rmin d2 d3))). split; [repeat apply Rmin_glb_lt; assumption|]. intros x Hx.
    pose proof (Rmin_l d (Rmin d1 (Rmin d2 d3))). pose proof (Rmin_r d (Rmin d1 (Rmin d2 d3))). pose proof (Rmin_l d1 (Rmin d2 d3)). pose proof (Rmin_r d1 (Rmin d2 d3)). pose proof (Rmin_l d2 d3). pose proof (Rmin_r d2 d3).
    intros i Hi z' v' w' A1 A2 A3. destruct (Nat.eq_dec i n) as [-> |NE]; [|apply (IH x ltac:(lra) i ltac:(lia) z' v' w' A1 A2 A3)].
    assert (z' = z) as -> by congruence. assert (v' = v) as -> by congruence. assert (w' = w) as -> by congruence. specialize (Q1 x ltac:(lra)). specialize (Q2 x ltac:(lra)). specialize (Q3 x ltac:(lra)). lra. }
  destruct (K (length th)) as (d & D0 & KK). exists d. split; [exact D0|]. intros x Hx.
  assert (E : forall i r, nth_error (lincomb 1 th x et) i = Some r -> exists v w z, nth_error th i = Some v /\ nth_error et i = Some w /\ nth_error (ts_theta s) i = Some z /\ r = v + x * w /\ (i < length th)%nat).
  { intros i r Er. assert (I : (i < length (lincomb 1 th x et))%nat) by (apply nth_error_Some; congruence). rewrite lincomb_length in I by congruence.
    assert (I' : (i < length et)%nat) by congruence. pose proof (nth_error_nth' th 0 I) as A. pose proof (nth_error_nth' et 0 I') as A'. pose proof (lincomb_nth 1 _ x _ _ _ _ A A') as Z.
    destruct (nth_error (ts_theta s) i) as [z|] eqn:Ez; [|apply nth_error_None in Ez; lia]. exists (nth i th 0), (nth i et 0), z. split; [exact A|]. split; [exact A'|]. split; [reflexivity|]. split; [|exact I]. assert (EE : Some r = Some (1 * nth i th 0 + x * nth i et 0)) by congruence. injection EE as ->. ring. }
  split; [rewrite lincomb_length; congruence|]. split.
  - intros r Hr. apply In_nth_error in Hr as [i Hi]. destruct (E i r Hi) as (v & w & z & A & A' & Z & -> & I). apply (KK x Hx i I z v w Z A A').
  - intros i z' r Z' Hi. destruct (E i r Hi) as (v & w & z & A & A' & Z & -> & I). apply (KK x Hx i I z' v w Z' A A').
Qed.

(** The derivative of the objective along [eta] is the residual of the heat equation, with twice the conductivity of the code. *)
Theorem C86_derivative : forall lg s h a b q theta eta, thermal_problem lg s h a b -> therm_rule s = Ok q -> orientation_kept s q -> temperatures_of s theta -> temperatures_of s eta ->
  exists J D, (forall x, therm_objective lg s (shifted theta x eta) = Ok (J x)) /\ heat_form lg s 2 theta eta = Ok D /\ is_derive J 0 D.
Proof.
  intros lg s h a b q th et TP Eq PJ L L'. pose proof (problem_good _ _ _ _ _ (proj1 (proj2 TP))) as GG. destruct (rule_of s q Eq) as [GQ PQ]. pose proof (sized_len s (proj1 TP)) as TL. destruct TP as (_ & PG & FP & LG).
  destruct (therm_integ s h a b GG q Eq) as (I & _ & EI). exists (fun x => WSum s q I (dens s (lincomb 1 th x et)) + bd s h (lincomb 1 th x et)), (WSum s q I (form s 2 th et) + bform s h th et). split; [|split].
  - intros x. unfold shifted. apply (obj_value lg s h a b PG TL LG q Eq GQ PJ); [|exact EI]. rewrite lincomb_length; [exact L|]. exact (eq_trans L (eq_sym L')).
  - exact (form_value lg s h a b PG TL LG q Eq GQ PJ 2 th et I L L' EI).
  - apply (obj_derive s h a b PG TL q GQ PJ); assumption.
Qed.
Print Assumptions C86_derivative.
(** A minimizer strictly inside the bounds solves the weak heat equation. *)
Theorem C86_heat_equation_partial : forall lg s h a b theta eta, thermal_problem lg s h a b -> minimizes lg s theta -> interior s theta -> temperatures_of s eta ->
  heat_form lg s 2 theta eta = Ok 0.
Proof.
  intros lg s h a b th et TP (FE & J0 & EJ0 & MIN) IN L'. destruct (therm_rule_good s) as (q & Eq & GQ & PQ & _). assert (L : temperatures_of s th) by (destruct FE as (L & _); unfold temperatures_of; rewrite L; exact (tl_th _ (sized_len s (proj1 TP)))).
  pose proof (defined_kept lg s h a b TP q Eq th J0 L EJ0) as PJ. destruct (C86_derivative lg s h a b q th et TP Eq PJ L L') as (J & D & EJ & ED & DJ). rewrite ED. apply (f_equal Ok).
  destruct (interior_ball s th et IN (eq_trans L' (eq_sym L))) as (d & D0 & BALL).
  assert (E0 : J 0 = J0). { pose proof (EJ 0) as E. assert (S : shifted th 0 et = th). { apply nth_ext with (d := 0) (d' := 0); [unfold shifted; rewrite lincomb_length; [reflexivity|exact (eq_trans L (eq_sym L'))]|]. intros i Hi. unfold shifted in *. rewrite lincomb_length in Hi by exact (eq_trans L (eq_sym L')). rewrite (nth_lincomb s) by (try assumption; unfold temperatures_of in L; lia). ring. } rewrite S in E. congruence. }
  apply is_derive_Reals in DJ. assert (pr : derivable_pt J 0) by (exists D; exact DJ). rewrite <- (deriv_minimum J (- d) d 0 pr); [symmetry; apply derive_pt_eq_0, DJ|lra|lra|].
  intros x X1 X2. rewrite E0. apply (MIN _ _ (BALL x ltac:(apply Rabs_def1; lra)) (EJ x)).
Qed.
Print Assumptions C86_heat_equation_partial.
(** If martensite exceeds austenite by at most 2e: the minimizers are exactly the admissible temperatures that satisfy the
    variational inequality of the heat equation. *)
Theorem C86_variational_inequality_partial : forall lg s h a b q theta, thermal_problem lg s h a b -> therm_rule s = Ok q -> orientation_kept s q -> moderate_martensite s q (2 * exp 1) -> feasible s theta ->
  (minimizes lg s theta <-> forall theta', feasible s theta' -> exists D, heat_form lg s 2 theta (lincomb 1 theta' (-1) theta) = Ok D /\ 0 <= D).
Proof.
  intros lg s h a b q th TP Eq PJ MM FE. pose proof (feasible_len lg s h a b TP th FE) as L. destruct (rule_of s q Eq) as [GQ PQ]. split.
  - intros (_ & J0 & EJ0 & MIN) th' FE'. pose proof (feasible_len lg s h a b TP th' FE') as L'. assert (LL : temperatures_of s (lincomb 1 th' (-1) th)) by (unfold temperatures_of; rewrite lincomb_length; congruence).
    destruct (C86_derivative lg s h a b q th _ TP Eq PJ L LL) as (J & D & EJ & ED & DJ). exists D. split; [exact ED|].
    assert (SH : forall x, shifted th x (lincomb 1 th' (-1) th) = lincomb (1 - x) th x th').
    { intros x. apply nth_ext with (d := 0) (d' := 0); [unfold shifted; rewrite !lincomb_length; congruence|]. intros i Hi. unfold shifted in *. rewrite lincomb_length in Hi by congruence. rewrite !(nth_lincomb s) by (try assumption; unfold temperatures_of in *; lia). ring. }
    assert (E0 : J 0 = J0). { pose proof (EJ 0) as E. rewrite SH in E. assert (S : lincomb (1 - 0) th 0 th' = th). { apply nth_ext with (d := 0) (d' := 0); [rewrite lincomb_length; congruence|]. intros i Hi. rewrite lincomb_length in Hi by congruence. rewrite (nth_lincomb s) by (try assumption; lia). ring. } rewrite S in E. congruence. }
    assert (ST : forall x, 0 < x < 1 -> J 0 <= J x).
    { intros x X. rewrite E0. apply (MIN (lincomb (1 - x) th x th')); [|rewrite <- SH; apply EJ]. destruct FE as (F1 & F2 & F3). destruct FE' as (F1' & F2' & F3').
      assert (K : forall i v, nth_error (lincomb (1 - x) th x th') i = Some v -> exists y z, nth_error th i = Some y /\ nth_error th' i = Some z /\ v = (1 - x) * y + x * z).
      { intros i v E. assert (I : (i < length (lincomb (1 - x) th x th'))%nat) by (apply nth_error_Some; congruence). rewrite lincomb_length in I by congruence.
        assert (I' : (i < length th')%nat) by congruence. exists (nth i th 0), (nth i th' 0). pose proof (nth_error_nth' th 0 I) as A. pose proof (nth_error_nth' th' 0 I') as A'. split; [exact A|]. split; [exact A'|]. pose proof (lincomb_nth (1 - x) _ x _ _ _ _ A A') as Z. congruence. }
      split; [rewrite lincomb_length; congruence|]. split.
      - intros v Hv. apply In_nth_error in Hv as [i Hi]. destruct (K i v Hi) as (y & z & Y & Z & ->). pose proof (F2 y (nth_error_In _ _ Y)). pose proof (F2' z (nth_error_In _ _ Z)). nra.
      - intros i p v Z V. destruct (K i v V) as (y & z & Y & Y' & ->). pose proof (F3 i p y Z Y). pose proof (F3' i p z Z Y'). nra. }
    destruct (Rle_dec 0 D) as [LE|NLE]; [exact LE|]. exfalso. apply is_derive_Reals in DJ. destruct (DJ (- D / 2)) as [[d D0] KD]; [lra|]. cbn in KD.
    set (x := Rmin (d / 2) (1 / 2)). assert (X : 0 < x <= 1/2) by (split; [apply Rmin_glb_lt; lra|apply Rmin_r]). assert (XD : x < d) by (apply Rle_lt_trans with (d / 2); [apply Rmin_l|lra]).
    specialize (KD x ltac:(lra)). rewrite Rabs_right in KD by lra. specialize (KD XD). rewrite Rplus_0_l in KD. pose proof (ST x ltac:(lra)) as S. apply Rabs_def2 in KD as [KD _].
    assert (Q : 0 <= (J x - J 0) / x) by (apply Rle_mult_inv_pos; lra). lra.
  - intros H. destruct (obj_defined lg s h a b TP q Eq th PJ L) as [J EJ]. split; [exact FE|]. exists J. split; [exact EJ|]. intros th' J' FE' EJ'. destruct (H th' FE') as (D & ED & D0).
    pose proof (feasible_len lg s h a b TP th' FE') as L'. destruct TP as (SZ & PG & FP & LG).
    destruct (gap lg s h a b PG (sized_len s SZ) LG q Eq GQ PQ PJ FP MM th th' J J' L L' (proj1 (proj2 FE)) (proj1 (proj2 FE')) EJ EJ') as (D' & ED' & G & _). assert (D' = D) by congruence. lra.
Qed.
Print Assumptions C86_variational_inequality_partial.
(** The heat equation with the conductivity of the code (and not twice that) is not what the objective encodes: at no
    temperature that is not constant does the derivative of the objective along the temperature agree with it. *)
Theorem C86_conductivity_refuted : forall lg s h a b q theta, thermal_problem lg s h a b -> therm_rule s = Ok q -> orientation_kept s q -> temperatures_of s theta -> (~ exists c, constant c theta) ->
  exists J D D1, (forall x, therm_objective lg s (shifted theta x theta) = Ok (J x)) /\ is_derive J 0 D /\ heat_form lg s 1 theta theta = Ok D1 /\ D1 < D.
Proof.
  intros lg s h a b q th TP Eq PJ L NC. destruct (C86_derivative lg s h a b q th th TP Eq PJ L L) as (J & D & EJ & ED & DJ). exists J, D.
  pose proof (problem_good _ _ _ _ _ (proj1 (proj2 TP))) as GG. destruct (rule_of s q Eq) as [GQ PQ]. pose proof (sized_len s (proj1 TP)) as TL. destruct TP as (_ & PG & FP & LG).
  destruct (therm_integ s h a b GG q Eq) as (I & _ & EI). eexists. split; [exact EJ|]. split; [exact DJ|]. split; [exact (form_value lg s h a b PG TL LG q Eq GQ PJ 1 th th I L L EI)|].
  rewrite (form_value lg s h a b PG TL LG q Eq GQ PJ 2 th th I L L EI) in ED. injection ED as <-. apply Rplus_lt_compat_r.
  assert (LE : forall t p, In t (g_triangles (theta_grid (ts_grid s) (ts_refined s))) -> In p (q_points q) -> form s 1 th th t p <= form s 2 th th t p).
  { intros t p Ht Hp. destruct (dets s h a b PG TL q GQ PJ t p Ht Hp) as [D0 _]. destruct (qf_pos _ (fst (gat s th t p)) (snd (gat s th t p)) D0) as [Q _]. unfold form. lra. }
  destruct (WSum_le s h a b GG q GQ PQ I (form s 1 th th) (form s 2 th th) EI LE) as [W1 W2]. destruct (Rle_lt_or_eq_dec _ _ W1) as [LT|EQ]; [exact LT|]. exfalso. apply NC.
  (* all gradients vanish *)
  assert (G0 : forall t p, In t (g_triangles (theta_grid (ts_grid s) (ts_refined s))) -> In p (q_points q) -> gat s th t p = (0, 0)).
  { intros t p Ht Hp. pose proof (W2 EQ t p Ht Hp) as E. destruct (dets s h a b PG TL q GQ PJ t p Ht Hp) as [D0 _]. destruct (qf_pos _ (fst (gat s th t p)) (snd (gat s th t p)) D0) as [_ Q]. unfold form in E. destruct (gat s th t p) as [x y]. cbn [fst snd] in *. destruct Q as [-> ->]; [lra|reflexivity]. }
  destruct (fine s h a b GG) as (s' & a' & b' & Hs' & Ha' & Hb' & M').
  exact (grad_zero_constant s h a b GG q GQ th L G0).
Qed.
Print Assumptions C86_conductivity_refuted.
