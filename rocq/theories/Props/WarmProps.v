(** * The transition temperature; stability of the undeformed body above it (C120). *)
From Coq Require Import Reals Lra Lia List ZArith Psatz.
From Coquelicot Require Import Coquelicot.
From Verif.Spec Require Import GridSpec QuadSpec BellSpec InterpSpec RefineSpec PotentialSpec.
From Verif.Model Require Import Py Num Tensors Domain Refine Quadrature Integrators Expr Bell Interp Helpers Steps Simulation.
From Verif.Spec Require Import SimSpec LiveSpec StepSpec EnergySpec MotionSpec TractionSpec ThermSpec MechSpec MomentumSpec IdealSpec RestSpec WarmSpec.
From Verif.Proofs Require Import Lib GridP InterpP PotP HatP QuadP IntegP StepP StepU StepE StepF StepG StepH SimP SimH SimL SimA StepC ThermV ThermP LipMin LipMore MechV MechP MechL MechD.
From Verif.Props Require Import GridProps QuadProps IntegProps InterpProps RefineProps MeshIntegProps PotentialProps SimProps EnergyProps EnergyExamples AffineProps TractionProps ThermProps HeatProps MechExistProps IdealProps MomentumProps RestProps.
Local Open Scope R_scope.
Import ListNotations.

(** ** Densities *)
Lemma warm_iff t : warm t <-> exp (-5 * t) <= 2 / 3.
Proof.
  unfold warm. assert (E : 2 / 3 = exp (- ln (3 / 2))) by (rewrite exp_Ropp, exp_ln by lra; field). rewrite E. split; intros H.
  - destruct (Req_dec (-5 * t) (- ln (3 / 2))) as [-> |N]; [apply Rle_refl|]. left. apply exp_increasing. lra.
  - destruct (Rle_lt_dec (ln (3 / 2) / 5) t) as [L|L]; [exact L|]. exfalso. assert (K : exp (- ln (3 / 2)) < exp (-5 * t)) by (apply exp_increasing; lra). lra.
Qed.
Lemma warm_density e N d : 0 < e <= 2 / 3 -> 2 * d <= N -> 0 < d -> e / 16 <= density e N d /\ (density e N d = e / 16 -> N = 2 /\ d = 1).
Proof.
  intros [E0 E1] N2 D. set (x := N / d - 2). assert (EN : N = (x + 2) * d) by (unfold x; field; lra). assert (X0 : 0 <= x).
  { unfold x. apply (Rmult_le_reg_r d); [exact D|]. replace ((N / d - 2) * d) with (N - 2 * d) by (field; lra). lra. }
  unfold density. replace (N * / d) with (x + 2) by (unfold x; field; lra). rewrite EN. clear EN N2. clearbody x. pose proof (ln_bound d D) as L. pose proof (pow2_ge_0 (d ^ 2 + (/ d) ^ 2 - 2)) as K. set (l := ln d) in *. clearbody l. set (kk := (d ^ 2 + (/ d) ^ 2 - 2) ^ 2) in *. clearbody kk.
  set (A := (x + 2) * d - 2 - 2 * l + (d - 1) ^ 2). assert (HA : x * d + (d - 1) ^ 2 <= A) by (unfold A; lra). assert (A0 : 0 <= A) by (pose proof (pow2_ge_0 (d - 1)); pose proof (Rmult_le_pos x d X0 (Rlt_le _ _ D)); lra). clearbody A.
  assert (HB : e / 2 * A <= (1 - e) * A) by (apply Rmult_le_compat_r; lra).
  assert (HC : e / 2 * (x * d + (d - 1) ^ 2) <= e / 2 * A) by (apply Rmult_le_compat_l; lra).
  assert (HK : 0 <= e * kk) by (apply Rmult_le_pos; lra).
  assert (LO : e / 16 + e / 2 * (2 * x ^ 2 + x * (d - 1) + (d - 1) ^ 2) <= (1 - e) * A + e * ((x + 2 - 9 / 4) ^ 2 + kk)).
  { replace (e * ((x + 2 - 9 / 4) ^ 2 + kk)) with (e * kk + e / 16 + e * (x ^ 2 - x / 2)) by field. replace (e / 2 * (2 * x ^ 2 + x * (d - 1) + (d - 1) ^ 2)) with (e / 2 * (x * d + (d - 1) ^ 2) + e * (x ^ 2 - x / 2)) by field. lra. }
  set (z := d - 1) in *. assert (SQ : (x ^ 2 + z ^ 2) / 2 <= 2 * x ^ 2 + x * z + z ^ 2) by (pose proof (pow2_ge_0 (x + z)); nra).
  assert (HS : e / 2 * ((x ^ 2 + z ^ 2) / 2) <= e / 2 * (2 * x ^ 2 + x * z + z ^ 2)) by (apply Rmult_le_compat_l; lra). pose proof (pow2_ge_0 x) as X2. pose proof (pow2_ge_0 z) as Z2. assert (HZ : 0 <= e / 2 * ((x ^ 2 + z ^ 2) / 2)) by (apply Rmult_le_pos; lra). split; [lra|].
  intros EQ. assert (Q : e / 2 * ((x ^ 2 + z ^ 2) / 2) = 0) by lra. apply Rmult_integral in Q as [Q|Q]; [lra|]. assert (X : x ^ 2 = 0) by lra. assert (Z : z ^ 2 = 0) by lra. assert (x = 0) as -> by nra. assert (z = 0) as Z' by nra. unfold z in Z'. split; lra.
Qed.
Lemma rotation_iff F : 0 < det2 F -> (norm2 F = 2 /\ det2 F = 1) <-> rotation F.
Proof.
  intros D. split.
  - intros [N E]. destruct (C50_single_well F D) as (w & EW & _ & K). apply K. rewrite (aus_value F D) in EW. injection EW as <-. rewrite N, E, ln_1. ring.
  - intros (c & s & U & ->). unfold norm2, det2, PotentialSpec.st. cbn [f11 f12 f21 f22]. split; nra.
Qed.
Lemma elastic_density F t : 0 < det2 F -> value (total_elastic_potential (mat F) t) = density (exp (-5 * t)) (norm2 F) (det2 F).
Proof. intros D. rewrite (elastic_value F t D). reflexivity. Qed.
Lemma rest_density e F : rotation F -> density e (norm2 F) (det2 F) = e / 16.
Proof.
  intros R. assert (D : 0 < det2 F) by (rewrite (det_rot F R); lra). destruct (proj2 (rotation_iff F D) R) as [-> ->]. unfold density. rewrite ln_1. field.
Qed.
Lemma rotation_id : rotation id2.
Proof. exists 1, 0. split; [ring|]. unfold id2. f_equal. ring. Qed.

(** ** C120 *)
(** The undeformed state has the least elastic energy of all strains exactly from the transition temperature on. *)
Theorem C120_transition : forall t, 0 <= t ->
  (warm t <-> forall F, 0 < det2 F -> value (total_elastic_potential (mat id2) t) <= value (total_elastic_potential (mat F) t)).
Proof.
  intros t T0. assert (DI : 0 < det2 id2) by (unfold det2, id2, PotentialSpec.st; cbn; lra). assert (E1 : exp (-5 * t) <= 1) by (rewrite <- exp_0; destruct (Req_dec t 0) as [-> |N]; [rewrite Rmult_0_r; apply Rle_refl|left; apply exp_increasing; lra]). split.
  - intros W F D. apply warm_iff in W. rewrite !elastic_density by assumption. rewrite (rest_density _ _ rotation_id). apply warm_density; [split; [apply exp_pos|exact W]|apply norm_det|exact D].
  - intros H. apply warm_iff. destruct (Rle_lt_dec (exp (-5 * t)) (2 / 3)) as [L|L]; [exact L|exfalso]. set (e := exp (-5 * t)) in *.
    set (s2 := (3 * e / 2 - 1) / (2 * e)). assert (S2 : 0 < s2) by (apply Rdiv_lt_0_compat; lra). set (s := sqrt s2). assert (SS : s * s = s2) by (apply sqrt_sqrt; lra).
    specialize (H (PotentialSpec.st 1 s 0 1)). assert (D1 : det2 (PotentialSpec.st 1 s 0 1) = 1) by (unfold det2, PotentialSpec.st; cbn [f11 f12 f21 f22]; ring). rewrite D1 in H. specialize (H Rlt_0_1). rewrite !elastic_density in H by (rewrite ?D1; lra). fold e in H. rewrite (rest_density _ _ rotation_id), D1 in H.
    assert (N : norm2 (PotentialSpec.st 1 s 0 1) = 2 + s2) by (unfold norm2, PotentialSpec.st; cbn [f11 f12 f21 f22]; lra). rewrite N in H. unfold density in H. rewrite ln_1, Rinv_1 in H.
    assert (V : (1 - e) * (2 + s2 - 2 - 2 * 0 + (1 - 1) ^ 2) + e * (((2 + s2) * 1 - 9 / 4) ^ 2 + (1 ^ 2 + 1 ^ 2 - 2) ^ 2) - e / 16 = s2 * (1 - 3 * e / 2 + e * s2)) by field. assert (Q : e * s2 = (3 * e / 2 - 1) / 2) by (unfold s2; field; lra). rewrite Q in V.
    assert (Z : s2 * (1 - 3 * e / 2 + (3 * e / 2 - 1) / 2) < 0) by (replace (1 - 3 * e / 2 + (3 * e / 2 - 1) / 2) with (- ((3 * e / 2 - 1) / 2)) by field; assert (0 < s2 * ((3 * e / 2 - 1) / 2)) by (apply Rmult_lt_0_compat; lra); lra). lra.
Qed.
Print Assumptions C120_transition.
(** There it is, up to rotations, the only such state. *)
Theorem C120_only_rotations : forall t F, warm t -> 0 < det2 F -> (value (total_elastic_potential (mat F) t) = value (total_elastic_potential (mat id2) t) <-> rotation F).
Proof.
  intros t F W D. apply warm_iff in W. assert (DI : 0 < det2 id2) by (unfold det2, id2, PotentialSpec.st; cbn; lra). rewrite !elastic_density by assumption. rewrite (rest_density _ _ rotation_id). split; [|apply rest_density].
  intros E. apply (rotation_iff F D). exact (proj2 (warm_density _ _ _ (conj (exp_pos _) W) (norm_det F) D) E).
Qed.
Print Assumptions C120_only_rotations.

(** ** Mechanical problems *)
Section M.
Context (lg : Z -> res (list R * list R)) (m : mech) (h : R) (a b : nat) (PG : problem_grids (ms_grid m) (ms_refined m) h a b) (HM : msized m) (HL : ms_refined m = None -> midpoint_rule lg).
Let g := ms_grid m. Let rg := ms_refined m. Let tg := theta_grid g rg. Let NK := (length (g_vertices g) * dofs rg)%nat.
Let GG : good_grids g rg h a b := problem_good _ _ _ _ _ PG.
Context (q : rule R) (Eq : energy_rule rg = Ok q) (Gq : good_rule q) (Pq : pos_rule q) (I : integrator R) (EI : Integrator_ q (g_triangles tg) (g_points tg) = Ok I).
Context (WT : forall x, In x (ms_prev_theta m) -> warm x).
Lemma temp_warm t p : In t (g_triangles tg) -> In p (q_points q) -> warm (vat (ms_prev_theta m) t p).
Proof.
  intros Ht Hp. destruct (proj1 HM) as [_ _ _ _ LT]. destruct (temp_ok (mkTherm g rg 0 0 [] [] [] [] [] [] 0 (fun _ => Err ValueError)) h a b GG t p Ht) as (c1 & c2 & c3 & d1 & d2 & d3 & K). cbn [ts_grid ts_refined] in K. destruct t as [[i j] k]. destruct K as (B1 & B2 & B3 & _).
  fold g rg in LT. assert (W : forall v, (v < length (g_vertices (theta_grid g rg)))%nat -> warm (nth v (ms_prev_theta m) 0)) by (intros v Hv; apply WT, nth_In; rewrite LT; exact Hv).
  apply W in B1, B2, B3. destruct (proj2 Pq p Hp) as (P1 & P2 & P3). pose proof (proj2 (proj2 Gq) p Hp) as PS. unfold vat, warm in *. set (c := ln (3 / 2) / 5) in *.
  pose proof (Rmult_le_compat_l _ _ _ P1 B1). pose proof (Rmult_le_compat_l _ _ _ P2 B2). pose proof (Rmult_le_compat_l _ _ _ P3 B3). replace c with ((l1 p + l2 p + l3 p) * c) by (rewrite PS; ring). lra.
Qed.
Context (y1 y2 : list R) (L1 : length y1 = NK) (L2 : length y2 = NK).
(** The elastic energy is at least that of the rest, with equality only for rigid deformations. *)
Lemma warm_energy E : mech_elastic_energy m y1 y2 = Ok E -> WS g rg q I (fun t p => cold m t p / 16) <= E /\ (E = WS g rg q I (fun t p => cold m t p / 16) -> rigid m y1 y2).
Proof.
  intros EE. assert (PJ : positive_jacobian g rg q y1 y2) by exact (elastic_positive m h a b PG HM q Eq Gq I EI y1 y2 L1 L2 E EE).
  rewrite (elastic_energy_value m h a b PG HM q Eq Gq I EI y1 y2 L1 L2 PJ) in EE. injection EE as <-. destruct (integrator_parts _ _ _ _ EI) as (_ & T & LA).
  pose proof (proj1 (positive_iff m h a b PG q Gq y1 y2 L1 L2) PJ) as DP. fold g rg tg in DP.
  assert (WD : forall t p, In t (g_triangles tg) -> In p (q_points q) -> cold m t p / 16 <= elastic_at m y1 y2 t p /\ (elastic_at m y1 y2 t p = cold m t p / 16 -> rotation (strain_at g rg y1 y2 t p))).
  { intros t p Ht Hp. unfold elastic_at. fold g rg. set (F := strain_at g rg y1 y2 t p). pose proof (DP t p Ht Hp) as D. fold F in D. destruct (warm_density (cold m t p) (norm2 F) (det2 F)) as [A B]; [split; [apply exp_pos|apply warm_iff, temp_warm; assumption]|apply norm_det|exact D|]. split; [exact A|]. intros Q. apply (rotation_iff F D), B, Q. }
  assert (IN : forall t, In t (g_triangles tg) -> weighted_sum (q_points q) (q_weights q) (fun p => cold m t p / 16) <= weighted_sum (q_points q) (q_weights q) (elastic_at m y1 y2 t) /\
     (weighted_sum (q_points q) (q_weights q) (fun p => cold m t p / 16) = weighted_sum (q_points q) (q_weights q) (elastic_at m y1 y2 t) -> forall p, In p (q_points q) -> cold m t p / 16 = elastic_at m y1 y2 t p)).
  { intros t Ht. apply ws_le; [apply Pq|apply Gq|]. intros p Hp. apply (WD t p Ht Hp). }
  unfold WS. fold tg. destruct (ws_le (g_triangles tg) (i_areas I) (fun t => weighted_sum (q_points q) (q_weights q) (fun p => cold m t p / 16)) (fun t => weighted_sum (q_points q) (q_weights q) (elastic_at m y1 y2 t))) as [LE EQ]; [exact (areas_positive g rg h a b GG q I EI)|lia|intros t Ht; apply (IN t Ht)|].
  split; [exact LE|]. intros Q q' t p Eq' Ht Hp. change (mech_rule m) with (energy_rule rg) in Eq'. assert (q' = q) as -> by congruence. fold g rg in Ht |- *. fold tg in Ht. exists (strain_at g rg y1 y2 t p). split.
  - destruct (strain_at_ok g rg h a b GG t p Ht (proj2 (proj2 Gq) p Hp)) as (X & Y & _ & _ & K). exact (proj1 (K _ _ L1 L2)).
  - apply (WD t p Ht Hp). symmetry. apply (proj2 (IN t Ht)); [|exact Hp]. apply EQ; [symmetry; exact Q|exact Ht].
Qed.
(** A rigid deformation has exactly that energy. *)
Lemma rigid_energy : rigid m y1 y2 -> mech_elastic_energy m y1 y2 = Ok (WS g rg q I (fun t p => cold m t p / 16)).
Proof.
  intros R. assert (RS : forall t p, In t (g_triangles tg) -> In p (q_points q) -> rotation (strain_at g rg y1 y2 t p)).
  { intros t p Ht Hp. destruct (R q t p Eq Ht Hp) as (F & EF & RF). destruct (strain_at_ok g rg h a b GG t p Ht (proj2 (proj2 Gq) p Hp)) as (X & Y & _ & _ & K). destruct (K _ _ L1 L2) as [K1 _]. fold g rg in EF. assert (F = strain_at g rg y1 y2 t p) as <- by (apply mat_inj; congruence). exact RF. }
  assert (PJ : positive_jacobian g rg q y1 y2) by (apply (positive_iff m h a b PG q Gq y1 y2 L1 L2); intros t p Ht Hp; fold g rg; rewrite (det_rot _ (RS t p Ht Hp)); lra).
  rewrite (elastic_energy_value m h a b PG HM q Eq Gq I EI y1 y2 L1 L2 PJ). apply (f_equal Ok). apply WS_ext. intros t p Ht Hp. unfold elastic_at. fold g rg. apply rest_density, RS; assumption.
Qed.
End M.
Lemma affine_rigid m h a b Q c1 c2 y1 y2 : problem_grids (ms_grid m) (ms_refined m) h a b -> rotation Q -> affine_field (ms_grid m) (ms_refined m) (f11 Q) (f12 Q) c1 y1 -> affine_field (ms_grid m) (ms_refined m) (f21 Q) (f22 Q) c2 y2 -> rigid m y1 y2.
Proof.
  intros PG RQ A1 A2 q t p Eq Ht Hp. destruct (energy_rule_good (ms_grid m) (ms_refined m)) as (q' & E' & GQ & _). change (mech_rule m) with (energy_rule (ms_refined m)) in Eq. assert (q' = q) as -> by congruence.
  destruct (field _ _ _ _ _ (problem_good _ _ _ _ _ PG) t p Ht (proj2 (proj2 GQ) p Hp)) as (X & Y & FU). exists Q. split; [|exact RQ].
  rewrite (field_strain _ _ t p X Y _ _ FU (proj1 A1) (proj1 A2)). rewrite (strain_affine _ _ t p X Y Q c1 c2 _ _ FU A1 A2). reflexivity.
Qed.
Lemma warm_rest : forall lg m h a b Q c1 c2, problem_grids (ms_grid m) (ms_refined m) h a b -> msized m -> (ms_refined m = None -> midpoint_rule lg) ->
  (forall x, In x (ms_prev_theta m) -> warm x) -> unloaded m -> 0 <= ms_fps m -> (ms_refined m <> None -> 0 <= ms_reg m) -> mech_feasible m (ms_prev_y1 m) (ms_prev_y2 m) ->
  rotation Q -> affine_field (ms_grid m) (ms_refined m) (f11 Q) (f12 Q) c1 (ms_prev_y1 m) -> affine_field (ms_grid m) (ms_refined m) (f21 Q) (f22 Q) c2 (ms_prev_y2 m) ->
  (ms_refined m <> None -> mech_hyper_elastic_energy m (ms_prev_y1 m) (ms_prev_y2 m) = Ok 0) ->
  mech_minimizes lg m (ms_prev_y1 m) (ms_prev_y2 m) /\ forall y1 y2, mech_minimizes lg m y1 y2 -> rigid m y1 y2.
Proof.
  intros lg m h a b Q c1 c2 PG HM HL WT UL F0 R0 FE RQ A1 A2 RH. destruct (proj1 HM) as [P1 P2 Y1 Y2 _]. pose proof (problem_good _ _ _ _ _ PG) as GG.
  destruct (energy_rule_good (ms_grid m) (ms_refined m)) as (q & Eq & Gq & Pq). destruct (grid_integrator _ _ h a b GG q) as [I EI].
  assert (NN : non_negative_values (ms_prev_theta m)).
  { intros x Hx. specialize (WT x Hx). unfold warm in WT. assert (0 < ln (3 / 2)) by (rewrite <- ln_1; apply ln_increasing; lra). lra. }
  pose proof (rigid_energy m h a b PG HM q Eq Gq I EI _ _ P1 P2 (affine_rigid m h a b Q c1 c2 _ _ PG RQ A1 A2)) as RE. set (E0 := WS (ms_grid m) (ms_refined m) q I (fun t p => cold m t p / 16)) in *. pose proof (no_dissipation m h a b PG HM) as ND.
  assert (EJ : mech_objective lg m (ms_prev_y1 m) (ms_prev_y2 m) = Ok E0).
  { unfold mech_objective. rewrite RE. cbn [bind]. destruct (opt_case (ms_refined m)) as [[r Hr]|Hr]; rewrite !Hr.
    - rewrite RH by congruence. cbn [bind]. rewrite ND. cbn [bind]. apply (f_equal Ok). ring.
    - rewrite ND. cbn [bind]. pose proof PG as (Hs & Ha & Hb & (so & w & h' & f & Fw & Fh & DG) & _). assert (LL : forall y : list R, length y = (length (g_vertices (ms_grid m)) * dofs (ms_refined m))%nat -> length y = length (g_vertices (ms_grid m))) by (intros y L; rewrite L, Hr; cbn; lia).
      rewrite (proj1 (traction_work so w h' f h a b lg m _ _ Hs Fw Fh Ha Hb (proj1 (proj2 HM Hr)) (proj2 (proj2 HM Hr)) DG (HL Hr) (LL _ P1) (LL _ P2))). cbn [bind]. pose proof (no_work m h (ms_prev_y1 m) (ms_prev_y2 m) UL Hr) as NW. unfold work in NW. rewrite NW. apply (f_equal Ok). ring. }
  assert (POS : forall z1 z2 J, mech_feasible m z1 z2 -> mech_objective lg m z1 z2 = Ok J -> E0 <= J /\ (J = E0 -> rigid m z1 z2)).
  { intros z1 z2 J (F1 & F2 & _) EZ. pose proof (Forall2_len _ _ _ F1) as K1. pose proof (Forall2_len _ _ _ F2) as K2. rewrite Y1 in K1. rewrite Y2 in K2. symmetry in K1, K2.
    destruct (objective_parts lg m h a b z1 z2 J PG HM HL UL K1 K2 EZ) as (E & D & H & EE & ED & EH & ->). destruct (energies_nonnegative m h a b z1 z2 PG HM NN K1 K2) as (_ & (D' & ED' & ND') & NH). assert (D' = D) as -> by congruence.
    destruct (warm_energy m h a b PG HM q Eq Gq Pq I EI WT z1 z2 K1 K2 E EE) as [LE EQ]. fold E0 in LE, EQ. pose proof (Rmult_le_pos _ _ F0 ND') as D0.
    assert (H0 : 0 <= match ms_refined m with None => 0 | Some _ => ms_reg m * H end).
    { destruct (opt_case (ms_refined m)) as [[r Hr]|Hr]; rewrite !Hr in *; [|lra]. destruct (NH ltac:(discriminate)) as (H' & EH' & NH'). assert (H' = H) as -> by (specialize (EH ltac:(discriminate)); congruence). apply Rmult_le_pos; [apply R0; congruence|assumption]. }
    set (hh := match ms_refined m with None => 0 | Some _ => ms_reg m * H end) in *. clearbody hh. split; [lra|]. intros Q0. apply EQ. lra. }
  split.
  - split; [exact FE|]. exists E0. split; [exact EJ|]. intros z1 z2 J' FZ EZ. exact (proj1 (POS z1 z2 J' FZ EZ)).
  - intros y1 y2 (FY & J & EY & MIN). pose proof (MIN _ _ _ FE EJ) as LE. destruct (POS y1 y2 J FY EY) as [GE EQ]. apply EQ. lra.
Qed.
(** A body above the transition temperature on which no traction acts and which was moved rigidly keeps its shape: its last position
    solves the mechanical problem, and in every solution all strains are rotations. *)
Theorem C120_rest : forall lg m h a b Q c1 c2, problem_grids (ms_grid m) (ms_refined m) h a b -> mech_history m -> (ms_refined m = None -> midpoint_rule lg) ->
  (forall x, In x (ms_prev_theta m) -> warm x) -> unloaded m -> 0 <= ms_fps m -> (ms_refined m <> None -> 0 <= ms_reg m) -> mech_feasible m (ms_prev_y1 m) (ms_prev_y2 m) ->
  rotation Q -> affine_field (ms_grid m) (ms_refined m) (f11 Q) (f12 Q) c1 (ms_prev_y1 m) -> affine_field (ms_grid m) (ms_refined m) (f21 Q) (f22 Q) c2 (ms_prev_y2 m) ->
  mech_minimizes lg m (ms_prev_y1 m) (ms_prev_y2 m) /\ forall y1 y2, mech_minimizes lg m y1 y2 -> rigid m y1 y2.
Proof.
  intros lg m h a b Q c1 c2 PG HM HL WT UL F0 R0 FE RQ A1 A2. apply (warm_rest lg m h a b Q c1 c2 PG (mech_history_sized m HM)); try assumption.
  intros NR. exact (C78_hyperelastic_energy_affine m h a b Q c1 c2 _ _ PG NR A1 A2).
Qed.
Print Assumptions C120_rest.
