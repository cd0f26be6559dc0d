(** * Regularized bodies at rest above the transition temperature: strains and second derivatives at the quadrature points (C122). *)
From Coq Require Import Reals Lra Lia List ZArith Psatz.
From Coquelicot Require Import Coquelicot.
From Verif.Spec Require Import GridSpec QuadSpec BellSpec InterpSpec RefineSpec PotentialSpec.
From Verif.Model Require Import Py Num Tensors Domain Refine Quadrature Integrators Expr Bell Interp Helpers Steps Simulation.
From Verif.Spec Require Import SimSpec LiveSpec StepSpec EnergySpec MotionSpec TractionSpec ThermSpec MechSpec MomentumSpec IdealSpec RestSpec WarmSpec CalmRSpec.
From Verif.Proofs Require Import Lib GridP InterpP PotP HatP QuadP IntegP StepP StepU StepE StepF StepG StepH SimP SimH SimL SimA StepC ThermV ThermP LipMin LipMore MechV MechP MechL MechD.
From Verif.Props Require Import GridProps QuadProps IntegProps InterpProps RefineProps MeshIntegProps PotentialProps SimProps EnergyProps EnergyExamples AffineProps TractionProps ThermProps HeatProps MechExistProps IdealProps MomentumProps RestProps WarmProps.
Local Open Scope R_scope.
Import ListNotations.
Local Notation length := List.length.

(** Equal strains only: the dissipation between rotations. *)
Lemma rotations_apart F0 F : rotation F0 -> rotation F -> norm2 (sym_delta F0 F) = 0 -> F = F0.
Proof.
  intros (c0 & s0 & U0 & ->) (c & s & U & ->) Z.
  assert (E : norm2 (sym_delta (PotentialSpec.st c0 (- s0) s0 c0) (PotentialSpec.st c (- s) s c)) = 8 * ((c * c0 + s * s0 - (c0 * c0 + s0 * s0)) * (c * c0 + s * s0 - (c0 * c0 + s0 * s0)))).
  { unfold norm2, sym_delta, add2, mul2, tr2, scal2, PotentialSpec.st. cbn [f11 f12 f21 f22]. ring. }
  rewrite E, U0 in Z. assert (K : (c * c0 + s * s0 - 1) * (c * c0 + s * s0 - 1) = 0) by lra. apply Rmult_integral in K. assert (K' : c * c0 + s * s0 = 1) by (destruct K; lra). clear - K' U0 U.
  assert (Q : (c - c0) * (c - c0) + (s - s0) * (s - s0) = 0) by lra. pose proof (Rle_0_sqr (c - c0)) as A. pose proof (Rle_0_sqr (s - s0)) as B. unfold Rsqr in *.
  assert (A' : (c - c0) * (c - c0) = 0) by lra. assert (B' : (s - s0) * (s - s0) = 0) by lra. apply Rmult_integral in A'. apply Rmult_integral in B'. assert (c = c0) as -> by (destruct A'; lra). assert (s = s0) as -> by (destruct B'; lra). reflexivity.
Qed.

Section M.
Context (lg : Z -> res (list R * list R)) (m : mech) (r : refined_grid R) (h : R) (a b : nat) (PG : problem_grids (ms_grid m) (ms_refined m) h a b) (HM : msized m) (Hr : ms_refined m = Some r).
Let g := ms_grid m. Let rg := ms_refined m. Let tg := theta_grid g rg. Let NK := (length (g_vertices g) * dofs rg)%nat.
Let GG : good_grids g rg h a b := problem_good _ _ _ _ _ PG.
Context (q : rule R) (E5 : DUNAVANT5 = Ok q) (Gq : good_rule q) (Pq : pos_rule q) (I : integrator R) (EI : Integrator_ q (g_triangles tg) (g_points tg) = Ok I).
Lemma erule : energy_rule rg = Ok q. Proof. unfold rg. rewrite Hr. exact E5. Qed.
Lemma lrule : loss_rule rg = Ok q. Proof. unfold rg. rewrite Hr. exact E5. Qed.
(** A weighted sum of a non-negative density vanishes only if the density does. *)
Lemma WS_zero f : (forall t p, In t (g_triangles tg) -> In p (q_points q) -> 0 <= f t p) -> WS g rg q I f = 0 -> forall t p, In t (g_triangles tg) -> In p (q_points q) -> f t p = 0.
Proof.
  intros NF Z t p Ht Hp. destruct (integrator_parts _ _ _ _ EI) as (_ & T & LA).
  assert (IN : forall t, In t (g_triangles tg) -> weighted_sum (q_points q) (q_weights q) (fun _ => 0) <= weighted_sum (q_points q) (q_weights q) (f t) /\
     (weighted_sum (q_points q) (q_weights q) (fun _ => 0) = weighted_sum (q_points q) (q_weights q) (f t) -> forall p, In p (q_points q) -> 0 = f t p)).
  { intros t' Ht'. apply ws_le; [apply Pq|apply Gq|]. intros p' Hp'. apply NF; assumption. }
  destruct (ws_le (g_triangles tg) (i_areas I) (fun t => weighted_sum (q_points q) (q_weights q) (fun _ => 0)) (fun t => weighted_sum (q_points q) (q_weights q) (f t))) as [_ EQ]; [exact (areas_positive g rg h a b GG q I EI)|lia|intros t' Ht'; apply (IN t' Ht')|].
  symmetry. apply (proj2 (IN t Ht)); [|exact Hp]. apply (EQ); [|exact Ht]. unfold WS in Z. fold tg in Z. rewrite Z.
  rewrite (weighted_sum_ext _ _ (fun t => weighted_sum (q_points q) (q_weights q) (fun _ => 0)) (fun _ => 0)); [apply ws_zero|]. intros t' _. apply ws_zero.
Qed.
Context (y1 y2 : list R) (L1 : length y1 = NK) (L2 : length y2 = NK).
(** Zero hyper elastic energy: no second derivatives at the points. *)
Lemma flat_iff : mech_hyper_elastic_energy m y1 y2 = Ok 0 <-> flat g r y1 y2.
Proof.
  rewrite (hyper_energy_value m h a b PG q erule Gq I EI y1 y2 L1 L2 r Hr). fold g rg.
  assert (V : forall t p, In t (g_triangles tg) -> In p (q_points q) -> exists x, deform_hyper_strain (comp_interp g (Some r) y1) (comp_interp g (Some r) y2) t p = Ok x /\ 0 <= hyper_at g rg y1 y2 t p /\ (hyper_at g rg y1 y2 t p = 0 <-> forall A row z, In A (t_data x) -> In row A -> In z row -> z = 0)).
  { intros t p Ht Hp. unfold tg, rg in Ht. rewrite Hr in Ht. pose proof GG as GG'. unfold rg in GG'. rewrite Hr in GG'. destruct (reg_functionals g r h a b t p GG' Ht (proj2 (proj2 Gq) p Hp)) as (X & Y & XX & XY & YY & _ & F2).
    assert (K1 : length y1 = (length (g_vertices g) * 6)%nat) by (rewrite L1; unfold NK, rg; rewrite Hr; reflexivity). assert (K2 : length y2 = (length (g_vertices g) * 6)%nat) by (rewrite L2; unfold NK, rg; rewrite Hr; reflexivity).
    unfold hyper_at, deform_hyper_strain. unfold rg. rewrite Hr. rewrite (fu_hess _ _ _ _ _ _ _ F2 y1 K1), (fu_hess _ _ _ _ _ _ _ F2 y2 K2). cbn [bind]. rewrite stack_value. eexists. split; [reflexivity|]. rewrite hyper_value. cbn [t_data].
    set (p1 := XX y1). set (p2 := XY y1). set (p3 := YY y1). set (q1 := XX y2). set (q2 := XY y2). set (q3 := YY y2).
    match goal with |- 0 <= sqrt ?S ^ 3 /\ _ => set (ss := S) end. split; [apply pow_le, sqrt_pos|].
    assert (NS : 0 <= ss /\ (ss = 0 <-> p1 = 0 /\ p2 = 0 /\ p3 = 0 /\ q1 = 0 /\ q2 = 0 /\ q3 = 0)).
    { unfold ss. clearbody p1 p2 p3 q1 q2 q3. clear. pose proof (Rle_0_sqr p1). pose proof (Rle_0_sqr p2). pose proof (Rle_0_sqr p3). pose proof (Rle_0_sqr q1). pose proof (Rle_0_sqr q2). pose proof (Rle_0_sqr q3). unfold Rsqr in *. split; [nra|]. split; [|intros (-> & -> & -> & -> & -> & ->); ring].
      intros Z. assert (forall z, z * z = 0 -> z = 0) as SQ by (intros z Hz; apply Rmult_integral in Hz; destruct Hz; assumption). repeat split; apply SQ; lra. }
    clearbody ss. destruct NS as [N0 NI]. split.
    - intros Z. assert (S0 : sqrt ss = 0) by (destruct (Req_dec (sqrt ss) 0) as [|N]; [assumption|exfalso; exact (pow_nonzero _ 3 N Z)]). apply sqrt_eq_0 in S0; [|exact N0]. apply NI in S0 as (Z1 & Z2 & Z3 & Z4 & Z5 & Z6).
      intros A row z HA HR HZ. cbn [In] in HA. destruct HA as [<-|[<-|[]]]; cbn [In] in HR; destruct HR as [<-|[<-|[]]]; cbn [In] in HZ; destruct HZ as [<-|[<-|[]]]; assumption.
    - intros Z. assert (S0 : ss = 0); [|rewrite S0, sqrt_0; ring]. apply NI.
      repeat split; [apply (Z [[p1; p2]; [p2; p3]] [p1; p2])|apply (Z [[p1; p2]; [p2; p3]] [p1; p2])|apply (Z [[p1; p2]; [p2; p3]] [p2; p3])|apply (Z [[q1; q2]; [q2; q3]] [q1; q2])|apply (Z [[q1; q2]; [q2; q3]] [q1; q2])|apply (Z [[q1; q2]; [q2; q3]] [q2; q3])]; cbn [In]; auto. }
  unfold tg, rg in V. split.
  - intros Z q' t p Eq' Ht Hp. assert (q' = q) as -> by congruence. assert (Ht' : In t (g_triangles (theta_grid g (ms_refined m)))) by (rewrite Hr; exact Ht). destruct (V t p Ht' Hp) as (x & Ex & NX & K). exists x. split; [exact Ex|]. apply K.
    apply (WS_zero (hyper_at g rg y1 y2)); [|congruence|exact Ht'|exact Hp]. intros t' p' Ht2 Hp2. destruct (V t' p' Ht2 Hp2) as (_ & _ & N' & _). exact N'.
  - intros FL. apply (f_equal Ok). rewrite (WS_ext g rg q I _ (fun _ _ => 0)).
    + unfold WS. rewrite (weighted_sum_ext _ _ (fun t => weighted_sum (q_points q) (q_weights q) (fun _ => 0)) (fun _ => 0)); [apply ws_zero|]. intros t' _. apply ws_zero.
    + intros t p Ht Hp. destruct (V t p Ht Hp) as (x & Ex & _ & K). apply K. unfold tg, rg in Ht. rewrite Hr in Ht. destruct (FL q t p E5 Ht Hp) as (x' & Ex' & Z). assert (x' = x) as <- by congruence. exact Z.
Qed.
End M.
Lemma mechanical_still : forall lg m r h a b F, problem_grids (ms_grid m) (ms_refined m) h a b -> msized m -> ms_refined m = Some r ->
  (forall x, In x (ms_prev_theta m) -> warm x) -> 0 < ms_fps m -> 0 < ms_reg m -> mech_feasible m (ms_prev_y1 m) (ms_prev_y2 m) ->
  (forall t p, rotation (F t p)) -> strains_are (ms_grid m) r F (ms_prev_y1 m) (ms_prev_y2 m) -> flat (ms_grid m) r (ms_prev_y1 m) (ms_prev_y2 m) ->
  mech_minimizes lg m (ms_prev_y1 m) (ms_prev_y2 m) /\ forall y1 y2, mech_minimizes lg m y1 y2 -> strains_are (ms_grid m) r F y1 y2 /\ flat (ms_grid m) r y1 y2.
Proof.
  intros lg m r h a b F PG HM Hr WT F0 R0 FE RF SF FL. destruct (proj1 HM) as [P1 P2 Y1 Y2 _]. pose proof (problem_good _ _ _ _ _ PG) as GG.
  destruct (energy_rule_good (ms_grid m) (ms_refined m)) as (q & Eq & Gq & Pq). destruct (grid_integrator _ _ h a b GG q) as [I EI]. assert (E5 : DUNAVANT5 = Ok q) by (unfold energy_rule in Eq; rewrite Hr in Eq; exact Eq).
  assert (Lq : loss_rule (ms_refined m) = Ok q) by exact (lrule m r Hr q E5).
  assert (NN : non_negative_values (ms_prev_theta m)).
  { intros x Hx. specialize (WT x Hx). unfold warm in WT. assert (0 < ln (3 / 2)) by (rewrite <- ln_1; apply ln_increasing; lra). lra. }
  assert (HL : ms_refined m = None -> midpoint_rule lg) by (intros N; congruence). assert (UL : unloaded m) by (intros N; congruence). assert (NR : ms_refined m <> None) by congruence.
  assert (RG : rigid m (ms_prev_y1 m) (ms_prev_y2 m)).
  { intros q' t p Eq' Ht Hp. unfold mech_rule in Eq'. rewrite Hr in Eq', Ht |- *. exists (F t p). split; [exact (SF q' t p Eq' Ht Hp)|apply RF]. }
  pose proof (rigid_energy m h a b PG HM q Eq Gq I EI _ _ P1 P2 RG) as RE. set (E0 := WS (ms_grid m) (ms_refined m) q I (fun t p => cold m t p / 16)) in *. pose proof (no_dissipation m h a b PG HM) as ND.
  pose proof (proj2 (flat_iff m r h a b PG Hr q E5 Gq Pq I EI _ _ P1 P2) FL) as RH.
  assert (EJ : mech_objective lg m (ms_prev_y1 m) (ms_prev_y2 m) = Ok E0) by (unfold mech_objective; rewrite RE; cbn [bind]; rewrite Hr, RH; cbn [bind]; rewrite ND; cbn [bind]; apply (f_equal Ok); ring).
  assert (POS : forall z1 z2 J, mech_feasible m z1 z2 -> mech_objective lg m z1 z2 = Ok J -> E0 <= J /\ (J = E0 -> strains_are (ms_grid m) r F z1 z2 /\ flat (ms_grid m) r z1 z2)).
  { intros z1 z2 J (F1 & F2 & _) EZ. pose proof (Forall2_len _ _ _ F1) as K1. pose proof (Forall2_len _ _ _ F2) as K2. rewrite Y1 in K1. rewrite Y2 in K2. symmetry in K1, K2.
    destruct (objective_parts lg m h a b z1 z2 J PG HM HL UL K1 K2 EZ) as (E & D & H & EE & ED & EH & ->). destruct (energies_nonnegative m h a b z1 z2 PG HM NN K1 K2) as (_ & (D' & ED' & ND') & NH). assert (D' = D) as -> by congruence.
    destruct (warm_energy m h a b PG HM q Eq Gq Pq I EI WT z1 z2 K1 K2 E EE) as [LE EQ]. fold E0 in LE, EQ. pose proof (Rmult_le_pos _ _ (Rlt_le _ _ F0) ND') as D0. rewrite !Hr. destruct (NH NR) as (H' & EH' & NH'). assert (H' = H) as -> by (specialize (EH NR); congruence). pose proof (Rmult_le_pos _ _ (Rlt_le _ _ R0) NH') as H0.
    split; [lra|]. intros Q0. assert (HD : ms_fps m * D = 0) by lra. assert (HH : ms_reg m * H = 0) by lra. apply Rmult_integral in HD as [HD|HD]; [lra|]. apply Rmult_integral in HH as [HH|HH]; [lra|]. subst D H.
    split; [|apply (flat_iff m r h a b PG Hr q E5 Gq Pq I EI z1 z2 K1 K2); exact (EH NR)].
    assert (RZ : rigid m z1 z2) by (apply EQ; lra). rewrite (loss_value m h a b PG HM q Lq Gq I EI z1 z2 K1 K2) in ED. injection ED as WZ.
    pose proof (WS_zero m h a b PG q Gq Pq I EI (loss_at m z1 z2)) as ZL. intros q' t p Eq' Ht Hp. assert (q' = q) as -> by congruence. assert (Ht' : In t (g_triangles (theta_grid (ms_grid m) (ms_refined m)))) by (rewrite Hr; exact Ht).
    assert (LZ : loss_at m z1 z2 t p = 0).
    { apply ZL; try assumption. intros t' p' _ _. unfold loss_at. set (S := sym_delta _ _). clearbody S. unfold norm2. pose proof (Rle_0_sqr (f11 S)). pose proof (Rle_0_sqr (f12 S)). pose proof (Rle_0_sqr (f21 S)). pose proof (Rle_0_sqr (f22 S)). unfold Rsqr in *. lra. }
    destruct (RZ q t p Eq Ht' Hp) as (G & EG & RGG). destruct (strain_at_ok (ms_grid m) (ms_refined m) h a b GG t p Ht' (proj2 (proj2 Gq) p Hp)) as (X & Y & _ & _ & K). destruct (K _ _ K1 K2) as [KZ _]. destruct (K _ _ P1 P2) as [KP _].
    pose proof (SF q t p E5 Ht Hp) as EF. rewrite <- Hr in EF. assert (GE : G = strain_at (ms_grid m) (ms_refined m) z1 z2 t p) by (apply mat_inj; congruence). assert (FE' : F t p = strain_at (ms_grid m) (ms_refined m) (ms_prev_y1 m) (ms_prev_y2 m) t p) by (apply mat_inj; congruence).
    rewrite <- Hr, EG. apply (f_equal (fun z => Ok (mat z))). apply rotations_apart; [apply RF|exact RGG|]. unfold loss_at in LZ. rewrite <- GE, <- FE' in LZ. lra. }
  split.
  - split; [exact FE|]. exists E0. split; [exact EJ|]. intros z1 z2 J' FZ EZ. exact (proj1 (POS z1 z2 J' FZ EZ)).
  - intros y1 y2 (FY & J & EY & MIN). pose proof (MIN _ _ _ FE EJ) as LE. destruct (POS y1 y2 J FY EY) as [GE EQ]. apply EQ. lra.
Qed.
(** Above the transition temperature a regularized body whose strains are rotations and which has no second derivatives at the
    points of the rule is in a solution of its next mechanical step, and all solutions have the same strains and no second derivatives. *)
Theorem C122_mechanical_step : forall lg m r h a b F, problem_grids (ms_grid m) (ms_refined m) h a b -> mech_history m -> ms_refined m = Some r ->
  (forall x, In x (ms_prev_theta m) -> warm x) -> 0 < ms_fps m -> 0 < ms_reg m -> mech_feasible m (ms_prev_y1 m) (ms_prev_y2 m) ->
  (forall t p, rotation (F t p)) -> strains_are (ms_grid m) r F (ms_prev_y1 m) (ms_prev_y2 m) -> flat (ms_grid m) r (ms_prev_y1 m) (ms_prev_y2 m) ->
  mech_minimizes lg m (ms_prev_y1 m) (ms_prev_y2 m) /\ forall y1 y2, mech_minimizes lg m y1 y2 -> strains_are (ms_grid m) r F y1 y2 /\ flat (ms_grid m) r y1 y2.
Proof.
  intros lg m r h a b F PG HM. exact (mechanical_still lg m r h a b F PG (mech_history_sized m HM)).
Qed.
Print Assumptions C122_mechanical_step.
