(** * Rest states of the mechanical step (C97), net force (C95). *)
From Coq Require Import Reals Lra Lia List ZArith.
From Coquelicot Require Import Coquelicot.
From Verif.Spec Require Import GridSpec QuadSpec BellSpec InterpSpec RefineSpec PotentialSpec.
From Verif.Model Require Import Py Num Tensors Domain Refine Quadrature Integrators Expr Bell Interp Helpers Steps Simulation.
From Verif.Spec Require Import SimSpec LiveSpec StepSpec EnergySpec MotionSpec TractionSpec ThermSpec MechSpec MomentumSpec IdealSpec RestSpec.
From Verif.Proofs Require Import Lib GridP InterpP PotP HatP QuadP IntegP StepP StepU StepE StepF StepG StepH SimP SimH SimL SimA StepC ThermV ThermP LipMin LipMore MechV MechP MechL MechD.
From Verif.Props Require Import GridProps QuadProps IntegProps InterpProps RefineProps MeshIntegProps PotentialProps SimProps EnergyProps EnergyExamples AffineProps TractionProps ThermProps HeatProps MechExistProps IdealProps MomentumProps.
Local Open Scope R_scope.
Import ListNotations.

Lemma loss_rule_positive (g : grid R) rg : exists q, loss_rule rg = Ok q /\ good_rule q /\ pos_rule q.
Proof.
  unfold loss_rule. destruct rg as [r|].
  - exact (energy_rule_good g (Some r)).
  - destruct (dissipation_rule_mass None) as (q & E & GQ & _). exists q. split; [exact E|]. split; [exact GQ|]. unfold CENTROID in E. revert E. third. intros E. rewrite (rule_inv _ _ _ E). unfold pos_rule. cbn [q_weights q_points]. split.
    + intros w Hw. cbn in Hw. repeat (destruct Hw as [<-|Hw]; [lra|]). destruct Hw.
    + intros p Hp. cbn in Hp. repeat (destruct Hp as [<-|Hp]; [unfold Bary, l1, l2, l3; cbn; lra|]). destruct Hp.
Qed.
Lemma density_nonneg e N d : 0 < e <= 1 -> 2 * d <= N -> 0 < d -> 0 <= density e N d.
Proof.
  intros E N2 D. unfold density. pose proof (ln_bound d D) as L. pose proof (pow2_ge_0 (d - 1)). pose proof (pow2_ge_0 (N * / d - 9 / 4)). pose proof (pow2_ge_0 (d ^ 2 + (/ d) ^ 2 - 2)).
  assert (0 <= (1 - e) * (N - 2 - 2 * ln d + (d - 1) ^ 2)) by (apply Rmult_le_pos; lra). assert (0 <= e * ((N * / d - 9 / 4) ^ 2 + (d ^ 2 + (/ d) ^ 2 - 2) ^ 2)) by (apply Rmult_le_pos; lra). lra.
Qed.
Lemma ws_zero {A} (ps : list A) ws : weighted_sum ps ws (fun _ => 0) = 0.
Proof. revert ws. induction ps as [|p ps IH]; intros [|w ws]; cbn [weighted_sum]; try reflexivity. rewrite IH. ring. Qed.
Lemma norm_det F : 2 * det2 F <= norm2 F.
Proof. unfold norm2, det2. destruct F as [p q r s]. cbn [f11 f12 f21 f22]. pose proof (pow2_ge_0 (p - s)). pose proof (pow2_ge_0 (q + r)). nra. Qed.
Section M.
Context (lg : Z -> res (list R * list R)) (m : mech) (h : R) (a b : nat) (PG : problem_grids (ms_grid m) (ms_refined m) h a b) (HM : msized m) (HL : ms_refined m = None -> midpoint_rule lg).
Let g := ms_grid m. Let rg := ms_refined m. Let tg := theta_grid g rg. Let NK := (length (g_vertices g) * dofs rg)%nat.
Let GG : good_grids g rg h a b := problem_good _ _ _ _ _ PG.
Context (qe qd : rule R) (Ee : energy_rule rg = Ok qe) (Ed : loss_rule rg = Ok qd) (Ge : good_rule qe) (Gd : good_rule qd) (Pe : pos_rule qe) (Pd : pos_rule qd) (Ie Id : integrator R).
Context (EIe : Integrator_ qe (g_triangles tg) (g_points tg) = Ok Ie) (EId : Integrator_ qd (g_triangles tg) (g_points tg) = Ok Id).
Lemma WS_nonneg q I f : good_rule q -> pos_rule q -> Integrator_ q (g_triangles tg) (g_points tg) = Ok I -> (forall t p, In t (g_triangles tg) -> In p (q_points q) -> 0 <= f t p) -> 0 <= WS g rg q I f.
Proof.
  intros GQ PQ EI H. destruct (integrator_parts _ _ _ _ EI) as (_ & T & LA).
  assert (Z : forall {A} (ps : list A) ws, weighted_sum ps ws (fun _ => 0) = 0). { intros A ps. induction ps as [|p ps IH]; intros [|w ws]; cbn [weighted_sum]; try reflexivity. rewrite IH. ring. }
  unfold WS. fold tg. rewrite <- (Z _ (g_triangles tg) (i_areas I)). apply ws_le; [exact (areas_positive g rg h a b GG q I EI)|lia|]. intros t Ht. rewrite <- (Z _ (q_points q) (q_weights q)). apply ws_le; [apply PQ|apply GQ|]. intros p Hp. apply H; assumption.
Qed.
Context (NN : non_negative_values (ms_prev_theta m)).
Lemma elastic_nonneg y1 y2 : (forall t p, In t (g_triangles tg) -> In p (q_points qe) -> 0 < det2 (strain_at g rg y1 y2 t p)) -> 0 <= WS g rg qe Ie (elastic_at m y1 y2).
Proof.
  intros PX. apply WS_nonneg; try assumption. intros t p Ht Hp. unfold elastic_at. fold g rg. apply density_nonneg; [|apply norm_det|apply PX; assumption]. unfold cold. split; [apply exp_pos|]. rewrite <- exp_0.
  pose proof (vat_nonneg qe Pe (ms_prev_theta m) t p NN Hp) as V. destruct (Req_dec (vat (ms_prev_theta m) t p) 0) as [-> |NZ]; [rewrite Rmult_0_r; apply Rle_refl|]. left. apply exp_increasing. lra.
Qed.
Lemma loss_nonneg y1 y2 : 0 <= WS g rg qd Id (loss_at m y1 y2).
Proof. apply WS_nonneg; try assumption. intros t p _ _. unfold loss_at. set (S := sym_delta _ _). unfold norm2. pose proof (Rle_0_sqr (f11 S)). pose proof (Rle_0_sqr (f12 S)). pose proof (Rle_0_sqr (f21 S)). pose proof (Rle_0_sqr (f22 S)). unfold Rsqr in *. nra. Qed.
Lemma hyper_nonneg y1 y2 : 0 <= WS g rg qe Ie (hyper_at g rg y1 y2).
Proof. apply WS_nonneg; try assumption. intros t p _ _. unfold hyper_at. destruct (deform_hyper_strain _ _ _ _) as [x|]; [|lra]. unfold hyper_elastic_potential, HYPER_ELASTIC_POWER, Tensor3D_norm. apply pow_le, sqrt_pos. Qed.
Context (y1 y2 : list R) (L1 : length y1 = NK) (L2 : length y2 = NK).
Lemma elastic_positive E : mech_elastic_energy m y1 y2 = Ok E -> positive_jacobian g rg qe y1 y2.
Proof.
  intros H. destruct (Classical_Prop.classic (positive_jacobian g rg qe y1 y2)) as [PJ|NP]; [exact PJ|exfalso]. destruct (proj1 HM) as [_ _ _ _ PT].
  destruct (elastic_general g rg h a b GG qe Ge (ms_prev_theta m) PT y1 y2 L1 L2 Ie EIe) as [_ N]. specialize (N NP). unfold mech_elastic_energy in H. fold g rg in H. change (match rg with None => DUNAVANT2 | Some _ => DUNAVANT5 end) with (energy_rule rg) in H. rewrite Ee in H. cbn [bind] in H. fold tg in H. rewrite EIe in H. cbn [bind] in H. rewrite N in H. discriminate.
Qed.
Lemma hyper_energy_value r : rg = Some r -> mech_hyper_elastic_energy m y1 y2 = Ok (WS g rg qe Ie (hyper_at g rg y1 y2)).
Proof.
  intros Hr. unfold mech_hyper_elastic_energy. fold g rg. assert (E5 : @DUNAVANT5 R RNum = Ok qe) by (pose proof Ee as E; unfold energy_rule in E; rewrite Hr in E; exact E). rewrite E5. cbn [bind]. fold tg. rewrite EIe. cbn [bind]. apply (WS_ok g rg qe Ie); [exact EIe|].
  intros t p Ht Hp. destruct (hyper_at_ok g rg h a b GG r t p Hr Ht (proj2 (proj2 Ge) p Hp)) as (XX & XY & YY & _ & _ & _ & K). exact (proj1 (K y1 y2 L1 L2)).
Qed.
End M.
Lemma no_work m h y1 y2 : unloaded m -> ms_refined m = None -> work m h y1 y2 = 0.
Proof.
  intros U PL. unfold work. assert (Z : forall d, (forall v t, In (v, t) d -> t = 0) -> forall v, value_for d v = 0).
  { intros d H v. induction d as [|[k x] d IH]; [reflexivity|]. unfold value_for, dget in *. cbn [dfind]. match goal with |- context [Nat.eqb ?p ?q] => destruct (Nat.eqb p q) end; [exact (H k x (or_introl eq_refl))|]. apply IH. intros w t Hw. exact (H w t (or_intror Hw)). }
  assert (S : forall es, sum_over (fun e => mean_of_ends (value_for (ms_g1 m)) e * mean_of_ends (at_vertex y1) e + mean_of_ends (value_for (ms_g2 m)) e * mean_of_ends (at_vertex y2) e) es = 0); [|rewrite S; ring].
  induction es as [|e es IH]; cbn [sum_over]; [reflexivity|]. rewrite IH. unfold mean_of_ends. rewrite !(Z (ms_g1 m)), !(Z (ms_g2 m)) by (intros v t Hv; apply (U PL v t); auto). field.
Qed.
(** ** C97 *)
(** Stored energies and dissipation are never negative. *)
Lemma energies_nonnegative : forall m h a b y1 y2, problem_grids (ms_grid m) (ms_refined m) h a b -> msized m -> non_negative_values (ms_prev_theta m) ->
  length y1 = (length (g_vertices (ms_grid m)) * dofs (ms_refined m))%nat -> length y2 = (length (g_vertices (ms_grid m)) * dofs (ms_refined m))%nat ->
  (forall E, mech_elastic_energy m y1 y2 = Ok E -> 0 <= E) /\ (exists D, mech_dissipation m y1 y2 = Ok D /\ 0 <= D) /\ (ms_refined m <> None -> exists H, mech_hyper_elastic_energy m y1 y2 = Ok H /\ 0 <= H).
Proof.
  intros m h a b y1 y2 PG HM NN L1 L2. pose proof (problem_good _ _ _ _ _ PG) as GG.
  destruct (energy_rule_good (ms_grid m) (ms_refined m)) as (qe & Ee & Ge & Pe). destruct (loss_rule_positive (ms_grid m) (ms_refined m)) as (qd & Ed & Gd & Pd). destruct (grid_integrator _ _ h a b GG qe) as [Ie EIe]. destruct (grid_integrator _ _ h a b GG qd) as [Id EId].
  split; [|split].
  - intros E EE. assert (PJ : positive_jacobian (ms_grid m) (ms_refined m) qe y1 y2) by exact (elastic_positive m h a b PG HM qe Ee Ge Ie EIe y1 y2 L1 L2 E EE).
    rewrite (elastic_energy_value m h a b PG HM qe Ee Ge Ie EIe y1 y2 L1 L2 PJ) in EE. injection EE as <-. apply (elastic_nonneg m h a b PG qe Ge Pe Ie EIe NN). apply (positive_iff m h a b PG qe Ge y1 y2 L1 L2), PJ.
  - eexists. split; [exact (loss_value m h a b PG HM qd Ed Gd Id EId y1 y2 L1 L2)|]. apply (loss_nonneg m h a b PG qd Gd Pd Id EId).
  - intros NR. destruct (opt_case (ms_refined m)) as [[r Hr]|Hr]; [|congruence]. exists (WS (ms_grid m) (ms_refined m) qe Ie (hyper_at (ms_grid m) (ms_refined m) y1 y2)). split; [|apply (hyper_nonneg m h a b PG qe Ge Pe Ie EIe)].
    exact (hyper_energy_value m h a b PG qe Ee Ge Ie EIe y1 y2 L1 L2 r Hr).
Qed.
Theorem C97_energies_nonnegative : forall m h a b y1 y2, problem_grids (ms_grid m) (ms_refined m) h a b -> mech_history m -> non_negative_values (ms_prev_theta m) ->
  length y1 = (length (g_vertices (ms_grid m)) * dofs (ms_refined m))%nat -> length y2 = (length (g_vertices (ms_grid m)) * dofs (ms_refined m))%nat ->
  (forall E, mech_elastic_energy m y1 y2 = Ok E -> 0 <= E) /\ (exists D, mech_dissipation m y1 y2 = Ok D /\ 0 <= D) /\ (ms_refined m <> None -> exists H, mech_hyper_elastic_energy m y1 y2 = Ok H /\ 0 <= H).
Proof. intros m h a b y1 y2 PG HM. exact (energies_nonnegative m h a b y1 y2 PG (mech_history_sized m HM)). Qed.
Print Assumptions C97_energies_nonnegative.
Lemma objective_parts : forall lg m h a b y1 y2 J, problem_grids (ms_grid m) (ms_refined m) h a b -> msized m -> (ms_refined m = None -> midpoint_rule lg) -> unloaded m ->
  length y1 = (length (g_vertices (ms_grid m)) * dofs (ms_refined m))%nat -> length y2 = (length (g_vertices (ms_grid m)) * dofs (ms_refined m))%nat ->
  mech_objective lg m y1 y2 = Ok J -> exists E D H, mech_elastic_energy m y1 y2 = Ok E /\ mech_dissipation m y1 y2 = Ok D /\ (ms_refined m <> None -> mech_hyper_elastic_energy m y1 y2 = Ok H) /\
    J = E + (match ms_refined m with None => 0 | Some _ => ms_reg m * H end) + ms_fps m * D.
Proof.
  intros lg m h a b y1 y2 J PG HM HL UL L1 L2 EJ. pose proof (problem_good _ _ _ _ _ PG) as GG.
  unfold mech_objective in EJ. apply bind_ok' in EJ as (E & EE & EJ). exists E. destruct (opt_case (ms_refined m)) as [[r Hr]|Hr]; rewrite !Hr in EJ.
  - apply bind_ok' in EJ as (H & EH & EJ). apply bind_ok' in EJ as (D & ED & EJ). exists D, H. injection EJ as <-. rewrite Hr. repeat split; auto.
  - apply bind_ok' in EJ as (D & ED & EJ). apply bind_ok' in EJ as (W & EW & EJ). exists D, 0. injection EJ as <-. rewrite Hr. split; [exact EE|]. split; [exact ED|]. split; [congruence|].
    pose proof PG as (Hs & Ha & Hb & (so & w & h' & f & Fw & Fh & DG) & _). assert (LL : forall y : list R, length y = (length (g_vertices (ms_grid m)) * dofs (ms_refined m))%nat -> length y = length (g_vertices (ms_grid m))) by (intros y L; rewrite L, Hr; cbn; lia).
    pose proof (proj1 (traction_work so w h' f h a b lg m y1 y2 Hs Fw Fh Ha Hb (proj1 (proj2 HM Hr)) (proj2 (proj2 HM Hr)) DG (HL Hr) (LL y1 L1) (LL y2 L2))) as T. pose proof (no_work m h y1 y2 UL Hr) as NW. unfold work in NW. rewrite NW in T. assert (W = 0) as -> by congruence. ring.
Qed.
Lemma no_dissipation m h a b : problem_grids (ms_grid m) (ms_refined m) h a b -> msized m -> mech_dissipation m (ms_prev_y1 m) (ms_prev_y2 m) = Ok 0.
Proof.
  intros PG HM. pose proof (problem_good _ _ _ _ _ PG) as GG. destruct (loss_rule_positive (ms_grid m) (ms_refined m)) as (qd & Ed & Gd & Pd). destruct (grid_integrator _ _ h a b GG qd) as [Id EId]. destruct (proj1 HM) as [P1 P2 _ _ _].
  rewrite (loss_value m h a b PG HM qd Ed Gd Id EId _ _ P1 P2). apply (f_equal Ok). unfold WS. rewrite (weighted_sum_ext _ _ _ (fun _ => 0)); [apply ws_zero|]. intros t _. rewrite (weighted_sum_ext _ _ _ (fun _ => 0)); [apply ws_zero|]. intros p _. unfold loss_at. set (F := strain_at _ _ _ _ t p). destruct F as [u v w z]. unfold norm2. cbn. field.
Qed.
Lemma rest_state : forall lg m h a b, problem_grids (ms_grid m) (ms_refined m) h a b -> msized m -> (ms_refined m = None -> midpoint_rule lg) -> non_negative_values (ms_prev_theta m) ->
  unloaded m -> 0 <= ms_fps m -> 0 <= ms_reg m -> mech_feasible m (ms_prev_y1 m) (ms_prev_y2 m) -> relaxed m (ms_prev_y1 m) (ms_prev_y2 m) ->
  mech_minimizes lg m (ms_prev_y1 m) (ms_prev_y2 m) /\
  forall y1 y2, mech_minimizes lg m y1 y2 -> mech_elastic_energy m y1 y2 = Ok 0 /\ (0 < ms_fps m -> mech_dissipation m y1 y2 = Ok 0) /\ (0 < ms_reg m -> ms_refined m <> None -> mech_hyper_elastic_energy m y1 y2 = Ok 0).
Proof.
  intros lg m h a b PG HM HL NN UL F0 R0 FE (RE & RH). destruct (proj1 HM) as [P1 P2 Y1 Y2 _]. pose proof (no_dissipation m h a b PG HM) as ND.
  assert (EJ : mech_objective lg m (ms_prev_y1 m) (ms_prev_y2 m) = Ok 0).
  { unfold mech_objective. rewrite RE. cbn [bind]. destruct (opt_case (ms_refined m)) as [[r Hr]|Hr]; rewrite !Hr.
    - rewrite RH by congruence. cbn [bind]. rewrite ND. cbn [bind]. apply (f_equal Ok). ring.
    - rewrite ND. cbn [bind]. pose proof PG as (Hs & Ha & Hb & (so & w & h' & f & Fw & Fh & DG) & _). assert (LL : forall y : list R, length y = (length (g_vertices (ms_grid m)) * dofs (ms_refined m))%nat -> length y = length (g_vertices (ms_grid m))) by (intros y L; rewrite L, Hr; cbn; lia).
      rewrite (proj1 (traction_work so w h' f h a b lg m _ _ Hs Fw Fh Ha Hb (proj1 (proj2 HM Hr)) (proj2 (proj2 HM Hr)) DG (HL Hr) (LL _ P1) (LL _ P2))). cbn [bind]. pose proof (no_work m h (ms_prev_y1 m) (ms_prev_y2 m) UL Hr) as NW. unfold work in NW. rewrite NW. apply (f_equal Ok). ring. }
  assert (POS : forall z1 z2 J, mech_feasible m z1 z2 -> mech_objective lg m z1 z2 = Ok J -> exists E D H, mech_elastic_energy m z1 z2 = Ok E /\ mech_dissipation m z1 z2 = Ok D /\ (ms_refined m <> None -> mech_hyper_elastic_energy m z1 z2 = Ok H) /\
    J = E + (match ms_refined m with None => 0 | Some _ => ms_reg m * H end) + ms_fps m * D /\ 0 <= E /\ 0 <= ms_fps m * D /\ 0 <= D /\ 0 <= (match ms_refined m with None => 0 | Some _ => ms_reg m * H end)).
  { intros z1 z2 J (F1 & F2 & _) EZ. pose proof (Forall2_len _ _ _ F1) as K1. pose proof (Forall2_len _ _ _ F2) as K2. rewrite Y1 in K1. rewrite Y2 in K2. symmetry in K1, K2.
    destruct (objective_parts lg m h a b z1 z2 J PG HM HL UL K1 K2 EZ) as (E & D & H & EE & ED & EH & ->). destruct (energies_nonnegative m h a b z1 z2 PG HM NN K1 K2) as (NE & (D' & ED' & ND') & NH). assert (D' = D) as -> by congruence. exists E, D, H. split; [exact EE|]. split; [exact ED|]. split; [exact EH|]. split; [reflexivity|].
    split; [exact (NE E EE)|]. split; [apply Rmult_le_pos; assumption|]. split; [exact ND'|]. destruct (opt_case (ms_refined m)) as [[r Hr]|Hr]; rewrite !Hr in *; [|lra]. destruct (NH ltac:(discriminate)) as (H' & EH' & NH'). assert (H' = H) as -> by (specialize (EH ltac:(discriminate)); congruence). apply Rmult_le_pos; assumption. }
  split.
  - split; [exact FE|]. exists 0. split; [exact EJ|]. intros z1 z2 J' FZ EZ. destruct (POS z1 z2 J' FZ EZ) as (E & D & H & _ & _ & _ & -> & A & B & _ & C). lra.
  - intros y1 y2 (FY & J & EY & MIN). pose proof (MIN _ _ _ FE EJ) as LE. destruct (POS y1 y2 J FY EY) as (E & D & H & EE & ED & EH & EQ & A & B & D0 & C). subst J. split; [rewrite EE; apply (f_equal Ok); lra|]. split.
    + intros FP. rewrite ED. apply (f_equal Ok). destruct (Rle_lt_or_eq_dec _ _ D0) as [LT|<-]; [|reflexivity]. pose proof (Rmult_lt_0_compat _ _ FP LT). lra.
    + intros RP NR. rewrite (EH NR). apply (f_equal Ok). destruct (opt_case (ms_refined m)) as [[r Hr]|Hr]; [|congruence]. rewrite !Hr in *. assert (Z : ms_reg m * H = 0) by lra. apply Rmult_integral in Z as [Z|Z]; [lra|exact Z].
Qed.
(** If nothing acts on the body and the last deformation stores no energy, it is a solution, and every solution stores and dissipates nothing. *)
Theorem C97_rest_state : forall lg m h a b, problem_grids (ms_grid m) (ms_refined m) h a b -> mech_history m -> (ms_refined m = None -> midpoint_rule lg) -> non_negative_values (ms_prev_theta m) ->
  unloaded m -> 0 <= ms_fps m -> 0 <= ms_reg m -> mech_feasible m (ms_prev_y1 m) (ms_prev_y2 m) -> relaxed m (ms_prev_y1 m) (ms_prev_y2 m) ->
  mech_minimizes lg m (ms_prev_y1 m) (ms_prev_y2 m) /\
  forall y1 y2, mech_minimizes lg m y1 y2 -> mech_elastic_energy m y1 y2 = Ok 0 /\ (0 < ms_fps m -> mech_dissipation m y1 y2 = Ok 0) /\ (0 < ms_reg m -> ms_refined m <> None -> mech_hyper_elastic_energy m y1 y2 = Ok 0).
Proof. intros lg m h a b PG HM. exact (rest_state lg m h a b PG (mech_history_sized m HM)). Qed.
Print Assumptions C97_rest_state.
(** At temperature 0 the homogeneous martensite variants, rotated and shifted in any way, store no energy. *)
Theorem C97_wells_relaxed : forall m h a b Q gamma c1 c2 y1 y2, problem_grids (ms_grid m) (ms_refined m) h a b -> mech_history m -> (forall x, In x (ms_prev_theta m) -> x = 0) ->
  rotation Q -> gamma = 1 / 2 \/ gamma = - (1 / 2) -> let A := mul2 Q (well gamma) in
  affine_field (ms_grid m) (ms_refined m) (f11 A) (f12 A) c1 y1 -> affine_field (ms_grid m) (ms_refined m) (f21 A) (f22 A) c2 y2 -> relaxed m y1 y2.
Proof.
  intros m h a b Q ga c1 c2 y1 y2 PG HM HT RQ HG A A1 A2. split.
  - rewrite (C78_elastic_energy_affine m h a b A c1 c2 y1 y2 0 PG HM HT A1 A2). unfold total_elastic_potential. rewrite frac_value. cbn [bind]. assert (DA : det2 A = 1). { unfold A. rewrite det_mul, (det_rot Q RQ). unfold well, det2; cbn. ring. }
    assert (DP : 0 < det2 A) by lra. rewrite (aus_value A DP). cbn [bind]. assert (M0 : martensite_potential (mat A) = Ok 0) by (destruct (C51_wells_partial Q RQ) as [W1 W2]; destruct HG as [-> | ->]; assumption). rewrite M0. cbn [bind]. apply (f_equal Ok). rewrite Rmult_0_r, exp_0. ring.
  - intros NR. exact (C78_hyperelastic_energy_affine m h a b A c1 c2 y1 y2 PG NR A1 A2).
Qed.
Print Assumptions C97_wells_relaxed.

(** ** C95: test functions and net force without regularization *)
Lemma admits_near xs y w : Forall2 admits xs y -> test_field xs y w -> exists d, 0 < d /\ forall x, Rabs x < d -> Forall2 admits xs (shifted y x w).
Proof.
  intros F. revert w. induction F as [|p v xs y A F IH]; intros w [L T].
  - exists 1. split; [lra|]. intros x _. destruct w; [|discriminate]. constructor.
  - destruct w as [|u w]; [discriminate|]. destruct (IH w) as (d & D0 & K). { split; [cbn in L; lia|]. intros i x X. exact (T (S i) x X). }
    assert (H : exists e, 0 < e /\ forall x, Rabs x < e -> admits p (v + x * u)).
    { destruct (T 0%nat p eq_refl) as [Z|(NF & B1 & B2)]; cbn in *.
      - exists 1. split; [lra|]. intros x _. subst u. rewrite Rmult_0_r, Rplus_0_r. exact A.
      - destruct (open_interval v (v_lb p) u B1) as (e1 & E1 & Q1). destruct (open_interval (- v) (- v_ub p) (- u)) as (e2 & E2 & Q2); [lra|]. exists (Rmin e1 e2). split; [apply Rmin_glb_lt; assumption|]. intros x Hx. pose proof (Rmin_l e1 e2). pose proof (Rmin_r e1 e2). specialize (Q1 x ltac:(lra)). specialize (Q2 x ltac:(lra)). unfold admits. rewrite NF. lra. }
    destruct H as (e & E0 & Q). exists (Rmin d e). split; [apply Rmin_glb_lt; assumption|]. intros x Hx. pose proof (Rmin_l d e). pose proof (Rmin_r d e). unfold shifted, lincomb. cbn. constructor; [rewrite Rmult_1_l; apply Q; lra|apply K; lra].
Qed.
Lemma free_plain m y1 y2 w1 w2 : (ms_refined m = None \/ b_edges (g_dirichlet (ms_grid m)) = []) -> mech_feasible m y1 y2 -> test_field (ms_y1 m) y1 w1 -> test_field (ms_y2 m) y2 w2 -> free_along m y1 y2 w1 w2.
Proof.
  intros PL (F1 & F2 & _) T1 T2. destruct (admits_near _ _ _ F1 T1) as (d & D0 & K1). destruct (admits_near _ _ _ F2 T2) as (e & E0 & K2). exists (Rmin d e). split; [apply Rmin_glb_lt; assumption|]. intros x Hx. pose proof (Rmin_l d e). pose proof (Rmin_r d e).
  split; [apply K1; lra|]. split; [apply K2; lra|]. intros NR. destruct PL as [PL|PL]; [congruence|]. intros ed He. rewrite PL in He. destruct He.
Qed.
(** Without regularization a solution satisfies the balance of momentum for all test functions that vanish where it is fixed or at a bound. *)
Theorem C95_test_functions : forall lg m h a b y1 y2 w1 w2, problem_grids (ms_grid m) (ms_refined m) h a b -> mech_history m -> ms_refined m = None -> midpoint_rule lg ->
  mech_minimizes lg m y1 y2 -> test_field (ms_y1 m) y1 w1 -> test_field (ms_y2 m) y2 w2 -> momentum_form lg m y1 y2 w1 w2 = Ok 0.
Proof.
  intros lg m h a b y1 y2 w1 w2 PG HM PL ML MM T1 T2. apply (C95_momentum_balance lg m h a b y1 y2 w1 w2 PG HM (fun _ => ML) MM); [split; [apply T1|apply T2]|]. exact (free_plain m y1 y2 w1 w2 (or_introl PL) (proj1 MM) T1 T2).
Qed.
Print Assumptions C95_test_functions.
Lemma translated y1 y2 x c1 c2 : length y1 = length y2 -> moved None 1 0 (x * c1) (x * c2) y1 y2 (shifted y1 x (repeat c1 (length y1))) (shifted y2 x (repeat c2 (length y2))).
Proof.
  intros L. assert (LR : forall (y : list R) (c : R), length y = length (repeat c (length y))) by (intros; rewrite repeat_length; reflexivity). split; [apply shifted_length, LR|]. split; [apply shifted_length, LR|]. intros v j u1 u2 J E1 E2. cbn [dofs] in *. assert (j = 0%nat) as -> by lia. cbn [Nat.eqb].
  assert (K : forall (y : list R) (c : R) i u, nth_error y i = Some u -> nth_error (shifted y x (repeat c (length y))) i = Some (u + x * c)).
  { intros y c i u E. assert (I : (i < length y)%nat) by (apply nth_error_Some; congruence). assert (I' : (i < length (repeat c (length y)))%nat) by (rewrite repeat_length; exact I). unfold shifted. rewrite (lincomb_nth 1 _ x _ _ _ _ E (nth_error_nth' (repeat c (length y)) c I')). rewrite nth_repeat. f_equal. ring. }
  rewrite (K y1 c1 _ _ E1), (K y2 c2 _ _ E2). split; f_equal; ring.
Qed.
(** A body that is nowhere fixed can only be in equilibrium strictly within the bounds if the tractions add up to zero. *)
Theorem C95_net_force : forall lg m h a b y1 y2, problem_grids (ms_grid m) (ms_refined m) h a b -> mech_history m -> ms_refined m = None -> midpoint_rule lg ->
  mech_minimizes lg m y1 y2 -> floats (ms_y1 m) y1 -> floats (ms_y2 m) y2 ->
  let force d := h * sum_over (mean_of_ends (value_for d)) (b_edges (g_neumann (ms_grid m))) in force (ms_g1 m) = 0 /\ force (ms_g2 m) = 0.
Proof.
  intros lg m h a b y1 y2 PG HM PL ML MM T1 T2 force. destruct (minimizer_length _ _ _ _ MM) as [L1 L2]. pose proof (mech_history_sized m HM) as HS. destruct (proj1 HS) as [P1 P2 Y1 Y2 _]. unfold num_vertices in P1, P2, Y1, Y2. rewrite PL in P1, P2, Y1, Y2. cbn [dofs] in P1, P2, Y1, Y2. rewrite Nat.mul_1_r in P1, P2, Y1, Y2.
  destruct MM as (FY & J0 & EJ & MIN). assert (K : forall c1 c2, c1 * force (ms_g1 m) + c2 * force (ms_g2 m) = 0); [|split; [specialize (K 1 0)|specialize (K 0 1)]; lra].
  intros c1 c2. assert (LL : length y1 = length y2) by lia. destruct (free_plain m y1 y2 (repeat c1 (length y1)) (repeat c2 (length y2)) (or_introl PL) FY) as (d & D0 & FA).
  { split; [rewrite repeat_length; exact L1|]. intros i x X. right. exact (T1 i x X). }
  { split; [rewrite repeat_length; exact L2|]. intros i x X. right. exact (T2 i x X). }
  unfold mech_objective in EJ. apply bind_ok' in EJ as (E & EE & EJ). rewrite PL in EJ. apply bind_ok' in EJ as (D & ED & EJ). apply bind_ok' in EJ as (W & EW & EJ). injection EJ as EJ.
  assert (SH : forall x, mech_objective lg m (shifted y1 x (repeat c1 (length y1))) (shifted y2 x (repeat c2 (length y2))) = Ok (J0 - x * (c1 * force (ms_g1 m) + c2 * force (ms_g2 m)))).
  { intros x. pose proof (translated y1 y2 x c1 c2 LL) as MV. unfold mech_objective. assert (NK1 : length y1 = (length (g_vertices (ms_grid m)) * dofs (ms_refined m))%nat) by (rewrite PL; cbn [dofs]; lia). assert (NK2 : length y2 = (length (g_vertices (ms_grid m)) * dofs (ms_refined m))%nat) by (rewrite PL; cbn [dofs]; lia).
    rewrite (C80_elastic_energy m h a b 1 0 (x * c1) (x * c2) y1 y2 _ _ PG ltac:(ring) NK1 NK2); [|rewrite PL; exact MV]. rewrite EE. cbn [bind]. rewrite PL.
    assert (SELF : moved (ms_refined m) 1 0 0 0 (ms_prev_y1 m) (ms_prev_y2 m) (ms_prev_y1 m) (ms_prev_y2 m)). { split; [reflexivity|]. split; [reflexivity|]. intros v j u1 u2 _ E1 E2. rewrite E1, E2. destruct (Nat.eqb j 0); split; f_equal; ring. }
    rewrite (C80_dissipation m m h a b 1 0 (x * c1) (x * c2) 0 0 y1 y2 _ _ PG HM eq_refl eq_refl ltac:(ring) NK1 NK2 SELF); [|rewrite PL; exact MV]. rewrite ED. cbn [bind].
    pose proof PG as (Hs & Ha & Hb & (so & w & h' & f & Fw & Fh & DG) & _). rewrite (C81_translation so w h' f h a b lg m _ _ y1 y2 _ _ W Hs Fw Fh Ha Hb HM PL DG ML ltac:(lia) ltac:(lia) MV EW). cbn [bind]. apply (f_equal Ok). fold (force (ms_g1 m)). fold (force (ms_g2 m)). rewrite <- EJ. ring. }
  pose proof (MIN _ _ _ (FA (d / 2) ltac:(rewrite Rabs_right; lra)) (SH (d / 2))) as A. pose proof (MIN _ _ _ (FA (- (d / 2)) ltac:(rewrite Rabs_left; lra)) (SH (- (d / 2)))) as B. set (f := c1 * force (ms_g1 m) + c2 * force (ms_g2 m)) in *.
  assert (A' : d / 2 * f <= 0) by lra. assert (B' : 0 <= d / 2 * f) by lra. assert (Z : d / 2 * f = 0) by lra. apply Rmult_integral in Z as [Z|Z]; [lra|exact Z].
Qed.
Print Assumptions C95_net_force.
