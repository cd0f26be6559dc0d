(** * The mechanical step: the balance of momentum in weak form (C95). *)
From Coq Require Import Reals Lra Lia List ZArith.
From Coquelicot Require Import Coquelicot.
From Verif.Spec Require Import GridSpec QuadSpec BellSpec InterpSpec RefineSpec PotentialSpec.
From Verif.Model Require Import Py Num Tensors Domain Refine Quadrature Integrators Expr Bell Interp Helpers Steps Simulation.
From Verif.Spec Require Import SimSpec LiveSpec StepSpec EnergySpec MotionSpec TractionSpec ThermSpec MechSpec MomentumSpec IdealSpec.
From Verif.Proofs Require Import Lib GridP InterpP PotP HatP QuadP IntegP StepP StepU StepE StepF StepG StepH SimP SimH SimL SimA StepC StepD ThermV ThermP LipMin LipMore MechV MechP MechL MechD.
From Verif.Props Require Import GridProps QuadProps IntegProps InterpProps RefineProps MeshIntegProps PotentialProps SimProps EnergyProps EnergyExamples AffineProps TractionProps MechExistProps IdealProps.
Local Open Scope R_scope.
Import ListNotations.

Lemma shifted_zero y w : length y = length w -> shifted y 0 w = y.
Proof. intros L. apply nth_ext with (d := 0) (d' := 0); [apply shifted_length, L|]. intros i _. rewrite shifted_nth by exact L. ring. Qed.
Lemma form_derivative : forall lg m h a b y1 y2 w1 w2 J0, problem_grids (ms_grid m) (ms_refined m) h a b -> msized m -> (ms_refined m = None -> midpoint_rule lg) ->
  length y1 = length (ms_y1 m) -> length y2 = length (ms_y2 m) -> virtual_velocity m w1 w2 -> mech_objective lg m y1 y2 = Ok J0 ->
  exists J D, locally 0 (fun x => mech_objective lg m (shifted y1 x w1) (shifted y2 x w2) = Ok (J x)) /\ momentum_form lg m y1 y2 w1 w2 = Ok D /\ is_derive J 0 D.
Proof.
  intros lg m h a b y1 y2 w1 w2 J0 PG HM HL L1 L2 [M1 M2] EJ. pose proof (problem_good _ _ _ _ _ PG) as GG. destruct (proj1 HM) as [_ _ ML1 ML2 _].
  destruct (energy_rule_good (ms_grid m) (ms_refined m)) as (qe & Ee & Ge & _). destruct (dissipation_rule_mass (ms_refined m)) as (qd & Ed & Gd & _). destruct (grid_integrator _ _ h a b GG qe) as [Ie EIe]. destruct (grid_integrator _ _ h a b GG qd) as [Id EId].
  rewrite ML1 in L1, M1. rewrite ML2 in L2, M2. pose proof (proj1 (positive_iff m h a b PG qe Ge y1 y2 L1 L2) (defined_positive lg m h a b PG HM qe Ee Ge Ie EIe y1 y2 L1 L2 J0 EJ)) as PX.
  eexists _, _. split; [|split].
  - exact (near lg m h a b PG HM HL qe qd Ee Ed Ge Gd Ie Id EIe EId y1 y2 w1 w2 L1 L2 M1 M2 PX).
  - exact (form_value lg m h a b PG HM HL qe qd Ee Ed Ge Gd Ie Id EIe EId y1 y2 w1 w2 L1 L2 M1 M2 PX).
  - exact (value_derive m h a b PG qe qd Ee Ed Ge Gd Ie Id EIe EId y1 y2 w1 w2 L1 L2 M1 M2 PX).
Qed.
(** ** C95 *)
(** The derivative of the objective along [w] is the momentum balance tested with [w]. *)
Theorem C95_derivative : forall lg m h a b y1 y2 w1 w2 J0, problem_grids (ms_grid m) (ms_refined m) h a b -> mech_history m -> (ms_refined m = None -> midpoint_rule lg) ->
  length y1 = length (ms_y1 m) -> length y2 = length (ms_y2 m) -> virtual_velocity m w1 w2 -> mech_objective lg m y1 y2 = Ok J0 ->
  exists J D, locally 0 (fun x => mech_objective lg m (shifted y1 x w1) (shifted y2 x w2) = Ok (J x)) /\ momentum_form lg m y1 y2 w1 w2 = Ok D /\ is_derive J 0 D.
Proof. intros lg m h a b y1 y2 w1 w2 J0 PG HM. exact (form_derivative lg m h a b y1 y2 w1 w2 J0 PG (mech_history_sized m HM)). Qed.
Print Assumptions C95_derivative.
Lemma minimizer_length lg m y1 y2 : mech_minimizes lg m y1 y2 -> length y1 = length (ms_y1 m) /\ length y2 = length (ms_y2 m).
Proof. intros ((F1 & F2 & _) & _). split; symmetry; eapply Forall2_len; eassumption. Qed.
Lemma balance : forall lg m h a b y1 y2 w1 w2, problem_grids (ms_grid m) (ms_refined m) h a b -> msized m -> (ms_refined m = None -> midpoint_rule lg) ->
  mech_minimizes lg m y1 y2 -> virtual_velocity m w1 w2 -> free_along m y1 y2 w1 w2 -> momentum_form lg m y1 y2 w1 w2 = Ok 0.
Proof.
  intros lg m h a b y1 y2 w1 w2 PG HM HL MM VV (d & D0 & FA). destruct (minimizer_length _ _ _ _ MM) as [L1 L2]. destruct MM as (_ & J0 & EJ & MIN).
  destruct (form_derivative lg m h a b y1 y2 w1 w2 J0 PG HM HL L1 L2 VV EJ) as (J & D & [[e E0] NR] & -> & DJ). apply (f_equal Ok).
  assert (Q : forall x, Rabs x < e -> mech_objective lg m (shifted y1 x w1) (shifted y2 x w2) = Ok (J x)). { intros x Hx. apply NR. unfold ball. cbn. unfold AbsRing_ball, abs, minus, plus, opp. cbn. rewrite Ropp_0, Rplus_0_r. exact Hx. }
  assert (E1 : J 0 = J0). { pose proof (Q 0 ltac:(rewrite Rabs_R0; exact E0)) as E. destruct VV as [V1 V2]. rewrite !shifted_zero in E by congruence. congruence. }
  set (r := Rmin d e). assert (R0 : 0 < r) by (apply Rmin_glb_lt; assumption).
  apply is_derive_Reals in DJ. assert (pr : derivable_pt J 0) by (exists D; exact DJ). rewrite <- (deriv_minimum J (- r) r 0 pr); [symmetry; apply derive_pt_eq_0, DJ|lra|lra|].
  intros x X1 X2. assert (AX : Rabs x < r) by (apply Rabs_def1; lra). rewrite E1. assert (RD : r <= d) by apply Rmin_l. assert (RE : r <= e) by apply Rmin_r. apply (MIN (shifted y1 x w1) (shifted y2 x w2)); [apply FA; lra|apply Q; lra].
Qed.
(** A solution satisfies the balance of momentum, tested with every virtual velocity along which it can be moved both ways. *)
Theorem C95_momentum_balance : forall lg m h a b y1 y2 w1 w2, problem_grids (ms_grid m) (ms_refined m) h a b -> mech_history m -> (ms_refined m = None -> midpoint_rule lg) ->
  mech_minimizes lg m y1 y2 -> virtual_velocity m w1 w2 -> free_along m y1 y2 w1 w2 -> momentum_form lg m y1 y2 w1 w2 = Ok 0.
Proof. intros lg m h a b y1 y2 w1 w2 PG HM. exact (balance lg m h a b y1 y2 w1 w2 PG (mech_history_sized m HM)). Qed.
Print Assumptions C95_momentum_balance.

(** ** The admissible deformations are convex *)
Lemma admits_convex xs y z x : 0 <= x <= 1 -> Forall2 admits xs y -> Forall2 admits xs z -> Forall2 admits xs (shifted y x (lincomb 1 z (-1) y)).
Proof.
  intros X FY. revert z. induction FY as [|p v xs y A FY IH]; intros z FZ; inversion FZ as [|p' w xs' z' B FZ']; subst; cbn; constructor; [|apply IH; exact FZ'].
  unfold admits in *. destruct (v_fixed p); [subst; ring|nra].
Qed.
Lemma constraint_convex N y z x e p q j second : length y = length z -> dirichlet_constraint (chunks N 6 y) e p q j second = Ok (Some 0) -> dirichlet_constraint (chunks N 6 z) e p q j second = Ok (Some 0) ->
  dirichlet_constraint (chunks N 6 (shifted y x (lincomb 1 z (-1) y))) e p q j second = Ok (Some 0).
Proof.
  intros L. assert (LZ : length y = length (lincomb 1 z (-1) y)) by (rewrite lincomb_length; congruence).
  assert (ENT : forall i n, (n < 6)%nat -> nth n (slice i 6 (shifted y x (lincomb 1 z (-1) y))) 0 = (1 - x) * nth n (slice i 6 y) 0 + x * nth n (slice i 6 z) 0).
  { intros i n Hn. rewrite !slice_entry by exact Hn. rewrite shifted_nth by exact LZ. assert (E : nth (i + n) (lincomb 1 z (-1) y) 0 = nth (i + n) z 0 - nth (i + n) y 0); [|rewrite E; ring].
    clear LZ Hn. revert z L. generalize (i + n)%nat as k. induction y as [|u y IH]; intros k [|v z] L; try discriminate; destruct k as [|k]; unfold lincomb; cbn; try ring. apply IH. injection L; auto. }
  unfold dirichlet_constraint. rewrite !chunk_py. destruct (fst e <? N)%nat; cbn [bind]; [|discriminate]. destruct (snd e <? N)%nat; cbn [bind]; [|discriminate].
  destruct j as [|[|[|[|[|[|[|j]]]]]]]; cbv zeta; cbn [fst snd]; intros A B; try discriminate; rewrite !ENT by lia; injection A as A; injection B as B; apply (f_equal (fun v => Ok (Some v))).
  all: match type of A with ?l = 0 => match type of B with ?k = 0 => transitivity ((1 - x) * l + x * k); [destruct second; cbn [fst snd]; ring|rewrite A, B; ring] end end.
Qed.
Lemma feasible_convex m y1 y2 z1 z2 x : 0 <= x <= 1 -> mech_feasible m y1 y2 -> mech_feasible m z1 z2 -> mech_feasible m (shifted y1 x (lincomb 1 z1 (-1) y1)) (shifted y2 x (lincomb 1 z2 (-1) y2)).
Proof.
  intros X (A1 & A2 & A3) (B1 & B2 & B3). split; [apply admits_convex; assumption|]. split; [apply admits_convex; assumption|]. intros NR e He pp qq p q E1 E2 E3 j Hj. destruct (A3 NR e He pp qq p q E1 E2 E3 j Hj) as [C1 C2]. destruct (B3 NR e He pp qq p q E1 E2 E3 j Hj) as [D1 D2].
  pose proof (Forall2_len _ _ _ A1). pose proof (Forall2_len _ _ _ A2). pose proof (Forall2_len _ _ _ B1). pose proof (Forall2_len _ _ _ B2). split; apply constraint_convex; congruence.
Qed.
Lemma right_minimum J D d : 0 < d -> is_derive J 0 D -> (forall x, 0 < x < d -> J 0 <= J x) -> 0 <= D.
Proof.
  intros D0 DJ ST. destruct (Rle_dec 0 D) as [LE|NLE]; [exact LE|]. exfalso. apply is_derive_Reals in DJ. destruct (DJ (- D / 2)) as [[e E0] KD]; [lra|]. cbn in KD.
  set (x := Rmin (e / 2) (d / 2)). assert (X : 0 < x <= d / 2) by (split; [apply Rmin_glb_lt; lra|apply Rmin_r]). assert (XD : x < e) by (apply Rle_lt_trans with (e / 2); [apply Rmin_l|lra]).
  specialize (KD x ltac:(lra)). rewrite Rabs_right in KD by lra. specialize (KD XD). rewrite Rplus_0_l in KD. pose proof (ST x ltac:(lra)) as S. apply Rabs_def2 in KD as [KD _].
  assert (Q : 0 <= (J x - J 0) / x) by (apply Rle_mult_inv_pos; lra). lra.
Qed.
Lemma inequality : forall lg m h a b y1 y2 z1 z2, problem_grids (ms_grid m) (ms_refined m) h a b -> msized m -> (ms_refined m = None -> midpoint_rule lg) ->
  mech_minimizes lg m y1 y2 -> mech_feasible m z1 z2 -> exists D, momentum_form lg m y1 y2 (lincomb 1 z1 (-1) y1) (lincomb 1 z2 (-1) y2) = Ok D /\ 0 <= D.
Proof.
  intros lg m h a b y1 y2 z1 z2 PG HM HL MM FZ. destruct (minimizer_length _ _ _ _ MM) as [L1 L2]. destruct MM as (FY & J0 & EJ & MIN). assert (K1 : length z1 = length (ms_y1 m)) by (symmetry; exact (Forall2_len _ _ _ (proj1 FZ))). assert (K2 : length z2 = length (ms_y2 m)) by (symmetry; exact (Forall2_len _ _ _ (proj1 (proj2 FZ)))).
  assert (VV : virtual_velocity m (lincomb 1 z1 (-1) y1) (lincomb 1 z2 (-1) y2)) by (split; rewrite lincomb_length; congruence).
  destruct (form_derivative lg m h a b y1 y2 _ _ J0 PG HM HL L1 L2 VV EJ) as (J & D & [[e E0] NR] & ED & DJ). exists D. split; [exact ED|].
  assert (Q : forall x, Rabs x < e -> mech_objective lg m (shifted y1 x (lincomb 1 z1 (-1) y1)) (shifted y2 x (lincomb 1 z2 (-1) y2)) = Ok (J x)). { intros x Hx. apply NR. unfold ball. cbn. unfold AbsRing_ball, abs, minus, plus, opp. cbn. rewrite Ropp_0, Rplus_0_r. exact Hx. }
  assert (E1 : J 0 = J0). { pose proof (Q 0 ltac:(rewrite Rabs_R0; exact E0)) as E. destruct VV as [V1 V2]. rewrite !shifted_zero in E by congruence. congruence. }
  apply (right_minimum J D (Rmin 1 e)); [apply Rmin_glb_lt; lra|exact DJ|]. intros x X. pose proof (Rmin_l 1 e). pose proof (Rmin_r 1 e). rewrite E1. apply (MIN _ _ _ (feasible_convex m y1 y2 z1 z2 x ltac:(lra) FY FZ)). apply Q. rewrite Rabs_right; lra.
Qed.
(** A solution satisfies the variational inequality: towards every other admissible deformation the tested balance is nonnegative. *)
Theorem C95_variational_inequality : forall lg m h a b y1 y2 z1 z2, problem_grids (ms_grid m) (ms_refined m) h a b -> mech_history m -> (ms_refined m = None -> midpoint_rule lg) ->
  mech_minimizes lg m y1 y2 -> mech_feasible m z1 z2 -> exists D, momentum_form lg m y1 y2 (lincomb 1 z1 (-1) y1) (lincomb 1 z2 (-1) y2) = Ok D /\ 0 <= D.
Proof. intros lg m h a b y1 y2 z1 z2 PG HM. exact (inequality lg m h a b y1 y2 z1 z2 PG (mech_history_sized m HM)). Qed.
Print Assumptions C95_variational_inequality.

(** ** In simulations *)
(** In simulations with an exact solver the recorded deformations satisfy the variational inequality and, in all free directions, the
    balance of momentum. *)
Theorem C95_simulation : forall u lg s k a b, undisturbed u s -> exact lg (se_solver u) -> (p_regularization (se_params u) = None -> midpoint_rule lg) -> fine_enough u ->
  p_scale (se_params u) <= se_width u -> p_scale (se_params u) <= se_height u -> nth_error (s_steps s) k = Some a -> nth_error (s_steps s) (S k) = Some b ->
  exists m, let m' := fst (mech_solve (sv_mech (se_solver u) (2 * k) m) m) in let y1 := map v_val (ms_y1 m') in let y2 := map v_val (ms_y2 m') in
    mech_problem_from u s a (INR k / p_fps (se_params u)) m /\ mech_y m' = st_y_data b /\ mech_feasible m y1 y2 /\
    (forall z1 z2, mech_feasible m z1 z2 -> exists D, momentum_form lg m y1 y2 (lincomb 1 z1 (-1) y1) (lincomb 1 z2 (-1) y2) = Ok D /\ 0 <= D) /\
    (forall w1 w2, virtual_velocity m w1 w2 -> free_along m y1 y2 w1 w2 -> momentum_form lg m y1 y2 w1 w2 = Ok 0).
Proof.
  intros u lg s k a b H EX HL FE Hw Hh Ha Hb. destruct (exact_steps u lg HL EX FE Hw Hh s (undisturbed_reachable u s H)) as [AA AC].
  destruct (sim_mechanical u lg HL FE Hw Hh s k a b AA AC H Ha Hb) as (m & mc & nc & J & MP & MY & PG & MS & ML & _ & _ & MF & MO). exists m. cbv zeta.
  destruct (solution_exists lg m _ _ _ _ _ J PG MS ML MF MO) as (z1 & z2 & MM). destruct EX as (_ & _ & EM & _). pose proof (EM (2 * k)%nat m z1 z2 MM) as M'. cbv zeta in M'.
  split; [exact MP|]. split; [symmetry; exact MY|]. split; [exact (proj1 M')|]. split.
  - intros v1 v2 FV. exact (inequality lg m _ mc nc _ _ v1 v2 PG MS ML M' FV).
  - intros w1 w2 VV FA. exact (balance lg m _ mc nc _ _ w1 w2 PG MS ML M' VV FA).
Qed.
Print Assumptions C95_simulation.
(** Energy-dissipation inequality of these simulations. *)
Theorem C96_energy_dissipation : forall u lg s k a b, undisturbed u s -> exact lg (se_solver u) -> (p_regularization (se_params u) = None -> midpoint_rule lg) -> fine_enough u ->
  p_scale (se_params u) <= se_width u -> p_scale (se_params u) <= se_height u -> nth_error (s_steps s) k = Some a -> nth_error (s_steps s) (S k) = Some b ->
  exists m E E' D, let m' := fst (mech_solve (sv_mech (se_solver u) (2 * k) m) m) in
    mech_problem_from u s a (INR k / p_fps (se_params u)) m /\ mech_y m' = st_y_data b /\
    before mech_elastic_energy m = Ok E /\ after mech_elastic_energy m m' = Ok E' /\ after mech_dissipation m m' = Ok D /\ 0 <= D /\
    (ms_refined m = None -> exists W W', before (mech_traction_energy lg) m = Ok W /\ after (mech_traction_energy lg) m m' = Ok W' /\ E' - W' + p_fps (se_params u) * D <= E - W) /\
    (ms_refined m <> None -> exists H H', before mech_hyper_elastic_energy m = Ok H /\ after mech_hyper_elastic_energy m m' = Ok H' /\ E' + ms_reg m * H' + p_fps (se_params u) * D <= E + ms_reg m * H).
Proof.
  intros u lg s k a b H EX HL FE Hw Hh Ha Hb. destruct (exact_steps u lg HL EX FE Hw Hh s (undisturbed_reachable u s H)) as [AA AC].
  destruct (sim_mechanical u lg HL FE Hw Hh s k a b AA AC H Ha Hb) as (m & mc & nc & J & MP & MY & PG & MS & ML & _ & _ & MF & MO).
  destruct (solution_exists lg m _ _ _ _ _ J PG MS ML MF MO) as (z1 & z2 & MM). destruct EX as (_ & _ & EM & _). pose proof (EM (2 * k)%nat m z1 z2 MM) as M'. cbv zeta in M'. destruct M' as (_ & J' & EJ' & MIN). pose proof (MIN _ _ _ MF MO) as LE. destruct (mp_constants _ _ _ _ _ MP) as (_ & FP & _).
  destruct (objective_parts lg m _ _ J MO) as (E & D & EE & ED & _ & K & L). destruct (objective_parts lg m _ _ J' EJ') as (E' & D' & EE' & ED' & DN & K' & L'). exists m, E, E', D'. cbv zeta.
  split; [exact MP|]. split; [symmetry; exact MY|]. split; [exact EE|]. split; [exact EE'|]. split; [exact ED'|]. split; [exact DN|]. pose proof (mech_dissipation_rest m D ED) as D0. split.
  - intros PL. destruct (K PL) as (W & EW & ->). destruct (K' PL) as (W' & EW' & ->). exists W, W'. split; [exact EW|]. split; [exact EW'|]. rewrite D0, FP in LE. lra.
  - intros NR. destruct (L NR) as (G & EG & ->). destruct (L' NR) as (G' & EG' & ->). exists G, G'. split; [exact EG|]. split; [exact EG'|]. rewrite D0, FP in LE. lra.
Qed.
Print Assumptions C96_energy_dissipation.
