(** * The thermal step: existence of a solution (C88). *)
From Coq Require Import Reals Lra Lia List ZArith.
From Coquelicot Require Import Coquelicot.
From Verif.Spec Require Import GridSpec QuadSpec BellSpec InterpSpec RefineSpec PotentialSpec.
From Verif.Model Require Import Py Num Tensors Domain Refine Quadrature Integrators Expr Bell Interp Helpers Steps Simulation.
From Verif.Spec Require Import SimSpec LiveSpec StepSpec EnergySpec MotionSpec TractionSpec ThermSpec.
From Verif.Proofs Require Import Lib InterpP PotP StepP StepD SimP HatP QuadP IntegP StepU StepE StepF StepG StepH ThermV ThermP ThermQ LipMin.
From Verif.Props Require Import GridProps QuadProps IntegProps InterpProps RefineProps MeshIntegProps PotentialProps AffineProps ThermProps HeatProps BalanceProps.
Local Open Scope R_scope.
Import ListNotations.

Definition range_of (v : pvar) : R * R := (Rmax 0 (v_lb v), v_ub v).
Lemma feasible_box s th : feasible s th <-> inbox (map range_of (ts_theta s)) th.
Proof.
  unfold feasible, non_negative_values. generalize (ts_theta s) as vs. intros vs. revert th. induction vs as [|v vs IH]; intros th.
  - split; [intros ([=] & _)|]; [destruct th; [constructor|discriminate]|]. intros H. inversion H. split; [reflexivity|]. split; [intros x []|]. intros [|i]; discriminate.
  - cbn [map]. split.
    + intros (L & N & B). destruct th as [|x th]; [discriminate|]. injection L as L. constructor.
      * cbn. pose proof (N x (or_introl eq_refl)). destruct (B 0%nat v x eq_refl eq_refl). split; [apply Rmax_lub; assumption|assumption].
      * apply IH. split; [exact L|]. split; [intros y Hy; apply N; right; exact Hy|]. intros i. exact (B (S i)).
    + intros H. inversion H as [|? x ? th' C H']; subst. apply IH in H' as (L & N & B). cbn in C. pose proof (Rmax_l 0 (v_lb v)). pose proof (Rmax_r 0 (v_lb v)). split; [cbn; congruence|]. split; [intros y [<- |Hy]; [lra|apply N, Hy]|].
      intros [|i] z w Z W; [injection Z as <-; injection W as <-; lra|exact (B i z w Z W)].
Qed.

Section E.
Context (lg : Z -> res (list R * list R)) (s : therm) (h : R) (a b : nat) (TP : thermal_problem lg s h a b) (q : rule R) (Eq : therm_rule s = Ok q).
Let GG : good_grids (ts_grid s) (ts_refined s) h a b := problem_good _ _ _ _ _ (proj1 (proj2 TP)).
Let bs := map range_of (ts_theta s).
Context (x0 : list R) (H0 : inbox bs x0).
Lemma box_len x : inbox bs x -> temperatures_of s x.
Proof. intros H. apply feasible_box in H as (L & _). unfold temperatures_of. rewrite L. exact (tl_th _ (sized_len s (proj1 TP))). Qed.
Lemma lips_ws {A} (ps : list A) ws (f : list R -> A -> R) : (forall p, In p ps -> lips bs (fun x => f x p)) -> lips bs (fun x => weighted_sum ps ws (f x)).
Proof.
  revert ws. induction ps as [|p ps IH]; intros [|w ws] H; try exact (lips_const bs 0). cbn [weighted_sum]. apply lips_plus; [apply lips_scal, H; left; reflexivity|]. apply IH. intros p' Hp'. apply H. right. exact Hp'.
Qed.
Lemma lips_sum {A} (ps : list A) (f : list R -> A -> R) : (forall p, In p ps -> lips bs (fun x => f x p)) -> lips bs (fun x => sum_over (f x) ps).
Proof.
  induction ps as [|p ps IH]; intros H; [exact (lips_const bs 0)|]. cbn [sum_over]. apply lips_plus; [apply H; left; reflexivity|]. apply IH. intros p' Hp'. apply H. right. exact Hp'.
Qed.
Lemma lips_obj I : lips bs (fun x => WSum s q I (dens s x) + bd s h x).
Proof.
  apply lips_plus.
  - unfold WSum. apply (lips_ws _ _ (fun x t => weighted_sum (q_points q) (q_weights q) (dens s x t))). intros t Ht. apply (lips_ws _ _ (fun x p => dens s x t p)). intros p _.
    destruct (temp_ok s h a b GG t p Ht) as (c1 & c2 & c3 & d1 & d2 & d3 & K). 
    assert (LV : lips bs (fun x => vat x t p)). { destruct t as [[i j] k]. unfold vat. repeat apply lips_plus; apply lips_scal, lips_nth. }
    assert (LG : lips bs (fun x => fst (gat s x t p)) /\ lips bs (fun x => snd (gat s x t p))).
    { destruct t as [[i j] k]. destruct K as (_ & _ & _ & K & _). split.
      - apply (lips_ext bs _ (fun x => c1 * nth i x 0 + c2 * nth j x 0 + c3 * nth k x 0)); [intros x Hx; apply (K x (box_len x Hx))|]. repeat apply lips_plus; apply lips_scal, lips_nth.
      - apply (lips_ext bs _ (fun x => d1 * nth i x 0 + d2 * nth j x 0 + d3 * nth k x 0)); [intros x Hx; apply (K x (box_len x Hx))|]. repeat apply lips_plus; apply lips_scal, lips_nth. }
    destruct LG as [L1 L2]. unfold dens. apply lips_plus.
    + apply lips_minus; [|apply lips_scal, LV]. unfold qf. apply lips_plus; (apply (lips_mult bs _ _ x0 H0); [assumption|]); apply lips_plus; apply lips_scal; assumption.
    + apply lips_scal. set (F0 := sat s _ _ t p). set (F := sat s (ts_y1 s) _ t p). set (v0 := vat (ts_prev_theta s) t p). apply (lips_comp bs _ (psi F0 F v0) (fun z => U F z - U F0 v0) x0 H0); [intros z; apply psi_derive| |exact LV].
      intros z. apply continuity_pt_minus; [|apply continuity_pt_const; intros ? ?; reflexivity]. apply derivable_continuous_pt. exists (cap F z). apply is_derive_Reals, U_derive.
  - unfold bd. destruct (opt_case (ts_refined s)) as [[r Hr]|Hr]; rewrite !Hr; [apply lips_const|]. apply lips_scal, (lips_sum _ (fun x e => 1/4 * (mean_of_ends (at_vertex x) e - ts_ext s) ^ 2)). intros e _. apply lips_scal.
    assert (LM : lips bs (fun x => mean_of_ends (at_vertex x) e - ts_ext s)).
    { apply lips_minus; [|apply lips_const]. unfold mean_of_ends, at_vertex. apply (lips_ext bs _ (fun x => / 2 * (nth (fst e) x 0 + nth (snd e) x 0))); [intros; field|]. apply lips_scal, lips_plus; apply lips_nth. }
    apply (lips_ext bs _ (fun x => (mean_of_ends (at_vertex x) e - ts_ext s) * (mean_of_ends (at_vertex x) e - ts_ext s))); [intros; ring|]. apply (lips_square bs _ x0 H0), LM.
Qed.
End E.

(** ** C88 *)
(** If both deformations keep the orientation and some temperature is admissible, the thermal problem has a solution. *)
Theorem C88_solution_exists : forall lg s h a b q, thermal_problem lg s h a b -> therm_rule s = Ok q -> orientation_kept s q -> (exists theta, feasible s theta) -> exists theta, minimizes lg s theta.
Proof.
  intros lg s h a b q TP Eq PJ [x0 H0]. apply feasible_box in H0. pose proof (problem_good _ _ _ _ _ (proj1 (proj2 TP))) as GG. destruct (therm_integ s h a b GG q Eq) as (I & _ & EI). pose proof (proj1 (rule_of s q Eq)) as GQ.
  assert (V : forall x, inbox (map range_of (ts_theta s)) x -> therm_objective lg s x = Ok (WSum s q I (dens s x) + bd s h x)).
  { intros x Hx. apply (obj_value lg s h a b (proj1 (proj2 TP)) (sized_len s (proj1 TP)) (proj2 (proj2 (proj2 TP))) q Eq GQ PJ x I); [exact (box_len lg s h a b TP x Hx)|exact EI]. }
  destruct (lips_obj lg s h a b TP q x0 H0 I) as (K & _ & LK). destruct (lip_min (map range_of (ts_theta s)) (fun x => WSum s q I (dens s x) + bd s h x) K) with (2 := LK) as (x & Hx & Mx).
  { intros r Hr. clear - H0 Hr. induction H0 as [|r' v bs x B H IH]; [destruct Hr|]. destruct Hr as [<- |Hr]; [lra|exact (IH Hr)]. }
  exists x. split; [apply feasible_box, Hx|]. eexists. split; [apply V, Hx|]. intros y J' FY EJ. apply feasible_box in FY. rewrite (V y FY) in EJ. injection EJ as <-. apply Mx, FY.
Qed.
Print Assumptions C88_solution_exists.
(** Exactly one solution, if martensite exceeds austenite by at most 2e at the points of the rule. *)
Theorem C85_well_posed_partial : forall lg s h a b q, thermal_problem lg s h a b -> therm_rule s = Ok q -> orientation_kept s q -> moderate_martensite s q (2 * exp 1) -> (exists theta, feasible s theta) ->
  exists! theta, minimizes lg s theta.
Proof.
  intros lg s h a b q TP Eq PJ MM FE. destruct (C88_solution_exists lg s h a b q TP Eq PJ FE) as [x Mx]. exists x. split; [exact Mx|]. intros y My. exact (C85_unique_partial lg s h a b q x y TP Eq MM Mx My).
Qed.
Print Assumptions C85_well_posed_partial.
(** In simulations whose solver does not leave the domain of the objective, every thermal problem has a solution. *)
Theorem C88_simulation : forall u lg s k a b, undisturbed u s -> cautious lg (se_solver u) -> (p_regularization (se_params u) = None -> midpoint_rule lg) -> fine_enough u ->
  p_scale (se_params u) <= se_width u -> p_scale (se_params u) <= se_height u -> 0 < p_fps (se_params u) -> 0 <= p_search_radius (se_params u) ->
  nth_error (s_steps s) k = Some a -> nth_error (s_steps s) (S k) = Some b ->
  exists t, therm_problem_from u s a (st_y_data b) (INR k / p_fps (se_params u)) t /\ st_theta_data b = therm_theta (fst (therm_solve (sv_therm (se_solver u) (2 * k + 1) t) t)) /\
    feasible t (ts_prev_theta t) /\ exists theta, minimizes lg t theta.
Proof.
  intros u lg s k a b H CA HL FE Hw Hh FP RP Ha Hb. destruct (sim_thermal u lg HL FE Hw Hh FP s k a b CA H Ha Hb) as (t & mc & nc & q & A & B & C & D & E & NN). exists t. split; [exact A|]. split; [exact B|].
  assert (F : feasible t (ts_prev_theta t)); [|split; [exact F|apply (C88_solution_exists lg t _ mc nc q C D E); eauto]].
  pose proof (sized_len t (proj1 C)) as TL. assert (LL : length (ts_prev_theta t) = length (ts_theta t)) by (rewrite (tl_pt _ TL), (tl_th _ TL); reflexivity). split; [exact LL|]. split.
  - exact NN.
  - intros i x v X V. destruct (tp_box _ _ _ _ _ _ A x v) as [-> ->]; [|lra]. clear - X V. revert i X V. generalize (ts_prev_theta t) as vs, (ts_theta t) as xs. intros vs xs. revert vs. induction xs as [|z xs IH]; intros [|w vs] [|i] X V; try discriminate; cbn in *; [left; congruence|right; exact (IH vs i X V)].
Qed.
Print Assumptions C88_simulation.
