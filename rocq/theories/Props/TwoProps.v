(** * C85: two minimizers of one thermal step. *)
From Coq Require Import Reals Lra Lia List ZArith String.
From Coquelicot Require Import Coquelicot.
From Verif.Spec Require Import GridSpec QuadSpec BellSpec InterpSpec RefineSpec PotentialSpec.
From Verif.Model Require Import Py Num Tensors Domain Refine Quadrature Integrators Expr Bell Interp Helpers Steps Simulation.
From Verif.Spec Require Import SimSpec LiveSpec StepSpec EnergySpec MotionSpec TractionSpec ThermSpec.
From Verif.Proofs Require Import Lib Lattice MeshLat MeshP GridP StdOrder InterpP PotP StepP StepD SimP SimQ SimR SimH SimL SimA SimE SimF SimC HatP QuadP IntegP StepU StepE StepF StepG StepH ThermV ThermP ThermQ TwoMin.
From Verif.Props Require Import GridProps QuadProps IntegProps InterpProps RefineProps MeshIntegProps PotentialProps SimProps UpdateProps EnergyProps TractionProps AffineProps EnergyExamples ThermProps HeatProps BalanceProps ExistProps HeatExamples.
Local Open Scope R_scope.
Import ListNotations.
Local Notation length := List.length.


(** A body at rest, compressed to [x] times its size, at temperature 1 everywhere: staying at 1 and cooling down to 0 both minimize
    the objective (with regularization), over all admissible temperatures. *)
Theorem C85_unique_refuted : exists t q x theta0 theta1, 1/2 < x < 1 /\ therm_history t /\ thermal_problem lg0 t (1/2) 2 2 /\ ts_refined t <> None /\ therm_rule t = Ok q /\ orientation_kept t q /\
  stretched t x x 1 /\ theta1 = ts_prev_theta t /\ constant 1 theta1 /\ constant 0 theta0 /\ minimizes lg0 t theta1 /\ minimizes lg0 t theta0 /\ theta0 <> theta1.
Proof.
  destruct diag_exists as (x & X & DX). set (F := PotentialSpec.st x 0 0 x) in *.
  destruct (stretched_step (Some 1) (or_intror eq_refl) x x 1 ltac:(lra)) as (t & TH & TP & RR & ST). destruct (therm_rule_good t) as (q & Eq & GQ & PQ & _).
  pose proof (st_kept t _ _ _ TP ST q Eq ltac:(lra) ltac:(lra)) as PJ. pose proof (sat_st t _ _ _ TP ST q Eq) as SS. fold F in SS. pose proof ST as ST'.
  destruct ST as (P1 & P2 & Y1 & Y2 & C & YY & EX & FP & VA). assert (NR : ts_refined t <> None) by (intros E; apply RR in E; discriminate).
  assert (LL : length (ts_prev_theta t) = length (ts_theta t)) by (rewrite VA, map_length; reflexivity).
  assert (BO : forall i v w, nth_error (ts_theta t) i = Some v -> nth_error (ts_prev_theta t) i = Some w -> v_lb v = w - 1 /\ v_ub v = w + 1).
  { intros i v w V W. rewrite VA, nth_error_map, W in V. injection V as <-. cbn. split; reflexivity. }
  pose proof (sized_len t (proj1 TP)) as TL. pose proof (tl_pt _ TL) as LT0. pose proof (problem_good _ _ _ _ _ (proj1 (proj2 TP))) as GG. destruct (therm_integ t _ _ _ GG q Eq) as (I & _ & EI).
  assert (BD : forall z, bd t (1/2) z = 0) by (intros z; unfold bd; destruct (opt_case (ts_refined t)) as [[r Hr]|Hr]; [rewrite Hr; reflexivity|contradiction]).
  assert (DG : forall th tr p, In tr (g_triangles (theta_grid (ts_grid t) (ts_refined t))) -> In p (q_points q) -> non_negative_values th -> psi F F 1 1 <= dens t th tr p).
  { intros th tr p Ht Hp N. destruct (SS tr p Ht Hp) as [S0 S1]. destruct (vat_const t _ _ _ GG q GQ _ _ tr p Ht LT0 C Hp) as [V3 _]. unfold dens. rewrite S0, S1, V3, FP, source_rest.
    pose proof (psi_min F DX (vat th tr p) (vat_nonneg q PQ th tr p N Hp)). assert (D : 0 < det2 F) by (unfold det2, F; cbn; nra). destruct (qf_pos F (fst (gat t th tr p)) (snd (gat t th tr p)) D). lra. }
  assert (DV : forall z c, length z = length (g_vertices (theta_grid (ts_grid t) (ts_refined t))) -> constant c z -> forall tr p, In tr (g_triangles (theta_grid (ts_grid t) (ts_refined t))) -> In p (q_points q) -> dens t z tr p = psi F F 1 c).
  { intros z c Lz Cz tr p Ht Hp. destruct (SS tr p Ht Hp) as [S0 S1]. destruct (vat_const t _ _ _ GG q GQ z c tr p Ht Lz Cz Hp) as [V1 V2]. destruct (vat_const t _ _ _ GG q GQ _ _ tr p Ht LT0 C Hp) as [V3 _]. unfold dens. rewrite S0, S1, V1, V2, V3, FP, source_rest. cbn [fst snd]. unfold qf. ring. }
  assert (MI : forall c z, (c = 0 \/ c = 1) -> length z = length (g_vertices (theta_grid (ts_grid t) (ts_refined t))) -> constant c z -> minimizes lg0 t z).
  { intros c z Hc Lz Cz. destruct (obj_defined lg0 t _ _ _ TP q Eq z PJ Lz) as [J EJ]. split.
    - split; [rewrite <- LL, LT0; exact Lz|]. split; [intros v Hv; rewrite (Cz v Hv); lra|]. intros i v w V W. assert (W0 : exists w0, nth_error (ts_prev_theta t) i = Some w0). { destruct (nth_error (ts_prev_theta t) i) eqn:E; [eauto|]. apply nth_error_None in E. assert (i < length (ts_theta t))%nat by (apply nth_error_Some; congruence). lia. }
      destruct W0 as [w0 W0]. destruct (BO i v w0 V W0) as [-> ->]. rewrite (C w0 (nth_error_In _ _ W0)), (Cz w (nth_error_In _ _ W)). lra.
    - exists J. split; [exact EJ|]. intros th' J' FE EJ'. pose proof (feasible_len lg0 t _ _ _ TP th' FE) as L'. pose proof (proj1 (proj2 FE)) as N'.
      rewrite (obj_value lg0 t _ _ _ (proj1 (proj2 TP)) TL (proj2 (proj2 (proj2 TP))) q Eq GQ PJ _ I Lz EI) in EJ. rewrite (obj_value lg0 t _ _ _ (proj1 (proj2 TP)) TL (proj2 (proj2 (proj2 TP))) q Eq GQ PJ _ I L' EI) in EJ'. injection EJ as <-. injection EJ' as <-. rewrite !BD.
      destruct (WSum_le t _ _ _ GG q GQ PQ I (dens t z) (dens t th') EI) as [W1 _]; [|lra]. intros tr p Ht Hp. rewrite (DV z c Lz Cz tr p Ht Hp). replace (psi F F 1 c) with (psi F F 1 1); [exact (DG th' tr p Ht Hp N')|]. destruct Hc as [-> | ->]; [symmetry; apply psi01, DX|reflexivity]. }
  set (z := repeat 0 (length (g_vertices (theta_grid (ts_grid t) (ts_refined t))))). assert (CZ : constant 0 z) by exact (fun w Hw => repeat_spec _ _ _ Hw).
  exists t, q, x, z, (ts_prev_theta t). split; [exact X|]. split; [exact TH|]. split; [exact TP|]. split; [exact NR|]. split; [exact Eq|]. split; [exact PJ|]. split; [exact ST'|]. split; [reflexivity|]. split; [exact C|]. split; [exact CZ|].
  split; [exact (MI 1 _ (or_intror eq_refl) LT0 C)|]. split; [exact (MI 0 z (or_introl eq_refl) (repeat_length _ _) CZ)|].
  intros E. assert (NV : (0 < length (g_vertices (theta_grid (ts_grid t) (ts_refined t))))%nat).
  { destruct (fine t _ _ _ GG) as (s' & m & n & Hs & Hm & Hn & M). destruct (mesh_points _ _ _ _ M 0 0 ltac:(lia) ltac:(lia)) as (v & [V _] & _). destruct (g_vertices (theta_grid (ts_grid t) (ts_refined t))); [destruct V|cbn; lia]. }
  assert (PL : (0 < length (ts_prev_theta t))%nat) by (rewrite LT0; exact NV). clear - PL E CZ C. destruct (ts_prev_theta t) as [|w ws]; [cbn in PL; lia|]. assert (H : In w z) by (rewrite E; left; reflexivity). pose proof (C w (or_introl eq_refl)). rewrite (CZ w H) in H0. lra.
Qed.
Print Assumptions C85_unique_refuted.
