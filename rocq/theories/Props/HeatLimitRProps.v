(** * Consistency of the regularized thermal objective: C117. *)
From Coq Require Import Reals Lra Lia List Psatz String ZArith.
From Coquelicot Require Import Coquelicot.
From Verif.Spec Require Import GridSpec QuadSpec BellSpec InterpSpec RefineSpec PotentialSpec ConvSpec TaylorSpec ConsistSpec ConsistRSpec.
From Verif.Model Require Import Py Num Tensors Domain Refine Quadrature Integrators Bell Interp Helpers Steps Simulation.
From Verif.Spec Require Import SimSpec StepSpec EnergySpec MotionSpec ThermSpec TractionSpec WorkSpec HeatLimitSpec HeatLimitRSpec.
From Verif.Proofs Require Import Lib GridP GridCover StepE PotP MechV MechP ThermV ConvP ConvQ TameP PerturbP ConsistP ThermQ SideP TameHeat StdOrder.
From Verif.Props Require Import GridProps RefineProps IntegProps InterpProps AffineProps ConvProps ConvBellProps ConsistProps ConsistRProps WorkProps HeatLimitProps.
Local Open Scope R_scope.
Import ListNotations.
Local Notation length := List.length.

Section Body.
Context (th : therm) (r : refined_grid R) (s : R) (a b N : nat) (k d : R) (Hk : 0 <= k) (Hd : 0 < d) (RG : regularized_heat th r s a b N) (Hss : s <= Rmin 1 d / (960 * (k + 1) ^ 2)) (Hsf : s / INR N <= fine k d).
Let w := INR a * s. Let h := INR b * s. Let s' := s / INR N.
Context (u1 u2 v1 v2 : R -> R -> R) (theta0 : R * R -> R) (q : heat) (p : list R).
Context (RU1 : smooth_field (rectangle w h) k u1) (RU2 : smooth_field (rectangle w h) k u2) (RV1 : smooth_field (rectangle w h) k v1) (RV2 : smooth_field (rectangle w h) k v2).
Context (L0 : lipschitz_on (rectangle w h) k theta0) (B0 : between_on (rectangle w h) k theta0) (RQ : regular_heat (rectangle w h) k q).
Context (DU : forall x, rectangle w h x -> d <= det2 (gradient_of (motion_of u1 u2) x)) (DV : forall x, rectangle w h x -> d <= det2 (gradient_of (motion_of v1 v2) x)).
Context (U1 : jet_nodal (ts_grid th) u1 (ts_prev_y1 th)) (U2 : jet_nodal (ts_grid th) u2 (ts_prev_y2 th)) (V1 : jet_nodal (ts_grid th) v1 (ts_y1 th)) (V2 : jet_nodal (ts_grid th) v2 (ts_y2 th)) (T0 : nodal (r_grid r) theta0 (ts_prev_theta th)) (TQ : nodal (r_grid r) (temp q) p).
Lemma rheat_parts : 0 < s /\ (1 <= a)%nat /\ (1 <= b)%nat /\ mesh (ts_grid th) s a b /\ (1 <= N)%nat /\ / 10 ^ 15 <= s / INR N /\ refine (ts_grid th) (Z.of_nat N) = Ok r /\
  mesh (r_grid r) s' (a * N) (b * N) /\ 0 < s' /\ INR (a * N) * s' = w /\ INR (b * N) * s' = h /\ (1 <= a * N)%nat /\ (1 <= b * N)%nat.
Proof.
  destruct RG as (_ & PG & HN & He & Rf). destruct (problem_good _ _ _ _ _ PG) as (Hs & Ha & Hb & M & _). destruct (fine_facts _ s a b N r Hs Ha Hb M HN He Rf) as (M' & _ & H1 & H2 & H3). repeat (split; [assumption|]). split; nia.
Qed.
Lemma rbody_point t x0 c z l x : triangle_at (r_grid r) t x0 c z -> bary_of x0 c z l x -> non_negative l -> exists y,
  deform_strain (comp_interp (ts_grid th) (Some r) (ts_prev_y1 th)) (comp_interp (ts_grid th) (Some r) (ts_prev_y2 th)) t l = Ok (mat (sF0 y)) /\
  deform_strain (comp_interp (ts_grid th) (Some r) (ts_y1 th)) (comp_interp (ts_grid th) (Some r) (ts_y2 th)) t l = Ok (mat (sF y)) /\
  i_call (temp_interp (ts_grid th) (Some r) (ts_prev_theta th)) t l = Ok (sT0 y) /\ i_call (temp_interp (ts_grid th) (Some r) p) t l = Ok (sT y) /\ i_gradient (temp_interp (ts_grid th) (Some r) p) t l = Ok [sX y; sY y] /\
  spot_set (k + 1) (d / 2) y /\ gapS y (spot_at (motion_of u1 u2) (motion_of v1 v2) theta0 q x) <= 960 * k * s ^ 4 + 6 * k * s'.
Proof.
  intros T B Nn. destruct rheat_parts as (Hs & Ha & Hb & M & HN & He & Rf & M' & Hs' & EA & EB & Ha' & Hb'). destruct (step_small k d s' Hk Hd Hs' Hsf) as (S1 & S2 & S3). destruct (ConsistRProps.fine_enough k d s Hk Hd Hss) as [S4 SF]. destruct (pow_small s 3 ltac:(lra)) as [Q0 Q1].
  destruct (mesh_corners _ s' _ _ t x0 c z Hs' M' T) as (Dp & Dc & Dr). pose proof (rectangle_convex _ _ _ _ _ _ _ Dp Dc Dr B Nn) as Dx. rewrite EA, EB in Dx.
  destruct (refined_strain _ s a b N r Hs Ha Hb M HN He Rf k u1 u2 _ _ t x0 c z l x RU1 RU2 U1 U2 T B Nn) as (F0 & E0 & N0). destruct (refined_strain _ s a b N r Hs Ha Hb M HN He Rf k v1 v2 _ _ t x0 c z l x RV1 RV2 V1 V2 T B Nn) as (F & E1 & N1).
  pose proof L0 as L0'. pose proof B0 as B0'. pose proof RQ as RQ'. rewrite <- EA, <- EB in L0', B0', RQ'.
  destruct (plain_heat0 _ s' _ _ Hs' M' k Hk theta0 _ t x0 c z l x L0' B0' T0 T B Nn) as (t0 & ET0 & R0 & G0). destruct (plain_heat _ s' _ _ Hs' M' k Hk q p t x0 c z l x RQ' TQ T B Nn S1) as (t1 & gx & gy & ET & EG & R1 & G1 & GX & GY).
  assert (e0 : 0 <= 3 / 2 * k * s') by (apply Rmult_le_pos; lra). assert (k0 : 0 <= k * s') by (apply Rmult_le_pos; lra).
  assert (k4 : 0 <= 120 * k * s ^ 4) by (apply Rmult_le_pos; lra). assert (k5 : 120 * k * s ^ 4 <= 3 / 2 * k * (80 * s)) by (replace (3 / 2 * k * (80 * s)) with (120 * k * s) by field; apply Rmult_le_compat_l; lra).
  pose proof (smooth_bounded _ _ _ _ _ RU1 RU2 Dx) as BU. pose proof (smooth_bounded _ _ _ _ _ RV1 RV2 Dx) as BV.
  destruct (det_keeps k d (80 * s) _ F0 _ Hk Hd ltac:(lra) (conj k4 k5) BU (DU x Dx) N0) as [BF0 DF0]. destruct (det_keeps k d (80 * s) _ F _ Hk Hd ltac:(lra) (conj k4 k5) BV (DV x Dx) N1) as [BF DF].
  exists {| sF0 := F0; sF := F; sT0 := t0; sT := t1; sX := gx; sY := gy |}. cbn [sF0 sF sT0 sT sX sY]. repeat (split; [assumption|]).
  destruct (spot_close k d (120 * k * s ^ 4) (3 / 2 * k * s') F0 F t0 t1 gx gy (motion_of u1 u2) (motion_of v1 v2) theta0 q x Hk ltac:(lra) BF0 BF DF0 DF N0 N1 R0 G0 R1 ltac:(lra) GX GY (proj2 (proj2 (proj2 (proj1 RQ))) x Dx)) as [A1 A2]. split; [exact A1|]. lra.
Qed.
Lemma rwh0 : 0 <= w /\ 0 <= h.
Proof. destruct rheat_parts as (Hs & _). split; apply Rmult_le_pos; try apply pos_INR; lra. Qed.
Lemma rspot_all x : rectangle w h x -> spot_set (k + 1) (d / 2) (spot_at (motion_of u1 u2) (motion_of v1 v2) theta0 q x).
Proof. exact (spot_inside _ k d _ _ theta0 q x Hk Hd (fun x => smooth_bounded _ _ _ _ x RU1 RU2) (fun x => smooth_bounded _ _ _ _ x RV1 RV2) B0 RQ DU DV). Qed.
Lemma rspot_lip x y : rectangle w h x -> rectangle w h y -> gapS (spot_at (motion_of u1 u2) (motion_of v1 v2) theta0 q x) (spot_at (motion_of u1 u2) (motion_of v1 v2) theta0 q y) <= (11 * k + k * (3 + w + h)) * dist x y.
Proof.
  destruct rwh0 as [W0 H0]. apply spot_gap; try assumption; [intros; apply (smooth_gap _ _ _ _ _ _ RU1 RU2); assumption|intros; apply (smooth_gap _ _ _ _ _ _ RV1 RV2); assumption|apply heat_lipschitz; assumption|apply RQ|apply RQ].
Qed.
End Body.
Lemma error_shape L k c s4 s' W : 0 <= L -> 0 <= k -> 0 <= c -> 0 <= s4 -> 0 <= s' -> 0 <= W -> L * (3 * c * s' + 17 / 8 * (960 * k * s4 + 6 * k * s')) * W <= L * (3 * c + 2040 * k) * W * (s4 + s').
Proof.
  intros HL Hk Hc H4 H' HW. replace (L * (3 * c + 2040 * k) * W * (s4 + s')) with (L * ((3 * c + 2040 * k) * (s4 + s')) * W) by ring. apply Rmult_le_compat_r; [exact HW|]. apply Rmult_le_compat_l; [exact HL|].
  pose proof (Rmult_le_pos _ _ Hc H4). pose proof (Rmult_le_pos _ _ Hk H'). lra.
Qed.

(** ** C117 *)
(** Regularized problem: deformations interpolated with polynomials of degree five on cells of side [s], temperatures on its refinement with cells of side [s / N]. *)
Theorem C117_heat_energy : forall w h k d, 0 <= k -> 0 < d -> exists C, forall th r s a b N u1 u2 v1 v2 theta0 q p,
  s <= Rmin 1 d / (960 * (k + 1) ^ 2) -> regularized_heat th r s a b N -> INR a * s = w -> INR b * s = h -> 0 <= ts_fps th ->
  smooth_field (rectangle w h) k u1 -> smooth_field (rectangle w h) k u2 -> smooth_field (rectangle w h) k v1 -> smooth_field (rectangle w h) k v2 ->
  (forall x, rectangle w h x -> d <= det2 (gradient_of (motion_of u1 u2) x)) -> (forall x, rectangle w h x -> d <= det2 (gradient_of (motion_of v1 v2) x)) ->
  lipschitz_on (rectangle w h) k theta0 -> between_on (rectangle w h) k theta0 -> regular_heat (rectangle w h) k q ->
  jet_nodal (ts_grid th) u1 (ts_prev_y1 th) -> jet_nodal (ts_grid th) u2 (ts_prev_y2 th) -> jet_nodal (ts_grid th) v1 (ts_y1 th) -> jet_nodal (ts_grid th) v2 (ts_y2 th) ->
  nodal (r_grid r) theta0 (ts_prev_theta th) -> nodal (r_grid r) (temp q) p ->
  let J := heat_energy w h (ts_fps th) (motion_of u1 u2) (motion_of v1 v2) theta0 q in
  exists E, therm_energy th p = Ok E /\ Rabs (E - J) <= C * (1 + ts_fps th) ^ 2 * (s ^ 4 + s / INR N) + 1 / 10 ^ 14 * Rabs J.
Proof.
  intros w h k d Hk Hd. destruct (heat_lip (k + 1) (d / 2) ltac:(lra)) as (L & LP & HL). exists (L * (3 * (11 * k + k * (3 + w + h)) + 2040 * k) * (w * h)).
  intros th r s a b N u1 u2 v1 v2 theta0 q p Hss RG Ew Eh Hf RU1 RU2 RV1 RV2 DU DV L0 B0 RQ U1 U2 V1 V2 T0 TQ J. destruct (rheat_parts th r s a b N RG) as (Hs & Ha & Hb & M & HN & He & Rf & M' & Hs' & EA & EB & Ha' & Hb'). pose proof RG as (NR & _).
  subst w h. destruct (ConsistRProps.fine_enough k d s Hk Hd Hss) as [S1 SF]. destruct (pow_small s 3 ltac:(lra)) as [Q0 Q1].
  assert (N1 : 1 <= INR N) by (change 1 with (INR 1); apply le_INR; lia). assert (Hsf : s / INR N <= fine k d).
  { apply Rle_trans with s; [|lra]. apply (Rmult_le_reg_r (INR N)); [lra|]. unfold Rdiv. rewrite Rmult_assoc, Rinv_l, Rmult_1_r by lra. nra. }
  destruct (rwh0 th r s a b N RG) as [W0 H0].
  unfold therm_energy, therm_integrator. rewrite NR. cbn [theta_grid]. destruct dunavant5 as (z & EQ & IQ). rewrite EQ. cbn [bind].
  destruct (integrator_exists _ _ _ _ z M') as [I HI]. rewrite HI. cbn [bind]. set (s' := s / INR N) in *.
  assert (LF : 0 <= L * (1 + ts_fps th) ^ 2) by (apply Rmult_le_pos; [exact LP|apply pow_le; lra]).
  assert (e0 : 0 <= 960 * k * s ^ 4 + 6 * k * s') by (apply Rplus_le_le_0_compat; apply Rmult_le_pos; lra).
  destruct (density_rounded gapS (spot_set (k + 1) (d / 2)) (fun y => value (energy_potential (ts_fps th) (mat (sF0 y)) (mat (sF y)) (sT0 y) (sT y) [sX y; sY y])) (L * (1 + ts_fps th) ^ 2) (11 * k + k * (3 + INR a * s + INR b * s)) (960 * k * s ^ 4 + 6 * k * s') LF e0 (spot_at (motion_of u1 u2) (motion_of v1 v2) theta0 q)
    (fun x y Hx Hy => HL (ts_fps th) x y Hf Hx Hy) (r_grid r) s' (a * N) (b * N) Hs' Ha' Hb' M' z I HI) with
    (F := fun t l => let* F0 := deform_strain (comp_interp (ts_grid th) (Some r) (ts_prev_y1 th)) (comp_interp (ts_grid th) (Some r) (ts_prev_y2 th)) t l in
      let* F := deform_strain (comp_interp (ts_grid th) (Some r) (ts_y1 th)) (comp_interp (ts_grid th) (Some r) (ts_y2 th)) t l in
      let* th0 := i_call (temp_interp (ts_grid th) (Some r) (ts_prev_theta th)) t l in let* th1 := i_call (temp_interp (ts_grid th) (Some r) p) t l in let* gr := i_gradient (temp_interp (ts_grid th) (Some r) p) t l in
      energy_potential (ts_fps th) F0 F th0 th1 gr) as (E & EE & BE).
  - intros x Hx. rewrite EA, EB in Hx. exact (rspot_all s a b k d Hk Hd u1 u2 v1 v2 theta0 q RU1 RU2 RV1 RV2 B0 RQ DU DV x Hx).
  - intros x y Hx Hy. rewrite EA, EB in Hx, Hy. exact (rspot_lip th r s a b N k Hk RG u1 u2 v1 v2 theta0 q RU1 RU2 RV1 RV2 L0 RQ x y Hx Hy).
  - intros t x0 c y0 l x T Bx Nn. destruct (rbody_point th r s a b N k d Hk Hd RG Hss Hsf u1 u2 v1 v2 theta0 q p RU1 RU2 RV1 RV2 L0 B0 RQ DU DV U1 U2 V1 V2 T0 TQ t x0 c y0 l x T Bx Nn) as (y & E0 & E1 & E2 & E3 & E4 & KY & GY).
    exists y. split; [exact KY|]. split; [|exact GY]. rewrite E0. cbn [bind]. rewrite E1. cbn [bind]. rewrite E2. cbn [bind]. rewrite E3. cbn [bind]. rewrite E4. cbn [bind]. rewrite energy_value by (destruct KY as (_ & (KD & _) & _); lra). reflexivity.
  - exact IQ.
  - exists E. split; [exact EE|]. rewrite EA, EB in BE. unfold J, heat_energy. cbn [spot_at sF0 sF sT0 sT sX sY] in BE. eapply Rle_trans; [exact BE|]. apply Rplus_le_compat_r.
    assert (c0 : 0 <= 11 * k + k * (3 + INR a * s + INR b * s)) by (assert (0 <= k * (3 + INR a * s + INR b * s)) by (apply Rmult_le_pos; lra); lra).
    eapply Rle_trans; [apply error_shape; [exact LF|exact Hk|exact c0|exact Q0|lra|apply Rmult_le_pos; assumption]|right; ring].
Qed.
Print Assumptions C117_heat_energy.
Theorem C117_heat_storage : forall w h k d, 0 <= k -> 0 < d -> exists C, forall th r s a b N u1 u2 v1 v2 theta0 q p,
  s <= Rmin 1 d / (960 * (k + 1) ^ 2) -> regularized_heat th r s a b N -> INR a * s = w -> INR b * s = h ->
  smooth_field (rectangle w h) k u1 -> smooth_field (rectangle w h) k u2 -> smooth_field (rectangle w h) k v1 -> smooth_field (rectangle w h) k v2 ->
  (forall x, rectangle w h x -> d <= det2 (gradient_of (motion_of u1 u2) x)) -> (forall x, rectangle w h x -> d <= det2 (gradient_of (motion_of v1 v2) x)) ->
  lipschitz_on (rectangle w h) k theta0 -> between_on (rectangle w h) k theta0 -> regular_heat (rectangle w h) k q ->
  jet_nodal (ts_grid th) u1 (ts_prev_y1 th) -> jet_nodal (ts_grid th) u2 (ts_prev_y2 th) -> jet_nodal (ts_grid th) v1 (ts_y1 th) -> jet_nodal (ts_grid th) v2 (ts_y2 th) ->
  nodal (r_grid r) theta0 (ts_prev_theta th) -> nodal (r_grid r) (temp q) p ->
  let J := heat_storage w h (motion_of u1 u2) (motion_of v1 v2) theta0 q in
  exists E, therm_dissipation th p = Ok E /\ Rabs (E - J) <= C * (s ^ 4 + s / INR N) + 1 / 10 ^ 14 * Rabs J.
Proof.
  intros w h k d Hk Hd. destruct (storage_lip (k + 1) (d / 2) ltac:(lra)) as (L & LP & HL). exists (L * (3 * (11 * k + k * (3 + w + h)) + 2040 * k) * (w * h)).
  intros th r s a b N u1 u2 v1 v2 theta0 q p Hss RG Ew Eh RU1 RU2 RV1 RV2 DU DV L0 B0 RQ U1 U2 V1 V2 T0 TQ J. destruct (rheat_parts th r s a b N RG) as (Hs & Ha & Hb & M & HN & He & Rf & M' & Hs' & EA & EB & Ha' & Hb'). pose proof RG as (NR & _).
  subst w h. destruct (ConsistRProps.fine_enough k d s Hk Hd Hss) as [S1 SF]. destruct (pow_small s 3 ltac:(lra)) as [Q0 Q1].
  assert (N1 : 1 <= INR N) by (change 1 with (INR 1); apply le_INR; lia). assert (Hsf : s / INR N <= fine k d).
  { apply Rle_trans with s; [|lra]. apply (Rmult_le_reg_r (INR N)); [lra|]. unfold Rdiv. rewrite Rmult_assoc, Rinv_l, Rmult_1_r by lra. nra. }
  destruct (rwh0 th r s a b N RG) as [W0 H0].
  unfold therm_dissipation, therm_integrator. rewrite NR. cbn [theta_grid]. destruct dunavant5 as (z & EQ & IQ). rewrite EQ. cbn [bind].
  destruct (integrator_exists _ _ _ _ z M') as [I HI]. rewrite HI. cbn [bind]. set (s' := s / INR N) in *.
  assert (e0 : 0 <= 960 * k * s ^ 4 + 6 * k * s') by (apply Rplus_le_le_0_compat; apply Rmult_le_pos; lra).
  destruct (density_rounded gapS (spot_set (k + 1) (d / 2)) (fun y => value (thermal_dissipation_potential (mat (sF0 y)) (mat (sF y)) (sT0 y) (sT y))) L (11 * k + k * (3 + INR a * s + INR b * s)) (960 * k * s ^ 4 + 6 * k * s') LP e0 (spot_at (motion_of u1 u2) (motion_of v1 v2) theta0 q)
    HL (r_grid r) s' (a * N) (b * N) Hs' Ha' Hb' M' z I HI) with
    (F := fun t l => let* F0 := deform_strain (comp_interp (ts_grid th) (Some r) (ts_prev_y1 th)) (comp_interp (ts_grid th) (Some r) (ts_prev_y2 th)) t l in
      let* F := deform_strain (comp_interp (ts_grid th) (Some r) (ts_y1 th)) (comp_interp (ts_grid th) (Some r) (ts_y2 th)) t l in
      let* th0 := i_call (temp_interp (ts_grid th) (Some r) (ts_prev_theta th)) t l in let* th1 := i_call (temp_interp (ts_grid th) (Some r) p) t l in
      thermal_dissipation_potential F0 F th0 th1) as (E & EE & BE).
  - intros x Hx. rewrite EA, EB in Hx. exact (rspot_all s a b k d Hk Hd u1 u2 v1 v2 theta0 q RU1 RU2 RV1 RV2 B0 RQ DU DV x Hx).
  - intros x y Hx Hy. rewrite EA, EB in Hx, Hy. exact (rspot_lip th r s a b N k Hk RG u1 u2 v1 v2 theta0 q RU1 RU2 RV1 RV2 L0 RQ x y Hx Hy).
  - intros t x0 c y0 l x T Bx Nn. destruct (rbody_point th r s a b N k d Hk Hd RG Hss Hsf u1 u2 v1 v2 theta0 q p RU1 RU2 RV1 RV2 L0 B0 RQ DU DV U1 U2 V1 V2 T0 TQ t x0 c y0 l x T Bx Nn) as (y & E0 & E1 & E2 & E3 & E4 & KY & GY).
    exists y. split; [exact KY|]. split; [|exact GY]. rewrite E0. cbn [bind]. rewrite E1. cbn [bind]. rewrite E2. cbn [bind]. rewrite E3. cbn [bind]. rewrite psi_value by (destruct KY as (_ & (KD & KD') & _); lra). reflexivity.
  - exact IQ.
  - exists E. split; [exact EE|]. rewrite EA, EB in BE. unfold J, heat_storage. cbn [spot_at sF0 sF sT0 sT sX sY] in BE. eapply Rle_trans; [exact BE|]. apply Rplus_le_compat_r.
    assert (c0 : 0 <= 11 * k + k * (3 + INR a * s + INR b * s)) by (assert (0 <= k * (3 + INR a * s + INR b * s)) by (apply Rmult_le_pos; lra); lra).
    eapply Rle_trans; [apply error_shape; [exact LP|exact Hk|exact c0|exact Q0|lra|apply Rmult_le_pos; assumption]|right; ring].
Qed.
Print Assumptions C117_heat_storage.
(** The objective of a regularized thermal problem. *)
Theorem C117_thermal_objective : forall w h k d, 0 <= k -> 0 < d -> exists C, forall th lg r s a b N u1 u2 v1 v2 theta0 q p,
  s <= Rmin 1 d / (960 * (k + 1) ^ 2) -> regularized_heat th r s a b N -> INR a * s = w -> INR b * s = h -> 0 <= ts_fps th ->
  smooth_field (rectangle w h) k u1 -> smooth_field (rectangle w h) k u2 -> smooth_field (rectangle w h) k v1 -> smooth_field (rectangle w h) k v2 ->
  (forall x, rectangle w h x -> d <= det2 (gradient_of (motion_of u1 u2) x)) -> (forall x, rectangle w h x -> d <= det2 (gradient_of (motion_of v1 v2) x)) ->
  lipschitz_on (rectangle w h) k theta0 -> between_on (rectangle w h) k theta0 -> regular_heat (rectangle w h) k q ->
  jet_nodal (ts_grid th) u1 (ts_prev_y1 th) -> jet_nodal (ts_grid th) u2 (ts_prev_y2 th) -> jet_nodal (ts_grid th) v1 (ts_y1 th) -> jet_nodal (ts_grid th) v2 (ts_y2 th) ->
  nodal (r_grid r) theta0 (ts_prev_theta th) -> nodal (r_grid r) (temp q) p ->
  let E0 := heat_energy w h (ts_fps th) (motion_of u1 u2) (motion_of v1 v2) theta0 q in
  let D0 := heat_storage w h (motion_of u1 u2) (motion_of v1 v2) theta0 q in
  exists J, therm_objective lg th p = Ok J /\ Rabs (J - (E0 + ts_fps th * D0)) <= C * (1 + ts_fps th) ^ 2 * (s ^ 4 + s / INR N) + 1 / 10 ^ 14 * (Rabs E0 + ts_fps th * Rabs D0).
Proof.
  intros w h k d Hk Hd. destruct (C117_heat_energy w h k d Hk Hd) as (CE & HE). destruct (C117_heat_storage w h k d Hk Hd) as (CD & HD). exists (Rmax 0 CE + Rmax 0 CD).
  intros th lg r s a b N u1 u2 v1 v2 theta0 q p Hss RG Ew Eh Hf RU1 RU2 RV1 RV2 DU DV L0 B0 RQ U1 U2 V1 V2 T0 TQ E0 D0.
  destruct (HE th r s a b N u1 u2 v1 v2 theta0 q p Hss RG Ew Eh Hf RU1 RU2 RV1 RV2 DU DV L0 B0 RQ U1 U2 V1 V2 T0 TQ) as (E & EE & BE). destruct (HD th r s a b N u1 u2 v1 v2 theta0 q p Hss RG Ew Eh RU1 RU2 RV1 RV2 DU DV L0 B0 RQ U1 U2 V1 V2 T0 TQ) as (D & ED & BD). fold E0 in BE. fold D0 in BD.
  destruct (rheat_parts th r s a b N RG) as (Hs & _ & _ & _ & _ & _ & _ & _ & Hs' & _). pose proof RG as (NR & _).
  exists (E + 0 + ts_fps th * D). split; [unfold therm_objective; rewrite EE, ED; unfold therm_boundary; rewrite NR; reflexivity|].
  clearbody E0 D0. assert (Z0 : 0 <= s ^ 4 + s / INR N) by (apply Rplus_le_le_0_compat; [apply pow_le; lra|lra]). set (z := s ^ 4 + s / INR N) in *. set (fps := ts_fps th) in *. clearbody z fps. clear - BE BD Hf Z0.
  replace (E + 0 + fps * D - (E0 + fps * D0)) with ((E - E0) + fps * (D - D0)) by ring. eapply Rle_trans; [apply Rabs_triang|]. rewrite Rabs_mult, (Rabs_right fps) by lra.
  pose proof (Rmult_le_compat_l _ _ _ Hf BD) as BD'. assert (Zc : forall c, 0 <= Rmax 0 c * z) by (intros; apply Rmult_le_pos; [apply Rmax_l|exact Z0]).
  assert (A1 : CE * (1 + fps) ^ 2 * z <= Rmax 0 CE * z * (1 + 2 * fps + fps * fps)).
  { replace (CE * (1 + fps) ^ 2 * z) with (CE * (z * (1 + 2 * fps + fps * fps))) by ring. rewrite Rmult_assoc. apply Rmult_le_compat_r; [apply Rmult_le_pos; [exact Z0|pose proof (Rmult_le_pos _ _ Hf Hf); lra]|apply Rmax_r]. }
  assert (A2 : fps * (CD * z) <= fps * (Rmax 0 CD * z)) by (apply Rmult_le_compat_l; [exact Hf|apply Rmult_le_compat_r; [exact Z0|apply Rmax_r]]).
  replace ((Rmax 0 CE + Rmax 0 CD) * (1 + fps) ^ 2 * z) with ((Rmax 0 CE * z + Rmax 0 CD * z) * (1 + 2 * fps + fps * fps)) by ring. pose proof (Zc CE) as Z1. pose proof (Zc CD) as Z2. set (z1 := Rmax 0 CE * z) in *. set (z2 := Rmax 0 CD * z) in *. clearbody z1 z2.
  pose proof (Rmult_le_pos _ _ Hf Z2). pose proof (Rmult_le_pos _ _ (Rmult_le_pos _ _ Hf Hf) Z2). lra.
Qed.
Print Assumptions C117_thermal_objective.
