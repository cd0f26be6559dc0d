(** * Consistency of the thermal objective: C116. *)
From Coq Require Import Reals Lra Lia List Psatz String ZArith.
From Coquelicot Require Import Coquelicot.
From Verif.Spec Require Import GridSpec QuadSpec BellSpec InterpSpec RefineSpec PotentialSpec ConvSpec ConsistSpec.
From Verif.Model Require Import Py Num Tensors Domain Refine Quadrature Integrators Bell Interp Helpers Steps Simulation.
From Verif.Spec Require Import SimSpec StepSpec EnergySpec MotionSpec ThermSpec TractionSpec WorkSpec HeatLimitSpec.
From Verif.Proofs Require Import Lib GridP GridCover StepE PotP MechV MechP ThermV ConvP ConvQ TameP PerturbP ConsistP ThermQ SideP TameHeat StdOrder.
From Verif.Props Require Import GridProps RefineProps IntegProps InterpProps AffineProps ConvProps ConsistProps WorkProps.
Local Open Scope R_scope.
Import ListNotations.
Local Notation length := List.length.

Section Point.
Context (g : grid R) (s : R) (a b : nat) (Hs : 0 < s) (M : mesh g s a b) (k : R) (Hk : 0 <= k).
Let D := rectangle (INR a * s) (INR b * s).
(** A temperature with bounded derivatives: value and gradient of its interpolation. *)
Lemma plain_heat q th t p c r l x : regular_heat D k q -> nodal g (temp q) th -> triangle_at g t p c r -> bary_of p c r l x -> non_negative l -> s <= 1 ->
  exists v gx gy, i_call (temp_interp g None th) t l = Ok v /\ i_gradient (temp_interp g None th) t l = Ok [gx; gy] /\ 0 <= v <= k /\
    Rabs (v - temp q x) <= k * s /\ Rabs (gx - temp_x q x) <= 3 / 2 * k * s /\ Rabs (gy - temp_y q x) <= 3 / 2 * k * s.
Proof.
  intros [(C & _) PB] [LL SS] T B N S1. assert (P : P1Interpolation_ g th = Ok (P1I g th)) by (unfold P1Interpolation_; rewrite LL, Nat.eqb_refl; reflexivity).
  destruct (C108_smooth_functions g s a b th _ _ _ _ k t p c r l x Hs M P SS C T B N) as (v & gx & gy & E & EG & V & X & Y). exists v, gx, gy. split; [exact E|]. split; [exact EG|]. split; [|split; [|split; assumption]].
  - destruct (P1_sampled g th _ t p c r l (temp q) P SS T) as [E' _]. pose proof (eq_trans (eq_sym E) E') as Q. injection Q as ->. destruct (mesh_corners g s a b t p c r Hs M T) as (Dp & Dq & Dr). pose proof (PB _ Dp) as [A1 A2]. pose proof (PB _ Dq) as [A3 A4]. pose proof (PB _ Dr) as [A5 A6].
    destruct B as [SB _]. destruct N as (N1 & N2 & N3). destruct l as [[l1 l2] l3]. cbn in SB, N1, N2, N3 |- *.
    assert (SB' : l1 + l2 + l3 = 1) by exact SB. pose proof (Rmult_le_pos _ _ N1 A1). pose proof (Rmult_le_pos _ _ N2 A3). pose proof (Rmult_le_pos _ _ N3 A5). pose proof (Rmult_le_compat_l _ _ _ N1 A2). pose proof (Rmult_le_compat_l _ _ _ N2 A4). pose proof (Rmult_le_compat_l _ _ _ N3 A6).
    assert (KS : l1 * k + l2 * k + l3 * k = k) by (rewrite <- !Rmult_plus_distr_r, SB'; ring). lra.
  - eapply Rle_trans; [exact V|]. assert (K1 : k * (s * s) <= k * s) by (apply Rmult_le_compat_l; [exact Hk|]; nra). assert (0 <= k * s) by (apply Rmult_le_pos; lra). lra.
Qed.
(** A temperature that varies in proportion to the distance. *)
Lemma plain_heat0 theta th t p c r l x : lipschitz_on D k theta -> between_on D k theta -> nodal g theta th -> triangle_at g t p c r -> bary_of p c r l x -> non_negative l ->
  exists v, i_call (temp_interp g None th) t l = Ok v /\ 0 <= v <= k /\ Rabs (v - theta x) <= 3 / 2 * k * s.
Proof.
  intros LT PB NT T B N. destruct (plain_temp g s a b Hs M k Hk theta th t p c r l x (conj LT (fun x Hx => proj1 (PB x Hx))) NT T B N) as (v & E & V & V0). exists v. split; [exact E|]. split; [|exact V]. split; [exact V0|].
  destruct NT as [LL SS]. assert (P : P1Interpolation_ g th = Ok (P1I g th)) by (unfold P1Interpolation_; rewrite LL, Nat.eqb_refl; reflexivity).
  destruct (P1_sampled g th _ t p c r l theta P SS T) as [E' _]. pose proof (eq_trans (eq_sym E) E') as Q. injection Q as ->. destruct (mesh_corners g s a b t p c r Hs M T) as (Dp & Dq & Dr). pose proof (PB _ Dp) as [A1 A2]. pose proof (PB _ Dq) as [A3 A4]. pose proof (PB _ Dr) as [A5 A6].
  destruct B as [SB _]. destruct N as (N1 & N2 & N3). destruct l as [[l1 l2] l3]. cbn in SB, N1, N2, N3 |- *.
  assert (SB' : l1 + l2 + l3 = 1) by exact SB. pose proof (Rmult_le_compat_l _ _ _ N1 A2). pose proof (Rmult_le_compat_l _ _ _ N2 A4). pose proof (Rmult_le_compat_l _ _ _ N3 A6).
  assert (KS : l1 * k + l2 * k + l3 * k = k) by (rewrite <- !Rmult_plus_distr_r, SB'; ring). lra.
Qed.
End Point.

(** The exact data at a point, and data near them. *)
Definition spot_at (u v : motion) (theta0 : R * R -> R) (q : heat) (x : R * R) : spot :=
  {| sF0 := gradient_of u x; sF := gradient_of v x; sT0 := theta0 x; sT := temp q x; sX := temp_x q x; sY := temp_y q x |}.
Lemma spot_inside (D : R * R -> Prop) k d u v theta0 q x : 0 <= k -> 0 < d -> (forall x, D x -> bounded k (gradient_of u x)) -> (forall x, D x -> bounded k (gradient_of v x)) -> between_on D k theta0 -> regular_heat D k q ->
  (forall x, D x -> d <= det2 (gradient_of u x)) -> (forall x, D x -> d <= det2 (gradient_of v x)) -> D x -> spot_set (k + 1) (d / 2) (spot_at u v theta0 q x).
Proof.
  intros Hk Hd RU RV B0 [(_ & _ & _ & BQ) B1] DU DV Hx. unfold spot_set, spot_at. cbn [sF0 sF sT0 sT sX sY]. destruct (RU x Hx) as (A1 & A2 & A3 & A4). destruct (RV x Hx) as (A5 & A6 & A7 & A8). specialize (B0 x Hx). specialize (B1 x Hx). destruct (BQ x Hx). specialize (DU x Hx). specialize (DV x Hx).
  repeat split; lra.
Qed.
Lemma spot_gap (D : R * R -> Prop) k u v theta0 q kt x y : (forall x y, D x -> D y -> gapF (gradient_of u x) (gradient_of u y) <= 4 * k * dist x y) -> (forall x y, D x -> D y -> gapF (gradient_of v x) (gradient_of v y) <= 4 * k * dist x y) ->
  lipschitz_on D k theta0 -> lipschitz_on D kt (temp q) -> lipschitz_on D k (temp_x q) -> lipschitz_on D k (temp_y q) -> D x -> D y ->
  gapS (spot_at u v theta0 q x) (spot_at u v theta0 q y) <= (11 * k + kt) * dist x y.
Proof.
  intros RU RV L0 L1 L2 L3 Hx Hy. unfold gapS, spot_at. cbn [sF0 sF sT0 sT sX sY]. specialize (RU x y Hx Hy). specialize (RV x y Hx Hy). specialize (L0 x y Hx Hy). specialize (L1 x y Hx Hy). specialize (L2 x y Hx Hy). specialize (L3 x y Hx Hy). lra.
Qed.
Lemma spot_close k d e e' F0 F t0 t1 gx gy u v theta0 q x : 0 <= k -> 0 <= e' <= 1 -> bounded (k + 1) F0 -> bounded (k + 1) F -> d / 2 <= det2 F0 -> d / 2 <= det2 F -> near e F0 (gradient_of u x) -> near e F (gradient_of v x) ->
  0 <= t0 <= k -> Rabs (t0 - theta0 x) <= e' -> 0 <= t1 <= k -> Rabs (t1 - temp q x) <= e' -> Rabs (gx - temp_x q x) <= e' -> Rabs (gy - temp_y q x) <= e' -> Rabs (temp_x q x) <= k /\ Rabs (temp_y q x) <= k ->
  let p := {| sF0 := F0; sF := F; sT0 := t0; sT := t1; sX := gx; sY := gy |} in
  spot_set (k + 1) (d / 2) p /\ gapS p (spot_at u v theta0 q x) <= 8 * e + 4 * e'.
Proof.
  intros Hk He B0 B1 D0 D1 N0 N1 T0 E0 T1 E1 EX EY [BX BY] p. pose proof (abs_near _ _ _ _ BX EX). pose proof (abs_near _ _ _ _ BY EY). split.
  - unfold spot_set, p. cbn [sF0 sF sT0 sT sX sY]. split; [split; assumption|]. split; [split; assumption|]. repeat split; lra.
  - unfold gapS, p, spot_at. cbn [sF0 sF sT0 sT sX sY]. pose proof (near_gap _ _ _ N0). pose proof (near_gap _ _ _ N1). lra.
Qed.
Lemma heat_lipschitz w h k q : 0 <= k -> 0 <= w -> 0 <= h -> regular_heat (rectangle w h) k q -> lipschitz_on (rectangle w h) (k * (3 + w + h)) (temp q).
Proof. intros Hk Hw Hh [RQ _]. exact (regular_lipschitz w h k _ _ _ Hk Hw Hh RQ). Qed.
Lemma step_small k d s : 0 <= k -> 0 < d -> 0 < s -> s <= fine k d -> s <= 1 /\ 3 / 2 * k * s <= 1 /\ k * s <= 1.
Proof.
  intros Hk Hd Hs H. destruct (fine_ok k d s (3 / 2 * k * s) Hk Hd ltac:(lra)) as [E1 _]; [split; [apply Rmult_le_pos; lra|lra]|]. assert (0 <= k * s) by (apply Rmult_le_pos; lra). split; [|lra].
  eapply Rle_trans; [exact H|]. unfold fine. assert (Q : 1 <= (k + 1) * (k + 1)) by nra. apply (Rmult_le_reg_r (12 * ((k + 1) * (k + 1)))); [lra|]. unfold Rdiv. rewrite Rmult_assoc, Rinv_l, Rmult_1_r by lra. pose proof (Rmin_l 1 d). lra.
Qed.
Section Body.
Context (th : therm) (s : R) (a b : nat) (k d : R) (Hk : 0 <= k) (Hd : 0 < d) (PG : problem_grids (ts_grid th) None s a b) (NR : ts_refined th = None) (Hss : s <= fine k d).
Let w := INR a * s. Let h := INR b * s.
Context (u v : motion) (theta0 : R * R -> R) (q : heat) (p : list R).
Context (RU : regular_motion (rectangle w h) k u) (RV : regular_motion (rectangle w h) k v) (L0 : lipschitz_on (rectangle w h) k theta0) (B0 : between_on (rectangle w h) k theta0) (RQ : regular_heat (rectangle w h) k q).
Context (DU : forall x, rectangle w h x -> d <= det2 (gradient_of u x)) (DV : forall x, rectangle w h x -> d <= det2 (gradient_of v x)).
Context (U1 : nodal (ts_grid th) (m1 u) (ts_prev_y1 th)) (U2 : nodal (ts_grid th) (m2 u) (ts_prev_y2 th)) (V1 : nodal (ts_grid th) (m1 v) (ts_y1 th)) (V2 : nodal (ts_grid th) (m2 v) (ts_y2 th)) (T0 : nodal (ts_grid th) theta0 (ts_prev_theta th)) (TQ : nodal (ts_grid th) (temp q) p).
Lemma body_point t x0 c r l x : triangle_at (ts_grid th) t x0 c r -> bary_of x0 c r l x -> non_negative l -> exists y,
  deform_strain (comp_interp (ts_grid th) None (ts_prev_y1 th)) (comp_interp (ts_grid th) None (ts_prev_y2 th)) t l = Ok (mat (sF0 y)) /\
  deform_strain (comp_interp (ts_grid th) None (ts_y1 th)) (comp_interp (ts_grid th) None (ts_y2 th)) t l = Ok (mat (sF y)) /\
  i_call (temp_interp (ts_grid th) None (ts_prev_theta th)) t l = Ok (sT0 y) /\ i_call (temp_interp (ts_grid th) None p) t l = Ok (sT y) /\ i_gradient (temp_interp (ts_grid th) None p) t l = Ok [sX y; sY y] /\
  spot_set (k + 1) (d / 2) y /\ gapS y (spot_at u v theta0 q x) <= 12 * (3 / 2 * k * s).
Proof.
  intros T B N. destruct (problem_good _ _ _ _ _ PG) as (Hs & Ha & Hb & M & _). destruct (step_small k d s Hk Hd Hs Hss) as (S1 & S2 & S3).
  destruct (mesh_corners _ s a b t x0 c r Hs M T) as (Dp & Dc & Dr). pose proof (rectangle_convex _ _ _ _ _ _ _ Dp Dc Dr B N) as Dx.
  destruct (plain_strain _ s a b Hs M k u _ _ t x0 c r l x RU U1 U2 T B N) as (F0 & E0 & N0). destruct (plain_strain _ s a b Hs M k v _ _ t x0 c r l x RV V1 V2 T B N) as (F & E1 & N1).
  destruct (plain_heat0 _ s a b Hs M k Hk theta0 _ t x0 c r l x L0 B0 T0 T B N) as (t0 & ET0 & R0 & G0). destruct (plain_heat _ s a b Hs M k Hk q p t x0 c r l x RQ TQ T B N S1) as (t1 & gx & gy & ET & EG & R1 & G1 & GX & GY).
  assert (e0 : 0 <= 3 / 2 * k * s) by (apply Rmult_le_pos; lra). assert (k0 : 0 <= k * s) by (apply Rmult_le_pos; lra).
  destruct (det_keeps k d s _ F0 _ Hk Hd (conj (Rlt_le _ _ Hs) Hss) (conj e0 (Rle_refl _)) (regular_bounded _ _ _ _ RU Dx) (DU x Dx) N0) as [BF0 DF0].
  destruct (det_keeps k d s _ F _ Hk Hd (conj (Rlt_le _ _ Hs) Hss) (conj e0 (Rle_refl _)) (regular_bounded _ _ _ _ RV Dx) (DV x Dx) N1) as [BF DF].
  exists {| sF0 := F0; sF := F; sT0 := t0; sT := t1; sX := gx; sY := gy |}. cbn [sF0 sF sT0 sT sX sY]. repeat (split; [assumption|]).
  destruct (spot_close k d (3 / 2 * k * s) (3 / 2 * k * s) F0 F t0 t1 gx gy u v theta0 q x Hk ltac:(lra) BF0 BF DF0 DF N0 N1 R0 G0 R1 ltac:(lra) GX GY (proj2 (proj2 (proj2 (proj1 RQ))) x Dx)) as [Q1 Q2]. split; [exact Q1|]. lra.
Qed.
Lemma spot_all x : rectangle w h x -> spot_set (k + 1) (d / 2) (spot_at u v theta0 q x).
Proof. exact (spot_inside _ k d u v theta0 q x Hk Hd (fun x => regular_bounded _ _ _ x RU) (fun x => regular_bounded _ _ _ x RV) B0 RQ DU DV). Qed.
Lemma wh0 : 0 <= w /\ 0 <= h.
Proof. destruct PG as (Hs & _). split; apply Rmult_le_pos; try apply pos_INR; lra. Qed.
Lemma spot_lip x y : rectangle w h x -> rectangle w h y -> gapS (spot_at u v theta0 q x) (spot_at u v theta0 q y) <= (11 * k + k * (3 + w + h)) * dist x y.
Proof.
  destruct wh0 as [W0 H0]. apply spot_gap; try assumption; [intros; apply (regular_gap _ _ _ _ _ RU); assumption|intros; apply (regular_gap _ _ _ _ _ RV); assumption|apply heat_lipschitz; assumption|apply RQ|apply RQ].
Qed.
Lemma slack0 : 0 <= 11 * k + k * (3 + w + h).
Proof. destruct wh0 as [W0 H0]. assert (0 <= k * (3 + w + h)) by (apply Rmult_le_pos; lra). lra. Qed.
End Body.

(** ** C116 *)
(** Conduction and heat production. *)
Theorem C116_heat_energy : forall w h k d, 0 <= k -> 0 < d -> exists C, forall th s a b u v theta0 q p,
  s <= Rmin 1 d / (12 * (k + 1) ^ 2) -> problem_grids (ts_grid th) None s a b -> ts_refined th = None -> INR a * s = w -> INR b * s = h -> 0 <= ts_fps th ->
  regular_motion (rectangle w h) k u -> regular_motion (rectangle w h) k v -> (forall x, rectangle w h x -> d <= det2 (gradient_of u x)) -> (forall x, rectangle w h x -> d <= det2 (gradient_of v x)) ->
  lipschitz_on (rectangle w h) k theta0 -> between_on (rectangle w h) k theta0 -> regular_heat (rectangle w h) k q ->
  nodal (ts_grid th) (m1 u) (ts_prev_y1 th) -> nodal (ts_grid th) (m2 u) (ts_prev_y2 th) -> nodal (ts_grid th) (m1 v) (ts_y1 th) -> nodal (ts_grid th) (m2 v) (ts_y2 th) ->
  nodal (ts_grid th) theta0 (ts_prev_theta th) -> nodal (ts_grid th) (temp q) p ->
  exists E, therm_energy th p = Ok E /\ Rabs (E - heat_energy w h (ts_fps th) u v theta0 q) <= C * (1 + ts_fps th) ^ 2 * s.
Proof.
  intros w h k d Hk Hd. destruct (heat_lip (k + 1) (d / 2) ltac:(lra)) as (L & LP & HL). exists (L * (3 * (11 * k + k * (3 + w + h)) + 17 / 8 * (18 * k)) * (w * h)).
  intros th s a b u v theta0 q p Hss PG NR Ew Eh Hf RU RV DU DV L0 B0 RQ U1 U2 V1 V2 T0 TQ. replace ((k + 1) ^ 2) with ((k + 1) * (k + 1)) in Hss by ring. fold (fine k d) in Hss. destruct (problem_good _ _ _ _ _ PG) as (Hs & Ha & Hb & M & _). subst w h.
  unfold therm_energy, therm_integrator. rewrite NR. cbn [theta_grid]. assert (ER : exists q, DUNAVANT2 = Ok q) by (destruct (energy_rule_good (ts_grid th) None) as (z & E & _); exists z; exact E). destruct ER as [z EQ]. rewrite EQ. cbn [bind].
  destruct (integrator_exists _ s a b z M) as [I HI]. rewrite HI. cbn [bind].
  assert (LF : 0 <= L * (1 + ts_fps th) ^ 2) by (apply Rmult_le_pos; [exact LP|apply pow_le; lra]).
  assert (e0 : 0 <= 12 * (3 / 2 * k * s)) by (apply Rmult_le_pos; [lra|apply Rmult_le_pos; lra]).
  destruct (density_exact gapS (spot_set (k + 1) (d / 2)) (fun y => value (energy_potential (ts_fps th) (mat (sF0 y)) (mat (sF y)) (sT0 y) (sT y) [sX y; sY y])) (L * (1 + ts_fps th) ^ 2) (11 * k + k * (3 + INR a * s + INR b * s)) (12 * (3 / 2 * k * s)) LF e0 (spot_at u v theta0 q)
    (fun x y Hx Hy => HL (ts_fps th) x y Hf Hx Hy) (ts_grid th) s a b Hs Ha Hb M z I HI) with
    (F := fun t l => let* F0 := deform_strain (comp_interp (ts_grid th) None (ts_prev_y1 th)) (comp_interp (ts_grid th) None (ts_prev_y2 th)) t l in
      let* F := deform_strain (comp_interp (ts_grid th) None (ts_y1 th)) (comp_interp (ts_grid th) None (ts_y2 th)) t l in
      let* th0 := i_call (temp_interp (ts_grid th) None (ts_prev_theta th)) t l in let* th1 := i_call (temp_interp (ts_grid th) None p) t l in let* gr := i_gradient (temp_interp (ts_grid th) None p) t l in
      energy_potential (ts_fps th) F0 F th0 th1 gr) as (E & EE & BE).
  - intros x Hx. exact (spot_all s a b k d Hk Hd u v theta0 q RU RV B0 RQ DU DV x Hx).
  - intros x y Hx Hy. exact (spot_lip th s a b k Hk PG u v theta0 q RU RV L0 RQ x y Hx Hy).
  - intros t x0 c r l x T Bx N. destruct (body_point th s a b k d Hk Hd PG Hss u v theta0 q p RU RV L0 B0 RQ DU DV U1 U2 V1 V2 T0 TQ t x0 c r l x T Bx N) as (y & E0 & E1 & E2 & E3 & E4 & KY & GY).
    exists y. split; [exact KY|]. split; [|exact GY]. rewrite E0. cbn [bind]. rewrite E1. cbn [bind]. rewrite E2. cbn [bind]. rewrite E3. cbn [bind]. rewrite E4. cbn [bind]. rewrite energy_value by (destruct KY as (_ & (KD & _) & _); lra). reflexivity.
  - right. left. exact EQ.
  - exists E. split; [exact EE|]. unfold heat_energy. cbn [spot_at sF0 sF sT0 sT sX sY] in BE. eapply Rle_trans; [exact BE|]. right. field.
Qed.
Print Assumptions C116_heat_energy.
(** Storage of heat. *)
Theorem C116_heat_storage : forall w h k d, 0 <= k -> 0 < d -> exists C, forall th s a b u v theta0 q p,
  s <= Rmin 1 d / (12 * (k + 1) ^ 2) -> problem_grids (ts_grid th) None s a b -> ts_refined th = None -> INR a * s = w -> INR b * s = h ->
  regular_motion (rectangle w h) k u -> regular_motion (rectangle w h) k v -> (forall x, rectangle w h x -> d <= det2 (gradient_of u x)) -> (forall x, rectangle w h x -> d <= det2 (gradient_of v x)) ->
  lipschitz_on (rectangle w h) k theta0 -> between_on (rectangle w h) k theta0 -> regular_heat (rectangle w h) k q ->
  nodal (ts_grid th) (m1 u) (ts_prev_y1 th) -> nodal (ts_grid th) (m2 u) (ts_prev_y2 th) -> nodal (ts_grid th) (m1 v) (ts_y1 th) -> nodal (ts_grid th) (m2 v) (ts_y2 th) ->
  nodal (ts_grid th) theta0 (ts_prev_theta th) -> nodal (ts_grid th) (temp q) p ->
  exists E, therm_dissipation th p = Ok E /\ Rabs (E - heat_storage w h u v theta0 q) <= C * s.
Proof.
  intros w h k d Hk Hd. destruct (storage_lip (k + 1) (d / 2) ltac:(lra)) as (L & LP & HL). exists (L * (3 * (11 * k + k * (3 + w + h)) + 17 / 8 * (18 * k)) * (w * h)).
  intros th s a b u v theta0 q p Hss PG NR Ew Eh RU RV DU DV L0 B0 RQ U1 U2 V1 V2 T0 TQ. replace ((k + 1) ^ 2) with ((k + 1) * (k + 1)) in Hss by ring. fold (fine k d) in Hss. destruct (problem_good _ _ _ _ _ PG) as (Hs & Ha & Hb & M & _). subst w h.
  unfold therm_dissipation, therm_integrator. rewrite NR. cbn [theta_grid]. assert (ER : exists q, DUNAVANT2 = Ok q) by (destruct (energy_rule_good (ts_grid th) None) as (z & E & _); exists z; exact E). destruct ER as [z EQ]. rewrite EQ. cbn [bind].
  destruct (integrator_exists _ s a b z M) as [I HI]. rewrite HI. cbn [bind].
  assert (e0 : 0 <= 12 * (3 / 2 * k * s)) by (apply Rmult_le_pos; [lra|apply Rmult_le_pos; lra]).
  destruct (density_exact gapS (spot_set (k + 1) (d / 2)) (fun y => value (thermal_dissipation_potential (mat (sF0 y)) (mat (sF y)) (sT0 y) (sT y))) L (11 * k + k * (3 + INR a * s + INR b * s)) (12 * (3 / 2 * k * s)) LP e0 (spot_at u v theta0 q)
    HL (ts_grid th) s a b Hs Ha Hb M z I HI) with
    (F := fun t l => let* F0 := deform_strain (comp_interp (ts_grid th) None (ts_prev_y1 th)) (comp_interp (ts_grid th) None (ts_prev_y2 th)) t l in
      let* F := deform_strain (comp_interp (ts_grid th) None (ts_y1 th)) (comp_interp (ts_grid th) None (ts_y2 th)) t l in
      let* th0 := i_call (temp_interp (ts_grid th) None (ts_prev_theta th)) t l in let* th1 := i_call (temp_interp (ts_grid th) None p) t l in
      thermal_dissipation_potential F0 F th0 th1) as (E & EE & BE).
  - intros x Hx. exact (spot_all s a b k d Hk Hd u v theta0 q RU RV B0 RQ DU DV x Hx).
  - intros x y Hx Hy. exact (spot_lip th s a b k Hk PG u v theta0 q RU RV L0 RQ x y Hx Hy).
  - intros t x0 c r l x T Bx N. destruct (body_point th s a b k d Hk Hd PG Hss u v theta0 q p RU RV L0 B0 RQ DU DV U1 U2 V1 V2 T0 TQ t x0 c r l x T Bx N) as (y & E0 & E1 & E2 & E3 & E4 & KY & GY).
    exists y. split; [exact KY|]. split; [|exact GY]. rewrite E0. cbn [bind]. rewrite E1. cbn [bind]. rewrite E2. cbn [bind]. rewrite E3. cbn [bind]. rewrite psi_value by (destruct KY as (_ & (KD & KD') & _); lra). reflexivity.
  - right. left. exact EQ.
  - exists E. split; [exact EE|]. unfold heat_storage. cbn [spot_at sF0 sF sT0 sT sX sY] in BE. eapply Rle_trans; [exact BE|]. right. field.
Qed.
Print Assumptions C116_heat_storage.

(** Exchange of heat with the surroundings. *)
Lemma square_near k e m x y : 0 <= k -> Rabs e <= k -> Rabs x <= k -> Rabs y <= k -> Rabs (x - y) <= m -> Rabs ((x - e) ^ 2 - (y - e) ^ 2) <= 4 * k * m.
Proof.
  intros Hk He Hx Hy Hm. replace ((x - e) ^ 2 - (y - e) ^ 2) with ((x - y) * ((x + y) + - (2 * e))) by ring. rewrite Rabs_mult, (Rmult_comm (4 * k)). apply Rmult_le_compat; auto using Rabs_pos.
  eapply Rle_trans; [apply Rabs_triang|]. pose proof (Rabs_triang x y). assert (Q : Rabs (- (2 * e)) = 2 * Rabs e) by (rewrite Rabs_Ropp, Rabs_mult, (Rabs_right 2) by lra; reflexivity). lra.
Qed.
Theorem C116_heat_exchange : forall w h k, 0 <= k -> exists C, forall th lg so w0 h0 f s a b q p,
  0 < s -> fits w0 s a -> fits h0 s b -> (1 <= a)%nat -> (1 <= b)%nat -> INR a * s = w -> INR b * s = h ->
  ts_refined th = None -> domain_grid so w0 h0 f s = Ok (ts_grid th) -> midpoint_rule lg -> Rabs (ts_ext th) <= k ->
  lipschitz_on (rectangle w h) k (temp q) -> bounded_on (rectangle w h) k (temp q) -> nodal (ts_grid th) (temp q) p ->
  exists B, therm_boundary lg th p = Ok B /\ Rabs (B - heat_exchange w h (ts_ext th) q) <= C * s.
Proof.
  intros w h k Hk. exists (k * k * (2 * w + 2 * h)). intros th lg so w0 h0 f s a b q p Hs Fa Fb Ha Hb Ew Eh NR Hg LG HE LQ BQ [NL NS].
  subst w h. set (w := INR a * s) in *. set (h := INR b * s) in *. pose proof (grid_spec _ _ _ _ _ _ _ _ Hs Fa Fb Hg) as HG.
  assert (PG : problem_grids (ts_grid th) (ts_refined th) s a b) by (rewrite NR; split; [exact Hs|split; [exact Ha|split; [exact Hb|split; [exists so, w0, h0, f; auto|exact I]]]]).
  exists (bd th s p). split; [apply (bd_value lg th s a b PG (fun _ => LG)); rewrite NR; exact NL|]. unfold bd. rewrite NR. rewrite (boundary_all _ so a b f s HG). unfold heat_exchange. fold w h.
  assert (LF : lipschitz_on (rectangle w h) (k * k) (fun x => 1 / 4 * (temp q x - ts_ext th) ^ 2)).
  { intros x y Hx Hy. replace (1 / 4 * (temp q x - ts_ext th) ^ 2 - 1 / 4 * (temp q y - ts_ext th) ^ 2) with (1 / 4 * ((temp q x - ts_ext th) ^ 2 - (temp q y - ts_ext th) ^ 2)) by ring. rewrite Rabs_mult, (Rabs_right (1 / 4)) by lra.
    pose proof (square_near k (ts_ext th) _ _ _ Hk HE (BQ x Hx) (BQ y Hy) (LQ x y Hx Hy)). lra. }
  eapply Rle_trans; [apply (sides_close _ so a b f s Hs HG all_sides _ _ (k * k) (k * k * s) ltac:(apply Rmult_le_pos; lra) LF)|].
  - intros e P Q x He HP HQ Dp Dq Dx Hp Hq.
    assert (V : mean_of_ends (at_vertex p) e = (temp q P + temp q Q) / 2) by (unfold mean_of_ends, at_vertex; rewrite (nth_error_nth _ _ 0 (NS _ _ HP)), (nth_error_nth _ _ 0 (NS _ _ HQ)); reflexivity). rewrite V.
    destruct (mean_near k (temp q P) (temp q Q) (temp q x) (k * s)) as [M1 M2]; [| |apply BQ, Dp|apply BQ, Dq|]; [eapply Rle_trans; [apply LQ; assumption|apply Rmult_le_compat_l; [exact Hk|assumption]]|eapply Rle_trans; [apply LQ; assumption|apply Rmult_le_compat_l; [exact Hk|assumption]]|].
    set (mm := (temp q P + temp q Q) / 2) in *. replace (1 / 4 * (mm - ts_ext th) ^ 2 - 1 / 4 * (temp q x - ts_ext th) ^ 2) with (1 / 4 * ((mm - ts_ext th) ^ 2 - (temp q x - ts_ext th) ^ 2)) by ring. rewrite Rabs_mult, (Rabs_right (1 / 4)) by lra.
    pose proof (square_near k (ts_ext th) _ _ _ Hk HE M2 (BQ x Dx) M1). lra.
  - assert (PE : perimeter a b s all_sides = 2 * w + 2 * h) by (unfold perimeter, all_sides; cbn [sum_over side_length]; unfold w, h; ring). rewrite PE. right. ring.
Qed.
Print Assumptions C116_heat_exchange.
(** The objective of an unregularized thermal problem tends to the continuous functional. *)
Theorem C116_thermal_objective : forall w h k d, 0 <= k -> 0 < d -> exists C, forall th lg so w0 h0 f s a b u v theta0 q p,
  0 < s -> fits w0 s a -> fits h0 s b -> (1 <= a)%nat -> (1 <= b)%nat -> INR a * s = w -> INR b * s = h -> s <= Rmin 1 d / (12 * (k + 1) ^ 2) ->
  ts_refined th = None -> domain_grid so w0 h0 f s = Ok (ts_grid th) -> midpoint_rule lg -> 0 <= ts_fps th -> Rabs (ts_ext th) <= k ->
  regular_motion (rectangle w h) k u -> regular_motion (rectangle w h) k v -> (forall x, rectangle w h x -> d <= det2 (gradient_of u x)) -> (forall x, rectangle w h x -> d <= det2 (gradient_of v x)) ->
  lipschitz_on (rectangle w h) k theta0 -> between_on (rectangle w h) k theta0 -> regular_heat (rectangle w h) k q ->
  nodal (ts_grid th) (m1 u) (ts_prev_y1 th) -> nodal (ts_grid th) (m2 u) (ts_prev_y2 th) -> nodal (ts_grid th) (m1 v) (ts_y1 th) -> nodal (ts_grid th) (m2 v) (ts_y2 th) ->
  nodal (ts_grid th) theta0 (ts_prev_theta th) -> nodal (ts_grid th) (temp q) p ->
  exists J, therm_objective lg th p = Ok J /\ Rabs (J - heat_functional w h (ts_fps th) (ts_ext th) u v theta0 q) <= C * (1 + ts_fps th) ^ 2 * s.
Proof.
  intros w h k d Hk Hd. destruct (Rle_dec 0 w) as [Hw|Hw]; [destruct (Rle_dec 0 h) as [Hh|Hh]|].
  2:{ exists 0. intros th lg so w0 h0 f s a b u v theta0 q p Hs _ _ _ _ _ Eh. exfalso. apply Hh. rewrite <- Eh. apply Rmult_le_pos; [apply pos_INR|lra]. }
  2:{ exists 0. intros th lg so w0 h0 f s a b u v theta0 q p Hs _ _ _ _ Ew. exfalso. apply Hw. rewrite <- Ew. apply Rmult_le_pos; [apply pos_INR|lra]. }
  assert (KW : 0 <= k * (w + h)) by (apply Rmult_le_pos; lra). set (k' := k * (3 + w + h)). assert (KK : k <= k') by (unfold k'; lra).
  destruct (C116_heat_energy w h k d Hk Hd) as (CE & HE). destruct (C116_heat_storage w h k d Hk Hd) as (CD & HD). destruct (C116_heat_exchange w h k' ltac:(lra)) as (CB & HB).
  exists (Rmax 0 CE + Rmax 0 CB + Rmax 0 CD). intros th lg so w0 h0 f s a b u v theta0 q p Hs Fa Fb Ha Hb Ew Eh Hss NR Hg LG Hf HX RU RV DU DV L0 B0 RQ U1 U2 V1 V2 T0 TQ.
  assert (PG : problem_grids (ts_grid th) None s a b) by (split; [exact Hs|split; [exact Ha|split; [exact Hb|split; [exists so, w0, h0, f; auto|exact I]]]]).
  destruct (HE th s a b u v theta0 q p Hss PG NR Ew Eh Hf RU RV DU DV L0 B0 RQ U1 U2 V1 V2 T0 TQ) as (E & EE & BE). destruct (HD th s a b u v theta0 q p Hss PG NR Ew Eh RU RV DU DV L0 B0 RQ U1 U2 V1 V2 T0 TQ) as (D & ED & BD).
  assert (BQ : bounded_on (rectangle w h) k' (temp q)) by (intros x Hx; pose proof (proj2 RQ x Hx); rewrite Rabs_right; lra).
  destruct (HB th lg so w0 h0 f s a b q p Hs Fa Fb Ha Hb Ew Eh NR Hg LG ltac:(lra) (heat_lipschitz w h k q Hk Hw Hh RQ) BQ TQ) as (B & EB & BB).
  unfold therm_objective. rewrite EE. cbn [bind]. rewrite ED. cbn [bind]. rewrite EB. cbn [bind]. eexists. split; [reflexivity|]. unfold heat_functional.
  set (fps := ts_fps th) in *. match goal with |- Rabs (E + B + fps * D - (?e + ?x + fps * ?y)) <= _ => replace (E + B + fps * D - (e + x + fps * y)) with ((E - e) + (B - x) + fps * (D - y)) by ring; set (e0 := E - e) in *; set (x0 := B - x) in *; set (y0 := D - y) in * end.
  assert (T : Rabs (e0 + x0 + fps * y0) <= Rabs e0 + Rabs x0 + fps * Rabs y0).
  { eapply Rle_trans; [apply Rabs_triang|]. rewrite Rabs_mult, (Rabs_right fps) by lra. apply Rplus_le_compat_r, Rabs_triang. }
  eapply Rle_trans; [exact T|]. clear T. clearbody e0 x0 y0 fps. assert (Z : forall c, 0 <= Rmax 0 c * s) by (intros; apply Rmult_le_pos; [apply Rmax_l|lra]).
  assert (Q : forall c z, z <= c * s -> z <= Rmax 0 c * s) by (intros c z Hz; eapply Rle_trans; [exact Hz|apply Rmult_le_compat_r; [lra|apply Rmax_r]]). apply Q in BB, BD.
  assert (BE' : Rabs e0 <= Rmax 0 CE * s * (1 + 2 * fps + fps * fps)).
  { eapply Rle_trans; [exact BE|]. replace (CE * (1 + fps) ^ 2 * s) with (CE * (s * (1 + 2 * fps + fps * fps))) by ring. rewrite Rmult_assoc. apply Rmult_le_compat_r; [apply Rmult_le_pos; [lra|pose proof (Rmult_le_pos _ _ Hf Hf); lra]|apply Rmax_r]. }
  pose proof (Rmult_le_compat_l _ _ _ Hf BD) as BD'. replace ((Rmax 0 CE + Rmax 0 CB + Rmax 0 CD) * (1 + fps) ^ 2 * s) with ((Rmax 0 CE * s + Rmax 0 CB * s + Rmax 0 CD * s) * (1 + 2 * fps + fps * fps)) by ring.
  pose proof (Z CE) as Z1. pose proof (Z CB) as Z2. pose proof (Z CD) as Z3. set (z1 := Rmax 0 CE * s) in *. set (z2 := Rmax 0 CB * s) in *. set (z3 := Rmax 0 CD * s) in *. clearbody z1 z2 z3.
  pose proof (Rmult_le_pos _ _ Hf Z2). pose proof (Rmult_le_pos _ _ Hf Z3). pose proof (Rmult_le_pos _ _ (Rmult_le_pos _ _ Hf Hf) Z2). pose proof (Rmult_le_pos _ _ (Rmult_le_pos _ _ Hf Hf) Z3). lra.
Qed.
Print Assumptions C116_thermal_objective.
