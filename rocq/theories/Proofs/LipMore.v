(** * Lipschitz functions on boxes: minima under constraints, more closure properties. *)
From Coq Require Import Reals Lra Lia List.
From Coquelicot Require Import Coquelicot.
From Verif.Proofs Require Import LipMin.
Local Open Scope R_scope.
Import ListNotations.

Lemma box_ends bs x0 : inbox bs x0 -> forall b, In b bs -> fst b <= snd b.
Proof. intros H0 r Hr. induction H0 as [|r' v bs x B H IH]; [destruct Hr|]. destruct Hr as [<- |Hr]; [lra|exact (IH Hr)]. Qed.

Section L.
Context (bs : list (R * R)) (x0 : list R) (H0 : inbox bs x0).
Lemma lips_abs f : lips bs f -> lips bs (fun x => Rabs (f x)).
Proof. intros (A & A0 & HA). exists A. split; [exact A0|]. intros x y Hx Hy. pose proof (HA x y Hx Hy). pose proof (Rabs_triang_inv2 (f x) (f y)). lra. Qed.
Lemma lips_max c f : lips bs f -> lips bs (fun x => Rmax c (f x)).
Proof.
  intros (A & A0 & HA). exists A. split; [exact A0|]. intros x y Hx Hy. pose proof (HA x y Hx Hy) as D. apply Rle_trans with (2 := D). unfold Rmax. destruct (Rle_dec c (f x)); destruct (Rle_dec c (f y)); unfold Rabs; repeat destruct (Rcase_abs _); lra.
Qed.
Lemma lips_inv f d : 0 < d -> (forall x, inbox bs x -> d <= f x) -> lips bs f -> lips bs (fun x => / f x).
Proof.
  intros Hd B (A & A0 & HA). exists (A / (d * d)). split; [apply Rdiv_le_0_compat; nra|]. intros x y Hx Hy. pose proof (HA x y Hx Hy) as D. pose proof (B x Hx). pose proof (B y Hy). pose proof (dist1_pos x y).
  replace (/ f x - / f y) with ((f y - f x) * / (f x * f y)) by (field; lra). rewrite Rabs_mult, (Rabs_right (/ _)) by (apply Rle_ge, Rlt_le, Rinv_0_lt_compat; nra). rewrite Rabs_minus_sym.
  replace (A / (d * d) * dist1 x y) with (A * dist1 x y * / (d * d)) by (field; lra). apply Rmult_le_compat; [apply Rabs_pos|apply Rlt_le, Rinv_0_lt_compat; nra|exact D|]. apply Rinv_le_contravar; nra.
Qed.
Lemma ln_diff d a b : 0 < d -> d <= a -> d <= b -> ln a - ln b <= / d * Rabs (a - b).
Proof.
  intros Hd Ha Hb. destruct (Rle_dec a b) as [L|L].
  - assert (ln a <= ln b) by (destruct (Req_dec a b) as [-> |N]; [lra|apply Rlt_le, ln_increasing; lra]). pose proof (Rabs_pos (a - b)). pose proof (Rinv_0_lt_compat d Hd). nra.
  - rewrite Rabs_right by lra. replace (ln a - ln b) with (ln (a / b)) by (unfold Rdiv; rewrite ln_mult, ln_Rinv by (try apply Rinv_0_lt_compat; lra); ring).
    assert (P : 0 < a / b) by (apply Rdiv_lt_0_compat; lra). assert (E : ln (a / b) <= a / b - 1). { pose proof (exp_ineq1_le (ln (a / b))) as K. rewrite exp_ln in K by exact P. lra. }
    apply Rle_trans with (1 := E). replace (a / b - 1) with (/ b * (a - b)) by (field; lra). apply Rmult_le_compat_r; [lra|]. apply Rinv_le_contravar; lra.
Qed.
Lemma lips_ln f d : 0 < d -> (forall x, inbox bs x -> d <= f x) -> lips bs f -> lips bs (fun x => ln (f x)).
Proof.
  intros Hd B (A & A0 & HA). exists (/ d * A). pose proof (Rinv_0_lt_compat d Hd). split; [nra|]. intros x y Hx Hy. pose proof (HA x y Hx Hy) as D. pose proof (ln_diff d _ _ Hd (B x Hx) (B y Hy)) as U. pose proof (ln_diff d _ _ Hd (B y Hy) (B x Hx)) as V. rewrite (Rabs_minus_sym (f y)) in V.
  assert (/ d * Rabs (f x - f y) <= / d * A * dist1 x y) by (rewrite Rmult_assoc; apply Rmult_le_compat_l; lra). apply Rabs_le. lra.
Qed.
Lemma hyp_le a b : sqrt (a * a + b * b) <= Rabs a + Rabs b.
Proof.
  pose proof (Rabs_pos a). pose proof (Rabs_pos b). rewrite <- (sqrt_square (Rabs a + Rabs b)) by lra. apply sqrt_le_1_alt. assert (Rabs a * Rabs a = a * a) by (rewrite <- Rabs_mult; apply Rabs_right; nra). assert (Rabs b * Rabs b = b * b) by (rewrite <- Rabs_mult; apply Rabs_right; nra). nra.
Qed.
Lemma sum_sq a b : 0 <= a * a + b * b.
Proof. nra. Qed.
Lemma hyp_tri a b c d : sqrt (a * a + b * b) <= sqrt (c * c + d * d) + sqrt ((a - c) * (a - c) + (b - d) * (b - d)).
Proof.
  set (p := sqrt (c * c + d * d)). set (r := sqrt ((a - c) * (a - c) + (b - d) * (b - d))). assert (P : 0 <= p) by apply sqrt_pos. assert (Q : 0 <= r) by apply sqrt_pos.
  assert (P2 : p * p = c * c + d * d) by (apply sqrt_sqrt, sum_sq). assert (R2 : r * r = (a - c) * (a - c) + (b - d) * (b - d)) by (apply sqrt_sqrt, sum_sq).
  rewrite <- (sqrt_square (p + r)) by lra. apply sqrt_le_1_alt. assert (CS : c * (a - c) + d * (b - d) <= p * r).
  2: { replace (a * a + b * b) with (p * p + 2 * (c * (a - c) + d * (b - d)) + r * r) by (rewrite P2, R2; ring). replace ((p + r) * (p + r)) with (p * p + 2 * (p * r) + r * r) by ring. lra. }
  assert (PR : 0 <= p * r) by (apply Rmult_le_pos; assumption). destruct (Rle_dec (c * (a - c) + d * (b - d)) 0) as [N|N]; [lra|]. apply Rsqr_incr_0; [|lra|exact PR]. unfold Rsqr. replace (p * r * (p * r)) with (p * p * (r * r)) by ring. rewrite P2, R2. pose proof (pow2_ge_0 (c * (b - d) - d * (a - c))). nra.
Qed.
Lemma lips_hyp f k : lips bs f -> lips bs k -> lips bs (fun x => sqrt (f x * f x + k x * k x)).
Proof.
  intros (A & A0 & HA) (B & B0 & HB). exists (A + B). split; [lra|]. intros x y Hx Hy. pose proof (HA x y Hx Hy) as D1. pose proof (HB x y Hx Hy) as D2.
  pose proof (hyp_tri (f x) (k x) (f y) (k y)) as U. pose proof (hyp_tri (f y) (k y) (f x) (k x)) as V. pose proof (hyp_le (f x - f y) (k x - k y)) as W. pose proof (hyp_le (f y - f x) (k y - k x)) as W'. rewrite (Rabs_minus_sym (f y)), (Rabs_minus_sym (k y)) in W'. apply Rabs_le. lra.
Qed.

(** Minimum of [f] on the part of the box where [p] vanishes. *)
Lemma lip_min_on f p : lips bs f -> lips bs p -> (forall x, inbox bs x -> 0 <= p x) -> p x0 = 0 ->
  exists x, inbox bs x /\ p x = 0 /\ forall y, inbox bs y -> p y = 0 -> f x <= f y.
Proof.
  intros LF LP PP P0. destruct (lips_bounded bs f x0 H0 LF) as (M & M0 & BM).
  set (S := fun r => exists x, inbox bs x /\ p x = 0 /\ r = f x). destruct (ex_glb_Rbar S) as (mu & LB & GL).
  assert (FM : exists u, mu = Finite u). { destruct mu as [u| |]; [exists u; reflexivity| |].
    - exfalso. apply (LB (f x0)). exists x0. auto.
    - exfalso. apply (GL (Finite (- M))). intros r (x & Hx & _ & ->). cbn. apply BM, Hx. }
  destruct FM as [u ->]. set (k := fun x => Rmax 0 (f x - u) + p x).
  assert (LK : lips bs k) by (apply lips_plus; [apply lips_max, lips_minus; [exact LF|apply lips_const]|exact LP]).
  destruct LK as (K & _ & LK). destruct (lip_min bs k K (box_ends bs x0 H0) LK) as (x & Hx & Mx).
  assert (K0 : k x <= 0). { apply Rnot_lt_le. intros KP. assert (E : exists y, inbox bs y /\ p y = 0 /\ f y < u + k x).
    { apply Classical_Prop.NNPP. intros NE. assert (G : Rbar_le (Finite (u + k x)) (Finite u)); [|cbn in G; lra]. apply GL. intros r (y & Hy & Py & ->). cbn. apply Rnot_lt_le. intros C. apply NE. exists y. auto. }
    destruct E as (y & Hy & Py & Fy). pose proof (Mx y Hy) as C. unfold k at 2 in C. rewrite Py in C. assert (U : u <= f y). { assert (G : Rbar_le (Finite u) (Finite (f y))) by (apply LB; exists y; auto). exact G. } rewrite Rmax_right in C by lra. lra. }
  pose proof (PP x Hx) as Px. pose proof (Rmax_l 0 (f x - u)). pose proof (Rmax_r 0 (f x - u)). unfold k in K0. exists x. split; [exact Hx|]. split; [lra|]. intros y Hy Py.
  assert (G : Rbar_le (Finite u) (Finite (f y))) by (apply LB; exists y; auto). cbn in G. lra.
Qed.
End L.
