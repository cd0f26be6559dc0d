(** Distances and mean edge lengths in binary64. *)
From Flocq Require Import Core.
From Coq Require Import ZArith Reals Floats Lra Lia Psatz.
From Verif.Model Require Import Py Num NumFloat Tensors Domain Refine.
From Verif.Spec Require Import FloatSpec.
From Verif.Proofs Require Import FloatR FloatN FloatE.
Local Open Scope R_scope.

Lemma sq_abs d D : Rabs d <= D -> 0 <= d * d <= D * D.
Proof. intros H. split; [apply Rle_0_sqr|]. apply Rabs_le_inv in H. nra. Qed.
(** The squared norm. *)
Lemma normsq_f d1 d2 D : is_num d1 -> is_num d2 -> Rabs (real_of d1) <= D -> Rabs (real_of d2) <= D -> D <= 2 ^ 420 ->
  let q := real_of d1 * real_of d1 + real_of d2 * real_of d2 in
  exists S, @Vector_normsqr _ FNum [d1; d2] = S /\ is_num S /\ 0 <= real_of S /\ 0.99 * q - 4 * eta <= real_of S <= 1.01 * q + 4 * eta.
Proof.
  intros N1 N2 H1 H2 HD q. eexists. split; [reflexivity|]. unfold Vector_normsqr, nsum. cbn [map fold_left nadd nmul n0 FNum].
  pose proof ulp1_pos as U0. pose proof ulp1_small as U1. assert (U2 : ulp1 <= / 1000) by lra. pose proof eta_pos as E0. pose proof eta_small as E1.
  assert (D0 : 0 <= D) by (pose proof (Rabs_pos (real_of d1)); lra).
  assert (P840 : 2 ^ 420 * 2 ^ 420 = 2 ^ 840) by (rewrite <- pow_add; reflexivity).
  assert (DD : D * D <= 2 ^ 840) by (rewrite <- P840; apply Rmult_le_compat; lra).
  pose proof (sq_abs _ _ H1) as S1. pose proof (sq_abs _ _ H2) as S2. set (x := real_of d1 * real_of d1) in *. set (y := real_of d2 * real_of d2) in *.
  assert (B : 2 ^ 840 * 8 <= bound). { apply bound_big. replace (2 ^ 840 * 8) with (2 ^ 843). apply Rle_pow; [lra|lia]. replace 8 with (2 ^ 3) by ring. rewrite <- pow_add. reflexivity. }
  assert (B1 : 1 <= 2 ^ 840) by (rewrite <- (pow_O 2); apply Rle_pow; [lra|lia]).
  destruct (fmul d1 d1 N1 N1) as [M1 R1]; [fold x; rewrite Rabs_pos_eq by lra; lra|]. fold x in R1.
  destruct (fmul d2 d2 N2 N2) as [M2 R2]; [fold y; rewrite Rabs_pos_eq by lra; lra|]. fold y in R2.
  pose proof (rnd_err x) as X1. rewrite <- R1, (Rabs_pos_eq x) in X1 by lra. apply Rabs_le_inv in X1.
  pose proof (rnd_err y) as X2. rewrite <- R2, (Rabs_pos_eq y) in X2 by lra. apply Rabs_le_inv in X2.
  assert (G1 : 0 <= real_of (d1 * d1)) by (rewrite R1, <- rnd_0; apply rnd_le; lra).
  assert (G2 : 0 <= real_of (d2 * d2)) by (rewrite R2, <- rnd_0; apply rnd_le; lra).
  assert (L1 : ulp1 * x <= / 1000 * x) by (apply Rmult_le_compat_r; lra). assert (L2 : ulp1 * y <= / 1000 * y) by (apply Rmult_le_compat_r; lra).
  destruct (fadd 0 (d1 * d1) (proj1 num_0) M1) as [M3 R3]; [rewrite (proj2 num_0), Rplus_0_l, Rabs_pos_eq by lra; lra|].
  rewrite (proj2 num_0), Rplus_0_l, rnd_real in R3.
  destruct (fadd (0 + d1 * d1) (d2 * d2) M3 M2) as [M4 R4]; [rewrite R3, Rabs_pos_eq by lra; lra|].
  pose proof (plus_err (0 + d1 * d1) (d2 * d2)) as X4. rewrite <- R4, R3, (Rabs_pos_eq (_ + _)) in X4 by lra. apply Rabs_le_inv in X4.
  set (a := real_of (d1 * d1)) in *. set (b := real_of (d2 * d2)) in *. set (S := real_of (0 + d1 * d1 + d2 * d2)) in *.
  assert (L3 : ulp1 * (a + b) <= / 1000 * (a + b)) by (apply Rmult_le_compat_r; lra).
  split; [exact M4|]. split; [rewrite R4, <- rnd_0; apply rnd_le; rewrite R3; fold a b; lra|]. unfold q. fold x y. clearbody a b S x y. lra.
Qed.
(** The norm: bounds from bounds on the larger coordinate. *)
Lemma norm_f d1 d2 D : is_num d1 -> is_num d2 -> Rabs (real_of d1) <= D -> Rabs (real_of d2) <= D -> D <= 2 ^ 420 ->
  exists N, @Vector_norm _ FNum [d1; d2] = N /\ is_num N /\ 0 <= real_of N /\
   (forall t, / 10 ^ 25 <= t -> Rabs (real_of d1) <= t -> Rabs (real_of d2) <= t -> real_of N <= 1.43 * t) /\
   (forall t, / 10 ^ 25 <= t -> t <= Rabs (real_of d1) \/ t <= Rabs (real_of d2) -> 0.9 * t <= real_of N).
Proof.
  intros N1 N2 H1 H2 HD. destruct (normsq_f d1 d2 D N1 N2 H1 H2 HD) as (S & ES & NS & S0 & SB).
  pose proof ulp1_pos as U0. pose proof ulp1_small as U1. assert (U2 : ulp1 <= / 1000) by lra. pose proof eta_pos as E0. pose proof eta_small as E1.
  unfold Vector_norm. rewrite ES. eexists. split; [reflexivity|]. cbn [nsqrt FNum]. destruct (fsqrt S NS S0) as [NN RN]. split; [exact NN|].
  set (q := R_sqrt.sqrt (real_of S)) in *. assert (Q0 : 0 <= q) by apply sqrt_pos. assert (QQ : q * q = real_of S) by (apply sqrt_sqrt, S0).
  split; [rewrite RN, <- rnd_0; apply rnd_le, Q0|]. pose proof (rnd_err q) as X. rewrite <- RN, (Rabs_pos_eq q) in X by exact Q0. apply Rabs_le_inv in X.
  assert (L : ulp1 * q <= / 1000 * q) by (apply Rmult_le_compat_r; lra).
  assert (TT : forall t, / 10 ^ 25 <= t -> 0 < t /\ eta <= / 1000 * t /\ 4 * eta <= / 1000 * (t * t)).
  { intros t Ht. assert (T0 : 0 < / 10 ^ 25) by (apply Rinv_0_lt_compat, pow_lt; lra). split; [lra|]. split.
    - apply Rle_trans with (/ 1000 * / 10 ^ 25); [|apply Rmult_le_compat_l; lra]. lra.
    - apply Rle_trans with (/ 1000 * (/ 10 ^ 25 * / 10 ^ 25)); [|apply Rmult_le_compat_l; [lra|apply Rmult_le_compat; lra]]. lra. }
  split.
  - intros t Ht A1 A2. destruct (TT t Ht) as (T0 & T1 & T2). pose proof (sq_abs _ _ A1) as B1. pose proof (sq_abs _ _ A2) as B2.
    assert (q <= 57 / 40 * t). { apply Rsqr_incr_0_var; [|lra]. unfold Rsqr. rewrite QQ. replace (57 / 40 * t * (57 / 40 * t)) with (3249 / 1600 * (t * t)) by field. lra. }
    lra.
  - intros t Ht A. destruct (TT t Ht) as (T0 & T1 & T2).
    assert (G : t * t <= real_of d1 * real_of d1 + real_of d2 * real_of d2).
    { assert (K : forall z, t <= Rabs z -> t * t <= z * z). { intros z Hz. apply (Rle_trans _ (Rabs z * Rabs z)); [apply Rmult_le_compat; lra|]. rewrite <- Rabs_mult, Rabs_pos_eq by apply Rle_0_sqr. lra. }
      pose proof (Rle_0_sqr (real_of d1)) as Z1. pose proof (Rle_0_sqr (real_of d2)) as Z2. unfold Rsqr in *. destruct A as [A|A]; apply K in A; lra. }
    assert (19 / 20 * t <= q). { apply Rsqr_incr_0_var; [|lra]. unfold Rsqr. rewrite QQ. replace (19 / 20 * t * (19 / 20 * t)) with (361 / 400 * (t * t)) by field. lra. }
    lra.
Qed.
