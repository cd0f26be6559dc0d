(** A strain at which the temperatures 0 and 1 store the same energy: two minima of the value density. *)
From Coq Require Import Reals Lra Lia Psatz.
From Coquelicot Require Import Coquelicot.
From Verif.Spec Require Import PotentialSpec.
From Verif.Proofs Require Import PotP ThermV.
Local Open Scope R_scope.

Definition E5 : R := exp (-5).
Lemma E5_bounds : 0 < E5 < / 80.
Proof.
  unfold E5. split; [apply exp_pos|]. replace (-5) with (- (5)) by ring. rewrite exp_Ropp. apply Rinv_lt_contravar; [pose proof (exp_pos 5); lra|].
  pose proof (exp_ge_taylor 5 5 ltac:(lra)) as T. cbn [sum_f_R0] in T. change (fact 0) with 1%nat in T. change (fact 1) with 1%nat in T. change (fact 2) with 2%nat in T. change (fact 3) with 6%nat in T. change (fact 4) with 24%nat in T. change (fact 5) with 120%nat in T.
  rewrite !INR_IZR_INZ in T. cbn [Z.of_nat Pos.of_succ_nat Pos.succ] in T. lra.
Qed.
(** The excess of martensite over austenite at which 0 and 1 balance. *)
Definition excess : R := 25 / (2 - 37 * E5).
Lemma excess_bounds : 12 < excess < 20.
Proof.
  pose proof E5_bounds as [A B]. assert (D : 0 < 2 - 37 * E5) by lra. unfold excess. split; apply (Rmult_lt_reg_r (2 - 37 * E5)); try exact D; unfold Rdiv; rewrite Rmult_assoc, Rinv_l by lra; lra.
Qed.
Lemma excess_eq : excess * (2 - 37 * E5) = 25.
Proof. pose proof E5_bounds. unfold excess. field. lra. Qed.
Lemma diag_dW x : 0 < x -> dW (st x 0 0 x) = 2 * x ^ 2 - 2 - 4 * ln x + (x ^ 2 - 1) ^ 2 - (1 / 16 + (x ^ 4 + / x ^ 4 - 2) ^ 2).
Proof.
  intros H. unfold dW, WA, WM, norm2, det2, st. cbn [f11 f12 f21 f22]. replace (x * x - 0 * 0) with (x * x) by ring. rewrite ln_mult by exact H. field. lra.
Qed.
Lemma diag_exists : exists x, 1 / 2 < x < 1 /\ dW (st x 0 0 x) = - excess.
Proof.
  set (f := fun x => 2 * x ^ 2 - 2 - 4 * ln x + (x ^ 2 - 1) ^ 2 - (1 / 16 + (x ^ 4 + / x ^ 4 - 2) ^ 2)). pose proof excess_bounds as EB.
  assert (f1 : f 1 = - 1 / 16) by (unfold f; rewrite ln_1; field).
  assert (f2 : f (1 / 2) < - 100).
  { unfold f. assert (L : ln (1 / 2) > -1). { assert (E : -1 = ln (exp (-1))) by (symmetry; apply ln_exp). rewrite E. apply ln_increasing; [apply exp_pos|]. replace (-1) with (- (1)) by ring. rewrite exp_Ropp. replace (1/2) with (/ 2) by field. apply Rinv_lt_contravar; [pose proof (exp_pos 1); lra|]. pose proof (exp_ineq1 1 ltac:(lra)). lra. }
    replace (/ (1 / 2) ^ 4) with 16 by field. lra. }
  destruct (Ranalysis5.IVT_interv (fun x => f x + excess) (1/2) 1) as (x & Hx & E); [|lra|lra|lra|].
  - intros a Ha. assert (C : continuous f a) by (apply (ex_derive_continuous (K := R_AbsRing) (V := R_NormedModule)); unfold f; auto_derive; repeat split; try lra; apply Rgt_not_eq; assert (0 < a) by lra; repeat apply Rmult_lt_0_compat; lra).
    apply continuity_pt_filterlim in C. apply continuity_pt_plus; [exact C|apply continuity_pt_const; intros ? ?; reflexivity].
  - assert (x <> 1 / 2) by (intros ->; lra). assert (x <> 1) by (intros ->; lra). exists x. split; [lra|]. rewrite diag_dW by lra. fold (f x). lra.
Qed.

Definition kk (t : R) : R := t * exp (-5 * t).
Lemma kk_derive t : is_derive kk t ((1 - 5 * t) * exp (-5 * t)).
Proof. unfold kk. auto_derive; trivial. ring. Qed.
Lemma kk_up a b : a < b -> b <= 1 / 5 -> kk a <= kk b.
Proof. intros L B. destruct (MVT_cor2 kk (fun t => (1 - 5 * t) * exp (-5 * t)) a b L) as (c & E & C); [intros; apply is_derive_Reals, kk_derive|]. pose proof (exp_pos (-5 * c)). assert (0 <= (1 - 5 * c) * exp (-5 * c)) by (apply Rmult_le_pos; lra). nra. Qed.
Lemma kk_down a b : a < b -> 1 / 5 <= a -> kk b <= kk a.
Proof. intros L B. destruct (MVT_cor2 kk (fun t => (1 - 5 * t) * exp (-5 * t)) a b L) as (c & E & C); [intros; apply is_derive_Reals, kk_derive|]. pose proof (exp_pos (-5 * c)). assert (0 <= (5 * c - 1) * exp (-5 * c)) by (apply Rmult_le_pos; lra). nra. Qed.
Lemma kk_quasi a b c : a < b -> b < c -> Rmin (kk a) (kk c) <= kk b.
Proof.
  intros A B. destruct (Rle_lt_dec b (1 / 5)) as [H|H]; [apply Rle_trans with (kk a); [apply Rmin_l|apply kk_up; lra]|apply Rle_trans with (kk c); [apply Rmin_r|apply kk_down; lra]].
Qed.
Section Two.
Context (F : strain2) (HF : dW F = - excess).
Lemma cap_kk t : cap F t = 10 - 25 * excess * kk t.
Proof. unfold cap, kk. rewrite HF. ring. Qed.
Lemma E5' : exp (-5 * 1) = E5. Proof. unfold E5. f_equal. ring. Qed.
Lemma E0' : exp (-5 * 0) = 1. Proof. rewrite Rmult_0_r. apply exp_0. Qed.
Lemma psi01 : psi F F 1 0 = psi F F 1 1.
Proof. unfold psi, AW, ww. rewrite HF, E5', E0'. pose proof excess_eq. nra. Qed.
Lemma U01 : U F 1 < U F 0.
Proof. unfold U, ww. rewrite HF, E5', E0'. pose proof excess_eq. pose proof E5_bounds. pose proof excess_bounds. nra. Qed.
Lemma U_right t : 1 < t -> U F 1 < U F t.
Proof.
  intros H. destruct (MVT_cor2 (U F) (cap F) 1 t H) as (c & E & C); [intros; apply is_derive_Reals, U_derive|]. assert (K : kk c <= kk 1) by (apply kk_down; lra). assert (K1 : kk 1 = E5) by (unfold kk; rewrite E5'; ring).
  assert (P : 0 < cap F c). { rewrite cap_kk. pose proof excess_bounds. pose proof E5_bounds. nra. } nra.
Qed.
Lemma psi_min t : 0 <= t -> psi F F 1 1 <= psi F F 1 t.
Proof.
  intros H. destruct (Rle_lt_dec 1 t) as [T|T].
  - destruct T as [T| <-]; [|lra]. destruct (MVT_cor2 (psi F F 1) (fun z => U F z - U F 1) 1 t T) as (c & E & C); [intros; apply is_derive_Reals, psi_derive|]. pose proof (U_right c ltac:(lra)). nra.
  - destruct H as [H| <-]; [|rewrite psi01; lra]. apply Rnot_lt_le. intros LT.
    destruct (MVT_cor2 (psi F F 1) (fun z => U F z - U F 1) 0 t H) as (c1 & E1 & C1); [intros; apply is_derive_Reals, psi_derive|]. rewrite psi01 in E1. assert (V1 : U F c1 < U F 1) by nra.
    destruct (MVT_cor2 (psi F F 1) (fun z => U F z - U F 1) t 1 T) as (c2 & E2 & C2); [intros; apply is_derive_Reals, psi_derive|]. assert (V2 : U F 1 < U F c2) by nra. pose proof U01 as V0.
    destruct (MVT_cor2 (U F) (cap F) 0 c1 ltac:(lra)) as (d1 & G1 & D1); [intros; apply is_derive_Reals, U_derive|].
    destruct (MVT_cor2 (U F) (cap F) c1 c2 ltac:(lra)) as (d2 & G2 & D2); [intros; apply is_derive_Reals, U_derive|].
    destruct (MVT_cor2 (U F) (cap F) c2 1 ltac:(lra)) as (d3 & G3 & D3); [intros; apply is_derive_Reals, U_derive|].
    assert (X1 : cap F d1 < 0) by nra. assert (X2 : 0 < cap F d2) by nra. assert (X3 : cap F d3 < 0) by nra. rewrite cap_kk in X1, X2, X3. pose proof excess_bounds as EB. pose proof (kk_quasi d1 d2 d3 ltac:(lra) ltac:(lra)) as Q.
    assert (kk d2 < kk d1) by nra. assert (kk d2 < kk d3) by nra. unfold Rmin in Q. destruct (Rle_dec (kk d1) (kk d3)); lra.
Qed.
End Two.
