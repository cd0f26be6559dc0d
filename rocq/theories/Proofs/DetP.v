(** The model's determinant is mathcomp's. *)
From Coq Require Import Reals List.
From mathcomp Require Import ssreflect ssrfun ssrbool eqtype ssrnat seq fintype bigop ssralg matrix perm zmodp.
From Verif.Model Require Import Num.
From Verif.Model Require Py Tensors.
From Verif.Spec Require Import RealRing.
From Verif.Spec Require TensorSpec.
From Verif.Proofs Require Lib TensorsP DetList.
Import GRing.Theory.
Local Open Scope ring_scope.

Lemma Rsum_bigop (f : nat -> R) n : Lib.Rsum (List.map f (Py.range n)) = \sum_(j < n) f j.
Proof.
  elim: n => [|n IH]; first by rewrite big_ord0.
  rewrite Lib.range_S List.map_app Lib.Rsum_app big_ord_recr /= IH.
  by rewrite Rplus_0_r.
Qed.
Lemma even_odd j : Nat.even j = ~~ odd j.
Proof.
  have: (Nat.even j = ~~ odd j) /\ (Nat.even j.+1 = odd j); last by case.
  elim: j => [//|j [H1 H2]]; split; [by rewrite H2 /= negbK | by rewrite /= H1].
Qed.
Lemma sign_pow j : (if Nat.even j then 1%R else (-1)%R) = (-1 : R) ^+ j :> R.
Proof. rewrite -signr_odd even_odd. by case: (odd j). Qed.

Lemma dsum_det n a i0 cols : DetList.incr cols -> length cols = n ->
  DetList.dsum a i0 n cols = \det (\matrix_(i < n, j < n) a (i0 + i)%N (List.nth j cols 0%N)).
Proof.
  elim: n i0 cols => [|n IH] i0 cols Hs Hl.
  - rewrite det_mx00 /DetList.dsum /=. rewrite /Tensors.sign /=. by rewrite Rmult_1_r Rplus_0_r.
  - rewrite (DetList.dsum_expand _ _ _ _ Hs Hl) Rsum_bigop.
    rewrite (expand_det_row _ ord0). apply: eq_bigr => j _.
    rewrite mxE addn0 /cofactor add0n sign_pow.
    have Hj : (j < length cols)%coq_nat by rewrite Hl; apply/ltP.
    rewrite IH; [|exact: DetList.incr_drop|by rewrite DetList.drop_nth_length // Hl /= Nat.sub_0_r].
    rewrite /GRing.mul /= -!Rmult_assoc (Rmult_comm (_ ^+ _)) !Rmult_assoc. congr (_ * _)%R. congr (_ * _)%R.
    congr (\det _). apply/matrixP => k l. rewrite !mxE /= DetList.drop_nth_nth.
    rewrite /bump /= !add1n addSnnS. congr (a _ _).
    case: (Nat.ltb_spec l j) => H.
    + have -> : (j <= l)%N = false; last by []. by apply/negbTE; rewrite -ltnNge; apply/ltP.
    + have -> : (j <= l)%N = true; last by []. by apply/leP.
Qed.

Lemma Matrix_det_of n f : Tensors.Matrix_det (TensorsP.mat_of n n f) =
  Py.Ok (\det (\matrix_(i < n, j < n) f i j) : R).
Proof.
  rewrite DetList.Matrix_det_dsum. congr Py.Ok.
  rewrite dsum_det; [|exact: DetList.incr_range | exact: Lib.range_length].
  congr (\det _). apply/matrixP => i j. rewrite !mxE add0n. congr (f _ _).
  rewrite /Py.range List.seq_nth //. by apply/ltP.
Qed.

Lemma det_mul_of n f g :
  \det (\matrix_(i < n, j < n) TensorSpec.sum_below n (fun l => Rmult (f i l) (g l j))) =
  (\det (\matrix_(i < n, j < n) f i j : 'M[R]_n) * \det (\matrix_(i < n, j < n) g i j : 'M[R]_n))%R :> R.
Proof.
  rewrite -[RHS]det_mulmx. congr (\det _). apply/matrixP => i j. rewrite !mxE -TensorsP.Rsum_range Rsum_bigop.
  by apply: eq_bigr => k _; rewrite !mxE.
Qed.
Lemma det_tr_of n f :
  \det (\matrix_(i < n, j < n) f j i) = \det (\matrix_(i < n, j < n) f i j) :> R.
Proof. rewrite -[RHS]det_tr. congr (\det _). apply/matrixP => i j. by rewrite !mxE. Qed.
Lemma det_id_of n : \det (\matrix_(i < n, j < n) TensorSpec.delta i j) = 1%R :> R.
Proof.
  rewrite -[RHS](det1 _ n). congr (\det _). apply/matrixP => i j. rewrite !mxE /TensorSpec.delta.
  case: Nat.eqb_spec => [/val_inj -> | H]; first by rewrite eqxx.
  case: eqP => // E; by rewrite E in H.
Qed.
Lemma det_eq_rows_of n (f : nat -> nat -> R) (a b : nat) : (a < n)%coq_nat -> (b < n)%coq_nat -> a <> b ->
  (forall j, (j < n)%coq_nat -> f a j = f b j) -> \det (\matrix_(i < n, j < n) f i j) = 0%R :> R.
Proof.
  move=> /ltP Ha /ltP Hb Hab H.
  apply: (@determinant_alternate _ _ _ (Ordinal Ha) (Ordinal Hb)).
  - by apply/eqP => E; apply: Hab; case: E.
  - move=> j. rewrite !mxE /=. apply: H. by apply/ltP.
Qed.

(** The same facts without mathcomp notation. *)
Lemma det_spec n f : Tensors.Matrix_det (TensorsP.mat_of n n f) = Py.Ok (determinant n f).
Proof. exact: Matrix_det_of. Qed.
Lemma determinant_mul n f g :
  determinant n (fun i j => TensorSpec.sum_below n (fun l => Rmult (f i l) (g l j))) =
  Rmult (determinant n f) (determinant n g).
Proof. exact: det_mul_of. Qed.
Lemma determinant_tr n f : determinant n (fun i j => f j i) = determinant n f.
Proof. exact: det_tr_of. Qed.
Lemma determinant_id n : determinant n TensorSpec.delta = 1%R.
Proof. exact: det_id_of. Qed.
Lemma determinant_eq_rows n (f : nat -> nat -> R) (a b : nat) : (a < n)%coq_nat -> (b < n)%coq_nat -> a <> b ->
  (forall j, (j < n)%coq_nat -> f a j = f b j) -> determinant n f = 0%R.
Proof. exact: det_eq_rows_of. Qed.
