(** * The reals as a mathcomp commutative ring, so that mathcomp's determinant [\det] can be used as
    the specification of [Matrix.det] (C01). *)
From Coq Require Import Reals Epsilon ClassicalEpsilon FunctionalExtensionality.
From mathcomp Require Import ssreflect ssrfun ssrbool eqtype ssrnat choice fintype ssralg matrix.
Set Implicit Arguments.
Unset Strict Implicit.
Unset Printing Implicit Defensive.
Local Open Scope R_scope.

Definition R_eqb (x y : R) : bool := if Req_EM_T x y then true else false.
Lemma R_eqP : Equality.axiom R_eqb.
Proof. by move=> x y; rewrite /R_eqb; case: Req_EM_T => H; constructor. Qed.
Definition R_eqMixin := EqMixin R_eqP.
Canonical R_eqType := Eval hnf in EqType R R_eqMixin.

Definition R_find (P : pred R) (n : nat) : option R :=
  match excluded_middle_informative (exists x, P x) with
  | left _ => Some (epsilon (inhabits 0) (fun x => P x))
  | right _ => None
  end.
Lemma R_find_correct P n x : R_find P n = Some x -> P x.
Proof.
  rewrite /R_find. case: (excluded_middle_informative _) => // H [<-].
  exact: (epsilon_spec (inhabits 0) _ H).
Qed.
Lemma R_find_complete (P : pred R) : (exists x, P x) -> exists n, R_find P n.
Proof. move=> H; exists O; rewrite /R_find. by case: (excluded_middle_informative _). Qed.
Lemma R_find_ext (P Q : pred R) : P =1 Q -> R_find P =1 R_find Q.
Proof.
  move=> H n. rewrite /R_find.
  have -> : P = Q. { apply: FunctionalExtensionality.functional_extensionality => x; exact: H. }
  by [].
Qed.
Definition R_choiceMixin : choiceMixin R := Choice.Mixin R_find_correct R_find_complete R_find_ext.
Canonical R_choiceType := Eval hnf in ChoiceType R R_choiceMixin.

Lemma R_addA : associative Rplus. Proof. by move=> x y z; rewrite Rplus_assoc. Qed.
Lemma R_mulA : associative Rmult. Proof. by move=> x y z; rewrite Rmult_assoc. Qed.
Lemma R_one_neq0 : (1 : R) != 0. Proof. apply/eqP; exact: R1_neq_R0. Qed.
Definition R_zmodMixin := ZmodMixin R_addA Rplus_comm Rplus_0_l Rplus_opp_l.
Canonical R_zmodType := Eval hnf in ZmodType R R_zmodMixin.
Definition R_comRingMixin := ComRingMixin R_mulA Rmult_comm Rmult_1_l Rmult_plus_distr_r R_one_neq0.
Canonical R_ringType := Eval hnf in RingType R R_comRingMixin.
Canonical R_comRingType := Eval hnf in ComRingType R Rmult_comm.

(** The determinant of the [n] x [n] table [f] (mathcomp's Leibniz determinant). *)
Definition determinant (n : nat) (f : nat -> nat -> R) : R := (\det (\matrix_(i < n, j < n) f i j))%R.
