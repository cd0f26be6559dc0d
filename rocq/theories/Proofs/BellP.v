(** Closed form of the Bell shape functions. *)
From Coq Require Import Reals QArith Qreals Lra Lia List.
From Verif.Model Require Import Py Num Tensors Domain Expr Bell.
From Verif.Spec Require Import GridSpec.
From Verif.Proofs Require Import Lib ExprP.
Local Open Scope R_scope.
Import ListNotations.

(** The six shape functions belonging to the first vertex. *)
Definition Nf (L1 L2 L3 b1 b2 b3 c1 c2 c3 r21 r31 : R) : list R :=
  [ L1^5 + 5*L1^4*L2 + 5*L1^4*L3 + 10*L1^3*L2^2 + 10*L1^3*L3^2 + 20*L1^3*L2*L3 + 30*r21*L1^2*L2*L3^2 + 30*r31*L1^2*L3*L2^2;
    c3*L1^4*L2 - c2*L1^4*L3 + 4*c3*L1^3*L2^2 - 4*c2*L1^3*L3^2 + 4*(c3 - c2)*L1^3*L2*L3 - (3*c1 + 15*r21*c2)*L1^2*L2*L3^2 + (3*c1 + 15*r31*c3)*L1^2*L3*L2^2;
    - b3*L1^4*L2 + b2*L1^4*L3 - 4*b3*L1^3*L2^2 + 4*b2*L1^3*L3^2 + 4*(b2 - b3)*L1^3*L2*L3 + (3*b1 + 15*r21*b2)*L1^2*L2*L3^2 - (3*b1 + 15*r31*b3)*L1^2*L3*L2^2;
    c3^2/2*L1^3*L2^2 + c2^2/2*L1^3*L3^2 - c2*c3*L1^3*L2*L3 + (c1*c2 + 5/2*r21*c2^2)*L2*L3^2*L1^2 + (c1*c3 + 5/2*r31*c3^2)*L3*L2^2*L1^2;
    - b3*c3*L1^3*L2^2 - b2*c2*L1^3*L3^2 + (b2*c3 + b3*c2)*L1^3*L2*L3 - (b1*c2 + b2*c1 + 5*r21*b2*c2)*L2*L3^2*L1^2 - (b1*c3 + b3*c1 + 5*r31*b3*c3)*L3*L2^2*L1^2;
    b3^2/2*L1^3*L2^2 + b2^2/2*L1^3*L3^2 - b2*b3*L1^3*L2*L3 + (b1*b2 + 5/2*r21*b2^2)*L2*L3^2*L1^2 + (b1*b3 + 5/2*r31*b3^2)*L3*L2^2*L1^2 ].
Definition rr (bi bj ci cj : R) : R := - (bi * bj + ci * cj) / (bi ^ 2 + ci ^ 2).
Definition Nf_all (L b c : R * R * R) : list R :=
  let '(L1, L2, L3) := L in let '(b1, b2, b3) := b in let '(c1, c2, c3) := c in
  Nf L1 L2 L3 b1 b2 b3 c1 c2 c3 (rr b2 b1 c2 c1) (rr b3 b1 c3 c1) ++
  Nf L2 L3 L1 b2 b3 b1 c2 c3 c1 (rr b3 b2 c3 c2) (rr b1 b2 c1 c2) ++
  Nf L3 L1 L2 b3 b1 b2 c3 c1 c2 (rr b1 b3 c1 c3) (rr b2 b3 c2 c3).
Definition regular (b c : R * R * R) : Prop :=
  let '(b1, b2, b3) := b in let '(c1, c2, c3) := c in b1 ^ 2 + c1 ^ 2 <> 0 /\ b2 ^ 2 + c2 ^ 2 <> 0 /\ b3 ^ 2 + c3 ^ 2 <> 0.
Definition N_all_ := Eval vm_compute in N_all.
Lemma N_all_eq : N_all = N_all_. Proof. vm_compute. reflexivity. Qed.
Lemma N_all_defined L b c : regular b c -> Forall (defined (bell_env L b c)) N_all.
Proof.
  destruct L as [[L1 L2] L3], b as [[b1 b2] b3], c as [[c1 c2] c3]. intros [H1 [H2 H3]]. rewrite N_all_eq. unfold N_all_.
  repeat constructor; cbn [teval defined bell_env fst snd]; try assumption; unfold Q2R; cbn; lra.
Qed.
Lemma N_all_value L b c : map (teval (bell_env L b c)) N_all = Nf_all L b c.
Proof.
  destruct L as [[L1 L2] L3], b as [[b1 b2] b3], c as [[c1 c2] c3]. rewrite N_all_eq. unfold N_all_, Nf_all. cbn [map teval bell_env fst snd].
  unfold Q2R. cbn [Qnum Qden]. rewrite !Rinv_1, !Rmult_1_r.
  assert (E : forall x y, -1 * x / y = - x / y) by (intros; f_equal; ring). rewrite !E. fold (rr b2 b1 c2 c1) (rr b3 b1 c3 c1) (rr b3 b2 c3 c2) (rr b1 b2 c1 c2) (rr b1 b3 c1 c3) (rr b2 b3 c2 c3).
  generalize (rr b2 b1 c2 c1) (rr b3 b1 c3 c1) (rr b3 b2 c3 c2) (rr b1 b2 c1 c2) (rr b1 b3 c1 c3) (rr b2 b3 c2 c3). intros r1 r2 r3 r4 r5 r6. unfold Nf. cbn [app].
  repeat (apply (f_equal2 (@cons R)); [field|]). reflexivity.
Qed.
