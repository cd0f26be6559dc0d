(** Closed forms of the first and second derivatives of the Bell shape functions in barycentric coordinates
    ([Nd i], [Nd i j]: derivatives with respect to the i-th (and j-th) argument of [Nf]). *)
From Coq Require Import Reals QArith Qreals Lra Lia List.
From Verif.Model Require Import Py Num Tensors Domain Expr Bell.
From Verif.Proofs Require Import Lib ExprP BellP.
Local Open Scope R_scope.
Import ListNotations.

Definition Nd1 (L1 L2 L3 b1 b2 b3 c1 c2 c3 r21 r31 : R) : list R :=
  [ 5*L1^4 + 4*5*L1^3*L2 + 4*5*L1^3*L3 + 3*10*L1^2*L2^2 + 3*10*L1^2*L3^2 + 3*20*L1^2*L2*L3 + 2*30*r21*L1*L2*L3^2 + 2*30*r31*L1*L2^2*L3;
    4*c3*L1^3*L2 + 4*(-c2)*L1^3*L3 + 3*4*c3*L1^2*L2^2 + 3*(-4*c2)*L1^2*L3^2 + 3*4*(c3 - c2)*L1^2*L2*L3 + 2*(-(3*c1 + 15*r21*c2))*L1*L2*L3^2 + 2*(3*c1 + 15*r31*c3)*L1*L2^2*L3;
    4*(-b3)*L1^3*L2 + 4*b2*L1^3*L3 + 3*(-4*b3)*L1^2*L2^2 + 3*4*b2*L1^2*L3^2 + 3*4*(b2 - b3)*L1^2*L2*L3 + 2*(3*b1 + 15*r21*b2)*L1*L2*L3^2 + 2*(-(3*b1 + 15*r31*b3))*L1*L2^2*L3;
    3*c3^2/2*L1^2*L2^2 + 3*c2^2/2*L1^2*L3^2 + 3*(-c2*c3)*L1^2*L2*L3 + 2*(c1*c2 + 5/2*r21*c2^2)*L1*L2*L3^2 + 2*(c1*c3 + 5/2*r31*c3^2)*L1*L2^2*L3;
    3*(-b3*c3)*L1^2*L2^2 + 3*(-b2*c2)*L1^2*L3^2 + 3*(b2*c3 + b3*c2)*L1^2*L2*L3 + 2*(-(b1*c2 + b2*c1 + 5*r21*b2*c2))*L1*L2*L3^2 + 2*(-(b1*c3 + b3*c1 + 5*r31*b3*c3))*L1*L2^2*L3;
    3*b3^2/2*L1^2*L2^2 + 3*b2^2/2*L1^2*L3^2 + 3*(-b2*b3)*L1^2*L2*L3 + 2*(b1*b2 + 5/2*r21*b2^2)*L1*L2*L3^2 + 2*(b1*b3 + 5/2*r31*b3^2)*L1*L2^2*L3 ].
Definition Nd2 (L1 L2 L3 b1 b2 b3 c1 c2 c3 r21 r31 : R) : list R :=
  [ 5*L1^4 + 2*10*L1^3*L2 + 20*L1^3*L3 + 30*r21*L1^2*L3^2 + 2*30*r31*L1^2*L2*L3;
    c3*L1^4 + 2*4*c3*L1^3*L2 + 4*(c3 - c2)*L1^3*L3 + (-(3*c1 + 15*r21*c2))*L1^2*L3^2 + 2*(3*c1 + 15*r31*c3)*L1^2*L2*L3;
    (-b3)*L1^4 + 2*(-4*b3)*L1^3*L2 + 4*(b2 - b3)*L1^3*L3 + (3*b1 + 15*r21*b2)*L1^2*L3^2 + 2*(-(3*b1 + 15*r31*b3))*L1^2*L2*L3;
    2*c3^2/2*L1^3*L2 + (-c2*c3)*L1^3*L3 + (c1*c2 + 5/2*r21*c2^2)*L1^2*L3^2 + 2*(c1*c3 + 5/2*r31*c3^2)*L1^2*L2*L3;
    2*(-b3*c3)*L1^3*L2 + (b2*c3 + b3*c2)*L1^3*L3 + (-(b1*c2 + b2*c1 + 5*r21*b2*c2))*L1^2*L3^2 + 2*(-(b1*c3 + b3*c1 + 5*r31*b3*c3))*L1^2*L2*L3;
    2*b3^2/2*L1^3*L2 + (-b2*b3)*L1^3*L3 + (b1*b2 + 5/2*r21*b2^2)*L1^2*L3^2 + 2*(b1*b3 + 5/2*r31*b3^2)*L1^2*L2*L3 ].
Definition Nd3 (L1 L2 L3 b1 b2 b3 c1 c2 c3 r21 r31 : R) : list R :=
  [ 5*L1^4 + 2*10*L1^3*L3 + 20*L1^3*L2 + 2*30*r21*L1^2*L2*L3 + 30*r31*L1^2*L2^2;
    (-c2)*L1^4 + 2*(-4*c2)*L1^3*L3 + 4*(c3 - c2)*L1^3*L2 + 2*(-(3*c1 + 15*r21*c2))*L1^2*L2*L3 + (3*c1 + 15*r31*c3)*L1^2*L2^2;
    b2*L1^4 + 2*4*b2*L1^3*L3 + 4*(b2 - b3)*L1^3*L2 + 2*(3*b1 + 15*r21*b2)*L1^2*L2*L3 + (-(3*b1 + 15*r31*b3))*L1^2*L2^2;
    2*c2^2/2*L1^3*L3 + (-c2*c3)*L1^3*L2 + 2*(c1*c2 + 5/2*r21*c2^2)*L1^2*L2*L3 + (c1*c3 + 5/2*r31*c3^2)*L1^2*L2^2;
    2*(-b2*c2)*L1^3*L3 + (b2*c3 + b3*c2)*L1^3*L2 + 2*(-(b1*c2 + b2*c1 + 5*r21*b2*c2))*L1^2*L2*L3 + (-(b1*c3 + b3*c1 + 5*r31*b3*c3))*L1^2*L2^2;
    2*b2^2/2*L1^3*L3 + (-b2*b3)*L1^3*L2 + 2*(b1*b2 + 5/2*r21*b2^2)*L1^2*L2*L3 + (b1*b3 + 5/2*r31*b3^2)*L1^2*L2^2 ].
Definition Nd11 (L1 L2 L3 b1 b2 b3 c1 c2 c3 r21 r31 : R) : list R :=
  [ 20*L1^3 + 12*5*L1^2*L2 + 12*5*L1^2*L3 + 6*10*L1*L2^2 + 6*10*L1*L3^2 + 6*20*L1*L2*L3 + 2*30*r21*L2*L3^2 + 2*30*r31*L2^2*L3;
    12*c3*L1^2*L2 + 12*(-c2)*L1^2*L3 + 6*4*c3*L1*L2^2 + 6*(-4*c2)*L1*L3^2 + 6*4*(c3 - c2)*L1*L2*L3 + 2*(-(3*c1 + 15*r21*c2))*L2*L3^2 + 2*(3*c1 + 15*r31*c3)*L2^2*L3;
    12*(-b3)*L1^2*L2 + 12*b2*L1^2*L3 + 6*(-4*b3)*L1*L2^2 + 6*4*b2*L1*L3^2 + 6*4*(b2 - b3)*L1*L2*L3 + 2*(3*b1 + 15*r21*b2)*L2*L3^2 + 2*(-(3*b1 + 15*r31*b3))*L2^2*L3;
    6*c3^2/2*L1*L2^2 + 6*c2^2/2*L1*L3^2 + 6*(-c2*c3)*L1*L2*L3 + 2*(c1*c2 + 5/2*r21*c2^2)*L2*L3^2 + 2*(c1*c3 + 5/2*r31*c3^2)*L2^2*L3;
    6*(-b3*c3)*L1*L2^2 + 6*(-b2*c2)*L1*L3^2 + 6*(b2*c3 + b3*c2)*L1*L2*L3 + 2*(-(b1*c2 + b2*c1 + 5*r21*b2*c2))*L2*L3^2 + 2*(-(b1*c3 + b3*c1 + 5*r31*b3*c3))*L2^2*L3;
    6*b3^2/2*L1*L2^2 + 6*b2^2/2*L1*L3^2 + 6*(-b2*b3)*L1*L2*L3 + 2*(b1*b2 + 5/2*r21*b2^2)*L2*L3^2 + 2*(b1*b3 + 5/2*r31*b3^2)*L2^2*L3 ].
Definition Nd12 (L1 L2 L3 b1 b2 b3 c1 c2 c3 r21 r31 : R) : list R :=
  [ 4*5*L1^3 + 6*10*L1^2*L2 + 3*20*L1^2*L3 + 2*30*r21*L1*L3^2 + 4*30*r31*L1*L2*L3;
    4*c3*L1^3 + 6*4*c3*L1^2*L2 + 3*4*(c3 - c2)*L1^2*L3 + 2*(-(3*c1 + 15*r21*c2))*L1*L3^2 + 4*(3*c1 + 15*r31*c3)*L1*L2*L3;
    4*(-b3)*L1^3 + 6*(-4*b3)*L1^2*L2 + 3*4*(b2 - b3)*L1^2*L3 + 2*(3*b1 + 15*r21*b2)*L1*L3^2 + 4*(-(3*b1 + 15*r31*b3))*L1*L2*L3;
    6*c3^2/2*L1^2*L2 + 3*(-c2*c3)*L1^2*L3 + 2*(c1*c2 + 5/2*r21*c2^2)*L1*L3^2 + 4*(c1*c3 + 5/2*r31*c3^2)*L1*L2*L3;
    6*(-b3*c3)*L1^2*L2 + 3*(b2*c3 + b3*c2)*L1^2*L3 + 2*(-(b1*c2 + b2*c1 + 5*r21*b2*c2))*L1*L3^2 + 4*(-(b1*c3 + b3*c1 + 5*r31*b3*c3))*L1*L2*L3;
    6*b3^2/2*L1^2*L2 + 3*(-b2*b3)*L1^2*L3 + 2*(b1*b2 + 5/2*r21*b2^2)*L1*L3^2 + 4*(b1*b3 + 5/2*r31*b3^2)*L1*L2*L3 ].
Definition Nd13 (L1 L2 L3 b1 b2 b3 c1 c2 c3 r21 r31 : R) : list R :=
  [ 4*5*L1^3 + 6*10*L1^2*L3 + 3*20*L1^2*L2 + 4*30*r21*L1*L2*L3 + 2*30*r31*L1*L2^2;
    4*(-c2)*L1^3 + 6*(-4*c2)*L1^2*L3 + 3*4*(c3 - c2)*L1^2*L2 + 4*(-(3*c1 + 15*r21*c2))*L1*L2*L3 + 2*(3*c1 + 15*r31*c3)*L1*L2^2;
    4*b2*L1^3 + 6*4*b2*L1^2*L3 + 3*4*(b2 - b3)*L1^2*L2 + 4*(3*b1 + 15*r21*b2)*L1*L2*L3 + 2*(-(3*b1 + 15*r31*b3))*L1*L2^2;
    6*c2^2/2*L1^2*L3 + 3*(-c2*c3)*L1^2*L2 + 4*(c1*c2 + 5/2*r21*c2^2)*L1*L2*L3 + 2*(c1*c3 + 5/2*r31*c3^2)*L1*L2^2;
    6*(-b2*c2)*L1^2*L3 + 3*(b2*c3 + b3*c2)*L1^2*L2 + 4*(-(b1*c2 + b2*c1 + 5*r21*b2*c2))*L1*L2*L3 + 2*(-(b1*c3 + b3*c1 + 5*r31*b3*c3))*L1*L2^2;
    6*b2^2/2*L1^2*L3 + 3*(-b2*b3)*L1^2*L2 + 4*(b1*b2 + 5/2*r21*b2^2)*L1*L2*L3 + 2*(b1*b3 + 5/2*r31*b3^2)*L1*L2^2 ].
Definition Nd22 (L1 L2 L3 b1 b2 b3 c1 c2 c3 r21 r31 : R) : list R :=
  [ 2*10*L1^3 + 2*30*r31*L1^2*L3;
    2*4*c3*L1^3 + 2*(3*c1 + 15*r31*c3)*L1^2*L3;
    2*(-4*b3)*L1^3 + 2*(-(3*b1 + 15*r31*b3))*L1^2*L3;
    2*c3^2/2*L1^3 + 2*(c1*c3 + 5/2*r31*c3^2)*L1^2*L3;
    2*(-b3*c3)*L1^3 + 2*(-(b1*c3 + b3*c1 + 5*r31*b3*c3))*L1^2*L3;
    2*b3^2/2*L1^3 + 2*(b1*b3 + 5/2*r31*b3^2)*L1^2*L3 ].
Definition Nd23 (L1 L2 L3 b1 b2 b3 c1 c2 c3 r21 r31 : R) : list R :=
  [ 20*L1^3 + 2*30*r21*L1^2*L3 + 2*30*r31*L1^2*L2;
    4*(c3 - c2)*L1^3 + 2*(-(3*c1 + 15*r21*c2))*L1^2*L3 + 2*(3*c1 + 15*r31*c3)*L1^2*L2;
    4*(b2 - b3)*L1^3 + 2*(3*b1 + 15*r21*b2)*L1^2*L3 + 2*(-(3*b1 + 15*r31*b3))*L1^2*L2;
    (-c2*c3)*L1^3 + 2*(c1*c2 + 5/2*r21*c2^2)*L1^2*L3 + 2*(c1*c3 + 5/2*r31*c3^2)*L1^2*L2;
    (b2*c3 + b3*c2)*L1^3 + 2*(-(b1*c2 + b2*c1 + 5*r21*b2*c2))*L1^2*L3 + 2*(-(b1*c3 + b3*c1 + 5*r31*b3*c3))*L1^2*L2;
    (-b2*b3)*L1^3 + 2*(b1*b2 + 5/2*r21*b2^2)*L1^2*L3 + 2*(b1*b3 + 5/2*r31*b3^2)*L1^2*L2 ].
Definition Nd33 (L1 L2 L3 b1 b2 b3 c1 c2 c3 r21 r31 : R) : list R :=
  [ 2*10*L1^3 + 2*30*r21*L1^2*L2;
    2*(-4*c2)*L1^3 + 2*(-(3*c1 + 15*r21*c2))*L1^2*L2;
    2*4*b2*L1^3 + 2*(3*b1 + 15*r21*b2)*L1^2*L2;
    2*c2^2/2*L1^3 + 2*(c1*c2 + 5/2*r21*c2^2)*L1^2*L2;
    2*(-b2*c2)*L1^3 + 2*(-(b1*c2 + b2*c1 + 5*r21*b2*c2))*L1^2*L2;
    2*b2^2/2*L1^3 + 2*(b1*b2 + 5/2*r21*b2^2)*L1^2*L2 ].
(** All 18 functions: those of vertex 2 and 3 have the arguments rotated. *)
Definition rotated (n1 n2 n3 : R -> R -> R -> R -> R -> R -> R -> R -> R -> R -> R -> list R) (L b c : R * R * R) : list R :=
  let '(L1, L2, L3) := L in let '(b1, b2, b3) := b in let '(c1, c2, c3) := c in
  n1 L1 L2 L3 b1 b2 b3 c1 c2 c3 (rr b2 b1 c2 c1) (rr b3 b1 c3 c1) ++
  n2 L2 L3 L1 b2 b3 b1 c2 c3 c1 (rr b3 b2 c3 c2) (rr b1 b2 c1 c2) ++
  n3 L3 L1 L2 b3 b1 b2 c3 c1 c2 (rr b1 b3 c1 c3) (rr b2 b3 c2 c3).
Definition D1_ := Eval vm_compute in map (diff sL1) N_all.
Definition D2_ := Eval vm_compute in map (diff sL2) N_all.
Definition D3_ := Eval vm_compute in map (diff sL3) N_all.
Definition DD (x y : sym) := map (fun e => diff y (diff x e)) N_all.
Definition D11_ := Eval vm_compute in DD sL1 sL1.
Definition D22_ := Eval vm_compute in DD sL2 sL2.
Definition D33_ := Eval vm_compute in DD sL3 sL3.
Definition D12_ := Eval vm_compute in DD sL1 sL2.
Definition D13_ := Eval vm_compute in DD sL1 sL3.
Definition D23_ := Eval vm_compute in DD sL2 sL3.
Ltac closed_form := cbn [map teval bell_env fst snd];
  unfold Q2R; cbn [Qnum Qden]; rewrite !Rinv_1, !Rmult_1_r;
  match goal with |- context [bell_env] => fail | _ => idtac end.
Section V.
Context (L1 L2 L3 b1 b2 b3 c1 c2 c3 : R).
Let rho := bell_env (L1, L2, L3) (b1, b2, b3) (c1, c2, c3).
Lemma neg_div x y : -1 * x / y = - x / y. Proof. unfold Rdiv. ring. Qed.
Ltac go u := change (map (teval rho) u = rotated _ _ _ _ _ _) || idtac;
  unfold rotated, rho, u; cbn [map teval bell_env fst snd]; unfold Q2R; cbn [Qnum Qden]; rewrite !Rinv_1, !Rmult_1_r, !neg_div;
  fold (rr b2 b1 c2 c1) (rr b3 b1 c3 c1) (rr b3 b2 c3 c2) (rr b1 b2 c1 c2) (rr b1 b3 c1 c3) (rr b2 b3 c2 c3);
  generalize (rr b2 b1 c2 c1) (rr b3 b1 c3 c1) (rr b3 b2 c3 c2) (rr b1 b2 c1 c2) (rr b1 b3 c1 c3) (rr b2 b3 c2 c3); intros r1 r2 r3 r4 r5 r6;
  unfold Nd1, Nd2, Nd3, Nd11, Nd12, Nd13, Nd22, Nd23, Nd33; cbn [app]; repeat (apply (f_equal2 (@cons R)); [field|]); reflexivity.
Lemma v1 : map (teval rho) D1_ = rotated Nd1 Nd3 Nd2 (L1, L2, L3) (b1, b2, b3) (c1, c2, c3).
Proof. go D1_. Qed.
Lemma v2 : map (teval rho) D2_ = rotated Nd2 Nd1 Nd3 (L1, L2, L3) (b1, b2, b3) (c1, c2, c3).
Proof. go D2_. Qed.
Lemma v3 : map (teval rho) D3_ = rotated Nd3 Nd2 Nd1 (L1, L2, L3) (b1, b2, b3) (c1, c2, c3).
Proof. go D3_. Qed.
Lemma v11 : map (teval rho) D11_ = rotated Nd11 Nd33 Nd22 (L1, L2, L3) (b1, b2, b3) (c1, c2, c3).
Proof. go D11_. Qed.
Lemma v22 : map (teval rho) D22_ = rotated Nd22 Nd11 Nd33 (L1, L2, L3) (b1, b2, b3) (c1, c2, c3).
Proof. go D22_. Qed.
Lemma v33 : map (teval rho) D33_ = rotated Nd33 Nd22 Nd11 (L1, L2, L3) (b1, b2, b3) (c1, c2, c3).
Proof. go D33_. Qed.
Lemma v12 : map (teval rho) D12_ = rotated Nd12 Nd13 Nd23 (L1, L2, L3) (b1, b2, b3) (c1, c2, c3).
Proof. go D12_. Qed.
Lemma v13 : map (teval rho) D13_ = rotated Nd13 Nd23 Nd12 (L1, L2, L3) (b1, b2, b3) (c1, c2, c3).
Proof. go D13_. Qed.
Lemma v23 : map (teval rho) D23_ = rotated Nd23 Nd12 Nd13 (L1, L2, L3) (b1, b2, b3) (c1, c2, c3).
Proof. go D23_. Qed.
End V.
