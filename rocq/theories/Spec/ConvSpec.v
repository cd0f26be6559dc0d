(** * Specification for convergence with the mesh (C108, C109): how much a function of the plane varies. *)
From Coq Require Import Reals List.
From Verif.Model Require Import Py Num Tensors Domain.
From Verif.Spec Require Import GridSpec.
Local Open Scope R_scope.

(** The closed rectangle [[0, a] x [0, b]]. *)
Definition rectangle (a b : R) (x : R * R) : Prop := 0 <= fst x <= a /\ 0 <= snd x <= b.
(** On [D], [f] varies by at most [k] times the distance. *)
Definition lipschitz_on (D : R * R -> Prop) (k : R) (f : R * R -> R) : Prop :=
  forall x y, D x -> D y -> Rabs (f x - f y) <= k * dist x y.
(** On [D], [f] deviates from the affine function with its value and the gradient [(fx x, fy x)] at [x] by at most [k/2]
    times the squared distance (so [fx], [fy] are the partial derivatives of [f] and [k] bounds its second derivatives). *)
Definition curved_on (D : R * R -> Prop) (k : R) (f fx fy : R * R -> R) : Prop := forall x y, D x -> D y ->
  Rabs (f y - f x - fx x * (fst y - fst x) - fy x * (snd y - snd x)) <= k / 2 * (dist x y * dist x y).
