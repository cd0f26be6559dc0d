(** * Specification for convergence of the C1 interpolation (C110): functions with bounded fifth derivatives. *)
From Coq Require Import Reals List.
From Verif.Model Require Import Py Num Tensors Domain.
From Verif.Spec Require Import GridSpec BellSpec QuadSpec.
Local Open Scope R_scope.
Import ListNotations.

(** Value, first and second derivatives [u] and [v] (in the order of [jet]) differ by at most [k] times the fifth, fourth and
    third power of [d]. *)
Definition jets_within (k d : R) (u v : list R) : Prop :=
  match u, v with
  | [u0; ux; uy; uxx; uxy; uyy], [v0; vx; vy; vxx; vxy; vyy] =>
      Rabs (u0 - v0) <= k * d ^ 5 /\ Rabs (ux - vx) <= k * d ^ 4 /\ Rabs (uy - vy) <= k * d ^ 4 /\
      Rabs (uxx - vxx) <= k * d ^ 3 /\ Rabs (uxy - vxy) <= k * d ^ 3 /\ Rabs (uyy - vyy) <= k * d ^ 3
  | _, _ => False
  end.
(** Around each point [x] of [D], [f] and its first and second derivatives are those of a polynomial of degree four (the Taylor
    polynomial of [f] at [x]) up to [k] times the fifth, fourth and third power of the distance from [x]: what a bound on the
    fifth derivatives of [f] gives. *)
Definition smooth_on (D : R * R -> Prop) (k : R) (f : R -> R -> R) : Prop := forall x, D x ->
  exists P, degree_le 4 P /\ forall y, D y -> jets_within k (dist x y) (jet f y) (jet (peval P) y).
(** [d i j] are the partial derivatives ([i] times in the first, [j] times in the second variable) of [f] up to order five,
    those of order five being at most [k] in absolute value on [D]. *)
Definition five_derivatives (D : R * R -> Prop) (k : R) (f : R -> R -> R) (d : nat -> nat -> R -> R -> R) : Prop :=
  d 0%nat 0%nat = f /\ (forall i j, (i + j <= 4)%nat -> partials (d i j) (d (S i) j) (d i (S j))) /\
  (forall i j x, (i + j = 5)%nat -> D x -> Rabs (d i j (fst x) (snd x)) <= k).
