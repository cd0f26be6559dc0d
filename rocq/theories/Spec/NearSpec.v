(** * Specification for near-minimality (C113): competing deformations of the rectangle [0, w] x [0, h]. *)
From Coq Require Import Reals List.
From Verif.Model Require Import Py Num Tensors Domain Steps Simulation.
From Verif.Spec Require Import GridSpec BellSpec ConvSpec ConsistRSpec SimSpec.
Local Open Scope R_scope.

(** The point [x] of the rectangle lies on its side [d]. *)
Definition on_line (w h : R) (d : side) (x : R * R) : Prop :=
  match d with Lower => snd x = 0 | Right => fst x = w | Upper => snd x = h | Left => fst x = 0 end.
(** The deformation with the components [v1], [v2] is the identity on the fixed sides. *)
Definition clamped (w h : R) (f : fixopt) (v1 v2 : R -> R -> R) : Prop :=
  forall d x, fixed_side f d -> rectangle w h x -> on_line w h d x -> v1 (fst x) (snd x) = fst x /\ v2 (fst x) (snd x) = snd x.
(** Values, first and second derivatives of [u] and [v] differ by at most [rad] on the rectangle. *)
Definition within_reach (w h rad : R) (u v : R -> R -> R) : Prop :=
  forall x i, rectangle w h x -> (i < 6)%nat -> Rabs (nth i (jet v x) 0 - nth i (jet u x) 0) <= rad.
(** The array [a] of a regularized step holds values and derivatives of [u1] and [u2] at the vertices of the grid. *)
Definition array_of (g : grid R) (u1 u2 : R -> R -> R) (a : ndarray) : Prop :=
  forall v x i, point_at g v x -> (i < 6)%nat ->
    y_at a v 0 i = nth_error (jet u1 x) i /\ y_at a v 1 i = nth_error (jet u2 x) i.
