(** * Specification for the interpolation classes (C40, C44, C47, C48). *)
From Coq Require Import Reals List.
From Verif.Model Require Import Py Num Tensors Domain.
From Verif.Spec Require Import GridSpec.
Local Open Scope R_scope.
Import ListNotations.

(** The corners of a triangle, each with its barycentric coordinate. *)
Definition weights (t : triangle) (b : bary R) : list (vertex * R) :=
  let '(i, j, k) := t in [(i, l1 b); (j, l2 b); (k, l3 b)].
(** Coordinates of a point of the closed triangle. *)
Definition non_negative (b : bary R) : Prop := 0 <= l1 b /\ 0 <= l2 b /\ 0 <= l3 b.
(** The affine function with gradient [(al, be)] and value [ga] at the origin. *)
Definition affine (al be ga : R) (x : R * R) : R := al * fst x + be * snd x + ga.
(** [params] holds the value of [f] at every point of the grid. *)
Definition samples {A} (g : grid R) (f : R * R -> A) (params : list A) : Prop :=
  forall v p, point_at g v p -> nth_error params v = Some (f p).
