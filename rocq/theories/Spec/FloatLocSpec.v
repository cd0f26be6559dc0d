(** * Locating a point with binary64 floats. *)
From Coq Require Import ZArith Reals Floats List.
From Verif.Model Require Import Py Num NumFloat Tensors Domain.
From Verif.Spec Require Import FloatSpec FloatGridSpec GridSpec.
Local Open Scope R_scope.

(** [t] is a triangle of the exact grid [g] (mesh width [s], at most [K] cells along a side), the weights [b] differ from the exact barycentric coordinates of the
    point [x] in that triangle by at most 13400 K relative rounding errors, and none of these is negative by more than the tolerance of the search. *)
Definition located (g : grid R) (s K : R) (x : R * R) (t : triangle) (b : bary float) : Prop :=
  exists p q r beta, triangle_at g t p q r /\ bary_of p q r beta x /\ close_bary (13400 * (ulp1 * K)) b beta /\
    let tol := / 10 ^ 10 / (s * s) + 300 * (ulp1 * K) in - tol <= l1 beta /\ - tol <= l2 beta /\ - tol <= l3 beta.
