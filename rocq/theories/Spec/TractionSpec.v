(** * Specification vocabulary: work of the boundary traction (C81). *)
From Coq Require Import Reals List.
From Verif.Model Require Import Py Num Domain.
Local Open Scope R_scope.

(** The value of a list of vertex values at a vertex; the value a dictionary has for a vertex. *)
Definition at_vertex (y : list R) (v : nat) : R := nth v y 0.
Definition value_for (d : dict nat R) (v : nat) : R := match dget Nat.eqb v d with Ok x => x | Err _ => 0 end.
(** The mean of the values at the two ends of an edge. *)
Definition mean_of_ends (f : nat -> R) (e : edge) : R := (f (fst e) + f (snd e)) / 2.
