(** * Specification for the consistency of the regularized thermal objective (C117). *)
From Coq Require Import Reals List ZArith.
From Coquelicot Require Import Coquelicot.
From Verif.Model Require Import Py Num Tensors Domain Refine Helpers Steps.
From Verif.Spec Require Import GridSpec QuadSpec InterpSpec PotentialSpec ConvSpec ConsistSpec MotionSpec HeatLimitSpec.
Local Open Scope R_scope.

(** A thermal step of the regularized problem: a grid of [a] x [b] cells of side [s] and its refinement [r] with [N] x [N] cells per cell. *)
Definition regularized_heat (th : therm) (r : refined_grid R) (s : R) (a b N : nat) : Prop :=
  ts_refined th = Some r /\ problem_grids (ts_grid th) (Some r) s a b /\ (1 <= N)%nat /\ / 10 ^ 15 <= s / INR N /\ refine (ts_grid th) (Z.of_nat N) = Ok r.
