(** * Specification for the consistency of the regularized energies (C112): deformations with bounded derivatives of higher order. *)
From Coq Require Import Reals List ZArith.
From Coquelicot Require Import Coquelicot.
From Verif.Model Require Import Py Num Tensors Domain Refine Helpers Steps.
From Verif.Spec Require Import GridSpec QuadSpec BellSpec InterpSpec PotentialSpec ConvSpec TaylorSpec ConsistSpec MotionSpec.
Local Open Scope R_scope.
Import ListNotations.

Definition value_at (f : R -> R -> R) (x : R * R) : R := f (fst x) (snd x).
(** The deformation with the components [u1], [u2] and their partial derivatives. *)
Definition motion_of (u1 u2 : R -> R -> R) : motion :=
  {| m1 := value_at u1; m1x := value_at (d_x u1); m1y := value_at (d_y u1); m2 := value_at u2; m2x := value_at (d_x u2); m2y := value_at (d_y u2) |}.
(** On [D], [f] is smooth as in C110, and its first and second derivatives are bounded by [k] and vary by at most [k] times the distance. *)
Definition smooth_field (D : R * R -> Prop) (k : R) (f : R -> R -> R) : Prop :=
  smooth_on D k f /\ forall G, In G [d_x f; d_y f; d_x (d_x f); d_y (d_x f); d_y (d_y f)] ->
    lipschitz_on D k (value_at G) /\ forall x, D x -> Rabs (value_at G x) <= k.
(** Six numbers per vertex of the grid: value, first and second derivatives there. *)
Definition jet_nodal (g : grid R) (f : R -> R -> R) (p : list R) : Prop :=
  length p = (6 * length (g_vertices g))%nat /\
  forall v x i, point_at g v x -> (i < 6)%nat -> nth_error p (6 * v + i) = nth_error (jet f x) i.
(** The sum of the squares of the four second derivatives. *)
Definition hessian_square (f : R -> R -> R) (a b : R) : R := d_x (d_x f) a b ^ 2 + 2 * d_y (d_x f) a b ^ 2 + d_y (d_y f) a b ^ 2.
(** The integral of the cubed norm of the second derivatives of the deformation. *)
Definition hyper_energy (w h : R) (u1 u2 : R -> R -> R) : R :=
  rectangle_integral w h (fun a b => sqrt (hessian_square u1 a b + hessian_square u2 a b) ^ 3).

(** A mechanical step of the regularized problem: a grid of [a] x [b] cells of side [s] and its refinement [r] with [N] x [N] cells per cell. *)
Definition regularized (m : mech) (r : refined_grid R) (s : R) (a b N : nat) : Prop :=
  ms_refined m = Some r /\ problem_grids (ms_grid m) (Some r) s a b /\ (1 <= N)%nat /\ / 10 ^ 15 <= s / INR N /\ refine (ms_grid m) (Z.of_nat N) = Ok r.
