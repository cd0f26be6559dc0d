(** * Specification vocabulary: rigid motions of deformations (C80). *)
From Coq Require Import Reals List.
From Verif.Model Require Import Py Num Tensors Domain Refine Interp Steps.
Local Open Scope R_scope.
Import ListNotations.

(** The deformation with parameters [(z1, z2)] is the one with parameters [(y1, y2)] followed by the rotation with cosine [c] and
    sine [s] and the translation by [(t1, t2)]: the values (parameter 0 of every vertex) are rotated and shifted, the derivatives
    (C1 interpolation has five more parameters per vertex) rotated. *)
Definition moved (rg : option (refined_grid R)) (c s t1 t2 : R) (y1 y2 z1 z2 : list R) : Prop :=
  length z1 = length y1 /\ length z2 = length y2 /\
  forall v j a b, (j < dofs rg)%nat -> nth_error y1 (v * dofs rg + j) = Some a -> nth_error y2 (v * dofs rg + j) = Some b ->
    nth_error z1 (v * dofs rg + j) = Some (c * a - s * b + (if Nat.eqb j 0 then t1 else 0)) /\
    nth_error z2 (v * dofs rg + j) = Some (s * a + c * b + (if Nat.eqb j 0 then t2 else 0)).
From Coq Require Import ZArith.
From Verif.Spec Require Import GridSpec.
(** The grids of a time step: the grid of a rectangle with [a] x [b] cells of size [s] and, if there is regularization, a
    refinement of it. *)
Definition problem_grids (g : grid R) (rg : option (refined_grid R)) (s : R) (a b : nat) : Prop :=
  0 < s /\ (1 <= a)%nat /\ (1 <= b)%nat /\
  (exists so w h f, fits w s a /\ fits h s b /\ domain_grid so w h f s = Ok g) /\
  match rg with None => True | Some r => exists N, (1 <= N)%nat /\ / 10 ^ 15 <= s / INR N /\ refine g (Z.of_nat N) = Ok r end.
(** The sum of the weights of the quadrature rule: the 15 digits of the regularized rule sum to slightly less than 1. *)
Definition mass (rg : option (refined_grid R)) : R := match rg with None => 1 | Some _ => 1 - / 10 ^ 15 end.
