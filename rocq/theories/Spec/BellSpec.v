(** * Specification for the Bell element (C41-C46): coordinates, jets, differentiability. *)
From Coq Require Import Reals List.
From Coquelicot Require Import Coquelicot.
From Verif.Model Require Import Py Num Tensors.
From Verif.Spec Require Import GridSpec.
Local Open Scope R_scope.
Import ListNotations.

(** Value, first and second partial derivatives of [f] at [p], in the order the code stores them:
    u, u_x, u_y, u_xx, u_xy, u_yy. *)
Definition d_x (f : R -> R -> R) : R -> R -> R := fun x y => Derive (fun s => f s y) x.
Definition d_y (f : R -> R -> R) : R -> R -> R := fun x y => Derive (fun s => f x s) y.
Definition jet (f : R -> R -> R) (p : R * R) : list R :=
  let at_p (g : R -> R -> R) := g (fst p) (snd p) in
  [at_p f; at_p (d_x f); at_p (d_y f); at_p (d_x (d_x f)); at_p (d_y (d_x f)); at_p (d_y (d_y f))].

(** [fx] and [fy] are the partial derivatives of [f], everywhere. *)
Definition partials (f fx fy : R -> R -> R) : Prop :=
  forall x y, is_derive (fun s => f s y) x (fx x y) /\ is_derive (fun s => f x s) y (fy x y).
(** A vector and a symmetric matrix of the shapes the code returns. *)
Definition gradient_value (gx gy : R) : vector R := [gx; gy].
Definition hessian_value (hxx hxy hyy : R) : matrix R := mkMatrix 2 2 [[hxx; hxy]; [hxy; hyy]].

(** A vertex of a triangle: its point and its six parameters. *)
Record node := { pos : R * R; dofs : list R }.
(** Three vertices in some order, each with the barycentric coordinate belonging to it. *)
Definition listing := ((node * R) * (node * R) * (node * R))%type.
Definition listed (w : listing) : list (node * R) := let '(a, b, c) := w in [a; b; c].
(** Calling a function of (triangle vertices, barycentric coordinates, parameters) with that order. *)
Definition call {A} (f : vector R * vector R * vector R -> bary R -> vector R -> res A) (w : listing) : res A :=
  let '((n1, l1), (n2, l2), (n3, l3)) := w in
  f (vec (pos n1), vec (pos n2), vec (pos n3)) (l1, l2, l3) (dofs n1 ++ dofs n2 ++ dofs n3).
Definition non_degenerate (n1 n2 n3 : node) : Prop := cross (pos n1) (pos n2) (pos n3) <> 0.
Definition six_dofs (n : node) : Prop := length (dofs n) = 6%nat.
