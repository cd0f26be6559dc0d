(** * Specification for C24: two grids that are the same up to numbering and listing order. *)
From Coq Require Import Reals List Permutation.
From Verif.Model Require Import Py Num Tensors Domain.
From Verif.Spec Require Import GridSpec.
Local Open Scope R_scope.

(** Same triangle up to cyclic rotation of its corners. *)
Definition same_triangle (t t' : triangle) : Prop :=
  let '(a, b, c) := t' in t = (a, b, c) \/ t = (b, c, a) \/ t = (c, a, b).
(** [l'] is a reordering of [l], element by element equal up to [rel]. *)
Definition reordering {A} (rel : A -> A -> Prop) (l l' : list A) : Prop :=
  exists l0, Permutation l0 l /\ Forall2 rel l' l0.
Definition edge_image (f : nat -> nat) (e : edge) : edge := (f (fst e), f (snd e)).
Definition triangle_image (f : nat -> nat) (t : triangle) : triangle := let '(a, b, c) := t in (f a, f b, f c).
Definition same_boundary (f : nat -> nat) (b b' : boundary) : Prop :=
  Permutation (map f (b_vertices b')) (b_vertices b) /\
  reordering same_edge (b_edges b) (map (edge_image f) (b_edges b')).

(** [g'] is [g] renumbered: [f] sends the numbers of [g'] to those of [g]. *)
Definition renumbering (f : nat -> nat) (g g' : grid R) : Prop :=
  Permutation (g_vertices g) (g_vertices g') /\
  length (g_points g) = length (g_points g') /\
  (forall v, (v < length (g_points g'))%nat -> (f v < length (g_points g))%nat /\ nth_error (g_points g') v = nth_error (g_points g) (f v)) /\
  reordering same_edge (g_edges g) (map (edge_image f) (g_edges g')) /\
  reordering same_triangle (g_triangles g) (map (triangle_image f) (g_triangles g')) /\
  same_boundary f (g_boundary g) (g_boundary g') /\
  same_boundary f (g_dirichlet g) (g_dirichlet g') /\
  same_boundary f (g_neumann g) (g_neumann g').

(** Everything refers to existing points. *)
Definition refers_to_points (g : grid R) : Prop :=
  let N := length (g_points g) in
  let edge_ok e := (fst e < N)%nat /\ (snd e < N)%nat in
  let boundary_ok b := (forall v, In v (b_vertices b) -> (v < N)%nat) /\ (forall e, In e (b_edges b) -> edge_ok e) in
  (forall e, In e (g_edges g) -> edge_ok e) /\
  (forall a b c, In (a, b, c) (g_triangles g) -> (a < N /\ b < N /\ c < N)%nat) /\
  boundary_ok (g_boundary g) /\ boundary_ok (g_dirichlet g) /\ boundary_ok (g_neumann g).
(** Points are further apart than the coincidence tolerance, which is positive. *)
Definition separated (g : grid R) : Prop :=
  planar g /\ 0 < tolerance g /\
  forall v w p q, v <> w -> point_at g v p -> point_at g w q -> tolerance g <= dist p q.
