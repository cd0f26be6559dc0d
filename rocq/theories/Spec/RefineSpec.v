(** * Specification for the refinement properties (C27-C33): what a triangulated lattice rectangle is. *)
From Coq Require Import Reals List.
From Verif.Model Require Import Py Num Tensors Domain.
From Verif.Spec Require Import GridSpec.
Local Open Scope R_scope.

(** The corners of [t] are the lower-left, lower-right and upper-right corner of cell [(i, j)]. *)
Definition lower_at (g : grid R) (s : R) (t : triangle) (i j : nat) : Prop :=
  let '(a, b, c) := t in vertex_at g s a i j /\ vertex_at g s b (i + 1) j /\ vertex_at g s c (i + 1) (j + 1).
(** The corners of [t] are the upper-right, upper-left and lower-left corner of cell [(i, j)]. *)
Definition upper_at (g : grid R) (s : R) (t : triangle) (i j : nat) : Prop :=
  let '(a, b, c) := t in vertex_at g s a (i + 1) (j + 1) /\ vertex_at g s b i (j + 1) /\ vertex_at g s c i j.
(** [e] joins lattice neighbours: to the right, upwards or along a diagonal (in either direction). *)
Definition lattice_edge (g : grid R) (s : R) (e : edge) : Prop :=
  exists i j i' j', vertex_at g s (fst e) i j /\ vertex_at g s (snd e) i' j' /\
    (i' = i + 1 /\ j' = j \/ i' = i /\ j' = j + 1 \/ i' = i + 1 /\ j' = j + 1 \/ i = i' + 1 /\ j = j' + 1)%nat.

(** [g] is the triangulation of the [m] x [n] cell lattice of width [s] with corner at the origin. *)
Record mesh (g : grid R) (s : R) (m n : nat) : Prop := {
  mesh_numbers : g_vertices g = seq 0 (length (g_points g));
  mesh_inside : forall v, In v (g_vertices g) -> exists i j, (i <= m)%nat /\ (j <= n)%nat /\ vertex_at g s v i j;
  mesh_points : forall i j, (i <= m)%nat -> (j <= n)%nat -> exists! v, vertex_at g s v i j;
  mesh_triangles_once : NoDup (g_triangles g);
  mesh_triangles : forall t, In t (g_triangles g) <->
    exists i j, (i < m)%nat /\ (j < n)%nat /\ (lower_at g s t i j \/ upper_at g s t i j);
  mesh_edges_once : edges_unique (g_edges g);
  mesh_edges : forall e, (exists e', In e' (g_edges g) /\ same_edge e e') <-> exists t, In t (g_triangles g) /\ side_of e t;
  mesh_directions : forall e, In e (g_edges g) -> lattice_edge g s e
}.

(** [b] is a part of the outline of the mesh. *)
Record outline (g : grid R) (s : R) (m n : nat) (b : boundary) : Prop := {
  outline_vertices_once : NoDup (b_vertices b);
  outline_vertices : incl (b_vertices b) (g_vertices g);
  outline_edges_once : NoDup (b_edges b);
  outline_edges : incl (b_edges b) (g_edges g);
  outline_sides : forall e, In e (b_edges b) -> exists d, edge_on_side g s m n d e
}.
(** The three boundaries of a grid. *)
Definition boundaries_outline (g : grid R) (s : R) (m n : nat) : Prop :=
  outline g s m n (g_boundary g) /\ outline g s m n (g_dirichlet g) /\ outline g s m n (g_neumann g).

(** The point [u] of the way from [p] to [q]. *)
Definition along (p q : R * R) (u : R) : R * R := (fst p + u * (fst q - fst p), snd p + u * (snd q - snd p)).
(** [x] is the point of edge [e] with parameter [t]: the convention of the code, [t = 1] at the first end. *)
Definition edge_point (g : grid R) (e : edge) (t : R) (x : R * R) : Prop :=
  exists p q, point_at g (fst e) p /\ point_at g (snd e) q /\ x = along q p t.
(** Edge [e'] of [g'] lies on edge [e] of [g]. *)
Definition lies_on (g' : grid R) (e' : edge) (g : grid R) (e : edge) : Prop :=
  exists p q u u', point_at g (fst e) p /\ point_at g (snd e) q /\ 0 <= u <= 1 /\ 0 <= u' <= 1 /\
    point_at g' (fst e') (along p q u) /\ point_at g' (snd e') (along p q u').
(** [e] is horizontal or vertical; [e] is neither. *)
Definition axis_parallel (g : grid R) (e : edge) : Prop :=
  exists p q, point_at g (fst e) p /\ point_at g (snd e) q /\ (fst p = fst q \/ snd p = snd q).
Definition diagonal (g : grid R) (e : edge) : Prop :=
  exists p q, point_at g (fst e) p /\ point_at g (snd e) q /\ fst p <> fst q /\ snd p <> snd q.
(** [v] is the [k]-th of the points dividing edge [e] of [g] into [n] equal parts; [e'] is the [k]-th part. *)
Definition division_point (g : grid R) (e : edge) (n k : nat) (g' : grid R) (v : vertex) : Prop :=
  exists p q, point_at g (fst e) p /\ point_at g (snd e) q /\ point_at g' v (along p q (INR k / INR n)).
Definition part_of (g : grid R) (e : edge) (n k : nat) (g' : grid R) (e' : edge) : Prop :=
  division_point g e n k g' (fst e') /\ division_point g e n (k + 1) g' (snd e').
