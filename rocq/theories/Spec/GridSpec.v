(** * Specification vocabulary for the grid properties (C11-C26): positions, sides, areas. *)
From Coq Require Import Reals List String.
From Verif.Model Require Import Py Num Tensors Domain.
Local Open Scope R_scope.

(** [m] cells of size [s] fit into [extent], [m + 1] do not: [m = floor(extent / s)]. *)
Definition fits (extent s : R) (m : nat) : Prop := INR m * s <= extent < INR (m + 1) * s.

(** Vertex [v] of [g] is the lattice point in column [i], row [j] of the mesh of width [s]. *)
Definition vertex_at (g : grid R) (s : R) (v i j : nat) : Prop :=
  In v (g_vertices g) /\ nth_error (g_points g) v = Some [INR i * s; INR j * s].

(** Same edge, in either orientation. *)
Definition same_edge (e e' : edge) : Prop := e = e' \/ e = (snd e', fst e').
(** [e] is one of the three sides of [t] (in either orientation). *)
Definition side_of (e : edge) (t : triangle) : Prop :=
  let '(a, b, c) := t in same_edge e (a, b) \/ same_edge e (b, c) \/ same_edge e (c, a).
(** The three corners of [t]. *)
Definition corner_of (v : vertex) (t : triangle) : Prop :=
  let '(a, b, c) := t in v = a \/ v = b \/ v = c.

(** Twice the signed area of the triangle [p q r]. *)
Definition cross (p q r : R * R) : R :=
  (fst q - fst p) * (snd r - snd p) - (fst r - fst p) * (snd q - snd p).
Definition signed_area (p q r : R * R) : R := cross p q r / 2.

(** The point of vertex [v] as a pair. *)
Definition point_at (g : grid R) (v : vertex) (p : R * R) : Prop :=
  nth_error (g_points g) v = Some [fst p; snd p].

(** [p] is in the closed (open) triangle [a b c]: a convex combination with non-negative (positive) weights. *)
Definition in_triangle (a b c p : R * R) : Prop :=
  exists u v w, 0 <= u /\ 0 <= v /\ 0 <= w /\ u + v + w = 1 /\
    fst p = u * fst a + v * fst b + w * fst c /\ snd p = u * snd a + v * snd b + w * snd c.
Definition inside_triangle (a b c p : R * R) : Prop :=
  exists u v w, 0 < u /\ 0 < v /\ 0 < w /\ u + v + w = 1 /\
    fst p = u * fst a + v * fst b + w * fst c /\ snd p = u * snd a + v * snd b + w * snd c.

(** Number of elements of [l] satisfying [P], counted with a decision procedure for [P]. *)
Definition how_many {A} (l : list A) (P : A -> Prop) (n : nat) : Prop :=
  exists f : A -> bool, (forall x, In x l -> (f x = true <-> P x)) /\ length (filter f l) = n.

(** Sum of [f] over a list. *)
Fixpoint sum_over {A} (f : A -> R) (l : list A) : R := match l with [] => 0 | x :: xs => f x + sum_over f xs end.

(** The names a [fix] argument mentions. *)
Definition names_of (f : fixopt) : list string :=
  match f with FixNone => [] | FixOne n => [n] | FixList l => l end.
(** Side [d] of the rectangle is named in [f]. *)
Definition side_name (d : side) : string :=
  match d with Lower => "lower" | Right => "right" | Upper => "upper" | Left => "left" end.
Definition fixed_side (f : fixopt) (d : side) : Prop := In (side_name d) (names_of f).
(** Column [i], row [j] of an [m] x [n] cell lattice lies on side [d] (corners lie on two sides). *)
Definition on_side (m n : nat) (d : side) (i j : nat) : Prop :=
  match d with Lower => j = O | Right => i = m | Upper => j = n | Left => i = O end.

(** [t] is a triangle of [g] with corner points [p], [q], [r]. *)
Definition triangle_at (g : grid R) (t : triangle) (p q r : R * R) : Prop :=
  let '(a, b, c) := t in In t (g_triangles g) /\ point_at g a p /\ point_at g b q /\ point_at g c r.
(** Edge [e] of the [m] x [n] cell grid lies on side [d]: both ends do, and they are lattice neighbours. *)
Definition edge_on_side (g : grid R) (s : R) (m n : nat) (d : side) (e : edge) : Prop :=
  exists i j i' j', vertex_at g s (fst e) i j /\ vertex_at g s (snd e) i' j' /\
    on_side m n d i j /\ on_side m n d i' j' /\ (i' = i + 1 /\ j' = j \/ i' = i /\ j' = j + 1)%nat.
Definition vertex_on_side (g : grid R) (s : R) (m n : nat) (d : side) (v : vertex) : Prop :=
  exists i j, vertex_at g s v i j /\ on_side m n d i j.

(** ** Point location and coincidence (C20-C24) *)
(** A point as the code stores it. *)
Definition vec (p : R * R) : vector R := [fst p; snd p].
(** [(l1, l2, l3)] are barycentric coordinates of [x] in the triangle [p q r]. *)
Definition bary_of (p q r : R * R) (b : bary R) (x : R * R) : Prop :=
  l1 b + l2 b + l3 b = 1 /\
  fst x = l1 b * fst p + l2 b * fst q + l3 b * fst r /\
  snd x = l1 b * snd p + l2 b * snd q + l3 b * snd r.
Definition dist (p q : R * R) : R := sqrt ((fst p - fst q) * (fst p - fst q) + (snd p - snd q) * (snd p - snd q)).
(** All stored points are two-dimensional. *)
Definition planar (g : grid R) : Prop := forall v p, nth_error (g_points g) v = Some p -> exists q, p = vec q.
(** Average length of a non-empty edge list: [lens] lists the lengths. *)
Definition lengths_of (g : grid R) (es : list edge) (lens : list R) : Prop :=
  Forall2 (fun e l => exists p q, point_at g (fst e) p /\ point_at g (snd e) q /\ l = dist p q) es lens.
Definition mean_is_average (g : grid R) : Prop :=
  match g_mean g with
  | None => g_edges g = []
  | Some a => g_edges g <> [] /\ exists lens, lengths_of g (g_edges g) lens /\ a * INR (length (g_edges g)) = sum_over (fun x => x) lens
  end.
(** No edge is stored twice, not even reversed. *)
Definition edges_unique (es : list edge) : Prop :=
  forall k l e e', nth_error es k = Some e -> nth_error es l = Some e' -> same_edge e e' -> k = l.
(** The coincidence tolerance of a grid. *)
Definition tolerance (g : grid R) : R := match g_mean g with Some a => a / 10000000 | None => / 10 ^ 15 end.
