(** * Comparing a grid computed with binary64 floats with the exact one. *)
From Coq Require Import ZArith Reals Floats List.
From Verif.Model Require Import Py Num NumFloat Tensors Domain Refine.
From Verif.Spec Require Import FloatSpec.
Import ListNotations.
Local Open Scope R_scope.

(** The float [a] is a number at distance at most [e] from the real [x]. *)
Definition close (e : R) (a : float) (x : R) : Prop := is_num a /\ Rabs (real_of a - x) <= e.
(** The same vertices, edges, triangles and boundaries, in the same order and with the same orientations. *)
Definition same_indices (g : grid float) (g' : grid R) : Prop :=
  g_vertices g = g_vertices g' /\ g_edges g = g_edges g' /\ g_triangles g = g_triangles g' /\
  g_boundary g = g_boundary g' /\ g_dirichlet g = g_dirichlet g' /\ g_neumann g = g_neumann g'.
(** As many points, each coordinate of each of them within [e]. *)
Definition close_points (e : R) (P : list (vector float)) (Q : list (vector R)) : Prop := Forall2 (Forall2 (close e)) P Q.
(** Looking up the point of a vertex finds that vertex. *)
Definition finds_vertices (g : grid float) : Prop := forall v p, nth_error (g_points g) v = Some p -> point_to_vertex g p = Ok (Some v).
(** A number of cells [m] for a side of length [extent]: as many whole mesh widths as fit, up to one rounding error. *)
Definition almost_fits (extent s : R) (m : nat) : Prop := INR m * s <= (1 + ulp1) * extent /\ extent < INR (m + 1) * s.
(** The same keys in the same order, with values within [e]. *)
Definition close_bary (e : R) (b : bary float) (c : bary R) : Prop := close e (l1 b) (l1 c) /\ close e (l2 b) (l2 c) /\ close e (l3 b) (l3 c).
Definition close_bary3 (e : R) (b : bary3 float) (c : bary3 R) : Prop :=
  let '(b1, b2, b3) := b in let '(c1, c2, c3) := c in close_bary e b1 c1 /\ close_bary e b2 c2 /\ close_bary e b3 c3.
Definition close_pair (e : R) (b : float * float) (c : R * R) : Prop := close e (fst b) (fst c) /\ close e (snd b) (snd c).
Definition close_dict {K V W} (near : V -> W -> Prop) (d : dict K V) (d' : dict K W) : Prop :=
  Forall2 (fun x y => fst x = fst y /\ near (snd x) (snd y)) d d'.
(** As many points, each coordinate of each of them correct up to one relative rounding error. *)
Definition rounded_points (P : list (vector float)) (Q : list (vector R)) : Prop := Forall2 (Forall2 (fun a x => close (ulp1 * Rabs x) a x)) P Q.

(** Floats of moderate size: numbers, the mesh width after refining [N] times between 10^-14 and 2^400, at least one cell along each side and at most half a million
    after refining. *)
Definition moderate (w h s : float) (N : nat) : Prop :=
  is_num w /\ is_num h /\ is_num s /\ (1 <= N)%nat /\ / 10 ^ 14 <= real_of s / INR N /\ real_of s <= 2 ^ 400 /\
  real_of s <= real_of w /\ real_of s <= real_of h /\ INR N * real_of w <= 500000 * real_of s /\ INR N * real_of h <= 500000 * real_of s.
