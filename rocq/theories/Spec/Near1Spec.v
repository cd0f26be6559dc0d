(** * Specification for near-minimality without regularization (C115): competing deformations of the rectangle [0, w] x [0, h]. *)
From Coq Require Import Reals List.
From Verif.Model Require Import Py Num Domain Steps Simulation.
From Verif.Spec Require Import GridSpec ConvSpec ConsistSpec NearSpec SimSpec.
Local Open Scope R_scope.
Import ListNotations.

(** The deformation [v] is the identity on the fixed sides. *)
Definition held (w h : R) (f : fixopt) (v : motion) : Prop :=
  forall d x, fixed_side f d -> rectangle w h x -> on_line w h d x -> m1 v x = fst x /\ m2 v x = snd x.
(** The positions under [u] and [v] differ by at most [rad] in each coordinate. *)
Definition nearby (w h rad : R) (u v : motion) : Prop :=
  forall x, rectangle w h x -> Rabs (m1 v x - m1 u x) <= rad /\ Rabs (m2 v x - m2 u x) <= rad.
(** The array [a] of an unregularized step holds the positions under [u] of the vertices of the grid. *)
Definition positions_of (g : grid R) (u : motion) (a : ndarray) : Prop :=
  forall v x, point_at g v x -> y_at a v 0 0 = Some (m1 u x) /\ y_at a v 1 0 = Some (m2 u x).
(** At time [t] the boundary traction passed by the user has the components [t1] and [t2] on the rectangle. *)
Definition pulls (w h : R) (u : setting) (t : R) (t1 t2 : R * R -> R) : Prop :=
  forall x, rectangle w h x -> se_traction u t (fst x) (snd x) = Ok [t1 x; t2 x].
