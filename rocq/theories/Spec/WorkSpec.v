(** * Specification for the boundary terms (C114, C115): integrals over sides of the rectangle. *)
From Coq Require Import Reals List String.
From Coquelicot Require Import Coquelicot.
From Verif.Model Require Import Py Num Domain.
From Verif.Spec Require Import GridSpec.
Local Open Scope R_scope.
Import ListNotations.

(** The point at position [t] along side [d] of the rectangle [w] x [h], and the length of that side. *)
Definition along_side (w h : R) (d : side) (t : R) : R * R :=
  match d with Lower => (t, 0) | Right => (w, t) | Upper => (t, h) | Left => (0, t) end.
Definition side_length (w h : R) (d : side) : R := match d with Lower => w | Right => h | Upper => w | Left => h end.
(** The integral of [F] over side [d], and over several sides. *)
Definition side_integral (w h : R) (d : side) (F : R * R -> R) : R := RInt (fun t => F (along_side w h d t)) 0 (side_length w h d).
Definition sides_integral (w h : R) (ds : list side) (F : R * R -> R) : R := sum_over (fun d => side_integral w h d F) ds.
Definition all_sides : list side := [Lower; Right; Upper; Left].
(** The sides that the [fix] argument does not name. *)
Definition free_sides (f : fixopt) : list side := filter (fun d => negb (existsb (String.eqb (side_name d)) (names_of f))) all_sides.
(** Work of the traction [(t1, t2)] on the deformation [(v1, v2)]: its integral over the free sides. *)
Definition boundary_work (w h : R) (f : fixopt) (t1 t2 v1 v2 : R * R -> R) : R :=
  sides_integral w h (free_sides f) (fun x => t1 x * v1 x + t2 x * v2 x).
(** The dictionary [d] holds the values of [t] at vertices of the grid. *)
Definition holds_values (g : grid R) (t : R * R -> R) (d : dict nat R) : Prop :=
  forall v p x, dget Nat.eqb v d = Ok x -> point_at g v p -> x = t p.
Definition bounded_on (D : R * R -> Prop) (k : R) (f : R * R -> R) : Prop := forall x, D x -> Rabs (f x) <= k.
