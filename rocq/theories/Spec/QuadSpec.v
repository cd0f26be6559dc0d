(** * Specification for quadrature (C34-C39): polynomials, their integrals, and what a rule computes. *)
From Coq Require Import Reals List.
From Coquelicot Require Import Coquelicot.
From Verif.Model Require Import Py Num Tensors Domain Quadrature.
From Verif.Spec Require Import GridSpec.
Local Open Scope R_scope.
Import ListNotations.

(** A polynomial in two variables: a list of terms [c * x^i * y^j]. *)
Definition poly2 := list (R * (nat * nat)).
Definition peval (p : poly2) (x y : R) : R := fold_right (fun '(c, (i, j)) acc => c * x ^ i * y ^ j + acc) 0 p.
Definition degree_le (d : nat) (p : poly2) : Prop := forall c i j, In (c, (i, j)) p -> (i + j <= d)%nat.
Definition abs_coefficients (p : poly2) : R := fold_right (fun '(c, _) acc => Rabs c + acc) 0 p.

(** Integral over the reference triangle with corners (0,0), (1,0), (0,1), as an iterated Riemann integral. *)
Definition reference_integral (f : R -> R -> R) : R := RInt (fun x => RInt (fun y => f x y) 0 (1 - x)) 0 1.

(** What a rule computes for a function of the first two barycentric coordinates. *)
Fixpoint weighted_sum {A} (points : list A) (weights : list R) (f : A -> R) : R :=
  match points, weights with
  | p :: ps, w :: ws => w * f p + weighted_sum ps ws f
  | _, _ => 0
  end.
Definition rule_value (r : rule R) (f : R -> R -> R) : R :=
  weighted_sum (q_points r) (q_weights r) (fun b => f (l1 b) (l2 b)).
(** The rule gives the mean over the reference triangle (area 1/2) of every polynomial of degree [d]. *)
Definition exact_to (r : rule R) (d : nat) : Prop :=
  forall p, degree_le d p -> rule_value r (peval p) = 2 * reference_integral (peval p).

(** Polynomials in one variable: coefficients from the constant term up. *)
Definition peval1 (p : list R) (x : R) : R := fold_right (fun c acc => c + x * acc) 0 p.
(** A rule (points, weights) on [[a, b]] is exact to degree [d]. *)
Definition exact1 (points weights : list R) (a b : R) (d : nat) : Prop :=
  forall p, (length p <= d + 1)%nat -> weighted_sum points weights (peval1 p) = RInt (peval1 p) a b.

(** ** Triangulations and edge lists given by a list of points *)
(** The corners of triangle [t] are [p], [q], [r]. *)
Definition corners (points : list (vector R)) (t : triangle) (p q r : R * R) : Prop :=
  let '(a, b, c) := t in
  nth_error points a = Some (vec p) /\ nth_error points b = Some (vec q) /\ nth_error points c = Some (vec r).
Definition ends (points : list (vector R)) (e : edge) (p q : R * R) : Prop :=
  nth_error points (fst e) = Some (vec p) /\ nth_error points (snd e) = Some (vec q).
(** Integral over the triangle [p q r]: the reference triangle is mapped onto it affinely, the Jacobian
    determinant of the map is [cross p q r]. *)
Definition triangle_integral (p q r : R * R) (f : R -> R -> R) : R :=
  Rabs (cross p q r) *
  reference_integral (fun u v => f (u * fst p + v * fst q + (1 - u - v) * fst r) (u * snd p + v * snd q + (1 - u - v) * snd r)).
(** Integral over the rectangle [[0, a] x [0, b]]. *)
Definition rectangle_integral (a b : R) (f : R -> R -> R) : R := RInt (fun x => RInt (fun y => f x y) 0 b) 0 a.
(** Line integral over the segment from [p] to [q] of a function of the parameter [t] in [[0, 1]]. *)
Definition segment_integral (p q : R * R) (f : R -> R) : R := dist p q * RInt f 0 1.
(** Area of the triangle [p q r]. *)
Definition area (p q r : R * R) : R := Rabs (signed_area p q r).
