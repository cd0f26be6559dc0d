(** * Specification for the consistency of the energies (C111-C113): deformations of a rectangle with bounded derivatives and the
    integrals their discrete energies approximate. *)
From Coq Require Import Reals List.
From Coquelicot Require Import Coquelicot.
From Verif.Model Require Import Py Num Tensors Domain Helpers.
From Verif.Spec Require Import GridSpec QuadSpec InterpSpec PotentialSpec ConvSpec.
Local Open Scope R_scope.

(** A deformation: its two components with their partial derivatives. *)
Record motion := { m1 : R * R -> R; m1x : R * R -> R; m1y : R * R -> R; m2 : R * R -> R; m2x : R * R -> R; m2y : R * R -> R }.
Definition gradient_of (u : motion) (x : R * R) : strain2 := PotentialSpec.st (m1x u x) (m1y u x) (m2x u x) (m2y u x).
(** On [D], [fx] and [fy] are the partial derivatives of [f]; they are bounded by [k] and vary by at most [k] times the distance. *)
Definition regular_field (D : R * R -> Prop) (k : R) (f fx fy : R * R -> R) : Prop :=
  curved_on D k f fx fy /\ lipschitz_on D k fx /\ lipschitz_on D k fy /\ forall x, D x -> Rabs (fx x) <= k /\ Rabs (fy x) <= k.
Definition regular_motion (D : R * R -> Prop) (k : R) (u : motion) : Prop :=
  regular_field D k (m1 u) (m1x u) (m1y u) /\ regular_field D k (m2 u) (m2x u) (m2y u).
(** A temperature: not negative, varying by at most [k] times the distance. *)
Definition regular_temperature (D : R * R -> Prop) (k : R) (theta : R * R -> R) : Prop := lipschitz_on D k theta /\ forall x, D x -> 0 <= theta x.
(** One number per vertex of the grid: the value there. *)
Definition nodal (g : grid R) (f : R * R -> R) (p : list R) : Prop := length p = length (g_vertices g) /\ samples g f p.

(** The elastic energy of the deformation [u] at the temperature [theta], and the dissipation from [u] to [v], of the body [w] x [h]:
    integrals of the densities of the package (C50-C52, C56) at the exact strains. *)
Definition elastic_energy (w h : R) (u : motion) (theta : R * R -> R) : R :=
  rectangle_integral w h (fun a b => value (total_elastic_potential (mat (gradient_of u (a, b))) (theta (a, b)))).
Definition dissipated (w h : R) (u v : motion) : R :=
  rectangle_integral w h (fun a b => value (dissipation_potential (mat (gradient_of u (a, b))) (mat (gradient_of v (a, b))))).

(** On the rectangle [w] x [h], [fx] and [fy] are the partial derivatives of [f]. *)
Definition partials_on (w h : R) (f fx fy : R * R -> R) : Prop := forall x, rectangle w h x ->
  is_derive (fun a => f (a, snd x)) (fst x) (fx x) /\ is_derive (fun b => f (fst x, b)) (snd x) (fy x).
