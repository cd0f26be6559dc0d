(** * Specification for the consistency of the thermal objective (C116-C119): the functional of the temperature that the code's sums
    approximate, for the previous deformation [u], the new deformation [v] and the previous temperature [theta0]. *)
From Coq Require Import Reals List.
From Coquelicot Require Import Coquelicot.
From Verif.Model Require Import Py Num Tensors Domain Helpers Steps.
From Verif.Spec Require Import GridSpec QuadSpec InterpSpec PotentialSpec ConvSpec ConsistSpec WorkSpec.
Local Open Scope R_scope.
Import ListNotations.

(** A temperature with its partial derivatives. *)
Record heat := { temp : R * R -> R; temp_x : R * R -> R; temp_y : R * R -> R }.
(** On [D], temperatures between 0 and [k]. *)
Definition between_on (D : R * R -> Prop) (k : R) (f : R * R -> R) : Prop := forall x, D x -> 0 <= f x <= k.
Definition regular_heat (D : R * R -> Prop) (k : R) (q : heat) : Prop := regular_field D k (temp q) (temp_x q) (temp_y q) /\ between_on D k (temp q).

(** Conduction minus heat produced times temperature: the integral over the body of the package's density (thermal_step.py:80-97) at the
    exact strains, temperatures and temperature gradients. *)
Definition heat_energy (w h fps : R) (u v : motion) (theta0 : R * R -> R) (q : heat) : R :=
  rectangle_integral w h (fun a b => value (energy_potential fps (mat (gradient_of u (a, b))) (mat (gradient_of v (a, b))) (theta0 (a, b)) (temp q (a, b)) [temp_x q (a, b); temp_y q (a, b)])).
(** The change of internal energy (thermal_step.py:100-107). *)
Definition heat_storage (w h : R) (u v : motion) (theta0 : R * R -> R) (q : heat) : R :=
  rectangle_integral w h (fun a b => value (thermal_dissipation_potential (mat (gradient_of u (a, b))) (mat (gradient_of v (a, b))) (theta0 (a, b)) (temp q (a, b)))).
(** The exchange of heat with the surroundings at temperature [ext]: half the transfer coefficient times the squared difference,
    integrated over all four sides. *)
Definition heat_exchange (w h ext : R) (q : heat) : R := sides_integral w h all_sides (fun x => 1 / 4 * (temp q x - ext) ^ 2).
(** The functional that the unregularized thermal step minimizes over the temperatures, in the continuum. *)
Definition heat_functional (w h fps ext : R) (u v : motion) (theta0 : R * R -> R) (q : heat) : R :=
  heat_energy w h fps u v theta0 q + heat_exchange w h ext q + fps * heat_storage w h u v theta0 q.
