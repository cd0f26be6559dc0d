(** * Specification vocabulary: the thermal time step (C82-C86). *)
From Coq Require Import Reals List ZArith.
From Verif.Spec Require Import GridSpec PotentialSpec.
From Verif.Model Require Import Py Num Tensors Domain Refine Quadrature Integrators Interp Helpers Steps Simulation.
From Verif.Spec Require Import SimSpec EnergySpec.
Local Open Scope R_scope.
Import ListNotations.

(** [theta] has one temperature for every vertex of the grid carrying the temperature. *)
Definition temperatures_of (s : therm) (theta : list R) : Prop := length theta = length (g_vertices (theta_grid (ts_grid s) (ts_refined s))).
Definition non_negative_values (theta : list R) : Prop := forall x, In x theta -> 0 <= x.
(** [theta] is admissible for the variables of the thermal problem: bounds and domain. *)
Definition feasible (s : therm) (theta : list R) : Prop :=
  length theta = length (ts_theta s) /\ non_negative_values theta /\
  forall i x v, nth_error (ts_theta s) i = Some x -> nth_error theta i = Some v -> v_lb x <= v <= v_ub x.
(** [theta] minimizes the objective over the admissible temperatures. *)
Definition minimizes (leggauss : Z -> res (list R * list R)) (s : therm) (theta : list R) : Prop :=
  feasible s theta /\ exists J, therm_objective leggauss s theta = Ok J /\
    forall theta' J', feasible s theta' -> therm_objective leggauss s theta' = Ok J' -> J <= J'.
(** [theta] lies strictly inside the bounds and the domain. *)
Definition interior (s : therm) (theta : list R) : Prop :=
  length theta = length (ts_theta s) /\ (forall x, In x theta -> 0 < x) /\
  forall i x v, nth_error (ts_theta s) i = Some x -> nth_error theta i = Some v -> v_lb x < v < v_ub x.

(** Martensite exceeds austenite by at most [c] at the points of the quadrature rule, for the new deformation. *)
Definition moderate_martensite (s : therm) (q : rule R) (c : R) : Prop :=
  let g := ts_grid s in let rg := ts_refined s in
  forall t b, In t (g_triangles (theta_grid g rg)) -> In b (q_points q) ->
  exists F wa wm, deform_strain (comp_interp g rg (ts_y1 s)) (comp_interp g rg (ts_y2 s)) t b = Ok (mat F) /\
    austenite_potential (mat F) = Ok wa /\ martensite_potential (mat F) = Ok wm /\ wm - wa <= c.
(** The rule the thermal step integrates with. *)
Definition therm_rule (s : therm) : res (rule R) := match ts_refined s with None => DUNAVANT2 | Some _ => DUNAVANT5 end.

(** The weak form of the heat equation at a point, with test function [eta] and [k] times the conductivity of the code:
    k * flux . grad eta + (fps * (change of internal energy) - dissipation rate - adiabatic power) * eta. *)
Definition heat_equation (s : therm) (k : R) (theta eta : list R) (t : triangle) (b : bary R) : res R :=
  let g := ts_grid s in let rg := ts_refined s in
  let* F0 := deform_strain (comp_interp g rg (ts_prev_y1 s)) (comp_interp g rg (ts_prev_y2 s)) t b in
  let* F := deform_strain (comp_interp g rg (ts_y1 s)) (comp_interp g rg (ts_y2 s)) t b in
  let* th0 := i_call (temp_interp g rg (ts_prev_theta s)) t b in
  let* th := i_call (temp_interp g rg theta) t b in
  let* grad := i_gradient (temp_interp g rg theta) t b in
  let* e := i_call (temp_interp g rg eta) t b in
  let* grad_e := i_gradient (temp_interp g rg eta) t b in
  let* K := heat_conductivity_reference F0 in
  let* flux := Matrix_dot K grad in
  let* U := internal_energy F th in
  let* U0 := internal_energy F0 th0 in
  let* rate := dissipation_rate F0 F (ts_fps s) in
  let* c := strain_derivative_coupling_potential F0 th0 in
  let* d := Matrix_sub F F0 in
  let* v := Matrix_mul d (ts_fps s) in
  let* power := Matrix_scalar_product c v in
  Ok (k * Vector_dot grad_e flux + (ts_fps s * (U - U0) - (rate + power)) * e).
(** Heat lost through the edge [e] at parameter [t], weighted with the test function: 0.5 * (theta - external) * eta. *)
Definition heat_loss (s : therm) (theta eta : list R) (e : edge) (t : R) : res R :=
  let* th := i_on_edge (P1I (ts_grid s) theta) e t in
  let* w := i_on_edge (P1I (ts_grid s) eta) e t in
  Ok (1 / 2 * (th - ts_ext s) * w).

(** The heat equation in weak form: the integral of [heat_equation] over the body plus, without regularization, the heat lost
    through the boundary (with regularization the boundary is insulated). *)
Definition heat_form (leggauss : Z -> res (list R * list R)) (s : therm) (k : R) (theta eta : list R) : res R :=
  let* I := therm_integrator s in
  let* A := integrate I (heat_equation s k theta eta) in
  let* B := match ts_refined s with
            | Some _ => Ok 0
            | None => let* BI := BoundaryIntegrator_ leggauss 1 (b_edges (g_boundary (ts_grid s))) (g_points (ts_grid s)) in boundary_integrate BI (heat_loss s theta eta)
            end in
  Ok (A + B).
(** The points and weights of the Gauss-Legendre rule of degree 1: what the library returns for degree 1. *)
Definition midpoint_rule (leggauss : Z -> res (list R * list R)) : Prop := leggauss 1%Z = Ok ([0], [2]).
(** Both deformations of the step have strains with positive determinant at the points of the rule. *)
Definition orientation_kept (s : therm) (q : rule R) : Prop :=
  positive_jacobian (ts_grid s) (ts_refined s) q (ts_prev_y1 s) (ts_prev_y2 s) /\ positive_jacobian (ts_grid s) (ts_refined s) q (ts_y1 s) (ts_y2 s).
(** [theta] plus [x] times [eta]. *)
Definition shifted (theta : list R) (x : R) (eta : list R) : list R := lincomb 1 theta x eta.
(** All values of [theta] are [c]. *)
Definition constant (c : R) (theta : list R) : Prop := forall x, In x theta -> x = c.
From Verif.Spec Require Import MotionSpec.
(** Deformations and temperatures have one block of parameters (one value) for every vertex. *)
Definition sized (s : therm) : Prop :=
  let ny := (length (g_vertices (ts_grid s)) * dofs (ts_refined s))%nat in
  let nt := length (g_vertices (theta_grid (ts_grid s) (ts_refined s))) in
  length (ts_prev_y1 s) = ny /\ length (ts_prev_y2 s) = ny /\ length (ts_y1 s) = ny /\ length (ts_y2 s) = ny /\ length (ts_prev_theta s) = nt /\ length (ts_theta s) = nt.
(** A thermal step on the grid of a rectangle with [a] x [b] cells of size [h]. *)
Definition thermal_problem (leggauss : Z -> res (list R * list R)) (s : therm) (h : R) (a b : nat) : Prop :=
  sized s /\ problem_grids (ts_grid s) (ts_refined s) h a b /\ 0 < ts_fps s /\ (ts_refined s = None -> midpoint_rule leggauss).

(** Heat produced at a point: dissipation rate plus adiabatic power. *)
Definition heat_source (s : therm) (t : triangle) (b : bary R) : res R :=
  let g := ts_grid s in let rg := ts_refined s in
  let* F0 := deform_strain (comp_interp g rg (ts_prev_y1 s)) (comp_interp g rg (ts_prev_y2 s)) t b in
  let* F := deform_strain (comp_interp g rg (ts_y1 s)) (comp_interp g rg (ts_y2 s)) t b in
  let* th0 := i_call (temp_interp g rg (ts_prev_theta s)) t b in
  let* rate := dissipation_rate F0 F (ts_fps s) in
  let* c := strain_derivative_coupling_potential F0 th0 in
  let* d := Matrix_sub F F0 in
  let* v := Matrix_mul d (ts_fps s) in
  let* power := Matrix_scalar_product c v in
  Ok (rate + power).
(** Internal energy at a point of the deformation [(y1, y2)] with temperatures [theta]. *)
Definition inner_energy (s : therm) (y1 y2 theta : list R) (t : triangle) (b : bary R) : res R :=
  let g := ts_grid s in let rg := ts_refined s in
  let* F := deform_strain (comp_interp g rg y1) (comp_interp g rg y2) t b in
  let* th := i_call (temp_interp g rg theta) t b in
  internal_energy F th.
(** Integral over the body, with the rule of the step. *)
Definition over_body (s : therm) (f : triangle -> bary R -> res R) : res R := let* I := therm_integrator s in integrate I f.
(** Total heat lost through the boundary: the transfer coefficient 0.5 times the excess over the external temperature. *)
Definition total_loss (leggauss : Z -> res (list R * list R)) (s : therm) (theta : list R) : res R :=
  match ts_refined s with
  | Some _ => Ok 0
  | None => let* BI := BoundaryIntegrator_ leggauss 1 (b_edges (g_boundary (ts_grid s))) (g_points (ts_grid s)) in
            boundary_integrate BI (fun e t => let* th := i_on_edge (P1I (ts_grid s) theta) e t in Ok (HEAT_TRANSFER_COEFFICIENT * (th - ts_ext s)))
  end.
