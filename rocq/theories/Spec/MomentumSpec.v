(** * Specification vocabulary: the balance of momentum in weak form (C95). *)
From Coq Require Import Reals List ZArith.
From Verif.Model Require Import Py Num Tensors Domain Refine Quadrature Integrators Interp Helpers Steps.
From Verif.Spec Require Import EnergySpec ThermSpec MechSpec.
Local Open Scope R_scope.
Import ListNotations.

(** Power of the elastic stress (derivative of the martensite potential plus derivative of the coupling potential, at the previous
    temperature) for the virtual velocity [w]. *)
Definition elastic_power (m : mech) (y1 y2 w1 w2 : list R) (t : triangle) (b : bary R) : res R :=
  let g := ms_grid m in let rg := ms_refined m in
  let* F := deform_strain (comp_interp g rg y1) (comp_interp g rg y2) t b in
  let* G := deform_strain (comp_interp g rg w1) (comp_interp g rg w2) t b in
  let* th := i_call (temp_interp g rg (ms_prev_theta m)) t b in
  let* P := derivative_martensite_potential F in
  let* C := strain_derivative_coupling_potential F th in
  let* S := Matrix_add P C in
  Matrix_scalar_product S G.
(** Power of the viscous stress per unit of fps: 2 F0 (D^T F0 + F0^T D) with D = F - F0, F0 the previous strain. *)
Definition viscous_power (m : mech) (y1 y2 w1 w2 : list R) (t : triangle) (b : bary R) : res R :=
  let g := ms_grid m in let rg := ms_refined m in
  let* F0 := deform_strain (comp_interp g rg (ms_prev_y1 m)) (comp_interp g rg (ms_prev_y2 m)) t b in
  let* F := deform_strain (comp_interp g rg y1) (comp_interp g rg y2) t b in
  let* G := deform_strain (comp_interp g rg w1) (comp_interp g rg w2) t b in
  let* D := symmetrized_strain_delta F0 F in
  let* S := Matrix_matmul F0 D in
  let* x := Matrix_scalar_product S G in
  Ok (2 * x).
(** Power of the hyper stress 3 |H| H, with H the second derivatives of the deformation. *)
Definition hyper_power (m : mech) (y1 y2 w1 w2 : list R) (t : triangle) (b : bary R) : res R :=
  let g := ms_grid m in let rg := ms_refined m in
  let* H := deform_hyper_strain (comp_interp g rg y1) (comp_interp g rg y2) t b in
  let* K := deform_hyper_strain (comp_interp g rg w1) (comp_interp g rg w2) t b in
  Ok (3 * Tensor3D_norm H * Vector_dot (concat (concat (t_data H))) (concat (concat (t_data K)))).
(** Integral over the body with rule [q]. *)
Definition over_body (m : mech) (q : res (rule R)) (f : triangle -> bary R -> res R) : res R :=
  let tg := theta_grid (ms_grid m) (ms_refined m) in
  let* q := q in
  let* I := Integrator_ q (g_triangles tg) (g_points tg) in
  integrate I f.
(** The balance of momentum, tested with [w]: elastic and viscous power minus the work of the traction; with regularization the power of
    the hyper stress instead of the work of the traction. *)
Definition momentum_form (leggauss : Z -> res (list R * list R)) (m : mech) (y1 y2 w1 w2 : list R) : res R :=
  match ms_refined m with
  | None =>
      let* E := over_body m DUNAVANT2 (elastic_power m y1 y2 w1 w2) in
      let* V := over_body m CENTROID (viscous_power m y1 y2 w1 w2) in
      let* W := mech_traction_energy leggauss m w1 w2 in
      Ok (E + ms_fps m * V - W)
  | Some _ =>
      let* E := over_body m DUNAVANT5 (elastic_power m y1 y2 w1 w2) in
      let* V := over_body m DUNAVANT5 (viscous_power m y1 y2 w1 w2) in
      let* H := over_body m DUNAVANT5 (hyper_power m y1 y2 w1 w2) in
      Ok (E + ms_fps m * V + ms_reg m * H)
  end.
(** The deformation can be moved a little along [w] and [-w] without violating bounds, fixed values and constraints. *)
Definition free_along (m : mech) (y1 y2 w1 w2 : list R) : Prop := exists d, 0 < d /\ forall x, Rabs x < d -> mech_feasible m (shifted y1 x w1) (shifted y2 x w2).
(** [w1], [w2] have one number for every variable. *)
Definition virtual_velocity (m : mech) (w1 w2 : list R) : Prop := length w1 = length (ms_y1 m) /\ length w2 = length (ms_y2 m).
(** [w] vanishes at the variables that are fixed or at one of their bounds. *)
Definition test_field (xs : list pvar) (y w : list R) : Prop :=
  length w = length xs /\ forall i x, nth_error xs i = Some x -> nth i w 0 = 0 \/ (v_fixed x = false /\ v_lb x < nth i y 0 < v_ub x).
