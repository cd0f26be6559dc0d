(** * Specification vocabulary: single time steps (C60-C62). *)
From Coq Require Import Reals List ZArith.
From Verif.Model Require Import Py Num Tensors Domain Refine Interp Steps Simulation.
Local Open Scope R_scope.
Import ListNotations.

(** An array as numpy has them: as many entries as the shape says. *)
Definition well_formed (a : ndarray) : Prop := length (nd_data a) = fold_right Nat.mul 1%nat (nd_shape a).
(** All entries are non-negative. *)
Definition non_negative_array (a : ndarray) : Prop := forall x, In x (nd_data a) -> 0 <= x.

(** Mechanical steps a user can hold: created, then updated and solved in any order, whether or not the calls raised.
    (A grid has as many points as vertices, C11 and C27.) *)
Inductive mech_history : mech -> Prop :=
  | mh_new g theta0 radius fps reg rg f m : length (g_points g) = length (g_vertices g) -> mechanical_step g theta0 radius fps reg rg f = Ok m -> mech_history m
  | mh_prev_y m a m' r : mech_history m -> well_formed a -> mech_update_prev_y m a = (m', r) -> mech_history m'
  | mh_prev_theta m a m' r : mech_history m -> well_formed a -> mech_update_prev_theta m a = (m', r) -> mech_history m'
  | mh_traction m t m' r : mech_history m -> mech_update_boundary_traction m t = (m', r) -> mech_history m'
  | mh_solve m x m' r : mech_history m -> mech_solve x m = (m', r) -> mech_history m'.
Inductive therm_history : therm -> Prop :=
  | th_new g prev_y y prev_theta radius fps reg ext rg t : well_formed prev_y -> well_formed y -> well_formed prev_theta ->
      thermal_step g prev_y y prev_theta radius fps reg ext rg = Ok t -> therm_history t
  | th_prev_y t a t' r : therm_history t -> well_formed a -> therm_update_prev_y t a = (t', r) -> therm_history t'
  | th_y t a t' r : therm_history t -> well_formed a -> therm_update_y t a = (t', r) -> therm_history t'
  | th_prev_theta t a t' r : therm_history t -> well_formed a -> therm_update_prev_theta t a = (t', r) -> therm_history t'
  | th_external t x t' r : therm_history t -> therm_update_external_temperature t x = (t', r) -> therm_history t'
  | th_solve t x t' r : therm_history t -> therm_solve x t = (t', r) -> therm_history t'.

(** A solver never returns a point with a larger objective than the starting values (whenever both are defined). *)
Definition descends (leggauss : Z -> res (list R * list R)) (sv : solver) : Prop := forall k m J J',
  let m' := fst (mech_solve (sv_mech sv k m) m) in
  mech_objective leggauss m (map v_val (ms_y1 m)) (map v_val (ms_y2 m)) = Ok J ->
  mech_objective leggauss m (map v_val (ms_y1 m')) (map v_val (ms_y2 m')) = Ok J' -> J' <= J.

(** A solver respects the constraints of regularized problems: if the starting values satisfy them, so does the answer. *)
Definition respects_constraints (sv : solver) : Prop := forall k m,
  let m' := fst (mech_solve (sv_mech sv k m) m) in
  ms_refined m <> None -> dirichlet_constraints_hold m (map v_val (ms_y1 m)) (map v_val (ms_y2 m)) ->
  dirichlet_constraints_hold m (map v_val (ms_y1 m')) (map v_val (ms_y2 m')).

(** The shapes of deformation and temperature arrays: (N, 2), with regularization (N, 2, 6), and (N,), with
    regularization of the refined grid. *)
Definition deformation_shape (g : grid R) (rg : option (refined_grid R)) : list nat :=
  match rg with None => [length (g_vertices g); 2%nat] | Some _ => [length (g_vertices g); 2%nat; 6%nat] end.
Definition temperature_shape (g : grid R) (rg : option (refined_grid R)) : list nat :=
  match rg with None => [length (g_vertices g)] | Some r => [length (g_vertices (r_grid r))] end.
(** Every variable sits in the box of the given radius around the given value, at the value. *)
Definition boxed (radius : R) (xs : list pvar) (vs : list R) : Prop :=
  map v_val xs = vs /\ map v_lb xs = map (fun v => v - radius) vs /\ map v_ub xs = map (fun v => v + radius) vs.
(** [k] is the position of the first negative entry. *)
Definition first_negative (l : list R) (k : nat) : Prop :=
  (exists v, nth_error l k = Some v /\ v < 0) /\ forall j v, (j < k)%nat -> nth_error l j = Some v -> 0 <= v.
(** Same grids, constants and forcing function. *)
Definition same_mech_setup (m m' : mech) : Prop :=
  ms_grid m' = ms_grid m /\ ms_refined m' = ms_refined m /\ ms_radius m' = ms_radius m /\ ms_fps m' = ms_fps m /\
  ms_reg m' = ms_reg m /\ ms_traction m' = ms_traction m /\ ms_g1 m' = ms_g1 m /\ ms_g2 m' = ms_g2 m.
Definition same_therm_setup (t t' : therm) : Prop :=
  ts_grid t' = ts_grid t /\ ts_refined t' = ts_refined t /\ ts_radius t' = ts_radius t /\ ts_fps t' = ts_fps t /\
  ts_external t' = ts_external t /\ ts_ext t' = ts_ext t.
