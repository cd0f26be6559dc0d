(** * Specification vocabulary for the time steps and the simulation (C57-C71). *)
From Coq Require Import Reals List ZArith.
From Verif.Model Require Import Py Num Tensors Domain Refine Interp Steps Simulation.
Local Open Scope R_scope.
Import ListNotations.

(** Entry of a deformation array: vertex [v], component [c] (0 or 1), parameter [j] (0 is the value; the
    C1 arrays of shape (N, 2, 6) hold five derivatives more). *)
Definition y_at (a : ndarray) (v c j : nat) : option R :=
  match nd_shape a with
  | [_; _] => if Nat.eqb j 0 then nth_error (nd_data a) (2 * v + c) else None
  | [_; _; k] => nth_error (nd_data a) ((2 * v + c) * k + j)
  | _ => None
  end.
(** Entry of a temperature array. *)
Definition theta_at (a : ndarray) (v : nat) : option R := nth_error (nd_data a) v.

(** A user works with a simulation: construct it, then call [run] any number of times, whatever happens.
    The solver is an arbitrary oracle (its answers may depend on the problem and on the number of the call). *)
Record setting := { se_order : SetOrder; se_solver : solver; se_width : R; se_height : R; se_fix : fixopt;
                    se_params : sim_params; se_external : external_fn; se_traction : traction_fn }.
Definition valid_setting (u : setting) : Prop :=
  0 <= se_width u /\ 0 <= se_height u /\ exists p, SimulationParams_ p = Ok (se_params u).
Definition construct (u : setting) : res sim :=
  Simulation_ (se_order u) (se_solver u) (se_width u) (se_height u) (se_fix u) (se_params u) (se_external u) (se_traction u).
(** All states reachable, runs that raised included. *)
Inductive reachable (u : setting) : sim -> Prop :=
  | r_construct s : valid_setting u -> construct u = Ok s -> reachable u s
  | r_run n s s' r : reachable u s -> run (se_solver u) n s = (s', r) -> reachable u s'.
(** The states reached while no run has raised. *)
Inductive undisturbed (u : setting) : sim -> Prop :=
  | u_construct s : valid_setting u -> construct u = Ok s -> undisturbed u s
  | u_run n s s' : undisturbed u s -> run (se_solver u) n s = (s', Ok tt) -> undisturbed u s'.

(** Bounds that leave room. *)
Definition consistent (xs : list pvar) : Prop := forall x, In x xs -> v_lb x <= v_ub x.
Definition room_above_zero (xs : list pvar) : Prop := forall x, In x xs -> v_lb x <= v_ub x /\ 0 <= v_ub x.
(** Solvers that respect variable bounds (on problems whose bounds can be respected). *)
Definition respects_bounds (sv : solver) : Prop :=
  (forall k m, consistent (ms_y1 m) -> consistent (ms_y2 m) ->
     (forall i x, nth_error (ms_y1 m) i = Some x -> v_fixed x = false -> v_lb x <= ma_y1 (sv_mech sv k m) i <= v_ub x) /\
     (forall i x, nth_error (ms_y2 m) i = Some x -> v_fixed x = false -> v_lb x <= ma_y2 (sv_mech sv k m) i <= v_ub x)) /\
  (forall k t, room_above_zero (ts_theta t) -> forall i x, nth_error (ts_theta t) i = Some x -> v_lb x <= ta_theta (sv_therm sv k t) i <= v_ub x).
(** Solvers that respect the domain (non-negative reals) of the temperature variables. *)
Definition respects_domain (sv : solver) : Prop :=
  forall k t, room_above_zero (ts_theta t) -> forall i, (i < length (ts_theta t))%nat -> 0 <= ta_theta (sv_therm sv k t) i.

(** The mechanical problem with the previous deformation and temperature of step [a]: data, starting guess, box and
    traction at time [t]. *)
Record mech_problem_from (u : setting) (s : sim) (a : step) (t : R) (m : mech) : Prop := {
  mp_prev_y : mech_prev_y m = st_y_data a;
  mp_prev_theta : mech_prev_theta m = st_theta_data a;
  mp_guess : mech_y m = st_y_data a;
  mp_box : forall x v, In (x, v) (combine (ms_y1 m ++ ms_y2 m) (ms_prev_y1 m ++ ms_prev_y2 m)) ->
    v_lb x = v - p_search_radius (se_params u) /\ v_ub x = v + p_search_radius (se_params u);
  mp_grid : ms_grid m = s_grid s /\ ms_refined m = s_refined s;
  mp_constants : ms_radius m = p_search_radius (se_params u) /\ ms_fps m = p_fps (se_params u) /\ forall e, p_regularization (se_params u) = Some e -> ms_reg m = e;
  mp_fixed : forall i x, nth_error (ms_y1 m) i = Some x \/ nth_error (ms_y2 m) i = Some x ->
    (v_fixed x = true <-> exists v, In v (b_vertices (g_dirichlet (s_grid s))) /\ i = (v * dofs (s_refined s))%nat);
  mp_traction : s_refined s = None -> forall v, In v (b_vertices (g_neumann (s_grid s))) ->
    exists x y l g1 g2, nth_error (g_points (s_grid s)) v = Some [x; y] /\ se_traction u t x y = Ok l /\
      nth_error l 0 = Some g1 /\ nth_error l 1 = Some g2 /\ dget Nat.eqb v (ms_g1 m) = Ok g1 /\ dget Nat.eqb v (ms_g2 m) = Ok g2
}.
(** The thermal problem with previous data of step [a] and new deformation [y], external temperature at time [t]. *)
Record therm_problem_from (u : setting) (s : sim) (a : step) (y : ndarray) (t : R) (th : therm) : Prop := {
  tp_prev_y : therm_prev_y th = st_y_data a;
  tp_y : therm_y th = y;
  tp_prev_theta : therm_prev_theta th = st_theta_data a;
  tp_guess : therm_theta th = st_theta_data a;
  tp_box : forall x v, In (x, v) (combine (ts_theta th) (ts_prev_theta th)) ->
    v_lb x = v - p_search_radius (se_params u) /\ v_ub x = v + p_search_radius (se_params u);
  tp_grid : ts_grid th = s_grid s /\ ts_refined th = s_refined s;
  tp_constants : ts_radius th = p_search_radius (se_params u) /\ ts_fps th = p_fps (se_params u);
  tp_external : s_refined s = None -> se_external u t = Ok (ts_ext th) /\ 0 <= ts_ext th
}.

(** [m] is the largest (smallest) element of [l]. *)
Definition is_max (l : list R) (m : R) : Prop := In m l /\ forall x, In x l -> x <= m.
Definition is_min (l : list R) (m : R) : Prop := In m l /\ forall x, In x l -> m <= x.
(** All temperatures, all first and second coordinates of the deformed vertices, of a list of steps. *)
Definition temperatures (l : list step) : list R := flat_map (fun st => nd_data (st_theta_data st)) l.
Definition deformed_coordinates (N c : nat) (l : list step) : list R :=
  flat_map (fun st => flat_map (fun v => match y_at (st_y_data st) v c 0 with Some x => [x] | None => [] end) (seq 0 N)) l.
