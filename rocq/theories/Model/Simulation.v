(** * Model of src/tvemoves_rufbad/simulation.py (over the reals).
    Drawing (55-91, 288-322 beyond the choice of the step) is modelled in Plot.v.  Not modelled: __repr__/__str__ (49-53).
    [run] and the update methods are functions [sim -> sim * res unit], so the state left behind by an
    exception is visible. *)
From Coq Require Import Reals.
From Verif.Model Require Import Py Num Tensors Domain Refine Interp Steps.
Local Open Scope R_scope.

(** ** SimulationParams: simulation.py:162-203 *)
Record sim_params := mkParams {
  p_initial_temperature : R;
  p_search_radius : R;
  p_fps : R;
  p_scale : R;
  p_regularization : option R;
  p_refinement_factor : option Z
}.
(** [x <= 0] *)
Definition Rleb0 (x : R) : bool := negb (Rltb 0 x).

(** simulation.py:173-203 [__post_init__]. *)
Definition SimulationParams_ (p : sim_params) : res sim_params :=
  if Rltb (p_initial_temperature p) 0 then Err ValueError
  else if Rleb0 (p_search_radius p) then Err ValueError
  else if Rltb (p_fps p) 0 then Err ValueError
  else if (match p_regularization p with Some e => Rltb e 0 | None => false end) then Err ValueError
  else if Rleb0 (p_scale p) then Err ValueError
  else if (match p_refinement_factor p with Some k => (k <=? 0)%Z | None => false end) then Err ValueError
  else match p_regularization p, p_refinement_factor p with
       | Some _, None => Err ValueError
       | None, Some _ => Ok (mkParams (p_initial_temperature p) (p_search_radius p) (p_fps p) (p_scale p) None None)
       | _, _ => Ok p
       end.

(** ** Steps: simulation.py:30-47, 94-159 *)
Record step := mkStep {
  st_y_data : ndarray;
  st_theta_data : ndarray;
  st_y1 : interp; st_y2 : interp;   (* self.y, an EuclideanDeformation *)
  st_theta : interp;                (* self.theta, an EuclideanInterpolation *)
  st_grid : grid R                  (* self._grid, used for plotting *)
}.

(** simulation.py:97-120 [Step.__init__]. *)
Definition Step_ (g : grid R) (y theta : ndarray) : res step :=
  let N := num_vertices g in
  if negb (shape_is y [N; 2%nat]) then Err ValueError
  else if negb (shape_is theta [N]) then Err ValueError
  else
    let* i1 := P1Interpolation_ g (unpack N 1 0 (nd_data y)) in
    let* i2 := P1Interpolation_ g (unpack N 1 1 (nd_data y)) in
    let* it := P1Interpolation_ g (nd_data theta) in
    Ok (mkStep y theta i1 i2 it g).

(** simulation.py:27. *)
Definition PLOTTING_REFINEMENT_FACTOR : Z := 5.

(** simulation.py:126-159 [RegularizedStep.__init__]. *)
Definition RegularizedStep_ (g : grid R) (rg : option (refined_grid R)) (y theta : ndarray) : res step :=
  match rg with
  | None => Err ValueError
  | Some r =>
      let N := num_vertices g in
      if negb (shape_is y [N; 2%nat; 6%nat]) then Err ValueError
      else if negb (shape_is theta [num_vertices (r_grid r)]) then Err ValueError
      else
        let* i1 := C1Interpolation_ g (chunks N 6 (unpack N 6 0 (nd_data y))) in
        let* i2 := C1Interpolation_ g (chunks N 6 (unpack N 6 1 (nd_data y))) in
        let* it := P1Interpolation_ (r_grid r) (nd_data theta) in
        let* pg := refine (r_grid r) PLOTTING_REFINEMENT_FACTOR in
        Ok (mkStep y theta i1 i2 it (r_grid pg))
  end.

(** ** Simulation *)

(** The attributes of a Simulation, simulation.py:242-283.  Axis limits: [None] stands for the initial
    (inf, -inf).  [s_calls] counts solver calls (ghost, indexes the solver oracle). *)
Record sim := mkSim {
  s_params : sim_params;
  s_grid : grid R;
  s_refined : option (refined_grid R);
  s_mech : mech;
  s_therm : therm;
  s_steps : list step;
  s_tau : R;
  s_time : R;
  s_max_temp : R;
  s_xlims : option (R * R);
  s_ylims : option (R * R);
  s_calls : nat
}.

(** np.min / np.max of the flattened array: ValueError if empty. *)
Definition np_max (l : list R) : res R :=
  match l with [] => Err ValueError | x :: xs => Ok (fold_left Rmax xs x) end.
Definition np_min (l : list R) : res R :=
  match l with [] => Err ValueError | x :: xs => Ok (fold_left Rmin xs x) end.
Definition join_lims (l : option (R * R)) (lo hi : R) : option (R * R) :=
  match l with None => Some (lo, hi) | Some (a, b) => Some (Rmin a lo, Rmax b hi) end.

Definition set_plot (s : sim) (mt : R) (xl yl : option (R * R)) : sim :=
  mkSim (s_params s) (s_grid s) (s_refined s) (s_mech s) (s_therm s) (s_steps s) (s_tau s) (s_time s) mt xl yl (s_calls s).
Definition push_step (s : sim) (st : step) : sim :=
  mkSim (s_params s) (s_grid s) (s_refined s) (s_mech s) (s_therm s) (s_steps s ++ [st]) (s_tau s) (s_time s + s_tau s)
        (s_max_temp s) (s_xlims s) (s_ylims s) (s_calls s).
Definition set_mech (s : sim) (m : mech) : sim :=
  mkSim (s_params s) (s_grid s) (s_refined s) m (s_therm s) (s_steps s) (s_tau s) (s_time s)
        (s_max_temp s) (s_xlims s) (s_ylims s) (s_calls s).
Definition set_therm (s : sim) (t : therm) : sim :=
  mkSim (s_params s) (s_grid s) (s_refined s) (s_mech s) t (s_steps s) (s_tau s) (s_time s)
        (s_max_temp s) (s_xlims s) (s_ylims s) (s_calls s).
Definition count_call (s : sim) : sim :=
  mkSim (s_params s) (s_grid s) (s_refined s) (s_mech s) (s_therm s) (s_steps s) (s_tau s) (s_time s)
        (s_max_temp s) (s_xlims s) (s_ylims s) (S (s_calls s)).

(** Sequencing of effects. *)
Definition andthen (x : sim * res unit) (k : sim -> sim * res unit) : sim * res unit :=
  match x with (s, Ok _) => k s | (s, Err e) => (s, Err e) end.

(** simulation.py:343-348 the new step object. *)
Definition new_step (p : sim_params) (g : grid R) (rg : option (refined_grid R)) (y theta : ndarray) : res step :=
  match p_regularization p with
  | None => Step_ g y theta
  | Some _ => RegularizedStep_ g rg y theta
  end.
(** simulation.py:338-341: [y_data[:, 0]] of an (N, 2) array is the column, of an (N, 2, 6) array an (N, 6) array. *)
Definition lims_data (s : sim) (c : nat) (y : ndarray) : list R :=
  unpack (num_vertices (s_grid s)) (match nd_shape y with [_; _; k] => k | _ => 1%nat end) c (nd_data y).

(** simulation.py:335-352 [_append_step]. *)
Definition append_step (s : sim) (y theta : ndarray) : sim * res unit :=
  match np_max (nd_data theta) with
  | Err e => (s, Err e)
  | Ok mt =>
      let s1 := set_plot s (Rmax (s_max_temp s) mt) (s_xlims s) (s_ylims s) in
      match np_min (lims_data s 0 y), np_max (lims_data s 0 y) with
      | Ok x0, Ok x1 =>
          let s2 := set_plot s1 (s_max_temp s1) (join_lims (s_xlims s) x0 x1) (s_ylims s) in
          match np_min (lims_data s 1 y), np_max (lims_data s 1 y) with
          | Ok y0, Ok y1 =>
              let s3 := set_plot s2 (s_max_temp s2) (s_xlims s2) (join_lims (s_ylims s) y0 y1) in
              match new_step (s_params s) (s_grid s) (s_refined s) y theta with
              | Err e => (s3, Err e)
              | Ok st => (push_step s3 st, Ok tt)
              end
          | Err e, _ | _, Err e => (s2, Err e)
          end
      | Err e, _ | _, Err e => (s1, Err e)
      end
  end.

Definition on_mech (f : mech -> mech * res unit) (s : sim) : sim * res unit :=
  let '(m, e) := f (s_mech s) in (set_mech s m, e).
Definition on_therm (f : therm -> therm * res unit) (s : sim) : sim * res unit :=
  let '(t, e) := f (s_therm s) in (set_therm s t, e).

(** simulation.py:324-327. *)
Definition update_mechanical_step (s : sim) : sim * res unit :=
  andthen (on_mech (fun m => mech_update_prev_y m (therm_y (s_therm s))) s) (fun s =>
  andthen (on_mech (fun m => mech_update_prev_theta m (therm_theta (s_therm s))) s) (fun s =>
  on_mech (fun m => mech_update_boundary_traction m (s_time s)) s)).

(** simulation.py:329-333. *)
Definition update_thermal_step (s : sim) : sim * res unit :=
  andthen (on_therm (fun t => therm_update_prev_y t (mech_prev_y (s_mech s))) s) (fun s =>
  andthen (on_therm (fun t => therm_update_prev_theta t (mech_prev_theta (s_mech s))) s) (fun s =>
  andthen (on_therm (fun t => therm_update_y t (mech_y (s_mech s))) s) (fun s =>
  on_therm (fun t => therm_update_external_temperature t (s_time s)) s))).

(** The solver: its answer may depend on everything it is given and on the call number. *)
Record solver := mkSolver {
  sv_mech : nat -> mech -> mech_answer;
  sv_therm : nat -> therm -> therm_answer
}.
Definition solve_mech (sv : solver) (s : sim) : sim * res unit :=
  on_mech (fun m => mech_solve (sv_mech sv (s_calls s) m) m) (count_call s).
Definition solve_therm (sv : solver) (s : sim) : sim * res unit :=
  on_therm (fun t => therm_solve (sv_therm sv (s_calls s) t) t) (count_call s).

(** simulation.py:354-359. *)
Definition run_single_step (sv : solver) (s : sim) : sim * res unit :=
  andthen (update_mechanical_step s) (fun s =>
  andthen (solve_mech sv s) (fun s =>
  andthen (update_thermal_step s) (fun s =>
  andthen (solve_therm sv s) (fun s =>
  append_step s (therm_y (s_therm s)) (therm_theta (s_therm s)))))).

Fixpoint run_loop (sv : solver) (n : nat) (s : sim) : sim * res unit :=
  match n with
  | O => (s, Ok tt)
  | S n' => andthen (run_single_step sv s) (run_loop sv n')
  end.
(** simulation.py:361-372. *)
Definition run (sv : solver) (num_steps : Z) (s : sim) : sim * res unit :=
  if (num_steps <=? 0)%Z then (s, Err ValueError)
  else if (num_steps =? 1)%Z then run_single_step sv s
  else run_loop sv (Z.to_nat num_steps) s.

Definition finish {A} (x : sim * res unit) (k : sim -> res A) : res A :=
  match x with (s, Ok _) => k s | (_, Err e) => Err e end.

(** simulation.py:260, 282 [solve()] during construction. *)
Definition mech_solved (a : mech_answer) (m : mech) : res mech :=
  let '(m, e) := mech_solve a m in let* _ := e in Ok m.
Definition therm_solved (a : therm_answer) (t : therm) : res therm :=
  let '(t, e) := therm_solve a t in let* _ := e in Ok t.

(** simulation.py:232-283 [Simulation.__init__] for a rectangle domain (the only one of the package).
    The first [_append_step] runs before [_thermal_step] exists; it does not touch it, so the model passes
    the thermal step built from the same data right away and keeps the order of everything that can raise. *)
Definition Simulation_ (so : SetOrder) (sv : solver) (width height : R) (f : fixopt) (p : sim_params)
    (ext : external_fn) (traction : traction_fn) : res sim :=
  let* g := domain_grid so width height f (p_scale p) in
  let* rg := (match p_refinement_factor p with
              | Some k => let* r := refine g k in Ok (Some r)
              | None => Ok None
              end) in
  let* m0 := mechanical_step g (p_initial_temperature p) (p_search_radius p) (p_fps p) (p_regularization p) rg traction in
  let* m := mech_solved (sv_mech sv 0 m0) m0 in
  let* tau := ndiv 1 (p_fps p) in
  (* a placeholder with the right data for the attribute that does not exist yet *)
  let t00 := mkTherm g rg 0 0 [] [] [] [] [] [] 0 ext in
  let s0 := mkSim p g rg m t00 [] tau (- tau) 0 None None 1 in
  finish (append_step s0 (mech_prev_y m) (mech_prev_theta m)) (fun s1 =>
  let* t0 := thermal_step g (mech_prev_y m) (mech_y m) (mech_prev_theta m) (p_search_radius p) (p_fps p)
               (p_regularization p) ext rg in
  let* t := therm_solved (sv_therm sv 1 t0) t0 in
  let s2 := count_call (set_therm s1 t) in
  finish (append_step s2 (therm_y t) (therm_theta t)) (fun s => Ok s)).

(** simulation.py:285-286. *)
Definition sim_max_temp (s : sim) : R := s_max_temp s.

(** simulation.py:288-296: the step a plot shows, [None] if nothing is drawn. *)
Definition plot_step (s : sim) (i : Z) : res (option step) :=
  let n := Z.of_nat (length (s_steps s)) in
  if ((i <? - n) || (n <=? i))%Z then Ok None
  else let* st := py_index (s_steps s) i in Ok (Some st).
(** simulation.py:301-311: the step saved together with the index in the file name. *)
Definition save_step (s : sim) (i : Z) : res (option (step * Z)) :=
  let* st := plot_step s i in
  Ok (match st with
      | None => None
      | Some x => Some (x, if (0 <=? i)%Z then i else (Z.of_nat (length (s_steps s)) + i)%Z)
      end).
