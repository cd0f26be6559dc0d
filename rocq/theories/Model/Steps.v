(** * Model of src/tvemoves_rufbad/mechanical_step.py and thermal_step.py (over the reals).

    Pyomo objects are modelled by what the code observes: an indexed Param is the list of its values, an
    indexed Var the list of (value, bounds, fixed flag).  Vertices of every grid the API builds are
    0..N-1 (properties C11, C27), so position [i] of a list is the entry of vertex [i]; in the
    regularized models (1-based RangeSets) entry (i, j) sits at position 6*(i-1) + (j-1).
    ipopt is an oracle. *)
From Coq Require Import Reals.
From Verif.Model Require Import Py Num Tensors Domain Refine Quadrature Integrators Bell Interp Helpers.
Local Open Scope R_scope.

(** A numpy array: shape and row-major data. *)
Record ndarray := mkArr { nd_shape : list nat; nd_data : list R }.
Definition shape_is (a : ndarray) (s : list nat) : bool := nats_eqb (nd_shape a) s.

(** [l[o : o+k]] *)
Definition slice {A} (o k : nat) (l : list A) : list A := firstn k (skipn o l).
(** Row-major data of an array of shape (N, 2) (k = 1) or (N, 2, 6) (k = 6) whose two components are [y1], [y2]. *)
Definition pack {A} (N k : nat) (y1 y2 : list A) : list A :=
  flat_map (fun i => slice (i * k) k y1 ++ slice (i * k) k y2) (range N).
(** [a[:, c]] resp. [a[:, c, :]] flattened. *)
Definition unpack {A} (N k c : nat) (d : list A) : list A :=
  flat_map (fun i => slice (i * (2 * k) + c * k) k d) (range N).
(** the rows of an (N, k) array *)
Definition chunks {A} (N k : nat) (d : list A) : list (list A) := map (fun i => slice (i * k) k d) (range N).

(** A pyomo Var. *)
Record pvar := mkVar { v_val : R; v_lb : R; v_ub : R; v_fixed : bool }.
(** [x = v; x.bounds = (v - r, v + r)]; the fixed flag is kept. *)
Definition recenter (r : R) (x : pvar) (v : R) : pvar := mkVar v (v - r) (v + r) (v_fixed x).
Definition new_var (r : R) (fixed : bool) (v : R) : pvar := mkVar v (v - r) (v + r) fixed.
(** Loading a solution: pyomo does not pass fixed variables to the solver and does not change them. *)
Fixpoint load_from (i : nat) (sol : nat -> R) (xs : list pvar) : list pvar :=
  match xs with
  | [] => []
  | x :: rest => (if v_fixed x then x else mkVar (sol i) (v_lb x) (v_ub x) (v_fixed x)) :: load_from (S i) sol rest
  end.
Definition load := load_from 0.

Definition recenter_all (r : R) (xs : list pvar) (vs : list R) : list pvar :=
  map (fun '(x, v) => recenter r x v) (zip xs vs).

(** Assigning to a Param within NonNegativeReals one entry after the other: ValueError at the first negative
    value, the entries before it are already replaced. *)
Fixpoint set_nonneg (old new : list R) : list R * res unit :=
  match old, new with
  | o :: old', v :: new' =>
      if Rltb v 0 then (old, Err ValueError)
      else let '(r, e) := set_nonneg old' new' in (v :: r, e)
  | _, _ => (old, Ok tt)
  end.
Definition all_nonneg (l : list R) : bool := forallb (fun v => negb (Rltb v 0)) l.

(** ** Mechanical step *)

(** User supplied traction, mechanical_step.py:185: (t, x, y) to a list. *)
Definition traction_fn := R -> R -> R -> res (list R).

(** mechanical_step.py:186-193 / 405-415 and the pyomo model held in [_model].
    [ms_refined = None]: class _MechanicalStep, otherwise _MechanicalStepRegularized. *)
Record mech := mkMech {
  ms_grid : grid R;
  ms_refined : option (refined_grid R);
  ms_radius : R;
  ms_fps : R;
  ms_reg : R;
  ms_prev_y1 : list R; ms_prev_y2 : list R;
  ms_prev_theta : list R;
  ms_y1 : list pvar; ms_y2 : list pvar;
  ms_g1 : dict nat R; ms_g2 : dict nat R;
  ms_traction : traction_fn
}.

Definition num_vertices (g : grid R) : nat := length (g_vertices g).
(** degrees of freedom per vertex and component *)
Definition dofs (rg : option (refined_grid R)) : nat := match rg with None => 1 | Some _ => 6 end.
(** the grid carrying the temperature *)
Definition theta_grid (g : grid R) (rg : option (refined_grid R)) : grid R :=
  match rg with None => g | Some r => r_grid r end.
(** shape of the deformation arrays: mechanical_step.py:214, 461; thermal_step.py:186, 276-278. *)
Definition y_shape (g : grid R) (rg : option (refined_grid R)) : list nat :=
  match rg with None => [num_vertices g; 2%nat] | Some _ => [num_vertices g; 2%nat; 6%nat] end.
Definition theta_shape (g : grid R) (rg : option (refined_grid R)) : list nat :=
  [num_vertices (theta_grid g rg)].

Definition y_array (g : grid R) (rg : option (refined_grid R)) (y1 y2 : list R) : ndarray :=
  mkArr (y_shape g rg) (pack (num_vertices g) (dofs rg) y1 y2).
Definition theta_array (g : grid R) (rg : option (refined_grid R)) (theta : list R) : ndarray :=
  mkArr (theta_shape g rg) theta.

(** mechanical_step.py:104-115 (a list longer than two entries is accepted here: only [0] and [1] are read). *)
Definition init_traction (g : grid R) (f : traction_fn) : res (dict nat R * dict nat R) :=
  let* rows := mapM (fun v =>
      let* p := py_nth (g_points g) v in
      let* '(x, y) := xy p in
      let* l := f 0 x y in
      let* a := py_index l 0 in
      let* b := py_index l 1 in
      Ok (v, (a, b))) (b_vertices (g_neumann g)) in
  Ok (map (fun '(v, (a, _)) => (v, a)) rows, map (fun '(v, (_, b)) => (v, b)) rows).

(** mechanical_step.py:71-133 and 177-193: the model of _MechanicalStep before the objective. *)
Definition mech_init_plain (g : grid R) (theta0 radius fps : R) (f : traction_fn) : res mech :=
  let* ps := mapM xy (g_points g) in
  if Rltb theta0 0 then Err ValueError
  else
    let* '(g1, g2) := init_traction g f in
    let y1 := map fst ps in
    let y2 := map snd ps in
    let fixed i := existsb (Nat.eqb i) (b_vertices (g_dirichlet g)) in
    let vars l := map (fun '(i, v) => new_var radius (fixed i) v) (zip (range (length l)) l) in
    Ok (mkMech g None radius fps 0 y1 y2 (map (fun _ => theta0) (g_vertices g)) (vars y1) (vars y2) g1 g2 f).

(** mechanical_step.py:255-310: the model of _MechanicalStepRegularized before constraints and objective.
    Position 6*v + j is entry (v + 1, j + 1); only j = 0 is fixed (308-310). *)
Definition mech_init_reg (g : grid R) (rg : refined_grid R) (theta0 radius fps reg : R) (f : traction_fn)
    : res mech :=
  let* ps := mapM xy (g_points g) in
  if Rltb theta0 0 then Err ValueError
  else
    let y1 := flat_map (fun '(x, _) => [x; 1; 0; 0; 0; 0]) ps in
    let y2 := flat_map (fun '(_, y) => [y; 0; 1; 0; 0; 0]) ps in
    let fixed i := Nat.eqb (i mod 6) 0 && existsb (Nat.eqb (i / 6)) (b_vertices (g_dirichlet g)) in
    let vars l := map (fun '(i, v) => new_var radius (fixed i) v) (zip (range (length l)) l) in
    Ok (mkMech g (Some rg) radius fps reg y1 y2 (map (fun _ => theta0) (g_vertices (r_grid rg)))
               (vars y1) (vars y2) [] [] f).

(** mechanical_step.py:497-526 [mechanical_step]. *)
Definition mechanical_step (g : grid R) (theta0 radius fps : R) (reg : option R)
    (rg : option (refined_grid R)) (f : traction_fn) : res mech :=
  match reg with
  | None => mech_init_plain g theta0 radius fps f
  | Some e =>
      match rg with
      | None => Err ValueError
      | Some r => mech_init_reg g r theta0 radius fps e f
      end
  end.

(** mechanical_step.py:198-201, 420-432. *)
Definition mech_prev_y (m : mech) : ndarray := y_array (ms_grid m) (ms_refined m) (ms_prev_y1 m) (ms_prev_y2 m).
(** mechanical_step.py:203-206, 434-446. *)
Definition mech_y (m : mech) : ndarray :=
  y_array (ms_grid m) (ms_refined m) (map v_val (ms_y1 m)) (map v_val (ms_y2 m)).
(** mechanical_step.py:208-211, 448-454. *)
Definition mech_prev_theta (m : mech) : ndarray := theta_array (ms_grid m) (ms_refined m) (ms_prev_theta m).

(** mechanical_step.py:213-236, 456-483. *)
Definition mech_update_prev_y (m : mech) (a : ndarray) : mech * res unit :=
  if negb (shape_is a (y_shape (ms_grid m) (ms_refined m))) then (m, Err ValueError)
  else
    let N := num_vertices (ms_grid m) in
    let k := dofs (ms_refined m) in
    let n1 := unpack N k 0 (nd_data a) in
    let n2 := unpack N k 1 (nd_data a) in
    (mkMech (ms_grid m) (ms_refined m) (ms_radius m) (ms_fps m) (ms_reg m) n1 n2 (ms_prev_theta m)
            (recenter_all (ms_radius m) (ms_y1 m) n1) (recenter_all (ms_radius m) (ms_y2 m) n2)
            (ms_g1 m) (ms_g2 m) (ms_traction m), Ok tt).

Definition mech_set_prev_theta (m : mech) (l : list R) : mech :=
  mkMech (ms_grid m) (ms_refined m) (ms_radius m) (ms_fps m) (ms_reg m) (ms_prev_y1 m) (ms_prev_y2 m) l
         (ms_y1 m) (ms_y2 m) (ms_g1 m) (ms_g2 m) (ms_traction m).
(** mechanical_step.py:238-247, 485-494. *)
Definition mech_update_prev_theta (m : mech) (a : ndarray) : mech * res unit :=
  if negb (shape_is a (theta_shape (ms_grid m) (ms_refined m))) then (m, Err ValueError)
  else let '(l, e) := set_nonneg (ms_prev_theta m) (nd_data a) in (mech_set_prev_theta m l, e).

Definition mech_set_g (m : mech) (g1 g2 : dict nat R) : mech :=
  mkMech (ms_grid m) (ms_refined m) (ms_radius m) (ms_fps m) (ms_reg m) (ms_prev_y1 m) (ms_prev_y2 m)
         (ms_prev_theta m) (ms_y1 m) (ms_y2 m) g1 g2 (ms_traction m).
Definition dreplace (v : nat) (x : R) (d : dict nat R) : dict nat R :=
  map (fun '(k, y) => if Nat.eqb k v then (k, x) else (k, y)) d.
(** mechanical_step.py:251-252: [m.g1[i], m.g2[i] = f(t, *point)] needs exactly two values. *)
Definition traction_at (m : mech) (t : R) (v : nat) : res (R * R) :=
  let* p := py_nth (g_points (ms_grid m)) v in
  let* '(x, y) := xy p in
  let* l := ms_traction m t x y in
  match l with [a; b] => Ok (a, b) | _ => Err ValueError end.
Fixpoint traction_loop (m : mech) (t : R) (vs : list nat) : mech * res unit :=
  match vs with
  | [] => (m, Ok tt)
  | v :: vs' =>
      match traction_at m t v with
      | Err e => (m, Err e)
      | Ok (a, b) => traction_loop (mech_set_g m (dreplace v a (ms_g1 m)) (dreplace v b (ms_g2 m))) t vs'
      end
  end.
(** mechanical_step.py:249-252; _MechanicalStepRegularized inherits the empty body of 67-68. *)
Definition mech_update_boundary_traction (m : mech) (t : R) : mech * res unit :=
  match ms_refined m with
  | Some _ => (m, Ok tt)
  | None => traction_loop m t (b_vertices (g_neumann (ms_grid m)))
  end.

(** What the solver does: values for the variables of both components, and whether an exception escapes. *)
Record mech_answer := mkMA { ma_y1 : nat -> R; ma_y2 : nat -> R; ma_exn : option exn }.
(** mechanical_step.py:195-196, 417-418. *)
Definition mech_solve (a : mech_answer) (m : mech) : mech * res unit :=
  (mkMech (ms_grid m) (ms_refined m) (ms_radius m) (ms_fps m) (ms_reg m) (ms_prev_y1 m) (ms_prev_y2 m)
          (ms_prev_theta m) (load (ma_y1 a) (ms_y1 m)) (load (ma_y2 a) (ms_y2 m)) (ms_g1 m) (ms_g2 m)
          (ms_traction m),
   match ma_exn a with None => Ok tt | Some e => Err e end).

(** *** The objective as a function of the values [y1], [y2] of the variables. *)

(** The interpolation of a component: mechanical_step.py:135-143, 339-351; thermal_step.py:236-242, 325-335. *)
Definition comp_interp (g : grid R) (rg : option (refined_grid R)) (y : list R) : interp :=
  match rg with
  | None => P1I g y
  | Some r => RefI (C1I g (chunks (num_vertices g) 6 y)) r
  end.
(** The temperature: mechanical_step.py:139, 345; thermal_step.py:244-246, 337-339. *)
Definition temp_interp (g : grid R) (rg : option (refined_grid R)) (theta : list R) : interp :=
  P1I (theta_grid g rg) theta.

(** mechanical_step.py:170-171. *)
Definition boundary_traction_potential (traction deform : vector R) : R := Vector_dot traction deform.

Section MechObjective.
(** numpy's leggauss *)
Variable leggauss : Z -> res (list R * list R).

(** mechanical_step.py:150, 154-156, 353-357: DUNAVANT2 on the grid resp. DUNAVANT5 on the refined grid. *)
Definition mech_elastic_energy (m : mech) (y1 y2 : list R) : res R :=
  let g := ms_grid m in let rg := ms_refined m in
  let* q := (match rg with None => DUNAVANT2 | Some _ => DUNAVANT5 end) in
  let* I := Integrator_ q (g_triangles (theta_grid g rg)) (g_points (theta_grid g rg)) in
  integrate I (fun t b =>
    let* F := deform_strain (comp_interp g rg y1) (comp_interp g rg y2) t b in
    let* th := i_call (temp_interp g rg (ms_prev_theta m)) t b in
    total_elastic_potential F th).

(** mechanical_step.py:151, 157-159, 361-363. *)
Definition mech_dissipation (m : mech) (y1 y2 : list R) : res R :=
  let g := ms_grid m in let rg := ms_refined m in
  let* q := (match rg with None => CENTROID | Some _ => DUNAVANT5 end) in
  let* I := Integrator_ q (g_triangles (theta_grid g rg)) (g_points (theta_grid g rg)) in
  integrate I (fun t b =>
    let* F0 := deform_strain (comp_interp g rg (ms_prev_y1 m)) (comp_interp g rg (ms_prev_y2 m)) t b in
    let* F := deform_strain (comp_interp g rg y1) (comp_interp g rg y2) t b in
    dissipation_potential F0 F).

(** mechanical_step.py:160-162 with 145-148, 152. *)
Definition mech_traction_energy (m : mech) (y1 y2 : list R) : res R :=
  let g := ms_grid m in
  let* g1 := P1BoundaryInterpolation_ (g_neumann g) (ms_g1 m) in
  let* g2 := P1BoundaryInterpolation_ (g_neumann g) (ms_g2 m) in
  let* I := BoundaryIntegrator_ leggauss 1 (b_edges (g_neumann g)) (g_points g) in
  boundary_integrate I (fun e t =>
    let* a := p1b_call g1 e t in
    let* b := p1b_call g2 e t in
    let* d := deform_on_edge (P1I g y1) (P1I g y2) e t in
    Ok (boundary_traction_potential [a; b] d)).

(** mechanical_step.py:358-360. *)
Definition mech_hyper_elastic_energy (m : mech) (y1 y2 : list R) : res R :=
  let g := ms_grid m in let rg := ms_refined m in
  let* q := DUNAVANT5 in
  let* I := Integrator_ q (g_triangles (theta_grid g rg)) (g_points (theta_grid g rg)) in
  integrate I (fun t b =>
    let* h := deform_hyper_strain (comp_interp g rg y1) (comp_interp g rg y2) t b in
    Ok (hyper_elastic_potential h)).

(** mechanical_step.py:163-165, 364-366. *)
Definition mech_objective (m : mech) (y1 y2 : list R) : res R :=
  let* E := mech_elastic_energy m y1 y2 in
  match ms_refined m with
  | None =>
      let* D := mech_dissipation m y1 y2 in
      let* W := mech_traction_energy m y1 y2 in
      Ok (E - W + ms_fps m * D)
  | Some _ =>
      let* H := mech_hyper_elastic_energy m y1 y2 in
      let* D := mech_dissipation m y1 y2 in
      Ok (E + ms_reg m * H + ms_fps m * D)
  end.
End MechObjective.

(** mechanical_step.py:371-389 [_dirichlet_constraint_regularized]: left minus right hand side of constraint [j] for
    the component with parameter rows [y] (row of vertex [i] = 6 values), endpoints [p], [q], component [c] of p, q, d.
    Any other id: Python returns None. *)
Definition dirichlet_constraint (y : list (list R)) (e : edge) (p q : R * R) (j : nat) (second : bool)
    : res (option R) :=
  let d := (fst q - fst p, snd q - snd p) in
  let comp (z : R * R) := if second then snd z else fst z in
  let* yi := py_nth y (fst e) in
  let* yj := py_nth y (snd e) in
  let ix (r : list R) n := nth n r 0 in
  Ok (match j with
      | 1%nat => Some (ix yi 0%nat - comp p)
      | 2%nat => Some (ix yi 1%nat * fst d + ix yi 2%nat * snd d - comp d)
      | 3%nat => Some (ix yi 3%nat * fst d ^ 2 + 2 * ix yi 4%nat * fst d * snd d + ix yi 5%nat * snd d ^ 2 - 0)
      | 4%nat => Some (ix yj 0%nat - comp q)
      | 5%nat => Some (ix yj 1%nat * fst d + ix yj 2%nat * snd d - comp d)
      | 6%nat => Some (ix yj 3%nat * fst d ^ 2 + 2 * ix yj 4%nat * fst d * snd d + ix yj 5%nat * snd d ^ 2 - 0)
      | _ => None
      end).
(** mechanical_step.py:318-337: all constraints (both components, every Dirichlet edge, ids 1..6) hold. *)
Definition dirichlet_constraints_hold (m : mech) (y1 y2 : list R) : Prop :=
  let g := ms_grid m in
  forall e, In e (b_edges (g_dirichlet g)) ->
  forall pp qq p q, edge_vertices g e = Ok (pp, qq) -> xy pp = Ok p -> xy qq = Ok q ->
  forall j, (1 <= j <= 6)%nat ->
    dirichlet_constraint (chunks (num_vertices g) 6 y1) e p q j false = Ok (Some 0) /\
    dirichlet_constraint (chunks (num_vertices g) 6 y2) e p q j true = Ok (Some 0).

(** ** Thermal step *)

Definition external_fn := R -> res R.

(** thermal_step.py:362-368 / 455-466 and the pyomo model; [ts_refined = None]: class _ThermalStep. *)
Record therm := mkTherm {
  ts_grid : grid R;
  ts_refined : option (refined_grid R);
  ts_radius : R;
  ts_fps : R;
  ts_prev_y1 : list R; ts_prev_y2 : list R;
  ts_y1 : list R; ts_y2 : list R;
  ts_prev_theta : list R;
  ts_theta : list pvar;
  ts_ext : R;
  ts_external : external_fn
}.

(** thermal_step.py:159-171. *)
Definition check_prev_step_data (ys ths : list nat) (prev_y y prev_theta : ndarray) : res unit :=
  if negb (shape_is prev_y ys) then Err ValueError
  else if negb (shape_is y ys) then Err ValueError
  else if negb (shape_is prev_theta ths) then Err ValueError
  else Ok tt.

(** thermal_step.py:174-234 with 351-368, and 265-323 with 444-466.  External temperature: Param within
    NonNegativeReals, unregularized only (232-234). *)
Definition therm_init (g : grid R) (rg : option (refined_grid R)) (prev_y y prev_theta : ndarray)
    (radius fps : R) (ext : external_fn) : res therm :=
  let* ext0 := (match rg with None => ext 0 | Some _ => Ok 0 end) in
  let* _ := check_prev_step_data (y_shape g rg) (theta_shape g rg) prev_y y prev_theta in
  if negb (all_nonneg (nd_data prev_theta)) then Err ValueError
  else if Rltb ext0 0 then Err ValueError
  else
    let N := num_vertices g in
    let k := dofs rg in
    Ok (mkTherm g rg radius fps
          (unpack N k 0 (nd_data prev_y)) (unpack N k 1 (nd_data prev_y))
          (unpack N k 0 (nd_data y)) (unpack N k 1 (nd_data y))
          (nd_data prev_theta) (map (new_var radius false) (nd_data prev_theta)) ext0 ext).

(** thermal_step.py:565-600 [thermal_step]. *)
Definition thermal_step (g : grid R) (prev_y y prev_theta : ndarray) (radius fps : R) (reg : option R)
    (ext : external_fn) (rg : option (refined_grid R)) : res therm :=
  match reg with
  | None => therm_init g None prev_y y prev_theta radius fps ext
  | Some _ =>
      match rg with
      | None => Err ValueError
      | Some r => therm_init g (Some r) prev_y y prev_theta radius fps ext
      end
  end.

(** thermal_step.py:373-376, 471-483. *)
Definition therm_prev_y (s : therm) : ndarray := y_array (ts_grid s) (ts_refined s) (ts_prev_y1 s) (ts_prev_y2 s).
(** thermal_step.py:378-381, 485-497. *)
Definition therm_y (s : therm) : ndarray := y_array (ts_grid s) (ts_refined s) (ts_y1 s) (ts_y2 s).
(** thermal_step.py:383-386, 499-505. *)
Definition therm_prev_theta (s : therm) : ndarray := theta_array (ts_grid s) (ts_refined s) (ts_prev_theta s).
(** thermal_step.py:388-391, 507-511. *)
Definition therm_theta (s : therm) : ndarray := theta_array (ts_grid s) (ts_refined s) (map v_val (ts_theta s)).

(** thermal_step.py:393-405, 513-529. *)
Definition therm_update_prev_y (s : therm) (a : ndarray) : therm * res unit :=
  if negb (shape_is a (y_shape (ts_grid s) (ts_refined s))) then (s, Err ValueError)
  else
    let N := num_vertices (ts_grid s) in
    let k := dofs (ts_refined s) in
    (mkTherm (ts_grid s) (ts_refined s) (ts_radius s) (ts_fps s)
             (unpack N k 0 (nd_data a)) (unpack N k 1 (nd_data a)) (ts_y1 s) (ts_y2 s)
             (ts_prev_theta s) (ts_theta s) (ts_ext s) (ts_external s), Ok tt).
(** thermal_step.py:407-419, 547-562. *)
Definition therm_update_y (s : therm) (a : ndarray) : therm * res unit :=
  if negb (shape_is a (y_shape (ts_grid s) (ts_refined s))) then (s, Err ValueError)
  else
    let N := num_vertices (ts_grid s) in
    let k := dofs (ts_refined s) in
    (mkTherm (ts_grid s) (ts_refined s) (ts_radius s) (ts_fps s) (ts_prev_y1 s) (ts_prev_y2 s)
             (unpack N k 0 (nd_data a)) (unpack N k 1 (nd_data a))
             (ts_prev_theta s) (ts_theta s) (ts_ext s) (ts_external s), Ok tt).

(** thermal_step.py:428-435, 538-545: the loop body sets Param (may raise), Var value and bounds. *)
Fixpoint theta_loop (r : R) (old : list R) (vars : list pvar) (new : list R) : list R * list pvar * res unit :=
  match old, vars, new with
  | o :: old', x :: vars', v :: new' =>
      if Rltb v 0 then (old, vars, Err ValueError)
      else
        let '(ps, xs, e) := theta_loop r old' vars' new' in
        (v :: ps, recenter r x v :: xs, e)
  | _, _, _ => (old, vars, Ok tt)
  end.
(** thermal_step.py:421-435, 531-545. *)
Definition therm_update_prev_theta (s : therm) (a : ndarray) : therm * res unit :=
  if negb (shape_is a (theta_shape (ts_grid s) (ts_refined s))) then (s, Err ValueError)
  else
    let '(ps, xs, e) := theta_loop (ts_radius s) (ts_prev_theta s) (ts_theta s) (nd_data a) in
    (mkTherm (ts_grid s) (ts_refined s) (ts_radius s) (ts_fps s) (ts_prev_y1 s) (ts_prev_y2 s)
             (ts_y1 s) (ts_y2 s) ps xs (ts_ext s) (ts_external s), e).

(** thermal_step.py:437-438; _ThermalStepRegularized inherits the empty body of 67-68. *)
Definition therm_update_external_temperature (s : therm) (t : R) : therm * res unit :=
  match ts_refined s with
  | Some _ => (s, Ok tt)
  | None =>
      match ts_external s t with
      | Err e => (s, Err e)
      | Ok v =>
          if Rltb v 0 then (s, Err ValueError)
          else (mkTherm (ts_grid s) (ts_refined s) (ts_radius s) (ts_fps s) (ts_prev_y1 s) (ts_prev_y2 s)
                        (ts_y1 s) (ts_y2 s) (ts_prev_theta s) (ts_theta s) v (ts_external s), Ok tt)
      end
  end.

Record therm_answer := mkTA { ta_theta : nat -> R; ta_exn : option exn }.
(** thermal_step.py:370-371, 468-469. *)
Definition therm_solve (a : therm_answer) (s : therm) : therm * res unit :=
  (mkTherm (ts_grid s) (ts_refined s) (ts_radius s) (ts_fps s) (ts_prev_y1 s) (ts_prev_y2 s)
           (ts_y1 s) (ts_y2 s) (ts_prev_theta s) (load (ta_theta a) (ts_theta s)) (ts_ext s) (ts_external s),
   match ta_exn a with None => Ok tt | Some e => Err e end).

(** *** The thermal objective as a function of the temperatures. *)

(** thermal_step.py:80-97. *)
Definition energy_potential (fps : R) (prev_strain strain : matrix R) (prev_temp temp : R)
    (temp_gradient : vector R) : res R :=
  let* K := heat_conductivity_reference prev_strain in
  let* Kg := Matrix_dot K temp_gradient in
  let diffusion := Vector_dot temp_gradient Kg in
  let* d := Matrix_sub strain prev_strain in
  let* strain_rate := Matrix_mul d fps in
  let* rate := dissipation_rate prev_strain strain fps in
  let* c := strain_derivative_coupling_potential prev_strain prev_temp in
  let* cs := Matrix_scalar_product c strain_rate in
  Ok (diffusion + - (rate + cs) * temp).

(** thermal_step.py:100-107. *)
Definition thermal_dissipation_potential (prev_strain strain : matrix R) (prev_temp temp : R) : res R :=
  let l2_dissipation := ENTROPY_CONSTANT / 2 * (temp - prev_temp) ^ 2 in
  let* a := temp_antrider_internal_energy_no_entropy strain temp in
  let* b := internal_energy_no_entropy prev_strain prev_temp in
  Ok (l2_dissipation + (a - b * temp)).

(** thermal_step.py:110-114. *)
Definition boundary_potential (coef ext temp : R) : R := coef / 2 * (temp - ext) ^ 2.

Section ThermObjective.
Variable leggauss : Z -> res (list R * list R).

Definition therm_integrator (s : therm) : res (integrator R) :=
  let g := ts_grid s in let rg := ts_refined s in
  let* q := (match rg with None => DUNAVANT2 | Some _ => DUNAVANT5 end) in
  Integrator_ q (g_triangles (theta_grid g rg)) (g_points (theta_grid g rg)).

(** thermal_step.py:127-136. *)
Definition therm_energy (s : therm) (theta : list R) : res R :=
  let g := ts_grid s in let rg := ts_refined s in
  let* I := therm_integrator s in
  integrate I (fun t b =>
    let* F0 := deform_strain (comp_interp g rg (ts_prev_y1 s)) (comp_interp g rg (ts_prev_y2 s)) t b in
    let* F := deform_strain (comp_interp g rg (ts_y1 s)) (comp_interp g rg (ts_y2 s)) t b in
    let* th0 := i_call (temp_interp g rg (ts_prev_theta s)) t b in
    let* th := i_call (temp_interp g rg theta) t b in
    let* gr := i_gradient (temp_interp g rg theta) t b in
    energy_potential (ts_fps s) F0 F th0 th gr).

(** thermal_step.py:138-146. *)
Definition therm_dissipation (s : therm) (theta : list R) : res R :=
  let g := ts_grid s in let rg := ts_refined s in
  let* I := therm_integrator s in
  integrate I (fun t b =>
    let* F0 := deform_strain (comp_interp g rg (ts_prev_y1 s)) (comp_interp g rg (ts_prev_y2 s)) t b in
    let* F := deform_strain (comp_interp g rg (ts_y1 s)) (comp_interp g rg (ts_y2 s)) t b in
    let* th0 := i_call (temp_interp g rg (ts_prev_theta s)) t b in
    let* th := i_call (temp_interp g rg theta) t b in
    thermal_dissipation_potential F0 F th0 th).

(** thermal_step.py:148-154: only with a boundary integrator (unregularized, 249-260). *)
Definition therm_boundary (s : therm) (theta : list R) : res R :=
  let g := ts_grid s in
  match ts_refined s with
  | Some _ => Ok 0
  | None =>
      let* I := BoundaryIntegrator_ leggauss 1 (b_edges (g_boundary g)) (g_points g) in
      boundary_integrate I (fun e t =>
        let* th := i_on_edge (P1I g theta) e t in
        Ok (boundary_potential HEAT_TRANSFER_COEFFICIENT (ts_ext s) th))
  end.

(** thermal_step.py:156. *)
Definition therm_objective (s : therm) (theta : list R) : res R :=
  let* E := therm_energy s theta in
  let* D := therm_dissipation s theta in
  let* B := therm_boundary s theta in
  Ok (E + B + ts_fps s * D).
End ThermObjective.
