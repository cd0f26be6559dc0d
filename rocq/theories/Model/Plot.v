(** * Model of the drawing code (over the reals): domain.py:88-95, 140-165, 616-632; helpers.py:178-189;
      simulation.py:55-91, 288-322.
    matplotlib is modelled by what the code hands to it: an axis is its two limits and the list of the things
    drawn on it, in order.  Assumed of matplotlib: a new axis has the limits (0, 1); setting limits switches
    automatic scaling off, so drawing does not change them afterwards (every function below sets limits before
    it draws, except [plot] of a domain on an axis of the caller); [ax.clear] makes the axis new.
    Colours, line widths, aspect and file formats are left out. *)
From Coq Require Import Reals String DecimalString.
From Verif.Model Require Import Py Num Tensors Domain Refine Interp Steps Simulation.
Local Open Scope R_scope.
Local Notation length := List.length.

Inductive artist :=
  | Dots (xs ys : list R)                         (* ax.scatter *)
  | Polyline (xs ys : list R)                     (* ax.plot, plt.plot *)
  | Box (x y w h : R)                             (* ax.add_patch(patches.Rectangle) *)
  | Coloured (xs ys cs : list R) (ts : list triangle) (vmin vmax : R).   (* ax.tripcolor *)
Record axis := mkAxis { ax_xlim : R * R; ax_ylim : R * R; ax_artists : list artist }.

(** [plt.subplots()], [ax.clear()]. *)
Definition new_axis : axis := mkAxis (0, 1) (0, 1) [].
Definition draw (ax : axis) (a : artist) : axis := mkAxis (ax_xlim ax) (ax_ylim ax) (ax_artists ax ++ [a]).

(** helpers.py:185-189 [setup_axis]: sets both limits. *)
Definition setup_axis (ax : axis) (xlims ylims : R * R) : axis := mkAxis xlims ylims (ax_artists ax).
(** helpers.py:178-182 [fig_axis]. *)
Definition fig_axis (xlims ylims : R * R) : axis := setup_axis new_axis xlims ylims.

(** ** domain.py *)

(** domain.py:13 [PLOT_BORDER] (a decimal literal; over the reals its exact value). *)
Definition PLOT_BORDER : R := 5 / 100.

(** domain.py:88-90. *)
Definition adjust_xlim (ax : axis) (xlim : R * R) : axis :=
  mkAxis (Rmin (fst (ax_xlim ax)) (fst xlim), Rmax (snd (ax_xlim ax)) (snd xlim)) (ax_ylim ax) (ax_artists ax).
(** domain.py:93-95. *)
Definition adjust_ylim (ax : axis) (ylim : R * R) : axis :=
  mkAxis (ax_xlim ax) (Rmin (fst (ax_ylim ax)) (fst ylim), Rmax (snd (ax_ylim ax)) (snd ylim)) (ax_artists ax).

(** [[p[k] for p in points]] *)
Definition coordinate (k : nat) (ps : list (vector R)) : res (list R) := mapM (fun p => py_nth p k) ps.

(** domain.py:140-143. *)
Definition plot_vertices (g : grid R) (ax : axis) : res axis :=
  let* x := coordinate 0 (g_points g) in
  let* y := coordinate 1 (g_points g) in
  Ok (draw ax (Dots x y)).

(** domain.py:145-149. *)
Definition plot_edge (g : grid R) (ax : axis) (e : edge) : res axis :=
  let* p := py_nth (g_points g) (fst e) in
  let* q := py_nth (g_points g) (snd e) in
  let* p0 := py_nth p 0 in let* q0 := py_nth q 0 in
  let* p1 := py_nth p 1 in let* q1 := py_nth q 1 in
  Ok (draw ax (Polyline [p0; q0] [p1; q1])).
Definition plot_edges (g : grid R) (ax : axis) : res axis := foldM (plot_edge g) (g_edges g) ax.

(** domain.py:151-165 [Grid.plot]; line 154 calls [fig_axis] without its two arguments.  Python's [max] of an
    empty iterable raises ValueError. *)
Definition grid_plot (g : grid R) (ax : option axis) : res axis :=
  match ax with
  | None => Err TypeError
  | Some ax =>
      let* x := coordinate 0 (g_points g) in
      let* xmax := np_max x in
      let ax := adjust_xlim ax (- PLOT_BORDER, xmax + PLOT_BORDER) in
      let* y := coordinate 1 (g_points g) in
      let* ymax := np_max y in
      let ax := adjust_ylim ax (- PLOT_BORDER, ymax + PLOT_BORDER) in
      let* ax := plot_vertices g ax in
      plot_edges g ax
  end.

(** domain.py:616-632 [RectangleDomain.plot]. *)
Definition domain_plot (width height : R) (ax : option axis) : axis :=
  let ax := match ax with
            | None => fig_axis (- PLOT_BORDER, width + PLOT_BORDER) (- PLOT_BORDER, height + PLOT_BORDER)
            | Some ax => ax
            end in
  draw ax (Box 0 0 width height).

(** ** simulation.py *)

(** [self.y(star p)], [self.theta(star p)]: a Vector is unpacked into the two arguments. *)
Definition call_at {A} (f : R -> R -> res A) (p : vector R) : res A :=
  match p with [x; y] => f x y | _ => Err TypeError end.

(** [ax.tripcolor]: rejects a triangulation without triangles, with a vertex that has no coordinates, and values
    that do not belong to the vertices. *)
Definition tripcolor (ax : axis) (x y c : list R) (ts : list triangle) (vmin vmax : R) : res axis :=
  let n := length x in
  let fits t := let '(i, j, k) := t in ((i <? n) && (j <? n) && (k <? n))%nat in
  if negb (Nat.eqb (length y) n && Nat.eqb (length c) n) then Err ValueError
  else match ts with
       | [] => Err ValueError
       | _ => if forallb fits ts then Ok (draw ax (Coloured x y c ts vmin vmax)) else Err ValueError
       end.

(** simulation.py:55-71 [_plot_temperature]. *)
Definition plot_temperature (st : step) (ax : axis) (max_temp : R) : res axis :=
  let ps := g_points (st_grid st) in
  let* deformed := mapM (call_at (edeform_call (st_y1 st) (st_y2 st))) ps in
  let* x := coordinate 0 deformed in
  let* y := coordinate 1 deformed in
  let* c := mapM (call_at (euclid_call (st_theta st))) ps in
  tripcolor ax x y c (g_triangles (st_grid st)) 0 max_temp.
(** simulation.py:86-91 [AbstractStep.plot]. *)
Definition step_plot (st : step) (ax : axis) (max_temp : R) : res axis := plot_temperature st ax max_temp.

(** simulation.py:73-84 [_plot_deformation_curves]: the lines drawn on the current axis of pyplot. *)
Definition plot_deformation_curves (width height : R) (st : step) (num_points num_horizontal : Z) (num_vertical : option Z)
    (ax : axis) : res axis :=
  let* cs := curves width height num_points num_horizontal num_vertical in
  foldM (fun ax c =>
    let* deformed := mapM (call_at (edeform_call (st_y1 st) (st_y2 st))) c in
    let* x := coordinate 0 deformed in
    let* y := coordinate 1 deformed in
    Ok (draw ax (Polyline x y))) cs ax.

(** [self._xlims], [self._ylims] handed to [set_xlim]: the initial infinite ones are rejected by matplotlib. *)
Definition finite_lims (l : option (R * R)) : res (R * R) := match l with Some p => Ok p | None => Err ValueError end.
Definition sim_axis (s : sim) : res axis :=
  let* xl := finite_lims (s_xlims s) in
  let* yl := finite_lims (s_ylims s) in
  Ok (fig_axis xl yl).

(** simulation.py:288-296 [_plot_step]: the figure, [None] if the index is out of range. *)
Definition plot_figure (s : sim) (i : Z) : res (option axis) :=
  let n := Z.of_nat (length (s_steps s)) in
  if ((i <? - n) || (n <=? i))%Z then Ok None
  else
    let* ax := sim_axis s in
    let* st := py_index (s_steps s) i in
    let* ax := step_plot st ax (sim_max_temp s) in
    Ok (Some ax).

(** Decimal notation of an int in an f-string. *)
Definition decimal (i : Z) : string := NilZero.string_of_int (Z.to_int i).

(** simulation.py:301-311 [save_step]: the file written, with its contents. *)
Definition save_figure (s : sim) (i : Z) (path : string) : res (option (string * axis)) :=
  let* fig := plot_figure s i in
  Ok (match fig with
      | None => None
      | Some ax =>
          let step_index := (if (0 <=? i)%Z then i else Z.of_nat (length (s_steps s)) + i)%Z in
          Some ((path ++ "_" ++ decimal step_index ++ ".png")%string, ax)
      end).

(** simulation.py:313-322 [save_animation]: file name, frames per second and frames of the film.
    FuncAnimation with [frames=n] calls [animate_frame] with 0, ..., n-1 (once more with 0 before the first one,
    which is overdrawn and left out here). *)
Record film := mkFilm { film_name : string; film_fps : Z; film_frames : list axis }.
(** simulation.py:316-319 [animate_frame]. *)
Definition animate_frame (s : sim) (i : nat) : res axis :=
  let* xl := finite_lims (s_xlims s) in
  let* yl := finite_lims (s_ylims s) in
  let ax := setup_axis new_axis xl yl in
  let* st := py_index (s_steps s) (Z.of_nat i) in
  step_plot st ax (s_max_temp s).
Definition save_animation (s : sim) (filename : string) : res film :=
  let* _ := sim_axis s in
  let* frames := mapM (animate_frame s) (range (length (s_steps s))) in
  Ok (mkFilm (filename ++ ".mp4")%string 30 frames).
