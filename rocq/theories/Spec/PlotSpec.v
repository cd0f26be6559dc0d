(** * Specification vocabulary for the drawing code (C89-C93). *)
From Coq Require Import Reals List ZArith.
From Verif.Model Require Import Py Num Tensors Domain Refine Interp Steps Simulation Plot.
From Verif.Spec Require Import GridSpec SimSpec.
Local Open Scope R_scope.
Import ListNotations.

(** The rectangle has at least one grid cell in each direction. *)
Definition has_cells (u : setting) : Prop := p_scale (se_params u) <= se_width u /\ p_scale (se_params u) <= se_height u.

(** The coloured triangulation [a] shows step [st] on a colour scale from 0 to [top]: the triangles of the step's grid, every
    vertex drawn where [step.y] puts it, with [step.theta] as its value. *)
Definition shows (st : step) (top : R) (a : artist) : Prop :=
  exists xs ys cs, a = Coloured xs ys cs (g_triangles (st_grid st)) 0 top /\
    length xs = length (g_points (st_grid st)) /\ length ys = length (g_points (st_grid st)) /\ length cs = length (g_points (st_grid st)) /\
    forall v p, point_at (st_grid st) v p -> exists X Y c, nth_error xs v = Some X /\ nth_error ys v = Some Y /\ nth_error cs v = Some c /\
      edeform_call (st_y1 st) (st_y2 st) (fst p) (snd p) = Ok [X; Y] /\ euclid_call (st_theta st) (fst p) (snd p) = Ok c.

(** [(x, y)] is inside the limits of the axis. *)
Definition in_view (ax : axis) (x y : R) : Prop :=
  fst (ax_xlim ax) <= x <= snd (ax_xlim ax) /\ fst (ax_ylim ax) <= y <= snd (ax_ylim ax).
(** The view of [ax'] contains the view of [ax]. *)
Definition wider (ax ax' : axis) : Prop :=
  fst (ax_xlim ax') <= fst (ax_xlim ax) /\ snd (ax_xlim ax) <= snd (ax_xlim ax') /\
  fst (ax_ylim ax') <= fst (ax_ylim ax) /\ snd (ax_ylim ax) <= snd (ax_ylim ax').
(** [a] is the straight segment between the end points of edge [e]. *)
Definition segment (g : grid R) (e : edge) (a : artist) : Prop :=
  exists p q, point_at g (fst e) p /\ point_at g (snd e) q /\ a = Polyline [fst p; fst q] [snd p; snd q].
(** [a] is the line through the images of the points of [c] under [step.y]. *)
Definition image_line (st : step) (c : list (vector R)) (a : artist) : Prop :=
  exists xs ys, a = Polyline xs ys /\ length xs = length c /\ length ys = length c /\
    forall i p, nth_error c i = Some [fst p; snd p] -> exists X Y, nth_error xs i = Some X /\ nth_error ys i = Some Y /\ edeform_call (st_y1 st) (st_y2 st) (fst p) (snd p) = Ok [X; Y].
