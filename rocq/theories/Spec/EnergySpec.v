(** * Specification vocabulary: energies of mechanical problems (C60, C77, C78). *)
From Coq Require Import Reals List ZArith.
From Verif.Spec Require Import GridSpec PotentialSpec.
From Verif.Model Require Import Py Num Tensors Domain Refine Quadrature Interp Steps Simulation.
From Verif.Spec Require Import SimSpec.
Local Open Scope R_scope.
Import ListNotations.

(** The triangle [t] deformed by the vertex positions [(y1, y2)] is positively oriented. *)
Definition positive_triangle (y1 y2 : list R) (t : triangle) : Prop :=
  let '(a, b, c) := t in exists p q r, nth_error y1 a = Some (fst p) /\ nth_error y2 a = Some (snd p) /\
    nth_error y1 b = Some (fst q) /\ nth_error y2 b = Some (snd q) /\ nth_error y1 c = Some (fst r) /\ nth_error y2 c = Some (snd r) /\ 0 < cross p q r.
(** All triangles of the grid stay positively oriented. *)
Definition keeps_orientation (g : grid R) (y1 y2 : list R) : Prop := forall t, In t (g_triangles g) -> positive_triangle y1 y2 t.

(** A computation of the energy of a problem [m] at its previous deformation and at the values of [m']. *)
Definition before (f : mech -> list R -> list R -> res R) (m : mech) : res R := f m (ms_prev_y1 m) (ms_prev_y2 m).
Definition after (f : mech -> list R -> list R -> res R) (m m' : mech) : res R := f m (map v_val (ms_y1 m')) (map v_val (ms_y2 m')).

(** A solver never leaves the domain of the objective (of the problem it is given) and never makes it larger. *)
Definition cautious (leggauss : Z -> res (list R * list R)) (sv : solver) : Prop := forall k m J,
  let m' := fst (mech_solve (sv_mech sv k m) m) in
  mech_objective leggauss m (map v_val (ms_y1 m)) (map v_val (ms_y2 m)) = Ok J ->
  exists J', mech_objective leggauss m (map v_val (ms_y1 m')) (map v_val (ms_y2 m')) = Ok J' /\ J' <= J.
(** The deformed triangles of a recorded step are all positively oriented. *)
Definition step_keeps_orientation (g : grid R) (st : step) : Prop := forall a b c, In (a, b, c) (g_triangles g) -> exists p q r,
  y_at (st_y_data st) a 0 0 = Some (fst p) /\ y_at (st_y_data st) a 1 0 = Some (snd p) /\
  y_at (st_y_data st) b 0 0 = Some (fst q) /\ y_at (st_y_data st) b 1 0 = Some (snd q) /\
  y_at (st_y_data st) c 0 0 = Some (fst r) /\ y_at (st_y_data st) c 1 0 = Some (snd r) /\ 0 < cross p q r.

(** The combination [al * y + be * z] of two lists of parameters. *)
Definition lincomb (al : R) (y : list R) (be : R) (z : list R) : list R := map (fun '(u, v) => al * u + be * v) (combine y z).
(** The parameters of the affine function al * x1 + be * x2 + ga: its values at the vertices, for C1 interpolation also its
    derivatives. *)
Definition affine_field (g : grid R) (rg : option (refined_grid R)) (al be ga : R) (y : list R) : Prop :=
  length y = (length (g_vertices g) * dofs rg)%nat /\
  forall v p, point_at g v p -> forall j, (j < dofs rg)%nat ->
    nth_error y (v * dofs rg + j) = nth_error [al * fst p + be * snd p + ga; al; be; 0; 0; 0] j.

(** The strain of the deformation with parameters [(y1, y2)] has positive determinant at all points of a quadrature rule in all
    triangles (of the refined grid, if there is one). *)
Definition positive_jacobian (g : grid R) (rg : option (refined_grid R)) (q : rule R) (y1 y2 : list R) : Prop :=
  forall t b, In t (g_triangles (theta_grid g rg)) -> In b (q_points q) ->
  exists F, deform_strain (comp_interp g rg y1) (comp_interp g rg y2) t b = Ok (mat F) /\ 0 < det2 F.
