(** * Model of src/tvemoves_rufbad/interpolation.py (over the reals). *)
From Coq Require Import Reals.
From Verif.Model Require Import Py Num Tensors Domain Refine Bell.
Local Open Scope R_scope.

(** The classes implementing the Interpolation protocol (interpolation.py:15-34) with their attributes:
    P1Interpolation (51-85), C1Interpolation (88-151), RefinedInterpolation (154-204).
    Parameters are lists indexed by vertex (pyomo containers are read through the values they hold). *)
Inductive interp :=
  | P1I (g : grid R) (params : list R)
  | C1I (g : grid R) (params : list (list R))
  | RefI (coarse : interp) (rg : refined_grid R).

(** The attribute [grid]. *)
Definition i_grid (i : interp) : grid R :=
  match i with P1I g _ => g | C1I g _ => g | RefI _ rg => r_grid rg end.

(** interpolation.py:54-58 [P1Interpolation.__init__]. *)
Definition P1Interpolation_ (g : grid R) (params : list R) : res interp :=
  if negb (Nat.eqb (length params) (length (g_vertices g))) then Err ValueError else Ok (P1I g params).

(** interpolation.py:91-105 [C1Interpolation.__init__]. *)
Definition C1Interpolation_ (g : grid R) (params : list (list R)) : res interp :=
  if existsb (fun p => negb (Nat.eqb (length p) 6)) params then Err ValueError
  else if negb (Nat.eqb (length params) (length (g_vertices g))) then Err ValueError
  else Ok (C1I g params).

(** interpolation.py:107-112. *)
Definition triangle_params (params : list (list R)) (t : triangle) : res (vector R) :=
  let '(i1, i2, i3) := t in
  let* v1 := py_nth params i1 in
  let* v2 := py_nth params i2 in
  let* v3 := py_nth params i3 in
  Ok (Vector_extend (Vector_extend v1 v2) v3).

(** interpolation.py:60-67, 114-124, 178-181 [__call__]. *)
Fixpoint i_call (i : interp) (t : triangle) (b : bary R) : res R :=
  match i with
  | P1I g params =>
      let '(i1, i2, i3) := t in
      let* u1 := py_nth params i1 in
      let* u2 := py_nth params i2 in
      let* u3 := py_nth params i3 in
      Ok (l1 b * u1 + l2 b * u2 + l3 b * u3)
  | C1I g params =>
      let* tv := triangle_vertices g t in
      let* ps := triangle_params params t in
      bell_interpolation tv b ps
  | RefI c rg =>
      let* '(t', b') := to_coarse_barycentric_point rg (t, b) in
      i_call c t' b'
  end.

(** interpolation.py:69-76, 126-134, 183-188 [gradient]. *)
Fixpoint i_gradient (i : interp) (t : triangle) (b : bary R) : res (vector R) :=
  match i with
  | P1I g params =>
      let '(i1, i2, i3) := t in
      let* u1 := py_nth params i1 in
      let* u2 := py_nth params i2 in
      let* u3 := py_nth params i3 in
      let* tv := triangle_vertices g t in
      transform_gradient tv [u1; u2; u3]
  | C1I g params =>
      let* tv := triangle_vertices g t in
      let* ps := triangle_params params t in
      bell_interpolation_gradient tv b ps
  | RefI c rg =>
      let* '(t', b') := to_coarse_barycentric_point rg (t, b) in
      i_gradient c t' b'
  end.

(** interpolation.py:82-85, 136-143, 199-204 [hessian]. *)
Fixpoint i_hessian (i : interp) (t : triangle) (b : bary R) : res (matrix R) :=
  match i with
  | P1I _ _ => Err NotImplementedError
  | C1I g params =>
      let* tv := triangle_vertices g t in
      let* ps := triangle_params params t in
      bell_interpolation_hessian tv b ps
  | RefI c rg =>
      let* '(t', b') := to_coarse_barycentric_point rg (t, b) in
      i_hessian c t' b'
  end.

(** interpolation.py:78-80, 145-151, 190-197 [on_edge]. *)
Fixpoint i_on_edge (i : interp) (e : edge) (t : R) : res R :=
  match i with
  | P1I g params =>
      let* u1 := py_nth params (fst e) in
      let* u2 := py_nth params (snd e) in
      Ok (t * u1 + (1 - t) * u2)
  | C1I g params =>
      let* v1 := py_nth params (fst e) in
      let* v2 := py_nth params (snd e) in
      let* p1 := py_nth (g_points g) (fst e) in
      let* p2 := py_nth (g_points g) (snd e) in
      bell_interpolation_on_edge (p1, p2) t (Vector_extend v1 v2)
  | RefI c rg =>
      let* '(e', t') := to_coarse_edge_point rg e t in
      i_on_edge c e' t'
  end.

(** interpolation.py:37-48 [P1BoundaryInterpolation]: parameters are a dict keyed by boundary vertex;
    [len(params)] counts its keys (keys are pairwise different in a Python dict). *)
Definition P1BoundaryInterpolation_ (b : boundary) (params : dict nat R) : res (dict nat R) :=
  if negb (Nat.eqb (length params) (length (b_vertices b))) then Err ValueError else Ok params.
Definition p1b_call (params : dict nat R) (e : edge) (t : R) : res R :=
  let* u1 := dget Nat.eqb (fst e) params in
  let* u2 := dget Nat.eqb (snd e) params in
  Ok (t * u1 + (1 - t) * u2).

(** ** Euclidean evaluation *)

(** interpolation.py:214-220. *)
Definition to_barycentric_inputs (i : interp) (x y : R) : res (triangle * bary R) :=
  let* bp := to_barycentric_point (i_grid i) [x; y] in
  match bp with None => Err ValueError | Some p => Ok p end.
(** interpolation.py:222-223. *)
Definition euclid_call (i : interp) (x y : R) : res R :=
  let* '(t, b) := to_barycentric_inputs i x y in i_call i t b.
(** interpolation.py:225-227. *)
Definition euclid_gradient (i : interp) (x y : R) : res (vector R) :=
  let* '(t, b) := to_barycentric_inputs i x y in i_gradient i t b.
(** interpolation.py:229-231. *)
Definition euclid_hessian (i : interp) (x y : R) : res (matrix R) :=
  let* '(t, b) := to_barycentric_inputs i x y in i_hessian i t b.

(** interpolation.py:247-251. *)
Definition edeform_call (y1 y2 : interp) (x y : R) : res (vector R) :=
  let* a := euclid_call y1 x y in let* b := euclid_call y2 x y in Ok [a; b].
(** interpolation.py:253-255. *)
Definition edeform_strain (y1 y2 : interp) (x y : R) : res (matrix R) :=
  let* a := euclid_gradient y1 x y in let* b := euclid_gradient y2 x y in Vector_stack a b.
(** interpolation.py:257-261. *)
Definition edeform_hyper_strain (y1 y2 : interp) (x y : R) : res (tensor3 R) :=
  let* a := euclid_hessian y1 x y in let* b := euclid_hessian y2 x y in Matrix_stack a b.

(** ** Deformation *)

(** interpolation.py:274-282. *)
Definition deform_call (y1 y2 : interp) (t : triangle) (b : bary R) : res (vector R) :=
  let* u := i_call y1 t b in let* v := i_call y2 t b in Ok [u; v].
(** interpolation.py:284-294. *)
Definition deform_strain (y1 y2 : interp) (t : triangle) (b : bary R) : res (matrix R) :=
  let* u := i_gradient y1 t b in let* v := i_gradient y2 t b in Vector_stack u v.
(** interpolation.py:296-301. *)
Definition deform_on_edge (y1 y2 : interp) (e : edge) (t : R) : res (vector R) :=
  let* u := i_on_edge y1 e t in let* v := i_on_edge y2 e t in Ok [u; v].
(** interpolation.py:303-309. *)
Definition deform_hyper_strain (y1 y2 : interp) (t : triangle) (b : bary R) : res (tensor3 R) :=
  let* u := i_hessian y1 t b in let* v := i_hessian y2 t b in Matrix_stack u v.
