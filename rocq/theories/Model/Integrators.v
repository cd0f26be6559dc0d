(** * Model of src/tvemoves_rufbad/integrators.py.  Integrands may raise, hence return [res T]. *)
From Verif.Model Require Import Py Num Tensors Domain Quadrature.
Local Open Scope num_scope.

Section Integrators.
Context {T : Type} {NT : Num T}.

(** integrators.py:19-25: the attributes of an Integrator. *)
Record integrator := mkIntegrator { i_quad : rule T; i_areas : list T; i_triangles : list triangle }.

(** integrators.py:21-25: one entry of [_triangle_areas]. *)
Definition triangle_area (points : list (vector T)) (t : triangle) : res T :=
  let '(i, j, k) := t in
  let* pj := py_nth points j in
  let* pi := py_nth points i in
  let* first := Vector_sub pj pi in
  let* pk := py_nth points k in
  let* second := Vector_sub pk pi in
  let* m := Vector_stack first second in
  let* d := Matrix_det m in
  let* h := ndiv d (nofZ 2) in
  Ok (nabs h).

(** integrators.py:13-25 [Integrator.__init__]. *)
Definition Integrator_ (q : rule T) (triangles : list triangle) (points : list (vector T)) : res integrator :=
  let* areas := mapM (triangle_area points) triangles in
  Ok (mkIntegrator q areas triangles).

(** integrators.py:33-36: inner sum. *)
Definition quad_sum {A} (pw : list (A * T)) (f : A -> res T) : res T :=
  let* terms := mapM (fun '(p, w) => let* v := f p in Ok (w * v)) pw in
  Ok (nsum terms).

(** integrators.py:27-38 [Integrator.__call__]. *)
Definition integrate (I : integrator) (f : triangle -> bary T -> res T) : res T :=
  let* terms :=
    mapM (fun '(area, t) =>
            let* s := quad_sum (zip (q_points (i_quad I)) (q_weights (i_quad I))) (f t) in
            Ok (area * s))
         (zip (i_areas I) (i_triangles I)) in
  Ok (nsum terms).

(** integrators.py:44-47: the attributes of a BoundaryIntegrator. *)
Record boundary_integrator := mkBoundaryIntegrator {
  bi_points : list T; bi_weights : list T; bi_lengths : list T; bi_edges : list edge }.

(** integrators.py:44-47 [BoundaryIntegrator.__init__]. *)
Definition BoundaryIntegrator_ (leggauss : Z -> res (list T * list T)) (degree : Z)
    (edges : list edge) (points : list (vector T)) : res boundary_integrator :=
  let* '(ps, ws) := GaussQuadratureRule_ leggauss degree in
  let* lens := mapM (edge_length points) edges in
  Ok (mkBoundaryIntegrator ps ws lens edges).

(** integrators.py:49-62 [BoundaryIntegrator.__call__]. *)
Definition boundary_integrate (I : boundary_integrator) (f : edge -> T -> res T) : res T :=
  let* terms :=
    mapM (fun '(len, e) =>
            let* s := quad_sum (zip (bi_points I) (bi_weights I)) (f e) in
            Ok (len * s))
         (zip (bi_lengths I) (bi_edges I)) in
  Ok (nsum terms).

End Integrators.
Arguments integrator T : clear implicits.
Arguments boundary_integrator T : clear implicits.
