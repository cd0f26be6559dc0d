(** * Model of src/tvemoves_rufbad/bell_finite_element.py (over the reals). *)
From Coq Require Import Reals QArith.
From Verif.Model Require Import Py Num Tensors Domain Expr.

(** ** Symbolic shape functions *)
Section Symbolic.
Local Open Scope expr_scope.

(** bell_finite_element.py:10-15. *)
Let L1 := EVar sL1. Let L2 := EVar sL2. Let L3 := EVar sL3.
Let b1 := EVar sb1. Let b2 := EVar sb2. Let b3 := EVar sb3.
Let c1 := EVar sc1. Let c2 := EVar sc2. Let c3 := EVar sc3.
Let k (n : Z) : expr := EConst (inject_Z n).
(** [5 / 2] *)
Let k52 : expr := EConst (5 # 2).

(** bell_finite_element.py:16-19: the entry [i, j] of [_r] given [b_i, b_j, c_i, c_j]. *)
Definition r_entry (bi bj ci cj : expr) : expr := (- (bi * bj + ci * cj)) / (bi ^ 2 + ci ^ 2).
(** bell_finite_element.py:20-21. *)
Definition sym_r21 : expr := r_entry b2 b1 c2 c1.
Definition sym_r31 : expr := r_entry b3 b1 c3 c1.
Let r21 := sym_r21. Let r31 := sym_r31.

(** bell_finite_element.py:23-32. *)
Definition sN1 : expr :=
  L1 ^ 5
  + k 5 * L1 ^ 4 * L2
  + k 5 * L1 ^ 4 * L3
  + k 10 * L1 ^ 3 * L2 ^ 2
  + k 10 * L1 ^ 3 * L3 ^ 2
  + k 20 * L1 ^ 3 * L2 * L3
  + k 30 * r21 * L1 ^ 2 * L2 * L3 ^ 2
  + k 30 * r31 * L1 ^ 2 * L3 * L2 ^ 2.

(** bell_finite_element.py:33-41. *)
Definition sN2 : expr :=
  c3 * L1 ^ 4 * L2
  - c2 * L1 ^ 4 * L3
  + k 4 * c3 * L1 ^ 3 * L2 ^ 2
  - k 4 * c2 * L1 ^ 3 * L3 ^ 2
  + k 4 * (c3 - c2) * L1 ^ 3 * L2 * L3
  - (k 3 * c1 + k 15 * r21 * c2) * L1 ^ 2 * L2 * L3 ^ 2
  + (k 3 * c1 + k 15 * r31 * c3) * L1 ^ 2 * L3 * L2 ^ 2.

(** bell_finite_element.py:42-50. *)
Definition sN3 : expr :=
  (- b3) * L1 ^ 4 * L2
  + b2 * L1 ^ 4 * L3
  - k 4 * b3 * L1 ^ 3 * L2 ^ 2
  + k 4 * b2 * L1 ^ 3 * L3 ^ 2
  + k 4 * (b2 - b3) * L1 ^ 3 * L2 * L3
  + (k 3 * b1 + k 15 * r21 * b2) * L1 ^ 2 * L2 * L3 ^ 2
  - (k 3 * b1 + k 15 * r31 * b3) * L1 ^ 2 * L3 * L2 ^ 2.

(** bell_finite_element.py:51-57. *)
Definition sN4 : expr :=
  c3 ^ 2 / k 2 * L1 ^ 3 * L2 ^ 2
  + c2 ^ 2 / k 2 * L1 ^ 3 * L3 ^ 2
  - c2 * c3 * L1 ^ 3 * L2 * L3
  + (c1 * c2 + k52 * r21 * c2 ^ 2) * L2 * L3 ^ 2 * L1 ^ 2
  + (c1 * c3 + k52 * r31 * c3 ^ 2) * L3 * L2 ^ 2 * L1 ^ 2.

(** bell_finite_element.py:58-64. *)
Definition sN5 : expr :=
  (- b3) * c3 * L1 ^ 3 * L2 ^ 2
  - b2 * c2 * L1 ^ 3 * L3 ^ 2
  + (b2 * c3 + b3 * c2) * L1 ^ 3 * L2 * L3
  - (b1 * c2 + b2 * c1 + k 5 * r21 * b2 * c2) * L2 * L3 ^ 2 * L1 ^ 2
  - (b1 * c3 + b3 * c1 + k 5 * r31 * b3 * c3) * L3 * L2 ^ 2 * L1 ^ 2.

(** bell_finite_element.py:65-71. *)
Definition sN6 : expr :=
  b3 ^ 2 / k 2 * L1 ^ 3 * L2 ^ 2
  + b2 ^ 2 / k 2 * L1 ^ 3 * L3 ^ 2
  - b2 * b3 * L1 ^ 3 * L2 * L3
  + (b1 * b2 + k52 * r21 * b2 ^ 2) * L2 * L3 ^ 2 * L1 ^ 2
  + (b1 * b3 + k52 * r31 * b3 ^ 2) * L3 * L2 ^ 2 * L1 ^ 2.
End Symbolic.

(** bell_finite_element.py:73. *)
Definition N_first_third : list expr := [sN1; sN2; sN3; sN4; sN5; sN6].

(** bell_finite_element.py:76-86 for a list of three symbols: replacements (v3, s), (v2, v3), (v1, v2), (s, v1). *)
Definition single_cyclic_permutation (e : expr) (v : sym * sym * sym) : expr :=
  let '(v1, v2, v3) := v in
  subs [(v3, EVar s_s); (v2, EVar v3); (v1, EVar v2); (s_s, EVar v1)] e.

(** bell_finite_element.py:89-92 with [variables = _L, _b, _c]. *)
Definition cyclic_permutation (e : expr) : expr :=
  fold_left single_cyclic_permutation [(sL1, sL2, sL3); (sb1, sb2, sb3); (sc1, sc2, sc3)] e.

(** bell_finite_element.py:95-97. *)
Definition N_second_third : list expr := map cyclic_permutation N_first_third.
Definition N_third_third : list expr := map cyclic_permutation N_second_third.
Definition N_all : list expr := N_first_third ++ N_second_third ++ N_third_third.

Local Open Scope R_scope.

(** The call convention of the lambdified functions, bell_finite_element.py:99: [_L + _b + _c]. *)
Definition bell_env (L b c : R * R * R) : env := fun x =>
  match x with
  | sL1 => fst (fst L) | sL2 => snd (fst L) | sL3 => snd L
  | sb1 => fst (fst b) | sb2 => snd (fst b) | sb3 => snd b
  | sc1 => fst (fst c) | sc2 => snd (fst c) | sc3 => snd c
  | _ => 0
  end.

(** Reading [p[0]], [p[1]] of the three vertices (Vector.__getitem__). *)
Definition xy (p : vector R) : res (R * R) :=
  let* x := Vector_get p 0 in let* y := Vector_get p 1 in Ok (x, y).

(** bell_finite_element.py:102-108. *)
Definition get_a (tv : tri_points R) : res (R * R * R) :=
  let '(p1, p2, p3) := tv in
  let* '(x1, y1) := xy p1 in let* '(x2, y2) := xy p2 in let* '(x3, y3) := xy p3 in
  Ok (x2 * y3 - x3 * y2, x3 * y1 - x1 * y3, x1 * y2 - x2 * y1).
(** bell_finite_element.py:111-113. *)
Definition get_b (tv : tri_points R) : res (R * R * R) :=
  let '(p1, p2, p3) := tv in
  let* '(_, y1) := xy p1 in let* '(_, y2) := xy p2 in let* '(_, y3) := xy p3 in
  Ok (y2 - y3, y3 - y1, y1 - y2).
(** bell_finite_element.py:116-118. *)
Definition get_c (tv : tri_points R) : res (R * R * R) :=
  let '(p1, p2, p3) := tv in
  let* '(x1, _) := xy p1 in let* '(x2, _) := xy p2 in let* '(x3, _) := xy p3 in
  Ok (x3 - x2, x1 - x3, x2 - x1).

(** Evaluation of a list of expressions at a triangle and barycentric coordinates. *)
Definition eval_at (tv : tri_points R) (L : bary R) (es : list expr) : res (list R) :=
  let* b := get_b tv in
  let* c := get_c tv in
  mapM (eval (bell_env L b c)) es.

(** bell_finite_element.py:121-134. *)
Definition shape_function (tv : tri_points R) (L : bary R) : res (vector R) := eval_at tv L N_all.

(** bell_finite_element.py:137. *)
Definition bary_syms : list sym := [sL1; sL2; sL3].
Definition N_gradient : list (list expr) := map (fun e => map (fun x => diff x e) bary_syms) N_all.
(** bell_finite_element.py:141-155. *)
Definition shape_function_gradient (tv : tri_points R) (L : bary R) : res (matrix R) :=
  let* rows := mapM (eval_at tv L) N_gradient in Matrix_ rows.

(** bell_finite_element.py:158-163: H[0,0], H[1,1], H[2,2], H[0,1], H[0,2], H[1,2]; [sp.diff(N, Lj, Lk)]
    differentiates first by Lj, then by Lk. *)
Definition hessian_pairs : list (sym * sym) :=
  [(sL1, sL1); (sL2, sL2); (sL3, sL3); (sL1, sL2); (sL1, sL3); (sL2, sL3)].
Definition N_hessian_vectorized : list (list expr) :=
  map (fun e => map (fun '(x, y) => diff y (diff x e)) hessian_pairs) N_all.
(** bell_finite_element.py:167-184. *)
Definition shape_function_hessian_vectorized (tv : tri_points R) (L : bary R) : res (matrix R) :=
  let* rows := mapM (eval_at tv L) N_hessian_vectorized in Matrix_ rows.

(** bell_finite_element.py:187-189. *)
Definition N_on_edge : list expr :=
  map (subs [(sL1, EVar s_t); (sL2, ESub (EConst 1) (EVar s_t)); (sL3, EConst 0)]) (firstn 12 N_all).
(** Call convention of bell_finite_element.py:189: only [t, b3, c3] may occur (checked in Proofs). *)
Definition edge_env (t b3 c3 : R) : env := fun x =>
  match x with s_t => t | sb3 => b3 | sc3 => c3 | _ => 0 end.
(** bell_finite_element.py:192-201. *)
Definition shape_function_on_edge (ev : vector R * vector R) (t : R) : res (vector R) :=
  let '(p1, p2) := ev in
  let* '(x1, y1) := xy p1 in
  let* '(x2, y2) := xy p2 in
  mapM (eval (edge_env t (y1 - y2) (x2 - x1))) N_on_edge.

(** bell_finite_element.py:213-214, 234-235 [delta = sum(a) / 2]. *)
Definition get_delta (tv : tri_points R) : res R :=
  let* '(a1, a2, a3) := get_a tv in Ok ((0 + a1 + a2 + a3) / 2).

(** bell_finite_element.py:204-218. *)
Definition transform_gradient (tv : tri_points R) (g : vector R) : res (vector R) :=
  let* delta := get_delta tv in
  let* '(b1, b2, b3) := get_b tv in
  let* '(c1, c2, c3) := get_c tv in
  let* m := Matrix_ [[b1; b2; b3]; [c1; c2; c3]] in
  let* m := Matrix_div m (2 * delta) in
  Matrix_dot m g.

(** bell_finite_element.py:221-268. *)
Definition transform_hessian (tv : tri_points R) (h : vector R) : res (matrix R) :=
  let* delta := get_delta tv in
  let* '(b1, b2, b3) := get_b tv in
  let* '(c1, c2, c3) := get_c tv in
  let* m := Matrix_ [[b1 ^ 2; b2 ^ 2; b3 ^ 2; 2 * b1 * b2; 2 * b1 * b3; 2 * b2 * b3];
                     [c1 ^ 2; c2 ^ 2; c3 ^ 2; 2 * c1 * c2; 2 * c1 * c3; 2 * c2 * c3];
                     [b1 * c1; b2 * c2; b3 * c3; b1 * c2 + b2 * c1; b1 * c3 + b3 * c1; b2 * c3 + b3 * c2]] in
  let* m := Matrix_div m (4 * delta ^ 2) in
  let* v := Matrix_dot m h in
  let* h0 := Vector_get v 0 in
  let* h1 := Vector_get v 1 in
  let* h2 := Vector_get v 2 in
  Matrix_ [[h0; h2]; [h2; h1]].

(** bell_finite_element.py:271-282. *)
Definition bell_interpolation (tv : tri_points R) (L : bary R) (params : vector R) : res R :=
  if negb (Nat.eqb (length params) 18) then Err ValueError
  else let* N := shape_function tv L in Ok (Vector_dot N params).

(** bell_finite_element.py:285-302. *)
Definition bell_interpolation_gradient (tv : tri_points R) (L : bary R) (params : vector R) : res (vector R) :=
  if negb (Nat.eqb (length params) 18) then Err ValueError
  else
    let* m := shape_function_gradient tv L in
    let* mt := Matrix_transpose m in
    let* g := Matrix_dot mt params in
    transform_gradient tv g.

(** bell_finite_element.py:305-324. *)
Definition bell_interpolation_hessian (tv : tri_points R) (L : bary R) (params : vector R) : res (matrix R) :=
  if negb (Nat.eqb (length params) 18) then Err ValueError
  else
    let* m := shape_function_hessian_vectorized tv L in
    let* mt := Matrix_transpose m in
    let* h := Matrix_dot mt params in
    transform_hessian tv h.

(** bell_finite_element.py:327-329: no size check. *)
Definition bell_interpolation_on_edge (ev : vector R * vector R) (t : R) (params : vector R) : res R :=
  let* N := shape_function_on_edge ev t in Ok (Vector_dot N params).
