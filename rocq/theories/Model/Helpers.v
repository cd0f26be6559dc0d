(** * Model of src/tvemoves_rufbad/helpers.py (over the reals; plotting helpers 178-189 not modelled). *)
From Coq Require Import Reals QArith.
From Coquelicot Require Import Coquelicot.
From Verif.Model Require Import Py Num Tensors Expr.

(** helpers.py:8. *)
Definition ENTROPY_CONSTANT : R := 10.
(** helpers.py:9. *)
Definition HEAT_CONDUCTIVITY : res (matrix R) := Matrix_ [[1; 0]; [0; 1]]%R.
(** helpers.py:10: 0.5. *)
Definition HEAT_TRANSFER_COEFFICIENT : R := 1 / 2.
(** helpers.py:11. *)
Definition HYPER_ELASTIC_POWER : nat := 3.
(** helpers.py:12: 0.5. *)
Definition MARTENSITE_POS_SHEAR : Q := 1 # 2.
(** helpers.py:13-14. *)
Definition FIRST_MARTENSITE_WELL_INVERSE : res (matrix R) := Matrix_ [[1; - (1 / 2)]; [0; 1]]%R.
Definition SECOND_MARTENSITE_WELL_INVERSE : res (matrix R) := Matrix_ [[1; 1 / 2]; [0; 1]]%R.

Section Symbolic.
Local Open Scope expr_scope.
Let k (n : Z) : expr := EConst (inject_Z n).
Let theta := EVar s_theta.
Let F11 := EVar s_F11. Let F12 := EVar s_F12. Let F21 := EVar s_F21. Let F22 := EVar s_F22.

(** helpers.py:23. *)
Definition s_austenite_percentage : expr := k 1 - EExp (k (-5) * theta).
(** helpers.py:28-30. *)
Definition s_internal_energy_weight : expr :=
  s_austenite_percentage - theta * diff s_theta s_austenite_percentage.
(** helpers.py:47 [(F^T F).trace()]: (F11*F11 + F21*F21) + (F12*F12 + F22*F22). *)
Definition s_I1 : expr := (F11 ^ 2 + F21 ^ 2) + (F12 ^ 2 + F22 ^ 2).
(** helpers.py:48. *)
Definition s_J : expr := F11 * F22 - F12 * F21.
(** helpers.py:51. *)
Definition s_austenite_potential : expr := s_I1 - k 2 - k 2 * ELog s_J + (s_J - k 1) ^ 2.
(** helpers.py:56-58: rows [i], columns [j]. *)
Definition F_syms : list (list sym) := [[s_F11; s_F12]; [s_F21; s_F22]].
Definition s_derivative_austenite : list (list expr) :=
  map (map (fun x => diff x s_austenite_potential)) F_syms.
(** helpers.py:68. *)
Definition s_double_well : expr := EVar s_u ^ 2.
(** helpers.py:69-71; MARTENSITE_POS_SHEAR**2 = 0.25. *)
Definition s_martensite_potential : expr :=
  subs [(s_u, s_I1 / s_J - k 2 - EConst (1 # 4))] s_double_well
  + (s_J ^ 2 + k 1 / (s_J ^ 2) - k 2) ^ 2.
(** helpers.py:76-78. *)
Definition s_derivative_martensite : list (list expr) :=
  map (map (fun x => diff x s_martensite_potential)) F_syms.
End Symbolic.

Local Open Scope R_scope.

Definition theta_env (theta : R) : env := fun x => match x with s_theta => theta | _ => 0 end.
(** Argument order [F_11, F_12, F_21, F_22] of the lambdified functions. *)
Definition F_env (f11 f12 f21 f22 : R) : env := fun x =>
  match x with s_F11 => f11 | s_F12 => f12 | s_F21 => f21 | s_F22 => f22 | _ => 0 end.

(** helpers.py:24-26. *)
Definition austenite_percentage (theta : R) : res R := eval (theta_env theta) s_austenite_percentage.
(** helpers.py:31-33. *)
Definition internal_energy_weight (theta : R) : res R := eval (theta_env theta) s_internal_energy_weight.
(** helpers.py:36-41: [sp.integrate] by its contract, the definite integral from 0 to [theta_lim]
    (the integrand is total: [internal_energy_weight] never raises, see Proofs). *)
Definition weight_value (theta : R) : R :=
  match internal_energy_weight theta with Ok w => w | Err _ => 0 end.
Definition antider_internal_energy_weight (theta_lim : R) : res R := Ok (RInt weight_value 0 theta_lim).

(** [strain[0, 0], strain[0, 1], strain[1, 0], strain[1, 1]]. *)
Definition strain_entries (m : matrix R) : res (R * R * R * R) :=
  let* a := Matrix_get m 0 0 in let* b := Matrix_get m 0 1 in
  let* c := Matrix_get m 1 0 in let* d := Matrix_get m 1 1 in
  Ok (a, b, c, d).
Definition eval_strain (m : matrix R) (e : expr) : res R :=
  let* '(a, b, c, d) := strain_entries m in eval (F_env a b c d) e.
Definition eval_strain_matrix (m : matrix R) (es : list (list expr)) : res (matrix R) :=
  let* '(a, b, c, d) := strain_entries m in
  let* rows := mapM (mapM (eval (F_env a b c d))) es in
  Matrix_ rows.

(** helpers.py:94-97. *)
Definition symmetrized_strain_delta (prev cur : matrix R) : res (matrix R) :=
  let* d := Matrix_sub cur prev in
  let* dt := Matrix_transpose d in
  let* a := Matrix_matmul dt prev in
  let* pt := Matrix_transpose prev in
  let* b := Matrix_matmul pt d in
  Matrix_add a b.
(** helpers.py:84-86. *)
Definition dissipation_potential (prev cur : matrix R) : res R :=
  let* s := symmetrized_strain_delta prev cur in Ok (Matrix_normsqr s / 2).
(** helpers.py:89-91. *)
Definition dissipation_rate (prev cur : matrix R) (fps : R) : res R :=
  let* d := dissipation_potential prev cur in Ok (d * 2 * (fps * fps)).

(** helpers.py:100-102. *)
Definition austenite_potential (m : matrix R) : res R := eval_strain m s_austenite_potential.
(** helpers.py:105-111. *)
Definition derivative_austenite_potential (m : matrix R) : res (matrix R) :=
  eval_strain_matrix m s_derivative_austenite.
(** helpers.py:114-116. *)
Definition martensite_potential (m : matrix R) : res R := eval_strain m s_martensite_potential.
(** helpers.py:119-126. *)
Definition derivative_martensite_potential (m : matrix R) : res (matrix R) :=
  eval_strain_matrix m s_derivative_martensite.

(** helpers.py:129-133. *)
Definition total_elastic_potential (m : matrix R) (theta : R) : res R :=
  let* a := austenite_percentage theta in
  let* wa := austenite_potential m in
  let* wm := martensite_potential m in
  Ok (a * wa + (1 - a) * wm).
(** helpers.py:136-138. *)
Definition hyper_elastic_potential (h : tensor3 R) : R := Tensor3D_norm h ^ HYPER_ELASTIC_POWER.
(** helpers.py:141-145. *)
Definition strain_derivative_coupling_potential (m : matrix R) (theta : R) : res (matrix R) :=
  let* a := austenite_percentage theta in
  let* da := derivative_austenite_potential m in
  let* dm := derivative_martensite_potential m in
  let* d := Matrix_sub da dm in
  Matrix_mul d a.
(** helpers.py:148-152. *)
Definition internal_energy_no_entropy (m : matrix R) (theta : R) : res R :=
  let* w := internal_energy_weight theta in
  let* wa := austenite_potential m in
  let* wm := martensite_potential m in
  Ok (w * (wa - wm)).
(** helpers.py:155-157. *)
Definition internal_energy (m : matrix R) (theta : R) : res R :=
  let* e := internal_energy_no_entropy m theta in Ok (e + ENTROPY_CONSTANT * theta).
(** helpers.py:160-164. *)
Definition temp_antrider_internal_energy_no_entropy (m : matrix R) (theta : R) : res R :=
  let* w := antider_internal_energy_weight theta in
  let* wa := austenite_potential m in
  let* wm := martensite_potential m in
  Ok (w * (wa - wm)).
(** helpers.py:167-170: [det * inv @ K @ inv^T] parses as [((det * inv) @ K) @ inv^T]. *)
Definition heat_conductivity_reference (m : matrix R) : res (matrix R) :=
  let* inv := inverse_2x2 m in
  let* d := Matrix_det m in
  let* a := Matrix_mul inv d in
  let* K := HEAT_CONDUCTIVITY in
  let* b := Matrix_matmul a K in
  let* invt := Matrix_transpose inv in
  Matrix_matmul b invt.
