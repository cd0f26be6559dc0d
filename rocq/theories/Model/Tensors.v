(** * Model of src/tvemoves_rufbad/tensors.py *)
From Verif.Model Require Import Py Num.
Local Open Scope num_scope.

(** tensors.py:11-17 [Vector]: the stored list; [size] is its length and [shape] is [(size,)].
    Simplification: the list is a value, mutation through an alias is not modelled. *)
Definition vector (T : Type) := list T.

(** tensors.py:187-195: what a constructed [Matrix] holds. *)
Record matrix (T : Type) := mkMatrix { m_rows : nat; m_cols : nat; m_data : list (list T) }.
Arguments mkMatrix {T}. Arguments m_rows {T}. Arguments m_cols {T}. Arguments m_data {T}.

(** tensors.py:348-359: what a constructed [Tensor3D] holds. *)
Record tensor3 (T : Type) := mkTensor3 { t_d0 : nat; t_d1 : nat; t_d2 : nat; t_data : list (list (list T)) }.
Arguments mkTensor3 {T}. Arguments t_d0 {T}. Arguments t_d1 {T}. Arguments t_d2 {T}. Arguments t_data {T}.

Section Tensors.
Context {T : Type} {NT : Num T}.

Definition m_shape (m : matrix T) : nat * nat := (m_rows m, m_cols m).
Definition t_shape (t : tensor3 T) : nat * nat * nat := (t_d0 t, t_d1 t, t_d2 t).

(** ** Constructors *)

(** tensors.py:190-195 [Matrix.__init__]: [data[0]] raises IndexError on the empty list. *)
Definition Matrix_ (data : list (list T)) : res (matrix T) :=
  match data with
  | [] => Err IndexError
  | row0 :: rows =>
      if forallb (fun row => Nat.eqb (length row) (length row0)) rows
      then Ok (mkMatrix (length data) (length row0) data)
      else Err ValueError
  end.

(** tensors.py:351-359 [Tensor3D.__init__]. *)
Definition Tensor3D_ (data : list (list (list T))) : res (tensor3 T) :=
  match data with
  | [] => Err IndexError
  | [] :: _ => Err IndexError
  | ((row00 :: _) as mat0) :: _ =>
      if forallb (fun mat => Nat.eqb (length mat) (length mat0)
                             && forallb (fun row => Nat.eqb (length row) (length row00)) mat) data
      then Ok (mkTensor3 (length data) (length mat0) (length row00) data)
      else Err ValueError
  end.

(** ** Vector *)

(** tensors.py:25-29 [Vector.__getitem__] with an integer (slices: TensorsX.v). *)
Definition Vector_get (v : vector T) (i : Z) : res T :=
  if ((i <? 0) || (Z.of_nat (length v) <=? i))%Z then Err IndexError
  else py_index v i.

(** tensors.py:33-34. *)
Definition Vector_neg (v : vector T) : vector T := map nopp v.

(** tensors.py:36-39. *)
Definition Vector_add (v w : vector T) : res (vector T) :=
  if Nat.eqb (length v) (length w) then Ok (map (fun '(x, y) => x + y) (zip v w)) else Err ValueError.

(** tensors.py:41-44. *)
Definition Vector_sub (v w : vector T) : res (vector T) :=
  if Nat.eqb (length v) (length w) then Ok (map (fun '(x, y) => x - y) (zip v w)) else Err ValueError.

(** tensors.py:46-50 [__mul__] and [__rmul__]. *)
Definition Vector_mul (v : vector T) (s : T) : vector T := map (fun x => x * s) v.

(** tensors.py:52-53 [__truediv__]. *)
Definition Vector_div (v : vector T) (d : T) : res (vector T) := mapM (fun x => ndiv x d) v.

(** tensors.py:58-61 [__eq__] with another Vector: Python list equality. *)
Fixpoint list_eqb (v w : list T) : bool :=
  match v, w with
  | [], [] => true
  | x :: v', y :: w' => (x =? y) && list_eqb v' w'
  | _, _ => false
  end.
Definition Vector_eqb (v w : vector T) : bool := list_eqb v w.

(** tensors.py:63-65. *)
Definition Vector_normsqr (v : vector T) : T := nsum (map (fun x => x * x) v).

(** tensors.py:67-69. *)
Definition Vector_norm (v : vector T) : T := nsqrt (Vector_normsqr v).

(** tensors.py:71-73: no size check, [zip] stops at the shorter vector. *)
Definition Vector_dot (v w : vector T) : T := nsum (map (fun '(x, y) => x * y) (zip v w)).

(** tensors.py:75-77. *)
Definition Vector_map (v : vector T) (f : T -> T) : vector T := map f v.

(** tensors.py:79-86. *)
Definition Vector_stack (v w : vector T) : res (matrix T) :=
  if Nat.eqb (length v) (length w) then Matrix_ [v; w] else Err ValueError.

(** tensors.py:91-100. The shape arguments are arbitrary Python ints; [range] of a negative number is empty. *)
Definition Vector_reshape (v : vector T) (num_rows num_cols : Z) : res (matrix T) :=
  if (Z.of_nat (length v) =? num_rows * num_cols)%Z then
    let nr := Z.to_nat num_rows in
    let nc := Z.to_nat num_cols in
    let* rows := mapM (fun i => mapM (fun j => py_nth v (i * nc + j)%nat) (range nc)) (range nr) in
    Matrix_ rows
  else Err ValueError.

(** tensors.py:106-108. *)
Definition Vector_extend (v w : vector T) : vector T := v ++ w.

(** tensors.py:113-115. *)
Definition Vector_transpose (v : vector T) : res (matrix T) := Matrix_ [v].

(** ** BarycentricCoordinates *)

(** tensors.py:118-128: the three stored weights. *)
Definition bary := (T * T * T)%type.
Definition Bary (l1 l2 : T) : bary := (l1, l2, n1 - l1 - l2).
(** tensors.py:130-143. *)
Definition l1 (b : bary) : T := fst (fst b).
Definition l2 (b : bary) : T := snd (fst b).
Definition l3 (b : bary) : T := snd b.

(** tensors.py:145-153 [assert_bounds] (mutates; the model returns the new value). *)
Definition clamp (lower upper x : T) : T :=
  if x <? lower then lower else if upper <? x then upper else x.
Definition Bary_assert_bounds (lower upper : T) (b : bary) : bary :=
  (clamp lower upper (l1 b), clamp lower upper (l2 b), clamp lower upper (l3 b)).

(** tensors.py:161-167 [__getitem__]. *)
Definition Bary_get (b : bary) (i : Z) : res T :=
  if ((i <? 0) || (3 <=? i))%Z then Err IndexError
  else py_index [l1 b; l2 b; l3 b] i.

(** ** Permutations and their sign *)

(** tensors.py:176-184: inner loop, number of [b] in the rest with [b < a]. *)
Definition count_less (a : nat) (l : list nat) : nat := length (filter (fun b => Nat.ltb b a) l).
Fixpoint num_misplaced (p : list nat) : nat :=
  match p with [] => O | a :: rest => (count_less a rest + num_misplaced rest)%nat end.
(** tensors.py:184: 1 if even, else -1. *)
Definition sign (p : list nat) : T := if Nat.even (num_misplaced p) then n1 else nopp n1.

(** [itertools.permutations(range(n))] (tensors.py:277): all arrangements in lexicographic order of
    position.  [picks l] lists every way of taking one element out of [l], in order. *)
Fixpoint picks {A} (l : list A) : list (A * list A) :=
  match l with
  | [] => []
  | x :: xs => (x, xs) :: map (fun '(y, ys) => (y, x :: ys)) (picks xs)
  end.
Fixpoint permutations_fuel {A} (n : nat) (l : list A) : list (list A) :=
  match n with
  | O => [[]]
  | S n' => flat_map (fun '(x, rest) => map (cons x) (permutations_fuel n' rest)) (picks l)
  end.
Definition permutations {A} (l : list A) : list (list A) := permutations_fuel (length l) l.

(** ** Matrix *)

(** [self.data[i][j]] for indices that the code keeps in range (the constructor guarantees the shape). *)
Definition entry (d : list (list T)) (i j : nat) : T := nth j (nth i d []) n0.

(** tensors.py:215-223. *)
Definition Matrix_get (m : matrix T) (i j : Z) : res T :=
  if ((i <? 0) || (Z.of_nat (m_rows m) <=? i))%Z then Err IndexError
  else if ((j <? 0) || (Z.of_nat (m_cols m) <=? j))%Z then Err IndexError
  else let* row := py_index (m_data m) i in py_index row j.

(** tensors.py:225-226. *)
Definition Matrix_neg (m : matrix T) : res (matrix T) := Matrix_ (map (map nopp) (m_data m)).

(** tensors.py:228-231 [__eq__] with another Matrix. *)
Fixpoint rows_eqb (a b : list (list T)) : bool :=
  match a, b with
  | [], [] => true
  | x :: a', y :: b' => list_eqb x y && rows_eqb a' b'
  | _, _ => false
  end.
Definition Matrix_eqb (a b : matrix T) : bool := rows_eqb (m_data a) (m_data b).

Definition shape_eqb (a b : matrix T) : bool :=
  Nat.eqb (m_rows a) (m_rows b) && Nat.eqb (m_cols a) (m_cols b).

Definition zip_rows (f : T -> T -> T) (a b : list (list T)) : list (list T) :=
  map (fun '(row, other_row) => map (fun '(x, y) => f x y) (zip row other_row)) (zip a b).

(** tensors.py:233-238. *)
Definition Matrix_add (a b : matrix T) : res (matrix T) :=
  if shape_eqb a b then Matrix_ (zip_rows nadd (m_data a) (m_data b)) else Err ValueError.

(** tensors.py:240-247. *)
Definition Matrix_sub (a b : matrix T) : res (matrix T) :=
  if shape_eqb a b then Matrix_ (zip_rows nsub (m_data a) (m_data b)) else Err ValueError.

(** tensors.py:249-260. *)
Definition Matrix_matmul (a b : matrix T) : res (matrix T) :=
  if Nat.eqb (m_cols a) (m_rows b) then
    Matrix_ (map (fun i => map (fun j =>
               nsum (map (fun k => entry (m_data a) i k * entry (m_data b) k j) (range (m_cols a))))
               (range (m_cols b))) (range (m_rows a)))
  else Err ValueError.

(** tensors.py:262-266. *)
Definition Matrix_transpose (m : matrix T) : res (matrix T) :=
  Matrix_ (map (fun j => map (fun i => entry (m_data m) i j) (range (m_rows m))) (range (m_cols m))).

(** tensors.py:268-270. *)
Definition Matrix_trace (m : matrix T) : T :=
  nsum (map (fun i => entry (m_data m) i i) (range (Nat.min (m_rows m) (m_cols m)))).

(** tensors.py:272-283.  [res += sign(p) * prod] over all permutations, [prod] built left to right. *)
Definition det_prod (d : list (list T)) (n : nat) (p : list nat) : T :=
  fold_left (fun prod i => prod * entry d i (nth i p O)) (range n) n1.
Definition Matrix_det (m : matrix T) : res T :=
  if Nat.eqb (m_rows m) (m_cols m) then
    Ok (fold_left (fun acc p => acc + sign p * det_prod (m_data m) (m_rows m) p)
          (permutations (range (m_rows m))) n0)
  else Err ValueError.

(** tensors.py:285-287 ([x**2] is [x * x]). *)
Definition Matrix_normsqr (m : matrix T) : T := nsum (map (fun x => x * x) (concat (m_data m))).

(** tensors.py:289-291. *)
Definition Matrix_norm (m : matrix T) : T := nsqrt (Matrix_normsqr m).

(** tensors.py:293-301. *)
Definition Matrix_scalar_product (a b : matrix T) : res T :=
  if shape_eqb a b then
    Ok (nsum (concat (zip_rows nmul (m_data a) (m_data b))))
  else Err ValueError.

(** tensors.py:303-308 [__mul__], [__rmul__]. *)
Definition Matrix_mul (m : matrix T) (s : T) : res (matrix T) := Matrix_ (map (map (fun x => x * s)) (m_data m)).

(** tensors.py:310-311 [__truediv__]. *)
Definition Matrix_div (m : matrix T) (d : T) : res (matrix T) :=
  let* rows := mapM (mapM (fun x => ndiv x d)) (m_data m) in Matrix_ rows.

(** tensors.py:316-318. *)
Definition Matrix_flatten (m : matrix T) : vector T := concat (m_data m).

(** tensors.py:320-328. *)
Definition Matrix_dot (m : matrix T) (v : vector T) : res (vector T) :=
  if Nat.eqb (length v) (m_cols m) then
    mapM (fun i =>
      let* terms := mapM (fun j => let* vj := Vector_get v (Z.of_nat j) in Ok (entry (m_data m) i j * vj))
                         (range (m_cols m)) in
      Ok (nsum terms)) (range (m_rows m))
  else Err ValueError.

(** tensors.py:330-332. *)
Definition Matrix_map (m : matrix T) (f : T -> T) : res (matrix T) := Matrix_ (map (map f) (m_data m)).

(** tensors.py:334-341: only the number of rows is compared here, [Tensor3D] checks the rest. *)
Definition Matrix_stack (a b : matrix T) : res (tensor3 T) :=
  if Nat.eqb (m_rows a) (m_rows b) then Tensor3D_ [m_data a; m_data b] else Err ValueError.

(** ** Tensor3D *)

(** tensors.py:385-393: all three checks test [i]; [j] and [k] go to Python's list indexing. *)
Definition Tensor3D_get (t : tensor3 T) (i j k : Z) : res T :=
  if ((i <? 0) || (Z.of_nat (t_d0 t) <=? i))%Z then Err IndexError
  else if ((i <? 0) || (Z.of_nat (t_d0 t) <=? i))%Z then Err IndexError
  else if ((i <? 0) || (Z.of_nat (t_d0 t) <=? i))%Z then Err IndexError
  else let* mat := py_index (t_data t) i in
       let* row := py_index mat j in
       py_index row k.

(** tensors.py:395-396. *)
Definition Tensor3D_neg (t : tensor3 T) : res (tensor3 T) := Tensor3D_ (map (map (map nopp)) (t_data t)).

Definition shape3_eqb (a b : tensor3 T) : bool :=
  Nat.eqb (t_d0 a) (t_d0 b) && Nat.eqb (t_d1 a) (t_d1 b) && Nat.eqb (t_d2 a) (t_d2 b).

(** tensors.py:403-412. *)
Definition Tensor3D_add (a b : tensor3 T) : res (tensor3 T) :=
  if shape3_eqb a b then
    Tensor3D_ (map (fun '(mat, other) => zip_rows nadd mat other) (zip (t_data a) (t_data b)))
  else Err ValueError.

(** tensors.py:414-425. *)
Definition Tensor3D_sub (a b : tensor3 T) : res (tensor3 T) :=
  if shape3_eqb a b then
    Tensor3D_ (map (fun '(mat, other) => zip_rows nsub mat other) (zip (t_data a) (t_data b)))
  else Err ValueError.

(** tensors.py:427-429. *)
Definition Tensor3D_normsqr (t : tensor3 T) : T := nsum (map (fun x => x * x) (concat (concat (t_data t)))).

(** tensors.py:431-433. *)
Definition Tensor3D_norm (t : tensor3 T) : T := nsqrt (Tensor3D_normsqr t).

(** tensors.py:435-437. *)
Definition Tensor3D_map (t : tensor3 T) (f : T -> T) : res (tensor3 T) := Tensor3D_ (map (map (map f)) (t_data t)).

(** ** inverse_2x2: tensors.py:444-449 *)
Definition inverse_2x2 (m : matrix T) : res (matrix T) :=
  if Nat.eqb (m_rows m) 2 && Nat.eqb (m_cols m) 2 then
    let* m11 := Matrix_get m 1 1 in
    let* m01 := Matrix_get m 0 1 in
    let* m10 := Matrix_get m 1 0 in
    let* m00 := Matrix_get m 0 0 in
    let* adj := Matrix_ [[m11; - m01]; [- m10; m00]] in
    let* d := Matrix_det m in
    Matrix_div adj d
  else Err ValueError.

End Tensors.
Arguments bary T : clear implicits.
