(** * Model of src/tvemoves_rufbad/tensors.py, second part: equality of 3-d tensors, slices, iteration, printing. *)
From Coq Require Import String Ascii.
From Verif.Model Require Import Py Num Tensors.
Local Open Scope list_scope.
Local Notation length := List.length.

(** ** Python's slice objects *)

(** [slice(start, stop, step)]; [None] for an omitted part. *)
Record slice := mkSlice { sl_start : option Z; sl_stop : option Z; sl_step : option Z }.

(** CPython's [PySlice_AdjustIndices] for one bound: negative bounds count from the end, then the bound is clipped to
    [0..len] (forward) or [-1..len-1] (backward). *)
Definition adjust (len step : Z) (default : Z) (bound : option Z) : Z :=
  let lower := if (step <? 0)%Z then (-1)%Z else 0%Z in
  let upper := if (step <? 0)%Z then (len - 1)%Z else len in
  match bound with
  | None => default
  | Some b =>
      let b' := if (b <? 0)%Z then (b + len)%Z else b in
      if (b' <? lower)%Z then lower else if (upper <? b')%Z then upper else b'
  end.

(** [slice.indices(len)]: a zero step raises ValueError. *)
Definition slice_indices (len : Z) (s : slice) : res (Z * Z * Z) :=
  let step := match sl_step s with None => 1%Z | Some c => c end in
  if (step =? 0)%Z then Err ValueError
  else
    let backward := (step <? 0)%Z in
    let start := adjust len step (if backward then len - 1 else 0)%Z (sl_start s) in
    let stop := adjust len step (if backward then -1 else len)%Z (sl_stop s) in
    Ok (start, stop, step).

(** [len(range(start, stop, step))]. *)
Definition range_len (start stop step : Z) : nat :=
  if (0 <? step)%Z then (if (start <? stop)%Z then Z.to_nat ((stop - start - 1) / step + 1) else 0)
  else (if (stop <? start)%Z then Z.to_nat ((start - stop - 1) / (- step) + 1) else 0).

Section TensorsX.
Context {T : Type} {NT : Num T}.

(** [l[start:stop:step]] for a list. *)
Definition py_slice {A} (l : list A) (s : slice) : res (list A) :=
  let* '(start, stop, step) := slice_indices (Z.of_nat (length l)) s in
  mapM (fun k => py_index l (start + Z.of_nat k * step)%Z) (range (range_len start stop step)).

(** tensors.py:25-31 [Vector.__getitem__] with a slice. *)
Definition Vector_slice (v : vector T) (s : slice) : res (vector T) := py_slice v s.

(** tensors.py:88-89 [Vector.__iter__], tensors.py:110-111 [Vector.__len__]. *)
Definition Vector_iter (v : vector T) : list T := v.
Definition Vector_len (v : vector T) : nat := length v.
(** tensors.py:169-170, 172-173. *)
Definition Bary_iter (b : bary T) : list T := [l1 b; l2 b; l3 b].
Definition Bary_len (b : bary T) : nat := 3.

(** tensors.py:398-401 [Tensor3D.__eq__] with another Tensor3D. *)
Fixpoint mats_eqb (a b : list (list (list T))) : bool :=
  match a, b with
  | [], [] => true
  | x :: a', y :: b' => rows_eqb x y && mats_eqb a' b'
  | _, _ => false
  end.
Definition Tensor3D_eqb (a b : tensor3 T) : bool := mats_eqb (t_data a) (t_data b).

(** ** Printing; [show] is [repr] or [str] of an entry. *)
Context (show : T -> string).
Definition newline : string := String (ascii_of_nat 10) EmptyString.
Fixpoint spaces (n : nat) : string := match n with O => EmptyString | S k => String " " (spaces k) end.
(** ["sep".join(items)]. *)
Fixpoint join (sep : string) (items : list string) : string :=
  match items with
  | [] => EmptyString
  | [x] => x
  | x :: rest => (x ++ sep ++ join sep rest)%string
  end.

(** tensors.py:19-20. *)
Definition Vector_repr (v : vector T) : string := ("Vector([" ++ join ", " (map show v) ++ "])")%string.
(** tensors.py:22-23. *)
Definition Vector_str (v : vector T) : string := ("[" ++ join " " (map show v) ++ "]")%string.
(** tensors.py:155-156, 158-159. *)
Definition Bary_repr (b : bary T) : string := ("BarycentricCoordinates(" ++ join ", " (map show (Bary_iter b)) ++ ")")%string.
Definition Bary_str (b : bary T) : string := ("(" ++ join ", " (map show (Bary_iter b)) ++ ")")%string.

(** [[self.data[i][j] for j in range(shape[1])]]: IndexError if the row is too short. *)
Definition row_items (row : list T) (cols : nat) : res (list T) := mapM (fun j => py_nth row j) (range cols).
(** tensors.py:198-201, 207-210: one printed row. *)
Definition show_row (sep : string) (row : list T) (cols : nat) : res string :=
  let* items := row_items row cols in Ok ("[" ++ join sep (map show items) ++ "]")%string.
Definition show_rows (sep : string) (data : list (list T)) (rows cols : nat) : res (list string) :=
  mapM (fun i => let* row := py_nth data i in show_row sep row cols) (range rows).
(** tensors.py:197-204. *)
Definition Matrix_repr (m : matrix T) : res string :=
  let* lines := show_rows ", " (m_data m) (m_rows m) (m_cols m) in
  let typeinfo := "Matrix(["%string in
  Ok (typeinfo ++ join ("," ++ newline ++ spaces (String.length typeinfo)) lines ++ "])")%string.
(** tensors.py:206-213. *)
Definition Matrix_str (m : matrix T) : res string :=
  let* lines := show_rows " " (m_data m) (m_rows m) (m_cols m) in
  let start := "["%string in
  Ok (start ++ join (newline ++ spaces (String.length start)) lines ++ "]")%string.
(** tensors.py:361-383: the two texts differ in the opening and closing only. *)
Definition show_tensor (opening closing : string) (t : tensor3 T) : res string :=
  let* matrices := mapM (fun i =>
      let* mat := py_nth (t_data t) i in
      let* rows := show_rows ", " mat (t_d1 t) (t_d2 t) in
      Ok ("[" ++ join ("," ++ newline ++ " " ++ spaces (String.length opening)) rows ++ "]")%string) (range (t_d0 t)) in
  Ok (opening ++ join ("," ++ newline ++ spaces (String.length opening)) matrices ++ closing)%string.
(** tensors.py:361-371. *)
Definition Tensor3D_repr (t : tensor3 T) : res string := show_tensor "Tensor3D([" "])" t.
(** tensors.py:373-383. *)
Definition Tensor3D_str (t : tensor3 T) : res string := show_tensor "[" "]" t.

(** tensors.py:55-56, 313-314 [__rtruediv__] returns [NotImplemented]: Python's [x / v] raises TypeError. *)
Definition Vector_rtruediv (v : vector T) (x : T) : res (vector T) := Err TypeError.
Definition Matrix_rtruediv (m : matrix T) (x : T) : res (matrix T) := Err TypeError.
End TensorsX.
