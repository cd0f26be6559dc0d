(** * Specification vocabulary for the tensor properties (C01-C10).
    Nothing here refers to how the code computes; entries are read off the stored data. *)
From Coq Require Import Reals.
From Verif.Model Require Import Py Num Tensors.
Local Open Scope R_scope.

(** [m] is a matrix a user can hold: the result of a successful [Matrix(data)]. *)
Definition is_matrix (m : matrix R) : Prop := exists data, Matrix_ data = Ok m.
Definition is_tensor3 (t : tensor3 R) : Prop := exists data, Tensor3D_ data = Ok t.

(** Entry in row [i], column [j] (from 0); only used for indices in range. *)
Definition mat_at (m : matrix R) (i j : nat) : R := nth j (nth i (m_data m) []) 0.

(** [sum_{k<n} f k]. *)
Fixpoint sum_below (n : nat) (f : nat -> R) : R :=
  match n with O => 0 | S k => sum_below k f + f k end.

(** [data] is non-empty and all its rows have [cols] entries. *)
Definition rectangular {A} (rows cols : nat) (data : list (list A)) : Prop :=
  (0 < rows)%nat /\ length data = rows /\ (forall r, In r data -> length r = cols).

Definition rectangular3 {A} (d0 d1 d2 : nat) (data : list (list (list A))) : Prop :=
  (0 < d0)%nat /\ (0 < d1)%nat /\ length data = d0 /\
  (forall m, In m data -> length m = d1 /\ forall r, In r m -> length r = d2).

(** [m] has the given shape and entries. *)
Definition has_entries (m : matrix R) (rows cols : nat) (f : nat -> nat -> R) : Prop :=
  m_shape m = (rows, cols) /\
  forall i j, (i < rows)%nat -> (j < cols)%nat -> Matrix_get m (Z.of_nat i) (Z.of_nat j) = Ok (f i j).

Definition delta (i j : nat) : R := if Nat.eqb i j then 1 else 0.
