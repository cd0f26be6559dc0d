(** * Python basics used by the model: exceptions as values, ranges, list indexing, dicts.
    Models no file of /repo by itself; it fixes the meaning of the Python constructs the other
    model files use. *)
From Coq Require Export List ZArith Arith Bool Lia.
Export ListNotations.

(** Exceptions raised by the code (the message texts are not modelled). *)
Inductive exn :=
  | IndexError | ValueError | ZeroDivisionError | KeyError | AssertionError
  | NotImplementedError | OverflowError | TypeError
  | SolverError      (* an exception escaping pyomo's solver.solve *)
  | CallbackError    (* an exception escaping a user callback *)
  | OutOfModel.      (* input outside the modelled range, see the definition that returns it *)

Inductive res (A : Type) : Type := Ok (a : A) | Err (e : exn).
Arguments Ok {A} a.
Arguments Err {A} e.

Definition bind {A B} (x : res A) (f : A -> res B) : res B :=
  match x with Ok a => f a | Err e => Err e end.

Declare Scope py_scope.
Delimit Scope py_scope with py.
Notation "'let*' x ':=' e 'in' k" := (bind e (fun x => k))
  (at level 200, x name, e at level 100, k at level 200, right associativity) : py_scope.
Notation "'let*' ' p ':=' e 'in' k" := (bind e (fun p => k))
  (at level 200, p pattern, e at level 100, k at level 200, right associativity) : py_scope.
#[global] Open Scope py_scope.

(** [if c: raise e]. *)
Definition raise_if (c : bool) (e : exn) : res unit := if c then Err e else Ok tt.

(** List comprehension / generator whose body may raise: evaluation stops at the first exception. *)
Fixpoint mapM {A B} (f : A -> res B) (l : list A) : res (list B) :=
  match l with
  | [] => Ok []
  | x :: xs => let* y := f x in let* ys := mapM f xs in Ok (y :: ys)
  end.

(** [for x in l: s = f(s, x)] with a body that may raise. *)
Fixpoint foldM {A S} (f : S -> A -> res S) (l : list A) (s : S) : res S :=
  match l with
  | [] => Ok s
  | x :: xs => let* s' := f s x in foldM f xs s'
  end.

(** [range(n)]. *)
Definition range (n : nat) : list nat := seq 0 n.
(** [range(a, b)]. *)
Definition range2 (a b : nat) : list nat := seq a (b - a).

(** Python's [l[i]] on a list with an arbitrary integer (negative indices count from the end). *)
Definition py_index {A} (l : list A) (i : Z) : res A :=
  let n := Z.of_nat (length l) in
  let j := if (i <? 0)%Z then (n + i)%Z else i in
  if (j <? 0)%Z then Err IndexError
  else match nth_error l (Z.to_nat j) with Some a => Ok a | None => Err IndexError end.

(** Python's [l[i]] for a natural number. *)
Definition py_nth {A} (l : list A) (i : nat) : res A :=
  match nth_error l i with Some a => Ok a | None => Err IndexError end.

(** [l[-1]]. *)
Definition py_last {A} (l : list A) : res A := py_index l (-1)%Z.

(** [x in l]. *)
Definition py_in {A} (eqb : A -> A -> bool) (x : A) (l : list A) : bool := existsb (eqb x) l.

(** Dictionaries: association lists, newest binding first. *)
Definition dict (K V : Type) := list (K * V).
Definition dset {K V} (k : K) (v : V) (d : dict K V) : dict K V := (k, v) :: d.
Fixpoint dfind {K V} (eqb : K -> K -> bool) (k : K) (d : dict K V) : option V :=
  match d with
  | [] => None
  | (k', v) :: d' => if eqb k k' then Some v else dfind eqb k d'
  end.
(** [d[k]]. *)
Definition dget {K V} (eqb : K -> K -> bool) (k : K) (d : dict K V) : res V :=
  match dfind eqb k d with Some v => Ok v | None => Err KeyError end.

(** [zip(a, b)] is [combine]: it stops at the shorter list. *)
Definition zip {A B} (a : list A) (b : list B) : list (A * B) := combine a b.

Definition pair_eqb (p q : nat * nat) : bool :=
  Nat.eqb (fst p) (fst q) && Nat.eqb (snd p) (snd q).
Definition triple_eqb (p q : nat * nat * nat) : bool :=
  pair_eqb (fst p) (fst q) && Nat.eqb (snd p) (snd q).
