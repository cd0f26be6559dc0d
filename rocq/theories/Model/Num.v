(** * Scalars.  The code computes with Python numbers (floats, ints, pyomo expressions).  The model is
    parametric in the operations it uses; [RNum] is exact real arithmetic (the instance the theorems
    are about), [FNum] (NumFloat.v) is IEEE binary64 (for
    statements about rounding). *)
From Coq Require Import Reals Lra.
From Verif.Model Require Import Py.

Class Num (T : Type) := {
  n0 : T;                         (* 0 *)
  n1 : T;                         (* 1 *)
  nadd : T -> T -> T;
  nsub : T -> T -> T;
  nmul : T -> T -> T;
  nopp : T -> T;
  ndiv : T -> T -> res T;         (* / : ZeroDivisionError on a zero divisor *)
  nltb : T -> T -> bool;          (* x < y *)
  neqb : T -> T -> bool;          (* x == y *)
  nabs : T -> T;                  (* abs *)
  nsqrt : T -> T;                 (* pyo.sqrt = math.sqrt, only applied to sums of squares *)
  nofZ : Z -> T;                  (* an int used in arithmetic with floats *)
  ndec : Z -> nat -> T;           (* decimal literal m * 10^-e *)
  ntrunc : T -> res Z             (* int(x) *)
}.

Declare Scope num_scope.
Delimit Scope num_scope with num.
Infix "+" := nadd : num_scope.
Infix "-" := nsub : num_scope.
Infix "*" := nmul : num_scope.
Notation "- x" := (nopp x) : num_scope.
Infix "<?" := nltb (at level 70, no associativity) : num_scope.
Infix "=?" := neqb (at level 70, no associativity) : num_scope.

(** [x > y] is evaluated as [y < x]. *)
Definition ngtb {T} `{Num T} (x y : T) : bool := nltb y x.

(** Python's [sum]: starts from 0, adds left to right. *)
Definition nsum {T} `{Num T} (l : list T) : T := fold_left nadd l n0.

(** ** Exact reals *)
Definition Rltb (x y : R) : bool := if Rlt_dec x y then true else false.
Definition Reqb (x y : R) : bool := if Req_EM_T x y then true else false.
(** [int(x)]: truncation towards zero. [up x] is the integer with [x < up x <= x + 1]. *)
Definition Rtrunc (x : R) : Z :=
  if Rltb x 0 then (- (up (- x) - 1))%Z else (up x - 1)%Z.

#[export] Instance RNum : Num R := {
  n0 := 0%R; n1 := 1%R;
  nadd := Rplus; nsub := Rminus; nmul := Rmult; nopp := Ropp;
  ndiv := fun x y => if Reqb y 0 then Err ZeroDivisionError else Ok (x / y)%R;
  nltb := Rltb; neqb := Reqb; nabs := Rabs; nsqrt := sqrt;
  nofZ := IZR;
  ndec := fun m e => (IZR m / 10 ^ e)%R;
  ntrunc := fun x => Ok (Rtrunc x)
}.
