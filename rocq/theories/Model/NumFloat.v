(** * The binary64 instance of the scalars (Python's float). *)
From Coq Require Import ZArith Floats.
From Verif.Model Require Import Py Num.

Open Scope float_scope.
Definition F_of_pos (p : positive) : float :=
  let fix go (p : positive) : float :=
    match p with xH => 1 | xO q => 2 * go q | xI q => 2 * go q + 1 end in go p.
(** Exact for |z| < 2^53. *)
Definition F_of_Z (z : Z) : float :=
  match z with Z0 => 0 | Zpos p => F_of_pos p | Zneg p => - F_of_pos p end.
Fixpoint pow10 (e : nat) : Z := match e with O => 1%Z | S k => (10 * pow10 k)%Z end.
(** [int(x)] for a float: nan -> ValueError, inf -> OverflowError, otherwise truncation. *)
Definition F_trunc (x : float) : res Z :=
  match Prim2SF x with
  | S754_zero _ => Ok 0%Z
  | S754_infinity _ => Err OverflowError
  | S754_nan => Err ValueError
  | S754_finite s m e =>
      let a := match e with
               | Z0 => Zpos m
               | Zpos p => (Zpos m * 2 ^ Zpos p)%Z
               | Zneg p => (Zpos m / 2 ^ Zpos p)%Z
               end in
      Ok (if s then (- a)%Z else a)
  end.

#[export] Instance FNum : Num float := {
  n0 := 0; n1 := 1;
  nadd := PrimFloat.add; nsub := PrimFloat.sub; nmul := PrimFloat.mul; nopp := PrimFloat.opp;
  ndiv := fun x y => if PrimFloat.eqb y 0 then Err ZeroDivisionError else Ok (x / y);
  nltb := PrimFloat.ltb; neqb := PrimFloat.eqb; nabs := PrimFloat.abs; nsqrt := PrimFloat.sqrt;
  nofZ := F_of_Z;
  (* a single correctly rounded division of two exactly representable integers for |m| < 2^53, e <= 22 *)
  ndec := fun m e => F_of_Z m / F_of_Z (pow10 e);
  ntrunc := F_trunc
}.
