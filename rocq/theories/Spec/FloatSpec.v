(** * Vocabulary for statements about binary64 floats (Python's float). *)
From Coq Require Import ZArith Reals Floats.
Local Open Scope R_scope.

(** The number a float stands for: plus or minus m times 2^e. (0 for zeros; infinities and nan are excluded by [is_num].) *)
Definition real_of (x : float) : R :=
  match Prim2SF x with
  | S754_finite s m e => (if s then -1 else 1) * IZR (Zpos m) * powerRZ 2 e
  | _ => 0
  end.
(** Neither infinite nor nan. *)
Definition is_num (x : float) : Prop :=
  match Prim2SF x with S754_zero _ | S754_finite _ _ _ => True | _ => False end.
(** Half the distance from 1 to the next float: the relative rounding error. *)
Definition ulp1 : R := / 2 ^ 53.
