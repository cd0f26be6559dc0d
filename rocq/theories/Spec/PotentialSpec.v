(** * Specification for the material functions (C50-C56): 2x2 strains, rotations. *)
From Coq Require Import Reals List.
From Verif.Model Require Import Py Num Tensors.
Local Open Scope R_scope.
Import ListNotations.

(** A 2x2 strain with rows (a, b) and (c, d), as the code holds it. *)
Record strain2 := { f11 : R; f12 : R; f21 : R; f22 : R }.
Definition mat (F : strain2) : matrix R := mkMatrix 2 2 [[f11 F; f12 F]; [f21 F; f22 F]].
Definition st (a b c d : R) : strain2 := {| f11 := a; f12 := b; f21 := c; f22 := d |}.
Definition det2 (F : strain2) : R := f11 F * f22 F - f12 F * f21 F.
(** Squared Frobenius norm, Frobenius product, sum, multiple, transpose, product. *)
Definition norm2 (F : strain2) : R := f11 F * f11 F + f12 F * f12 F + f21 F * f21 F + f22 F * f22 F.
Definition frob (F G : strain2) : R := f11 F * f11 G + f12 F * f12 G + f21 F * f21 G + f22 F * f22 G.
Definition add2 (F G : strain2) : strain2 := st (f11 F + f11 G) (f12 F + f12 G) (f21 F + f21 G) (f22 F + f22 G).
Definition scal2 (h : R) (F : strain2) : strain2 := st (h * f11 F) (h * f12 F) (h * f21 F) (h * f22 F).
Definition tr2 (F : strain2) : strain2 := st (f11 F) (f21 F) (f12 F) (f22 F).
Definition mul2 (F G : strain2) : strain2 :=
  st (f11 F * f11 G + f12 F * f21 G) (f11 F * f12 G + f12 F * f22 G)
     (f21 F * f11 G + f22 F * f21 G) (f21 F * f12 G + f22 F * f22 G).
Definition id2 : strain2 := st 1 0 0 1.
(** Rotations: cosine [c] and sine [s] of the angle. *)
Definition rotation (Q : strain2) : Prop := exists c s, c * c + s * s = 1 /\ Q = st c (- s) s c.
(** The number a computation returns; the value chosen for failures is irrelevant. *)
Definition value (r : res R) : R := match r with Ok x => x | Err _ => 0 end.
