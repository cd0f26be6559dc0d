(** * Symbolic expressions: the part of sympy the code uses (bell_finite_element.py, helpers.py).
    An expression is evaluated at real numbers after [lambdify]; evaluation raises ZeroDivisionError
    for a zero denominator and ValueError for the logarithm of a non-positive number. *)
From Coq Require Import Reals QArith Qreals.
From Verif.Model Require Import Py Num.
Local Open Scope R_scope.

(** The symbols of bell_finite_element.py:10-15, 82, 187 and helpers.py:20, 35, 43, 65. *)
Inductive sym :=
  | sL1 | sL2 | sL3 | sb1 | sb2 | sb3 | sc1 | sc2 | sc3 | s_s | s_t
  | s_theta | s_theta_lim | s_F11 | s_F12 | s_F21 | s_F22 | s_u.

Definition sym_eqb (x y : sym) : bool :=
  match x, y with
  | sL1, sL1 | sL2, sL2 | sL3, sL3 | sb1, sb1 | sb2, sb2 | sb3, sb3 | sc1, sc1 | sc2, sc2 | sc3, sc3
  | s_s, s_s | s_t, s_t | s_theta, s_theta | s_theta_lim, s_theta_lim
  | s_F11, s_F11 | s_F12, s_F12 | s_F21, s_F21 | s_F22, s_F22 | s_u, s_u => true
  | _, _ => false
  end.

Inductive expr :=
  | EConst (q : Q)
  | EVar (x : sym)
  | EAdd (a b : expr)
  | EMul (a b : expr)
  | EDiv (a b : expr)
  | EPow (a : expr) (n : nat)
  | EExp (a : expr)
  | ELog (a : expr).

Definition ENeg (a : expr) : expr := EMul (EConst (-1)) a.
Definition ESub (a b : expr) : expr := EAdd a (ENeg b).

Declare Scope expr_scope.
Delimit Scope expr_scope with expr.
Bind Scope expr_scope with expr.
Infix "+" := EAdd : expr_scope.
Infix "-" := ESub : expr_scope.
Infix "*" := EMul : expr_scope.
Infix "/" := EDiv : expr_scope.
Infix "^" := EPow : expr_scope.
Notation "- x" := (ENeg x) : expr_scope.

(** Value at an assignment of the symbols ([lambdify] and call). *)
Definition env := sym -> R.
Fixpoint eval (rho : env) (e : expr) : res R :=
  match e with
  | EConst q => Ok (Q2R q)
  | EVar x => Ok (rho x)
  | EAdd a b => let* x := eval rho a in let* y := eval rho b in Ok (x + y)
  | EMul a b => let* x := eval rho a in let* y := eval rho b in Ok (x * y)
  | EDiv a b => let* x := eval rho a in let* y := eval rho b in ndiv x y
  | EPow a n => let* x := eval rho a in Ok (x ^ n)
  | EExp a => let* x := eval rho a in Ok (exp x)
  | ELog a => let* x := eval rho a in if Rltb 0 x then Ok (ln x) else Err ValueError
  end.

(** sympy's automatic simplification, as far as it matters for which sub-expressions are evaluated:
    zero products and zero summands disappear. *)
Definition is_zero (e : expr) : bool := match e with EConst q => Qeq_bool q 0 | _ => false end.
Definition mkAdd (a b : expr) : expr := if is_zero a then b else if is_zero b then a else EAdd a b.
Definition mkMul (a b : expr) : expr := if is_zero a || is_zero b then EConst 0 else EMul a b.
Definition mkDiv (a b : expr) : expr := if is_zero a then EConst 0 else EDiv a b.
Definition mkPow (a : expr) (n : nat) : expr :=
  match n with
  | O => EConst 1
  | S O => a
  | _ => if is_zero a then EConst 0 else EPow a n
  end.

(** [sp.diff(e, x)]. *)
Fixpoint diff (x : sym) (e : expr) : expr :=
  match e with
  | EConst _ => EConst 0
  | EVar y => if sym_eqb x y then EConst 1 else EConst 0
  | EAdd a b => mkAdd (diff x a) (diff x b)
  | EMul a b => mkAdd (mkMul (diff x a) b) (mkMul a (diff x b))
  | EDiv a b => mkAdd (mkDiv (diff x a) b) (mkMul (EConst (-1)) (mkDiv (mkMul a (diff x b)) (mkPow b 2)))
  | EPow a n => mkMul (mkMul (EConst (inject_Z (Z.of_nat n))) (mkPow a (pred n))) (diff x a)
  | EExp a => mkMul (EExp a) (diff x a)
  | ELog a => mkDiv (diff x a) a
  end.

(** [e.subs(x, r)]. *)
Fixpoint subst (x : sym) (r : expr) (e : expr) : expr :=
  match e with
  | EConst q => EConst q
  | EVar y => if sym_eqb x y then r else EVar y
  | EAdd a b => mkAdd (subst x r a) (subst x r b)
  | EMul a b => mkMul (subst x r a) (subst x r b)
  | EDiv a b => mkDiv (subst x r a) (subst x r b)
  | EPow a n => mkPow (subst x r a) n
  | EExp a => EExp (subst x r a)
  | ELog a => ELog (subst x r a)
  end.
(** [e.subs([(x1, r1), (x2, r2), ...])]: one after the other. *)
Definition subs (l : list (sym * expr)) (e : expr) : expr :=
  fold_left (fun e '(x, r) => subst x r e) l e.
