(** * Specification vocabulary: the mechanical time step as a minimization problem (C94-C96). *)
From Coq Require Import Reals List ZArith.
From Verif.Model Require Import Py Num Domain Refine Quadrature Integrators Interp Helpers Steps Simulation.
Local Open Scope R_scope.
Import ListNotations.

(** The value [v] is admissible for the variable [x]: a fixed variable keeps its value, a free one stays within its bounds. *)
Definition admits (x : pvar) (v : R) : Prop := if v_fixed x then v = v_val x else v_lb x <= v <= v_ub x.
(** [(y1, y2)] is admissible for the variables and, with regularization, the constraints of the mechanical problem. *)
Definition mech_feasible (m : mech) (y1 y2 : list R) : Prop :=
  Forall2 admits (ms_y1 m) y1 /\ Forall2 admits (ms_y2 m) y2 /\ (ms_refined m <> None -> dirichlet_constraints_hold m y1 y2).
(** [(y1, y2)] minimizes the objective over the admissible deformations with a defined objective. *)
Definition mech_minimizes (leggauss : Z -> res (list R * list R)) (m : mech) (y1 y2 : list R) : Prop :=
  mech_feasible m y1 y2 /\ exists J, mech_objective leggauss m y1 y2 = Ok J /\
    forall z1 z2 J', mech_feasible m z1 z2 -> mech_objective leggauss m z1 z2 = Ok J' -> J <= J'.
