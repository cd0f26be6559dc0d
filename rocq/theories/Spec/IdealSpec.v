(** * Specification vocabulary: an exact solver (C96). *)
From Coq Require Import Reals List ZArith.
From Verif.Model Require Import Py Num Domain Refine Quadrature Integrators Interp Helpers Steps Simulation.
From Verif.Spec Require Import SimSpec LiveSpec ThermSpec MechSpec.
Local Open Scope R_scope.

(** The solver never raises, never returns negative temperatures, and whenever a problem has a solution it returns one. Nothing is
    asked of its answers to problems without solution. *)
Definition exact (leggauss : Z -> res (list R * list R)) (sv : solver) : Prop :=
  never_raises sv /\ respects_domain sv /\
  (forall k m z1 z2, mech_minimizes leggauss m z1 z2 ->
     let m' := fst (mech_solve (sv_mech sv k m) m) in mech_minimizes leggauss m (map v_val (ms_y1 m')) (map v_val (ms_y2 m'))) /\
  (forall k t z, (forall x, In x (ts_theta t) -> v_fixed x = false) -> minimizes leggauss t z ->
     let t' := fst (therm_solve (sv_therm sv k t) t) in minimizes leggauss t (map v_val (ts_theta t'))).
