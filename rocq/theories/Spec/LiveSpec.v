(** * Specification vocabulary: well-behaved settings of a simulation (C76). *)
From Coq Require Import Reals List ZArith.
From Verif.Model Require Import Py Num Steps Simulation.
From Verif.Spec Require Import SimSpec.
Local Open Scope R_scope.
Import ListNotations.

(** The forcing functions return what the documentation asks for: a pair of tractions, a non-negative temperature. *)
Definition forcing_fine (u : setting) (t : R) : Prop :=
  (forall x y, exists a b, se_traction u t x y = Ok [a; b]) /\ (exists v, se_external u t = Ok v /\ 0 <= v).
(** The solver never raises. *)
Definition never_raises (sv : solver) : Prop :=
  (forall k m, ma_exn (sv_mech sv k m) = None) /\ (forall k t, ta_exn (sv_therm sv k t) = None).
(** Regularized simulations need at least one cell and a mesh, after all refinements, above the tolerance
    used for empty edge lists. *)
Definition fine_enough (u : setting) : Prop :=
  match p_regularization (se_params u), p_refinement_factor (se_params u) with
  | Some _, Some k => p_scale (se_params u) <= se_width u /\ p_scale (se_params u) <= se_height u /\
                      / 10 ^ 15 <= p_scale (se_params u) / (5 * IZR k)
  | _, _ => True
  end.
