(** * Specification vocabulary: rest states of the mechanical step (C97). *)
From Coq Require Import Reals List ZArith.
From Verif.Model Require Import Py Num Domain Refine Steps.
Local Open Scope R_scope.
Import ListNotations.

(** No traction acts on the body. *)
Definition unloaded (m : mech) : Prop := ms_refined m = None -> forall v t, In (v, t) (ms_g1 m) \/ In (v, t) (ms_g2 m) -> t = 0.
(** The deformation has no stored energy. *)
Definition relaxed (m : mech) (y1 y2 : list R) : Prop := mech_elastic_energy m y1 y2 = Ok 0 /\ (ms_refined m <> None -> mech_hyper_elastic_energy m y1 y2 = Ok 0).
(** A body that is nowhere fixed, with all values strictly within their bounds. *)
Definition floats (xs : list pvar) (y : list R) : Prop := forall i x, nth_error xs i = Some x -> v_fixed x = false /\ v_lb x < nth i y 0 < v_ub x.
