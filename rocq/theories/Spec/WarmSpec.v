(** * Specification for the stability of the undeformed body above the transition temperature (C120-C121). *)
From Coq Require Import Reals List ZArith.
From Verif.Model Require Import Py Num Tensors Domain Refine Quadrature Interp Helpers Steps Simulation.
From Verif.Spec Require Import PotentialSpec EnergySpec.
Local Open Scope R_scope.

(** At least the transition temperature ln(3/2)/5 (about 0.081). *)
Definition warm (t : R) : Prop := ln (3 / 2) / 5 <= t.
(** The rule the elastic energy is integrated with. *)
Definition mech_rule (m : mech) : res (rule R) := match ms_refined m with None => DUNAVANT2 | Some _ => DUNAVANT5 end.
(** At all points of that rule the strain of the deformation with parameters [(y1, y2)] is a rotation. *)
Definition rigid (m : mech) (y1 y2 : list R) : Prop :=
  forall q t p, mech_rule m = Ok q -> In t (g_triangles (theta_grid (ms_grid m) (ms_refined m))) -> In p (q_points q) ->
  exists F, deform_strain (comp_interp (ms_grid m) (ms_refined m) y1) (comp_interp (ms_grid m) (ms_refined m) y2) t p = Ok (mat F) /\ rotation F.
From Verif.Spec Require Import GridSpec SimSpec LiveSpec.
(** The deformation with parameters [(y1, y2)] is a rotation followed by a translation (without regularization). *)
Definition rigid_motion (g : grid R) (y1 y2 : list R) : Prop :=
  exists Q c1 c2, rotation Q /\ affine_field g None (f11 Q) (f12 Q) c1 y1 /\ affine_field g None (f21 Q) (f22 Q) c2 y2.
(** All positions of the step [a] of an unregularized simulation are those of the undeformed body, all its temperatures are [T]. *)
Definition undisturbed_step (g : grid R) (T : R) (a : Simulation.step) : Prop :=
  (forall v x, point_at g v x -> y_at (st_y_data a) v 0 0 = Some (fst x) /\ y_at (st_y_data a) v 1 0 = Some (snd x)) /\
  (forall z, In z (nd_data (st_theta_data a)) -> z = T).
