(** * Specification vocabulary: sessions with a simulation and the influence of the forcing (C63). *)
From Coq Require Import Reals List ZArith.
From Verif.Model Require Import Py Num Steps Simulation.
From Verif.Spec Require Import SimSpec.
Local Open Scope R_scope.
Import ListNotations.

(** Calling [run] with each of the given numbers of steps, whatever happens: the outcomes and the final state. *)
Fixpoint play (sv : solver) (ns : list Z) (s : sim) : list (res unit) * sim :=
  match ns with
  | [] => ([], s)
  | n :: ns' => let '(s', r) := run sv n s in let '(rs, s'') := play sv ns' s' in (r :: rs, s'')
  end.
(** All a user sees of a session: the error of the construction, or the outcome of every run, the recorded steps, the
    time reached, the maximal temperature and the limits of the axes. *)
Definition session (u : setting) (ns : list Z) : res (list (res unit) * (list step * R * R * option (R * R) * option (R * R))) :=
  match construct u with
  | Err e => Err e
  | Ok s => let '(rs, s') := play (se_solver u) ns s in Ok (rs, (s_steps s', s_time s', s_max_temp s', s_xlims s', s_ylims s'))
  end.

(** Replace the user-supplied functions inside a model. *)
Definition with_traction (f : traction_fn) (m : mech) : mech :=
  mkMech (ms_grid m) (ms_refined m) (ms_radius m) (ms_fps m) (ms_reg m) (ms_prev_y1 m) (ms_prev_y2 m) (ms_prev_theta m)
         (ms_y1 m) (ms_y2 m) (ms_g1 m) (ms_g2 m) f.
Definition with_external (f : external_fn) (t : therm) : therm :=
  mkTherm (ts_grid t) (ts_refined t) (ts_radius t) (ts_fps t) (ts_prev_y1 t) (ts_prev_y2 t) (ts_y1 t) (ts_y2 t)
          (ts_prev_theta t) (ts_theta t) (ts_ext t) f.
(** The solver works on the numbers of the optimization problem; it cannot call the user's functions. *)
Definition sees_only_numbers (sv : solver) : Prop :=
  (forall k m f, sv_mech sv k (with_traction f m) = sv_mech sv k m) /\ (forall k t f, sv_therm sv k (with_external f t) = sv_therm sv k t).
Record same_but_forcing (u u' : setting) : Prop := {
  sf_order : se_order u' = se_order u; sf_solver : se_solver u' = se_solver u; sf_width : se_width u' = se_width u; sf_height : se_height u' = se_height u;
  sf_fix : se_fix u' = se_fix u; sf_params : se_params u' = se_params u
}.
