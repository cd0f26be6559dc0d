(** * Specification vocabulary: changing one constant of a time step (C124). *)
From Coq Require Import Reals List ZArith.
From Verif.Model Require Import Py Num Domain Steps.
From Verif.Spec Require Import GridSpec.
Local Open Scope R_scope.
Import ListNotations.

(** The mechanical step [m] with another frame rate, regularization parameter or boundary load: the tractions at the Neumann
    vertices, one dictionary per component. *)
Definition with_fps (f : R) (m : mech) : mech :=
  mkMech (ms_grid m) (ms_refined m) (ms_radius m) f (ms_reg m) (ms_prev_y1 m) (ms_prev_y2 m) (ms_prev_theta m)
         (ms_y1 m) (ms_y2 m) (ms_g1 m) (ms_g2 m) (ms_traction m).
Definition with_regularization (e : R) (m : mech) : mech :=
  mkMech (ms_grid m) (ms_refined m) (ms_radius m) (ms_fps m) e (ms_prev_y1 m) (ms_prev_y2 m) (ms_prev_theta m)
         (ms_y1 m) (ms_y2 m) (ms_g1 m) (ms_g2 m) (ms_traction m).
Definition with_load (d1 d2 : dict nat R) (m : mech) : mech :=
  mkMech (ms_grid m) (ms_refined m) (ms_radius m) (ms_fps m) (ms_reg m) (ms_prev_y1 m) (ms_prev_y2 m) (ms_prev_theta m)
         (ms_y1 m) (ms_y2 m) d1 d2 (ms_traction m).
(** The load [c] times as large. *)
Definition times (c : R) (d : dict nat R) : dict nat R := map (fun p => (fst p, c * snd p)) d.
Definition with_load_times (c : R) (m : mech) : mech := with_load (times c (ms_g1 m)) (times c (ms_g2 m)) m.
(** The thermal step [t] with another temperature of the surroundings. *)
Definition with_surroundings (e : R) (t : therm) : therm :=
  mkTherm (ts_grid t) (ts_refined t) (ts_radius t) (ts_fps t) (ts_prev_y1 t) (ts_prev_y2 t) (ts_y1 t) (ts_y2 t)
          (ts_prev_theta t) (ts_theta t) e (ts_external t).
