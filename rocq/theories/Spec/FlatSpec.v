(** * Specification for translations of regularized bodies (C122, C123). *)
From Coq Require Import Reals List ZArith.
From Verif.Model Require Import Py Num Domain Steps Simulation.
From Verif.Spec Require Import GridSpec SimSpec.
Local Open Scope R_scope.
Import ListNotations.

(** In the recorded step [a] of a regularized simulation the body is undeformed and moved by [(c1, c2)]: at every vertex [x] of the
    grid the two components have the values [x + c], the gradients [(1, 0)] and [(0, 1)] and no second derivatives. All
    temperatures are [T]. *)
Definition shifted_step (g : grid R) (c1 c2 T : R) (a : Simulation.step) : Prop :=
  (forall v x, point_at g v x -> forall j, (j < 6)%nat ->
     y_at (st_y_data a) v 0 j = nth_error [fst x + c1; 1; 0; 0; 0; 0] j /\ y_at (st_y_data a) v 1 j = nth_error [snd x + c2; 0; 1; 0; 0; 0] j) /\
  (forall z, In z (nd_data (st_theta_data a)) -> z = T).
