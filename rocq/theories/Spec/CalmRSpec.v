(** * Specification for regularized bodies at rest (C122). *)
From Coq Require Import Reals List ZArith.
From Verif.Model Require Import Py Num Tensors Domain Refine Quadrature Interp Helpers Steps Simulation.
From Verif.Spec Require Import PotentialSpec EnergySpec.
Local Open Scope R_scope.

(** The deformation with the parameters [(y1, y2)] on the grid [g] has strain [F t p] at each point [p] of the degree 5 rule in each
    triangle [t] of the refined grid. *)
Definition strains_are (g : grid R) (r : refined_grid R) (F : triangle -> bary R -> strain2) (y1 y2 : list R) : Prop :=
  forall q t p, DUNAVANT5 = Ok q -> In t (g_triangles (r_grid r)) -> In p (q_points q) -> deform_strain (comp_interp g (Some r) y1) (comp_interp g (Some r) y2) t p = Ok (mat (F t p)).
(** Its second derivatives all vanish there. *)
Definition flat (g : grid R) (r : refined_grid R) (y1 y2 : list R) : Prop :=
  forall q t p, DUNAVANT5 = Ok q -> In t (g_triangles (r_grid r)) -> In p (q_points q) -> exists h, deform_hyper_strain (comp_interp g (Some r) y1) (comp_interp g (Some r) y2) t p = Ok h /\
    forall A row x, In A (t_data h) -> In row A -> In x row -> x = 0.
(** The recorded step [a] has the strains [F], no second derivatives, and everywhere the temperature [T]. *)
Definition frozen_step (g : grid R) (r : refined_grid R) (F : triangle -> bary R -> strain2) (T : R) (a : Simulation.step) : Prop :=
  (exists y1 y2, length y1 = (num_vertices g * 6)%nat /\ length y2 = (num_vertices g * 6)%nat /\ y_array g (Some r) y1 y2 = st_y_data a /\ strains_are g r F y1 y2 /\ flat g r y1 y2) /\
  (forall z, In z (nd_data (st_theta_data a)) -> z = T).
