(** * C123: the regularization term vanishes for affine deformations only.
    Vocabulary: Spec/EnergySpec.v. *)
From Coq Require Import Reals Lra Lia List ZArith Psatz.
From Coquelicot Require Import Coquelicot.
From Verif.Spec Require Import GridSpec QuadSpec BellSpec InterpSpec RefineSpec PotentialSpec.
From Verif.Model Require Import Py Num Tensors Domain Refine Quadrature Integrators Expr Bell Interp Helpers Steps Simulation.
From Verif.Spec Require Import SimSpec LiveSpec StepSpec EnergySpec MotionSpec CalmRSpec.
From Verif.Proofs Require Import Lib GridP InterpP HatP QuadP IntegP StepP StepU StepE StepF StepG StepH ThermP MechP FlatH.
From Verif.Props Require Import GridProps QuadProps EnergyProps EnergyExamples AffineProps MechExistProps FlatProps.
Local Open Scope R_scope.
Import ListNotations.
Local Notation length := List.length.

Lemma flat_components g r s a b y1 y2 : good_grids g (Some r) s a b -> length y1 = (length (g_vertices g) * 6)%nat -> length y2 = (length (g_vertices g) * 6)%nat -> flat g r y1 y2 ->
  exists A c1 c2, affine_field g (Some r) (f11 A) (f12 A) c1 y1 /\ affine_field g (Some r) (f21 A) (f22 A) c2 y2.
Proof.
  intros GG L1 L2 FL. destruct dun5_good as (q & Eq & Gq).
  assert (K : forall t p, In t (g_triangles (r_grid r)) -> In p (q_points q) -> i_hessian (comp_interp g (Some r) y1) t p = Ok (hessian_value 0 0 0) /\ i_hessian (comp_interp g (Some r) y2) t p = Ok (hessian_value 0 0 0)).
  { intros t p Ht Hp. destruct (reg_functionals g r s a b t p GG Ht (proj2 (proj2 Gq) p Hp)) as (X & Y & XX & XY & YY & _ & F2).
    pose proof (fu_hess _ _ _ _ _ _ _ F2 y1 L1) as H1. pose proof (fu_hess _ _ _ _ _ _ _ F2 y2 L2) as H2. destruct (FL q t p Eq Ht Hp) as (x & Ex & Z).
    unfold deform_hyper_strain in Ex. rewrite H1, H2 in Ex. cbn [bind] in Ex. rewrite stack_value in Ex. injection Ex as <-. cbn [t_data] in Z. rewrite H1, H2.
    set (p1 := XX y1) in *. set (p2 := XY y1) in *. set (p3 := YY y1) in *. set (q1 := XX y2) in *. set (q2 := XY y2) in *. set (q3 := YY y2) in *.
    assert (Z1 : p1 = 0) by (apply (Z [[p1; p2]; [p2; p3]] [p1; p2]); cbn [In]; auto). assert (Z2 : p2 = 0) by (apply (Z [[p1; p2]; [p2; p3]] [p1; p2]); cbn [In]; auto). assert (Z3 : p3 = 0) by (apply (Z [[p1; p2]; [p2; p3]] [p2; p3]); cbn [In]; auto).
    assert (Z4 : q1 = 0) by (apply (Z [[q1; q2]; [q2; q3]] [q1; q2]); cbn [In]; auto). assert (Z5 : q2 = 0) by (apply (Z [[q1; q2]; [q2; q3]] [q1; q2]); cbn [In]; auto). assert (Z6 : q3 = 0) by (apply (Z [[q1; q2]; [q2; q3]] [q2; q3]); cbn [In]; auto).
    rewrite Z1, Z2, Z3, Z4, Z5, Z6. split; reflexivity. }
  destruct (flat_affine g r s a b y1 q GG L1 Eq (fun t p Ht Hp => proj1 (K t p Ht Hp))) as (a1 & b1 & c1 & A1).
  destruct (flat_affine g r s a b y2 q GG L2 Eq (fun t p Ht Hp => proj2 (K t p Ht Hp))) as (a2 & b2 & c2 & A2).
  exists (PotentialSpec.st a1 b1 a2 b2), c1, c2. split; [exact A1|exact A2].
Qed.
(** The regularization energy is zero exactly for the affine deformations [x |-> A x + c]: for the values [A x + c] at the vertices,
    the gradients [A] and zero second derivatives there. *)
Theorem C123_regularization_zero : forall m s a b y1 y2, problem_grids (ms_grid m) (ms_refined m) s a b -> ms_refined m <> None ->
  length y1 = (num_vertices (ms_grid m) * 6)%nat -> length y2 = (num_vertices (ms_grid m) * 6)%nat ->
  (mech_hyper_elastic_energy m y1 y2 = Ok 0 <->
   exists A c1 c2, affine_field (ms_grid m) (ms_refined m) (f11 A) (f12 A) c1 y1 /\ affine_field (ms_grid m) (ms_refined m) (f21 A) (f22 A) c2 y2).
Proof.
  intros m s a b y1 y2 PG NR L1 L2. pose proof (problem_good _ _ _ _ _ PG) as GG. destruct (ms_refined m) as [r|] eqn:Hr; [|congruence]. split.
  - intros Z. destruct (energy_rule_good (ms_grid m) (Some r)) as (q & Eq & Gq & Pq). assert (E5 : DUNAVANT5 = Ok q) by exact Eq.
    rewrite <- Hr in GG, PG. destruct (grid_integrator _ _ s a b GG q) as [I EI]. assert (K1 : length y1 = (length (g_vertices (ms_grid m)) * dofs (ms_refined m))%nat) by (rewrite Hr; exact L1). assert (K2 : length y2 = (length (g_vertices (ms_grid m)) * dofs (ms_refined m))%nat) by (rewrite Hr; exact L2).
    apply (flat_iff m r s a b PG Hr q E5 Gq Pq I EI y1 y2 K1 K2) in Z. rewrite Hr in GG. exact (flat_components _ r s a b y1 y2 GG L1 L2 Z).
  - intros (A & c1 & c2 & A1 & A2). rewrite <- Hr in PG, A1, A2. apply (C78_hyperelastic_energy_affine m s a b A c1 c2 y1 y2 PG); [congruence|exact A1|exact A2].
Qed.
Print Assumptions C123_regularization_zero.
