(** * Energies of affine deformations (C78) and frame indifference of the energies (C80). *)
From Coq Require Import Reals Lra Lia List ZArith.
From Verif.Spec Require Import GridSpec QuadSpec BellSpec InterpSpec RefineSpec PotentialSpec.
From Verif.Model Require Import Py Num Tensors Domain Refine Quadrature Integrators Expr Bell Interp Helpers Steps.
From Verif.Spec Require Import StepSpec EnergySpec MotionSpec.
From Verif.Proofs Require Import Lib InterpP PotP StepP StepD SimP SimL HatP QuadP IntegP StepU StepE StepF StepG StepH.
From Verif.Props Require Import QuadProps IntegProps InterpProps RefineProps MeshIntegProps PotentialProps.
Local Open Scope R_scope.
Import ListNotations.

Lemma problem_good g rg s a b : problem_grids g rg s a b -> good_grids g rg s a b.
Proof. intros (Hs & Ha & Hb & (so & w & h & f & F1 & F2 & Eg) & RR). split; [exact Hs|]. split; [exact Ha|]. split; [exact Hb|]. split; [exact (proj1 (C27_rectangle_grid_is_mesh _ _ _ _ _ _ _ _ Hs F1 F2 Eg Ha Hb))|exact RR]. Qed.
Lemma rule_mass {T} weights rpoints (q : rule R) (x : T) : TriangleQuadratureRule_ weights rpoints = Ok q -> q_weights q = weights.
Proof. intros H. rewrite (rule_inv _ _ _ H). reflexivity. Qed.
Lemma elastic_rule (rg : option (refined_grid R)) : exists q, (match rg with None => DUNAVANT2 | Some _ => DUNAVANT5 end) = Ok q /\ good_rule q /\ sum_over (fun w => w) (q_weights q) = mass rg.
Proof.
  destruct rg as [r|].
  - destruct dun5_good as (q & E & GQ). exists q. split; [exact E|]. split; [exact GQ|]. unfold DUNAVANT5 in E. revert E. third. intros E. rewrite (rule_mass _ _ _ tt E). cbn. lra.
  - destruct dun2_good as (q & E & _ & GQ). exists q. split; [exact E|]. split; [exact GQ|]. unfold DUNAVANT2 in E. revert E. third. intros E. rewrite (rule_mass _ _ _ tt E). cbn. lra.
Qed.
Lemma dissipation_rule_mass (rg : option (refined_grid R)) : exists q, (match rg with None => CENTROID | Some _ => DUNAVANT5 end) = Ok q /\ good_rule q /\ sum_over (fun w => w) (q_weights q) = mass rg.
Proof.
  destruct rg as [r|].
  - destruct dun5_good as (q & E & GQ). exists q. split; [exact E|]. split; [exact GQ|]. unfold DUNAVANT5 in E. revert E. third. intros E. rewrite (rule_mass _ _ _ tt E). cbn. lra.
  - destruct cent_good as (q & E & _ & GQ). exists q. split; [exact E|]. split; [exact GQ|]. unfold CENTROID in E. revert E. third. intros E. rewrite (rule_mass _ _ _ tt E). cbn. lra.
Qed.
Lemma stack_value a b c d e f : Matrix_stack (hessian_value a b c) (hessian_value d e f) = Ok (mkTensor3 2 2 2 [[[a; b]; [b; c]]; [[d; e]; [e; f]]]).
Proof. reflexivity. Qed.
Lemma hyper_value a b c d e f : hyper_elastic_potential (mkTensor3 2 2 2 [[[a; b]; [b; c]]; [[d; e]; [e; f]]]) = sqrt (a * a + 2 * (b * b) + c * c + d * d + 2 * (e * e) + f * f) ^ 3.
Proof. unfold hyper_elastic_potential, HYPER_ELASTIC_POWER, Tensor3D_norm, Tensor3D_normsqr. rewrite nsum_Rsum. cbn -[pow sqrt Rplus Rmult]. f_equal. unfold nsqrt, RNum. f_equal. cbn. ring. Qed.

(** ** C78 *)
(** The elastic energy of an affine deformation x |-> A x + c at constant temperature is the area of the meshed rectangle times the
    elastic potential of A (times the sum of the weights); it is defined exactly if the potential is. *)
Theorem C78_elastic_energy_affine : forall m s a b A c1 c2 y1 y2 th, problem_grids (ms_grid m) (ms_refined m) s a b -> mech_history m ->
  (forall x, In x (ms_prev_theta m) -> x = th) ->
  affine_field (ms_grid m) (ms_refined m) (f11 A) (f12 A) c1 y1 -> affine_field (ms_grid m) (ms_refined m) (f21 A) (f22 A) c2 y2 ->
  mech_elastic_energy m y1 y2 = (let* W := total_elastic_potential (mat A) th in Ok (mass (ms_refined m) * (INR a * s * (INR b * s)) * W)).
Proof.
  intros m s a b A c1 c2 y1 y2 th PG HM HT A1 A2. apply problem_good in PG. pose proof (mech_history_len m HM) as [_ _ _ _ PT]. set (g := ms_grid m) in *. set (rg := ms_refined m) in *.
  destruct (elastic_rule rg) as (q & Eq & GQ & MQ). destruct (grid_integrator g rg s a b PG q) as [I EI]. unfold mech_elastic_energy. fold g rg. rewrite Eq. cbn [bind]. rewrite EI. cbn [bind].
  assert (K : forall t p, In t (g_triangles (theta_grid g rg)) -> In p (q_points q) -> (let* F := deform_strain (comp_interp g rg y1) (comp_interp g rg y2) t p in let* v := i_call (temp_interp g rg (ms_prev_theta m)) t p in total_elastic_potential F v) = total_elastic_potential (mat A) th).
  { intros t p Ht Hp. destruct (field g rg s a b PG t p Ht (proj2 (proj2 GQ) p Hp)) as (X & Y & FU). rewrite (field_strain g rg t p X Y y1 y2 FU (proj1 A1) (proj1 A2)). cbn [bind]. rewrite (strain_affine g rg t p X Y A c1 c2 y1 y2 FU A1 A2).
    rewrite (temp_constant g rg s a b PG (ms_prev_theta m) th t p PT HT Ht (proj2 (proj2 GQ) p Hp)). reflexivity. }
  destruct (total_elastic_potential (mat A) th) as [W|e] eqn:EW; cbn [bind].
  - rewrite (integrate_const g rg s a b PG q I _ W EI (proj1 GQ) K), MQ. apply (f_equal Ok). ring.
  - rewrite (integrate_ext _ _ _ _ _ (fun _ _ => Err e) EI K). destruct (integrator_parts _ _ _ _ EI) as (Q & T & LA). unfold integrate. rewrite Q, T.
    destruct (fine_mesh g rg s a b PG) as (s' & a' & b' & _ & _). destruct (g_triangles (theta_grid g rg)) as [|t0 ts] eqn:TT.
    + exfalso. assert (Z : sum_over (fun A => A) (i_areas I) = 0) by (destruct (i_areas I); [reflexivity|discriminate]). rewrite (total_area g rg s a b PG q I) in Z by (rewrite TT; exact EI). destruct PG as (Hs & Ha & Hb & _).
      assert (0 < INR a * s) by (apply Rmult_lt_0_compat; [apply lt_0_INR; lia|exact Hs]). assert (0 < INR b * s) by (apply Rmult_lt_0_compat; [apply lt_0_INR; lia|exact Hs]). nra.
    + destruct (i_areas I) as [|a0 As]; [discriminate|]. destruct GQ as (LQ & NE & _). destruct (q_points q) as [|p0 ps]; [congruence|]. destruct (q_weights q) as [|w0 ws]; [discriminate|]. reflexivity.
Qed.
Print Assumptions C78_elastic_energy_affine.
(** The dissipation from x |-> B x + d to x |-> A x + c. *)
Theorem C78_dissipation_affine : forall m s a b A B c1 c2 d1 d2 y1 y2, problem_grids (ms_grid m) (ms_refined m) s a b ->
  affine_field (ms_grid m) (ms_refined m) (f11 B) (f12 B) d1 (ms_prev_y1 m) -> affine_field (ms_grid m) (ms_refined m) (f21 B) (f22 B) d2 (ms_prev_y2 m) ->
  affine_field (ms_grid m) (ms_refined m) (f11 A) (f12 A) c1 y1 -> affine_field (ms_grid m) (ms_refined m) (f21 A) (f22 A) c2 y2 ->
  mech_dissipation m y1 y2 = (let* D := dissipation_potential (mat B) (mat A) in Ok (mass (ms_refined m) * (INR a * s * (INR b * s)) * D)).
Proof.
  intros m s a b A B c1 c2 d1 d2 y1 y2 PG B1 B2 A1 A2. apply problem_good in PG. set (g := ms_grid m) in *. set (rg := ms_refined m) in *.
  destruct (dissipation_rule_mass rg) as (q & Eq & GQ & MQ). destruct (grid_integrator g rg s a b PG q) as [I EI]. unfold mech_dissipation. fold g rg. rewrite Eq. cbn [bind]. rewrite EI. cbn [bind]. rewrite dis_value. cbn [bind].
  rewrite (integrate_const g rg s a b PG q I _ (norm2 (sym_delta B A) / 2) EI (proj1 GQ)), MQ; [apply (f_equal Ok); ring|].
  intros t p Ht Hp. destruct (field g rg s a b PG t p Ht (proj2 (proj2 GQ) p Hp)) as (X & Y & FU). rewrite (field_strain g rg t p X Y y1 y2 FU (proj1 A1) (proj1 A2)), (field_strain g rg t p X Y _ _ FU (proj1 B1) (proj1 B2)). cbn [bind].
  rewrite (strain_affine g rg t p X Y A c1 c2 y1 y2 FU A1 A2), (strain_affine g rg t p X Y B d1 d2 _ _ FU B1 B2). apply dis_value.
Qed.
Print Assumptions C78_dissipation_affine.
(** The hyperelastic energy of affine deformations is zero. *)
Theorem C78_hyperelastic_energy_affine : forall m s a b A c1 c2 y1 y2, problem_grids (ms_grid m) (ms_refined m) s a b -> ms_refined m <> None ->
  affine_field (ms_grid m) (ms_refined m) (f11 A) (f12 A) c1 y1 -> affine_field (ms_grid m) (ms_refined m) (f21 A) (f22 A) c2 y2 -> mech_hyper_elastic_energy m y1 y2 = Ok 0.
Proof.
  intros m s a b A c1 c2 y1 y2 PG NR A1 A2. apply problem_good in PG. set (g := ms_grid m) in *. unfold mech_hyper_elastic_energy. fold g. destruct (ms_refined m) as [r|]; [|congruence].
  destruct dun5_good as (q & Eq & GQ). rewrite Eq. cbn [bind]. destruct (grid_integrator g (Some r) s a b PG q) as [I EI]. rewrite EI. cbn [bind].
  rewrite (integrate_const g (Some r) s a b PG q I _ 0 EI (proj1 GQ)); [apply (f_equal Ok); ring|].
  intros t p Ht Hp. destruct (reg_functionals g r s a b t p PG Ht (proj2 (proj2 GQ) p Hp)) as (X & Y & XX & XY & YY & _ & F2).
  unfold deform_hyper_strain. rewrite (fu_hess _ _ _ _ _ _ _ F2 y1 (proj1 A1)), (fu_hess _ _ _ _ _ _ _ F2 y2 (proj1 A2)). cbn [bind]. rewrite stack_value. cbn [bind]. rewrite hyper_value. apply (f_equal Ok).
  rewrite (fu_affxx _ _ _ _ _ _ _ F2 _ _ _ _ A1), (fu_affxy _ _ _ _ _ _ _ F2 _ _ _ _ A1), (fu_affyy _ _ _ _ _ _ _ F2 _ _ _ _ A1), (fu_affxx _ _ _ _ _ _ _ F2 _ _ _ _ A2), (fu_affxy _ _ _ _ _ _ _ F2 _ _ _ _ A2), (fu_affyy _ _ _ _ _ _ _ F2 _ _ _ _ A2).
  replace (0 * 0 + 2 * (0 * 0) + 0 * 0 + 0 * 0 + 2 * (0 * 0) + 0 * 0) with 0 by ring. rewrite sqrt_0. ring.
Qed.
Print Assumptions C78_hyperelastic_energy_affine.

(** ** C80 *)
(** The elastic energy does not change if the deformation is followed by a rotation and a translation. *)
Theorem C80_elastic_energy : forall m s a b c sn t1 t2 y1 y2 z1 z2, problem_grids (ms_grid m) (ms_refined m) s a b ->
  c * c + sn * sn = 1 -> List.length y1 = (List.length (g_vertices (ms_grid m)) * dofs (ms_refined m))%nat -> List.length y2 = (List.length (g_vertices (ms_grid m)) * dofs (ms_refined m))%nat ->
  moved (ms_refined m) c sn t1 t2 y1 y2 z1 z2 -> mech_elastic_energy m z1 z2 = mech_elastic_energy m y1 y2.
Proof.
  intros m s a b c sn t1 t2 y1 y2 z1 z2 PG CS L1 L2 MO. apply problem_good in PG. set (g := ms_grid m) in *. set (rg := ms_refined m) in *.
  destruct (elastic_rule rg) as (q & Eq & GQ & _). destruct (grid_integrator g rg s a b PG q) as [I EI]. unfold mech_elastic_energy. fold g rg. rewrite Eq. cbn [bind]. rewrite EI. cbn [bind].
  apply (integrate_ext _ _ _ _ _ _ EI). intros t p Ht Hp. destruct (field g rg s a b PG t p Ht (proj2 (proj2 GQ) p Hp)) as (X & Y & FU).
  destruct (moved_lengths g rg c sn t1 t2 y1 y2 z1 z2 L1 L2 MO) as [M1 M2]. rewrite (field_strain g rg t p X Y y1 y2 FU L1 L2), (field_strain g rg t p X Y z1 z2 FU M1 M2). cbn [bind].
  destruct (i_call _ t p) as [v|e]; [|reflexivity]. cbn [bind]. rewrite (moved_strain g rg s a b PG c sn t1 t2 y1 y2 z1 z2 L1 L2 MO t p X Y FU). apply C52_frame_indifference. exact (rotation_Q c sn CS).
Qed.
Print Assumptions C80_elastic_energy.
Lemma dissipation_moved : forall m m' s a b c sn t1 t2 u1 u2 y1 y2 z1 z2, problem_grids (ms_grid m) (ms_refined m) s a b -> length (ms_prev_y1 m) = (length (g_vertices (ms_grid m)) * dofs (ms_refined m))%nat -> length (ms_prev_y2 m) = (length (g_vertices (ms_grid m)) * dofs (ms_refined m))%nat ->
  ms_grid m' = ms_grid m -> ms_refined m' = ms_refined m ->
  c * c + sn * sn = 1 -> List.length y1 = (List.length (g_vertices (ms_grid m)) * dofs (ms_refined m))%nat -> List.length y2 = (List.length (g_vertices (ms_grid m)) * dofs (ms_refined m))%nat ->
  moved (ms_refined m) c sn u1 u2 (ms_prev_y1 m) (ms_prev_y2 m) (ms_prev_y1 m') (ms_prev_y2 m') -> moved (ms_refined m) c sn t1 t2 y1 y2 z1 z2 ->
  mech_dissipation m' z1 z2 = mech_dissipation m y1 y2.
Proof.
  intros m m' s a b c sn t1 t2 u1 u2 y1 y2 z1 z2 PG P1 P2 Eg Er CS L1 L2 MP MO. apply problem_good in PG. unfold mech_dissipation. rewrite Eg, Er. clear Eg Er. set (g := ms_grid m) in *. set (rg := ms_refined m) in *.
  destruct (dissipation_rule_mass rg) as (q & Eq & GQ & _). destruct (grid_integrator g rg s a b PG q) as [I EI]. rewrite Eq. cbn [bind]. rewrite EI. cbn [bind].
  apply (integrate_ext _ _ _ _ _ _ EI). intros t p Ht Hp. destruct (field g rg s a b PG t p Ht (proj2 (proj2 GQ) p Hp)) as (X & Y & FU).
  destruct (moved_lengths g rg c sn t1 t2 y1 y2 z1 z2 L1 L2 MO) as [M1 M2]. destruct (moved_lengths g rg c sn u1 u2 _ _ _ _ P1 P2 MP) as [N1 N2].
  rewrite (field_strain g rg t p X Y y1 y2 FU L1 L2), (field_strain g rg t p X Y z1 z2 FU M1 M2), (field_strain g rg t p X Y _ _ FU N1 N2), (field_strain g rg t p X Y _ _ FU P1 P2). cbn [bind].
  rewrite (moved_strain g rg s a b PG c sn t1 t2 y1 y2 z1 z2 L1 L2 MO t p X Y FU), (moved_strain g rg s a b PG c sn u1 u2 _ _ _ _ P1 P2 MP t p X Y FU). apply C56_common_rotation. exact (rotation_Q c sn CS).
Qed.
(** Nor does the dissipation, if the previous deformation is rotated by the same angle (translations may differ). *)
Theorem C80_dissipation : forall m m' s a b c sn t1 t2 u1 u2 y1 y2 z1 z2, problem_grids (ms_grid m) (ms_refined m) s a b -> mech_history m ->
  ms_grid m' = ms_grid m -> ms_refined m' = ms_refined m ->
  c * c + sn * sn = 1 -> List.length y1 = (List.length (g_vertices (ms_grid m)) * dofs (ms_refined m))%nat -> List.length y2 = (List.length (g_vertices (ms_grid m)) * dofs (ms_refined m))%nat ->
  moved (ms_refined m) c sn u1 u2 (ms_prev_y1 m) (ms_prev_y2 m) (ms_prev_y1 m') (ms_prev_y2 m') -> moved (ms_refined m) c sn t1 t2 y1 y2 z1 z2 ->
  mech_dissipation m' z1 z2 = mech_dissipation m y1 y2.
Proof. intros m m' s a b c sn t1 t2 u1 u2 y1 y2 z1 z2 PG HM. destruct (mech_history_len m HM) as [P1 P2 _ _ _]. exact (dissipation_moved m m' s a b c sn t1 t2 u1 u2 y1 y2 z1 z2 PG P1 P2). Qed.
Print Assumptions C80_dissipation.
(** Nor the hyperelastic energy. *)
Theorem C80_hyperelastic_energy : forall m s a b c sn t1 t2 y1 y2 z1 z2, problem_grids (ms_grid m) (ms_refined m) s a b -> ms_refined m <> None ->
  c * c + sn * sn = 1 -> List.length y1 = (List.length (g_vertices (ms_grid m)) * dofs (ms_refined m))%nat -> List.length y2 = (List.length (g_vertices (ms_grid m)) * dofs (ms_refined m))%nat ->
  moved (ms_refined m) c sn t1 t2 y1 y2 z1 z2 -> mech_hyper_elastic_energy m z1 z2 = mech_hyper_elastic_energy m y1 y2.
Proof.
  intros m s a b c sn t1 t2 y1 y2 z1 z2 PG NR CS L1 L2 MO. apply problem_good in PG. set (g := ms_grid m) in *. unfold mech_hyper_elastic_energy. fold g. destruct (ms_refined m) as [r|]; [|congruence].
  destruct dun5_good as (q & Eq & GQ). rewrite Eq. cbn [bind]. destruct (grid_integrator g (Some r) s a b PG q) as [I EI]. rewrite EI. cbn [bind].
  apply (integrate_ext _ _ _ _ _ _ EI). intros t p Ht Hp. destruct (reg_functionals g r s a b t p PG Ht (proj2 (proj2 GQ) p Hp)) as (X & Y & XX & XY & YY & _ & F2).
  destruct (moved_lengths g (Some r) c sn t1 t2 y1 y2 z1 z2 L1 L2 MO) as [M1 M2].
  unfold deform_hyper_strain. rewrite (fu_hess _ _ _ _ _ _ _ F2 y1 L1), (fu_hess _ _ _ _ _ _ _ F2 y2 L2), (fu_hess _ _ _ _ _ _ _ F2 z1 M1), (fu_hess _ _ _ _ _ _ _ F2 z2 M2). cbn [bind]. rewrite !stack_value. cbn [bind]. rewrite !hyper_value. apply (f_equal Ok). f_equal. f_equal.
  assert (ML : forall Z, linear (List.length (g_vertices g) * 6) Z -> (forall al be ga y, affine_field g (Some r) al be ga y -> Z y = 0) -> Z z1 = c * Z y1 - sn * Z y2 /\ Z z2 = sn * Z y1 + c * Z y2).
  { intros Z LZ AZ. exact (moved_linear g (Some r) s a b PG c sn t1 t2 y1 y2 z1 z2 L1 L2 MO Z LZ (fun d => AZ _ _ _ _ (shift_affine g (Some r) s a b PG y1 y2 L1 L2 d))). }
  destruct (ML XX (fu_linxx _ _ _ _ _ _ _ F2) (fu_affxx _ _ _ _ _ _ _ F2)) as [-> ->]. destruct (ML XY (fu_linxy _ _ _ _ _ _ _ F2) (fu_affxy _ _ _ _ _ _ _ F2)) as [-> ->]. destruct (ML YY (fu_linyy _ _ _ _ _ _ _ F2) (fu_affyy _ _ _ _ _ _ _ F2)) as [-> ->].
  assert (SQ : forall u v, (c * u - sn * v) * (c * u - sn * v) + (sn * u + c * v) * (sn * u + c * v) = u * u + v * v) by (intros; replace (u * u + v * v) with ((c * c + sn * sn) * (u * u + v * v)) by (rewrite CS; ring); ring).
  pose proof (SQ (XX y1) (XX y2)). pose proof (SQ (XY y1) (XY y2)). pose proof (SQ (YY y1) (YY y2)). lra.
Qed.
Print Assumptions C80_hyperelastic_energy.
