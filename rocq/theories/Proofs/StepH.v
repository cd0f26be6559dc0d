(** * Energies of affine and of rigidly moved deformations. *)
From Coq Require Import Reals Lra Lia List ZArith.
From Verif.Spec Require Import GridSpec QuadSpec BellSpec InterpSpec RefineSpec PotentialSpec.
From Verif.Model Require Import Py Num Tensors Domain Refine Quadrature Integrators Expr Bell Interp Helpers Steps.
From Verif.Spec Require Import StepSpec EnergySpec MotionSpec.
From Verif.Proofs Require Import Lib InterpP PotP StepP StepD SimP SimL HatP QuadP IntegP StepU StepE StepF StepG.
From Verif.Props Require Import QuadProps IntegProps InterpProps RefineProps MeshIntegProps PotentialProps.
Local Open Scope R_scope.
Import ListNotations.

Lemma integrator_parts (q : rule R) ts pts I : Integrator_ q ts pts = Ok I -> i_quad I = q /\ i_triangles I = ts /\ length (i_areas I) = length ts.
Proof. unfold Integrator_. intros H. apply bind_ok' in H as [As [E H]]. injection H as <-. cbn. split; [reflexivity|]. split; [reflexivity|]. exact (mapM_length _ _ _ E). Qed.
Lemma integrate_ext (q : rule R) ts pts I F G : Integrator_ q ts pts = Ok I -> (forall t b, In t ts -> In b (q_points q) -> F t b = G t b) -> integrate I F = integrate I G.
Proof.
  intros H E. destruct (integrator_parts _ _ _ _ H) as (Q & T & _). unfold integrate. rewrite Q, T.
  match goal with |- (let* x := mapM ?f ?l in _) = (let* x := mapM ?f' ?l in _) => assert (K : mapM f l = mapM f' l) end; [|rewrite K; reflexivity].
  apply mapM_ext. intros [a t] Hat. assert (K : quad_sum (zip (q_points q) (q_weights q)) (F t) = quad_sum (zip (q_points q) (q_weights q)) (G t)); [|rewrite K; reflexivity].
  unfold quad_sum. match goal with |- (let* x := mapM ?f ?l in _) = (let* x := mapM ?f' ?l in _) => assert (K : mapM f l = mapM f' l) end; [|rewrite K; reflexivity].
  apply mapM_ext. intros [b w] Hb. rewrite (E t b (in_combine_r _ _ _ _ Hat) (in_combine_l _ _ _ _ Hb)). reflexivity.
Qed.

Section G.
Context (g : grid R) (rg : option (refined_grid R)) (s : R) (a b : nat) (GG : good_grids g rg s a b).
Let NK := (length (g_vertices g) * Steps.dofs rg)%nat.
Lemma total_area (q : rule R) I : Integrator_ q (g_triangles (theta_grid g rg)) (g_points (theta_grid g rg)) = Ok I -> sum_over (fun A => A) (i_areas I) = (INR a * s) * (INR b * s).
Proof.
  intros HI. destruct GG as (Hs & Ha & Hb & M & RR). destruct rg as [r|]; [|exact (proj2 (C79_total_area g s a b q I Hs Ha Hb M) HI)].
  destruct RR as (N & HN & He & Rf). destruct (C27_refinement_is_fine_mesh g s a b N Hs Ha Hb HN He M) as (r' & Rf' & _ & M' & _). rewrite Rf in Rf'. injection Rf' as <-.
  assert (N0 : INR N <> 0) by (apply not_0_INR; lia). assert (NP : 0 < INR N) by (apply lt_0_INR; lia).
  rewrite (proj2 (C79_total_area (r_grid r) (s / INR N) (a * N) (b * N) q I ltac:(apply Rdiv_lt_0_compat; assumption) ltac:(nia) ltac:(nia) M') HI), !mult_INR. field. exact N0.
Qed.
Lemma integrate_const (q : rule R) I F c : Integrator_ q (g_triangles (theta_grid g rg)) (g_points (theta_grid g rg)) = Ok I -> length (q_points q) = length (q_weights q) ->
  (forall t p, In t (g_triangles (theta_grid g rg)) -> In p (q_points q) -> F t p = Ok c) -> integrate I F = Ok (c * sum_over (fun w => w) (q_weights q) * (INR a * s * (INR b * s))).
Proof.
  intros HI L H. destruct (integrator_parts _ _ _ _ HI) as (Q & T & LA). rewrite (integrate_ws I F (fun _ _ => c)) by (rewrite ?Q, ?T; try exact LA; intros; apply H; assumption).
  apply (f_equal Ok). rewrite <- (total_area q I HI), Q, T. rewrite (weighted_sum_const _ (i_areas I)), (weighted_sum_const (q_points q) (q_weights q) c), (ws_one _ (i_areas I)) by exact LA. rewrite (ws_one (q_points q)) by (symmetry; exact L). ring.
Qed.
Lemma temp_constant th v t L : length th = length (g_vertices (theta_grid g rg)) -> (forall x, In x th -> x = v) -> In t (g_triangles (theta_grid g rg)) -> l1 L + l2 L + l3 L = 1 -> i_call (temp_interp g rg th) t L = Ok v.
Proof.
  intros LT HV Ht SL. destruct (fine_mesh g rg s a b GG) as (s' & a' & b' & Hs' & M'). destruct (mesh_triangle_at _ s' a' b' M' t Ht) as (p & q & r & T). destruct t as [[i j] k].
  destruct (mesh_params _ s' a' b' th (i, j, k) p q r M' LT T) as (u1 & u2 & u3 & U1 & U2 & U3). unfold temp_interp. destruct (P1_calls _ th i j k p q r _ _ _ L T U1 U2 U3) as [-> _]. apply (f_equal Ok).
  rewrite (HV u1 (nth_error_In _ _ U1)), (HV u2 (nth_error_In _ _ U2)), (HV u3 (nth_error_In _ _ U3)). replace v with ((l1 L + l2 L + l3 L) * v) at 4 by (rewrite SL; ring). ring.
Qed.
Lemma strain_affine t L X Y A c1 c2 y1 y2 : functionals g rg t L X Y -> affine_field g rg (f11 A) (f12 A) c1 y1 -> affine_field g rg (f21 A) (f22 A) c2 y2 -> strain_of X Y y1 y2 = A.
Proof.
  intros FU A1 A2. unfold strain_of. rewrite (fu_affx _ _ _ _ _ _ FU _ _ _ _ A1), (fu_affx _ _ _ _ _ _ FU _ _ _ _ A2), (fu_affy _ _ _ _ _ _ FU _ _ _ _ A1), (fu_affy _ _ _ _ _ _ FU _ _ _ _ A2). destruct A. reflexivity.
Qed.
(** Rigid motions. *)
Context (c sn t1 t2 : R) (CS : c * c + sn * sn = 1) (y1 y2 z1 z2 : list R) (L1 : length y1 = NK) (L2 : length y2 = NK) (MO : moved rg c sn t1 t2 y1 y2 z1 z2).
Let Q := PotentialSpec.st c (- sn) sn c.
Lemma moved_lengths : length z1 = NK /\ length z2 = NK. Proof. destruct MO as (A & B & _). split; congruence. Qed.
Definition shift_field (d : R) : list R := map (fun i => if Nat.eqb (i mod Steps.dofs rg) 0 then d else 0) (range NK).
Lemma dofs_pos : (0 < Steps.dofs rg)%nat. Proof. destruct rg; cbn; lia. Qed.
Lemma shift_affine d : affine_field g rg 0 0 d (shift_field d).
Proof.
  split; [unfold shift_field; rewrite map_length; apply range_length|]. intros v p Hp j Hj. unfold shift_field. rewrite nth_error_map.
  assert (Hv : (v < length (g_vertices g))%nat). { destruct GG as (_ & _ & _ & M & _). rewrite (mesh_length g s a b M). apply nth_error_Some. unfold point_at in Hp. congruence. }
  assert (LT : (v * Steps.dofs rg + j < NK)%nat) by (unfold NK; nia). unfold range. rewrite nth_error_nth' with (d := 0%nat) by (rewrite seq_length; exact LT). rewrite seq_nth by exact LT. cbn [option_map Nat.add].
  replace ((v * Steps.dofs rg + j) mod Steps.dofs rg)%nat with j by (rewrite Nat.add_comm, Nat.mod_add by lia; symmetry; apply Nat.mod_small, Hj). clear - Hj.
  destruct rg; cbn [Steps.dofs] in Hj; destruct j as [|[|[|[|[|[|j]]]]]]; cbn [Nat.eqb nth_error]; try lia; try reflexivity; f_equal; ring.
Qed.
Lemma moved_lincomb : z1 = lincomb 1 (lincomb c y1 (- sn) y2) 1 (shift_field t1) /\ z2 = lincomb 1 (lincomb sn y1 c y2) 1 (shift_field t2).
Proof.
  destruct MO as (A & B & K). assert (SF : forall d, length (shift_field d) = NK) by (intros d; exact (proj1 (shift_affine d))).
  assert (E : forall i, (i < NK)%nat -> exists u v, nth_error y1 i = Some u /\ nth_error y2 i = Some v /\ nth_error z1 i = Some (c * u - sn * v + (if Nat.eqb (i mod Steps.dofs rg) 0 then t1 else 0)) /\ nth_error z2 i = Some (sn * u + c * v + (if Nat.eqb (i mod Steps.dofs rg) 0 then t2 else 0))).
  { intros i Hi. destruct (nth_error y1 i) as [u|] eqn:E1; [|apply nth_error_None in E1; lia]. destruct (nth_error y2 i) as [v|] eqn:E2; [|apply nth_error_None in E2; lia]. exists u, v. split; [reflexivity|]. split; [reflexivity|].
    pose proof dofs_pos as DP. pose proof (Nat.div_mod i (Steps.dofs rg) ltac:(lia)) as DM. pose proof (Nat.mod_upper_bound i (Steps.dofs rg) ltac:(lia)) as UB. specialize (K (i / Steps.dofs rg)%nat (i mod Steps.dofs rg)%nat u v UB). replace (i / Steps.dofs rg * Steps.dofs rg + i mod Steps.dofs rg)%nat with i in K by lia. exact (K E1 E2). }
  assert (SN : forall d i, (i < NK)%nat -> nth_error (shift_field d) i = Some (if Nat.eqb (i mod Steps.dofs rg) 0 then d else 0)).
  { intros d i Hi. unfold shift_field. rewrite nth_error_map. unfold range. rewrite nth_error_nth' with (d := 0%nat) by (rewrite seq_length; exact Hi). rewrite seq_nth by exact Hi. reflexivity. }
  assert (LL : forall al be, length (lincomb al y1 be y2) = NK) by (intros; rewrite lincomb_length by congruence; exact L1).
  split; apply nth_error_ext; try (rewrite lincomb_length by (rewrite LL, SF; reflexivity); rewrite LL; congruence); intros i Hi.
  - destruct (E i ltac:(congruence)) as (u & v & U & V & Z & _). rewrite Z, (lincomb_nth 1 _ 1 _ _ _ _ (lincomb_nth c _ (- sn) _ _ _ _ U V) (SN t1 i ltac:(congruence))). f_equal. ring.
  - destruct (E i ltac:(congruence)) as (u & v & U & V & _ & Z). rewrite Z, (lincomb_nth 1 _ 1 _ _ _ _ (lincomb_nth sn _ c _ _ _ _ U V) (SN t2 i ltac:(congruence))). f_equal. ring.
Qed.
Lemma moved_linear X : linear NK X -> (forall d, X (shift_field d) = 0) -> X z1 = c * X y1 - sn * X y2 /\ X z2 = sn * X y1 + c * X y2.
Proof.
  intros LX AX. destruct moved_lincomb as [-> ->]. assert (SF : forall d, length (shift_field d) = NK) by (intros d; exact (proj1 (shift_affine d))). assert (LL : forall al be, length (lincomb al y1 be y2) = NK) by (intros; rewrite lincomb_length by congruence; exact L1).
  rewrite !LX by (first [apply LL|apply SF|assumption]). rewrite !AX. split; ring.
Qed.
Lemma moved_strain t L X Y : functionals g rg t L X Y -> strain_of X Y z1 z2 = mul2 Q (strain_of X Y y1 y2).
Proof.
  intros FU. destruct (moved_linear X (fu_linx _ _ _ _ _ _ FU) (fun d => fu_affx _ _ _ _ _ _ FU _ _ _ _ (shift_affine d))) as [A1 A2]. destruct (moved_linear Y (fu_liny _ _ _ _ _ _ FU) (fun d => fu_affy _ _ _ _ _ _ FU _ _ _ _ (shift_affine d))) as [B1 B2].
  unfold strain_of, mul2, Q, PotentialSpec.st. cbn [f11 f12 f21 f22]. rewrite A1, A2, B1, B2. f_equal; ring.
Qed.
Lemma rotation_Q : rotation Q. Proof. exists c, sn. split; [exact CS|reflexivity]. Qed.
End G.
