(** * Definedness of the energies in general. *)
From Coq Require Import Reals Lra Lia List ZArith Classical_Prop.
From Verif.Spec Require Import GridSpec QuadSpec BellSpec InterpSpec RefineSpec PotentialSpec.
From Verif.Model Require Import Py Num Tensors Domain Refine Quadrature Integrators Expr Bell Interp Helpers Steps.
From Verif.Spec Require Import StepSpec EnergySpec.
From Verif.Proofs Require Import Lib InterpP PotP StepP StepD SimP SimL HatP StepU StepE StepF.
From Verif.Props Require Import QuadProps IntegProps InterpProps.
Local Open Scope R_scope.
Import ListNotations.

Definition strain_of (X Y : list R -> R) (y1 y2 : list R) : strain2 := PotentialSpec.st (X y1) (Y y1) (X y2) (Y y2).
Lemma dun5_good : exists q : rule R, DUNAVANT5 = Ok q /\ good_rule q.
Proof.
  destruct QuadProps.C35_dunavant5 as [q [E _]]. exists q. split; [exact E|]. unfold DUNAVANT5 in E. apply bind_ok in E as [a [_ E]]. eapply rule_good; [exact E|reflexivity|discriminate].
Qed.
Section F.
Context (g : grid R) (rg : option (refined_grid R)) (s : R) (a b : nat) (GG : good_grids g rg s a b).
Let NK := (length (g_vertices g) * Steps.dofs rg)%nat.
Lemma field t L : In t (g_triangles (theta_grid g rg)) -> l1 L + l2 L + l3 L = 1 -> exists X Y, functionals g rg t L X Y.
Proof.
  intros Ht SL. destruct rg as [r|].
  - destruct (reg_functionals g r s a b t L GG Ht SL) as (X & Y & _ & _ & _ & F & _). exists X, Y. exact F.
  - exact (plain_functionals g s a b t L GG Ht).
Qed.
Lemma field_strain t L X Y y1 y2 : functionals g rg t L X Y -> length y1 = NK -> length y2 = NK -> deform_strain (comp_interp g rg y1) (comp_interp g rg y2) t L = Ok (mat (strain_of X Y y1 y2)).
Proof. intros F L1 L2. unfold deform_strain. rewrite (fu_grad _ _ _ _ _ _ F y1 L1), (fu_grad _ _ _ _ _ _ F y2 L2). cbn [bind]. reflexivity. Qed.
Lemma mat_inj F G : mat F = mat G -> F = G.
Proof. destruct F, G. cbn. intros H. injection H as -> -> -> ->. reflexivity. Qed.
Lemma temp_value th t L : length th = length (g_vertices (theta_grid g rg)) -> In t (g_triangles (theta_grid g rg)) -> exists v, i_call (temp_interp g rg th) t L = Ok v.
Proof.
  intros LT Ht. destruct (fine_mesh g rg s a b GG) as (s' & a' & b' & Hs' & M'). destruct (mesh_triangle_at _ s' a' b' M' t Ht) as (p & q & r & T). destruct t as [[i j] k].
  destruct (mesh_params _ s' a' b' th (i, j, k) p q r M' LT T) as (u1 & u2 & u3 & U1 & U2 & U3). unfold temp_interp. destruct (P1_calls _ th i j k p q r _ _ _ L T U1 U2 U3) as [-> _]. eexists. reflexivity.
Qed.
Lemma grid_integrator (q : rule R) : exists I, Integrator_ q (g_triangles (theta_grid g rg)) (g_points (theta_grid g rg)) = Ok I.
Proof.
  destruct (fine_mesh g rg s a b GG) as (s' & a' & b' & Hs' & M'). destruct (IntegProps.C38_areas q (g_triangles (theta_grid g rg)) (g_points (theta_grid g rg))) as [I [E _]]; [|exists I; exact E].
  intros t Ht. destruct (mesh_triangle_at _ s' a' b' M' t Ht) as (p & q0 & r & T). exists p, q0, r. destruct t as [[x y] z]. exact (proj2 T).
Qed.
(** Where the elastic potential is evaluated. *)
Lemma elastic_density F th : (0 < det2 F -> exists v, total_elastic_potential (mat F) th = Ok v) /\ (~ 0 < det2 F -> total_elastic_potential (mat F) th = Err ValueError).
Proof.
  unfold total_elastic_potential. rewrite frac_value. cbn [bind]. split; intros D.
  - rewrite (aus_value F D), (mar_value F) by lra. cbn [bind]. eexists. reflexivity.
  - rewrite (aus_fail F) by lra. reflexivity.
Qed.
Context (q : rule R) (GQ : good_rule q) (th : list R) (LT : length th = length (g_vertices (theta_grid g rg))) (y1 y2 : list R) (L1 : length y1 = NK) (L2 : length y2 = NK).
Lemma elastic_general I : Integrator_ q (g_triangles (theta_grid g rg)) (g_points (theta_grid g rg)) = Ok I ->
  let E := integrate I (fun t b0 => let* F := deform_strain (comp_interp g rg y1) (comp_interp g rg y2) t b0 in let* v := i_call (temp_interp g rg th) t b0 in total_elastic_potential F v) in
  (positive_jacobian g rg q y1 y2 -> exists v, E = Ok v) /\ (~ positive_jacobian g rg q y1 y2 -> E = Err ValueError).
Proof.
  intros EI E. destruct GQ as (LQ & NE & SQ).
  assert (K : forall t p, In t (g_triangles (theta_grid g rg)) -> In p (q_points q) -> exists F v, deform_strain (comp_interp g rg y1) (comp_interp g rg y2) t p = Ok (mat F) /\ i_call (temp_interp g rg th) t p = Ok v).
  { intros t p Ht Hp. destruct (field t p Ht (SQ p Hp)) as (X & Y & FU). destruct (temp_value th t p LT Ht) as [v V]. exists (strain_of X Y y1 y2), v. split; [exact (field_strain t p X Y y1 y2 FU L1 L2)|exact V]. }
  split; intros PJ.
  - apply (integrate_total _ _ _ _ EI). intros t p Ht Hp. destruct (K t p Ht Hp) as (F & v & EF & EV). destruct (PJ t p Ht Hp) as (F' & EF' & D). assert (F' = F) as -> by (apply mat_inj; congruence). rewrite EF. cbn [bind]. rewrite EV. cbn [bind]. apply elastic_density, D.
  - destruct (integrate_def _ _ _ _ EI (fun t b0 => let* F := deform_strain (comp_interp g rg y1) (comp_interp g rg y2) t b0 in let* v := i_call (temp_interp g rg th) t b0 in total_elastic_potential F v) ValueError) as [[v D]|D]; [| |exact D].
    + intros t p Ht Hp. destruct (K t p Ht Hp) as (F & v & EF & EV). rewrite EF. cbn [bind]. rewrite EV. cbn [bind]. destruct (Rlt_dec 0 (det2 F)) as [Y|Y]; [left|right]; apply elastic_density, Y.
    + exfalso. apply PJ. intros t p Ht Hp. destruct (K t p Ht Hp) as (F & u & EF & EV). exists F. split; [exact EF|]. destruct (integrate_all _ _ _ _ EI LQ _ _ D t p Ht Hp) as [x X]. cbv beta in X. rewrite EF in X. cbn [bind] in X. rewrite EV in X. cbn [bind] in X.
      destruct (Rlt_dec 0 (det2 F)) as [Y|Y]; [exact Y|]. rewrite (proj2 (elastic_density F u) Y) in X. discriminate.
Qed.
Context (z1 z2 : list R) (L3 : length z1 = NK) (L4 : length z2 = NK).
Lemma dissipation_general I : Integrator_ q (g_triangles (theta_grid g rg)) (g_points (theta_grid g rg)) = Ok I ->
  exists v, integrate I (fun t b0 => let* F0 := deform_strain (comp_interp g rg z1) (comp_interp g rg z2) t b0 in let* F := deform_strain (comp_interp g rg y1) (comp_interp g rg y2) t b0 in dissipation_potential F0 F) = Ok v.
Proof.
  intros EI. destruct GQ as (LQ & NE & SQ). apply (integrate_total _ _ _ _ EI). intros t p Ht Hp. destruct (field t p Ht (SQ p Hp)) as (X & Y & FU).
  rewrite (field_strain t p X Y z1 z2 FU L3 L4), (field_strain t p X Y y1 y2 FU L1 L2). cbn [bind]. rewrite dis_value. eexists. reflexivity.
Qed.
End F.

Section Regularized.
Context (m : mech) (r : refined_grid R) (s : R) (a b : nat) (GG : good_grids (ms_grid m) (Some r) s a b) (RR : ms_refined m = Some r).
Let g := ms_grid m.
Let NK := (length (g_vertices g) * 6)%nat.
Context (LT : length (ms_prev_theta m) = length (g_vertices (r_grid r))) (LP1 : length (ms_prev_y1 m) = NK) (LP2 : length (ms_prev_y2 m) = NK).
Context (y1 y2 : list R) (L1 : length y1 = NK) (L2 : length y2 = NK).
Lemma hyper_defined : exists H, mech_hyper_elastic_energy m y1 y2 = Ok H.
Proof.
  unfold mech_hyper_elastic_energy. rewrite RR. destruct dun5_good as (q & -> & LQ & NE & SQ). cbn [bind]. fold g. destruct (grid_integrator g (Some r) s a b GG q) as [I EI]. rewrite EI. cbn [bind].
  apply (integrate_total _ _ _ _ EI). intros t p Ht Hp. destruct (reg_functionals g r s a b t p GG Ht (SQ p Hp)) as (X & Y & XX & XY & YY & _ & F2).
  unfold deform_hyper_strain. rewrite (fu_hess _ _ _ _ _ _ _ F2 y1 L1), (fu_hess _ _ _ _ _ _ _ F2 y2 L2). cbn [bind]. destruct (Matrix_stack _ _) as [h|e] eqn:E; [eexists; reflexivity|]. exfalso. vm_compute in E. discriminate.
Qed.
Lemma objective_defined_reg lg q : DUNAVANT5 = Ok q -> (positive_jacobian g (Some r) q y1 y2 -> exists J, mech_objective lg m y1 y2 = Ok J) /\ (~ positive_jacobian g (Some r) q y1 y2 -> mech_objective lg m y1 y2 = Err ValueError).
Proof.
  intros Eq. destruct dun5_good as (q' & Eq' & GQ). rewrite Eq in Eq'. injection Eq' as <-. destruct (grid_integrator g (Some r) s a b GG q) as [I EI].
  destruct (elastic_general g (Some r) s a b GG q GQ (ms_prev_theta m) LT y1 y2 L1 L2 I EI) as [A B]. destruct (dissipation_general g (Some r) s a b GG q GQ y1 y2 L1 L2 _ _ LP1 LP2 I EI) as [D ED]. destruct hyper_defined as [H EH].
  unfold mech_objective. rewrite RR. assert (EE : mech_elastic_energy m y1 y2 = integrate I (fun t b0 => let* F := deform_strain (comp_interp g (Some r) y1) (comp_interp g (Some r) y2) t b0 in let* v := i_call (temp_interp g (Some r) (ms_prev_theta m)) t b0 in total_elastic_potential F v)).
  { unfold mech_elastic_energy. rewrite RR, Eq. cbn [bind]. fold g. rewrite EI. reflexivity. }
  assert (DD : mech_dissipation m y1 y2 = Ok D) by (unfold mech_dissipation; rewrite RR, Eq; cbn [bind]; fold g; rewrite EI; exact ED).
  rewrite EE. split; intros K.
  - destruct (A K) as [E ->]. cbn [bind]. rewrite EH. cbn [bind]. rewrite DD. cbn [bind]. eexists. reflexivity.
  - rewrite (B K). reflexivity.
Qed.
End Regularized.
