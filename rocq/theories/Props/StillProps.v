(** * Simulations without forces above the transition temperature stay at rest (C121). *)
From Coq Require Import Reals Lra Lia List ZArith Psatz.
From Coquelicot Require Import Coquelicot.
From Verif.Spec Require Import GridSpec QuadSpec BellSpec InterpSpec RefineSpec PotentialSpec.
From Verif.Model Require Import Py Num Tensors Domain Refine Quadrature Integrators Expr Bell Interp Helpers Steps Simulation.
From Verif.Spec Require Import SimSpec LiveSpec StepSpec EnergySpec MotionSpec TractionSpec ThermSpec MechSpec MomentumSpec IdealSpec RestSpec WarmSpec.
From Verif.Proofs Require Import Lib GridP GridCover InterpP PotP HatP QuadP IntegP StepP StepU StepE StepF StepG StepH SimP SimQ SimR SimH SimL SimA StepC ThermV ThermP LipMin LipMore MechV MechP MechL MechD.
From Verif.Props Require Import GridProps QuadProps IntegProps InterpProps RefineProps MeshIntegProps PotentialProps SimProps EnergyProps EnergyExamples AffineProps TractionProps ThermProps HeatProps ExistProps MechExistProps IdealProps MomentumProps Near1Props RestProps WarmProps RigidProps.
Local Open Scope R_scope.
Import ListNotations.
Local Notation length := List.length.

Lemma dget_of_in (d : dict nat R) v x : NoDup (map fst d) -> In (v, x) d -> dget Nat.eqb v d = Ok x.
Proof.
  unfold dget. induction d as [|[k y] d IH]; [intros _ []|]. cbn [map fst]. intros N I. apply NoDup_cons_iff in N as [N1 N2]. cbn [dfind]. destruct (Nat.eqb v k) eqn:E.
  - apply Nat.eqb_eq in E. subst k. destruct I as [I|I]; [injection I as ->; reflexivity|]. exfalso. apply N1. apply in_map_iff. exists (v, x). auto.
  - destruct I as [I|I]; [injection I as -> ->; rewrite Nat.eqb_refl in E; discriminate|]. exact (IH N2 I).
Qed.
Section St.
Context (u : setting) (lg : Z -> res (list R * list R)) (sm : sim) (H : undisturbed u sm) (EX : exact lg (se_solver u)) (LG : midpoint_rule lg) (FE : LiveSpec.fine_enough u) (Preg : p_regularization (se_params u) = None).
Context (Hw1 : p_scale (se_params u) <= se_width u) (Hh1 : p_scale (se_params u) <= se_height u) (FP : 0 < p_fps (se_params u)).
Context (UT : forall t x y, se_traction u t x y = Ok [0; 0]) (d : side) (FS : fixed_side (se_fix u) d).
Let g := s_grid sm.
Let HR : reachable u sm := undisturbed_reachable u sm H.
Let HL : p_regularization (se_params u) = None -> midpoint_rule lg := fun _ => LG.
Definition unmoved (st : Simulation.step) : Prop := forall v x, point_at g v x -> y_at (st_y_data st) v 0 0 = Some (fst x) /\ y_at (st_y_data st) v 1 0 = Some (snd x).
Lemma st_grid : exists a b, 0 < p_scale (se_params u) /\ (1 <= a)%nat /\ (1 <= b)%nat /\ fits (se_width u) (p_scale (se_params u)) a /\ fits (se_height u) (p_scale (se_params u)) b /\
  domain_grid (se_order u) (se_width u) (se_height u) (se_fix u) (p_scale (se_params u)) = Ok g /\ mesh g (p_scale (se_params u)) a b.
Proof.
  destruct (C57_grid_of_the_domain u sm HR) as (EG & _ & _ & _). destruct (undisturbed_chain u sm H) as (g0 & rg0 & ps0 & G & _). pose proof (params_ok u (gr_valid _ _ _ _ G)) as (_ & _ & _ & P4 & _).
  destruct (fits_exists (se_width u) (p_scale (se_params u)) ltac:(lra) P4) as [a Fa]. destruct (fits_exists (se_height u) (p_scale (se_params u)) ltac:(lra) P4) as [b Fb]. pose proof (fits_one _ _ _ P4 Hw1 Fa) as A1. pose proof (fits_one _ _ _ P4 Hh1 Fb) as B1.
  exists a, b. split; [exact P4|]. split; [exact A1|]. split; [exact B1|]. split; [exact Fa|]. split; [exact Fb|]. split; [exact EG|]. exact (proj1 (C27_rectangle_grid_is_mesh _ _ _ _ _ _ _ _ P4 Fa Fb EG A1 B1)).
Qed.
Lemma st_plain : s_refined sm = None.
Proof. destruct (C57_grid_of_the_domain u sm HR) as (_ & _ & ER & _). exact (proj2 ER Preg). Qed.
Lemma unmoved_affine y1 y2 st : length y1 = num_vertices g -> length y2 = num_vertices g -> y_array g None y1 y2 = st_y_data st -> unmoved st -> affine_field g None 1 0 0 y1 /\ affine_field g None 0 1 0 y2.
Proof.
  intros L1 L2 E U. destruct st_grid as (a & b & _ & _ & _ & _ & _ & _ & M). pose proof (eq_sym (mesh_length _ _ _ _ M)) as LP.
  assert (HV : forall v x, point_at g v x -> (v < num_vertices g)%nat) by (intros v x P; unfold num_vertices; rewrite <- LP; apply nth_error_Some; unfold point_at in P; rewrite P; discriminate).
  split; (split; [cbn [dofs]; rewrite Nat.mul_1_r; assumption|]); intros v x P j Hj; cbn [dofs] in Hj |- *; assert (j = 0%nat) as -> by lia; destruct (U v x P) as [U1 U2]; rewrite <- E in U1, U2; pose proof (HV v x P) as Hv.
  - rewrite (y_at_array g None y1 y2 v 0 0) in U1 by (cbn [dofs]; lia). cbn [Nat.eqb dofs] in U1. rewrite U1. cbn [nth_error]. apply f_equal. ring.
  - rewrite (y_at_array g None y1 y2 v 1 0) in U2 by (cbn [dofs]; lia). cbn [Nat.eqb dofs] in U2. rewrite U2. cbn [nth_error]. apply f_equal. ring.
Qed.
Lemma affine_unmoved y1 y2 st : y_array g None y1 y2 = st_y_data st -> affine_field g None 1 0 0 y1 -> affine_field g None 0 1 0 y2 -> unmoved st.
Proof.
  intros E A1 A2 v x P. destruct st_grid as (a & b & _ & _ & _ & _ & _ & _ & M). pose proof (eq_sym (mesh_length _ _ _ _ M)) as LP.
  assert (Hv : (v < num_vertices g)%nat) by (unfold num_vertices; rewrite <- LP; apply nth_error_Some; unfold point_at in P; rewrite P; discriminate). assert (L1 : length y1 = (num_vertices g * dofs None)%nat) by exact (proj1 A1). assert (L2 : length y2 = (num_vertices g * dofs None)%nat) by exact (proj1 A2). rewrite <- E.
  rewrite (y_at_array g None y1 y2 v 0 0), (y_at_array g None y1 y2 v 1 0) by (first [assumption|cbn [dofs]; lia]). cbn [Nat.eqb].
  pose proof (proj2 A1 v x P 0%nat ltac:(cbn; lia)) as E1. pose proof (proj2 A2 v x P 0%nat ltac:(cbn; lia)) as E2. rewrite E1, E2. cbn [nth_error]. split; apply f_equal; ring.
Qed.
(** One step of the deformation. *)
Lemma step_unmoved i a b : nth_error (s_steps sm) i = Some a -> nth_error (s_steps sm) (S i) = Some b -> unmoved a -> (forall z, In z (nd_data (st_theta_data a)) -> warm z) -> unmoved b.
Proof.
  intros Ha Hb Ua WT. destruct st_grid as (mc & nc & P4 & Hm & Hn & Fw & Fh & EG & M). pose proof st_plain as Hr. destruct (exact_steps u lg HL EX FE Hw1 Hh1 sm HR) as [AA AC].
  destruct (sim_mechanical u lg HL FE Hw1 Hh1 sm i a b AA AC H Ha Hb) as (m & mc' & nc' & J0 & MP & MY & PG & MS & ML & L1 & L2 & MF & MO).
  pose proof (proj1 MS) as Len. destruct (mp_grid _ _ _ _ _ MP) as [Gm Rm]. rewrite Hr in Rm. destruct (mp_constants _ _ _ _ _ MP) as (_ & Fm & _). destruct (proj2 MS Rm) as [K1 K2].
  fold g in Gm. destruct Len as [Lp1 Lp2 Ly1 Ly2 Lth]. rewrite Gm, Rm in Lp1, Lp2, Ly1, Ly2, Lth. cbn [dofs] in Lp1, Lp2, Ly1, Ly2. rewrite Nat.mul_1_r in Lp1, Lp2, Ly1, Ly2.
  assert (YA : y_array g None (ms_prev_y1 m) (ms_prev_y2 m) = st_y_data a) by (rewrite <- (mp_prev_y _ _ _ _ _ MP); unfold mech_prev_y; rewrite Gm, Rm; reflexivity).
  destruct (unmoved_affine _ _ _ Lp1 Lp2 YA Ua) as [A1 A2].
  assert (WM : forall x, In x (ms_prev_theta m) -> warm x) by (intros x Ix; apply WT; rewrite <- (mp_prev_theta _ _ _ _ _ MP); exact Ix).
  assert (UL : unloaded m).
  { intros _ v t Hv. pose proof (proj1 (C18_neumann_vertices_exact_partial _ _ _ _ _ _ _ _ P4 Fw Fh EG)) as ND. rewrite Gm in K1, K2.
    assert (Iv : In v (b_vertices (g_neumann g))) by (destruct Hv as [Hv|Hv]; [rewrite <- K1|rewrite <- K2]; apply in_map_iff; exists (v, t); auto).
    destruct (mp_traction _ _ _ _ _ MP Hr v Iv) as (x & y & l & g1 & g2 & _ & El & E1 & E2 & D1 & D2). rewrite UT in El. injection El as <-. cbn [nth_error] in E1, E2. injection E1 as <-. injection E2 as <-.
    destruct Hv as [Hv|Hv]; [rewrite (dget_of_in _ v t ltac:(rewrite K1; exact ND) Hv) in D1; congruence|rewrite (dget_of_in _ v t ltac:(rewrite K2; exact ND) Hv) in D2; congruence]. }
  destruct (solution_exists lg m _ _ _ _ _ J0 PG MS ML MF MO) as (z1 & z2 & MM). destruct EX as (_ & _ & EM & _). pose proof (EM (2 * i)%nat _ _ _ MM) as MM'. cbv zeta in MM'.
  rewrite <- Gm in EG, A1, A2. destruct (held_still lg m (se_order u) (se_width u) (se_height u) (se_fix u) (p_scale (se_params u)) mc nc P4 Hm Hn Fw Fh EG Rm MS LG WM UL ltac:(rewrite Fm; lra) MF A1 A2 L1 L2 d FS) with (2 := MM') as [Y1 Y2].
  { intros v x Iv Hx. apply (mp_fixed _ _ _ _ _ MP v x Hx). exists v. rewrite Gm in Iv. split; [exact Iv|]. rewrite Hr. cbn [dofs]. lia. }
  rewrite Gm in A1, A2. apply (affine_unmoved (ms_prev_y1 m) (ms_prev_y2 m)); [|exact A1|exact A2]. rewrite MY, <- Y1, <- Y2. set (m' := fst (mech_solve (sv_mech (se_solver u) (2 * i) m) m)) in *.
  assert (Q : y_array (ms_grid m) (ms_refined m) (map v_val (ms_y1 m')) (map v_val (ms_y2 m')) = mech_y m') by reflexivity. rewrite Gm, Rm in Q. exact Q.
Qed.
(** One step of the temperature. *)
Lemma step_isothermal T0 i a b : 0 <= T0 -> (forall t, 0 <= t -> se_external u t = Ok T0) -> nth_error (s_steps sm) i = Some a -> nth_error (s_steps sm) (S i) = Some b -> unmoved a -> unmoved b ->
  (forall z, In z (nd_data (st_theta_data a)) -> z = T0) -> forall z, In z (nd_data (st_theta_data b)) -> z = T0.
Proof.
  intros HT XT Ha Hb Ua Ub CT. destruct st_grid as (mc & nc & P4 & Hm & Hn & Fw & Fh & EG & M). pose proof st_plain as Hr. destruct (exact_steps u lg HL EX FE Hw1 Hh1 sm HR) as [AA _].
  destruct (sim_thermal_from u lg HL FE Hw1 Hh1 FP sm i a b AA H Ha Hb) as (t & mc' & nc' & q & TP & TB & TPr & TQ & OK & NN & NF).
  pose proof (sized_len t (proj1 TPr)) as TL. destruct (tp_grid _ _ _ _ _ _ TP) as [Gm Rm]. rewrite Hr in Rm. destruct (tp_external _ _ _ _ _ _ TP Hr) as [Em _].
  assert (ET : ts_ext t = T0). { rewrite XT in Em; [congruence|]. apply Rmult_le_pos; [apply pos_INR|left; apply Rinv_0_lt_compat, FP]. }
  destruct (proj1 TPr) as (Z1 & Z2 & Z3 & Z4 & Z5 & Z6). rewrite Rm in Z1, Z2, Z3, Z4. cbn [dofs] in Z1, Z2, Z3, Z4. rewrite Nat.mul_1_r in Z1, Z2, Z3, Z4. fold g in Gm. rewrite Gm in Z1, Z2, Z3, Z4.
  assert (YA : y_array g None (ts_prev_y1 t) (ts_prev_y2 t) = st_y_data a) by (rewrite <- (tp_prev_y _ _ _ _ _ _ TP); unfold therm_prev_y; rewrite Gm, Rm; reflexivity).
  assert (VA : y_array g None (ts_y1 t) (ts_y2 t) = st_y_data b) by (rewrite <- (tp_y _ _ _ _ _ _ TP); unfold therm_y; rewrite Gm, Rm; reflexivity).
  destruct (unmoved_affine _ _ _ Z1 Z2 YA Ua) as [A1 A2]. destruct (unmoved_affine _ _ _ Z3 Z4 VA Ub) as [B1 B2].
  pose proof (identity_unique _ _ _ _ _ _ _ _ _ M A1 B1) as Y1. pose proof (identity_unique _ _ _ _ _ _ _ _ _ M A2 B2) as Y2.
  assert (C : constant T0 (ts_prev_theta t)) by (intros z Iz; apply CT; rewrite <- (tp_prev_theta _ _ _ _ _ _ TP); exact Iz).
  assert (MM : moderate_martensite t q (2 * exp 1)).
  { intros tr p Ht Hp. destruct C83_example as (K1 & K2 & K3). exists id2, 0, (1/16). split; [|auto].
    pose proof (problem_good _ _ _ _ _ (proj1 (proj2 TPr))) as GG. pose proof (proj1 (rule_of t q TQ)) as GQ. destruct (field _ _ _ _ _ GG tr p Ht (proj2 (proj2 GQ) p Hp)) as (X & Y & FU).
    rewrite <- Gm, <- Rm in B1, B2. rewrite (field_strain _ _ tr p X Y _ _ FU (proj1 B1) (proj1 B2)). rewrite (strain_affine _ _ tr p X Y id2 0 0 _ _ FU B1 B2). reflexivity. }
  destruct (C84_equilibrium_partial lg t _ _ _ q T0 TPr TQ OK MM Y1 Y2 HT C (fun _ => ET)) as (J & EJ & MIN).
  assert (F : feasible t (ts_prev_theta t)).
  { assert (LL : length (ts_prev_theta t) = length (ts_theta t)) by (rewrite (tl_pt _ TL), (tl_th _ TL); reflexivity). split; [exact LL|]. split; [exact NN|].
    assert (RP : 0 < p_search_radius (se_params u)). { destruct (undisturbed_chain u sm H) as (g0 & rg & ps & G & _). apply (params_ok u (gr_valid _ _ _ _ G)). }
    intros j x v X V. destruct (tp_box _ _ _ _ _ _ TP x v) as [-> ->]; [|lra]. clear - X V. revert j X V. generalize (ts_prev_theta t) as vs, (ts_theta t) as xs. intros vs xs. revert vs. induction xs as [|z xs IH]; intros [|w vs] [|j] X V; try discriminate; cbn in *; [left; congruence|right; exact (IH vs j X V)]. }
  assert (MI : minimizes lg t (ts_prev_theta t)).
  { split; [exact F|]. exists J. split; [exact EJ|]. intros th' J' FE' EJ'. apply (MIN th' J'); [exact (feasible_len lg t _ _ _ TPr th' FE')|exact (proj1 (proj2 FE'))|exact EJ']. }
  destruct EX as (_ & _ & _ & ET'). pose proof (ET' (2 * i + 1)%nat t _ NF MI) as MN. cbv zeta in MN. pose proof (C85_unique_partial lg t _ _ _ q _ _ TPr TQ MM MN MI) as EQ.
  intros z Iz. apply C. rewrite <- EQ. rewrite TB in Iz. exact Iz.
Qed.
(** The construction. *)
Lemma first_unmoved a : nth_error (s_steps sm) 0 = Some a -> unmoved a /\ forall z, In z (nd_data (st_theta_data a)) -> z = p_initial_temperature (se_params u).
Proof.
  intros Ha. destruct (reachable_hist u sm HR) as (g0 & rg & ps & G & HI). destruct (hist_grid _ _ _ _ _ HI) as (Eg & Er & _). destruct (hi_first _ _ _ _ _ HI) as (st & rest & Es & HO & _). rewrite Es in Ha. injection Ha as <-. pose proof st_plain as Hr. rewrite Hr in Er. subst rg.
  destruct (reference_affine u g0 None ps G) as [A1 A2]. fold g in Eg. rewrite <- Eg in *. split.
  - apply (affine_unmoved (iref1 None ps) (iref2 None ps)); [symmetry; exact (ho_y _ _ _ _ _ _ HO)|exact A1|exact A2].
  - intros z Iz. rewrite (ho_th _ _ _ _ _ _ HO) in Iz. cbn [theta_array nd_data] in Iz. unfold itheta in Iz. apply in_map_iff in Iz as (v & <- & _). reflexivity.
Qed.
End St.
(** Without regularization and traction a body with a fixed side stays undeformed as long as it is warm: the deformation of
    every step whose predecessors all are at or above the transition temperature is the identity. *)
Theorem C121_stays : forall u lg sm n a, undisturbed u sm -> exact lg (se_solver u) -> midpoint_rule lg -> LiveSpec.fine_enough u -> p_regularization (se_params u) = None ->
  p_scale (se_params u) <= se_width u -> p_scale (se_params u) <= se_height u -> 0 < p_fps (se_params u) -> (forall t x y, se_traction u t x y = Ok [0; 0]) -> (exists d, fixed_side (se_fix u) d) ->
  (forall i b z, (i < n)%nat -> nth_error (s_steps sm) i = Some b -> In z (nd_data (st_theta_data b)) -> warm z) -> nth_error (s_steps sm) n = Some a ->
  forall v x, point_at (s_grid sm) v x -> y_at (st_y_data a) v 0 0 = Some (fst x) /\ y_at (st_y_data a) v 1 0 = Some (snd x).
Proof.
  intros u lg sm n a H EX LG FE Pr Hw Hh FP UT [d FS]. revert a. induction n as [|n IH]; intros a WT Ha; [exact (proj1 (first_unmoved u sm H Pr Hw Hh a Ha))|].
  destruct (nth_error (s_steps sm) n) as [a0|] eqn:E0; [|apply nth_error_None in E0; assert (S n < length (s_steps sm))%nat by (apply nth_error_Some; congruence); lia].
  apply (step_unmoved u lg sm H EX LG FE Pr Hw Hh FP UT d FS n a0 a E0 Ha); [exact (IH a0 (fun i b z Hi => WT i b z (Nat.lt_lt_succ_r _ _ Hi)) eq_refl)|intros z Iz; exact (WT n a0 z ltac:(lia) E0 Iz)].
Qed.
Print Assumptions C121_stays.
(** If moreover the initial and the external temperature are the same, nothing ever happens. *)
Theorem C121_simulation : forall u lg sm T0, undisturbed u sm -> exact lg (se_solver u) -> midpoint_rule lg -> LiveSpec.fine_enough u -> p_regularization (se_params u) = None ->
  p_scale (se_params u) <= se_width u -> p_scale (se_params u) <= se_height u -> 0 < p_fps (se_params u) -> (forall t x y, se_traction u t x y = Ok [0; 0]) -> (exists d, fixed_side (se_fix u) d) ->
  warm T0 -> p_initial_temperature (se_params u) = T0 -> (forall t, 0 <= t -> se_external u t = Ok T0) ->
  forall a, In a (s_steps sm) -> undisturbed_step (s_grid sm) T0 a.
Proof.
  intros u lg sm T0 H EX LG FE Pr Hw Hh FP UT [d FS] WT IT XT a Ia. apply In_nth_error in Ia as [n Hn].
  assert (T1 : 0 <= T0). { unfold warm in WT. assert (0 < ln (3 / 2)) by (rewrite <- ln_1; apply ln_increasing; lra). lra. }
  revert a Hn. induction n as [|n IH]; intros a Hn.
  - destruct (first_unmoved u sm H Pr Hw Hh a Hn) as [A B]. split; [exact A|]. intros z Iz. rewrite <- IT. exact (B z Iz).
  - destruct (nth_error (s_steps sm) n) as [a0|] eqn:E0; [|apply nth_error_None in E0; assert (S n < length (s_steps sm))%nat by (apply nth_error_Some; congruence); lia].
    destruct (IH a0 eq_refl) as [A B]. assert (Q : unmoved sm a).
    { apply (step_unmoved u lg sm H EX LG FE Pr Hw Hh FP UT d FS n a0 a E0 Hn A). intros z Iz. rewrite (B z Iz). exact WT. }
    split; [exact Q|]. exact (step_isothermal u lg sm H EX LG FE Pr Hw Hh FP T0 n a0 a T1 XT E0 Hn A Q B).
Qed.
Print Assumptions C121_simulation.
