(** * Regularized simulations above the transition temperature keep strains and temperature (C122). *)
From Coq Require Import Reals Lra Lia List ZArith Psatz.
From Coquelicot Require Import Coquelicot.
From Verif.Spec Require Import GridSpec QuadSpec BellSpec InterpSpec RefineSpec PotentialSpec.
From Verif.Model Require Import Py Num Tensors Domain Refine Quadrature Integrators Expr Bell Interp Helpers Steps Simulation.
From Verif.Spec Require Import SimSpec LiveSpec StepSpec EnergySpec MotionSpec TractionSpec ThermSpec MechSpec MomentumSpec IdealSpec RestSpec WarmSpec CalmRSpec.
From Verif.Proofs Require Import Lib GridP GridCover InterpP PotP HatP QuadP IntegP StepP StepU StepE StepF StepG StepH SimP SimQ SimR SimH SimL SimA StepC ThermV ThermP LipMin LipMore MechV MechP MechL MechD.
From Verif.Props Require Import GridProps QuadProps IntegProps InterpProps RefineProps MeshIntegProps PotentialProps SimProps EnergyProps EnergyExamples AffineProps TractionProps ThermProps HeatProps ExistProps MechExistProps IdealProps MomentumProps Near1Props RestProps WarmProps FlatProps.
Local Open Scope R_scope.
Import ListNotations.
Local Notation length := List.length.

(** The saved array determines the parameters. *)
Lemma array_unpack g r y1 y2 z1 z2 : length y1 = (num_vertices g * 6)%nat -> length y2 = (num_vertices g * 6)%nat -> length z1 = (num_vertices g * 6)%nat -> length z2 = (num_vertices g * 6)%nat ->
  y_array g (Some r) y1 y2 = y_array g (Some r) z1 z2 -> y1 = z1 /\ y2 = z2.
Proof.
  intros Y1 Y2 Z1 Z2 E. assert (K : forall c v j, (c < 2)%nat -> (v < num_vertices g)%nat -> (j < 6)%nat -> nth_error (if Nat.eqb c 0 then y1 else y2) (v * 6 + j) = nth_error (if Nat.eqb c 0 then z1 else z2) (v * 6 + j)).
  { intros c v j Hc Hv Hj. pose proof (y_at_array g (Some r) y1 y2 v c j Y1 Y2 Hv Hc Hj) as A. pose proof (y_at_array g (Some r) z1 z2 v c j Z1 Z2 Hv Hc Hj) as B. rewrite E in A. cbn [dofs] in A, B. congruence. }
  split; apply nth_error_ext; try congruence; intros i Hi; rewrite ?Y1, ?Y2 in Hi; pose proof (Nat.div_mod i 6 ltac:(lia)) as D; pose proof (Nat.mod_upper_bound i 6 ltac:(lia)) as U; assert (V : (i / 6 < num_vertices g)%nat) by (apply Nat.div_lt_upper_bound; lia).
  - pose proof (K 0%nat (i / 6)%nat (i mod 6)%nat ltac:(lia) V U) as Q. cbn [Nat.eqb] in Q. replace (i / 6 * 6 + i mod 6)%nat with i in Q by lia. exact Q.
  - pose proof (K 1%nat (i / 6)%nat (i mod 6)%nat ltac:(lia) V U) as Q. cbn [Nat.eqb] in Q. replace (i / 6 * 6 + i mod 6)%nat with i in Q by lia. exact Q.
Qed.
Section St.
Context (u : setting) (lg : Z -> res (list R * list R)) (sm : sim) (r : refined_grid R) (H : undisturbed u sm) (EX : exact lg (se_solver u)) (FE : LiveSpec.fine_enough u) (Hr : s_refined sm = Some r).
Context (Hw1 : p_scale (se_params u) <= se_width u) (Hh1 : p_scale (se_params u) <= se_height u) (FP : 0 < p_fps (se_params u)).
Let g := s_grid sm.
Let HR : reachable u sm := undisturbed_reachable u sm H.
Lemma regularized : exists e, p_regularization (se_params u) = Some e.
Proof. destruct (C57_grid_of_the_domain u sm HR) as (_ & _ & ER & _). destruct (p_regularization (se_params u)) as [e|]; [eauto|]. rewrite (proj2 ER eq_refl) in Hr. discriminate. Qed.
Let HL : p_regularization (se_params u) = None -> midpoint_rule lg.
Proof. destruct regularized as [e E]. intros N. congruence. Qed.
Definition still (st : Simulation.step) : Prop :=
  exists y1 y2, length y1 = (num_vertices g * 6)%nat /\ length y2 = (num_vertices g * 6)%nat /\ y_array g (Some r) y1 y2 = st_y_data st /\ strains_are g r (fun _ _ => id2) y1 y2 /\ flat g r y1 y2.
(** One step of the deformation. *)
Lemma step_still i a b : (forall e, p_regularization (se_params u) = Some e -> 0 < e) -> nth_error (s_steps sm) i = Some a -> nth_error (s_steps sm) (S i) = Some b -> still a -> (forall z, In z (nd_data (st_theta_data a)) -> warm z) -> still b.
Proof.
  intros RP Ha Hb (y1 & y2 & K1 & K2 & YA & SF & FL) WT. destruct (exact_steps u lg HL EX FE Hw1 Hh1 sm HR) as [AA AC].
  destruct (sim_mechanical u lg HL FE Hw1 Hh1 sm i a b AA AC H Ha Hb) as (m & mc' & nc' & J0 & MP & MY & PG & MS & ML & L1 & L2 & MF & MO).
  destruct (mp_grid _ _ _ _ _ MP) as [Gm Rm]. rewrite Hr in Rm. destruct (mp_constants _ _ _ _ _ MP) as (_ & Fm & Em). fold g in Gm.
  destruct (proj1 MS) as [P1 P2 Y1 Y2 _]. rewrite Gm, Rm in P1, P2, Y1, Y2. cbn [dofs] in P1, P2, Y1, Y2.
  assert (PA : y_array g (Some r) (ms_prev_y1 m) (ms_prev_y2 m) = st_y_data a) by (rewrite <- (mp_prev_y _ _ _ _ _ MP); unfold mech_prev_y; rewrite Gm, Rm; reflexivity).
  destruct (array_unpack g r _ _ _ _ P1 P2 K1 K2 (eq_trans PA (eq_sym YA))) as [E1 E2].
  assert (WM : forall x, In x (ms_prev_theta m) -> warm x) by (intros x Ix; apply WT; rewrite <- (mp_prev_theta _ _ _ _ _ MP); exact Ix).
  assert (RM : 0 < ms_reg m) by (destruct regularized as [e E]; rewrite (Em e E); exact (RP e E)). rewrite <- Gm, <- E1, <- E2 in SF, FL.
  destruct (mechanical_still lg m r _ _ _ (fun _ _ => id2) PG MS Rm WM ltac:(rewrite Fm; exact FP) RM MF (fun _ _ => rotation_id) SF FL) as [MM UN].
  destruct EX as (_ & _ & EM & _). pose proof (EM (2 * i)%nat _ _ _ MM) as MM'. cbv zeta in MM'. set (m' := fst (mech_solve (sv_mech (se_solver u) (2 * i) m) m)) in *.
  destruct (UN _ _ MM') as [SF' FL']. destruct MM' as [(F1 & F2 & _) _]. pose proof (Forall2_len _ _ _ F1) as Q1. pose proof (Forall2_len _ _ _ F2) as Q2. rewrite Y1 in Q1. rewrite Y2 in Q2.
  exists (map v_val (ms_y1 m')), (map v_val (ms_y2 m')). rewrite Gm in SF', FL'. split; [exact (eq_sym Q1)|]. split; [exact (eq_sym Q2)|]. split; [|split; assumption].
  rewrite MY. assert (Q : y_array (ms_grid m) (ms_refined m) (map v_val (ms_y1 m')) (map v_val (ms_y2 m')) = mech_y m') by reflexivity. rewrite Gm, Rm in Q. exact Q.
Qed.
(** One step of the temperature. *)
Lemma step_keeps_heat T0 i a b : 0 <= T0 -> nth_error (s_steps sm) i = Some a -> nth_error (s_steps sm) (S i) = Some b -> still a -> still b ->
  (forall z, In z (nd_data (st_theta_data a)) -> z = T0) -> forall z, In z (nd_data (st_theta_data b)) -> z = T0.
Proof.
  intros HT Ha Hb (y1 & y2 & K1 & K2 & YA & SA & _) (z1 & z2 & J1 & J2 & YB & SB & _) CT. destruct (exact_steps u lg HL EX FE Hw1 Hh1 sm HR) as [AA _].
  destruct (sim_thermal_from u lg HL FE Hw1 Hh1 FP sm i a b AA H Ha Hb) as (t & mc' & nc' & q & TP & TB & TPr & TQ & OK & NN & NF).
  pose proof (sized_len t (proj1 TPr)) as TL. destruct (tp_grid _ _ _ _ _ _ TP) as [Gm Rm]. rewrite Hr in Rm. fold g in Gm.
  destruct (proj1 TPr) as (Z1 & Z2 & Z3 & Z4 & Z5 & Z6). pose proof (problem_good _ _ _ _ _ (proj1 (proj2 TPr))) as GG. pose proof (proj1 (rule_of t q TQ)) as GQ.
  assert (PA : y_array g (Some r) (ts_prev_y1 t) (ts_prev_y2 t) = st_y_data a) by (rewrite <- (tp_prev_y _ _ _ _ _ _ TP); unfold therm_prev_y; rewrite Gm, Rm; reflexivity).
  assert (PB : y_array g (Some r) (ts_y1 t) (ts_y2 t) = st_y_data b) by (rewrite <- (tp_y _ _ _ _ _ _ TP); unfold therm_y; rewrite Gm, Rm; reflexivity).
  assert (D5 : DUNAVANT5 = Ok q) by (unfold therm_rule in TQ; rewrite Rm in TQ; exact TQ).
  pose proof Z1 as W1. pose proof Z2 as W2. pose proof Z3 as W3. pose proof Z4 as W4. rewrite Gm, Rm in W1, W2, W3, W4. cbn [dofs] in W1, W2, W3, W4.
  destruct (array_unpack g r _ _ _ _ W1 W2 K1 K2 (eq_trans PA (eq_sym YA))) as [E1 E2]. destruct (array_unpack g r _ _ _ _ W3 W4 J1 J2 (eq_trans PB (eq_sym YB))) as [E3 E4].
  rewrite <- E1, <- E2, <- Gm in SA. rewrite <- E3, <- E4, <- Gm in SB.
  assert (IA : forall tr p, In tr (g_triangles (theta_grid (ts_grid t) (ts_refined t))) -> In p (q_points q) -> sat t (ts_prev_y1 t) (ts_prev_y2 t) tr p = id2 /\ sat t (ts_y1 t) (ts_y2 t) tr p = id2).
  { intros tr p Ht Hp. pose proof (sat_ok t _ _ _ GG q GQ _ _ tr p Z1 Z2 Ht Hp) as A. pose proof (sat_ok t _ _ _ GG q GQ _ _ tr p Z3 Z4 Ht Hp) as B. assert (Ht' : In tr (g_triangles (r_grid r))) by (rewrite Rm in Ht; exact Ht).
    rewrite Rm in A, B at 1 2. pose proof (SA q tr p D5 Ht' Hp) as A'. pose proof (SB q tr p D5 Ht' Hp) as B'. split; apply mat_inj; congruence. }
  assert (C : constant T0 (ts_prev_theta t)) by (intros z Iz; apply CT; rewrite <- (tp_prev_theta _ _ _ _ _ _ TP); exact Iz).
  assert (MM : moderate_martensite t q (2 * exp 1)).
  { intros tr p Ht Hp. destruct C83_example as (M1 & M2 & M3). exists id2, 0, (1/16). split; [|auto]. rewrite (sat_ok t _ _ _ GG q GQ _ _ tr p Z3 Z4 Ht Hp), (proj2 (IA tr p Ht Hp)). reflexivity. }
  destruct (const_min lg t _ _ _ TPr q TQ OK MM T0 (ts_prev_theta t) HT (tl_pt _ TL) C ltac:(intros N; congruence)) as (J & EJ & MIN).
  { intros tr p Ht Hp. destruct (IA tr p Ht Hp) as [-> ->]. destruct (vat_const t _ _ _ GG q GQ (ts_prev_theta t) T0 tr p Ht (tl_pt _ TL) C Hp) as [-> _]. rewrite source_rest. ring. }
  assert (F : feasible t (ts_prev_theta t)).
  { assert (LL : length (ts_prev_theta t) = length (ts_theta t)) by (rewrite (tl_pt _ TL), (tl_th _ TL); reflexivity). split; [exact LL|]. split; [exact NN|].
    assert (RP : 0 < p_search_radius (se_params u)). { destruct (undisturbed_chain u sm H) as (g0 & rg & ps & G & _). apply (params_ok u (gr_valid _ _ _ _ G)). }
    intros j x v X V. destruct (tp_box _ _ _ _ _ _ TP x v) as [-> ->]; [|lra]. clear - X V. revert j X V. generalize (ts_prev_theta t) as vs, (ts_theta t) as xs. intros vs xs. revert vs. induction xs as [|z xs IH]; intros [|w vs] [|j] X V; try discriminate; cbn in *; [left; congruence|right; exact (IH vs j X V)]. }
  assert (MI : minimizes lg t (ts_prev_theta t)).
  { split; [exact F|]. exists J. split; [exact EJ|]. intros th' J' FE' EJ'. apply (MIN th' J'); [exact (feasible_len lg t _ _ _ TPr th' FE')|exact (proj1 (proj2 FE'))|exact EJ']. }
  destruct EX as (_ & _ & _ & ET'). pose proof (ET' (2 * i + 1)%nat t _ NF MI) as MN. cbv zeta in MN. pose proof (C85_unique_partial lg t _ _ _ q _ _ TPr TQ MM MN MI) as EQ.
  intros z Iz. apply C. rewrite <- EQ. rewrite TB in Iz. exact Iz.
Qed.
(** The construction. *)
Lemma first_still a : nth_error (s_steps sm) 0 = Some a -> still a /\ forall z, In z (nd_data (st_theta_data a)) -> z = p_initial_temperature (se_params u).
Proof.
  intros Ha. destruct (reachable_hist u sm HR) as (g0 & rg & ps & G & HI). destruct (hist_grid _ _ _ _ _ HI) as (Eg & Er & _). destruct (hi_first _ _ _ _ _ HI) as (st & rest & Es & HO & _). rewrite Es in Ha. injection Ha as <-. rewrite Hr in Er. subst rg. fold g in Eg.
  destruct (reference_affine u g0 (Some r) ps G) as [A1 A2]. rewrite <- Eg in *. pose proof (proj1 A1) as L1. pose proof (proj1 A2) as L2. split.
  - exists (iref1 (Some r) ps), (iref2 (Some r) ps). split; [exact L1|]. split; [exact L2|]. split; [exact (eq_sym (ho_y _ _ _ _ _ _ HO))|].
    destruct (ground_grids u FE Hw1 Hh1 g (Some r) ps G) as (mc & nc & GG & _).
    destruct dun5_good as (q0 & E0 & G0). split; intros q t p Eq Ht Hp; assert (q = q0) as -> by congruence; pose proof (proj2 (proj2 G0) p Hp) as SP.
    + destruct (field _ _ _ _ _ GG t p Ht SP) as (X & Y & FU). rewrite (field_strain _ _ t p X Y _ _ FU L1 L2), (strain_affine _ _ t p X Y id2 0 0 _ _ FU A1 A2). reflexivity.
    + destruct (reg_functionals g r _ mc nc t p GG Ht SP) as (X & Y & XX & XY & YY & _ & F2). unfold deform_hyper_strain. rewrite (fu_hess _ _ _ _ _ _ _ F2 _ L1), (fu_hess _ _ _ _ _ _ _ F2 _ L2). cbn [bind]. rewrite stack_value. eexists. split; [reflexivity|]. cbn [t_data].
      rewrite (fu_affxx _ _ _ _ _ _ _ F2 _ _ _ _ A1), (fu_affxy _ _ _ _ _ _ _ F2 _ _ _ _ A1), (fu_affyy _ _ _ _ _ _ _ F2 _ _ _ _ A1), (fu_affxx _ _ _ _ _ _ _ F2 _ _ _ _ A2), (fu_affxy _ _ _ _ _ _ _ F2 _ _ _ _ A2), (fu_affyy _ _ _ _ _ _ _ F2 _ _ _ _ A2).
      intros A row z HA HW HZ. cbn [In] in HA. destruct HA as [<-|[<-|[]]]; cbn [In] in HW; destruct HW as [<-|[<-|[]]]; cbn [In] in HZ; destruct HZ as [<-|[<-|[]]]; reflexivity.
  - intros z Iz. rewrite (ho_th _ _ _ _ _ _ HO) in Iz. cbn [theta_array nd_data] in Iz. unfold itheta in Iz. apply in_map_iff in Iz as (v & <- & _). reflexivity.
Qed.
End St.
(** With regularization a body that starts at a temperature at or above the transition temperature keeps, whatever the traction,
    the external temperature and the fixed sides, its strains, its vanishing second derivatives and its temperature. *)
Theorem C122_simulation : forall u lg sm r T0, undisturbed u sm -> exact lg (se_solver u) -> LiveSpec.fine_enough u -> s_refined sm = Some r -> (forall e, p_regularization (se_params u) = Some e -> 0 < e) ->
  p_scale (se_params u) <= se_width u -> p_scale (se_params u) <= se_height u -> 0 < p_fps (se_params u) -> warm T0 -> p_initial_temperature (se_params u) = T0 ->
  forall a, In a (s_steps sm) -> frozen_step (s_grid sm) r (fun _ _ => id2) T0 a.
Proof.
  intros u lg sm r T0 H EX FE Hr RP Hw Hh FP WT IT a Ia. apply In_nth_error in Ia as [n Hn].
  assert (T1 : 0 <= T0). { unfold warm in WT. assert (0 < ln (3 / 2)) by (rewrite <- ln_1; apply ln_increasing; lra). lra. }
  revert a Hn. induction n as [|n IH]; intros a Hn.
  - destruct (first_still u sm r H FE Hr Hw Hh a Hn) as [A B]. split; [exact A|]. intros z Iz. rewrite <- IT. exact (B z Iz).
  - destruct (nth_error (s_steps sm) n) as [a0|] eqn:E0; [|apply nth_error_None in E0; assert (S n < length (s_steps sm))%nat by (apply nth_error_Some; congruence); lia].
    destruct (IH a0 eq_refl) as [A B]. assert (Q : still sm r a).
    { apply (step_still u lg sm r H EX FE Hr Hw Hh FP n a0 a RP E0 Hn A). intros z Iz. rewrite (B z Iz). exact WT. }
    split; [exact Q|]. exact (step_keeps_heat u lg sm r H EX FE Hr Hw Hh FP T0 n a0 a T1 E0 Hn A Q B).
Qed.
Print Assumptions C122_simulation.
