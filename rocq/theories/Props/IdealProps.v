(** * Simulations with an exact solver (C96). *)
From Coq Require Import Reals Lra Lia List ZArith String ClassicalEpsilon.
From Verif.Spec Require Import GridSpec QuadSpec BellSpec InterpSpec RefineSpec PotentialSpec.
From Verif.Model Require Import Py Num Tensors Domain Refine Quadrature Integrators Expr Bell Interp Helpers Steps Simulation.
From Verif.Spec Require Import SimSpec LiveSpec StepSpec EnergySpec MotionSpec TractionSpec ThermSpec MechSpec IdealSpec.
From Verif.Proofs Require Import Lib GridP StdOrder InterpP PotP HatP QuadP IntegP StepP StepU StepE StepF StepG StepH SimP SimQ SimR SimH SimC SimL SimA SimE SimF StepC StepD ThermV ThermP MechV MechP.
From Verif.Props Require Import GridProps QuadProps IntegProps InterpProps RefineProps MeshIntegProps PotentialProps SimProps UpdateProps EnergyProps EnergyExamples AffineProps TractionProps ThermProps ExistProps MechExistProps.
Local Open Scope string_scope.
Local Open Scope R_scope.
Local Notation length := List.length.
Import ListNotations.

(** ** An exact solver *)
Lemma Forall2_len {A B} (P : A -> B -> Prop) xs ys : Forall2 P xs ys -> length xs = length ys.
Proof. induction 1; cbn; congruence. Qed.
Lemma load_admits xs z : Forall2 admits xs z -> map v_val (load (fun i => nth i z 0) xs) = z.
Proof.
  intros F. apply nth_error_ext.
  - rewrite map_length, load_length. exact (Forall2_len _ _ _ F).
  - intros i Hi. rewrite map_length, load_length in Hi. destruct (nth_error xs i) as [x|] eqn:X; [|apply nth_error_None in X; lia]. rewrite nth_error_map, (load_nth _ _ _ _ X). cbn [option_map].
    assert (Hz : (i < length z)%nat) by (rewrite <- (Forall2_len _ _ _ F); exact Hi). rewrite (nth_error_nth' z 0 Hz). f_equal.
    assert (A : admits x (nth i z 0)). { clear Hi Hz. revert i X. induction F as [|x' v xs z A F IH]; intros [|i] X; try discriminate; cbn in *; [injection X as ->; exact A|exact (IH i X)]. }
    unfold admits in A. destruct (v_fixed x); [symmetry; exact A|reflexivity].
Qed.
Lemma load_free xs z : (forall x, In x xs -> v_fixed x = false) -> length z = length xs -> map v_val (load (fun i => nth i z 0) xs) = z.
Proof.
  intros F L. apply nth_error_ext.
  - rewrite map_length, load_length. symmetry. exact L.
  - intros i Hi. rewrite map_length, load_length in Hi. destruct (nth_error xs i) as [x|] eqn:X; [|apply nth_error_None in X; lia]. rewrite nth_error_map, (load_nth _ _ _ _ X). cbn [option_map].
    rewrite (F x (nth_error_In _ _ X)). rewrite (nth_error_nth' z 0) by lia. reflexivity.
Qed.
Definition ideal_mech (lg : Z -> res (list R * list R)) (m : mech) : mech_answer :=
  match excluded_middle_informative (exists z, mech_minimizes lg m (fst z) (snd z)) with
  | left E => let z := proj1_sig (constructive_indefinite_description _ E) in mkMA (fun i => nth i (fst z) 0) (fun i => nth i (snd z) 0) None
  | right _ => no_move m
  end.
Definition ideal_therm (lg : Z -> res (list R * list R)) (t : therm) : therm_answer :=
  match excluded_middle_informative (exists z, minimizes lg t z) with
  | left E => let z := proj1_sig (constructive_indefinite_description _ E) in mkTA (fun i => nth i z 0) None
  | right _ => mkTA (fun _ => 0) None
  end.
Definition ideal (lg : Z -> res (list R * list R)) : solver := mkSolver (fun _ => ideal_mech lg) (fun _ => ideal_therm lg).
Lemma ideal_exact lg : exact lg (ideal lg).
Proof.
  split; [|split; [|split]].
  - split; intros k m; cbn [ideal sv_mech sv_therm]; [unfold ideal_mech|unfold ideal_therm]; destruct (excluded_middle_informative _); reflexivity.
  - intros k t RO i Hi. cbn [ideal sv_therm]. unfold ideal_therm. destruct (excluded_middle_informative _) as [E|NE]; [|apply Rle_refl]. destruct (constructive_indefinite_description _ E) as [z Mz]. cbn [proj1_sig ta_theta]. destruct Mz as ((L & NN & _) & _). apply NN, nth_In. lia.
  - intros k m z1 z2 Hz. cbn [ideal sv_mech]. unfold ideal_mech. destruct (excluded_middle_informative _) as [E|N]; [|exfalso; apply N; exists (z1, z2); exact Hz].
    destruct (constructive_indefinite_description _ E) as [z Mz]. cbn [proj1_sig mech_solve fst ms_y1 ms_y2 ma_y1 ma_y2]. destruct (proj1 Mz) as (F1 & F2 & _). rewrite (load_admits _ _ F1), (load_admits _ _ F2). exact Mz.
  - intros k t z NF Hz. cbn [ideal sv_therm]. unfold ideal_therm. destruct (excluded_middle_informative _) as [E|N]; [|exfalso; apply N; exists z; exact Hz].
    destruct (constructive_indefinite_description _ E) as [z' Mz]. cbn [proj1_sig therm_solve fst ts_theta ta_theta]. rewrite (load_free _ _ NF (proj1 (proj1 Mz))). exact Mz.
Qed.
(** ** C96 *)
Theorem C96_exact_solver_exists : forall lg, exists sv, exact lg sv.
Proof. intros lg. exists (ideal lg). apply ideal_exact. Qed.
Print Assumptions C96_exact_solver_exists.

(** ** Simulations *)
Section Sim.
Context (u : setting) (lg : Z -> res (list R * list R)) (HL : p_regularization (se_params u) = None -> midpoint_rule lg) (EX : exact lg (se_solver u)).
Context (FE : fine_enough u) (Hw1 : p_scale (se_params u) <= se_width u) (Hh1 : p_scale (se_params u) <= se_height u).
Let good (g : grid R) (rg : option (refined_grid R)) (y1 y2 : list R) : Prop := admissible g rg y1 y2 /\ (rg <> None -> forall m, ms_grid m = g -> dirichlet_constraints_hold m y1 y2).
Lemma HL2 : p_regularization (se_params u) = None -> exists pts ws, lg 1%Z = Ok (pts, ws). Proof. intros P. exists [0], [2]. exact (HL P). Qed.
Lemma keep_good g rg ps m c a1 a2 th time : ground u g rg ps -> posed_m u g rg (ifx g rg) (iref1 rg ps) (iref2 rg ps) m a1 a2 th time -> good g rg a1 a2 -> good g rg (map v_val (ms_y1 (m_loaded u c m))) (map v_val (ms_y2 (m_loaded u c m))).
Proof.
  intros G PM [HA HC]. pose proof (pm_inv _ _ _ _ _ _ _ _ _ _ _ PM) as IM. assert (I2 : minv (se_params u) g rg (se_traction u) (ifx g rg) (iref1 rg ps) (iref2 rg ps) (m_loaded u c m)) by (apply m_solve_inv, IM).
  pose proof (mi_grid _ _ _ _ _ _ _ _ IM) as Em. pose proof (mi_ref _ _ _ _ _ _ _ _ IM) as Er. destruct (ground_problem u FE Hw1 Hh1 g rg ps G) as (mc & nc & PG).
  assert (LA : length a1 = (num_vertices g * dofs rg)%nat /\ length a2 = (num_vertices g * dofs rg)%nat) by (rewrite <- (pm_p1 _ _ _ _ _ _ _ _ _ _ _ PM), <- (pm_p2 _ _ _ _ _ _ _ _ _ _ _ PM); split; apply IM).
  destruct (proj2 (posed_objective u lg HL2 FE Hw1 Hh1 g rg ps m G IM a1 a2 (proj1 LA) (proj2 LA)) HA) as [J EJ]. destruct (params_ok u (gr_valid _ _ _ _ G)) as (_ & RP & _).
  assert (F : mech_feasible m a1 a2). { split; [apply (box_admits (p_search_radius (se_params u))); [lra|apply PM|apply PM|apply PM]|]. split; [apply (box_admits (p_search_radius (se_params u))); [lra|apply PM|apply PM|apply PM]|]. rewrite Er. intros NR. apply (HC NR). exact Em. }
  rewrite <- Em, <- Er in PG. destruct (solution_exists lg m _ mc nc a1 a2 J PG (posed_shape u g rg ps m IM)) as (z1 & z2 & MM); [|exact F|exact EJ|].
  { intros Z. apply HL. rewrite Er in Z. destruct (gr_ref _ _ _ _ G) as [[P _]|(e & k' & r & _ & _ & _ & P)]; [exact P|congruence]. }
  destruct EX as (_ & _ & EM & _). specialize (EM c m z1 z2 MM). cbv zeta in EM. change (fst (mech_solve (sv_mech (se_solver u) c m) m)) with (m_loaded u c m) in EM. destruct EM as ((_ & _ & FC) & J' & EJ' & _). split.
  - assert (LB : length (map v_val (ms_y1 (m_loaded u c m))) = (length (g_vertices g) * dofs rg)%nat /\ length (map v_val (ms_y2 (m_loaded u c m))) = (length (g_vertices g) * dofs rg)%nat) by (rewrite !map_length; split; apply I2).
    apply (proj1 (posed_objective u lg HL2 FE Hw1 Hh1 g rg ps m G IM _ _ (proj1 LB) (proj2 LB))). exists J'. exact EJ'.
  - intros NR m' Em'. apply (constraints_grid m); [congruence|]. apply FC. rewrite Er. exact NR.
Qed.
Lemma init_good g rg ps : ground u g rg ps -> good g rg (iref1 rg ps) (iref2 rg ps).
Proof.
  intros G. split; [exact (reference_admissible u FE Hw1 Hh1 g rg ps G)|]. intros NR m Em. destruct rg as [r|]; [|congruence]. subst g. apply reference_feasible; [exact (gr_points _ _ _ _ G)|exact (gr_len _ _ _ _ G)|].
  pose proof (gr_valid _ _ _ _ G) as V. pose proof (params_ok u V) as (_ & _ & _ & PS & _). destruct V as [Hw [Hh _]].
  destruct (fits_exists _ _ Hw PS) as [mc Hmc]. destruct (fits_exists _ _ Hh PS) as [nc Hnc]. exact (rect_good_edges _ _ _ _ _ _ _ _ PS Hmc Hnc (fits_one _ _ _ PS Hw1 Hmc) (fits_one _ _ _ PS Hh1 Hnc) (gr_grid _ _ _ _ G)).
Qed.
Lemma exact_steps s : reachable u s -> all_admissible u s /\ all_constrained u s.
Proof.
  intros H. destruct (reachable_y u good init_good keep_good s H) as (g & rg & ps & G & [HH NOW ST]). split; exists g, rg, ps; (split; [exact G|split; [exact HH|]]); intros st Hst; destruct (ST st Hst) as (a1 & a2 & th & HO & L1 & L2 & A & C); exists a1, a2, th; auto.
Qed.
End Sim.
(** In every simulation with an exact solver each recorded step consists of a solution of the mechanical problem posed by the
    previous step and a solution of the thermal problem posed by both. *)
Theorem C96_simulation : forall u lg s k a b, undisturbed u s -> exact lg (se_solver u) -> (p_regularization (se_params u) = None -> midpoint_rule lg) -> fine_enough u ->
  p_scale (se_params u) <= se_width u -> p_scale (se_params u) <= se_height u -> 0 < p_fps (se_params u) -> nth_error (s_steps s) k = Some a -> nth_error (s_steps s) (S k) = Some b ->
  (exists m, let m' := fst (mech_solve (sv_mech (se_solver u) (2 * k) m) m) in
     mech_problem_from u s a (INR k / p_fps (se_params u)) m /\ mech_feasible m (ms_prev_y1 m) (ms_prev_y2 m) /\ mech_y m' = st_y_data b /\ mech_minimizes lg m (map v_val (ms_y1 m')) (map v_val (ms_y2 m'))) /\
  (exists t, let t' := fst (therm_solve (sv_therm (se_solver u) (2 * k + 1) t) t) in
     therm_problem_from u s a (st_y_data b) (INR k / p_fps (se_params u)) t /\ feasible t (ts_prev_theta t) /\ therm_theta t' = st_theta_data b /\ minimizes lg t (map v_val (ts_theta t'))).
Proof.
  intros u lg s k a b H EX HL FE Hw Hh FP Ha Hb. destruct (exact_steps u lg HL EX FE Hw Hh s (undisturbed_reachable u s H)) as [AA AC]. split.
  - destruct (sim_mechanical u lg HL FE Hw Hh s k a b AA AC H Ha Hb) as (m & mc & nc & J & MP & MY & PG & MS & ML & _ & _ & MF & MO). exists m. cbv zeta. split; [exact MP|]. split; [exact MF|]. split; [symmetry; exact MY|].
    destruct (solution_exists lg m _ _ _ _ _ J PG MS ML MF MO) as (z1 & z2 & MM). destruct EX as (_ & _ & EM & _). exact (EM _ m z1 z2 MM).
  - destruct (sim_thermal_from u lg HL FE Hw Hh FP s k a b AA H Ha Hb) as (t & mc & nc & q & A & B & C & D & E & NN & NF). exists t. cbv zeta. split; [exact A|].
    assert (F : feasible t (ts_prev_theta t)).
    { pose proof (sized_len t (proj1 C)) as TL. assert (LL : length (ts_prev_theta t) = length (ts_theta t)) by (rewrite (tl_pt _ TL), (tl_th _ TL); reflexivity). split; [exact LL|]. split; [exact NN|].
      assert (RP : 0 < p_search_radius (se_params u)). { destruct (undisturbed_chain u s H) as (g & rg & ps & G & _). apply (params_ok u (gr_valid _ _ _ _ G)). }
      intros i x v X V. destruct (tp_box _ _ _ _ _ _ A x v) as [-> ->]; [|lra]. clear - X V. revert i X V. generalize (ts_prev_theta t) as vs, (ts_theta t) as xs. intros vs xs. revert vs. induction xs as [|z xs IH]; intros [|w vs] [|i] X V; try discriminate; cbn in *; [left; congruence|right; exact (IH vs i X V)]. }
    split; [exact F|]. split; [symmetry; exact B|]. destruct (C88_solution_exists lg t _ mc nc q C D E (ex_intro _ _ F)) as [z Mz]. destruct EX as (_ & _ & _ & ET). exact (ET _ t z NF Mz).
Qed.
Print Assumptions C96_simulation.
(** Such simulations never raise: construction and all runs succeed. *)
Theorem C96_never_raises : forall u lg, valid_setting u -> exact lg (se_solver u) -> 0 < p_fps (se_params u) -> fine_enough u -> (forall t, 0 <= t -> forcing_fine u t) ->
  exists s, construct u = Ok s /\ forall n, (1 <= n)%Z -> exists s', run (se_solver u) n s = (s', Ok tt).
Proof.
  intros u lg V (NR & RD & _) FP FE FF. destruct (construct_live u V FP FE (FF 0 (Rle_refl 0)) NR) as [s C]. exists s. split; [exact C|]. intros n Hn. exact (run_live u s n (u_construct u s V C) FP FF NR RD Hn).
Qed.
Print Assumptions C96_never_raises.

(** ** Examples *)
(** The unit square fixed at its left side, with a solver that is exact. *)
Definition ex_ideal (reg : option R) : setting :=
  {| se_order := std_order; se_solver := ideal lg0; se_width := 1; se_height := 1; se_fix := FixOne "left"; se_params := ex_params reg;
     se_external := fun t => Ok (1 + t); se_traction := fun t x y => Ok [t; x * y] |}.
Example C96_example : forall reg, reg = None \/ reg = Some 1 -> let u := ex_ideal reg in exists s,
  valid_setting u /\ undisturbed u s /\ (s_refined s = None <-> reg = None) /\ exact lg0 (se_solver u) /\ midpoint_rule lg0 /\ fine_enough u /\ p_scale (se_params u) <= se_width u /\ p_scale (se_params u) <= se_height u /\ 0 < p_fps (se_params u) /\
  (forall t, 0 <= t -> forcing_fine u t) /\ length (s_steps s) = 5%nat.
Proof.
  intros reg Hr u. assert (Hr' : forall e, reg = Some e -> 0 <= e) by (intros e E; destruct Hr as [-> | ->]; [discriminate|injection E as <-; lra]).
  assert (V : valid_setting u) by exact (ex_valid reg [] Hr'). assert (FF : forall t, 0 <= t -> forcing_fine u t) by exact (ex_forcing reg []). assert (PF : 0 < p_fps (se_params u)) by exact (ex_fps reg []). assert (FE : fine_enough u) by exact (ex_fine reg []).
  destruct (ideal_exact lg0) as (NR & RD & _). destruct (construct_live u V PF FE (FF 0 (Rle_refl 0)) NR) as [s0 C]. assert (U0 : undisturbed u s0) by (apply u_construct; assumption).
  destruct (run_live u s0 3 U0 PF FF NR RD ltac:(lia)) as [s E]. pose proof (u_run u 3 s0 s U0 E) as U. exists s. split; [exact V|]. split; [exact U|].
  split; [apply (C57_grid_of_the_domain u s (undisturbed_reachable u s U))|]. split; [exact (ideal_exact lg0)|]. split; [reflexivity|]. split; [exact FE|]. cbn [u ex_ideal se_params ex_params p_scale se_width se_height]. split; [lra|]. split; [lra|]. split; [exact PF|]. split; [exact FF|].
  destruct (C65_run_adds_steps u s0 3 s (undisturbed_reachable u s0 U0) E) as [_ [new [En Ln]]]. rewrite En, app_length, (C65_construction u s0 V C). lia.
Qed.
(** A mechanical problem with an admissible deformation, the identity: the body is pulled with traction (1, 2), search radius 1. *)
Example C94_example : forall reg, reg = None \/ reg = Some 1 -> exists m y1 y2 J, problem_grids (ms_grid m) (ms_refined m) (1/2) 2 2 /\ mech_history m /\ (ms_refined m = None <-> reg = None) /\ midpoint_rule lg0 /\
  affine_field (ms_grid m) (ms_refined m) 1 0 0 y1 /\ affine_field (ms_grid m) (ms_refined m) 0 1 0 y2 /\ mech_feasible m y1 y2 /\ mech_objective lg0 m y1 y2 = Ok J.
Proof.
  intros reg Hr. assert (Hr' : forall e, reg = Some e -> 0 <= e) by (intros e E; destruct Hr as [-> | ->]; [discriminate|injection E as <-; lra]).
  destruct (free_state reg Hr') as (s & U & _ & _ & Er). destruct (undisturbed_chain _ s U) as (g & rg & ps & G & CH). destruct (hist_grid _ _ _ _ _ (ch_hist _ _ _ _ _ CH)) as (_ & Er' & _). rewrite Er' in Er. clear CH Er' U s.
  pose proof (free_grids reg g rg ps G) as PG. pose proof (gr_points _ _ _ _ G) as GP. pose proof (gr_len _ _ _ _ G) as GL. assert (LP : length (g_points g) = length (g_vertices g)) by (rewrite GP, map_length; exact GL).
  destruct (fresh_step reg g rg ps G Er) as (m & NM & Em & Rm & P1 & P2 & PT & (fx1 & V1) & (fx2 & V2)). destruct (reference_affine (ex_free reg) g rg ps G) as [A1 A2]. assert (HM : mech_history m) by exact (mh_new _ _ _ _ _ _ _ _ LP NM).
  pose proof (reference_admissible (ex_free reg) (free_fine reg) ltac:(cbn; lra) ltac:(cbn; lra) g rg ps G) as AD. destruct (iref_length rg ps) as [L1 L2]. rewrite GL in L1, L2.
  assert (EJ : exists J, mech_objective lg0 m (iref1 rg ps) (iref2 rg ps) = Ok J).
  { pose proof PG as (Hs & _ & _ & (so & w & h & f & Fw & Fh & DG) & RR). destruct rg as [r|].
    - destruct RR as (N & N1 & HN & RF). destruct dun5_good as (q & Eq & _). rewrite <- Em in DG, RF.
      apply (C77_objective_defined_regularized so w h f (1/2) 2 2 N lg0 q m r _ _ Hs Fw Fh ltac:(lia) ltac:(lia) N1 HN HM DG RF Rm Eq); [rewrite Em; exact L1|rewrite Em; exact L2|]. rewrite Em. exact (AD q Eq).
    - rewrite <- Em in DG. cbn [dofs] in L1, L2. rewrite Nat.mul_1_r in L1, L2. apply (C77_objective_defined so w h f (1/2) 2 2 lg0 [0] [2] m _ _ Hs Fw Fh ltac:(lia) ltac:(lia) HM Rm DG eq_refl); [rewrite Em; exact L1|rewrite Em; exact L2|]. rewrite Em. exact AD. }
  destruct EJ as [J EJ]. exists m, (iref1 rg ps), (iref2 rg ps), J. rewrite Em, Rm. split; [exact PG|]. split; [exact HM|]. split; [exact Er|]. split; [reflexivity|]. split; [exact A1|]. split; [exact A2|]. split; [|exact EJ].
  destruct (ivars_maps 1 fx1 (iref1 rg ps)) as (B1 & B2 & B3 & _). destruct (ivars_maps 1 fx2 (iref2 rg ps)) as (C1 & C2 & C3 & _). rewrite <- V1 in B1, B2, B3. rewrite <- V2 in C1, C2, C3.
  split; [apply (box_admits 1); [lra|assumption..]|]. split; [apply (box_admits 1); [lra|assumption..]|]. rewrite Rm. intros NR.
  destruct (init_good (ex_free reg) (free_fine reg) ltac:(cbn; lra) ltac:(cbn; lra) g rg ps G) as [_ Q]. exact (Q NR m Em).
Qed.
