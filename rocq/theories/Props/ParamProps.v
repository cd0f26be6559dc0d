(** * Properties of the parameters of a simulation and of step indices: C70, C71. *)
From Coq Require Import Reals Lra Lia List ZArith String.
From Verif.Spec Require Import GridSpec.
From Verif.Model Require Import Py Num Tensors Domain Refine Bell Interp Steps Simulation.
From Verif.Spec Require Import SimSpec LiveSpec.
From Verif.Proofs Require Import Lib GridP GridCover StdOrder StepP SimP SimQ SimR SimH SimL SimA SimE.
From Verif.Props Require Import GridProps SimProps.
Local Open Scope R_scope.
Import ListNotations.
Local Notation length := List.length.

(** ** C70 *)
(** What SimulationParams accepts.  The documented condition is [0 < p_fps p]; the code accepts [p_fps p = 0] too. *)
Definition acceptable (p : sim_params) : Prop :=
  0 <= p_initial_temperature p /\ 0 < p_search_radius p /\ 0 <= p_fps p /\ 0 < p_scale p /\
  (forall e, p_regularization p = Some e -> 0 <= e /\ p_refinement_factor p <> None) /\
  (forall k, p_refinement_factor p = Some k -> (0 < k)%Z).

Lemma params_cases p : acceptable p /\ SimulationParams_ p = Ok (match p_regularization p with Some _ => p | None => mkParams (p_initial_temperature p) (p_search_radius p) (p_fps p) (p_scale p) None None end) \/
  ~ acceptable p /\ SimulationParams_ p = Err ValueError.
Proof.
  unfold SimulationParams_, acceptable, Rleb0. destruct p as [T r f sc reg ref]. cbn [p_initial_temperature p_search_radius p_fps p_scale p_regularization p_refinement_factor].
  destruct (Rltb T 0) eqn:E1; [apply Rltb_true in E1; right; split; [intros (A & _); lra|reflexivity]|apply Rltb_false in E1].
  destruct (Rltb 0 r) eqn:E2; cbn [negb]; [apply Rltb_true in E2|apply Rltb_false in E2; right; split; [intros (_ & A & _); lra|reflexivity]].
  destruct (Rltb f 0) eqn:E3; [apply Rltb_true in E3; right; split; [intros (_ & _ & A & _); lra|reflexivity]|apply Rltb_false in E3].
  destruct (match reg with Some e => Rltb e 0 | None => false end) eqn:E4.
  { right. split; [|reflexivity]. destruct reg as [e|]; [|discriminate]. apply Rltb_true in E4. intros (_ & _ & _ & _ & A & _). destruct (A e eq_refl). lra. }
  destruct (Rltb 0 sc) eqn:E5; cbn [negb]; [apply Rltb_true in E5|apply Rltb_false in E5; right; split; [intros (_ & _ & _ & A & _); lra|reflexivity]].
  destruct ref as [k|].
  - destruct (k <=? 0)%Z eqn:E6.
    + right. split; [|reflexivity]. apply Z.leb_le in E6. intros (_ & _ & _ & _ & _ & A). specialize (A k eq_refl). lia.
    + left. apply Z.leb_gt in E6. split; [|destruct reg; reflexivity]. repeat split; try assumption.
      * subst reg. apply Rltb_false in E4. lra.
      * discriminate.
      * intros k' Q. injection Q as <-. exact E6.
  - destruct reg as [e|].
    + right. split; [|reflexivity]. intros (_ & _ & _ & _ & A & _). destruct (A e eq_refl) as [_ B]. congruence.
    + left. split; [|reflexivity]. repeat split; try assumption; discriminate.
Qed.
(** Accepted are exactly these parameters; everything else is a ValueError. *)
Theorem C70_accepted_partial : forall p, (exists q, SimulationParams_ p = Ok q) <-> acceptable p.
Proof. intros p. destruct (params_cases p) as [[A E]|[A E]]; rewrite E; split; try tauto; [eauto|intros [q Q]; discriminate]. Qed.
Print Assumptions C70_accepted_partial.
Theorem C70_rejected : forall p, ~ acceptable p -> SimulationParams_ p = Err ValueError.
Proof. intros p H. destruct (params_cases p) as [[A E]|[A E]]; tauto. Qed.
Print Assumptions C70_rejected.
(** The parameters are stored unchanged, except that the refinement factor is dropped without regularization. *)
Theorem C70_stored : forall p q, SimulationParams_ p = Ok q ->
  p_initial_temperature q = p_initial_temperature p /\ p_search_radius q = p_search_radius p /\ p_fps q = p_fps p /\ p_scale q = p_scale p /\ p_regularization q = p_regularization p /\
  (p_regularization p = None -> p_refinement_factor q = None) /\ (p_regularization p <> None -> p_refinement_factor q = p_refinement_factor p).
Proof.
  intros p q H. destruct (params_cases p) as [[A E]|[A E]]; rewrite E in H; [|discriminate]. injection H as <-. destruct p as [T r f sc reg ref]. cbn. destruct reg; cbn; repeat split; congruence.
Qed.
Print Assumptions C70_stored.
Example C70_example : acceptable (mkParams 0 (1/10) 10 (1/2) None (Some 3%Z)) /\ acceptable (mkParams 1 (1/10) 10 (1/2) (Some 0) (Some 3%Z)) /\
  ~ acceptable (mkParams 1 (1/10) 10 (1/2) (Some 0) None) /\ ~ acceptable (mkParams 1 0 10 (1/2) None None).
Proof.
  unfold acceptable; cbn. split; [|split; [|split]].
  - repeat split; try lra; try discriminate. intros k E. injection E as <-. lia.
  - repeat split; try lra; try discriminate. + injection H as <-. lra. + intros k E. injection E as <-. lia.
  - intros (_ & _ & _ & _ & A & _). destruct (A 0 eq_refl) as [_ B]. congruence.
  - intros (_ & A & _). lra.
Qed.

(** Refuted: frame rate 0 is accepted, but a simulation with these parameters cannot be constructed: whatever the
    solver does, and with a solver and forcings without fault the error is a ZeroDivisionError (simulation.py:262). *)
Theorem C70_fps_zero_refuted : forall u, valid_setting u -> p_fps (se_params u) = 0 -> forall s, construct u <> Ok s.
Proof.
  intros u V Z s C. destruct (construct_inv u s V C) as (g & rg & ps & Eg & RG & GP & LP & GV & ST & SI & _). pose proof (si_tau _ _ _ _ _ _ _ SI) as T. rewrite Z, ndiv_R0 in T. discriminate.
Qed.
Print Assumptions C70_fps_zero_refuted.
Theorem C70_fps_zero_division_refuted : forall u, valid_setting u -> p_fps (se_params u) = 0 -> fine_enough u -> forcing_fine u 0 -> never_raises (se_solver u) -> construct u = Err ZeroDivisionError.
Proof.
  intros u V FP FE [FT _] [N1 N2]. set (p := se_params u) in *. set (sv := se_solver u) in *. pose proof (params_ok u V) as (PT0 & PR & PF & PS & PREG). fold p in PT0, PR, PF, PS, PREG. pose proof V as [Hw [Hh _]].
  destruct (C11_grid_succeeds (se_order u) (se_width u) (se_height u) (se_fix u) (p_scale p) Hw Hh PS) as [mc [nc [g [Hmc [Hnc Eg]]]]].
  destruct (grid_bounds _ _ _ _ _ _ Hw Hh PS Eg) as (PL & NL & NP & NB & _). destruct (refine_live u V FE g Eg) as [rg [Erg ST]]. pose proof (sta_reg _ _ _ ST) as SR. fold p in SR, Erg.
  unfold construct, Simulation_. fold p sv. rewrite Eg. cbn [bind]. rewrite Erg. cbn [bind].
  destruct (mapM_total xy (g_points g)) as [ps Eps]. { intros q Hq. destruct (PL q Hq) as [x [y ->]]. exists (x, y). reflexivity. }
  assert (LT : Rltb (p_initial_temperature p) 0 = false) by (apply Rltb_false; lra).
  assert (M : exists m0, mechanical_step g (p_initial_temperature p) (p_search_radius p) (p_fps p) (p_regularization p) rg (se_traction u) = Ok m0).
  { destruct (p_regularization p) as [e|]; cbn [mechanical_step].
    - destruct SR as [r [pg [-> _]]]. unfold mech_init_reg. rewrite Eps. cbn [bind]. rewrite LT. eexists. reflexivity.
    - unfold mech_init_plain. rewrite Eps. cbn [bind]. rewrite LT. assert (T : exists g1 g2, init_traction g (se_traction u) = Ok (g1, g2)).
      { unfold init_traction. edestruct (mapM_total (fun v => let* p := py_nth (g_points g) v in let* '(x, y) := xy p in let* l := se_traction u 0 x y in let* a := py_index l 0 in let* b := py_index l 1 in Ok (v, (a, b))) (b_vertices (g_neumann g))) as [rows Er].
        - intros v Hv. pose proof (NB v Hv) as L. apply nth_error_Some in L. destruct (nth_error (g_points g) v) as [q|] eqn:Eq; [|congruence]. destruct (PL q (nth_error_In _ _ Eq)) as [x [y ->]]. destruct (FT x y) as [a [b Eab]].
          exists (v, (a, b)). unfold py_nth. rewrite Eq. cbn [bind]. change (xy [x; y]) with (Ok (x, y)). cbn [bind]. rewrite Eab. reflexivity.
        - rewrite Er. cbn [bind]. eexists _, _. reflexivity. }
      destruct T as [g1 [g2 ->]]. cbn [bind]. eexists. reflexivity. }
  destruct M as [m0 ->]. cbn [bind]. unfold mech_solved, mech_solve. rewrite N1. cbn [bind]. rewrite FP, ndiv_R0. reflexivity.
Qed.
Print Assumptions C70_fps_zero_division_refuted.
Definition still_setting : setting :=
  {| se_order := std_order; se_solver := push []; se_width := 1; se_height := 1; se_fix := FixOne "left"; se_params := mkParams 1 (1/10) 0 (1/2) None None;
     se_external := fun t => Ok (1 + t); se_traction := fun t x y => Ok [t; x * y] |}.
Example C70_example_refuted : valid_setting still_setting /\ SimulationParams_ (se_params still_setting) = Ok (se_params still_setting) /\ construct still_setting = Err ZeroDivisionError.
Proof.
  assert (P : SimulationParams_ (se_params still_setting) = Ok (se_params still_setting)).
  { destruct (params_cases (se_params still_setting)) as [[A E]|[A E]]; [exact E|]. exfalso. apply A. unfold acceptable. cbn. repeat split; try lra; discriminate. }
  assert (V : valid_setting still_setting) by (unfold valid_setting; cbn [still_setting se_width se_height]; split; [lra|]; split; [lra|]; eauto).
  split; [exact V|]. split; [exact P|]. apply C70_fps_zero_division_refuted; [exact V|reflexivity|exact I| |exact push_quiet].
  split; cbn; [eauto|]. exists (1 + 0). split; [reflexivity|lra].
Qed.

(** ** C71 *)
(** plot_step i shows step i for 0 <= i < n, step n + i for -n <= i < 0, nothing otherwise, and never raises;
    save_step writes the same step under its non-negative index. *)
Theorem C71_plot_step : forall s i, let n := Z.of_nat (length (s_steps s)) in
  (forall st, plot_step s i = Ok (Some st) <-> exists k, nth_error (s_steps s) k = Some st /\ (i = Z.of_nat k \/ (i < 0)%Z /\ i = (Z.of_nat k - n)%Z)) /\
  (plot_step s i = Ok None <-> ~ (- n <= i < n)%Z) /\ (exists r, plot_step s i = Ok r).
Proof.
  intros s i n. unfold plot_step. fold n. assert (N0 : (0 <= n)%Z) by lia.
  destruct ((i <? - n)%Z || (n <=? i)%Z) eqn:B.
  - assert (O : (i < - n \/ n <= i)%Z) by (apply Bool.orb_true_iff in B as [B|B]; [apply Z.ltb_lt in B|apply Z.leb_le in B]; lia).
    split; [|split; [split; [intros _; lia|reflexivity]|eauto]]. intros st. split; [discriminate|]. intros (k & Hk & H). exfalso. assert (k < length (s_steps s))%nat by (apply nth_error_Some; congruence). unfold n in O, H. lia.
  - apply Bool.orb_false_iff in B as [B1 B2]. apply Z.ltb_ge in B1. apply Z.leb_gt in B2.
    assert (X : exists k st, nth_error (s_steps s) k = Some st /\ py_index (s_steps s) i = Ok st /\ (i = Z.of_nat k \/ (i < 0)%Z /\ i = (Z.of_nat k - n)%Z)).
    { unfold py_index. fold n. set (j := if (i <? 0)%Z then (n + i)%Z else i). assert (J : (0 <= j < n)%Z /\ (j = i \/ (i < 0)%Z /\ j = (n + i)%Z)) by (unfold j; destruct (i <? 0)%Z eqn:Q; [apply Z.ltb_lt in Q|apply Z.ltb_ge in Q]; lia).
      rewrite (proj2 (Z.ltb_ge j 0)) by lia. destruct (nth_error (s_steps s) (Z.to_nat j)) as [st|] eqn:E; [|apply nth_error_None in E; unfold n in J; lia]. exists (Z.to_nat j), st. split; [exact E|]. split; [reflexivity|]. lia. }
    destruct X as (k & st & Hk & -> & HI). cbn [bind]. split; [|split; [split; [discriminate|intros A; lia]|eauto]]. intros st'. split.
    + intros Q. injection Q as <-. eauto.
    + intros (k' & Hk' & HI'). assert (k < length (s_steps s))%nat by (apply nth_error_Some; congruence). assert (k' < length (s_steps s))%nat by (apply nth_error_Some; congruence). assert (k = k') as <- by (unfold n in *; lia). congruence.
Qed.
Print Assumptions C71_plot_step.
Theorem C71_save_step : forall s i st j, save_step s i = Ok (Some (st, j)) <->
  plot_step s i = Ok (Some st) /\ exists k, j = Z.of_nat k /\ nth_error (s_steps s) k = Some st /\ (i = j \/ (i < 0)%Z /\ i = (j - Z.of_nat (length (s_steps s)))%Z).
Proof.
  intros s i st j. destruct (C71_plot_step s i) as (P & _ & [r E]). unfold save_step. rewrite E. cbn [bind]. destruct r as [st0|]; [|split; [discriminate|intros [Q _]; discriminate]].
  destruct (proj1 (P st0) E) as (k & Hk & HI). assert (L : (k < length (s_steps s))%nat) by (apply nth_error_Some; congruence). split.
  - intros Q. injection Q as <- <-. split; [exact eq_refl|]. exists k. split; [destruct (0 <=? i)%Z eqn:B; [apply Z.leb_le in B|apply Z.leb_gt in B]; lia|]. split; [exact Hk|]. destruct (0 <=? i)%Z eqn:B; [apply Z.leb_le in B|apply Z.leb_gt in B]; lia.
  - intros [Q (k' & -> & Hk' & HI')]. injection Q as <-. assert (L' : (k' < length (s_steps s))%nat) by (apply nth_error_Some; congruence). do 3 f_equal. destruct (0 <=? i)%Z eqn:B; [apply Z.leb_le in B|apply Z.leb_gt in B]; lia.
Qed.
Print Assumptions C71_save_step.
(** Nothing is saved iff nothing is plotted. *)
Theorem C71_save_nothing : forall s i, save_step s i = Ok None <-> ~ (- Z.of_nat (length (s_steps s)) <= i < Z.of_nat (length (s_steps s)))%Z.
Proof.
  intros s i. destruct (C71_plot_step s i) as (_ & N & [r E]). rewrite <- N. unfold save_step. rewrite E. cbn [bind]. destruct r; split; try discriminate; reflexivity.
Qed.
Print Assumptions C71_save_nothing.
Example C71_example : let u := ex_setting None [] in exists s st, reachable u s /\ length (s_steps s) = 5%nat /\ nth_error (s_steps s) 3 = Some st /\ save_step s (-2) = Ok (Some (st, 3%Z)) /\ plot_step s 3 = Ok (Some st) /\ plot_step s 5 = Ok None.
Proof.
  intros u. destruct (ex_state None ltac:(discriminate)) as (s & U & L & Eg & Er & Q). destruct (Q 3%nat ltac:(lia)) as [st Hs]. exists s, st. split; [exact (undisturbed_reachable u s U)|]. split; [exact L|]. split; [exact Hs|].
  destruct (C71_plot_step s (-2)) as (P & _ & _). destruct (C71_plot_step s 3) as (P3 & _ & _). destruct (C71_plot_step s 5) as (_ & N & _). rewrite L in *.
  split; [|split; [|apply N; lia]].
  - apply C71_save_step. rewrite L. split; [apply P; exists 3%nat; split; [exact Hs|right; lia]|]. exists 3%nat. split; [reflexivity|]. split; [exact Hs|right; lia].
  - apply P3. exists 3%nat. split; [exact Hs|left; reflexivity].
Qed.
