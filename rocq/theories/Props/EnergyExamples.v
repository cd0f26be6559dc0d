(** * Concrete instances for C60, C77, C80, C81: a descending solver. *)
From Coq Require Import Reals Lra Lia List ZArith String.
From Verif.Spec Require Import GridSpec QuadSpec InterpSpec RefineSpec PotentialSpec.
From Verif.Model Require Import Py Num Tensors Domain Refine Quadrature Integrators Bell Interp Helpers Steps Simulation.
From Verif.Spec Require Import SimSpec LiveSpec StepSpec EnergySpec MotionSpec TractionSpec.
From Verif.Proofs Require Import Lib GridP StdOrder InterpP PotP StepP SimP SimQ SimR SimH SimL SimA SimE SimF StepD StepU StepE StepF StepG SimC.
From Verif.Props Require Import GridProps RefineProps InterpProps QuadProps IntegProps SimProps UpdateProps EnergyProps TractionProps AffineProps.
Local Open Scope R_scope.
Import ListNotations.
Local Notation length := List.length.

(** A solver that tries to move the body by the search radius in both directions, and stays put unless the objective is defined
    there and not larger. Temperatures rise by the search radius. *)
Definition lg0 (_ : Z) : res (list R * list R) := Ok ([0], [2]).
Definition stay (xs : list pvar) (i : nat) : R := match nth_error xs i with Some x => v_val x | None => 0 end.
Definition lift (m : mech) (xs : list pvar) (i : nat) : R := match nth_error xs i with Some x => if Nat.eqb (i mod dofs (ms_refined m)) 0 then v_ub x else v_val x | None => 0 end.
Definition trial (m : mech) : mech_answer := mkMA (lift m (ms_y1 m)) (lift m (ms_y2 m)) None.
Definition no_move (m : mech) : mech_answer := mkMA (stay (ms_y1 m)) (stay (ms_y2 m)) None.
Definition objective_now (m0 m : mech) : res R := mech_objective lg0 m0 (map v_val (ms_y1 m)) (map v_val (ms_y2 m)).
Definition greedy_answer (m : mech) : mech_answer :=
  match objective_now m m, objective_now m (fst (mech_solve (trial m) m)) with
  | Ok J, Ok J' => if Rle_dec J' J then trial m else no_move m
  | _, _ => no_move m
  end.
Definition greedy : solver := mkSolver (fun _ m => greedy_answer m) (fun _ t => mkTA (upper (ts_theta t)) None).
Lemma load_stay xs : map v_val (load (stay xs) xs) = map v_val xs.
Proof.
  apply nth_error_ext; [rewrite !map_length, load_length; reflexivity|]. intros i _. rewrite !nth_error_map. destruct (nth_error xs i) as [x|] eqn:E.
  - rewrite (load_nth _ _ _ _ E). cbn. f_equal. destruct (v_fixed x); [reflexivity|]. cbn. unfold stay. rewrite E. reflexivity.
  - apply nth_error_None in E. rewrite (proj2 (nth_error_None _ _)); [reflexivity|]. rewrite load_length. exact E.
Qed.
Lemma greedy_cautious : cautious lg0 greedy.
Proof.
  intros k m J m' EJ. unfold m'. cbn [greedy sv_mech].
  assert (NM : exists J', mech_objective lg0 m (map v_val (ms_y1 (fst (mech_solve (no_move m) m)))) (map v_val (ms_y2 (fst (mech_solve (no_move m) m)))) = Ok J' /\ J' <= J).
  { exists J. cbn [mech_solve fst ms_y1 ms_y2 no_move ma_y1 ma_y2]. rewrite !load_stay. split; [exact EJ|lra]. }
  unfold greedy_answer, objective_now. rewrite EJ. destruct (mech_objective lg0 m (map v_val (ms_y1 (fst (mech_solve (trial m) m)))) _) as [J'|e] eqn:E; [|exact NM]. destruct (Rle_dec J' J) as [L|L]; [|exact NM]. exists J'. split; [exact E|exact L].
Qed.
Lemma cautious_descends lg sv : cautious lg sv -> descends lg sv.
Proof. intros C k m J J' m' E E'. destruct (C k m J E) as (J2 & E2 & L). fold m' in E2. rewrite E' in E2. injection E2 as <-. exact L. Qed.

(** The unit square without fixed sides, pushed to the right and upwards. *)
Definition ex_free (reg : option R) : setting :=
  {| se_order := std_order; se_solver := greedy; se_width := 1; se_height := 1; se_fix := FixNone; se_params := ex_params reg;
     se_external := fun t => Ok (1 + t); se_traction := fun t x y => Ok [1; 2] |}.
Definition val_mask (N K : nat) : list bool := map (fun i => negb (Nat.eqb (i mod K) 0)) (range (N * K)).
Lemma mask_length N K : length (val_mask N K) = (N * K)%nat. Proof. unfold val_mask. rewrite map_length. apply range_length. Qed.
Lemma mask_nth N K i : (i < N * K)%nat -> nth_error (val_mask N K) i = Some (negb (Nat.eqb (i mod K) 0)).
Proof. intros H. unfold val_mask. rewrite nth_error_map. unfold range. rewrite (nth_error_nth' _ 0%nat) by (rewrite seq_length; exact H). rewrite seq_nth by exact H. reflexivity. Qed.
Lemma load_lift m N r xs vs : map v_val xs = vs -> map v_ub xs = map (fun v => v + r) vs -> (forall x, In x xs -> v_fixed x = false) -> length vs = (N * dofs (ms_refined m))%nat ->
  map v_val (load (lift m xs) xs) = shift r (val_mask N (dofs (ms_refined m))) vs.
Proof.
  intros V U NF L. assert (LX : length xs = (N * dofs (ms_refined m))%nat) by (rewrite <- L, <- V, map_length; reflexivity). apply nth_error_ext.
  - rewrite shift_length, map_length, load_length; [congruence|rewrite mask_length; congruence].
  - intros i Hi. rewrite map_length, load_length in Hi. rewrite shift_nth, mask_nth by lia. subst vs. rewrite !nth_error_map. destruct (nth_error xs i) as [x|] eqn:E; [|apply nth_error_None in E; lia].
    rewrite (load_nth _ _ _ _ E). cbn [option_map]. rewrite (NF x (nth_error_In _ _ E)). cbn [v_val]. unfold lift. rewrite E. pose proof (f_equal (fun l => nth_error l i) U) as Ui. cbv beta in Ui. rewrite !nth_error_map, E in Ui. injection Ui as Ui. destruct (Nat.eqb (i mod dofs (ms_refined m)) 0); cbn [negb]; [rewrite Ui; reflexivity|reflexivity].
Qed.
Lemma shift_moved rg N d y1 y2 : length y1 = (N * dofs rg)%nat -> length y2 = (N * dofs rg)%nat -> moved rg 1 0 d d y1 y2 (shift d (val_mask N (dofs rg)) y1) (shift d (val_mask N (dofs rg)) y2).
Proof.
  intros L1 L2. split; [apply shift_length; rewrite mask_length; congruence|]. split; [apply shift_length; rewrite mask_length; congruence|].
  intros v j a b Hj A B. assert (I : (v * dofs rg + j < N * dofs rg)%nat) by (rewrite <- L1; apply nth_error_Some; congruence).
  rewrite !shift_nth, !(mask_nth _ _ _ I), A, B. rewrite Nat.add_comm, Nat.mod_add, Nat.mod_small by (destruct rg; cbn in *; lia). destruct (Nat.eqb j 0); cbn [negb]; split; f_equal; ring.
Qed.
Lemma moved_self rg y1 y2 : moved rg 1 0 0 0 y1 y2 y1 y2.
Proof. split; [reflexivity|]. split; [reflexivity|]. intros v j a b _ A B. rewrite A, B. split; f_equal; destruct (Nat.eqb j 0); ring. Qed.

Section Free.
Context (reg : option R) (Hreg : forall e, reg = Some e -> 0 <= e).
Let u := ex_free reg.
Lemma free_valid : valid_setting u.
Proof. exact (ex_valid reg [] Hreg). Qed.
Lemma free_fine : fine_enough u. Proof. exact (ex_fine reg []). Qed.
Lemma free_forcing t : 0 <= t -> forcing_fine u t.
Proof. intros H. split; cbn; [eauto|]. exists (1 + t). split; [reflexivity|lra]. Qed.
Lemma greedy_quiet : never_raises greedy.
Proof. split; [|reflexivity]. intros k m. cbn. unfold greedy_answer. destruct (objective_now m m); [|reflexivity]. destruct (objective_now m _); [|reflexivity]. destruct (Rle_dec _ _); reflexivity. Qed.
Lemma greedy_domain : respects_domain greedy. Proof. exact (push_domain []). Qed.
Lemma free_grids g rg ps : ground u g rg ps -> problem_grids g rg (1/2) 2 2.
Proof.
  intros G. split; [lra|]. split; [lia|]. split; [lia|]. split; [exists std_order, 1, 1, FixNone; split; [exact ex_fits1|]; split; [exact ex_fits1|]; exact (gr_grid _ _ _ _ G)|].
  destruct (ground_grids u free_fine ltac:(cbn; lra) ltac:(cbn; lra) g rg ps G) as (mc & nc & (_ & _ & _ & _ & RR) & _). exact RR.
Qed.
Lemma free_ifx g rg ps : ground u g rg ps -> forall i b, nth_error (ifx g rg) i = Some b -> b = false.
Proof.
  intros G i [] E; [|reflexivity]. exfalso. apply ifx_spec in E as [_ [v [Hv _]]]. rewrite (proj1 (C17_no_fix std_order 1 1 (1/2) g ltac:(lra) ltac:(lra) ltac:(lra) (gr_grid _ _ _ _ G))) in Hv. destruct Hv.
Qed.
(** A trial move from an admissible deformation is accepted. *)
Lemma free_accepted g rg ps m a1 a2 th time : ground u g rg ps -> posed_m u g rg (ifx g rg) (iref1 rg ps) (iref2 rg ps) m a1 a2 th time -> admissible g rg a1 a2 ->
  map v_val (ms_y1 (fst (mech_solve (greedy_answer m) m))) = shift (1/10) (val_mask (num_vertices g) (dofs rg)) a1 /\
  map v_val (ms_y2 (fst (mech_solve (greedy_answer m) m))) = shift (1/10) (val_mask (num_vertices g) (dofs rg)) a2.
Proof.
  intros G PM AD. pose proof (pm_inv _ _ _ _ _ _ _ _ _ _ _ PM) as IM. pose proof (mi_grid _ _ _ _ _ _ _ _ IM) as Em. pose proof (mi_ref _ _ _ _ _ _ _ _ IM) as Rm.
  assert (LA1 : length a1 = (num_vertices g * dofs rg)%nat) by (rewrite <- (pm_p1 _ _ _ _ _ _ _ _ _ _ _ PM); apply IM). assert (LA2 : length a2 = (num_vertices g * dofs rg)%nat) by (rewrite <- (pm_p2 _ _ _ _ _ _ _ _ _ _ _ PM); apply IM).
  assert (NF : forall xs, map v_fixed xs = ifx g rg -> forall x, In x xs -> v_fixed x = false).
  { intros xs FX x Hx. apply In_nth_error in Hx as [i Hx]. apply (free_ifx g rg ps G i). rewrite <- FX, nth_error_map, Hx. reflexivity. }
  assert (T1 : map v_val (ms_y1 (fst (mech_solve (trial m) m))) = shift (1/10) (val_mask (num_vertices g) (dofs rg)) a1).
  { cbn [mech_solve fst ms_y1 trial ma_y1]. rewrite <- Rm. apply (load_lift m (num_vertices g) (1/10)); [exact (pm_v1 _ _ _ _ _ _ _ _ _ _ _ PM)|exact (pm_u1 _ _ _ _ _ _ _ _ _ _ _ PM)|exact (NF _ (mi_f1 _ _ _ _ _ _ _ _ IM))|rewrite Rm; exact LA1]. }
  assert (T2 : map v_val (ms_y2 (fst (mech_solve (trial m) m))) = shift (1/10) (val_mask (num_vertices g) (dofs rg)) a2).
  { cbn [mech_solve fst ms_y2 trial ma_y2]. rewrite <- Rm. apply (load_lift m (num_vertices g) (1/10)); [exact (pm_v2 _ _ _ _ _ _ _ _ _ _ _ PM)|exact (pm_u2 _ _ _ _ _ _ _ _ _ _ _ PM)|exact (NF _ (mi_f2 _ _ _ _ _ _ _ _ IM))|rewrite Rm; exact LA2]. }
  assert (ACC : greedy_answer m = trial m); [|rewrite ACC; split; assumption].
  unfold greedy_answer, objective_now. rewrite T1, T2, (pm_v1 _ _ _ _ _ _ _ _ _ _ _ PM), (pm_v2 _ _ _ _ _ _ _ _ _ _ _ PM).
  destruct (proj2 (posed_objective u lg0 (fun _ => ex_intro _ [0] (ex_intro _ [2] eq_refl)) free_fine ltac:(cbn; lra) ltac:(cbn; lra) g rg ps m G IM a1 a2 LA1 LA2) AD) as [J EJ]. rewrite EJ.
  pose proof (free_grids g rg ps G) as PG. rewrite <- Em, <- Rm in PG. pose proof (shift_moved (ms_refined m) (num_vertices g) (1/10) a1 a2 ltac:(rewrite Rm; exact LA1) ltac:(rewrite Rm; exact LA2)) as MV. rewrite Rm in MV. set (z1 := shift _ _ a1) in *. set (z2 := shift _ _ a2) in *.
  assert (LB1 : length a1 = (length (g_vertices (ms_grid m)) * dofs (ms_refined m))%nat) by (rewrite Em, Rm; exact LA1). assert (LB2 : length a2 = (length (g_vertices (ms_grid m)) * dofs (ms_refined m))%nat) by (rewrite Em, Rm; exact LA2).
  assert (NE : exists J', mech_objective lg0 m z1 z2 = Ok J' /\ J' <= J).
  { unfold mech_objective in EJ |- *. rewrite <- Rm in MV. rewrite (C80_elastic_energy m _ _ _ 1 0 _ _ a1 a2 z1 z2 PG ltac:(ring) LB1 LB2 MV). apply bind_ok' in EJ as [E [EE EJ]]. rewrite EE. cbn [bind].
    assert (DD : mech_dissipation m z1 z2 = mech_dissipation m a1 a2) by (apply (dissipation_moved m m _ _ _ 1 0 (1/10) (1/10) 0 0 a1 a2 z1 z2 PG); try reflexivity; try assumption; try ring; [rewrite Em, Rm; apply IM|rewrite Em, Rm; apply IM|apply moved_self]).
    destruct (ms_refined m) as [r|] eqn:Er.
    - pose proof (C80_hyperelastic_energy m (1/2) 2 2 1 0 (1/10) (1/10) a1 a2 z1 z2) as HH. rewrite Er in HH. rewrite (HH PG ltac:(discriminate) ltac:(ring) LB1 LB2 MV), DD, EJ. exists J. split; [reflexivity|lra].
    - rewrite DD. apply bind_ok' in EJ as [D [ED EJ]]. rewrite ED. cbn [bind]. apply bind_ok' in EJ as [W [EW EJ]]. injection EJ as <-.
      assert (HN : (None : option (refined_grid R)) = rg) by congruence. destruct (mi_g _ _ _ _ _ _ _ _ IM (eq_sym HN)) as [K1 K2]. rewrite <- Em in K1, K2. cbn [dofs] in LB1, LB2. rewrite Nat.mul_1_r in LB1, LB2.
      rewrite (traction_translation std_order 1 1 FixNone (1/2) 2 2 lg0 m (1/10) (1/10) a1 a2 z1 z2 W ex_pos ex_fits1 ex_fits1 ltac:(lia) ltac:(lia) K1 K2 ltac:(rewrite Em; exact (gr_grid _ _ _ _ G)) eq_refl LB1 LB2 MV EW). cbn [bind]. eexists. split; [reflexivity|].
      assert (POS : forall d x, 0 <= x -> map fst d = b_vertices (g_neumann (ms_grid m)) -> (forall v, In v (b_vertices (g_neumann g)) -> dget Nat.eqb v d = Ok x) -> 0 <= sum_over (mean_of_ends (value_for d)) (b_edges (g_neumann (ms_grid m)))).
      { intros d x Hx KD HD. pose proof (gr_grid _ _ _ _ G) as Eg. destruct (rect_neumann std_order 1 1 FixNone (1/2) 2 2 ex_pos ex_fits1 ex_fits1 ltac:(lia) ltac:(lia) _ Eg) as [NV _]. rewrite Em. revert NV. clear - Hx HD. generalize (b_edges (g_neumann g)) as es. induction es as [|e es IH]; intros NV; cbn [sum_over]; [lra|].
        assert (0 <= sum_over (mean_of_ends (value_for d)) es) by (apply IH; intros; apply NV; right; assumption). destruct (NV e (or_introl eq_refl)) as [A B]. assert (mean_of_ends (value_for d) e = x) as ->; [|lra]. unfold mean_of_ends, value_for. rewrite (HD _ A), (HD _ B). lra. }
      assert (TR : forall v, In v (b_vertices (g_neumann g)) -> dget Nat.eqb v (ms_g1 m) = Ok 1 /\ dget Nat.eqb v (ms_g2 m) = Ok 2).
      { intros v Hv. destruct (pm_tr _ _ _ _ _ _ _ _ _ _ _ PM (eq_sym HN) v Hv) as (x & y & l & c1 & c2 & _ & El & N1 & N2 & D1 & D2). cbn in El. injection El as <-. injection N1 as <-. injection N2 as <-. auto. }
      pose proof (POS (ms_g1 m) 1 ltac:(lra) K1 (fun v Hv => proj1 (TR v Hv))). pose proof (POS (ms_g2 m) 2 ltac:(lra) K2 (fun v Hv => proj2 (TR v Hv))). lra. }
  destruct NE as (J' & -> & LE). destruct (Rle_dec J' J) as [_|N]; [reflexivity|contradiction].
Qed.
(** So the body is moved by (1/10, 1/10) in every step. *)
Lemma free_links s : undisturbed u s -> forall k st, nth_error (s_steps s) k = Some st -> forall v p, nth_error (g_points (s_grid s)) v = Some [fst p; snd p] ->
  y_at (st_y_data st) v 0 0 = Some (fst p + INR k * (1/10)) /\ y_at (st_y_data st) v 1 0 = Some (snd p + INR k * (1/10)).
Proof.
  intros H k st Hst. destruct (undisturbed_chain u s H) as (g & rg & ps & G & CH). pose proof (ch_hist _ _ _ _ _ CH) as HI. destruct (hist_grid _ _ _ _ _ HI) as (Eg & Er & _). rewrite Eg.
  destruct (iref_length rg ps) as [RL1 RL2]. rewrite (gr_len _ _ _ _ G) in RL1, RL2. pose proof (mask_length (num_vertices g) (dofs rg)) as ML.
  assert (K : exists th, holds g rg st (shift (INR k * (1/10)) (val_mask (num_vertices g) (dofs rg)) (iref1 rg ps)) (shift (INR k * (1/10)) (val_mask (num_vertices g) (dofs rg)) (iref2 rg ps)) th).
  { revert st Hst. induction k as [|k IH]; intros st Hst.
    - destruct (hi_first _ _ _ _ _ HI) as (st0 & rest & Es & HO & _). rewrite Es in Hst. injection Hst as <-. cbn [INR]. rewrite Rmult_0_l, !shift_zero by congruence. eexists. exact HO.
    - destruct (nth_error (s_steps s) k) as [a|] eqn:Ha; [|apply nth_error_None in Ha; assert (S k < length (s_steps s))%nat by (apply nth_error_Some; congruence); lia].
      destruct (IH a eq_refl) as [tha HA]. destruct (ch_links _ _ _ _ _ CH k a st Ha Hst) as (a1 & a2 & th & m & t & HO & PM & PT & HB). cbv zeta in HB.
      assert (LA1 : length a1 = (num_vertices g * dofs rg)%nat) by (rewrite <- (pm_p1 _ _ _ _ _ _ _ _ _ _ _ PM); apply (pm_inv _ _ _ _ _ _ _ _ _ _ _ PM)). assert (LA2 : length a2 = (num_vertices g * dofs rg)%nat) by (rewrite <- (pm_p2 _ _ _ _ _ _ _ _ _ _ _ PM); apply (pm_inv _ _ _ _ _ _ _ _ _ _ _ PM)).
      destruct (holds_comp g rg _ _ _ _ HO LA1 LA2) as (A1 & A2 & _). destruct (holds_comp g rg _ _ _ _ HA) as (B1 & B2 & _); [rewrite shift_length; congruence|rewrite shift_length; congruence|].
      destruct (steps_admissible u lg0 (fun _ => ex_intro _ [0] (ex_intro _ [2] eq_refl)) greedy_cautious free_fine ltac:(cbn; lra) ltac:(cbn; lra) s (undisturbed_reachable u s H)) as (g' & rg' & ps' & G' & _ & ST). destruct (ground_unique _ _ _ _ _ _ _ G G') as (-> & -> & ->).
      destruct (ST a (nth_error_In _ _ Ha)) as (b1 & b2 & th' & HO' & L1 & L2 & AD). destruct (holds_comp g rg _ _ _ _ HO' L1 L2) as (C1 & C2 & _). assert (b1 = a1) as -> by congruence. assert (b2 = a2) as -> by congruence.
      destruct (free_accepted g rg ps m a1 a2 th _ G PM AD) as [S1 S2]. unfold m_loaded in HB. cbn [u ex_free se_solver greedy sv_mech] in HB. rewrite S1, S2 in HB.
      rewrite A1 in B1. rewrite A2 in B2. rewrite B1, B2, !shift_shift in HB by congruence. replace (INR k * (1/10) + 1/10) with (INR (S k) * (1/10)) in HB by (rewrite S_INR; lra). eexists. exact HB. }
  destruct K as [th HO]. intros v p Hp. rewrite (ho_y _ _ _ _ _ _ HO). assert (Hv : (v < num_vertices g)%nat). { rewrite <- (gr_len _ _ _ _ G). apply (points_nth g ps v _ _ (gr_points _ _ _ _ G)) in Hp. apply nth_error_Some. congruence. }
  rewrite !y_at_zero by (try lia; rewrite shift_length; congruence). cbn [Nat.eqb]. apply (points_nth g ps v _ _ (gr_points _ _ _ _ G)) in Hp. destruct (iref_nth rg ps v _ _ Hp) as [N1 N2].
  assert (I : (v * dofs rg < num_vertices g * dofs rg)%nat) by (destruct rg; cbn; lia). rewrite !shift_nth, (mask_nth _ _ _ I), N1, N2. rewrite Nat.mod_mul by (destruct rg; cbn; lia). split; reflexivity.
Qed.
Lemma free_state : exists s, undisturbed u s /\ length (s_steps s) = 5%nat /\ domain_grid std_order 1 1 FixNone (1/2) = Ok (s_grid s) /\ (s_refined s = None <-> reg = None).
Proof.
  destruct (construct_live u free_valid (ex_fps reg []) free_fine (free_forcing 0 (Rle_refl 0)) greedy_quiet) as [s0 C]. assert (U0 : undisturbed u s0) by (apply u_construct; [exact free_valid|exact C]).
  destruct (run_live u s0 3 U0 (ex_fps reg []) free_forcing greedy_quiet greedy_domain ltac:(lia)) as [s E]. pose proof (u_run u 3 s0 s U0 E) as U. exists s. split; [exact U|].
  split. { destruct (C65_run_adds_steps u s0 3 s (undisturbed_reachable u s0 U0) E) as [_ [new [En Ln]]]. rewrite En, app_length, (C65_construction u s0 free_valid C). lia. }
  destruct (C57_grid_of_the_domain u s (undisturbed_reachable u s U)) as (Eg & _ & Er & _). split; [exact Eg|exact Er].
Qed.
End Free.

(** C60, C77: with this solver, with and without regularization, the hypotheses of the theorems hold for a simulation with 5 steps;
    the corner (1, 1) moves from (1 + 3/10, 1 + 3/10) to (1 + 4/10, 1 + 4/10) between the last two. *)
Example C60_example : forall reg, reg = None \/ reg = Some 1 -> let u := ex_free reg in exists s a b v,
  undisturbed u s /\ (s_refined s = None <-> reg = None) /\ cautious lg0 (se_solver u) /\ fine_enough u /\ p_scale (se_params u) <= se_width u /\ p_scale (se_params u) <= se_height u /\
  nth_error (s_steps s) 3 = Some a /\ nth_error (s_steps s) (S 3) = Some b /\ nth_error (g_points (s_grid s)) v = Some [1; 1] /\
  y_at (st_y_data a) v 0 0 = Some (13/10) /\ y_at (st_y_data b) v 0 0 = Some (14/10) /\ y_at (st_y_data b) v 1 0 = Some (14/10).
Proof.
  intros reg Hr u. assert (Hr' : forall e, reg = Some e -> 0 <= e) by (intros e E; destruct Hr as [-> | ->]; [discriminate|injection E as <-; lra]).
  destruct (free_state reg Hr') as (s & U & L & Eg & Er). destruct (nth_error (s_steps s) 3) as [a|] eqn:Ha; [|apply nth_error_None in Ha; lia]. destruct (nth_error (s_steps s) 4) as [b|] eqn:Hb; [|apply nth_error_None in Hb; lia].
  destruct (ex_vertex u _ 2 2 Eg ltac:(lia) ltac:(lia)) as [_ W]. cbn [INR] in W. replace ((1 + 1) * (1/2)) with 1 in W by lra. exists s, a, b, (pair_to_vertex 3 2 2).
  destruct (free_links reg s U 3 a Ha _ (1, 1) W) as [A1 _]. destruct (free_links reg s U 4 b Hb _ (1, 1) W) as [B1 B2]. cbn [fst snd INR] in A1, B1, B2.
  split; [exact U|]. split; [exact Er|]. split; [exact greedy_cautious|]. split; [exact (free_fine reg)|]. cbn [u ex_free se_params se_width se_height ex_params p_scale]. split; [lra|]. split; [lra|]. split; [exact Ha|]. split; [exact Hb|]. split; [exact W|]. rewrite A1, B1, B2. repeat split; f_equal; lra.
Qed.

(** C78, C80, C81: mechanical steps of these grids; the deformations x |-> A x + c exist for all A and c. *)
Lemma planar_xy (ps : list (R * R)) : mapM xy (map (fun '(x, y) => [x; y]) ps) = Ok ps.
Proof. induction ps as [|[x y] ps IH]; [reflexivity|]. cbn [map mapM]. cbn [xy bind]. rewrite IH. reflexivity. Qed.
Lemma affine_exists g rg ps al be ga : g_points g = map (fun '(x, y) => [x; y]) ps -> length (g_points g) = length (g_vertices g) -> exists y, affine_field g rg al be ga y.
Proof.
  intros P L. assert (LP : length ps = length (g_vertices g)) by (rewrite <- L, P, map_length; reflexivity). set (jet := fun p : R * R => firstn (dofs rg) [al * fst p + be * snd p + ga; al; be; 0; 0; 0]).
  assert (LJ : forall p, length (jet p) = dofs rg) by (intros p; unfold jet; destruct rg; reflexivity). exists (flat_map jet ps). split.
  - rewrite <- LP. clear - LJ. induction ps as [|p ps IH]; [reflexivity|]. cbn [flat_map length Nat.mul]. rewrite app_length, LJ, IH. reflexivity.
  - intros v p Hp j Hj. apply (points_nth g ps v _ _ P) in Hp. replace (fst p, snd p) with p in Hp by (destruct p; reflexivity). clear - LJ Hp Hj. revert v Hp. induction ps as [|q ps IH]; intros [|v] Hp; try discriminate; cbn [flat_map].
    + injection Hp as ->. rewrite nth_error_app1 by (rewrite LJ; cbn; lia). cbn [Nat.mul Nat.add]. unfold jet. clear - Hj. destruct rg; cbn [dofs] in *; [|assert (j = 0)%nat as -> by lia; reflexivity]. reflexivity.
    + rewrite nth_error_app2 by (rewrite LJ; cbn; lia). rewrite LJ. match goal with |- nth_error _ ?k = _ => replace k with (v * dofs rg + j)%nat by (cbn; lia) end. exact (IH v Hp).
Qed.
Lemma mapM_img {A B} (f : A -> res B) l r : mapM f l = Ok r -> forall y, In y r -> exists x, In x l /\ f x = Ok y.
Proof.
  revert r. induction l as [|x l IH]; cbn; intros r H; [injection H as <-; intros y []|]. apply bind_ok' in H as (y & E & H). apply bind_ok' in H as (ys & E' & H). injection H as <-. intros z [<- |Hz]; [exists x; auto|]. destruct (IH _ E' z Hz) as (w & Hw & Ew). exists w; auto.
Qed.
Lemma loaded_step c1 c2 reg g rg ps : ground (ex_free reg) g rg ps -> (rg = None <-> reg = None) -> exists m, mechanical_step g 0 1 1 reg rg (fun _ _ _ => Ok [c1; c2]) = Ok m /\ ms_grid m = g /\ ms_refined m = rg /\ ms_prev_y1 m = iref1 rg ps /\ ms_prev_y2 m = iref2 rg ps /\ (forall x, In x (ms_prev_theta m) -> x = 0) /\
  (exists fx, (b_vertices (g_dirichlet g) = [] -> forall i, fx i = false) /\ ms_y1 m = ivars 1 fx (iref1 rg ps) /\ ms_y2 m = ivars 1 fx (iref2 rg ps)) /\ ms_radius m = 1 /\ ms_fps m = 1 /\ (forall e, reg = Some e -> ms_reg m = e) /\ (reg = None -> ms_reg m = 0) /\
  (forall v t, In (v, t) (ms_g1 m) -> t = c1) /\ (forall v t, In (v, t) (ms_g2 m) -> t = c2).
Proof.
  intros G Er. pose proof (gr_points _ _ _ _ G) as GP. pose proof (gr_len _ _ _ _ G) as GL.
  assert (LP : length (g_points g) = length (g_vertices g)) by (rewrite GP, map_length; exact GL). assert (GX : mapM xy (g_points g) = Ok ps) by (rewrite GP; apply planar_xy).
 unfold mechanical_step. destruct reg as [e|].
    - destruct rg as [r|]; [|exfalso; apply proj1 in Er; specialize (Er eq_refl); discriminate]. unfold mech_init_reg. rewrite GX. cbn [bind]. rewrite (proj2 (Rltb_false 0 0)) by lra. eexists. split; [reflexivity|]. cbn [ms_grid ms_refined ms_prev_y1 ms_prev_y2 ms_prev_theta]. (do 4 (split; [reflexivity|])). split; [intros x Hx; apply in_map_iff in Hx as [_ [<- _]]; reflexivity|].
      cbn [ms_y1 ms_y2 ms_radius ms_fps ms_reg ms_g1 ms_g2]. split; [eexists; split; [|split; reflexivity]; intros Z i; rewrite Z; apply andb_false_r|]. do 2 (split; [reflexivity|]). split; [intros e' E; injection E as <-; reflexivity|]. split; [discriminate|]. split; intros v t [].
    - rewrite (proj2 Er eq_refl). unfold mech_init_plain. rewrite GX. cbn [bind]. rewrite (proj2 (Rltb_false 0 0)) by lra.
      assert (IT : exists g1 g2, init_traction g (fun _ _ _ => Ok [c1; c2]) = Ok (g1, g2) /\ (forall v t, In (v, t) g1 -> t = c1) /\ (forall v t, In (v, t) g2 -> t = c2)).
      { unfold init_traction. match goal with |- context [mapM ?F ?l] => assert (AL : exists rows, mapM F l = Ok rows); [apply mapM_total|destruct AL as [rows AL]; rewrite AL; cbn [bind]; pose proof (mapM_img _ _ _ AL) as IMG; eexists _, _; split; [reflexivity|]; split; intros v t Hv; apply in_map_iff in Hv as ([v' [t1 t2]] & EQ & Hv); injection EQ as <- <-; destruct (IMG _ Hv) as (w & _ & Hw); apply bind_ok' in Hw as (p & _ & Hw); apply bind_ok' in Hw as ([x y] & _ & Hw); cbn in Hw; injection Hw; congruence] end.
        intros v Hv. destruct (rect_neumann std_order 1 1 FixNone (1/2) 2 2 ex_pos ex_fits1 ex_fits1 ltac:(lia) ltac:(lia) _ (gr_grid _ _ _ _ G)) as [_ NV]. apply NV in Hv. destruct (C11_vertices_numbered _ _ _ _ _ _ _ _ ex_pos ex_fits1 ex_fits1 (gr_grid _ _ _ _ G)) as [VN _].
          assert (v < length (g_points g))%nat by (rewrite LP, VN, seq_length; rewrite VN in Hv; apply in_seq in Hv; lia). destruct (nth_error (g_points g) v) as [p|] eqn:P; [|apply nth_error_None in P; lia]. rewrite (nth_py _ _ _ P). cbn [bind].
          destruct (StepE.mapM_all _ _ _ GX p (nth_error_In _ _ P)) as [z Z]. rewrite Z. destruct z as [x y]. exists (v, (c1, c2)). reflexivity.
        }
      destruct IT as (g1 & g2 & IT & T1 & T2). rewrite IT. cbn [bind]. eexists. split; [reflexivity|]. cbn [ms_grid ms_refined ms_prev_y1 ms_prev_y2 ms_prev_theta]. (do 4 (split; [reflexivity|])). split; [intros x Hx; apply in_map_iff in Hx as [_ [<- _]]; reflexivity|].
      cbn [ms_y1 ms_y2 ms_radius ms_fps ms_reg ms_g1 ms_g2]. split; [eexists; split; [|split; reflexivity]; intros Z i; rewrite Z; reflexivity|]. do 2 (split; [reflexivity|]). split; [discriminate|]. split; [reflexivity|]. split; assumption.
Qed.
Lemma fresh_step reg g rg ps : ground (ex_free reg) g rg ps -> (rg = None <-> reg = None) -> exists m, mechanical_step g 0 1 1 reg rg (fun _ _ _ => Ok [1; 2]) = Ok m /\ ms_grid m = g /\ ms_refined m = rg /\ ms_prev_y1 m = iref1 rg ps /\ ms_prev_y2 m = iref2 rg ps /\ (forall x, In x (ms_prev_theta m) -> x = 0) /\
  (exists fx, ms_y1 m = ivars 1 fx (iref1 rg ps)) /\ (exists fx, ms_y2 m = ivars 1 fx (iref2 rg ps)).
Proof. intros G Er. destruct (loaded_step 1 2 reg g rg ps G Er) as (m & A & B & C & D & E & F & (fx & _ & V1 & V2) & _). exists m. repeat (split; [assumption|]). split; exists fx; assumption. Qed.
Example C78_example : forall reg, reg = None \/ reg = Some 1 -> exists m y1 y2, problem_grids (ms_grid m) (ms_refined m) (1/2) 2 2 /\ mech_history m /\ (ms_refined m = None <-> reg = None) /\
  (forall x, In x (ms_prev_theta m) -> x = 0) /\
  affine_field (ms_grid m) (ms_refined m) 1 0 0 (ms_prev_y1 m) /\ affine_field (ms_grid m) (ms_refined m) 0 1 0 (ms_prev_y2 m) /\
  affine_field (ms_grid m) (ms_refined m) 2 0 7 y1 /\ affine_field (ms_grid m) (ms_refined m) 0 2 0 y2 /\
  mech_dissipation m y1 y2 = Ok (mass (ms_refined m) * 4) /\ (exists E, mech_elastic_energy m y1 y2 = Ok E) /\ mech_elastic_energy m y2 y1 = Err ValueError.
Proof.
  intros reg Hr. assert (Hr' : forall e, reg = Some e -> 0 <= e) by (intros e E; destruct Hr as [-> | ->]; [discriminate|injection E as <-; lra]).
  destruct (free_state reg Hr') as (s & U & _ & _ & Er). destruct (undisturbed_chain _ s U) as (g & rg & ps & G & CH). destruct (hist_grid _ _ _ _ _ (ch_hist _ _ _ _ _ CH)) as (_ & Er' & _). rewrite Er' in Er. clear CH Er' U s.
  pose proof (free_grids reg g rg ps G) as PG. pose proof (gr_points _ _ _ _ G) as GP. pose proof (gr_len _ _ _ _ G) as GL.
  assert (LP : length (g_points g) = length (g_vertices g)) by (rewrite GP, map_length; exact GL). pose proof I.
  pose proof (fresh_step reg g rg ps G Er) as NG.
  destruct NG as (m & NM & Em & Rm & P1 & P2 & PT & _). destruct (affine_exists g rg ps 2 0 7 GP LP) as [y1 Y1]. destruct (affine_exists g rg ps 0 2 0 GP LP) as [y2 Y2].
  destruct (reference_affine (ex_free reg) g rg ps G) as [A1 A2]. assert (HM : mech_history m) by exact (mh_new _ _ _ _ _ _ _ _ LP NM). rewrite <- Em, <- Rm in PG. rewrite <- P1, <- Em, <- Rm in A1. rewrite <- P2, <- Em, <- Rm in A2. rewrite <- Em, <- Rm in Y1, Y2.
  exists m, y1, y2. rewrite <- Rm in Er. split; [exact PG|]. split; [exact HM|]. split; [exact Er|]. split; [exact PT|]. split; [exact A1|]. split; [exact A2|]. split; [exact Y1|]. split; [exact Y2|]. split; [|split].
  - rewrite (C78_dissipation_affine m (1/2) 2 2 (PotentialSpec.st 2 0 0 2) id2 7 0 0 0 y1 y2 PG A1 A2 Y1 Y2), dis_value. cbn [bind]. apply (f_equal Ok). unfold norm2, sym_delta, PotentialSpec.st, id2. cbn. field.
  - rewrite (C78_elastic_energy_affine m (1/2) 2 2 (PotentialSpec.st 2 0 0 2) 7 0 y1 y2 0 PG HM PT Y1 Y2). destruct (proj1 (elastic_density (PotentialSpec.st 2 0 0 2) 0)) as [W ->]; [unfold det2; cbn; lra|]. eexists. reflexivity.
  - rewrite (C78_elastic_energy_affine m (1/2) 2 2 (PotentialSpec.st 0 2 2 0) 0 7 y2 y1 0 PG HM PT Y2 Y1). rewrite (proj2 (elastic_density (PotentialSpec.st 0 2 2 0) 0)) by (unfold det2; cbn; lra). reflexivity.
Qed.
