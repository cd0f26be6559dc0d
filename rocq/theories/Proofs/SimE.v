(** Concrete simulations for the examples: the unit square, left side fixed, and a solver that drives every free variable
    to its upper bound. *)
From Coq Require Import Reals Lra Lia List ZArith String.
From Verif.Model Require Import Py Num Tensors Domain Refine Bell Interp Steps Simulation.
From Verif.Spec Require Import GridSpec SimSpec LiveSpec.
From Verif.Proofs Require Import Lib GridP GridCover StdOrder StepP SimP SimQ SimR SimH SimL SimA.
From Verif.Props Require Import GridProps.
Local Open Scope R_scope.
Import ListNotations.
Local Notation length := List.length.

Definition upper (xs : list pvar) (i : nat) : R := match nth_error xs i with Some x => v_ub x | None => 0 end.
(** Calls in [bad] raise. *)
Definition push (bad : list nat) : solver :=
  let exn k := if existsb (Nat.eqb k) bad then Some SolverError else None in
  mkSolver (fun k m => mkMA (upper (ms_y1 m)) (upper (ms_y2 m)) (exn k)) (fun k t => mkTA (upper (ts_theta t)) (exn k)).
Lemma push_bounds bad : respects_bounds (push bad).
Proof.
  assert (U : forall xs, consistent xs -> forall i x, nth_error xs i = Some x -> v_lb x <= upper xs i <= v_ub x).
  { intros xs C i x Hx. unfold upper. rewrite Hx. pose proof (C x (nth_error_In _ _ Hx)). lra. }
  split.
  - intros k m C1 C2. split; intros i x Hx _; cbn; apply U; assumption.
  - intros k t Ro i x Hx. cbn. apply U; [|exact Hx]. intros y Hy. apply (Ro y Hy).
Qed.
Lemma push_domain bad : respects_domain (push bad).
Proof.
  intros k t Ro i Hi. cbn. unfold upper. destruct (nth_error (ts_theta t) i) as [x|] eqn:E; [|lra]. apply (Ro x (nth_error_In _ _ E)).
Qed.
Lemma push_quiet : never_raises (push []).
Proof. split; reflexivity. Qed.

Definition ex_params (reg : option R) : sim_params := mkParams 1 (1/10) 10 (1/2) reg (match reg with None => None | Some _ => Some 2%Z end).
Definition ex_setting (reg : option R) (bad : list nat) : setting :=
  {| se_order := std_order; se_solver := push bad; se_width := 1; se_height := 1; se_fix := FixOne "left"; se_params := ex_params reg;
     se_external := fun t => Ok (1 + t); se_traction := fun t x y => Ok [t; x * y] |}.
Lemma ex_valid reg bad : (forall e, reg = Some e -> 0 <= e) -> valid_setting (ex_setting reg bad).
Proof.
  intros H. unfold valid_setting. cbn [ex_setting se_width se_height se_params]. split; [lra|]. split; [lra|]. exists (ex_params reg). unfold SimulationParams_, ex_params, Rleb0. cbn [p_initial_temperature p_search_radius p_fps p_scale p_regularization p_refinement_factor].
  rewrite (proj2 (Rltb_false 1 0)) by lra. rewrite (proj2 (Rltb_true 0 (1/10))) by lra. rewrite (proj2 (Rltb_false 10 0)) by lra. rewrite (proj2 (Rltb_true 0 (1/2))) by lra. cbn [negb].
  destruct reg as [e|]; [rewrite (proj2 (Rltb_false e 0)) by (apply H; reflexivity)|]; reflexivity.
Qed.
Lemma ex_fine reg bad : fine_enough (ex_setting reg bad).
Proof. unfold fine_enough. cbn. destruct reg as [e|]; [|exact I]. split; [lra|]. split; lra. Qed.
Lemma ex_forcing reg bad t : 0 <= t -> forcing_fine (ex_setting reg bad) t.
Proof. intros H. split; cbn; [eauto|]. exists (1 + t). split; [reflexivity|lra]. Qed.
Lemma ex_fps reg bad : 0 < p_fps (se_params (ex_setting reg bad)). Proof. cbn. lra. Qed.
(** It can be constructed and run for any number of steps. *)
Lemma ex_runs reg n : (forall e, reg = Some e -> 0 <= e) -> (1 <= n)%Z -> let u := ex_setting reg [] in
  exists s0 s, construct u = Ok s0 /\ run (se_solver u) n s0 = (s, Ok tt) /\ undisturbed u s0 /\ undisturbed u s.
Proof.
  intros H Hn u. destruct (construct_live u (ex_valid reg [] H) (ex_fps _ _) (ex_fine _ _) (ex_forcing _ _ 0 (Rle_refl 0)) push_quiet) as [s0 C].
  assert (U : undisturbed u s0) by (apply u_construct; [exact (ex_valid reg [] H)|exact C]).
  destruct (run_live u s0 n U (ex_fps _ _) (ex_forcing _ _) push_quiet (push_domain []) Hn) as [s E]. exists s0, s. split; [exact C|]. split; [exact E|]. split; [exact U|exact (u_run u n s0 s U E)].
Qed.

(** Every free variable moves by the search radius in every step. *)
Definition shift (d : R) (fx : list bool) (l : list R) : list R := map (fun '(f, x) => if (f : bool) then x else x + d) (combine fx l).
Lemma shift_nth d fx l i : nth_error (shift d fx l) i = match nth_error fx i, nth_error l i with Some f, Some x => Some (if f then x else x + d) | _, _ => None end.
Proof.
  unfold shift. revert l i. induction fx as [|f fx IH]; intros l i; [destruct i; reflexivity|]. destruct l as [|x l]; [destruct i; cbn; [reflexivity|destruct (nth_error fx i); reflexivity]|]. destruct i as [|i]; [reflexivity|]. exact (IH l i).
Qed.
Lemma shift_length d fx l : length fx = length l -> length (shift d fx l) = length l.
Proof. intros H. unfold shift. rewrite map_length, combine_length. lia. Qed.
Lemma shift_shift d d' fx l : length fx = length l -> shift d' fx (shift d fx l) = shift (d + d') fx l.
Proof.
  intros H. apply nth_error_ext; [rewrite !shift_length; rewrite ?shift_length; congruence|]. intros i Hi. rewrite !shift_nth. destruct (nth_error fx i) as [f|]; [|reflexivity]. destruct (nth_error l i) as [x|]; [|reflexivity]. destruct f; [reflexivity|]. f_equal. lra.
Qed.
Lemma shift_zero fx l : length fx = length l -> shift 0 fx l = l.
Proof.
  intros H. apply nth_error_ext; [apply shift_length; exact H|]. intros i Hi. rewrite shift_length in Hi by exact H. rewrite shift_nth. destruct (nth_error fx i) as [f|] eqn:F; [|apply nth_error_None in F; lia]. destruct (nth_error l i) as [x|]; [|reflexivity]. destruct f; [reflexivity|]. rewrite Rplus_0_r. reflexivity.
Qed.
Lemma load_upper xs vs fx r : map v_val xs = vs -> map v_ub xs = map (fun v => v + r) vs -> map v_fixed xs = fx -> map v_val (load (upper xs) xs) = shift r fx vs.
Proof.
  intros <- U <-. apply nth_error_ext; [rewrite shift_length, !map_length, load_length; rewrite ?map_length; reflexivity|]. intros i _. rewrite shift_nth, !nth_error_map. destruct (nth_error xs i) as [x|] eqn:E.
  - rewrite (load_nth _ _ _ _ E). cbn. destruct (v_fixed x); [reflexivity|]. cbn. unfold upper. rewrite E. pose proof (f_equal (fun l => nth_error l i) U) as Ui. cbv beta in Ui. rewrite !nth_error_map, E in Ui. exact Ui.
  - apply nth_error_None in E. assert (Z : nth_error (load (upper xs) xs) i = None) by (apply nth_error_None; rewrite load_length; exact E). rewrite Z. reflexivity.
Qed.
Lemma push_links u g rg ps s : ground u g rg ps -> chain u g rg ps s -> se_solver u = push [] -> forall k st, nth_error (s_steps s) k = Some st ->
  let d := INR k * p_search_radius (se_params u) in
  holds g rg st (shift d (ifx g rg) (iref1 rg ps)) (shift d (ifx g rg) (iref2 rg ps)) (map (fun x => x + d) (itheta g rg (p_initial_temperature (se_params u)))).
Proof.
  intros G CH SV. pose proof (ch_hist _ _ _ _ _ CH) as HI.
  assert (FL : length (ifx g rg) = (num_vertices g * dofs rg)%nat) by (unfold ifx; rewrite map_length; apply range_length). destruct (iref_length rg ps) as [RL1 RL2]. rewrite (gr_len _ _ _ _ G) in RL1, RL2.
  assert (CE : forall st a1 a2 th b1 b2 th', holds g rg st a1 a2 th -> holds g rg st b1 b2 th' -> length a1 = (num_vertices g * dofs rg)%nat -> length a2 = (num_vertices g * dofs rg)%nat -> length b1 = (num_vertices g * dofs rg)%nat -> length b2 = (num_vertices g * dofs rg)%nat -> a1 = b1 /\ a2 = b2 /\ th = th').
  { intros st a1 a2 th b1 b2 th' A B L1 L2 L3 L4. destruct (holds_comp g rg _ _ _ _ A L1 L2) as [A1 [A2 A3]]. destruct (holds_comp g rg _ _ _ _ B L3 L4) as [B1 [B2 B3]]. repeat split; congruence. }
  induction k as [|k IH]; intros st Hst d.
  - destruct (hi_first _ _ _ _ _ HI) as (st0 & rest & Es & HO & _). rewrite Es in Hst. injection Hst as <-. unfold d. cbn [INR]. rewrite Rmult_0_l, !shift_zero by congruence. replace (map (fun x => x + 0) _) with (itheta g rg (p_initial_temperature (se_params u))); [exact HO|]. symmetry. rewrite <- map_id. apply map_ext. intros x. lra.
  - destruct (nth_error (s_steps s) k) as [a|] eqn:Ha; [|apply nth_error_None in Ha; assert (S k < length (s_steps s))%nat by (apply nth_error_Some; congruence); lia].
    specialize (IH a eq_refl). cbv zeta in IH. destruct (ch_links _ _ _ _ _ CH k a st Ha Hst) as (a1 & a2 & th & m & t & HO & PM & PT & HB). cbv zeta in HB.
    assert (LA : length a1 = (num_vertices g * dofs rg)%nat /\ length a2 = (num_vertices g * dofs rg)%nat) by (rewrite <- (pm_p1 _ _ _ _ _ _ _ _ _ _ _ PM), <- (pm_p2 _ _ _ _ _ _ _ _ _ _ _ PM); split; apply (pm_inv _ _ _ _ _ _ _ _ _ _ _ PM)). destruct LA as [LA1 LA2].
    assert (EQ := CE _ _ _ _ _ _ _ HO IH LA1 LA2 ltac:(rewrite shift_length; congruence) ltac:(rewrite shift_length; congruence)). destruct EQ as (-> & -> & ->).
    assert (Y1 : map v_val (ms_y1 (m_loaded u (2 * k) m)) = shift d (ifx g rg) (iref1 rg ps)).
    { unfold m_loaded, mech_solve. cbn [fst ms_y1]. rewrite SV. cbn [push sv_mech ma_y1]. rewrite (load_upper _ _ _ _ (pm_v1 _ _ _ _ _ _ _ _ _ _ _ PM) (pm_u1 _ _ _ _ _ _ _ _ _ _ _ PM) (mi_f1 _ _ _ _ _ _ _ _ (pm_inv _ _ _ _ _ _ _ _ _ _ _ PM))). rewrite shift_shift by congruence. f_equal. unfold d. rewrite S_INR. lra. }
    assert (Y2 : map v_val (ms_y2 (m_loaded u (2 * k) m)) = shift d (ifx g rg) (iref2 rg ps)).
    { unfold m_loaded, mech_solve. cbn [fst ms_y2]. rewrite SV. cbn [push sv_mech ma_y2]. rewrite (load_upper _ _ _ _ (pm_v2 _ _ _ _ _ _ _ _ _ _ _ PM) (pm_u2 _ _ _ _ _ _ _ _ _ _ _ PM) (mi_f2 _ _ _ _ _ _ _ _ (pm_inv _ _ _ _ _ _ _ _ _ _ _ PM))). rewrite shift_shift by congruence. f_equal. unfold d. rewrite S_INR. lra. }
    assert (TT : map v_val (ts_theta (t_loaded u (2 * k + 1) t)) = map (fun x => x + d) (itheta g rg (p_initial_temperature (se_params u)))).
    { unfold t_loaded, therm_solve. cbn [fst ts_theta]. rewrite SV. cbn [push sv_therm ta_theta]. rewrite (load_upper _ _ _ _ (pt_v _ _ _ _ _ _ _ _ _ _ _ _ _ PT) (pt_u _ _ _ _ _ _ _ _ _ _ _ _ _ PT) eq_refl).
      pose proof (ti_fixed _ _ _ _ _ _ _ _ (pt_inv _ _ _ _ _ _ _ _ _ _ _ _ _ PT)) as NF. pose proof (pt_v _ _ _ _ _ _ _ _ _ _ _ _ _ PT) as V. revert NF V. generalize (ts_theta t) as xs. generalize (itheta g rg (p_initial_temperature (se_params u))) as l. induction l as [|y l IHl]; intros [|x xs] NF V; try discriminate; [reflexivity|].
      cbn in V |- *. injection V as V1 V2. rewrite (NF x (or_introl eq_refl)). f_equal; [unfold d; rewrite S_INR; lra|]. exact (IHl xs (fun x' Hx' => NF x' (or_intror Hx')) V2). }
    rewrite Y1, Y2, TT in HB. exact HB.
Qed.

(** The lattice of the example: 3 x 3 vertices; those of the columns 1 and 2 move, by 1/10 per step in both directions. *)
Lemma ex_fits1 : fits 1 (1/2) 2. Proof. unfold fits. cbn. lra. Qed.
Lemma ex_vertex u g i j : domain_grid (se_order u) 1 1 (se_fix u) (1/2) = Ok g -> (i <= 2)%nat -> (j <= 2)%nat -> vertex_at g (1/2) (pair_to_vertex 3 i j) i j.
Proof.
  intros Hg Hi Hj. pose proof (grid_spec _ _ _ _ _ _ _ _ ex_pos ex_fits1 ex_fits1 Hg) as G. apply (vertex_at_ptv g _ 2 2 _ _ ex_pos G). repeat split; lia.
Qed.
Lemma ex_entry reg s k st v i j : let u := ex_setting reg [] in undisturbed u s -> nth_error (s_steps s) k = Some st -> vertex_at (s_grid s) (1/2) v i j -> i <> 0%nat ->
  y_at (st_y_data st) v 0 0 = Some (INR i * (1/2) + INR k * (1/10)) /\ y_at (st_y_data st) v 1 0 = Some (INR j * (1/2) + INR k * (1/10)) /\
  (forall w, (w < num_vertices (theta_grid (s_grid s) (s_refined s)))%nat -> theta_at (st_theta_data st) w = Some (1 + INR k * (1/10))).
Proof.
  intros u H Hst [Hv Hp] Hi. destruct (undisturbed_chain u s H) as (g & rg & ps & G & CH). destruct (hist_grid _ _ _ _ _ (ch_hist _ _ _ _ _ CH)) as (Eg & Er & _). rewrite Eg, Er in *.
  pose proof (push_links u g rg ps s G CH eq_refl k st Hst) as HO. cbv zeta in HO. set (d := INR k * p_search_radius (se_params u)) in *. replace (INR k * (1/10)) with d by reflexivity.
  assert (FL : length (ifx g rg) = (num_vertices g * dofs rg)%nat) by (unfold ifx; rewrite map_length; apply range_length). destruct (iref_length rg ps) as [RL1 RL2]. rewrite (gr_len _ _ _ _ G) in RL1, RL2.
  rewrite (ho_y _ _ _ _ _ _ HO), (ho_th _ _ _ _ _ _ HO). rewrite (gr_vertices _ _ _ _ G) in Hv. apply in_seq in Hv. rewrite (gr_len _ _ _ _ G) in Hv. rewrite !y_at_zero by (try lia; rewrite shift_length; congruence). cbn [Nat.eqb]. rewrite !shift_nth.
  apply (points_nth g ps v _ _ (gr_points _ _ _ _ G)) in Hp. destruct (iref_nth rg ps v _ _ Hp) as [-> ->].
  assert (L : (v * dofs rg < num_vertices g * dofs rg)%nat) by (destruct rg; cbn; lia).
  assert (F : nth_error (ifx g rg) (v * dofs rg) = Some false).
  { destruct (nth_error (ifx g rg) (v * dofs rg)) as [[]|] eqn:F; [exfalso|reflexivity|apply nth_error_None in F; lia]. apply ifx_spec in F as [_ [v' [Hv' E]]]. assert (v = v') as <- by (destruct rg; cbn in E; lia).
    pose proof (gr_grid _ _ _ _ G) as Hg. apply (C17_dirichlet_vertices _ _ _ _ _ _ _ _ ex_pos ex_fits1 ex_fits1 Hg) in Hv' as (sd & FS & i' & j' & [_ Q] & OS). assert (sd = Left) as -> by (destruct FS as [FS|[]]; destruct sd; try discriminate; reflexivity).
    cbn in OS. subst i'. apply (points_nth g ps v _ _ (gr_points _ _ _ _ G)) in Q. rewrite Hp in Q. injection Q as Q _. cbn [INR ex_setting ex_params se_params p_scale u] in Q. rewrite Rmult_0_l in Q. assert (INR i = 0) by lra. apply Hi. apply INR_eq. exact H0. }
  rewrite F. split; [reflexivity|]. split; [reflexivity|]. intros w Hw. unfold theta_at, theta_array. cbn [nd_data]. rewrite nth_error_map. unfold itheta. rewrite nth_error_map. unfold num_vertices in Hw. destruct (nth_error (g_vertices (theta_grid g rg)) w) eqn:E; [reflexivity|apply nth_error_None in E; lia].
Qed.
