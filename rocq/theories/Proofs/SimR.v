(** Construction and histories. *)
From Coq Require Import Reals Lra Lia List ZArith.
From Verif.Model Require Import Py Num Tensors Domain Refine Bell Interp Steps Simulation.
From Verif.Spec Require Import GridSpec SimSpec.
From Verif.Proofs Require Import Lib GridP GridCover StepP SimP SimQ.
From Verif.Props Require Import GridProps.
Local Open Scope R_scope.
Import ListNotations.

(** Initial data. *)
Definition iref1 (rg : option (refined_grid R)) (ps : list (R * R)) : list R :=
  match rg with None => map fst ps | Some _ => flat_map (fun '(x, _) => [x; 1; 0; 0; 0; 0]) ps end.
Definition iref2 (rg : option (refined_grid R)) (ps : list (R * R)) : list R :=
  match rg with None => map snd ps | Some _ => flat_map (fun '(_, y) => [y; 0; 1; 0; 0; 0]) ps end.
Definition ifix (g : grid R) (rg : option (refined_grid R)) (i : nat) : bool :=
  match rg with None => existsb (Nat.eqb i) (b_vertices (g_dirichlet g)) | Some _ => Nat.eqb (i mod 6) 0 && existsb (Nat.eqb (i / 6)) (b_vertices (g_dirichlet g)) end.
Definition ifx (g : grid R) (rg : option (refined_grid R)) : list bool := map (ifix g rg) (range (num_vertices g * dofs rg)).
Definition itheta (g : grid R) (rg : option (refined_grid R)) (c : R) : list R := map (fun _ => c) (g_vertices (theta_grid g rg)).
Definition ivars (r : R) (fx : nat -> bool) (l : list R) : list pvar := map (fun '(i, v) => new_var r (fx i) v) (zip (range (length l)) l).

Lemma zip_range_nth {A} (l : list A) i x : nth_error l i = Some x -> nth_error (zip (range (length l)) l) i = Some (i, x).
Proof.
  assert (G : forall (l : list A) n i x, nth_error l i = Some x -> nth_error (zip (seq n (length l)) l) i = Some ((n + i)%nat, x)).
  { clear. induction l as [|a l IH]; intros n [|i] x H; try discriminate; [injection H as ->; rewrite Nat.add_0_r; reflexivity|]. pose proof (IH (S n) i x H) as E. replace (n + S i)%nat with (S n + i)%nat by lia. exact E. }
  intros H. exact (G l 0%nat i x H).
Qed.
Lemma zip_range_length {A} (l : list A) : length (zip (range (length l)) l) = length l.
Proof. unfold range. generalize 0%nat. induction l as [|a l IH]; intros n; [reflexivity|]. exact (f_equal S (IH (S n))). Qed.
Lemma ivars_nth r fx l i v : nth_error l i = Some v -> nth_error (ivars r fx l) i = Some (new_var r (fx i) v).
Proof. intros H. unfold ivars. rewrite nth_error_map, (zip_range_nth l i v H). reflexivity. Qed.
Lemma ivars_length r fx l : length (ivars r fx l) = length l. Proof. unfold ivars. rewrite map_length. apply zip_range_length. Qed.
Lemma ivars_maps r fx l : map v_val (ivars r fx l) = l /\ map v_lb (ivars r fx l) = map (fun v => v - r) l /\ map v_ub (ivars r fx l) = map (fun v => v + r) l /\ map v_fixed (ivars r fx l) = map fx (range (length l)).
Proof.
  unfold ivars, range. generalize 0%nat. induction l as [|a l IH]; intros n; [auto|]. cbn. destruct (IH (S n)) as [A [B [C D]]]. repeat split; f_equal; assumption.
Qed.
Lemma flat6_length {A} (f : R * R -> list A) k ps : (forall p, length (f p) = k) -> length (flat_map f ps) = (length ps * k)%nat.
Proof. intros H. induction ps as [|p ps IH]; [reflexivity|]. cbn. rewrite app_length, IH, H. reflexivity. Qed.
Lemma iref_length rg ps : length (iref1 rg ps) = (length ps * dofs rg)%nat /\ length (iref2 rg ps) = (length ps * dofs rg)%nat.
Proof.
  unfold iref1, iref2, dofs. destruct rg as [r|]; [|rewrite !map_length; lia]. split; apply flat6_length; intros [x y]; reflexivity.
Qed.
Lemma init_traction_ok g f g1 g2 : (forall q, In q (g_points g) -> exists x y, q = [x; y]) -> init_traction g f = Ok (g1, g2) -> NoDup (b_vertices (g_neumann g)) ->
  map fst g1 = b_vertices (g_neumann g) /\ map fst g2 = b_vertices (g_neumann g) /\
  forall v, In v (b_vertices (g_neumann g)) -> exists x y l c1 c2, nth_error (g_points g) v = Some [x; y] /\ f 0 x y = Ok l /\ nth_error l 0 = Some c1 /\ nth_error l 1 = Some c2 /\ dget Nat.eqb v g1 = Ok c1 /\ dget Nat.eqb v g2 = Ok c2.
Proof.
  intros PL H ND. unfold init_traction in H. apply bind_ok' in H as [rows [E H]]. injection H as <- <-. set (vs := b_vertices (g_neumann g)) in *.
  assert (FST : map fst rows = vs). { clear ND. revert rows E. induction vs as [|v vs IH]; intros rows E; cbn in E; [injection E as <-; reflexivity|].
    apply bind_ok' in E as [row [E1 E]]. apply bind_ok' in E as [rest [E2 E]]. injection E as <-. cbn. rewrite (IH rest E2). f_equal. apply bind_ok' in E1 as [q [_ E1]]. apply bind_ok' in E1 as [[x y] [_ E1]]. apply bind_ok' in E1 as [l [_ E1]]. apply bind_ok' in E1 as [a [_ E1]]. apply bind_ok' in E1 as [b [_ E1]]. injection E1 as <-. reflexivity. }
  split; [rewrite map_map, <- FST; apply map_ext; intros [v [a b]]; reflexivity|]. split; [rewrite map_map, <- FST; apply map_ext; intros [v [a b]]; reflexivity|].
  intros v Hv. destruct (mapM_ok_in _ _ _ v E Hv) as [row [Ev Hin]]. cbv beta in Ev.
  apply bind_ok' in Ev as [q [Q Ev]]. apply bind_ok' in Ev as [[x y] [X Ev]]. apply bind_ok' in Ev as [l [L Ev]]. apply bind_ok' in Ev as [a [A Ev]]. apply bind_ok' in Ev as [b [B Ev]]. injection Ev as <-.
  apply py_nth_ok in Q. destruct (PL q (nth_error_In _ _ Q)) as [x' [y' ->]]. injection X as -> ->. change 0%Z with (Z.of_nat 0) in A. change 1%Z with (Z.of_nat 1) in B. rewrite py_index_nat in A, B. apply py_nth_ok in A, B.
  exists x, y, l, a, b. split; [exact Q|]. split; [exact L|]. split; [exact A|]. split; [exact B|].
  assert (F : forall (pr : R * R -> R), dfind Nat.eqb v (map (fun '(w, ab) => (w, pr ab)) rows) = Some (pr (a, b))).
  { intros pr. rewrite <- FST in ND. clear - Hin ND. induction rows as [|[w ab] rows IH]; [destruct Hin|]. cbn in ND |- *. inversion ND as [|? ? N1 N2]; subst. destruct Hin as [E|Hin]; [injection E as -> ->; rewrite Nat.eqb_refl; reflexivity|].
    destruct (Nat.eqb v w) eqn:E; [|apply IH; assumption]. apply Nat.eqb_eq in E as ->. exfalso. apply N1. apply (in_map fst) in Hin. exact Hin. }
  unfold dget. rewrite <- (map_ext (fun '(w, ab) => (w, fst ab))) by (intros [w [? ?]]; reflexivity). rewrite <- (map_ext (fun '(w, ab) => (w, snd ab)) (fun '(w, (_, b0)) => (w, b0))) by (intros [w [? ?]]; reflexivity).
  rewrite (F fst), (F snd). auto.
Qed.

(** ** Construction *)
Section Build.
Context (u : setting).
Let p := se_params u.
Let sv := se_solver u.

Lemma params_ok : valid_setting u -> 0 <= p_initial_temperature p /\ 0 < p_search_radius p /\ 0 <= p_fps p /\ 0 < p_scale p /\
  (match p_regularization p with None => p_refinement_factor p = None | Some e => 0 <= e /\ exists k, p_refinement_factor p = Some k /\ (0 < k)%Z end).
Proof.
  intros [_ [_ [p0 H]]]. fold p in H. unfold SimulationParams_ in H. destruct (Rltb (p_initial_temperature p0) 0) eqn:E1; [discriminate|]. unfold Rleb0 in H. destruct (Rltb 0 (p_search_radius p0)) eqn:E2; cbn [negb] in H; [|discriminate].
  destruct (Rltb (p_fps p0) 0) eqn:E3; [discriminate|]. destruct (p_regularization p0) as [e|] eqn:E4.
  - destruct (Rltb e 0) eqn:E5; [discriminate|]. destruct (Rltb 0 (p_scale p0)) eqn:E6; cbn [negb] in H; [|discriminate]. destruct (p_refinement_factor p0) as [k|] eqn:E7; [|discriminate]. destruct (k <=? 0)%Z eqn:E8; [discriminate|]. injection H as <-.
    rewrite E4, E7. apply Rltb_false in E1, E3, E5. apply Rltb_true in E2, E6. apply Z.leb_gt in E8. repeat split; auto. exists k. auto.
  - destruct (Rltb 0 (p_scale p0)) eqn:E6; cbn [negb] in H; [|discriminate]. apply Rltb_false in E1, E3. apply Rltb_true in E2, E6. destruct (p_refinement_factor p0) as [k|] eqn:E7.
    + destruct (k <=? 0)%Z; [discriminate|]. injection H as <-. cbn. auto.
    + injection H as <-. rewrite E4, E7. auto.
Qed.
Lemma xy_planar ps ps' : mapM xy ps = Ok ps' -> (forall q, In q ps -> exists x y, q = [x; y]) -> ps = map (fun '(x, y) => [x; y]) ps'.
Proof.
  revert ps'. induction ps as [|q ps IH]; intros ps' H P; cbn in H; [injection H as <-; reflexivity|]. apply bind_ok' in H as [[x y] [X H]]. apply bind_ok' in H as [rest [E H]]. injection H as <-. destruct (P q (or_introl eq_refl)) as [x' [y' ->]]. injection X as -> ->. cbn. f_equal. apply IH; [exact E|]. intros; apply P; right; assumption.
Qed.

Lemma construct_inv s : valid_setting u -> construct u = Ok s -> exists g rg ps,
  domain_grid (se_order u) (se_width u) (se_height u) (se_fix u) (p_scale p) = Ok g /\
  (p_regularization p = None /\ rg = None \/ exists e k r, p_regularization p = Some e /\ p_refinement_factor p = Some k /\ refine g k = Ok r /\ rg = Some r) /\
  g_points g = map (fun '(x, y) => [x; y]) ps /\ length ps = num_vertices g /\ g_vertices g = seq 0 (length ps) /\
  statics u g rg /\ sinv u g rg (ifx g rg) (iref1 rg ps) (iref2 rg ps) s /\
  exists m0 t0 st0 st1 mx x0 x1 y0 y1 mx' x0' x1' y0' y1',
    let th0 := itheta g rg (p_initial_temperature p) in
    posed_m u g rg (ifx g rg) (iref1 rg ps) (iref2 rg ps) m0 (iref1 rg ps) (iref2 rg ps) th0 0 /\
    let m2 := m_loaded u 0 m0 in
    posed_t u g rg (ifx g rg) (iref1 rg ps) (iref2 rg ps) t0 (iref1 rg ps) (iref2 rg ps) (map v_val (ms_y1 m2)) (map v_val (ms_y2 m2)) th0 0 /\
    let t2 := t_loaded u 1 t0 in
    s_mech s = m2 /\ s_therm s = t2 /\ s_steps s = [st0; st1] /\ s_time s = s_tau s /\ s_calls s = 2%nat /\
    holds g rg st0 (iref1 rg ps) (iref2 rg ps) th0 /\ holds g rg st1 (map v_val (ms_y1 m2)) (map v_val (ms_y2 m2)) (map v_val (ts_theta t2)) /\
    s_max_temp s = Rmax (Rmax 0 mx) mx' /\ s_xlims s = join_lims (Some (x0, x1)) x0' x1' /\ s_ylims s = join_lims (Some (y0, y1)) y0' y1' /\
    (is_max th0 mx /\ is_min (iref1 rg ps) x0 /\ is_max (iref1 rg ps) x1 /\ is_min (iref2 rg ps) y0 /\ is_max (iref2 rg ps) y1) /\
    (is_max (map v_val (ts_theta t2)) mx' /\ is_min (map v_val (ms_y1 m2)) x0' /\ is_max (map v_val (ms_y1 m2)) x1' /\ is_min (map v_val (ms_y2 m2)) y0' /\ is_max (map v_val (ms_y2 m2)) y1').
Proof.
  intros V H. destruct (params_ok V) as [PT0 [PR [PF [PS PREG]]]]. destruct V as [Hw [Hh _]]. unfold construct, Simulation_ in H. fold p sv in H.
  apply bind_ok' in H as [g [Eg H]]. apply bind_ok' in H as [rg [Erg H]]. apply bind_ok' in H as [m0 [Em0 H]]. apply bind_ok' in H as [m [Em H]]. apply bind_ok' in H as [tau [Etau H]].
  (* the grid *)
  destruct (fits_exists (se_width u) (p_scale p) Hw PS) as [mc Hmc]. destruct (fits_exists (se_height u) (p_scale p) Hh PS) as [nc Hnc].
  destruct (C11_vertices_numbered _ _ _ _ _ _ _ _ PS Hmc Hnc Eg) as [GV GP]. destruct (C11_points_are_the_lattice _ _ _ _ _ _ _ _ PS Hmc Hnc Eg) as [GL _].
  assert (PL : forall q, In q (g_points g) -> exists x y, q = [x; y]) by (intros q Hq; apply GL in Hq as [i [j [-> _]]]; eauto).
  pose proof (proj1 (C18_neumann_vertices_exact_partial _ _ _ _ _ _ _ _ PS Hmc Hnc Eg)) as ND.
  (* refinement *)
  assert (RG : p_regularization p = None /\ rg = None \/ exists e k r, p_regularization p = Some e /\ p_refinement_factor p = Some k /\ refine g k = Ok r /\ rg = Some r).
  { destruct (p_regularization p) as [e|] eqn:Ee.
    - right. destruct PREG as [_ [k [Ek _]]]. rewrite Ek in Erg. apply bind_ok' in Erg as [r [Er E]]. injection E as <-. exists e, k, r. auto.
    - left. rewrite PREG in Erg. injection Erg as <-. auto. }
  assert (NV : num_vertices g = length (g_points g)) by (unfold num_vertices; rewrite GV, seq_length, GP; reflexivity).
  (* mechanical model *)
  assert (INIT : exists ps, mapM xy (g_points g) = Ok ps /\ 0 <= p_initial_temperature p /\
     posed_m u g rg (ifx g rg) (iref1 rg ps) (iref2 rg ps) m0 (iref1 rg ps) (iref2 rg ps) (itheta g rg (p_initial_temperature p)) 0).
  { assert (M : exists ps, mapM xy (g_points g) = Ok ps /\ 0 <= p_initial_temperature p /\ exists e g1 g2, (forall e', p_regularization p = Some e' -> e = e') /\
       m0 = mkMech g rg (p_search_radius p) (p_fps p) e (iref1 rg ps) (iref2 rg ps) (itheta g rg (p_initial_temperature p)) (ivars (p_search_radius p) (ifix g rg) (iref1 rg ps)) (ivars (p_search_radius p) (ifix g rg) (iref2 rg ps)) g1 g2 (se_traction u) /\
       (rg = None -> init_traction g (se_traction u) = Ok (g1, g2))).
    { destruct RG as [[Ereg ->]|[e [k [r [Ereg [_ [_ ->]]]]]]]; rewrite Ereg in Em0; cbn [mechanical_step] in Em0; [unfold mech_init_plain in Em0|unfold mech_init_reg in Em0]; apply bind_ok' in Em0 as [ps [Eps Em0]]; exists ps; (split; [exact Eps|]);
      (destruct (Rltb (p_initial_temperature p) 0) eqn:LT; [discriminate|]); (split; [apply Rltb_false, LT|]).
      - apply bind_ok' in Em0 as [[g1 g2] [EI Em0]]. injection Em0 as <-. exists 0, g1, g2. split; [congruence|]. split; [reflexivity|auto].
      - injection Em0 as <-. exists e, [], []. split; [congruence|]. split; [reflexivity|discriminate]. }
    destruct M as [ps [Eps [NN [e [g1 [g2 [Ee [-> TR]]]]]]]]. exists ps. split; [exact Eps|]. split; [exact NN|].
    destruct (iref_length rg ps) as [L1 L2]. assert (LP : length ps = num_vertices g) by (rewrite (mapM_length _ _ _ Eps), NV; reflexivity). rewrite LP in L1, L2.
    destruct (ivars_maps (p_search_radius p) (ifix g rg) (iref1 rg ps)) as [A1 [A2 [A3 A4]]]. destruct (ivars_maps (p_search_radius p) (ifix g rg) (iref2 rg ps)) as [B1 [B2 [B3 B4]]]. rewrite L1 in A4. rewrite L2 in B4.
    split; cbn; try reflexivity; try assumption.
    - split; cbn; try reflexivity; try assumption; try (rewrite ivars_length; assumption).
      + unfold itheta. rewrite map_length. reflexivity.
      + intros Hn. destruct (init_traction_ok _ _ _ _ PL (TR Hn) ND) as [F1 [F2 _]]. auto.
      + rewrite A1, B1. repeat split; intros i _; reflexivity.
    - intros v Hv. unfold itheta in Hv. apply in_map_iff in Hv as [? [<- _]]. exact NN.
    - intros Hn. destruct (init_traction_ok _ _ _ _ PL (TR Hn) ND) as [_ [_ F]]. exact F. }
  destruct INIT as [ps [Eps [NN PM]]]. pose proof (xy_planar _ _ Eps PL) as GPS. assert (LP : length ps = num_vertices g) by (rewrite (mapM_length _ _ _ Eps), NV; reflexivity).
  exists g, rg, ps. split; [exact Eg|]. split; [exact RG|]. split; [exact GPS|]. split; [exact LP|]. split; [rewrite GV; f_equal; rewrite LP, NV, GP; reflexivity|].
  destruct (iref_length rg ps) as [LR1 LR2]. rewrite LP in LR1, LR2.
  assert (LT0 : length (itheta g rg (p_initial_temperature p)) = num_vertices (theta_grid g rg)) by (unfold itheta; rewrite map_length; reflexivity).
  (* first solve *)
  assert (Em' : m = m_loaded u 0 m0). { unfold mech_solved, mech_solve in Em. apply bind_ok' in Em as [x [_ E]]. injection E as <-. reflexivity. }
  pose proof (pm_inv _ _ _ _ _ _ _ _ _ _ _ PM) as IM0. assert (IM : minv p g rg (se_traction u) (ifx g rg) (iref1 rg ps) (iref2 rg ps) m) by (rewrite Em'; apply m_solve_inv, IM0).
  destruct (mech_getters u g rg _ _ _ _ IM) as [Gp [Gy Gth]].
  assert (Q1 : ms_prev_y1 m = iref1 rg ps) by (rewrite Em'; exact (pm_p1 _ _ _ _ _ _ _ _ _ _ _ PM)). assert (Q2 : ms_prev_y2 m = iref2 rg ps) by (rewrite Em'; exact (pm_p2 _ _ _ _ _ _ _ _ _ _ _ PM)). assert (Q3 : ms_prev_theta m = itheta g rg (p_initial_temperature p)) by (rewrite Em'; exact (pm_th _ _ _ _ _ _ _ _ _ _ _ PM)).
  rewrite Q1, Q2 in Gp. rewrite Q3 in Gth. rewrite Gp, Gth, Gy in H.
  set (t00 := mkTherm g rg 0 0 [] [] [] [] [] [] 0 (se_external u)) in *. set (s0 := mkSim p g rg m t00 [] tau (- tau) 0 None None 1) in *.
  (* the statics follow from the success of the first append *)
  assert (ST : statics u g rg).
  { split; [unfold num_vertices; rewrite GV, seq_length; lia| |exact PL|].
    - destruct (num_vertices (theta_grid g rg)) eqn:Z; [|lia]. exfalso. unfold finish, append_step in H. assert (Z' : nd_data (theta_array g rg (itheta g rg (p_initial_temperature p))) = []) by (destruct (itheta g rg (p_initial_temperature p)); [reflexivity|discriminate]). rewrite Z' in H. discriminate.
    - fold p. destruct RG as [[Ereg Er]|[e [k [r [Ereg [_ [_ Er]]]]]]]; rewrite Ereg; [exact Er|].
      unfold finish in H. destruct (append_step s0 _ _) as [s1 [a|er]] eqn:EA; [|discriminate]. unfold append_step in EA.
      destruct (np_max _) as [mt|]; [|discriminate]. destruct (np_min _) as [x0|]; [|discriminate]. destruct (np_max _) as [x1|]; [|discriminate]. destruct (np_min _) as [y0|]; [|discriminate]. destruct (np_max _) as [y1|]; [|discriminate].
      destruct (new_step _ _ _ _ _) as [st|] eqn:EN; [|discriminate]. unfold new_step in EN. cbn [s_params s_grid s_refined s0] in EN. rewrite Ereg, Er in EN. unfold RegularizedStep_ in EN.
      destruct (negb _); [discriminate|]. destruct (negb _); [discriminate|]. apply bind_ok' in EN as [? [_ EN]]. apply bind_ok' in EN as [? [_ EN]]. apply bind_ok' in EN as [? [_ EN]]. apply bind_ok' in EN as [pg [Epg _]]. exists r, pg. auto. }
  split; [exact ST|].
  destruct (append_ok u g rg ST s0 (iref1 rg ps) (iref2 rg ps) (itheta g rg (p_initial_temperature p)) eq_refl eq_refl eq_refl LR1 LR2 LT0) as [st0 [mx [x0 [x1 [y0 [y1 [EA [HO0 EXT0]]]]]]]].
  rewrite EA in H. cbn [finish] in H. set (s1 := push_step (set_plot s0 _ _ _) st0) in *.
  (* thermal model *)
  apply bind_ok' in H as [t0 [Et0 H]]. apply bind_ok' in H as [t [Et H]].
  assert (PT : posed_t u g rg (ifx g rg) (iref1 rg ps) (iref2 rg ps) t0 (iref1 rg ps) (iref2 rg ps) (map v_val (ms_y1 m)) (map v_val (ms_y2 m)) (itheta g rg (p_initial_temperature p)) 0).
  { assert (TI0 : therm_init g rg (y_array g rg (iref1 rg ps) (iref2 rg ps)) (y_array g rg (map v_val (ms_y1 m)) (map v_val (ms_y2 m))) (theta_array g rg (itheta g rg (p_initial_temperature p))) (p_search_radius p) (p_fps p) (se_external u) = Ok t0).
    { destruct RG as [[Ereg Er]|[e [k [r [Ereg [_ [_ Er]]]]]]]; rewrite Ereg in Et0; rewrite Er in *; exact Et0. }
    unfold therm_init in TI0. apply bind_ok' in TI0 as [ex [Eex TI0]]. apply bind_ok' in TI0 as [? [_ TI0]]. destruct (all_nonneg _) eqn:AN; cbn [negb] in TI0; [|discriminate]. destruct (Rltb ex 0) eqn:EX0; [discriminate|]. injection TI0 as <-. cbn [y_array theta_array nd_data] in *.
    destruct (unpack_pack (num_vertices g) (dofs rg) (iref1 rg ps) (iref2 rg ps) LR1 LR2) as [U1 U2]. rewrite U1, U2.
    pose proof (mi_y1 _ _ _ _ _ _ _ _ IM) as LY1. pose proof (mi_y2 _ _ _ _ _ _ _ _ IM) as LY2. destruct (unpack_pack (num_vertices g) (dofs rg) (map v_val (ms_y1 m)) (map v_val (ms_y2 m))) as [U3 U4]; [rewrite map_length; exact LY1|rewrite map_length; exact LY2|]. rewrite U3, U4.
    destruct (mi_pin _ _ _ _ _ _ _ _ IM) as [_ [_ [P3 P4]]].
    assert (MV : map v_val (map (new_var (p_search_radius p) false) (itheta g rg (p_initial_temperature p))) = itheta g rg (p_initial_temperature p)) by (rewrite map_map; cbn; apply map_id).
    split; cbn; try reflexivity; try exact MV; try (rewrite map_map; reflexivity).
    - split; cbn; try reflexivity; try assumption; rewrite ?map_length; try assumption.
      + intros z Hz. apply in_map_iff in Hz as [v [<- _]]. reflexivity.
      + repeat split; auto; intros i _; reflexivity.
    - intros v Hv. apply all_nonneg_spec with (v := v) in AN; assumption.
    - intros Hn. rewrite Hn in Eex. split; [exact Eex|apply Rltb_false, EX0]. }
  assert (Et' : t = t_loaded u 1 t0). { unfold therm_solved, therm_solve in Et. apply bind_ok' in Et as [x [_ E]]. injection E as <-. reflexivity. }
  pose proof (pt_inv _ _ _ _ _ _ _ _ _ _ _ _ _ PT) as IT0. assert (IT : tinv p g rg (se_external u) (ifx g rg) (iref1 rg ps) (iref2 rg ps) t) by (rewrite Et'; apply t_solve_inv, IT0).
  destruct (therm_getters u g rg _ _ _ _ IT) as [_ [Ty [_ Tth]]]. rewrite Ty, Tth in H.
  assert (Y1 : ts_y1 t = map v_val (ms_y1 m)) by (rewrite Et'; exact (pt_y1 _ _ _ _ _ _ _ _ _ _ _ _ _ PT)). assert (Y2 : ts_y2 t = map v_val (ms_y2 m)) by (rewrite Et'; exact (pt_y2 _ _ _ _ _ _ _ _ _ _ _ _ _ PT)).
  rewrite Y1, Y2 in H. set (s2 := count_call (set_therm s1 t)) in *.
  destruct (append_ok u g rg ST s2 (map v_val (ms_y1 m)) (map v_val (ms_y2 m)) (map v_val (ts_theta t)) eq_refl eq_refl eq_refl) as [st1 [mx' [x0' [x1' [y0' [y1' [EA' [HO1 EXT1]]]]]]]];
    [rewrite map_length; exact (mi_y1 _ _ _ _ _ _ _ _ IM)|rewrite map_length; exact (mi_y2 _ _ _ _ _ _ _ _ IM)|rewrite map_length; exact (ti_th _ _ _ _ _ _ _ _ IT)|].
  rewrite EA' in H. cbn [finish] in H. injection H as <-. split.
  { split; cbn; try reflexivity; try assumption. }
  exists m0, t0, st0, st1, mx, x0, x1, y0, y1, mx', x0', x1', y0', y1'. cbv zeta. rewrite <- Em', <- Et'. split; [exact PM|]. split; [exact PT|]. cbn. split; [reflexivity|]. split; [reflexivity|]. split; [reflexivity|]. split; [ring|]. split; [reflexivity|].
  split; [exact HO0|]. split; [exact HO1|]. split; [reflexivity|]. split; [reflexivity|]. split; [reflexivity|]. split; [exact EXT0|exact EXT1].
Qed.
End Build.
