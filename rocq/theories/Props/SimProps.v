(** * Properties of simulations: C57-C59, C64-C68. *)
From Coq Require Import Reals Lra Lia List ZArith String.
From Verif.Spec Require Import GridSpec QuadSpec BellSpec InterpSpec.
From Verif.Model Require Import Py Num Tensors Domain Refine Bell Interp Steps Simulation.
From Verif.Spec Require Import SimSpec LiveSpec.
From Verif.Proofs Require Import Lib GridP GridCover StdOrder BellQ StepP SimP SimQ SimR SimH SimL SimA SimE.
From Verif.Props Require Import GridProps InterpProps.
Local Open Scope R_scope.
Import ListNotations.

(** The grid a simulation works with is the grid of its domain at the scale of its parameters. *)
Theorem C57_grid_of_the_domain : forall u s, reachable u s ->
  domain_grid (se_order u) (se_width u) (se_height u) (se_fix u) (p_scale (se_params u)) = Ok (s_grid s) /\ s_params s = se_params u /\
  (s_refined s = None <-> p_regularization (se_params u) = None) /\
  (forall r, s_refined s = Some r -> exists k, p_refinement_factor (se_params u) = Some k /\ refine (s_grid s) k = Ok r).
Proof.
  intros u s H. destruct (reachable_hist u s H) as (g & rg & ps & G & HI). destruct (hist_grid _ _ _ _ _ HI) as (-> & -> & ->).
  split; [exact (gr_grid _ _ _ _ G)|]. split; [reflexivity|]. destruct (gr_ref _ _ _ _ G) as [[A ->]|(e & k & r & A & B & C & ->)].
  - split; [tauto|discriminate].
  - split; [rewrite A; split; discriminate|]. intros r' E. injection E as <-. eauto.
Qed.
Print Assumptions C57_grid_of_the_domain.

(** ** C57 *)
(** In every recorded step, also after runs that raised, every Dirichlet vertex sits at its reference position;
    in the regularized scheme as well. *)
Theorem C57_dirichlet_vertices_stay : forall u s st v x y, reachable u s -> In st (s_steps s) -> In v (b_vertices (g_dirichlet (s_grid s))) ->
  nth_error (g_points (s_grid s)) v = Some [x; y] -> y_at (st_y_data st) v 0 0 = Some x /\ y_at (st_y_data st) v 1 0 = Some y.
Proof.
  intros u s st v x y H Hst Hv Hp. destruct (reachable_hist u s H) as (g & rg & ps & G & HI). destruct (hist_grid _ _ _ _ _ HI) as (Eg & _ & _). rewrite Eg in *.
  destruct (gs_holds _ _ _ _ _ (hi_good _ _ _ _ _ HI st Hst)) as (a1 & a2 & th & HO & L1 & L2 & L3 & P1 & P2). rewrite (ho_y _ _ _ _ _ _ HO).
  destruct (ground_bounds _ _ _ _ G) as (_ & DB & _). pose proof (DB v Hv) as Lv. rewrite !y_at_zero by (try assumption; lia). cbn [Nat.eqb].
  apply (points_nth g ps v x y (gr_points _ _ _ _ G)) in Hp. destruct (iref_nth rg ps v x y Hp) as [<- <-]. pose proof (ifx_dirichlet g rg v Lv Hv) as F. split; [apply P1, F|apply P2, F].
Qed.
Print Assumptions C57_dirichlet_vertices_stay.
(** Without regularization the whole Dirichlet boundary stays in place: the recorded deformation is the identity along
    every Dirichlet edge. *)
Theorem C57_dirichlet_edges_stay : forall u s st a b p q t, reachable u s -> s_refined s = None -> In st (s_steps s) -> In (a, b) (b_edges (g_dirichlet (s_grid s))) ->
  point_at (s_grid s) a p -> point_at (s_grid s) b q ->
  deform_on_edge (st_y1 st) (st_y2 st) (a, b) t = Ok [t * fst p + (1 - t) * fst q; t * snd p + (1 - t) * snd q].
Proof.
  intros u s st a b p q t H Hn Hst He Hp Hq. destruct (C57_grid_of_the_domain u s H) as (Eg & _). pose proof H as H0.
  destruct (reachable_hist u s H) as (g & rg & ps & G & HI). destruct (hist_grid _ _ _ _ _ HI) as (Eg' & Er & _). rewrite Er in Hn. subst rg.
  pose proof (gr_valid _ _ _ _ G) as V. pose proof (params_ok u V) as (_ & _ & _ & PS & _). destruct V as [Hw [Hh _]].
  destruct (fits_exists _ _ Hw PS) as [mc Hmc]. destruct (fits_exists _ _ Hh PS) as [nc Hnc]. destruct (C17_dirichlet_edge_ends _ _ _ _ _ _ _ _ _ _ PS Hmc Hnc Eg He) as [Ha Hb].
  destruct (C57_dirichlet_vertices_stay u s st a _ _ H0 Hst Ha Hp) as [A1 A2]. destruct (C57_dirichlet_vertices_stay u s st b _ _ H0 Hst Hb Hq) as [B1 B2]. rewrite Eg' in *.
  destruct (gs_holds _ _ _ _ _ (hi_good _ _ _ _ _ HI st Hst)) as (a1 & a2 & th & HO & L1 & L2 & L3 & _). rewrite (ho_y _ _ _ _ _ _ HO) in *.
  destruct (ground_bounds _ _ _ _ G) as (_ & DB & _). pose proof (DB a Ha) as La. pose proof (DB b Hb) as Lb. rewrite y_at_zero in A1, A2, B1, B2 by (try assumption; lia). cbn [Nat.eqb dofs] in *. rewrite Nat.mul_1_r in *.
  rewrite (ho_i1 _ _ _ _ _ _ HO), (ho_i2 _ _ _ _ _ _ HO). unfold deform_on_edge. cbn [i_on_edge fst snd]. unfold py_nth. rewrite A1, A2, B1, B2. reflexivity.
Qed.
Print Assumptions C57_dirichlet_edges_stay.
(** The example (Proofs/SimE.v): unit square, left side fixed, a solver driving every free variable to its upper bound,
    three runs' worth of steps, with and without regularization. *)
Lemma ex_state reg : (forall e, reg = Some e -> 0 <= e) -> let u := ex_setting reg [] in exists s, undisturbed u s /\ List.length (s_steps s) = 5%nat /\
  domain_grid std_order 1 1 (FixOne "left") (1/2) = Ok (s_grid s) /\ (s_refined s = None <-> reg = None) /\ forall k, (k < 5)%nat -> exists st, nth_error (s_steps s) k = Some st.
Proof.
  intros H u. destruct (ex_runs reg 3 H ltac:(lia)) as (s0 & s & C & E & U0 & U). exists s. split; [exact U|].
  assert (L : List.length (s_steps s) = 5%nat).
  { pose proof (reachable_hist u s0 (undisturbed_reachable u s0 U0)) as (g & rg & ps & G & HI).
    destruct (construct_inv u s0 (ex_valid reg [] H) C) as (g' & rg' & ps' & _ & _ & _ & _ & _ & _ & _ & m0 & t0 & st0 & st1 & mx & x0 & x1 & y0 & y1 & mx' & x0' & x1' & y0' & y1' & _ & _ & _ & _ & E0 & _).
    clear - E E0 HI. unfold run in E. cbn [Z.leb Z.eqb Z.compare] in E. change (Z.to_nat 3) with 3%nat in E.
    assert (ONE : forall s s', hist u g rg ps s -> run_single_step (se_solver u) s = (s', Ok tt) -> hist u g rg ps s' /\ List.length (s_steps s') = S (List.length (s_steps s))).
    { intros s1 s2 HH E1. split; [exact (hist_single u g rg ps _ _ _ HH E1)|]. destruct (single_step u g rg _ _ _ (hi_st _ _ _ _ _ HH) s1 s2 _ (hi_inv _ _ _ _ _ HH) E1) as [_ [(e & Z & _)|(_ & m1 & t1 & st & mx1 & x2 & x3 & y2 & y3 & _ & _ & _ & _ & E3 & _)]]; [discriminate|]. rewrite E3, app_length. cbn. lia. }
    assert (LL : forall n s s', hist u g rg ps s -> run_loop (se_solver u) n s = (s', Ok tt) -> List.length (s_steps s') = (n + List.length (s_steps s))%nat).
    { induction n as [|n IH]; intros s1 s2 HH E1; cbn [run_loop] in E1; [injection E1 as <-; reflexivity|]. apply andthen_inv in E1 as [[e [_ E1]]|[s3 [E1 E2]]]; [discriminate|]. destruct (ONE _ _ HH E1) as [H3 L3]. rewrite (IH _ _ H3 E2), L3. lia. }
    rewrite (LL 3%nat s0 s HI E), E0. reflexivity. }
  split; [exact L|]. destruct (C57_grid_of_the_domain u s (undisturbed_reachable u s U)) as (Eg & _ & Er & _). split; [exact Eg|]. split; [exact Er|]. intros k Hk. destruct (nth_error (s_steps s) k) as [st|] eqn:Q; [eauto|]. apply nth_error_None in Q. lia.
Qed.
(** After four steps the vertex at (0, 1/2) is where it was, the vertex at (1, 1/2) has moved by (4/10, 4/10). *)
Example C57_example : forall reg, reg = None \/ reg = Some 1 -> let u := ex_setting reg [] in exists s st v w, reachable u s /\ nth_error (s_steps s) 4 = Some st /\
  In v (b_vertices (g_dirichlet (s_grid s))) /\ nth_error (g_points (s_grid s)) v = Some [0; 1/2] /\ y_at (st_y_data st) v 0 0 = Some 0 /\ y_at (st_y_data st) v 1 0 = Some (1/2) /\
  nth_error (g_points (s_grid s)) w = Some [1; 1/2] /\ y_at (st_y_data st) w 0 0 = Some (14/10) /\ y_at (st_y_data st) w 1 0 = Some (9/10).
Proof.
  intros reg Hr u. assert (Hr' : forall e, reg = Some e -> 0 <= e) by (intros e E; destruct Hr as [-> | ->]; [discriminate|injection E as <-; lra]). destruct (ex_state reg Hr') as (s & U & L & Eg & _ & Q). destruct (Q 4%nat ltac:(lia)) as [st Hst].
  pose proof (ex_vertex u _ 0 1 Eg ltac:(lia) ltac:(lia)) as V. pose proof (ex_vertex u _ 2 1 Eg ltac:(lia) ltac:(lia)) as W. set (v := pair_to_vertex 3 0 1) in *. set (w := pair_to_vertex 3 2 1) in *.
  exists s, st, v, w. split; [apply undisturbed_reachable, U|]. split; [exact Hst|].
  assert (DV : In v (b_vertices (g_dirichlet (s_grid s)))). { apply (C17_dirichlet_vertices _ _ _ _ _ _ _ _ ex_pos ex_fits1 ex_fits1 Eg). exists Left. split; [left; reflexivity|]. exists 0%nat, 1%nat. split; [exact V|reflexivity]. }
  destruct V as [_ V]. cbn [INR] in V. replace (0 * (1/2)) with 0 in V by lra. replace (1 * (1/2)) with (1/2) in V by lra.
  destruct (C57_dirichlet_vertices_stay u s st v _ _ (undisturbed_reachable u s U) (nth_error_In _ _ Hst) DV V) as [A B]. destruct (ex_entry reg s 4 st w 2 1 U Hst W ltac:(lia)) as (C & D & _). destruct W as [_ W]. cbn [INR] in W, C, D.
  replace ((1 + 1) * (1/2)) with 1 in W by lra. replace (1 * (1/2)) with (1/2) in W by lra. split; [exact DV|]. split; [exact V|]. split; [exact A|]. split; [exact B|]. split; [exact W|]. rewrite C, D. split; f_equal; lra.
Qed.


(** ** C59 *)
Theorem C59_temperatures_non_negative : forall u s st v, reachable u s -> respects_domain (se_solver u) -> In st (s_steps s) -> In v (nd_data (st_theta_data st)) -> 0 <= v.
Proof.
  intros u s st v H RD Hst Hv. destruct (reachable_hist u s H) as (g & rg & ps & G & HI). exact (gs_nn _ _ _ _ _ (hi_good _ _ _ _ _ HI st Hst) RD v Hv).
Qed.
Print Assumptions C59_temperatures_non_negative.
(** So is the recorded temperature function: in every triangle, at every point. *)
Theorem C59_temperature_function_non_negative : forall u s st t L w, reachable u s -> respects_domain (se_solver u) -> In st (s_steps s) -> non_negative L ->
  i_call (st_theta st) t L = Ok w -> 0 <= w.
Proof.
  intros u s st [[a b] c] L w H RD Hst [P1 [P2 P3]] E. pose proof (fun v => C59_temperatures_non_negative u s st v H RD Hst) as NN.
  destruct (reachable_hist u s H) as (g & rg & ps & G & HI). destruct (gs_holds _ _ _ _ _ (hi_good _ _ _ _ _ HI st Hst)) as (a1 & a2 & th & HO & _). rewrite (ho_ith _ _ _ _ _ _ HO) in E. rewrite (ho_th _ _ _ _ _ _ HO) in NN. cbn [theta_array nd_data] in NN.
  cbn [i_call] in E. apply bind_ok' in E as [x [X E]]. apply bind_ok' in E as [y [Y E]]. apply bind_ok' in E as [z [Z E]]. injection E as <-. apply py_nth_ok in X, Y, Z. pose proof (NN x (nth_error_In _ _ X)). pose proof (NN y (nth_error_In _ _ Y)). pose proof (NN z (nth_error_In _ _ Z)). nra.
Qed.
Print Assumptions C59_temperature_function_non_negative.
Example C59_example : forall reg, reg = None \/ reg = Some 1 -> let u := ex_setting reg [] in exists s st, reachable u s /\ respects_domain (se_solver u) /\ nth_error (s_steps s) 4 = Some st /\ In (14/10) (nd_data (st_theta_data st)).
Proof.
  intros reg Hr u. assert (Hr' : forall e, reg = Some e -> 0 <= e) by (intros e E; destruct Hr as [-> | ->]; [discriminate|injection E as <-; lra]). destruct (ex_state reg Hr') as (s & U & L & Eg & _ & Q). destruct (Q 4%nat ltac:(lia)) as [st Hst].
  exists s, st. split; [apply undisturbed_reachable, U|]. split; [apply push_domain|]. split; [exact Hst|]. destruct (ex_entry reg s 4 st _ 2 1 U Hst (ex_vertex u _ 2 1 Eg ltac:(lia) ltac:(lia)) ltac:(lia)) as (_ & _ & T).
  destruct (reachable_hist u s (undisturbed_reachable u s U)) as (g & rg & ps & G & HI). destruct (hist_grid _ _ _ _ _ HI) as (E1 & E2 & _). rewrite E1, E2 in T. specialize (T 0%nat (sta_NT _ _ _ (hi_st _ _ _ _ _ HI))). apply nth_error_In in T. cbn [INR] in T. replace (14/10) with (1 + (1 + 1 + 1 + 1) * (1/10)) by lra. exact T.
Qed.


(** ** C67, C66, C58 *)
(** Steps linked by answers of the solver, in terms of the problems posed. *)
Lemma link_problems u g rg ps s a b a1 a2 th m t c c' tm : hist u g rg ps s -> holds g rg a a1 a2 th -> posed_m u g rg (ifx g rg) (iref1 rg ps) (iref2 rg ps) m a1 a2 th tm ->
  posed_t u g rg (ifx g rg) (iref1 rg ps) (iref2 rg ps) t a1 a2 (map v_val (ms_y1 (m_loaded u c m))) (map v_val (ms_y2 (m_loaded u c m))) th tm ->
  holds g rg b (map v_val (ms_y1 (m_loaded u c m))) (map v_val (ms_y2 (m_loaded u c m))) (map v_val (ts_theta (t_loaded u c' t))) ->
  mech_problem_from u s a tm m /\
  let y := mech_y (fst (mech_solve (sv_mech (se_solver u) c m) m)) in
  therm_problem_from u s a y tm t /\
  st_y_data b = y /\ st_theta_data b = therm_theta (fst (therm_solve (sv_therm (se_solver u) c' t) t)).
Proof.
  intros HH HO PM PT HB. destruct (hist_grid _ _ _ _ _ HH) as (Eg & Er & _). cbv zeta.
  pose proof (pm_inv _ _ _ _ _ _ _ _ _ _ _ PM) as IM. pose proof (pt_inv _ _ _ _ _ _ _ _ _ _ _ _ _ PT) as IT.
  destruct (mech_getters u g rg _ _ _ _ IM) as [Gp [Gy Gth]]. destruct (therm_getters u g rg _ _ _ _ IT) as [Hp [Hy [Hpth Hth]]].
  assert (I2 : minv (se_params u) g rg (se_traction u) (ifx g rg) (iref1 rg ps) (iref2 rg ps) (m_loaded u c m)) by (apply m_solve_inv, IM). assert (J2 : tinv (se_params u) g rg (se_external u) (ifx g rg) (iref1 rg ps) (iref2 rg ps) (t_loaded u c' t)) by (apply t_solve_inv, IT).
  destruct (mech_getters u g rg _ _ _ _ I2) as [_ [Gy2 _]]. destruct (therm_getters u g rg _ _ _ _ J2) as [_ [_ [_ Hth2]]]. unfold m_loaded in Gy2 at 1. unfold t_loaded in Hth2 at 1. rewrite Gy2, Hth2.
  rewrite (pm_p1 _ _ _ _ _ _ _ _ _ _ _ PM), (pm_p2 _ _ _ _ _ _ _ _ _ _ _ PM) in Gp. rewrite (pm_v1 _ _ _ _ _ _ _ _ _ _ _ PM), (pm_v2 _ _ _ _ _ _ _ _ _ _ _ PM) in Gy. rewrite (pm_th _ _ _ _ _ _ _ _ _ _ _ PM) in Gth.
  rewrite (pt_p1 _ _ _ _ _ _ _ _ _ _ _ _ _ PT), (pt_p2 _ _ _ _ _ _ _ _ _ _ _ _ _ PT) in Hp. rewrite (pt_y1 _ _ _ _ _ _ _ _ _ _ _ _ _ PT), (pt_y2 _ _ _ _ _ _ _ _ _ _ _ _ _ PT) in Hy. rewrite (pt_th _ _ _ _ _ _ _ _ _ _ _ _ _ PT) in Hpth. rewrite (pt_v _ _ _ _ _ _ _ _ _ _ _ _ _ PT) in Hth.
  assert (BOX : forall r (xs : list pvar) vs x v, map v_lb xs = map (fun w => w - r) vs -> map v_ub xs = map (fun w => w + r) vs -> In (x, v) (combine xs vs) -> v_lb x = v - r /\ v_ub x = v + r).
  { intros r xs. induction xs as [|x0 xs IH]; intros [|v0 vs] x v B1 B2 I; cbn in I; try contradiction. cbn in B1, B2. injection B1 as B1 B1'. injection B2 as B2 B2'. destruct I as [I|I]; [injection I as <- <-; auto|exact (IH vs x v B1' B2' I)]. }
  split; [|split; [|split]].
  - split.
    + rewrite Gp, (ho_y _ _ _ _ _ _ HO). reflexivity.
    + rewrite Gth, (ho_th _ _ _ _ _ _ HO). reflexivity.
    + rewrite Gy, (ho_y _ _ _ _ _ _ HO). reflexivity.
    + intros x v. rewrite (pm_p1 _ _ _ _ _ _ _ _ _ _ _ PM), (pm_p2 _ _ _ _ _ _ _ _ _ _ _ PM). apply BOX; rewrite !map_app; f_equal; apply PM.
    + rewrite Eg, Er. split; apply IM.
    + split; [apply IM|]. split; apply IM.
    + rewrite Eg, Er. intros i x Hx. assert (F : nth_error (ifx g rg) i = Some (v_fixed x)) by (destruct Hx as [Hx|Hx]; [rewrite <- (mi_f1 _ _ _ _ _ _ _ _ IM)|rewrite <- (mi_f2 _ _ _ _ _ _ _ _ IM)]; rewrite nth_error_map, Hx; reflexivity).
      pose proof (ifx_spec g rg i) as S. rewrite F in S. split.
      * intros E. rewrite E in S. apply S. reflexivity.
      * intros E. assert (Q : Some (v_fixed x) = Some true); [|injection Q as ->; reflexivity]. apply S. split; [|exact E]. assert (L : length (ifx g rg) = (num_vertices g * dofs rg)%nat) by (unfold ifx; rewrite map_length; apply range_length). rewrite <- L. apply nth_error_Some. congruence.
    + rewrite Eg, Er. apply PM.
  - split.
    + rewrite Hp, (ho_y _ _ _ _ _ _ HO). reflexivity.
    + exact Hy.
    + rewrite Hpth, (ho_th _ _ _ _ _ _ HO). reflexivity.
    + rewrite Hth, (ho_th _ _ _ _ _ _ HO). reflexivity.
    + intros x v. rewrite (pt_th _ _ _ _ _ _ _ _ _ _ _ _ _ PT). apply BOX; apply PT.
    + rewrite Eg, Er. split; apply IT.
    + split; apply IT.
    + rewrite Er. apply PT.
  - exact (ho_y _ _ _ _ _ _ HB).
  - exact (ho_th _ _ _ _ _ _ HB).
Qed.
(** Step k+1 (k >= 0) comes from the solver's answer to the mechanical problem posed by step k, with the traction at time
    k/fps, and then from its answer to the thermal problem posed by step k and the new deformation, with the external
    temperature at time k/fps. *)
Theorem C67_staggered : forall u s k a b, undisturbed u s -> nth_error (s_steps s) k = Some a -> nth_error (s_steps s) (S k) = Some b ->
  exists m t,
    let time := INR k / p_fps (se_params u) in
    mech_problem_from u s a time m /\
    let y := mech_y (fst (mech_solve (sv_mech (se_solver u) (2 * k) m) m)) in
    therm_problem_from u s a y time t /\
    st_y_data b = y /\ st_theta_data b = therm_theta (fst (therm_solve (sv_therm (se_solver u) (2 * k + 1) t) t)).
Proof.
  intros u s k a b H Ha Hb. destruct (undisturbed_chain u s H) as (g & rg & ps & G & CH). pose proof (ch_hist _ _ _ _ _ CH) as HH.
  destruct (ch_links _ _ _ _ _ CH k a b Ha Hb) as (a1 & a2 & th & m & t & HO & PM & PT & HB). exists m, t. cbv zeta.
  assert (TM : INR k * s_tau s = INR k / p_fps (se_params u)).
  { pose proof (si_tau _ _ _ _ _ _ _ (hi_inv _ _ _ _ _ HH)) as T. destruct (Req_dec (p_fps (se_params u)) 0) as [Z|Z].
    - rewrite Z in T. rewrite ndiv_R0 in T. discriminate.
    - rewrite ndiv_R in T by exact Z. injection T as <-. field. exact Z. }
  rewrite TM in *. exact (link_problems u g rg ps s a b a1 a2 th m t _ _ _ HH HO PM PT HB).
Qed.
Print Assumptions C67_staggered.
(** The forcing of step k+1 is evaluated at time k/fps: the statement of C66 separately. *)
Theorem C66_schedule : forall u s k b, undisturbed u s -> s_refined s = None -> nth_error (s_steps s) (S k) = Some b ->
  exists m t, let time := INR k / p_fps (se_params u) in
    (forall v x y, In v (b_vertices (g_neumann (s_grid s))) -> nth_error (g_points (s_grid s)) v = Some [x; y] ->
       exists l g1 g2, se_traction u time x y = Ok l /\ nth_error l 0 = Some g1 /\ nth_error l 1 = Some g2 /\ dget Nat.eqb v (ms_g1 m) = Ok g1 /\ dget Nat.eqb v (ms_g2 m) = Ok g2) /\
    se_external u time = Ok (ts_ext t) /\ 0 <= ts_ext t /\
    st_y_data b = mech_y (fst (mech_solve (sv_mech (se_solver u) (2 * k) m) m)) /\
    st_theta_data b = therm_theta (fst (therm_solve (sv_therm (se_solver u) (2 * k + 1) t) t)).
Proof.
  intros u s k b H Hn Hb. destruct (nth_error (s_steps s) k) as [a|] eqn:Ha; [|apply nth_error_None in Ha; assert (S k < length (s_steps s))%nat by (apply nth_error_Some; congruence); lia].
  destruct (C67_staggered u s k a b H Ha Hb) as (m & t & MP & TP & E1 & E2). exists m, t. cbv zeta. split; [|split; [|split; [|split]]]; try assumption; try apply (tp_external _ _ _ _ _ _ TP Hn).
  intros v x y Hv Hxy. destruct (mp_traction _ _ _ _ _ MP Hn v Hv) as (x' & y' & l & g1 & g2 & Q & A). rewrite Q in Hxy. injection Hxy as -> ->. exists l, g1, g2. exact A.
Qed.
Print Assumptions C66_schedule.
(** The forcing of the example does depend on time. *)
Example C66_example : let u := ex_setting None [] in exists s b v, undisturbed u s /\ s_refined s = None /\ nth_error (s_steps s) (S 3) = Some b /\ In v (b_vertices (g_neumann (s_grid s))) /\
  nth_error (g_points (s_grid s)) v = Some [1; 1/2] /\ se_traction u (INR 3 / p_fps (se_params u)) 1 (1/2) = Ok [3/10; 1/2] /\ se_external u (INR 3 / p_fps (se_params u)) = Ok (13/10).
Proof.
  intros u. destruct (ex_state None ltac:(discriminate)) as (s & U & L & Eg & Er & Q). destruct (Q 4%nat ltac:(lia)) as [b Hb]. pose proof (ex_vertex u _ 2 1 Eg ltac:(lia) ltac:(lia)) as W. exists s, b, (pair_to_vertex 3 2 1). split; [exact U|]. split; [apply Er; reflexivity|]. split; [exact Hb|].
  split. { apply (C18_neumann_vertices_exact_partial _ _ _ _ _ _ _ _ ex_pos ex_fits1 ex_fits1 Eg). split; [exists Right, 2%nat, 1%nat; split; [exact W|reflexivity]|]. intros d d' [F|[]] [F'|[]]; destruct d, d'; try discriminate; reflexivity. }
  destruct W as [_ W]. cbn [INR] in W. replace ((1 + 1) * (1/2)) with 1 in W by lra. replace (1 * (1/2)) with (1/2) in W by lra. split; [exact W|]. cbn [u ex_setting ex_params se_traction se_external se_params p_fps INR]. replace ((1 + 1 + 1) / 10) with (3/10) by field. split; [|f_equal; lra]. replace (1 * (1/2)) with (1/2) by lra. reflexivity.
Qed.


(** ** C58 *)
(** As long as no run has raised: no parameter of the deformation and no temperature changes by more than the search
    radius between consecutive steps, for every solver that respects bounds. *)
Theorem C58_bounded_changes : forall u s k a b, undisturbed u s -> respects_bounds (se_solver u) -> nth_error (s_steps s) k = Some a -> nth_error (s_steps s) (S k) = Some b ->
  (forall v c j x, y_at (st_y_data a) v c j = Some x -> exists x', y_at (st_y_data b) v c j = Some x' /\ Rabs (x' - x) <= p_search_radius (se_params u)) /\
  (forall v x, theta_at (st_theta_data a) v = Some x -> exists x', theta_at (st_theta_data b) v = Some x' /\ Rabs (x' - x) <= p_search_radius (se_params u)).
Proof.
  intros u s k a b H [RB RB3] Ha Hb. destruct (undisturbed_chain u s H) as (g & rg & ps & G & CH). pose proof (params_ok u (gr_valid _ _ _ _ G)) as (_ & PR & _).
  destruct (ch_links _ _ _ _ _ CH k a b Ha Hb) as (a1 & a2 & th & m & t & HO & PM & PT & HB). rewrite (ho_y _ _ _ _ _ _ HO), (ho_th _ _ _ _ _ _ HO), (ho_y _ _ _ _ _ _ HB), (ho_th _ _ _ _ _ _ HB).
  destruct (boxes (ms_y1 m) _ _ PR (pm_l1 _ _ _ _ _ _ _ _ _ _ _ PM) (pm_u1 _ _ _ _ _ _ _ _ _ _ _ PM)) as [K1 _]. destruct (boxes (ms_y2 m) _ _ PR (pm_l2 _ _ _ _ _ _ _ _ _ _ _ PM) (pm_u2 _ _ _ _ _ _ _ _ _ _ _ PM)) as [K2 _].
  destruct (boxes (ts_theta t) _ _ PR (pt_l _ _ _ _ _ _ _ _ _ _ _ _ _ PT) (pt_u _ _ _ _ _ _ _ _ _ _ _ _ _ PT)) as [_ K3]. specialize (K3 (pt_nn _ _ _ _ _ _ _ _ _ _ _ _ _ PT)). destruct (RB (2 * k)%nat m K1 K2) as [RB1 RB2].
  pose proof (load_close _ (ma_y1 (sv_mech (se_solver u) (2 * k) m)) _ _ PR (pm_v1 _ _ _ _ _ _ _ _ _ _ _ PM) (pm_l1 _ _ _ _ _ _ _ _ _ _ _ PM) (pm_u1 _ _ _ _ _ _ _ _ _ _ _ PM) RB1) as C1.
  pose proof (load_close _ (ma_y2 (sv_mech (se_solver u) (2 * k) m)) _ _ PR (pm_v2 _ _ _ _ _ _ _ _ _ _ _ PM) (pm_l2 _ _ _ _ _ _ _ _ _ _ _ PM) (pm_u2 _ _ _ _ _ _ _ _ _ _ _ PM) RB2) as C2.
  pose proof (load_close _ (ta_theta (sv_therm (se_solver u) (2 * k + 1) t)) _ _ PR (pt_v _ _ _ _ _ _ _ _ _ _ _ _ _ PT) (pt_l _ _ _ _ _ _ _ _ _ _ _ _ _ PT) (pt_u _ _ _ _ _ _ _ _ _ _ _ _ _ PT) (fun i x Hx _ => RB3 _ t K3 i x Hx)) as C3.
  pose proof (Forall2_pack _ (num_vertices g) (dofs rg) _ _ _ _ C1 C2) as CP. cbv beta in CP. split.
  - intros v c j x Hx. unfold y_at, y_array in *. cbn [nd_shape nd_data] in *. destruct (y_shape g rg) as [|n1 [|n2 [|n3 [|n4 l]]]]; try discriminate; [destruct (Nat.eqb j 0); [|discriminate]|]; exact (Forall2_nth _ _ _ _ _ CP Hx).
  - intros v x Hx. unfold theta_at, theta_array in *. cbn [nd_data] in *. exact (Forall2_nth _ _ _ _ _ C3 Hx).
Qed.
Print Assumptions C58_bounded_changes.
(** The bound is attained: in the example every free vertex and every temperature changes by exactly the search radius 1/10. *)
Example C58_example : forall reg, reg = None \/ reg = Some 1 -> let u := ex_setting reg [] in exists s a b v, undisturbed u s /\ respects_bounds (se_solver u) /\ nth_error (s_steps s) 3 = Some a /\ nth_error (s_steps s) 4 = Some b /\
  y_at (st_y_data a) v 0 0 = Some (13/10) /\ y_at (st_y_data b) v 0 0 = Some (14/10) /\ theta_at (st_theta_data a) 0 = Some (13/10) /\ theta_at (st_theta_data b) 0 = Some (14/10) /\ p_search_radius (se_params u) = 1/10.
Proof.
  intros reg Hr u. assert (Hr' : forall e, reg = Some e -> 0 <= e) by (intros e E; destruct Hr as [-> | ->]; [discriminate|injection E as <-; lra]). destruct (ex_state reg Hr') as (s & U & L & Eg & _ & Q). destruct (Q 3%nat ltac:(lia)) as [a Ha]. destruct (Q 4%nat ltac:(lia)) as [b Hb].
  pose proof (ex_vertex u _ 2 1 Eg ltac:(lia) ltac:(lia)) as W. exists s, a, b, (pair_to_vertex 3 2 1). destruct (ex_entry reg s 3 a _ 2 1 U Ha W ltac:(lia)) as (A1 & _ & A2). destruct (ex_entry reg s 4 b _ 2 1 U Hb W ltac:(lia)) as (B1 & _ & B2).
  destruct (reachable_hist u s (undisturbed_reachable u s U)) as (g & rg & ps & G & HI). destruct (hist_grid _ _ _ _ _ HI) as (E1 & E2 & _). rewrite E1, E2 in A2, B2. specialize (A2 0%nat (sta_NT _ _ _ (hi_st _ _ _ _ _ HI))). specialize (B2 0%nat (sta_NT _ _ _ (hi_st _ _ _ _ _ HI))).
  cbn [INR] in A1, A2, B1, B2. rewrite A1, A2, B1, B2. split; [exact U|]. split; [apply push_bounds|]. repeat split; try assumption; f_equal; lra.
Qed.

(** The starting values the solver is given are inside the bounds it is given, fixed variables included. *)
Theorem C58_guess_within_bounds : forall u s k b, undisturbed u s -> nth_error (s_steps s) (S k) = Some b ->
  exists m t, (forall x, In x (ms_y1 m ++ ms_y2 m) -> v_lb x <= v_val x <= v_ub x) /\ (forall x, In x (ts_theta t) -> v_lb x <= v_val x <= v_ub x) /\
    st_y_data b = mech_y (fst (mech_solve (sv_mech (se_solver u) (2 * k) m) m)) /\ st_theta_data b = therm_theta (fst (therm_solve (sv_therm (se_solver u) (2 * k + 1) t) t)).
Proof.
  intros u s k b H Hb. destruct (nth_error (s_steps s) k) as [a|] eqn:Ha; [|apply nth_error_None in Ha; assert (S k < length (s_steps s))%nat by (apply nth_error_Some; congruence); lia].
  destruct (undisturbed_chain u s H) as (g & rg & ps & G & CH). pose proof (params_ok u (gr_valid _ _ _ _ G)) as (_ & PR & _).
  destruct (ch_links _ _ _ _ _ CH k a b Ha Hb) as (a1 & a2 & th & m & t & HO & PM & PT & HB). exists m, t. pose proof (pm_inv _ _ _ _ _ _ _ _ _ _ _ PM) as IM. pose proof (pt_inv _ _ _ _ _ _ _ _ _ _ _ _ _ PT) as IT.
  assert (I2 : minv (se_params u) g rg (se_traction u) (ifx g rg) (iref1 rg ps) (iref2 rg ps) (m_loaded u (2 * k) m)) by (apply m_solve_inv, IM). assert (J2 : tinv (se_params u) g rg (se_external u) (ifx g rg) (iref1 rg ps) (iref2 rg ps) (t_loaded u (2 * k + 1) t)) by (apply t_solve_inv, IT).
  destruct (mech_getters u g rg _ _ _ _ I2) as [_ [Gy2 _]]. destruct (therm_getters u g rg _ _ _ _ J2) as [_ [_ [_ Hth2]]]. unfold m_loaded in Gy2 at 1. unfold t_loaded in Hth2 at 1. rewrite Gy2, Hth2, (ho_y _ _ _ _ _ _ HB), (ho_th _ _ _ _ _ _ HB).
  assert (BOX : forall (xs : list pvar) vs x, map v_val xs = vs -> map v_lb xs = map (fun w => w - p_search_radius (se_params u)) vs -> map v_ub xs = map (fun w => w + p_search_radius (se_params u)) vs -> In x xs -> v_lb x <= v_val x <= v_ub x).
  { intros xs. induction xs as [|x0 xs IH]; intros [|v0 vs] x B0 B1 B2 I; try discriminate; [destruct I|]. cbn in B0, B1, B2. injection B0 as B0 B0'. injection B1 as B1 B1'. injection B2 as B2 B2'. destruct I as [<- |I]; [lra|exact (IH vs x B0' B1' B2' I)]. }
  split; [|split; [|auto]]; intros x Hx.
  - apply in_app_or in Hx as [Hx|Hx]; [apply (BOX (ms_y1 m) a1)|apply (BOX (ms_y2 m) a2)]; try exact Hx; apply PM.
  - apply (BOX (ts_theta t) th); try exact Hx; apply PT.
Qed.
Print Assumptions C58_guess_within_bounds.

(** ** C65 *)
Theorem C65_construction : forall u s, valid_setting u -> construct u = Ok s -> length (s_steps s) = 2%nat.
Proof.
  intros u s V C. destruct (construct_inv u s V C) as (g & rg & ps & _ & _ & _ & _ & _ & _ & _ & m0 & t0 & st0 & st1 & mx & x0 & x1 & y0 & y1 & mx' & x0' & x1' & y0' & y1' & _ & _ & _ & _ & -> & _). reflexivity.
Qed.
Print Assumptions C65_construction.
Theorem C65_run_adds_steps : forall u s n s', reachable u s -> run (se_solver u) n s = (s', Ok tt) -> (1 <= n)%Z /\ exists new, s_steps s' = s_steps s ++ new /\ Z.of_nat (length new) = n.
Proof.
  intros u s n s' H E. destruct (reachable_hist u s H) as (g & rg & ps & G & HI). unfold run in E. destruct (n <=? 0)%Z eqn:L0; [discriminate|]. apply Z.leb_gt in L0. split; [lia|].
  assert (ONE : forall s s', hist u g rg ps s -> run_single_step (se_solver u) s = (s', Ok tt) -> hist u g rg ps s' /\ exists st, s_steps s' = s_steps s ++ [st]).
  { intros s1 s2 HH E1. split; [exact (hist_single u g rg ps _ _ _ HH E1)|]. destruct (single_step u g rg _ _ _ (hi_st _ _ _ _ _ HH) s1 s2 _ (hi_inv _ _ _ _ _ HH) E1) as [_ [(e & Z & _)|(_ & m1 & t1 & st & mx & x0 & x1 & y0 & y1 & _ & _ & _ & _ & E3 & _)]]; [discriminate|eauto]. }
  destruct (n =? 1)%Z eqn:L1.
  - apply Z.eqb_eq in L1 as ->. destruct (ONE _ _ HI E) as [_ [st E1]]. exists [st]. auto.
  - assert (LOOP : forall k s s', hist u g rg ps s -> run_loop (se_solver u) k s = (s', Ok tt) -> exists new, s_steps s' = s_steps s ++ new /\ length new = k).
    { induction k as [|k IH]; intros s1 s2 HH E1; cbn in E1; [injection E1 as <-; exists []; rewrite app_nil_r; auto|]. apply andthen_inv in E1 as [[e [_ E1]]|[s3 [E1 E2]]]; [discriminate|].
      destruct (ONE _ _ HH E1) as [HH3 [st E3]]. destruct (IH _ _ HH3 E2) as [new [E4 L]]. exists (st :: new). rewrite E4, E3, <- app_assoc. cbn. auto. }
    destruct (LOOP _ _ _ HI E) as [new [E1 L]]. exists new. split; [exact E1|lia].
Qed.
Print Assumptions C65_run_adds_steps.
Theorem C65_invalid_number : forall sv s n, (n <= 0)%Z -> run sv n s = (s, Err ValueError).
Proof. intros sv s n H. unfold run. apply Z.leb_le in H. rewrite H. reflexivity. Qed.
Print Assumptions C65_invalid_number.
(** Running n and then n' steps is running n + n' steps. *)
Theorem C65_run_composes : forall sv s n n' s1, (1 <= n)%Z -> (1 <= n')%Z -> run sv n s = (s1, Ok tt) -> run sv n' s1 = run sv (n + n') s.
Proof.
  intros sv s n n' s1 Hn Hn' E.
  assert (R : forall k s, (1 <= k)%Z -> run sv k s = run_loop sv (Z.to_nat k) s).
  { intros k s0 Hk. unfold run. destruct (k <=? 0)%Z eqn:A; [apply Z.leb_le in A; lia|]. destruct (k =? 1)%Z eqn:B; [|reflexivity]. apply Z.eqb_eq in B as ->. change (Z.to_nat 1) with 1%nat. cbn [run_loop]. destruct (run_single_step sv s0) as [s2 [[]|e]]; reflexivity. }
  rewrite (R n s) in E by lia. rewrite (R n' s1), (R (n + n')%Z s) by lia. rewrite Z2Nat.inj_add by lia. revert s E. generalize (Z.to_nat n) as k. induction k as [|k IH]; intros s E; cbn in E |- *; [injection E as ->; reflexivity|].
  destruct (run_single_step sv s) as [s2 [[]|e]]; cbn in *; [|discriminate]. exact (IH s2 E).
Qed.
Print Assumptions C65_run_composes.
Example C65_example : forall reg, reg = None \/ reg = Some 1 -> let u := ex_setting reg [] in exists s0 s1 s2, valid_setting u /\ construct u = Ok s0 /\ run (se_solver u) 2 s0 = (s1, Ok tt) /\ run (se_solver u) 3 s1 = (s2, Ok tt) /\ List.length (s_steps s2) = 7%nat.
Proof.
  intros reg Hr u. assert (Hr' : forall e, reg = Some e -> 0 <= e) by (intros e E; destruct Hr as [-> | ->]; [discriminate|injection E as <-; lra]). destruct (ex_runs reg 2 Hr' ltac:(lia)) as (s0 & s1 & C & E & U0 & U1).
  destruct (run_live u s1 3 U1 (ex_fps _ _) (ex_forcing _ _) push_quiet (push_domain []) ltac:(lia)) as [s2 E2]. exists s0, s1, s2. split; [exact (ex_valid reg [] Hr')|]. split; [exact C|]. split; [exact E|]. split; [exact E2|].
  destruct (C65_run_adds_steps u s0 2 s1 (undisturbed_reachable _ _ U0) E) as [_ [n1 [A1 B1]]]. destruct (C65_run_adds_steps u s1 3 s2 (undisturbed_reachable _ _ U1) E2) as [_ [n2 [A2 B2]]]. rewrite A2, A1, !app_length, (C65_construction u s0 (ex_valid reg [] Hr') C). lia.
Qed.


(** ** C64 *)
(** The first step is the identity at every point of the gridded rectangle; its strain is the identity matrix. *)
Theorem C64_identity : forall u s m n x, reachable u s -> fits (se_width u) (p_scale (se_params u)) m -> fits (se_height u) (p_scale (se_params u)) n -> (1 <= m)%nat -> (1 <= n)%nat ->
  0 <= fst x <= INR m * p_scale (se_params u) -> 0 <= snd x <= INR n * p_scale (se_params u) ->
  exists st rest, s_steps s = st :: rest /\ edeform_call (st_y1 st) (st_y2 st) (fst x) (snd x) = Ok (vec x) /\
    edeform_strain (st_y1 st) (st_y2 st) (fst x) (snd x) = Ok (mkMatrix 2 2 [[1; 0]; [0; 1]]) /\
    (s_refined s <> None -> exists T, edeform_hyper_strain (st_y1 st) (st_y2 st) (fst x) (snd x) = Ok T /\ t_data T = [[[0; 0]; [0; 0]]; [[0; 0]; [0; 0]]]).
Proof.
  intros u s m n x H Fm Fn Hm Hn Hx Hy. destruct (reachable_hist u s H) as (g & rg & ps & G & HI). destruct (hist_grid _ _ _ _ _ HI) as (_ & Er & _). destruct (hi_first _ _ _ _ _ HI) as (st & rest & Es & HO & _).
  pose proof (params_ok u (gr_valid _ _ _ _ G)) as (_ & _ & _ & PS & _). pose proof (gr_grid _ _ _ _ G) as Eg. exists st, rest. split; [exact Es|]. rewrite Er, (ho_i1 _ _ _ _ _ _ HO), (ho_i2 _ _ _ _ _ _ HO).
  destruct rg as [r|].
  - assert (CH : forall f : R * R -> list R, (forall q, length (f q) = 6%nat) -> chunks (num_vertices g) 6 (flat_map f ps) = map f ps).
    { intros f L6. rewrite <- (gr_len _ _ _ _ G). apply nth_error_ext.
      - unfold chunks. rewrite !map_length, range_length. reflexivity.
      - intros i Hi. unfold chunks in *. rewrite map_length, range_length in Hi. rewrite nth_error_map. unfold range. rewrite nth_error_nth' with (d := 0%nat) by (rewrite seq_length; exact Hi). rewrite seq_nth by exact Hi. cbn [option_map Nat.add].
        rewrite nth_error_map. clear - L6 Hi. revert i Hi. induction ps as [|q l IH]; intros i Hi; [cbn in Hi; lia|]. destruct i as [|i].
        + cbn [nth_error option_map Nat.mul flat_map]. f_equal. unfold slice. cbn [skipn]. rewrite firstn_app, L6, Nat.sub_diag, firstn_O, app_nil_r. rewrite <- (L6 q) at 1. apply firstn_all.
        + cbn [nth_error flat_map]. rewrite <- (IH i) by (cbn in Hi; lia). f_equal. unfold slice. f_equal. rewrite skipn_app, L6. replace (S i * 6 - 6)%nat with (i * 6)%nat by lia. rewrite skipn_all2 by (rewrite L6; lia). reflexivity. }
    unfold iref1, iref2 in *. rewrite !CH by (intros [? ?]; reflexivity).
    assert (IC : forall f : R * R -> list R, (forall q, length (f q) = 6%nat) -> C1Interpolation_ g (map f ps) = Ok (C1I g (map f ps))).
    { intros f L6. unfold C1Interpolation_. destruct (existsb _ _) eqn:X; [apply existsb_exists in X as [c [Hc X]]; apply in_map_iff in Hc as [q [<- _]]; rewrite L6 in X; discriminate|]. rewrite map_length, (gr_len _ _ _ _ G). unfold num_vertices. rewrite Nat.eqb_refl. reflexivity. }
    assert (SA : forall (f : R * R -> list R) P, (forall q, f q = jet (peval P) q) -> samples g (jet (peval P)) (map f ps)).
    { intros f P E v q Hq. unfold point_at in Hq. apply (points_nth g ps v _ _ (gr_points _ _ _ _ G)) in Hq. rewrite nth_error_map, Hq. cbn. rewrite E. destruct q; reflexivity. }
    set (fX := fun q : R * R => let '(a, _) := q in [a; 1; 0; 0; 0; 0]). set (fY := fun q : R * R => let '(_, b) := q in [b; 0; 1; 0; 0; 0]). assert (LX : forall q, List.length (fX q) = 6%nat) by (intros [? ?]; reflexivity). assert (LY : forall q, List.length (fY q) = 6%nat) by (intros [? ?]; reflexivity).
    set (X := [(1, (1%nat, 0%nat))] : poly2). set (Y := [(1, (0%nat, 1%nat))] : poly2).
    assert (JX : forall q, fX q = jet (peval X) q) by (intros [a b]; rewrite jet_peval; unfold fX, fY; cbn; repeat (apply (f_equal2 (@cons R)); [ring|]); reflexivity).
    assert (JY : forall q, fY q = jet (peval Y) q) by (intros [a b]; rewrite jet_peval; unfold fX, fY; cbn; repeat (apply (f_equal2 (@cons R)); [ring|]); reflexivity).
    assert (DX : degree_le 4 X) by (intros c i j [E|[]]; injection E as _ <- <-; lia). assert (DY : degree_le 4 Y) by (intros c i j [E|[]]; injection E as _ <- <-; lia).
    destruct (C48_quartic (se_order u) (se_width u) (se_height u) (se_fix u) _ m n g _ _ X x PS Fm Fn Eg Hm Hn (IC fX LX) DX (SA fX X JX) Hx Hy) as [V1 [G1 H1]].
    destruct (C48_quartic (se_order u) (se_width u) (se_height u) (se_fix u) _ m n g _ _ Y x PS Fm Fn Eg Hm Hn (IC fY LY) DY (SA fY Y JY) Hx Hy) as [V2 [G2 H2]].
    pose proof (JX x) as KX. pose proof (JY x) as KY. unfold jet, fX, fY in KX, KY. cbv zeta in KX, KY. destruct x as [xx yy]. cbn [fst snd] in *. pose proof (f_equal (fun l => nth 0 l 0) KX) as A1. pose proof (f_equal (fun l => nth 1 l 0) KX) as A2. pose proof (f_equal (fun l => nth 2 l 0) KX) as A3. pose proof (f_equal (fun l => nth 3 l 0) KX) as A4. pose proof (f_equal (fun l => nth 4 l 0) KX) as A5. pose proof (f_equal (fun l => nth 5 l 0) KX) as A6. pose proof (f_equal (fun l => nth 0 l 0) KY) as B1. pose proof (f_equal (fun l => nth 1 l 0) KY) as B2. pose proof (f_equal (fun l => nth 2 l 0) KY) as B3. pose proof (f_equal (fun l => nth 3 l 0) KY) as B4. pose proof (f_equal (fun l => nth 4 l 0) KY) as B5. pose proof (f_equal (fun l => nth 5 l 0) KY) as B6. cbn [nth] in A1, A2, A3, A4, A5, A6, B1, B2, B3, B4, B5, B6.
    rewrite <- A1 in V1. rewrite <- B1 in V2. rewrite <- A2, <- A3 in G1. rewrite <- B2, <- B3 in G2. rewrite <- A4, <- A5, <- A6 in H1. rewrite <- B4, <- B5, <- B6 in H2.
    destruct (C48_deformation _ _ _ _ _ _ _ _ _ _ 0 0 0 0 0 0 V1 V2 G1 G2) as [E1 [E2 E3]]. split; [exact E1|]. split; [exact E2|]. intros _. apply E3; assumption.
  - assert (IC : forall f : R * R -> R, P1Interpolation_ g (map f ps) = Ok (P1I g (map f ps))) by (intros f; unfold P1Interpolation_; rewrite map_length, (gr_len _ _ _ _ G); unfold num_vertices; rewrite Nat.eqb_refl; reflexivity).
    assert (SA : forall f : R * R -> R, samples g f (map f ps)) by (intros f v q Hq; unfold point_at in Hq; apply (points_nth g ps v _ _ (gr_points _ _ _ _ G)) in Hq; rewrite nth_error_map, Hq; destruct q; reflexivity).
    unfold iref1, iref2. destruct (C48_identity_strain (se_order u) (se_width u) (se_height u) (se_fix u) _ m n g _ _ _ _ x PS Fm Fn Eg Hm Hn (IC fst) (IC snd) (SA fst) (SA snd) Hx Hy) as [E1 E2]. split; [exact E1|]. split; [exact E2|]. congruence.
Qed.
Print Assumptions C64_identity.
(** Its temperature is the initial temperature, everywhere. *)
Theorem C64_initial_temperature : forall u s, reachable u s -> exists st rest, s_steps s = st :: rest /\
  (forall v, In v (nd_data (st_theta_data st)) -> v = p_initial_temperature (se_params u)) /\ nd_data (st_theta_data st) <> [] /\
  forall t L w, l1 L + l2 L + l3 L = 1 -> i_call (st_theta st) t L = Ok w -> w = p_initial_temperature (se_params u).
Proof.
  intros u s H. destruct (reachable_hist u s H) as (g & rg & ps & G & HI). destruct (hi_first _ _ _ _ _ HI) as (st & rest & Es & HO & _). exists st, rest. split; [exact Es|].
  rewrite (ho_th _ _ _ _ _ _ HO), (ho_ith _ _ _ _ _ _ HO). cbn [theta_array nd_data]. assert (C : forall v, In v (itheta g rg (p_initial_temperature (se_params u))) -> v = p_initial_temperature (se_params u)) by (intros v Hv; unfold itheta in Hv; apply in_map_iff in Hv as [? [<- _]]; reflexivity).
  split; [exact C|]. split.
  - pose proof (sta_NT _ _ _ (hi_st _ _ _ _ _ HI)) as NT. unfold num_vertices in NT. unfold itheta. destruct (g_vertices (theta_grid g rg)); [cbn in NT; lia|discriminate].
  - intros [[a b] c] L w S E. cbn [i_call] in E. apply bind_ok' in E as [x [X E]]. apply bind_ok' in E as [y [Y E]]. apply bind_ok' in E as [z [Z E]]. injection E as <-. apply py_nth_ok in X, Y, Z.
    rewrite (C x (nth_error_In _ _ X)), (C y (nth_error_In _ _ Y)), (C z (nth_error_In _ _ Z)). replace (l3 L) with (1 - l1 L - l2 L) by lra. ring.
Qed.
Print Assumptions C64_initial_temperature.
(** The hypotheses of C64 are met by the example, at a point that is no vertex. *)
Example C64_example : forall reg, reg = None \/ reg = Some 1 -> let u := ex_setting reg [] in exists s, reachable u s /\ fits (se_width u) (p_scale (se_params u)) 2 /\ fits (se_height u) (p_scale (se_params u)) 2 /\
  0 <= 3/10 <= INR 2 * p_scale (se_params u) /\ 0 <= 7/10 <= INR 2 * p_scale (se_params u) /\
  exists st rest, s_steps s = st :: rest /\ edeform_call (st_y1 st) (st_y2 st) (3/10) (7/10) = Ok [3/10; 7/10] /\ In 1 (nd_data (st_theta_data st)).
Proof.
  intros reg Hr u. assert (Hr' : forall e, reg = Some e -> 0 <= e) by (intros e E; destruct Hr as [-> | ->]; [discriminate|injection E as <-; lra]). destruct (ex_state reg Hr') as (s & U & L & Eg & _ & Q). pose proof (undisturbed_reachable _ _ U) as H. exists s. split; [exact H|]. split; [exact ex_fits1|]. split; [exact ex_fits1|].
  assert (B : forall x, 0 <= x <= 1 -> 0 <= x <= INR 2 * p_scale (se_params u)) by (intros x; cbn; lra). split; [apply B; lra|]. split; [apply B; lra|].
  destruct (C64_identity u s 2 2 (3/10, 7/10) H ex_fits1 ex_fits1 ltac:(lia) ltac:(lia) (B (3/10) ltac:(lra)) (B (7/10) ltac:(lra))) as (st & rest & E & V & _). exists st, rest. split; [exact E|]. split; [exact V|].
  destruct (C64_initial_temperature u s H) as (st' & rest' & E' & A & NE & _). rewrite E in E'. injection E' as <- <-. destruct (nd_data (st_theta_data st)) as [|x l]; [congruence|]. left. apply A. left. reflexivity.
Qed.


(** ** C68 *)
Theorem C68_max_temperature : forall u s, reachable u s -> is_max (0 :: temperatures (s_steps s)) (sim_max_temp s).
Proof. intros u s H. destruct (reachable_hist u s H) as (g & rg & ps & G & HI). apply (hi_lims _ _ _ _ _ HI). Qed.
Print Assumptions C68_max_temperature.
(** Without regularization the limits are the bounding box of all deformed vertices of all steps. *)
Theorem C68_limits_partial : forall u s, reachable u s -> s_refined s = None ->
  let coordinates c := deformed_coordinates (length (g_vertices (s_grid s))) c (s_steps s) in
  (exists a b, s_xlims s = Some (a, b) /\ is_min (coordinates 0%nat) a /\ is_max (coordinates 0%nat) b) /\
  (exists a b, s_ylims s = Some (a, b) /\ is_min (coordinates 1%nat) a /\ is_max (coordinates 1%nat) b).
Proof.
  intros u s H Hn. destruct (reachable_hist u s H) as (g & rg & ps & G & HI). destruct (hist_grid _ _ _ _ _ HI) as (Eg & Er & _). rewrite Er in Hn. subst rg. destruct (hi_lims _ _ _ _ _ HI) as (_ & LX & LY). cbv zeta. rewrite Eg.
  assert (C : forall c, (c < 2)%nat -> deformed_coordinates (length (g_vertices g)) c (s_steps s) = flat_map (comp g None c) (s_steps s)).
  { intros c Hc. unfold deformed_coordinates. clear LX LY. pose proof (hi_good _ _ _ _ _ HI) as GS. induction (s_steps s) as [|st l IH]; [reflexivity|]. cbn [flat_map]. rewrite IH by (intros; apply GS; right; assumption). f_equal.
    destruct (gs_holds _ _ _ _ _ (GS st (or_introl eq_refl))) as (a1 & a2 & th & HO & L1 & L2 & _). destruct (holds_comp g None _ _ _ _ HO L1 L2) as [C0 [C1 _]]. rewrite (ho_y _ _ _ _ _ _ HO).
    set (l' := comp g None c st). assert (CC : l' = if Nat.eqb c 0 then a1 else a2) by (unfold l'; destruct c as [|[|c]]; [exact C0|exact C1|lia]). rewrite CC.
    assert (LL : length (if Nat.eqb c 0 then a1 else a2) = num_vertices g) by (cbn in L1, L2; destruct (Nat.eqb c 0); lia). fold (num_vertices g).
    transitivity (flat_map (fun v => match nth_error (if Nat.eqb c 0 then a1 else a2) v with Some x => [x] | None => [] end) (seq 0 (num_vertices g))).
    - rewrite !flat_map_concat_map. f_equal. apply map_ext_in. intros v Hv. apply in_seq in Hv. rewrite y_at_zero by (try assumption; lia). cbn [dofs]. rewrite Nat.mul_1_r. reflexivity.
    - rewrite <- LL. apply (flat_nth_all _ []). }
  rewrite (C 0%nat), (C 1%nat) by lia. split; assumption.
Qed.
Print Assumptions C68_limits_partial.
Example C68_example : let u := ex_setting None [] in exists s, reachable u s /\ s_refined s = None /\ List.length (s_steps s) = 5%nat.
Proof. intros u. destruct (ex_state None ltac:(discriminate)) as (s & U & L & _ & Er & _). exists s. split; [apply undisturbed_reachable, U|]. split; [apply Er; reflexivity|exact L]. Qed.

(** In every simulation the limits cover all deformed vertices of all steps. *)
Theorem C68_limits_cover : forall u s, reachable u s ->
  let coordinates c := deformed_coordinates (List.length (g_vertices (s_grid s))) c (s_steps s) in
  exists x0 x1 y0 y1, s_xlims s = Some (x0, x1) /\ s_ylims s = Some (y0, y1) /\
    (forall x, In x (coordinates 0%nat) -> x0 <= x <= x1) /\ (forall y, In y (coordinates 1%nat) -> y0 <= y <= y1).
Proof.
  intros u s H. destruct (reachable_hist u s H) as (g & rg & ps & G & HI). destruct (hist_grid _ _ _ _ _ HI) as (Eg & Er & _). destruct (hi_lims _ _ _ _ _ HI) as (_ & (x0 & x1 & EX & MX & NX) & (y0 & y1 & EY & MY & NY)). cbv zeta. rewrite Eg.
  assert (C : forall c x, (c < 2)%nat -> In x (deformed_coordinates (List.length (g_vertices g)) c (s_steps s)) -> In x (flat_map (comp g rg c) (s_steps s))).
  { intros c x Hc Hx. unfold deformed_coordinates in Hx. apply in_flat_map in Hx as [st [Hst Hx]]. apply in_flat_map. exists st. split; [exact Hst|]. apply in_flat_map in Hx as [v [Hv Hx]]. apply in_seq in Hv. cbn in Hv.
    destruct (gs_holds _ _ _ _ _ (hi_good _ _ _ _ _ HI st Hst)) as (a1 & a2 & th & HO & L1 & L2 & _). destruct (holds_comp g rg _ _ _ _ HO L1 L2) as [C0 [C1 _]]. rewrite (ho_y _ _ _ _ _ _ HO) in Hx. rewrite y_at_zero in Hx by (try assumption; unfold num_vertices; lia).
    destruct (nth_error (if Nat.eqb c 0 then a1 else a2) (v * dofs rg)) as [z|] eqn:Q; [|destruct Hx]. destruct Hx as [<- |[]]. apply nth_error_In in Q. destruct c as [|[|c]]; cbn in Q; [rewrite C0; exact Q|rewrite C1; exact Q|lia]. }
  exists x0, x1, y0, y1. split; [exact EX|]. split; [exact EY|]. split; intros z Hz; apply C in Hz; try lia; [destruct MX as [_ A], NX as [_ B]|destruct MY as [_ A], NY as [_ B]]; split; auto.
Qed.
Print Assumptions C68_limits_cover.

(** Refuted for regularized simulations: derivative parameters (first derivative 1 in step 0) enter the limits, so a body whose
    coordinates stay below 1 gets an upper limit of at least 1, which is not the largest coordinate. *)
Theorem C68_regularized_limits_refuted : forall u s, reachable u s -> s_refined s <> None ->
  let coordinates c := deformed_coordinates (List.length (g_vertices (s_grid s))) c (s_steps s) in
  exists x0 x1 y0 y1, s_xlims s = Some (x0, x1) /\ s_ylims s = Some (y0, y1) /\ x0 <= 0 /\ 1 <= x1 /\ y0 <= 0 /\ 1 <= y1 /\
    ((forall x, In x (coordinates 0%nat) -> x < 1) -> ~ is_max (coordinates 0%nat) x1) /\ ((forall y, In y (coordinates 1%nat) -> y < 1) -> ~ is_max (coordinates 1%nat) y1).
Proof.
  intros u s H Hr. destruct (reachable_hist u s H) as (g & rg & ps & G & HI). destruct (hist_grid _ _ _ _ _ HI) as (Eg & Er & _). rewrite Er in Hr. destruct rg as [r|]; [|congruence]. destruct (hi_lims _ _ _ _ _ HI) as (_ & (x0 & x1 & EX & [_ MX] & [_ NX]) & (y0 & y1 & EY & [_ MY] & [_ NY])). cbv zeta. rewrite Eg.
  destruct (hi_first _ _ _ _ _ HI) as (st & rest & Es & HO & _). destruct (iref_length (Some r) ps) as [L1 L2]. rewrite (gr_len _ _ _ _ G) in L1, L2. destruct (holds_comp g (Some r) _ _ _ _ HO L1 L2) as [C0 [C1 _]].
  assert (P : exists p l, ps = p :: l). { destruct ps as [|p l]; [|eauto]. pose proof (sta_N _ _ _ (hi_st _ _ _ _ _ HI)) as N. rewrite <- (gr_len _ _ _ _ G) in N. cbn in N. lia. } destruct P as [[a b] [l ->]].
  assert (X : forall z, In z [0; 1] -> In z (flat_map (comp g (Some r) 0) (s_steps s)) /\ In z (flat_map (comp g (Some r) 1) (s_steps s))).
  { intros z Hz. rewrite Es. cbn [flat_map]. rewrite C0, C1. cbn [iref1 iref2 flat_map]. split; apply in_or_app; left; apply in_or_app; left; destruct Hz as [<- |[<- |[]]]; cbn; tauto. }
  destruct (X 0 ltac:(cbn; tauto)) as [X0 Y0]. destruct (X 1 ltac:(cbn; tauto)) as [X1 Y1].
  exists x0, x1, y0, y1. split; [exact EX|]. split; [exact EY|]. split; [apply MX, X0|]. split; [apply NX, X1|]. split; [apply MY, Y0|]. split; [apply NY, Y1|].
  split; intros LT [I _]; specialize (LT _ I); [pose proof (NX 1 X1)|pose proof (NY 1 Y1)]; lra.
Qed.
Print Assumptions C68_regularized_limits_refuted.
(** Such bodies exist: a square of side 1/2. *)
Definition ex_small : setting :=
  {| se_order := std_order; se_solver := push []; se_width := 1/2; se_height := 1/2; se_fix := FixOne "left"; se_params := mkParams 1 (1/10) 10 (1/4) (Some 1) (Some 1%Z);
     se_external := fun t => Ok (1 + t); se_traction := fun t x y => Ok [t; x * y] |}.
Example C68_example_refuted : exists s, reachable ex_small s /\ s_refined s <> None /\ List.length (s_steps s) = 2%nat /\
  forall x, In x (deformed_coordinates (List.length (g_vertices (s_grid s))) 0 (s_steps s)) -> x < 1.
Proof.
  assert (V : valid_setting ex_small).
  { unfold valid_setting. cbn [ex_small se_width se_height se_params]. split; [lra|]. split; [lra|]. eexists (mkParams 1 (1/10) 10 (1/4) (Some 1) (Some 1%Z)). unfold SimulationParams_, Rleb0. cbn [p_initial_temperature p_search_radius p_fps p_scale p_regularization p_refinement_factor].
    rewrite !(proj2 (Rltb_false 1 0)) by lra. rewrite (proj2 (Rltb_true 0 (1/10))) by lra. rewrite (proj2 (Rltb_false 10 0)) by lra. rewrite (proj2 (Rltb_true 0 (1/4))) by lra. reflexivity. }
  assert (FE : fine_enough ex_small) by (unfold fine_enough; cbn [ex_small se_params p_regularization p_refinement_factor p_scale se_width se_height]; repeat split; lra).
  assert (FF : forcing_fine ex_small 0) by (split; [cbn; eauto|exists (1 + 0); split; [reflexivity|lra]]).
  assert (PF : 0 < p_fps (se_params ex_small)) by (cbn; lra).
  destruct (construct_live ex_small V PF FE FF push_quiet) as [s C]. assert (U : undisturbed ex_small s) by (apply u_construct; assumption). pose proof (undisturbed_reachable _ _ U) as H. pose proof (C65_construction ex_small s V C) as L. exists s. split; [exact H|].
  split. { intros E. apply (C57_grid_of_the_domain ex_small s H) in E. discriminate. } split; [exact L|].
  destruct (undisturbed_chain ex_small s U) as (g & rg & ps & G & CH). destruct (hist_grid _ _ _ _ _ (ch_hist _ _ _ _ _ CH)) as (Eg & _ & _). rewrite Eg. intros x Hx. unfold deformed_coordinates in Hx. apply in_flat_map in Hx as [st [Hst Hx]]. apply in_flat_map in Hx as [v [Hv Hx]]. apply in_seq in Hv. cbn in Hv.
  apply In_nth_error in Hst as [k Hk]. assert (Lk : (k < 2)%nat) by (rewrite <- L; apply nth_error_Some; congruence). pose proof (push_links ex_small g rg ps s G CH eq_refl k st Hk) as HO. cbv zeta in HO. set (d := INR k * p_search_radius (se_params ex_small)) in *.
  assert (Hd : 0 <= d <= 1/10) by (unfold d; destruct k as [|[|k]]; [cbn; lra|cbn; lra|lia]).
  assert (FL : List.length (ifx g rg) = (num_vertices g * dofs rg)%nat) by (unfold ifx; rewrite map_length; apply range_length). destruct (iref_length rg ps) as [RL1 RL2]. rewrite (gr_len _ _ _ _ G) in RL1, RL2.
  rewrite (ho_y _ _ _ _ _ _ HO) in Hx. rewrite y_at_zero in Hx by (try rewrite shift_length by congruence; try assumption; unfold num_vertices; lia). cbn [Nat.eqb] in Hx. rewrite shift_nth in Hx.
  destruct (nth_error ps v) as [[a b]|] eqn:Ev; [|apply nth_error_None in Ev; rewrite (gr_len _ _ _ _ G) in Ev; unfold num_vertices in Ev; lia]. destruct (iref_nth rg ps v a b Ev) as [Q _]. rewrite Q in Hx.
  assert (Ha : a <= 1/2).
  { pose proof (gr_grid _ _ _ _ G) as Eg'. assert (F2 : fits (1/2) (1/4) 2) by (unfold fits; cbn; lra). assert (P4 : 0 < 1/4) by lra. destruct (C11_points_are_the_lattice _ _ _ _ _ _ _ _ P4 F2 F2 Eg') as [A _].
    apply (points_nth g ps v a b (gr_points _ _ _ _ G)) in Ev. apply nth_error_In in Ev. apply A in Ev as (i & j & E & Hi & _). injection E as -> _. exact Hi. }
  destruct (nth_error (ifx g rg) (v * dofs rg)) as [[]|]; [destruct Hx as [<- |[]]; lra|destruct Hx as [<- |[]]; lra|destruct Hx].
Qed.

(** ** C76 *)
(** A well-posed simulation with well-behaved forcing and a solver that does not raise and respects the variable domains can be
    constructed and run for ever. *)
Theorem C76_construction_succeeds : forall u, valid_setting u -> 0 < p_fps (se_params u) -> fine_enough u -> forcing_fine u 0 -> never_raises (se_solver u) -> exists s, construct u = Ok s.
Proof. intros u. apply construct_live. Qed.
Print Assumptions C76_construction_succeeds.
Theorem C76_runs_succeed : forall u s n, undisturbed u s -> 0 < p_fps (se_params u) -> (forall t, 0 <= t -> forcing_fine u t) -> never_raises (se_solver u) -> respects_domain (se_solver u) -> (1 <= n)%Z ->
  exists s', run (se_solver u) n s = (s', Ok tt).
Proof. intros u s n. apply run_live. Qed.
Print Assumptions C76_runs_succeed.
Example C76_example : forall reg, reg = None \/ reg = Some 1 -> let u := ex_setting reg [] in valid_setting u /\ 0 < p_fps (se_params u) /\ fine_enough u /\ (forall t, 0 <= t -> forcing_fine u t) /\ never_raises (se_solver u) /\ respects_domain (se_solver u) /\ exists s, undisturbed u s.
Proof.
  intros reg Hr u. assert (Hr' : forall e, reg = Some e -> 0 <= e) by (intros e E; destruct Hr as [-> | ->]; [discriminate|injection E as <-; lra]). split; [exact (ex_valid reg [] Hr')|]. split; [apply ex_fps|]. split; [apply ex_fine|]. split; [apply ex_forcing|]. split; [exact push_quiet|]. split; [apply push_domain|].
  destruct (ex_state reg Hr') as (s & U & _). eauto.
Qed.
