(** Well-behaved simulations do not fail. *)
From Coq Require Import Reals Lra Lia List ZArith.
From Verif.Model Require Import Py Num Tensors Domain Refine Bell Interp Steps Simulation.
From Verif.Spec Require Import GridSpec RefineSpec SimSpec LiveSpec.
From Verif.Proofs Require Import Lib GridP GridCover StepP SimP SimQ SimR SimH.
From Verif.Props Require Import GridProps RefineProps.
Local Open Scope R_scope.
Import ListNotations.

Lemma mapM_total {A B} (f : A -> res B) l : (forall a, In a l -> exists b, f a = Ok b) -> exists bs, mapM f l = Ok bs.
Proof.
  induction l as [|a l IH]; intros H; [exists []; reflexivity|]. destruct (H a (or_introl eq_refl)) as [b Eb]. destruct IH as [bs Ebs]; [intros; apply H; right; assumption|]. exists (b :: bs). cbn. rewrite Eb. cbn [bind]. rewrite Ebs. reflexivity.
Qed.

Section Live.
Context (u : setting) (g : grid R) (rg : option (refined_grid R)) (fx : list bool) (ref1 ref2 : list R) (ST : statics u g rg).
Let p := se_params u.
Let sv := se_solver u.

Lemma traction_loop_live (NV : forall v, In v (b_vertices (g_neumann g)) -> (v < length (g_points g))%nat) t : (forall x y, exists a b, se_traction u t x y = Ok [a; b]) ->
  forall vs m, ms_grid m = g -> ms_traction m = se_traction u -> incl vs (b_vertices (g_neumann g)) -> exists m', traction_loop m t vs = (m', Ok tt).
Proof.
  intros F vs. induction vs as [|v vs IH]; intros m Hg Ht I; [eexists; reflexivity|]. cbn [traction_loop].
  assert (T : exists a b, traction_at m t v = Ok (a, b)).
  { unfold traction_at. rewrite Hg, Ht. pose proof (NV v (I v (or_introl eq_refl))) as L. apply nth_error_Some in L. destruct (nth_error (g_points g) v) as [q|] eqn:Eq; [|congruence].
    destruct (sta_planar _ _ _ ST q (nth_error_In _ _ Eq)) as [x [y ->]]. destruct (F x y) as [a [b Eab]]. exists a, b. unfold py_nth. rewrite Eq. cbn [bind]. change (xy [x; y]) with (Ok (x, y)). cbn [bind]. rewrite Eab. reflexivity. }
  destruct T as [a [b ->]]. apply IH; [exact Hg|exact Ht|]. intros w Hw. apply I. right. exact Hw.
Qed.

Lemma single_live (NV : forall v, In v (b_vertices (g_neumann g)) -> (v < length (g_points g))%nat) s s' r : sinv u g rg fx ref1 ref2 s ->
  forcing_fine u (s_time s) -> never_raises sv -> (forall v, In v (map v_val (ts_theta (s_therm s))) -> 0 <= v) -> run_single_step sv s = (s', r) -> r = Ok tt.
Proof.
  intros I [FT FE] [N1 N2] NN E. unfold run_single_step in E. pose proof I as [Hp Hg Hr Im It Htau].
  apply andthen_inv in E as [[e [E ->]]|[s1 [E1 E]]].
  { exfalso. destruct (therm_getters _ _ _ _ _ _ _ It) as [_ [Gy [_ Gth]]]. unfold update_mechanical_step in E. rewrite Gy in E. unfold on_mech at 1 in E.
    rewrite (m_update_y (se_params u) g rg _ _ _ _ _ _ _ Im (ti_y1 _ _ _ _ _ _ _ _ It) (ti_y2 _ _ _ _ _ _ _ _ It)) in E. cbn [andthen] in E.
    destruct (ti_pin _ _ _ _ _ _ _ _ It) as [_ [_ [P1 P2]]].
    pose proof (m_with_y_inv (se_params u) g rg _ _ _ _ _ _ _ Im (ti_y1 _ _ _ _ _ _ _ _ It) (ti_y2 _ _ _ _ _ _ _ _ It) P1 P2) as I1. set (m0 := m_with_y (se_params u) g rg (s_mech s) _ _) in *.
    change (s_therm (set_mech s m0)) with (s_therm s) in E. rewrite Gth in E. unfold on_mech at 1 in E. change (s_mech (set_mech s m0)) with m0 in E.
    destruct (mech_update_prev_theta m0 _) as [m1 r1] eqn:E1. destruct (m_update_theta _ g rg _ _ _ _ _ _ _ _ I1 ltac:(rewrite map_length; exact (ti_th _ _ _ _ _ _ _ _ It)) E1) as [I2 [_ [_ BAD]]].
    destruct r1 as [[]|e1]; [|destruct (BAD e1 eq_refl) as [_ [v [Hv Lv]]]; specialize (NN v Hv); lra]. cbn [andthen] in E. unfold on_mech in E.
    change (s_mech (set_mech (set_mech s m0) m1)) with m1 in E. change (s_time (set_mech (set_mech s m0) m1)) with (s_time s) in E. unfold mech_update_boundary_traction in E. rewrite (mi_ref _ _ _ _ _ _ _ _ I2), (mi_grid _ _ _ _ _ _ _ _ I2) in E.
    destruct (opt_case rg) as [[r0 Er] | Er]; rewrite Er in E; [discriminate|].
    destruct (traction_loop_live NV (s_time s) FT (b_vertices (g_neumann g)) m1 (mi_grid _ _ _ _ _ _ _ _ I2) (mi_tr _ _ _ _ _ _ _ _ I2) (incl_refl _)) as [m' Em]. rewrite Em in E. discriminate. }
  destruct (update_m_inv _ _ _ _ _ _ ST _ _ _ I E1) as [m1 [-> [I1 PM]]]. specialize (PM eq_refl). set (m2 := m_loaded u (s_calls s) m1).
  assert (I2 : minv p g rg (se_traction u) fx ref1 ref2 m2) by (apply m_solve_inv, I1). apply andthen_inv in E as [[e [E ->]]|[s2 [E2 E]]].
  { exfalso. unfold solve_mech, on_mech, mech_solve in E. cbn in E. rewrite N1 in E. discriminate. }
  assert (S2 : s2 = with_models s m2 (s_therm s) (S (s_calls s))). { unfold solve_mech, on_mech, mech_solve in E2. cbn in E2. injection E2 as <- _. reflexivity. }
  assert (V2 : sinv u g rg fx ref1 ref2 s2) by (rewrite S2; apply sinv_models; [exact I|exact I2|apply I]). clear E1 E2.
  apply andthen_inv in E as [[e [E ->]]|[s3 [E3 E]]].
  { exfalso. pose proof V2 as [_ _ _ Jm Jt _]. destruct (mech_getters _ _ _ _ _ _ _ Jm) as [Gp [Gy Gth]]. unfold update_thermal_step in E. rewrite Gp in E. unfold on_therm at 1 in E.
    pose proof (mi_p1 _ _ _ _ _ _ _ _ Jm) as L1. pose proof (mi_p2 _ _ _ _ _ _ _ _ Jm) as L2. pose proof (mi_y1 _ _ _ _ _ _ _ _ Jm) as L3. pose proof (mi_y2 _ _ _ _ _ _ _ _ Jm) as L4. destruct (mi_pin _ _ _ _ _ _ _ _ Jm) as [P1 [P2 [P3 P4]]].
    rewrite (t_update_prev_y (se_params u) g rg _ _ _ _ _ _ _ Jt L1 L2) in E. cbn [andthen] in E. pose proof (t_with_prev_y_inv (se_params u) g rg _ _ _ _ _ _ _ Jt L1 L2 P1 P2) as J1. set (t0 := t_with_prev_y g rg (s_therm s2) _ _) in *.
    change (s_mech (set_therm s2 t0)) with (s_mech s2) in E. rewrite Gth in E. unfold on_therm at 1 in E. change (s_therm (set_therm s2 t0)) with t0 in E.
    destruct (therm_update_prev_theta t0 _) as [t1 r1] eqn:E1. destruct (t_update_theta _ g rg _ _ _ _ _ _ _ _ J1 (mi_th _ _ _ _ _ _ _ _ Jm) E1) as [J2 [_ [_ BAD]]].
    destruct r1 as [[]|e1].
    2:{ destruct (BAD e1 eq_refl) as [_ [v [Hv Lv]]]. assert (TH : ms_prev_theta (s_mech s2) = map v_val (ts_theta (s_therm s))) by (rewrite S2; exact (pm_th _ _ _ _ _ _ _ _ _ _ _ PM)). rewrite TH in Hv. specialize (NN v Hv). lra. }
    cbn [andthen] in E. change (s_mech (set_therm (set_therm s2 t0) t1)) with (s_mech s2) in E. rewrite Gy in E. unfold on_therm at 1 in E. change (s_therm (set_therm (set_therm s2 t0) t1)) with t1 in E.
    rewrite (t_update_y (se_params u) g rg _ _ _ _ _ _ _ J2 ltac:(rewrite map_length; exact L3) ltac:(rewrite map_length; exact L4)) in E. cbn [andthen] in E.
    assert (J3 : tinv (se_params u) g rg (se_external u) fx ref1 ref2 (t_with_y g rg t1 (map v_val (ms_y1 (s_mech s2))) (map v_val (ms_y2 (s_mech s2))))) by (apply t_with_y_inv; rewrite ?map_length; assumption).
    set (t2 := t_with_y g rg t1 _ _) in *. unfold on_therm in E. change (s_therm (set_therm (set_therm (set_therm s2 t0) t1) t2)) with t2 in E. unfold therm_update_external_temperature in E. rewrite (ti_ref _ _ _ _ _ _ _ _ J3), (ti_ext _ _ _ _ _ _ _ _ J3) in E.
    destruct (opt_case rg) as [[r0 Er] | Er]; rewrite Er in E; [discriminate|]. assert (TM : s_time (set_therm (set_therm (set_therm s2 t0) t1) t2) = s_time s) by (rewrite S2; reflexivity). rewrite TM in E. destruct FE as [v [Ev Hv]]. rewrite Ev in E.
    destruct (Rltb v 0) eqn:LT; [apply Rltb_true in LT; lra|discriminate]. }
  destruct (update_t_inv _ _ _ _ _ _ _ _ _ V2 E3) as [t1 [S3 [J1 PT]]]. specialize (PT eq_refl). rewrite S2 in PT, S3. cbn in PT, S3. clear E3. set (t2 := t_loaded u (S (s_calls s)) t1). assert (J2 : tinv p g rg (se_external u) fx ref1 ref2 t2) by (apply t_solve_inv, J1).
  apply andthen_inv in E as [[e [E ->]]|[s4 [E4 E]]].
  { exfalso. unfold solve_therm, on_therm, therm_solve in E. cbn in E. rewrite N2 in E. discriminate. }
  assert (S4 : s4 = with_models s m2 t2 (S (S (s_calls s)))). { unfold solve_therm, on_therm, therm_solve in E4. rewrite S3 in E4. cbn in E4. injection E4 as <- _. reflexivity. }
  assert (V4 : sinv u g rg fx ref1 ref2 s4) by (rewrite S4; apply sinv_models; assumption). assert (T4 : s_therm s4 = t2) by (rewrite S4; reflexivity). rewrite T4 in E. destruct (therm_getters _ _ _ _ _ _ _ J2) as [_ [Gy [_ Gth]]]. rewrite Gy, Gth in E.
  destruct (append_ok u g rg ST s4 (ts_y1 t2) (ts_y2 t2) (map v_val (ts_theta t2))) as [st [mx [x0 [x1 [y0 [y1 [EA _]]]]]]]; [apply V4|apply V4|apply V4|exact (ti_y1 _ _ _ _ _ _ _ _ J2)|exact (ti_y2 _ _ _ _ _ _ _ _ J2)|rewrite map_length; exact (ti_th _ _ _ _ _ _ _ _ J2)|].
  rewrite EA in E. injection E as _ <-. reflexivity.
Qed.
End Live.

Lemma grid_bounds so w h f s g : 0 <= w -> 0 <= h -> 0 < s -> domain_grid so w h f s = Ok g ->
  (forall q, In q (g_points g) -> exists x y, q = [x; y]) /\ num_vertices g = length (g_points g) /\ (0 < num_vertices g)%nat /\
  (forall v, In v (b_vertices (g_neumann g)) -> (v < length (g_points g))%nat) /\ (forall v, In v (b_vertices (g_dirichlet g)) -> (v < length (g_points g))%nat).
Proof.
  intros Hw Hh Hs Eg. destruct (fits_exists w s Hw Hs) as [mc Hmc]. destruct (fits_exists h s Hh Hs) as [nc Hnc].
  destruct (C11_vertices_numbered _ _ _ _ _ _ _ _ Hs Hmc Hnc Eg) as [GV GP]. destruct (C11_points_are_the_lattice _ _ _ _ _ _ _ _ Hs Hmc Hnc Eg) as [GL _].
  assert (V : forall v d, vertex_on_side g s mc nc d v -> (v < length (g_points g))%nat) by (intros v d [i [j [[Hv _] _]]]; rewrite GV in Hv; apply in_seq in Hv; lia).
  split; [intros q Hq; apply GL in Hq as [i [j [-> _]]]; eauto|]. split; [unfold num_vertices; rewrite GV, seq_length; lia|]. split; [unfold num_vertices; rewrite GV, seq_length; lia|]. split.
  - intros v Hv. apply (C18_neumann_vertices_exact_partial _ _ _ _ _ _ _ _ Hs Hmc Hnc Eg) in Hv as [[d Hd] _]. exact (V v d Hd).
  - intros v Hv. apply (C17_dirichlet_vertices _ _ _ _ _ _ _ _ Hs Hmc Hnc Eg) in Hv as [d [_ Hd]]. exact (V v d Hd).
Qed.
Lemma fits_one w s m : 0 < s -> s <= w -> fits w s m -> (1 <= m)%nat.
Proof. intros Hs Hw [_ H]. destruct m; [cbn in H; lra|lia]. Qed.

Section Construct.
Context (u : setting).
Let p := se_params u.
Let sv := se_solver u.
Lemma refine_live : valid_setting u -> fine_enough u -> forall g, domain_grid (se_order u) (se_width u) (se_height u) (se_fix u) (p_scale p) = Ok g ->
  exists rg, (match p_refinement_factor p with Some k => let* r := refine g k in Ok (Some r) | None => Ok None end) = Ok rg /\ statics u g rg.
Proof.
  intros V F g Eg. pose proof (params_ok u V) as (PT0 & PR & PF & PS & PREG). fold p in PT0, PR, PF, PS, PREG. pose proof V as [Hw [Hh _]]. unfold fine_enough in F. fold p in F.
  destruct (grid_bounds _ _ _ _ _ _ Hw Hh PS Eg) as (PL & NL & NP & _). destruct (p_regularization p) as [e|] eqn:Er.
  - destruct PREG as [_ [k [Ek Hk]]]. rewrite Ek in *. destruct F as [F1 [F2 F3]]. destruct (fits_exists _ _ Hw PS) as [mc Hmc]. destruct (fits_exists _ _ Hh PS) as [nc Hnc].
    pose proof (fits_one _ _ _ PS F1 Hmc) as M1. pose proof (fits_one _ _ _ PS F2 Hnc) as N1. destruct (C27_rectangle_grid_is_mesh _ _ _ _ _ _ _ _ PS Hmc Hnc Eg M1 N1) as [ME BO].
    set (K := Z.to_nat k). assert (EK : k = Z.of_nat K) by (unfold K; rewrite Z2Nat.id; lia). assert (HK : (1 <= K)%nat) by (unfold K; lia). assert (IK : IZR k = INR K) by (rewrite EK; symmetry; apply INR_IZR_INZ). rewrite IK in F3.
    assert (PK : 0 < INR K) by (apply lt_0_INR; lia). assert (IP : 0 < / 10 ^ 15) by (apply Rinv_0_lt_compat, pow_lt; lra).
    assert (Q : p_scale p / (5 * INR K) = p_scale p / INR K / INR 5) by (cbn; field; lra).
    assert (SK : 0 < p_scale p / INR K) by (apply Rmult_lt_0_compat; [lra|apply Rinv_0_lt_compat; lra]).
    assert (F4 : / 10 ^ 15 <= p_scale p / INR K) by (rewrite Q in F3; replace (INR 5) with 5 in F3 by (cbn; ring); lra).
    destruct (C27_refinement_is_fine_mesh g _ mc nc K PS M1 N1 HK F4 ME) as [r [R1 [_ [R2 _]]]].
    destruct (C27_refinement_is_fine_mesh (r_grid r) _ (mc * K) (nc * K) 5 SK ltac:(nia) ltac:(nia) ltac:(lia) ltac:(rewrite <- Q; exact F3) R2) as [pg [R3 _]].
    exists (Some r). rewrite EK, R1. split; [reflexivity|]. split; [exact NP| |exact PL|fold p; rewrite Er; exists r, pg; auto].
    cbn [theta_grid]. destruct (mesh_points _ _ _ _ R2 0 0) as [v [[Hv _] _]]; try lia. unfold num_vertices. destruct (g_vertices (r_grid r)); [destruct Hv|cbn; lia].
  - rewrite PREG in *. exists None. split; [reflexivity|]. split; [exact NP|exact NP|exact PL|fold p; rewrite Er; reflexivity].
Qed.
Lemma construct_live : valid_setting u -> 0 < p_fps p -> fine_enough u -> forcing_fine u 0 -> never_raises sv -> exists s, construct u = Ok s.
Proof.
  intros V FP FE [FT [ex [Eex Hex]]] [N1 N2]. pose proof (params_ok u V) as (PT0 & PR & PF & PS & PREG). fold p in PT0, PR, PF, PS, PREG. pose proof V as [Hw [Hh _]].
  destruct (C11_grid_succeeds (se_order u) (se_width u) (se_height u) (se_fix u) (p_scale p) Hw Hh PS) as [mc [nc [g [Hmc [Hnc Eg]]]]].
  destruct (grid_bounds _ _ _ _ _ _ Hw Hh PS Eg) as (PL & NL & NP & NB & _). destruct (refine_live V FE g Eg) as [rg [Erg ST]]. pose proof (sta_reg _ _ _ ST) as SR. fold p in SR.
  unfold construct, Simulation_. fold p sv. rewrite Eg. cbn [bind]. rewrite Erg. cbn [bind].
  destruct (mapM_total xy (g_points g)) as [ps Eps]. { intros q Hq. destruct (PL q Hq) as [x [y ->]]. exists (x, y). reflexivity. }
  assert (LP : length ps = num_vertices g) by (rewrite (mapM_length _ _ _ Eps), NL; reflexivity). destruct (iref_length rg ps) as [LR1 LR2]. rewrite LP in LR1, LR2.
  assert (LT : Rltb (p_initial_temperature p) 0 = false) by (apply Rltb_false; lra).
  assert (M : exists m0, mechanical_step g (p_initial_temperature p) (p_search_radius p) (p_fps p) (p_regularization p) rg (se_traction u) = Ok m0 /\ ms_grid m0 = g /\ ms_refined m0 = rg /\
     ms_prev_y1 m0 = iref1 rg ps /\ ms_prev_y2 m0 = iref2 rg ps /\ ms_prev_theta m0 = itheta g rg (p_initial_temperature p) /\ length (ms_y1 m0) = length (iref1 rg ps) /\ length (ms_y2 m0) = length (iref2 rg ps)).
  { destruct (p_regularization p) as [e|]; cbn [mechanical_step].
    - destruct SR as [r [pg [-> _]]]. unfold mech_init_reg. rewrite Eps. cbn [bind]. rewrite LT. eexists. split; [reflexivity|]. cbn. do 5 (split; [reflexivity|]). split; rewrite map_length; apply zip_range_length.
    - rewrite SR. unfold mech_init_plain. rewrite Eps. cbn [bind]. rewrite LT. assert (T : exists g1 g2, init_traction g (se_traction u) = Ok (g1, g2)).
      { unfold init_traction. edestruct (mapM_total (fun v => let* p := py_nth (g_points g) v in let* '(x, y) := xy p in let* l := se_traction u 0 x y in let* a := py_index l 0 in let* b := py_index l 1 in Ok (v, (a, b))) (b_vertices (g_neumann g))) as [rows Er].
        - intros v Hv. pose proof (NB v Hv) as L. apply nth_error_Some in L. destruct (nth_error (g_points g) v) as [q|] eqn:Eq; [|congruence]. destruct (PL q (nth_error_In _ _ Eq)) as [x [y ->]]. destruct (FT x y) as [a [b Eab]].
          exists (v, (a, b)). unfold py_nth. rewrite Eq. cbn [bind]. change (xy [x; y]) with (Ok (x, y)). cbn [bind]. rewrite Eab. reflexivity.
        - rewrite Er. cbn [bind]. eexists _, _. reflexivity. }
      destruct T as [g1 [g2 ->]]. cbn [bind]. eexists. split; [reflexivity|]. cbn. do 5 (split; [reflexivity|]). split; rewrite map_length; apply zip_range_length. }
  destruct M as (m0 & -> & A1 & A2 & A3 & A4 & A5 & A6 & A7). cbn [bind]. unfold mech_solved, mech_solve. rewrite N1. cbn [bind]. set (m := mkMech _ _ _ _ _ _ _ _ _ _ _ _ _).
  assert (B3 : ms_prev_y1 m = iref1 rg ps) by exact A3. assert (B4 : ms_prev_y2 m = iref2 rg ps) by exact A4. assert (B5 : ms_prev_theta m = itheta g rg (p_initial_temperature p)) by exact A5. assert (B1 : ms_grid m = g) by exact A1. assert (B2 : ms_refined m = rg) by exact A2.
  assert (B6 : length (ms_y1 m) = (num_vertices g * dofs rg)%nat) by (cbn; rewrite load_length, A6; exact LR1). assert (B7 : length (ms_y2 m) = (num_vertices g * dofs rg)%nat) by (cbn; rewrite load_length, A7; exact LR2). clearbody m.
  assert (ND : @ndiv R _ 1 (p_fps p) = Ok (1 / p_fps p)) by (apply ndiv_R; lra). rewrite ND. cbn [bind]. unfold mech_prev_y, mech_y, mech_prev_theta. rewrite B1, B2, B3, B4, B5.
  assert (LT0 : length (itheta g rg (p_initial_temperature p)) = num_vertices (theta_grid g rg)) by (unfold itheta; rewrite map_length; reflexivity).
  set (s0 := mkSim p g rg m _ [] _ _ 0 None None 1).
  destruct (append_ok u g rg ST s0 (iref1 rg ps) (iref2 rg ps) (itheta g rg (p_initial_temperature p)) eq_refl eq_refl eq_refl LR1 LR2 LT0) as [st0 [mx [x0 [x1 [y0 [y1 [EA _]]]]]]].
  rewrite EA. cbn [finish]. set (s1 := push_step (set_plot s0 _ _ _) st0) in *.
  set (Y := y_array g rg (map v_val (ms_y1 m)) (map v_val (ms_y2 m))). set (Y0 := y_array g rg (iref1 rg ps) (iref2 rg ps)). set (T0 := theta_array g rg (itheta g rg (p_initial_temperature p))).
  assert (TT : exists t0, thermal_step g Y0 Y T0 (p_search_radius p) (p_fps p) (p_regularization p) (se_external u) rg = Ok t0 /\ ts_grid t0 = g /\ ts_refined t0 = rg /\ length (ts_y1 t0) = (num_vertices g * dofs rg)%nat /\ length (ts_y2 t0) = (num_vertices g * dofs rg)%nat /\ length (ts_theta t0) = num_vertices (theta_grid g rg)).
  { assert (TI : thermal_step g Y0 Y T0 (p_search_radius p) (p_fps p) (p_regularization p) (se_external u) rg = therm_init g rg Y0 Y T0 (p_search_radius p) (p_fps p) (se_external u)).
    { unfold thermal_step. destruct (p_regularization p) as [e0|]; [destruct SR as [r [pg [-> _]]]|rewrite SR]; reflexivity. }
    rewrite TI. unfold therm_init. assert (XX : exists ex0, (match rg with None => se_external u 0 | Some _ => Ok 0 end) = Ok ex0 /\ 0 <= ex0) by (destruct rg; [exists 0; split; [reflexivity|lra]|exists ex; auto]).
    destruct XX as [ex0 [-> Hx0]]. cbn [bind]. unfold check_prev_step_data. unfold Y0, Y, T0. rewrite !y_shape_array, theta_shape_array. cbn [negb bind].
    assert (AN : all_nonneg (nd_data (theta_array g rg (itheta g rg (p_initial_temperature p)))) = true) by (apply all_nonneg_spec; intros v Hv; cbn in Hv; unfold itheta in Hv; apply in_map_iff in Hv as [? [<- _]]; exact PT0). rewrite AN. cbn [negb].
    assert (LX : Rltb ex0 0 = false) by (apply Rltb_false; lra). rewrite LX. cbn [y_array theta_array nd_data]. destruct (unpack_pack (num_vertices g) (dofs rg) (map v_val (ms_y1 m)) (map v_val (ms_y2 m))) as [U3 U4]; [rewrite map_length; exact B6|rewrite map_length; exact B7|]. rewrite U3, U4.
    eexists. split; [reflexivity|]. cbn. rewrite !map_length. auto. }
  destruct TT as (t0 & -> & D1 & D2 & D3 & D4 & D5). cbn [bind]. unfold therm_solved, therm_solve. rewrite N2. cbn [bind]. set (t := mkTherm _ _ _ _ _ _ _ _ _ _ _ _).
  unfold therm_y, therm_theta. assert (C1 : ts_grid t = g) by exact D1. assert (C2 : ts_refined t = rg) by exact D2. assert (C3 : length (ts_y1 t) = (num_vertices g * dofs rg)%nat) by exact D3. assert (C4 : length (ts_y2 t) = (num_vertices g * dofs rg)%nat) by exact D4.
  assert (C5 : length (map v_val (ts_theta t)) = num_vertices (theta_grid g rg)) by (rewrite map_length; cbn; rewrite load_length; exact D5). rewrite C1, C2. clearbody t.
  destruct (append_ok u g rg ST (count_call (set_therm s1 t)) (ts_y1 t) (ts_y2 t) (map v_val (ts_theta t)) eq_refl eq_refl eq_refl C3 C4 C5) as [st1 [mx' [x0' [x1' [y0' [y1' [EA' _]]]]]]].
  rewrite EA'. cbn [finish]. eexists. reflexivity.
Qed.
End Construct.

(** ** Runs *)
Lemma chain_live u g rg ps s : ground u g rg ps -> chain u g rg ps s -> 0 < p_fps (se_params u) -> (forall t, 0 <= t -> forcing_fine u t) -> never_raises (se_solver u) -> respects_domain (se_solver u) ->
  exists s', run_single_step (se_solver u) s = (s', Ok tt) /\ chain u g rg ps s'.
Proof.
  intros G CH PF FF NR RD. destruct (run_single_step (se_solver u) s) as [s' r] eqn:E. pose proof (ch_hist _ _ _ _ _ CH) as HI. pose proof (hi_inv _ _ _ _ _ HI) as SI.
  destruct (ch_last _ _ _ _ _ CH) as (l & st & Es & HO & _ & ET).
  assert (T0 : 0 <= s_time s). { rewrite ET. pose proof (si_tau _ _ _ _ _ _ _ SI) as T. rewrite ndiv_R in T by lra. injection T as <-. apply Rmult_le_pos; [apply pos_INR|]. unfold Rdiv. rewrite Rmult_1_l. left. apply Rinv_0_lt_compat, PF. }
  assert (NN : forall v, In v (map v_val (ts_theta (s_therm s))) -> 0 <= v). { intros v Hv. assert (I : In st (s_steps s)) by (rewrite Es; apply in_or_app; right; left; reflexivity). apply (gs_nn _ _ _ _ _ (hi_good _ _ _ _ _ HI st I) RD). rewrite (ho_th _ _ _ _ _ _ HO). exact Hv. }
  destruct (gr_valid _ _ _ _ G) as [Hw [Hh _]]. pose proof (params_ok u (gr_valid _ _ _ _ G)) as (_ & _ & _ & PS & _).
  destruct (grid_bounds _ _ _ _ _ _ Hw Hh PS (gr_grid _ _ _ _ G)) as (_ & _ & _ & NV & _).
  assert (R0 : r = Ok tt) by exact (single_live u g rg _ _ _ (hi_st _ _ _ _ _ HI) NV s s' r SI (FF _ T0) NR NN E). subst r. exists s'. split; [reflexivity|]. exact (chain_single u g rg ps s s' CH E).
Qed.
Lemma run_live u s n : undisturbed u s -> 0 < p_fps (se_params u) -> (forall t, 0 <= t -> forcing_fine u t) -> never_raises (se_solver u) -> respects_domain (se_solver u) -> (1 <= n)%Z ->
  exists s', run (se_solver u) n s = (s', Ok tt).
Proof.
  intros H PF FF NR RD Hn. destruct (undisturbed_chain u s H) as (g & rg & ps & G & CH). unfold run. destruct (n <=? 0)%Z eqn:A; [apply Z.leb_le in A; lia|].
  destruct (n =? 1)%Z; [destruct (chain_live u g rg ps s G CH PF FF NR RD) as [s' [E _]]; eauto|]. generalize (Z.to_nat n) as k. clear A Hn H. intros k. revert s CH. induction k as [|k IH]; intros s CH; cbn [run_loop]; [eauto|].
  destruct (chain_live u g rg ps s G CH PF FF NR RD) as [s1 [E C1]]. rewrite E. cbn [andthen]. exact (IH s1 C1).
Qed.
