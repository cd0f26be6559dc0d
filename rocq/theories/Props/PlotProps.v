(** * C89-C91: pictures and films of a simulation. *)
From Coq Require Import Reals Lra Lia List ZArith String.
From Verif.Model Require Import Py Num Tensors Domain Refine Interp.
From Verif.Spec Require Import GridSpec RefineSpec InterpSpec.
From Verif.Model Require Import Steps Simulation Plot.
From Verif.Spec Require Import SimSpec LiveSpec PlotSpec.
From Verif.Proofs Require Import Lib GridP GridCover LocateP HatP InterpP MeshLoc SimP SimQ SimA SimH StepF PlotP PlotS PlotD StepP.
From Verif.Props Require Import SimProps.
Local Open Scope R_scope.
Import ListNotations.
Local Notation length := List.length.

Section Scene.
Context (u : setting) (s : sim) (st : Simulation.step) (m n k : nat) (SC : scene u s st m n k).
Let sc := p_scale (se_params u).
Let PS : 0 < sc := sc_pos _ _ _ _ _ _ SC.
Let K0 : 0 < INR k. Proof. apply lt_0_INR. pose proof (sc_k _ _ _ _ _ _ SC). lia. Qed.
Let SK : 0 < sc / INR k. Proof. apply Rdiv_lt_0_compat; assumption. Qed.
Lemma scene_grid_point v p : point_at (st_grid st) v p -> exists a b, p = (INR a * (sc / INR k / INR 5), INR b * (sc / INR k / INR 5)) /\ (a <= m * k * 5)%nat /\ (b <= n * k * 5)%nat.
Proof.
  intros P. pose proof (sc_factor _ _ _ _ _ _ SC) as F. destruct (s_refined s) as [r|].
  - destruct F as [_ MP]. destruct (mesh_point_lattice _ _ _ _ MP v p P) as (i & j & Hi & Hj & _ & ->). eauto.
  - destruct F as [E1 EG]. rewrite EG in P. destruct (mesh_point_lattice _ _ _ _ (sc_grid _ _ _ _ _ _ SC) v p P) as (i & j & Hi & Hj & _ & ->). exists (i * k * 5)%nat, (j * k * 5)%nat. split; [|nia].
    fold sc. rewrite !mult_INR. assert (INR 5 <> 0) by (cbn; lra). apply (f_equal2 pair); field; lra.
Qed.
Lemma scene_box v p : point_at (st_grid st) v p -> 0 <= fst p <= INR m * sc /\ 0 <= snd p <= INR n * sc.
Proof.
  intros P. destruct (scene_grid_point v p P) as (a & b & -> & Ha & Hb). cbn [fst snd]. assert (F5 : 0 < INR 5) by (cbn; lra). pose proof (sc_k _ _ _ _ _ _ SC) as Kk.
  replace (sc / INR k / INR 5) with (sc / INR (k * 5)) by (rewrite mult_INR; field; lra). apply lattice_in_rectangle; try assumption; nia.
Qed.
Lemma scene_y1 : exists a1 a2 th, nd_data (st_theta_data st) = th /\ st_theta st = P1I (theta_grid (s_grid s) (s_refined s)) th /\ P1Interpolation_ (theta_grid (s_grid s) (s_refined s)) th = Ok (st_theta st) /\
  (forall v, y_at (st_y_data st) v 0 0 = if (v <? num_vertices (s_grid s))%nat then nth_error a1 (v * dofs (s_refined s)) else y_at (st_y_data st) v 0 0) /\
  (forall v, y_at (st_y_data st) v 1 0 = if (v <? num_vertices (s_grid s))%nat then nth_error a2 (v * dofs (s_refined s)) else y_at (st_y_data st) v 1 0) /\
  match s_refined s with
  | None => P1Interpolation_ (s_grid s) a1 = Ok (st_y1 st) /\ P1Interpolation_ (s_grid s) a2 = Ok (st_y2 st)
  | Some _ => C1Interpolation_ (s_grid s) (chunks (num_vertices (s_grid s)) 6 a1) = Ok (st_y1 st) /\ C1Interpolation_ (s_grid s) (chunks (num_vertices (s_grid s)) 6 a2) = Ok (st_y2 st)
  end /\ length a1 = (num_vertices (s_grid s) * dofs (s_refined s))%nat /\ length a2 = (num_vertices (s_grid s) * dofs (s_refined s))%nat.
Proof.
  destruct (sc_data _ _ _ _ _ _ SC) as (a1 & a2 & th & HO & L1 & L2 & L3). exists a1, a2, th. destruct (holds_comp _ _ _ _ _ _ HO L1 L2) as (_ & _ & ET).
  split; [exact ET|]. split; [exact (ho_ith _ _ _ _ _ _ HO)|]. rewrite (ho_ith _ _ _ _ _ _ HO), (ho_y _ _ _ _ _ _ HO), (ho_i1 _ _ _ _ _ _ HO), (ho_i2 _ _ _ _ _ _ HO).
  split; [unfold P1Interpolation_; unfold num_vertices in L3; rewrite L3, Nat.eqb_refl; reflexivity|].
  split; [intros v; destruct (v <? num_vertices (s_grid s))%nat eqn:Q; [|reflexivity]; apply Nat.ltb_lt in Q; rewrite y_at_zero by (try assumption; lia); reflexivity|].
  split; [intros v; destruct (v <? num_vertices (s_grid s))%nat eqn:Q; [|reflexivity]; apply Nat.ltb_lt in Q; rewrite y_at_zero by (try assumption; lia); reflexivity|].
  split; [|split; assumption]. destruct (s_refined s) as [r|]; cbn [dofs] in L1, L2.
  - assert (C : forall a, length a = (num_vertices (s_grid s) * 6)%nat -> C1Interpolation_ (s_grid s) (chunks (num_vertices (s_grid s)) 6 a) = Ok (C1I (s_grid s) (chunks (num_vertices (s_grid s)) 6 a))).
    { intros a La. destruct (chunks_ok (s_grid s) (Some r) a La) as [Q1 Q2]. unfold C1Interpolation_. rewrite Q1. unfold num_vertices. rewrite Nat.eqb_refl. cbn [negb]. destruct (existsb _ _) eqn:X; [|reflexivity]. exfalso. apply existsb_exists in X as (c & Ic & X). rewrite (Q2 c Ic) in X. discriminate. }
    split; apply C; assumption.
  - rewrite Nat.mul_1_r in L1, L2. unfold P1Interpolation_. unfold num_vertices in L1, L2. rewrite L1, L2, Nat.eqb_refl. auto.
Qed.
Lemma scene_draws ax top : exists a, step_plot st ax top = Ok (draw ax a) /\ shows st top a.
Proof.
  destruct scene_y1 as (a1 & a2 & th & _ & _ & IT & _ & _ & IY & _ & _). pose proof (sc_m _ _ _ _ _ _ SC) as Hm. pose proof (sc_n _ _ _ _ _ _ SC) as Hn. pose proof (sc_k _ _ _ _ _ _ SC) as Hk. pose proof (sc_grid _ _ _ _ _ _ SC) as MG.
  assert (Y : forall v p, point_at (st_grid st) v p -> exists X Y, edeform_call (st_y1 st) (st_y2 st) (fst p) (snd p) = Ok [X; Y]).
  { intros v p P. destruct (scene_box v p P) as [Bx By]. unfold edeform_call. destruct (s_refined s) as [r|]; destruct IY as [I1 I2].
    - destruct (C1_total _ _ m n PS Hm Hn MG _ _ p I1 Bx By) as [X ->]. destruct (C1_total _ _ m n PS Hm Hn MG _ _ p I2 Bx By) as [Y ->]. cbn [bind]. eauto.
    - destruct (P1_total _ _ m n PS Hm Hn MG _ _ p I1 Bx By) as [X ->]. destruct (P1_total _ _ m n PS Hm Hn MG _ _ p I2 Bx By) as [Y ->]. cbn [bind]. eauto. }
  assert (T : forall v p, point_at (st_grid st) v p -> exists c, euclid_call (st_theta st) (fst p) (snd p) = Ok c).
  { intros v p P. destruct (scene_box v p P) as [Bx By]. apply (P1_total _ _ (m * k) (n * k) SK ltac:(nia) ltac:(nia) (sc_temp _ _ _ _ _ _ SC) _ _ p IT); rewrite mult_INR; fold sc; [replace (INR m * INR k * (sc / INR k)) with (INR m * sc) by (field; lra)|replace (INR n * INR k * (sc / INR k)) with (INR n * sc) by (field; lra)]; assumption. }
  pose proof (sc_factor _ _ _ _ _ _ SC) as F. destruct (s_refined s) as [r|].
  - destruct F as [_ MP]. apply (draws st (sc / INR k / INR 5) (m * k * 5) (n * k * 5) ltac:(nia) ltac:(nia) MP Y T).
  - destruct F as [_ EG]. rewrite <- EG in MG. apply (draws st _ m n Hm Hn MG Y T).
Qed.
End Scene.

Lemma index_in_range (s : sim) (i : Z) : (- Z.of_nat (length (s_steps s)) <= i < Z.of_nat (length (s_steps s)))%Z ->
  exists st, py_index (s_steps s) i = Ok st /\ In st (s_steps s) /\ nth_error (s_steps s) (Z.to_nat (if (0 <=? i)%Z then i else Z.of_nat (length (s_steps s)) + i)) = Some st.
Proof.
  intros H. unfold py_index. cbv zeta. set (n := Z.of_nat (length (s_steps s))) in *. assert (C : ((i <? 0) = negb (0 <=? i))%Z) by (rewrite Z.ltb_antisym; reflexivity). rewrite C.
  assert (J : (0 <= (if (0 <=? i)%Z then i else n + i) < n)%Z) by (destruct (0 <=? i)%Z eqn:E0; [apply Z.leb_le in E0|apply Z.leb_gt in E0]; lia).
  replace (if negb (0 <=? i)%Z then (n + i)%Z else i) with (if (0 <=? i)%Z then i else (n + i)%Z) by (destruct (0 <=? i)%Z; reflexivity). set (j := (if (0 <=? i)%Z then i else (n + i)%Z)) in *.
  destruct (j <? 0)%Z eqn:J0; [apply Z.ltb_lt in J0; lia|]. destruct (nth_error (s_steps s) (Z.to_nat j)) as [st|] eqn:E; [|apply nth_error_None in E; unfold n in J; lia].
  exists st. split; [reflexivity|]. split; [exact (nth_error_In _ _ E)|reflexivity].
Qed.
Lemma sim_axis_lims u s : reachable u s -> exists xl yl, s_xlims s = Some xl /\ s_ylims s = Some yl /\ sim_axis s = Ok (fig_axis xl yl).
Proof.
  intros H. destruct (C68_limits_cover u s H) as (x0 & x1 & y0 & y1 & EX & EY & _). exists (x0, x1), (y0, y1). unfold sim_axis. rewrite EX, EY. auto.
Qed.
Lemma plot_figure_at u s i st : reachable u s -> (- Z.of_nat (length (s_steps s)) <= i < Z.of_nat (length (s_steps s)))%Z -> py_index (s_steps s) i = Ok st ->
  exists xl yl, s_xlims s = Some xl /\ s_ylims s = Some yl /\ plot_figure s i = (let* ax := step_plot st (fig_axis xl yl) (sim_max_temp s) in Ok (Some ax)).
Proof.
  intros H Hi E. destruct (sim_axis_lims u s H) as (xl & yl & EX & EY & EA). exists xl, yl. split; [exact EX|]. split; [exact EY|]. unfold plot_figure. cbv zeta.
  destruct (i <? - Z.of_nat (length (s_steps s)))%Z eqn:A; [apply Z.ltb_lt in A; lia|]. destruct (Z.of_nat (length (s_steps s)) <=? i)%Z eqn:B; [apply Z.leb_le in B; lia|]. cbn [orb]. rewrite EA, E. reflexivity.
Qed.

(** ** C89: the picture of a recorded step *)
(** It never fails: the step that Python indexing selects is drawn alone, completely, on axes with the limits of the simulation. *)
Theorem C89_plot_step_shows_the_step : forall u s i, reachable u s -> has_cells u -> fine_enough u ->
  (- Z.of_nat (length (s_steps s)) <= i < Z.of_nat (length (s_steps s)))%Z ->
  exists st ax a, py_index (s_steps s) i = Ok st /\ plot_figure s i = Ok (Some ax) /\ ax_artists ax = [a] /\ shows st (sim_max_temp s) a /\
    s_xlims s = Some (ax_xlim ax) /\ s_ylims s = Some (ax_ylim ax).
Proof.
  intros u s i HR HC FE Hi. destruct (index_in_range s i Hi) as (st & E & I & _). destruct (scene_of u s st HR HC FE I) as (m & n & k & SC).
  destruct (plot_figure_at u s i st HR Hi E) as (xl & yl & EX & EY & EP). destruct (scene_draws u s st m n k SC (fig_axis xl yl) (sim_max_temp s)) as (a & D & S).
  exists st, (draw (fig_axis xl yl) a), a. rewrite EP, D. cbn [bind]. split; [exact E|]. split; [reflexivity|]. split; [reflexivity|]. split; [exact S|]. auto.
Qed.
Print Assumptions C89_plot_step_shows_the_step.
(** Nothing is drawn for other indices, nothing is ever changed or raised. *)
Theorem C89_other_indices : forall s i, ~ (- Z.of_nat (length (s_steps s)) <= i < Z.of_nat (length (s_steps s)))%Z -> plot_figure s i = Ok None.
Proof.
  intros s i H. unfold plot_figure. cbv zeta. destruct (i <? - Z.of_nat (length (s_steps s)))%Z eqn:A; [reflexivity|]. apply Z.ltb_ge in A. destruct (Z.of_nat (length (s_steps s)) <=? i)%Z eqn:B; [reflexivity|]. apply Z.leb_gt in B. lia.
Qed.
Print Assumptions C89_other_indices.
(** What is triangulated: the simulation grid, or with regularization the grid five times finer than the refined one; both fill the rectangle of the
    simulation grid. *)
Theorem C89_triangulation : forall u s st, reachable u s -> has_cells u -> fine_enough u -> In st (s_steps s) ->
  exists m n, fits (se_width u) (p_scale (se_params u)) m /\ fits (se_height u) (p_scale (se_params u)) n /\ (1 <= m)%nat /\ (1 <= n)%nat /\
    match s_refined s with
    | None => st_grid st = s_grid s /\ mesh (st_grid st) (p_scale (se_params u)) m n
    | Some _ => exists k, p_refinement_factor (se_params u) = Some (Z.of_nat k) /\ mesh (st_grid st) (p_scale (se_params u) / INR k / 5) (m * k * 5) (n * k * 5)
    end.
Proof.
  intros u s st HR HC FE I. destruct (scene_of u s st HR HC FE I) as (m & n & k & SC). exists m, n. split; [apply SC|]. split; [apply SC|]. split; [apply SC|]. split; [apply SC|].
  pose proof (sc_factor _ _ _ _ _ _ SC) as F. pose proof (sc_grid _ _ _ _ _ _ SC) as MG. destruct (s_refined s) as [r|].
  - exists k. destruct F as [F1 F2]. split; [exact F1|]. replace (INR 5) with 5 in F2 by (cbn; lra). exact F2.
  - destruct F as [_ F]. split; [exact F|]. rewrite F. exact MG.
Qed.
Print Assumptions C89_triangulation.

(** The functions of a step interpolate its data: at every vertex of the simulation grid [step.y] is the recorded deformation, at every vertex of the
    temperature grid [step.theta] is the recorded temperature (mesh widths above 1e-5). *)
Theorem C89_step_interpolates_data : forall u s st, reachable u s -> has_cells u -> fine_enough u -> In st (s_steps s) ->
  (/ 10 ^ 10 < p_scale (se_params u) * p_scale (se_params u) -> forall v p, point_at (s_grid s) v p ->
     exists X Y, y_at (st_y_data st) v 0 0 = Some X /\ y_at (st_y_data st) v 1 0 = Some Y /\ edeform_call (st_y1 st) (st_y2 st) (fst p) (snd p) = Ok [X; Y]) /\
  (forall k, match s_refined s with None => k = 1%nat | Some _ => p_refinement_factor (se_params u) = Some (Z.of_nat k) end ->
     let h := p_scale (se_params u) / INR k in / 10 ^ 10 < h * h -> forall v p, point_at (theta_grid (s_grid s) (s_refined s)) v p ->
     exists c, theta_at (st_theta_data st) v = Some c /\ euclid_call (st_theta st) (fst p) (snd p) = Ok c).
Proof.
  intros u s st HR HC FE I. destruct (scene_of u s st HR HC FE I) as (m & n & k & SC). destruct (scene_y1 u s st m n k SC) as (a1 & a2 & th & ET & ETH & IT & Y1 & Y2 & IY & L1 & L2).
  pose proof (sc_pos _ _ _ _ _ _ SC) as PS. pose proof (sc_m _ _ _ _ _ _ SC) as Hm. pose proof (sc_n _ _ _ _ _ _ SC) as Hn. pose proof (sc_k _ _ _ _ _ _ SC) as Hk. pose proof (sc_grid _ _ _ _ _ _ SC) as MG. split.
  - intros He v p P. assert (Lv : (v < num_vertices (s_grid s))%nat). { unfold num_vertices. rewrite (mesh_length _ _ _ _ MG). apply nth_error_Some. unfold point_at in P. congruence. }
    rewrite Y1, Y2. apply Nat.ltb_lt in Lv as LB. rewrite LB. unfold edeform_call. destruct (s_refined s) as [r|]; cbn [dofs] in *; destruct IY as [I1 I2].
    + assert (CH : forall a : list R, length a = (num_vertices (s_grid s) * 6)%nat -> exists w w1 w2 w3 w4 w5, nth_error (chunks (num_vertices (s_grid s)) 6 a) v = Some [w; w1; w2; w3; w4; w5] /\ nth_error a (v * 6) = Some w).
      { intros a La. unfold chunks. rewrite nth_error_map. unfold range. rewrite nth_error_nth' with (d := 0%nat) by (rewrite seq_length; exact Lv). rewrite seq_nth by exact Lv. cbn [option_map Nat.add].
        pose proof (slice_length (v * 6) 6 a ltac:(lia)) as SL. unfold slice in *. destruct (nth_error a (v * 6)) as [w|] eqn:Ew; [|apply nth_error_None in Ew; lia].
        apply nth_error_split in Ew as (l1' & l2' & -> & Lw). rewrite skipn_app, <- Lw, skipn_all, Nat.sub_diag in *. cbn [app skipn firstn] in *. destruct l2' as [|w1 [|w2 [|w3 [|w4 [|w5 l2']]]]]; cbn in SL; try lia. eauto 10. }
      destruct (CH a1 L1) as (w & w1 & w2 & w3 & w4 & w5 & C1 & N1). destruct (CH a2 L2) as (z & z1 & z2 & z3 & z4 & z5 & C2 & N2). exists w, z. split; [exact N1|]. split; [exact N2|].
      destruct (C1_vertex _ _ m n PS Hm Hn MG _ _ v p _ _ _ _ _ _ He I1 P C1) as [-> _]. destruct (C1_vertex _ _ m n PS Hm Hn MG _ _ v p _ _ _ _ _ _ He I2 P C2) as [-> _]. reflexivity.
    + rewrite !Nat.mul_1_r in *. destruct (nth_error a1 v) as [w|] eqn:N1; [|apply nth_error_None in N1; lia]. destruct (nth_error a2 v) as [z|] eqn:N2; [|apply nth_error_None in N2; lia]. exists w, z. split; [reflexivity|]. split; [reflexivity|].
      rewrite (P1_vertex _ _ m n PS Hm Hn MG _ _ v p w He I1 P N1), (P1_vertex _ _ m n PS Hm Hn MG _ _ v p z He I2 P N2). reflexivity.
  - intros k' Hk' h He v p P. assert (k' = k). { pose proof (sc_factor _ _ _ _ _ _ SC) as F. destruct (s_refined s); [|destruct F; congruence]. destruct F as [F _]. rewrite F in Hk'. injection Hk' as Q. lia. } subst k'.
    assert (K0 : 0 < INR k) by (apply lt_0_INR; lia). assert (SK : 0 < p_scale (se_params u) / INR k) by (apply Rdiv_lt_0_compat; assumption). unfold theta_at. rewrite ET.
    pose proof (P1_ok _ _ _ IT) as [_ LT]. pose proof (sc_temp _ _ _ _ _ _ SC) as MT. assert (Lv : (v < length th)%nat). { rewrite LT, (mesh_length _ _ _ _ MT). apply nth_error_Some. unfold point_at in P. congruence. }
    destruct (nth_error th v) as [c|] eqn:N; [|apply nth_error_None in N; lia]. exists c. split; [reflexivity|]. apply (P1_vertex _ _ (m * k) (n * k) SK ltac:(nia) ltac:(nia) MT _ _ v p c He IT P N).
Qed.
Print Assumptions C89_step_interpolates_data.
(** Without regularization the picture shows exactly the data: vertex [v] at the recorded position, with the recorded temperature, inside the view and on
    the colour scale (mesh width above 1e-5). *)
Theorem C89_unregularized_picture : forall u s i, reachable u s -> has_cells u -> s_refined s = None -> / 10 ^ 10 < p_scale (se_params u) * p_scale (se_params u) ->
  (- Z.of_nat (length (s_steps s)) <= i < Z.of_nat (length (s_steps s)))%Z ->
  exists st ax xs ys cs, py_index (s_steps s) i = Ok st /\ plot_figure s i = Ok (Some ax) /\ ax_artists ax = [Coloured xs ys cs (g_triangles (s_grid s)) 0 (sim_max_temp s)] /\
    length xs = length (g_vertices (s_grid s)) /\ length ys = length (g_vertices (s_grid s)) /\ length cs = length (g_vertices (s_grid s)) /\
    forall v, (v < length (g_vertices (s_grid s)))%nat -> exists X Y c, nth_error xs v = Some X /\ nth_error ys v = Some Y /\ nth_error cs v = Some c /\
      y_at (st_y_data st) v 0 0 = Some X /\ y_at (st_y_data st) v 1 0 = Some Y /\ theta_at (st_theta_data st) v = Some c /\
      in_view ax X Y /\ c <= sim_max_temp s /\ (respects_domain (se_solver u) -> 0 <= c).
Proof.
  intros u s i HR HC Hn He Hi. assert (FE : fine_enough u).
  { unfold fine_enough. destruct (reachable_hist u s HR) as (g & rg & ps & G & HI). destruct (hist_grid _ _ _ _ _ HI) as (_ & Er & _). destruct (gr_ref _ _ _ _ G) as [[-> _]|(e & k & r & _ & _ & _ & E)]; [exact I|congruence]. }
  destruct (C89_plot_step_shows_the_step u s i HR HC FE Hi) as (st & ax & a & E & EP & EA & SH & EX & EY). destruct (index_in_range s i Hi) as (st' & E' & Ist & _). rewrite E in E'. injection E' as <-.
  destruct SH as (xs & ys & cs & -> & Lx & Ly & Lc & V). destruct (C89_triangulation u s st HR HC FE Ist) as (m & n & _ & _ & _ & _ & T). rewrite Hn in T. destruct T as [EG M]. rewrite EG in *.
  destruct (C89_step_interpolates_data u s st HR HC FE Ist) as [IY IT]. specialize (IY He). rewrite Hn in IT. specialize (IT 1%nat eq_refl). cbv zeta in IT. replace (p_scale (se_params u) / INR 1) with (p_scale (se_params u)) in IT by (cbn; field). specialize (IT He). cbn [theta_grid] in IT.
  exists st, ax, xs, ys, cs. rewrite (mesh_length _ _ _ _ M). split; [exact E|]. split; [exact EP|]. split; [exact EA|]. split; [exact Lx|]. split; [exact Ly|]. split; [exact Lc|]. intros v Lv.
  assert (P : exists p, point_at (s_grid s) v p). { destruct (nth_error (g_points (s_grid s)) v) as [q|] eqn:Q; [|apply nth_error_None in Q; lia]. assert (Iv : In v (g_vertices (s_grid s))) by (rewrite (mesh_numbers _ _ _ _ M); apply in_seq; lia). destruct (mesh_inside _ _ _ _ M v Iv) as (a & b & _ & _ & _ & W). exists (INR a * p_scale (se_params u), INR b * p_scale (se_params u)). exact W. }
  destruct P as [p P]. destruct (V v p P) as (X & Y & c & N1 & N2 & N3 & DY & DT). destruct (IY v p P) as (X' & Y' & D1 & D2 & DY'). rewrite DY in DY'. injection DY' as <- <-. destruct (IT v p P) as (c' & D3 & DT'). rewrite DT in DT'. injection DT' as <-.
  exists X, Y, c. split; [exact N1|]. split; [exact N2|]. split; [exact N3|]. split; [exact D1|]. split; [exact D2|]. split; [exact D3|]. split; [|split].
  - destruct (C68_limits_cover u s HR) as (x0 & x1 & y0 & y1 & QX & QY & CX & CY). rewrite EX in QX. rewrite EY in QY. injection QX as QX. injection QY as QY. unfold in_view. rewrite QX, QY. cbn [fst snd].
    assert (Z : forall c z, y_at (st_y_data st) v c 0 = Some z -> In z (deformed_coordinates (length (g_vertices (s_grid s))) c (s_steps s))).
    { intros d z D. unfold deformed_coordinates. apply in_flat_map. exists st. split; [exact Ist|]. apply in_flat_map. exists v. split; [apply in_seq; rewrite (mesh_length _ _ _ _ M); lia|]. rewrite D. left. reflexivity. }
    split; [apply CX, Z, D1|apply CY, Z, D2].
  - destruct (C68_max_temperature u s HR) as [_ MX]. apply MX. right. unfold temperatures. apply in_flat_map. exists st. split; [exact Ist|]. exact (nth_error_In _ _ D3).
  - intros RD. destruct (reachable_hist u s HR) as (g & rg & ps & G & HI). apply (gs_nn _ _ _ _ _ (hi_good _ _ _ _ _ HI st Ist) RD). exact (nth_error_In _ _ D3).
Qed.
Print Assumptions C89_unregularized_picture.
(** Without a cell in one direction there is nothing to draw: the simulation exists, but every plot raises. *)
Theorem C89_no_cells_refuted : forall u s i, reachable u s -> ~ has_cells u -> s_refined s = None ->
  (- Z.of_nat (length (s_steps s)) <= i < Z.of_nat (length (s_steps s)))%Z -> plot_figure s i = Err ValueError.
Proof.
  intros u s i HR HC Hn Hi. destruct (index_in_range s i Hi) as (st & E & I & _). destruct (plot_figure_at u s i st HR Hi E) as (xl & yl & _ & _ & EP). rewrite EP.
  destruct (reachable_hist u s HR) as (g & rg & ps & G & HI). destruct (hist_grid _ _ _ _ _ HI) as (Eg & Er & Ep). rewrite Er in Hn. subst rg.
  destruct (gs_holds _ _ _ _ _ (hi_good _ _ _ _ _ HI st I)) as (a1 & a2 & th & HO & _). destruct (reachable_made u s HR st I) as (yd & td & NS). apply made_grid in NS. rewrite Eg, Er, Ep in NS.
  assert (EG : st_grid st = g).
  { destruct (p_regularization (se_params u)); [|exact NS]. destruct NS as (r9 & pg9 & Q9 & _). discriminate Q9. }
  pose proof (gr_valid _ _ _ _ G) as V. pose proof (SimR.params_ok u V) as (_ & _ & _ & PS & _). destruct V as [Hw [Hh _]].
  destruct (fits_exists _ _ Hw PS) as [m Fm]. destruct (fits_exists _ _ Hh PS) as [n Fn]. pose proof (grid_spec _ _ _ _ _ _ _ _ PS Fm Fn (gr_grid _ _ _ _ G)) as RS.
  assert (T : g_triangles g = []).
  { destruct (g_triangles g) as [|t ts] eqn:T; [reflexivity|]. exfalso. assert (It : In t (g_triangles g)) by (rewrite T; left; reflexivity). rewrite (rs_t _ _ _ _ _ _ RS) in It. apply in_triangles in It as (a & b & Ha & Hb & _).
    apply HC. split.
    - destruct Fm as [F _]. apply Rle_trans with (INR m * p_scale (se_params u)); [|exact F]. rewrite <- (Rmult_1_l (p_scale (se_params u))) at 1. apply Rmult_le_compat_r; [lra|]. apply (le_INR 1). lia.
    - destruct Fn as [F _]. apply Rle_trans with (INR n * p_scale (se_params u)); [|exact F]. rewrite <- (Rmult_1_l (p_scale (se_params u))) at 1. apply Rmult_le_compat_r; [lra|]. apply (le_INR 1). lia. }
  assert (P : exists x y l, g_points g = [x; y] :: l). { pose proof (sta_N _ _ _ (hi_st _ _ _ _ _ HI)) as N. rewrite <- (gr_len _ _ _ _ G) in N. rewrite (gr_points _ _ _ _ G). destruct ps as [|[x y] ps]; [cbn in N; lia|]. cbn. eauto. }
  destruct P as (x & y & l & P). unfold step_plot, plot_temperature. rewrite EG, P. cbn [mapM call_at]. unfold edeform_call, euclid_call, to_barycentric_inputs. rewrite (ho_i1 _ _ _ _ _ _ HO). cbn [i_grid]. unfold to_barycentric_point. rewrite T. reflexivity.
Qed.
Print Assumptions C89_no_cells_refuted.

(** ** C90: colours and view with regularization *)
(** No colour is cut off: every temperature drawn is on the colour scale (temperature mesh widths above about 3e-5). *)
Theorem C90_colours_on_scale : forall u s i ax xs ys cs ts lo hi, reachable u s -> has_cells u -> fine_enough u ->
  (forall k, match s_refined s with None => k = 1%nat | Some _ => p_refinement_factor (se_params u) = Some (Z.of_nat k) end -> 5 / 10 ^ 10 < (p_scale (se_params u) / INR k) ^ 2) ->
  plot_figure s i = Ok (Some ax) -> ax_artists ax = [Coloured xs ys cs ts lo hi] ->
  hi = sim_max_temp s /\ lo = 0 /\ forall c, In c cs -> c <= hi /\ (respects_domain (se_solver u) -> lo <= c).
Proof.
  intros u s i ax xs ys cs ts lo hi HR HC FE HK EP EA. assert (Hi : (- Z.of_nat (length (s_steps s)) <= i < Z.of_nat (length (s_steps s)))%Z).
  { destruct (Z_le_dec (- Z.of_nat (length (s_steps s))) i) as [A|A]; [destruct (Z_lt_dec i (Z.of_nat (length (s_steps s)))) as [B|B]; [lia|]|]; rewrite C89_other_indices in EP by lia; discriminate. }
  destruct (C89_plot_step_shows_the_step u s i HR HC FE Hi) as (st & ax' & a & E & EP' & EA' & SH & _). rewrite EP in EP'. injection EP' as <-. rewrite EA in EA'. injection EA' as <-.
  destruct (index_in_range s i Hi) as (st' & E' & Ist & _). rewrite E in E'. injection E' as <-. destruct SH as (xs' & ys' & cs' & Q & _ & _ & Lc & V). injection Q as -> -> -> -> -> ->. split; [reflexivity|]. split; [reflexivity|].
  destruct (scene_of u s st HR HC FE Ist) as (m & n & k & SC). pose proof (sc_m _ _ _ _ _ _ SC) as Hm. pose proof (sc_n _ _ _ _ _ _ SC) as Hn. pose proof (sc_k _ _ _ _ _ _ SC) as Hk. pose proof (sc_pos _ _ _ _ _ _ SC) as PS.
  assert (K0 : 0 < INR k) by (apply lt_0_INR; lia). assert (SK : 0 < p_scale (se_params u) / INR k) by (apply Rdiv_lt_0_compat; assumption).
  specialize (HK k). assert (HK' : 5 / 10 ^ 10 < (p_scale (se_params u) / INR k) ^ 2) by (apply HK; pose proof (sc_factor _ _ _ _ _ _ SC) as F; destruct (s_refined s); apply F). clear HK.
  destruct (scene_y1 u s st m n k SC) as (a1 & a2 & th & ET & _ & IT & _). pose proof (sc_temp _ _ _ _ _ _ SC) as MT.
  assert (B : forall lo hi, (forall z, In z th -> lo <= z <= hi) -> forall c, In c cs' -> lo <= c <= hi).
  { intros lo hi LH c Ic. apply In_nth_error in Ic as [v Nv]. assert (Lv : (v < length (g_points (st_grid st)))%nat) by (rewrite <- Lc; apply nth_error_Some; congruence).
    assert (P : exists p, point_at (st_grid st) v p).
    { assert (MX : exists s' m' n', mesh (st_grid st) s' m' n'). { pose proof (sc_factor _ _ _ _ _ _ SC) as F. destruct (s_refined s); [destruct F as [_ F]; eauto|]. destruct F as [_ F]. rewrite F. pose proof (sc_grid _ _ _ _ _ _ SC). eauto. }
      destruct MX as (s' & m' & n' & MX). assert (Iv : In v (g_vertices (st_grid st))) by (rewrite (mesh_numbers _ _ _ _ MX); apply in_seq; lia). destruct (mesh_inside _ _ _ _ MX v Iv) as (x & y & _ & _ & _ & W). exists (INR x * s', INR y * s'). exact W. }
    destruct P as [p P]. destruct (V v p P) as (X & Y & c' & _ & _ & N3 & _ & DT). rewrite Nv in N3. injection N3 as <-. destruct (scene_grid_point u s st m n k SC v p P) as (x & y & -> & Hx & Hy). cbn [fst snd] in DT.
    destruct (P1_between _ _ (m * k) (n * k) SK ltac:(nia) ltac:(nia) MT th (st_theta st) 5 x y lo hi IT ltac:(lia) Hx Hy) as (c' & Q & QB); [|exact LH|].
    - unfold eps10. replace (INR 5) with 5 by (cbn; lra). replace (p_scale (se_params u) / INR k * (p_scale (se_params u) / INR k)) with ((p_scale (se_params u) / INR k) ^ 2) by ring. lra.
    - cbn [fst snd] in Q. rewrite Q in DT. injection DT as <-. exact QB. }
  destruct (C68_max_temperature u s HR) as [_ MX]. destruct (reachable_hist u s HR) as (g & rg & ps & G & HI).
  assert (UP : forall z, In z th -> z <= sim_max_temp s) by (intros z Iz; apply MX; right; unfold temperatures; apply in_flat_map; exists st; split; [exact Ist|rewrite ET; exact Iz]).
  assert (LO : exists lo, forall z, In z th -> lo <= z).
  { clear. induction th as [|x l [lo IH]]; [exists 0; intros ? []|]. exists (Rmin x lo). intros z [<- |Iz]; [apply Rmin_l|]. apply Rle_trans with lo; [apply Rmin_r|apply IH, Iz]. }
  destruct LO as [lo LO]. intros c Ic. split.
  - apply (B lo (sim_max_temp s)); [intros z Iz; auto|exact Ic].
  - intros RD. apply (B 0 (sim_max_temp s)); [|exact Ic]. intros z Iz. split; [|apply UP, Iz]. apply (gs_nn _ _ _ _ _ (hi_good _ _ _ _ _ HI st Ist) RD). rewrite ET. exact Iz.
Qed.
Print Assumptions C90_colours_on_scale.
