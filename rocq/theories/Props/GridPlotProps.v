(** * C92, C93: drawing grids, domains and deformed curves. *)
From Coq Require Import Reals Lra Lia List ZArith String.
From Verif.Model Require Import Py Num Tensors Domain Refine Interp.
From Verif.Spec Require Import GridSpec RefineSpec InterpSpec.
From Verif.Model Require Import Steps Simulation Plot.
From Verif.Spec Require Import SimSpec LiveSpec PlotSpec.
From Verif.Proofs Require Import Lib GridP GridCover LocateP StdOrder HatP InterpP MeshLoc PlotP PlotS PlotD SimP SimQ SimR SimH SimL SimA SimE.
From Verif.Props Require Import GridProps LocateProps RefineProps InterpProps SimProps PlotProps.
Local Open Scope R_scope.
Import ListNotations.
Local Notation length := List.length.

(** ** C92 *)
Lemma fold_draws {A} (f : axis -> A -> res axis) (P : A -> artist -> Prop) l ax : (forall ax x, In x l -> exists a, f ax x = Ok (draw ax a) /\ P x a) ->
  exists ax' as_, foldM f l ax = Ok ax' /\ ax_xlim ax' = ax_xlim ax /\ ax_ylim ax' = ax_ylim ax /\ ax_artists ax' = ax_artists ax ++ as_ /\ Forall2 P l as_.
Proof.
  revert ax. induction l as [|x l IH]; intros ax H; [exists ax, []; rewrite app_nil_r; auto 10|]. destruct (H ax x (or_introl eq_refl)) as (a & E & Pa). cbn [foldM]. rewrite E. cbn [bind].
  destruct (IH (draw ax a)) as (ax' & as_ & E' & X & Y & Z & F); [intros; apply H; right; assumption|]. exists ax', (a :: as_). split; [exact E'|]. split; [exact X|]. split; [exact Y|]. split; [rewrite Z; cbn; rewrite <- app_assoc; reflexivity|]. constructor; assumption.
Qed.

(** Plotting a grid on an axis adds one dot per vertex and one segment per edge, never shrinks the view, and the new view contains the whole grid. *)
Theorem C92_grid_plot : forall g s m n ax, 0 < s -> mesh g s m n ->
  exists ax' xs ys segments, grid_plot g (Some ax) = Ok ax' /\ ax_artists ax' = ax_artists ax ++ Dots xs ys :: segments /\
    length xs = length (g_points g) /\ length ys = length (g_points g) /\
    (forall v p, point_at g v p -> nth_error xs v = Some (fst p) /\ nth_error ys v = Some (snd p) /\ in_view ax' (fst p) (snd p)) /\
    Forall2 (segment g) (g_edges g) segments /\ wider ax ax'.
Proof.
  intros g s m n ax Hs M.
  assert (PP : forall q, In q (g_points g) -> exists x y, q = [x; y] /\ 0 <= x /\ 0 <= y).
  { intros q I. apply In_nth_error in I as [v Hv]. assert (Iv : In v (g_vertices g)). { rewrite (mesh_numbers _ _ _ _ M). apply in_seq. split; [lia|]. cbn. apply nth_error_Some. congruence. }
    destruct (mesh_inside _ _ _ _ M v Iv) as (i & j & _ & _ & _ & E). rewrite Hv in E. injection E as ->. exists (INR i * s), (INR j * s). split; [reflexivity|]. split; (apply Rmult_le_pos; [apply pos_INR|lra]). }
  assert (NE : g_points g <> []). { destruct (mesh_points _ _ _ _ M 0%nat 0%nat ltac:(lia) ltac:(lia)) as [a [[_ Va] _]]. intros Q. rewrite Q in Va. destruct a; discriminate. }
  destruct (mapM_exists (fun p => py_nth p 0) (g_points g)) as [xs Ex]. { intros d Id. destruct (PP d Id) as (X & Y & -> & _). exists X. reflexivity. }
  destruct (mapM_exists (fun p => py_nth p 1) (g_points g)) as [ys Ey]. { intros d Id. destruct (PP d Id) as (X & Y & -> & _). exists Y. reflexivity. }
  pose proof (mapM_length _ _ _ Ex) as Lx. pose proof (mapM_length _ _ _ Ey) as Ly.
  assert (V : forall v p, point_at g v p -> nth_error xs v = Some (fst p) /\ nth_error ys v = Some (snd p)).
  { intros v p P. destruct (nth_error_mapped _ _ _ (proj1 (mapM_ok_iff _ _ _) Ex) v _ P) as (x & Nx & Qx). destruct (nth_error_mapped _ _ _ (proj1 (mapM_ok_iff _ _ _) Ey) v _ P) as (y & Ny & Qy). cbn in Qx, Qy. injection Qx as <-. injection Qy as <-. auto. }
  assert (NX : xs <> []) by (destruct xs; [cbn in Lx; destruct (g_points g); [congruence|discriminate]|discriminate]). assert (NY : ys <> []) by (destruct ys; [cbn in Ly; destruct (g_points g); [congruence|discriminate]|discriminate]).
  destruct (np_max_ok xs NX) as (xm & Exm & Mx & Ux). destruct (np_max_ok ys NY) as (ym & Eym & My & Uy).
  set (ax1 := draw (adjust_ylim (adjust_xlim ax (- PLOT_BORDER, xm + PLOT_BORDER)) (- PLOT_BORDER, ym + PLOT_BORDER)) (Dots xs ys)).
  destruct (fold_draws (plot_edge g) (segment g) (g_edges g) ax1) as (ax' & sg & E & X & Y & Z & F).
  { intros ax0 e Ie. destruct (mesh_directions _ _ _ _ M e Ie) as (i & j & i' & j' & [_ P] & [_ Q] & _). unfold plot_edge, py_nth. rewrite P, Q. cbn [bind nth_error]. eexists. split; [reflexivity|].
    exists (INR i * s, INR j * s), (INR i' * s, INR j' * s). split; [exact P|]. split; [exact Q|]. reflexivity. }
  exists ax', xs, ys, sg. split.
  { unfold grid_plot, plot_vertices, coordinate, plot_edges. rewrite Ex. cbn [bind]. rewrite Exm. cbn [bind]. rewrite Ey. cbn [bind]. rewrite Eym. cbn [bind]. exact E. }
  split; [rewrite Z; unfold ax1; cbn; rewrite <- app_assoc; reflexivity|]. split; [exact Lx|]. split; [exact Ly|].
  assert (XL : ax_xlim ax' = (Rmin (fst (ax_xlim ax)) (- PLOT_BORDER), Rmax (snd (ax_xlim ax)) (xm + PLOT_BORDER))) by exact X. assert (YL : ax_ylim ax' = (Rmin (fst (ax_ylim ax)) (- PLOT_BORDER), Rmax (snd (ax_ylim ax)) (ym + PLOT_BORDER))) by exact Y.
  assert (PB : 0 < PLOT_BORDER) by (unfold PLOT_BORDER; lra). split; [|split].
  - intros v p P. destruct (V v p P) as [V1 V2]. split; [exact V1|]. split; [exact V2|]. unfold in_view. rewrite XL, YL. cbn [fst snd]. destruct (PP _ (nth_error_In _ _ P)) as (x & y & Q & Qx & Qy). injection Q as Q1 Q2.
    pose proof (Ux _ (nth_error_In _ _ V1)). pose proof (Uy _ (nth_error_In _ _ V2)). pose proof (Rmin_r (fst (ax_xlim ax)) (- PLOT_BORDER)). pose proof (Rmin_r (fst (ax_ylim ax)) (- PLOT_BORDER)). pose proof (Rmax_r (snd (ax_xlim ax)) (xm + PLOT_BORDER)). pose proof (Rmax_r (snd (ax_ylim ax)) (ym + PLOT_BORDER)). lra.
  - exact F.
  - unfold wider. rewrite XL, YL. cbn [fst snd]. pose proof (Rmin_l (fst (ax_xlim ax)) (- PLOT_BORDER)). pose proof (Rmin_l (fst (ax_ylim ax)) (- PLOT_BORDER)). pose proof (Rmax_l (snd (ax_xlim ax)) (xm + PLOT_BORDER)). pose proof (Rmax_l (snd (ax_ylim ax)) (ym + PLOT_BORDER)). lra.
Qed.
Print Assumptions C92_grid_plot.
(** In particular every grid of a domain with at least one cell per direction, and every refinement of it. *)
Theorem C92_domain_grids : forall so w h f s m n N, 0 < s -> fits w s m -> fits h s n -> (1 <= m)%nat -> (1 <= n)%nat -> (1 <= N)%nat -> / 10 ^ 15 <= s / INR N -> forall g, domain_grid so w h f s = Ok g ->
  (forall ax, exists ax', grid_plot g (Some ax) = Ok ax') /\ exists r, refine g (Z.of_nat N) = Ok r /\ forall ax, exists ax', grid_plot (r_grid r) (Some ax) = Ok ax'.
Proof.
  intros so w h f s m n N Hs Fm Fn Hm Hn HN He g Hg. pose proof (C27_rectangle_grid_is_mesh _ _ _ _ _ _ _ _ Hs Fm Fn Hg Hm Hn) as (M & _). split.
  - intros ax. destruct (C92_grid_plot g s m n ax Hs M) as (ax' & _ & _ & _ & E & _). eauto.
  - destruct (C27_refinement_is_fine_mesh g s m n N Hs Hm Hn HN He M) as (r & Er & _ & MR & _). exists r. split; [exact Er|]. intros ax. assert (PN : 0 < s / INR N) by (apply Rdiv_lt_0_compat; [lra|apply lt_0_INR; lia]). destruct (C92_grid_plot _ _ _ _ ax PN MR) as (ax' & _ & _ & _ & E & _). eauto.
Qed.
(** Without an axis, the documented default, plotting a grid always raises. *)
Theorem C92_default_axis_refuted : forall g, grid_plot g None = Err TypeError.
Proof. reflexivity. Qed.
(** A domain drawn without an axis is completely visible; on an axis of the caller the view is kept. *)
Theorem C92_domain_plot : forall w h, 0 <= w -> 0 <= h ->
  (let ax := domain_plot w h None in ax_artists ax = [Box 0 0 w h] /\ forall x y, 0 <= x <= w -> 0 <= y <= h -> in_view ax x y) /\
  forall ax, let ax' := domain_plot w h (Some ax) in ax_artists ax' = ax_artists ax ++ [Box 0 0 w h] /\ wider ax ax' /\ wider ax' ax.
Proof.
  intros w h Hw Hh. split.
  - cbv zeta. split; [reflexivity|]. intros x y Hx Hy. unfold in_view, domain_plot, PLOT_BORDER. cbn. lra.
  - intros ax. cbv zeta. split; [reflexivity|]. unfold wider, domain_plot. cbn. lra.
Qed.
Print Assumptions C92_domain_plot.

(** ** C93: deformed curves *)
(** If the mesh width divides the sides of the rectangle, drawing the deformed curves succeeds: one line per curve, through the images of its points; the
    view is not changed. *)
Theorem C93_deformation_curves_partial : forall u s st m n np h v ax, reachable u s -> has_cells u -> fine_enough u -> In st (s_steps s) ->
  se_width u = INR m * p_scale (se_params u) -> se_height u = INR n * p_scale (se_params u) -> (2 <= np)%nat ->
  exists cs ax' lines, curves (se_width u) (se_height u) (Z.of_nat np) (Z.of_nat h) (Some (Z.of_nat v)) = Ok cs /\ length cs = (h + 2 + (v + 2))%nat /\
    plot_deformation_curves (se_width u) (se_height u) st (Z.of_nat np) (Z.of_nat h) (Some (Z.of_nat v)) ax = Ok ax' /\
    ax_xlim ax' = ax_xlim ax /\ ax_ylim ax' = ax_ylim ax /\ ax_artists ax' = ax_artists ax ++ lines /\ Forall2 (image_line st) cs lines.
Proof.
  intros u s st m n np h v ax HR HC FE Ist Ew Eh Hnp. destruct (C26_curves (se_width u) (se_height u) np h v Hnp) as (hs & vs & EC & Lh & Lv & _). exists (hs ++ vs).
  destruct (scene_of u s st HR HC FE Ist) as (m' & n' & k & SC). pose proof (sc_pos _ _ _ _ _ _ SC) as PS.
  assert (W : forall e q, e = INR q * p_scale (se_params u) -> fits e (p_scale (se_params u)) q) by (intros e q ->; unfold fits; rewrite ?plus_INR; cbn [INR]; lra).
  assert (m' = m) as -> by (apply (fits_unique (se_width u) (p_scale (se_params u))); [exact PS|apply SC|apply W, Ew]). assert (n' = n) as -> by (apply (fits_unique (se_height u) (p_scale (se_params u))); [exact PS|apply SC|apply W, Eh]).
  assert (HW : 0 <= se_width u) by (rewrite Ew; apply Rmult_le_pos; [apply pos_INR|lra]). assert (HH : 0 <= se_height u) by (rewrite Eh; apply Rmult_le_pos; [apply pos_INR|lra]).
  destruct (scene_y1 u s st m n k SC) as (a1 & a2 & th & _ & _ & _ & _ & _ & IY & _). pose proof (sc_m _ _ _ _ _ _ SC) as Hm. pose proof (sc_n _ _ _ _ _ _ SC) as Hn. pose proof (sc_grid _ _ _ _ _ _ SC) as MG.
  assert (TOT : forall p, 0 <= fst p <= se_width u -> 0 <= snd p <= se_height u -> exists X Y, edeform_call (st_y1 st) (st_y2 st) (fst p) (snd p) = Ok [X; Y]).
  { intros p Hx Hy. rewrite Ew in Hx. rewrite Eh in Hy. unfold edeform_call. destruct (s_refined s) as [r|]; destruct IY as [I1 I2].
    - destruct (C1_total _ _ m n PS Hm Hn MG _ _ p I1 Hx Hy) as [X ->]. destruct (C1_total _ _ m n PS Hm Hn MG _ _ p I2 Hx Hy) as [Y ->]. cbn [bind]. eauto.
    - destruct (P1_total _ _ m n PS Hm Hn MG _ _ p I1 Hx Hy) as [X ->]. destruct (P1_total _ _ m n PS Hm Hn MG _ _ p I2 Hx Hy) as [Y ->]. cbn [bind]. eauto. }
  destruct (fold_draws (fun ax c => let* deformed := mapM (call_at (edeform_call (st_y1 st) (st_y2 st))) c in let* x := coordinate 0 deformed in let* y := coordinate 1 deformed in Ok (draw ax (Polyline x y))) (image_line st) (hs ++ vs) ax) as (ax' & ls & E & X & Y & Z & F).
  - intros ax0 c Ic.
    destruct (mapM_exists (call_at (edeform_call (st_y1 st) (st_y2 st))) c) as [ds Ed]. { intros q Iq. destruct (C26_inside _ _ np h v _ c q HW HH Hnp EC Ic Iq) as (x & y & -> & Bx & By). destruct (TOT (x, y) Bx By) as (X & Y & E). unfold vec, call_at. cbn [fst snd] in *. eauto. }
    pose proof (proj1 (mapM_ok_iff _ _ _) Ed) as Fd. pose proof (mapM_length _ _ _ Ed) as Ld.
    assert (D2 : forall d, In d ds -> exists X Y, d = [X; Y]).
    { intros d Id. apply In_nth_error in Id as [i Hi]. assert (Li : (i < length c)%nat) by (rewrite <- Ld; apply nth_error_Some; congruence). destruct (nth_error c i) as [q|] eqn:Eq; [|apply nth_error_None in Eq; lia].
      destruct (nth_error_mapped _ _ _ Fd i q Eq) as (d' & Ed' & E). rewrite Hi in Ed'. injection Ed' as <-. destruct (C26_inside _ _ np h v _ c q HW HH Hnp EC Ic (nth_error_In _ _ Eq)) as (x & y & -> & Bx & By). destruct (TOT (x, y) Bx By) as (X & Y & E'). unfold vec, call_at in E. cbn [fst snd] in *. rewrite E' in E. injection E as <-. eauto. }
    destruct (mapM_exists (fun p => py_nth p 0) ds) as [xs Ex]. { intros d Id. destruct (D2 d Id) as (X & Y & ->). exists X. reflexivity. }
    destruct (mapM_exists (fun p => py_nth p 1) ds) as [ys Ey]. { intros d Id. destruct (D2 d Id) as (X & Y & ->). exists Y. reflexivity. }
    exists (Polyline xs ys). unfold coordinate. rewrite Ed. cbn [bind]. rewrite Ex. cbn [bind]. rewrite Ey. cbn [bind]. split; [reflexivity|]. exists xs, ys. split; [reflexivity|]. split; [exact (eq_trans (mapM_length _ _ _ Ex) Ld)|]. split; [exact (eq_trans (mapM_length _ _ _ Ey) Ld)|].
    intros i p Np. destruct (nth_error_mapped _ _ _ Fd i _ Np) as (d & Hd & E). unfold call_at in E. destruct (D2 d (nth_error_In _ _ Hd)) as (X & Y & ->).
    destruct (nth_error_mapped _ _ _ (proj1 (mapM_ok_iff _ _ _) Ex) i _ Hd) as (X' & HX & E1). destruct (nth_error_mapped _ _ _ (proj1 (mapM_ok_iff _ _ _) Ey) i _ Hd) as (Y' & HY' & E2). cbn in E1, E2. injection E1 as <-. injection E2 as <-. eauto.
  - exists ax', ls. split; [exact EC|]. split; [rewrite app_length, Lh, Lv; lia|]. split; [unfold plot_deformation_curves; rewrite EC; exact E|]. auto.
Qed.
Print Assumptions C93_deformation_curves_partial.

(** Otherwise the outline of the rectangle is not covered by the grid, and drawing the deformed curves raises. *)
Theorem C93_uncovered_refuted : forall u s st m np h v ax, reachable u s -> In st (s_steps s) -> fits (se_width u) (p_scale (se_params u)) m -> / 10 ^ 10 <= p_scale (se_params u) * p_scale (se_params u) ->
  INR m * p_scale (se_params u) + 2 * / 10 ^ 10 / p_scale (se_params u) < se_width u -> (2 <= np)%nat ->
  exists e, plot_deformation_curves (se_width u) (se_height u) st (Z.of_nat np) (Z.of_nat h) (Some (Z.of_nat v)) ax = Err e.
Proof.
  intros u s st m np h v ax HR Ist Fm He Hlt Hnp. destruct (C26_curves (se_width u) (se_height u) np h v Hnp) as (hs & vs & EC & Lh & Lv & LL & PH & _).
  unfold plot_deformation_curves. rewrite EC. cbn [bind]. destruct hs as [|c hs]; [cbn in Lh; lia|]. cbn [app foldM].
  destruct (mapM (call_at (edeform_call (st_y1 st) (st_y2 st))) c) as [ds|e] eqn:Ed; [exfalso|cbn [bind]; eauto].
  assert (Lc : length c = np) by (apply LL; left; reflexivity). destruct (nth_error c (np - 1)) as [q|] eqn:Eq; [|apply nth_error_None in Eq; lia]. pose proof (PH 0%nat (np - 1)%nat c q eq_refl Eq) as ->.
  destruct (nth_error_mapped _ _ _ (proj1 (mapM_ok_iff _ _ _) Ed) _ _ Eq) as (d & _ & E). unfold vec, call_at in E. cbn [fst snd] in E.
  assert (N1 : INR (np - 1) <> 0) by (apply not_0_INR; lia). replace (INR (np - 1) * se_width u / INR (np - 1)) with (se_width u) in E by (field; exact N1).
  destruct (reachable_hist u s HR) as (g & rg & ps & G & HI). destruct (gs_holds _ _ _ _ _ (hi_good _ _ _ _ _ HI st Ist)) as (a1 & a2 & th & HO & _). pose proof (gr_valid _ _ _ _ G) as V. pose proof (SimR.params_ok u V) as (_ & _ & _ & PS & _). destruct V as [Hw [Hh _]].
  destruct (fits_exists _ _ Hh PS) as [n Fn].
  assert (IG : i_grid (st_y1 st) = g) by (rewrite (ho_i1 _ _ _ _ _ _ HO); destruct rg; reflexivity).
  destruct (C48_outside _ _ _ _ _ m n g (st_y1 st) (se_width u, INR 0 * se_height u / INR (h + 1)) PS Fm Fn (gr_grid _ _ _ _ G) IG He) as (Q & _); [cbn [fst snd]; right; left; exact Hlt|].
  cbn [fst snd] in Q. unfold edeform_call in E. rewrite Q in E. discriminate.
Qed.
Print Assumptions C93_uncovered_refuted.

(** ** Examples *)
Lemma Forall2_length {A B} (P : A -> B -> Prop) l l' : Forall2 P l l' -> length l = length l'.
Proof. induction 1; cbn; congruence. Qed.
(** The example simulation on other rectangles, without regularization. *)
Definition sized (w h : R) : setting :=
  {| se_order := std_order; se_solver := push []; se_width := w; se_height := h; se_fix := FixOne "left"; se_params := ex_params None;
     se_external := fun t => Ok (1 + t); se_traction := fun t x y => Ok [t; x * y] |}.
Lemma sized_state w h : 0 <= w -> 0 <= h -> exists s, reachable (sized w h) s /\ s_refined s = None /\ length (s_steps s) = 2%nat.
Proof.
  intros Hw Hh. assert (V : valid_setting (sized w h)). { destruct (ex_valid None [] ltac:(discriminate)) as (_ & _ & P). split; [exact Hw|]. split; [exact Hh|exact P]. }
  destruct (construct_live (sized w h) V ltac:(cbn; lra) I (ex_forcing None [] 0 (Rle_refl 0)) push_quiet) as [s C]. exists s. pose proof (r_construct _ s V C) as H. split; [exact H|]. split; [|exact (C65_construction _ _ V C)].
  destruct (reachable_hist _ _ H) as (g & rg & ps & G & HI). destruct (hist_grid _ _ _ _ _ HI) as (_ & Er & _). destruct (gr_ref _ _ _ _ G) as [[_ ->]|(e & k & r & Q & _)]; [exact Er|discriminate].
Qed.
(** C89, C90: the hypotheses are met with and without regularization. *)
Example C89_example : forall reg, reg = None \/ reg = Some 1 -> let u := ex_setting reg [] in exists s ax, reachable u s /\ has_cells u /\ fine_enough u /\ length (s_steps s) = 5%nat /\ plot_figure s 4 = Ok (Some ax) /\ plot_figure s (-1) = Ok (Some ax) /\
  (forall k, match s_refined s with None => k = 1%nat | Some _ => p_refinement_factor (se_params u) = Some (Z.of_nat k) end -> 5 / 10 ^ 10 < (p_scale (se_params u) / INR k) ^ 2) /\ (s_refined s = None <-> reg = None).
Proof.
  intros reg Hr u. assert (Hr' : forall e, reg = Some e -> 0 <= e) by (intros e E; destruct Hr as [-> | ->]; [discriminate|injection E as <-; lra]). destruct (ex_state reg Hr') as (s & U & L & _ & RG & _). pose proof (undisturbed_reachable _ _ U) as H.
  assert (HC : has_cells u) by (unfold has_cells; cbn; lra). pose proof (ex_fine reg []) as FE. destruct (C89_plot_step_shows_the_step u s 4 H HC FE) as (st & ax & a & E & EP & _); [lia|]. exists s, ax. split; [exact H|]. split; [exact HC|]. split; [exact FE|]. split; [exact L|]. split; [exact EP|]. split.
  - rewrite <- EP. unfold plot_figure, py_index. rewrite L. reflexivity.
  - split; [|exact RG]. intros k Hk. cbn [u ex_setting se_params ex_params p_scale p_refinement_factor] in *. assert (K : (k <= 2)%nat /\ (1 <= k)%nat). { destruct (s_refined s); [|lia]. destruct reg; [|discriminate]. injection Hk as Hk. lia. }
    destruct k as [|[|[|k]]]; try lia; cbn; lra.
Qed.
(** C89: a strip thinner than the mesh width can be simulated but not drawn. *)
Example C89_no_cells_example : let u := sized (1/4) 1 in exists s, reachable u s /\ ~ has_cells u /\ plot_figure s 0 = Err ValueError /\ plot_figure s 1 = Err ValueError.
Proof.
  intros u. destruct (sized_state (1/4) 1 ltac:(lra) ltac:(lra)) as (s & H & N & L). assert (NC : ~ has_cells u) by (unfold has_cells; cbn; lra). exists s. split; [exact H|]. split; [exact NC|].
  split; apply (C89_no_cells_refuted u); try assumption; rewrite L; lia.
Qed.
(** C92: a concrete grid. *)
Example C92_example : exists g ax, domain_grid std_order (12/10) (9/10) FixNone (1/2) = Ok g /\ grid_plot g (Some new_axis) = Ok ax /\ length (ax_artists ax) = S (length (g_edges g)).
Proof.
  destruct (C11_grid_succeeds std_order (12/10) (9/10) FixNone (1/2)) as (m & n & g & Fm & Fn & Hg); try lra. assert (m = 2%nat) as -> by (apply (fits_unique (12/10) (1/2)); [lra|exact Fm|exact ex_fits_w]). assert (n = 1%nat) as -> by (apply (fits_unique (9/10) (1/2)); [lra|exact Fn|exact ex_fits_h]).
  destruct (C27_rectangle_grid_is_mesh _ _ _ _ _ _ _ _ ex_pos Fm Fn Hg ltac:(lia) ltac:(lia)) as [M _]. destruct (C92_grid_plot g (1/2) 2 1 new_axis ltac:(lra) M) as (ax & xs & ys & sg & E & A & _ & _ & _ & F & _). exists g, ax. split; [exact Hg|]. split; [exact E|].
  rewrite A. cbn. rewrite (Forall2_length _ _ _ F). reflexivity.
Qed.
(** C93: mesh width 1/2 divides the sides of the unit square, but not the sides of the rectangle 1.2 x 1. *)
Example C93_example : (forall reg, reg = None \/ reg = Some 1 -> let u := ex_setting reg [] in exists s st ax, reachable u s /\ nth_error (s_steps s) 4 = Some st /\ plot_deformation_curves 1 1 st 100 3 (Some 2%Z) new_axis = Ok ax /\ length (ax_artists ax) = 9%nat) /\
  (let u := sized (12/10) 1 in exists s st e, reachable u s /\ has_cells u /\ fine_enough u /\ In st (s_steps s) /\ plot_deformation_curves (12/10) 1 st 100 3 (Some 2%Z) new_axis = Err e).
Proof.
  split.
  - intros reg Hr u. assert (Hr' : forall e, reg = Some e -> 0 <= e) by (intros e E; destruct Hr as [-> | ->]; [discriminate|injection E as <-; lra]). destruct (ex_state reg Hr') as (s & U & L & _ & _ & Q). pose proof (undisturbed_reachable _ _ U) as H. destruct (Q 4%nat ltac:(lia)) as [st Hst].
    assert (HC : has_cells u) by (unfold has_cells; cbn; lra). destruct (C93_deformation_curves_partial u s st 2 2 100 3 2 new_axis H HC (ex_fine reg []) (nth_error_In _ _ Hst) ltac:(cbn; lra) ltac:(cbn; lra) ltac:(lia)) as (cs & ax & ls & _ & Lc & E & _ & _ & A & F).
    exists s, st, ax. split; [exact H|]. split; [exact Hst|]. split; [exact E|]. rewrite A. cbn. rewrite <- (Forall2_length _ _ _ F), Lc. reflexivity.
  - intros u. destruct (sized_state (12/10) 1 ltac:(lra) ltac:(lra)) as (s & H & N & L). destruct (s_steps s) as [|st l] eqn:Es; [discriminate|]. assert (Ist : In st (s_steps s)) by (rewrite Es; left; reflexivity).
    destruct (C93_uncovered_refuted u s st 2 100 3 2 new_axis H Ist) as [e E]; [unfold fits; cbn; lra|cbn; lra|cbn; lra|lia|]. exists s, st, e. split; [exact H|]. split; [unfold has_cells; cbn; lra|]. split; [exact I|]. split; [exact Ist|exact E].
Qed.
