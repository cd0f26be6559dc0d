(** * C90: with regularization the drawn body can leave the picture. *)
From Coq Require Import Reals Lra Lia List ZArith String Permutation.
From Verif.Spec Require Import BellSpec.
From Verif.Model Require Import Py Num Tensors Domain Refine Bell Interp.
From Verif.Spec Require Import GridSpec RefineSpec InterpSpec.
From Verif.Model Require Import Steps Simulation Plot.
From Verif.Spec Require Import SimSpec LiveSpec PlotSpec.
From Verif.Proofs Require Import Lib GridP GridCover LocateP HatP InterpP BellE MeshLoc StdOrder StepP SimP SimQ SimR SimH SimL SimA SimE PlotP PlotS PlotD.
From Verif.Props Require Import GridProps InterpProps SimProps PlotProps.
Local Open Scope R_scope.
Import ListNotations.
Local Notation length := List.length.

Lemma flat6_nth (f : R * R -> list R) ps v p j x : (forall q, length (f q) = 6%nat) -> nth_error ps v = Some p -> nth_error (f p) j = Some x -> (j < 6)%nat -> nth_error (flat_map f ps) (v * 6 + j) = Some x.
Proof.
  intros L. revert v. induction ps as [|q ps IH]; intros [|v] Hp Hx Hj; try discriminate; cbn [flat_map].
  - injection Hp as ->. cbn [Nat.mul Nat.add]. rewrite nth_error_app1 by (rewrite L; exact Hj). exact Hx.
  - cbn [nth_error] in Hp. rewrite nth_error_app2 by (rewrite L; lia). rewrite L. replace (S v * 6 + j - 6)%nat with (v * 6 + j)%nat by lia. exact (IH v Hp Hx Hj).
Qed.
Lemma chunk_at (a : list R) N v w w1 w2 w3 w4 w5 : length a = (N * 6)%nat -> (v < N)%nat -> nth_error a (v * 6 + 0) = Some w -> nth_error a (v * 6 + 1) = Some w1 -> nth_error a (v * 6 + 2) = Some w2 ->
  nth_error a (v * 6 + 3) = Some w3 -> nth_error a (v * 6 + 4) = Some w4 -> nth_error a (v * 6 + 5) = Some w5 -> nth_error (chunks N 6 a) v = Some [w; w1; w2; w3; w4; w5].
Proof.
  intros La Lv E0 E1 E2 E3 E4 E5. unfold chunks. rewrite nth_error_map. unfold range. rewrite nth_error_nth' with (d := 0%nat) by (rewrite seq_length; exact Lv). rewrite seq_nth by exact Lv. cbn [option_map Nat.add]. apply (f_equal Some).
  pose proof (slice_length (v * 6) 6 a ltac:(lia)) as SL. unfold slice in *. rewrite Nat.add_0_r in E0.
  apply nth_error_split in E0 as (l1' & l2' & -> & Lw). rewrite skipn_app, <- Lw, skipn_all, Nat.sub_diag in *. cbn [app skipn] in *.
  rewrite nth_error_app2 in E1, E2, E3, E4, E5 by lia.
  replace (length l1' + 1 - length l1')%nat with 1%nat in E1 by lia. replace (length l1' + 2 - length l1')%nat with 2%nat in E2 by lia. replace (length l1' + 3 - length l1')%nat with 3%nat in E3 by lia. replace (length l1' + 4 - length l1')%nat with 4%nat in E4 by lia. replace (length l1' + 5 - length l1')%nat with 5%nat in E5 by lia.
  destruct l2' as [|x1 [|x2 [|x3 [|x4 [|x5 l2']]]]]; cbn in SL; try lia. cbn in E1, E2, E3, E4, E5. injection E1 as <-. injection E2 as <-. injection E3 as <-. injection E4 as <-. injection E5 as <-. reflexivity.
Qed.

(** After four moves by 1/10 of every variable the largest number in the parameters of y_1 is 14/10, but the right side is drawn further to the right between
    its vertices. *)
Theorem C90_view_refuted : exists u s i ax xs ys cs ts lo hi X, reachable u s /\ has_cells u /\ fine_enough u /\ respects_bounds (se_solver u) /\ respects_domain (se_solver u) /\ p_regularization (se_params u) <> None /\
  plot_figure s i = Ok (Some ax) /\ ax_artists ax = [Coloured xs ys cs ts lo hi] /\ In X xs /\ snd (ax_xlim ax) < X.
Proof.
  set (u := ex_setting (Some 1) []). assert (Hr' : forall e, Some 1 = Some e -> 0 <= e) by (intros e E; injection E as <-; lra). destruct (ex_state (Some 1) Hr') as (s & U & L & Eg0 & ER & Q).
  pose proof (undisturbed_reachable _ _ U) as H. assert (HC : has_cells u) by (unfold has_cells; cbn; lra). pose proof (ex_fine (Some 1) []) as FE. fold u in H, FE, U.
  destruct (C89_plot_step_shows_the_step u s 4 H HC FE) as (st & ax & a & E & EP & EA & SH & EX & _); [lia|]. destruct SH as (xs & ys & cs & -> & Lx & _ & _ & V).
  destruct (Q 4%nat ltac:(lia)) as [st' Hst']. assert (st' = st) as ->. { unfold py_index in E. cbn [Z.ltb Z.compare] in E. change (Z.to_nat 4) with 4%nat in E. rewrite Hst' in E. congruence. }
  pose proof (nth_error_In _ _ Hst') as Ist. destruct (undisturbed_chain u s U) as (g & rg & ps & G & CH). pose proof (ch_hist _ _ _ _ _ CH) as HI. destruct (hist_grid _ _ _ _ _ HI) as (Eg & Er & _).
  destruct (scene_of u s st H HC FE Ist) as (m & n & k & SC).
  assert (m = 2%nat) as -> by (apply (fits_unique 1 (1/2)); [lra|exact (sc_w _ _ _ _ _ _ SC)|exact ex_fits1]). assert (n = 2%nat) as -> by (apply (fits_unique 1 (1/2)); [lra|exact (sc_h _ _ _ _ _ _ SC)|exact ex_fits1]).
  pose proof (push_links u g rg ps s G CH eq_refl) as PL. cbv zeta in PL. change (p_search_radius (se_params u)) with (1/10) in PL.
  assert (RG : exists r, rg = Some r). { destruct rg as [r|]; [eauto|]. rewrite Er in ER. destruct ER as [ER _]. discriminate (ER eq_refl). } destruct RG as [r ->].
  assert (k = 2%nat) as ->. { pose proof (sc_factor _ _ _ _ _ _ SC) as F. rewrite Er in F. destruct F as [F _]. cbn in F. injection F as F. lia. }
  pose proof (sc_grid _ _ _ _ _ _ SC) as M. change (p_scale (se_params u)) with (1/2) in M. rewrite Eg in M.
  destruct (iref_length (Some r) ps) as [RL1 RL2]. rewrite (gr_len _ _ _ _ G) in RL1, RL2. cbn [dofs] in RL1, RL2.
  assert (FL : length (ifx g (Some r)) = (num_vertices g * 6)%nat) by (unfold ifx; rewrite map_length; apply range_length).
  assert (LIM : snd (ax_xlim ax) <= 14/10).
  { destruct (hi_lims _ _ _ _ _ HI) as (_ & (x0 & x1 & EX' & _ & [MX _]) & _). rewrite EX in EX'. injection EX' as ->. cbn [snd]. apply in_flat_map in MX as (st9 & I9 & MX). apply In_nth_error in I9 as [j Hj].
    pose proof (PL j st9 Hj) as HO. assert (Lj : (j < 5)%nat) by (rewrite <- L; apply nth_error_Some; congruence).
    destruct (holds_comp _ _ _ _ _ _ HO ltac:(rewrite shift_length; [exact RL1|congruence]) ltac:(rewrite shift_length; [exact RL2|congruence])) as (C0 & _). rewrite C0 in MX. apply In_nth_error in MX as [q Hq]. rewrite shift_nth in Hq.
    assert (J : 0 <= INR j * (1/10) <= 4/10). { split; [apply Rmult_le_pos; [apply pos_INR|lra]|]. assert (INR j <= 4); [|lra]. replace 4 with (INR 4) by (cbn; lra). apply le_INR. lia. }
    destruct (nth_error (ifx g (Some r)) q) as [f|]; [|discriminate]. destruct (nth_error (iref1 (Some r) ps) q) as [z|] eqn:Nz; [|discriminate]. injection Hq as <-.
    assert (Z1 : z <= 1). { apply nth_error_In in Nz. cbn [iref1] in Nz. apply in_flat_map in Nz as ([x y] & Ip & Iz). apply In_nth_error in Ip as [v Hv].
      assert (Lv : In v (g_vertices g)). { rewrite (gr_vertices _ _ _ _ G). apply in_seq. split; [lia|]. cbn. apply nth_error_Some. congruence. } destruct (mesh_inside _ _ _ _ M v Lv) as (i & jj & Hi & _ & _ & W). apply (points_nth g ps v _ _ (gr_points _ _ _ _ G)) in W. rewrite Hv in W. injection W as -> ->.
      assert (INR i <= 2). { replace 2 with (INR 2) by (cbn; lra). apply le_INR. exact Hi. } cbn in Iz. intuition (subst; lra). }
    destruct f; lra. }
  pose proof (PL 4%nat st Hst') as HO. replace (INR 4 * (1/10)) with (4/10) in HO by (cbn; lra).
  destruct (scene_y1 u s st 2 2 2 SC) as (b1 & b2 & th & _ & _ & _ & _ & _ & IY & LB1 & LB2). rewrite Eg, Er in IY, LB1, LB2. destruct IY as [I1 I2]. cbn [dofs] in LB1, LB2.
  set (a1 := shift (4/10) (ifx g (Some r)) (iref1 (Some r) ps)) in *. assert (LA : length a1 = (num_vertices g * 6)%nat) by (unfold a1; rewrite shift_length; congruence).
  assert (IA : C1Interpolation_ g (chunks (num_vertices g) 6 a1) = Ok (st_y1 st)).
  { pose proof (ho_i1 _ _ _ _ _ _ HO) as E1. cbn in E1. apply C1_ok in I1 as [E2 (E3 & E4)]. rewrite E1 in E2. assert (E5 : chunks (num_vertices g) 6 a1 = chunks (num_vertices g) 6 b1) by congruence. rewrite E5. unfold C1Interpolation_.
    rewrite E3, Nat.eqb_refl. cbn [negb]. destruct (existsb _ _) eqn:X; [|congruence]. apply existsb_exists in X as (c & Ic & X). rewrite (E4 c Ic) in X. discriminate. }
  assert (NODE : forall v i j, vertex_at g (1/2) v i j -> i = 2%nat -> nth_error (chunks (num_vertices g) 6 a1) v = Some [14/10; 14/10; 4/10; 4/10; 4/10; 4/10] /\ nth_error (g_points g) v = Some [1; INR j * (1/2)]).
  { intros v i j [Hv Hp] ->. split; [|rewrite Hp; repeat f_equal; cbn; lra]. rewrite (gr_vertices _ _ _ _ G) in Hv. apply in_seq in Hv. rewrite (gr_len _ _ _ _ G) in Hv. pose proof Hp as Hp0. apply (points_nth g ps v _ _ (gr_points _ _ _ _ G)) in Hp.
    assert (F : forall q, (q < 6)%nat -> nth_error (ifx g (Some r)) (v * 6 + q) = Some false).
    { intros q Hq. destruct (nth_error (ifx g (Some r)) (v * 6 + q)) as [[]|] eqn:F; [exfalso|reflexivity|apply nth_error_None in F; lia]. apply ifx_spec in F as [_ [v' [Hv' E']]]. cbn [dofs] in E'. assert (v = v') as <- by lia.
      pose proof (gr_grid _ _ _ _ G) as Hg. apply (C17_dirichlet_vertices _ _ _ _ _ _ _ _ ex_pos ex_fits1 ex_fits1 Hg) in Hv' as (sd & FS & i' & j' & [_ QQ] & OS). assert (sd = Left) as -> by (destruct FS as [FS|[]]; destruct sd; try discriminate; reflexivity).
      cbn in OS. subst i'. change (p_scale (se_params u)) with (1/2) in QQ. apply (points_nth g ps v _ _ (gr_points _ _ _ _ G)) in QQ. rewrite Hp in QQ. injection QQ as QQ _. cbn in QQ. lra. }
    assert (A : forall q z, (q < 6)%nat -> nth_error [1; 1; 0; 0; 0; 0] q = Some z -> nth_error a1 (v * 6 + q) = Some (z + 4/10)).
    { intros q z Hq Hz. unfold a1. rewrite shift_nth, (F q Hq). cbn [iref1]. rewrite (flat6_nth (fun '(x, _) => [x; 1; 0; 0; 0; 0]) ps v _ q z (fun p => match p with (_, _) => eq_refl end) Hp); [reflexivity| |exact Hq].
      cbv beta iota. replace (INR 2 * (1/2)) with 1 by (cbn; lra). exact Hz. }
    rewrite (chunk_at a1 (num_vertices g) v (1 + 4/10) (1 + 4/10) (0 + 4/10) (0 + 4/10) (0 + 4/10) (0 + 4/10) LA ltac:(lia) (A 0%nat 1 ltac:(lia) eq_refl) (A 1%nat 1 ltac:(lia) eq_refl) (A 2%nat 0 ltac:(lia) eq_refl) (A 3%nat 0 ltac:(lia) eq_refl) (A 4%nat 0 ltac:(lia) eq_refl) (A 5%nat 0 ltac:(lia) eq_refl)).
    replace (1 + 4/10) with (14/10) by lra. rewrite Rplus_0_l. reflexivity. }
  (* the point (1, 1/10) of the right side *)
  assert (TR : exists t a b c, t = (a, b, c) /\ In t (g_triangles g) /\ vertex_at g (1/2) a 1 0 /\ vertex_at g (1/2) b 2 0 /\ vertex_at g (1/2) c 2 1).
  { destruct (mesh_points _ _ _ _ M 1%nat 0%nat ltac:(lia) ltac:(lia)) as [a [Va _]]. destruct (mesh_points _ _ _ _ M 2%nat 0%nat ltac:(lia) ltac:(lia)) as [b [Vb _]]. destruct (mesh_points _ _ _ _ M 2%nat 1%nat ltac:(lia) ltac:(lia)) as [c [Vc _]].
    exists (a, b, c), a, b, c. split; [reflexivity|]. split; [apply (mesh_triangles _ _ _ _ M); exists 1%nat, 0%nat; split; [lia|]; split; [lia|]; left; exact (conj Va (conj Vb Vc))|auto]. }
  destruct TR as (t & a & b & c & -> & It & Va & Vb & Vc).
  assert (TA : triangle_at g (a, b, c) (INR 1 * (1/2), INR 0 * (1/2)) (INR 2 * (1/2), INR 0 * (1/2)) (INR 2 * (1/2), INR 1 * (1/2))) by (split; [exact It|]; split; [apply Va|]; split; [apply Vb|apply Vc]).
  destruct (lattice_found g (1/2) 2 2 ltac:(lra) ltac:(lia) ltac:(lia) M 10 20 2 ltac:(lia) ltac:(lia) ltac:(lia)) as (t' & p & q & q' & B & EB & TB & BB & NB).
  assert (NB' : non_negative B) by (apply NB; unfold eps10; replace (INR 10) with 10 by (cbn; lra); lra). clear NB.
  set (x := (INR 20 * (1/2 / INR 10), INR 2 * (1/2 / INR 10))) in *. set (B' := ((0, 4/5, 1/5) : bary R)).
  assert (BB' : bary_of (INR 1 * (1/2), INR 0 * (1/2)) (INR 2 * (1/2), INR 0 * (1/2)) (INR 2 * (1/2), INR 1 * (1/2)) B' x) by (unfold bary_of, B', x; cbn; lra).
  destruct (C44_single_function g (1/2) 2 2 _ _ _ _ _ _ _ _ _ _ _ _ _ ltac:(lra) M IA TB BB NB' TA BB' ltac:(unfold non_negative, B'; cbn; lra)) as (v & gr & V1 & V2 & _).
  destruct (C45_C1_on_edge g (1/2) 2 2 _ _ b c a (4/5) _ _ _ _ B' ltac:(lra) M IA TA) as (v' & V3 & V4 & _). { unfold B'; cbn [weights l1 l2 l3 fst snd]. replace (1 - 4/5) with (1/5) by lra. change [(b, 4 / 5); (c, 1 / 5); (a, 0)] with ([(b, 4 / 5); (c, 1 / 5)] ++ [(a, 0)]). apply Permutation_app_comm. }
  rewrite V2 in V3. injection V3 as <-. destruct (NODE b _ _ Vb eq_refl) as [Nb Pb]. destruct (NODE c _ _ Vc eq_refl) as [Nc Pc]. pose proof (C1_ok _ _ _ IA) as (EI & _). rewrite EI in V4. cbn [i_on_edge fst snd] in V4. unfold py_nth in V4. rewrite Nb, Nc, Pb, Pc in V4. cbn [bind] in V4.
  change ([1; INR 0 * (1 / 2)], [1; INR 1 * (1 / 2)]) with (vec (1, INR 0 * (1/2)), vec (1, INR 1 * (1/2))) in V4. rewrite on_edge_value in V4. injection V4 as V4.
  assert (VV : 14/10 < v). { rewrite <- V4. unfold Ne, Vector_dot, Vector_extend. cbn. lra. } clear V4.
  (* it is a vertex of the plotting grid *)
  pose proof (sc_factor _ _ _ _ _ _ SC) as F. rewrite Er in F. destruct F as [_ MP]. change (p_scale (se_params u)) with (1/2) in MP.
  destruct (mesh_points _ _ _ _ MP 20%nat 2%nat ltac:(cbn; lia) ltac:(cbn; lia)) as [w [[_ Vw] _]]. destruct (V w x) as (X & Y & cc & NX & _ & _ & DX & _). { unfold point_at. rewrite Vw. repeat f_equal; unfold x; cbn; field. }
  unfold edeform_call in DX. destruct (inputs_at g (st_y1 st) x t' B) as [V5 _]. { rewrite EI. reflexivity. } { exact EB. } 
  rewrite V5, V1 in DX. cbn [bind] in DX. apply bind_ok in DX as (vy & _ & DX). injection DX as -> _.
  exists u, s, 4%Z, ax, xs, ys, cs, (g_triangles (st_grid st)), 0, (sim_max_temp s), X. split; [exact H|]. split; [exact HC|]. split; [exact FE|]. split; [apply push_bounds|]. split; [apply push_domain|]. split; [discriminate|]. split; [exact EP|]. split; [exact EA|]. split; [exact (nth_error_In _ _ NX)|]. lra.
Qed.
Print Assumptions C90_view_refuted.
