(** * Consistency of the boundary terms and of the unregularized mechanical objective: C114. *)
From Coq Require Import Reals Lra Lia List Psatz String ZArith.
From Coquelicot Require Import Coquelicot.
From Verif.Spec Require Import GridSpec QuadSpec InterpSpec RefineSpec PotentialSpec ConvSpec ConsistSpec.
From Verif.Model Require Import Py Num Tensors Domain Refine Quadrature Integrators Bell Interp Helpers Steps Simulation.
From Verif.Spec Require Import SimSpec StepSpec EnergySpec MotionSpec ThermSpec TractionSpec WorkSpec.
From Verif.Proofs Require Import Lib GridP GridCover StepE ConvP ConvQ ThermQ SideP ConsistP.
From Verif.Props Require Import GridProps RefineProps TractionProps ConsistProps.
Local Open Scope R_scope.
Import ListNotations.
Local Notation length := List.length.

Lemma product_lip D k f g : bounded_on D k f -> bounded_on D k g -> lipschitz_on D k f -> lipschitz_on D k g -> forall x y, D x -> D y -> Rabs (f x * g x - f y * g y) <= 2 * k * k * dist x y.
Proof.
  intros Bf Bg Lf Lg x y Hx Hy. replace (f x * g x - f y * g y) with (f x * (g x - g y) + (f x - f y) * g y) by ring. eapply Rle_trans; [apply Rabs_triang|]. rewrite !Rabs_mult.
  pose proof (Rmult_le_compat _ _ _ _ (Rabs_pos _) (Rabs_pos _) (Bf x Hx) (Lg x y Hx Hy)). pose proof (Rmult_le_compat _ _ _ _ (Rabs_pos _) (Rabs_pos _) (Lf x y Hx Hy) (Bg y Hy)). lra.
Qed.
Lemma mean_near k a b c d : Rabs (a - c) <= d -> Rabs (b - c) <= d -> Rabs a <= k -> Rabs b <= k -> Rabs ((a + b) / 2 - c) <= d /\ Rabs ((a + b) / 2) <= k.
Proof. intros H1 H2 H3 H4. apply Rabs_le_between in H1, H2, H3, H4. split; apply Rabs_le; lra. Qed.
Lemma product_near k d a b c e : 0 <= k -> Rabs (a - c) <= d -> Rabs (b - e) <= d -> Rabs a <= k -> Rabs e <= k -> Rabs (a * b - c * e) <= 2 * k * d.
Proof.
  intros Hk H1 H2 H3 H4. replace (a * b - c * e) with (a * (b - e) + (a - c) * e) by ring. eapply Rle_trans; [apply Rabs_triang|]. rewrite !Rabs_mult.
  pose proof (Rmult_le_compat _ _ _ _ (Rabs_pos _) (Rabs_pos _) H3 H2). pose proof (Rmult_le_compat _ _ _ _ (Rabs_pos _) (Rabs_pos _) H1 H4). lra.
Qed.

Lemma traction_near : forall w h k, 0 <= k -> exists C, forall m lg so w0 h0 f s a b t1 t2 v1 v2 p1 p2,
  0 < s -> fits w0 s a -> fits h0 s b -> (1 <= a)%nat -> (1 <= b)%nat -> INR a * s = w -> INR b * s = h ->
  map fst (ms_g1 m) = b_vertices (g_neumann (ms_grid m)) -> map fst (ms_g2 m) = b_vertices (g_neumann (ms_grid m)) -> ms_refined m = None -> domain_grid so w0 h0 f s = Ok (ms_grid m) -> midpoint_rule lg ->
  lipschitz_on (rectangle w h) k t1 -> lipschitz_on (rectangle w h) k t2 -> bounded_on (rectangle w h) k t1 -> bounded_on (rectangle w h) k t2 ->
  lipschitz_on (rectangle w h) k v1 -> lipschitz_on (rectangle w h) k v2 -> bounded_on (rectangle w h) k v1 -> bounded_on (rectangle w h) k v2 ->
  holds_values (ms_grid m) t1 (ms_g1 m) -> holds_values (ms_grid m) t2 (ms_g2 m) -> nodal (ms_grid m) v1 p1 -> nodal (ms_grid m) v2 p2 ->
  exists W, mech_traction_energy lg m p1 p2 = Ok W /\ Rabs (W - boundary_work w h f t1 t2 v1 v2) <= C * s.
Proof.
  intros w h k Hk. exists (4 * k * k * (2 * w + 2 * h)). intros m lg so w0 h0 f s a b t1 t2 v1 v2 p1 p2 Hs Fa Fb Ha Hb Ew Eh K1 K2 NR Hg LG Lt1 Lt2 Bt1 Bt2 Lv1 Lv2 Bv1 Bv2 G1 G2 [N1 S1] [N2 S2].
  subst w h. set (w := INR a * s) in *. set (h := INR b * s) in *. pose proof (grid_spec _ _ _ _ _ _ _ _ Hs Fa Fb Hg) as HG.
  destruct (traction_work so w0 h0 f s a b lg m p1 p2 Hs Fa Fb Ha Hb K1 K2 Hg LG N1 N2) as [EW ENDS]. eexists. split; [exact EW|].
  rewrite (neumann_sum _ so a b f s HG _ Ha Hb). unfold boundary_work.
  assert (LF : lipschitz_on (rectangle w h) (4 * k * k) (fun x => t1 x * v1 x + t2 x * v2 x)).
  { intros x y Hx Hy. replace (t1 x * v1 x + t2 x * v2 x - (t1 y * v1 y + t2 y * v2 y)) with ((t1 x * v1 x - t1 y * v1 y) + (t2 x * v2 x - t2 y * v2 y)) by ring. eapply Rle_trans; [apply Rabs_triang|].
    pose proof (product_lip _ k t1 v1 Bt1 Bv1 Lt1 Lv1 x y Hx Hy). pose proof (product_lip _ k t2 v2 Bt2 Bv2 Lt2 Lv2 x y Hx Hy). lra. }
  assert (K0 : 0 <= k * k) by (apply Rmult_le_pos; lra).
  eapply Rle_trans; [apply (sides_close _ so a b f s Hs HG (free_sides f) _ _ (4 * k * k) (4 * k * k * s) ltac:(lra) LF)|].
  - intros e p q x He P Q Dp Dq Dx Hp Hq.
    assert (IE : In e (b_edges (g_neumann (ms_grid m)))).
    { rewrite (rs_n _ _ _ _ _ _ HG). apply GridFix.neumann_edges. apply in_flat_map in He as (d & Hd & He). split; [apply GridTopo.in_boundary_edges; exists d; exact He|].
      intros (d' & F & He'). assert (d = d') by (apply (GridTopo.side_edges_disjoint (S a) (S b) d d' e); try lia; assumption). subst d'. apply free_sides_iff in Hd. contradiction. }
    destruct (ENDS e (fst e) IE (or_introl eq_refl)) as (_ & _ & x1 & x2 & X1 & X2). destruct (ENDS e (snd e) IE (or_intror eq_refl)) as (_ & _ & y1 & y2 & Y1 & Y2).
    assert (V1 : mean_of_ends (value_for (ms_g1 m)) e = (t1 p + t1 q) / 2) by (unfold mean_of_ends, value_for; rewrite X1, Y1, (G1 _ _ _ X1 P), (G1 _ _ _ Y1 Q); reflexivity).
    assert (V2 : mean_of_ends (value_for (ms_g2 m)) e = (t2 p + t2 q) / 2) by (unfold mean_of_ends, value_for; rewrite X2, Y2, (G2 _ _ _ X2 P), (G2 _ _ _ Y2 Q); reflexivity).
    assert (V3 : mean_of_ends (at_vertex p1) e = (v1 p + v1 q) / 2) by (unfold mean_of_ends, at_vertex; rewrite (nth_error_nth _ _ 0 (S1 _ _ P)), (nth_error_nth _ _ 0 (S1 _ _ Q)); reflexivity).
    assert (V4 : mean_of_ends (at_vertex p2) e = (v2 p + v2 q) / 2) by (unfold mean_of_ends, at_vertex; rewrite (nth_error_nth _ _ 0 (S2 _ _ P)), (nth_error_nth _ _ 0 (S2 _ _ Q)); reflexivity).
    rewrite V1, V2, V3, V4.
    assert (NE : forall F, lipschitz_on (rectangle w h) k F -> bounded_on (rectangle w h) k F -> Rabs ((F p + F q) / 2 - F x) <= k * s /\ Rabs ((F p + F q) / 2) <= k).
    { intros F LF' BF'. apply mean_near; [| |apply BF', Dp|apply BF', Dq]; (eapply Rle_trans; [apply LF'; assumption|apply Rmult_le_compat_l; [exact Hk|assumption]]). }
    destruct (NE t1 Lt1 Bt1) as [T1 T1']. destruct (NE t2 Lt2 Bt2) as [T2 T2']. destruct (NE v1 Lv1 Bv1) as [U1 _]. destruct (NE v2 Lv2 Bv2) as [U2 _].
    pose proof (product_near k (k * s) _ _ _ _ Hk T1 U1 T1' (Bv1 x Dx)) as R1. pose proof (product_near k (k * s) _ _ _ _ Hk T2 U2 T2' (Bv2 x Dx)) as R2.
    match goal with |- Rabs (?A * ?B + ?C * ?D - (?E + ?F)) <= _ => replace (A * B + C * D - (E + F)) with ((A * B - E) + (C * D - F)) by ring end. eapply Rle_trans; [apply Rabs_triang|]. lra.
  - assert (PE : perimeter a b s (free_sides f) <= 2 * w + 2 * h).
    { unfold perimeter. assert (W0 : 0 <= w) by (apply Rmult_le_pos; [apply pos_INR|lra]). assert (H0 : 0 <= h) by (apply Rmult_le_pos; [apply pos_INR|lra]). fold w h. unfold free_sides, all_sides. cbn [filter].
      repeat match goal with |- context [negb ?B] => destruct (negb B) end; cbn [sum_over side_length]; lra. }
    replace (4 * k * k * (2 * w + 2 * h) * s) with (4 * k * k * s * (2 * w + 2 * h)) by ring. apply Rmult_le_compat_l; [|exact PE]. apply Rmult_le_pos; lra.
Qed.


(** A regular field varies at most in proportion to the distance. *)
Lemma regular_lipschitz w h k f fx fy : 0 <= k -> 0 <= w -> 0 <= h -> regular_field (rectangle w h) k f fx fy -> lipschitz_on (rectangle w h) (k * (3 + w + h)) f.
Proof.
  intros Hk Hw Hh (C & _ & _ & B) x y Hx Hy. specialize (C x y Hx Hy). destruct (B x Hx) as [B1 B2]. pose proof (dist_pos x y) as D0.
  assert (DL : dist x y <= w + h).
  { eapply Rle_trans; [apply dist_le1|]. destruct Hx as [X1 X2], Hy as [Y1 Y2]. apply Rplus_le_compat; apply Rabs_le; lra. }
  pose proof (abs_fst x y) as A1. pose proof (abs_snd x y) as A2. rewrite Rabs_minus_sym in A1, A2.
  assert (M1 : Rabs (fx x * (fst y - fst x)) <= k * dist x y) by (rewrite Rabs_mult; apply Rmult_le_compat; auto using Rabs_pos).
  assert (M2 : Rabs (fy x * (snd y - snd x)) <= k * dist x y) by (rewrite Rabs_mult; apply Rmult_le_compat; auto using Rabs_pos).
  rewrite Rabs_minus_sym.
  replace (f y - f x) with ((f y - f x - fx x * (fst y - fst x) - fy x * (snd y - snd x)) + (fx x * (fst y - fst x) + fy x * (snd y - snd x))) by ring.
  eapply Rle_trans; [apply Rabs_triang|]. pose proof (Rabs_triang (fx x * (fst y - fst x)) (fy x * (snd y - snd x))) as TR.
  assert (Q : k * (dist x y * dist x y) <= k * (dist x y * (w + h))) by (apply Rmult_le_compat_l; [exact Hk|]; apply Rmult_le_compat_l; assumption).
  assert (Z : 0 <= k * dist x y * (w + h)) by (apply Rmult_le_pos; [apply Rmult_le_pos; assumption|lra]).
  assert (EQ : Rabs (f y - f x - fx x * (fst y - fst x) - fy x * (snd y - snd x)) <= k / 2 * (dist x y * dist x y)) by (eapply Rle_trans; [exact C|right; ring]). pose proof (Rmult_le_pos _ _ Hk D0). lra.
Qed.

Lemma objective_near : forall w h k d, 0 <= k -> 0 < d -> exists C, forall m lg so w0 h0 f s a b t1 t2 u v theta p1 p2,
  0 < s -> fits w0 s a -> fits h0 s b -> (1 <= a)%nat -> (1 <= b)%nat -> INR a * s = w -> INR b * s = h -> s <= Rmin 1 d / (12 * (k + 1) ^ 2) ->
  map fst (ms_g1 m) = b_vertices (g_neumann (ms_grid m)) -> map fst (ms_g2 m) = b_vertices (g_neumann (ms_grid m)) -> ms_refined m = None -> domain_grid so w0 h0 f s = Ok (ms_grid m) -> midpoint_rule lg -> 0 <= ms_fps m ->
  lipschitz_on (rectangle w h) k t1 -> lipschitz_on (rectangle w h) k t2 -> bounded_on (rectangle w h) k t1 -> bounded_on (rectangle w h) k t2 ->
  regular_motion (rectangle w h) k u -> regular_motion (rectangle w h) k v -> regular_temperature (rectangle w h) k theta ->
  bounded_on (rectangle w h) k (m1 v) -> bounded_on (rectangle w h) k (m2 v) -> (forall x, rectangle w h x -> d <= det2 (gradient_of v x)) ->
  holds_values (ms_grid m) t1 (ms_g1 m) -> holds_values (ms_grid m) t2 (ms_g2 m) ->
  nodal (ms_grid m) (m1 u) (ms_prev_y1 m) -> nodal (ms_grid m) (m2 u) (ms_prev_y2 m) -> nodal (ms_grid m) theta (ms_prev_theta m) ->
  nodal (ms_grid m) (m1 v) p1 -> nodal (ms_grid m) (m2 v) p2 ->
  exists J, mech_objective lg m p1 p2 = Ok J /\
    Rabs (J - (elastic_energy w h v theta - boundary_work w h f t1 t2 (m1 v) (m2 v) + ms_fps m * dissipated w h u v)) <= C * (1 + ms_fps m) * s.
Proof.
  intros w h k d Hk Hd. destruct (Rle_dec 0 w) as [Hw|Hw]; [destruct (Rle_dec 0 h) as [Hh|Hh]|].
  2:{ exists 0. intros m lg so w0 h0 f s a b t1 t2 u v theta p1 p2 Hs _ _ _ _ _ Eh. exfalso. apply Hh. rewrite <- Eh. apply Rmult_le_pos; [apply pos_INR|lra]. }
  2:{ exists 0. intros m lg so w0 h0 f s a b t1 t2 u v theta p1 p2 Hs _ _ _ _ Ew. exfalso. apply Hw. rewrite <- Ew. apply Rmult_le_pos; [apply pos_INR|lra]. }
  assert (KW : 0 <= k * (w + h)) by (apply Rmult_le_pos; lra). set (k' := k * (3 + w + h)). assert (KK : k <= k') by (unfold k'; lra).
  destruct (C111_elastic_energy w h k d Hk Hd) as (CE & HE). destruct (C111_dissipation w h k Hk) as (CD & HD). destruct (traction_near w h k' ltac:(lra)) as (CW & HW).
  exists (Rmax 0 CE + Rmax 0 CW + Rmax 0 CD). intros m lg so w0 h0 f s a b t1 t2 u v theta p1 p2 Hs Fa Fb Ha Hb Ew Eh Hss K1 K2 NR Hg LG Hf Lt1 Lt2 Bt1 Bt2 RU RV RT B1 B2 HDet G1 G2 U1 U2 NT N1 N2.
  assert (PG : problem_grids (ms_grid m) None s a b) by (split; [exact Hs|split; [exact Ha|split; [exact Hb|split; [exists so, w0, h0, f; auto|exact I]]]]).
  assert (S1 : s <= 1).
  { eapply Rle_trans; [exact Hss|]. assert (Q : 1 <= 12 * (k + 1) ^ 2) by nra. apply (Rmult_le_reg_r (12 * (k + 1) ^ 2)); [lra|]. unfold Rdiv. rewrite Rmult_assoc, Rinv_l, Rmult_1_r by lra. pose proof (Rmin_l 1 d). lra. }
  assert (WL : forall F, lipschitz_on (rectangle w h) k F -> lipschitz_on (rectangle w h) k' F) by (intros F HF x y Hx Hy; eapply Rle_trans; [apply HF; assumption|]; apply Rmult_le_compat_r; [apply dist_pos|exact KK]).
  assert (WB : forall F, bounded_on (rectangle w h) k F -> bounded_on (rectangle w h) k' F) by (intros F HF x Hx; eapply Rle_trans; [apply HF; assumption|exact KK]).
  destruct (HE m s a b v theta p1 p2 Hss PG NR Ew Eh RV RT HDet N1 N2 NT) as (E & EE & BE). destruct (HD m s a b u v p1 p2 S1 PG NR Ew Eh RU RV U1 U2 N1 N2) as (D & ED & BD).
  destruct (HW m lg so w0 h0 f s a b t1 t2 (m1 v) (m2 v) p1 p2) as (W & EW & BW); auto; try (eapply regular_lipschitz; eauto; apply RV).
  unfold mech_objective. rewrite EE. cbn [bind]. rewrite NR, ED. cbn [bind]. rewrite EW. cbn [bind]. eexists. split; [reflexivity|].
  match goal with |- Rabs (E - W + ms_fps m * D - (?e - ?x + ms_fps m * ?y)) <= _ => replace (E - W + ms_fps m * D - (e - x + ms_fps m * y)) with ((E - e) + (- (W - x)) + ms_fps m * (D - y)) by ring; set (e0 := E - e) in *; set (x0 := W - x) in *; set (y0 := D - y) in * end.
  eapply Rle_trans; [apply Rabs_triang|]. eapply Rle_trans; [apply Rplus_le_compat_r, Rabs_triang|]. rewrite Rabs_Ropp, (Rabs_mult (ms_fps m)), (Rabs_right (ms_fps m)) by lra.
  assert (Q : forall c z, z <= c * s -> z <= Rmax 0 c * s) by (intros c z Hz; eapply Rle_trans; [exact Hz|apply Rmult_le_compat_r; [lra|apply Rmax_r]]). apply Q in BE, BD, BW.
  pose proof (Rmult_le_compat_l _ _ _ Hf BD) as BD'. assert (Z : forall c, 0 <= Rmax 0 c * s) by (intros; apply Rmult_le_pos; [apply Rmax_l|lra]).
  pose proof (Rmult_le_pos _ _ Hf (Z CE)). pose proof (Rmult_le_pos _ _ Hf (Z CW)). pose proof (Z CD). lra.
Qed.

(** ** C114 *)
(** The work of the traction computed by the code tends to the integral of the traction times the deformation over the free sides. *)
Theorem C114_traction_work : forall w h k, 0 <= k -> exists C, forall m lg so w0 h0 f s a b t1 t2 v1 v2 p1 p2,
  0 < s -> fits w0 s a -> fits h0 s b -> (1 <= a)%nat -> (1 <= b)%nat -> INR a * s = w -> INR b * s = h ->
  mech_history m -> ms_refined m = None -> domain_grid so w0 h0 f s = Ok (ms_grid m) -> midpoint_rule lg ->
  lipschitz_on (rectangle w h) k t1 -> lipschitz_on (rectangle w h) k t2 -> bounded_on (rectangle w h) k t1 -> bounded_on (rectangle w h) k t2 ->
  lipschitz_on (rectangle w h) k v1 -> lipschitz_on (rectangle w h) k v2 -> bounded_on (rectangle w h) k v1 -> bounded_on (rectangle w h) k v2 ->
  holds_values (ms_grid m) t1 (ms_g1 m) -> holds_values (ms_grid m) t2 (ms_g2 m) -> nodal (ms_grid m) v1 p1 -> nodal (ms_grid m) v2 p2 ->
  exists W, mech_traction_energy lg m p1 p2 = Ok W /\ Rabs (W - boundary_work w h f t1 t2 v1 v2) <= C * s.
Proof.
  intros w h k Hk. destruct (traction_near w h k Hk) as (C & H). exists C. intros m lg so w0 h0 f s a b t1 t2 v1 v2 p1 p2 Hs Fa Fb Ha Hb Ew Eh MH NR. destruct (mech_history_keys m MH NR) as [K1 K2].
  exact (H m lg so w0 h0 f s a b t1 t2 v1 v2 p1 p2 Hs Fa Fb Ha Hb Ew Eh K1 K2 NR).
Qed.
Print Assumptions C114_traction_work.

(** The objective of an unregularized mechanical problem tends to the continuous functional: elastic energy minus work of the
    traction plus dissipation. *)
Theorem C114_mechanical_objective : forall w h k d, 0 <= k -> 0 < d -> exists C, forall m lg so w0 h0 f s a b t1 t2 u v theta p1 p2,
  0 < s -> fits w0 s a -> fits h0 s b -> (1 <= a)%nat -> (1 <= b)%nat -> INR a * s = w -> INR b * s = h -> s <= Rmin 1 d / (12 * (k + 1) ^ 2) ->
  mech_history m -> ms_refined m = None -> domain_grid so w0 h0 f s = Ok (ms_grid m) -> midpoint_rule lg -> 0 <= ms_fps m ->
  lipschitz_on (rectangle w h) k t1 -> lipschitz_on (rectangle w h) k t2 -> bounded_on (rectangle w h) k t1 -> bounded_on (rectangle w h) k t2 ->
  regular_motion (rectangle w h) k u -> regular_motion (rectangle w h) k v -> regular_temperature (rectangle w h) k theta ->
  bounded_on (rectangle w h) k (m1 v) -> bounded_on (rectangle w h) k (m2 v) -> (forall x, rectangle w h x -> d <= det2 (gradient_of v x)) ->
  holds_values (ms_grid m) t1 (ms_g1 m) -> holds_values (ms_grid m) t2 (ms_g2 m) ->
  nodal (ms_grid m) (m1 u) (ms_prev_y1 m) -> nodal (ms_grid m) (m2 u) (ms_prev_y2 m) -> nodal (ms_grid m) theta (ms_prev_theta m) ->
  nodal (ms_grid m) (m1 v) p1 -> nodal (ms_grid m) (m2 v) p2 ->
  exists J, mech_objective lg m p1 p2 = Ok J /\
    Rabs (J - (elastic_energy w h v theta - boundary_work w h f t1 t2 (m1 v) (m2 v) + ms_fps m * dissipated w h u v)) <= C * (1 + ms_fps m) * s.
Proof.
  intros w h k d Hk Hd. destruct (objective_near w h k d Hk Hd) as (C & H). exists C. intros m lg so w0 h0 f s a b t1 t2 u v theta p1 p2 Hs Fa Fb Ha Hb Ew Eh Hss MH NR. destruct (mech_history_keys m MH NR) as [K1 K2].
  exact (H m lg so w0 h0 f s a b t1 t2 u v theta p1 p2 Hs Fa Fb Ha Hb Ew Eh Hss K1 K2 NR).
Qed.
Print Assumptions C114_mechanical_objective.
