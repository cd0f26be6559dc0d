(** * Work of the boundary traction: C81. *)
From Coq Require Import Reals Lra Lia List ZArith.
From Verif.Spec Require Import GridSpec QuadSpec InterpSpec RefineSpec PotentialSpec.
From Verif.Model Require Import Py Num Tensors Domain Refine Quadrature Integrators Bell Interp Helpers Steps Simulation.
From Verif.Spec Require Import SimSpec StepSpec EnergySpec MotionSpec TractionSpec.
From Verif.Proofs Require Import Lib GridP InterpP StepP SimP StepD StepU StepE.
From Verif.Props Require Import GridProps RefineProps InterpProps QuadProps IntegProps EnergyProps.
Local Open Scope R_scope.
Import ListNotations.

Lemma traction_work : forall so w h f s a b lg m y1 y2, 0 < s -> fits w s a -> fits h s b -> (1 <= a)%nat -> (1 <= b)%nat ->
  map fst (ms_g1 m) = b_vertices (g_neumann (ms_grid m)) -> map fst (ms_g2 m) = b_vertices (g_neumann (ms_grid m)) -> domain_grid so w h f s = Ok (ms_grid m) -> lg 1%Z = Ok ([0], [2]) ->
  length y1 = length (g_vertices (ms_grid m)) -> length y2 = length (g_vertices (ms_grid m)) ->
  mech_traction_energy lg m y1 y2 = Ok (s * sum_over (fun e =>
    mean_of_ends (value_for (ms_g1 m)) e * mean_of_ends (at_vertex y1) e + mean_of_ends (value_for (ms_g2 m)) e * mean_of_ends (at_vertex y2) e) (b_edges (g_neumann (ms_grid m)))) /\
  (forall e v, In e (b_edges (g_neumann (ms_grid m))) -> v = fst e \/ v = snd e -> (v < length y1)%nat /\ (v < length y2)%nat /\
    exists t1 t2, dget Nat.eqb v (ms_g1 m) = Ok t1 /\ dget Nat.eqb v (ms_g2 m) = Ok t2).
Proof.
  intros so w h f s a b lg m y1 y2 Hs Ha Hb A1 B1 K1 K2 Eg LG L1 L2. set (g := ms_grid m) in *.
  destruct (rect_neumann so w h f s a b Hs Ha Hb A1 B1 _ Eg) as [NE NV]. destruct (C11_vertices_numbered _ _ _ _ _ _ _ _ Hs Ha Hb Eg) as [VN _].
  assert (ENDS : forall e v, In e (b_edges (g_neumann g)) -> v = fst e \/ v = snd e -> (v < length y1)%nat /\ (v < length y2)%nat /\ exists t1 t2, dget Nat.eqb v (ms_g1 m) = Ok t1 /\ dget Nat.eqb v (ms_g2 m) = Ok t2).
  { intros e v He Hv. assert (In v (b_vertices (g_neumann g))) as Hn by (destruct (NE e He); destruct Hv as [-> | ->]; assumption). pose proof (NV v Hn) as Hg. rewrite L1, L2. rewrite VN in Hg |- *. rewrite seq_length. apply in_seq in Hg. split; [lia|]. split; [lia|].
    destruct (dget_key (ms_g1 m) v) as [t1 T1]; [rewrite K1; exact Hn|]. destruct (dget_key (ms_g2 m) v) as [t2 T2]; [rewrite K2; exact Hn|]. eauto. }
  split; [|exact ENDS].
  assert (LEN : forall e, In e (b_edges (g_neumann g)) -> edge_length (g_points g) e = Ok s).
  { intros e He. apply (C16_neumann_edges _ _ _ _ _ _ _ _ Hs Ha Hb Eg) in He as [He _]. apply (proj2 (proj2 (C16_boundary_is_outline _ _ _ _ _ _ _ _ Hs Ha Hb Eg))) in He as (d & i & j & i' & j' & [_ P] & [_ Q] & _ & _ & N).
    rewrite (edge_length_dist _ e (INR i * s, INR j * s) (INR i' * s, INR j' * s)) by (split; assumption). apply (f_equal Ok). unfold dist. cbn [fst snd]. rewrite <- (sqrt_square s) by lra. f_equal. destruct N as [[-> ->]|[-> ->]]; rewrite plus_INR; cbn [INR]; rewrite !sqrt_square by lra; ring. }
  unfold mech_traction_energy. fold g. unfold P1BoundaryInterpolation_. rewrite <- (map_length fst (ms_g1 m)), K1, Nat.eqb_refl, <- (map_length fst (ms_g2 m)), K2, Nat.eqb_refl. cbn [negb bind].
  assert (GR : GaussQuadratureRule_ lg 1 = Ok ([(1 + 0) / 2], [2 / 2])).
  { unfold GaussQuadratureRule_. rewrite LG. cbn [bind mapM]. change (@n1 R RNum) with 1. change (@nofZ R RNum) with IZR. rewrite !ndiv_R by lra. reflexivity. }
  unfold BoundaryIntegrator_. rewrite GR. cbn [bind].
  assert (LENS : mapM (edge_length (g_points g)) (b_edges (g_neumann g)) = Ok (repeat s (length (b_edges (g_neumann g))))).
  { clear - LEN. induction (b_edges (g_neumann g)) as [|e es IH]; [reflexivity|]. cbn [mapM length repeat]. rewrite (LEN e (or_introl eq_refl)), IH by (intros; apply LEN; right; assumption). reflexivity. }
  rewrite LENS. cbn [bind]. unfold boundary_integrate. cbn [bi_points bi_weights bi_lengths bi_edges].
  set (F := fun e => mean_of_ends (value_for (ms_g1 m)) e * mean_of_ends (at_vertex y1) e + mean_of_ends (value_for (ms_g2 m)) e * mean_of_ends (at_vertex y2) e).
  match goal with |- context [mapM ?G _] => set (GG := G) end.
  assert (ONE : forall e, In e (b_edges (g_neumann g)) -> GG (s, e) = Ok (s * F e)).
  { intros e He. destruct (ENDS e (fst e) He (or_introl eq_refl)) as (U1 & U2 & x1 & x2 & X1 & X2). destruct (ENDS e (snd e) He (or_intror eq_refl)) as (V1 & V2 & x3 & x4 & X3 & X4).
    unfold GG, quad_sum, zip. cbn [combine mapM]. unfold p1b_call, deform_on_edge. cbn [i_on_edge]. rewrite X1, X2, X3, X4. cbn [bind].
    rewrite (nth_py _ _ _ (nth_error_nth' y1 0 U1)), (nth_py _ _ _ (nth_error_nth' y1 0 V1)), (nth_py _ _ _ (nth_error_nth' y2 0 U2)), (nth_py _ _ _ (nth_error_nth' y2 0 V2)). cbn [bind].
    apply (f_equal Ok). unfold F, mean_of_ends, at_vertex, value_for. rewrite X1, X2, X3, X4. unfold boundary_traction_potential, Vector_dot. rewrite !nsum_Rsum. cbn. field. }
  assert (MM : mapM GG (zip (repeat s (length (b_edges (g_neumann g)))) (b_edges (g_neumann g))) = Ok (map (fun e => s * F e) (b_edges (g_neumann g)))).
  { clearbody GG. clear - ONE. induction (b_edges (g_neumann g)) as [|e es IH]; [reflexivity|]. cbn [length repeat]. unfold zip in *. cbn [combine mapM map]. rewrite IH by (intros; apply ONE; right; assumption). rewrite (ONE e (or_introl eq_refl)). reflexivity. }
  rewrite MM. cbn [bind]. apply (f_equal Ok). rewrite nsum_Rsum. clear. induction (b_edges (g_neumann g)) as [|e es IH]; cbn in *; [ring|]. rewrite IH. ring.
Qed.
(** The work done by the traction on a deformation is the mesh width times the sum, over the edges of the Neumann boundary, of the
    scalar products of the mean traction and the mean deformed position of the two ends. *)
Theorem C81_traction_work : forall so w h f s a b lg m y1 y2, 0 < s -> fits w s a -> fits h s b -> (1 <= a)%nat -> (1 <= b)%nat ->
  mech_history m -> ms_refined m = None -> domain_grid so w h f s = Ok (ms_grid m) -> lg 1%Z = Ok ([0], [2]) ->
  length y1 = length (g_vertices (ms_grid m)) -> length y2 = length (g_vertices (ms_grid m)) ->
  mech_traction_energy lg m y1 y2 = Ok (s * sum_over (fun e =>
    mean_of_ends (value_for (ms_g1 m)) e * mean_of_ends (at_vertex y1) e + mean_of_ends (value_for (ms_g2 m)) e * mean_of_ends (at_vertex y2) e) (b_edges (g_neumann (ms_grid m)))) /\
  (forall e v, In e (b_edges (g_neumann (ms_grid m))) -> v = fst e \/ v = snd e -> (v < length y1)%nat /\ (v < length y2)%nat /\
    exists t1 t2, dget Nat.eqb v (ms_g1 m) = Ok t1 /\ dget Nat.eqb v (ms_g2 m) = Ok t2).
Proof. intros so w h f s a b lg m y1 y2 Hs Ha Hb A1 B1 HM PL. destruct (mech_history_keys m HM PL) as [K1 K2]. exact (traction_work so w h f s a b lg m y1 y2 Hs Ha Hb A1 B1 K1 K2). Qed.
Print Assumptions C81_traction_work.

Lemma traction_translation : forall so w h f s a b lg m t1 t2 y1 y2 z1 z2 W, 0 < s -> fits w s a -> fits h s b -> (1 <= a)%nat -> (1 <= b)%nat ->
  map fst (ms_g1 m) = b_vertices (g_neumann (ms_grid m)) -> map fst (ms_g2 m) = b_vertices (g_neumann (ms_grid m)) -> domain_grid so w h f s = Ok (ms_grid m) -> lg 1%Z = Ok ([0], [2]) ->
  length y1 = length (g_vertices (ms_grid m)) -> length y2 = length (g_vertices (ms_grid m)) -> moved None 1 0 t1 t2 y1 y2 z1 z2 ->
  mech_traction_energy lg m y1 y2 = Ok W ->
  let force d := s * sum_over (mean_of_ends (value_for d)) (b_edges (g_neumann (ms_grid m))) in
  mech_traction_energy lg m z1 z2 = Ok (W + (t1 * force (ms_g1 m) + t2 * force (ms_g2 m))).
Proof.
  intros so w h f s a b lg m t1 t2 y1 y2 z1 z2 W Hs Ha Hb A1 B1 K1 K2 Eg LG L1 L2 (Z1 & Z2 & MV) EW force.
  destruct (traction_work so w h f s a b lg m y1 y2 Hs Ha Hb A1 B1 K1 K2 Eg LG L1 L2) as [E1 ENDS]. destruct (traction_work so w h f s a b lg m z1 z2 Hs Ha Hb A1 B1 K1 K2 Eg LG ltac:(congruence) ltac:(congruence)) as [E2 _].
  rewrite EW in E1. injection E1 as ->. rewrite E2. apply (f_equal Ok). unfold force. clear - MV ENDS.
  assert (AT : forall v, (v < length y1)%nat -> (v < length y2)%nat -> at_vertex z1 v = at_vertex y1 v + t1 /\ at_vertex z2 v = at_vertex y2 v + t2).
  { intros v V1 V2. pose proof (nth_error_nth' y1 0 V1) as N1. pose proof (nth_error_nth' y2 0 V2) as N2. destruct (MV v 0%nat (nth v y1 0) (nth v y2 0)) as [Q1 Q2]; cbn [dofs]; try lia; rewrite ?Nat.mul_1_r, ?Nat.add_0_r; try assumption.
    cbn [dofs Nat.eqb] in Q1, Q2. rewrite Nat.mul_1_r, Nat.add_0_r in Q1, Q2. unfold at_vertex. rewrite (nth_error_nth _ _ 0 Q1), (nth_error_nth _ _ 0 Q2). split; ring. }
  induction (b_edges (g_neumann (ms_grid m))) as [|e es IH]; cbn [sum_over]; [ring|].
  assert (E : forall e0 v, In e0 es -> v = fst e0 \/ v = snd e0 -> (v < length y1)%nat /\ (v < length y2)%nat /\ exists t1 t2, dget Nat.eqb v (ms_g1 m) = Ok t1 /\ dget Nat.eqb v (ms_g2 m) = Ok t2) by (intros e0 v He; apply ENDS; right; exact He). specialize (IH E).
  destruct (ENDS e (fst e) (or_introl eq_refl) (or_introl eq_refl)) as (U1 & U2 & _). destruct (ENDS e (snd e) (or_introl eq_refl) (or_intror eq_refl)) as (V1 & V2 & _).
  destruct (AT _ U1 U2) as [P1 P2]. destruct (AT _ V1 V2) as [Q1 Q2].
  assert (M1 : mean_of_ends (at_vertex z1) e = mean_of_ends (at_vertex y1) e + t1) by (unfold mean_of_ends; rewrite P1, Q1; field).
  assert (M2 : mean_of_ends (at_vertex z2) e = mean_of_ends (at_vertex y2) e + t2) by (unfold mean_of_ends; rewrite P2, Q2; field).
  rewrite Rmult_plus_distr_l, IH, M1, M2. ring.
Qed.
(** Moving the deformed body by (t1, t2) adds the scalar product with the total force: the mesh width times the sum of the mean
    tractions. *)
Theorem C81_translation : forall so w h f s a b lg m t1 t2 y1 y2 z1 z2 W, 0 < s -> fits w s a -> fits h s b -> (1 <= a)%nat -> (1 <= b)%nat ->
  mech_history m -> ms_refined m = None -> domain_grid so w h f s = Ok (ms_grid m) -> lg 1%Z = Ok ([0], [2]) ->
  length y1 = length (g_vertices (ms_grid m)) -> length y2 = length (g_vertices (ms_grid m)) -> moved None 1 0 t1 t2 y1 y2 z1 z2 ->
  mech_traction_energy lg m y1 y2 = Ok W ->
  let force d := s * sum_over (mean_of_ends (value_for d)) (b_edges (g_neumann (ms_grid m))) in
  mech_traction_energy lg m z1 z2 = Ok (W + (t1 * force (ms_g1 m) + t2 * force (ms_g2 m))).
Proof. intros so w h f s a b lg m t1 t2 y1 y2 z1 z2 W Hs Ha Hb A1 B1 HM PL. destruct (mech_history_keys m HM PL) as [K1 K2]. exact (traction_translation so w h f s a b lg m t1 t2 y1 y2 z1 z2 W Hs Ha Hb A1 B1 K1 K2). Qed.
Print Assumptions C81_translation.
