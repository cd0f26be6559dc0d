(** * Concrete cases that meet the hypotheses of C112: fine meshes of the unit square with refinement, a deformation that is not affine. *)
From Coq Require Import Reals Lra Lia List Psatz ZArith.
From Coquelicot Require Import Coquelicot.
From Verif.Spec Require Import GridSpec QuadSpec BellSpec InterpSpec RefineSpec PotentialSpec.
From Verif.Model Require Import Py Num Tensors Domain Refine Quadrature Integrators Expr Bell Interp Helpers Steps Simulation.
From Verif.Spec Require Import ConvSpec TaylorSpec ConsistSpec ConsistRSpec SimSpec StepSpec EnergySpec MotionSpec.
From Verif.Proofs Require Import Lib GridP RectMesh GridCover StepU StepF StepG StepH StepE SimP SimL InterpP HatP PotP MechV MechP ConvP ConvQ TameP PerturbP ConsistP StdOrder.
From Verif.Props Require Import RefineProps GridProps IntegProps InterpProps AffineProps EnergyProps ConvProps ConvBellProps ConsistProps ConsistExamples ConsistRProps.
Local Open Scope R_scope.
Import ListNotations.
Local Notation length := List.length.

Lemma flat6 {A B} (F : A -> list B) l v i a : (forall a, length (F a) = 6%nat) -> nth_error l v = Some a -> (i < 6)%nat -> nth_error (flat_map F l) (6 * v + i) = nth_error (F a) i.
Proof.
  intros HF. revert v. induction l as [|c l IH]; intros [|v] H Hi; try discriminate.
  - injection H as ->. cbn [flat_map]. rewrite nth_error_app1 by (rewrite HF; lia). apply f_equal. lia.
  - cbn [flat_map]. rewrite nth_error_app2 by (rewrite HF; lia). rewrite HF. replace (6 * S v + i - 6)%nat with (6 * v + i)%nat by lia. exact (IH v H Hi).
Qed.
Lemma flat6_length {A B} (F : A -> list B) l : (forall a, length (F a) = 6%nat) -> length (flat_map F l) = (6 * length l)%nat.
Proof. intros HF. induction l as [|a l IH]; [reflexivity|]. cbn [flat_map length]. rewrite app_length, HF, IH. lia. Qed.
Lemma jet_nodal_exists g s a b f : mesh g s a b -> exists p, jet_nodal g f p.
Proof.
  intros M. set (F := fun q : vector R => match q with [x; y] => jet f (x, y) | _ => repeat 0 6 end). assert (HF : forall q, length (F q) = 6%nat) by (intros [|x [|y [|z q]]]; reflexivity).
  exists (flat_map F (g_points g)). split; [rewrite (flat6_length F) by exact HF; rewrite (mesh_length g s a b M); reflexivity|]. intros v [x y] i P Hi. unfold point_at in P. rewrite (flat6 F _ v i _ HF P Hi). reflexivity.
Qed.
Definition bend (x y : R) : R := x + x * x / 8.
Definition along (x y : R) : R := x.
Definition across (x y : R) : R := y.
Definition bend_d (i j : nat) (x y : R) : R := match i, j with O, O => x + x * x / 8 | 1%nat, O => 1 + x / 4 | 2%nat, O => 1 / 4 | _, _ => 0 end.
Definition along_d (i j : nat) (x y : R) : R := match i, j with O, O => x | 1%nat, O => 1 | _, _ => 0 end.
Definition across_d (i j : nat) (x y : R) : R := match i, j with O, O => y | O, 1%nat => 1 | _, _ => 0 end.
Ltac derivs D := split; [reflexivity|]; split;
  [ intros i j H x y; destruct i as [|[|[|[|[|i]]]]]; [| | | | |lia]; (destruct j as [|[|[|[|[|j]]]]]; try lia); cbn [D]; split; (auto_derive; [exact I|]; cbv beta; match goal with |- ?a = ?b => change (@eq R a b) end; field)
  | intros i j x H _; destruct i as [|[|[|[|[|[|i]]]]]]; try lia; (destruct j as [|[|[|[|[|[|j]]]]]]; try lia); cbn [D]; apply Rabs_le; lra].
Ltac derivbounds D := intros i j x Hij [Hx Hy]; unfold value_at; destruct i as [|[|[|[|i]]]]; try lia; (destruct j as [|[|[|[|j]]]]; try lia); cbn [D]; apply Rabs_le; lra.
Lemma bend_smooth : smooth_field (rectangle 1 1) 12 bend.
Proof. replace 12 with (6 * 2) by ring. apply (C112_bounded_derivatives 1 1 2 bend bend_d); [lra|derivs bend_d|derivbounds bend_d]. Qed.
Lemma along_smooth : smooth_field (rectangle 1 1) 12 along.
Proof. replace 12 with (6 * 2) by ring. apply (C112_bounded_derivatives 1 1 2 along along_d); [lra|derivs along_d|derivbounds along_d]. Qed.
Lemma across_smooth : smooth_field (rectangle 1 1) 12 across.
Proof. replace 12 with (6 * 2) by ring. apply (C112_bounded_derivatives 1 1 2 across across_d); [lra|derivs across_d|derivbounds across_d]. Qed.
Lemma jet_along x : jet along x = [fst x; 1; 0; 0; 0; 0].
Proof.
  unfold jet, d_x, d_y, along. assert (E1 : forall t, Derive (fun s : R => s) t = 1) by (intros; apply Derive_id). assert (E0 : forall c t : R, Derive (fun _ : R => c) t = 0) by (intros; apply Derive_const).
  rewrite E1, E0. rewrite (Derive_ext (fun s => Derive (fun s0 : R => s0) s) (fun _ => 1)) by exact E1. rewrite (Derive_ext (fun s : R => Derive (fun _ : R => fst x) s) (fun _ => 0)) by (intros; apply E0). rewrite !E0. reflexivity.
Qed.
Lemma jet_across x : jet across x = [snd x; 0; 1; 0; 0; 0].
Proof.
  unfold jet, d_x, d_y, across. assert (E1 : forall t, Derive (fun s : R => s) t = 1) by (intros; apply Derive_id). assert (E0 : forall c t : R, Derive (fun _ : R => c) t = 0) by (intros; apply Derive_const).
  rewrite E1, E0. rewrite (Derive_ext (fun s => Derive (fun s0 : R => s0) s) (fun _ => 1)) by exact E1. rewrite (Derive_ext (fun s : R => Derive (fun _ : R => snd x) s) (fun _ => 0)) by (intros; apply E0). rewrite (Derive_ext (fun s : R => Derive (fun _ : R => s) (fst x)) (fun _ => 0)) by (intros; apply E0). rewrite !E0. reflexivity.
Qed.
Lemma bend_det x : rectangle 1 1 x -> 1 <= det2 (gradient_of (motion_of bend across) x).
Proof.
  intros [Hx _]. unfold det2, gradient_of, motion_of, PotentialSpec.st, value_at. cbn [f11 f12 f21 f22 m1x m1y m2x m2y].
  assert (E1 : d_x bend (fst x) (snd x) = 1 + fst x / 4) by (unfold d_x, bend; apply is_derive_unique; auto_derive; [exact I|field]). pose proof (jet_across x) as J. unfold jet in J. pose proof (f_equal (fun l => nth 1 l 0) J) as J1. pose proof (f_equal (fun l => nth 2 l 0) J) as J2. cbn [nth] in J1, J2. rewrite E1, J1, J2. lra.
Qed.
(** Meshes down to width 1e-14: the first time step of a regularized simulation of the unit square at temperature 1. *)
Example C112_example : forall s0, / 10 ^ 14 <= s0 -> exists m r s n p1 p2, s <= s0 /\ regularized m r s n n 2 /\ mech_history m /\ INR n * s = 1 /\
  smooth_field (rectangle 1 1) 12 along /\ smooth_field (rectangle 1 1) 12 across /\ smooth_field (rectangle 1 1) 12 bend /\ regular_temperature (rectangle 1 1) 12 (fun _ => 1) /\
  (forall x, rectangle 1 1 x -> 1 <= det2 (gradient_of (motion_of bend across) x)) /\
  jet_nodal (ms_grid m) along (ms_prev_y1 m) /\ jet_nodal (ms_grid m) across (ms_prev_y2 m) /\ nodal (r_grid r) (fun _ => 1) (ms_prev_theta m) /\ jet_nodal (ms_grid m) bend p1 /\ jet_nodal (ms_grid m) across p2.
Proof.
  intros s0 H0. assert (P14 : 0 < / 10 ^ 14) by (apply Rinv_0_lt_compat, pow_lt; lra). destruct (archimed (/ s0)) as [A A']. assert (I0 : 0 < / s0) by (apply Rinv_0_lt_compat; lra). assert (I1 : / s0 <= 10 ^ 14) by (rewrite <- (Rinv_involutive (10 ^ 14)) by (apply pow_nonzero; lra); apply Rinv_le_contravar; assumption).
  assert (Z0 : (0 < up (/ s0))%Z) by (apply lt_IZR; lra). set (N := Z.to_nat (up (/ s0))). assert (HN : (1 <= N)%nat) by (unfold N; lia).
  assert (EN : INR N = IZR (up (/ s0))) by (unfold N; rewrite INR_IZR_INZ, Z2Nat.id by lia; reflexivity). assert (NP : 0 < INR N) by lra. assert (N14 : INR N <= 2 * 10 ^ 14) by (clear -EN A' I1; lra).
  destruct (unit_grid N HN) as (g & EG & M & FT & S0). assert (He : / 10 ^ 15 <= 1 / INR N / INR 2).
  { replace (1 / INR N / INR 2) with (/ (INR N * 2)) by (change (INR 2) with 2; field; lra). apply Rinv_le_contravar; [lra|]. clear -N14. lra. }
  destruct (C27_refinement_is_fine_mesh g (1 / INR N) N N 2 S0 HN HN ltac:(lia) He M) as (r & Rf & _ & M' & _). pose proof (mesh_length g _ _ _ M) as LP.
  assert (PL : forall q, In q (g_points g) -> exists x y, q = [x; y]).
  { intros q Hq. apply In_nth_error in Hq as [v Hv]. assert (Iv : In v (g_vertices g)) by (rewrite (mesh_numbers _ _ _ _ M); apply in_seq; split; [lia|]; cbn [Nat.add]; apply nth_error_Some; rewrite Hv; discriminate). destruct (mesh_inside _ _ _ _ M v Iv) as (i & j & _ & _ & _ & P). unfold point_at in P. rewrite Hv in P. injection P as ->. eauto. }
  destruct (mapM_total xy (g_points g)) as [ps EP]. { intros q Hq. destruct (PL q Hq) as (x & y & ->). exists (x, y). reflexivity. }
  assert (NX : forall v p, point_at g v p -> nth_error ps v = Some p).
  { intros v [x y] P. unfold point_at in P. clear -EP P. revert ps v EP P. induction (g_points g) as [|q qs IH]; intros ps [|v] EP P; try discriminate; cbn [mapM] in EP; apply bind_ok' in EP as (z & Ez & EP); apply bind_ok' in EP as (zs & Ezs & EP); injection EP as <-.
    - injection P as ->. cbn in Ez. injection Ez as <-. reflexivity.
    - exact (IH zs v Ezs P). }
  assert (LPS : length ps = length (g_vertices g)) by (rewrite LP; apply (mapM_length _ _ _ EP)).
  assert (EM : exists m, mechanical_step g 1 1 1 (Some 1) (Some r) (fun _ _ _ => Ok [1; 2]) = Ok m /\ ms_grid m = g /\ ms_refined m = Some r /\ ms_prev_y1 m = flat_map (fun '(x, _) => [x; 1; 0; 0; 0; 0]) ps /\ ms_prev_y2 m = flat_map (fun '(_, y) => [y; 0; 1; 0; 0; 0]) ps /\ ms_prev_theta m = map (fun _ => 1) (g_vertices (r_grid r))).
  { unfold mechanical_step, mech_init_reg. rewrite EP. cbn [bind]. rewrite (proj2 (Rltb_false 1 0)) by lra. eexists. split; [reflexivity|]. repeat split. }
  destruct EM as (m & EM & E1 & E2 & E3 & E4 & E5). destruct (jet_nodal_exists g _ _ _ bend M) as [p1 J1]. destruct (jet_nodal_exists g _ _ _ across M) as [p2 J2].
  exists m, r, (1 / INR N), N, p1, p2. rewrite E1, E3, E4, E5. split; [unfold Rdiv; rewrite Rmult_1_l, <- (Rinv_involutive s0) by lra; apply Rinv_le_contravar; lra|].
  split. { split; [exact E2|]. rewrite E1. split; [|split; [lia|split; [exact He|exact Rf]]]. split; [exact S0|split; [exact HN|split; [exact HN|split]]]; [exists std_order, 1, 1, FixNone; auto|exists 2%nat; split; [lia|split; [exact He|exact Rf]]]. }
  split; [exact (mh_new g 1 1 1 (Some 1) (Some r) _ m (eq_sym LP) EM)|]. split; [field; lra|]. split; [exact along_smooth|]. split; [exact across_smooth|]. split; [exact bend_smooth|]. split; [split; [apply const_lip; lra|intros; lra]|]. split; [exact bend_det|].
  split; [|split; [|split; [|split; assumption]]].
  - split; [rewrite flat6_length by (intros []; reflexivity); rewrite LPS; reflexivity|]. intros v x i P Hi. rewrite (flat6 _ ps v i x) by (try (intros []; reflexivity); try apply NX, P; exact Hi). rewrite jet_along. destruct x; reflexivity.
  - split; [rewrite flat6_length by (intros []; reflexivity); rewrite LPS; reflexivity|]. intros v x i P Hi. rewrite (flat6 _ ps v i x) by (try (intros []; reflexivity); try apply NX, P; exact Hi). rewrite jet_across. destruct x; reflexivity.
  - split; [apply map_length|]. intros v x P. pose proof (mesh_length _ _ _ _ M') as LF. unfold point_at in P. assert (Hv : (v < length (g_vertices (r_grid r)))%nat) by (rewrite LF; apply nth_error_Some; rewrite P; discriminate). rewrite nth_error_map. destruct (nth_error (g_vertices (r_grid r)) v) eqn:E; [reflexivity|]. apply nth_error_None in E. lia.
Qed.
