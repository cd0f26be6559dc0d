(** * Concrete cases that meet the hypotheses of C111: arbitrarily fine meshes of the unit square, a deformation that is not affine. *)
From Coq Require Import Reals Lra Lia List Psatz ZArith.
From Coquelicot Require Import Coquelicot.
From Verif.Spec Require Import GridSpec QuadSpec BellSpec InterpSpec RefineSpec PotentialSpec.
From Verif.Model Require Import Py Num Tensors Domain Refine Quadrature Integrators Expr Bell Interp Helpers Steps Simulation.
From Verif.Spec Require Import ConvSpec ConsistSpec SimSpec StepSpec EnergySpec MotionSpec.
From Verif.Proofs Require Import Lib GridP RectMesh GridCover StepU StepF StepG StepH StepE SimL InterpP HatP PotP MechV MechP ConvP ConvQ TameP PerturbP ConsistP StdOrder SimP.
From Verif.Props Require Import GridProps IntegProps InterpProps AffineProps EnergyProps ConvProps ConsistProps.
Local Open Scope R_scope.
Import ListNotations.
Local Notation length := List.length.

Lemma unit_grid (N : nat) : (1 <= N)%nat -> exists g, domain_grid std_order 1 1 FixNone (1 / INR N) = Ok g /\ mesh g (1 / INR N) N N /\ fits 1 (1 / INR N) N /\ 0 < 1 / INR N.
Proof.
  intros HN. assert (NP : 0 < INR N) by (apply lt_0_INR; lia). assert (S0 : 0 < 1 / INR N) by (apply Rdiv_lt_0_compat; lra).
  assert (FT : fits 1 (1 / INR N) N). { unfold fits. rewrite plus_INR. change (INR 1) with 1. assert (E : INR N * (1 / INR N) = 1) by (field; lra). rewrite Rmult_plus_distr_r, E. lra. }
  destruct (rect_grid_ok std_order (S N) (S N) FixNone (1 / INR N) (Rlt_le _ _ S0)) as (mean & E & _). rewrite <- (domain_grid_rect std_order 1 1 FixNone (1 / INR N) N N S0 FT FT) in E.
  eexists. split; [exact E|]. split; [|split; assumption]. exact (rect_mesh std_order 1 1 FixNone (1 / INR N) N N _ S0 FT FT E HN HN).
Qed.
Lemma nodal_exists g s a b f : mesh g s a b -> exists p, nodal g f p.
Proof.
  intros M. exists (map (fun v => match nth_error (g_points g) v with Some [x; y] => f (x, y) | _ => 0 end) (seq 0 (length (g_points g)))). split; [rewrite map_length, seq_length; symmetry; apply (mesh_length g s a b M)|].
  intros v p P. unfold point_at in P. assert (Hv : (v < length (g_points g))%nat) by (apply nth_error_Some; rewrite P; discriminate). rewrite nth_error_map, (nth_error_nth' _ 0%nat) by (rewrite seq_length; exact Hv). rewrite seq_nth by exact Hv. cbn [option_map Nat.add]. apply f_equal.
  destruct p as [x y]. exact (f_equal (fun o => match o with Some [x; y] => f (x, y) | _ => 0 end) P).
Qed.
Lemma unit_problem (N : nat) : (1 <= N)%nat -> exists m, problem_grids (ms_grid m) None (1 / INR N) N N /\ mech_history m /\ ms_refined m = None /\ nodal (ms_grid m) (fun _ => 1) (ms_prev_theta m) /\ nodal (ms_grid m) fst (ms_prev_y1 m) /\ nodal (ms_grid m) snd (ms_prev_y2 m) /\
  domain_grid std_order 1 1 FixNone (1 / INR N) = Ok (ms_grid m) /\ mechanical_step (ms_grid m) 1 1 1 None None (fun _ _ _ => Ok [1; 2]) = Ok m.
Proof.
  intros HN. destruct (unit_grid N HN) as (g & EG & M & FT & S0). pose proof (mesh_length g _ _ _ M) as LP.
  assert (PL : forall q, In q (g_points g) -> exists x y, q = [x; y]).
  { intros q Hq. apply In_nth_error in Hq as [v Hv]. assert (Iv : In v (g_vertices g)) by (rewrite (mesh_numbers _ _ _ _ M); apply in_seq; split; [lia|]; cbn [Nat.add]; apply nth_error_Some; rewrite Hv; discriminate). destruct (mesh_inside _ _ _ _ M v Iv) as (i & j & _ & _ & _ & P). unfold point_at in P. rewrite Hv in P. injection P as ->. eauto. }
  destruct (mapM_total xy (g_points g)) as [ps EP]. { intros q Hq. destruct (PL q Hq) as (x & y & ->). exists (x, y). reflexivity. }
  assert (IT : exists g12, init_traction g (fun _ _ _ => Ok [1; 2]) = Ok g12).
  { unfold init_traction. match goal with |- context [mapM ?F ?l] => assert (AL : exists rows, mapM F l = Ok rows); [apply mapM_total|destruct AL as [rows ->]; eexists; reflexivity] end.
    intros v Hv. destruct (rect_neumann std_order 1 1 FixNone (1 / INR N) N N S0 FT FT HN HN g EG) as [_ NV]. apply NV in Hv. destruct (mesh_inside _ _ _ _ M v Hv) as (i & j & _ & _ & _ & P). unfold point_at in P. rewrite (nth_py _ _ _ P). eexists. reflexivity. }
  destruct IT as [[g1 g2] IT]. assert (EM : exists m, mechanical_step g 1 1 1 None None (fun _ _ _ => Ok [1; 2]) = Ok m /\ ms_grid m = g /\ ms_refined m = None /\ ms_prev_y1 m = map fst ps /\ ms_prev_y2 m = map snd ps /\ ms_prev_theta m = map (fun _ => 1) (g_vertices g)).
  { unfold mechanical_step, mech_init_plain. rewrite EP. cbn [bind]. rewrite (proj2 (Rltb_false 1 0)) by lra. rewrite IT. cbn [bind]. eexists. split; [reflexivity|]. repeat split. }
  destruct EM as (m & EM & E1 & E2 & E3 & E4 & E5). exists m. rewrite E1, E2, E3, E4, E5. assert (NX : forall v p, point_at g v p -> nth_error ps v = Some p).
  { intros v [x y] P. unfold point_at in P. clear -EP P. revert ps v EP P. induction (g_points g) as [|q qs IH]; intros ps [|v] EP P; try discriminate; cbn [mapM] in EP; apply bind_ok' in EP as (z & Ez & EP); apply bind_ok' in EP as (zs & Ezs & EP); injection EP as <-.
    - injection P as ->. cbn in Ez. injection Ez as <-. reflexivity.
    - exact (IH zs v Ezs P). }
  assert (LPS : length ps = length (g_vertices g)) by (rewrite LP; apply (mapM_length _ _ _ EP)).
  split; [split; [exact S0|split; [exact HN|split; [exact HN|split; [|exact I]]]]; exists std_order, 1, 1, FixNone; auto|]. split; [exact (mh_new g 1 1 1 None None _ m (eq_sym LP) EM)|]. split; [reflexivity|].
  split; [split; [apply map_length|]|split; [split; [rewrite map_length; exact LPS|]|split; [split; [rewrite map_length; exact LPS|]|auto]]].
  - intros v p P. rewrite nth_error_map. pose proof (NX v p P) as Q. assert (Hv : (v < length (g_vertices g))%nat) by (rewrite <- LPS; apply nth_error_Some; rewrite Q; discriminate). destruct (nth_error (g_vertices g) v) eqn:E; [reflexivity|]. apply nth_error_None in E. lia.
  - intros v p P. rewrite nth_error_map, (NX v p P). reflexivity.
  - intros v p P. rewrite nth_error_map, (NX v p P). reflexivity.
Qed.
(** A bar stretched more and more towards its right end, and the undeformed bar. *)
Definition stretched : motion := {| m1 := fun x => fst x + fst x * fst x / 8; m1x := fun x => 1 + fst x / 4; m1y := fun _ => 0; m2 := snd; m2x := fun _ => 0; m2y := fun _ => 1 |}.
Definition undeformed : motion := {| m1 := fst; m1x := fun _ => 1; m1y := fun _ => 0; m2 := snd; m2x := fun _ => 0; m2y := fun _ => 1 |}.
Lemma fst_le_dist x y : Rabs (fst x - fst y) <= dist x y.
Proof. unfold dist. rewrite <- sqrt_Rsqr_abs. apply sqrt_le_1_alt. unfold Rsqr. pose proof (Rle_0_sqr (snd x - snd y)) as H. unfold Rsqr in H. lra. Qed.
Lemma const_lip D k c : 0 <= k -> lipschitz_on D k (fun _ => c).
Proof. intros Hk x y _ _. rewrite Rminus_diag_eq, Rabs_R0 by reflexivity. apply Rmult_le_pos; [exact Hk|apply dist_pos]. Qed.
Lemma affine_regular D k f fx fy : 0 <= k -> Rabs fx <= k -> Rabs fy <= k -> (forall x y, f y - f x - fx * (fst y - fst x) - fy * (snd y - snd x) = 0) -> regular_field D k f (fun _ => fx) (fun _ => fy).
Proof.
  intros Hk Hx Hy Hf. split; [|split; [apply const_lip, Hk|split; [apply const_lip, Hk|intros; auto]]]. intros x y _ _. rewrite Hf, Rabs_R0. apply Rmult_le_pos; [lra|]. apply Rmult_le_pos; apply dist_pos.
Qed.
Lemma stretched_regular : regular_motion (rectangle 1 1) 2 stretched /\ regular_motion (rectangle 1 1) 2 undeformed /\ forall x, rectangle 1 1 x -> 1 <= det2 (gradient_of stretched x).
Proof.
  assert (A2 : regular_field (rectangle 1 1) 2 snd (fun _ => 0) (fun _ => 1)) by (apply affine_regular; rewrite ?Rabs_R0, ?Rabs_R1; try lra; intros; ring).
  assert (A1 : regular_field (rectangle 1 1) 2 fst (fun _ => 1) (fun _ => 0)) by (apply affine_regular; rewrite ?Rabs_R0, ?Rabs_R1; try lra; intros; ring).
  split; [split; [|exact A2]|split; [split; assumption|]].
  - split; [|split; [|split]].
    + intros x y _ _. cbn [m1 m1x m1y stretched]. rewrite dist_sq. unfold sq. replace (fst y + fst y * fst y / 8 - (fst x + fst x * fst x / 8) - (1 + fst x / 4) * (fst y - fst x) - 0 * (snd y - snd x)) with ((fst y - fst x) * (fst y - fst x) / 8) by field.
      pose proof (Rle_0_sqr (fst y - fst x)) as H1. pose proof (Rle_0_sqr (snd x - snd y)) as H2. unfold Rsqr in *. rewrite Rabs_right by lra. nra.
    + intros x y _ _. cbn [m1x stretched]. replace (1 + fst x / 4 - (1 + fst y / 4)) with (/ 4 * (fst x - fst y)) by field. rewrite Rabs_mult, (Rabs_right (/ 4)) by lra. pose proof (fst_le_dist x y). pose proof (Rabs_pos (fst x - fst y)). lra.
    + exact (const_lip _ 2 0 ltac:(lra)).
    + intros x [Hx _]. cbn [m1x m1y stretched]. rewrite Rabs_R0. split; [apply Rabs_le; lra|lra].
  - intros x [Hx _]. unfold det2, gradient_of, PotentialSpec.st. cbn. lra.
Qed.
(** However small the required mesh width: the first time step of a simulation of the unit square at temperature 1 meets the hypotheses. *)
Example C111_example : forall s0, 0 < s0 -> exists m s N p1 p2, s <= s0 /\ problem_grids (ms_grid m) None s N N /\ mech_history m /\ ms_refined m = None /\ INR N * s = 1 /\
  regular_motion (rectangle 1 1) 2 undeformed /\ regular_motion (rectangle 1 1) 2 stretched /\ regular_temperature (rectangle 1 1) 2 (fun _ => 1) /\ (forall x, rectangle 1 1 x -> 1 <= det2 (gradient_of stretched x)) /\
  nodal (ms_grid m) (m1 stretched) p1 /\ nodal (ms_grid m) (m2 stretched) p2 /\ nodal (ms_grid m) (fun _ => 1) (ms_prev_theta m) /\
  nodal (ms_grid m) (m1 undeformed) (ms_prev_y1 m) /\ nodal (ms_grid m) (m2 undeformed) (ms_prev_y2 m).
Proof.
  intros s0 H0. destruct (archimed (/ s0)) as [A _]. assert (I0 : 0 < / s0) by (apply Rinv_0_lt_compat, H0). assert (Z0 : (0 < up (/ s0))%Z) by (apply lt_IZR; lra). set (N := Z.to_nat (up (/ s0))). assert (HN : (1 <= N)%nat) by (unfold N; lia).
  assert (EN : INR N = IZR (up (/ s0))) by (unfold N; rewrite INR_IZR_INZ, Z2Nat.id by lia; reflexivity). assert (NP : 0 < INR N) by lra.
  destruct (unit_problem N HN) as (m & PG & MH & NR & NT & N1 & N2 & _). destruct (problem_good _ _ _ _ _ PG) as (_ & _ & _ & M & _). destruct (nodal_exists _ _ _ _ (m1 stretched) M) as [p1 P1]. destruct (nodal_exists _ _ _ _ (m2 stretched) M) as [p2 P2]. destruct stretched_regular as (R1 & R2 & R3).
  exists m, (1 / INR N), N, p1, p2. split.
  { unfold Rdiv. rewrite Rmult_1_l. rewrite <- (Rinv_involutive s0) by lra. apply Rinv_le_contravar; lra. }
  split; [exact PG|]. split; [exact MH|]. split; [exact NR|]. split; [field; lra|]. split; [exact R2|]. split; [exact R1|]. split; [split; [apply const_lip; lra|intros; lra]|]. auto 10.
Qed.
