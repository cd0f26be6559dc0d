(** * Theorems on the consistency of the mechanical energies (C111) *)
From Coq Require Import Reals Lra Lia List Psatz ZArith.
From Coquelicot Require Import Coquelicot.
From Verif.Spec Require Import GridSpec QuadSpec BellSpec InterpSpec RefineSpec PotentialSpec.
From Verif.Model Require Import Py Num Tensors Domain Refine Quadrature Integrators Expr Bell Interp Helpers Steps Simulation.
From Verif.Spec Require Import ConvSpec ConsistSpec SimSpec StepSpec EnergySpec MotionSpec.
From Verif.Proofs Require Import Lib GridP StepU StepF StepG StepH InterpP HatP PotP MechV MechP ConvP TameP PerturbP ConsistP StdOrder.
From Verif.Props Require Import IntegProps InterpProps AffineProps ConvProps.
Local Open Scope R_scope.
Import ListNotations.
Local Notation length := List.length.

Section Plain.
Context (g : grid R) (s : R) (a b : nat) (Hs : 0 < s) (M : mesh g s a b) (k : R) (Hk : 0 <= k).
Let D := rectangle (INR a * s) (INR b * s).
Lemma plain_strain u p1 p2 t p q r l x : regular_motion D k u -> nodal g (m1 u) p1 -> nodal g (m2 u) p2 -> triangle_at g t p q r -> bary_of p q r l x -> non_negative l ->
  exists F, deform_strain (comp_interp g None p1) (comp_interp g None p2) t l = Ok (mat F) /\ near (3 / 2 * k * s) F (gradient_of u x).
Proof.
  intros [(C1 & _) (C2 & _)] [L1 S1] [L2 S2] T B N. assert (P : forall p, length p = length (g_vertices g) -> P1Interpolation_ g p = Ok (P1I g p)) by (intros z E; unfold P1Interpolation_; rewrite E, Nat.eqb_refl; reflexivity).
  destruct (C108_smooth_functions g s a b p1 _ _ _ _ k t p q r l x Hs M (P _ L1) S1 C1 T B N) as (v & gx & gy & _ & E1 & _ & X1 & Y1). destruct (C108_smooth_functions g s a b p2 _ _ _ _ k t p q r l x Hs M (P _ L2) S2 C2 T B N) as (v' & gx' & gy' & _ & E2 & _ & X2 & Y2).
  exists (PotentialSpec.st gx gy gx' gy'). split; [|repeat split; assumption]. unfold deform_strain, comp_interp. rewrite E1. cbn [bind]. rewrite E2. reflexivity.
Qed.
Lemma plain_temp theta th t p q r l x : regular_temperature D k theta -> nodal g theta th -> triangle_at g t p q r -> bary_of p q r l x -> non_negative l ->
  exists v, i_call (temp_interp g None th) t l = Ok v /\ Rabs (v - theta x) <= 3 / 2 * k * s /\ 0 <= v.
Proof.
  intros [LT PT] [LL SS] T B N. assert (P : P1Interpolation_ g th = Ok (P1I g th)) by (unfold P1Interpolation_; rewrite LL, Nat.eqb_refl; reflexivity).
  destruct (C108_continuous_functions g s a b th _ _ k t p q r l x Hs M P SS LT T B N) as (v & E & Bv). exists v. split; [exact E|]. assert (S2 : sqrt 2 <= 3 / 2) by (rewrite <- (sqrt_Rsqr (3/2)) by lra; apply sqrt_le_1_alt; unfold Rsqr; lra). split.
  - eapply Rle_trans; [exact Bv|]. replace (3 / 2 * k * s) with (k * (3 / 2 * s)) by ring. apply Rmult_le_compat_l; [exact Hk|]. apply Rmult_le_compat_r; lra.
  - destruct (P1_sampled g th _ t p q r l theta P SS T) as [E' _]. rewrite E in E'. injection E' as ->. destruct (mesh_corners g s a b t p q r Hs M T) as (Dp & Dq & Dr). destruct N as (N1 & N2 & N3).
    pose proof (Rmult_le_pos _ _ N1 (PT _ Dp)). pose proof (Rmult_le_pos _ _ N2 (PT _ Dq)). pose proof (Rmult_le_pos _ _ N3 (PT _ Dr)). lra.
Qed.
End Plain.
Lemma regular_bounded D k u x : regular_motion D k u -> D x -> bounded k (gradient_of u x).
Proof. intros [(_ & _ & _ & B1) (_ & _ & _ & B2)] Hx. destruct (B1 x Hx), (B2 x Hx). repeat split; assumption. Qed.
Lemma regular_gap D k u x y : regular_motion D k u -> D x -> D y -> gapF (gradient_of u x) (gradient_of u y) <= 4 * k * dist x y.
Proof.
  intros [(_ & A1 & A2 & _) (_ & A3 & A4 & _)] Hx Hy. specialize (A1 x y Hx Hy). specialize (A2 x y Hx Hy). specialize (A3 x y Hx Hy). specialize (A4 x y Hx Hy). unfold gapF, gradient_of, PotentialSpec.st. cbn [f11 f12 f21 f22]. lra.
Qed.
Lemma integrator_exists g s a b (q : rule R) : mesh g s a b -> exists I, Integrator_ q (g_triangles g) (g_points g) = Ok I.
Proof.
  intros M. destruct (C38_areas q (g_triangles g) (g_points g)) as (I & HI & _); [|exists I; exact HI]. intros t Ht. destruct (mesh_triangle_at g s a b M t Ht) as (x & y & z & T). exists x, y, z. destruct t as [[i j] l]. exact (proj2 T).
Qed.

(** ** C111 *)
(** The elastic energy the mechanical step computes for the nodal values of a smooth deformation and temperature differs from the integral of the energy density by
    at most a constant times the mesh width; the constant depends only on the size of the body and on the bounds of the fields. *)
Theorem C111_elastic_energy : forall w h k d, 0 <= k -> 0 < d -> exists C, forall m s a b u theta p1 p2,
  s <= Rmin 1 d / (12 * (k + 1) ^ 2) -> problem_grids (ms_grid m) None s a b -> ms_refined m = None -> INR a * s = w -> INR b * s = h ->
  regular_motion (rectangle w h) k u -> regular_temperature (rectangle w h) k theta -> (forall x, rectangle w h x -> d <= det2 (gradient_of u x)) ->
  nodal (ms_grid m) (m1 u) p1 -> nodal (ms_grid m) (m2 u) p2 -> nodal (ms_grid m) theta (ms_prev_theta m) ->
  exists E, mech_elastic_energy m p1 p2 = Ok E /\ Rabs (E - elastic_energy w h u theta) <= C * s.
Proof.
  intros w h k d Hk Hd. destruct (tame_elastic (k + 1) (d / 2) ltac:(lra)) as (B & L & B0 & L0 & _ & HL).
  exists (L * (3 * (5 * k) + 17 / 8 * (15 / 2 * k)) * (w * h)).
  intros m s a b u theta p1 p2 Hss PG NR Ew Eh RM RT HD N1 N2 NT. replace ((k + 1) ^ 2) with ((k + 1) * (k + 1)) in Hss by ring. fold (fine k d) in Hss. destruct (problem_good _ _ _ _ _ PG) as (Hs & Ha & Hb & M & _). rewrite <- Ew, <- Eh in *. clear Ew Eh w h.
  unfold mech_elastic_energy. rewrite NR. cbn [theta_grid]. assert (ER : exists q, DUNAVANT2 = Ok q) by (destruct (energy_rule_good (ms_grid m) None) as (q & E & _); exists q; exact E). destruct ER as [q EQ]. rewrite EQ. cbn [bind].
  destruct (integrator_exists _ s a b q M) as [I HI]. rewrite HI. cbn [bind].
  destruct (density_exact gapFt (elastic_set (k + 1) (d / 2)) (fun p => value (total_elastic_potential (mat (fst p)) (snd p))) L (5 * k) (15 / 2 * k * s) L0 ltac:(apply Rmult_le_pos; [lra|lra]) (fun x => (gradient_of u x, theta x)) HL (ms_grid m) s a b Hs Ha Hb M q I HI) with
    (F := fun t l => let* F := deform_strain (comp_interp (ms_grid m) None p1) (comp_interp (ms_grid m) None p2) t l in let* th := i_call (temp_interp (ms_grid m) None (ms_prev_theta m)) t l in total_elastic_potential F th) as (E & EE & BE).
  - intros x Hx. destruct (regular_bounded _ _ _ _ RM Hx) as (A1 & A2 & A3 & A4). split; [cbn [fst]; repeat split; lra|]. split; [cbn [fst]; specialize (HD x Hx); lra|]. apply RT, Hx.
  - intros x y Hx Hy. unfold gapFt. cbn [fst snd]. pose proof (regular_gap _ _ _ _ _ RM Hx Hy). pose proof (proj1 RT x y Hx Hy). lra.
  - intros t p c r l x T Bx N. destruct (plain_strain _ s a b Hs M k u p1 p2 t p c r l x RM N1 N2 T Bx N) as (F & EF & NF). destruct (plain_temp _ s a b Hs M k Hk theta _ t p c r l x RT NT T Bx N) as (v & Ev & Nv & Pv).
    destruct (mesh_corners _ s a b t p c r Hs M T) as (Dp & Dc & Dr). pose proof (rectangle_convex _ _ _ _ _ _ _ Dp Dc Dr Bx N) as Dx.
    assert (e0 : 0 <= 3 / 2 * k * s) by (apply Rmult_le_pos; lra). destruct (det_keeps k d s _ F _ Hk Hd (conj (Rlt_le _ _ Hs) Hss) (conj e0 (Rle_refl _)) (regular_bounded _ _ _ _ RM Dx) (HD x Dx) NF) as [BF DF].
    exists (F, v). split; [split; [exact BF|split; [exact DF|exact Pv]]|]. split.
    + rewrite EF. cbn [bind]. rewrite Ev. cbn [bind fst snd]. rewrite elastic_value by lra. reflexivity.
    + unfold gapFt. cbn [fst snd]. pose proof (near_gap _ _ _ NF). lra.
  - right. left. exact EQ.
  - exists E. split; [exact EE|]. unfold elastic_energy. cbn [fst snd] in BE. eapply Rle_trans; [exact BE|]. right. ring.
Qed.
Print Assumptions C111_elastic_energy.
(** The dissipation from the previous deformation [u] to [v]. *)
Theorem C111_dissipation : forall w h k, 0 <= k -> exists C, forall m s a b u v p1 p2,
  s <= 1 -> problem_grids (ms_grid m) None s a b -> ms_refined m = None -> INR a * s = w -> INR b * s = h ->
  regular_motion (rectangle w h) k u -> regular_motion (rectangle w h) k v ->
  nodal (ms_grid m) (m1 u) (ms_prev_y1 m) -> nodal (ms_grid m) (m2 u) (ms_prev_y2 m) -> nodal (ms_grid m) (m1 v) p1 -> nodal (ms_grid m) (m2 v) p2 ->
  exists E, mech_dissipation m p1 p2 = Ok E /\ Rabs (E - dissipated w h u v) <= C * s.
Proof.
  intros w h k Hk. destruct (tame_dissipation (k + 3 / 2 * k)) as (B & L & B0 & L0 & _ & HL). exists (L * (3 * (8 * k) + 17 / 8 * (12 * k)) * (w * h)).
  intros m s a b u v p1 p2 Hss PG NR Ew Eh RU RV U1 U2 N1 N2. destruct (problem_good _ _ _ _ _ PG) as (Hs & Ha & Hb & M & _). rewrite <- Ew, <- Eh in *. clear Ew Eh w h.
  unfold mech_dissipation. rewrite NR. cbn [theta_grid]. destruct QuadProps.C34_centroid as (q & EQ & _). rewrite EQ. cbn [bind].
  destruct (integrator_exists _ s a b q M) as [I HI]. rewrite HI. cbn [bind].
  destruct (density_exact gapFF (strains_set (k + 3 / 2 * k)) (fun p => value (dissipation_potential (mat (fst p)) (mat (snd p)))) L (8 * k) (12 * k * s) L0 ltac:(apply Rmult_le_pos; lra) (fun x => (gradient_of u x, gradient_of v x)) HL (ms_grid m) s a b Hs Ha Hb M q I HI) with
    (F := fun t l => let* F0 := deform_strain (comp_interp (ms_grid m) None (ms_prev_y1 m)) (comp_interp (ms_grid m) None (ms_prev_y2 m)) t l in let* F := deform_strain (comp_interp (ms_grid m) None p1) (comp_interp (ms_grid m) None p2) t l in dissipation_potential F0 F) as (E & EE & BE).
  - intros x Hx. destruct (regular_bounded _ _ _ _ RU Hx) as (A1 & A2 & A3 & A4). destruct (regular_bounded _ _ _ _ RV Hx) as (B1 & B2 & B3 & B4). split; cbn [fst snd]; repeat split; lra.
  - intros x y Hx Hy. unfold gapFF. cbn [fst snd]. pose proof (regular_gap _ _ _ _ _ RU Hx Hy). pose proof (regular_gap _ _ _ _ _ RV Hx Hy). lra.
  - intros t p c r l x T Bx N. destruct (plain_strain _ s a b Hs M k u _ _ t p c r l x RU U1 U2 T Bx N) as (F & EF & NF). destruct (plain_strain _ s a b Hs M k v p1 p2 t p c r l x RV N1 N2 T Bx N) as (F' & EF' & NF').
    destruct (mesh_corners _ s a b t p c r Hs M T) as (Dp & Dc & Dr). pose proof (rectangle_convex _ _ _ _ _ _ _ Dp Dc Dr Bx N) as Dx.
    assert (e1 : 3 / 2 * k * s <= 3 / 2 * k) by nra. destruct (bounded_near _ _ _ _ (regular_bounded _ _ _ _ RU Dx) NF) as (A1 & A2 & A3 & A4). destruct (bounded_near _ _ _ _ (regular_bounded _ _ _ _ RV Dx) NF') as (B1 & B2 & B3 & B4).
    exists (F, F'). split; [split; cbn [fst snd]; repeat split; lra|]. split.
    + rewrite EF. cbn [bind]. rewrite EF'. cbn [bind fst snd]. rewrite dis_value. reflexivity.
    + unfold gapFF. cbn [fst snd]. pose proof (near_gap _ _ _ NF). pose proof (near_gap _ _ _ NF'). lra.
  - left. exact EQ.
  - exists E. split; [exact EE|]. unfold dissipated. cbn [fst snd] in BE. eapply Rle_trans; [exact BE|]. right. ring.
Qed.
Print Assumptions C111_dissipation.

(** What C111 asks of a deformation holds whenever its first derivatives exist, are bounded and vary at most in proportion to the distance. *)
Lemma mvt1 (f df : R -> R) (x y : R) : (forall t, Rmin x y <= t <= Rmax x y -> is_derive f t (df t)) -> exists c, Rmin x y <= c <= Rmax x y /\ f y - f x = df c * (y - x).
Proof.
  intros H. destruct (MVT_gen f x y df) as (c & Hc & E); [intros t Ht; apply H; lra|intros t Ht; apply continuity_pt_filterlim, (ex_derive_continuous f t); exists (df t); apply H; lra|]. exists c. split; [lra|exact E].
Qed.
Lemma abs_fst x y : Rabs (fst x - fst y) <= dist x y.
Proof. unfold dist. rewrite <- sqrt_Rsqr_abs. apply sqrt_le_1_alt. unfold Rsqr. pose proof (Rle_0_sqr (snd x - snd y)) as H. unfold Rsqr in H. lra. Qed.
Lemma abs_snd x y : Rabs (snd x - snd y) <= dist x y.
Proof. unfold dist. rewrite <- sqrt_Rsqr_abs. apply sqrt_le_1_alt. unfold Rsqr. pose proof (Rle_0_sqr (fst x - fst y)) as H. unfold Rsqr in H. lra. Qed.
Lemma dist_box x y z : Rabs (fst x - fst z) <= Rabs (fst x - fst y) -> Rabs (snd x - snd z) <= Rabs (snd x - snd y) -> dist x z <= dist x y.
Proof.
  intros H1 H2. unfold dist. apply sqrt_le_1_alt. assert (Q : forall a b, Rabs a <= Rabs b -> a * a <= b * b).
  { intros a b H. rewrite <- (Rabs_right (a * a)), <- (Rabs_right (b * b)) by (pose proof (Rle_0_sqr a); pose proof (Rle_0_sqr b); unfold Rsqr in *; lra). rewrite !Rabs_mult. pose proof (Rabs_pos a). pose proof (Rabs_pos b). nra. }
  pose proof (Q _ _ H1). pose proof (Q _ _ H2). lra.
Qed.
Theorem C111_bounded_derivatives : forall w h k f fx fy, 0 <= k -> partials_on w h f fx fy -> lipschitz_on (rectangle w h) k fx -> lipschitz_on (rectangle w h) k fy ->
  (forall x, rectangle w h x -> Rabs (fx x) <= k /\ Rabs (fy x) <= k) -> regular_field (rectangle w h) (4 * k) f fx fy.
Proof.
  intros w h k f fx fy Hk HP LX LY HB. assert (D0 : forall x y, 0 <= dist x y) by (intros; apply dist_pos).
  assert (WL : forall F, lipschitz_on (rectangle w h) k F -> lipschitz_on (rectangle w h) (4 * k) F). { intros F HF x y Hx Hy. specialize (HF x y Hx Hy). specialize (D0 x y). assert (0 <= k * dist x y) by (apply Rmult_le_pos; assumption). lra. }
  split; [|split; [apply WL, LX|split; [apply WL, LY|]]]; [|intros x Hx; destruct (HB x Hx); split; lra].
  intros x y Hx Hy. destruct x as [x1 x2], y as [y1 y2]. destruct Hx as [X1 X2], Hy as [Y1 Y2]. cbn [fst snd] in *.
  destruct (mvt1 (fun a => f (a, x2)) (fun a => fx (a, x2)) x1 y1) as (c & Hc & EC).
  { intros t Ht. refine (proj1 (HP (t, x2) _)). split; cbn [fst snd]; [|exact X2]. revert Ht. unfold Rmin, Rmax. destruct (Rle_dec x1 y1); lra. }
  destruct (mvt1 (fun b => f (y1, b)) (fun b => fy (y1, b)) x2 y2) as (e & He & EE).
  { intros t Ht. refine (proj2 (HP (y1, t) _)). split; cbn [fst snd]; [exact Y1|]. revert Ht. unfold Rmin, Rmax. destruct (Rle_dec x2 y2); lra. }
  cbv beta in EC, EE. assert (EQ : f (y1, y2) - f (x1, x2) - fx (x1, x2) * (y1 - x1) - fy (x1, x2) * (y2 - x2) = (fx (c, x2) - fx (x1, x2)) * (y1 - x1) + (fy (y1, e) - fy (x1, x2)) * (y2 - x2)) by lra.
  rewrite EQ.
  set (d := dist (x1, x2) (y1, y2)). assert (A1 : Rabs (y1 - x1) <= d) by (rewrite Rabs_minus_sym; exact (abs_fst (x1, x2) (y1, y2))). assert (A2 : Rabs (y2 - x2) <= d) by (rewrite Rabs_minus_sym; exact (abs_snd (x1, x2) (y1, y2))).
  assert (RC : 0 <= c <= w) by (revert Hc; unfold Rmin, Rmax; destruct (Rle_dec x1 y1); lra). assert (RE : 0 <= e <= h) by (revert He; unfold Rmin, Rmax; destruct (Rle_dec x2 y2); lra).
  assert (B1 : Rabs (fx (c, x2) - fx (x1, x2)) <= k * d).
  { rewrite Rabs_minus_sym. eapply Rle_trans; [apply LX; split; cbn [fst snd]; lra|]. apply Rmult_le_compat_l; [exact Hk|]. apply dist_box; cbn [fst snd].
    - revert Hc. unfold Rmin, Rmax. destruct (Rle_dec x1 y1); intros Hc; unfold Rabs; destruct (Rcase_abs (x1 - c)), (Rcase_abs (x1 - y1)); lra.
    - rewrite Rminus_diag_eq, Rabs_R0 by reflexivity. apply Rabs_pos. }
  assert (B2 : Rabs (fy (y1, e) - fy (x1, x2)) <= k * d).
  { rewrite Rabs_minus_sym. eapply Rle_trans; [apply LY; split; cbn [fst snd]; lra|]. apply Rmult_le_compat_l; [exact Hk|]. apply dist_box; cbn [fst snd]; [apply Rle_refl|].
    revert He. unfold Rmin, Rmax. destruct (Rle_dec x2 y2); intros He; unfold Rabs; destruct (Rcase_abs (x2 - e)), (Rcase_abs (x2 - y2)); lra. }
  eapply Rle_trans; [apply Rabs_triang|]. rewrite !Rabs_mult. assert (Q1 : Rabs (fx (c, x2) - fx (x1, x2)) * Rabs (y1 - x1) <= k * d * d) by (apply Rmult_le_compat; auto using Rabs_pos). assert (Q2 : Rabs (fy (y1, e) - fy (x1, x2)) * Rabs (y2 - x2) <= k * d * d) by (apply Rmult_le_compat; auto using Rabs_pos). lra.
Qed.
