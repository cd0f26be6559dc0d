(** * Theorems on the consistency of the regularized mechanical energies (C112) *)
From Coq Require Import Reals Lra Lia List Psatz ZArith.
From Coquelicot Require Import Coquelicot.
From Verif.Spec Require Import GridSpec QuadSpec BellSpec InterpSpec RefineSpec PotentialSpec.
From Verif.Model Require Import Py Num Tensors Domain Refine Quadrature Integrators Expr Bell Interp Helpers Steps Simulation.
From Verif.Spec Require Import ConvSpec TaylorSpec ConsistSpec ConsistRSpec SimSpec StepSpec EnergySpec MotionSpec.
From Verif.Proofs Require Import Lib GridP StepU StepF StepG StepH InterpP HatP PotP MechV MechP ConvP TameP PerturbP ConsistP StdOrder SimQ.
From Verif.Props Require Import RefineProps IntegProps InterpProps AffineProps ConvProps ConvBellProps ConsistProps.
Local Open Scope R_scope.
Import ListNotations.
Local Notation length := List.length.

Lemma skipn_cons {A} (l : list A) n a : nth_error l n = Some a -> skipn n l = a :: skipn (S n) l.
Proof. revert n. induction l as [|b l IH]; intros [|n] H; try discriminate; [injection H as ->; reflexivity|]. cbn [skipn]. exact (IH n H). Qed.
Lemma jet_samples g f p : length (g_vertices g) = length (g_points g) -> jet_nodal g f p -> C1Interpolation_ g (chunks (num_vertices g) 6 p) = Ok (C1I g (chunks (num_vertices g) 6 p)) /\ samples g (jet f) (chunks (num_vertices g) 6 p).
Proof.
  intros EL [LP SP]. destruct (chunks_ok g None p) as [CL CE]; [unfold num_vertices; lia|]. split.
  - unfold C1Interpolation_. rewrite CL, Nat.eqb_refl. cbn [negb]. assert (E : existsb (fun p => negb (Nat.eqb (length p) 6)) (chunks (num_vertices g) 6 p) = false); [|rewrite E; reflexivity].
    apply Bool.not_true_iff_false. intros H. apply existsb_exists in H as (c & Hc & H). rewrite (CE c Hc) in H. discriminate.
  - intros v x P. pose proof P as P'. unfold point_at in P'. assert (Hv : (v < num_vertices g)%nat) by (unfold num_vertices; rewrite EL; apply nth_error_Some; rewrite P'; discriminate). clear P'.
    unfold chunks. rewrite nth_error_map. unfold range. rewrite (nth_error_nth' _ 0%nat) by (rewrite seq_length; exact Hv). rewrite seq_nth by exact Hv. cbn [option_map Nat.add]. apply f_equal. unfold slice. replace (v * 6)%nat with (6 * v)%nat by lia.
    pose proof (fun i Hi => SP v x i P Hi) as K. unfold jet in *. rewrite (skipn_cons _ _ _ (eq_trans (f_equal (nth_error p) (eq_sym (Nat.add_0_r (6 * v)))) (K 0%nat ltac:(lia)))).
    rewrite (skipn_cons _ (S (6 * v)) _ (eq_trans (f_equal (nth_error p) (ltac:(lia) : S (6 * v) = (6 * v + 1)%nat)) (K 1%nat ltac:(lia)))). rewrite (skipn_cons _ (S (S (6 * v))) _ (eq_trans (f_equal (nth_error p) (ltac:(lia) : S (S (6 * v)) = (6 * v + 2)%nat)) (K 2%nat ltac:(lia)))).
    rewrite (skipn_cons _ (S (S (S (6 * v)))) _ (eq_trans (f_equal (nth_error p) (ltac:(lia) : S (S (S (6 * v))) = (6 * v + 3)%nat)) (K 3%nat ltac:(lia)))). rewrite (skipn_cons _ (S (S (S (S (6 * v))))) _ (eq_trans (f_equal (nth_error p) (ltac:(lia) : S (S (S (S (6 * v)))) = (6 * v + 4)%nat)) (K 4%nat ltac:(lia)))).
    rewrite (skipn_cons _ (S (S (S (S (S (6 * v)))))) _ (eq_trans (f_equal (nth_error p) (ltac:(lia) : S (S (S (S (S (6 * v))))) = (6 * v + 5)%nat)) (K 5%nat ltac:(lia)))). reflexivity.
Qed.

Section Refined.
Context (g : grid R) (s : R) (a b N : nat) (r : refined_grid R) (Hs : 0 < s) (Ha : (1 <= a)%nat) (Hb : (1 <= b)%nat) (M : mesh g s a b) (HN : (1 <= N)%nat) (He : / 10 ^ 15 <= s / INR N) (Rf : refine g (Z.of_nat N) = Ok r) (k : R) (Hk : 0 <= k).
Let D := rectangle (INR a * s) (INR b * s).
Lemma fine_facts : mesh (r_grid r) (s / INR N) (a * N) (b * N) /\ r_coarse r = g /\ 0 < s / INR N /\ INR (a * N) * (s / INR N) = INR a * s /\ INR (b * N) * (s / INR N) = INR b * s.
Proof.
  destruct (C27_refinement_is_fine_mesh g s a b N Hs Ha Hb HN He M) as (r' & Rf' & C & M' & _). rewrite Rf in Rf'. injection Rf' as <-. assert (NP : 0 < INR N) by (apply lt_0_INR; lia). split; [exact M'|]. split; [exact C|]. split; [apply Rdiv_lt_0_compat; assumption|]. rewrite !mult_INR. split; field; lra.
Qed.
Lemma refined_field f y t p q z l x : smooth_on D k f -> jet_nodal g f y -> triangle_at (r_grid r) t p q z -> bary_of p q z l x -> non_negative l ->
  exists gx gy hxx hxy hyy, i_gradient (comp_interp g (Some r) y) t l = Ok (gradient_value gx gy) /\ i_hessian (comp_interp g (Some r) y) t l = Ok (hessian_value hxx hxy hyy) /\
    Rabs (gx - value_at (d_x f) x) <= 120 * k * s ^ 4 /\ Rabs (gy - value_at (d_y f) x) <= 120 * k * s ^ 4 /\
    Rabs (hxx - value_at (d_x (d_x f)) x) <= 960 * k * s ^ 3 /\ Rabs (hxy - value_at (d_y (d_x f)) x) <= 960 * k * s ^ 3 /\ Rabs (hyy - value_at (d_y (d_y f)) x) <= 960 * k * s ^ 3.
Proof.
  intros Sm J T B Nn. destruct fine_facts as (_ & C & _). destruct (C29_same_point g s a b N r t p q z l x Hs Ha Hb HN He M Rf T B) as (T' & P & Q & Z & b' & E & HT & HB & H01). rewrite C in HT.
  assert (N' : non_negative b'). { destruct Nn as (N1 & N2 & N3). destruct B as [S1 _]. destruct (H01 ltac:(lra) ltac:(lra) ltac:(lra)) as (X1 & X2 & X3). repeat split; lra. }
  destruct (jet_samples g f y (mesh_length g s a b M) J) as [CI SS]. destruct (C110_convergence g s a b _ _ f k T' P Q Z b' x Hs M CI SS Sm HT HB N') as (v & gx & gy & hxx & hxy & hyy & _ & EG & EH & _ & G1 & G2 & H1 & H2 & H3). cbv beta zeta in G1, G2, H1, H2, H3.
  exists gx, gy, hxx, hxy, hyy. split; [unfold comp_interp; cbn [i_gradient]; rewrite E; exact EG|]. split; [unfold comp_interp; cbn [i_hessian]; rewrite E; exact EH|]. auto.
Qed.
Lemma refined_strain u1 u2 p1 p2 t p q z l x : smooth_field D k u1 -> smooth_field D k u2 -> jet_nodal g u1 p1 -> jet_nodal g u2 p2 -> triangle_at (r_grid r) t p q z -> bary_of p q z l x -> non_negative l ->
  exists F, deform_strain (comp_interp g (Some r) p1) (comp_interp g (Some r) p2) t l = Ok (mat F) /\ near (120 * k * s ^ 4) F (gradient_of (motion_of u1 u2) x).
Proof.
  intros [S1 _] [S2 _] J1 J2 T B Nn. destruct (refined_field u1 p1 t p q z l x S1 J1 T B Nn) as (gx & gy & ? & ? & ? & E1 & _ & X1 & Y1 & _). destruct (refined_field u2 p2 t p q z l x S2 J2 T B Nn) as (gx' & gy' & ? & ? & ? & E2 & _ & X2 & Y2 & _).
  exists (PotentialSpec.st gx gy gx' gy'). split; [|repeat split; assumption]. unfold deform_strain. rewrite E1. cbn [bind]. rewrite E2. reflexivity.
Qed.
Definition second (f : R -> R -> R) (x : R * R) : strain2 := PotentialSpec.st (value_at (d_x (d_x f)) x) (value_at (d_y (d_x f)) x) (value_at (d_y (d_x f)) x) (value_at (d_y (d_y f)) x).
Lemma refined_hyper u1 u2 p1 p2 t p q z l x : smooth_field D k u1 -> smooth_field D k u2 -> jet_nodal g u1 p1 -> jet_nodal g u2 p2 -> triangle_at (r_grid r) t p q z -> bary_of p q z l x -> non_negative l ->
  exists F G, (let* h := deform_hyper_strain (comp_interp g (Some r) p1) (comp_interp g (Some r) p2) t l in Ok (hyper_elastic_potential h)) = Ok (sqrt (norm2 F + norm2 G) ^ 3) /\
    near (960 * k * s ^ 3) F (second u1 x) /\ near (960 * k * s ^ 3) G (second u2 x).
Proof.
  intros [S1 _] [S2 _] J1 J2 T B Nn. destruct (refined_field u1 p1 t p q z l x S1 J1 T B Nn) as (? & ? & hxx & hxy & hyy & _ & E1 & _ & _ & A1 & A2 & A3). destruct (refined_field u2 p2 t p q z l x S2 J2 T B Nn) as (? & ? & hxx' & hxy' & hyy' & _ & E2 & _ & _ & B1 & B2 & B3).
  exists (PotentialSpec.st hxx hxy hxy hyy), (PotentialSpec.st hxx' hxy' hxy' hyy'). split; [|split; repeat split; assumption]. unfold deform_hyper_strain. rewrite E1. cbn [bind]. rewrite E2. cbn [bind]. rewrite stack_value. cbn [bind]. rewrite hyper_value. apply (f_equal (fun x => Ok (sqrt x ^ 3))). unfold norm2, PotentialSpec.st. cbn [f11 f12 f21 f22]. ring.
Qed.
End Refined.
Lemma smooth_at D k f G x : smooth_field D k f -> In G [d_x f; d_y f; d_x (d_x f); d_y (d_x f); d_y (d_y f)] -> D x -> Rabs (value_at G x) <= k.
Proof. intros [_ H] HG. apply (H G HG). Qed.
Lemma smooth_lip D k f G x y : smooth_field D k f -> In G [d_x f; d_y f; d_x (d_x f); d_y (d_x f); d_y (d_y f)] -> D x -> D y -> Rabs (value_at G x - value_at G y) <= k * dist x y.
Proof. intros [_ H] HG. apply (H G HG). Qed.
Ltac inlist := cbn [In]; tauto.
Lemma smooth_bounded D k u1 u2 x : smooth_field D k u1 -> smooth_field D k u2 -> D x -> bounded k (gradient_of (motion_of u1 u2) x).
Proof. intros S1 S2 Hx. split; [apply (smooth_at D k u1 _ x S1); [inlist|exact Hx]|]. split; [apply (smooth_at D k u1 _ x S1); [inlist|exact Hx]|]. split; [apply (smooth_at D k u2 _ x S2); [inlist|exact Hx]|apply (smooth_at D k u2 _ x S2); [inlist|exact Hx]]. Qed.
Lemma smooth_gap D k u1 u2 x y : smooth_field D k u1 -> smooth_field D k u2 -> D x -> D y -> gapF (gradient_of (motion_of u1 u2) x) (gradient_of (motion_of u1 u2) y) <= 4 * k * dist x y.
Proof.
  intros S1 S2 Hx Hy. unfold gapF, gradient_of, motion_of, PotentialSpec.st. cbn [f11 f12 f21 f22 m1x m1y m2x m2y].
  pose proof (smooth_lip D k u1 (d_x u1) x y S1 ltac:(inlist) Hx Hy). pose proof (smooth_lip D k u1 (d_y u1) x y S1 ltac:(inlist) Hx Hy). pose proof (smooth_lip D k u2 (d_x u2) x y S2 ltac:(inlist) Hx Hy). pose proof (smooth_lip D k u2 (d_y u2) x y S2 ltac:(inlist) Hx Hy). lra.
Qed.
Lemma second_bounded D k u x : smooth_field D k u -> D x -> bounded k (second u x).
Proof. intros S1 Hx. split; [apply (smooth_at D k u _ x S1); [inlist|exact Hx]|]. split; [apply (smooth_at D k u _ x S1); [inlist|exact Hx]|]. split; [apply (smooth_at D k u _ x S1); [inlist|exact Hx]|apply (smooth_at D k u _ x S1); [inlist|exact Hx]]. Qed.
Lemma second_gap D k u x y : smooth_field D k u -> D x -> D y -> gapF (second u x) (second u y) <= 4 * k * dist x y.
Proof.
  intros S1 Hx Hy. unfold gapF, second, PotentialSpec.st. cbn [f11 f12 f21 f22].
  pose proof (smooth_lip D k u (d_x (d_x u)) x y S1 ltac:(inlist) Hx Hy). pose proof (smooth_lip D k u (d_y (d_x u)) x y S1 ltac:(inlist) Hx Hy). pose proof (smooth_lip D k u (d_y (d_y u)) x y S1 ltac:(inlist) Hx Hy). lra.
Qed.
Lemma pow_small s n : 0 <= s <= 1 -> 0 <= s ^ S n <= s.
Proof. intros Hs. induction n as [|n [IH0 IH]]; [cbn; lra|]. split; [apply pow_le, Hs|]. change (s ^ S (S n)) with (s * s ^ S n). nra. Qed.
Lemma tame_hyper k : tame gapFF (strains_set k) (fun p => sqrt (norm2 (fst p) + norm2 (snd p)) ^ 3).
Proof.
  set (K := strains_set k). set (G := gapFF). pose proof gapFF_pos as GP. fold G in GP. apply (tame_cube G K GP (fun p => norm2 (fst p) + norm2 (snd p))).
  - intros p _. unfold norm2. pose proof (Rle_0_sqr (f11 (fst p))). pose proof (Rle_0_sqr (f12 (fst p))). pose proof (Rle_0_sqr (f21 (fst p))). pose proof (Rle_0_sqr (f22 (fst p))). pose proof (Rle_0_sqr (f11 (snd p))). pose proof (Rle_0_sqr (f12 (snd p))). pose proof (Rle_0_sqr (f21 (snd p))). pose proof (Rle_0_sqr (f22 (snd p))). unfold Rsqr in *. lra.
  - apply (tame_plus G K); [apply (tame_norm2 G GP K fst k)|apply (tame_norm2 G GP K snd k)]; try (intros x Hx; apply Hx); intros x y; unfold G, gapFF; pose proof (gapF_pos (fst x) (fst y)); pose proof (gapF_pos (snd x) (snd y)); lra.
Qed.

(** ** C112 *)
(** Regularized problem: interpolations of polynomial degree five on a grid with cells of side [s], energies and temperature on its refinement with cells of side [s / N]. The
    energies computed from the nodal values of a smooth deformation and temperature differ from the continuum energies by at most a constant times [s^4] (second derivatives:
    [s^3]) plus a constant times [s / N], plus a relative error of 1e-14 (the weights of the quadrature rule are rounded to 15 digits). *)

Lemma rectangle_integral_ext w h f f' : (forall x y, f x y = f' x y) -> rectangle_integral w h f = rectangle_integral w h f'.
Proof. intros H. unfold rectangle_integral. apply RInt_ext. intros x _. apply RInt_ext. intros y _. apply H. Qed.
Lemma dunavant5 : exists q, DUNAVANT5 = Ok q /\ In (Ok q) [CENTROID; VERTEX; DUNAVANT2; DUNAVANT3; DUNAVANT4; DUNAVANT5].
Proof. destruct dun5_good as (q & E & _). exists q. split; [exact E|]. rewrite E. cbn [In]. tauto. Qed.
Section Whole.
Context (m : mech) (r : refined_grid R) (s : R) (a b N : nat) (RG : regularized m r s a b N).
Lemma reg_parts : 0 < s /\ (1 <= a)%nat /\ (1 <= b)%nat /\ mesh (ms_grid m) s a b /\ (1 <= N)%nat /\ / 10 ^ 15 <= s / INR N /\ refine (ms_grid m) (Z.of_nat N) = Ok r /\
  mesh (r_grid r) (s / INR N) (a * N) (b * N) /\ 0 < s / INR N /\ INR (a * N) * (s / INR N) = INR a * s /\ INR (b * N) * (s / INR N) = INR b * s /\ (1 <= a * N)%nat /\ (1 <= b * N)%nat.
Proof.
  destruct RG as (_ & PG & HN & He & Rf). destruct (problem_good _ _ _ _ _ PG) as (Hs & Ha & Hb & M & _). destruct (fine_facts _ s a b N r Hs Ha Hb M HN He Rf) as (M' & _ & H1 & H2 & H3). repeat (split; [assumption|]). split; nia.
Qed.
End Whole.
Lemma fine_enough k d s : 0 <= k -> 0 < d -> s <= Rmin 1 d / (960 * (k + 1) ^ 2) -> s <= 1 /\ 80 * s <= fine k d.
Proof.
  intros Hk Hd H. assert (K1 : 1 <= (k + 1) * (k + 1)) by nra. assert (E : fine k d = 80 * (Rmin 1 d / (960 * (k + 1) ^ 2))) by (unfold fine; field; lra). split; [|lra]. eapply Rle_trans; [exact H|]. pose proof (Rmin_l 1 d).
  apply Rle_trans with (1 / (960 * (k + 1) ^ 2)); [apply Rmult_le_compat_r; [left; apply Rinv_0_lt_compat; cbn [pow]; lra|lra]|]. apply Rmult_le_reg_r with (960 * (k + 1) ^ 2); [cbn [pow]; lra|]. replace (1 / (960 * (k + 1) ^ 2) * (960 * (k + 1) ^ 2)) with 1 by (field; lra). cbn [pow]. lra.
Qed.
(** Elastic energy. *)
Theorem C112_elastic_energy : forall w h k d, 0 <= k -> 0 < d -> exists C, forall m r s a b N u1 u2 theta p1 p2,
  s <= Rmin 1 d / (960 * (k + 1) ^ 2) -> regularized m r s a b N -> INR a * s = w -> INR b * s = h ->
  smooth_field (rectangle w h) k u1 -> smooth_field (rectangle w h) k u2 -> regular_temperature (rectangle w h) k theta -> (forall x, rectangle w h x -> d <= det2 (gradient_of (motion_of u1 u2) x)) ->
  jet_nodal (ms_grid m) u1 p1 -> jet_nodal (ms_grid m) u2 p2 -> nodal (r_grid r) theta (ms_prev_theta m) ->
  let J := elastic_energy w h (motion_of u1 u2) theta in
  exists E, mech_elastic_energy m p1 p2 = Ok E /\ Rabs (E - J) <= C * (s ^ 4 + s / INR N) + 1 / 10 ^ 14 * Rabs J.
Proof.
  intros w h k d Hk Hd. destruct (tame_elastic (k + 1) (d / 2) ltac:(lra)) as (B & L & B0 & L0 & _ & HL). pose proof (fine_pos k d Hk Hd) as F0.
  exists (L * (1020 * k) * (w * h)).
  intros m r s a b N u1 u2 theta p1 p2 Hss RG Ew Eh R1 R2 RT HD N1 N2 NT J. destruct (reg_parts m r s a b N RG) as (Hs & Ha & Hb & M & HN & He & Rf & M' & Hs' & EA & EB & Ha' & Hb'). destruct RG as (NR & _).
  subst w h. destruct (fine_enough k d s Hk Hd Hss) as [S1 SF].
  destruct (pow_small s 3 ltac:(lra)) as [Q0 Q1]. assert (W0 : 0 <= INR a * s * (INR b * s)) by (apply Rmult_le_pos; apply Rmult_le_pos; try apply pos_INR; lra).
  unfold mech_elastic_energy. rewrite NR. cbn [theta_grid]. destruct dunavant5 as (q & EQ & IQ). rewrite EQ. cbn [bind].
  destruct (integrator_exists _ _ _ _ q M') as [I HI]. rewrite HI. cbn [bind]. set (s' := s / INR N) in *.
  assert (e0 : 0 <= 480 * k * s ^ 4 + 3 / 2 * k * s') by (apply Rplus_le_le_0_compat; apply Rmult_le_pos; lra).
  destruct (density_rounded gapFt (elastic_set (k + 1) (d / 2)) (fun p => value (total_elastic_potential (mat (fst p)) (snd p))) L (5 * k) (480 * k * s ^ 4 + 3 / 2 * k * s') L0 e0 (fun x => (gradient_of (motion_of u1 u2) x, theta x)) HL (r_grid r) s' (a * N) (b * N) Hs' Ha' Hb' M' q I HI) with
    (F := fun t l => let* F := deform_strain (comp_interp (ms_grid m) (Some r) p1) (comp_interp (ms_grid m) (Some r) p2) t l in let* th := i_call (temp_interp (ms_grid m) (Some r) (ms_prev_theta m)) t l in total_elastic_potential F th) as (E & EE & BE).
  - intros x Hx. rewrite EA, EB in Hx. destruct (smooth_bounded _ _ _ _ _ R1 R2 Hx) as (A1 & A2 & A3 & A4). split; [cbn [fst]; repeat split; lra|]. split; [cbn [fst]; specialize (HD x Hx); lra|]. apply RT, Hx.
  - intros x y Hx Hy. rewrite EA, EB in Hx, Hy. unfold gapFt. cbn [fst snd]. pose proof (smooth_gap _ _ _ _ _ _ R1 R2 Hx Hy). pose proof (proj1 RT x y Hx Hy). lra.
  - intros t p c z l x T Bx Nn. destruct (refined_strain _ s a b N r Hs Ha Hb M HN He Rf k u1 u2 p1 p2 t p c z l x R1 R2 N1 N2 T Bx Nn) as (F & EF & NF).
    pose proof RT as RT'. rewrite <- EA, <- EB in RT'. destruct (plain_temp _ s' (a * N) (b * N) Hs' M' k Hk theta _ t p c z l x RT' NT T Bx Nn) as (v & Ev & Nv & Pv).
    destruct (mesh_corners _ s' _ _ t p c z Hs' M' T) as (Dp & Dc & Dr). pose proof (rectangle_convex _ _ _ _ _ _ _ Dp Dc Dr Bx Nn) as Dx. rewrite EA, EB in Dx.
    assert (k4 : 0 <= 120 * k * s ^ 4) by (apply Rmult_le_pos; lra). assert (k5 : 120 * k * s ^ 4 <= 3 / 2 * k * (80 * s)) by (replace (3 / 2 * k * (80 * s)) with (120 * k * s) by field; apply Rmult_le_compat_l; lra).
    destruct (det_keeps k d (80 * s) _ F _ Hk Hd ltac:(lra) (conj k4 k5) (smooth_bounded _ _ _ _ _ R1 R2 Dx) (HD x Dx) NF) as [BF DF].
    exists (F, v). split; [split; [exact BF|split; [exact DF|exact Pv]]|]. split.
    + rewrite EF. cbn [bind]. change (i_call (temp_interp (ms_grid m) (Some r) (ms_prev_theta m)) t l) with (i_call (temp_interp (r_grid r) None (ms_prev_theta m)) t l). rewrite Ev. cbn [bind fst snd]. rewrite elastic_value by lra. reflexivity.
    + unfold gapFt. cbn [fst snd]. pose proof (near_gap _ _ _ NF). lra.
  - exact IQ.
  - exists E. split; [exact EE|]. rewrite EA, EB in BE. cbn [fst snd] in BE. eapply Rle_trans; [exact BE|]. unfold J, elastic_energy. apply Rplus_le_compat_r.
    replace (L * (1020 * k) * (INR a * s * (INR b * s)) * (s ^ 4 + s')) with (L * (1020 * k * (s ^ 4 + s')) * (INR a * s * (INR b * s))) by ring. apply Rmult_le_compat_r; [exact W0|]. apply Rmult_le_compat_l; [exact L0|]. assert (0 <= k * s') by (apply Rmult_le_pos; lra). lra.
Qed.
Print Assumptions C112_elastic_energy.
(** The dissipation from the previous deformation [u] to [v]. *)
Theorem C112_dissipation : forall w h k, 0 <= k -> exists C, forall m r s a b N u1 u2 v1 v2 p1 p2,
  s <= 1 -> regularized m r s a b N -> INR a * s = w -> INR b * s = h ->
  smooth_field (rectangle w h) k u1 -> smooth_field (rectangle w h) k u2 -> smooth_field (rectangle w h) k v1 -> smooth_field (rectangle w h) k v2 ->
  jet_nodal (ms_grid m) u1 (ms_prev_y1 m) -> jet_nodal (ms_grid m) u2 (ms_prev_y2 m) -> jet_nodal (ms_grid m) v1 p1 -> jet_nodal (ms_grid m) v2 p2 ->
  let J := dissipated w h (motion_of u1 u2) (motion_of v1 v2) in
  exists E, mech_dissipation m p1 p2 = Ok E /\ Rabs (E - J) <= C * (s ^ 4 + s / INR N) + 1 / 10 ^ 14 * Rabs J.
Proof.
  intros w h k Hk. destruct (tame_dissipation (k + 120 * k)) as (B & L & B0 & L0 & _ & HL). exists (L * (2040 * k) * (w * h)).
  intros m r s a b N u1 u2 v1 v2 p1 p2 S1 RG Ew Eh R1 R2 V1 V2 U1 U2 N1 N2 J. destruct (reg_parts m r s a b N RG) as (Hs & Ha & Hb & M & HN & He & Rf & M' & Hs' & EA & EB & Ha' & Hb'). destruct RG as (NR & _).
  subst w h. destruct (pow_small s 3 ltac:(lra)) as [Q0 Q1]. assert (W0 : 0 <= INR a * s * (INR b * s)) by (apply Rmult_le_pos; apply Rmult_le_pos; try apply pos_INR; lra).
  unfold mech_dissipation. rewrite NR. cbn [theta_grid]. destruct dunavant5 as (q & EQ & IQ). rewrite EQ. cbn [bind].
  destruct (integrator_exists _ _ _ _ q M') as [I HI]. rewrite HI. cbn [bind]. set (s' := s / INR N) in *. assert (e0 : 0 <= 960 * k * s ^ 4) by (apply Rmult_le_pos; lra).
  destruct (density_rounded gapFF (strains_set (k + 120 * k)) (fun p => value (dissipation_potential (mat (fst p)) (mat (snd p)))) L (8 * k) (960 * k * s ^ 4) L0 e0 (fun x => (gradient_of (motion_of u1 u2) x, gradient_of (motion_of v1 v2) x)) HL (r_grid r) s' (a * N) (b * N) Hs' Ha' Hb' M' q I HI) with
    (F := fun t l => let* F0 := deform_strain (comp_interp (ms_grid m) (Some r) (ms_prev_y1 m)) (comp_interp (ms_grid m) (Some r) (ms_prev_y2 m)) t l in let* F := deform_strain (comp_interp (ms_grid m) (Some r) p1) (comp_interp (ms_grid m) (Some r) p2) t l in dissipation_potential F0 F) as (E & EE & BE).
  - intros x Hx. rewrite EA, EB in Hx. destruct (smooth_bounded _ _ _ _ _ R1 R2 Hx) as (A1 & A2 & A3 & A4). destruct (smooth_bounded _ _ _ _ _ V1 V2 Hx) as (B1 & B2 & B3 & B4). split; cbn [fst snd]; repeat split; lra.
  - intros x y Hx Hy. rewrite EA, EB in Hx, Hy. unfold gapFF. cbn [fst snd]. pose proof (smooth_gap _ _ _ _ _ _ R1 R2 Hx Hy). pose proof (smooth_gap _ _ _ _ _ _ V1 V2 Hx Hy). lra.
  - intros t p c z l x T Bx Nn. destruct (refined_strain _ s a b N r Hs Ha Hb M HN He Rf k u1 u2 _ _ t p c z l x R1 R2 U1 U2 T Bx Nn) as (F & EF & NF). destruct (refined_strain _ s a b N r Hs Ha Hb M HN He Rf k v1 v2 p1 p2 t p c z l x V1 V2 N1 N2 T Bx Nn) as (F' & EF' & NF').
    destruct (mesh_corners _ s' _ _ t p c z Hs' M' T) as (Dp & Dc & Dr). pose proof (rectangle_convex _ _ _ _ _ _ _ Dp Dc Dr Bx Nn) as Dx. rewrite EA, EB in Dx. assert (k5 : 120 * k * s ^ 4 <= 120 * k) by (rewrite <- (Rmult_1_r (120 * k)) at 2; apply Rmult_le_compat_l; lra).
    destruct (bounded_near _ _ _ _ (smooth_bounded _ _ _ _ _ R1 R2 Dx) NF) as (A1 & A2 & A3 & A4). destruct (bounded_near _ _ _ _ (smooth_bounded _ _ _ _ _ V1 V2 Dx) NF') as (B1 & B2 & B3 & B4).
    exists (F, F'). split; [split; cbn [fst snd]; repeat split; lra|]. split.
    + rewrite EF. cbn [bind]. rewrite EF'. cbn [bind fst snd]. rewrite dis_value. reflexivity.
    + unfold gapFF. cbn [fst snd]. pose proof (near_gap _ _ _ NF). pose proof (near_gap _ _ _ NF'). lra.
  - exact IQ.
  - exists E. split; [exact EE|]. rewrite EA, EB in BE. cbn [fst snd] in BE. eapply Rle_trans; [exact BE|]. unfold J, dissipated. apply Rplus_le_compat_r.
    replace (L * (2040 * k) * (INR a * s * (INR b * s)) * (s ^ 4 + s')) with (L * (2040 * k * (s ^ 4 + s')) * (INR a * s * (INR b * s))) by ring. apply Rmult_le_compat_r; [exact W0|]. apply Rmult_le_compat_l; [exact L0|]. assert (0 <= k * s') by (apply Rmult_le_pos; lra). lra.
Qed.
Print Assumptions C112_dissipation.
(** The hyper-elastic energy. *)
Theorem C112_hyper_elastic_energy : forall w h k, 0 <= k -> exists C, forall m r s a b N u1 u2 p1 p2,
  s <= 1 -> regularized m r s a b N -> INR a * s = w -> INR b * s = h ->
  smooth_field (rectangle w h) k u1 -> smooth_field (rectangle w h) k u2 -> jet_nodal (ms_grid m) u1 p1 -> jet_nodal (ms_grid m) u2 p2 ->
  let J := hyper_energy w h u1 u2 in
  exists E, mech_hyper_elastic_energy m p1 p2 = Ok E /\ Rabs (E - J) <= C * (s ^ 3 + s / INR N) + 1 / 10 ^ 14 * Rabs J.
Proof.
  intros w h k Hk. destruct (tame_hyper (k + 960 * k)) as (B & L & B0 & L0 & _ & HL). exists (L * (16320 * k) * (w * h)).
  intros m r s a b N u1 u2 p1 p2 S1 RG Ew Eh R1 R2 N1 N2 J. destruct (reg_parts m r s a b N RG) as (Hs & Ha & Hb & M & HN & He & Rf & M' & Hs' & EA & EB & Ha' & Hb'). destruct RG as (NR & _).
  subst w h. destruct (pow_small s 2 ltac:(lra)) as [Q0 Q1]. assert (W0 : 0 <= INR a * s * (INR b * s)) by (apply Rmult_le_pos; apply Rmult_le_pos; try apply pos_INR; lra).
  unfold mech_hyper_elastic_energy. rewrite NR. cbn [theta_grid]. destruct dunavant5 as (q & EQ & IQ). rewrite EQ. cbn [bind].
  destruct (integrator_exists _ _ _ _ q M') as [I HI]. rewrite HI. cbn [bind]. set (s' := s / INR N) in *. assert (e0 : 0 <= 7680 * k * s ^ 3) by (apply Rmult_le_pos; lra).
  destruct (density_rounded gapFF (strains_set (k + 960 * k)) (fun p => sqrt (norm2 (fst p) + norm2 (snd p)) ^ 3) L (8 * k) (7680 * k * s ^ 3) L0 e0 (fun x => (second u1 x, second u2 x)) HL (r_grid r) s' (a * N) (b * N) Hs' Ha' Hb' M' q I HI) with
    (F := fun t l => let* x := deform_hyper_strain (comp_interp (ms_grid m) (Some r) p1) (comp_interp (ms_grid m) (Some r) p2) t l in Ok (hyper_elastic_potential x)) as (E & EE & BE).
  - intros x Hx. rewrite EA, EB in Hx. destruct (second_bounded _ _ _ _ R1 Hx) as (A1 & A2 & A3 & A4). destruct (second_bounded _ _ _ _ R2 Hx) as (B1 & B2 & B3 & B4). split; cbn [fst snd]; repeat split; lra.
  - intros x y Hx Hy. rewrite EA, EB in Hx, Hy. unfold gapFF. cbn [fst snd]. pose proof (second_gap _ _ _ _ _ R1 Hx Hy). pose proof (second_gap _ _ _ _ _ R2 Hx Hy). lra.
  - intros t p c z l x T Bx Nn. destruct (refined_hyper _ s a b N r Hs Ha Hb M HN He Rf k u1 u2 p1 p2 t p c z l x R1 R2 N1 N2 T Bx Nn) as (F & F' & EF & NF & NF').
    destruct (mesh_corners _ s' _ _ t p c z Hs' M' T) as (Dp & Dc & Dr). pose proof (rectangle_convex _ _ _ _ _ _ _ Dp Dc Dr Bx Nn) as Dx. rewrite EA, EB in Dx. assert (k5 : 960 * k * s ^ 3 <= 960 * k) by (rewrite <- (Rmult_1_r (960 * k)) at 2; apply Rmult_le_compat_l; lra).
    destruct (bounded_near _ _ _ _ (second_bounded _ _ _ _ R1 Dx) NF) as (A1 & A2 & A3 & A4). destruct (bounded_near _ _ _ _ (second_bounded _ _ _ _ R2 Dx) NF') as (B1 & B2 & B3 & B4).
    exists (F, F'). split; [split; cbn [fst snd]; repeat split; lra|]. split; [exact EF|]. unfold gapFF. cbn [fst snd]. pose proof (near_gap _ _ _ NF). pose proof (near_gap _ _ _ NF'). lra.
  - exact IQ.
  - exists E. split; [exact EE|]. rewrite EA, EB in BE. cbn [fst snd] in BE. set (J' := rectangle_integral (INR a * s) (INR b * s) (fun x y : R => sqrt (norm2 (second u1 (x, y)) + norm2 (second u2 (x, y))) ^ 3)) in BE. assert (EJ : J = J').
    { unfold J, J', hyper_energy. apply rectangle_integral_ext. intros x y. apply (f_equal (fun z => sqrt z ^ 3)). unfold hessian_square, norm2, second, value_at, PotentialSpec.st. cbn [f11 f12 f21 f22 fst snd]. ring. }
    rewrite EJ. eapply Rle_trans; [exact BE|]. apply Rplus_le_compat_r.
    replace (L * (16320 * k) * (INR a * s * (INR b * s)) * (s ^ 3 + s')) with (L * (16320 * k * (s ^ 3 + s')) * (INR a * s * (INR b * s))) by ring. apply Rmult_le_compat_r; [exact W0|]. apply Rmult_le_compat_l; [exact L0|]. assert (0 <= k * s') by (apply Rmult_le_pos; lra). lra.
Qed.
Print Assumptions C112_hyper_elastic_energy.
(** The objective that is minimized. *)
Lemma times_small c C e x : 0 <= x -> e <= C * x -> Rabs c * e <= Rabs c * Rabs C * x.
Proof. intros Hx H. rewrite Rmult_assoc. apply Rmult_le_compat_l; [apply Rabs_pos|]. eapply Rle_trans; [exact H|]. apply Rmult_le_compat_r; [exact Hx|apply Rle_abs]. Qed.
Theorem C112_objective : forall w h k d, 0 <= k -> 0 < d -> exists C, forall lg m r s a b N u1 u2 v1 v2 theta p1 p2,
  s <= Rmin 1 d / (960 * (k + 1) ^ 2) -> regularized m r s a b N -> INR a * s = w -> INR b * s = h ->
  smooth_field (rectangle w h) k u1 -> smooth_field (rectangle w h) k u2 -> smooth_field (rectangle w h) k v1 -> smooth_field (rectangle w h) k v2 ->
  regular_temperature (rectangle w h) k theta -> (forall x, rectangle w h x -> d <= det2 (gradient_of (motion_of v1 v2) x)) ->
  jet_nodal (ms_grid m) u1 (ms_prev_y1 m) -> jet_nodal (ms_grid m) u2 (ms_prev_y2 m) -> nodal (r_grid r) theta (ms_prev_theta m) -> jet_nodal (ms_grid m) v1 p1 -> jet_nodal (ms_grid m) v2 p2 ->
  let JE := elastic_energy w h (motion_of v1 v2) theta in let JH := ms_reg m * hyper_energy w h v1 v2 in let JD := ms_fps m * dissipated w h (motion_of u1 u2) (motion_of v1 v2) in
  exists J, mech_objective lg m p1 p2 = Ok J /\
    Rabs (J - (JE + JH + JD)) <= C * (1 + Rabs (ms_reg m) + Rabs (ms_fps m)) * (s ^ 3 + s / INR N) + 1 / 10 ^ 14 * (Rabs JE + Rabs JH + Rabs JD).
Proof.
  intros w h k d Hk Hd. destruct (C112_elastic_energy w h k d Hk Hd) as (C1 & T1). destruct (C112_hyper_elastic_energy w h k Hk) as (C2 & T2). destruct (C112_dissipation w h k Hk) as (C3 & T3).
  exists (Rabs C1 + Rabs C2 + Rabs C3). intros lg m r s a b N u1 u2 v1 v2 theta p1 p2 Hss RG Ew Eh U1 U2 V1 V2 RT HD P1 P2 PT N1 N2 JE JH JD.
  destruct (fine_enough k d s Hk Hd Hss) as [S1 _]. pose proof Hss as S2.
  destruct (T1 m r s a b N v1 v2 theta p1 p2 S2 RG Ew Eh V1 V2 RT HD N1 N2 PT) as (E & EE & BE). destruct (T2 m r s a b N v1 v2 p1 p2 S1 RG Ew Eh V1 V2 N1 N2) as (H & EH & BH). destruct (T3 m r s a b N u1 u2 v1 v2 p1 p2 S1 RG Ew Eh U1 U2 V1 V2 P1 P2 N1 N2) as (D & ED & BD). cbv zeta in BE, BH, BD.
  exists (E + ms_reg m * H + ms_fps m * D). split; [unfold mech_objective; rewrite EE; cbn [bind]; rewrite (proj1 RG), EH; cbn [bind]; rewrite ED; reflexivity|].
  destruct (reg_parts m r s a b N RG) as (Hs & _ & _ & _ & _ & _ & _ & _ & Hs' & _). set (s' := s / INR N) in *. destruct (pow_small s 2 ltac:(lra)) as [Q0 Q1]. assert (Q4 : s ^ 4 <= s ^ 3) by (change (s ^ 4) with (s * s ^ 3); nra). clear T1 T2 T3.
  set (x := s ^ 3 + s') in *. assert (X0 : 0 <= x) by (unfold x; lra). assert (A : forall C, C * (s ^ 4 + s') <= Rabs C * x). { intros C. apply Rle_trans with (Rabs C * (s ^ 4 + s')); [apply Rmult_le_compat_r; [|apply Rle_abs]; pose proof (pow_le s 4 ltac:(lra)); lra|]. apply Rmult_le_compat_l; [apply Rabs_pos|unfold x; lra]. }
  fold JE in BE. set (H0 := hyper_energy w h v1 v2) in *. set (D0 := dissipated w h (motion_of u1 u2) (motion_of v1 v2)) in *.
  replace (E + ms_reg m * H + ms_fps m * D - (JE + JH + JD)) with ((E - JE) + ms_reg m * (H - H0) + ms_fps m * (D - D0)) by (unfold JH, JD; ring).
  set (rr := Rabs (ms_reg m)). set (ff := Rabs (ms_fps m)). assert (r0 : 0 <= rr) by apply Rabs_pos. assert (f0 : 0 <= ff) by apply Rabs_pos.
  assert (TH : Rabs ((E - JE) + ms_reg m * (H - H0) + ms_fps m * (D - D0)) <= Rabs (E - JE) + rr * Rabs (H - H0) + ff * Rabs (D - D0)). { eapply Rle_trans; [apply Rabs_triang|]. rewrite Rabs_mult. apply Rplus_le_compat_r. eapply Rle_trans; [apply Rabs_triang|]. rewrite Rabs_mult. apply Rle_refl. }
  assert (BH' : rr * Rabs (H - H0) <= rr * (Rabs C2 * x) + 1 / 10 ^ 14 * Rabs JH). { unfold JH. rewrite Rabs_mult. fold rr. replace (rr * (Rabs C2 * x) + 1 / 10 ^ 14 * (rr * Rabs H0)) with (rr * (Rabs C2 * x + 1 / 10 ^ 14 * Rabs H0)) by ring. apply Rmult_le_compat_l; [exact r0|]. eapply Rle_trans; [exact BH|]. apply Rplus_le_compat_r, Rmult_le_compat_r; [exact X0|apply Rle_abs]. }
  assert (BD' : ff * Rabs (D - D0) <= ff * (Rabs C3 * x) + 1 / 10 ^ 14 * Rabs JD). { unfold JD. rewrite Rabs_mult. fold ff. replace (ff * (Rabs C3 * x) + 1 / 10 ^ 14 * (ff * Rabs D0)) with (ff * (Rabs C3 * x + 1 / 10 ^ 14 * Rabs D0)) by ring. apply Rmult_le_compat_l; [exact f0|]. eapply Rle_trans; [exact BD|]. apply Rplus_le_compat_r, A. }
  specialize (A C1). assert (p1' : 0 <= Rabs C1 * x) by (apply Rmult_le_pos; [apply Rabs_pos|exact X0]). assert (p2' : 0 <= Rabs C2 * x) by (apply Rmult_le_pos; [apply Rabs_pos|exact X0]). assert (p3' : 0 <= Rabs C3 * x) by (apply Rmult_le_pos; [apply Rabs_pos|exact X0]).
  eapply Rle_trans; [exact TH|]. set (z1 := Rabs C1 * x) in *. set (z2 := Rabs C2 * x) in *. set (z3 := Rabs C3 * x) in *. replace ((Rabs C1 + Rabs C2 + Rabs C3) * (1 + rr + ff) * x) with (z1 * (1 + rr + ff) + z2 * (1 + rr + ff) + z3 * (1 + rr + ff)) by (unfold z1, z2, z3; ring).
  pose proof (Rmult_le_pos _ _ p1' r0). pose proof (Rmult_le_pos _ _ p1' f0). pose proof (Rmult_le_pos _ _ p2' f0). pose proof (Rmult_le_pos _ _ p3' r0). lra.
Qed.
Print Assumptions C112_objective.
(** What C112 asks of the components holds for functions with bounded derivatives up to order five. *)
Theorem C112_bounded_derivatives : forall w h k f d, 0 <= k -> five_derivatives (rectangle w h) k f d ->
  (forall i j x, (1 <= i + j <= 3)%nat -> rectangle w h x -> Rabs (value_at (d i j) x) <= k) -> smooth_field (rectangle w h) (6 * k) f.
Proof.
  intros w h k f d Hk FD HB. pose proof FD as (E0 & HP & _). split; [exact (C110_bounded_derivatives w h k f d FD)|].
  assert (DX : forall f' i j, (i + j <= 4)%nat -> (forall a b, f' a b = d i j a b) -> forall a b, d_x f' a b = d (S i) j a b). { intros f' i j Hij Ef a b. unfold d_x. rewrite (Derive_ext _ (fun s => d i j s b)) by (intros; apply Ef). apply is_derive_unique, (HP i j Hij a b). }
  assert (DY : forall f' i j, (i + j <= 4)%nat -> (forall a b, f' a b = d i j a b) -> forall a b, d_y f' a b = d i (S j) a b). { intros f' i j Hij Ef a b. unfold d_y. rewrite (Derive_ext _ (fun s => d i j a s)) by (intros; apply Ef). apply is_derive_unique, (HP i j Hij a b). }
  assert (Z : forall a b, f a b = d 0%nat 0%nat a b) by (intros; rewrite E0; reflexivity).
  assert (A : forall G i j, (1 <= i + j <= 2)%nat -> (forall a b, G a b = d i j a b) -> lipschitz_on (rectangle w h) (6 * k) (value_at G) /\ forall x, rectangle w h x -> Rabs (value_at G x) <= 6 * k).
  { intros G i j Hij EG. split.
    - intros [x1 x2] [y1 y2] Hx Hy. unfold value_at. cbn [fst snd]. rewrite !EG. pose proof (proj1 Hx) as X1. pose proof (proj2 Hx) as X2. pose proof (proj1 Hy) as Y1. pose proof (proj2 Hy) as Y2. cbn [fst snd] in X1, X2, Y1, Y2.
      destruct (mvt1 (fun s => d i j s x2) (fun s => d (S i) j s x2) y1 x1) as (c & Hc & EC); [intros t _; apply (HP i j ltac:(lia) t x2)|]. destruct (mvt1 (fun s => d i j y1 s) (fun s => d i (S j) y1 s) y2 x2) as (e & He & EE); [intros t _; apply (HP i j ltac:(lia) y1 t)|]. cbv beta in EC, EE.
      assert (RC : 0 <= c <= w) by (revert Hc; unfold Rmin, Rmax; destruct (Rle_dec y1 x1); lra). assert (RE : 0 <= e <= h) by (revert He; unfold Rmin, Rmax; destruct (Rle_dec y2 x2); lra).
      pose proof (HB (S i) j (c, x2) ltac:(lia) (conj RC X2)) as B1. pose proof (HB i (S j) (y1, e) ltac:(lia) (conj Y1 RE)) as B2. unfold value_at in B1, B2. cbn [fst snd] in B1, B2.
      replace (d i j x1 x2 - d i j y1 y2) with (d (S i) j c x2 * (x1 - y1) + d i (S j) y1 e * (x2 - y2)) by lra. eapply Rle_trans; [apply Rabs_triang|]. rewrite !Rabs_mult. pose proof (abs_fst (x1, x2) (y1, y2)) as D1. pose proof (abs_snd (x1, x2) (y1, y2)) as D2. cbn [fst snd] in D1, D2. set (dd := dist (x1, x2) (y1, y2)) in *.
      assert (Q1 : Rabs (d (S i) j c x2) * Rabs (x1 - y1) <= k * dd) by (apply Rmult_le_compat; auto using Rabs_pos). assert (Q2 : Rabs (d i (S j) y1 e) * Rabs (x2 - y2) <= k * dd) by (apply Rmult_le_compat; auto using Rabs_pos). assert (0 <= k * dd) by (apply Rmult_le_pos; [exact Hk|apply dist_pos]). lra.
    - intros x Hx. unfold value_at. rewrite EG. specialize (HB i j x ltac:(lia) Hx). unfold value_at in HB. lra. }
  intros G HG. cbn [In] in HG. destruct HG as [<-|[<-|[<-|[<-|[<-|[]]]]]].
  - apply (A _ 1%nat 0%nat); [lia|]. apply DX; [lia|exact Z].
  - apply (A _ 0%nat 1%nat); [lia|]. apply DY; [lia|exact Z].
  - apply (A _ 2%nat 0%nat); [lia|]. apply DX; [lia|]. apply DX; [lia|exact Z].
  - apply (A _ 1%nat 1%nat); [lia|]. apply DY; [lia|]. apply DX; [lia|exact Z].
  - apply (A _ 0%nat 2%nat); [lia|]. apply DY; [lia|]. apply DY; [lia|exact Z].
Qed.
Print Assumptions C112_bounded_derivatives.
