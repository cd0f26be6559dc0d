(** Rectangle grids and their refinements in binary64. *)
From Flocq Require Import Core.
From Coq Require Import ZArith Reals Floats Lra Lia Psatz.
From Verif.Model Require Import Py Num NumFloat Tensors Domain Refine.
From Verif.Spec Require Import GridSpec RefineSpec FloatSpec FloatGridSpec.
From Verif.Proofs Require Import Lib GridP GridTopo GridCover FloatR FloatN FloatE FloatD Lattice RefineP RefineTri RefineAll MeshLat MeshP RectMesh RefineMesh RefineSetup MeshArea GenRefine RealRef FloatRef.
Local Open Scope R_scope.

Section FT.
Context (so : SetOrder) (f : fixopt) (sc : float) (m n : nat) (Nsc : is_num sc) (Hm : (1 <= m)%nat) (Hn : (1 <= n)%nat).
Let s := real_of sc.
Let K0 := Z.of_nat (Nat.max m n).
Context (HK0 : (K0 <= 2 ^ 19)%Z) (Hlo : / 10 ^ 14 <= real_of sc) (Hhi : real_of sc <= 2 ^ 400).
Let s_pos' : 0 < s. Proof. unfold s. assert (0 < / 10 ^ 14) by (apply Rinv_0_lt_compat, pow_lt; lra). lra. Qed.

Lemma fits_self (k : nat) : fits (INR k * s) s k.
Proof. unfold fits. rewrite plus_INR. cbn [INR]. lra. Qed.
Lemma real_grid_ex : exists gR, domain_grid so (INR m * s) (INR n * s) f s = Ok gR.
Proof.
  rewrite (domain_grid_rect so _ _ f s m n s_pos' (fits_self m) (fits_self n)). destruct (rect_grid_ok so (S m) (S n) f s (Rlt_le _ _ s_pos')) as (mean & E & _). eauto.
Qed.

Definition CC : list Z2 := map (fun v => zz (v mod S m) (v / S m)) (range (S m * S n)).
Lemma C_is gR C Ts E : domain_grid so (INR m * s) (INR n * s) f s = Ok gR -> lmesh gR s m n C Ts E -> C = CC.
Proof.
  intros HG LM. pose proof (grid_spec _ _ _ _ _ _ _ _ s_pos' (fits_self m) (fits_self n) HG) as G.
  pose proof (lm_p _ _ _ _ _ _ _ LM) as P. rewrite (rs_p _ _ _ _ _ _ G) in P.
  assert (Q : rg_points (S m) (S n) s = map (lpt s) CC).
  { unfold rg_points, CC, rg_vertices. rewrite map_map. apply map_ext. intros v. rewrite lpt_zz. cbn [nofZ nmul RNum]. rewrite <- !INR_IZR_INZ. reflexivity. }
  rewrite Q in P. clear - P s_pos'. revert C P. generalize CC. induction l as [|x l IH]; intros [|y C] P; try discriminate; [reflexivity|].
  cbn [map] in P. pose proof (f_equal (hd []) P) as E. pose proof (f_equal (@tl _) P) as P3. cbn [hd tl] in E, P3. apply lpt_inj in E; [|exact s_pos']. rewrite E, (IH C) by exact P3. reflexivity.
Qed.
Lemma frep0_CC : Forall2 (frep0 sc K0) CC (@rg_points _ FNum (S m) (S n) sc).
Proof.
  unfold CC, rg_points, rg_vertices.
  assert (A : forall v, In v (range (S m * S n)) -> frep0 sc K0 (zz (v mod S m) (v / S m)) [(F_of_Z (Z.of_nat (v mod S m)) * sc)%float; (F_of_Z (Z.of_nat (v / S m)) * sc)%float]).
  { intros v Hv. apply in_range in Hv. unfold frep0, zz. cbn [fst snd]. pose proof (Nat.mod_upper_bound v (S m) ltac:(lia)).
    assert (v / S m < S n)%nat by (apply Nat.div_lt_upper_bound; lia). split; [lia|]. split; [lia|]. reflexivity. }
  revert A. generalize (range (S m * S n)) as l. induction l as [|v l IH]; intros A; constructor; [apply (A v); left; reflexivity|apply IH; intros; apply A; right; assumption].
Qed.
Let HKa : (1 <= K0)%Z. Proof. unfold K0. lia. Qed.
Lemma frep_1 x p : frep0 sc K0 x p -> frep s K0 x p.
Proof.
  intros H. pose proof (fHrep sc 1 K0 Nsc (le_n 1) HKa) as Q. rewrite Z.mul_1_l in Q. change (INR 1) with 1 in Q. unfold Rdiv in Q. rewrite Rinv_1, Rmult_1_r in Q.
  specialize (Q HK0 Hlo Hhi x p H). fold s in Q. replace (scale 1 x) with x in Q; [exact Q|]. destruct x as [a b]. unfold scale. cbn [fst snd]. change (Z.of_nat 1) with 1%Z. rewrite !Z.mul_1_l. reflexivity.
Qed.
Lemma frep_CC : Forall2 (frep s K0) CC (@rg_points _ FNum (S m) (S n) sc).
Proof. pose proof frep0_CC as H. induction H; constructor; [apply frep_1; assumption|assumption]. Qed.
Lemma rounded : rounded_points (@rg_points _ FNum (S m) (S n) sc) (map (lpt s) CC).
Proof.
  pose proof frep0_CC as H. unfold rounded_points. induction H as [|x p L P Hx H IH]; [constructor|]. cbn [map]. constructor; [|exact IH]. destruct Hx as (H1 & H2 & ->).
  assert (A : forall i, (0 <= i <= K0)%Z -> near (F_of_Z i * sc)%float (IZR i * s) (ulp1 * Rabs (IZR i * s))).
  { intros i Hi. rewrite Rabs_pos_eq by (apply Rmult_le_pos; [apply IZR_le; lia|lra]). eapply near_weak; [|apply Rle_refl].
    apply (prod_f sc 1 K0 Nsc (le_n 1) HKa); try assumption; [rewrite Z.mul_1_l; exact HK0|change (INR 1) with 1; unfold Rdiv; rewrite Rinv_1, Rmult_1_r; exact Hlo]. }
  unfold lpt, vec, lp. cbn [fst snd]. constructor; [apply A, H1|]. constructor; [apply A, H2|constructor].
Qed.

Lemma float_rect : exists gR gF C Ts E mean, domain_grid so (INR m * s) (INR n * s) f s = Ok gR /\ lmesh gR s m n C Ts E /\ C = CC /\
  @rect_grid _ FNum so (S m) (S n) f sc = Ok gF /\ same_indices gF gR /\ g_points gF = @rg_points _ FNum (S m) (S n) sc /\ g_mean gF = Some mean /\ fmfin s mean.
Proof.
  destruct real_grid_ex as (gR & HG). pose proof (rect_mesh so _ _ f s m n gR s_pos' (fits_self m) (fits_self n) HG Hm Hn) as M.
  destruct (lmesh_of_mesh gR s m n s_pos' Hm Hn M) as (C & Ts & E & LM). pose proof (C_is gR C Ts E HG LM) as HC.
  pose proof (grid_spec _ _ _ _ _ _ _ _ s_pos' (fits_self m) (fits_self n) HG) as G.
  assert (LE : rg_edges (S m) (S n) = map (eidx C) E) by (rewrite <- (rs_e _ _ _ _ _ _ G); apply (lm_e _ _ _ _ _ _ _ LM)).
  assert (LL' : length E = length (rg_edges (S m) (S n))) by (rewrite LE, map_length; reflexivity). pose proof LL' as LC. rewrite edges_length in LC.
  destruct (fHfin s K0 (conj Hlo Hhi) (conj HKa HK0) CC (@rg_points _ FNum (S m) (S n) sc) E frep_CC) as (lens & mean & A & B & D).
  - intros e He. rewrite <- HC. split; [apply (lm_eins _ _ _ _ _ _ _ LM), He|]. destruct e as [[a b] [c d]]. pose proof (lm_ein _ _ _ _ _ _ _ LM _ He) as Q. clear - Q.
    unfold lup, dir, lflip, short in *. cbn [fst snd] in *. unfold Z2 in *. rewrite !pair_eq in Q. lia.
  - intros ->. cbn [length] in LC. nia.
  - rewrite LC. unfold JJ. assert (m <= Z.to_nat (2 ^ 19))%nat by (unfold K0 in HK0; lia). assert (n <= Z.to_nat (2 ^ 19))%nat by (unfold K0 in HK0; lia). change (2 ^ 19)%Z with 524288%Z in *. apply Nat2Z.inj_le. rewrite Z2Nat.id by lia. nia.
  - rewrite <- HC in A. rewrite <- LE in A. rewrite LL' in B. exists gR. unfold rect_grid, Grid_.
    destruct (rg_edges (S m) (S n)) as [|e0 es] eqn:EE; [exfalso; cbn [length] in LL'; rewrite LL' in LC; nia|]. rewrite A. cbn [bind]. rewrite B. cbn [bind].
    eexists _, C, Ts, E, mean. split; [exact HG|]. split; [exact LM|]. split; [exact HC|]. split; [reflexivity|]. split; [|split; [reflexivity|split; [reflexivity|exact D]]].
    unfold same_indices. cbn [g_vertices g_edges g_triangles g_boundary g_dirichlet g_neumann]. rewrite (rs_v _ _ _ _ _ _ G), (rs_e _ _ _ _ _ _ G), (rs_t _ _ _ _ _ _ G), (rs_d _ _ _ _ _ _ G), (rs_n _ _ _ _ _ _ G), <- EE.
    repeat split. destruct (g_boundary gR) as [bv be] eqn:Eb. pose proof (rs_bv _ _ _ _ _ _ G) as Q1. pose proof (rs_be _ _ _ _ _ _ G) as Q2. rewrite Eb in Q1, Q2. cbn in Q1, Q2. rewrite Q1, Q2. reflexivity.
Qed.
End FT.

Lemma close_wt n i : (1 <= n)%nat -> (Z.of_nat n <= 2 ^ 19)%Z -> (i < n)%nat -> forall b : bool,
  close_pair (4 * ulp1) (assure_weights b (@gwt _ FNum (frf n) i)) (assure_weights b (@gwt _ RNum (fun k => INR k / INR n) i)).
Proof.
  intros Hn Hn2 Hi. pose proof ulp1_pos as U0. pose proof ulp1_small as U1. assert (U2 : ulp1 <= / 100) by lra.
  assert (BB : 10 <= bound). { apply bound_big. apply Rle_trans with (2 ^ 4); [lra|]. apply Rle_pow; [lra|lia]. }
  assert (N1 : near 1%float 1 0) by (split; [apply num_1|rewrite (proj2 num_1), Rminus_diag_eq, Rabs_R0 by reflexivity; lra]).
  assert (A : forall k, (k <= n)%nat -> near (1 - frf n k)%float (1 - INR k / INR n) (2.01 * ulp1) /\ near (1 - (1 - frf n k))%float (1 - (1 - INR k / INR n)) (4 * ulp1)).
  { intros k Hk. destruct (frac_f n Hn Hn2 k Hk) as (fk & Ek & Fk). rewrite (frf_ok n Hn Hn2 k Hk) in Ek. injection Ek as ->. pose proof (bary_frac n Hn k Hk) as Bk. set (x := INR k / INR n) in *.
    assert (A1 : near (1 - fk)%float (1 - x) (2.01 * ulp1)).
    { eapply near_weak; [apply (near_sub _ _ _ _ _ _ (1 + ulp1) N1 Fk); [rewrite Rabs_pos_eq by lra|]; lra|]. nra. }
    split; [exact A1|]. eapply near_weak; [apply (near_sub _ _ _ _ _ _ (1 + 4 * ulp1) N1 A1); [|lra]|nra]. rewrite Rabs_pos_eq by lra. lra. }
  destruct (A i ltac:(lia)) as [A1 A2]. destruct (A (i + 1)%nat ltac:(lia)) as [B1 B2].
  intros [|]; unfold assure_weights, gwt, close_pair; cbn [fst snd nsub n1 FNum RNum]; split; try assumption; (eapply near_weak; [eassumption|lra]).
Qed.
Lemma F2_flat_map {A B D} (P : B -> D -> Prop) (F : A -> list B) (G : A -> list D) l : (forall a, In a l -> Forall2 P (F a) (G a)) -> Forall2 P (flat_map F l) (flat_map G l).
Proof. induction l as [|a l IH]; intros H; cbn [flat_map]; [constructor|]. apply Forall2_app; [apply H; left; reflexivity|apply IH; intros; apply H; right; assumption]. Qed.
Lemma F2_map2 {A B D} (P : B -> D -> Prop) (F : A -> B) (G : A -> D) l : (forall a, In a l -> P (F a) (G a)) -> Forall2 P (map F l) (map G l).
Proof. induction l as [|a l IH]; intros H; cbn [map]; constructor; [apply H; left; reflexivity|apply IH; intros; apply H; right; assumption]. Qed.
Lemma F2_rev {A B} (P : A -> B -> Prop) l l' : Forall2 P l l' -> Forall2 P (rev l) (rev l').
Proof. induction 1; cbn [rev]; [constructor|apply Forall2_app; [assumption|repeat constructor; assumption]]. Qed.

Lemma close_gCC n cgR C L Ts : (1 <= n)%nat -> (Z.of_nat n <= 2 ^ 19)%Z -> close_dict (close_pair (4 * ulp1)) (@gCC _ FNum n (frf n) cgR C L Ts) (@gCC _ RNum n (fun k => INR k / INR n) cgR C L Ts).
Proof.
  intros Hn Hn2. unfold close_dict, gCC. apply F2_flat_map. intros X _. unfold gces, gcents.
  assert (E : forall l, (forall i, In i l -> (i < n)%nat) -> Forall2 (fun x y => fst x = fst y /\ close_pair (4 * ulp1) (snd x) (snd y))
    (map (fun x => (eidx L (fst (fst x)), snd x)) (flat_map (@gcent _ FNum n (frf n) X (hc cgR C X) (vc cgR C X) (dc cgR C X) (eidx C (he cgR C X)) (eidx C (ve cgR C X)) (eidx C (de cgR C X))) l))
    (map (fun x => (eidx L (fst (fst x)), snd x)) (flat_map (@gcent _ RNum n (fun k => INR k / INR n) X (hc cgR C X) (vc cgR C X) (dc cgR C X) (eidx C (he cgR C X)) (eidx C (ve cgR C X)) (eidx C (de cgR C X))) l))).
  { induction l as [|i l IH]; intros HI; [constructor|]. cbn [flat_map]. rewrite !map_app. apply Forall2_app; [|apply IH; intros; apply HI; right; assumption].
    pose proof (close_wt n i Hn Hn2 (HI i (or_introl eq_refl))) as W. unfold gcent. cbn [map]. repeat (constructor; [split; [reflexivity|apply W]|]). constructor. }
  apply E. intros i Hi. apply in_rev in Hi. apply in_range, Hi.
Qed.
Lemma same_gCE n cgR C L Ts : @gCE _ FNum n (frf n) cgR C L Ts = @gCE _ RNum n (fun k => INR k / INR n) cgR C L Ts.
Proof.
  unfold gCE. apply flat_map_ext. intros X. unfold gces, gcents. generalize (rev (range n)) as l. induction l as [|i l IH]; [reflexivity|]. cbn [flat_map]. rewrite !map_app, IH. reflexivity.
Qed.
Lemma close_kb n k l : (1 <= n)%nat -> (Z.of_nat n <= 2 ^ 19)%Z -> (k <= n)%nat -> (l <= n)%nat -> close_bary (9 * ulp1) (kbf n k l) (kl_b n k l).
Proof.
  intros Hn Hn2 Hk Hl. destruct (kl_bary_f n Hn Hn2 k l Hk Hl) as (b & E & A & B & D). rewrite (kbf_ok n Hn Hn2 k l Hk Hl) in E. injection E as ->. pose proof ulp1_pos.
  split; [|split]; (eapply near_weak; [eassumption|lra]).
Qed.
Lemma in_lower n k l : In (k, l) (kl_lower n) -> (k + l < n)%nat.
Proof. unfold kl_lower. rewrite in_flat_map. intros (j & Hj & H). apply in_range in Hj. apply in_map_iff in H as (i & E & Hi). apply in_range in Hi. injection E as <- <-. lia. Qed.
Lemma in_upper n k l : In (k, l) (kl_upper n) -> (1 <= k /\ k + l < n)%nat.
Proof. unfold kl_upper, range2. rewrite in_flat_map. intros (j & Hj & H). apply in_range in Hj. apply in_map_iff in H as (i & E & Hi). apply in_seq in Hi. injection E as <- <-. lia. Qed.
Lemma close_gCB n L Ts : (1 <= n)%nat -> (Z.of_nat n <= 2 ^ 19)%Z -> close_dict (close_bary3 (9 * ulp1)) (gCB n (kbf n) L Ts) (gCB n (kl_b n) L Ts).
Proof.
  intros Hn Hn2. unfold close_dict, gCB. apply F2_flat_map. intros X _. apply F2_rev. unfold gsubq. rewrite !map_app, !map_map. apply Forall2_app; apply F2_map2; intros [k l] HI; cbn [fst snd]; (split; [reflexivity|]).
  - apply in_lower in HI. unfold glq, close_bary3. split; [|split]; apply close_kb; try assumption; lia.
  - apply in_upper in HI. unfold guq, close_bary3. split; [|split]; apply close_kb; try assumption; lia.
Qed.

Section FT2.
Context (so : SetOrder) (f : fixopt) (sc : float) (m n N : nat) (Nsc : is_num sc) (Hm : (1 <= m)%nat) (Hn : (1 <= n)%nat) (HN : (1 <= N)%nat).
Let s := real_of sc.
Let K0 := Z.of_nat (Nat.max m n).
Context (HK : (Z.of_nat N * K0 <= 2 ^ 19)%Z) (Hlo : / 10 ^ 14 <= real_of sc / INR N) (Hhi : real_of sc <= 2 ^ 400).
Let h := real_of sc / INR N.
Let K := (Z.of_nat N * K0)%Z.
Lemma float_refine : exists gR gF rR rF, domain_grid so (INR m * s) (INR n * s) f s = Ok gR /\ @rect_grid _ FNum so (S m) (S n) f sc = Ok gF /\ same_indices gF gR /\
  refine gR (Z.of_nat N) = Ok rR /\ @refine _ FNum gF (Z.of_nat N) = Ok rF /\ same_indices (r_grid rF) (r_grid rR) /\ close_points (40 * (ulp1 * (INR (Nat.max m n) * s))) (g_points (r_grid rF)) (g_points (r_grid rR)) /\
  finds_vertices (r_grid rF) /\ r_coarse rF = gF /\ (exists new, g_points (r_grid rF) = g_points gF ++ new) /\ r_coarse_triangle rF = r_coarse_triangle rR /\ r_coarse_edge rF = r_coarse_edge rR /\
  close_dict (close_bary3 (9 * ulp1)) (r_coarse_bary rF) (r_coarse_bary rR) /\ close_dict (close_pair (4 * ulp1)) (r_coarse_edge_coords rF) (r_coarse_edge_coords rR).
Proof.
  assert (HK1 : (1 <= K0)%Z) by (unfold K0; lia). assert (HKK : (1 <= K)%Z) by (unfold K; nia). assert (HK0 : (K0 <= 2 ^ 19)%Z) by nia. assert (HN2 : (Z.of_nat N <= 2 ^ 19)%Z) by nia.
  pose proof (nR N HN) as N1. assert (P0 : 0 < / 10 ^ 14) by (apply Rinv_0_lt_compat, pow_lt; lra).
  assert (Hlo' : / 10 ^ 14 <= real_of sc) by (apply (s_pos sc N HN Hlo Hhi)).
  pose proof (fHh sc N HN Hlo Hhi) as HH. fold h in HH. pose proof (s_h sc N HN) as SH. fold s h in SH. assert (Hp : 0 < h) by lra. assert (He : / 10 ^ 15 <= h) by (apply Rle_trans with (2 := proj1 HH); lra).
  destruct (float_rect so f sc m n Nsc Hm Hn HK0 Hlo' Hhi) as (gR & gF & C & Ts & E & mean & HG & LM & HC & EF & SI & PF & _). fold s in HG, LM. rewrite SH in LM.
  pose proof (lm_v _ _ _ _ _ _ _ LM) as LV. pose proof (lm_t _ _ _ _ _ _ _ LM) as LT. pose proof (lm_p _ _ _ _ _ _ _ LM) as LP. pose proof (Ts_ok N h gR m n C Ts E LM) as HTs.
  destruct (real_refine N h HN Hp He gR C Ts LP LV LT HTs) as (mR & PR & EPR & RR).
  destruct SI as (S1 & S2 & S3 & S4 & S5 & S6).
  destruct (grefine N HN (kbf N) (kbf_ok N HN HN2) (frf N) (frf_ok N HN HN2) (frep h K) (frep0 sc K0) (fmok h) (Z.to_nat JJ) eq_refl
    (fHfalse h K HH (conj HKK HK)) (fHtrue h K HH (conj HKK HK)) (fHapp h K HH (conj HKK HK)) (fcombine sc N K0 Nsc HN HK1 HK Hlo Hhi) gF gR C Ts) with (mfin := fmfin h) as (mF & PFF & F & EXT & FIN & RF).
  - rewrite PF, HC. apply frep0_CC; assumption.
  - rewrite S1. exact LV.
  - rewrite S3. exact LT.
  - auto.
  - exact HTs.
  - exact (fHrep sc N K0 Nsc HN HK1 HK Hlo Hhi).
  - intros Y p1 p2 p3 _. exact (fHassert sc N K0 Nsc HN HK1 HK Hlo Hhi Y p1 p2 p3).
  - exact (fHfin h K HH (conj HKK HK)).
  - assert (LTs : length Ts = (2 * (m * n))%nat). { rewrite <- (map_length (tidx C) Ts), <- LT. assert (Sp : 0 < s) by (unfold s; lra). apply (mesh_count gR s m n Sp Hm Hn).
      exact (rect_mesh so _ _ f s m n gR Sp (fits_self sc Hlo' m) (fits_self sc Hlo' n) HG Hm Hn). }
    rewrite LTs, kl_lower_length. unfold JJ. apply Nat2Z.inj_le. rewrite Z2Nat.id by lia.
    pose proof (Nat.div_mod (N * (N + 1)) 2 ltac:(lia)) as DM. assert (D : (2 * (N * (N + 1) / 2) <= N * (N + 1))%nat) by lia. set (q := (N * (N + 1) / 2)%nat) in *.
    assert (M1 : (Z.of_nat (N * m) <= 2 ^ 19)%Z) by (unfold K0 in HK; nia). assert (M2 : (Z.of_nat (N * n) <= 2 ^ 19)%Z) by (unfold K0 in HK; nia).
    assert (Q1 : (2 * q <= 2 * (N * N))%nat) by nia. assert (Q2 : (3 * q * (2 * (m * n)) <= 6 * ((N * m) * (N * n)))%nat) by nia.
    apply Z.le_trans with (Z.of_nat (6 * (N * m * (N * n)))); [lia|]. rewrite !Nat2Z.inj_mul in *. change (2 ^ 19)%Z with 524288%Z in *. change (Z.of_nat 6) with 6%Z. nia.
  - pose proof (fine_lmesh N h HN gR m n Hm Hn C Ts E LM None) as FM. pose proof (lm_nd _ _ _ _ _ _ _ FM) as ND.
    eexists gR, gF, _, _. split; [exact HG|]. split; [exact EF|]. split; [unfold same_indices; tauto|]. split; [exact RR|]. split; [exact RF|].
    cbn [r_grid r_coarse r_coarse_triangle r_coarse_bary r_coarse_edge r_coarse_edge_coords]. split; [unfold same_indices, gG; cbn [g_vertices g_edges g_triangles g_boundary g_dirichlet g_neumann]; repeat split|].
    split; [|split; [|split; [reflexivity|split; [exact EXT|split; [reflexivity|split; [apply same_gCE|split; [apply close_gCB; assumption|apply close_gCC; assumption]]]]]]].
    + cbn [gG g_points]. rewrite EPR. assert (ED : dlt h K = 40 * (ulp1 * (INR (Nat.max m n) * s))) by (unfold dlt, K; rewrite mult_IZR, <- INR_IZR_INZ, SH; unfold K0; rewrite <- INR_IZR_INZ; unfold h; fold s; ring).
      rewrite <- ED. unfold close_points. clear - F. induction F as [|x p L P Hx F IH]; [constructor|]. cbn [map]. constructor; [|exact IH].
      destruct Hx as (_ & _ & a & b & -> & A & B). unfold lpt, vec, lp. cbn [fst snd]. constructor; [exact A|]. constructor; [exact B|constructor].
    + intros v p Hv. cbn [gG g_points] in Hv. unfold point_to_vertex. cbn [gG g_points g_mean]. destruct FIN as (mm & -> & FM').
      { intros Q. pose proof (lm_eall _ _ _ _ _ _ _ FM) as EA. rewrite Q in EA. destruct (EA ((0, 0), (1, 0))%Z) as [[]|[]].
        unfold lup, box, dir. cbn [fst snd]. split; [nia|]. split; [nia|]. left. reflexivity. }
      apply (fin_find h K HH (conj HKK HK) mm (LL N C Ts) PFF v p FM' F ND Hv).
Qed.
End FT2.
