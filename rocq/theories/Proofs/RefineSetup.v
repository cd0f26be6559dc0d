(** Everything known about a refinement of a triangulated lattice rectangle, in one place. *)
From Coq Require Import Reals Lra Lia Psatz Permutation.
From Verif.Model Require Import Py Num Tensors Domain Refine.
From Verif.Spec Require Import GridSpec RefineSpec.
From Verif.Proofs Require Import Lib FindP Lattice RefineP RefineTri RefineAll MeshLat MeshP RefineMesh RefineBd RefineOut.
Local Open Scope R_scope.

Record setup (g : grid R) (N : nat) (h : R) (m n : nat) (r : refined_grid R) (C : list Z2) (Ts : list ltri) (E : list ledge) : Prop := {
  su_lm : lmesh g (INR N * h) m n C Ts E;
  su_c : r_coarse r = g;
  su_g : exists mm, r_grid r = GG N h g C Ts mm /\ mok h mm;
  su_f : lmesh (r_grid r) h (m * N) (n * N) (LL N C Ts) (flat_map (subs N) Ts) (EE N g C Ts);
  su_ct : ct_spec N C Ts (r_coarse_triangle r);
  su_cb : cb_spec N C Ts (r_coarse_bary r);
  su_ce : ce_spec N g C Ts (r_coarse_edge r);
  su_cc : cc_spec N g C Ts (r_coarse_edge_coords r)
}.
Lemma setup_exists g s m n N : 0 < s -> (1 <= m)%nat -> (1 <= n)%nat -> (1 <= N)%nat -> / 10 ^ 15 <= s / INR N -> mesh g s m n ->
  0 < s / INR N /\ INR N * (s / INR N) = s /\ exists r C Ts E, refine g (Z.of_nat N) = Ok r /\ setup g N (s / INR N) m n r C Ts E.
Proof.
  intros Hs Hm Hn HN He M. assert (HP : 0 < INR N) by (apply lt_0_INR; lia). set (h := s / INR N) in *.
  assert (Hh : 0 < h) by (unfold h; apply Rdiv_lt_0_compat; assumption). assert (Q : INR N * h = s) by (unfold h; field; lra).
  split; [exact Hh|]. split; [exact Q|].
  destruct (lmesh_of_mesh g s m n Hs Hm Hn M) as [C [Ts [E LM]]]. rewrite <- Q in LM.
  destruct (refine_lattice N h HN Hh He g C Ts (lm_p _ _ _ _ _ _ _ LM) (lm_v _ _ _ _ _ _ _ LM) (lm_t _ _ _ _ _ _ _ LM) (Ts_ok N h g m n C Ts E LM)) as [r [mm [R1 [R2 [R3 [R4 [R5 [R6 [R7 [R8 R9]]]]]]]]]].
  exists r, C, Ts, E. split; [exact R1|]. split; try assumption; [eauto|]. rewrite R3. apply (fine_lmesh N h HN g m n Hm Hn C Ts E LM).
Qed.
Lemma setup_of g s m n N r : 0 < s -> (1 <= m)%nat -> (1 <= n)%nat -> (1 <= N)%nat -> / 10 ^ 15 <= s / INR N -> mesh g s m n ->
  refine g (Z.of_nat N) = Ok r -> 0 < s / INR N /\ INR N * (s / INR N) = s /\ exists C Ts E, setup g N (s / INR N) m n r C Ts E.
Proof.
  intros Hs Hm Hn HN He M R. destruct (setup_exists g s m n N Hs Hm Hn HN He M) as [A [B [r' [C [Ts [E [R' S]]]]]]]. rewrite R in R'. injection R' as <-. eauto 8.
Qed.

Section SU.
Context (g : grid R) (N : nat) (h : R) (m n : nat) (r : refined_grid R) (C : list Z2) (Ts : list ltri) (E : list ledge).
Context (Hh : 0 < h) (HN : (1 <= N)%nat) (Hm : (1 <= m)%nat) (Hn : (1 <= n)%nat) (SU : setup g N h m n r C Ts E).
Let LM := su_lm _ _ _ _ _ _ _ _ _ SU.
Let FM := su_f _ _ _ _ _ _ _ _ _ SU.
Let HP : 0 < INR N. Proof. apply lt_0_INR. lia. Qed.
Let Hs : 0 < INR N * h. Proof. apply Rmult_lt_0_compat; assumption. Qed.
Lemma su_points : exists new, g_points (r_grid r) = g_points g ++ new.
Proof.
  rewrite (lm_p _ _ _ _ _ _ _ FM), (lm_p _ _ _ _ _ _ _ LM). unfold LL. destruct (adds_ext (L0 N C) (flat_map (nodes N) Ts)) as [M ->]. rewrite map_app. exists (map (lpt h) M).
  f_equal. unfold L0. rewrite map_map. apply map_ext. intros x. symmetry. apply (lpt_scale N h).
Qed.
Lemma kl_lower_length k : length (kl_lower k) = (k * (k + 1) / 2)%nat.
Proof.
  assert (K : forall a k, length (flat_map (fun l => map (fun i => (i, l)) (range (a + k - l))) (seq a k)) = (k * (k + 1) / 2)%nat).
  { clear. intros a k. revert a. induction k as [|k IH]; intros a; [reflexivity|]. cbn [seq flat_map]. rewrite app_length, map_length. unfold range at 1. rewrite seq_length.
    specialize (IH (S a)). replace (S a + k)%nat with (a + S k)%nat in IH by lia. rewrite IH.
    replace (S k * (S k + 1))%nat with ((k + 1) * 2 + k * (k + 1))%nat by lia. rewrite Nat.div_add_l by lia. lia. }
  apply (K 0%nat k).
Qed.
Lemma kl_upper_length k : length (kl_upper k) = (k * (k - 1) / 2)%nat.
Proof.
  assert (K : forall a k, length (flat_map (fun l => map (fun i => (i, l)) (range2 1 (a + k + 1 - l))) (seq a k)) = (k * (k + 1) / 2)%nat).
  { clear. intros a k. revert a. induction k as [|k IH]; intros a; [reflexivity|]. cbn [seq flat_map]. rewrite app_length, map_length. unfold range2 at 1. rewrite seq_length.
    specialize (IH (S a)). replace (S a + k)%nat with (a + S k)%nat in IH by lia. rewrite IH.
    replace (S k * (S k + 1))%nat with ((k + 1) * 2 + k * (k + 1))%nat by lia. rewrite Nat.div_add_l by lia. lia. }
  destruct k as [|k]; [reflexivity|]. unfold kl_upper. replace (S k - 1)%nat with k by lia. replace (S k * k)%nat with (k * (k + 1))%nat by lia. rewrite <- (K 0%nat k).
  unfold range. replace (0 + k + 1)%nat with (S k) by lia. reflexivity.
Qed.
Lemma subs_length T : length (subs N T) = (N * N)%nat.
Proof.
  unfold subs. rewrite app_length, !map_length, kl_lower_length, kl_upper_length.
  assert (K : forall k, (k * (k + 1) / 2 + k * (k - 1) / 2 = k * k)%nat).
  { clear. intros [|k]; [reflexivity|]. replace (S k - 1)%nat with k by lia.
    assert (X : exists a, (S k * k = a * 2)%nat). { clear. induction k as [|k [a IH]]; [exists 0%nat; lia|]. exists (a + S k)%nat. lia. }
    destruct X as [a X]. replace (S k * (S k + 1))%nat with ((a + S k) * 2)%nat by lia. rewrite X, !Nat.div_mul by lia. lia. }
  apply K.
Qed.
Lemma triangle_eqb_iff a b : triangle_eqb a b = true <-> a = b.
Proof. apply triple_eqb_spec. Qed.
Lemma sub_tin T X : In T Ts -> In X (subs N T) -> tin (LL N C Ts) X.
Proof. intros HT HX. apply (LL_sub N C Ts T X HT HX). Qed.
(** The triangle lookups, exactly. *)
Lemma tri_lookup T X q : In T Ts -> In (X, q) (subq N T) ->
  dget triangle_eqb (tidx (LL N C Ts) X) (r_coarse_triangle r) = Ok (tidx C T) /\ dget triangle_eqb (tidx (LL N C Ts) X) (r_coarse_bary r) = Ok q.
Proof.
  intros HT HX.
  assert (OT : forall U, In U Ts -> oriented U) by (intros U HU; apply (Ts_ok N h g m n C Ts E LM U HU)).
  assert (K : forall T' s', In T' Ts -> In s' (subq N T') -> tidx (LL N C Ts) X = tidx (LL N C Ts) (fst s') -> T' = T /\ s' = (X, q)).
  { intros T' [X' q'] HT' HX' Q. cbn [fst] in Q.
    assert (I1 : In X (subs N T)) by (rewrite <- subq_subs; apply (in_map fst _ (X, q)), HX). assert (I2 : In X' (subs N T')) by (rewrite <- subq_subs; apply (in_map fst _ (X', q')), HX').
    apply tidx_inj in Q; [|apply (sub_tin T); assumption|apply (sub_tin T'); assumption]. subst X'.
    assert (T' = T) by (apply (sub_parent N T' T X); auto). subst T'. split; [reflexivity|].
    assert (ND : NoDup (map fst (subq N T))) by (rewrite subq_subs; apply subs_NoDup, OT, HT).
    f_equal. clear -ND HX HX'. induction (subq N T) as [|[a b] l IH]; [destruct HX|]. cbn [map fst] in ND. inversion ND as [|? ? NI ND']; subst.
    destruct HX as [Q|HX], HX' as [Q'|HX']; [congruence| | |apply IH; assumption].
    - injection Q as -> ->. destruct NI. apply (in_map fst _ (X, q')), HX'.
    - injection Q' as -> ->. destruct NI. apply (in_map fst _ (X, q)), HX. }
  assert (A1 : In (tidx (LL N C Ts) X, tidx C T) (r_coarse_triangle r)) by (apply (su_ct _ _ _ _ _ _ _ _ _ SU); exists T, (X, q); auto).
  assert (A2 : In (tidx (LL N C Ts) X, q) (r_coarse_bary r)) by (apply (su_cb _ _ _ _ _ _ _ _ _ SU); exists T, (X, q); auto).
  destruct (dfind_some_of_in triangle_eqb triangle_eqb_iff _ _ _ A1) as [v1 [F1 I1]]. destruct (dfind_some_of_in triangle_eqb triangle_eqb_iff _ _ _ A2) as [v2 [F2 I2]].
  apply (su_ct _ _ _ _ _ _ _ _ _ SU) in I1 as [T1 [s1 [HT1 [HS1 [Q1 ->]]]]]. apply (su_cb _ _ _ _ _ _ _ _ _ SU) in I2 as [T2 [s2 [HT2 [HS2 [Q2 ->]]]]].
  destruct (K T1 s1 HT1 HS1 Q1) as [-> ->]. destruct (K T2 s2 HT2 HS2 Q2) as [-> ->]. unfold dget. rewrite F1, F2. auto.
Qed.
Lemma fine_cases t : In t (g_triangles (r_grid r)) <-> exists T X, In T Ts /\ In X (subs N T) /\ t = tidx (LL N C Ts) X.
Proof.
  rewrite (lm_t _ _ _ _ _ _ _ FM), in_map_iff. split.
  - intros [X [<- HX]]. apply in_flat_map in HX as [T [HT HX]]. eauto.
  - intros [T [X [HT [HX ->]]]]. exists X. split; [reflexivity|]. apply in_flat_map. eauto.
Qed.
Lemma subs_subq T X : In X (subs N T) -> exists q, In (X, q) (subq N T).
Proof. rewrite <- subq_subs, in_map_iff. intros [[a q] [<- H]]. eauto. Qed.
Lemma to_coarse_ok T X q b : In T Ts -> In (X, q) (subq N T) ->
  to_coarse_barycentric_point r (tidx (LL N C Ts) X, b) = let '(q1, q2, q3) := q in Ok (tidx C T, Bary (l1 b * l1 q1 + l2 b * l1 q2 + l3 b * l1 q3) (l1 b * l2 q1 + l2 b * l2 q2 + l3 b * l2 q3)).
Proof.
  intros HT HX. destruct (tri_lookup T X q HT HX) as [F1 F2]. unfold to_coarse_barycentric_point.
  assert (IN : py_in triangle_eqb (tidx (LL N C Ts) X) (g_triangles (r_grid r)) = true).
  { apply py_in_triple. apply fine_cases. exists T, X. split; [exact HT|]. split; [|reflexivity]. rewrite <- subq_subs. apply (in_map fst _ (X, q)), HX. }
  unfold listed_triangle. change (let '(i1, i2, i3) := tidx (LL N C Ts) X in _) with (if py_in triangle_eqb (tidx (LL N C Ts) X) (g_triangles (r_grid r)) then Ok (tidx (LL N C Ts) X) else let '(i1, i2, i3) := tidx (LL N C Ts) X in (if py_in triangle_eqb (i2, i3, i1) (g_triangles (r_grid r)) then Ok (i2, i3, i1)
  else if py_in triangle_eqb (i3, i1, i2) (g_triangles (r_grid r)) then Ok (i3, i1, i2)
  else Err ValueError)). rewrite IN. cbn [bind]. rewrite F1, F2. cbn [bind]. destruct q as [[q1 q2] q3]. reflexivity.
Qed.
End SU.
