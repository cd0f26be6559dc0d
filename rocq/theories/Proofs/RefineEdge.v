(** Fine edges lying on coarse edges. *)
From Coq Require Import Reals Lra Lia Psatz Permutation.
From Verif.Model Require Import Py Num Tensors Domain Refine.
From Verif.Spec Require Import GridSpec RefineSpec.
From Verif.Proofs Require Import Lib FindP Lattice RefineP RefineTri RefineAll MeshLat MeshP RefineMesh RefineBd RefineOut RefineSetup EqMesh.
Local Open Scope R_scope.

Definition fdir (e : ledge) : Prop := (dir e = (1, 0) \/ dir e = (0, 1) \/ dir e = (1, 1) \/ dir e = (-1, -1))%Z.
Section E.
Context (N : nat) (HN : (1 <= N)%nat).
Let HP : 0 < INR N. Proof. apply lt_0_INR. lia. Qed.
Lemma dm (a b i j : Z) : (0 <= i < Z.of_nat N -> 0 <= j < Z.of_nat N -> Z.of_nat N * a + i = Z.of_nat N * b + j -> a = b /\ i = j)%Z.
Proof. apply (divmod N HN 1 1); lia. Qed.
Lemma dm0 (a b : Z) : (Z.of_nat N * a = Z.of_nat N * b -> a = b)%Z.
Proof. apply (divmod0 N HN 1 1); lia. Qed.
Lemma sube_inj_d e e' i i' : fdir e \/ fdir (lflip e) -> (i < N)%nat -> (i' < N)%nat -> sube N e i = sube N e' i' -> e = e' /\ i = i'.
Proof.
  intros D Hi Hi' Q.
  destruct e as [[a b] [c d]], e' as [[a' b'] [c' d']]. unfold fdir, sube, subv, dir, lflip in *. cbn [fst snd] in *. rewrite !z2_eq in D. unfold ledge, Z2 in *. rewrite !pair_eq in *.
  rewrite !Nat2Z.inj_add in Q. destruct Q as [[Q1 Q2] [Q3 Q4]].
  assert (EX : (c - a = c' - a')%Z) by lia. assert (EY : (d - b = d' - b')%Z) by lia. clear Q3 Q4.
  assert (D' : ((c - a = 1 \/ c - a = -1 \/ c - a = 0) /\ (d - b = 1 \/ d - b = -1 \/ d - b = 0) /\ (c - a <> 0 \/ d - b <> 0))%Z) by lia. clear D.
  destruct D' as [D1 [D2 D3]].
  assert (F : forall x x' dx, (dx = 1 \/ dx = -1)%Z -> (Z.of_nat N * x + Z.of_nat i * dx = Z.of_nat N * x' + Z.of_nat i' * dx)%Z -> (x = x' /\ Z.of_nat i = Z.of_nat i')%Z).
  { intros x x' dx [-> | ->] K; [apply dm; lia|]. assert (- x = - x' /\ Z.of_nat i = Z.of_nat i')%Z by (apply dm; lia). lia. }
  rewrite <- EX in Q1. rewrite <- EY in Q2.
  assert (I : (Z.of_nat i = Z.of_nat i')%Z).
  { destruct D3 as [D3|D3]; [apply (F a a' (c - a)%Z)|apply (F b b' (d - b)%Z)]; lia. }
  rewrite <- I in *. assert (a = a')%Z by (apply dm0; lia). assert (b = b')%Z by (apply dm0; lia). lia.
Qed.
Lemma lflip_sube e i : (i < N)%nat -> lflip (sube N e i) = sube N (lflip e) (N - 1 - i).
Proof.
  intros Hi. destruct e as [[a b] [c d]]. unfold sube, subv, lflip, dir. cbn [fst snd]. unfold ledge, Z2. rewrite !pair_eq. replace (N - 1 - i + 1)%nat with (N - i)%nat by lia.
  rewrite !Nat2Z.inj_sub, !Nat2Z.inj_add by lia. repeat split; lia.
Qed.
Context (h : R) (Hh : 0 < h).
Lemma lp_subv e k : lp h (subv N e k) = along (lp (INR N * h) (fst e)) (lp (INR N * h) (snd e)) (INR k / INR N).
Proof.
  destruct e as [[a b] [c d]]. unfold lp, subv, along, dir. cbn [fst snd]. rewrite !plus_IZR, !mult_IZR, !minus_IZR, <- !INR_IZR_INZ. f_equal; field; lra.
Qed.
Lemma on_line e y u : fdir e -> 0 <= u <= 1 -> lp h y = along (lp (INR N * h) (fst e)) (lp (INR N * h) (snd e)) u ->
  exists k, (k <= N)%nat /\ y = subv N e k.
Proof.
  intros D Hu Q. destruct e as [[a b] [c d]], y as [y1 y2]. unfold lp, along in Q. cbn [fst snd] in Q. injection Q as Q1 Q2.
  set (M := Z.of_nat N). assert (HM : INR N = IZR M) by apply INR_IZR_INZ.
  assert (R1 : IZR y1 = IZR (M * a) + u * IZR M * IZR (c - a)). { apply (Rmult_eq_reg_r h); [|lra]. rewrite Q1, HM, mult_IZR, minus_IZR. ring. }
  assert (R2 : IZR y2 = IZR (M * b) + u * IZR M * IZR (d - b)). { apply (Rmult_eq_reg_r h); [|lra]. rewrite Q2, HM, mult_IZR, minus_IZR. ring. }
  unfold fdir, dir in D. cbn [fst snd] in D. rewrite !z2_eq in D.
  assert (K : exists k : Z, IZR k = u * IZR M).
  { destruct D as [[D1 D2]|[[D1 D2]|[[D1 D2]|[D1 D2]]]]; rewrite ?D1, ?D2 in *.
    - exists (y1 - M * a)%Z. rewrite minus_IZR. lra.
    - exists (y2 - M * b)%Z. rewrite minus_IZR. lra.
    - exists (y1 - M * a)%Z. rewrite minus_IZR. lra.
    - exists (M * a - y1)%Z. rewrite minus_IZR. lra. }
  destruct K as [k Hk]. assert (B : (0 <= k <= M)%Z). { split; apply le_IZR; rewrite Hk; assert (0 < IZR M) by lra; nra. }
  exists (Z.to_nat k). split; [lia|]. unfold subv, dir. cbn [fst snd]. apply z2_eq. rewrite Z2Nat.id by lia.
  split; apply eq_IZR; rewrite plus_IZR, (mult_IZR k), Hk; assumption.
Qed.
Lemma part_cases e y u u' : fdir e -> fdir y -> 0 <= u <= 1 -> 0 <= u' <= 1 ->
  lp h (fst y) = along (lp (INR N * h) (fst e)) (lp (INR N * h) (snd e)) u -> lp h (snd y) = along (lp (INR N * h) (fst e)) (lp (INR N * h) (snd e)) u' ->
  exists i, (i < N)%nat /\ (y = sube N e i \/ y = lflip (sube N e i)).
Proof.
  intros D Dy Hu Hu' Q Q'. apply on_line in Q as [k [Hk Q]]; try assumption. apply on_line in Q' as [k' [Hk' Q']]; try assumption.
  destruct y as [y y']. cbn [fst snd] in *. subst y y'. unfold fdir, dir, subv in Dy. cbn [fst snd] in Dy. rewrite !z2_eq in Dy. unfold fdir in D.
  assert (K : (Z.of_nat k' = Z.of_nat k + 1 \/ Z.of_nat k = Z.of_nat k' + 1)%Z).
  { destruct D as [D|[D|[D|D]]]; rewrite !D in Dy; cbn [fst snd] in Dy; lia. }
  destruct K as [K|K].
  - exists k. split; [lia|]. left. unfold sube. replace k' with (k + 1)%nat by lia. reflexivity.
  - exists k'. split; [lia|]. right. unfold sube, lflip. cbn [fst snd]. replace k with (k' + 1)%nat by lia. reflexivity.
Qed.
End E.

Section SU.
Context (g : grid R) (N : nat) (h : R) (m n : nat) (r : refined_grid R) (C : list Z2) (Ts : list ltri) (E : list ledge).
Context (Hh : 0 < h) (HN : (1 <= N)%nat) (Hm : (1 <= m)%nat) (Hn : (1 <= n)%nat) (SU : setup g N h m n r C Ts E).
Let LM := su_lm _ _ _ _ _ _ _ _ _ SU.
Let FM := su_f _ _ _ _ _ _ _ _ _ SU.
Let HP : 0 < INR N. Proof. apply lt_0_INR. lia. Qed.
Let Hs : 0 < INR N * h. Proof. apply Rmult_lt_0_compat; assumption. Qed.
Let L := LL N C Ts.
Lemma ldir (g0 : grid R) s0 m0 n0 C0 T0 E0 (M0 : lmesh g0 s0 m0 n0 C0 T0 E0) e : In e E0 -> fdir e.
Proof. intros He. apply (lm_ein _ _ _ _ _ _ _ M0) in He as [[_ [_ K]]|[_ K]]; unfold fdir; tauto. Qed.
Lemma lp_at (g0 : grid R) s0 m0 n0 C0 T0 E0 (M0 : lmesh g0 s0 m0 n0 C0 T0 E0) x p : box m0 n0 x -> point_at g0 (idx C0 x) p -> p = lp s0 x.
Proof.
  intros B P. apply (point_at_l _ _ _ _ _ _ _ M0) in P as [y [By [Q ->]]]. apply idx_inj in Q; [subst; reflexivity| |]; apply (lm_box _ _ _ _ _ _ _ M0); assumption.
Qed.
Lemma at_lp (g0 : grid R) s0 m0 n0 C0 T0 E0 (M0 : lmesh g0 s0 m0 n0 C0 T0 E0) x : box m0 n0 x -> point_at g0 (idx C0 x) (lp s0 x).
Proof. intros B. apply (point_at_l _ _ _ _ _ _ _ M0). eauto. Qed.
(** A fine edge lying on a coarse edge is one of its pieces, in one of the two directions. *)
Lemma lies_on_l e e' : In e (g_edges g) -> In e' (g_edges (r_grid r)) -> lies_on (r_grid r) e' g e ->
  exists x i y, In x E /\ e = eidx C x /\ (i < N)%nat /\ In y (EE N g C Ts) /\ e' = eidx L y /\ (y = sube N x i \/ y = lflip (sube N x i)).
Proof.
  intros He He' [p [q [u [u' [P [Q [Hu [Hu' [P' Q']]]]]]]]].
  rewrite (lm_e _ _ _ _ _ _ _ LM) in He. apply in_map_iff in He as [x [<- Hx]]. rewrite (lm_e _ _ _ _ _ _ _ FM) in He'. apply in_map_iff in He' as [y [<- Hy]].
  unfold eidx in *. cbn [fst snd] in *. destruct (lm_boxes _ _ _ _ _ _ _ LM x Hx) as [B1 B2]. destruct (lm_boxes _ _ _ _ _ _ _ FM y Hy) as [B3 B4].
  apply (lp_at _ _ _ _ _ _ _ LM) in P; [|exact B1]. apply (lp_at _ _ _ _ _ _ _ LM) in Q; [|exact B2]. apply (lp_at _ _ _ _ _ _ _ FM) in P'; [|exact B3]. apply (lp_at _ _ _ _ _ _ _ FM) in Q'; [|exact B4].
  subst p q. symmetry in P', Q'.
  destruct (part_cases N HN h Hh x y u u') as [i [Hi K]]; try assumption; [apply (ldir _ _ _ _ _ _ _ LM), Hx|apply (ldir _ _ _ _ _ _ _ FM), Hy|].
  exists x, i, y. auto 8.
Qed.
Lemma EE_flip e : In e (EE N g C Ts) -> ~ In (lflip e) (EE N g C Ts).
Proof. apply (lm_eu _ _ _ _ _ _ _ FM). Qed.
(** Horizontal and vertical pieces keep the direction. *)
Lemma straight_dir x i y : (dir x = (1, 0) \/ dir x = (0, 1))%Z -> (i < N)%nat -> In y (EE N g C Ts) -> y = sube N x i \/ y = lflip (sube N x i) -> y = sube N x i.
Proof.
  intros D Hi Hy [Q|Q]; [exact Q|]. exfalso. apply (ldir _ _ _ _ _ _ _ FM) in Hy. subst y. unfold fdir in Hy.
  destruct x as [[a b] [c d]]. unfold sube, subv, lflip, dir in *. cbn [fst snd] in *. rewrite !z2_eq in *. rewrite !Nat2Z.inj_add in Hy. destruct D as [[D1 D2]|[D1 D2]]; rewrite D1, D2 in Hy; lia.
Qed.
(** Diagonal pieces are stored against the direction of the coarse edge. *)
Lemma diag_dir x i : In x E -> (dir x = (1, 1) \/ dir x = (-1, -1))%Z -> (i < N)%nat -> ~ In (sube N x i) (EE N g C Ts).
Proof.
  intros Hx D Hi K. apply EE_in in K as [T [HT K]]. destruct (Ts_ok N h g m n C Ts E LM T HT) as [HO _].
  unfold oe, oedges in K. apply in_flat_map in K as [[k l] [Hkl K]]. apply in_kl_lower in Hkl. unfold edges3 in K.
  assert (DS : dir (sube N x i) = dir x).
  { destruct x as [[a b] [c d]]. unfold sube, subv, dir. cbn [fst snd]. apply z2_eq. rewrite !Nat2Z.inj_add. lia. }
  assert (K3 : sube N x i = orient (dc g C T) (node N T k l, node N T k (l + 1))).
  { destruct K as [K|[K|[K|[]]]]; [| |symmetry; exact K]; exfalso; rewrite <- K in DS;
    match type of DS with dir (orient ?b (node N T ?k1 ?l1, node N T ?k2 ?l2)) = _ => assert (DD : dir (orient b (node N T k1 l1, node N T k2 l2)) = dir (node N T k1 l1, node N T k2 l2) \/ dir (orient b (node N T k1 l1, node N T k2 l2)) = (- fst (dir (node N T k1 l1, node N T k2 l2)), - snd (dir (node N T k1 l1, node N T k2 l2)))%Z) by (destruct b; cbn [orient]; [left; reflexivity|right; apply dir_flip']) end;
    rewrite DS in DD; unfold dir at 2 in DD; unfold dir at 3 in DD; destruct T as [[a b] t]; unfold node, dir in DD; cbn [fst snd] in DD; unfold oriented in HO; cbn [snd] in HO; unfold dir in D; rewrite z2_eq in D; rewrite !Nat2Z.inj_add in DD; destruct x as [[x1 x2] [x3 x4]]; cbn [fst snd] in *; rewrite !z2_eq in *; lia. }
  clear K.
  (* the piece lies on the diagonal of T *)
  assert (K0 : k = O).
  { pose proof (f_equal fst K3) as F1. revert F1. generalize (dc g C T). intros bb F1. clear K3. destruct T as [[a b] t], x as [[x1 x2] [x3 x4]]. unfold oriented in HO. cbn [snd] in HO. unfold dir in D. cbn [fst snd] in D. rewrite !z2_eq in D.
    unfold sube, subv, dir in F1. cbn [fst snd] in F1.
    assert (F2 : exists j, (Z.of_nat N * x1 + Z.of_nat i * (x3 - x1) = Z.of_nat N * a + t * (Z.of_nat k + j) /\ Z.of_nat N * x2 + Z.of_nat i * (x4 - x2) = Z.of_nat N * b + t * j)%Z).
    { destruct bb; cbn [orient] in F1; unfold lflip, node in F1; cbn [fst snd] in F1; apply z2_eq in F1; [exists (Z.of_nat l)|exists (Z.of_nat (l + 1))]; rewrite ?Nat2Z.inj_add in *; lia. }
    destruct F2 as [j [F2 F3]].
    assert (F4 : (Z.of_nat N * (x1 - x2 - a + b) + 0 = Z.of_nat N * 0 + t * Z.of_nat k)%Z) by lia.
    destruct HO as [-> | ->]; [apply (dm N HN) in F4; lia|]. assert (F5 : (Z.of_nat N * (- (x1 - x2 - a + b)) + 0 = Z.of_nat N * 0 + Z.of_nat k)%Z) by lia. apply (dm N HN) in F5; lia. }
  subst k.
  assert (HD : In (de g C T) E) by (apply (dc_spec N h g m n C Ts E LM T HT)).
  assert (P : exists j, (j < N)%nat /\ lflip (sube N x i) = sube N (de g C T) j).
  { assert (KD : (node N T 0 (l + 1), node N T 0 l) = sube N (c3 T, c1 T) (N - 1 - l)).
    { destruct T as [[a b] t]. unfold sube, subv, dir, node, c3, c1. cbn [fst snd]. unfold ledge, Z2. rewrite !pair_eq. replace (N - 1 - l + 1)%nat with (N - l)%nat by lia. rewrite !Nat2Z.inj_sub, !Nat2Z.inj_add by lia. repeat split; lia. }
    rewrite K3. unfold de. destruct (dc g C T); cbn [orient].
    - exists (N - 1 - l)%nat. split; [lia|]. rewrite <- KD. reflexivity.
    - exists l. split; [lia|]. rewrite lflip2.
      assert (X : lflip (node N T 0 (l + 1), node N T 0 l) = lflip (sube N (c3 T, c1 T) (N - 1 - l))) by (rewrite KD; reflexivity).
      rewrite (lflip_sube N HN) in X by lia. replace (N - 1 - (N - 1 - l))%nat with l in X by lia. exact X. }
  destruct P as [j [Hj P]]. rewrite (lflip_sube N HN) in P by exact Hi. symmetry in P. apply (sube_inj_d N HN) in P as [P _]; [|left; apply (ldir _ _ _ _ _ _ _ LM), HD|exact Hj|lia].
  apply (proj2 (lm_eu _ _ _ _ _ _ _ LM) x Hx). rewrite <- P. exact HD.
Qed.
End SU.
