(** The boundaries of a rectangle grid in lattice form, and of its refinement. *)
From Coq Require Import Reals Lra Lia Psatz Permutation.
From Verif.Model Require Import Py Num Tensors Domain Refine.
From Verif.Spec Require Import GridSpec RefineSpec.
From Verif.Proofs Require Import Lib GridP GridCover Lattice RefineP RefineTri RefineAll MeshLat MeshP RefineMesh RefineBd RefineOut RefineSetup EqMesh RefineEdge RectMesh.
From Verif.Props Require Import GridProps.
Local Open Scope R_scope.

Definition lonv (m n : nat) (d : side) (x : Z2) : Prop := box m n x /\
  match d with Lower => snd x = 0%Z | Upper => snd x = Z.of_nat n | Left => fst x = 0%Z | Right => fst x = Z.of_nat m end.

Section Fine.
Context (N : nat) (HN : (1 <= N)%nat) (m n : nat).
Lemma divide x k : (0 <= x <= Z.of_nat (k * N))%Z -> (exists y, 0 <= y <= Z.of_nat k /\ x = Z.of_nat N * y)%Z \/ (exists y i, 0 <= y < Z.of_nat k /\ (0 < i < N)%nat /\ x = Z.of_nat N * y + Z.of_nat i)%Z.
Proof.
  intros H. rewrite Nat2Z.inj_mul in H. pose proof (Z.div_mod x (Z.of_nat N) ltac:(lia)) as D. pose proof (Z.mod_pos_bound x (Z.of_nat N) ltac:(lia)) as B.
  set (q := (x / Z.of_nat N)%Z) in *. set (t := (x mod Z.of_nat N)%Z) in *. assert (Q : (0 <= q)%Z) by (unfold q; apply Z.div_pos; lia).
  destruct (Z.eq_dec t 0) as [T|T].
  - left. exists q. rewrite T in D. split; [nia|lia].
  - right. exists q, (Z.to_nat t). rewrite Z2Nat.id by lia. split; [nia|]. split; [lia|lia].
Qed.
Lemma divide1 x k : (0 <= x)%Z -> (x + 1 <= Z.of_nat (k * N))%Z -> exists y i, (0 <= y < Z.of_nat k /\ (i < N)%nat /\ x = Z.of_nat N * y + Z.of_nat i)%Z.
Proof.
  intros H H'. rewrite Nat2Z.inj_mul in H'. pose proof (Z.div_mod x (Z.of_nat N) ltac:(lia)) as D. pose proof (Z.mod_pos_bound x (Z.of_nat N) ltac:(lia)) as B.
  set (q := (x / Z.of_nat N)%Z) in *. set (t := (x mod Z.of_nat N)%Z) in *. assert (Q : (0 <= q)%Z) by (unfold q; apply Z.div_pos; lia).
  exists q, (Z.to_nat t). rewrite Z2Nat.id by lia. split; [nia|]. split; lia.
Qed.
Lemma scale_onv d y : lonv m n d y -> lonv (m * N) (n * N) d (scale N y).
Proof. destruct y as [a b]. unfold lonv, box, scale. cbn [fst snd]. intros [B D]. rewrite !Nat2Z.inj_mul. destruct d; (split; [nia|]); rewrite D; lia. Qed.
Lemma sube_lon d e i : lon m n d e -> (i < N)%nat -> lon (m * N) (n * N) d (sube N e i).
Proof.
  intros L Hi. destruct e as [[a b] [c e]]. unfold lon, sube, subv, dir, box in *. cbn [fst snd] in *. rewrite !Nat2Z.inj_mul, !Nat2Z.inj_add. destruct L as [B1 [B2 L]].
  destruct d; rewrite !z2_eq in *; destruct L as [[D1 D2] L]; rewrite D1, D2 in *; repeat split; nia.
Qed.
Lemma lon_onv d e : lon m n d e -> lonv m n d (fst e) /\ lonv m n d (snd e).
Proof.
  destruct e as [[a b] [c e]]. unfold lon, lonv, dir, box. cbn [fst snd]. intros [B1 [B2 L]]. destruct d; rewrite z2_eq in L; repeat split; lia.
Qed.
Lemma onv_fine d x : lonv (m * N) (n * N) d x -> (exists y, lonv m n d y /\ x = scale N y) \/ (exists e i, lon m n d e /\ (0 < i < N)%nat /\ x = subv N e i).
Proof.
  destruct x as [x y]. unfold lonv. cbn [fst snd]. intros [[B1 B2] D]. cbn [fst snd] in *.
  assert (SC : forall a b, lonv m n d (a, b) -> x = (Z.of_nat N * a)%Z -> y = (Z.of_nat N * b)%Z -> (exists y0, lonv m n d y0 /\ (x, y) = scale N y0) \/ (exists e i, lon m n d e /\ (0 < i < N)%nat /\ (x, y) = subv N e i)).
  { intros a b L -> ->. left. exists (a, b). split; [exact L|reflexivity]. }
  assert (SE : forall a b c e i, lon m n d ((a, b), (c, e)) -> (0 < i < N)%nat -> x = (Z.of_nat N * a + Z.of_nat i * (c - a))%Z -> y = (Z.of_nat N * b + Z.of_nat i * (e - b))%Z -> (exists y0, lonv m n d y0 /\ (x, y) = scale N y0) \/ (exists e i, lon m n d e /\ (0 < i < N)%nat /\ (x, y) = subv N e i)).
  { intros a b c e i L Hi -> ->. right. exists ((a, b), (c, e)), i. split; [exact L|]. split; [exact Hi|]. reflexivity. }
  destruct d.
  - destruct (divide x m B1) as [[a [A1 A2]]|[a [i [A1 [A2 A3]]]]].
    + apply (SC a 0%Z); [unfold lonv, box; cbn [fst snd]; lia|lia|lia].
    + apply (SE a 0%Z (a + 1)%Z 0%Z i); [|lia|lia|lia]. unfold lon, box, dir. cbn [fst snd]. rewrite z2_eq. repeat split; lia.
  - destruct (divide y n B2) as [[a [A1 A2]]|[a [i [A1 [A2 A3]]]]]; rewrite Nat2Z.inj_mul in D.
    + apply (SC (Z.of_nat m) a); [unfold lonv, box; cbn [fst snd]; lia|lia|lia].
    + apply (SE (Z.of_nat m) a (Z.of_nat m) (a + 1)%Z i); [|lia|lia|lia]. unfold lon, box, dir. cbn [fst snd]. rewrite z2_eq. repeat split; lia.
  - destruct (divide x m B1) as [[a [A1 A2]]|[a [i [A1 [A2 A3]]]]]; rewrite Nat2Z.inj_mul in D.
    + apply (SC a (Z.of_nat n)); [unfold lonv, box; cbn [fst snd]; lia|lia|lia].
    + apply (SE a (Z.of_nat n) (a + 1)%Z (Z.of_nat n) i); [|lia|lia|lia]. unfold lon, box, dir. cbn [fst snd]. rewrite z2_eq. repeat split; lia.
  - destruct (divide y n B2) as [[a [A1 A2]]|[a [i [A1 [A2 A3]]]]].
    + apply (SC 0%Z a); [unfold lonv, box; cbn [fst snd]; lia|lia|lia].
    + apply (SE 0%Z a 0%Z (a + 1)%Z i); [|lia|lia|lia]. unfold lon, box, dir. cbn [fst snd]. rewrite z2_eq. repeat split; lia.
Qed.
Lemma onv_fine_iff d x : lonv (m * N) (n * N) d x <-> (exists y, lonv m n d y /\ x = scale N y) \/ (exists e i, lon m n d e /\ (0 < i < N)%nat /\ x = subv N e i).
Proof.
  split; [apply onv_fine|]. intros [[y [Hy ->]]|[e [i [He [Hi ->]]]]]; [apply scale_onv, Hy|].
  assert (Hi' : (i < N)%nat) by lia. assert (K : lonv (m * N) (n * N) d (fst (sube N e i))).
  { pose proof (sube_lon d e i He Hi') as L. unfold lon, lonv in *. destruct L as [A [_ B]]. split; [exact A|]. destruct d; tauto. }
  exact K.
Qed.
Lemma on_fine d x : lon (m * N) (n * N) d x <-> exists e i, lon m n d e /\ (i < N)%nat /\ x = sube N e i.
Proof.
  split; [|intros [e [i [He [Hi ->]]]]; apply sube_lon; assumption].
  destruct x as [[x y] [x' y']]. unfold lon. cbn [fst snd]. unfold box, dir. cbn [fst snd]. intros [B1 [B2 D]].
  assert (SE : forall a b c e i, lon m n d ((a, b), (c, e)) -> (i < N)%nat -> x = (Z.of_nat N * a + Z.of_nat i * (c - a))%Z -> y = (Z.of_nat N * b + Z.of_nat i * (e - b))%Z ->
     x' = (Z.of_nat N * a + (Z.of_nat i + 1) * (c - a))%Z -> y' = (Z.of_nat N * b + (Z.of_nat i + 1) * (e - b))%Z -> exists e i, lon m n d e /\ (i < N)%nat /\ (x, y, (x', y')) = sube N e i).
  { intros a b c e i L Hi -> -> -> ->. exists ((a, b), (c, e)), i. split; [exact L|]. split; [exact Hi|]. unfold sube, subv, dir. cbn [fst snd]. rewrite Nat2Z.inj_add. reflexivity. }
  destruct d; rewrite z2_eq in D; rewrite ?Nat2Z.inj_mul in D.
  - destruct (divide1 x m) as [a [i [A1 [A2 A3]]]]; [lia|lia|]. apply (SE a 0%Z (a + 1)%Z 0%Z i); try lia. unfold lon, box, dir. cbn [fst snd]. rewrite z2_eq. repeat split; lia.
  - destruct (divide1 y n) as [a [i [A1 [A2 A3]]]]; [lia|lia|]. apply (SE (Z.of_nat m) a (Z.of_nat m) (a + 1)%Z i); try lia. unfold lon, box, dir. cbn [fst snd]. rewrite z2_eq. repeat split; lia.
  - destruct (divide1 x m) as [a [i [A1 [A2 A3]]]]; [lia|lia|]. apply (SE a (Z.of_nat n) (a + 1)%Z (Z.of_nat n) i); try lia. unfold lon, box, dir. cbn [fst snd]. rewrite z2_eq. repeat split; lia.
  - destruct (divide1 y n) as [a [i [A1 [A2 A3]]]]; [lia|lia|]. apply (SE 0%Z a 0%Z (a + 1)%Z i); try lia. unfold lon, box, dir. cbn [fst snd]. rewrite z2_eq. repeat split; lia.
Qed.
Lemma lon_fdir d e : lon m n d e -> fdir e.
Proof. unfold lon, fdir. destruct d; tauto. Qed.
End Fine.

(** Rectangle grids: the six lists in lattice form. *)
Section Rect.
Context (so : SetOrder) (w h : R) (f : fixopt) (s : R) (m n : nat) (g : grid R).
Context (Hs : 0 < s) (Hm : fits w s m) (Hn : fits h s n) (H : domain_grid so w h f s = Ok g) (H1 : (1 <= m)%nat) (H2 : (1 <= n)%nat).
Context (C : list Z2) (Ts : list ltri) (E : list ledge) (LM : lmesh g s m n C Ts E).
Lemma vos_lonv d x : box m n x -> (vertex_on_side g s m n d (idx C x) <-> lonv m n d x).
Proof.
  intros B. rewrite (vos_box g s m n C Ts E Hs LM). unfold lonv. split; [|intros [_ K]; exists x; auto].
  intros [y [Q [By K]]]. apply idx_inj in Q; [subst y; auto| |]; apply (lm_box _ _ _ _ _ _ _ LM); assumption.
Qed.
Lemma eos_lon' d x : box m n (fst x) -> box m n (snd x) -> (edge_on_side g s m n d (eidx C x) <-> lon m n d x).
Proof.
  intros B1 B2. rewrite (eos_lon g s m n C Ts E Hs LM). split; [|intros K; exists x; auto]. intros [y [Q K]].
  apply eidx_inj in Q; [subst y; exact K| |]; split; apply (lm_box _ _ _ _ _ _ _ LM); try assumption; apply K.
Qed.
Lemma in_lv b Vb Eb x : lout C m n b Vb Eb -> (In x Vb <-> box m n x /\ In (idx C x) (b_vertices b)).
Proof.
  intros O. rewrite (lo_v _ _ _ _ _ _ O), in_map_iff. split.
  - intros Hx. split; [apply (lo_vin _ _ _ _ _ _ O), Hx|eauto].
  - intros [B [y [Q Hy]]]. apply idx_inj in Q; [subst; exact Hy| |]; apply (lm_box _ _ _ _ _ _ _ LM); [apply (lo_vin _ _ _ _ _ _ O), Hy|exact B].
Qed.
Lemma in_le b Vb Eb x : lout C m n b Vb Eb -> (In x Eb <-> box m n (fst x) /\ box m n (snd x) /\ In (eidx C x) (b_edges b)).
Proof.
  intros O. rewrite (lo_e _ _ _ _ _ _ O), in_map_iff. split.
  - intros Hx. pose proof (lo_on _ _ _ _ _ _ O x Hx) as [B1 [B2 _]]. split; [exact B1|]. split; [exact B2|eauto].
  - intros [B1 [B2 [y [Q Hy]]]]. pose proof (lo_on _ _ _ _ _ _ O y Hy) as [B3 [B4 _]]. apply eidx_inj in Q; [subst; exact Hy| |]; split; apply (lm_box _ _ _ _ _ _ _ LM); assumption.
Qed.
Lemma rect_louts : exists Vb Eb Vd Ed Vn En, lout C m n (g_boundary g) Vb Eb /\ lout C m n (g_dirichlet g) Vd Ed /\ lout C m n (g_neumann g) Vn En /\
  (forall x, In x Vb <-> exists d, lonv m n d x) /\ (forall e, In e Eb <-> exists d, lon m n d e) /\
  (forall x, In x Vd <-> exists d, fixed_side f d /\ lonv m n d x) /\ (forall e, In e Ed <-> exists d, fixed_side f d /\ lon m n d e) /\
  (forall x, In x Vn <-> (exists d, lonv m n d x) /\ forall d d', fixed_side f d -> fixed_side f d' -> lonv m n d x -> lonv m n d' x -> d = d') /\
  (forall e, In e En <-> (exists d, lon m n d e) /\ ~ exists d, fixed_side f d /\ lon m n d e).
Proof.
  destruct (rect_outlines so w h f s m n g Hs Hm Hn H H1 H2) as [O1 [O2 O3]].
  destruct (lout_of_outline g s m n C Ts E Hs LM _ O1) as [Vb [Eb L1]]. destruct (lout_of_outline g s m n C Ts E Hs LM _ O2) as [Vd [Ed L2]]. destruct (lout_of_outline g s m n C Ts E Hs LM _ O3) as [Vn [En L3]].
  exists Vb, Eb, Vd, Ed, Vn, En. split; [exact L1|]. split; [exact L2|]. split; [exact L3|].
  destruct (C16_boundary_is_outline _ _ _ _ _ _ _ _ Hs Hm Hn H) as [BV [_ BE]].
  destruct (C16_dirichlet_edges _ _ _ _ _ _ _ _ Hs Hm Hn H) as [_ DE]. destruct (C17_dirichlet_vertices _ _ _ _ _ _ _ _ Hs Hm Hn H) as [_ DV].
  destruct (C16_neumann_edges _ _ _ _ _ _ _ _ Hs Hm Hn H) as [_ NE]. destruct (C18_neumann_vertices_exact_partial _ _ _ _ _ _ _ _ Hs Hm Hn H) as [_ NV].
  assert (EV : forall x, (exists d, lonv m n d x) <-> box m n x /\ exists d, vertex_on_side g s m n d (idx C x)).
  { intros x. split; [intros [d K]; split; [apply K|exists d; apply vos_lonv; [apply K|exact K]]|]. intros [B [d K]]. exists d. apply vos_lonv; assumption. }
  assert (EE' : forall x, (exists d, lon m n d x) <-> box m n (fst x) /\ box m n (snd x) /\ exists d, edge_on_side g s m n d (eidx C x)).
  { intros x. split; [intros [d K]; split; [apply K|split; [apply K|exists d; apply eos_lon'; [apply K|apply K|exact K]]]|]. intros [B [B' [d K]]]. exists d. apply eos_lon'; assumption. }
  assert (FV : forall x, (exists d, fixed_side f d /\ lonv m n d x) <-> box m n x /\ exists d, fixed_side f d /\ vertex_on_side g s m n d (idx C x)).
  { intros x. split; [intros [d [F K]]; split; [apply K|exists d; split; [exact F|apply vos_lonv; [apply K|exact K]]]|]. intros [B [d [F K]]]. exists d. split; [exact F|apply vos_lonv; assumption]. }
  assert (FE : forall x, (exists d, fixed_side f d /\ lon m n d x) <-> box m n (fst x) /\ box m n (snd x) /\ exists d, fixed_side f d /\ edge_on_side g s m n d (eidx C x)).
  { intros x. split; [intros [d [F K]]; split; [apply K|split; [apply K|exists d; split; [exact F|apply eos_lon'; [apply K|apply K|exact K]]]]|]. intros [B [B' [d [F K]]]]. exists d. split; [exact F|apply eos_lon'; assumption]. }
  split; [intros x; rewrite (in_lv _ _ _ _ L1), BV, EV; tauto|]. split; [intros x; rewrite (in_le _ _ _ _ L1), BE, EE'; tauto|].
  split; [intros x; rewrite (in_lv _ _ _ _ L2), DV, FV; tauto|]. split; [intros x; rewrite (in_le _ _ _ _ L2), DE, FE; tauto|].
  split.
  - intros x. rewrite (in_lv _ _ _ _ L3), NV, EV. split.
    + intros [B [K U]]. split; [auto|]. intros d d' F F' A A'. apply (U d d' F F'); apply vos_lonv; assumption.
    + intros [[B K] U]. split; [exact B|]. split; [exact K|]. intros d d' F F' A A'. apply (U d d' F F'); apply vos_lonv; assumption.
  - intros x. rewrite (in_le _ _ _ _ L3), NE, BE, DE, EE', FE. tauto.
Qed.
End Rect.
