(** The boundary of a refined lattice mesh. *)
From Coq Require Import Reals Lra Lia Psatz.
From Verif.Model Require Import Py Num Tensors Domain Refine.
From Verif.Spec Require Import GridSpec RefineSpec.
From Verif.Proofs Require Import Lib FindP Lattice RefineP RefineTri RefineAll MeshLat MeshP RefineMesh.
Local Open Scope R_scope.

Definition lonside (m n : nat) (e : ledge) : Prop := box m n (fst e) /\ box m n (snd e) /\
  (dir e = (1, 0)%Z /\ (snd (fst e) = 0 \/ snd (fst e) = Z.of_nat n)%Z \/ dir e = (0, 1)%Z /\ (fst (fst e) = 0 \/ fst (fst e) = Z.of_nat m)%Z).
Record lout (C : list Z2) (m n : nat) (bd : boundary) (Vb : list Z2) (Eb : list ledge) : Prop := {
  lo_v : b_vertices bd = map (idx C) Vb;
  lo_vnd : NoDup Vb;
  lo_vin : forall x, In x Vb -> box m n x;
  lo_e : b_edges bd = map (eidx C) Eb;
  lo_end : NoDup Eb;
  lo_on : forall e, In e Eb -> lonside m n e
}.

Definition subv (N : nat) (e : ledge) (i : nat) : Z2 :=
  (Z.of_nat N * fst (fst e) + Z.of_nat i * fst (dir e), Z.of_nat N * snd (fst e) + Z.of_nat i * snd (dir e))%Z.
Definition sube (N : nat) (e : ledge) (i : nat) : ledge := (subv N e i, subv N e (i + 1)).

Lemma rev_range k : rev (range (k + 1)) = map (fun i => k - i)%nat (range (k + 1)).
Proof.
  replace (k + 1)%nat with (S k) by lia. induction k as [|k IH]; [reflexivity|]. 
  assert (Q : rev (range (S (S k))) = S k :: rev (range (S k))) by (rewrite (range_S (S k)), rev_app_distr; reflexivity). rewrite Q, IH.
  unfold range. change (seq 0 (S (S k))) with (0%nat :: seq 1 (S k)). rewrite <- (seq_shift (S k) 0). cbn [map]. rewrite map_map. reflexivity.
Qed.
Lemma combine_seq {A} (f : nat -> A) k : forall a, combine (map f (seq a k)) (map f (seq (S a) k)) = map (fun i => (f i, f (i + 1)%nat)) (seq a k).
Proof. induction k as [|k IH]; intros a; [reflexivity|]. cbn [seq map combine]. rewrite (IH (S a)). replace (a + 1)%nat with (S a) by lia. reflexivity. Qed.
Lemma zip_range {A} (f : nat -> A) k : zip (removelast (map f (range (k + 1)))) (tl (map f (range (k + 1)))) = map (fun i => (f i, f (i + 1)%nat)) (range k).
Proof.
  replace (k + 1)%nat with (S k) by lia. rewrite range_S at 1. rewrite map_app, removelast_app by discriminate. cbn [map removelast]. rewrite app_nil_r.
  unfold range. cbn [seq map tl]. apply combine_seq.
Qed.
Lemma mid_range {A} (f : nat -> A) k : removelast (tl (map f (range (k + 1)))) = map f (seq 1 (k - 1)).
Proof.
  destruct k as [|k]; [reflexivity|]. replace (S k + 1)%nat with (S (S k)) by lia. unfold range. cbn [seq map tl]. replace (S k - 1)%nat with k by lia.
  change (f 1%nat :: map f (seq 2 k)) with (map f (seq 1 (S k))). rewrite seq_S, map_app, removelast_app by discriminate. cbn [map removelast]. apply app_nil_r.
Qed.

Section RB.
Context (N : nat) (h : R) (HN : (1 <= N)%nat) (Hh : 0 < h) (Heps : / 10 ^ 15 <= h).
Context (cg : grid R) (m n : nat) (Hm : (1 <= m)%nat) (Hn : (1 <= n)%nat) (C : list Z2) (Ts : list ltri) (E : list ledge).
Context (LM : lmesh cg (INR N * h) m n C Ts E).
Let LL' := LL N C Ts.

Lemma he_low x y : In (low x y) Ts -> he cg C (low x y) = ((x, y), (x + 1, y))%Z.
Proof. intros H. unfold he. rewrite (hc_sign N h HN cg m n Hm Hn C Ts E LM _ H). reflexivity. Qed.
Lemma he_upp x y : In (upp x y) Ts -> he cg C (upp x y) = ((x, y + 1), (x + 1, y + 1))%Z.
Proof. intros H. unfold he. rewrite (hc_sign N h HN cg m n Hm Hn C Ts E LM _ H). cbn [upp snd Z.eqb Pos.eqb orient]. unfold lflip, upp, c1, c2. cbn [fst snd]. unfold ledge, Z2. rewrite !pair_eq. lia. Qed.
Lemma ve_low x y : In (low x y) Ts -> ve cg C (low x y) = ((x + 1, y), (x + 1, y + 1))%Z.
Proof. intros H. unfold ve. rewrite (vc_sign N h HN cg m n Hm Hn C Ts E LM _ H). reflexivity. Qed.
Lemma ve_upp x y : In (upp x y) Ts -> ve cg C (upp x y) = ((x, y), (x, y + 1))%Z.
Proof. intros H. unfold ve. rewrite (vc_sign N h HN cg m n Hm Hn C Ts E LM _ H). cbn [upp snd Z.eqb Pos.eqb orient]. unfold lflip, upp, c2, c3. cbn [fst snd]. unfold ledge, Z2. rewrite !pair_eq. lia. Qed.
Lemma Ts_cases T : In T Ts -> exists x y, cbox m n (x, y) /\ (T = low x y \/ T = upp x y).
Proof. intros H. apply ltri_in_cases, (lm_tin _ _ _ _ _ _ _ LM), H. Qed.

Lemma hn_sub T : In T Ts -> hn N cg C T = map (subv N (he cg C T)) (range (N + 1)).
Proof.
  intros HT. destruct (Ts_cases T HT) as [x [y [HB [-> | ->]]]]; unfold hn; rewrite (hc_sign N h HN cg m n Hm Hn C Ts E LM _ HT).
  - rewrite (he_low x y HT). cbn [low snd Z.eqb Pos.eqb assure_list]. apply map_ext. intros i. unfold node, subv, dir, low, upp. cbn [fst snd]. apply z2_eq. lia.
  - rewrite (he_upp x y HT). cbn [upp snd Z.eqb Pos.eqb assure_list]. rewrite rev_range, map_map. apply map_ext_in. intros i Hi. apply in_range in Hi.
    unfold node, subv, dir, low, upp. cbn [fst snd]. apply z2_eq. lia.
Qed.
Lemma vn_sub T : In T Ts -> vn N cg C T = map (subv N (ve cg C T)) (range (N + 1)).
Proof.
  intros HT. destruct (Ts_cases T HT) as [x [y [HB [-> | ->]]]]; unfold vn; rewrite (vc_sign N h HN cg m n Hm Hn C Ts E LM _ HT).
  - rewrite (ve_low x y HT). cbn [low snd Z.eqb Pos.eqb assure_list]. apply map_ext_in. intros i Hi. apply in_range in Hi. unfold node, subv, dir, low, upp. cbn [fst snd]. apply z2_eq. lia.
  - rewrite (ve_upp x y HT). cbn [upp snd Z.eqb Pos.eqb assure_list]. rewrite rev_range, map_map. apply map_ext_in. intros i Hi. apply in_range in Hi.
    unfold node, subv, dir, low, upp. cbn [fst snd]. apply z2_eq. lia.
Qed.

Context (bd : boundary) (Vb : list Z2) (Eb : list ledge) (LO : lout C m n bd Vb Eb).
Definition hv (T : ltri) : list ledge := [he cg C T; ve cg C T].
Lemma lo_ein e : In e Eb -> ein C e.
Proof. intros H. apply (lo_on _ _ _ _ _ _ LO) in H as [A [B _]]. split; apply (lm_box _ _ _ _ _ _ _ LM); assumption. Qed.
Lemma hv_ein T e : In T Ts -> In e (hv T) -> In e E /\ ein C e.
Proof.
  intros HT H. assert (HE : In e E) by (destruct H as [<-|[<-|[]]]; [apply (he_in N h HN cg m n Hm Hn C Ts E LM T HT)|apply (ve_in N h HN cg m n Hm Hn C Ts E LM T HT)]).
  split; [exact HE|apply (lm_eins _ _ _ _ _ _ _ LM), HE].
Qed.
Lemma bd_test T e : In T Ts -> In e (hv T) -> (py_in edge_eqb (eidx C e) (b_edges bd) = true <-> In e Eb).
Proof.
  intros HT He. rewrite (lo_e _ _ _ _ _ _ LO), (py_in_eidx C e Eb (proj2 (hv_ein T e HT He)) lo_ein). apply lmem_iff.
Qed.
Lemma in_be T x : In T Ts -> (In x (be N cg C bd T) <-> exists e i, In e (hv T) /\ In e Eb /\ (i < N)%nat /\ x = sube N e i).
Proof.
  intros HT. unfold be, snodes. rewrite in_flat_map.
  assert (K : forall e ns, In e (hv T) -> ns = map (subv N e) (range (N + 1)) ->
     (In x (if py_in edge_eqb (eidx C e) (b_edges bd) then zip (removelast ns) (tl ns) else []) <-> exists i, In e Eb /\ (i < N)%nat /\ x = sube N e i)).
  { intros e ns He ->. destruct (py_in _ _ _) eqn:Q.
    - apply (bd_test T e HT He) in Q. rewrite zip_range, in_map_iff. split.
      + intros [i [<- Hi]]. apply in_range in Hi. exists i. auto.
      + intros [i [_ [Hi ->]]]. exists i. split; [reflexivity|apply in_range, Hi].
    - split; [intros []|]. intros [i [He' _]]. apply (bd_test T e HT He) in He'. congruence. }
  split.
  - intros [en [[<-|[<-|[]]] H]]; cbn [fst snd] in H; apply K in H; try (left; reflexivity); try (right; left; reflexivity); try (apply hn_sub, HT); try (apply vn_sub, HT);
      destruct H as [i [H1 [H2 H3]]]; [exists (he cg C T), i|exists (ve cg C T), i]; (split; [unfold hv; cbn; tauto|auto]).
  - intros [e [i [[<-|[<-|[]]] H]]].
    + exists (eidx C (he cg C T), hn N cg C T). split; [left; reflexivity|]. cbn [fst snd]. apply K; [left; reflexivity|apply hn_sub, HT|exists i; exact H].
    + exists (eidx C (ve cg C T), vn N cg C T). split; [right; left; reflexivity|]. cbn [fst snd]. apply K; [right; left; reflexivity|apply vn_sub, HT|exists i; exact H].
Qed.
Lemma in_bv T x : In T Ts -> (In x (bv N cg C bd T) <-> exists e i, In e (hv T) /\ In e Eb /\ (0 < i < N)%nat /\ x = subv N e i).
Proof.
  intros HT. unfold bv, snodes. rewrite in_flat_map.
  assert (K : forall e ns, In e (hv T) -> ns = map (subv N e) (range (N + 1)) ->
     (In x (if py_in edge_eqb (eidx C e) (b_edges bd) then removelast (tl ns) else []) <-> exists i, In e Eb /\ (0 < i < N)%nat /\ x = subv N e i)).
  { intros e ns He ->. destruct (py_in _ _ _) eqn:Q.
    - apply (bd_test T e HT He) in Q. rewrite mid_range, in_map_iff. split.
      + intros [i [<- Hi]]. apply in_seq in Hi. exists i. split; [exact Q|]. split; [lia|reflexivity].
      + intros [i [_ [Hi ->]]]. exists i. split; [reflexivity|apply in_seq; lia].
    - split; [intros []|]. intros [i [He' _]]. apply (bd_test T e HT He) in He'. congruence. }
  split.
  - intros [en [[<-|[<-|[]]] H]]; cbn [fst snd] in H; apply K in H; try (left; reflexivity); try (right; left; reflexivity); try (apply hn_sub, HT); try (apply vn_sub, HT);
      destruct H as [i [H1 [H2 H3]]]; [exists (he cg C T), i|exists (ve cg C T), i]; (split; [unfold hv; cbn; tauto|auto]).
  - intros [e [i [[<-|[<-|[]]] H]]].
    + exists (eidx C (he cg C T), hn N cg C T). split; [left; reflexivity|]. cbn [fst snd]. apply K; [left; reflexivity|apply hn_sub, HT|exists i; exact H].
    + exists (eidx C (ve cg C T), vn N cg C T). split; [right; left; reflexivity|]. cbn [fst snd]. apply K; [right; left; reflexivity|apply vn_sub, HT|exists i; exact H].
Qed.
(** Every boundary edge is the horizontal or vertical side of exactly one triangle. *)
Lemma bd_parent e T T' : In e Eb -> In T Ts -> In T' Ts -> In e (hv T) -> In e (hv T') -> T = T'.
Proof.
  intros He HT HT' H H'. destruct (lo_on _ _ _ _ _ _ LO e He) as [_ [_ S]].
  destruct (Ts_cases T HT) as [x [y [HB Q]]]. destruct (Ts_cases T' HT') as [x' [y' [HB' Q']]]. unfold cbox in HB, HB'. cbn [fst snd] in HB, HB'.
  destruct Q as [-> | ->], Q' as [-> | ->]; unfold hv in H, H'; rewrite ?he_low, ?he_upp, ?ve_low, ?ve_upp in H by assumption; rewrite ?he_low, ?he_upp, ?ve_low, ?ve_upp in H' by assumption;
    destruct H as [<-|[<-|[]]]; destruct H' as [H'|[H'|[]]]; unfold dir in S; cbn [fst snd] in S; unfold ledge, Z2 in *; rewrite ?pair_eq in S; rewrite !pair_eq in H'; try (exfalso; lia);
    unfold low, upp, ltri, Z2; rewrite !pair_eq; lia.
Qed.
Lemma bd_has_parent e : In e Eb -> exists T, In T Ts /\ In e (hv T).
Proof.
  intros He. destruct (lo_on _ _ _ _ _ _ LO e He) as [B1 [B2 S]]. destruct e as [[a b] [c d]]. unfold box, dir in *. cbn [fst snd] in *. rewrite !z2_eq in S.
  assert (KL : forall x y, cbox m n (x, y) -> In (low x y) Ts) by (intros x y Hxy; apply (lm_tin _ _ _ _ _ _ _ LM), low_in, Hxy).
  assert (KU : forall x y, cbox m n (x, y) -> In (upp x y) Ts) by (intros x y Hxy; apply (lm_tin _ _ _ _ _ _ _ LM), upp_in, Hxy).
  unfold cbox in KL, KU. cbn [fst snd] in KL, KU.
  destruct S as [[D [S|S]]|[D [S|S]]].
  - exists (low a b). assert (Q : In (low a b) Ts) by (apply KL; lia). split; [exact Q|]. left. rewrite (he_low _ _ Q). unfold ledge, Z2. rewrite !pair_eq. lia.
  - exists (upp a (b - 1)). assert (Q : In (upp a (b - 1)%Z) Ts) by (apply KU; lia). split; [exact Q|]. left. rewrite (he_upp _ _ Q). unfold ledge, Z2. rewrite !pair_eq. lia.
  - exists (upp a b). assert (Q : In (upp a b) Ts) by (apply KU; lia). split; [exact Q|]. right. left. rewrite (ve_upp _ _ Q). unfold ledge, Z2. rewrite !pair_eq. lia.
  - exists (low (a - 1) b). assert (Q : In (low (a - 1)%Z b) Ts) by (apply KL; lia). split; [exact Q|]. right. left. rewrite (ve_low _ _ Q). unfold ledge, Z2. rewrite !pair_eq. lia.
Qed.
Definition Vf : list Z2 := map (scale N) Vb ++ flat_map (bv N cg C bd) Ts.
Definition Ef : list ledge := flat_map (be N cg C bd) Ts.
Lemma in_Ef x : In x Ef <-> exists e i, In e Eb /\ (i < N)%nat /\ x = sube N e i.
Proof.
  unfold Ef. rewrite in_flat_map. split.
  - intros [T [HT H]]. apply in_be in H as [e [i [_ H]]]; [|exact HT]. exists e, i. exact H.
  - intros [e [i [He H]]]. destruct (bd_has_parent e He) as [T [HT Hv]]. exists T. split; [exact HT|]. apply in_be; [exact HT|]. exists e, i. auto.
Qed.
Lemma in_Vf x : In x Vf <-> (exists y, In y Vb /\ x = scale N y) \/ exists e i, In e Eb /\ (0 < i < N)%nat /\ x = subv N e i.
Proof.
  unfold Vf. rewrite in_app_iff, in_map_iff, in_flat_map. split.
  - intros [[y [<- H]]|[T [HT H]]]; [left; eauto|]. right. apply in_bv in H as [e [i [_ H]]]; [|exact HT]. exists e, i. exact H.
  - intros [[y [H ->]]|[e [i [He H]]]]; [left; eauto|]. right. destruct (bd_has_parent e He) as [T [HT Hv]]. exists T. split; [exact HT|]. apply in_bv; [exact HT|]. exists e, i. auto.
Qed.
Lemma divmod (a b i j : Z) : (0 <= i < Z.of_nat N -> 0 <= j < Z.of_nat N -> Z.of_nat N * a + i = Z.of_nat N * b + j -> a = b /\ i = j)%Z.
Proof. intros Hi Hj Q. assert (a = b)%Z by (destruct (Z.lt_trichotomy a b) as [L|[L|L]]; nia). subst. lia. Qed.
Lemma divmod0 (a b : Z) : (Z.of_nat N * a = Z.of_nat N * b -> a = b)%Z.
Proof. intros Q. nia. Qed.
Lemma sube_inj e e' i i' : In e Eb -> In e' Eb -> (i < N)%nat -> (i' < N)%nat -> sube N e i = sube N e' i' -> e = e' /\ i = i'.
Proof.
  intros He He' Hi Hi'. apply (lo_on _ _ _ _ _ _ LO) in He as [_ [_ D]]. apply (lo_on _ _ _ _ _ _ LO) in He' as [_ [_ D']].
  destruct e as [[a b] [c d]], e' as [[a' b'] [c' d']]. unfold sube, subv, dir in *. cbn [fst snd] in *. rewrite !z2_eq in D, D'. unfold ledge, Z2. rewrite !pair_eq.
  rewrite !Nat2Z.inj_add. intros [[Q1 Q2] [Q3 Q4]].
  destruct D as [[[D1 D2] _]|[[D1 D2] _]], D' as [[[D1' D2'] _]|[[D1' D2'] _]]; rewrite D1, D2, D1', D2' in *; try (exfalso; lia).
  - assert (K : (a = a' /\ Z.of_nat i = Z.of_nat i')%Z) by (apply divmod; lia). assert (b = b')%Z by (apply divmod0; lia). lia.
  - assert (K : (b = b' /\ Z.of_nat i = Z.of_nat i')%Z) by (apply divmod; lia). assert (a = a')%Z by (apply divmod0; lia). lia.
Qed.
(** An inner point of a coarse edge lies on no other coarse horizontal or vertical edge and is no coarse point. *)
Lemma subv_inj e e' i i' : In e Eb -> In e' Eb -> (0 < i < N)%nat -> (0 < i' < N)%nat -> subv N e i = subv N e' i' -> e = e' /\ i = i'.
Proof.
  intros He He' Hi Hi'. apply (lo_on _ _ _ _ _ _ LO) in He as [_ [_ D]]. apply (lo_on _ _ _ _ _ _ LO) in He' as [_ [_ D']].
  destruct e as [[a b] [c d]], e' as [[a' b'] [c' d']]. unfold subv, dir in *. cbn [fst snd] in *. rewrite !z2_eq in D, D'. unfold ledge, Z2. rewrite !pair_eq.
  intros [Q1 Q2].
  destruct D as [[[D1 D2] _]|[[D1 D2] _]], D' as [[[D1' D2'] _]|[[D1' D2'] _]]; rewrite D1, D2, D1', D2' in *.
  - assert (K : (a = a' /\ Z.of_nat i = Z.of_nat i')%Z) by (apply divmod; lia). assert (b = b')%Z by (apply divmod0; lia). lia.
  - exfalso. assert (K : (a = a' /\ Z.of_nat i = 0)%Z) by (apply divmod; lia). lia.
  - exfalso. assert (K : (a = a' /\ 0 = Z.of_nat i')%Z) by (apply divmod; lia). lia.
  - assert (K : (b = b' /\ Z.of_nat i = Z.of_nat i')%Z) by (apply divmod; lia). assert (a = a')%Z by (apply divmod0; lia). lia.
Qed.
Lemma subv_new e i y : In e Eb -> (0 < i < N)%nat -> subv N e i <> scale N y.
Proof.
  intros He Hi. apply (lo_on _ _ _ _ _ _ LO) in He as [_ [_ D]]. destruct e as [[a b] [c d]], y as [y1 y2]. unfold subv, scale, dir in *. cbn [fst snd] in *. rewrite !z2_eq in *.
  intros [Q1 Q2]. destruct D as [[[D1 D2] _]|[[D1 D2] _]]; rewrite D1, D2 in *.
  - assert (K : (a = y1 /\ Z.of_nat i = 0)%Z) by (apply divmod; lia). lia.
  - assert (K : (b = y2 /\ Z.of_nat i = 0)%Z) by (apply divmod; lia). lia.
Qed.
Lemma he_ne_ve T T' : In T Ts -> In T' Ts -> he cg C T <> ve cg C T'.
Proof. intros HT HT' Q. destruct (he_in N h HN cg m n Hm Hn C Ts E LM T HT) as [_ A]. destruct (ve_in N h HN cg m n Hm Hn C Ts E LM T' HT') as [_ B]. rewrite Q, B in A. discriminate. Qed.
Lemma NoDup_two {A B} (P : A -> bool) (f : A -> list B) a b : a <> b -> (forall x, x = a \/ x = b -> P x = true -> NoDup (f x)) ->
  (forall x y, P a = true -> P b = true -> In x (f a) -> In y (f b) -> x <> y) ->
  NoDup ((if P a then f a else []) ++ (if P b then f b else [])).
Proof.
  intros Hab Hf Hd. destruct (P a) eqn:Pa, (P b) eqn:Pb; rewrite ?app_nil_r; cbn [app]; try constructor; try (apply Hf; auto; fail).
  apply NoDup_app_; [apply Hf; auto|apply Hf; auto|]. intros x Hx Hy. apply (Hd x x); auto.
Qed.
Lemma Ef_NoDup : NoDup Ef.
Proof.
  unfold Ef. apply NoDup_flat_map; [apply (lm_tnd _ _ _ _ _ _ _ LM)| |].
  - intros T HT. unfold be, snodes. cbn [flat_map fst snd]. rewrite app_nil_r, (hn_sub T HT), (vn_sub T HT), !zip_range.
    apply (NoDup_two (fun e => py_in edge_eqb (eidx C e) (b_edges bd)) (fun e => map (fun i => (subv N e i, subv N e (i + 1))) (range N))).
    + apply he_ne_ve; assumption.
    + intros e He Q. assert (HE : In e Eb) by (apply (bd_test T e HT) in Q; [exact Q|unfold hv; cbn; intuition congruence]).
      apply NoDup_map_inj_in; [apply NoDup_range|]. intros i j Hi Hj K. apply in_range in Hi, Hj. apply (sube_inj e e i j HE HE Hi Hj K).
    + intros x y Q1 Q2 Hx Hy K. apply (bd_test T _ HT) in Q1; [|left; reflexivity]. apply (bd_test T _ HT) in Q2; [|right; left; reflexivity].
      apply in_map_iff in Hx as [i [<- Hi]]. apply in_map_iff in Hy as [j [<- Hj]]. apply in_range in Hi, Hj.
      apply (he_ne_ve T T HT HT). apply (sube_inj _ _ i j Q1 Q2 Hi Hj K).
  - intros T T' x HT HT' H H'. apply in_be in H as [e [i [Hv [He [Hi Ex]]]]]; [|exact HT]. apply in_be in H' as [e' [i' [Hv' [He' [Hi' Ex']]]]]; [|exact HT'].
    rewrite Ex in Ex'. destruct (sube_inj e e' i i' He He' Hi Hi' Ex') as [<- _]. apply (bd_parent e T T'); assumption.
Qed.
Lemma Vf_NoDup : NoDup Vf.
Proof.
  unfold Vf. apply NoDup_app_.
  - apply NoDup_map_inj_in; [apply (lo_vnd _ _ _ _ _ _ LO)|]. intros a b _ _. apply scale_inj, HN.
  - apply NoDup_flat_map; [apply (lm_tnd _ _ _ _ _ _ _ LM)| |].
    + intros T HT. unfold bv, snodes. cbn [flat_map fst snd]. rewrite app_nil_r, (hn_sub T HT), (vn_sub T HT), !mid_range.
      apply (NoDup_two (fun e => py_in edge_eqb (eidx C e) (b_edges bd)) (fun e => map (subv N e) (seq 1 (N - 1)))).
      * apply he_ne_ve; assumption.
      * intros e He Q. assert (HE : In e Eb) by (apply (bd_test T e HT) in Q; [exact Q|unfold hv; cbn; intuition congruence]).
        apply NoDup_map_inj_in; [apply seq_NoDup|]. intros i j Hi Hj K. apply in_seq in Hi, Hj. apply (subv_inj e e i j HE HE); [lia|lia|exact K].
      * intros x y Q1 Q2 Hx Hy K. apply (bd_test T _ HT) in Q1; [|left; reflexivity]. apply (bd_test T _ HT) in Q2; [|right; left; reflexivity].
        apply in_map_iff in Hx as [i [<- Hi]]. apply in_map_iff in Hy as [j [<- Hj]]. apply in_seq in Hi, Hj.
        apply (he_ne_ve T T HT HT). apply (subv_inj _ _ i j Q1 Q2); [lia|lia|exact K].
    + intros T T' x HT HT' H H'. apply in_bv in H as [e [i [Hv [He [Hi Ex]]]]]; [|exact HT]. apply in_bv in H' as [e' [i' [Hv' [He' [Hi' Ex']]]]]; [|exact HT'].
      rewrite Ex in Ex'. destruct (subv_inj e e' i i' He He' Hi Hi' Ex') as [<- _]. apply (bd_parent e T T'); assumption.
  - intros x Hx Hy. apply in_map_iff in Hx as [y [<- _]]. apply in_flat_map in Hy as [T [HT Hy]]. apply in_bv in Hy as [e [i [_ [He [Hi Q]]]]]; [|exact HT].
    apply (subv_new e i y He Hi). symmetry. exact Q.
Qed.
Lemma sube_onside e i : In e Eb -> (i < N)%nat -> lonside (m * N) (n * N) (sube N e i).
Proof.
  intros He Hi. apply (lo_on _ _ _ _ _ _ LO) in He as [B1 [B2 D]]. destruct e as [[a b] [c d]]. unfold lonside, sube, subv, box, dir in *. cbn [fst snd] in *. rewrite !z2_eq in *.
  rewrite !Nat2Z.inj_mul, !Nat2Z.inj_add. destruct D as [[[D1 D2] D]|[[D1 D2] D]]; rewrite D1, D2 in *; (split; [nia|]); (split; [nia|]); [left|right]; (split; [lia|]); destruct D as [D|D]; rewrite D; [left|right|left|right]; lia.
Qed.
Lemma idx_scale x : In x C -> idx LL' (scale N x) = idx C x.
Proof.
  intros Hx. unfold LL', LL. rewrite idx_adds by (apply in_map, Hx). unfold L0. apply idx_map. intros a b. apply scale_inj, HN.
Qed.
Lemma fine_lout : lout LL' (m * N) (n * N) (BB N cg C LL' bd Ts) Vf Ef.
Proof.
  split.
  - unfold BB, Vf. cbn [b_vertices]. rewrite map_app, map_map, (lo_v _ _ _ _ _ _ LO). f_equal. apply map_ext_in. intros x Hx. symmetry. apply idx_scale, (lm_box _ _ _ _ _ _ _ LM), (lo_vin _ _ _ _ _ _ LO), Hx.
  - apply Vf_NoDup.
  - intros x Hx. apply in_Vf in Hx as [[y [Hy ->]]|[e [i [He [Hi ->]]]]].
    + apply (lo_vin _ _ _ _ _ _ LO) in Hy. destruct y as [a b]. unfold box, scale in *. cbn [fst snd] in *. rewrite !Nat2Z.inj_mul. nia.
    + destruct (sube_onside e i He ltac:(lia)) as [B _]. exact B.
  - reflexivity.
  - apply Ef_NoDup.
  - intros x Hx. apply in_Ef in Hx as [e [i [He [Hi ->]]]]. apply sube_onside; assumption.
Qed.
End RB.
