(** refine on a lattice grid, for any scalars: the index part of the result does not depend on the arithmetic
    as long as it recognises lattice points. *)
From Coq Require Import Reals Lra Lia.
From Verif.Model Require Import Py Num Tensors Domain Refine.
From Verif.Proofs Require Import Lib Lattice RefineP RefineTri RefineAll.

Lemma F2_nth {A B} (P : A -> B -> Prop) l l' i a : Forall2 P l l' -> nth_error l i = Some a -> exists b, nth_error l' i = Some b /\ P a b.
Proof.
  intros H. revert i. induction H as [|x y l l' Hxy H IH]; intros [|i] E; cbn in *; try discriminate; [injection E as <-; eauto|apply IH, E].
Qed.
Lemma F2_app {A B} (P : A -> B -> Prop) a a' b b' : Forall2 P a a' -> Forall2 P b b' -> Forall2 P (a ++ b) (a' ++ b').
Proof. apply Forall2_app. Qed.
Lemma F2_map_l {A B C} (P : B -> C -> Prop) (f : A -> B) l l' : Forall2 (fun x y => P (f x) y) l l' -> Forall2 P (map f l) l'.
Proof. induction 1; cbn; constructor; assumption. Qed.

Definition gwith {T} (g : grid T) es mean : grid T :=
  mkGrid (g_vertices g) es (g_triangles g) (g_boundary g) (g_dirichlet g) (g_neumann g) (g_points g) mean.

Section Gen.
Context {T : Type} {NT : Num T} (n : nat) (Hn : (1 <= n)%nat).
Context (kb : nat -> nat -> bary T) (Hkb : forall k l, (k <= n)%nat -> (l <= n)%nat -> kl_bary n k l = Ok (kb k l)).
Context (fr : nat -> T) (Hfr : forall k, (k <= n)%nat -> frac k n = Ok (fr k)).
Context (rep rep0 : Z2 -> vector T -> Prop).
Context (mok : nat -> option T -> Prop) (J : nat).
Context (H0 : mok 0 None).
Context (Hfalse : forall j m x y p q, mok j m -> rep x p -> rep y q -> x <> y -> points_coincide m p q = Ok false).
Context (Htrue : forall j m x p q, mok (S j) m -> rep x p -> rep x q -> points_coincide m p q = Ok true).
Context (Happ : forall j m x y p q pts es i i', (j < J)%nat -> mok j m -> rep x p -> rep y q -> short (x, y) -> length es = j ->
  nth_error pts i = Some p -> nth_error pts i' = Some q -> py_in edge_eqb (i, i') es = false -> py_in edge_eqb (i', i) es = false ->
  exists m', append_edge_raw pts (es, m) (i, i') = Ok (es ++ [(i, i')], m') /\ mok (S j) m').

(** ** Finding points *)
Lemma find_gen j m L P x p i : mok j m -> (In x L -> (1 <= j)%nat) -> Forall2 rep L P -> rep x p ->
  find_point m i P p = Ok (if memz x L then Some (i + idx L x)%nat else None).
Proof.
  intros Hm Hj F Hx. revert i Hj. induction F as [|y q L P Hy F IH]; intros i Hj; [reflexivity|]. cbn [find_point].
  unfold memz. cbn [existsb idx]. destruct (z2eqb_spec x y) as [->|Hne].
  - cbn [orb]. assert (1 <= j)%nat by (apply Hj; left; reflexivity). destruct j as [|j]; [lia|]. rewrite (Htrue j m y p q Hm Hx Hy). cbn [bind]. rewrite Nat.add_0_r. reflexivity.
  - cbn [orb]. rewrite (Hfalse j m x y p q Hm Hx Hy Hne). cbn [bind]. rewrite IH by (intros K; apply Hj; right; exact K). fold (memz x L). destruct (memz x L); [|reflexivity]. do 2 f_equal. lia.
Qed.

(** ** Edges *)
Lemma append_gen (g : grid T) L P E e : g_points g = P -> Forall2 rep L P -> g_edges g = map (eidx L) E -> mok (length E) (g_mean g) ->
  (forall e', In e' E -> ein L e') -> ein L e -> short e -> (length E < J)%nat ->
  exists m, append_edge g (eidx L e) = Ok (gwith g (map (eidx L) (addle E e)) m) /\ mok (length (addle E e)) m.
Proof.
  intros HP HF HE HM HEin He Hsh HJ. unfold append_edge. destruct He as [He1 He2].
  destruct (F2_nth _ _ _ _ _ HF (idx_nth L _ He1)) as (p & Np & Rp). destruct (F2_nth _ _ _ _ _ HF (idx_nth L _ He2)) as (q & Nq & Rq).
  unfold addle. destruct (lmem e E || lmem (lflip e) E)%bool eqn:B.
  - exists (g_mean g). split; [|exact HM]. unfold append_edge_raw. rewrite HE, eidx_flip.
    rewrite (py_in_eidx L e E (conj He1 He2) HEin), (py_in_eidx L (lflip e) E (conj He2 He1) HEin), <- Bool.negb_orb, B. cbn [negb bind]. reflexivity.
  - apply Bool.orb_false_iff in B as [B1 B2].
    destruct (Happ (length E) (g_mean g) (fst e) (snd e) p q (g_points g) (g_edges g) (idx L (fst e)) (idx L (snd e))) as (m' & Q & Hm'); try assumption; try (rewrite HP; assumption).
    { rewrite HE, map_length. reflexivity. }
    { rewrite HE. change (idx L (fst e), idx L (snd e)) with (eidx L e). rewrite (py_in_eidx L e E (conj He1 He2) HEin). exact B1. }
    { rewrite HE. change (idx L (snd e), idx L (fst e)) with (eidx L (lflip e)). rewrite (py_in_eidx L (lflip e) E (conj He2 He1) HEin). exact B2. }
    exists m'. change (eidx L e) with (idx L (fst e), idx L (snd e)) at 1. rewrite Q. cbn [bind]. split; [|rewrite app_length, Nat.add_1_r; exact Hm'].
    rewrite HE, map_app. reflexivity.
Qed.
Lemma addle_len E e : (length (addle E e) <= S (length E))%nat.
Proof. destruct (addle_cases E e) as [[_ ->]|[_ [_ ->]]]; [lia|]. rewrite app_length. cbn. lia. Qed.
Lemma append_list_gen L P : Forall2 rep L P -> forall es (g : grid T) E, g_points g = P -> g_edges g = map (eidx L) E -> mok (length E) (g_mean g) ->
  (forall e', In e' E -> ein L e') -> (forall e, In e es -> ein L e /\ short e) -> (length E + length es <= J)%nat ->
  exists m, foldM append_edge (map (eidx L) es) g = Ok (gwith g (map (eidx L) (fold_left addle es E)) m) /\ mok (length (fold_left addle es E)) m.
Proof.
  intros HF. induction es as [|e es IH]; intros g E HP HE HM HEin Hes HJ; cbn [length] in HJ.
  - exists (g_mean g). split; [|exact HM]. cbn. rewrite <- HE. unfold gwith. destruct g; reflexivity.
  - destruct (Hes e (or_introl eq_refl)) as [He Hsh]. destruct (append_gen g L P E e HP HF HE HM HEin He Hsh) as [m [Q Hm]]; [lia|].
    cbn [map foldM fold_left]. rewrite Q. cbn [bind]. pose proof (addle_len E e) as AL.
    destruct (IH (gwith g (map (eidx L) (addle E e)) m) (addle E e)) as [m' [Q' Hm']]; try reflexivity; try exact HP; try exact Hm.
    + intros e' He'. apply addle_in in He' as [He'| ->]; [apply HEin, He'|exact He].
    + intros e' He'. apply Hes. right. exact He'.
    + lia.
    + exists m'. split; [rewrite Q'; reflexivity|exact Hm'].
Qed.

(** ** The vertex loop *)
Context (combine_ok : forall (X : ltri) p1 p2 p3 k l, oriented X -> rep0 (c1 X) p1 -> rep0 (c2 X) p2 -> rep0 (c3 X) p3 -> (k + l <= n)%nat ->
  exists p, combine_points (Bary_assert_bounds n0 n1 (kb k l)) (p1, p2, p3) = Ok p /\ rep (node n X k l) p).
Definition corner (kl : nat * nat) : Prop := kl = (0, 0)%nat \/ kl = (n, 0)%nat \/ kl = (0, n)%nat.
Lemma NoDup_kl_all : NoDup (kl_all n).
Proof. unfold kl_all. apply NoDup_kl; [apply NoDup_range|]. intros l. apply NoDup_range. Qed.
Lemma vertex_loop_gen (X : ltri) (g : grid T) (L : list Z2) P j p1 p2 p3 : oriented X ->
  rep0 (c1 X) p1 -> rep0 (c2 X) p2 -> rep0 (c3 X) p3 ->
  In (scale n (c1 X)) L -> In (scale n (c2 X)) L -> In (scale n (c3 X)) L ->
  mok j (g_mean g) -> g_points g = P -> Forall2 rep L P -> g_vertices g = range (length L) ->
  (j = 0%nat -> forall k l, (k + l <= n)%nat -> ~ corner (k, l) -> ~ In (node n X k l) L) ->
  let tvs0 := dset (0, n)%nat (idx L (scale n (c3 X))) (dset (n, 0)%nat (idx L (scale n (c2 X))) (dset (0, 0)%nat (idx L (scale n (c1 X))) [])) in
  let L' := adds L (nodes n X) in
  exists tvs P', foldM (vertex_step n (p1, p2, p3)) (kl_all n) (g, length L, tvs0) = Ok (set_vp g (range (length L')) P', length L', tvs) /\ Forall2 rep L' P' /\
    (exists new, P' = P ++ new) /\
    forall k l, (k + l <= n)%nat -> tvget tvs k l = Ok (idx L' (node n X k l)).
Proof.
  intros HO R1 R2 R3 I1 I2 I3 HM HP HF HV Hj tvs0 L'.
  set (Lp := fun pre => adds L (map (fun kl => node n X (fst kl) (snd kl)) pre)).
  destruct (foldM_inv (vertex_step n (p1, p2, p3)) (fun pre st => exists tvs P',
      st = (set_vp g (range (length (Lp pre))) P', length (Lp pre), tvs) /\ Forall2 rep (Lp pre) P' /\ (exists new, P' = P ++ new) /\
      forall k l, (In (k, l) pre \/ corner (k, l)) -> dfind pair_eqb (k, l) tvs = Some (idx (Lp pre) (node n X k l)))
      (kl_all n) (g, length L, tvs0)) as [st [Q [tvs [P' [-> [HF' [HN HT]]]]]]].
  - exists tvs0, P. split; [|split; [exact HF|split; [exists []; rewrite app_nil_r; reflexivity|]]].
    + unfold Lp. cbn [map]. change (adds L []) with L. rewrite <- HP, <- HV. unfold set_vp. destruct g; reflexivity.
    + unfold Lp. cbn [map]. change (adds L []) with L. intros k l [[]|HC]. unfold tvs0. rewrite !dset_find.
      destruct (pair_eqb (k, l) (0, n)%nat) eqn:E1; [apply pair_eqb_spec in E1; injection E1 as -> ->; rewrite node_c3; reflexivity|].
      destruct (pair_eqb (k, l) (n, 0)%nat) eqn:E2; [apply pair_eqb_spec in E2; injection E2 as -> ->; rewrite node_c2; reflexivity|].
      destruct (pair_eqb (k, l) (0, 0)%nat) eqn:E3; [apply pair_eqb_spec in E3; injection E3 as -> ->; rewrite node_c1; reflexivity|].
      exfalso. destruct HC as [C|[C|C]]; injection C as -> ->; [rewrite (proj2 (pair_eqb_spec _ _) eq_refl) in E3|rewrite (proj2 (pair_eqb_spec _ _) eq_refl) in E2|rewrite (proj2 (pair_eqb_spec _ _) eq_refl) in E1]; discriminate.
  - intros pre [k l] post st Hsplit [tvs [P' [-> [HF' [HN HT]]]]].
    assert (Hkl : (k + l <= n)%nat) by (apply in_kl_all; rewrite Hsplit; apply in_or_app; right; left; reflexivity).
    assert (Hfresh : ~ In (k, l) pre). { pose proof NoDup_kl_all as ND. rewrite Hsplit in ND. apply NoDup_remove_2 in ND. intros K. apply ND, in_or_app. left. exact K. }
    assert (ELp : Lp (pre ++ [(k, l)]) = add (Lp pre) (node n X k l)) by (unfold Lp; rewrite map_app; apply adds_snoc).
    assert (Hcin : forall k l, corner (k, l) -> In (node n X k l) (Lp pre)).
    { intros k' l' HC. unfold Lp. apply adds_in. left. destruct HC as [C|[C|C]]; injection C as -> ->; rewrite ?node_c1, ?node_c2, ?node_c3; assumption. }
    assert (Hpin : forall k l, In (k, l) pre -> In (node n X k l) (Lp pre)).
    { intros k' l' HI. unfold Lp. apply adds_in. right. apply in_map_iff. exists (k', l'). auto. }
    unfold vertex_step.
    destruct ((Nat.eqb k 0 && Nat.eqb l 0 || Nat.eqb k n && Nat.eqb l 0 || Nat.eqb k 0 && Nat.eqb l n)%bool) eqn:EC.
    + assert (HC : corner (k, l)).
      { rewrite !Bool.orb_true_iff, !Bool.andb_true_iff, !Nat.eqb_eq in EC. unfold corner. destruct EC as [[[-> ->]|[-> ->]]|[-> ->]]; auto. }
      eexists. split; [reflexivity|]. exists tvs, P'. rewrite ELp. destruct (add_cases (Lp pre) (node n X k l)) as [[_ ->]|[Hni _]]; [|destruct (Hni (Hcin k l HC))].
      split; [reflexivity|]. split; [exact HF'|]. split; [exact HN|]. intros k' l' [H'|H']; [apply in_app_iff in H' as [H'|[E|[]]]|]; apply HT; auto. injection E as <- <-. auto.
    + assert (HnC : ~ corner (k, l)).
      { intros HC. rewrite !Bool.orb_false_iff, !Bool.andb_false_iff, !Nat.eqb_neq in EC. destruct HC as [C|[C|C]]; injection C as -> ->; lia. }
      rewrite Hkb by lia. cbn [bind]. destruct (combine_ok X p1 p2 p3 k l HO R1 R2 R3 Hkl) as (p & EP & RP). rewrite EP. cbn [bind].
      unfold point_to_vertex. cbn [set_vp g_mean g_points]. rewrite (find_gen j _ (Lp pre) P' (node n X k l) p 0 HM); [|  |exact HF'|exact RP].
      2:{ intros HI. destruct j as [|j]; [exfalso|lia]. unfold Lp in HI. apply adds_in in HI as [HI|HI]; [exact (Hj eq_refl k l Hkl HnC HI)|].
          apply in_map_iff in HI as ([k' l'] & E & HI). cbn [fst snd] in E. apply (node_inj n X _ _ _ _ HO) in E as [-> ->]. exact (Hfresh HI). }
      cbn [bind]. rewrite ELp. destruct (add_cases (Lp pre) (node n X k l)) as [[Hi ->]|[Hni E]].
      * rewrite (proj2 (memz_iff _ _) Hi). cbn [Nat.add]. eexists. split; [reflexivity|]. eexists _, P'. split; [reflexivity|]. split; [exact HF'|]. split; [exact HN|].
        intros k' l' H'. rewrite dset_find. destruct (pair_eqb (k', l') (k, l)) eqn:E; [apply pair_eqb_spec in E; injection E as -> ->; reflexivity|].
        apply HT. destruct H' as [H'|H']; [|auto]. apply in_app_iff in H' as [H'|[E'|[]]]; [auto|]. injection E' as <- <-.
        rewrite (proj2 (pair_eqb_spec _ _) eq_refl) in E. discriminate.
      * destruct (memz (node n X k l) (Lp pre)) eqn:Em; [apply memz_iff in Em; contradiction|]. rewrite E. cbn [set_vp g_vertices].
        rewrite app_length. cbn [length]. rewrite Nat.add_1_r. eexists. split; [reflexivity|]. eexists _, (P' ++ [p]). split.
        { rewrite range_snoc. reflexivity. }
        split; [apply F2_app; [exact HF'|repeat constructor; exact RP]|]. split; [destruct HN as [new ->]; exists (new ++ [p]); rewrite app_assoc; reflexivity|].
        intros k' l' H'. rewrite dset_find. destruct (pair_eqb (k', l') (k, l)) eqn:E2.
        -- apply pair_eqb_spec in E2. injection E2 as -> ->. f_equal. symmetry.
           clear - Hni. induction (Lp pre) as [|y M IH]; cbn [app idx length].
           ++ destruct (z2eqb_spec (node n X k l) (node n X k l)); [reflexivity|congruence].
           ++ destruct (z2eqb_spec (node n X k l) y) as [E|E]; [exfalso; apply Hni; left; congruence|]. f_equal. apply IH. intros H. apply Hni. right. exact H.
        -- assert (H'' : In (k', l') pre \/ corner (k', l')).
           { destruct H' as [H'|H']; [|auto]. apply in_app_iff in H' as [H'|[E'|[]]]; [auto|]. injection E' as <- <-.
             rewrite (proj2 (pair_eqb_spec _ _) eq_refl) in E2. discriminate. }
           rewrite (HT k' l' H''). f_equal. symmetry. apply idx_app. destruct H'' as [H''|H'']; auto.
  - exists tvs, P'. split; [exact Q|]. split; [exact HF'|]. split; [exact HN|]. intros k l Hkl. unfold tvget, dget. rewrite (HT k l) by (left; apply in_kl_all, Hkl). reflexivity.
Qed.

(** ** Triangles *)
Definition gadd_all (L : list Z2) (tri : triangle) (sq : list (ltri * Refine.bary3 T)) (st : rstate T) : rstate T :=
  mkR (set_triangles (rs_grid st) (g_triangles (rs_grid st) ++ map (fun s => tidx L (fst s)) sq))
      (rev (map (fun s => (tidx L (fst s), tri)) sq) ++ rs_ct st) (rev (map (fun s => (tidx L (fst s), snd s)) sq) ++ rs_cb st) (rs_ce st) (rs_cc st).
Lemma gadd_all_app L tri sq sq' st : gadd_all L tri sq' (gadd_all L tri sq st) = gadd_all L tri (sq ++ sq') st.
Proof. unfold gadd_all. cbn [rs_grid rs_ct rs_cb rs_ce rs_cc set_triangles g_triangles]. rewrite !map_app, !rev_app_distr, <- !app_assoc. reflexivity. Qed.
Lemma gadd_all_nil L tri st : gadd_all L tri [] st = st.
Proof. unfold gadd_all. cbn [map rev app]. rewrite app_nil_r. destruct st as [gg ? ? ? ?]. unfold set_triangles. destruct gg; reflexivity. Qed.
Definition glq (kl : nat * nat) : Refine.bary3 T := let '(k, l) := kl in (kb k l, kb (k + 1) l, kb k (l + 1)).
Definition guq (kl : nat * nat) : Refine.bary3 T := let '(k, l) := kl in (kb k (l + 1), kb (k - 1) (l + 1), kb k l).
Definition gsubq (X : ltri) : list (ltri * Refine.bary3 T) := map (fun kl => (lsub n X kl, glq kl)) (kl_lower n) ++ map (fun kl => (usub n X kl, guq kl)) (kl_upper n).
Lemma gsubq_subs X : map fst (gsubq X) = subs n X.
Proof. unfold gsubq, subs. rewrite map_app, !map_map. reflexivity. Qed.

Section GSteps.
Context (X : ltri) (HX : oriented X) (L : list Z2) (tvs : dict (nat * nat) vertex) (tri : triangle).
Context (Htvs : forall k l, (k + l <= n)%nat -> tvget tvs k l = Ok (idx L (node n X k l))).
Context (HL : forall x, In x (nodes n X) -> In x L).
Lemma gnode_in k l : (k + l <= n)%nat -> In (node n X k l) L.
Proof. intros H. apply HL, in_nodes. exists k, l. auto. Qed.
Lemma glower_loop st : Forall2 rep L (g_points (rs_grid st)) ->
  foldM (lower_step n tri tvs) (kl_lower n) st = Ok (gadd_all L tri (map (fun kl => (lsub n X kl, glq kl)) (kl_lower n)) st).
Proof.
  intros HP. destruct (foldM_inv (lower_step n tri tvs) (fun pre s => s = gadd_all L tri (map (fun kl => (lsub n X kl, glq kl)) pre) st) (kl_lower n) st) as [s [Q ->]].
  - symmetry. apply gadd_all_nil.
  - intros pre [k l] post s E ->. assert (Hkl : (k + l < n)%nat) by (apply in_kl_lower; rewrite E; apply in_or_app; right; left; reflexivity).
    eexists. split; [|rewrite map_app; cbn [map]; rewrite <- gadd_all_app; reflexivity].
    unfold lower_step. rewrite !Htvs by lia. cbn [bind].
    assert (K : forall k l, (k + l <= n)%nat -> exists p, py_nth (g_points (rs_grid (gadd_all L tri (map (fun kl => (lsub n X kl, glq kl)) pre) st))) (idx L (node n X k l)) = Ok p).
    { intros k' l' H'. destruct (F2_nth _ _ _ _ _ HP (idx_nth L _ (gnode_in k' l' H'))) as (p & Np & _). exists p. unfold py_nth. cbn. rewrite Np. reflexivity. }
    destruct (K k l) as [p0 ->]; [lia|]. destruct (K (k + 1)%nat l) as [p1 ->]; [lia|]. cbn [bind]. rewrite !Hkb by lia. cbn [bind].
    destruct (lsub_corners n X k l) as [L1 [L2 L3]].
    change (idx L (node n X k l), idx L (node n X (k + 1) l), idx L (node n X k (l + 1))) with (idx L (node n X k l), idx L (node n X (k + 1) l), idx L (node n X k (l + 1))).
    rewrite <- L1, <- L2, <- L3. reflexivity.
  - exact Q.
Qed.
Lemma gupper_loop st :
  foldM (upper_step n tri tvs) (kl_upper n) st = Ok (gadd_all L tri (map (fun kl => (usub n X kl, guq kl)) (kl_upper n)) st).
Proof.
  destruct (foldM_inv (upper_step n tri tvs) (fun pre s => s = gadd_all L tri (map (fun kl => (usub n X kl, guq kl)) pre) st) (kl_upper n) st) as [s [Q ->]].
  - symmetry. apply gadd_all_nil.
  - intros pre [k l] post s E ->. assert (Hkl : (1 <= k /\ k + l < n)%nat) by (apply in_kl_upper; rewrite E; apply in_or_app; right; left; reflexivity).
    eexists. split; [|rewrite map_app; cbn [map]; rewrite <- gadd_all_app; reflexivity].
    unfold upper_step. rewrite !Htvs by lia. cbn [bind]. rewrite !Hkb by lia. cbn [bind].
    destruct (usub_corners n X k l) as [L1 [L2 L3]]; [lia|]. rewrite <- L1, <- L2, <- L3. reflexivity.
  - exact Q.
Qed.
Context (hc vc dc : bool).
Lemma gedge_step_ok (g : grid T) k l : (k + l < n)%nat -> edge_step hc vc dc tvs g (k, l) = foldM append_edge (map (eidx L) (edges3 n X hc vc dc (k, l))) g.
Proof.
  intros H. unfold edge_step. rewrite !Htvs by lia. cbn [bind edges3 map foldM].
  change (idx L (node n X k l), idx L (node n X (k + 1) l)) with (eidx L (node n X k l, node n X (k + 1) l)).
  change (idx L (node n X (k + 1) l), idx L (node n X k (l + 1))) with (eidx L (node n X (k + 1) l, node n X k (l + 1))).
  change (idx L (node n X k l), idx L (node n X k (l + 1))) with (eidx L (node n X k l, node n X k (l + 1))).
  rewrite !assure_eidx. destruct (append_edge g _) as [g1|]; [|reflexivity]. cbn [bind].
  destruct (append_edge g1 _) as [g2|]; [|reflexivity]. cbn [bind]. destruct (append_edge g2 _); reflexivity.
Qed.
Lemma gedge_loop_eq l (g : grid T) : (forall kl, In kl l -> (fst kl + snd kl < n)%nat) ->
  foldM (edge_step hc vc dc tvs) l g = foldM append_edge (map (eidx L) (flat_map (edges3 n X hc vc dc) l)) g.
Proof.
  revert g. induction l as [|[k l'] l IH]; intros g H; [reflexivity|]. cbn [foldM flat_map]. rewrite map_app, foldM_app.
  rewrite gedge_step_ok by (apply (H (k, l')); left; reflexivity). destruct (foldM append_edge _ g); [|reflexivity]. cbn [bind].
  apply IH. intros kl Hkl. apply H. right. exact Hkl.
Qed.
Lemma gedge_loop (g : grid T) P E : g_points g = P -> Forall2 rep L P -> g_edges g = map (eidx L) E -> mok (length E) (g_mean g) -> (forall e', In e' E -> ein L e') ->
  (length E + length (oedges n X hc vc dc) <= J)%nat ->
  exists m, foldM (edge_step hc vc dc tvs) (kl_lower n) g = Ok (gwith g (map (eidx L) (fold_left addle (oedges n X hc vc dc) E)) m) /\ mok (length (fold_left addle (oedges n X hc vc dc) E)) m.
Proof.
  intros HP HF HE HM HI HJ. rewrite gedge_loop_eq by (intros [k l] H; apply in_kl_lower in H; exact H).
  apply (append_list_gen L P HF (oedges n X hc vc dc) g E HP HE HM HI); [|exact HJ]. apply oedges_ok; assumption.
Qed.
Context (he ve de : edge).
Definition gwt (i : nat) : T * T := (nsub n1 (fr i), nsub n1 (fr (i + 1))).
Definition gcent (i : nat) : list (ledge * edge * (T * T)) :=
  [ (orient dc (node n X 0 (n - i), node n X 0 (n - (i + 1))), de, assure_weights dc (gwt i));
    (orient vc (node n X (n - i) i, node n X (n - (i + 1)) (i + 1)), ve, assure_weights vc (gwt i));
    (orient hc (node n X i 0, node n X (i + 1) 0), he, assure_weights hc (gwt i)) ].
Definition gadd_ce (xs : list (ledge * edge * (T * T))) (st : rstate T) : rstate T :=
  mkR (rs_grid st) (rs_ct st) (rs_cb st) (map (fun x => (eidx L (fst (fst x)), snd (fst x))) xs ++ rs_ce st) (map (fun x => (eidx L (fst (fst x)), snd x)) xs ++ rs_cc st).
Definition gcents : list (ledge * edge * (T * T)) := flat_map gcent (rev (range n)).
Lemma gcoarse_loop st : foldM (coarse_edge_step n hc vc dc he ve de tvs) (range n) st = Ok (gadd_ce gcents st).
Proof.
  destruct (foldM_inv (coarse_edge_step n hc vc dc he ve de tvs) (fun pre s => s = gadd_ce (flat_map gcent (rev pre)) st) (range n) st) as [s [Q ->]].
  - unfold gadd_ce. cbn. destruct st; reflexivity.
  - intros pre i post s E ->. assert (Hi : (i < n)%nat) by (apply in_range; rewrite E; apply in_or_app; right; left; reflexivity).
    eexists. split; [|unfold gadd_ce; rewrite rev_app_distr; cbn [rev app flat_map rs_grid rs_ct rs_cb rs_ce rs_cc]; rewrite !map_app, <- !app_assoc; reflexivity].
    unfold coarse_edge_step. rewrite !Hfr by lia. cbn [bind]. rewrite !Htvs by lia. cbn [bind].
    change (idx L (node n X i 0), idx L (node n X (i + 1) 0)) with (eidx L (node n X i 0, node n X (i + 1) 0)).
    change (idx L (node n X (n - i) i), idx L (node n X (n - (i + 1)) (i + 1))) with (eidx L (node n X (n - i) i, node n X (n - (i + 1)) (i + 1))).
    change (idx L (node n X 0 (n - i)), idx L (node n X 0 (n - (i + 1)))) with (eidx L (node n X 0 (n - i), node n X 0 (n - (i + 1)))).
    rewrite !assure_eidx. reflexivity.
  - exact Q.
Qed.
End GSteps.

(** ** The whole call *)
Context (cg : grid T) (cgR : grid R) (C : list Z2) (Ts : list ltri).
Context (HCp : Forall2 rep0 C (g_points cg)) (HCv : g_vertices cg = range (length C)) (HCt : g_triangles cg = map (tidx C) Ts).
Context (HR : g_edges cg = g_edges cgR /\ g_boundary cg = g_boundary cgR /\ g_dirichlet cg = g_dirichlet cgR /\ g_neumann cg = g_neumann cgR).
Context (HTs : forall X, In X Ts -> oriented X /\ tin C X).
Context (Hrep : forall x p, rep0 x p -> rep (scale n x) p).
Context (Hassert : forall X p1 p2 p3, In X Ts -> rep0 (c1 X) p1 -> rep0 (c2 X) p2 -> rep0 (c3 X) p3 ->
  exists y1 y2 x2 x3, Vector_get p1 1 = Ok y1 /\ Vector_get p2 1 = Ok y2 /\ Vector_get p2 0 = Ok x2 /\ Vector_get p3 0 = Ok x3 /\
    nltb (nabs (nsub y1 y2)) assert_eps = true /\ nltb (nabs (nsub x2 x3)) assert_eps = true).
Definition gces (X : ltri) := gcents X (hc cgR C X) (vc cgR C X) (dc cgR C X) (eidx C (he cgR C X)) (eidx C (ve cgR C X)) (eidx C (de cgR C X)).

Lemma node_fresh X k l : oriented X -> (k + l <= n)%nat -> ~ corner (k, l) -> ~ In (node n X k l) (L0 n C).
Proof.
  intros HO Hkl Hc HI. unfold L0 in HI. apply in_map_iff in HI as (z & E & _). clear - HO Hkl Hc E Hn. unfold node, scale in E. injection E as E1 E2.
  assert (D : forall (j : nat) (w s a : Z), (s = 1 \/ s = -1)%Z -> (0 <= Z.of_nat j <= Z.of_nat n)%Z -> (Z.of_nat n * w = Z.of_nat n * a + s * Z.of_nat j)%Z -> j = 0%nat \/ j = n).
  { intros j w s a Hs Hj E. assert (Z.of_nat n * (w - a) = s * Z.of_nat j)%Z as E' by nia.
    assert (- 1 <= w - a <= 1)%Z by (destruct Hs; nia). assert (w - a = 0 \/ w - a = 1 \/ w - a = -1)%Z as [Q|[Q|Q]] by lia; rewrite Q in E'; destruct Hs; subst s; lia. }
  unfold oriented in HO. destruct (D l (snd z) (snd X) (snd (fst X)) HO) as [->| ->]; [lia|lia| |].
  - destruct (D k (fst z) (snd X) (fst (fst X)) HO) as [->| ->]; [lia|lia| |]; apply Hc; unfold corner; auto.
  - assert (k = 0%nat) as -> by lia. apply Hc. unfold corner; auto.
Qed.
Lemma kl_lower_pos : (1 <= length (kl_lower n))%nat.
Proof. assert (H : In (0, 0)%nat (kl_lower n)) by (apply in_kl_lower; lia). destruct (kl_lower n); [destruct H|cbn; lia]. Qed.
Lemma oedges_len X a b c : length (oedges n X a b c) = (3 * length (kl_lower n))%nat.
Proof. unfold oedges. induction (kl_lower n) as [|[k l] t IH]; [reflexivity|]. cbn [flat_map]. rewrite app_length, IH. cbn [edges3 length]. lia. Qed.
Lemma addle_keeps es : forall E, E <> [] -> fold_left addle es E <> [].
Proof. induction es as [|e es IH]; intros E HE; [exact HE|]. cbn. apply IH. destruct (addle_cases E e) as [[_ ->]|[_ [_ ->]]]; [exact HE|]. destruct E; discriminate. Qed.
Lemma addle_nonempty es E : es <> [] -> fold_left addle es E <> [].
Proof.
  destruct es as [|e es]; [congruence|]. intros _. cbn. apply addle_keeps. destruct (addle_cases E e) as [[H ->]|[_ [_ ->]]]; [|destruct E; discriminate].
  destruct H as [H|H]; intros ->; destruct H.
Qed.
Lemma fold_addle_len es : forall E, (length (fold_left addle es E) <= length E + length es)%nat.
Proof. induction es as [|e es IH]; intros E; cbn [fold_left length]; [lia|]. specialize (IH (addle E e)). pose proof (addle_len E e). lia. Qed.

Lemma grefine_triangle_ok (X : ltri) (st : rstate T) (L : list Z2) (E : list ledge) :
  In X Ts -> (exists M, L = L0 n C ++ M) -> (E = [] -> L = L0 n C) ->
  Forall2 rep L (g_points (rs_grid st)) -> g_vertices (rs_grid st) = range (length L) -> g_edges (rs_grid st) = map (eidx L) E ->
  mok (length E) (g_mean (rs_grid st)) -> (forall e, In e E -> ein L e) -> (length E + length (oe n cgR C X) <= J)%nat ->
  let L' := adds L (nodes n X) in
  exists m P', mok (length (fold_left addle (oe n cgR C X) E)) m /\ Forall2 rep L' P' /\ (exists new, P' = g_points (rs_grid st) ++ new) /\ refine_triangle cg n st (tidx C X) = Ok (gadd_ce L' (gces X)
    (mkR (mkGrid (range (length L')) (map (eidx L') (fold_left addle (oe n cgR C X) E)) (g_triangles (rs_grid st) ++ map (tidx L') (subs n X))
            (grow n cgR C L' (g_boundary cgR) X (g_boundary (rs_grid st))) (grow n cgR C L' (g_dirichlet cgR) X (g_dirichlet (rs_grid st))) (grow n cgR C L' (g_neumann cgR) X (g_neumann (rs_grid st)))
            P' m)
         (rev (map (fun s => (tidx L' (fst s), tidx C X)) (gsubq X)) ++ rs_ct st)
         (rev (map (fun s => (tidx L' (fst s), snd s)) (gsubq X)) ++ rs_cb st) (rs_ce st) (rs_cc st))).
Proof.
  intros HinX [M HL] HE0 HP HV HE HM HEin HJ L'. destruct (HTs X HinX) as [HX [K1 [K2 K3]]]. destruct HR as [HRe [HRb [HRd HRn]]].
  change (tidx C X) with (idx C (c1 X), idx C (c2 X), idx C (c3 X)). unfold refine_triangle.
  destruct (F2_nth _ _ _ _ _ HCp (idx_nth C _ K1)) as (p1 & N1 & R1). destruct (F2_nth _ _ _ _ _ HCp (idx_nth C _ K2)) as (p2 & N2 & R2).
  destruct (F2_nth _ _ _ _ _ HCp (idx_nth C _ K3)) as (p3 & N3 & R3).
  assert (Etv : triangle_vertices cg (idx C (c1 X), idx C (c2 X), idx C (c3 X)) = Ok (p1, p2, p3)).
  { assert (HI : py_in triangle_eqb (idx C (c1 X), idx C (c2 X), idx C (c3 X)) (g_triangles cg) = true).
    { apply py_in_triple. rewrite HCt. apply (in_map (tidx C)), HinX. }
    unfold triangle_vertices. rewrite HI. unfold points_of, py_nth. rewrite N1, N2, N3. reflexivity. }
  rewrite Etv. cbn [bind]. destruct (Hassert X p1 p2 p3 HinX R1 R2 R3) as (y1 & y2 & x2 & x3 & -> & -> & -> & -> & A1 & A2). cbn [bind]. rewrite A1, A2. cbn [py_assert bind].
  assert (HLn : exists k, length L = S k).
  { destruct L as [|x L1]; [|cbn; eauto]. exfalso. symmetry in HL. apply app_eq_nil in HL as [HL _].
    pose proof (in_map (scale n) _ _ K1) as Q. fold (L0 n C) in Q. rewrite HL in Q. destruct Q. }
  destruct HLn as [kL HkL]. rewrite HV, HkL, range_S, py_last_app. cbn [bind]. rewrite <- HkL.
  assert (Hsc : forall x, In x C -> In (scale n x) L /\ idx L (scale n x) = idx C x).
  { intros x Hx. assert (HI : In (scale n x) (L0 n C)) by (apply in_map, Hx). rewrite HL. split; [apply in_or_app; left; exact HI|].
    rewrite idx_app by exact HI. apply idx_map. intros a b. apply scale_inj, Hn. }
  destruct (Hsc _ K1) as [S1 X1], (Hsc _ K2) as [S2 X2], (Hsc _ K3) as [S3 X3].
  rewrite <- X1, <- X2, <- X3.
  destruct (vertex_loop_gen X (rs_grid st) L (g_points (rs_grid st)) (length E) p1 p2 p3 HX R1 R2 R3 S1 S2 S3 HM eq_refl HP HV) as [tvs [P' [Q [HP' [Hnew Htvs]]]]].
  { intros E0 k l Hkl Hc. rewrite HE0 by (destruct E; [reflexivity|discriminate]). apply node_fresh; assumption. }
  cbv zeta in Q. rewrite Q. cbn [bind]. fold L' in Htvs, HP' |- *.
  assert (HLn : forall x, In x (nodes n X) -> In x L') by (intros x Hx; apply adds_in; right; exact Hx).
  rewrite (glower_loop X L' tvs _ Htvs HLn) by exact HP'. cbn [bind].
  rewrite (gupper_loop X L' tvs _ Htvs). cbn [bind]. rewrite gadd_all_app. fold (gsubq X).
  rewrite X1, X2, X3. change (idx C (c1 X), idx C (c2 X), idx C (c3 X)) with (tidx C X).
  change (idx C (c1 X), idx C (c2 X)) with (eidx C (c1 X, c2 X)). change (idx C (c2 X), idx C (c3 X)) with (eidx C (c2 X, c3 X)).
  change (idx C (c3 X), idx C (c1 X)) with (eidx C (c3 X, c1 X)). rewrite HRe. fold (hc cgR C X) (vc cgR C X) (dc cgR C X).
  destruct (gedge_loop X HX L' tvs Htvs HLn (hc cgR C X) (vc cgR C X) (dc cgR C X)
     (rs_grid (gadd_all L' (tidx C X) (gsubq X) (mkR (set_vp (rs_grid st) (range (length L')) P') (rs_ct st) (rs_cb st) (rs_ce st) (rs_cc st)))) P' E)
     as [m [Q2 Hm]].
  { reflexivity. } { exact HP'. }
  { cbn [gadd_all rs_grid set_triangles set_vp g_edges]. rewrite HE. apply map_ext_in. intros e He. symmetry. apply eidx_adds, HEin, He. }
  { exact HM. }
  { intros e He. apply ein_adds, HEin, He. }
  { exact HJ. }
  rewrite Q2. cbn [bind]. fold (oe n cgR C X) in Hm |- *.
  rewrite (mapM_map (fun i => tvget tvs i 0) (fun i => idx L' (node n X i 0))) by (intros i Hi; apply in_range in Hi; apply Htvs; lia). cbn [bind].
  rewrite (mapM_map (fun i => tvget tvs (n - i) i) (fun i => idx L' (node n X (n - i) i))) by (intros i Hi; apply in_range in Hi; apply Htvs; lia). cbn [bind].
  rewrite <- (map_map (fun i => node n X i 0) (idx L')), <- (map_map (fun i => node n X (n - i) i) (idx L')), !assure_map, !assure_eidx.
  fold (he cgR C X) (ve cgR C X) (de cgR C X) (hn n cgR C X) (vn n cgR C X).
  rewrite (gcoarse_loop X L' tvs Htvs). fold (gces X). exists m, P'. split; [exact Hm|]. split; [exact HP'|]. split; [exact Hnew|]. apply (f_equal Ok). f_equal.
  unfold gadd_all. cbn [rs_grid rs_ct rs_cb rs_ce rs_cc fold_left refine_boundaries set_boundaries gwith set_triangles set_vp g_vertices g_edges g_triangles g_boundary g_dirichlet g_neumann g_points g_mean].
  rewrite !rbe_map. cbn [b_vertices b_edges]. rewrite <- !app_assoc, <- !map_app. rewrite HRb, HRd, HRn.
  assert (GR : forall bd ib, mkBoundary (b_vertices ib ++ map (idx L') ((if py_in edge_eqb (eidx C (he cgR C X)) (b_edges bd) then removelast (tl (hn n cgR C X)) else []) ++
                 (if py_in edge_eqb (eidx C (ve cgR C X)) (b_edges bd) then removelast (tl (vn n cgR C X)) else [])))
      (b_edges ib ++ map (eidx L') ((if py_in edge_eqb (eidx C (he cgR C X)) (b_edges bd) then zip (removelast (hn n cgR C X)) (tl (hn n cgR C X)) else []) ++
                 (if py_in edge_eqb (eidx C (ve cgR C X)) (b_edges bd) then zip (removelast (vn n cgR C X)) (tl (vn n cgR C X)) else []))) = grow n cgR C L' bd X ib).
  { intros bd ib. unfold grow, bv, be, snodes. cbn [flat_map fst snd]. rewrite !app_nil_r. reflexivity. }
  rewrite !GR. rewrite <- gsubq_subs, map_map. reflexivity.
Qed.

Definition gG (done : list ltri) (P : list (vector T)) (m : option T) : grid T :=
  let L := LL n C done in
  mkGrid (range (length L)) (map (eidx L) (EE n cgR C done)) (map (tidx L) (flat_map (subs n) done))
    (BB n cgR C L (g_boundary cgR) done) (BB n cgR C L (g_dirichlet cgR) done) (BB n cgR C L (g_neumann cgR) done) P m.
Definition gCT (L : list Z2) (done : list ltri) : dict triangle triangle := flat_map (fun X => rev (map (fun s => (tidx L s, tidx C X)) (subs n X))) (rev done).
Definition gCB (L : list Z2) (done : list ltri) : dict triangle (Refine.bary3 T) := flat_map (fun X => rev (map (fun s => (tidx L (fst s), snd s)) (gsubq X))) (rev done).
Definition gCE (L : list Z2) (done : list ltri) : dict edge edge := flat_map (fun X => map (fun x => (eidx L (fst (fst x)), snd (fst x))) (gces X)) (rev done).
Definition gCC (L : list Z2) (done : list ltri) : dict edge (T * T) := flat_map (fun X => map (fun x => (eidx L (fst (fst x)), snd x)) (gces X)) (rev done).

Lemma gsubq_in X s : In s (gsubq X) -> In (fst s) (subs n X).
Proof. intros H. rewrite <- gsubq_subs. apply in_map, H. Qed.
Lemma gces_nodes X x : In x (gces X) -> In (fst (fst (fst x))) (nodes n X) /\ In (snd (fst (fst x))) (nodes n X).
Proof.
  unfold gces, gcents. rewrite in_flat_map. intros [i [H He]]. rewrite <- in_rev in H. apply in_range in H. unfold gcent in He.
  destruct He as [<-|[<-|[<-|[]]]]; apply nodes_orient; cbn [fst snd]; apply node_in_nodes; lia.
Qed.
Lemma flat_map_ext_in {A B} (f g : A -> list B) l : (forall x, In x l -> f x = g x) -> flat_map f l = flat_map g l.
Proof. induction l as [|x l IH]; intros H; [reflexivity|]. cbn. rewrite H by (left; reflexivity). rewrite IH; [reflexivity|]. intros y Hy. apply H. right. exact Hy. Qed.

Lemma grefine_loop ig : intermediate_grid cg = Ok ig -> (3 * length (kl_lower n) * length Ts <= J)%nat ->
  exists st m P, foldM (refine_triangle cg n) (g_triangles cg) (mkR ig [] [] [] []) = Ok st /\ mok (length (EE n cgR C Ts)) m /\ Forall2 rep (LL n C Ts) P /\ (exists new, P = g_points cg ++ new) /\
    st = mkR (gG Ts P m) (gCT (LL n C Ts) Ts) (gCB (LL n C Ts) Ts) (gCE (LL n C Ts) Ts) (gCC (LL n C Ts) Ts).
Proof.
  intros Hig HJ. rewrite HCt. pose proof HR as [HRe [HRb [HRd HRn]]].
  assert (FM : forall A B S (f : S -> B -> res S) (k : A -> B) l s, foldM f (map k l) s = foldM (fun s x => f s (k x)) l s).
  { intros A B S f k l. induction l as [|x l IH]; intros s; [reflexivity|]. cbn [map foldM]. destruct (f s (k x)); [apply IH|reflexivity]. }
  rewrite FM. clear FM.
  destruct (foldM_inv (fun st X => refine_triangle cg n st (tidx C X)) (fun done st => exists m P, mok (length (EE n cgR C done)) m /\ Forall2 rep (LL n C done) P /\ (exists new, P = g_points cg ++ new) /\
      st = mkR (gG done P m) (gCT (LL n C done) done) (gCB (LL n C done) done) (gCE (LL n C done) done) (gCC (LL n C done) done))
      Ts (mkR ig [] [] [] [])) as [st [Q [m [P [Hm [HP [HN ->]]]]]]].
  - exists None, (g_points cg). split; [exact H0|]. split; [|split; [exists []; rewrite app_nil_r; reflexivity|]].
    { change (LL n C []) with (L0 n C). unfold L0. apply F2_map_l. clear - HCp Hrep. induction HCp; constructor; auto. }
    unfold intermediate_grid, Grid_ in Hig. injection Hig as <-. f_equal.
    unfold gG, BB, EE. change (LL n C []) with (L0 n C). cbn [flat_map fold_left map]. rewrite !app_nil_r. unfold L0. rewrite map_length, HCv, HRb, HRd, HRn. reflexivity.
  - intros done X post st Hsp [m [P [Hm [HP [HN ->]]]]].
    assert (HinX : In X Ts) by (rewrite Hsp; apply in_or_app; right; left; reflexivity).
    assert (Hlen : forall l : list ltri, (length (flat_map (oe n cgR C) l) = 3 * length (kl_lower n) * length l)%nat).
    { induction l as [|y l IH]; cbn [flat_map length]; [lia|]. rewrite app_length, IH. unfold oe at 1. rewrite oedges_len. lia. }
    destruct (grefine_triangle_ok X (mkR (gG done P m) (gCT (LL n C done) done) (gCB (LL n C done) done) (gCE (LL n C done) done) (gCC (LL n C done) done)) (LL n C done) (EE n cgR C done) HinX) as [m' [P' [Hm' [HP' [HN' Q]]]]].
    { destruct (adds_ext (L0 n C) (flat_map (nodes n) done)) as [M HM]. exists M. exact HM. }
    { intros E0. destruct done as [|Y done]; [reflexivity|]. exfalso. revert E0. unfold EE. apply addle_nonempty. intros E0. apply (f_equal (@length _)) in E0. rewrite Hlen in E0.
      pose proof kl_lower_pos. cbn [length] in E0. destruct (kl_lower n); cbn [length] in *; [lia|]. discriminate. }
    { exact HP. } { reflexivity. } { reflexivity. } { exact Hm. } { intros e He. exact (EE_ein n Hn cgR C _ e He). }
    { pose proof (fold_addle_len (flat_map (oe n cgR C) done) []) as Q. cbn [length] in Q. rewrite Hlen in Q. unfold EE at 1. unfold oe at 2. rewrite oedges_len.
      assert (length done + 1 <= length Ts)%nat by (rewrite Hsp, app_length; cbn; lia). pose proof kl_lower_pos. nia. }
    cbv zeta in Q. rewrite Q. eexists. split; [reflexivity|]. rewrite <- LL_snoc in HP'. rewrite <- EE_snoc in Hm'. exists m', P'. split; [exact Hm'|]. split; [exact HP'|]. split.
    { destruct HN as [n1 ->], HN' as [n2 ->]. cbn [rs_grid gG g_points]. exists (n1 ++ n2). rewrite app_assoc. reflexivity. }
    clear Q. cbn [rs_grid rs_ct rs_cb rs_ce rs_cc gG g_triangles g_boundary g_dirichlet g_neumann]. rewrite <- LL_snoc, <- EE_snoc. unfold gadd_ce. cbn [rs_grid rs_ct rs_cb rs_ce rs_cc].
    set (L' := LL n C (done ++ [X])).
    assert (HLi : forall x, In x (LL n C done) -> idx L' x = idx (LL n C done) x) by (intros x Hx; unfold L'; rewrite LL_snoc; apply idx_adds, Hx).
    assert (HLt : forall T' S, In T' done -> In S (subs n T') -> tidx L' S = tidx (LL n C done) S).
    { intros T' S H1 H2. unfold L'. rewrite LL_snoc. apply tidx_adds. apply (LL_sub n C done T'); assumption. }
    assert (HLe : forall e, ein (LL n C done) e -> eidx L' e = eidx (LL n C done) e).
    { intros e He. unfold L'. rewrite LL_snoc. apply eidx_adds, He. }
    f_equal.
    + assert (HB : forall bd, grow n cgR C L' bd X (BB n cgR C (LL n C done) bd done) = BB n cgR C L' bd (done ++ [X])).
      { intros bd. unfold grow, BB. cbn [b_vertices b_edges]. rewrite !flat_map_app, !map_app, <- app_assoc. cbn [flat_map]. rewrite !app_nil_r. f_equal.
        - f_equal. f_equal. apply map_ext_in. intros x Hx. symmetry. apply HLi. apply in_flat_map in Hx as [T' [H1 H2]]. apply (LL_node n C done T'); [exact H1|apply (bv_nodes n Hn cgR C bd), H2].
        - f_equal. apply map_ext_in. intros e He. symmetry. apply HLe. apply in_flat_map in He as [T' [H1 H2]]. apply (be_nodes n Hn cgR C) in H2 as [A B]. apply (ein_nodes n C done T'); assumption. }
      rewrite !HB. unfold gG. fold L'. f_equal. rewrite flat_map_app, map_app. cbn [flat_map]. rewrite app_nil_r. f_equal.
      apply map_ext_in. intros S HS. apply in_flat_map in HS as [T' [H1 H2]]. symmetry. apply (HLt T'); assumption.
    + unfold gCT. rewrite rev_app_distr. cbn [rev app flat_map]. f_equal.
      * f_equal. rewrite <- gsubq_subs, map_map. reflexivity.
      * apply flat_map_ext_in. intros Y HY. apply in_rev in HY. f_equal. apply map_ext_in. intros s Hs. rewrite (HLt Y s HY Hs). reflexivity.
    + unfold gCB. rewrite rev_app_distr. cbn [rev app flat_map]. f_equal.
      apply flat_map_ext_in. intros Y HY. apply in_rev in HY. f_equal. apply map_ext_in. intros s Hs. rewrite (HLt Y (fst s) HY (gsubq_in Y s Hs)). reflexivity.
    + unfold gCE. rewrite rev_app_distr. cbn [rev app flat_map]. f_equal.
      apply flat_map_ext_in. intros Y HY. apply in_rev in HY. apply map_ext_in. intros x Hx. apply gces_nodes in Hx as [A B]. rewrite HLe by (apply (ein_nodes n C done Y); assumption). reflexivity.
    + unfold gCC. rewrite rev_app_distr. cbn [rev app flat_map]. f_equal.
      apply flat_map_ext_in. intros Y HY. apply in_rev in HY. apply map_ext_in. intros x Hx. apply gces_nodes in Hx as [A B]. rewrite HLe by (apply (ein_nodes n C done Y); assumption). reflexivity.
  - eexists _, m, P. split; [exact Q|]. auto.
Qed.
Context (mfin : T -> Prop).
Context (Hfin : forall L P E, Forall2 rep L P -> (forall e, In e E -> ein L e /\ short e) -> E <> [] -> (length E <= J)%nat -> exists lens m,
  mapM (edge_length P) (map (eidx L) E) = Ok lens /\ ndiv (nsum lens) (nofZ (Z.of_nat (length E))) = Ok m /\ mfin m).
Lemma grefine : (3 * length (kl_lower n) * length Ts <= J)%nat -> exists m P, Forall2 rep (LL n C Ts) P /\ (exists new, P = g_points cg ++ new) /\ (EE n cgR C Ts <> [] -> exists m', m = Some m' /\ mfin m') /\
  refine cg (Z.of_nat n) = Ok (mkRefined (gG Ts P m) cg (gCT (LL n C Ts) Ts) (gCB (LL n C Ts) Ts) (gCE (LL n C Ts) Ts) (gCC (LL n C Ts) Ts)).
Proof.
  intros HJ. unfold refine. replace (Z.of_nat n <? 1)%Z with false by (symmetry; apply Z.ltb_ge; lia). rewrite Nat2Z.id.
  assert (Hig : exists ig, intermediate_grid cg = Ok ig) by (unfold intermediate_grid, Grid_; eauto). destruct Hig as [ig Hig].
  rewrite Hig. cbn [bind]. destruct (grefine_loop ig Hig HJ) as [st [m [P [Q [Hm [HP [HN ->]]]]]]]. rewrite Q. cbn [bind rs_grid rs_ct rs_cb rs_ce rs_cc].
  cbn [gG g_vertices g_edges g_triangles g_boundary g_dirichlet g_neumann g_points].
  unfold Grid_. destruct (map (eidx (LL n C Ts)) (EE n cgR C Ts)) as [|e0 es0] eqn:EM.
  - cbn [bind]. exists None, P. split; [exact HP|]. split; [exact HN|]. split; [intros K; apply map_eq_nil in EM; contradiction|]. unfold gG. rewrite EM. reflexivity.
  - rewrite <- EM. destruct (Hfin (LL n C Ts) P (EE n cgR C Ts) HP) as (lens & m' & E1 & E2 & E3).
    { intros e He. split; [exact (EE_ein n Hn cgR C _ e He)|]. apply EE_in in He as [X [HX He]]. apply (oe_short n Hn cgR C X e (proj1 (HTs X HX)) He). }
    { intros Q0. rewrite Q0 in EM. discriminate. }
    { pose proof (fold_addle_len (flat_map (oe n cgR C) Ts) []) as Q1. cbn [length] in Q1. unfold EE.
      assert (Hlen : forall l : list ltri, (length (flat_map (oe n cgR C) l) = 3 * length (kl_lower n) * length l)%nat).
      { induction l as [|y l IH]; cbn [flat_map length]; [lia|]. rewrite app_length, IH. unfold oe at 1. rewrite oedges_len. lia. }
      rewrite Hlen in Q1. lia. }
    rewrite E1. cbn [bind]. rewrite map_length, E2. cbn [bind]. rewrite EM, <- EM. exists (Some m'), P. split; [exact HP|]. split; [exact HN|]. split; [intros _; exists m'; auto|]. reflexivity.
Qed.
End Gen.
