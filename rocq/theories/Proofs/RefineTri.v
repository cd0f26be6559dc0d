(** One call of _refine_equilateral_triangle on a lattice triangle. *)
From Coq Require Import Reals Lra Lia Psatz.
From Verif.Model Require Import Py Num Tensors Domain Refine.
From Verif.Spec Require Import GridSpec.
From Verif.Proofs Require Import Lib LocateP FindP Lattice RefineP.
Local Open Scope R_scope.

Definition orient (ok : bool) (e : ledge) : ledge := if ok then e else lflip e.
Lemma assure_eidx ok L e : assure_edge ok (eidx L e) = eidx L (orient ok e).
Proof. destruct ok; reflexivity. Qed.
Lemma ein_orient L ok e : ein L e -> ein L (orient ok e).
Proof. destruct ok; [tauto|]. intros [A B]. split; assumption. Qed.
Lemma short_orient ok e : short e -> short (orient ok e).
Proof. destruct ok; [tauto|]. unfold short, orient, lflip. cbn [fst snd]. lia. Qed.

(** Weight of the first coordinate at position [i] of [n]. *)
Definition kl_b (n k l : nat) : bary R := (1 - INR k / INR n - INR l / INR n, INR k / INR n, INR l / INR n).
Definition wt (n i : nat) : R * R := (1 - INR i / INR n, 1 - INR (i + 1) / INR n).
Definition aw (ok : bool) (p : R * R) : R * R := if ok then p else (1 - snd p, 1 - fst p).

Section Tri.
Context (n : nat) (h : R) (Hn : (1 <= n)%nat) (Hh : 0 < h) (Heps : / 10 ^ 15 <= h).
Let Nn := INR n.
Lemma Nn_pos : 0 < INR n.
Proof. apply lt_0_INR. lia. Qed.

Lemma frac_ok k : @frac R RNum k n = Ok (INR k / INR n).
Proof. pose proof Nn_pos. unfold frac. cbn [nofZ RNum]. rewrite <- !INR_IZR_INZ, ndiv_R by lra. reflexivity. Qed.
Lemma kl_bary_ok k l : @kl_bary R RNum n k l = Ok (kl_b n k l).
Proof. unfold kl_bary. rewrite !frac_ok. cbn [bind]. unfold Bary, kl_b. cbn [nsub n1 RNum]. apply (f_equal Ok). f_equal. ring. Qed.
Lemma frac_bounds k : (k <= n)%nat -> 0 <= INR k / INR n <= 1.
Proof.
  intros H. pose proof Nn_pos. apply le_INR in H. pose proof (pos_INR k). assert (0 < / INR n) by (apply Rinv_0_lt_compat; lra).
  split; [unfold Rdiv; apply Rmult_le_pos; lra|]. apply Rmult_le_reg_r with (INR n); [lra|]. unfold Rdiv. rewrite Rmult_assoc, Rinv_l by lra. lra.
Qed.
Lemma kl_b_bounds k l : (k + l <= n)%nat -> Bary_assert_bounds 0 1 (kl_b n k l) = kl_b n k l.
Proof.
  intros H. pose proof (frac_bounds k ltac:(lia)). pose proof (frac_bounds l ltac:(lia)).
  assert (0 <= 1 - INR k / INR n - INR l / INR n <= 1).
  { pose proof (frac_bounds (k + l) H) as Q. rewrite plus_INR in Q. unfold Rdiv in *. rewrite Rmult_plus_distr_r in Q. lra. }
  unfold Bary_assert_bounds, kl_b, l1, l2, l3. cbn [fst snd]. unfold clamp. cbn [nltb RNum].
  assert (K : forall x, 0 <= x <= 1 -> (if Rltb x 0 then 0 else if Rltb 1 x then 1 else x) = x).
  { intros x Hx. rewrite (proj2 (Rltb_false x 0)), (proj2 (Rltb_false 1 x)) by lra. reflexivity. }
  rewrite !K by assumption. reflexivity.
Qed.
Definition tv (T : ltri) : tri_points R := (lpt (INR n * h) (c1 T), lpt (INR n * h) (c2 T), lpt (INR n * h) (c3 T)).
Lemma combine_ok T k l : combine_points (kl_b n k l) (tv T) = Ok (lpt h (node n T k l)).
Proof.
  pose proof Nn_pos. unfold combine_points, tv, lpt, vec, lp, kl_b, l1, l2, l3, c1, c2, c3, node. cbn [fst snd].
  unfold Vector_mul, Vector_add. cbn [map length Nat.eqb zip combine bind]. cbn [nadd nmul RNum].
  apply (f_equal Ok). rewrite !plus_IZR, !mult_IZR, !plus_IZR, <- !INR_IZR_INZ. f_equal; [field; lra|]. f_equal. field; lra.
Qed.
Lemma lpt_scale x : lpt (INR n * h) x = lpt h (scale n x).
Proof. unfold lpt, vec, lp, scale. cbn [fst snd]. rewrite !mult_IZR, <- !INR_IZR_INZ. f_equal; [ring|]. f_equal. ring. Qed.

(** ** The vertex loop *)
Lemma dset_find {V} (kl kl' : nat * nat) (v : V) d : dfind pair_eqb kl (dset kl' v d) = if pair_eqb kl kl' then Some v else dfind pair_eqb kl d.
Proof. reflexivity. Qed.
Lemma set_vp_twice (g : grid R) a b c d : set_vp (set_vp g a b) c d = set_vp g c d.
Proof. reflexivity. Qed.
Lemma range_snoc k : range (S k) = range k ++ [k].
Proof. apply range_S. Qed.

Lemma vertex_loop (T : ltri) (g : grid R) (L : list Z2) : 
  In (scale n (c1 T)) L -> In (scale n (c2 T)) L -> In (scale n (c3 T)) L ->
  mok h (g_mean g) -> g_points g = map (lpt h) L -> g_vertices g = range (length L) ->
  let tvs0 := dset (0, n)%nat (idx L (scale n (c3 T))) (dset (n, 0)%nat (idx L (scale n (c2 T))) (dset (0, 0)%nat (idx L (scale n (c1 T))) [])) in
  let L' := adds L (nodes n T) in
  exists tvs, foldM (vertex_step n (tv T)) (kl_all n) (g, length L, tvs0) = Ok (set_vp g (range (length L')) (map (lpt h) L'), length L', tvs) /\
    forall k l, (k + l <= n)%nat -> tvget tvs k l = Ok (idx L' (node n T k l)).
Proof.
  intros I1 I2 I3 HM HP HV tvs0 L'.
  set (Lp := fun pre => adds L (map (fun kl => node n T (fst kl) (snd kl)) pre)).
  set (corner := fun kl : nat * nat => kl = (0, 0)%nat \/ kl = (n, 0)%nat \/ kl = (0, n)%nat).
  destruct (foldM_inv (vertex_step n (tv T)) (fun pre st => exists tvs,
      st = (set_vp g (range (length (Lp pre))) (map (lpt h) (Lp pre)), length (Lp pre), tvs) /\
      forall k l, (In (k, l) pre \/ corner (k, l)) -> dfind pair_eqb (k, l) tvs = Some (idx (Lp pre) (node n T k l)))
      (kl_all n) (g, length L, tvs0)) as [st [Q [tvs [-> HT]]]].
  - exists tvs0. split.
    + unfold Lp. cbn [map]. change (adds L []) with L. rewrite <- HP, <- HV. unfold set_vp. destruct g; reflexivity.
    + unfold Lp. cbn [map]. change (adds L []) with L. intros k l [[]|HC]. unfold tvs0. rewrite !dset_find.
      destruct (pair_eqb (k, l) (0, n)%nat) eqn:E1; [apply pair_eqb_spec in E1; injection E1 as -> ->; rewrite node_c3; reflexivity|].
      destruct (pair_eqb (k, l) (n, 0)%nat) eqn:E2; [apply pair_eqb_spec in E2; injection E2 as -> ->; rewrite node_c2; reflexivity|].
      destruct (pair_eqb (k, l) (0, 0)%nat) eqn:E3; [apply pair_eqb_spec in E3; injection E3 as -> ->; rewrite node_c1; reflexivity|].
      exfalso. destruct HC as [C|[C|C]]; injection C as -> ->; [rewrite (proj2 (pair_eqb_spec _ _) eq_refl) in E3|rewrite (proj2 (pair_eqb_spec _ _) eq_refl) in E2|rewrite (proj2 (pair_eqb_spec _ _) eq_refl) in E1]; discriminate.
  - intros pre [k l] post st Hsplit [tvs [-> HT]].
    assert (Hkl : (k + l <= n)%nat) by (apply in_kl_all; rewrite Hsplit; apply in_or_app; right; left; reflexivity).
    assert (ELp : Lp (pre ++ [(k, l)]) = add (Lp pre) (node n T k l)) by (unfold Lp; rewrite map_app; apply adds_snoc).
    assert (Hcin : forall k l, corner (k, l) -> In (node n T k l) (Lp pre)).
    { intros k' l' HC. unfold Lp. apply adds_in. left. destruct HC as [C|[C|C]]; injection C as -> ->; rewrite ?node_c1, ?node_c2, ?node_c3; assumption. }
    assert (Hpin : forall k l, In (k, l) pre -> In (node n T k l) (Lp pre)).
    { intros k' l' HI. unfold Lp. apply adds_in. right. apply in_map_iff. exists (k', l'). auto. }
    unfold vertex_step.
    destruct ((Nat.eqb k 0 && Nat.eqb l 0 || Nat.eqb k n && Nat.eqb l 0 || Nat.eqb k 0 && Nat.eqb l n)%bool) eqn:EC.
    + assert (HC : corner (k, l)).
      { rewrite !Bool.orb_true_iff, !Bool.andb_true_iff, !Nat.eqb_eq in EC. unfold corner. destruct EC as [[[-> ->]|[-> ->]]|[-> ->]]; auto. }
      eexists. split; [reflexivity|]. exists tvs. rewrite ELp. destruct (add_cases (Lp pre) (node n T k l)) as [[_ ->]|[Hni _]]; [|destruct (Hni (Hcin k l HC))].
      split; [reflexivity|]. intros k' l' [H'|H']; [apply in_app_iff in H' as [H'|[E|[]]]|]; apply HT; auto. injection E as <- <-. auto.
    + rewrite kl_bary_ok. cbn [bind n0 n1 RNum]. rewrite kl_b_bounds by exact Hkl. rewrite combine_ok. cbn [bind].
      unfold point_to_vertex. cbn [set_vp g_mean g_points]. rewrite (find_lattice h _ (Lp pre) (node n T k l) 0 Hh (mok_tol h _ Hh Heps HM)). cbn [bind].
      rewrite ELp. destruct (add_cases (Lp pre) (node n T k l)) as [[Hi ->]|[Hni E]].
      * rewrite (proj2 (memz_iff _ _) Hi). cbn [Nat.add]. eexists. split; [reflexivity|]. eexists. split; [reflexivity|].
        intros k' l' H'. rewrite dset_find. destruct (pair_eqb (k', l') (k, l)) eqn:E; [apply pair_eqb_spec in E; injection E as -> ->; reflexivity|].
        apply HT. destruct H' as [H'|H']; [|auto]. apply in_app_iff in H' as [H'|[E'|[]]]; [auto|]. injection E' as <- <-.
        rewrite (proj2 (pair_eqb_spec _ _) eq_refl) in E. discriminate.
      * destruct (memz (node n T k l) (Lp pre)) eqn:Em; [apply memz_iff in Em; contradiction|]. rewrite E. cbn [set_vp g_vertices].
        rewrite app_length. cbn [length]. rewrite Nat.add_1_r. eexists. split; [reflexivity|]. eexists. split.
        { rewrite range_snoc, map_app. reflexivity. }
        intros k' l' H'. rewrite dset_find. destruct (pair_eqb (k', l') (k, l)) eqn:E2.
        -- apply pair_eqb_spec in E2. injection E2 as -> ->. f_equal. symmetry.
           assert (Hnd : nth_error (Lp pre ++ [node n T k l]) (length (Lp pre)) = Some (node n T k l)) by (rewrite nth_error_app2, Nat.sub_diag by lia; reflexivity).
           clear - Hni. induction (Lp pre) as [|y M IH]; cbn [app idx length].
           ++ destruct (z2eqb_spec (node n T k l) (node n T k l)); [reflexivity|congruence].
           ++ destruct (z2eqb_spec (node n T k l) y) as [E|E]; [exfalso; apply Hni; left; congruence|]. f_equal. apply IH. intros H. apply Hni. right. exact H.
        -- assert (H'' : In (k', l') pre \/ corner (k', l')).
           { destruct H' as [H'|H']; [|auto]. apply in_app_iff in H' as [H'|[E'|[]]]; [auto|]. injection E' as <- <-.
             rewrite (proj2 (pair_eqb_spec _ _) eq_refl) in E2. discriminate. }
           rewrite (HT k' l' H''). f_equal. symmetry. apply idx_app. destruct H'' as [H''|H'']; auto.
  - exists tvs. split; [exact Q|]. intros k l Hkl. unfold tvget, dget. rewrite (HT k l) by (left; apply in_kl_all, Hkl). reflexivity.
Qed.

(** ** Triangles *)
Definition add_tri (T : ltri) (i : triangle) (L : list Z2) (st : rstate R) (S : ltri) (q : Refine.bary3 R) : rstate R :=
  mkR (set_triangles (rs_grid st) (g_triangles (rs_grid st) ++ [tidx L S]))
      (dset (tidx L S) i (rs_ct st)) (dset (tidx L S) q (rs_cb st)) (rs_ce st) (rs_cc st).
Section Steps.
Context (T : ltri) (HT : oriented T) (L : list Z2) (tvs : dict (nat * nat) vertex) (tri : triangle).
Context (Htvs : forall k l, (k + l <= n)%nat -> tvget tvs k l = Ok (idx L (node n T k l))).
Context (HL : forall x, In x (nodes n T) -> In x L).
Definition lq (kl : nat * nat) : Refine.bary3 R := let '(k, l) := kl in (kl_b n k l, kl_b n (k + 1) l, kl_b n k (l + 1)).
Definition uq (kl : nat * nat) : Refine.bary3 R := let '(k, l) := kl in (kl_b n k (l + 1), kl_b n (k - 1) (l + 1), kl_b n k l).
Lemma node_in k l : (k + l <= n)%nat -> In (node n T k l) L.
Proof. intros H. apply HL, in_nodes. exists k, l. auto. Qed.
Lemma lower_step_ok st k l : (k + l < n)%nat -> g_points (rs_grid st) = map (lpt h) L ->
  lower_step n tri tvs st (k, l) = Ok (add_tri T tri L st (lsub n T (k, l)) (lq (k, l))).
Proof.
  intros H HP. unfold lower_step. rewrite !Htvs by lia. cbn [bind]. rewrite HP.
  assert (K : forall k l, (k + l <= n)%nat -> py_nth (map (lpt h) L) (idx L (node n T k l)) = Ok (lpt h (node n T k l))).
  { intros k' l' H'. unfold py_nth. rewrite nth_error_map, (idx_nth L _ (node_in k' l' H')). reflexivity. }
  rewrite !K by lia. cbn [bind]. rewrite !kl_bary_ok. cbn [bind]. unfold add_tri, tidx.
  destruct (lsub_corners n T k l) as [-> [-> ->]]. reflexivity.
Qed.
Lemma upper_step_ok st k l : (1 <= k)%nat -> (k + l < n)%nat ->
  upper_step n tri tvs st (k, l) = Ok (add_tri T tri L st (usub n T (k, l)) (uq (k, l))).
Proof.
  intros H0 H. unfold upper_step. rewrite !Htvs by lia. cbn [bind]. rewrite !kl_bary_ok. cbn [bind]. unfold add_tri, tidx.
  destruct (usub_corners n T k l) as [-> [-> ->]]; [exact H0|]. reflexivity.
Qed.
(** All triangles of [T] with the coordinates of their corners. *)
Definition subq : list (ltri * Refine.bary3 R) := map (fun kl => (lsub n T kl, lq kl)) (kl_lower n) ++ map (fun kl => (usub n T kl, uq kl)) (kl_upper n).
Lemma subq_subs : map fst subq = subs n T.
Proof. unfold subq, subs. rewrite map_app, !map_map. reflexivity. Qed.
Definition add_all (sq : list (ltri * Refine.bary3 R)) (st : rstate R) : rstate R :=
  mkR (set_triangles (rs_grid st) (g_triangles (rs_grid st) ++ map (fun s => tidx L (fst s)) sq))
      (rev (map (fun s => (tidx L (fst s), tri)) sq) ++ rs_ct st) (rev (map (fun s => (tidx L (fst s), snd s)) sq) ++ rs_cb st) (rs_ce st) (rs_cc st).
Lemma add_all_snoc sq s st : add_tri T tri L (add_all sq st) (fst s) (snd s) = add_all (sq ++ [s]) st.
Proof. unfold add_tri, add_all, dset. cbn [rs_grid rs_ct rs_cb rs_ce rs_cc set_triangles g_triangles]. rewrite !map_app, !rev_app_distr, <- app_assoc. reflexivity. Qed.
Lemma add_all_app sq sq' st : add_all sq' (add_all sq st) = add_all (sq ++ sq') st.
Proof. unfold add_all. cbn [rs_grid rs_ct rs_cb rs_ce rs_cc set_triangles g_triangles]. rewrite !map_app, !rev_app_distr, <- !app_assoc. reflexivity. Qed.
Lemma lower_loop st : g_points (rs_grid st) = map (lpt h) L ->
  foldM (lower_step n tri tvs) (kl_lower n) st = Ok (add_all (map (fun kl => (lsub n T kl, lq kl)) (kl_lower n)) st).
Proof.
  intros HP. destruct (foldM_inv (lower_step n tri tvs) (fun pre s => s = add_all (map (fun kl => (lsub n T kl, lq kl)) pre) st) (kl_lower n) st) as [s [Q ->]].
  - unfold add_all. cbn [map rev app]. rewrite app_nil_r. destruct st as [gg ? ? ? ?]. unfold set_triangles. destruct gg; reflexivity.
  - intros pre [k l] post s E ->. assert (Hkl : (k + l < n)%nat) by (apply in_kl_lower; rewrite E; apply in_or_app; right; left; reflexivity).
    eexists. split; [apply lower_step_ok; [exact Hkl|exact HP]|]. rewrite map_app. cbn [map].
    apply (add_all_snoc _ (lsub n T (k, l), lq (k, l))).
  - exact Q.
Qed.
Lemma upper_loop st :
  foldM (upper_step n tri tvs) (kl_upper n) st = Ok (add_all (map (fun kl => (usub n T kl, uq kl)) (kl_upper n)) st).
Proof.
  destruct (foldM_inv (upper_step n tri tvs) (fun pre s => s = add_all (map (fun kl => (usub n T kl, uq kl)) pre) st) (kl_upper n) st) as [s [Q ->]].
  - unfold add_all. cbn [map rev app]. rewrite app_nil_r. destruct st as [gg ? ? ? ?]. unfold set_triangles. destruct gg; reflexivity.
  - intros pre [k l] post s E ->. assert (Hkl : (1 <= k /\ k + l < n)%nat) by (apply in_kl_upper; rewrite E; apply in_or_app; right; left; reflexivity).
    eexists. split; [apply upper_step_ok; lia|]. rewrite map_app. cbn [map].
    apply (add_all_snoc _ (usub n T (k, l), uq (k, l))).
  - exact Q.
Qed.

(** ** Edges *)
Context (hc vc dc : bool).
Definition edges3 (kl : nat * nat) : list ledge := let '(k, l) := kl in
  [orient hc (node n T k l, node n T (k + 1) l); orient vc (node n T (k + 1) l, node n T k (l + 1)); orient dc (node n T k l, node n T k (l + 1))].
Definition oedges : list ledge := flat_map edges3 (kl_lower n).
Lemma edge_step_ok g k l : (k + l < n)%nat -> edge_step hc vc dc tvs g (k, l) = foldM append_edge (map (eidx L) (edges3 (k, l))) g.
Proof.
  intros H. unfold edge_step. rewrite !Htvs by lia. cbn [bind edges3 map foldM].
  change (idx L (node n T k l), idx L (node n T (k + 1) l)) with (eidx L (node n T k l, node n T (k + 1) l)).
  change (idx L (node n T (k + 1) l), idx L (node n T k (l + 1))) with (eidx L (node n T (k + 1) l, node n T k (l + 1))).
  change (idx L (node n T k l), idx L (node n T k (l + 1))) with (eidx L (node n T k l, node n T k (l + 1))).
  rewrite !assure_eidx. destruct (append_edge g _) as [g1|]; [|reflexivity]. cbn [bind].
  destruct (append_edge g1 _) as [g2|]; [|reflexivity]. cbn [bind]. destruct (append_edge g2 _); reflexivity.
Qed.
Lemma edge_loop_eq l g : (forall kl, In kl l -> (fst kl + snd kl < n)%nat) ->
  foldM (edge_step hc vc dc tvs) l g = foldM append_edge (map (eidx L) (flat_map edges3 l)) g.
Proof.
  revert g. induction l as [|[k l'] l IH]; intros g H; [reflexivity|]. cbn [foldM flat_map]. rewrite map_app, foldM_app.
  rewrite edge_step_ok by (apply (H (k, l')); left; reflexivity). destruct (foldM append_edge _ g); [|reflexivity]. cbn [bind].
  apply IH. intros kl Hkl. apply H. right. exact Hkl.
Qed.
Lemma oedges_ok e : In e oedges -> ein L e /\ short e.
Proof.
  unfold oedges. rewrite in_flat_map. intros [[k l] [H He]]. apply in_kl_lower in H. cbn [edges3] in He.
  assert (A : In (node n T k l) L /\ In (node n T (k + 1) l) L /\ In (node n T k (l + 1)) L) by (repeat split; apply node_in; lia).
  unfold oriented in HT. destruct He as [<-|[<-|[<-|[]]]]; (split; [apply ein_orient; split; tauto|apply short_orient]);
    unfold short, node; cbn [fst snd]; rewrite ?Nat2Z.inj_add; lia.
Qed.
Lemma edge_loop g E : g_points g = map (lpt h) L -> g_edges g = map (eidx L) E -> mok h (g_mean g) -> (forall e', In e' E -> ein L e') ->
  exists m, foldM (edge_step hc vc dc tvs) (kl_lower n) g = Ok (with_edges g (map (eidx L) (fold_left addle oedges E)) m) /\ mok h m.
Proof.
  intros HP HE HM HI. rewrite edge_loop_eq by (intros [k l] H; apply in_kl_lower in H; exact H).
  apply (append_list_lattice h Hh L oedges g E HP HE HM HI). exact oedges_ok.
Qed.

(** ** Coarse edges *)
Context (he ve de : edge).
Definition cent (i : nat) : list (ledge * edge * (R * R)) :=
  [ (orient dc (node n T 0 (n - i), node n T 0 (n - (i + 1))), de, aw dc (wt n i));
    (orient vc (node n T (n - i) i, node n T (n - (i + 1)) (i + 1)), ve, aw vc (wt n i));
    (orient hc (node n T i 0, node n T (i + 1) 0), he, aw hc (wt n i)) ].
Definition key_of (x : ledge * edge * (R * R)) : edge := eidx L (fst (fst x)).
Definition add_ce (xs : list (ledge * edge * (R * R))) (st : rstate R) : rstate R :=
  mkR (rs_grid st) (rs_ct st) (rs_cb st) (map (fun x => (key_of x, snd (fst x))) xs ++ rs_ce st) (map (fun x => (key_of x, snd x)) xs ++ rs_cc st).
Lemma coarse_step_ok st i : (i < n)%nat -> coarse_edge_step n hc vc dc he ve de tvs st i = Ok (add_ce (cent i) st).
Proof.
  intros H. unfold coarse_edge_step. rewrite !frac_ok. cbn [bind]. rewrite !Htvs by lia. cbn [bind].
  change (idx L (node n T i 0), idx L (node n T (i + 1) 0)) with (eidx L (node n T i 0, node n T (i + 1) 0)).
  change (idx L (node n T (n - i) i), idx L (node n T (n - (i + 1)) (i + 1))) with (eidx L (node n T (n - i) i, node n T (n - (i + 1)) (i + 1))).
  change (idx L (node n T 0 (n - i)), idx L (node n T 0 (n - (i + 1)))) with (eidx L (node n T 0 (n - i), node n T 0 (n - (i + 1)))).
  rewrite !assure_eidx. reflexivity.
Qed.
Definition cents : list (ledge * edge * (R * R)) := flat_map cent (rev (range n)).
Lemma coarse_loop st : foldM (coarse_edge_step n hc vc dc he ve de tvs) (range n) st = Ok (add_ce cents st).
Proof.
  destruct (foldM_inv (coarse_edge_step n hc vc dc he ve de tvs) (fun pre s => s = add_ce (flat_map cent (rev pre)) st) (range n) st) as [s [Q ->]].
  - unfold add_ce. cbn. destruct st; reflexivity.
  - intros pre i post s E ->. assert (Hi : (i < n)%nat) by (apply in_range; rewrite E; apply in_or_app; right; left; reflexivity).
    eexists. split; [apply coarse_step_ok, Hi|]. unfold add_ce. rewrite rev_app_distr. cbn [rev app flat_map rs_grid rs_ct rs_cb rs_ce rs_cc].
    rewrite !map_app, <- !app_assoc. reflexivity.
  - exact Q.
Qed.
End Steps.
End Tri.
