(** The whole refine call on a lattice grid. *)
From Coq Require Import Reals Lra Lia Psatz.
From Verif.Model Require Import Py Num Tensors Domain Refine.
From Verif.Spec Require Import GridSpec.
From Verif.Proofs Require Import Lib LocateP FindP Lattice RefineP RefineTri.
Local Open Scope R_scope.

Lemma removelast_map {A B} (f : A -> B) l : removelast (map f l) = map f (removelast l).
Proof. induction l as [|x [|y l] IH]; [reflexivity|reflexivity|]. cbn [map removelast] in *. rewrite IH. reflexivity. Qed.
Lemma tl_map {A B} (f : A -> B) l : tl (map f l) = map f (tl l).
Proof. destruct l; reflexivity. Qed.
Lemma zip_idx L a b : zip (map (idx L) a) (map (idx L) b) = map (eidx L) (zip a b).
Proof. revert b. induction a as [|x a IH]; intros [|y b]; [reflexivity..|]. unfold zip in *. cbn [map combine]. rewrite IH. reflexivity. Qed.

Section All.
Context (n : nat) (h : R) (Hn : (1 <= n)%nat) (Hh : 0 < h) (Heps : / 10 ^ 15 <= h).
Context (cg : grid R) (C : list Z2) (Ts : list ltri).
Context (HCp : g_points cg = map (lpt (INR n * h)) C) (HCv : g_vertices cg = range (length C)) (HCt : g_triangles cg = map (tidx C) Ts).
Context (HTs : forall T, In T Ts -> oriented T /\ tin C T) (HCn : NoDup C).

Definition L0 : list Z2 := map (scale n) C.
Definition hc (T : ltri) : bool := py_in edge_eqb (eidx C (c1 T, c2 T)) (g_edges cg).
Definition vc (T : ltri) : bool := py_in edge_eqb (eidx C (c2 T, c3 T)) (g_edges cg).
Definition dc (T : ltri) : bool := py_in edge_eqb (eidx C (c3 T, c1 T)) (g_edges cg).
Definition he (T : ltri) : ledge := orient (hc T) (c1 T, c2 T).
Definition ve (T : ltri) : ledge := orient (vc T) (c2 T, c3 T).
Definition de (T : ltri) : ledge := orient (dc T) (c3 T, c1 T).
Definition oe (T : ltri) : list ledge := oedges n T (hc T) (vc T) (dc T).
Definition hn (T : ltri) : list Z2 := map (fun i => node n T i 0) (assure_list (hc T) (range (n + 1))).
Definition vn (T : ltri) : list Z2 := map (fun i => node n T (n - i) i) (assure_list (vc T) (range (n + 1))).
Definition snodes (T : ltri) : list (edge * list Z2) := [(eidx C (he T), hn T); (eidx C (ve T), vn T)].
Definition bv (bd : boundary) (T : ltri) : list Z2 :=
  flat_map (fun en => if py_in edge_eqb (fst en) (b_edges bd) then removelast (tl (snd en)) else []) (snodes T).
Definition be (bd : boundary) (T : ltri) : list ledge :=
  flat_map (fun en => if py_in edge_eqb (fst en) (b_edges bd) then zip (removelast (snd en)) (tl (snd en)) else []) (snodes T).
Definition ces (T : ltri) := cents n T (hc T) (vc T) (dc T) (eidx C (he T)) (eidx C (ve T)) (eidx C (de T)).

Lemma rbe_map L e ns bd ib : refine_boundary_edge e (map (idx L) ns) bd ib =
  mkBoundary (b_vertices ib ++ map (idx L) (if py_in edge_eqb e (b_edges bd) then removelast (tl ns) else []))
             (b_edges ib ++ map (eidx L) (if py_in edge_eqb e (b_edges bd) then zip (removelast ns) (tl ns) else [])).
Proof.
  unfold refine_boundary_edge. destruct (py_in edge_eqb e (b_edges bd)); cbn [negb].
  - rewrite tl_map, !removelast_map, zip_idx. reflexivity.
  - cbn [map]. rewrite !app_nil_r. destruct ib; reflexivity.
Qed.
Definition grow (L : list Z2) (bd : boundary) (T : ltri) (ib : boundary) : boundary :=
  mkBoundary (b_vertices ib ++ map (idx L) (bv bd T)) (b_edges ib ++ map (eidx L) (be bd T)).
Lemma assure_map {A B} (f : A -> B) ok l : assure_list ok (map f l) = map f (assure_list ok l).
Proof. destruct ok; [reflexivity|]. cbn. rewrite map_rev. reflexivity. Qed.

Lemma refine_triangle_ok (T : ltri) (st : rstate R) (L : list Z2) (E : list ledge) :
  oriented T -> tin C T -> In T Ts -> (exists M, L = L0 ++ M) ->
  g_points (rs_grid st) = map (lpt h) L -> g_vertices (rs_grid st) = range (length L) -> g_edges (rs_grid st) = map (eidx L) E ->
  mok h (g_mean (rs_grid st)) -> (forall e, In e E -> ein L e) ->
  let L' := adds L (nodes n T) in
  exists m, mok h m /\ refine_triangle cg n st (tidx C T) = Ok (add_ce L' (ces T)
    (mkR (mkGrid (range (length L')) (map (eidx L') (fold_left addle (oe T) E)) (g_triangles (rs_grid st) ++ map (tidx L') (subs n T))
            (grow L' (g_boundary cg) T (g_boundary (rs_grid st))) (grow L' (g_dirichlet cg) T (g_dirichlet (rs_grid st))) (grow L' (g_neumann cg) T (g_neumann (rs_grid st)))
            (map (lpt h) L') m)
         (rev (map (fun s => (tidx L' (fst s), tidx C T)) (subq n T)) ++ rs_ct st)
         (rev (map (fun s => (tidx L' (fst s), snd s)) (subq n T)) ++ rs_cb st) (rs_ce st) (rs_cc st))).
Proof.
  intros HT [K1 [K2 K3]] HinT [M HL] HP HV HE HM HEin L'.
  change (tidx C T) with (idx C (c1 T), idx C (c2 T), idx C (c3 T)). unfold refine_triangle.
  assert (Etv : triangle_vertices cg (idx C (c1 T), idx C (c2 T), idx C (c3 T)) = Ok (tv n h T)).
  { assert (HI : py_in triangle_eqb (idx C (c1 T), idx C (c2 T), idx C (c3 T)) (g_triangles cg) = true).
    { apply py_in_triple. rewrite HCt. apply (in_map (tidx C)), HinT. }
    unfold triangle_vertices. rewrite HI. unfold points_of, py_nth. rewrite HCp, !nth_error_map, !idx_nth by assumption. reflexivity. }
  rewrite Etv. cbn [bind]. unfold tv at 1.
  assert (G1 : forall x, Vector_get (lpt (INR n * h) x) 1 = Ok (IZR (snd x) * (INR n * h))) by reflexivity.
  assert (G0 : forall x, Vector_get (lpt (INR n * h) x) 0 = Ok (IZR (fst x) * (INR n * h))) by reflexivity.
  rewrite !G1, !G0. cbn [bind]. clear G0 G1.
  change (snd (c2 T)) with (snd (c1 T)). change (fst (c3 T)) with (fst (c2 T)).
  assert (Heps0 : 0 < @assert_eps R RNum). { unfold assert_eps, ndec. cbn [RNum]. unfold Rdiv. rewrite Rmult_1_l. apply Rinv_0_lt_compat, pow_lt. lra. }
  assert (HA : forall a : R, nltb (nabs (nsub a a)) (@assert_eps R RNum) = true).
  { intros a. cbn [nltb nabs nsub RNum]. apply Rltb_true. unfold Rminus. rewrite Rplus_opp_r, Rabs_R0. exact Heps0. }
  rewrite !HA. cbn [py_assert bind].
  assert (HLn : exists k, length L = S k).
  { destruct L as [|x L1]; [|cbn; eauto]. exfalso. symmetry in HL. apply app_eq_nil in HL as [HL _].
    pose proof (in_map (scale n) _ _ K1) as Q. fold L0 in Q. rewrite HL in Q. destruct Q. }
  destruct HLn as [kL HkL]. rewrite HV, HkL, range_S, py_last_app. cbn [bind]. rewrite <- HkL.
  assert (Hsc : forall x, In x C -> In (scale n x) L /\ idx L (scale n x) = idx C x).
  { intros x Hx. assert (HI : In (scale n x) L0) by (apply in_map, Hx). rewrite HL. split; [apply in_or_app; left; exact HI|].
    rewrite idx_app by exact HI. apply idx_map. intros a b. apply scale_inj, Hn. }
  destruct (Hsc _ K1) as [S1 X1], (Hsc _ K2) as [S2 X2], (Hsc _ K3) as [S3 X3].
  rewrite <- X1, <- X2, <- X3.
  destruct (vertex_loop n h Hn Hh Heps T (rs_grid st) L S1 S2 S3 HM HP HV) as [tvs [Q Htvs]]. cbv zeta in Q. rewrite Q. cbn [bind].
  fold L' in Htvs |- *.
  assert (HLn : forall x, In x (nodes n T) -> In x L') by (intros x Hx; apply adds_in; right; exact Hx).
  rewrite (lower_loop n h Hn T L' tvs _ Htvs HLn) by reflexivity. cbn [bind].
  rewrite (upper_loop n Hn T L' tvs _ Htvs). cbn [bind]. rewrite add_all_app. fold (subq n T).
  rewrite X1, X2, X3. change (idx C (c1 T), idx C (c2 T), idx C (c3 T)) with (tidx C T).
  change (idx C (c1 T), idx C (c2 T)) with (eidx C (c1 T, c2 T)). change (idx C (c2 T), idx C (c3 T)) with (eidx C (c2 T, c3 T)).
  change (idx C (c3 T), idx C (c1 T)) with (eidx C (c3 T, c1 T)). fold (hc T) (vc T) (dc T).
  destruct (edge_loop n h Hn Hh T HT L' tvs Htvs HLn (hc T) (vc T) (dc T)
     (rs_grid (add_all L' (tidx C T) (subq n T) (mkR (set_vp (rs_grid st) (range (length L')) (map (lpt h) L')) (rs_ct st) (rs_cb st) (rs_ce st) (rs_cc st)))) E)
     as [m [Q2 Hm]].
  { reflexivity. }
  { cbn [add_all rs_grid set_triangles set_vp g_edges]. rewrite HE. apply map_ext_in. intros e He. symmetry. apply eidx_adds, HEin, He. }
  { exact HM. }
  { intros e He. apply ein_adds, HEin, He. }
  rewrite Q2. cbn [bind]. fold (oe T).
  rewrite (mapM_map (fun i => tvget tvs i 0) (fun i => idx L' (node n T i 0))) by (intros i Hi; apply in_range in Hi; apply Htvs; lia). cbn [bind].
  rewrite (mapM_map (fun i => tvget tvs (n - i) i) (fun i => idx L' (node n T (n - i) i))) by (intros i Hi; apply in_range in Hi; apply Htvs; lia). cbn [bind].
  rewrite <- (map_map (fun i => node n T i 0) (idx L')), <- (map_map (fun i => node n T (n - i) i) (idx L')), !assure_map, !assure_eidx.
  fold (he T) (ve T) (de T) (hn T) (vn T).
  rewrite (coarse_loop n Hn T L' tvs Htvs). fold (ces T). exists m. split; [exact Hm|]. apply (f_equal Ok). f_equal.
  unfold add_all. cbn [rs_grid rs_ct rs_cb rs_ce rs_cc fold_left refine_boundaries set_boundaries with_edges set_triangles set_vp g_vertices g_edges g_triangles g_boundary g_dirichlet g_neumann g_points g_mean].
  rewrite !rbe_map. cbn [b_vertices b_edges]. rewrite <- !app_assoc, <- !map_app.
  assert (GR : forall bd ib, mkBoundary (b_vertices ib ++ map (idx L') ((if py_in edge_eqb (eidx C (he T)) (b_edges bd) then removelast (tl (hn T)) else []) ++
                 (if py_in edge_eqb (eidx C (ve T)) (b_edges bd) then removelast (tl (vn T)) else [])))
      (b_edges ib ++ map (eidx L') ((if py_in edge_eqb (eidx C (he T)) (b_edges bd) then zip (removelast (hn T)) (tl (hn T)) else []) ++
                 (if py_in edge_eqb (eidx C (ve T)) (b_edges bd) then zip (removelast (vn T)) (tl (vn T)) else []))) = grow L' bd T ib).
  { intros bd ib. unfold grow, bv, be, snodes. cbn [flat_map fst snd]. rewrite !app_nil_r. reflexivity. }
  rewrite !GR. rewrite <- subq_subs, map_map. reflexivity.
Qed.

(** ** The loop over the coarse triangles *)
Definition LL (done : list ltri) : list Z2 := adds L0 (flat_map (nodes n) done).
Definition EE (done : list ltri) : list ledge := fold_left addle (flat_map oe done) [].
Definition BB (L : list Z2) (bd : boundary) (done : list ltri) : boundary :=
  mkBoundary (b_vertices bd ++ map (idx L) (flat_map (bv bd) done)) (map (eidx L) (flat_map (be bd) done)).
Definition GG (done : list ltri) (m : option R) : grid R :=
  let L := LL done in
  mkGrid (range (length L)) (map (eidx L) (EE done)) (map (tidx L) (flat_map (subs n) done))
    (BB L (g_boundary cg) done) (BB L (g_dirichlet cg) done) (BB L (g_neumann cg) done) (map (lpt h) L) m.
Definition ct_spec (done : list ltri) (d : dict triangle triangle) : Prop :=
  forall k v, In (k, v) d <-> exists T s, In T done /\ In s (subq n T) /\ k = tidx (LL done) (fst s) /\ v = tidx C T.
Definition cb_spec (done : list ltri) (d : dict triangle (Refine.bary3 R)) : Prop :=
  forall k v, In (k, v) d <-> exists T s, In T done /\ In s (subq n T) /\ k = tidx (LL done) (fst s) /\ v = snd s.
Definition ce_spec (done : list ltri) (d : dict edge edge) : Prop :=
  forall k v, In (k, v) d <-> exists T x, In T done /\ In x (ces T) /\ k = eidx (LL done) (fst (fst x)) /\ v = snd (fst x).
Definition cc_spec (done : list ltri) (d : dict edge (R * R)) : Prop :=
  forall k v, In (k, v) d <-> exists T x, In T done /\ In x (ces T) /\ k = eidx (LL done) (fst (fst x)) /\ v = snd x.

Lemma LL_snoc done T : LL (done ++ [T]) = adds (LL done) (nodes n T).
Proof. unfold LL. rewrite flat_map_app, adds_app. cbn [flat_map]. rewrite app_nil_r. reflexivity. Qed.
Lemma EE_snoc done T : EE (done ++ [T]) = fold_left addle (oe T) (EE done).
Proof. unfold EE. rewrite flat_map_app, fold_left_app. cbn [flat_map]. rewrite app_nil_r. reflexivity. Qed.
Lemma LL_node done T x : In T done -> In x (nodes n T) -> In x (LL done).
Proof. intros HT Hx. apply adds_in. right. apply in_flat_map. eauto. Qed.
Lemma LL_sub done T S : In T done -> In S (subs n T) -> tin (LL done) S.
Proof. intros HT HS. destruct (subs_corners n T S HS) as [A [B D]]. repeat split; apply (LL_node done T); assumption. Qed.
Lemma ein_nodes done T e : In T done -> In (fst e) (nodes n T) -> In (snd e) (nodes n T) -> ein (LL done) e.
Proof. intros HT A B. split; apply (LL_node done T); assumption. Qed.
Lemma nodes_orient T ok e : In (fst e) (nodes n T) -> In (snd e) (nodes n T) -> In (fst (orient ok e)) (nodes n T) /\ In (snd (orient ok e)) (nodes n T).
Proof. destruct ok; cbn; auto. Qed.
Lemma node_in_nodes T k l : (k + l <= n)%nat -> In (node n T k l) (nodes n T).
Proof. intros H. apply in_nodes. eauto. Qed.
Lemma oe_nodes T e : In e (oe T) -> In (fst e) (nodes n T) /\ In (snd e) (nodes n T).
Proof.
  unfold oe, oedges. rewrite in_flat_map. intros [[k l] [H He]]. apply in_kl_lower in H. cbn [edges3] in He.
  destruct He as [<-|[<-|[<-|[]]]]; apply nodes_orient; cbn [fst snd]; apply node_in_nodes; lia.
Qed.
Lemma ces_nodes T x : In x (ces T) -> In (fst (fst (fst x))) (nodes n T) /\ In (snd (fst (fst x))) (nodes n T).
Proof.
  unfold ces, cents. rewrite in_flat_map. intros [i [H He]]. rewrite <- in_rev in H. apply in_range in H. unfold cent in He.
  destruct He as [<-|[<-|[<-|[]]]]; apply nodes_orient; cbn [fst snd]; apply node_in_nodes; lia.
Qed.
Lemma hn_nodes T x : In x (hn T) -> In x (nodes n T).
Proof.
  unfold hn. rewrite in_map_iff. intros [i [<- H]]. apply node_in_nodes. destruct (hc T); cbn in H; [|rewrite <- in_rev in H]; apply in_range in H; lia.
Qed.
Lemma vn_nodes T x : In x (vn T) -> In x (nodes n T).
Proof.
  unfold vn. rewrite in_map_iff. intros [i [<- H]]. apply node_in_nodes. destruct (vc T); cbn in H; [|rewrite <- in_rev in H]; apply in_range in H; lia.
Qed.
Lemma in_removelast {A} (l : list A) x : In x (removelast l) -> In x l.
Proof. induction l as [|y [|z l] IH]; [tauto|intros []|]. cbn [removelast]. intros [<-|H]; [left; reflexivity|right; apply IH, H]. Qed.
Lemma in_tl {A} (l : list A) x : In x (tl l) -> In x l.
Proof. destruct l; [tauto|]. cbn. auto. Qed.
Lemma bv_nodes bd T x : In x (bv bd T) -> In x (nodes n T).
Proof.
  unfold bv, snodes. cbn [flat_map fst snd]. rewrite !in_app_iff. intros [H|[H|[]]];
    (destruct (py_in _ _ _) in H; [|destruct H]); apply in_removelast, in_tl in H; [apply hn_nodes|apply vn_nodes]; exact H.
Qed.
Lemma be_nodes bd T e : In e (be bd T) -> In (fst e) (nodes n T) /\ In (snd e) (nodes n T).
Proof.
  unfold be, snodes. cbn [flat_map fst snd]. rewrite !in_app_iff. destruct e as [a b].
  intros [H|[H|[]]]; (destruct (py_in _ _ _) in H; [|destruct H]); unfold zip in H; (split;
    [apply in_combine_l in H; apply in_removelast in H|apply in_combine_r in H; apply in_tl in H]).
  - apply hn_nodes, H.
  - apply hn_nodes, H.
  - apply vn_nodes, H.
  - apply vn_nodes, H.
Qed.
Lemma EE_in done e : In e (EE done) -> exists T, In T done /\ In e (oe T).
Proof.
  unfold EE. assert (K : forall es E, In e (fold_left addle es E) -> In e E \/ In e es).
  { induction es as [|x es IH]; intros E; cbn [fold_left]; [auto|]. intros H. apply IH in H as [H|H]; [|right; right; exact H].
    apply addle_in in H as [H| ->]; [left; exact H|right; left; reflexivity]. }
  intros H. apply K in H as [[]|H]. apply in_flat_map in H. exact H.
Qed.
Lemma EE_ein done e : In e (EE done) -> ein (LL done) e.
Proof. intros H. apply EE_in in H as [T [HT He]]. apply oe_nodes in He as [A B]. apply (ein_nodes done T); assumption. Qed.

Lemma subq_in T s : In s (subq n T) -> In (fst s) (subs n T).
Proof. intros H. rewrite <- subq_subs. apply in_map, H. Qed.

Lemma refine_loop ig : intermediate_grid cg = Ok ig ->
  exists st m, foldM (refine_triangle cg n) (g_triangles cg) (mkR ig [] [] [] []) = Ok st /\ mok h m /\
    rs_grid st = GG Ts m /\ ct_spec Ts (rs_ct st) /\ cb_spec Ts (rs_cb st) /\ ce_spec Ts (rs_ce st) /\ cc_spec Ts (rs_cc st).
Proof.
  intros Hig. rewrite HCt.
  assert (FM : forall A B S (f : S -> B -> res S) (k : A -> B) l s, foldM f (map k l) s = foldM (fun s x => f s (k x)) l s).
  { intros A B S f k l. induction l as [|x l IH]; intros s; [reflexivity|]. cbn [map foldM]. destruct (f s (k x)); [apply IH|reflexivity]. }
  rewrite FM. clear FM.
  destruct (foldM_inv (fun st T => refine_triangle cg n st (tidx C T)) (fun done st => exists m, mok h m /\
      rs_grid st = GG done m /\ ct_spec done (rs_ct st) /\ cb_spec done (rs_cb st) /\ ce_spec done (rs_ce st) /\ cc_spec done (rs_cc st))
      Ts (mkR ig [] [] [] [])) as [st [Q [m [Hm HI]]]].
  - exists None. split; [exact I|]. unfold intermediate_grid, Grid_ in Hig. injection Hig as <-. cbn [rs_grid rs_ct rs_cb rs_ce rs_cc]. split.
    { unfold GG, BB, LL, EE. cbn [flat_map adds fold_left map]. rewrite !app_nil_r. unfold L0. rewrite map_length, HCv, HCp, map_map. f_equal.
      apply map_ext. intros x. apply lpt_scale. }
    assert (K0 : forall (A B : Prop), ~ A -> ~ B -> (A <-> B)) by tauto.
    (split; [|split; [|split]]); intros k v; (apply K0; [intros []|intros [T [s [[] _]]]]).
  - intros done T post st Hsp [m [Hm [HG [S1 [S2 [S3 S4]]]]]].
    assert (HinT : In T Ts) by (rewrite Hsp; apply in_or_app; right; left; reflexivity).
    destruct (HTs T HinT) as [Hor Htin].
    destruct (refine_triangle_ok T st (LL done) (EE done) Hor Htin HinT) as [m' [Hm' Q]].
    { destruct (adds_ext L0 (flat_map (nodes n) done)) as [M HM]. exists M. exact HM. }
    { rewrite HG. reflexivity. } { rewrite HG. reflexivity. } { rewrite HG. reflexivity. } { rewrite HG. exact Hm. } { apply EE_ein. }
    rewrite Q. eexists. split; [reflexivity|]. exists m'. split; [exact Hm'|]. clear Q. rewrite HG.
    cbn [GG g_triangles g_boundary g_dirichlet g_neumann]. rewrite <- LL_snoc, <- EE_snoc. unfold add_ce. cbn [rs_grid rs_ct rs_cb rs_ce rs_cc].
    set (L' := LL (done ++ [T])).
    assert (HLi : forall x, In x (LL done) -> idx L' x = idx (LL done) x) by (intros x Hx; unfold L'; rewrite LL_snoc; apply idx_adds, Hx).
    assert (HLt : forall T' S, In T' done -> In S (subs n T') -> tidx L' S = tidx (LL done) S).
    { intros T' S H1 H2. unfold L'. rewrite LL_snoc. apply tidx_adds. apply (LL_sub done T'); assumption. }
    assert (HLe : forall e, ein (LL done) e -> eidx L' e = eidx (LL done) e).
    { intros e He. unfold L'. rewrite LL_snoc. apply eidx_adds, He. }
    split; [|split; [|split; [|split]]].
    + assert (HB : forall bd, grow L' bd T (BB (LL done) bd done) = BB L' bd (done ++ [T])).
      { intros bd. unfold grow, BB. cbn [b_vertices b_edges]. rewrite !flat_map_app, !map_app, <- app_assoc. cbn [flat_map]. rewrite !app_nil_r. f_equal.
        - f_equal. f_equal. apply map_ext_in. intros x Hx. symmetry. apply HLi. apply in_flat_map in Hx as [T' [H1 H2]]. apply (LL_node done T'); [exact H1|apply (bv_nodes bd), H2].
        - f_equal. apply map_ext_in. intros e He. symmetry. apply HLe. apply in_flat_map in He as [T' [H1 H2]]. apply be_nodes in H2 as [A B]. apply (ein_nodes done T'); assumption. }
      rewrite !HB. unfold GG. fold L'. f_equal. rewrite flat_map_app, map_app. cbn [flat_map]. rewrite app_nil_r. f_equal.
      apply map_ext_in. intros S HS. apply in_flat_map in HS as [T' [H1 H2]]. symmetry. apply (HLt T'); assumption.
    + intros k v. rewrite in_app_iff, <- in_rev, in_map_iff, (S1 k v). fold L'. split.
      * intros [[s [E H]]|[T' [s [H1 [H2 [-> ->]]]]]].
        -- injection E as <- <-. exists T, s. repeat split; try assumption. apply in_or_app. right. left. reflexivity.
        -- exists T', s. repeat split; try assumption; [apply in_or_app; left; exact H1|]. symmetry. apply (HLt T'); [exact H1|apply subq_in, H2].
      * intros [T' [s [H1 [H2 [-> ->]]]]]. apply in_app_iff in H1 as [H1|[<-|[]]].
        -- right. exists T', s. repeat split; try assumption. apply (HLt T'); [exact H1|apply subq_in, H2].
        -- left. exists s. auto.
    + intros k v. rewrite in_app_iff, <- in_rev, in_map_iff, (S2 k v). fold L'. split.
      * intros [[s [E H]]|[T' [s [H1 [H2 [-> ->]]]]]].
        -- injection E as <- <-. exists T, s. repeat split; try assumption. apply in_or_app. right. left. reflexivity.
        -- exists T', s. repeat split; try assumption; [apply in_or_app; left; exact H1|]. symmetry. apply (HLt T'); [exact H1|apply subq_in, H2].
      * intros [T' [s [H1 [H2 [-> ->]]]]]. apply in_app_iff in H1 as [H1|[<-|[]]].
        -- right. exists T', s. repeat split; try assumption. apply (HLt T'); [exact H1|apply subq_in, H2].
        -- left. exists s. auto.
    + intros k v. rewrite in_app_iff, in_map_iff, (S3 k v). unfold key_of. fold L'. split.
      * intros [[x [E H]]|[T' [x [H1 [H2 [-> ->]]]]]].
        -- injection E as <- <-. exists T, x. repeat split; try assumption. apply in_or_app. right. left. reflexivity.
        -- exists T', x. repeat split; try assumption; [apply in_or_app; left; exact H1|]. symmetry. apply HLe. apply ces_nodes in H2 as [A B]. apply (ein_nodes done T'); assumption.
      * intros [T' [x [H1 [H2 [-> ->]]]]]. apply in_app_iff in H1 as [H1|[<-|[]]].
        -- right. exists T', x. repeat split; try assumption. apply HLe. apply ces_nodes in H2 as [A B]. apply (ein_nodes done T'); assumption.
        -- left. exists x. auto.
    + intros k v. rewrite in_app_iff, in_map_iff, (S4 k v). unfold key_of. fold L'. split.
      * intros [[x [E H]]|[T' [x [H1 [H2 [-> ->]]]]]].
        -- injection E as <- <-. exists T, x. repeat split; try assumption. apply in_or_app. right. left. reflexivity.
        -- exists T', x. repeat split; try assumption; [apply in_or_app; left; exact H1|]. symmetry. apply HLe. apply ces_nodes in H2 as [A B]. apply (ein_nodes done T'); assumption.
      * intros [T' [x [H1 [H2 [-> ->]]]]]. apply in_app_iff in H1 as [H1|[<-|[]]].
        -- right. exists T', x. repeat split; try assumption. apply HLe. apply ces_nodes in H2 as [A B]. apply (ein_nodes done T'); assumption.
        -- left. exists x. auto.
  - exists st, m. auto.
Qed.

Lemma oe_short T e : oriented T -> In e (oe T) -> short e.
Proof.
  intros HT. unfold oe, oedges. rewrite in_flat_map. intros [[k l] [H He]]. cbn [edges3] in He. unfold oriented in HT.
  destruct He as [<-|[<-|[<-|[]]]]; apply short_orient; unfold short, node; cbn [fst snd]; rewrite ?Nat2Z.inj_add; lia.
Qed.
Lemma refine_lattice : exists r m, refine cg (Z.of_nat n) = Ok r /\ r_coarse r = cg /\ r_grid r = GG Ts m /\ mok h m /\
  (m = None -> EE Ts = []) /\
  ct_spec Ts (r_coarse_triangle r) /\ cb_spec Ts (r_coarse_bary r) /\ ce_spec Ts (r_coarse_edge r) /\ cc_spec Ts (r_coarse_edge_coords r).
Proof.
  unfold refine. replace (Z.of_nat n <? 1)%Z with false by (symmetry; apply Z.ltb_ge; lia). rewrite Nat2Z.id.
  assert (Hig : exists ig, intermediate_grid cg = Ok ig) by (unfold intermediate_grid, Grid_; eauto). destruct Hig as [ig Hig].
  rewrite Hig. cbn [bind]. destruct (refine_loop ig Hig) as [st [m [Q [Hm [HG [S1 [S2 [S3 S4]]]]]]]]. rewrite Q. cbn [bind]. rewrite HG.
  cbn [GG g_vertices g_edges g_triangles g_boundary g_dirichlet g_neumann g_points].
  unfold Grid_. destruct (map (eidx (LL Ts)) (EE Ts)) as [|e0 es0] eqn:EM.
  - cbn [bind]. exists (mkRefined (GG Ts None) cg (rs_ct st) (rs_cb st) (rs_ce st) (rs_cc st)), None.
    split; [unfold GG; rewrite EM; reflexivity|]. cbn [r_coarse r_grid r_coarse_triangle r_coarse_bary r_coarse_edge r_coarse_edge_coords]. split; [reflexivity|]. split; [reflexivity|]. split; [exact I|]. split; [intros _; apply map_eq_nil in EM; exact EM|]. auto.
  - rewrite <- EM.
    assert (HL : exists lens, mapM (edge_length (map (lpt h) (LL Ts))) (map (eidx (LL Ts)) (EE Ts)) = Ok lens /\
      length lens = length (EE Ts) /\ forall l, In l lens -> 0 < l <= 2 * h).
    { assert (K : forall E, (forall e, In e E -> ein (LL Ts) e /\ short e) -> exists lens, mapM (edge_length (map (lpt h) (LL Ts))) (map (eidx (LL Ts)) E) = Ok lens /\
        length lens = length E /\ forall l, In l lens -> 0 < l <= 2 * h).
      { induction E as [|e E IH]; intros H; [exists []; cbn; intuition|].
        destruct (IH (fun e' He' => H e' (or_intror He'))) as [lens [E1 [E2 E3]]]. destruct (H e (or_introl eq_refl)) as [[I1 I2] Hs].
        exists (dist (lp h (fst e)) (lp h (snd e)) :: lens). cbn [map mapM]. rewrite E1. split.
        - assert (EL : edge_length (map (lpt h) (LL Ts)) (eidx (LL Ts) e) = Ok (dist (lp h (fst e)) (lp h (snd e)))).
          { apply (edge_length_at (GG Ts None) (eidx (LL Ts) e)); apply (lpt_at h); try assumption; reflexivity. }
          rewrite EL. reflexivity.
        - cbn [length]. split; [congruence|]. intros l [<-|Hl]; [apply short_dist; assumption|apply E3, Hl]. }
      apply K. intros e He. split; [apply EE_ein, He|]. apply EE_in in He as [T [HT He]]. apply (oe_short T e (proj1 (HTs T HT)) He). }
    destruct HL as [lens [E1 [E2 E3]]]. rewrite E1. cbn [bind]. rewrite map_length. cbn [nofZ RNum].
    assert (Hlen : (1 <= length (EE Ts))%nat) by (rewrite <- (map_length (eidx (LL Ts))), EM; cbn; lia).
    rewrite ndiv_R by (apply IZR_neq; lia). cbn [bind]. rewrite EM. rewrite <- EM.
    exists (mkRefined (GG Ts (Some (nsum lens / IZR (Z.of_nat (length (EE Ts)))))) cg (rs_ct st) (rs_cb st) (rs_ce st) (rs_cc st)), (Some (nsum lens / IZR (Z.of_nat (length (EE Ts))))).
    split; [reflexivity|]. cbn [r_coarse r_grid r_coarse_triangle r_coarse_bary r_coarse_edge r_coarse_edge_coords]. split; [reflexivity|]. split; [reflexivity|].
    split; [|split; [discriminate|auto]]. cbn [mok]. rewrite nsum_Rsum, <- INR_IZR_INZ, <- E2. rewrite <- E2 in Hlen.
    assert (KS : forall l, (forall x, In x l -> 0 < x <= 2 * h) -> (1 <= length l)%nat -> 0 < Rsum l <= 2 * h * INR (length l)).
    { induction l as [|x [|y l] IH]; intros Hl Hln; [cbn in Hln; lia| |].
      - pose proof (Hl x (or_introl eq_refl)). cbn. lra.
      - pose proof (Hl x (or_introl eq_refl)). destruct IH as [A B]; [intros z Hz; apply Hl; right; exact Hz|cbn; lia|].
        change (length (x :: y :: l)) with (S (length (y :: l))). rewrite S_INR. change (Rsum (x :: y :: l)) with (x + Rsum (y :: l)). lra. }
    destruct (KS lens E3 Hlen) as [A B]. assert (Hp : 0 < INR (length lens)) by (apply lt_0_INR; lia).
    split; [apply Rmult_lt_0_compat; [exact A|apply Rinv_0_lt_compat, Hp]|].
    apply Rmult_le_reg_r with (INR (length lens)); [exact Hp|]. unfold Rdiv. rewrite Rmult_assoc, Rinv_l by lra. lra.
Qed.
End All.
