(** The rectangle grid: index arithmetic and lists. *)
From Coq Require Import Reals Lra Lia String.
From Verif.Model Require Import Py Num Tensors Domain.
From Verif.Spec Require Import GridSpec.
From Verif.Proofs Require Import Lib.

(** ** Index arithmetic *)
Lemma ptv_mod nh i j : (i < nh)%nat -> (pair_to_vertex nh i j mod nh)%nat = i.
Proof. intros H. unfold pair_to_vertex. rewrite Nat.add_comm, Nat.mod_add by lia. apply Nat.mod_small, H. Qed.
Lemma ptv_div nh i j : (i < nh)%nat -> (pair_to_vertex nh i j / nh)%nat = j.
Proof. intros H. unfold pair_to_vertex. rewrite Nat.add_comm, Nat.div_add by lia. rewrite Nat.div_small by exact H. lia. Qed.
Lemma ptv_inj nh i j i' j' : (i < nh)%nat -> (i' < nh)%nat ->
  pair_to_vertex nh i j = pair_to_vertex nh i' j' -> i = i' /\ j = j'.
Proof.
  intros Hi Hi' H. split.
  - rewrite <- (ptv_mod nh i j Hi), H. apply ptv_mod, Hi'.
  - rewrite <- (ptv_div nh i j Hi), H. apply ptv_div, Hi'.
Qed.
Lemma ptv_lt nh nv i j : (i < nh)%nat -> (j < nv)%nat -> (pair_to_vertex nh i j < nh * nv)%nat.
Proof. unfold pair_to_vertex. nia. Qed.
Lemma ptv_surj nh v : (0 < nh)%nat -> v = pair_to_vertex nh (v mod nh) (v / nh).
Proof. intros H. unfold pair_to_vertex. pose proof (Nat.div_mod v nh ltac:(lia)). lia. Qed.
Lemma ptv_surj' nh nv v : (v < nh * nv)%nat ->
  exists i j, (i < nh)%nat /\ (j < nv)%nat /\ v = pair_to_vertex nh i j.
Proof.
  intros H. assert (Hn : (0 < nh)%nat) by (destruct nh; lia). exists (v mod nh)%nat, (v / nh)%nat.
  split; [apply Nat.mod_upper_bound; lia|]. split; [apply Nat.div_lt_upper_bound; lia|]. apply ptv_surj, Hn.
Qed.
Global Opaque pair_to_vertex.

(** ** Membership *)
Lemma in_vertices nh nv v : In v (rg_vertices nh nv) <-> (v < nh * nv)%nat.
Proof. unfold rg_vertices. apply in_range. Qed.
Lemma in_flat_map2 {A} (f : nat -> nat -> A) n m x :
  In x (flat_map (fun i => map (fun j => f i j) (range m)) (range n)) <->
  exists i j, (i < n)%nat /\ (j < m)%nat /\ x = f i j.
Proof.
  rewrite in_flat_map. split.
  - intros [i [Hi H]]. apply in_map_iff in H as [j [<- Hj]]. exists i, j. rewrite <- in_range, <- in_range. auto.
  - intros [i [j [Hi [Hj ->]]]]. exists i. split; [apply in_range, Hi|]. apply in_map_iff. exists j. split; [reflexivity | apply in_range, Hj].
Qed.
Lemma in_horizontal nh nv e : In e (horizontal_edges nh nv) <->
  exists i j, (i + 1 < nh)%nat /\ (j < nv)%nat /\ e = (pair_to_vertex nh i j, pair_to_vertex nh (i + 1) j).
Proof.
  unfold horizontal_edges. rewrite (in_flat_map2 (fun j i => (pair_to_vertex nh i j, pair_to_vertex nh (i + 1) j))).
  split; intros [a [b H]]; exists b, a; (split; [lia|]); (split; [lia|apply H]).
Qed.
Lemma in_vertical nh nv e : In e (vertical_edges nh nv) <->
  exists i j, (i < nh)%nat /\ (j + 1 < nv)%nat /\ e = (pair_to_vertex nh i j, pair_to_vertex nh i (j + 1)).
Proof.
  unfold vertical_edges. rewrite (in_flat_map2 (fun i j => (pair_to_vertex nh i j, pair_to_vertex nh i (j + 1)))).
  split; intros [a [b H]]; exists a, b; (split; [lia|]); (split; [lia|apply H]).
Qed.
Lemma in_diagonal nh nv e : In e (diagonal_edges nh nv) <->
  exists i j, (i + 1 < nh)%nat /\ (j + 1 < nv)%nat /\ e = (pair_to_vertex nh i j, pair_to_vertex nh (i + 1) (j + 1)).
Proof.
  unfold diagonal_edges. rewrite (in_flat_map2 (fun i j => (pair_to_vertex nh i j, pair_to_vertex nh (i + 1) (j + 1)))).
  split; intros [a [b H]]; exists a, b; (split; [lia|]); (split; [lia|apply H]).
Qed.
(** Edges: step (di,dj) in {(1,0),(0,1),(1,1)}. *)
Definition step (di dj : nat) : Prop := (di = 1 /\ dj = 0 \/ di = 0 /\ dj = 1 \/ di = 1 /\ dj = 1)%nat.
Lemma in_edges nh nv e : In e (rg_edges nh nv) <->
  exists i j di dj, step di dj /\ (i + di < nh)%nat /\ (j + dj < nv)%nat /\
    e = (pair_to_vertex nh i j, pair_to_vertex nh (i + di) (j + dj)).
Proof.
  unfold rg_edges. rewrite !in_app_iff, in_horizontal, in_vertical, in_diagonal. split.
  - intros [[i [j [H1 [H2 ->]]]]|[[i [j [H1 [H2 ->]]]]|[i [j [H1 [H2 ->]]]]]]; exists i, j.
    + exists 1%nat, 0%nat. unfold step. rewrite Nat.add_0_r. repeat split; auto; lia.
    + exists 0%nat, 1%nat. unfold step. rewrite Nat.add_0_r. repeat split; auto; lia.
    + exists 1%nat, 1%nat. unfold step. repeat split; auto; lia.
  - intros [i [j [di [dj [[[-> ->]|[[-> ->]|[-> ->]]] [H1 [H2 ->]]]]]]].
    + left. exists i, j. rewrite Nat.add_0_r in H2 |- *. auto.
    + right; left. exists i, j. rewrite Nat.add_0_r in H1 |- *. auto.
    + right; right. exists i, j. auto.
Qed.
Lemma in_edges_ptv nh nv i j i' j' : (i < nh)%nat -> (j < nv)%nat -> (i' < nh)%nat -> (j' < nv)%nat ->
  (In (pair_to_vertex nh i j, pair_to_vertex nh i' j') (rg_edges nh nv) <->
   (i' = i + 1 /\ j' = j \/ i' = i /\ j' = j + 1 \/ i' = i + 1 /\ j' = j + 1)%nat).
Proof.
  intros Hi Hj Hi' Hj'. rewrite in_edges. split.
  - intros [a [b [di [dj [Hs [Ha [Hb E]]]]]]]. injection E as E1 E2.
    apply ptv_inj in E1 as [<- <-]; [|lia|lia]. apply ptv_inj in E2 as [-> ->]; [|lia|lia].
    unfold step in Hs. lia.
  - intros H. exists i, j, (i' - i)%nat, (j' - j)%nat. unfold step.
    replace (i + (i' - i))%nat with i' by lia. replace (j + (j' - j))%nat with j' by lia.
    split; [lia|]. auto.
Qed.
Lemma in_lower_tri nh nv t : In t (lower_triangles nh nv) <->
  exists i j, (i + 1 < nh)%nat /\ (j + 1 < nv)%nat /\
    t = (pair_to_vertex nh i j, pair_to_vertex nh (i + 1) j, pair_to_vertex nh (i + 1) (j + 1)).
Proof.
  unfold lower_triangles. rewrite (in_flat_map2 (fun i j => (pair_to_vertex nh i j, pair_to_vertex nh (i + 1) j, pair_to_vertex nh (i + 1) (j + 1)))).
  split; intros [a [b H]]; exists a, b; (split; [lia|]); (split; [lia|apply H]).
Qed.
Lemma in_upper_tri nh nv t : In t (upper_triangles nh nv) <->
  exists i j, (i + 1 < nh)%nat /\ (j + 1 < nv)%nat /\
    t = (pair_to_vertex nh (i + 1) (j + 1), pair_to_vertex nh i (j + 1), pair_to_vertex nh i j).
Proof.
  unfold upper_triangles. rewrite (in_flat_map2 (fun i j => (pair_to_vertex nh (i + 1) (j + 1), pair_to_vertex nh i (j + 1), pair_to_vertex nh i j))).
  split; intros [a [b H]]; exists a, b; (split; [lia|]); (split; [lia|apply H]).
Qed.
Definition lower_tri nh i j : triangle := (pair_to_vertex nh i j, pair_to_vertex nh (i + 1) j, pair_to_vertex nh (i + 1) (j + 1)).
Definition upper_tri nh i j : triangle := (pair_to_vertex nh (i + 1) (j + 1), pair_to_vertex nh i (j + 1), pair_to_vertex nh i j).
Lemma in_triangles nh nv t : In t (rg_triangles nh nv) <->
  exists i j, (i + 1 < nh)%nat /\ (j + 1 < nv)%nat /\ (t = lower_tri nh i j \/ t = upper_tri nh i j).
Proof.
  unfold rg_triangles. rewrite in_app_iff, in_lower_tri, in_upper_tri. split.
  - intros [[i [j [H1 [H2 H3]]]]|[i [j [H1 [H2 H3]]]]]; exists i, j; auto.
  - intros [i [j [H1 [H2 [H3|H3]]]]]; [left|right]; exists i, j; auto.
Qed.

(** ** No duplicates *)
Lemma NoDup_map2 {A} (f : nat -> nat -> A) n m :
  (forall i j i' j', (i < n)%nat -> (j < m)%nat -> (i' < n)%nat -> (j' < m)%nat -> f i j = f i' j' -> i = i' /\ j = j') ->
  NoDup (flat_map (fun i => map (fun j => f i j) (range m)) (range n)).
Proof.
  intros H. apply NoDup_flat_map; [apply NoDup_range| |].
  - intros i Hi. apply in_range in Hi. apply NoDup_map_inj_in; [apply NoDup_range|]. intros a b Ha Hb E.
    apply in_range in Ha, Hb. apply (H i a i b) in E; auto. apply E.
  - intros a b x Ha Hb Hx Hx'. apply in_map_iff in Hx as [j [<- Hj]]. apply in_map_iff in Hx' as [j' [E Hj']].
    apply in_range in Ha, Hb, Hj, Hj'. apply (H b j' a j) in E; auto. symmetry; apply E.
Qed.
Lemma NoDup_horizontal nh nv : NoDup (horizontal_edges nh nv).
Proof.
  apply (NoDup_map2 (fun j i => (pair_to_vertex nh i j, pair_to_vertex nh (i + 1) j))).
  intros i j i' j' Hi Hj Hi' Hj' E. injection E as E1 E2. apply ptv_inj in E1 as [-> ->]; lia.
Qed.
Lemma NoDup_vertical nh nv : NoDup (vertical_edges nh nv).
Proof.
  apply (NoDup_map2 (fun i j => (pair_to_vertex nh i j, pair_to_vertex nh i (j + 1)))).
  intros i j i' j' Hi Hj Hi' Hj' E. injection E as E1 E2. apply ptv_inj in E1 as [-> ->]; lia.
Qed.
Lemma NoDup_diagonal nh nv : NoDup (diagonal_edges nh nv).
Proof.
  apply (NoDup_map2 (fun i j => (pair_to_vertex nh i j, pair_to_vertex nh (i + 1) (j + 1)))).
  intros i j i' j' Hi Hj Hi' Hj' E. injection E as E1 E2. apply ptv_inj in E1 as [-> ->]; lia.
Qed.
Lemma NoDup_edges nh nv : NoDup (rg_edges nh nv).
Proof.
  unfold rg_edges. apply NoDup_app_; [apply NoDup_horizontal| |].
  - apply NoDup_app_; [apply NoDup_vertical | apply NoDup_diagonal|].
    intros e H H'. apply in_vertical in H as [i [j [Hi [Hj ->]]]]. apply in_diagonal in H' as [i' [j' [Hi' [Hj' E]]]].
    injection E as E1 E2. apply ptv_inj in E1 as [-> ->]; try lia. apply ptv_inj in E2; lia.
  - intros e H H'. apply in_horizontal in H as [i [j [Hi [Hj ->]]]]. apply in_app_iff in H' as [H'|H'].
    + apply in_vertical in H' as [i' [j' [Hi' [Hj' E]]]].
      injection E as E1 E2. apply ptv_inj in E1 as [-> ->]; try lia. apply ptv_inj in E2; lia.
    + apply in_diagonal in H' as [i' [j' [Hi' [Hj' E]]]].
      injection E as E1 E2. apply ptv_inj in E1 as [-> ->]; try lia. apply ptv_inj in E2; lia.
Qed.
Lemma lower_tri_inj nh i j i' j' : (i < nh)%nat -> (i' < nh)%nat -> lower_tri nh i j = lower_tri nh i' j' -> i = i' /\ j = j'.
Proof. intros Hi Hi' E. injection E as E1 E2 E3. apply ptv_inj in E1; auto. Qed.
Lemma upper_tri_inj nh i j i' j' : (i < nh)%nat -> (i' < nh)%nat -> upper_tri nh i j = upper_tri nh i' j' -> i = i' /\ j = j'.
Proof. intros Hi Hi' E. injection E as E1 E2 E3. apply ptv_inj in E3; auto. Qed.
Lemma lower_upper nh i j i' j' : (i + 1 < nh)%nat -> (i' + 1 < nh)%nat -> lower_tri nh i j <> upper_tri nh i' j'.
Proof. intros Hi Hi' E. injection E as E1 E2 E3. apply ptv_inj in E1; try lia. apply ptv_inj in E3; lia. Qed.
Lemma NoDup_triangles nh nv : NoDup (rg_triangles nh nv).
Proof.
  unfold rg_triangles. apply NoDup_app_.
  - apply (NoDup_map2 (lower_tri nh)). intros i j i' j' Hi Hj Hi' Hj' E. apply (lower_tri_inj nh); auto; lia.
  - apply (NoDup_map2 (upper_tri nh)). intros i j i' j' Hi Hj Hi' Hj' E. apply (upper_tri_inj nh); auto; lia.
  - intros t H H'. apply in_lower_tri in H as [i [j [Hi [Hj ->]]]]. apply in_upper_tri in H' as [i' [j' [Hi' [Hj' E]]]].
    apply (lower_upper nh i j i' j'); auto.
Qed.

(** ** Points *)
Lemma rg_points_length nh nv (s : R) : length (rg_points nh nv s) = (nh * nv)%nat.
Proof. unfold rg_points, rg_vertices. rewrite map_length, range_length. reflexivity. Qed.
Lemma rg_points_nth nh nv (s : R) i j : (i < nh)%nat -> (j < nv)%nat ->
  nth_error (rg_points nh nv s) (pair_to_vertex nh i j) = Some [INR i * s; INR j * s]%R.
Proof.
  intros Hi Hj. unfold rg_points, rg_vertices.
  rewrite (map_nth_error _ _ _ (d := pair_to_vertex nh i j)).
  - rewrite ptv_mod, ptv_div by exact Hi. cbn [nofZ RNum nmul]. rewrite <- !INR_IZR_INZ. reflexivity.
  - unfold range. rewrite (nth_error_nth' _ 0%nat) by (rewrite seq_length; apply ptv_lt; assumption).
    rewrite seq_nth by (apply ptv_lt; assumption). reflexivity.
Qed.

(** ** Construction of the grid succeeds *)
Local Open Scope R_scope.
Lemma edge_length_pts (pts : list (vector R)) a b x y x' y' :
  nth_error pts a = Some [x; y] -> nth_error pts b = Some [x'; y'] ->
  edge_length pts (a, b) = Ok (sqrt ((x - x') * (x - x') + (y - y') * (y - y'))).
Proof.
  intros H1 H2. unfold edge_length, py_nth. cbn [fst snd]. rewrite H1, H2. cbn. do 2 f_equal.
  unfold Vector_normsqr, nsum. cbn. ring.
Qed.
Lemma rg_edge_length nh nv s i j di dj : step di dj -> (i + di < nh)%nat -> (j + dj < nv)%nat -> 0 <= s ->
  exists c, (c = 1 \/ c = sqrt 2) /\
  edge_length (rg_points nh nv s) (pair_to_vertex nh i j, pair_to_vertex nh (i + di) (j + dj)) = Ok (c * s).
Proof.
  intros Hst Hi Hj Hs.
  assert (E : edge_length (rg_points nh nv s) (pair_to_vertex nh i j, pair_to_vertex nh (i + di) (j + dj)) =
    Ok (sqrt ((INR di * INR di + INR dj * INR dj) * (s * s)))).
  { rewrite (edge_length_pts _ _ _ (INR i * s) (INR j * s) (INR (i + di) * s) (INR (j + dj) * s)) by (apply rg_points_nth; lia).
    do 2 f_equal. rewrite !plus_INR. ring. }
  rewrite E. destruct Hst as [[-> ->]|[[-> ->]|[-> ->]]]; simpl INR.
  - exists 1. split; [auto|]. f_equal. replace ((1 * 1 + 0 * 0) * (s * s)) with (s * s) by ring. rewrite sqrt_square by exact Hs. ring.
  - exists 1. split; [auto|]. f_equal. replace ((0 * 0 + 1 * 1) * (s * s)) with (s * s) by ring. rewrite sqrt_square by exact Hs. ring.
  - exists (sqrt 2). split; [auto|]. f_equal. replace ((1 * 1 + 1 * 1) * (s * s)) with (2 * (s * s)) by ring.
    rewrite sqrt_mult by nra. rewrite sqrt_square by exact Hs. ring.
Qed.

(** The mean edge length stored in a grid: [None] without edges, otherwise between [s] and [s * sqrt 2]. *)
Definition mean_ok (edges : list edge) (mean : option R) (s : R) : Prop :=
  match mean with None => edges = [] | Some m => edges <> [] /\ s <= m <= sqrt 2 * s end.

Lemma sqrt2_ge1 : 1 <= sqrt 2.
Proof. rewrite <- sqrt_1 at 1. apply sqrt_le_1_alt. lra. Qed.
Lemma mean_bounds (l : list R) lo hi : (forall x, In x l -> lo <= x <= hi) -> l <> [] ->
  lo <= Rsum l / INR (length l) <= hi.
Proof.
  intros H Hne. assert (Hp : 0 < INR (length l)) by (apply lt_0_INR; destruct l; [contradiction|simpl; lia]).
  assert (Hb : INR (length l) * lo <= Rsum l <= INR (length l) * hi).
  { clear Hne Hp. induction l as [|x l IH]; [simpl; lra|]. cbn [length Rsum]. rewrite S_INR.
    assert (Hx : lo <= x <= hi) by (apply H; left; reflexivity).
    assert (Hl : INR (length l) * lo <= Rsum l <= INR (length l) * hi) by (apply IH; intros y Hy; apply H; right; exact Hy). nra. }
  split.
  - apply Rmult_le_reg_r with (INR (length l)); [exact Hp|]. unfold Rdiv. rewrite Rmult_assoc, Rinv_l by lra. lra.
  - apply Rmult_le_reg_r with (INR (length l)); [exact Hp|]. unfold Rdiv. rewrite Rmult_assoc, Rinv_l by lra. lra.
Qed.

Lemma Grid_ok vs es ts bd dir neu (pts : list (vector R)) lo hi :
  (forall e, In e es -> exists l, edge_length pts e = Ok l /\ lo <= l <= hi) ->
  exists mean, Grid_ vs es ts bd dir neu pts = Ok (mkGrid vs es ts bd dir neu pts mean) /\
    match mean with None => es = [] | Some m => es <> [] /\ lo <= m <= hi end.
Proof.
  intros H. unfold Grid_. destruct es as [|e0 es0]; [exists None; auto|]. set (es := e0 :: es0) in *.
  assert (Hm : exists lens, mapM (edge_length pts) es = Ok lens /\ forall x, In x lens -> lo <= x <= hi).
  { clearbody es. induction es as [|e es IH]; [exists []; split; [reflexivity|intros x []]|].
    destruct (H e (or_introl eq_refl)) as [l [Hl Hb]]. destruct IH as [ls [Hls Hbs]]; [intros e' He'; apply H; right; exact He'|].
    exists (l :: ls). simpl. rewrite Hl. simpl. rewrite Hls. simpl. split; [reflexivity|]. intros x [<-|Hx]; auto. }
  destruct Hm as [lens [Hm Hb]]. rewrite Hm. cbn [bind]. pose proof (mapM_length _ _ _ Hm) as Hlen.
  assert (Hne : lens <> []) by (destruct lens; [discriminate Hlen|congruence]).
  rewrite ndiv_R.
  - cbn [bind]. eexists. split; [reflexivity|]. split; [discriminate|]. rewrite nsum_Rsum. cbn [nofZ RNum].
    rewrite <- INR_IZR_INZ. rewrite <- Hlen. apply mean_bounds; assumption.
  - cbn [nofZ RNum]. rewrite <- INR_IZR_INZ. apply not_0_INR. discriminate.
Qed.

Lemma rect_grid_ok so nh nv f s : 0 <= s -> exists mean,
  rect_grid so nh nv f s = Ok (mkGrid (rg_vertices nh nv) (rg_edges nh nv) (rg_triangles nh nv)
        (mkBoundary (boundary_vertices so nh nv) (boundary_edges nh nv))
        (rg_dirichlet so nh nv f) (rg_neumann so nh nv f) (rg_points nh nv s) mean) /\
  mean_ok (rg_edges nh nv) mean s.
Proof.
  intros Hs. unfold rect_grid.
  destruct (Grid_ok (rg_vertices nh nv) (rg_edges nh nv) (rg_triangles nh nv)
        (mkBoundary (boundary_vertices so nh nv) (boundary_edges nh nv))
        (rg_dirichlet so nh nv f) (rg_neumann so nh nv f) (rg_points nh nv s) s (sqrt 2 * s)) as [mean [H1 H2]].
  - intros e He. apply in_edges in He as [i [j [di [dj [Hst [Hi [Hj ->]]]]]]].
    destruct (rg_edge_length nh nv s i j di dj Hst Hi Hj Hs) as [c [Hc E]]. exists (c * s). split; [exact E|].
    pose proof sqrt2_ge1. destruct Hc as [->| ->]; nra.
  - exists mean. split; [exact H1|]. exact H2.
Qed.

(** ** Number of vertices along an extent *)
Lemma Rtrunc_nonneg x m : INR m <= x < INR (m + 1) -> Rtrunc x = Z.of_nat m.
Proof.
  intros [H1 H2]. unfold Rtrunc. assert (H0 : 0 <= x) by (pose proof (pos_INR m); lra).
  rewrite (proj2 (Rltb_false x 0) H0). rewrite INR_IZR_INZ in H1, H2. rewrite Nat2Z.inj_add in H2.
  rewrite <- (tech_up x (Z.of_nat m + 1)); [lia| |]; rewrite plus_IZR in *; simpl in *; lra.
Qed.
Lemma fits_exists extent s : 0 <= extent -> 0 < s -> exists m, fits extent s m.
Proof.
  intros He Hs. destruct (archimed (extent / s)) as [H1 H2].
  assert (Hq : 0 <= extent / s) by (apply Rmult_le_pos; [lra|apply Rlt_le, Rinv_0_lt_compat, Hs]).
  assert (Hup : (1 <= up (extent / s))%Z).
  { assert (IZR 0 < IZR (up (extent / s))) by lra. apply lt_IZR in H. lia. }
  exists (Z.to_nat (up (extent / s) - 1)). unfold fits.
  rewrite plus_INR, INR_IZR_INZ, Z2Nat.id by lia. rewrite minus_IZR. simpl INR.
  assert (E : extent / s * s = extent) by (field; lra). set (q := extent / s) in *. split; rewrite <- E.
  - apply Rmult_le_compat_r; lra.
  - apply Rmult_lt_compat_r; lra.
Qed.
Lemma fits_unique extent s m m' : 0 < s -> fits extent s m -> fits extent s m' -> m = m'.
Proof.
  unfold fits. intros Hs [H1 H2] [H3 H4]. rewrite plus_INR in H2, H4. simpl INR in *.
  assert (A : INR m < INR m' + 1) by (apply Rmult_lt_reg_r with s; lra).
  assert (B : INR m' < INR m + 1) by (apply Rmult_lt_reg_r with s; lra).
  rewrite <- S_INR in A, B. apply INR_lt in A, B. lia.
Qed.
Lemma num_vertices_fits extent s m : 0 < s -> fits extent s m -> num_vertices_along extent s = Ok (Z.of_nat (S m)).
Proof.
  intros Hs [H1 H2]. unfold num_vertices_along. rewrite ndiv_R by lra. cbn [bind ntrunc RNum].
  rewrite (Rtrunc_nonneg _ m); [cbn [bind]; f_equal; lia|].
  assert (E : extent / s * s = extent) by (field; lra).
  split; [apply Rmult_le_reg_r with s|apply Rmult_lt_reg_r with s]; rewrite ?E; lra.
Qed.
Lemma domain_grid_rect so w h f s m n : 0 < s -> fits w s m -> fits h s n ->
  domain_grid so w h f s = rect_grid so (S m) (S n) f s.
Proof.
  intros Hs Hm Hn. unfold domain_grid. rewrite (num_vertices_fits w s m Hs Hm), (num_vertices_fits h s n Hs Hn). cbn [bind].
  replace (Z.of_nat (S m) <? 1)%Z with false by (symmetry; apply Z.ltb_ge; lia).
  replace (Z.of_nat (S n) <? 1)%Z with false by (symmetry; apply Z.ltb_ge; lia).
  cbn [orb]. rewrite !Nat2Z.id. reflexivity.
Qed.
