(** Topology of the rectangle grid: sides of triangles, boundary, counts. *)
From Coq Require Import Reals Lra Lia String.
From Verif.Model Require Import Py Num Tensors Domain.
From Verif.Spec Require Import GridSpec.
From Verif.Proofs Require Import Lib GridP.

Lemma ptv_eq_iff nh i j i' j' : (i < nh)%nat -> (i' < nh)%nat ->
  (pair_to_vertex nh i j = pair_to_vertex nh i' j' <-> i = i' /\ j = j').
Proof. intros H H'. split; [apply ptv_inj; assumption | intros [-> ->]; reflexivity]. Qed.
Lemma pair_ptv_iff nh i j i' j' k l k' l' : (i < nh)%nat -> (i' < nh)%nat -> (k < nh)%nat -> (k' < nh)%nat ->
  ((pair_to_vertex nh i j, pair_to_vertex nh k l) = (pair_to_vertex nh i' j', pair_to_vertex nh k' l') <->
   (i = i' /\ j = j') /\ (k = k' /\ l = l')).
Proof. intros. rewrite pair_equal_spec, !ptv_eq_iff by assumption. tauto. Qed.

Lemma side_lower nh a b a' b' i j : (a < nh)%nat -> (a' < nh)%nat -> (i + 1 < nh)%nat ->
  (side_of (pair_to_vertex nh a b, pair_to_vertex nh a' b') (lower_tri nh i j) <->
   ((a = i /\ b = j /\ a' = i + 1 /\ b' = j) \/ (a' = i /\ b' = j /\ a = i + 1 /\ b = j) \/
    (a = i + 1 /\ b = j /\ a' = i + 1 /\ b' = j + 1) \/ (a' = i + 1 /\ b' = j /\ a = i + 1 /\ b = j + 1) \/
    (a = i /\ b = j /\ a' = i + 1 /\ b' = j + 1) \/ (a' = i /\ b' = j /\ a = i + 1 /\ b = j + 1))%nat).
Proof.
  intros Ha Ha' Hi. unfold side_of, lower_tri, same_edge. cbn [fst snd]. rewrite !pair_ptv_iff by lia. tauto.
Qed.
Lemma side_upper nh a b a' b' i j : (a < nh)%nat -> (a' < nh)%nat -> (i + 1 < nh)%nat ->
  (side_of (pair_to_vertex nh a b, pair_to_vertex nh a' b') (upper_tri nh i j) <->
   ((a = i /\ b = j + 1 /\ a' = i + 1 /\ b' = j + 1) \/ (a' = i /\ b' = j + 1 /\ a = i + 1 /\ b = j + 1) \/
    (a = i /\ b = j /\ a' = i /\ b' = j + 1) \/ (a' = i /\ b' = j /\ a = i /\ b = j + 1) \/
    (a = i /\ b = j /\ a' = i + 1 /\ b' = j + 1) \/ (a' = i /\ b' = j /\ a = i + 1 /\ b = j + 1))%nat).
Proof.
  intros Ha Ha' Hi. unfold side_of, upper_tri, same_edge. cbn [fst snd]. rewrite !pair_ptv_iff by lia. tauto.
Qed.

Ltac destruct_or H := repeat match type of H with _ \/ _ => destruct H as [H|H] | False => destruct H end.
(** Triangles next to the edge starting at (i,j) with step (di,dj). *)
Definition adj (nh nv i j di dj : nat) : list triangle :=
  match di, dj with
  | 1, 0 => (if Nat.ltb (j + 1) nv then [lower_tri nh i j] else []) ++ (if Nat.leb 1 j then [upper_tri nh i (j - 1)] else [])
  | 0, 1 => (if Nat.ltb (i + 1) nh then [upper_tri nh i j] else []) ++ (if Nat.leb 1 i then [lower_tri nh (i - 1) j] else [])
  | _, _ => [lower_tri nh i j; upper_tri nh i j]
  end%nat.
Lemma side_adj nh nv i j di dj t : step di dj -> (i + di < nh)%nat -> (j + dj < nv)%nat -> In t (rg_triangles nh nv) ->
  (side_of (pair_to_vertex nh i j, pair_to_vertex nh (i + di) (j + dj)) t <-> In t (adj nh nv i j di dj)).
Proof.
  intros Hst Hi Hj Ht. apply in_triangles in Ht as [k [l [Hk [Hl Ht]]]].
  assert (EL : forall a b, (a + 1 < nh)%nat -> (lower_tri nh a b = lower_tri nh k l <-> a = k /\ b = l)).
  { intros a b Ha. split; [apply lower_tri_inj; lia | intros [-> ->]; reflexivity]. }
  assert (EU : forall a b, (a + 1 < nh)%nat -> (upper_tri nh a b = upper_tri nh k l <-> a = k /\ b = l)).
  { intros a b Ha. split; [apply upper_tri_inj; lia | intros [-> ->]; reflexivity]. }
  assert (ELU : forall a b, (a + 1 < nh)%nat -> (lower_tri nh a b = upper_tri nh k l <-> False)).
  { intros a b Ha. split; [apply lower_upper; lia | tauto]. }
  assert (EUL : forall a b, (a + 1 < nh)%nat -> (upper_tri nh a b = lower_tri nh k l <-> False)).
  { intros a b Ha. split; [intros E; symmetry in E; revert E; apply lower_upper; lia | tauto]. }
  destruct Hst as [[-> ->]|[[-> ->]|[-> ->]]]; unfold adj; rewrite ?in_app_iff;
    repeat match goal with |- context [Nat.ltb ?a ?b] => destruct (Nat.ltb_spec a b) | |- context [Nat.leb ?a ?b] => destruct (Nat.leb_spec a b) end;
    cbn [In]; destruct Ht as [->| ->]; rewrite ?side_lower, ?side_upper by lia;
    rewrite ?EL, ?EU, ?ELU, ?EUL by lia; clear EL EU ELU EUL; split; intros HH; (destruct_or HH; lia).
Qed.
Lemma adj_in nh nv i j di dj t : step di dj -> (i + di < nh)%nat -> (j + dj < nv)%nat ->
  In t (adj nh nv i j di dj) -> In t (rg_triangles nh nv).
Proof.
  intros Hst Hi Hj Ht. apply in_triangles. destruct Hst as [[-> ->]|[[-> ->]|[-> ->]]]; unfold adj in Ht; rewrite ?in_app_iff in Ht.
  - destruct Ht as [Ht|Ht].
    + destruct (Nat.ltb_spec (j + 1) nv); [|destruct Ht]. destruct Ht as [<-|[]]. exists i, j. split; [lia|]. split; [lia|auto].
    + destruct (Nat.leb_spec 1 j); [|destruct Ht]. destruct Ht as [<-|[]]. exists i, (j - 1)%nat. split; [lia|]. split; [lia|auto].
  - destruct Ht as [Ht|Ht].
    + destruct (Nat.ltb_spec (i + 1) nh); [|destruct Ht]. destruct Ht as [<-|[]]. exists i, j. split; [lia|]. split; [lia|auto].
    + destruct (Nat.leb_spec 1 i); [|destruct Ht]. destruct Ht as [<-|[]]. exists (i - 1)%nat, j. split; [lia|]. split; [lia|auto].
  - destruct Ht as [<-|[<-|[]]]; exists i, j; (split; [lia|]); (split; [lia|auto]).
Qed.
Lemma adj_NoDup nh nv i j di dj : step di dj -> (i + di < nh)%nat -> (j + dj < nv)%nat -> NoDup (adj nh nv i j di dj).
Proof.
  intros Hst Hi Hj. assert (H1 : forall t : triangle, NoDup [t]) by (intros t; constructor; [intros []|constructor]).
  destruct Hst as [[-> ->]|[[-> ->]|[-> ->]]]; unfold adj.
  - apply NoDup_app_; [destruct (Nat.ltb _ _); [apply H1|constructor] | destruct (Nat.leb _ _); [apply H1|constructor]|].
    intros t Ht Ht'. destruct (Nat.ltb_spec (j + 1) nv); [|destruct Ht]. destruct (Nat.leb_spec 1 j); [|destruct Ht'].
    destruct Ht as [<-|[]], Ht' as [E|[]]. symmetry in E. revert E. apply lower_upper; lia.
  - apply NoDup_app_; [destruct (Nat.ltb _ _); [apply H1|constructor] | destruct (Nat.leb _ _); [apply H1|constructor]|].
    intros t Ht Ht'. destruct (Nat.ltb_spec (i + 1) nh); [|destruct Ht]. destruct (Nat.leb_spec 1 i); [|destruct Ht'].
    destruct Ht as [<-|[]], Ht' as [E|[]]. revert E. apply lower_upper; lia.
  - constructor; [|apply H1]. intros [E|[]]. symmetry in E. revert E. apply lower_upper; lia.
Qed.

(** Boolean version of [side_of]. *)
Definition same_edgeb (e e' : edge) : bool := edge_eqb e e' || edge_eqb e (snd e', fst e').
Definition side_ofb (e : edge) (t : triangle) : bool :=
  let '(a, b, c) := t in same_edgeb e (a, b) || (same_edgeb e (b, c) || same_edgeb e (c, a)).
Lemma same_edgeb_spec e e' : same_edgeb e e' = true <-> same_edge e e'.
Proof. unfold same_edgeb, same_edge. rewrite orb_true_iff. unfold edge_eqb. rewrite !pair_eqb_spec. tauto. Qed.
Lemma side_ofb_spec e t : side_ofb e t = true <-> side_of e t.
Proof. destruct t as [[a b] c]. unfold side_ofb, side_of. rewrite !orb_true_iff, !same_edgeb_spec. tauto. Qed.

Lemma how_many_adj nh nv i j di dj : step di dj -> (i + di < nh)%nat -> (j + dj < nv)%nat ->
  how_many (rg_triangles nh nv) (side_of (pair_to_vertex nh i j, pair_to_vertex nh (i + di) (j + dj)))
           (length (adj nh nv i j di dj)).
Proof.
  intros Hst Hi Hj. exists (side_ofb (pair_to_vertex nh i j, pair_to_vertex nh (i + di) (j + dj))).
  split; [intros t _; apply side_ofb_spec|]. apply NoDup_length_same.
  - apply NoDup_filter, NoDup_triangles.
  - apply adj_NoDup; assumption.
  - intros t. rewrite filter_In, side_ofb_spec. split.
    + intros [H1 H2]. apply (side_adj nh nv); assumption.
    + intros H. assert (H1 : In t (rg_triangles nh nv)) by (apply (adj_in nh nv i j di dj); assumption).
      split; [exact H1|]. apply (side_adj nh nv); assumption.
Qed.
Lemma how_many_unique {A} (l : list A) P k k' : how_many l P k -> how_many l P k' -> k = k'.
Proof.
  intros [f [Hf <-]] [g [Hg <-]]. f_equal. apply filter_ext_in. intros x Hx.
  specialize (Hf x Hx). specialize (Hg x Hx). destruct (f x), (g x); try reflexivity; intuition discriminate.
Qed.

(** ** Boundary *)
Lemma in_side_edges nh nv d e : In e (side_edges nh nv d) <->
  exists i j di dj, e = (pair_to_vertex nh i j, pair_to_vertex nh (i + di) (j + dj)) /\
    match d with
    | Lower => di = 1 /\ dj = 0 /\ j = 0 /\ i + 1 < nh
    | Right => di = 0 /\ dj = 1 /\ i = nh - 1 /\ j + 1 < nv
    | Upper => di = 1 /\ dj = 0 /\ j = nv - 1 /\ i + 1 < nh
    | Left => di = 0 /\ dj = 1 /\ i = 0 /\ j + 1 < nv
    end%nat.
Proof.
  destruct d; unfold side_edges; rewrite in_map_iff; split.
  - intros [i [<- Hi]]. apply in_range in Hi. exists i, 0%nat, 1%nat, 0%nat. split; [reflexivity|lia].
  - intros [i [j [di [dj [-> [-> [-> [-> Hi]]]]]]]]. exists i. split; [reflexivity|apply in_range; lia].
  - intros [j [<- Hj]]. apply in_range in Hj. exists (nh - 1)%nat, j, 0%nat, 1%nat. rewrite Nat.add_0_r. split; [reflexivity|lia].
  - intros [i [j [di [dj [-> [-> [-> [-> Hi]]]]]]]]. exists j. rewrite Nat.add_0_r. split; [reflexivity|apply in_range; lia].
  - intros [i [<- Hi]]. apply in_range in Hi. exists i, (nv - 1)%nat, 1%nat, 0%nat. rewrite Nat.add_0_r. split; [reflexivity|lia].
  - intros [i [j [di [dj [-> [-> [-> [-> Hi]]]]]]]]. exists i. rewrite Nat.add_0_r. split; [reflexivity|apply in_range; lia].
  - intros [j [<- Hj]]. apply in_range in Hj. exists 0%nat, j, 0%nat, 1%nat. split; [reflexivity|lia].
  - intros [i [j [di [dj [-> [-> [-> [-> Hi]]]]]]]]. exists j. split; [reflexivity|apply in_range; lia].
Qed.
Lemma in_side_vertices nh nv d v : In v (side_vertices nh nv d) <->
  exists i j, v = pair_to_vertex nh i j /\
    match d with
    | Lower => j = 0 /\ i < nh
    | Right => i = nh - 1 /\ j < nv
    | Upper => j = nv - 1 /\ i < nh
    | Left => i = 0 /\ j < nv
    end%nat.
Proof.
  destruct d; unfold side_vertices; rewrite in_map_iff; split.
  - intros [i [<- Hi]]. apply in_range in Hi. exists i, 0%nat. auto.
  - intros [i [j [-> [-> Hi]]]]. exists i. split; [reflexivity|apply in_range, Hi].
  - intros [j [<- Hj]]. apply in_range in Hj. exists (nh - 1)%nat, j. auto.
  - intros [i [j [-> [-> Hi]]]]. exists j. split; [reflexivity|apply in_range, Hi].
  - intros [i [<- Hi]]. apply in_range in Hi. exists i, (nv - 1)%nat. auto.
  - intros [i [j [-> [-> Hi]]]]. exists i. split; [reflexivity|apply in_range, Hi].
  - intros [j [<- Hj]]. apply in_range in Hj. exists 0%nat, j. auto.
  - intros [i [j [-> [-> Hi]]]]. exists j. split; [reflexivity|apply in_range, Hi].
Qed.
Lemma in_boundary_edges nh nv e : In e (boundary_edges nh nv) <-> exists d, In e (side_edges nh nv d).
Proof.
  unfold boundary_edges. rewrite !in_app_iff. split.
  - intros [H|[H|[H|H]]]; eexists; exact H.
  - intros [[] H]; auto.
Qed.
Lemma in_boundary_vertices so nh nv v : In v (boundary_vertices so nh nv) <-> exists d, In v (side_vertices nh nv d).
Proof.
  unfold boundary_vertices. rewrite (proj2 (so_nat_ok so _)), !in_app_iff. split.
  - intros [H|[H|[H|H]]]; eexists; exact H.
  - intros [[] H]; auto.
Qed.
Lemma side_edges_NoDup nh nv d : (1 <= nh)%nat -> NoDup (side_edges nh nv d).
Proof.
  intros Hnh. destruct d; unfold side_edges; apply NoDup_map_inj_in; try apply NoDup_range; intros a b Ha Hb E;
    apply in_range in Ha, Hb; injection E as E _; apply ptv_inj in E; lia.
Qed.
Lemma side_edges_disjoint nh nv d d' e : (2 <= nh)%nat -> (2 <= nv)%nat ->
  In e (side_edges nh nv d) -> In e (side_edges nh nv d') -> d = d'.
Proof.
  intros Hh Hv H H'. apply in_side_edges in H as [i [j [di [dj [-> Hd]]]]].
  apply in_side_edges in H' as [i' [j' [di' [dj' [E Hd']]]]].
  assert ((i < nh)%nat /\ (i + di < nh)%nat /\ (i' < nh)%nat /\ (i' + di' < nh)%nat) as [B1 [B2 [B3 B4]]] by (destruct d, d'; lia).
  apply pair_ptv_iff in E; try assumption. destruct d, d'; try reflexivity; exfalso; lia.
Qed.
Lemma boundary_edges_NoDup nh nv : (2 <= nh)%nat -> (2 <= nv)%nat -> NoDup (boundary_edges nh nv).
Proof.
  intros Hh Hv. unfold boundary_edges.
  repeat (apply NoDup_app_; [apply side_edges_NoDup; lia| |]); try (apply side_edges_NoDup; lia);
    intros e He He'; rewrite ?in_app_iff in He'; repeat destruct He' as [He'|He'];
    pose proof (side_edges_disjoint nh nv _ _ e Hh Hv He He'); discriminate.
Qed.
Lemma boundary_edges_sub nh nv e : (1 <= nh)%nat -> (1 <= nv)%nat -> In e (boundary_edges nh nv) -> In e (rg_edges nh nv).
Proof.
  intros Hh Hv H. apply in_boundary_edges in H as [d H]. apply in_side_edges in H as [i [j [di [dj [-> Hd]]]]].
  apply in_edges. exists i, j, di, dj. unfold step. destruct d; (split; [lia|]); (split; [lia|]); (split; [lia|reflexivity]).
Qed.
Lemma boundary_iff_one nh nv i j di dj : (2 <= nh)%nat -> (2 <= nv)%nat -> step di dj -> (i + di < nh)%nat -> (j + dj < nv)%nat ->
  (1 <= length (adj nh nv i j di dj) <= 2)%nat /\
  (length (adj nh nv i j di dj) = 1%nat <->
   In (pair_to_vertex nh i j, pair_to_vertex nh (i + di) (j + dj)) (boundary_edges nh nv)).
Proof.
  intros Hh Hv Hst Hi Hj.
  assert (HB : In (pair_to_vertex nh i j, pair_to_vertex nh (i + di) (j + dj)) (boundary_edges nh nv) <->
    (di = 1 /\ dj = 0 /\ (j = 0 \/ j = nv - 1) \/ di = 0 /\ dj = 1 /\ (i = 0 \/ i = nh - 1))%nat).
  { rewrite in_boundary_edges. split.
    - intros [d H]. apply in_side_edges in H as [i' [j' [di' [dj' [E Hd]]]]].
      assert ((i' < nh)%nat /\ (i' + di' < nh)%nat) as [B1 B2] by (destruct d; lia).
      apply pair_ptv_iff in E; try lia. destruct d; lia.
    - intros [[-> [-> [H|H]]]|[-> [-> [H|H]]]].
      + exists Lower. apply in_side_edges. exists i, j, 1%nat, 0%nat. split; [reflexivity|lia].
      + exists Upper. apply in_side_edges. exists i, j, 1%nat, 0%nat. split; [reflexivity|lia].
      + exists Left. apply in_side_edges. exists i, j, 0%nat, 1%nat. split; [reflexivity|lia].
      + exists Right. apply in_side_edges. exists i, j, 0%nat, 1%nat. split; [reflexivity|lia]. }
  rewrite HB. destruct Hst as [[-> ->]|[[-> ->]|[-> ->]]]; unfold adj; rewrite ?app_length.
  - destruct (Nat.ltb_spec (j + 1) nv), (Nat.leb_spec 1 j); cbn [length]; lia.
  - destruct (Nat.ltb_spec (i + 1) nh), (Nat.leb_spec 1 i); cbn [length]; lia.
  - cbn [length]. lia.
Qed.

(** ** Counts *)
Lemma length_map2 {A} (f : nat -> nat -> A) n m :
  length (flat_map (fun i => map (fun j => f i j) (range m)) (range n)) = (n * m)%nat.
Proof.
  rewrite <- (range_length n) at 2. induction (range n) as [|x l IH]; [reflexivity|].
  cbn [flat_map length]. rewrite app_length, map_length, range_length, IH. lia.
Qed.
Lemma edges_length nh nv : length (rg_edges nh nv) = (nv * (nh - 1) + nh * (nv - 1) + (nh - 1) * (nv - 1))%nat.
Proof. unfold rg_edges, horizontal_edges, vertical_edges, diagonal_edges. rewrite !app_length, !length_map2. lia. Qed.
Lemma triangles_length nh nv : length (rg_triangles nh nv) = (2 * ((nh - 1) * (nv - 1)))%nat.
Proof. unfold rg_triangles, lower_triangles, upper_triangles. rewrite app_length, !length_map2. lia. Qed.
Lemma vertices_length nh nv : length (rg_vertices nh nv) = (nh * nv)%nat.
Proof. unfold rg_vertices. apply range_length. Qed.

(** ** Vertices by position *)
Section At.
Context (g : grid R) (m n : nat) (s : R) (Hs : (0 < s)%R).
Context (Hv : g_vertices g = rg_vertices (S m) (S n)) (Hp : g_points g = rg_points (S m) (S n) s).
Lemma vertex_at_iff v i j : vertex_at g s v i j <-> (i <= m)%nat /\ (j <= n)%nat /\ v = pair_to_vertex (S m) i j.
Proof.
  unfold vertex_at. rewrite Hv, Hp, in_vertices. split.
  - intros [Hlt H]. destruct (ptv_surj' (S m) (S n) v Hlt) as [a [b [Ha [Hb ->]]]].
    rewrite rg_points_nth in H by assumption. injection H as E1 E2.
    apply Rmult_eq_reg_r in E1; [|lra]. apply Rmult_eq_reg_r in E2; [|lra]. apply INR_eq in E1, E2. subst. split; [lia|]. split; [lia|reflexivity].
  - intros [Hi [Hj ->]]. split; [apply ptv_lt; lia|]. apply rg_points_nth; lia.
Qed.
Lemma point_at_iff v p : point_at g v p <-> exists i j, (i <= m)%nat /\ (j <= n)%nat /\ v = pair_to_vertex (S m) i j /\ p = (INR i * s, INR j * s)%R.
Proof.
  unfold point_at. rewrite Hp. split.
  - intros H. assert (Hlt : (v < S m * S n)%nat) by (rewrite <- (rg_points_length _ _ s); apply nth_error_Some; congruence).
    destruct (ptv_surj' (S m) (S n) v Hlt) as [a [b [Ha [Hb ->]]]]. rewrite rg_points_nth in H by assumption.
    injection H as E1 E2. exists a, b. split; [lia|]. split; [lia|]. split; [reflexivity|]. destruct p; simpl in *; congruence.
  - intros [i [j [Hi [Hj [-> ->]]]]]. apply rg_points_nth; lia.
Qed.
End At.
