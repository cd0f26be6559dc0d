(** The loop over the [fix] names: tags, Dirichlet and Neumann edges. *)
From Coq Require Import Reals Lra Lia String.
From Verif.Model Require Import Py Num Tensors Domain.
From Verif.Spec Require Import GridSpec.
From Verif.Proofs Require Import Lib GridP GridTopo.

Lemma side_of_name_iff name d : side_of_name name = Some d <-> name = side_name d.
Proof.
  unfold side_of_name. split.
  - intros H. destruct (String.eqb_spec name "lower") as [->|]; [injection H as <-; reflexivity|].
    destruct (String.eqb_spec name "right") as [->|]; [injection H as <-; reflexivity|].
    destruct (String.eqb_spec name "upper") as [->|]; [injection H as <-; reflexivity|].
    destruct (String.eqb_spec name "left") as [->|]; [injection H as <-; reflexivity|]. discriminate.
  - intros ->. destruct d; reflexivity.
Qed.
Lemma side_name_inj d d' : side_name d = side_name d' -> d = d'.
Proof. destruct d, d'; intros H; try reflexivity; discriminate H. Qed.

Lemma dec_tag_map bv (f : nat -> Z) k :
  dec_tag (map (fun i => (i, f i)) bv) k = map (fun i => (i, if Nat.eqb i k then (f i - 1)%Z else f i)) bv.
Proof. unfold dec_tag. rewrite map_map. apply map_ext. intros i. destruct (Nat.eqb i k); reflexivity. Qed.
Lemma dec_tags_map L : NoDup L -> forall bv (f : nat -> Z),
  fold_left dec_tag L (map (fun i => (i, f i)) bv) =
  map (fun i => (i, (f i - if existsb (Nat.eqb i) L then 1 else 0)%Z)) bv.
Proof.
  induction 1 as [|k L Hk HN IH]; intros bv f.
  - simpl. apply map_ext. intros i. f_equal. lia.
  - cbn [fold_left]. rewrite dec_tag_map, IH. apply map_ext. intros i. f_equal. cbn [existsb].
    destruct (Nat.eqb_spec i k) as [->|]; cbn [orb]; [|reflexivity].
    destruct (existsb (Nat.eqb k) L) eqn:E; [|lia]. apply existsb_exists in E as [y [Hy E]]. apply Nat.eqb_eq in E. subst y. contradiction.
Qed.

(** Does the side called [name] contain vertex [i] (edge [e])? *)
Definition hits (nh nv i : nat) (name : string) : bool :=
  match side_of_name name with Some d => existsb (Nat.eqb i) (side_vertices nh nv d) | None => false end.
Definition hits_edge (nh nv : nat) (e : edge) (name : string) : bool :=
  match side_of_name name with Some d => py_in edge_eqb e (side_edges nh nv d) | None => false end.
Definition nhits nh nv l i : Z := Z.of_nat (List.length (filter (hits nh nv i) l)).

Lemma existsb_nat_In i l : existsb (Nat.eqb i) l = true <-> In i l.
Proof. rewrite existsb_exists. split; [intros [x [H E]]; apply Nat.eqb_eq in E; subst; exact H | intros H; exists i; split; [exact H|apply Nat.eqb_refl]]. Qed.
Lemma existsb_nat_ext i l l' : (forall x, In x l <-> In x l') -> existsb (Nat.eqb i) l = existsb (Nat.eqb i) l'.
Proof.
  intros H. destruct (existsb (Nat.eqb i) l) eqn:E, (existsb (Nat.eqb i) l') eqn:E'; try reflexivity.
  - apply existsb_nat_In, H, existsb_nat_In in E. congruence.
  - apply existsb_nat_In, H, existsb_nat_In in E'. congruence.
Qed.

Definition fix_inv so nh nv (l : list string) (st : fix_state) : Prop :=
  let '(tags, dir, neu) := st in
  tags = map (fun i => (i, (1 - nhits nh nv l i)%Z)) (boundary_vertices so nh nv) /\
  (forall e, In e dir <-> existsb (hits_edge nh nv e) l = true) /\
  (forall e, In e neu <-> In e (boundary_edges nh nv) /\ existsb (hits_edge nh nv e) l = false).

Lemma hits_edge_spec nh nv e name : hits_edge nh nv e name = true <-> exists d, name = side_name d /\ In e (side_edges nh nv d).
Proof.
  unfold hits_edge. destruct (side_of_name name) as [d|] eqn:E.
  - apply side_of_name_iff in E as ->. unfold edge_eqb. rewrite py_in_pair. split; [intros H; exists d; auto|].
    intros [d' [Hd H]]. apply side_name_inj in Hd as <-. exact H.
  - split; [discriminate|]. intros [d [-> _]]. rewrite (proj2 (side_of_name_iff _ d) eq_refl) in E. discriminate.
Qed.
Lemma hits_spec nh nv i name : hits nh nv i name = true <-> exists d, name = side_name d /\ In i (side_vertices nh nv d).
Proof.
  unfold hits. destruct (side_of_name name) as [d|] eqn:E.
  - apply side_of_name_iff in E as ->. rewrite existsb_nat_In. split; [intros H; exists d; auto|].
    intros [d' [Hd H]]. apply side_name_inj in Hd as <-. exact H.
  - split; [discriminate|]. intros [d [-> _]]. rewrite (proj2 (side_of_name_iff _ d) eq_refl) in E. discriminate.
Qed.

Lemma apply_fix_inv so nh nv l st name : fix_inv so nh nv l st -> fix_inv so nh nv (l ++ [name]) (apply_fix so nh nv st name).
Proof.
  destruct st as [[tags dir] neu]. intros [Ht [Hd Hn]]. unfold apply_fix.
  destruct (side_of_name name) as [d|] eqn:E.
  - unfold fix_inv. split; [|split].
    + rewrite Ht, dec_tags_map by apply so_nat_ok. apply map_ext. intros i. f_equal.
      rewrite (existsb_nat_ext i _ (side_vertices nh nv d)) by apply so_nat_ok.
      unfold nhits. rewrite filter_app, app_length. cbn [filter]. unfold hits at 3. rewrite E.
      destruct (existsb _ _); cbn [List.length]; lia.
    + intros e. rewrite in_app_iff, Hd, existsb_app, orb_true_iff. cbn [existsb]. rewrite orb_false_r.
      unfold hits_edge at 3. rewrite E. unfold edge_eqb. rewrite py_in_pair. tauto.
    + intros e. rewrite filter_In, Hn, existsb_app, orb_false_iff, negb_true_iff. cbn [existsb]. rewrite orb_false_r.
      unfold hits_edge at 3. rewrite E. tauto.
  - unfold fix_inv. split; [|split].
    + rewrite Ht. apply map_ext. intros i. do 2 f_equal. unfold nhits. rewrite filter_app. cbn [filter]. unfold hits at 3. rewrite E, app_nil_r. reflexivity.
    + intros e. rewrite Hd, existsb_app. cbn [existsb]. unfold hits_edge at 3. rewrite E, !orb_false_r. tauto.
    + intros e. rewrite Hn, existsb_app. cbn [existsb]. unfold hits_edge at 3. rewrite E, !orb_false_r. tauto.
Qed.
Lemma fix_loop_inv so nh nv f : fix_inv so nh nv (fix_names so f) (fix_loop so nh nv f).
Proof.
  unfold fix_loop.
  assert (G : forall l l0 st, fix_inv so nh nv l0 st -> fix_inv so nh nv (l0 ++ l) (fold_left (apply_fix so nh nv) l st)).
  { induction l as [|x l IH]; intros l0 st H; [rewrite app_nil_r; exact H|].
    cbn [fold_left]. replace (l0 ++ x :: l) with ((l0 ++ [x]) ++ l) by (rewrite <- app_assoc; reflexivity).
    apply IH, apply_fix_inv, H. }
  apply (G (fix_names so f) []). unfold fix_inv. split; [reflexivity|]. split; [intros e; simpl; intuition discriminate|].
  intros e. rewrite (proj2 (so_edge_ok so _)). simpl. tauto.
Qed.

(** ** The names in effect *)
Lemma fix_names_in so f name : In name (fix_names so f) <-> In name (names_of f).
Proof. destruct f; simpl; try tauto. apply so_str_ok. Qed.
Lemma fix_names_NoDup so f : NoDup (fix_names so f).
Proof. destruct f; simpl; [constructor|constructor; [intros []|constructor]|apply so_str_ok]. Qed.

Lemma hits_edge_fixed so nh nv f e : existsb (hits_edge nh nv e) (fix_names so f) = true <->
  exists d, fixed_side f d /\ In e (side_edges nh nv d).
Proof.
  rewrite existsb_exists. split.
  - intros [x [Hx H]]. apply hits_edge_spec in H as [d [-> H]]. exists d. split; [apply (fix_names_in so), Hx|exact H].
  - intros [d [Hd H]]. exists (side_name d). split; [apply fix_names_in, Hd|]. apply hits_edge_spec. exists d. auto.
Qed.

Lemma dirichlet_edges so nh nv f e : In e (b_edges (rg_dirichlet so nh nv f)) <-> exists d, fixed_side f d /\ In e (side_edges nh nv d).
Proof.
  unfold rg_dirichlet. pose proof (fix_loop_inv so nh nv f) as H. destruct (fix_loop so nh nv f) as [[tags dir] neu].
  destruct H as [_ [H _]]. cbn [b_edges]. rewrite (proj2 (so_edge_ok so _)), H. apply hits_edge_fixed.
Qed.
Lemma neumann_edges so nh nv f e : In e (b_edges (rg_neumann so nh nv f)) <->
  In e (boundary_edges nh nv) /\ ~ exists d, fixed_side f d /\ In e (side_edges nh nv d).
Proof.
  unfold rg_neumann. pose proof (fix_loop_inv so nh nv f) as H. destruct (fix_loop so nh nv f) as [[tags dir] neu].
  destruct H as [_ [_ H]]. cbn [b_edges]. rewrite (proj2 (so_edge_ok so _)), H.
  rewrite <- (hits_edge_fixed so). destruct (existsb _ _); intuition congruence.
Qed.
Lemma dirichlet_edges_NoDup so nh nv f : NoDup (b_edges (rg_dirichlet so nh nv f)).
Proof. unfold rg_dirichlet. destruct (fix_loop so nh nv f) as [[tags dir] neu]. apply so_edge_ok. Qed.
Lemma neumann_edges_NoDup so nh nv f : NoDup (b_edges (rg_neumann so nh nv f)).
Proof. unfold rg_neumann. destruct (fix_loop so nh nv f) as [[tags dir] neu]. apply so_edge_ok. Qed.

Lemma filter_tags (P : Z -> bool) (c : nat -> Z) l :
  map fst (filter (fun '(i, t) => P t) (map (fun i => (i, c i)) l)) = filter (fun i => P (c i)) l.
Proof. induction l as [|x l IH]; [reflexivity|]. cbn [map filter]. destruct (P (c x)); cbn [map fst]; rewrite IH; reflexivity. Qed.
Lemma dirichlet_vertices_eq so nh nv f : b_vertices (rg_dirichlet so nh nv f) =
  filter (fun i => (1 - nhits nh nv (fix_names so f) i <=? 0)%Z) (boundary_vertices so nh nv).
Proof.
  unfold rg_dirichlet. pose proof (fix_loop_inv so nh nv f) as H. destruct (fix_loop so nh nv f) as [[tags dir] neu].
  destruct H as [-> _]. cbn [b_vertices]. apply (filter_tags (fun t => (t <=? 0)%Z)).
Qed.
Lemma neumann_vertices_eq so nh nv f : b_vertices (rg_neumann so nh nv f) =
  filter (fun i => (0 <=? 1 - nhits nh nv (fix_names so f) i)%Z) (boundary_vertices so nh nv).
Proof.
  unfold rg_neumann. pose proof (fix_loop_inv so nh nv f) as H. destruct (fix_loop so nh nv f) as [[tags dir] neu].
  destruct H as [-> _]. cbn [b_vertices]. apply (filter_tags (fun t => (0 <=? t)%Z)).
Qed.
Lemma nhits_pos nh nv l i : (1 <= nhits nh nv l i)%Z <-> exists x, In x l /\ hits nh nv i x = true.
Proof.
  unfold nhits. split.
  - destruct (filter (hits nh nv i) l) as [|x r] eqn:E; [simpl; lia|]. intros _. exists x.
    rewrite <- filter_In, E. left. reflexivity.
  - intros [x H]. apply filter_In in H. destruct (filter (hits nh nv i) l); [destruct H|simpl; lia].
Qed.
Lemma nhits_le1 nh nv l i : NoDup l -> ((nhits nh nv l i <= 1)%Z <->
  forall x y, In x l -> In y l -> hits nh nv i x = true -> hits nh nv i y = true -> x = y).
Proof.
  intros HN. unfold nhits. pose proof (NoDup_filter (hits nh nv i) HN) as HF. split.
  - intros H x y Hx Hy Hhx Hhy. pose proof (conj Hx Hhx) as Fx. pose proof (conj Hy Hhy) as Fy. apply filter_In in Fx, Fy.
    destruct (filter (hits nh nv i) l) as [|a [|b r]]; [destruct Fx| |simpl in H; lia].
    destruct Fx as [<-|[]], Fy as [<-|[]]. reflexivity.
  - intros H. destruct (filter (hits nh nv i) l) as [|a [|b r]] eqn:E; [simpl; lia|simpl; lia|].
    assert (Fa : In a (filter (hits nh nv i) l)) by (rewrite E; left; reflexivity).
    assert (Fb : In b (filter (hits nh nv i) l)) by (rewrite E; right; left; reflexivity).
    apply filter_In in Fa, Fb. assert (a = b) as -> by (apply H; tauto). inversion HF. exfalso. apply H2. left. reflexivity.
Qed.
Lemma dirichlet_vertices so nh nv f v : In v (b_vertices (rg_dirichlet so nh nv f)) <->
  exists d, fixed_side f d /\ In v (side_vertices nh nv d).
Proof.
  rewrite dirichlet_vertices_eq, filter_In, Z.leb_le.
  assert (E : (1 - nhits nh nv (fix_names so f) v <= 0)%Z <-> (1 <= nhits nh nv (fix_names so f) v)%Z) by lia.
  rewrite E, nhits_pos, in_boundary_vertices. split.
  - intros [_ [x [Hx H]]]. apply hits_spec in H as [d [-> H]]. exists d. split; [apply (fix_names_in so), Hx|exact H].
  - intros [d [Hd H]]. split; [exists d; exact H|]. exists (side_name d). split; [apply fix_names_in, Hd|].
    apply hits_spec. exists d. auto.
Qed.
Lemma neumann_vertices so nh nv f v : In v (b_vertices (rg_neumann so nh nv f)) <->
  In v (boundary_vertices so nh nv) /\
  forall d d', fixed_side f d -> fixed_side f d' -> In v (side_vertices nh nv d) -> In v (side_vertices nh nv d') -> d = d'.
Proof.
  rewrite neumann_vertices_eq, filter_In, Z.leb_le.
  assert (E : (0 <= 1 - nhits nh nv (fix_names so f) v)%Z <-> (nhits nh nv (fix_names so f) v <= 1)%Z) by lia.
  rewrite E, nhits_le1 by apply fix_names_NoDup. apply and_iff_compat_l. split.
  - intros H d d' Hd Hd' Hv Hv'. apply side_name_inj. apply H; try (apply fix_names_in; assumption); apply hits_spec; eexists; eauto.
  - intros H x y Hx Hy Hhx Hhy. apply hits_spec in Hhx as [d [-> Hd]]. apply hits_spec in Hhy as [d' [-> Hd']].
    f_equal. apply H; try assumption; apply (fix_names_in so); assumption.
Qed.
