(** Grid.__eq__ *)
From Coq Require Import Reals Lra Lia String Psatz Permutation Sorted.
From Verif.Model Require Import Py Num Tensors Domain.
From Verif.Spec Require Import GridSpec EqSpec.
From Verif.Proofs Require Import Lib LocateP FindP.
Local Open Scope R_scope.

(** ** sorted *)
Lemma insert_perm x l : Permutation (insert_nat x l) (x :: l).
Proof.
  induction l as [|y l IH]; [reflexivity|]. cbn [insert_nat]. destruct (Nat.leb x y); [reflexivity|].
  rewrite IH. apply perm_swap.
Qed.
Lemma sorted_perm l : Permutation (sorted l) l.
Proof. induction l as [|x l IH]; [reflexivity|]. unfold sorted in *. cbn [fold_right]. rewrite insert_perm, IH. reflexivity. Qed.
Lemma insert_sorted x l : StronglySorted le l -> StronglySorted le (insert_nat x l).
Proof.
  induction 1 as [|y l Hs IH Hf]; [constructor; constructor|]. cbn [insert_nat]. destruct (Nat.leb_spec x y) as [L|L].
  - constructor; [constructor; assumption|]. constructor; [exact L|]. eapply Forall_impl; [|exact Hf]. intros a Ha. lia.
  - constructor; [exact IH|]. rewrite (insert_perm x l). constructor; [lia|exact Hf].
Qed.
Lemma sorted_sorted l : StronglySorted le (sorted l).
Proof. induction l as [|x l IH]; [constructor|]. unfold sorted in *. cbn [fold_right]. apply insert_sorted, IH. Qed.
Lemma sorted_unique l l' : StronglySorted le l -> StronglySorted le l' -> Permutation l l' -> l = l'.
Proof.
  revert l'. induction l as [|x l IH]; intros l' H H' HP.
  - apply Permutation_nil in HP. congruence.
  - destruct l' as [|y l']; [symmetry in HP; apply Permutation_nil in HP; discriminate|].
    inversion H as [|? ? H1 H2]; subst. inversion H' as [|? ? H1' H2']; subst.
    assert (x = y) as <-.
    { assert (In x (y :: l')) by (rewrite <- HP; left; reflexivity). assert (In y (x :: l)) by (rewrite HP; left; reflexivity).
      destruct H0 as [->|H0]; [reflexivity|]. destruct H3 as [->|H3]; [reflexivity|].
      rewrite Forall_forall in H2, H2'. specialize (H2 _ H3). specialize (H2' _ H0). lia. }
    f_equal. apply IH; [assumption|assumption|]. eapply Permutation_cons_inv, HP.
Qed.
Lemma nats_eqb_iff a b : nats_eqb a b = true <-> a = b.
Proof.
  revert b. induction a as [|x a IH]; intros [|y b]; cbn [nats_eqb]; try (split; intros H; try reflexivity; discriminate).
  rewrite andb_true_iff, Nat.eqb_eq, IH. split; [intros [-> ->]; reflexivity|intros H; injection H as -> ->; auto].
Qed.
Lemma sorted_eq_iff a b : nats_eqb (sorted a) (sorted b) = true <-> Permutation a b.
Proof.
  rewrite nats_eqb_iff. split.
  - intros E. rewrite <- (sorted_perm a), E. apply sorted_perm.
  - intros HP. apply sorted_unique; try apply sorted_sorted. rewrite !sorted_perm. exact HP.
Qed.

(** ** the vertex dict *)
Definition dict_of (f : nat -> nat) (i n : nat) : dict nat nat := map (fun k => (k, f k)) (seq i n).
Lemma vertex_map_spec g f pts i : (forall k p, nth_error pts k = Some p -> point_to_vertex g p = Ok (Some (f (i + k)%nat))) ->
  vertex_map g i pts = Ok (Some (dict_of f i (length pts))).
Proof.
  revert i. induction pts as [|p pts IH]; intros i H; [reflexivity|]. cbn [vertex_map].
  rewrite (H 0%nat p eq_refl). cbn [bind]. rewrite (IH (S i)).
  - cbn [bind]. rewrite Nat.add_0_r. reflexivity.
  - intros k q Hk. rewrite (H (S k) q Hk). do 3 f_equal. lia.
Qed.
Lemma dict_of_find f i n k : dfind Nat.eqb k (dict_of f i n) = if (Nat.leb i k && Nat.ltb k (i + n))%bool then Some (f k) else None.
Proof.
  revert i. induction n as [|n IH]; intros i.
  - unfold dict_of. cbn [seq map dfind]. destruct (Nat.leb_spec i k), (Nat.ltb_spec k (i + 0)); cbn [andb]; try reflexivity; lia.
  - unfold dict_of in *. cbn [seq map dfind]. destruct (Nat.eqb_spec k i) as [->|Hne].
    + rewrite Nat.leb_refl. replace (Nat.ltb i (i + S n)) with true by (symmetry; apply Nat.ltb_lt; lia). reflexivity.
    + rewrite IH. replace (S i + n)%nat with (i + S n)%nat by lia.
      destruct (Nat.leb_spec (S i) k), (Nat.leb_spec i k); try reflexivity; lia.
Qed.
Lemma dict_of_get f n k : (k < n)%nat -> dget Nat.eqb k (dict_of f 0 n) = Ok (f k).
Proof. intros H. unfold dget. rewrite dict_of_find. cbn [Nat.leb andb Nat.add]. rewrite (proj2 (Nat.ltb_lt k n) H). reflexivity. Qed.
Lemma mapM_map_in {A B} (h : A -> res B) (k : A -> B) l : (forall x, In x l -> h x = Ok (k x)) -> mapM h l = Ok (map k l).
Proof.
  induction l as [|x l IH]; intros H; [reflexivity|]. cbn [mapM map]. rewrite (H x (or_introl eq_refl)). cbn [bind].
  rewrite IH by (intros y Hy; apply H; right; exact Hy). reflexivity.
Qed.

Lemma find_self g v p : separated g -> nth_error (g_points g) v = Some p -> point_to_vertex g p = Ok (Some v).
Proof.
  intros [HPl [Htol Hsep]] Hv. destruct (HPl v p Hv) as [q ->]. unfold point_to_vertex.
  destruct (find_point_spec (g_mean g) (g_points g) q 0) as [[k [q' [E [Hk [Hd Hmin]]]]]|[E N]].
  - intros x Hx. apply In_nth_error in Hx as [w Hw]. apply (HPl w x Hw).
  - rewrite E. cbn [Nat.add]. destruct (Nat.eq_dec k v) as [->|Hne]; [reflexivity|]. exfalso.
    specialize (Hsep k v q' q Hne Hk Hv). fold (tolerance g) in Hd. rewrite dist_sym in Hd. lra.
  - exfalso. apply (N v q Hv). rewrite dist_refl. exact Htol.
Qed.

Lemma reordering_in {A} (rel : A -> A -> Prop) l l' x : reordering rel l l' -> In x l' -> exists y, In y l /\ rel x y.
Proof.
  intros [l0 [HP HF]] Hx. induction HF as [|a b la lb Hab HF IH] in l, HP, Hx |- *; [destruct Hx|].
  destruct Hx as [<-|Hx].
  - exists b. split; [|exact Hab]. rewrite <- HP. left. reflexivity.
  - destruct (IH lb) as [y [Hy R]]; [reflexivity|exact Hx|]. exists y. split; [|exact R]. rewrite <- HP. right. exact Hy.
Qed.
Lemma reordering_length {A} (rel : A -> A -> Prop) l l' : reordering rel l l' -> length l = length l'.
Proof. intros [l0 [HP HF]]. rewrite <- (Permutation_length HP). symmetry. clear HP. induction HF; cbn [length]; congruence. Qed.
Lemma existsb_false_in {A} (h : A -> bool) l : (forall x, In x l -> h x = false) -> existsb h l = false.
Proof. intros H. destruct (existsb h l) eqn:E; [|reflexivity]. apply existsb_exists in E as [x [Hx E]]. rewrite (H x Hx) in E. discriminate. Qed.
Lemma contains_edge_spec es e : contains_edge es e = true <-> exists e', In e' es /\ same_edge e e'.
Proof. apply known_b. Qed.
Lemma contains_triangle_spec ts t : contains_triangle ts t = true <-> exists t', In t' ts /\ same_triangle t t'.
Proof.
  destruct t as [[a b] c]. unfold contains_triangle, triangle_eqb. rewrite !orb_true_iff, !py_in_triple. unfold same_triangle. split.
  - intros [[H|H]|H]; eexists; (split; [exact H|]); cbn; auto.
  - intros [[[x y] z] [H [E|[E|E]]]]; injection E as -> -> ->; auto.
Qed.

Lemma boundaries_ok f N b b' :
  (forall v, In v (b_vertices b') -> (v < N)%nat) -> (forall e, In e (b_edges b') -> (fst e < N)%nat /\ (snd e < N)%nat) ->
  same_boundary f b b' -> boundaries_coincide b b' (dict_of f 0 N) = Ok true.
Proof.
  intros Hv He [HP HR]. unfold boundaries_coincide.
  rewrite (mapM_map_in _ f) by (intros v V; apply dict_of_get, Hv, V). cbn [bind].
  rewrite (proj2 (sorted_eq_iff _ _)) by (symmetry; exact HP). cbn [negb].
  rewrite (reordering_length _ _ _ HR), map_length, Nat.eqb_refl. cbn [negb].
  rewrite (mapM_map_in _ (edge_image f)) by (intros e E; unfold map_edge; rewrite !dict_of_get by (apply He, E); reflexivity). cbn [bind].
  rewrite existsb_false_in; [reflexivity|]. intros e E. destruct (reordering_in _ _ _ _ HR E) as [y [Hy R]].
  rewrite <- negb_orb, negb_false_iff. apply known_b. exists y. auto.
Qed.

(** Completeness, with an arbitrary vertex map found by the search. *)
Lemma equal_by_map f g g' : refers_to_points g' ->
  Permutation (g_vertices g) (g_vertices g') -> length (g_points g) = length (g_points g') ->
  (forall v p, nth_error (g_points g') v = Some p -> point_to_vertex g p = Ok (Some (f v))) ->
  reordering same_edge (g_edges g) (map (edge_image f) (g_edges g')) ->
  reordering same_triangle (g_triangles g) (map (triangle_image f) (g_triangles g')) ->
  same_boundary f (g_boundary g) (g_boundary g') -> same_boundary f (g_dirichlet g) (g_dirichlet g') ->
  same_boundary f (g_neumann g) (g_neumann g') -> Grid_eqb g g' = Ok true.
Proof.
  intros HR HV HL HPt HE HT HB HD HN. destruct HR as [RE [RT [[RBv RBe] [[RDv RDe] [RNv RNe]]]]]. unfold Grid_eqb.
  rewrite (proj2 (sorted_eq_iff _ _) HV). cbn [negb]. rewrite HL, Nat.eqb_refl. cbn [negb].
  rewrite (vertex_map_spec g f) by (intros k p Hk; apply HPt, Hk).
  cbn [bind]. rewrite (reordering_length _ _ _ HE), map_length, Nat.eqb_refl. cbn [negb].
  rewrite (mapM_map_in _ (edge_image f)) by (intros e E; unfold map_edge; rewrite !dict_of_get by (apply RE, E); reflexivity). cbn [bind].
  rewrite existsb_false_in.
  2:{ intros e E. destruct (reordering_in _ _ _ _ HE E) as [y [Hy R]]. rewrite negb_false_iff. apply contains_edge_spec. exists y. auto. }
  rewrite (reordering_length _ _ _ HT), map_length, Nat.eqb_refl. cbn [negb].
  rewrite (mapM_map_in _ (triangle_image f)) by (intros [[a b] c] E; unfold map_triangle; rewrite !dict_of_get by (apply (RT a b c), E); reflexivity). cbn [bind].
  rewrite existsb_false_in.
  2:{ intros e E. destruct (reordering_in _ _ _ _ HT E) as [y [Hy R]]. rewrite negb_false_iff. apply contains_triangle_spec. exists y. auto. }
  rewrite (boundaries_ok f) by assumption. cbn [bind negb]. rewrite (boundaries_ok f) by assumption. cbn [bind negb].
  apply boundaries_ok; assumption.
Qed.
Lemma renumbering_equal f g g' : separated g -> refers_to_points g' -> renumbering f g g' -> Grid_eqb g g' = Ok true.
Proof.
  intros HS HR [HV [HL [HPt [HE [HT [HB [HD HN]]]]]]]. apply (equal_by_map f); try assumption.
  intros k p Hk. assert (Hlt : (k < length (g_points g'))%nat) by (apply nth_error_Some; congruence).
  destruct (HPt k Hlt) as [_ E]. apply find_self; [exact HS|congruence].
Qed.

(** ** Soundness *)
Lemma vertex_map_inv g pts i d : vertex_map g i pts = Ok (Some d) ->
  exists f, d = dict_of f i (length pts) /\ forall k p, nth_error pts k = Some p -> point_to_vertex g p = Ok (Some (f (i + k)%nat)).
Proof.
  revert i d. induction pts as [|p pts IH]; intros i d H.
  - injection H as <-. exists (fun k => k). split; [reflexivity|]. intros [|k] q; discriminate.
  - cbn [vertex_map] in H. destruct (point_to_vertex g p) as [[v|]|] eqn:Ev; try discriminate. cbn [bind] in H.
    destruct (vertex_map g (S i) pts) as [[d0|]|] eqn:E0; try discriminate. cbn [bind] in H. injection H as <-.
    destruct (IH _ _ E0) as [f [-> Hf]]. exists (fun k => if Nat.eqb k i then v else f k). split.
    + unfold dict_of. cbn [length seq map]. rewrite Nat.eqb_refl. f_equal. apply map_ext_in. intros k Hk. apply in_seq in Hk.
      destruct (Nat.eqb_spec k i); [lia|reflexivity].
    + intros [|k] q Hk.
      * cbn in Hk. injection Hk as <-. rewrite Nat.add_0_r, Nat.eqb_refl. exact Ev.
      * cbn in Hk. rewrite (Hf k q Hk). destruct (Nat.eqb_spec (i + S k) i); [lia|]. do 3 f_equal. lia.
Qed.
Lemma dget_dict_of f n k v : dget Nat.eqb k (dict_of f 0 n) = Ok v -> (k < n)%nat /\ v = f k.
Proof.
  unfold dget. rewrite dict_of_find. cbn [Nat.leb andb Nat.add]. destruct (Nat.ltb_spec k n); [|discriminate].
  intros E. injection E as <-. auto.
Qed.
Lemma mapM_map_inv {A B} (h : A -> res B) (k : A -> B) l r : (forall x y, In x l -> h x = Ok y -> y = k x) -> mapM h l = Ok r -> r = map k l.
Proof.
  revert r. induction l as [|x l IH]; intros r H E; [injection E as <-; reflexivity|]. cbn [mapM] in E.
  destruct (h x) as [y|] eqn:Ey; [|discriminate]. cbn [bind] in E. destruct (mapM h l) as [ys|] eqn:Es; [|discriminate]. cbn [bind] in E.
  injection E as <-. cbn [map]. f_equal; [apply H; [left; reflexivity|exact Ey]|]. apply IH; [|reflexivity]. intros z w Hz; apply H. right. exact Hz.
Qed.
Definition boundary_within (f : nat -> nat) (b b' : boundary) : Prop :=
  Permutation (map f (b_vertices b')) (b_vertices b) /\ length (b_edges b) = length (b_edges b') /\
  forall e, In e (b_edges b') -> exists e', In e' (b_edges b) /\ same_edge (edge_image f e) e'.
Lemma map_edge_inv f n e y : map_edge (dict_of f 0 n) e = Ok y -> y = edge_image f e.
Proof.
  unfold map_edge. destruct (dget _ (fst e) _) as [a|] eqn:Ea; [|discriminate]. destruct (dget _ (snd e) _) as [b|] eqn:Eb; [|discriminate].
  cbn [bind]. intros E. injection E as <-. apply dget_dict_of in Ea as [_ ->]. apply dget_dict_of in Eb as [_ ->]. reflexivity.
Qed.
Lemma map_triangle_inv f n t y : map_triangle (dict_of f 0 n) t = Ok y -> y = triangle_image f t.
Proof.
  destruct t as [[i j] k]. unfold map_triangle. destruct (dget _ i _) as [a|] eqn:Ea; [|discriminate]. destruct (dget _ j _) as [b|] eqn:Eb; [|discriminate].
  destruct (dget _ k _) as [c|] eqn:Ec; [|discriminate].
  cbn [bind]. intros E. injection E as <-. apply dget_dict_of in Ea as [_ ->]. apply dget_dict_of in Eb as [_ ->]. apply dget_dict_of in Ec as [_ ->]. reflexivity.
Qed.
Lemma existsb_false_all {A} (h : A -> bool) l : existsb h l = false -> forall x, In x l -> h x = false.
Proof. intros E x Hx. destruct (h x) eqn:Eh; [|reflexivity]. assert (existsb h l = true) by (apply existsb_exists; exists x; auto). congruence. Qed.
Lemma boundaries_inv f n b b' : boundaries_coincide b b' (dict_of f 0 n) = Ok true -> boundary_within f b b'.
Proof.
  unfold boundaries_coincide. match goal with |- context [mapM ?h (b_vertices b')] => destruct (mapM h (b_vertices b')) as [vs|] eqn:Ev; [|discriminate] end. cbn [bind].
  apply (mapM_map_inv _ f) in Ev; [|intros x y _ E; apply dget_dict_of in E; apply E]. subst vs.
  destruct (nats_eqb _ _) eqn:E1; [|discriminate]. cbn [negb]. destruct (Nat.eqb_spec (length (b_edges b)) (length (b_edges b'))) as [E2|]; [|discriminate].
  cbn [negb]. match goal with |- context [mapM ?h (b_edges b')] => destruct (mapM h (b_edges b')) as [es|] eqn:Ee; [|discriminate] end. cbn [bind].
  apply (mapM_map_inv _ (edge_image f)) in Ee; [|intros x y _ E; apply map_edge_inv in E; exact E]. subst es.
  intros H. injection H as H. apply negb_true_iff in H. apply sorted_eq_iff in E1. split; [symmetry; exact E1|]. split; [exact E2|].
  intros e He. pose proof (existsb_false_all _ _ H (edge_image f e) (in_map _ _ _ He)) as HH. cbn beta in HH.
  rewrite <- negb_orb, negb_false_iff in HH. apply known_b in HH. exact HH.
Qed.
Lemma equal_sound g g' : planar g -> planar g' -> Grid_eqb g g' = Ok true ->
  exists f, Permutation (g_vertices g) (g_vertices g') /\ length (g_points g) = length (g_points g') /\
    (forall v q, point_at g' v q -> exists p, point_at g (f v) p /\ dist q p < tolerance g) /\
    length (g_edges g) = length (g_edges g') /\
    (forall e, In e (g_edges g') -> exists e', In e' (g_edges g) /\ same_edge (edge_image f e) e') /\
    length (g_triangles g) = length (g_triangles g') /\
    (forall t, In t (g_triangles g') -> exists t', In t' (g_triangles g) /\ same_triangle (triangle_image f t) t') /\
    boundary_within f (g_boundary g) (g_boundary g') /\ boundary_within f (g_dirichlet g) (g_dirichlet g') /\
    boundary_within f (g_neumann g) (g_neumann g').
Proof.
  intros Hp Hp'. unfold Grid_eqb. destruct (nats_eqb _ _) eqn:E1; [|discriminate]. cbn [negb]. apply sorted_eq_iff in E1.
  destruct (Nat.eqb_spec (length (g_points g)) (length (g_points g'))) as [E2|]; [|discriminate]. cbn [negb].
  destruct (vertex_map g 0 (g_points g')) as [[d|]|] eqn:Ed; try discriminate. cbn [bind].
  apply vertex_map_inv in Ed as [f [-> Hf]].
  destruct (Nat.eqb_spec (length (g_edges g)) (length (g_edges g'))) as [E3|]; [|discriminate]. cbn [negb].
  match goal with |- context [mapM ?h (g_edges g')] => destruct (mapM h (g_edges g')) as [es|] eqn:Ee; [|discriminate] end. cbn [bind].
  apply (mapM_map_inv _ (edge_image f)) in Ee; [|intros x y _ E; apply map_edge_inv in E; exact E]. subst es.
  destruct (existsb _ _) eqn:E4; [discriminate|].
  destruct (Nat.eqb_spec (length (g_triangles g)) (length (g_triangles g'))) as [E5|]; [|discriminate]. cbn [negb].
  match goal with |- context [mapM ?h (g_triangles g')] => destruct (mapM h (g_triangles g')) as [ts|] eqn:Et; [|discriminate] end. cbn [bind].
  apply (mapM_map_inv _ (triangle_image f)) in Et; [|intros x y _ E; apply map_triangle_inv in E; exact E]. subst ts.
  destruct (existsb (fun t => negb (contains_triangle _ t)) _) eqn:E6; [discriminate|].
  destruct (boundaries_coincide (g_boundary g) _ _) as [[|]|] eqn:B1; cbn [bind negb]; try discriminate.
  destruct (boundaries_coincide (g_dirichlet g) _ _) as [[|]|] eqn:B2; cbn [bind negb]; try discriminate. intros B3.
  exists f. split; [exact E1|]. split; [exact E2|]. split.
  { intros v q Hv. pose proof (Hf v (vec q) Hv) as HH. cbn [Nat.add] in HH. unfold point_to_vertex in HH.
    destruct (find_point_spec (g_mean g) (g_points g) q 0) as [[k [q' [E [Hk [Hd _]]]]]|[E _]].
    - intros x Hx. apply In_nth_error in Hx as [w Hw]. apply (Hp w x Hw).
    - rewrite HH in E. injection E as E. exists q'. split; [unfold point_at; rewrite E; exact Hk|exact Hd].
    - rewrite HH in E. discriminate. }
  split; [exact E3|]. split.
  { intros e He. pose proof (existsb_false_all _ _ E4 (edge_image f e) (in_map _ _ _ He)) as HH. cbn beta in HH.
    rewrite negb_false_iff in HH. apply contains_edge_spec in HH. exact HH. }
  split; [exact E5|]. split.
  { intros t Ht. pose proof (existsb_false_all _ _ E6 (triangle_image f t) (in_map _ _ _ Ht)) as HH. cbn beta in HH.
    rewrite negb_false_iff in HH. apply contains_triangle_spec in HH. exact HH. }
  split; [apply (boundaries_inv _ _ _ _ B1)|]. split; [apply (boundaries_inv _ _ _ _ B2)|apply (boundaries_inv _ _ _ _ B3)].
Qed.
