(** * Lemmas about the Python layer and the real scalar instance. *)
From Coq Require Import Permutation  Reals Lra Psatz.
From Verif.Model Require Import Py Num.

(** ** res / mapM / foldM *)
Lemma bind_ok {A B} (x : res A) (f : A -> res B) b :
  bind x f = Ok b -> exists a, x = Ok a /\ f a = Ok b.
Proof. destruct x as [a|e]; simpl; [intros H; exists a; auto | discriminate]. Qed.

Lemma bind_assoc {A B C} (x : res A) (f : A -> res B) (g : B -> res C) :
  bind (bind x f) g = bind x (fun a => bind (f a) g).
Proof. destruct x; reflexivity. Qed.

Lemma bind_ext {A B} (x : res A) (f g : A -> res B) :
  (forall a, x = Ok a -> f a = g a) -> bind x f = bind x g.
Proof. destruct x as [a|e]; simpl; auto. Qed.

Lemma mapM_ok_iff {A B} (f : A -> res B) l r :
  mapM f l = Ok r <-> Forall2 (fun x y => f x = Ok y) l r.
Proof.
  revert r; induction l as [|x xs IH]; intros r; simpl; split; intros H.
  - injection H as <-; constructor.
  - inversion H; reflexivity.
  - apply bind_ok in H as [y [Hy H]]. apply bind_ok in H as [ys [Hys H]].
    injection H as <-. constructor; [exact Hy|]. apply IH; exact Hys.
  - inversion H as [|? y ? ys Hy Hys]; subst. rewrite Hy; simpl.
    apply IH in Hys; rewrite Hys; reflexivity.
Qed.

Lemma mapM_map {A B} (f : A -> res B) (g : A -> B) l :
  (forall x, In x l -> f x = Ok (g x)) -> mapM f l = Ok (map g l).
Proof.
  induction l as [|x xs IH]; simpl; intros H; [reflexivity|].
  rewrite (H x (or_introl eq_refl)); simpl. rewrite IH; [reflexivity|]. intros y Hy; apply H; auto.
Qed.

Lemma mapM_ext {A B} (f g : A -> res B) l :
  (forall x, In x l -> f x = g x) -> mapM f l = mapM g l.
Proof.
  induction l as [|x xs IH]; simpl; intros H; [reflexivity|].
  rewrite (H x (or_introl eq_refl)). rewrite IH; [reflexivity|]. intros y Hy; apply H; auto.
Qed.

Lemma mapM_length {A B} (f : A -> res B) l r : mapM f l = Ok r -> length r = length l.
Proof. intros H; apply mapM_ok_iff in H. induction H; simpl; congruence. Qed.

Lemma mapM_app {A B} (f : A -> res B) l1 l2 :
  mapM f (l1 ++ l2) = bind (mapM f l1) (fun r1 => bind (mapM f l2) (fun r2 => Ok (r1 ++ r2))).
Proof.
  induction l1 as [|x xs IH]; simpl.
  - destruct (mapM f l2); reflexivity.
  - destruct (f x) as [y|e]; simpl; [|reflexivity]. rewrite IH.
    destruct (mapM f xs) as [ys|e]; simpl; [|reflexivity].
    destruct (mapM f l2) as [zs|e]; reflexivity.
Qed.

Lemma mapM_map_compose {A B C} (f : B -> res C) (g : A -> B) l :
  mapM f (map g l) = mapM (fun x => f (g x)) l.
Proof. induction l as [|x xs IH]; simpl; [reflexivity|]. rewrite IH; reflexivity. Qed.

Lemma mapM_ok_in {A B} (f : A -> res B) l r x :
  mapM f l = Ok r -> In x l -> exists y, f x = Ok y /\ In y r.
Proof.
  intros H; apply mapM_ok_iff in H. induction H as [|a b l r Hab H IH]; simpl; [tauto|].
  intros [->|Hx]; [exists b; auto|]. destruct (IH Hx) as [y [Hy Hi]]; exists y; auto.
Qed.

Lemma mapM_nth {A B} (f : A -> res B) l r i x :
  mapM f l = Ok r -> nth_error l i = Some x -> exists y, f x = Ok y /\ nth_error r i = Some y.
Proof.
  intros H; apply mapM_ok_iff in H. revert i; induction H as [|a b l r Hab H IH]; intros i Hi.
  - destruct i; discriminate.
  - destruct i as [|i]; simpl in *; [injection Hi as <-; exists b; auto | apply IH; exact Hi].
Qed.

Lemma mapM_err_exists {A B} (f : A -> res B) l e :
  mapM f l = Err e -> exists x, In x l /\ f x = Err e.
Proof.
  induction l as [|x xs IH]; simpl; [discriminate|].
  destruct (f x) as [y|e'] eqn:E; simpl.
  - destruct (mapM f xs) as [ys|e''] eqn:E'; simpl; [discriminate|]. intros [= ->].
    destruct (IH eq_refl) as [z [Hz Hf]]; exists z; auto.
  - intros [= ->]; exists x; auto.
Qed.

Lemma foldM_app {A S} (f : S -> A -> res S) l1 l2 s :
  foldM f (l1 ++ l2) s = bind (foldM f l1 s) (foldM f l2).
Proof. revert s; induction l1 as [|x xs IH]; intros s; simpl; [reflexivity|].
  destruct (f s x); simpl; [apply IH|reflexivity]. Qed.

(** Invariant rule for [foldM] with access to the already processed prefix. *)
Lemma foldM_inv {A S} (f : S -> A -> res S) (P : list A -> S -> Prop) l s :
  P [] s ->
  (forall pre x post s, l = pre ++ x :: post -> P pre s -> exists s', f s x = Ok s' /\ P (pre ++ [x]) s') ->
  exists s', foldM f l s = Ok s' /\ P l s'.
Proof.
  intros H0 Hstep.
  assert (G : forall post pre s, l = pre ++ post -> P pre s -> exists s', foldM f post s = Ok s' /\ P l s').
  { induction post as [|x post IH]; intros pre s1 Hl HP; simpl.
    - rewrite app_nil_r in Hl; subst pre. exists s1; auto.
    - destruct (Hstep _ _ _ _ Hl HP) as [s2 [Hf HP2]]. rewrite Hf; simpl.
      apply (IH (pre ++ [x])); [rewrite <- app_assoc; exact Hl | exact HP2]. }
  apply (G l []); auto.
Qed.

Lemma foldM_ok_inv {A S} (f : S -> A -> res S) (P : list A -> S -> Prop) l s s' :
  P [] s ->
  (forall pre x post s s', l = pre ++ x :: post -> P pre s -> f s x = Ok s' -> P (pre ++ [x]) s') ->
  foldM f l s = Ok s' -> P l s'.
Proof.
  intros H0 Hstep.
  assert (G : forall post pre s, l = pre ++ post -> P pre s -> foldM f post s = Ok s' -> P l s').
  { induction post as [|x post IH]; intros pre s1 Hl HP; simpl.
    - rewrite app_nil_r in Hl; subst pre. intros [= <-]; auto.
    - intros H; apply bind_ok in H as [s2 [Hf H]].
      apply (IH (pre ++ [x]) s2); [rewrite <- app_assoc; exact Hl | eapply Hstep; eauto | exact H]. }
  apply (G l []); auto.
Qed.

(** ** Ranges and indexing *)
Lemma in_range i n : In i (range n) <-> (i < n)%nat.
Proof. unfold range; rewrite in_seq; lia. Qed.
Lemma in_range2 i a b : In i (range2 a b) <-> (a <= i < b)%nat.
Proof. unfold range2; rewrite in_seq; lia. Qed.
Lemma range_length n : length (range n) = n.
Proof. apply seq_length. Qed.
Lemma range_S n : range (S n) = range n ++ [n].
Proof. unfold range. rewrite seq_S; reflexivity. Qed.

Lemma py_nth_ok {A} (l : list A) i a : py_nth l i = Ok a <-> nth_error l i = Some a.
Proof. unfold py_nth; destruct (nth_error l i); split; congruence. Qed.
Lemma py_nth_nth {A} (l : list A) i d : (i < length l)%nat -> py_nth l i = Ok (nth i l d).
Proof. intros H; apply py_nth_ok, nth_error_nth'; exact H. Qed.

Lemma py_index_nonneg {A} (l : list A) i :
  (0 <= i)%Z -> py_index l i = py_nth l (Z.to_nat i).
Proof.
  intros H. unfold py_index, py_nth. replace (i <? 0)%Z with false by (symmetry; apply Z.ltb_ge; lia).
  replace (i <? 0)%Z with false by (symmetry; apply Z.ltb_ge; lia). reflexivity.
Qed.
Lemma py_index_nat {A} (l : list A) i : py_index l (Z.of_nat i) = py_nth l i.
Proof. rewrite py_index_nonneg by lia. rewrite Nat2Z.id; reflexivity. Qed.
Lemma py_last_app {A} (l : list A) a : py_last (l ++ [a]) = Ok a.
Proof.
  unfold py_last, py_index. rewrite app_length; simpl.
  replace (Z.of_nat (length l + 1) + -1)%Z with (Z.of_nat (length l)) by lia.
  replace (Z.of_nat (length l) <? 0)%Z with false by (symmetry; apply Z.ltb_ge; lia).
  rewrite Nat2Z.id, nth_error_app2, Nat.sub_diag by lia. reflexivity.
Qed.

Lemma nth_ext' {A} (l1 l2 : list A) d :
  length l1 = length l2 -> (forall i, (i < length l1)%nat -> nth i l1 d = nth i l2 d) -> l1 = l2.
Proof. intros; apply (nth_ext l1 l2 d d); auto. Qed.

Lemma map_range_nth {A} (l : list A) d : map (fun i => nth i l d) (range (length l)) = l.
Proof.
  apply nth_ext' with (d := d); [rewrite map_length, range_length; reflexivity|].
  intros i Hi. rewrite map_length, range_length in Hi.
  rewrite (nth_indep _ d (nth 0 l d)) by (rewrite map_length, range_length; exact Hi).
  rewrite (map_nth (fun i => nth i l d)). unfold range; rewrite seq_nth by lia. reflexivity.
Qed.

Lemma nth_map_range {A} (f : nat -> A) n i d : (i < n)%nat -> nth i (map f (range n)) d = f i.
Proof.
  intros Hi. rewrite (nth_indep _ d (f O)) by (rewrite map_length, range_length; exact Hi).
  rewrite map_nth. unfold range; rewrite seq_nth by lia; reflexivity.
Qed.

Lemma nth_map_in {A B} (f : A -> B) l i da db : (i < length l)%nat -> nth i (map f l) db = f (nth i l da).
Proof. intros H. rewrite (nth_indep _ db (f da)) by (rewrite map_length; exact H). apply map_nth. Qed.

(** ** NoDup *)
Lemma NoDup_app_ {A} (l1 l2 : list A) :
  NoDup l1 -> NoDup l2 -> (forall x, In x l1 -> In x l2 -> False) -> NoDup (l1 ++ l2).
Proof.
  induction l1 as [|a l1 IH]; simpl; intros H1 H2 Hd; [exact H2|]. inversion H1; subst. constructor.
  - rewrite in_app_iff. intros [H|H]; [contradiction | apply (Hd a); auto].
  - apply IH; auto. intros x Hx Hx'. apply (Hd x); auto.
Qed.
Lemma NoDup_app_inv_ {A} (l1 l2 : list A) :
  NoDup (l1 ++ l2) -> NoDup l1 /\ NoDup l2 /\ (forall x, In x l1 -> In x l2 -> False).
Proof.
  induction l1 as [|a l1 IH]; simpl; intros H; [repeat split; auto; constructor|].
  inversion H as [|? ? Hn Hd]; subst. destruct (IH Hd) as [H1 [H2 H3]]. rewrite in_app_iff in Hn. repeat split; auto.
  - constructor; auto.
  - intros x [<-|Hx] Hx'; [apply Hn; auto | apply (H3 x); auto].
Qed.
Lemma NoDup_map_inj_in {A B} (f : A -> B) l :
  NoDup l -> (forall a b, In a l -> In b l -> f a = f b -> a = b) -> NoDup (map f l).
Proof.
  induction 1 as [|a l Hn Hl IH]; simpl; intros Hf; [constructor|]. constructor.
  - rewrite in_map_iff. intros [b [Hb Hin]]. apply Hn. rewrite (Hf a b); auto.
  - apply IH. intros x y Hx Hy. apply Hf; auto.
Qed.
Lemma NoDup_flat_map {A B} (f : A -> list B) l :
  NoDup l -> (forall a, In a l -> NoDup (f a)) ->
  (forall a b x, In a l -> In b l -> In x (f a) -> In x (f b) -> a = b) -> NoDup (flat_map f l).
Proof.
  intros Hl Hf Hd. induction Hl as [|a l Hna Hl IH]; simpl; [constructor|].
  apply NoDup_app_; [apply Hf; left; reflexivity| |].
  - apply IH; [intros b Hb; apply Hf; right; exact Hb|]. intros b c x Hb Hc. apply Hd; right; assumption.
  - intros x Hx Hx'. apply in_flat_map in Hx' as [b [Hb Hxb]]. apply Hna.
    rewrite (Hd a b x); auto; [left; reflexivity | right; exact Hb].
Qed.
Lemma NoDup_range n : NoDup (range n).
Proof. apply seq_NoDup. Qed.
Lemma NoDup_length_same {A} (l l' : list A) :
  NoDup l -> NoDup l' -> (forall x, In x l <-> In x l') -> length l = length l'.
Proof. intros H1 H2 H. apply Permutation_length, NoDup_Permutation; assumption. Qed.

(** ** Booleans *)
Lemma pair_eqb_spec p q : pair_eqb p q = true <-> p = q.
Proof.
  destruct p as [a b], q as [c d]; unfold pair_eqb; simpl.
  rewrite andb_true_iff, !Nat.eqb_eq. split; [intros [-> ->]; reflexivity | intros [= -> ->]; auto].
Qed.
Lemma triple_eqb_spec p q : triple_eqb p q = true <-> p = q.
Proof.
  destruct p as [p1 p2], q as [q1 q2]; unfold triple_eqb; simpl.
  rewrite andb_true_iff, pair_eqb_spec, Nat.eqb_eq. split; [intros [-> ->]; reflexivity | intros [= -> ->]; auto].
Qed.
Lemma py_in_pair x l : py_in pair_eqb x l = true <-> In x l.
Proof.
  unfold py_in; rewrite existsb_exists. split.
  - intros [y [Hy H]]; apply pair_eqb_spec in H; subst; exact Hy.
  - intros H; exists x; split; [exact H | apply pair_eqb_spec; reflexivity].
Qed.
Lemma py_in_triple x l : py_in triple_eqb x l = true <-> In x l.
Proof.
  unfold py_in; rewrite existsb_exists. split.
  - intros [y [Hy H]]; apply triple_eqb_spec in H; subst; exact Hy.
  - intros H; exists x; split; [exact H | apply triple_eqb_spec; reflexivity].
Qed.

Lemma bool_false_iff b (P : Prop) : (b = true <-> P) -> (b = false <-> ~ P).
Proof. destruct b; intros [H1 H2]; split; intros H; try discriminate; auto.
  - exfalso; auto. - intros p; specialize (H2 p); discriminate. Qed.

(** ** Dictionaries *)
Lemma dfind_in {K V} (eqb : K -> K -> bool) (d : dict K V) k v :
  (forall a b, eqb a b = true <-> a = b) -> dfind eqb k d = Some v -> In (k, v) d.
Proof.
  intros He. induction d as [|[k' v'] d IH]; simpl; [discriminate|].
  destruct (eqb k k') eqn:E.
  - intros [= <-]. apply He in E; subst; auto.
  - auto.
Qed.
Lemma dfind_none {K V} (eqb : K -> K -> bool) (d : dict K V) k :
  (forall a b, eqb a b = true <-> a = b) -> (dfind eqb k d = None <-> ~ In k (map fst d)).
Proof.
  intros He. induction d as [|[k' v'] d IH]; simpl; [tauto|].
  destruct (eqb k k') eqn:E.
  - apply He in E; subst. split; [discriminate | tauto].
  - rewrite IH. split; intros H; [intros [->|H']; [rewrite (proj2 (He k k)) in E by reflexivity; discriminate | auto] | tauto].
Qed.

(** ** The scalar instance over R *)
Section RealBool.
Local Open Scope R_scope.
Lemma Rltb_true x y : Rltb x y = true <-> x < y.
Proof. unfold Rltb; destruct (Rlt_dec x y); split; try tauto; discriminate. Qed.
Lemma Rltb_false x y : Rltb x y = false <-> y <= x.
Proof. unfold Rltb; destruct (Rlt_dec x y); split; intros; try discriminate; try lra; try reflexivity. Qed.
Lemma Reqb_true x y : Reqb x y = true <-> x = y.
Proof. unfold Reqb; destruct (Req_EM_T x y); split; try tauto; discriminate. Qed.
Lemma Reqb_false x y : Reqb x y = false <-> x <> y.
Proof. unfold Reqb; destruct (Req_EM_T x y); split; try tauto; discriminate. Qed.

Lemma ndiv_R x y : y <> 0 -> @ndiv R RNum x y = Ok (x / y).
Proof. intros H. simpl. rewrite (proj2 (Reqb_false y 0) H). reflexivity. Qed.
Lemma ndiv_R0 x : @ndiv R RNum x 0 = Err ZeroDivisionError.
Proof. simpl. rewrite (proj2 (Reqb_true 0 0) eq_refl). reflexivity. Qed.

(** [nsum] is the sum. *)
Fixpoint Rsum (l : list R) : R := match l with [] => 0 | x :: xs => x + Rsum xs end.
Lemma fold_left_Rplus l a : fold_left Rplus l a = a + Rsum l.
Proof. revert a; induction l as [|x xs IH]; intros a; simpl; [ring|]. rewrite IH; ring. Qed.
Lemma nsum_Rsum l : nsum l = Rsum l.
Proof. unfold nsum; simpl. rewrite fold_left_Rplus; ring. Qed.
Lemma Rsum_app l1 l2 : Rsum (l1 ++ l2) = Rsum l1 + Rsum l2.
Proof. induction l1 as [|x xs IH]; simpl; [ring|]. rewrite IH; ring. Qed.
Lemma Rsum_map_scal {A} (f : A -> R) c l : Rsum (map (fun x => c * f x) l) = c * Rsum (map f l).
Proof. induction l as [|x xs IH]; simpl; [ring|]. rewrite IH; ring. Qed.
Lemma Rsum_map_scal_r {A} (f : A -> R) c l : Rsum (map (fun x => f x * c) l) = Rsum (map f l) * c.
Proof. induction l as [|x xs IH]; simpl; [ring|]. rewrite IH; ring. Qed.
Lemma Rsum_map_plus {A} (f g : A -> R) l :
  Rsum (map (fun x => f x + g x) l) = Rsum (map f l) + Rsum (map g l).
Proof. induction l as [|x xs IH]; simpl; [ring|]. rewrite IH; ring. Qed.
Lemma Rsum_map_ext {A} (f g : A -> R) l : (forall x, In x l -> f x = g x) -> Rsum (map f l) = Rsum (map g l).
Proof. induction l as [|x xs IH]; simpl; intros H; [reflexivity|]. rewrite (H x), IH; auto. Qed.
Lemma Rsum_map_zero {A} (l : list A) : Rsum (map (fun _ => 0) l) = 0.
Proof. induction l as [|x xs IH]; simpl; [ring|]. rewrite IH; ring. Qed.
Lemma Rsum_const {A} (l : list A) c : Rsum (map (fun _ => c) l) = INR (length l) * c.
Proof. induction l as [|x xs IH]; [simpl; ring|]. cbn [map Rsum length]. rewrite IH, S_INR; ring. Qed.
Lemma Rsum_swap {A B} (f : A -> B -> R) la lb :
  Rsum (map (fun a => Rsum (map (f a) lb)) la) = Rsum (map (fun b => Rsum (map (fun a => f a b) la)) lb).
Proof.
  induction la as [|a la IH]; simpl; [rewrite Rsum_map_zero; reflexivity|].
  rewrite IH, Rsum_map_plus. reflexivity.
Qed.
Lemma Rsum_nonneg l : (forall x, In x l -> 0 <= x) -> 0 <= Rsum l.
Proof. induction l as [|x xs IH]; simpl; intros H; [lra|].
  specialize (H x (or_introl eq_refl)) as Hx. assert (0 <= Rsum xs) by (apply IH; auto). lra. Qed.
Lemma Rsum_nonneg_zero l : (forall x, In x l -> 0 <= x) -> Rsum l = 0 -> forall x, In x l -> x = 0.
Proof.
  induction l as [|y ys IH]; simpl; intros H H0 x Hx; [tauto|].
  assert (Hy : 0 <= y) by auto. assert (Hs : 0 <= Rsum ys) by (apply Rsum_nonneg; auto).
  destruct Hx as [->|Hx]; [lra|]. apply IH; auto. lra.
Qed.
Lemma Rsum_le {A} (f g : A -> R) l : (forall x, In x l -> f x <= g x) -> Rsum (map f l) <= Rsum (map g l).
Proof. induction l as [|x xs IH]; simpl; intros H; [lra|].
  specialize (H x (or_introl eq_refl)) as Hx. assert (Rsum (map f xs) <= Rsum (map g xs)) by (apply IH; auto). lra. Qed.
Lemma Rsum_concat l : Rsum (concat l) = Rsum (map Rsum l).
Proof. induction l as [|x xs IH]; simpl; [reflexivity|]. rewrite Rsum_app, IH; reflexivity. Qed.
Lemma Rsum_flat_map {A} (f : A -> list R) l : Rsum (flat_map f l) = Rsum (map (fun a => Rsum (f a)) l).
Proof. induction l as [|x xs IH]; simpl; [reflexivity|]. rewrite Rsum_app, IH; reflexivity. Qed.
End RealBool.
