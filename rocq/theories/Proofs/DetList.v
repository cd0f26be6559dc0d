(** Cofactor expansion of the permutation sum computed by Matrix.det, on lists. *)
From Coq Require Import Reals Lra Lia Permutation Sorting.Sorted.
From Verif.Model Require Import Py Num Tensors.
From Verif.Proofs Require Import Lib TensorsP.
Local Open Scope R_scope.

Fixpoint dprod (a : nat -> nat -> R) (i0 : nat) (p : list nat) : R :=
  match p with [] => 1 | c :: p' => a i0 c * dprod a (S i0) p' end.
Definition dsum (a : nat -> nat -> R) (i0 n : nat) (cols : list nat) : R :=
  Rsum (map (fun p => @sign R RNum p * dprod a i0 p) (permutations_fuel n cols)).

Definition drop_nth {A} (j : nat) (l : list A) : list A := firstn j l ++ skipn (S j) l.

Lemma picks_spec {A} (l : list A) d :
  picks l = map (fun j => (nth j l d, drop_nth j l)) (range (length l)).
Proof.
  induction l as [|x xs IH]; [reflexivity|]. simpl picks. rewrite IH, map_map.
  unfold range. simpl length. cbn [seq map]. f_equal. rewrite <- seq_shift, map_map. reflexivity.
Qed.
Lemma drop_nth_length {A} j (l : list A) : (j < length l)%nat -> length (drop_nth j l) = (length l - 1)%nat.
Proof. intros H. unfold drop_nth. rewrite app_length, firstn_length, skipn_length. lia. Qed.
Lemma drop_nth_nth {A} j (l : list A) k d :
  nth k (drop_nth j l) d = if Nat.ltb k j then nth k l d else nth (S k) l d.
Proof.
  revert j k; induction l as [|x xs IH]; intros j k.
  - unfold drop_nth. destruct j; simpl; destruct k; simpl; try reflexivity; destruct (Nat.ltb _ _); reflexivity.
  - destruct j as [|j]; [reflexivity|]. unfold drop_nth in *. cbn [firstn app]. destruct k as [|k]; [reflexivity|].
    cbn [nth]. change (skipn (S (S j)) (x :: xs)) with (skipn (S j) xs). rewrite IH.
    change (Nat.ltb (S k) (S j)) with (Nat.ltb k j). reflexivity.
Qed.

Lemma skipn_nth_cons {A} j (l : list A) d : (j < length l)%nat -> skipn j l = nth j l d :: skipn (S j) l.
Proof.
  revert l; induction j as [|j IH]; intros l H; destruct l as [|y l]; simpl in H; try lia; [reflexivity|].
  simpl. apply IH; lia.
Qed.
Lemma drop_nth_perm {A} j (l : list A) d : (j < length l)%nat -> Permutation l (nth j l d :: drop_nth j l).
Proof.
  intros H. unfold drop_nth. rewrite <- (firstn_skipn j l) at 1.
  rewrite (skipn_nth_cons j l d H). symmetry. apply Permutation_middle.
Qed.
Lemma permutations_perm {A} n (l : list A) p :
  length l = n -> In p (permutations_fuel n l) -> Permutation l p.
Proof.
  revert l p; induction n as [|n IH]; intros l p Hl H; simpl in H.
  - destruct l; [|discriminate]. destruct H as [<-|[]]. constructor.
  - destruct l as [|x0 l0]; [discriminate|]. set (l := x0 :: l0) in *.
    apply in_flat_map in H as [[x rest] [Hx Hp]]. apply in_map_iff in Hp as [q [<- Hq]].
    rewrite (picks_spec l x0) in Hx. apply in_map_iff in Hx as [j [Hj Hin]]. apply in_range in Hin.
    injection Hj as <- <-. apply IH in Hq; [|rewrite drop_nth_length by exact Hin; lia].
    rewrite <- Hq. exact (drop_nth_perm j l x0 Hin).
Qed.

Lemma count_less_perm a l l' : Permutation l l' -> count_less a l = count_less a l'.
Proof.
  unfold count_less. induction 1; simpl; try congruence.
  - destruct (Nat.ltb x a); simpl; congruence.
  - destruct (Nat.ltb y a), (Nat.ltb x a); reflexivity.
Qed.
Lemma count_less_app a l l' : count_less a (l ++ l') = (count_less a l + count_less a l')%nat.
Proof. unfold count_less. rewrite filter_app, app_length. reflexivity. Qed.
Lemma count_less_all a l : (forall b, In b l -> (b < a)%nat) -> count_less a l = length l.
Proof.
  unfold count_less. induction l as [|x l IH]; simpl; intros H; [reflexivity|].
  replace (Nat.ltb x a) with true by (symmetry; apply Nat.ltb_lt; auto). simpl. rewrite IH; auto.
Qed.
Lemma count_less_none a l : (forall b, In b l -> (a <= b)%nat) -> count_less a l = O.
Proof.
  unfold count_less. induction l as [|x l IH]; simpl; intros H; [reflexivity|].
  replace (Nat.ltb x a) with false by (symmetry; apply Nat.ltb_ge; auto). apply IH; auto.
Qed.
Definition incr (l : list nat) : Prop := forall i j, (i < j < length l)%nat -> (nth i l 0 < nth j l 0)%nat.
Lemma In_firstn {A} j (l : list A) x d : In x (firstn j l) -> exists i, (i < j)%nat /\ (i < length l)%nat /\ nth i l d = x.
Proof.
  intros H. apply (In_nth _ _ d) in H as [i [Hi <-]]. rewrite firstn_length in Hi.
  exists i. split; [lia|]. split; [lia|]. rewrite <- (firstn_skipn j l) at 1. rewrite app_nth1; [reflexivity|].
  rewrite firstn_length; lia.
Qed.
Lemma In_skipn {A} j (l : list A) x d : In x (skipn j l) -> exists i, (j <= i)%nat /\ (i < length l)%nat /\ nth i l d = x.
Proof.
  intros H. apply (In_nth _ _ d) in H as [i [Hi <-]]. rewrite skipn_length in Hi.
  exists (j + i)%nat. split; [lia|]. split; [lia|].
  rewrite <- (firstn_skipn j l) at 1. rewrite app_nth2; rewrite firstn_length; [|lia]. f_equal. lia.
Qed.
Lemma count_less_drop j l : incr l -> (j < length l)%nat -> count_less (nth j l 0%nat) (drop_nth j l) = j.
Proof.
  intros Hs Hj. unfold drop_nth. rewrite count_less_app. rewrite count_less_all, count_less_none.
  - rewrite firstn_length. lia.
  - intros b Hb. apply (In_skipn _ _ _ 0%nat) in Hb as [i [H1 [H2 <-]]]. apply Nat.lt_le_incl, Hs. lia.
  - intros b Hb. apply (In_firstn _ _ _ 0%nat) in Hb as [i [H1 [H2 <-]]]. apply Hs. lia.
Qed.
Lemma incr_drop j l : incr l -> (j < length l)%nat -> incr (drop_nth j l).
Proof.
  intros Hs Hj i k [Hik Hk]. rewrite drop_nth_length in Hk by exact Hj. rewrite !drop_nth_nth.
  destruct (Nat.ltb_spec i j); destruct (Nat.ltb_spec k j); apply Hs; lia.
Qed.
Lemma incr_range n : incr (range n).
Proof. intros i j [H1 H2]. rewrite range_length in H2. unfold range. rewrite !seq_nth by lia. lia. Qed.

Lemma even_sign_add a b : (if Nat.even (a + b) then 1 else -1) =
  (if Nat.even a then 1 else -1) * (if Nat.even b then 1 else -1).
Proof. rewrite Nat.even_add. destruct (Nat.even a), (Nat.even b); simpl; ring. Qed.
Lemma sign_cons c p : @sign R RNum (c :: p) = (if Nat.even (count_less c p) then 1 else -1) * @sign R RNum p.
Proof. unfold sign. simpl num_misplaced. simpl. apply even_sign_add. Qed.

Lemma dsum_expand a i0 n cols : incr cols -> length cols = S n ->
  dsum a i0 (S n) cols =
  Rsum (map (fun j => (if Nat.even j then 1 else -1) * (a i0 (nth j cols 0%nat) * dsum a (S i0) n (drop_nth j cols)))
            (range (S n))).
Proof.
  intros Hs Hl. unfold dsum at 1. cbn [permutations_fuel].
  rewrite flat_map_concat_map, concat_map, Rsum_concat, !map_map.
  rewrite (picks_spec cols 0%nat), map_map, Hl. apply Rsum_map_ext. intros j Hj. apply in_range in Hj.
  rewrite map_map. unfold dsum. rewrite <- !Rsum_map_scal. apply Rsum_map_ext. intros q Hq.
  assert (Hp : Permutation (drop_nth j cols) q).
  { apply permutations_perm with (n := n); [rewrite drop_nth_length; lia|exact Hq]. }
  rewrite sign_cons. rewrite <- (count_less_perm _ _ _ Hp), count_less_drop by (assumption || lia).
  cbn [dprod]. ring.
Qed.

Lemma dsum_ext a b i0 n cols : length cols = n ->
  (forall i c, (i0 <= i < i0 + n)%nat -> In c cols -> a i c = b i c) -> dsum a i0 n cols = dsum b i0 n cols.
Proof.
  intros Hl H. unfold dsum. apply Rsum_map_ext. intros p Hp.
  pose proof (permutations_perm _ _ _ Hl Hp) as Hperm. f_equal.
  assert (Hlen : length p = n) by (rewrite <- Hl; symmetry; apply Permutation_length, Hperm).
  assert (Hin : forall c, In c p -> In c cols) by (intros c Hc; apply (Permutation_in c (Permutation_sym Hperm)), Hc).
  clear Hp Hperm Hl. revert i0 n H Hlen. induction p as [|c p IH]; intros i0 n H Hlen; [reflexivity|].
  simpl in Hlen. cbn [dprod]. rewrite H; [|lia|apply Hin; left; reflexivity]. f_equal.
  apply IH with (n := (n - 1)%nat); [|intros i d Hi Hd; apply H; [lia|exact Hd]|lia].
  intros d Hd; apply Hin; right; exact Hd.
Qed.

(** The model's determinant is [dsum]. *)
Lemma fold_left_sum {A} (g : A -> R) l acc : fold_left (fun acc p => acc + g p) l acc = acc + Rsum (map g l).
Proof. revert acc; induction l as [|x xs IH]; intros acc; simpl; [ring|]. rewrite IH; ring. Qed.
Lemma fold_left_prod {A} (g : A -> R) l acc :
  fold_left (fun acc p => acc * g p) l acc = acc * fold_right (fun x r => g x * r) 1 l.
Proof. revert acc; induction l as [|x xs IH]; intros acc; simpl; [ring|]. rewrite IH; ring. Qed.
Lemma dprod_fold a i0 p :
  fold_right (fun i r => a i (nth (i - i0) p O) * r) 1 (seq i0 (length p)) = dprod a i0 p.
Proof.
  revert i0; induction p as [|c p IH]; intros i0; simpl; [reflexivity|].
  rewrite Nat.sub_diag. f_equal. rewrite <- IH.
  assert (E : forall l, (forall i, In i l -> (S i0 <= i)%nat) ->
    fold_right (fun i r => a i (match (i - i0)%nat with O => c | S m => nth m p O end) * r) 1 l =
    fold_right (fun i r => a i (nth (i - S i0) p O) * r) 1 l).
  { induction l as [|i l IHl]; simpl; intros Hl; [reflexivity|]. rewrite IHl by auto.
    assert (Hi : (S i0 <= i)%nat) by auto. destruct (i - i0)%nat as [|m] eqn:E; [lia|].
    replace (i - S i0)%nat with m by lia. reflexivity. }
  apply E. intros i Hi. apply in_seq in Hi. lia.
Qed.
Lemma Matrix_det_dsum n f : Matrix_det (mat_of n n f) = Ok (dsum f 0 n (range n)).
Proof.
  unfold Matrix_det. simpl m_rows; simpl m_cols. rewrite Nat.eqb_refl. f_equal.
  cbn [nadd nmul n0 RNum]. rewrite fold_left_sum. unfold permutations. rewrite range_length. unfold dsum.
  rewrite Rplus_0_l. apply Rsum_map_ext. intros p Hp.
  pose proof (permutations_perm _ _ _ (range_length n) Hp) as Hperm. f_equal.
  assert (Hlen : length p = n) by (transitivity (length (range n)); [symmetry; apply Permutation_length, Hperm | apply range_length]).
  unfold det_prod. cbn [nmul n1 RNum]. rewrite fold_left_prod, Rmult_1_l, <- dprod_fold. rewrite Hlen. unfold range.
  assert (E : forall l, (forall i, In i l -> (i < n)%nat) ->
    fold_right (fun x r => entry (m_data (mat_of n n f)) x (nth x p O) * r) 1 l =
    fold_right (fun x r => f x (nth (x - 0) p O) * r) 1 l).
  { induction l as [|i l IHl]; intros Hl; [reflexivity|]. cbn [fold_right].
    rewrite IHl by (intros k Hk; apply Hl; right; exact Hk).
    assert (Hi : (i < n)%nat) by (apply Hl; left; reflexivity). rewrite Nat.sub_0_r.
    cbn [m_data mat_of]. rewrite tab_entry; [reflexivity | auto |].
    assert (Hin : In (nth i p O) (range n)).
    { apply (Permutation_in _ (Permutation_sym Hperm)), nth_In. rewrite Hlen. auto. }
    apply in_range in Hin. exact Hin. }
  apply E. intros i Hi. apply in_seq in Hi. lia.
Qed.
