(** Lemmas about the tensors model over the reals. *)
From Coq Require Import Reals Lra Lia.
From Verif.Model Require Import Py Num Tensors.
From Verif.Spec Require Import TensorSpec.
From Verif.Proofs Require Import Lib.
Local Open Scope R_scope.

(** ** Canonical form of a matrix *)
Definition tab (n m : nat) (f : nat -> nat -> R) : list (list R) :=
  map (fun i => map (fun j => f i j) (range m)) (range n).
Definition mat_of (n m : nat) (f : nat -> nat -> R) : matrix R := mkMatrix n m (tab n m f).

Lemma tab_length n m f : length (tab n m f) = n.
Proof. unfold tab. rewrite map_length, range_length; reflexivity. Qed.
Lemma tab_row n m f r : In r (tab n m f) -> length r = m.
Proof. unfold tab. rewrite in_map_iff. intros [i [<- _]]. rewrite map_length, range_length; reflexivity. Qed.
Lemma tab_nth n m f i : (i < n)%nat -> nth i (tab n m f) [] = map (fun j => f i j) (range m).
Proof. intros H. unfold tab. rewrite nth_map_range by exact H. reflexivity. Qed.
Lemma tab_entry n m f i j : (i < n)%nat -> (j < m)%nat -> entry (tab n m f) i j = f i j.
Proof. intros Hi Hj. unfold entry. rewrite tab_nth by exact Hi. rewrite nth_map_range by exact Hj. reflexivity. Qed.
Lemma tab_ext n m f g :
  (forall i j, (i < n)%nat -> (j < m)%nat -> f i j = g i j) -> tab n m f = tab n m g.
Proof.
  intros H. unfold tab. apply map_ext_in. intros i Hi. apply map_ext_in. intros j Hj.
  apply in_range in Hi. apply in_range in Hj. auto.
Qed.

Lemma Matrix_rect {A} (rows cols : nat) (data : list (list A)) :
  rectangular rows cols data -> Matrix_ data = Ok (mkMatrix rows cols data).
Proof.
  intros [H0 [Hl Hr]]. destruct data as [|r0 rs]; [simpl in Hl; lia|].
  unfold Matrix_. assert (Hr0 : length r0 = cols) by (apply Hr; left; reflexivity).
  replace (forallb _ rs) with true.
  - rewrite Hl, Hr0. reflexivity.
  - symmetry. apply forallb_forall. intros r Hin. apply Nat.eqb_eq. rewrite Hr0. apply Hr; right; exact Hin.
Qed.
Lemma Matrix_ok_inv {A} (data : list (list A)) m :
  Matrix_ data = Ok m -> rectangular (m_rows m) (m_cols m) data /\ m_data m = data.
Proof.
  destruct data as [|r0 rs]; [discriminate|]. unfold Matrix_.
  destruct (forallb _ rs) eqn:E; [|discriminate]. intros [= <-]. simpl. split; [|reflexivity].
  split; [lia|]. split; [reflexivity|]. rewrite forallb_forall in E.
  intros r [<-|Hr]; [reflexivity|]. apply Nat.eqb_eq, E, Hr.
Qed.
Lemma Matrix_err {A} (data : list (list A)) e :
  Matrix_ data = Err e ->
  (data = [] /\ e = IndexError) \/
  (e = ValueError /\ exists r r', In r data /\ In r' data /\ length r <> length r').
Proof.
  destruct data as [|r0 rs]; [intros [= <-]; left; auto|]. unfold Matrix_.
  destruct (forallb _ rs) eqn:E; [discriminate|]. intros [= <-]. right. split; [reflexivity|].
  assert (H : exists r, In r rs /\ length r <> length r0).
  { clear -E. induction rs as [|r rs IH]; simpl in E; [discriminate|].
    apply andb_false_iff in E as [E|E].
    - exists r; split; [left; reflexivity|]. apply Nat.eqb_neq, E.
    - destruct (IH E) as [r' [H1 H2]]. exists r'; split; [right; exact H1|exact H2]. }
  destruct H as [r [H1 H2]]. exists r, r0. repeat split; [right; exact H1 | left; reflexivity | exact H2].
Qed.

Lemma tab_rect n m f : (0 < n)%nat -> rectangular n m (tab n m f).
Proof. intros H. split; [exact H|]. split; [apply tab_length|]. intros r; apply tab_row. Qed.
Lemma Matrix_tab n m f : (0 < n)%nat -> Matrix_ (tab n m f) = Ok (mat_of n m f).
Proof. intros H. apply Matrix_rect, tab_rect, H. Qed.

Lemma rect_tab n m (d : list (list R)) :
  rectangular n m d -> d = tab n m (entry d).
Proof.
  intros [H0 [Hl Hr]]. apply nth_ext' with (d := []); [rewrite tab_length; exact Hl|].
  intros i Hi. rewrite tab_nth by lia.
  assert (Hlen : length (nth i d []) = m) by (apply Hr, nth_In, Hi).
  apply nth_ext' with (d := 0); [rewrite map_length, range_length; exact Hlen|].
  intros j Hj. rewrite nth_map_range by lia. reflexivity.
Qed.

Definition wfm (m : matrix R) : Prop := rectangular (m_rows m) (m_cols m) (m_data m).
Lemma is_matrix_wfm m : is_matrix m <-> wfm m.
Proof.
  split.
  - intros [d H]. destruct (Matrix_ok_inv _ _ H) as [Hr Hd]. unfold wfm. rewrite Hd. exact Hr.
  - intros H. exists (m_data m). rewrite (Matrix_rect _ _ _ H). destruct m; reflexivity.
Qed.
Lemma wfm_canon m : wfm m -> m = mat_of (m_rows m) (m_cols m) (mat_at m).
Proof. intros H. unfold mat_of. destruct m as [n k d]; simpl in *. f_equal. apply (rect_tab n k d H). Qed.
Lemma mat_of_wfm n m f : (0 < n)%nat -> wfm (mat_of n m f).
Proof. intros H; exact (tab_rect n m f H). Qed.
Lemma mat_of_ext n m f g :
  (forall i j, (i < n)%nat -> (j < m)%nat -> f i j = g i j) -> mat_of n m f = mat_of n m g.
Proof. intros H; unfold mat_of; f_equal; apply tab_ext, H. Qed.
Lemma mat_of_at n m f i j : (i < n)%nat -> (j < m)%nat -> mat_at (mat_of n m f) i j = f i j.
Proof. apply tab_entry. Qed.
Lemma is_matrix_canon m : is_matrix m ->
  (0 < m_rows m)%nat /\ m = mat_of (m_rows m) (m_cols m) (mat_at m).
Proof. intros H. apply is_matrix_wfm in H. split; [apply H | apply wfm_canon, H]. Qed.
Lemma is_matrix_mat_of n m f : (0 < n)%nat -> is_matrix (mat_of n m f).
Proof. intros H; apply is_matrix_wfm, mat_of_wfm, H. Qed.

Ltac canon m H :=
  let Hp := fresh "Hpos" in let He := fresh "Hcan" in let f := fresh "f" in
  destruct (is_matrix_canon m H) as [Hp He]; rewrite He in *; clear He;
  revert H; generalize (m_rows m) (m_cols m) (mat_at m).

(** sums *)
Lemma sum_below_ext n f g : (forall k, (k < n)%nat -> f k = g k) -> sum_below n f = sum_below n g.
Proof. induction n as [|n IH]; simpl; intros H; [reflexivity|]. rewrite IH, H; auto. Qed.
Lemma Rsum_range n f : Rsum (map f (range n)) = sum_below n f.
Proof.
  induction n as [|n IH]; [reflexivity|]. rewrite range_S, map_app, Rsum_app, IH. simpl. ring.
Qed.
Lemma nsum_range n f : nsum (map f (range n)) = sum_below n f.
Proof. rewrite nsum_Rsum; apply Rsum_range. Qed.
Lemma sum_below_scal n c f : sum_below n (fun k => c * f k) = c * sum_below n f.
Proof. induction n as [|n IH]; simpl; [ring|]. rewrite IH; ring. Qed.
Lemma sum_below_scal_r n c f : sum_below n (fun k => f k * c) = sum_below n f * c.
Proof. induction n as [|n IH]; simpl; [ring|]. rewrite IH; ring. Qed.
Lemma sum_below_plus n f g : sum_below n (fun k => f k + g k) = sum_below n f + sum_below n g.
Proof. induction n as [|n IH]; simpl; [ring|]. rewrite IH; ring. Qed.
Lemma sum_below_zero n : sum_below n (fun _ => 0) = 0.
Proof. induction n as [|n IH]; simpl; [ring|]. rewrite IH; ring. Qed.
Lemma sum_below_swap n m f :
  sum_below n (fun i => sum_below m (fun j => f i j)) = sum_below m (fun j => sum_below n (fun i => f i j)).
Proof.
  induction n as [|n IH]; simpl; [rewrite sum_below_zero; reflexivity|].
  rewrite IH, sum_below_plus. reflexivity.
Qed.
Lemma sum_below_nonneg n f : (forall k, (k < n)%nat -> 0 <= f k) -> 0 <= sum_below n f.
Proof.
  induction n as [|n IH]; simpl; intros H; [lra|].
  assert (0 <= sum_below n f) by (apply IH; auto). assert (0 <= f n) by auto. lra.
Qed.
Lemma sum_below_nonneg_zero n f :
  (forall k, (k < n)%nat -> 0 <= f k) -> sum_below n f = 0 -> forall k, (k < n)%nat -> f k = 0.
Proof.
  induction n as [|n IH]; simpl; intros H H0 k Hk; [lia|].
  assert (Hn : 0 <= f n) by auto.
  assert (Hs : 0 <= sum_below n f) by (apply sum_below_nonneg; auto).
  destruct (Nat.eq_dec k n) as [->|Hne]; [lra|]. apply IH; auto; [lra|lia].
Qed.
Lemma sum_below_delta n f j : (j < n)%nat -> sum_below n (fun k => delta j k * f k) = f j.
Proof.
  induction n as [|n IH]; simpl; intros H; [lia|]. unfold delta at 2.
  destruct (Nat.eq_dec j n) as [->|Hne].
  - rewrite Nat.eqb_refl. rewrite (sum_below_ext n _ (fun _ => 0)).
    + rewrite sum_below_zero; ring.
    + intros k Hk. unfold delta. replace (Nat.eqb n k) with false by (symmetry; apply Nat.eqb_neq; lia). ring.
  - replace (Nat.eqb j n) with false by (symmetry; apply Nat.eqb_neq; lia). rewrite IH by lia. ring.
Qed.

(** ** Element access *)
Lemma Vector_get_in (v : vector R) i : (i < length v)%nat -> Vector_get v (Z.of_nat i) = Ok (nth i v 0).
Proof.
  intros H. unfold Vector_get.
  replace ((Z.of_nat i <? 0)%Z || (Z.of_nat (length v) <=? Z.of_nat i)%Z)%bool with false.
  - rewrite py_index_nat. apply py_nth_nth, H.
  - symmetry. apply orb_false_iff; split; [apply Z.ltb_ge; lia | apply Z.leb_gt; lia].
Qed.
Lemma Vector_get_out (v : vector R) i :
  (i < 0 \/ Z.of_nat (length v) <= i)%Z -> Vector_get v i = Err IndexError.
Proof.
  intros H. unfold Vector_get.
  replace ((i <? 0)%Z || (Z.of_nat (length v) <=? i)%Z)%bool with true; [reflexivity|].
  symmetry. apply orb_true_iff. rewrite Z.ltb_lt, Z.leb_le. exact H.
Qed.
Lemma Matrix_get_in m i j : wfm m -> (i < m_rows m)%nat -> (j < m_cols m)%nat ->
  Matrix_get m (Z.of_nat i) (Z.of_nat j) = Ok (mat_at m i j).
Proof.
  intros [H0 [Hl Hr]] Hi Hj. unfold Matrix_get.
  replace ((Z.of_nat i <? 0)%Z || (Z.of_nat (m_rows m) <=? Z.of_nat i)%Z)%bool with false
    by (symmetry; apply orb_false_iff; split; [apply Z.ltb_ge; lia | apply Z.leb_gt; lia]).
  replace ((Z.of_nat j <? 0)%Z || (Z.of_nat (m_cols m) <=? Z.of_nat j)%Z)%bool with false
    by (symmetry; apply orb_false_iff; split; [apply Z.ltb_ge; lia | apply Z.leb_gt; lia]).
  rewrite !py_index_nat. rewrite (py_nth_nth _ _ []) by lia. simpl.
  rewrite py_index_nat. apply py_nth_nth. rewrite Hr; [exact Hj|]. apply nth_In. lia.
Qed.
Lemma Matrix_get_out (m : matrix R) i j :
  (i < 0 \/ Z.of_nat (m_rows m) <= i \/ j < 0 \/ Z.of_nat (m_cols m) <= j)%Z ->
  Matrix_get m i j = Err IndexError.
Proof.
  intros H. unfold Matrix_get.
  destruct ((i <? 0)%Z || (Z.of_nat (m_rows m) <=? i)%Z)%bool eqn:E1; [reflexivity|].
  replace ((j <? 0)%Z || (Z.of_nat (m_cols m) <=? j)%Z)%bool with true; [reflexivity|].
  symmetry. apply orb_true_iff. rewrite Z.ltb_lt, Z.leb_le.
  apply orb_false_iff in E1 as [E1 E2]. apply Z.ltb_ge in E1. apply Z.leb_gt in E2. lia.
Qed.
Lemma has_entries_mat_of n m f : (0 < n)%nat -> has_entries (mat_of n m f) n m f.
Proof.
  intros H. split; [reflexivity|]. intros i j Hi Hj.
  rewrite Matrix_get_in; [rewrite mat_of_at by assumption; reflexivity | apply mat_of_wfm, H | exact Hi | exact Hj].
Qed.
Lemma has_entries_mat_at m n k f : is_matrix m -> has_entries m n k f -> m = mat_of n k f.
Proof.
  intros Hm [Hs Hf]. apply is_matrix_wfm in Hm as Hw. injection Hs as <- <-.
  rewrite (wfm_canon m Hw) at 1. apply mat_of_ext. intros i j Hi Hj.
  specialize (Hf i j Hi Hj). rewrite Matrix_get_in in Hf by assumption. congruence.
Qed.

(** ** Operations on canonical matrices *)
Lemma matmul_of n k m f g : (0 < n)%nat ->
  Matrix_matmul (mat_of n k f) (mat_of k m g) =
  Ok (mat_of n m (fun i j => sum_below k (fun l => f i l * g l j))).
Proof.
  intros Hn. unfold Matrix_matmul. simpl m_cols; simpl m_rows. rewrite Nat.eqb_refl.
  rewrite <- Matrix_tab by exact Hn. f_equal. unfold tab.
  apply map_ext_in; intros i Hi. apply map_ext_in; intros j Hj. apply in_range in Hi, Hj.
  rewrite nsum_range. apply sum_below_ext. intros l Hl. simpl.
  rewrite !tab_entry by assumption. reflexivity.
Qed.
Lemma matmul_shape_err (a b : matrix R) : m_cols a <> m_rows b -> Matrix_matmul a b = Err ValueError.
Proof. intros H. unfold Matrix_matmul. apply Nat.eqb_neq in H. rewrite H. reflexivity. Qed.
Lemma transpose_of n m f : (0 < m)%nat ->
  Matrix_transpose (mat_of n m f) = Ok (mat_of m n (fun i j => f j i)).
Proof.
  intros H. unfold Matrix_transpose. simpl m_rows; simpl m_cols. rewrite <- Matrix_tab by exact H.
  f_equal. unfold tab at 1. apply map_ext_in; intros i Hi. apply map_ext_in; intros j Hj. apply in_range in Hi, Hj.
  simpl. apply tab_entry; assumption.
Qed.
Lemma dot_of n m f (v : vector R) : length v = m ->
  Matrix_dot (mat_of n m f) v = Ok (map (fun i => sum_below m (fun j => f i j * nth j v 0)) (range n)).
Proof.
  intros H. unfold Matrix_dot. simpl m_cols; simpl m_rows. rewrite H, Nat.eqb_refl.
  apply mapM_map. intros i Hi. apply in_range in Hi.
  rewrite (mapM_map _ (fun j => f i j * nth j v 0)).
  - simpl. rewrite nsum_range. reflexivity.
  - intros j Hj. apply in_range in Hj. rewrite Vector_get_in by lia. simpl.
    rewrite tab_entry by assumption. reflexivity.
Qed.
Lemma map_map_tab (h : R -> R) n m f : map (map h) (tab n m f) = tab n m (fun i j => h (f i j)).
Proof. unfold tab. rewrite map_map. apply map_ext. intros i. rewrite map_map. reflexivity. Qed.
Lemma combine_map2 {A B C} (f : A -> B) (g : A -> C) l : combine (map f l) (map g l) = map (fun x => (f x, g x)) l.
Proof. induction l as [|x xs IH]; simpl; [reflexivity|]. rewrite IH; reflexivity. Qed.
Lemma zip_rows_tab h n m f g : zip_rows h (tab n m f) (tab n m g) = tab n m (fun i j => h (f i j) (g i j)).
Proof.
  unfold zip_rows, tab, zip. rewrite combine_map2, map_map. apply map_ext. intros i.
  rewrite combine_map2, map_map. reflexivity.
Qed.
Lemma shape_eqb_spec (a b : matrix R) : shape_eqb a b = true <-> m_shape a = m_shape b.
Proof.
  unfold shape_eqb, m_shape. rewrite andb_true_iff, !Nat.eqb_eq.
  split; [intros [-> ->]; reflexivity | intros [= -> ->]; auto].
Qed.
Lemma shape_eqb_of n m f g : shape_eqb (mat_of n m f) (mat_of n m g) = true.
Proof. apply shape_eqb_spec; reflexivity. Qed.
Lemma shape_eqb_neq (a b : matrix R) : m_shape a <> m_shape b -> shape_eqb a b = false.
Proof. intros H. destruct (shape_eqb a b) eqn:E; [apply shape_eqb_spec in E; contradiction | reflexivity]. Qed.
Lemma add_of n m f g : (0 < n)%nat ->
  Matrix_add (mat_of n m f) (mat_of n m g) = Ok (mat_of n m (fun i j => f i j + g i j)).
Proof. intros H. unfold Matrix_add. rewrite shape_eqb_of. simpl. rewrite zip_rows_tab. apply Matrix_tab, H. Qed.
Lemma sub_of n m f g : (0 < n)%nat ->
  Matrix_sub (mat_of n m f) (mat_of n m g) = Ok (mat_of n m (fun i j => f i j - g i j)).
Proof. intros H. unfold Matrix_sub. rewrite shape_eqb_of. simpl. rewrite zip_rows_tab. apply Matrix_tab, H. Qed.
Lemma mul_of n m f s : (0 < n)%nat -> Matrix_mul (mat_of n m f) s = Ok (mat_of n m (fun i j => f i j * s)).
Proof. intros H. unfold Matrix_mul. simpl. rewrite map_map_tab. apply Matrix_tab, H. Qed.
Lemma neg_of n m f : (0 < n)%nat -> Matrix_neg (mat_of n m f) = Ok (mat_of n m (fun i j => - f i j)).
Proof. intros H. unfold Matrix_neg. simpl. rewrite map_map_tab. apply Matrix_tab, H. Qed.
Lemma mapM_ndiv_row (l : list R) d : d <> 0 -> mapM (fun x => ndiv x d) l = Ok (map (fun x => x / d) l).
Proof. intros H. apply mapM_map. intros x _. apply ndiv_R, H. Qed.
Lemma div_of n m f d : (0 < n)%nat -> d <> 0 -> Matrix_div (mat_of n m f) d = Ok (mat_of n m (fun i j => f i j / d)).
Proof.
  intros H Hd. unfold Matrix_div. simpl m_data. rewrite (mapM_map _ (map (fun x => x / d))).
  - unfold bind. rewrite map_map_tab. apply Matrix_tab, H.
  - intros r _. apply mapM_ndiv_row, Hd.
Qed.
Lemma Rsum_concat_tab n m f : Rsum (concat (tab n m f)) = sum_below n (fun i => sum_below m (f i)).
Proof.
  rewrite Rsum_concat. unfold tab. rewrite map_map, Rsum_range. apply sum_below_ext.
  intros i _. rewrite Rsum_range. reflexivity.
Qed.
Lemma scalar_product_of n m f g :
  Matrix_scalar_product (mat_of n m f) (mat_of n m g) =
  Ok (sum_below n (fun i => sum_below m (fun j => f i j * g i j))).
Proof.
  unfold Matrix_scalar_product. rewrite shape_eqb_of. simpl m_data.
  rewrite zip_rows_tab, nsum_Rsum, Rsum_concat_tab. reflexivity.
Qed.
Lemma normsqr_of n m f : Matrix_normsqr (mat_of n m f) = sum_below n (fun i => sum_below m (fun j => f i j * f i j)).
Proof.
  unfold Matrix_normsqr. simpl m_data. rewrite concat_map, map_map_tab, nsum_Rsum, Rsum_concat_tab. reflexivity.
Qed.
Lemma trace_of n f : Matrix_trace (mat_of n n f) = sum_below n (fun i => f i i).
Proof.
  unfold Matrix_trace. simpl m_rows; simpl m_cols. rewrite Nat.min_id, nsum_range.
  apply sum_below_ext. intros i Hi. apply tab_entry; assumption.
Qed.

(** ** Products *)
Lemma matmul_assoc_of k l (f g h : nat -> nat -> R) i j :
  sum_below l (fun q => sum_below k (fun p => f i p * g p q) * h q j) =
  sum_below k (fun p => f i p * sum_below l (fun q => g p q * h q j)).
Proof.
  rewrite (sum_below_ext l _ (fun q => sum_below k (fun p => f i p * g p q * h q j)))
    by (intros q _; rewrite sum_below_scal_r; reflexivity).
  rewrite sum_below_swap. apply sum_below_ext. intros p _.
  rewrite <- sum_below_scal. apply sum_below_ext. intros q _. ring.
Qed.

(** ** flatten / reshape *)
Lemma concat_rect_nth {A} (c : nat) (d : list (list A)) i j x0 :
  (forall r, In r d -> length r = c) -> (i < length d)%nat -> (j < c)%nat ->
  nth (i * c + j) (concat d) x0 = nth j (nth i d []) x0.
Proof.
  revert i; induction d as [|r d IH]; intros i Hr Hi Hj; simpl in Hi; [lia|].
  assert (Hlr : length r = c) by (apply Hr; left; reflexivity). simpl concat.
  destruct i as [|i]; simpl nth.
  - rewrite app_nth1 by lia. reflexivity.
  - rewrite app_nth2 by (rewrite Hlr; lia). replace (c + i * c + j - length r)%nat with (i * c + j)%nat by lia.
    apply IH; [intros r' H'; apply Hr; right; exact H' | lia | exact Hj].
Qed.
Lemma concat_rect_length {A} (c : nat) (d : list (list A)) :
  (forall r, In r d -> length r = c) -> length (concat d) = (length d * c)%nat.
Proof.
  induction d as [|r d IH]; intros Hr; simpl; [reflexivity|]. rewrite app_length, IH.
  - rewrite (Hr r) by (left; reflexivity). reflexivity.
  - intros r' H'; apply Hr; right; exact H'.
Qed.
Lemma reshape_ok (v : vector R) (nr nc : nat) : (0 < nr)%nat -> length v = (nr * nc)%nat ->
  Vector_reshape v (Z.of_nat nr) (Z.of_nat nc) = Ok (mat_of nr nc (fun i j => nth (i * nc + j) v 0)).
Proof.
  intros H0 Hl. unfold Vector_reshape.
  replace (Z.of_nat (length v) =? Z.of_nat nr * Z.of_nat nc)%Z with true by (symmetry; apply Z.eqb_eq; lia).
  rewrite !Nat2Z.id. rewrite (mapM_map _ (fun i => map (fun j => nth (i * nc + j) v 0) (range nc))).
  - apply Matrix_tab, H0.
  - intros i Hi. apply in_range in Hi. apply mapM_map. intros j Hj. apply in_range in Hj.
    apply py_nth_nth. rewrite Hl. nia.
Qed.
Lemma flatten_reshape_of nr nc (v : vector R) : length v = (nr * nc)%nat ->
  Matrix_flatten (mat_of nr nc (fun i j => nth (i * nc + j) v 0)) = v.
Proof.
  intros Hl. unfold Matrix_flatten. simpl m_data.
  assert (Hlen : length (concat (tab nr nc (fun i j => nth (i * nc + j) v 0))) = length v).
  { rewrite (concat_rect_length nc) by apply tab_row. rewrite tab_length. lia. }
  apply nth_ext' with (d := 0); [exact Hlen|]. intros p Hp. rewrite Hlen, Hl in Hp.
  assert (Hnc : (0 < nc)%nat) by (destruct nc; lia).
  pose proof (Nat.div_mod p nc ltac:(lia)) as Hdm.
  pose proof (Nat.mod_upper_bound p nc ltac:(lia)) as Hm.
  assert (Hq : (p / nc < nr)%nat) by (apply Nat.div_lt_upper_bound; lia).
  assert (Hp' : (p = p / nc * nc + p mod nc)%nat) by lia.
  rewrite Hp' at 1. rewrite concat_rect_nth; [|apply tab_row | rewrite tab_length; exact Hq | exact Hm].
  etransitivity; [exact (tab_entry nr nc (fun i j => nth (i * nc + j) v 0) _ _ Hq Hm)|].
  cbv beta. f_equal. lia.
Qed.
Lemma flatten_of_nth n m f i j : (i < n)%nat -> (j < m)%nat ->
  nth (i * m + j) (Matrix_flatten (mat_of n m f)) 0 = f i j.
Proof.
  intros Hi Hj. unfold Matrix_flatten. simpl m_data.
  rewrite concat_rect_nth; [|apply tab_row | rewrite tab_length; exact Hi | exact Hj].
  exact (tab_entry n m f i j Hi Hj).
Qed.
Lemma flatten_of_length n m f : length (Matrix_flatten (mat_of n m f)) = (n * m)%nat.
Proof. unfold Matrix_flatten. simpl m_data. rewrite (concat_rect_length m) by apply tab_row. rewrite tab_length; reflexivity. Qed.

(** ** Cauchy-Schwarz *)
Lemma Rsum_sq_nonneg {A} (f : A -> R) l : 0 <= Rsum (map (fun x => f x * f x) l).
Proof. apply Rsum_nonneg. intros y Hy. apply in_map_iff in Hy as [x [<- _]]. nra. Qed.
Lemma cauchy_schwarz {A} (f g : A -> R) l :
  Rsum (map (fun x => f x * g x) l) * Rsum (map (fun x => f x * g x) l) <=
  Rsum (map (fun x => f x * f x) l) * Rsum (map (fun x => g x * g x) l).
Proof.
  set (a := Rsum (map (fun x => f x * f x) l)). set (b := Rsum (map (fun x => f x * g x) l)).
  set (c := Rsum (map (fun x => g x * g x) l)).
  assert (H : forall s t, 0 <= s * s * a + 2 * s * t * b + t * t * c).
  { intros s t. pose proof (Rsum_sq_nonneg (fun x => s * f x + t * g x) l) as H. cbv beta in H.
    replace (Rsum (map (fun x => (s * f x + t * g x) * (s * f x + t * g x)) l))
      with (s * s * a + 2 * s * t * b + t * t * c) in H; [exact H|].
    unfold a, b, c. rewrite <- !Rsum_map_scal, <- !Rsum_map_plus. apply Rsum_map_ext. intros x _. ring. }
  assert (Ha : 0 <= a) by apply Rsum_sq_nonneg. assert (Hc : 0 <= c) by apply Rsum_sq_nonneg.
  destruct (Req_dec c 0) as [Hc0|Hc0].
  - destruct (Req_dec b 0) as [Hb|Hb]; [rewrite Hb, Hc0; lra|].
    pose proof (H 1 (- (a + 1) / (2 * b))) as H1. exfalso.
    replace (1 * 1 * a + 2 * 1 * (- (a + 1) / (2 * b)) * b + - (a + 1) / (2 * b) * (- (a + 1) / (2 * b)) * c)
      with (-1) in H1 by (rewrite Hc0; field; exact Hb). lra.
  - pose proof (H c (- b)) as H1. assert (0 < c) by lra. nra.
Qed.

(** ** 3-d tensors *)
Lemma Tensor3D_rect {A} d0 d1 d2 (data : list (list (list A))) :
  rectangular3 d0 d1 d2 data -> Tensor3D_ data = Ok (mkTensor3 d0 d1 d2 data).
Proof.
  intros [H0 [H1 [Hl Hm]]]. destruct data as [|m0 ms]; [simpl in Hl; lia|].
  destruct (Hm m0 (or_introl eq_refl)) as [Hm0 Hr0]. destruct m0 as [|r0 rs]; [simpl in Hm0; lia|].
  assert (Hr00 : length r0 = d2) by (apply Hr0; left; reflexivity). unfold Tensor3D_.
  replace (forallb _ _) with true.
  - rewrite <- Hl, <- Hm0, <- Hr00. reflexivity.
  - symmetry. apply forallb_forall. intros m Hin. destruct (Hm m Hin) as [Hm1 Hm2].
    apply andb_true_iff; split; [apply Nat.eqb_eq; congruence|].
    apply forallb_forall. intros r Hr. apply Nat.eqb_eq. rewrite Hr00. apply Hm2, Hr.
Qed.
Lemma Tensor3D_ok_inv {A} (data : list (list (list A))) t :
  Tensor3D_ data = Ok t -> rectangular3 (t_d0 t) (t_d1 t) (t_d2 t) data /\ t_data t = data.
Proof.
  destruct data as [|m0 ms]; [discriminate|]. destruct m0 as [|r0 rs]; [discriminate|]. unfold Tensor3D_.
  destruct (forallb _ _) eqn:E; [|discriminate]. intros [= <-]. cbn [t_d0 t_d1 t_d2 t_data].
  split; [|reflexivity]. split; [simpl; lia|]. split; [simpl; lia|]. split; [reflexivity|].
  intros m Hm. rewrite forallb_forall in E. specialize (E m Hm). apply andb_true_iff in E as [E1 E2].
  split; [apply Nat.eqb_eq, E1|]. rewrite forallb_forall in E2. intros r Hr. apply Nat.eqb_eq, E2, Hr.
Qed.

Lemma has_entries_of n m f g : (0 < n)%nat -> (forall i j, (i < n)%nat -> (j < m)%nat -> f i j = g i j) ->
  has_entries (mat_of n m f) n m g.
Proof. intros H He. rewrite (mat_of_ext n m f g He). apply has_entries_mat_of, H. Qed.
Lemma det2_of f : Matrix_det (mat_of 2 2 f) = Ok (f 0%nat 0%nat * f 1%nat 1%nat - f 0%nat 1%nat * f 1%nat 0%nat).
Proof. unfold Matrix_det. simpl. f_equal. unfold det_prod, entry, sign. simpl. ring. Qed.
Lemma inverse_of f : f 0%nat 0%nat * f 1%nat 1%nat - f 0%nat 1%nat * f 1%nat 0%nat <> 0 ->
  let d := f 0%nat 0%nat * f 1%nat 1%nat - f 0%nat 1%nat * f 1%nat 0%nat in
  inverse_2x2 (mat_of 2 2 f) =
  Ok (mat_of 2 2 (fun i j => entry [[f 1%nat 1%nat; - f 0%nat 1%nat]; [- f 1%nat 0%nat; f 0%nat 0%nat]] i j / d)).
Proof.
  intros Hd d. assert (Hg : forall i j, (i < 2)%nat -> (j < 2)%nat ->
    Matrix_get (mat_of 2 2 f) (Z.of_nat i) (Z.of_nat j) = Ok (f i j)).
  { intros i j Hi Hj. apply has_entries_mat_of; lia. }
  unfold inverse_2x2. cbn [m_rows m_cols mat_of Nat.eqb andb]. fold (mat_of 2 2 f).
  change 1%Z with (Z.of_nat 1). change 0%Z with (Z.of_nat 0).
  rewrite !Hg by lia. unfold bind at 1 2 3 4. cbn [nopp RNum].
  rewrite (Matrix_rect 2 2) by (split; [lia|]; split; [reflexivity|]; intros r [<-|[<-|[]]]; reflexivity).
  unfold bind. rewrite det2_of. fold d. rewrite <- div_of by (lia || exact Hd). reflexivity.
Qed.
Lemma inverse_singular_of f : f 0%nat 0%nat * f 1%nat 1%nat - f 0%nat 1%nat * f 1%nat 0%nat = 0 ->
  inverse_2x2 (mat_of 2 2 f) = Err ZeroDivisionError.
Proof.
  intros Hd. assert (Hg : forall i j, (i < 2)%nat -> (j < 2)%nat ->
    Matrix_get (mat_of 2 2 f) (Z.of_nat i) (Z.of_nat j) = Ok (f i j)).
  { intros i j Hi Hj. apply has_entries_mat_of; lia. }
  unfold inverse_2x2. cbn [m_rows m_cols mat_of Nat.eqb andb]. fold (mat_of 2 2 f).
  change 1%Z with (Z.of_nat 1). change 0%Z with (Z.of_nat 0).
  rewrite !Hg by lia. unfold bind at 1 2 3 4. cbn [nopp RNum].
  rewrite (Matrix_rect 2 2) by (split; [lia|]; split; [reflexivity|]; intros r [<-|[<-|[]]]; reflexivity).
  unfold bind. rewrite det2_of, Hd. unfold Matrix_div. cbn [m_data mapM]. rewrite ndiv_R0. reflexivity.
Qed.

(** vectors *)
Lemma combine_nth_map (h : R -> R -> R) (v w : list R) i : length v = length w -> (i < length v)%nat ->
  nth i (map (fun '(x, y) => h x y) (combine v w)) 0 = h (nth i v 0) (nth i w 0).
Proof.
  intros Hl Hi. rewrite (nth_map_in _ _ _ (0, 0)) by (rewrite combine_length; lia).
  rewrite combine_nth by exact Hl. reflexivity.
Qed.
Lemma Vector_add_ok v w : length v = length w ->
  Vector_add v w = Ok (map (fun i => nth i v 0 + nth i w 0) (range (length v))).
Proof.
  intros H. unfold Vector_add. rewrite H, Nat.eqb_refl. f_equal. rewrite <- H.
  apply nth_ext' with (d := 0); [unfold zip; rewrite !map_length, combine_length, range_length; lia|].
  intros i Hi. unfold zip in *. rewrite map_length, combine_length in Hi.
  rewrite combine_nth_map by lia. rewrite nth_map_range by lia. reflexivity.
Qed.
Lemma Vector_sub_ok v w : length v = length w ->
  Vector_sub v w = Ok (map (fun i => nth i v 0 - nth i w 0) (range (length v))).
Proof.
  intros H. unfold Vector_sub. rewrite H, Nat.eqb_refl. f_equal. rewrite <- H.
  apply nth_ext' with (d := 0); [unfold zip; rewrite !map_length, combine_length, range_length; lia|].
  intros i Hi. unfold zip in *. rewrite map_length, combine_length in Hi.
  rewrite combine_nth_map by lia. rewrite nth_map_range by lia. reflexivity.
Qed.
Lemma Vector_dot_ok v w : length v = length w -> Vector_dot v w = sum_below (length v) (fun i => nth i v 0 * nth i w 0).
Proof.
  intros H. unfold Vector_dot. rewrite nsum_Rsum, <- Rsum_range. f_equal.
  apply nth_ext' with (d := 0); [unfold zip; rewrite !map_length, combine_length, range_length; lia|].
  intros i Hi. unfold zip in *. rewrite map_length, combine_length in Hi.
  rewrite combine_nth_map by lia. rewrite nth_map_range by lia. reflexivity.
Qed.
Lemma Vector_normsqr_ok v : Vector_normsqr v = sum_below (length v) (fun i => nth i v 0 * nth i v 0).
Proof.
  unfold Vector_normsqr. rewrite nsum_Rsum, <- Rsum_range. f_equal.
  rewrite <- (map_range_nth v 0) at 1. rewrite map_map. reflexivity.
Qed.
Lemma Vector_dot_firstn (v w : vector R) :
  Vector_dot v w = Vector_dot (firstn (Nat.min (length v) (length w)) v) (firstn (Nat.min (length v) (length w)) w).
Proof.
  unfold Vector_dot, zip. do 2 f_equal. revert w. induction v as [|x v IH]; intros [|y w]; simpl; try reflexivity.
  rewrite IH at 1. reflexivity.
Qed.
Lemma list_eqb_spec (v w : list R) : list_eqb v w = true <-> v = w.
Proof.
  revert w; induction v as [|x v IH]; intros [|y w]; simpl; split; intros H; try discriminate; try reflexivity.
  - apply andb_true_iff in H as [H1 H2]. apply Reqb_true in H1. apply IH in H2. congruence.
  - injection H as <- <-. apply andb_true_iff; split; [apply Reqb_true; reflexivity | apply IH; reflexivity].
Qed.
Lemma rows_eqb_spec (v w : list (list R)) : rows_eqb v w = true <-> v = w.
Proof.
  revert w; induction v as [|x v IH]; intros [|y w]; simpl; split; intros H; try discriminate; try reflexivity.
  - apply andb_true_iff in H as [H1 H2]. apply list_eqb_spec in H1. apply IH in H2. congruence.
  - injection H as <- <-. apply andb_true_iff; split; [apply list_eqb_spec; reflexivity | apply IH; reflexivity].
Qed.
Lemma py_index_neg {A} (l : list A) i d : (- Z.of_nat (length l) <= i < 0)%Z ->
  py_index l i = Ok (nth (Z.to_nat (Z.of_nat (length l) + i)) l d).
Proof.
  intros H. unfold py_index. replace (i <? 0)%Z with true by (symmetry; apply Z.ltb_lt; lia).
  replace (Z.of_nat (length l) + i <? 0)%Z with false by (symmetry; apply Z.ltb_ge; lia).
  rewrite (nth_error_nth' l d) by lia. reflexivity.
Qed.
Lemma py_index_out {A} (l : list A) i : (i < - Z.of_nat (length l) \/ Z.of_nat (length l) <= i)%Z ->
  py_index l i = Err IndexError.
Proof.
  intros H. unfold py_index. destruct (Z.ltb_spec i 0).
  - replace (Z.of_nat (length l) + i <? 0)%Z with true by (symmetry; apply Z.ltb_lt; lia). reflexivity.
  - replace (i <? 0)%Z with false by (symmetry; apply Z.ltb_ge; lia).
    rewrite (proj2 (nth_error_None l (Z.to_nat i))) by lia. reflexivity.
Qed.
Lemma py_index_in {A} (l : list A) i d : (0 <= i < Z.of_nat (length l))%Z ->
  py_index l i = Ok (nth (Z.to_nat i) l d).
Proof. intros H. rewrite py_index_nonneg by lia. apply py_nth_nth. lia. Qed.

(** The same for an arbitrary constructed matrix. *)
Lemma matmul_ok a b : is_matrix a -> is_matrix b -> m_cols a = m_rows b ->
  Matrix_matmul a b = Ok (mat_of (m_rows a) (m_cols b) (fun i j => sum_below (m_cols a) (fun l => mat_at a i l * mat_at b l j))).
Proof.
  intros Ha Hb H. destruct (is_matrix_canon a Ha) as [Hp Hca]. destruct (is_matrix_canon b Hb) as [Hp' Hcb].
  rewrite <- H in Hcb. etransitivity; [|exact (matmul_of (m_rows a) (m_cols a) (m_cols b) (mat_at a) (mat_at b) Hp)].
  rewrite <- Hca, <- Hcb. reflexivity.
Qed.
Lemma matmul_ok_shape a b c : Matrix_matmul a b = Ok c -> @m_cols R a = @m_rows R b.
Proof. intros H. destruct (Nat.eq_dec (m_cols a) (m_rows b)); [assumption | rewrite matmul_shape_err in H by assumption; discriminate]. Qed.
Lemma transpose_ok a : is_matrix a -> (0 < m_cols a)%nat ->
  Matrix_transpose a = Ok (mat_of (m_cols a) (m_rows a) (fun i j => mat_at a j i)).
Proof.
  intros Ha H. destruct (is_matrix_canon a Ha) as [Hp Hca].
  etransitivity; [|exact (transpose_of (m_rows a) (m_cols a) (mat_at a) H)]. rewrite <- Hca. reflexivity.
Qed.
Lemma transpose_ok_cols a t : Matrix_transpose a = Ok t -> (0 < @m_cols R a)%nat.
Proof. intros H. unfold Matrix_transpose in H. destruct (m_cols a); [discriminate|lia]. Qed.
Lemma dot_ok a v : is_matrix a -> length v = m_cols a ->
  Matrix_dot a v = Ok (map (fun i => sum_below (m_cols a) (fun j => mat_at a i j * nth j v 0)) (range (m_rows a))).
Proof.
  intros Ha H. destruct (is_matrix_canon a Ha) as [Hp Hca].
  etransitivity; [|exact (dot_of (m_rows a) (m_cols a) (mat_at a) v H)]. rewrite <- Hca. reflexivity.
Qed.
Lemma canon_shape a b : is_matrix a -> is_matrix b -> m_shape a = m_shape b ->
  (0 < m_rows a)%nat /\ mat_of (m_rows a) (m_cols a) (mat_at a) = a /\ mat_of (m_rows a) (m_cols a) (mat_at b) = b.
Proof.
  intros Ha Hb Hs. destruct (is_matrix_canon a Ha) as [Hp Hca]. destruct (is_matrix_canon b Hb) as [Hp' Hcb].
  injection Hs as Hr Hk. rewrite <- Hr, <- Hk in Hcb. auto.
Qed.
Lemma add_ok a b : is_matrix a -> is_matrix b -> m_shape a = m_shape b ->
  Matrix_add a b = Ok (mat_of (m_rows a) (m_cols a) (fun i j => mat_at a i j + mat_at b i j)).
Proof.
  intros Ha Hb Hs. destruct (canon_shape a b Ha Hb Hs) as [Hp [Ea Eb]].
  etransitivity; [|exact (add_of (m_rows a) (m_cols a) (mat_at a) (mat_at b) Hp)]. rewrite Ea, Eb. reflexivity.
Qed.
Lemma sub_ok a b : is_matrix a -> is_matrix b -> m_shape a = m_shape b ->
  Matrix_sub a b = Ok (mat_of (m_rows a) (m_cols a) (fun i j => mat_at a i j - mat_at b i j)).
Proof.
  intros Ha Hb Hs. destruct (canon_shape a b Ha Hb Hs) as [Hp [Ea Eb]].
  etransitivity; [|exact (sub_of (m_rows a) (m_cols a) (mat_at a) (mat_at b) Hp)]. rewrite Ea, Eb. reflexivity.
Qed.
Lemma scalar_product_ok a b : is_matrix a -> is_matrix b -> m_shape a = m_shape b ->
  Matrix_scalar_product a b = Ok (sum_below (m_rows a) (fun i => sum_below (m_cols a) (fun j => mat_at a i j * mat_at b i j))).
Proof.
  intros Ha Hb Hs. destruct (canon_shape a b Ha Hb Hs) as [Hp [Ea Eb]].
  etransitivity; [|exact (scalar_product_of (m_rows a) (m_cols a) (mat_at a) (mat_at b))]. rewrite Ea, Eb. reflexivity.
Qed.
Lemma normsqr_ok a : is_matrix a ->
  Matrix_normsqr a = sum_below (m_rows a) (fun i => sum_below (m_cols a) (fun j => mat_at a i j * mat_at a i j)).
Proof.
  intros Ha. destruct (is_matrix_canon a Ha) as [Hp Ea].
  etransitivity; [|exact (normsqr_of (m_rows a) (m_cols a) (mat_at a))]. rewrite <- Ea. reflexivity.
Qed.
Lemma mul_ok a s : is_matrix a -> Matrix_mul a s = Ok (mat_of (m_rows a) (m_cols a) (fun i j => mat_at a i j * s)).
Proof.
  intros Ha. destruct (is_matrix_canon a Ha) as [Hp Ea].
  etransitivity; [|exact (mul_of (m_rows a) (m_cols a) (mat_at a) s Hp)]. rewrite <- Ea. reflexivity.
Qed.
Lemma neg_ok a : is_matrix a -> Matrix_neg a = Ok (mat_of (m_rows a) (m_cols a) (fun i j => - mat_at a i j)).
Proof.
  intros Ha. destruct (is_matrix_canon a Ha) as [Hp Ea].
  etransitivity; [|exact (neg_of (m_rows a) (m_cols a) (mat_at a) Hp)]. rewrite <- Ea. reflexivity.
Qed.
Lemma div_ok a s : is_matrix a -> s <> 0 -> Matrix_div a s = Ok (mat_of (m_rows a) (m_cols a) (fun i j => mat_at a i j / s)).
Proof.
  intros Ha Hs. destruct (is_matrix_canon a Ha) as [Hp Ea].
  etransitivity; [|exact (div_of (m_rows a) (m_cols a) (mat_at a) s Hp Hs)]. rewrite <- Ea. reflexivity.
Qed.
Lemma mat_of_inj_at n m f g : mat_of n m f = mat_of n m g -> forall i j, (i < n)%nat -> (j < m)%nat -> f i j = g i j.
Proof. intros H i j Hi Hj. rewrite <- (mat_of_at n m f), H, mat_of_at by assumption. reflexivity. Qed.
