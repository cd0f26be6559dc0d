(** * C73: arithmetic of Tensor3D.  Vocabulary: Spec/TensorSpec.v. *)
From Coq Require Import Reals Lra Lia.
From Verif.Model Require Import Py Num Tensors.
From Verif.Spec Require Import TensorSpec.
From Verif.Proofs Require Import Lib TensorsP.
Local Open Scope R_scope.

(** [t] has the given shape and entries, as read by the user with [t[i, j, k]]. *)
Definition has_entries3 (t : tensor3 R) (d0 d1 d2 : nat) (f : nat -> nat -> nat -> R) : Prop :=
  t_shape t = (d0, d1, d2) /\
  forall i j k, (i < d0)%nat -> (j < d1)%nat -> (k < d2)%nat -> Tensor3D_get t (Z.of_nat i) (Z.of_nat j) (Z.of_nat k) = Ok (f i j k).

Definition tab3 (a b c : nat) (f : nat -> nat -> nat -> R) : list (list (list R)) := map (fun i => tab b c (f i)) (range a).
Definition ten_of a b c f : tensor3 R := mkTensor3 a b c (tab3 a b c f).
Lemma Tensor3D_tab a b c f : (0 < a)%nat -> (0 < b)%nat -> Tensor3D_ (tab3 a b c f) = Ok (ten_of a b c f).
Proof.
  intros Ha Hb. apply Tensor3D_rect. split; [exact Ha|]. split; [exact Hb|]. split; [unfold tab3; rewrite map_length, range_length; reflexivity|].
  intros m Hm. apply in_map_iff in Hm as [i [<- _]]. unfold tab. split; [rewrite map_length, range_length; reflexivity|].
  intros r Hr. apply in_map_iff in Hr as [j [<- _]]. rewrite map_length, range_length. reflexivity.
Qed.
Lemma is_tensor_canon t : is_tensor3 t -> (0 < t_d0 t)%nat /\ (0 < t_d1 t)%nat /\
  t = ten_of (t_d0 t) (t_d1 t) (t_d2 t) (fun i j k => nth k (nth j (nth i (t_data t) []) []) 0).
Proof.
  intros [data H]. destruct (Tensor3D_ok_inv _ _ H) as [[H0 [H1 [Hl Hm]]] Hd]. split; [exact H0|]. split; [exact H1|].
  destruct t as [a b c d]. cbn [t_d0 t_d1 t_d2 t_data] in *. subst d. unfold ten_of. f_equal. unfold tab3.
  rewrite <- (map_range_nth data []) at 1. rewrite Hl. apply map_ext_in. intros i Hi. apply in_range in Hi.
  destruct (Hm (nth i data [])) as [Hb Hc]; [apply nth_In; lia|]. unfold tab. rewrite <- (map_range_nth (nth i data []) []) at 1. rewrite Hb. apply map_ext_in. intros j Hj. apply in_range in Hj.
  rewrite <- (map_range_nth (nth j (nth i data []) []) 0) at 1. rewrite Hc by (apply nth_In; lia). reflexivity.
Qed.
Lemma ten_get a b c f i j k : (i < a)%nat -> (j < b)%nat -> (k < c)%nat -> Tensor3D_get (ten_of a b c f) (Z.of_nat i) (Z.of_nat j) (Z.of_nat k) = Ok (f i j k).
Proof.
  intros Hi Hj Hk. unfold Tensor3D_get. cbn [t_d0 t_data ten_of].
  destruct (Z.ltb_spec (Z.of_nat i) 0) as [Hi0|Hi0]; [lia|]. destruct (Z.leb_spec (Z.of_nat a) (Z.of_nat i)) as [Hi1|Hi1]; [lia|]. cbn [orb].
  unfold tab3. rewrite (py_index_in _ _ []) by (rewrite map_length, range_length; lia). rewrite Nat2Z.id, (nth_map_range (fun i => tab b c (f i))) by exact Hi. cbn [bind].
  unfold tab. rewrite (py_index_in _ _ []) by (rewrite map_length, range_length; lia). rewrite Nat2Z.id, (nth_map_range (fun j => map (fun k => f i j k) (range c))) by exact Hj. cbn [bind].
  rewrite (py_index_in _ _ 0) by (rewrite map_length, range_length; lia). rewrite Nat2Z.id, (nth_map_range (fun k => f i j k)) by exact Hk. reflexivity.
Qed.
Lemma ten_entries a b c f g : (forall i j k, (i < a)%nat -> (j < b)%nat -> (k < c)%nat -> f i j k = g i j k) -> has_entries3 (ten_of a b c f) a b c g.
Proof. intros H. split; [reflexivity|]. intros i j k Hi Hj Hk. rewrite ten_get, H by assumption. reflexivity. Qed.
Lemma ten_is a b c f : (0 < a)%nat -> (0 < b)%nat -> is_tensor3 (ten_of a b c f).
Proof. intros Ha Hb. eexists. apply Tensor3D_tab; assumption. Qed.
Lemma ten_at a b c f i j k : (i < a)%nat -> (j < b)%nat -> (k < c)%nat -> nth k (nth j (nth i (t_data (ten_of a b c f)) []) []) 0 = f i j k.
Proof.
  intros Hi Hj Hk. cbn [ten_of t_data]. unfold tab3. rewrite (nth_map_range (fun i => tab b c (f i))) by exact Hi. unfold tab.
  rewrite (nth_map_range (fun j => map (fun k => f i j k) (range c))) by exact Hj. apply (nth_map_range (fun k => f i j k)), Hk.
Qed.
Lemma shape3_spec (a b : tensor3 R) : shape3_eqb a b = true <-> t_shape a = t_shape b.
Proof. unfold shape3_eqb, t_shape. rewrite !andb_true_iff, !Nat.eqb_eq. split; [intros [[-> ->] ->]; reflexivity|intros Q; injection Q; auto]. Qed.
Lemma zip3 h a b c f g : map (fun '(mat, other) => zip_rows h mat other) (zip (tab3 a b c f) (tab3 a b c g)) = tab3 a b c (fun i j k => h (f i j k) (g i j k)).
Proof. unfold tab3, zip. rewrite combine_map2, map_map. apply map_ext. intros i. apply zip_rows_tab. Qed.
(** The entries of a tensor as the user reads them. *)
Lemma entries_of t d0 d1 d2 f : is_tensor3 t -> has_entries3 t d0 d1 d2 f -> (0 < d0)%nat /\ (0 < d1)%nat /\ exists g, t = ten_of d0 d1 d2 g /\ forall i j k, (i < d0)%nat -> (j < d1)%nat -> (k < d2)%nat -> g i j k = f i j k.
Proof.
  intros Ht [Hs He]. destruct (is_tensor_canon t Ht) as [H0 [H1 E]]. injection Hs as E0 E1 E2. rewrite E0, E1, E2 in *. split; [exact H0|]. split; [exact H1|].
  eexists. split; [exact E|]. intros i j k Hi Hj Hk. pose proof (He i j k Hi Hj Hk) as K. rewrite E, ten_get in K by assumption. injection K; auto.
Qed.

(** Sums, differences, negatives and maps are entrywise. *)
Theorem C73_entrywise : forall a b d0 d1 d2 f g (h : R -> R), is_tensor3 a -> is_tensor3 b -> has_entries3 a d0 d1 d2 f -> has_entries3 b d0 d1 d2 g ->
  (exists c, Tensor3D_add a b = Ok c /\ is_tensor3 c /\ has_entries3 c d0 d1 d2 (fun i j k => f i j k + g i j k)) /\
  (exists c, Tensor3D_sub a b = Ok c /\ is_tensor3 c /\ has_entries3 c d0 d1 d2 (fun i j k => f i j k - g i j k)) /\
  (exists c, Tensor3D_neg a = Ok c /\ is_tensor3 c /\ has_entries3 c d0 d1 d2 (fun i j k => - f i j k)) /\
  (exists c, Tensor3D_map a h = Ok c /\ is_tensor3 c /\ has_entries3 c d0 d1 d2 (fun i j k => h (f i j k))).
Proof.
  intros a b d0 d1 d2 f g h Ha Hb Ea Eb. destruct (entries_of a d0 d1 d2 f Ha Ea) as [H0 [H1 [f' [-> Ef]]]]. destruct (entries_of b d0 d1 d2 g Hb Eb) as [_ [_ [g' [-> Eg]]]].
  assert (M : forall h', map (map (map h')) (tab3 d0 d1 d2 f') = tab3 d0 d1 d2 (fun i j k => h' (f' i j k))).
  { intros h'. unfold tab3. rewrite map_map. apply map_ext. intros i. apply map_map_tab. }
  assert (Sh : shape3_eqb (ten_of d0 d1 d2 f') (ten_of d0 d1 d2 g') = true) by (apply shape3_spec; reflexivity).
  unfold Tensor3D_add, Tensor3D_sub, Tensor3D_neg, Tensor3D_map. rewrite Sh. cbn [t_data ten_of]. rewrite !zip3, !M, !Tensor3D_tab by assumption.
  repeat split; eexists; (split; [reflexivity|]); (split; [apply ten_is; assumption|]); apply ten_entries; intros i j k Hi Hj Hk; rewrite ?Ef, ?Eg by assumption; reflexivity.
Qed.
Print Assumptions C73_entrywise.
(** Operands of different shape are rejected. *)
Theorem C73_shape_mismatch : forall a b : tensor3 R, t_shape a <> t_shape b -> Tensor3D_add a b = Err ValueError /\ Tensor3D_sub a b = Err ValueError.
Proof.
  intros a b H. unfold Tensor3D_add, Tensor3D_sub. destruct (shape3_eqb a b) eqn:E; [apply shape3_spec in E; contradiction|auto].
Qed.
Print Assumptions C73_shape_mismatch.
Lemma Rsum_cc {A} (G : A -> list (list R)) l : Rsum (concat (concat (map G l))) = Rsum (map (fun x => Rsum (concat (G x))) l).
Proof. induction l as [|x l IH]; [reflexivity|]. cbn [map concat]. rewrite concat_app, Rsum_app, IH. reflexivity. Qed.
(** The squared norm is the sum of the squares of all entries; it vanishes only for the zero tensor. *)
Theorem C73_norm : forall t d0 d1 d2 f, is_tensor3 t -> has_entries3 t d0 d1 d2 f ->
  Tensor3D_normsqr t = sum_below d0 (fun i => sum_below d1 (fun j => sum_below d2 (fun k => f i j k * f i j k))) /\
  0 <= Tensor3D_norm t /\ Tensor3D_norm t * Tensor3D_norm t = Tensor3D_normsqr t /\
  (Tensor3D_normsqr t = 0 <-> forall i j k, (i < d0)%nat -> (j < d1)%nat -> (k < d2)%nat -> f i j k = 0).
Proof.
  intros t d0 d1 d2 f Ht He. destruct (entries_of t d0 d1 d2 f Ht He) as [H0 [H1 [g [-> Eg]]]].
  assert (Q : Tensor3D_normsqr (ten_of d0 d1 d2 g) = sum_below d0 (fun i => sum_below d1 (fun j => sum_below d2 (fun k => f i j k * f i j k)))).
  { unfold Tensor3D_normsqr. cbn [t_data ten_of]. rewrite nsum_Rsum, concat_map, concat_map. unfold tab3. rewrite map_map.
    rewrite (Rsum_cc (fun x => map (map (fun x => x * x)%num) (tab d1 d2 (g x)))), Rsum_range. apply sum_below_ext. intros i Hi. rewrite map_map_tab, Rsum_concat_tab.
    apply sum_below_ext. intros j Hj. apply sum_below_ext. intros k Hk. rewrite Eg by assumption. reflexivity. }
  assert (N0 : 0 <= Tensor3D_normsqr (ten_of d0 d1 d2 g)).
  { rewrite Q. apply sum_below_nonneg. intros i _. apply sum_below_nonneg. intros j _. apply sum_below_nonneg. intros k _. apply Rle_0_sqr. }
  split; [exact Q|]. split; [apply sqrt_pos|]. split; [apply sqrt_sqrt, N0|]. split.
  - rewrite Q. intros Z i j k Hi Hj Hk.
    assert (Z1 : sum_below d1 (fun j => sum_below d2 (fun k => f i j k * f i j k)) = 0).
    { apply (sum_below_nonneg_zero d0 (fun i => sum_below d1 (fun j => sum_below d2 (fun k => f i j k * f i j k)))); [|exact Z|exact Hi]. intros i' _. apply sum_below_nonneg. intros j' _. apply sum_below_nonneg. intros k' _. apply Rle_0_sqr. }
    assert (Z2 : sum_below d2 (fun k => f i j k * f i j k) = 0).
    { apply (sum_below_nonneg_zero d1 (fun j => sum_below d2 (fun k => f i j k * f i j k))); [|exact Z1|exact Hj]. intros j' _. apply sum_below_nonneg. intros k' _. apply Rle_0_sqr. }
    apply Rsqr_0_uniq. apply (sum_below_nonneg_zero d2 (fun k => f i j k * f i j k)); [|exact Z2|exact Hk]. intros k' _. apply Rle_0_sqr.
  - intros Z. rewrite Q. rewrite (sum_below_ext _ _ (fun _ => 0)); [apply sum_below_zero|]. intros i Hi. rewrite (sum_below_ext _ _ (fun _ => 0)); [apply sum_below_zero|]. intros j Hj. rewrite (sum_below_ext _ _ (fun _ => 0)); [apply sum_below_zero|]. intros k Hk. rewrite Z by assumption. ring.
Qed.
Print Assumptions C73_norm.
Example C73_example : exists a b c, Tensor3D_ [[[1; 2]; [3; 4]]] = Ok a /\ Tensor3D_ [[[1; 1]; [1; 1]]] = Ok b /\ is_tensor3 a /\ is_tensor3 b /\ Tensor3D_sub a b = Ok c /\ Tensor3D_get c 0 1 0 = Ok (3 - 1) /\ Tensor3D_normsqr a = 30.
Proof. do 3 eexists. split; [reflexivity|]. split; [reflexivity|]. split; [exists [[[1; 2]; [3; 4]]]; reflexivity|]. split; [exists [[[1; 1]; [1; 1]]]; reflexivity|]. split; [reflexivity|]. split; [reflexivity|]. cbv -[Rplus Rmult IZR]. ring. Qed.
