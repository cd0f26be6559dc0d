(** * C01-C10: tensors.py.  Vocabulary: Spec/TensorSpec.v ([is_matrix], [mat_at], [has_entries], ...) and
    Spec/RealRing.v ([determinant] = mathcomp's [\det]). *)
From Coq Require Import Reals Lra Lia.
From Verif.Model Require Import Py Num Tensors.
From Verif.Spec Require Import TensorSpec RealRing.
From Verif.Proofs Require Import Lib TensorsP DetP.
Local Open Scope R_scope.

(** ** C01: Matrix.det is the determinant *)
Theorem C01_det_is_determinant : forall m,
  is_matrix m -> m_rows m = m_cols m -> Matrix_det m = Ok (determinant (m_rows m) (mat_at m)).
Proof.
  intros m Hm Hsq. destruct (is_matrix_canon m Hm) as [Hpos Hcan]. rewrite Hcan at 1. rewrite <- Hsq. apply det_spec.
Qed.
Print Assumptions C01_det_is_determinant.

Theorem C01_det_nonsquare : forall m : matrix R, m_rows m <> m_cols m -> Matrix_det m = Err ValueError.
Proof. intros m H. unfold Matrix_det. apply Nat.eqb_neq in H. rewrite H. reflexivity. Qed.
Print Assumptions C01_det_nonsquare.

Theorem C01_det_identity : forall m n, is_matrix m -> has_entries m n n delta -> Matrix_det m = Ok 1.
Proof.
  intros m n Hm He. rewrite (has_entries_mat_at m n n delta Hm He), det_spec, determinant_id. reflexivity.
Qed.
Print Assumptions C01_det_identity.

Theorem C01_det_product : forall a b n, is_matrix a -> is_matrix b -> m_shape a = (n, n) -> m_shape b = (n, n) ->
  exists c da db, Matrix_matmul a b = Ok c /\ Matrix_det a = Ok da /\ Matrix_det b = Ok db /\
                  Matrix_det c = Ok (da * db).
Proof.
  intros a b n Ha Hb Hsa Hsb. injection Hsa as Hra Hka. injection Hsb as Hrb Hkb.
  assert (Hpos : (0 < n)%nat) by (rewrite <- Hra; apply (is_matrix_canon a Ha)).
  rewrite matmul_ok by congruence. do 3 eexists. split; [reflexivity|].
  rewrite !C01_det_is_determinant by congruence. split; [reflexivity|]. split; [reflexivity|].
  rewrite Hra, Hka, Hrb, Hkb. rewrite det_spec. rewrite determinant_mul. reflexivity.
Qed.
Print Assumptions C01_det_product.

Theorem C01_det_transpose : forall a, is_matrix a -> m_rows a = m_cols a ->
  exists t, Matrix_transpose a = Ok t /\ Matrix_det t = Matrix_det a.
Proof.
  intros a Ha Hsq. assert (Hpos : (0 < m_cols a)%nat) by (rewrite <- Hsq; apply (is_matrix_canon a Ha)).
  rewrite transpose_ok by assumption. eexists. split; [reflexivity|].
  rewrite (C01_det_is_determinant a Ha Hsq). rewrite <- Hsq, det_spec, determinant_tr. reflexivity.
Qed.
Print Assumptions C01_det_transpose.

Theorem C01_det_equal_rows : forall a p q, is_matrix a -> m_rows a = m_cols a ->
  (p < m_rows a)%nat -> (q < m_rows a)%nat -> p <> q ->
  (forall j, (j < m_cols a)%nat -> mat_at a p j = mat_at a q j) -> Matrix_det a = Ok 0.
Proof.
  intros a p q Ha Hsq Hp Hq Hpq Hrows. rewrite C01_det_is_determinant by assumption. f_equal.
  apply determinant_eq_rows with (a := p) (b := q); auto. rewrite Hsq. exact Hrows.
Qed.
Print Assumptions C01_det_equal_rows.

(** Non-vacuity: a concrete 3x3 matrix, determinant computed by the model. *)
Example C01_example : exists m, Matrix_ [[2; 1; 0]; [1; 3; 1]; [0; 1; 4]] = Ok m /\ Matrix_det m = Ok 18.
Proof. eexists. split; [reflexivity|]. unfold Matrix_det. simpl. f_equal. unfold det_prod, entry, sign. simpl. ring. Qed.

(** ** C02: inverse_2x2 *)
Theorem C02_inverse_two_sided : forall a d, is_matrix a -> m_shape a = (2, 2)%nat -> Matrix_det a = Ok d -> d <> 0 ->
  exists ai ida idb, inverse_2x2 a = Ok ai /\
    Matrix_matmul ai a = Ok ida /\ Matrix_matmul a ai = Ok idb /\
    has_entries ida 2 2 delta /\ has_entries idb 2 2 delta.
Proof.
  intros a d Ha Hs Hd Hd0. destruct (is_matrix_canon a Ha) as [Hpa Hca]. injection Hs as Hr Hk.
  rewrite Hr, Hk in Hca. set (f := mat_at a) in *. rewrite Hca in Hd |- *. rewrite det2_of in Hd. injection Hd as Hd.
  subst d. rewrite (inverse_of f Hd0). do 3 eexists. split; [reflexivity|]. rewrite !matmul_of by lia.
  split; [reflexivity|]. split; [reflexivity|].
  split; (apply has_entries_of; [lia|]; intros i j Hi Hj;
    destruct i as [|[|i]]; [| |lia]; (destruct j as [|[|j]]; [| |lia]); unfold delta, entry; simpl; field; exact Hd0).
Qed.
Print Assumptions C02_inverse_two_sided.

Theorem C02_inverse_singular : forall a, is_matrix a -> m_shape a = (2, 2)%nat -> Matrix_det a = Ok 0 ->
  inverse_2x2 a = Err ZeroDivisionError.
Proof.
  intros a Ha Hs Hd. destruct (is_matrix_canon a Ha) as [Hpa Hca]. injection Hs as Hr Hk.
  rewrite Hr, Hk in Hca. rewrite Hca in Hd |- *. rewrite det2_of in Hd. injection Hd as Hd.
  apply inverse_singular_of, Hd.
Qed.
Print Assumptions C02_inverse_singular.

Theorem C02_inverse_other_shapes : forall a : matrix R, m_shape a <> (2, 2)%nat -> inverse_2x2 a = Err ValueError.
Proof.
  intros a H. unfold inverse_2x2. destruct (Nat.eqb_spec (m_rows a) 2) as [E1|E1]; [|reflexivity].
  destruct (Nat.eqb_spec (m_cols a) 2) as [E2|E2]; [|reflexivity].
  exfalso; apply H. unfold m_shape. congruence.
Qed.
Print Assumptions C02_inverse_other_shapes.

Example C02_example : exists m, Matrix_ [[1; 1/2]; [0; 1]] = Ok m /\ is_matrix m /\ m_shape m = (2, 2)%nat
  /\ Matrix_det m = Ok 1.
Proof.
  eexists. split; [reflexivity|]. split; [exists [[1; 1/2]; [0; 1]]; reflexivity|]. split; [reflexivity|].
  unfold Matrix_det. simpl. f_equal. unfold det_prod, entry, sign. simpl. ring.
Qed.

(** ** C03: matrix product *)
Theorem C03_matmul_spec : forall a b, is_matrix a -> is_matrix b -> m_cols a = m_rows b ->
  exists c, Matrix_matmul a b = Ok c /\ is_matrix c /\
    has_entries c (m_rows a) (m_cols b) (fun i j => sum_below (m_cols a) (fun k => mat_at a i k * mat_at b k j)).
Proof.
  intros a b Ha Hb Hs. assert (Hp : (0 < m_rows a)%nat) by apply (is_matrix_canon a Ha).
  rewrite matmul_ok by assumption. eexists. split; [reflexivity|]. split; [apply is_matrix_mat_of, Hp | apply has_entries_mat_of, Hp].
Qed.
Print Assumptions C03_matmul_spec.

Theorem C03_matmul_shape_error : forall a b : matrix R, m_cols a <> m_rows b -> Matrix_matmul a b = Err ValueError.
Proof. exact matmul_shape_err. Qed.
Print Assumptions C03_matmul_shape_error.

Theorem C03_matmul_assoc : forall a b c ab bc, is_matrix a -> is_matrix b -> is_matrix c ->
  Matrix_matmul a b = Ok ab -> Matrix_matmul b c = Ok bc ->
  Matrix_matmul ab c = Matrix_matmul a bc /\ exists r, Matrix_matmul a bc = Ok r.
Proof.
  intros a b c ab bc Ha Hb Hc Hab Hbc. pose proof (matmul_ok_shape _ _ _ Hab) as Hs1. pose proof (matmul_ok_shape _ _ _ Hbc) as Hs2.
  assert (Hpa : (0 < m_rows a)%nat) by apply (is_matrix_canon a Ha). assert (Hpb : (0 < m_rows b)%nat) by apply (is_matrix_canon b Hb).
  rewrite matmul_ok in Hab by assumption. rewrite matmul_ok in Hbc by assumption. injection Hab as <-. injection Hbc as <-.
  rewrite !matmul_ok; try assumption; try (apply is_matrix_mat_of; assumption). cbn [m_rows m_cols mat_of].
  split; [|eexists; reflexivity]. f_equal. apply mat_of_ext. intros i j Hi Hj.
  etransitivity; [|etransitivity; [exact (matmul_assoc_of (m_cols a) (m_cols b) (mat_at a) (mat_at b) (mat_at c) i j)|]].
  - apply sum_below_ext. intros q Hq. f_equal. exact (mat_of_at (m_rows a) (m_cols b) _ i q Hi Hq).
  - apply sum_below_ext. intros p Hp. f_equal. symmetry. refine (mat_of_at (m_rows b) (m_cols c) _ p j _ Hj). lia.
Qed.
Print Assumptions C03_matmul_assoc.

Theorem C03_dot_is_product_with_column : forall a v, is_matrix a -> length v = m_cols a ->
  exists w, Matrix_dot a v = Ok w /\ length w = m_rows a /\
    forall i, (i < m_rows a)%nat -> Vector_get w (Z.of_nat i) = Ok (sum_below (m_cols a) (fun j => mat_at a i j * nth j v 0)).
Proof.
  intros a v Ha Hv. rewrite dot_ok by assumption.
  eexists. split; [reflexivity|]. split; [rewrite map_length, range_length; reflexivity|].
  intros i Hi. rewrite Vector_get_in by (rewrite map_length, range_length; exact Hi).
  rewrite nth_map_range by exact Hi. reflexivity.
Qed.
Print Assumptions C03_dot_is_product_with_column.

(** [A.dot(v)] is the only column of [A @ V] when [V] is the one-column matrix with the entries of [v]. *)
Theorem C03_dot_agrees_with_matmul : forall a v col c w, is_matrix a ->
  (0 < length v)%nat -> Matrix_ (map (fun x => [x]) v) = Ok col ->
  Matrix_matmul a col = Ok c -> Matrix_dot a v = Ok w -> Matrix_flatten c = w.
Proof.
  intros a v col c w Ha Hv Hcol Hc Hw.
  assert (Hl : length v = m_cols a).
  { unfold Matrix_dot in Hw. destruct (Nat.eqb_spec (length v) (m_cols a)); [assumption|discriminate]. }
  rewrite dot_ok in Hw by assumption. injection Hw as <-.
  assert (Hcol' : col = mat_of (m_cols a) 1 (fun i _ => nth i v 0)).
  { rewrite (Matrix_rect (m_cols a) 1) in Hcol; [injection Hcol as <-|].
    - unfold mat_of, tab. f_equal. rewrite <- Hl. rewrite <- (map_range_nth v 0) at 1. rewrite map_map. reflexivity.
    - split; [lia|]. split; [rewrite map_length; exact Hl|]. intros r Hr. apply in_map_iff in Hr as [x [<- _]]. reflexivity. }
  assert (Hpc : (0 < m_cols a)%nat) by lia.
  rewrite matmul_ok in Hc; [|exact Ha|exists (map (fun x => [x]) v); exact Hcol|rewrite Hcol'; reflexivity].
  injection Hc as <-. rewrite Hcol'. unfold Matrix_flatten. cbn [m_data m_cols mat_of]. unfold tab.
  assert (G : forall l, concat (map (fun i => map (fun j => sum_below (m_cols a)
      (fun l0 => mat_at a i l0 * mat_at (mat_of (m_cols a) 1 (fun i _ => nth i v 0)) l0 j)) (range 1)) l) =
      map (fun i => sum_below (m_cols a) (fun j => mat_at a i j * nth j v 0)) l).
  { induction l as [|i l IH]; [reflexivity|]. cbn [map concat]. rewrite IH. cbn [range seq map app]. f_equal.
    apply sum_below_ext. intros k Hk. f_equal. exact (mat_of_at (m_cols a) 1 (fun i _ => nth i v 0) k 0 Hk Nat.lt_0_1). }
  apply G.
Qed.
Print Assumptions C03_dot_agrees_with_matmul.

Theorem C03_transpose_of_product : forall a b ab ta tb, is_matrix a -> is_matrix b ->
  Matrix_matmul a b = Ok ab -> Matrix_transpose a = Ok ta -> Matrix_transpose b = Ok tb ->
  Matrix_transpose ab = Matrix_matmul tb ta.
Proof.
  intros a b ab ta tb Ha Hb Hab Hta Htb. pose proof (matmul_ok_shape _ _ _ Hab) as Hs1.
  pose proof (transpose_ok_cols _ _ Hta) as Hka. pose proof (transpose_ok_cols _ _ Htb) as Hkb.
  assert (Hpa : (0 < m_rows a)%nat) by apply (is_matrix_canon a Ha).
  rewrite matmul_ok in Hab by assumption. injection Hab as <-.
  rewrite transpose_ok in Hta by assumption. injection Hta as <-. rewrite transpose_ok in Htb by assumption. injection Htb as <-.
  rewrite transpose_of by assumption. rewrite <- Hs1. rewrite matmul_of by assumption. f_equal.
  apply mat_of_ext. intros i j _ _. apply sum_below_ext. intros k _. ring.
Qed.
Print Assumptions C03_transpose_of_product.

Example C03_example : exists a b c, Matrix_ [[1; 2; 3]] = Ok a /\ Matrix_ [[4]; [5]; [6]] = Ok b /\
  Matrix_matmul a b = Ok c /\ Matrix_get c 0 0 = Ok 32.
Proof.
  do 3 eexists. split; [reflexivity|]. split; [reflexivity|]. split; [reflexivity|]. unfold Matrix_get, nsum, entry. cbv -[Rplus Rmult IZR R]. f_equal. ring.
Qed.

(** ** C04: flatten, reshape, transpose *)
Theorem C04_reshape_then_flatten : forall (v : vector R) r c m, Vector_reshape v r c = Ok m ->
  Matrix_flatten m = v /\ (Z.of_nat (m_rows m) = r /\ Z.of_nat (m_cols m) = c).
Proof.
  intros v r c m H. unfold Vector_reshape in H.
  destruct (Z.eqb_spec (Z.of_nat (length v)) (r * c)) as [E|E]; [|discriminate].
  destruct (Z.le_gt_cases r 0) as [Hr|Hr].
  { assert (Hn : Z.to_nat r = O) by lia. rewrite Hn in H. discriminate H. }
  assert (Hc : (0 <= c)%Z) by nia.
  assert (H' : Vector_reshape v (Z.of_nat (Z.to_nat r)) (Z.of_nat (Z.to_nat c)) = Ok m).
  { unfold Vector_reshape. rewrite !Z2Nat.id by lia. rewrite <- E, Z.eqb_refl. exact H. }
  rewrite reshape_ok in H' by nia. injection H' as <-. split; [apply flatten_reshape_of; nia|]. simpl. lia.
Qed.
Print Assumptions C04_reshape_then_flatten.

Theorem C04_reshape_outcome : forall (v : vector R) r c,
  (Vector_reshape v r c = Err ValueError <-> Z.of_nat (length v) <> (r * c)%Z) /\
  ((exists m, Vector_reshape v r c = Ok m) <-> (0 < r)%Z /\ Z.of_nat (length v) = (r * c)%Z).
Proof.
  intros v r c. unfold Vector_reshape. destruct (Z.eqb_spec (Z.of_nat (length v)) (r * c)) as [E|E].
  - destruct (Z.le_gt_cases r 0) as [Hr|Hr].
    + assert (Hn : Z.to_nat r = O) by lia. rewrite Hn. simpl. split; split; intros H; try discriminate; try contradiction.
      * destruct H as [m Hm]; discriminate. * lia.
    + assert (Hc : (0 <= c)%Z) by nia.
      assert (H' : exists m, Vector_reshape v (Z.of_nat (Z.to_nat r)) (Z.of_nat (Z.to_nat c)) = Ok m).
      { eexists. apply reshape_ok; nia. }
      destruct H' as [m H']. unfold Vector_reshape in H'. rewrite !Z2Nat.id in H' by lia. rewrite <- E, Z.eqb_refl in H'.
      rewrite H'. split; split; intros H; try discriminate; try contradiction; [split; assumption | exists m; reflexivity].
  - split; split; intros H; auto; [destruct H; discriminate | destruct H; contradiction].
Qed.
Print Assumptions C04_reshape_outcome.

Theorem C04_flatten_then_reshape : forall m, is_matrix m ->
  Vector_reshape (Matrix_flatten m) (Z.of_nat (m_rows m)) (Z.of_nat (m_cols m)) = Ok m.
Proof.
  intros m Hm. destruct (is_matrix_canon m Hm) as [Hp Hc]. set (f := mat_at m) in *. set (r := m_rows m) in *. set (c := m_cols m) in *.
  rewrite Hc. rewrite reshape_ok; [|exact Hp|apply flatten_of_length]. f_equal. apply mat_of_ext.
  intros i j Hi Hj. apply flatten_of_nth; assumption.
Qed.
Print Assumptions C04_flatten_then_reshape.

Theorem C04_transpose_involutive : forall m t, is_matrix m -> Matrix_transpose m = Ok t ->
  Matrix_transpose t = Ok m /\ has_entries t (m_cols m) (m_rows m) (fun i j => mat_at m j i).
Proof.
  intros m t Hm Ht. pose proof (transpose_ok_cols _ _ Ht) as Hk. destruct (is_matrix_canon m Hm) as [Hp Hc].
  rewrite transpose_ok in Ht by assumption. injection Ht as <-. rewrite transpose_of by exact Hp.
  split; [f_equal; symmetry; exact Hc | apply has_entries_mat_of, Hk].
Qed.
Print Assumptions C04_transpose_involutive.

Example C04_example : exists m, Vector_reshape [1; 2; 3; 4; 5; 6] 2 3 = Ok m /\ m_data m = [[1; 2; 3]; [4; 5; 6]].
Proof. eexists. split; reflexivity. Qed.

(** ** C05: element access of Vector and Matrix *)
Theorem C05_vector_get : forall (v : vector R) (i : Z),
  ((0 <= i < Z.of_nat (length v))%Z -> Vector_get v i = Ok (nth (Z.to_nat i) v 0)) /\
  (~ (0 <= i < Z.of_nat (length v))%Z -> Vector_get v i = Err IndexError).
Proof.
  intros v i. split; intros H.
  - rewrite <- (Z2Nat.id i) at 1 by lia. apply Vector_get_in. lia.
  - apply Vector_get_out. lia.
Qed.
Print Assumptions C05_vector_get.

Theorem C05_matrix_get : forall (data : list (list R)) m (i j : Z), Matrix_ data = Ok m ->
  ((0 <= i < Z.of_nat (m_rows m))%Z -> (0 <= j < Z.of_nat (m_cols m))%Z ->
     Matrix_get m i j = Ok (nth (Z.to_nat j) (nth (Z.to_nat i) data []) 0)) /\
  (~ ((0 <= i < Z.of_nat (m_rows m))%Z /\ (0 <= j < Z.of_nat (m_cols m))%Z) -> Matrix_get m i j = Err IndexError).
Proof.
  intros data m i j Hm. assert (Hw : wfm m) by (apply is_matrix_wfm; exists data; exact Hm). split.
  - intros Hi Hj. rewrite <- (Z2Nat.id i) at 1 by lia. rewrite <- (Z2Nat.id j) at 1 by lia.
    rewrite Matrix_get_in by (assumption || lia). unfold mat_at. destruct (Matrix_ok_inv _ _ Hm) as [_ ->]. reflexivity.
  - intros H. apply Matrix_get_out. lia.
Qed.
Print Assumptions C05_matrix_get.

Example C05_example : exists m, Matrix_ [[1; 2]; [3; 4]] = Ok m /\ Matrix_get m 1 0 = Ok 3 /\ Matrix_get m 1 (-1) = Err IndexError.
Proof. eexists. repeat split; reflexivity. Qed.

(** ** C06: element access of Tensor3D.  The full contract is refuted: only the first index is checked, so negative second
    and third indices wrap around. *)
Theorem C06_tensor_get_partial : forall (data : list (list (list R))) t (i j k : Z), Tensor3D_ data = Ok t ->
  ((0 <= i < Z.of_nat (t_d0 t))%Z -> (0 <= j < Z.of_nat (t_d1 t))%Z -> (0 <= k < Z.of_nat (t_d2 t))%Z ->
     Tensor3D_get t i j k = Ok (nth (Z.to_nat k) (nth (Z.to_nat j) (nth (Z.to_nat i) data []) []) 0)) /\
  (~ ((0 <= i < Z.of_nat (t_d0 t))%Z /\ (- Z.of_nat (t_d1 t) <= j < Z.of_nat (t_d1 t))%Z /\
      (- Z.of_nat (t_d2 t) <= k < Z.of_nat (t_d2 t))%Z) -> Tensor3D_get t i j k = Err IndexError).
Proof.
  intros data t i j k Ht. destruct (Tensor3D_ok_inv _ _ Ht) as [[H0 [H1 [Hl Hm]]] Hd].
  unfold Tensor3D_get. rewrite Hd.
  destruct (Z.ltb_spec i 0) as [Hi0|Hi0]; [split; [lia|reflexivity]|].
  destruct (Z.leb_spec (Z.of_nat (t_d0 t)) i) as [Hi1|Hi1]; [split; [lia|reflexivity]|].
  cbn [orb]. rewrite (py_index_in data i []) by (rewrite Hl; lia). cbn [bind].
  set (mat := nth (Z.to_nat i) data []). assert (Hmat : In mat data) by (apply nth_In; lia).
  destruct (Hm mat Hmat) as [Hml Hrl]. split.
  - intros _ Hj Hk. rewrite (py_index_in mat j []) by (rewrite Hml; lia). unfold bind.
    apply py_index_in. rewrite Hrl; [lia|]. apply nth_In. lia.
  - intros H. destruct (Z_lt_le_dec j (- Z.of_nat (t_d1 t))) as [Hj|Hj]; [rewrite (py_index_out mat) by lia; reflexivity|].
    destruct (Z_lt_le_dec j (Z.of_nat (t_d1 t))) as [Hj'|Hj']; [|rewrite (py_index_out mat) by lia; reflexivity].
    assert (Hrow : exists row, py_index mat j = Ok row /\ In row mat).
    { destruct (Z_lt_le_dec j 0).
      - exists (nth (Z.to_nat (Z.of_nat (length mat) + j)) mat []). split; [apply py_index_neg; lia | apply nth_In; lia].
      - exists (nth (Z.to_nat j) mat []). split; [apply py_index_in; lia | apply nth_In; lia]. }
    destruct Hrow as [row [-> Hin]]. unfold bind. apply py_index_out. rewrite (Hrl row Hin). lia.
Qed.
Print Assumptions C06_tensor_get_partial.

Theorem C06_tensor_get_refuted : exists t : tensor3 R,
  Tensor3D_ [[[1; 2]; [3; 4]]; [[5; 6]; [7; 8]]] = Ok t /\
  Tensor3D_get t 0 (-1) 0 = Ok 3 /\ Tensor3D_get t 0 0 (-2) = Ok 1.
Proof. eexists. repeat split; reflexivity. Qed.
Print Assumptions C06_tensor_get_refuted.

(** What actually happens for every tensor: a negative [j] (or [k]) in range of the axis counts from the end. *)
Theorem C06_negative_index_wraps : forall (data : list (list (list R))) t (i j k : Z), Tensor3D_ data = Ok t ->
  (0 <= i < Z.of_nat (t_d0 t))%Z -> (- Z.of_nat (t_d1 t) <= j < 0)%Z -> (0 <= k < Z.of_nat (t_d2 t))%Z ->
  Tensor3D_get t i j k = Tensor3D_get t i (j + Z.of_nat (t_d1 t)) k /\ exists x, Tensor3D_get t i j k = Ok x.
Proof.
  intros data t i j k Ht Hi Hj Hk. destruct (Tensor3D_ok_inv _ _ Ht) as [[H0 [H1 [Hl Hm]]] Hd].
  unfold Tensor3D_get. rewrite Hd.
  destruct (Z.ltb_spec i 0) as [Hi0|Hi0]; [lia|].
  destruct (Z.leb_spec (Z.of_nat (t_d0 t)) i) as [Hi1|Hi1]; [lia|].
  cbn [orb]. rewrite (py_index_in data i []) by (rewrite Hl; lia). cbn [bind].
  set (mat := nth (Z.to_nat i) data []). assert (Hmat : In mat data) by (apply nth_In; lia).
  destruct (Hm mat Hmat) as [Hml Hrl].
  assert (E : py_index mat j = Ok (nth (Z.to_nat (Z.of_nat (t_d1 t) + j)) mat [])) by (rewrite (py_index_neg mat j []) by lia; rewrite Hml; reflexivity).
  assert (E' : py_index mat (j + Z.of_nat (t_d1 t)) = py_index mat j) by (rewrite E, (py_index_in mat _ []) by lia; rewrite Z.add_comm; reflexivity).
  rewrite E'. split; [reflexivity|]. rewrite E. cbn [bind]. eexists. apply py_index_in with (d := 0).
  rewrite Hrl; [lia|]. apply nth_In. lia.
Qed.
Print Assumptions C06_negative_index_wraps.

(** ** C07: vector space laws, norms, size checks *)
Theorem C07_vector_add : forall v w : vector R,
  (length v = length w -> exists u, Vector_add v w = Ok u /\ length u = length v /\
     forall i, (i < length v)%nat -> nth i u 0 = nth i v 0 + nth i w 0) /\
  (length v <> length w -> Vector_add v w = Err ValueError).
Proof.
  intros v w. split; intros H.
  - rewrite Vector_add_ok by exact H. eexists. split; [reflexivity|]. split; [rewrite map_length, range_length; reflexivity|].
    intros i Hi. apply nth_map_range with (f := fun i => nth i v 0 + nth i w 0), Hi.
  - unfold Vector_add. apply Nat.eqb_neq in H. rewrite H. reflexivity.
Qed.
Print Assumptions C07_vector_add.

Theorem C07_vector_sub : forall v w : vector R,
  (length v = length w -> exists u, Vector_sub v w = Ok u /\ Vector_add u w = Ok v) /\
  (length v <> length w -> Vector_sub v w = Err ValueError).
Proof.
  intros v w. split; intros H.
  - rewrite Vector_sub_ok by exact H. eexists. split; [reflexivity|].
    rewrite Vector_add_ok by (rewrite map_length, range_length; exact H). apply (f_equal Ok).
    rewrite map_length, range_length. etransitivity; [|exact (map_range_nth v 0)]. apply map_ext_in. intros i Hi. apply in_range in Hi.
    rewrite nth_map_range by exact Hi. ring.
  - unfold Vector_sub. apply Nat.eqb_neq in H. rewrite H. reflexivity.
Qed.
Print Assumptions C07_vector_sub.

Theorem C07_vector_laws : forall (u v w : vector R) s t, length u = length v -> length v = length w ->
  Vector_add v w = Vector_add w v /\
  (let* a := Vector_add u v in Vector_add a w) = (let* b := Vector_add v w in Vector_add u b) /\
  (let* a := Vector_add v w in Ok (Vector_mul a s)) = Vector_add (Vector_mul v s) (Vector_mul w s) /\
  Ok (Vector_mul v (s + t)) = Vector_add (Vector_mul v s) (Vector_mul v t) /\
  Vector_mul (Vector_mul v s) t = Vector_mul v (s * t) /\ Vector_mul v 1 = v /\
  Vector_add v (Vector_neg v) = Ok (Vector_mul v 0) /\
  (s <> 0 -> (let* d := Vector_div v s in Ok (Vector_mul d s)) = Ok v) /\
  (v <> [] -> Vector_div v 0 = Err ZeroDivisionError).
Proof.
  intros u v w s t Huv Hvw.
  assert (Hmul : forall (x : vector R) c, Vector_mul x c = map (fun i => nth i x 0 * c) (range (length x))).
  { intros x c. unfold Vector_mul. rewrite <- (map_range_nth x 0) at 1. rewrite map_map. reflexivity. }
  assert (Hneg : forall (x : vector R), Vector_neg x = map (fun i => - nth i x 0) (range (length x))).
  { intros x. unfold Vector_neg. rewrite <- (map_range_nth x 0) at 1. rewrite map_map. reflexivity. }
  assert (Hml : forall (x : vector R) c, length (Vector_mul x c) = length x) by (intros; apply map_length).
  rewrite (Vector_add_ok v w), (Vector_add_ok w v), (Vector_add_ok u v) by congruence. cbn [bind].
  repeat split.
  - apply (f_equal Ok). rewrite Hvw. apply map_ext_in. intros; ring.
  - rewrite !Vector_add_ok by (rewrite ?map_length, ?range_length; congruence). apply (f_equal Ok). rewrite map_length, range_length.
    apply map_ext_in. intros i Hi. apply in_range in Hi. rewrite !nth_map_range by lia. ring.
  - rewrite Vector_add_ok by (rewrite !Hml; congruence). apply (f_equal Ok). rewrite !Hmul, !map_length, !range_length.
    apply map_ext_in. intros i Hi. apply in_range in Hi. rewrite !nth_map_range by lia. ring.
  - rewrite Vector_add_ok by (rewrite !Hml; congruence). apply (f_equal Ok). rewrite !Hmul, !map_length, !range_length.
    apply map_ext_in. intros i Hi. apply in_range in Hi. rewrite !nth_map_range by lia. ring.
  - unfold Vector_mul. rewrite map_map. apply map_ext. intros; simpl; ring.
  - unfold Vector_mul. rewrite <- (map_id v) at 2. apply map_ext. intros; simpl; ring.
  - rewrite Vector_add_ok by (unfold Vector_neg; rewrite map_length; reflexivity). apply (f_equal Ok). rewrite Hneg, Hmul.
    apply map_ext_in. intros i Hi. apply in_range in Hi. rewrite nth_map_range by lia. ring.
  - intros Hs. unfold Vector_div. rewrite mapM_ndiv_row by exact Hs. cbn [bind]. apply (f_equal Ok). unfold Vector_mul.
    rewrite map_map. rewrite <- (map_id v) at 2. apply map_ext. intros x. simpl. field. exact Hs.
  - intros Hv. destruct v as [|x v]; [contradiction|]. unfold Vector_div. cbn [mapM]. rewrite ndiv_R0. reflexivity.
Qed.
Print Assumptions C07_vector_laws.

Theorem C07_vector_norm : forall v : vector R,
  Vector_normsqr v = Vector_dot v v /\ 0 <= Vector_normsqr v /\
  (Vector_normsqr v = 0 <-> forall x, In x v -> x = 0) /\
  0 <= Vector_norm v /\ Vector_norm v * Vector_norm v = Vector_normsqr v.
Proof.
  intros v. assert (H0 : 0 <= Vector_normsqr v).
  { rewrite Vector_normsqr_ok. apply sum_below_nonneg. intros; nra. }
  split; [rewrite Vector_dot_ok, Vector_normsqr_ok; reflexivity|]. split; [exact H0|]. split; [split|].
  - rewrite Vector_normsqr_ok. intros H x Hx. apply (In_nth _ _ 0) in Hx as [i [Hi <-]].
    pose proof (sum_below_nonneg_zero _ _ (fun k _ => Rle_0_sqr (nth k v 0)) H i Hi) as Hz. apply Rsqr_0_uniq; exact Hz.
  - intros H. rewrite Vector_normsqr_ok. rewrite (sum_below_ext _ _ (fun _ => 0)); [apply sum_below_zero|].
    intros k Hk. rewrite (H (nth k v 0)) by (apply nth_In, Hk). ring.
  - split; [apply sqrt_pos | apply sqrt_sqrt, H0].
Qed.
Print Assumptions C07_vector_norm.

Theorem C07_vector_cauchy_schwarz : forall v w : vector R, length v = length w ->
  Rabs (Vector_dot v w) <= Vector_norm v * Vector_norm w.
Proof.
  intros v w H. unfold Vector_norm. cbn [nsqrt RNum]. destruct (C07_vector_norm v) as [_ [Hv _]]. destruct (C07_vector_norm w) as [_ [Hw _]].
  rewrite <- sqrt_mult by assumption. rewrite <- sqrt_Rsqr_abs. apply sqrt_le_1_alt. unfold Rsqr.
  rewrite Vector_dot_ok by exact H. rewrite !Vector_normsqr_ok, <- H, <- !Rsum_range. apply cauchy_schwarz.
Qed.
Print Assumptions C07_vector_cauchy_schwarz.

Theorem C07_matrix_add_sub : forall a b, is_matrix a -> is_matrix b ->
  (m_shape a = m_shape b ->
     (exists c, Matrix_add a b = Ok c /\ is_matrix c /\
        has_entries c (m_rows a) (m_cols a) (fun i j => mat_at a i j + mat_at b i j)) /\
     (exists c, Matrix_sub a b = Ok c /\ is_matrix c /\
        has_entries c (m_rows a) (m_cols a) (fun i j => mat_at a i j - mat_at b i j))) /\
  (m_shape a <> m_shape b -> Matrix_add a b = Err ValueError /\ Matrix_sub a b = Err ValueError /\
     Matrix_scalar_product a b = Err ValueError).
Proof.
  intros a b Ha Hb. split; intros Hs.
  - assert (Hpa : (0 < m_rows a)%nat) by apply (is_matrix_canon a Ha). rewrite add_ok, sub_ok by assumption.
    split; (eexists; split; [reflexivity|]; split; [apply is_matrix_mat_of, Hpa | apply has_entries_mat_of, Hpa]).
  - unfold Matrix_add, Matrix_sub, Matrix_scalar_product. rewrite shape_eqb_neq by exact Hs. auto.
Qed.
Print Assumptions C07_matrix_add_sub.

Theorem C07_matrix_scaling : forall a s, is_matrix a ->
  (exists c, Matrix_mul a s = Ok c /\ is_matrix c /\ has_entries c (m_rows a) (m_cols a) (fun i j => mat_at a i j * s)) /\
  (exists c, Matrix_neg a = Ok c /\ is_matrix c /\ has_entries c (m_rows a) (m_cols a) (fun i j => - mat_at a i j)) /\
  (s <> 0 -> exists c, Matrix_div a s = Ok c /\ is_matrix c /\
     has_entries c (m_rows a) (m_cols a) (fun i j => mat_at a i j / s)).
Proof.
  intros a s Ha. assert (Hpa : (0 < m_rows a)%nat) by apply (is_matrix_canon a Ha).
  rewrite mul_ok, neg_ok by assumption.
  split; [|split]. 3: intros Hs; rewrite div_ok by assumption.
  all: eexists; (split; [reflexivity|]); split; [apply is_matrix_mat_of, Hpa | apply has_entries_mat_of, Hpa].
Qed.
Print Assumptions C07_matrix_scaling.

(** The Frobenius product is [trace(A^T @ B)]; it is symmetric, gives the squared norm and obeys Cauchy-Schwarz. *)
Theorem C07_scalar_product : forall a b, is_matrix a -> is_matrix b -> m_shape a = m_shape b -> (0 < m_cols a)%nat ->
  exists ta tab p, Matrix_transpose a = Ok ta /\ Matrix_matmul ta b = Ok tab /\
    Matrix_scalar_product a b = Ok p /\ Matrix_trace tab = p /\
    Matrix_scalar_product b a = Ok p /\
    Matrix_scalar_product a a = Ok (Matrix_normsqr a) /\
    p * p <= Matrix_normsqr a * Matrix_normsqr b /\ 0 <= Matrix_normsqr a.
Proof.
  intros a b Ha Hb Hs Hk0. assert (Hpa : (0 < m_rows a)%nat) by apply (is_matrix_canon a Ha).
  rewrite (scalar_product_ok a b Ha Hb Hs), (scalar_product_ok b a Hb Ha (eq_sym Hs)), (scalar_product_ok a a Ha Ha eq_refl),
    (normsqr_ok a Ha), (normsqr_ok b Hb), (transpose_ok a Ha Hk0). injection Hs as Hr Hk.
  eexists. eexists. eexists. split; [reflexivity|].
  rewrite matmul_ok by (try assumption; try (apply is_matrix_mat_of; assumption)). split; [reflexivity|].
  split; [reflexivity|]. rewrite <- Hr, <- Hk. cbn [m_rows m_cols mat_of].
  set (n := m_rows a) in *. set (m := m_cols a) in *. set (f := mat_at a). set (g := mat_at b).
  assert (Hpair : forall h : nat -> nat -> R, sum_below n (fun i => sum_below m (h i)) =
            Rsum (map (fun p => h (fst p) (snd p)) (flat_map (fun i => map (pair i) (range m)) (range n)))).
  { intros h. rewrite flat_map_concat_map, concat_map, Rsum_concat, !map_map, Rsum_range.
    apply sum_below_ext. intros i _. rewrite map_map, Rsum_range. reflexivity. }
  split; [|split; [|split; [reflexivity|split]]].
  - rewrite trace_of, sum_below_swap. apply sum_below_ext. intros i Hi. apply sum_below_ext. intros j Hj. f_equal.
    exact (mat_of_at m n (fun i j => f j i) j i Hj Hi).
  - f_equal. apply sum_below_ext; intros; apply sum_below_ext; intros; ring.
  - rewrite !Hpair. apply cauchy_schwarz with (f := fun p => f (fst p) (snd p)) (g := fun p => g (fst p) (snd p)).
  - apply sum_below_nonneg. intros i _. apply sum_below_nonneg. intros j _. nra.
Qed.
Print Assumptions C07_scalar_product.

Example C07_example : exists a b, Matrix_ [[1; 2]; [3; 4]] = Ok a /\ Matrix_ [[0; 1]; [1; 0]] = Ok b /\
  is_matrix a /\ is_matrix b /\ m_shape a = m_shape b /\ (0 < m_cols a)%nat /\
  Vector_add [1; 2] [3; 4] = Ok [1 + 3; 2 + 4].
Proof. do 2 eexists. split; [reflexivity|]. split; [reflexivity|]. split; [exists [[1; 2]; [3; 4]]; reflexivity|]. split; [exists [[0; 1]; [1; 0]]; reflexivity|].
  repeat split; simpl; lia. Qed.

(** ** C08: Vector.dot. Refuted: there is no size check, the longer vector is silently truncated. *)
Theorem C08_dot_equal_sizes_partial : forall v w : vector R, length v = length w ->
  Vector_dot v w = sum_below (length v) (fun i => nth i v 0 * nth i w 0).
Proof. exact Vector_dot_ok. Qed.
Print Assumptions C08_dot_equal_sizes_partial.

Theorem C08_dot_truncates_refuted :
  (forall v w : vector R, Vector_dot v w =
     Vector_dot (firstn (Nat.min (length v) (length w)) v) (firstn (Nat.min (length v) (length w)) w)) /\
  exists v w : vector R, length v <> length w /\ Vector_dot v w = 11.
Proof.
  split; [exact Vector_dot_firstn|]. exists [1; 2; 5], [3; 4]. split; [simpl; lia|]. unfold Vector_dot, nsum. simpl. ring.
Qed.
Print Assumptions C08_dot_truncates_refuted.

(** ** C09: barycentric coordinates *)
Theorem C09_sum_is_one : forall a b : R, l1 (Bary a b) + l2 (Bary a b) + l3 (Bary a b) = 1 /\
  l1 (Bary a b) = a /\ l2 (Bary a b) = b.
Proof. intros a b. unfold Bary, l1, l2, l3. simpl. repeat split; ring. Qed.
Print Assumptions C09_sum_is_one.

Theorem C09_assert_bounds_partial : forall (b : bary R) lower upper, lower <= upper ->
  (let c := Bary_assert_bounds lower upper b in
   lower <= l1 c <= upper /\ lower <= l2 c <= upper /\ lower <= l3 c <= upper) /\
  (lower <= l1 b <= upper -> lower <= l2 b <= upper -> lower <= l3 b <= upper -> Bary_assert_bounds lower upper b = b).
Proof.
  assert (Hc : forall lower upper x, lower <= upper -> lower <= clamp lower upper x <= upper).
  { intros lo up x H. unfold clamp. cbn [nltb RNum]. destruct (Rltb x lo) eqn:E1; [lra|]. destruct (Rltb up x) eqn:E2; [lra|].
    apply Rltb_false in E1, E2. lra. }
  assert (Hi : forall lower upper x, lower <= x <= upper -> clamp lower upper x = x).
  { intros lo up x H. unfold clamp. cbn [nltb RNum]. rewrite (proj2 (Rltb_false x lo)) by lra. rewrite (proj2 (Rltb_false up x)) by lra. reflexivity. }
  intros [[x y] z] lo up H. split; [cbv [Bary_assert_bounds l1 l2 l3 fst snd]; auto|].
  unfold Bary_assert_bounds, l1, l2, l3. simpl. intros Hx Hy Hz. rewrite !Hi by assumption. reflexivity.
Qed.
Print Assumptions C09_assert_bounds_partial.

(** The documented invariant "the weights sum to 1" does not survive assert_bounds. *)
Theorem C09_assert_bounds_sum_refuted : exists a b : R,
  let c := Bary_assert_bounds 0 1 (Bary a b) in l1 c + l2 c + l3 c = 14 / 10.
Proof.
  exists (5/10), (9/10). unfold Bary_assert_bounds, Bary, l1, l2, l3, clamp. simpl.
  rewrite (proj2 (Rltb_false (5/10) 0)), (proj2 (Rltb_false 1 (5/10))), (proj2 (Rltb_false (9/10) 0)),
    (proj2 (Rltb_false 1 (9/10))), (proj2 (Rltb_true (1 - 5/10 - 9/10) 0)) by lra. lra.
Qed.
Print Assumptions C09_assert_bounds_sum_refuted.

(** How far off: the sum after clamping to [0,1] exceeds 1 by at most the total violation of the lower bound. *)
Theorem C09_sum_error : forall a b : R, let p := Bary a b in let c := Bary_assert_bounds 0 1 p in
  Rabs (l1 c + l2 c + l3 c - 1) <=
    Rmax 0 (- l1 p) + Rmax 0 (- l2 p) + Rmax 0 (- l3 p) + Rmax 0 (l1 p - 1) + Rmax 0 (l2 p - 1) + Rmax 0 (l3 p - 1).
Proof.
  assert (Hc : forall x, clamp 0 1 x - x <= Rmax 0 (- x) /\ x - clamp 0 1 x <= Rmax 0 (x - 1)).
  { intros x. pose proof (Rmax_l 0 (- x)). pose proof (Rmax_r 0 (- x)). pose proof (Rmax_l 0 (x - 1)). pose proof (Rmax_r 0 (x - 1)).
    unfold clamp. simpl. destruct (Rltb x 0) eqn:E1; [apply Rltb_true in E1; lra|]. destruct (Rltb 1 x) eqn:E2; [apply Rltb_true in E2; lra|lra]. }
  assert (Hp : forall x, 0 <= Rmax 0 x) by (intros; apply Rmax_l).
  intros a b. unfold Bary, Bary_assert_bounds, l1, l2, l3. cbn [fst snd nsub n1 RNum].
  pose proof (Hc a) as [A1 A2]. pose proof (Hc b) as [B1 B2]. pose proof (Hc (1 - a - b)) as [C1 C2].
  pose proof (Hp (- a)). pose proof (Hp (- b)). pose proof (Hp (- (1 - a - b))).
  pose proof (Hp (a - 1)). pose proof (Hp (b - 1)). pose proof (Hp (1 - a - b - 1)).
  apply Rabs_le. lra.
Qed.
Print Assumptions C09_sum_error.

(** ** C10: constructors *)
Theorem C10_matrix_constructor : forall data : list (list R),
  (forall m, Matrix_ data = Ok m -> rectangular (m_rows m) (m_cols m) data /\ m_data m = data) /\
  (forall r c, rectangular r c data -> exists m, Matrix_ data = Ok m /\ m_shape m = (r, c)) /\
  (data = [] -> Matrix_ data = Err IndexError) /\
  (forall e, Matrix_ data = Err e -> data = [] \/
     (e = ValueError /\ exists r r', In r data /\ In r' data /\ length r <> length r')).
Proof.
  intros data. split; [|split; [|split]].
  - apply Matrix_ok_inv.
  - intros r c H. rewrite (Matrix_rect r c) by exact H. eexists; split; reflexivity.
  - intros ->. reflexivity.
  - intros e H. destruct (Matrix_err data e H) as [[H1 _]|H1]; auto.
Qed.
Print Assumptions C10_matrix_constructor.

Theorem C10_tensor_constructor : forall data : list (list (list R)),
  (forall t, Tensor3D_ data = Ok t -> rectangular3 (t_d0 t) (t_d1 t) (t_d2 t) data /\ t_data t = data) /\
  (forall d0 d1 d2, rectangular3 d0 d1 d2 data -> exists t, Tensor3D_ data = Ok t /\ t_shape t = (d0, d1, d2)).
Proof.
  intros data. split; [apply Tensor3D_ok_inv|]. intros d0 d1 d2 H. rewrite (Tensor3D_rect d0 d1 d2) by exact H.
  eexists; split; reflexivity.
Qed.
Print Assumptions C10_tensor_constructor.

(** Every operation that returns a matrix or tensor returns a rectangular one (its [data] has its [shape]). *)
Theorem C10_operations_keep_shape_invariant : forall (a b m : matrix R) (v w : vector R) (s : R) (f : R -> R) r c,
  Matrix_matmul a b = Ok m \/ Matrix_transpose a = Ok m \/ Matrix_add a b = Ok m \/ Matrix_sub a b = Ok m \/
  Matrix_mul a s = Ok m \/ Matrix_div a s = Ok m \/ Matrix_neg a = Ok m \/ Matrix_map a f = Ok m \/
  inverse_2x2 a = Ok m \/ Vector_reshape v r c = Ok m \/ Vector_stack v w = Ok m \/ Vector_transpose v = Ok m ->
  is_matrix m /\ rectangular (m_rows m) (m_cols m) (m_data m).
Proof.
  intros a b m v w s f r c H.
  assert (Hm : is_matrix m).
  { assert (Hdiv : forall a' : matrix R, Matrix_div a' s = Ok m -> is_matrix m).
    { intros a' H'. unfold Matrix_div in H'. apply bind_ok in H' as [rows [_ H']]. exists rows; exact H'. }
    repeat destruct H as [H|H]; try (exact (Hdiv _ H)); try (unfold Matrix_matmul, Matrix_transpose, Matrix_add, Matrix_sub, Matrix_mul, Matrix_neg,
      Matrix_map, Vector_reshape, Vector_stack, Vector_transpose in H;
      repeat match type of H with
      | (if ?x then _ else _) = _ => destruct x; [|discriminate]
      | bind _ _ = Ok _ => apply bind_ok in H as [? [_ H]]
      end; eexists; exact H).
    unfold inverse_2x2 in H. destruct (_ && _); [|discriminate].
    apply bind_ok in H as [x1 [_ H]]. apply bind_ok in H as [x2 [_ H]]. apply bind_ok in H as [x3 [_ H]].
    apply bind_ok in H as [x4 [_ H]]. apply bind_ok in H as [x5 [_ H]]. apply bind_ok in H as [x6 [_ H]].
    unfold Matrix_div in H. apply bind_ok in H as [rows [_ H]]. exists rows; exact H. }
  split; [exact Hm|]. apply is_matrix_wfm, Hm.
Qed.
Print Assumptions C10_operations_keep_shape_invariant.

Theorem C10_vector_stack : forall v w : vector R,
  ((exists m, Vector_stack v w = Ok m /\ m_data m = [v; w]) <-> length v = length w) /\
  (length v <> length w -> Vector_stack v w = Err ValueError).
Proof.
  intros v w. unfold Vector_stack. destruct (Nat.eqb_spec (length v) (length w)) as [E|E].
  - split; [|contradiction]. split; [auto|intros _]. rewrite (Matrix_rect 2 (length v)).
    + eexists; split; reflexivity.
    + split; [lia|]. split; [reflexivity|]. intros r [<-|[<-|[]]]; congruence.
  - split; [|reflexivity]. split; [intros [m [H _]]; discriminate | contradiction].
Qed.
Print Assumptions C10_vector_stack.

Theorem C10_matrix_stack : forall a b, is_matrix a -> is_matrix b ->
  ((exists t, Matrix_stack a b = Ok t /\ t_data t = [m_data a; m_data b] /\ t_shape t = (2%nat, m_rows a, m_cols a))
     <-> m_shape a = m_shape b) /\
  (m_shape a <> m_shape b -> Matrix_stack a b = Err ValueError).
Proof.
  intros a b Ha Hb. apply is_matrix_wfm in Ha as [Ha0 [Hal Har]], Hb as [Hb0 [Hbl Hbr]].
  assert (Hok : m_shape a = m_shape b -> Matrix_stack a b = Ok (mkTensor3 2 (m_rows a) (m_cols a) [m_data a; m_data b])).
  { intros Hs. injection Hs as Hr Hc. unfold Matrix_stack. rewrite Hr, Nat.eqb_refl. apply Tensor3D_rect.
    split; [lia|]. split; [lia|]. split; [reflexivity|].
    intros m [<-|[<-|[]]]; (split; [congruence|]); intros r Hr'; [rewrite Har by exact Hr'; reflexivity | rewrite Hbr by exact Hr'; congruence]. }
  assert (Hbad : m_shape a <> m_shape b -> Matrix_stack a b = Err ValueError).
  { intros Hs. unfold Matrix_stack. destruct (Nat.eqb_spec (m_rows a) (m_rows b)) as [E|E]; [|reflexivity].
    assert (Hc : m_cols a <> m_cols b) by (intros Hc; apply Hs; unfold m_shape; congruence).
    destruct (m_data a) as [|ra da] eqn:Ea; [simpl in Hal; lia|]. destruct (m_data b) as [|rb db] eqn:Eb; [simpl in Hbl; lia|].
    unfold Tensor3D_. replace (forallb _ [ra :: da; rb :: db]) with false; [reflexivity|].
    symmetry. apply not_true_iff_false. intros Hf. rewrite forallb_forall in Hf.
    specialize (Hf (rb :: db) (or_intror (or_introl eq_refl))). apply andb_true_iff in Hf as [_ Hf].
    rewrite forallb_forall in Hf. specialize (Hf rb (or_introl eq_refl)). apply Nat.eqb_eq in Hf.
    rewrite (Har ra (or_introl eq_refl)), (Hbr rb (or_introl eq_refl)) in Hf. congruence. }
  split; [|exact Hbad]. split.
  - intros [t [H _]]. destruct (Nat.eq_dec (m_rows a) (m_rows b)) as [E1|E1].
    + destruct (Nat.eq_dec (m_cols a) (m_cols b)) as [E2|E2]; [unfold m_shape; congruence|].
      rewrite Hbad in H; [discriminate|]. intros Hs; injection Hs; auto.
    + rewrite Hbad in H; [discriminate|]. intros Hs; injection Hs; auto.
  - intros Hs. rewrite (Hok Hs). eexists. repeat split.
Qed.
Print Assumptions C10_matrix_stack.

Example C10_example : rectangular 2 3 [[1; 2; 3]; [4; 5; 6]] /\ rectangular3 1 2 2 [[[1; 2]; [3; 4]]].
Proof.
  split.
  - split; [lia|]. split; [reflexivity|]. intros r [<-|[<-|[]]]; reflexivity.
  - split; [lia|]. split; [lia|]. split; [reflexivity|]. intros m [<-|[]]. split; [reflexivity|]. intros r [<-|[<-|[]]]; reflexivity.
Qed.
