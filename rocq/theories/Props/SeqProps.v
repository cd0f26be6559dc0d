(** * C103-C105: vectors, matrices and tensors as Python objects: equality, slices, printing.
    Vocabulary: Spec/TensorSpec.v ([is_matrix], [is_tensor3]), Spec/FloatSpec.v ([real_of], [is_num]), Spec/SeqSpec.v ([bound_at], [plain]). *)
From Coq Require Import ZArith Reals Lra Lia Psatz List String Ascii.
From Flocq Require Import Core BinarySingleNaN PrimFloat Relative Plus_error.
From Coq Require Import Floats.
From Verif.Model Require Import Py Num NumFloat Tensors TensorsX.
From Verif.Spec Require Import TensorSpec FloatSpec SeqSpec.
From Verif.Proofs Require Import Lib TensorsP FloatR SeqEqP SliceP PrintP.
Import ListNotations.
Local Notation length := List.length.
Local Notation concat := List.concat.
Local Open Scope list_scope.
Local Open Scope R_scope.

(** ** C103: what [==] means *)
Theorem C103_vector_equal : forall v w : vector R,
  (Vector_eqb v w = true <-> forall i, Vector_get v i = Vector_get w i) /\
  (forall d, Vector_sub v w = Ok d -> (Vector_eqb v w = true <-> Vector_norm d = 0)).
Proof.
  intros v w. unfold Vector_eqb. split.
  - rewrite list_eqb_spec. split; [intros ->; reflexivity|apply vector_get_ext].
  - intros d E. rewrite list_eqb_spec. unfold Vector_sub in E. destruct (Nat.eqb_spec (length v) (length w)) as [L|]; [|discriminate]. injection E as <-.
    unfold Vector_norm, Vector_normsqr. cbn [nsqrt nmul RNum]. rewrite norm_zero. symmetry. apply zip_sub_zero, L.
Qed.
Print Assumptions C103_vector_equal.
Theorem C103_matrix_equal : forall a b, is_matrix a -> is_matrix b ->
  (Matrix_eqb a b = true <-> m_shape a = m_shape b /\ forall i j, Matrix_get a i j = Matrix_get b i j) /\
  (forall d, Matrix_sub a b = Ok d -> (Matrix_eqb a b = true <-> Matrix_norm d = 0)).
Proof.
  intros a b [da Ha] [db Hb]. destruct (Matrix_ok_inv _ _ Ha) as ((Pa & La & Ra) & Da). destruct (Matrix_ok_inv _ _ Hb) as ((Pb & Lb & Rb) & Db). unfold Matrix_eqb. rewrite rows_eqb_spec.
  assert (Same : m_data a = m_data b -> a = b). { intros E. assert (da = db) by congruence. subst. congruence. }
  split.
  - split; [intros E; rewrite (Same E); split; reflexivity|]. intros [S G]. injection S as S1 S2. rewrite Da, Db. apply (rows_ext da db (m_rows a) (m_cols a)); [exact La|congruence|exact Ra|intros r Hr; rewrite (Rb r Hr); auto|].
    intros i j Hi Hj. specialize (G (Z.of_nat i) (Z.of_nat j)). unfold Matrix_get in G. rewrite <- S1, <- S2, Da, Db in G.
    destruct (Z.ltb_spec (Z.of_nat i) 0); [lia|]. destruct (Z.leb_spec (Z.of_nat (m_rows a)) (Z.of_nat i)); [lia|]. destruct (Z.ltb_spec (Z.of_nat j) 0); [lia|]. destruct (Z.leb_spec (Z.of_nat (m_cols a)) (Z.of_nat j)); [lia|]. exact G.
  - intros d E. rewrite rows_eqb_spec. unfold Matrix_sub in E. destruct (shape_eqb a b) eqn:S; [|discriminate]. apply shape_eqb_spec in S. injection S as S1 S2. apply Matrix_ok_inv in E as [_ E].
    unfold Matrix_norm, Matrix_normsqr. cbn [nsqrt nmul RNum]. rewrite E, norm_zero, Da, Db. symmetry. apply (zip_rows_sub_zero da db (m_cols a)); [congruence|exact Ra|intros r Hr; rewrite (Rb r Hr); auto].
Qed.
Print Assumptions C103_matrix_equal.
Theorem C103_tensor_equal : forall a b, is_tensor3 a -> is_tensor3 b ->
  (Tensor3D_eqb a b = true <-> t_shape a = t_shape b /\ forall i j k, Tensor3D_get a i j k = Tensor3D_get b i j k) /\
  (forall d, Tensor3D_sub a b = Ok d -> (Tensor3D_eqb a b = true <-> Tensor3D_norm d = 0)).
Proof.
  intros a b [da Ha] [db Hb]. destruct (Tensor3D_ok_inv _ _ Ha) as ((Pa & Qa & La & Ra) & Da). destruct (Tensor3D_ok_inv _ _ Hb) as ((Pb & Qb & Lb & Rb) & Db). unfold Tensor3D_eqb. rewrite mats_eqb_spec.
  assert (Same : t_data a = t_data b -> a = b). { intros E. assert (da = db) by congruence. subst. congruence. }
  split.
  - split; [intros E; rewrite (Same E); split; reflexivity|]. intros [S G]. injection S as S1 S2 S3. rewrite Da, Db. apply nth_ext_error; [congruence|]. intros i Hi.
    destruct (py_index_nth da i Hi) as (q & E & Eq). destruct (py_index_nth db i ltac:(lia)) as (q' & F & Fq). rewrite Eq, Fq. f_equal.
    destruct (Ra q (nth_error_In _ _ Eq)) as [L1 R1]. destruct (Rb q' (nth_error_In _ _ Fq)) as [L2 R2]. apply (rows_ext q q' (t_d1 a) (t_d2 a)); [exact L1|congruence|exact R1|intros r Hr; rewrite (R2 r Hr); auto|].
    intros j k Hj Hk. specialize (G (Z.of_nat i) (Z.of_nat j) (Z.of_nat k)). unfold Tensor3D_get in G. rewrite <- S1, Da, Db in G. destruct (Z.ltb_spec (Z.of_nat i) 0); [lia|].
    destruct (Z.leb_spec (Z.of_nat (t_d0 a)) (Z.of_nat i)); [lia|]. cbn [orb] in G. rewrite E, F in G. exact G.
  - intros d E. rewrite mats_eqb_spec. unfold Tensor3D_sub in E. destruct (shape3_eqb a b) eqn:S; [|discriminate]. unfold shape3_eqb in S. apply andb_true_iff in S as [S S3]. apply andb_true_iff in S as [S1 S2]. apply Nat.eqb_eq in S1, S2, S3.
    apply Tensor3D_ok_inv in E as [_ E]. unfold Tensor3D_norm, Tensor3D_normsqr. cbn [nsqrt nmul RNum]. rewrite E, norm_zero, Da, Db. symmetry. apply (zip_mats_sub_zero da db (t_d1 a) (t_d2 a)); [congruence|exact Ra|].
    intros q Hq. destruct (Rb q Hq) as [X Y]. split; [congruence|]. intros r Hr. rewrite (Y r Hr). auto.
Qed.
Print Assumptions C103_tensor_equal.
(** In binary64: equal means the same numbers, and, thanks to gradual underflow, a zero difference. *)
Theorem C103_float_equal : forall v w d : vector float, (forall x, In x v -> is_num x) -> (forall x, In x w -> is_num x) ->
  (Vector_eqb v w = true <-> map real_of v = map real_of w) /\
  (Vector_sub v w = Ok d -> (Vector_eqb v w = true <-> forall x, In x d -> is_num x /\ real_of x = 0)).
Proof.
  assert (S : forall x y, is_num x -> is_num y -> (real_of x = real_of y <-> is_num (x - y)%float /\ real_of (x - y)%float = 0)).
  { intros x y Nx Ny. split.
    - intros E. destruct (fsub x y Nx Ny) as [A B]; [rewrite E, Rminus_diag_eq, Rabs_R0 by reflexivity; unfold bound; apply bpow_ge_0|]. split; [exact A|]. rewrite B, E, Rminus_diag_eq, rnd_0 by reflexivity. reflexivity.
    - intros [Nd Z]. destruct (Req_dec (real_of x) (real_of y)) as [|D]; [assumption|exfalso]. revert Nx Ny Nd Z. rewrite !is_num_B, (real_of_B (x - y)%float), sub_equiv. intros Nx Ny Nd Z.
      pose proof (Bminus_correct prec emax Hprec Hmax mode_NE _ _ Nx Ny) as K. match type of K with (if ?c then _ else _) => destruct c end.
      + destruct K as (K & _). rewrite Z in K. rewrite <- !real_of_B in K. symmetry in K. unfold Rminus in K. apply (@round_plus_neq_0 radix2 (FLT_exp (-1074) 53) (@FLT_exp_valid (-1074) 53 p53) (@monotone_exp_not_FTZ _ (@FLT_exp_valid (-1074) 53 p53) (@FLT_exp_monotone (-1074) 53)) ZnearestE (valid_rnd_N _) (real_of x) (- real_of y) (real_of_format x)) in K; [exact K| |lra].
        apply generic_format_opp, real_of_format.
      + destruct K as (K & _). unfold binary_overflow in K. cbn [overflow_to_inf] in K. destruct (Bminus mode_NE (Prim2B x) (Prim2B y)); cbn in K, Nd; discriminate. }
  intros v. unfold Vector_eqb. induction v as [|x v IH]; intros [|y w] d Hv Hw; cbn [list_eqb map].
  - split; [tauto|]. intros E. injection E as <-. split; [intros _ x []|reflexivity].
  - split; [split; discriminate|discriminate].
  - split; [split; discriminate|discriminate].
  - assert (Nx : is_num x) by (apply Hv; left; reflexivity). assert (Ny : is_num y) by (apply Hw; left; reflexivity).
    pose proof (fun d => IH w d (fun z Hz => Hv z (or_intror Hz)) (fun z Hz => Hw z (or_intror Hz))) as J. cbn [neqb FNum]. rewrite feqb, andb_true_iff by assumption.
    assert (Q : Req_bool (real_of x) (real_of y) = true <-> real_of x = real_of y) by (destruct (Req_bool_spec (real_of x) (real_of y)); intuition congruence). rewrite Q. split.
    + rewrite (proj1 (J [])). split; [intros [-> ->]; reflexivity|intros E; injection E; auto].
    + intros E. unfold Vector_sub in E. destruct (Nat.eqb_spec (length (x :: v)) (length (y :: w))) as [L|]; [|discriminate]. injection L as L. cbn [zip combine map nsub FNum] in E. injection E as <-.
      assert (E' : Vector_sub v w = Ok (map (fun '(x, y) => (x - y)%float) (zip v w))) by (unfold Vector_sub; rewrite L, Nat.eqb_refl; reflexivity). rewrite (proj2 (J _) E'), (S x y Nx Ny). split.
      * intros [A B] z [<-|Hz]; [exact A|exact (B z Hz)].
      * intros H. split; [apply H; left; reflexivity|]. intros z Hz. apply H. right. exact Hz.
Qed.
Print Assumptions C103_float_equal.
(** The norm of the difference does not decide equality of float vectors: squares underflow. *)
Theorem C103_float_norm_underflows : exists v w d : vector float,
  Vector_eqb v w = false /\ Vector_sub v w = Ok d /\ Vector_norm d = 0%float.
Proof. exists [1e-200%float; 0%float], [0%float; 0%float]. eexists. split; [vm_compute; reflexivity|]. split; [reflexivity|]. vm_compute. reflexivity. Qed.
Print Assumptions C103_float_norm_underflows.
(** Examples: 2 x 2 matrices differing in one entry; -0.0 equals 0.0. *)
Example C103_example : exists a b d, Matrix_ [[1; 2]; [3; 4]] = Ok a /\ Matrix_ [[1; 2]; [3; 5]] = Ok b /\ Matrix_sub a b = Ok d /\ Matrix_eqb a b = false /\
  Vector_eqb [(-0)%float] [0%float] = true.
Proof.
  do 3 eexists. split; [reflexivity|]. split; [reflexivity|]. split; [reflexivity|]. split; [|vm_compute; reflexivity].
  destruct (Matrix_eqb _ _) eqn:E; [|reflexivity]. exfalso. unfold Matrix_eqb in E. apply rows_eqb_spec in E. cbn in E. injection E. lra.
Qed.

(** ** C104: slices *)
Theorem C104_slice_total : forall (v : vector R) start stop step,
  (step = Some 0%Z -> Vector_slice v (mkSlice start stop step) = Err ValueError) /\
  (step <> Some 0%Z ->
     let c := match step with None => 1%Z | Some c => c end in
     let a := slice_bound (length v) c true start in let b := slice_bound (length v) c false stop in
     exists w, Vector_slice v (mkSlice start stop step) = Ok w /\
       (forall k, (k < length w)%nat <-> before c (a + Z.of_nat k * c) b) /\
       (forall k, (k < length w)%nat -> Vector_get w (Z.of_nat k) = Vector_get v (a + Z.of_nat k * c) /\ (0 <= a + Z.of_nat k * c < Z.of_nat (length v))%Z)).
Proof.
  intros v start stop step. split; [intros ->; reflexivity|]. intros Hs c a b. unfold Vector_slice.
  assert (Hc : c <> 0%Z) by (unfold c; destruct step as [c'|]; [congruence|discriminate]).
  assert (AD : forall first d o, d = slice_bound (length v) c first None -> adjust (Z.of_nat (length v)) c d o = slice_bound (length v) c first o).
  { intros first d o ->. unfold adjust, slice_bound. destruct o as [x|]; [|reflexivity]. destruct (Z.ltb_spec c 0), (Z.ltb_spec x 0); repeat (match goal with |- context [Z.ltb ?p ?q] => destruct (Z.ltb_spec p q) end); lia. }
  assert (E : slice_indices (Z.of_nat (length v)) (mkSlice start stop step) = Ok (a, b, c)).
  { unfold slice_indices. cbn [sl_start sl_stop sl_step]. fold c. destruct (Z.eqb_spec c 0); [contradiction|]. rewrite (AD true), (AD false); [reflexivity| |]; unfold slice_bound; destruct (Z.ltb_spec c 0); reflexivity. }
  destruct (slice_ok v _ a b c E) as (_ & B & w & W & L & N). exists w. split; [exact W|]. split.
  - intros k. rewrite L. unfold before, range_len. destruct (Z.ltb_spec 0 c) as [P|P]; destruct (Z.ltb_spec c 0) as [Q|Q]; try lia.
    + destruct (Z.ltb_spec a b); [|nia]. pose proof (Z.div_mod (b - a - 1) c ltac:(lia)) as D. pose proof (Z.mod_pos_bound (b - a - 1) c P) as M. pose proof (Z.div_pos (b - a - 1) c ltac:(lia) ltac:(lia)) as Dp.
      set (q := ((b - a - 1) / c)%Z) in *. clearbody q. clear -D M Dp P. set (kz := Z.of_nat k). assert (X : (k < Z.to_nat (q + 1))%nat <-> (kz <= q)%Z) by (unfold kz; lia). rewrite X. assert (0 <= kz)%Z by (unfold kz; lia). clearbody kz. clear X. split; intros; nia.
    + destruct (Z.ltb_spec b a); [|nia]. pose proof (Z.div_mod (a - b - 1) (- c) ltac:(lia)) as D. pose proof (Z.mod_pos_bound (a - b - 1) (- c) ltac:(lia)) as M. pose proof (Z.div_pos (a - b - 1) (- c) ltac:(lia) ltac:(lia)) as Dp.
      set (q := ((a - b - 1) / - c)%Z) in *. clearbody q. clear -D M Dp Q. set (kz := Z.of_nat k). assert (X : (k < Z.to_nat (q + 1))%nat <-> (kz <= q)%Z) by (unfold kz; lia). rewrite X. assert (0 <= kz)%Z by (unfold kz; lia). clearbody kz. clear X. split; intros; nia.
  - intros k Hk. assert (Bk := B k ltac:(lia)). split; [|exact Bk]. unfold Vector_get. destruct (Z.ltb_spec (Z.of_nat k) 0); [lia|]. destruct (Z.leb_spec (Z.of_nat (length w)) (Z.of_nat k)); [lia|].
    destruct (Z.ltb_spec (a + Z.of_nat k * c) 0); [lia|]. destruct (Z.leb_spec (Z.of_nat (length v)) (a + Z.of_nat k * c)); [lia|]. cbn [orb].
    destruct (py_index_nth w k Hk) as (x & X & X'). rewrite X. destruct (index_in v (a + Z.of_nat k * c) Bk) as (y & Y & Y'). rewrite Y. rewrite (N k Hk), Y' in X'. congruence.
Qed.
Print Assumptions C104_slice_total.
(** [v[a:b]], [v[:b]], [v[a:]]: the entries from bound [a] up to bound [b]. *)
Lemma slice_step1 (v : vector R) start stop a b : slice_indices (Z.of_nat (length v)) (mkSlice start stop None) = Ok (Z.of_nat a, Z.of_nat b, 1%Z) -> (a <= length v)%nat -> (b <= length v)%nat ->
  Vector_slice v (mkSlice start stop None) = Ok (firstn (b - a) (skipn a v)).
Proof.
  intros E Ha Hb. destruct (slice_ok v _ _ _ _ E) as (_ & _ & w & W & L & N). unfold Vector_slice. rewrite W. apply (f_equal Ok).
  assert (L' : length w = (b - a)%nat). { rewrite L. unfold range_len. change (0 <? 1)%Z with true. cbn iota. destruct (Z.ltb_spec (Z.of_nat a) (Z.of_nat b)); [rewrite Z.div_1_r; lia|lia]. }
  apply nth_ext_error; [rewrite firstn_length, skipn_length; lia|]. intros j Hj. rewrite (N j Hj), nth_error_firstn_skipn by lia. f_equal. lia.
Qed.
Lemma bound_at_le len b : (bound_at len b <= len)%nat.
Proof. unfold bound_at. lia. Qed.
Theorem C104_contiguous : forall (v : vector R) a b, let n := length v in
  Vector_slice v (mkSlice (Some a) (Some b) None) = Ok (firstn (bound_at n b - bound_at n a) (skipn (bound_at n a) v)) /\
  Vector_slice v (mkSlice None (Some b) None) = Ok (firstn (bound_at n b) v) /\
  Vector_slice v (mkSlice (Some a) None None) = Ok (skipn (bound_at n a) v) /\
  Vector_slice v (mkSlice None None None) = Ok v.
Proof.
  intros v a b n. pose proof (bound_at_le n a) as A. pose proof (bound_at_le n b) as B. split; [|split; [|split]].
  - apply slice_step1; [|exact A|exact B]. unfold slice_indices. cbn [sl_start sl_stop sl_step]. change (1 =? 0)%Z with false. cbn iota. rewrite !adjust_bound. reflexivity.
  - rewrite (slice_step1 v None (Some b) 0 (bound_at n b)); [rewrite Nat.sub_0_r; reflexivity| |lia|exact B]. unfold slice_indices. cbn [sl_start sl_stop sl_step]. change (1 =? 0)%Z with false. cbn iota. rewrite !adjust_bound. reflexivity.
  - rewrite (slice_step1 v (Some a) None (bound_at n a) n); [| |exact A|unfold n; lia].
    + rewrite firstn_all2; [reflexivity|rewrite skipn_length; unfold n; lia].
    + unfold slice_indices. cbn [sl_start sl_stop sl_step]. change (1 =? 0)%Z with false. cbn iota. rewrite !adjust_bound. reflexivity.
  - rewrite (slice_step1 v None None 0 n); [|reflexivity|lia|unfold n; lia]. rewrite Nat.sub_0_r. unfold n. cbn [skipn]. rewrite firstn_all. reflexivity.
Qed.
Print Assumptions C104_contiguous.
(** For every integer k, [v[:k].extend(v[k:]) == v]. *)
Theorem C104_split : forall (v : vector R) k,
  (let* front := Vector_slice v (mkSlice None (Some k) None) in let* back := Vector_slice v (mkSlice (Some k) None None) in Ok (Vector_extend front back)) = Ok v.
Proof.
  intros v k. destruct (C104_contiguous v k k) as (_ & E1 & E2 & _). rewrite E1, E2. cbn [bind]. unfold Vector_extend. rewrite firstn_skipn. reflexivity.
Qed.
Print Assumptions C104_split.
(** [v[::-1]] is [v] reversed. *)
Theorem C104_reverse : forall v : vector R, Vector_slice v (mkSlice None None (Some (-1)%Z)) = Ok (rev v).
Proof.
  intros v. destruct (slice_ok v (mkSlice None None (Some (-1)%Z)) (Z.of_nat (length v) - 1) (-1) (-1) eq_refl) as (_ & B & w & W & L & N). unfold Vector_slice. rewrite W. apply (f_equal Ok).
  assert (L' : length w = length v). { rewrite L. unfold range_len. change (0 <? -1)%Z with false. cbn iota. change (- (-1))%Z with 1%Z. rewrite Z.div_1_r. destruct (Z.ltb_spec (-1) (Z.of_nat (length v) - 1)); lia. }
  apply nth_ext_error; [rewrite rev_length; exact L'|]. intros j Hj. rewrite (N j Hj). destruct (nth_error v _) as [x|] eqn:E; [|apply nth_error_None in E; lia].
  apply (nth_error_nth v _ 0) in E. symmetry. rewrite (nth_error_nth' (rev v) 0) by (rewrite rev_length; lia). f_equal. rewrite rev_nth by lia. rewrite <- E. f_equal. lia.
Qed.
Print Assumptions C104_reverse.
(** [v[::c]], c > 0: every c-th entry, the length divided by c and rounded up. *)
Theorem C104_stride : forall (v : vector R) c, (0 < c)%nat -> exists w, Vector_slice v (mkSlice None None (Some (Z.of_nat c))) = Ok w /\
  (length v <= c * length w < length v + c)%nat /\ forall k, (k < length w)%nat -> Vector_get w (Z.of_nat k) = Vector_get v (Z.of_nat (k * c)).
Proof.
  intros v c Hc. assert (E : slice_indices (Z.of_nat (length v)) (mkSlice None None (Some (Z.of_nat c))) = Ok (0%Z, Z.of_nat (length v), Z.of_nat c)).
  { unfold slice_indices. cbn [sl_start sl_stop sl_step]. destruct (Z.eqb_spec (Z.of_nat c) 0); [lia|]. unfold adjust. destruct (Z.ltb_spec (Z.of_nat c) 0); [lia|reflexivity]. }
  destruct (slice_ok v _ _ _ _ E) as (_ & B & w & W & L & N). exists w. split; [exact W|]. split.
  - rewrite L. unfold range_len. destruct (Z.ltb_spec 0 (Z.of_nat c)); [|lia]. destruct (Z.ltb_spec 0 (Z.of_nat (length v))); [|lia].
    pose proof (Z.div_mod (Z.of_nat (length v) - 0 - 1) (Z.of_nat c) ltac:(lia)) as D. pose proof (Z.mod_pos_bound (Z.of_nat (length v) - 0 - 1) (Z.of_nat c) ltac:(lia)) as M.
    pose proof (Z.div_pos (Z.of_nat (length v) - 0 - 1) (Z.of_nat c) ltac:(lia) ltac:(lia)) as P. set (q := ((Z.of_nat (length v) - 0 - 1) / Z.of_nat c)%Z) in *. nia.
  - intros k Hk. assert (Bk := B k ltac:(lia)). unfold Vector_get. destruct (Z.ltb_spec (Z.of_nat k) 0); [lia|]. destruct (Z.leb_spec (Z.of_nat (length w)) (Z.of_nat k)); [lia|].
    destruct (Z.ltb_spec (Z.of_nat (k * c)) 0); [lia|]. destruct (Z.leb_spec (Z.of_nat (length v)) (Z.of_nat (k * c))); [lia|]. cbn [orb].
    destruct (py_index_nth w k Hk) as (x & X & X'). rewrite X. destruct (py_index_nth v (k * c) ltac:(nia)) as (y & Y & Y'). rewrite Y. rewrite (N k Hk) in X'. replace (Z.to_nat (0 + Z.of_nat k * Z.of_nat c)) with (k * c)%nat in X' by lia. congruence.
Qed.
Print Assumptions C104_stride.
Example C104_example : Vector_slice [10; 11; 12; 13; 14] (mkSlice (Some (-4)%Z) (Some 9%Z) (Some 2%Z)) = Ok [11; 13] /\ Vector_slice [10; 11; 12; 13; 14] (mkSlice (Some 9%Z) (Some (-5)%Z) (Some (-3)%Z)) = Ok [14; 11].
Proof. split; reflexivity. Qed.

(** ** C105: printed texts *)
(** [show] stands for Python's [repr] (or [str]) of an entry, known only to be a number without punctuation. *)
Theorem C105_vector_text : forall (show : R -> string) (v w : vector R), (forall x, plain (show x)) ->
  (Vector_repr show v = Vector_repr show w <-> map show v = map show w) /\
  (Vector_str show v = Vector_str show w <-> map show v = map show w).
Proof.
  intros show v w P. unfold Vector_repr, Vector_str. split; split; try (intros E; rewrite E; reflexivity); intros E.
  - apply (sapp_inj "Vector([") in E. apply (entries_inj show P "," " " "]" ")"); [..|exact E]; unfold pstop, punctuation; cbn; try tauto; discriminate.
  - apply (sapp_inj "[") in E. apply (entries_inj show P " " "" "]" ""); [..|exact E]; unfold pstop, punctuation; cbn; try tauto; discriminate.
Qed.
Print Assumptions C105_vector_text.
Theorem C105_barycentric_text : forall (show : R -> string) (p q : bary R), (forall x, plain (show x)) ->
  (Bary_repr show p = Bary_repr show q <-> show (l1 p) = show (l1 q) /\ show (l2 p) = show (l2 q) /\ show (l3 p) = show (l3 q)) /\
  (Bary_str show p = Bary_str show q <-> show (l1 p) = show (l1 q) /\ show (l2 p) = show (l2 q) /\ show (l3 p) = show (l3 q)).
Proof.
  intros show p q P. unfold Bary_repr, Bary_str. split; (split; [|intros (E1 & E2 & E3); unfold Bary_iter; cbn [map]; rewrite E1, E2, E3; reflexivity]); intros E.
  - apply (sapp_inj "BarycentricCoordinates(") in E. apply (entries_inj show P "," " " ")" "") in E; [|unfold pstop, punctuation; cbn; try tauto; discriminate..]. unfold Bary_iter in E. cbn [map] in E. injection E. auto.
  - apply (sapp_inj "(") in E. apply (entries_inj show P "," " " ")" "") in E; [|unfold pstop, punctuation; cbn; try tauto; discriminate..]. unfold Bary_iter in E. cbn [map] in E. injection E. auto.
Qed.
Print Assumptions C105_barycentric_text.
Theorem C105_matrix_text : forall (show : R -> string) a b, is_matrix a -> is_matrix b -> (forall x, plain (show x)) ->
  (exists t, Matrix_repr show a = Ok t) /\ (exists t, Matrix_str show a = Ok t) /\
  (Matrix_repr show a = Matrix_repr show b <-> map (map show) (m_data a) = map (map show) (m_data b)) /\
  (Matrix_str show a = Matrix_str show b <-> map (map show) (m_data a) = map (map show) (m_data b)).
Proof.
  intros show a b [da Ha] [db Hb] P. destruct (Matrix_ok_inv _ _ Ha) as ((Pa & La & Ra) & Da). destruct (Matrix_ok_inv _ _ Hb) as ((Pb & Lb & Rb) & Db).
  unfold Matrix_repr, Matrix_str. rewrite Da, Db, <- La, <- Lb. rewrite !show_rows_ok by assumption. cbn [bind]. split; [eauto|]. split; [eauto|].
  assert (T : forall sep, map (map show) da = map (map show) db -> map (rowtext show sep) da = map (rowtext show sep) db).
  { intros sep. clear. revert db. induction da as [|r da IH]; intros [|s db] E; try discriminate; [reflexivity|]. cbn [map] in *. pose proof (f_equal (hd []) E) as E1. pose proof (f_equal (@tl _) E) as E2. cbn [hd tl] in E1, E2.
    rewrite (IH db E2). f_equal. unfold rowtext. rewrite E1. reflexivity. }
  split; (split; [intros E; injection E as E|intros E; rewrite (T _ E); reflexivity]).
  - apply (rows_inj show P "," "," " " _ ")" da db) in E; [exact E|unfold pstop, punctuation; cbn; tauto|discriminate| |discriminate|discriminate].
    apply nobr_balanced. intros c Hc. cbn in Hc. destruct Hc as [<-|[<-|[]]]; split; discriminate.
  - apply (rows_inj show P " " (ascii_of_nat 10) "" _ "" da db) in E; [exact E|unfold pstop, punctuation; cbn; tauto|discriminate| |discriminate|discriminate].
    apply nobr_balanced. intros c Hc. cbn in Hc. destruct Hc as [<-|[]]; split; discriminate.
Qed.
Print Assumptions C105_matrix_text.
Theorem C105_tensor_text : forall (show : R -> string) a b, is_tensor3 a -> is_tensor3 b -> (forall x, plain (show x)) ->
  (exists t, Tensor3D_repr show a = Ok t) /\ (exists t, Tensor3D_str show a = Ok t) /\
  (Tensor3D_repr show a = Tensor3D_repr show b <-> map (map (map show)) (t_data a) = map (map (map show)) (t_data b)) /\
  (Tensor3D_str show a = Tensor3D_str show b <-> map (map (map show)) (t_data a) = map (map (map show)) (t_data b)).
Proof.
  intros show a b [da Ha] [db Hb] P. destruct (Tensor3D_ok_inv _ _ Ha) as ((Pa & Qa & La & Ra) & Da). destruct (Tensor3D_ok_inv _ _ Hb) as ((Pb & Qb & Lb & Rb) & Db).
  assert (B2 : balanced ", ") by (apply nobr_balanced; intros c Hc; cbn in Hc; destruct Hc as [<-|[<-|[]]]; split; discriminate).
  assert (SP : forall n c, In c (chars (spaces n)) -> c = " "%char) by (intros n c; induction n as [|n IH]; cbn; [tauto|intros [<-|H]; auto]).
  assert (B3 : forall n, balanced (String "," (newline ++ " " ++ spaces n))).
  { intros n. apply nobr_balanced. intros c Hc. cbn in Hc. destruct Hc as [<-|[<-|[<-|Hc]]]; try (split; discriminate). apply SP in Hc as ->. split; discriminate. }
  assert (OKt : forall (t : tensor3 R) dt opening closing, t_data t = dt -> length dt = t_d0 t -> (forall m, In m dt -> length m = t_d1 t /\ forall r, In r m -> length r = t_d2 t) ->
    show_tensor show opening closing t = Ok (opening ++ join ("," ++ newline ++ spaces (String.length opening)) (map (mattext show ("," ++ newline ++ " " ++ spaces (String.length opening)) ", ") dt) ++ closing)%string).
  { intros t dt opening closing D L H. unfold show_tensor. rewrite D, <- L.
    rewrite (mapM_range_list (fun mat => let* rows := show_rows show ", " mat (t_d1 t) (t_d2 t) in Ok ("[" ++ join ("," ++ newline ++ " " ++ spaces (String.length opening)) rows ++ "]")%string) (mattext show ("," ++ newline ++ " " ++ spaces (String.length opening)) ", ") dt); [reflexivity|].
    intros m Hm. destruct (H m Hm) as [H1 H2]. rewrite <- H1, show_rows_ok by exact H2. reflexivity. }
  unfold Tensor3D_repr, Tensor3D_str. rewrite !(OKt a da), !(OKt b db) by assumption. split; [eauto|]. split; [eauto|]. rewrite Da, Db.
  assert (T0 : forall sep (x y : list (list R)), map (map show) x = map (map show) y -> map (rowtext show sep) x = map (rowtext show sep) y).
  { intros sep x. clear. induction x as [|r x IH]; intros [|s y] E; try discriminate; [reflexivity|]. cbn [map] in *. pose proof (f_equal (hd []) E) as E1. pose proof (f_equal (@tl _) E) as E2. cbn [hd tl] in E1, E2.
    rewrite (IH y E2). f_equal. unfold rowtext. rewrite E1. reflexivity. }
  assert (T : forall sep0 sep, map (map (map show)) da = map (map (map show)) db -> map (mattext show sep0 sep) da = map (mattext show sep0 sep) db).
  { intros sep0 sep. clear -T0. revert db. induction da as [|r da IH]; intros [|s db] E; try discriminate; [reflexivity|]. cbn [map] in *. pose proof (f_equal (hd []) E) as E1. pose proof (f_equal (@tl _) E) as E2. cbn [hd tl] in E1, E2.
    rewrite (IH db E2). f_equal. unfold mattext. rewrite (T0 sep _ _ E1). reflexivity. }
  split; (split; [intros E; injection E as E|intros E; rewrite (T _ _ E); reflexivity]).
  - apply (mats_inj show P "," "," "," " " _ _ ")" da db) in E; [exact E|unfold pstop, punctuation; cbn; tauto|discriminate|exact B2|discriminate|discriminate|exact (B3 10%nat)|discriminate|discriminate].
  - apply (mats_inj show P "," "," "," " " _ _ "" da db) in E; [exact E|unfold pstop, punctuation; cbn; tauto|discriminate|exact B2|discriminate|discriminate|exact (B3 1%nat)|discriminate|discriminate].
Qed.
Print Assumptions C105_tensor_text.
(** Example: numbers printed as "0" or "1". *)
Definition show01 (x : R) : string := if Rltb 0 x then "1" else "0".
Example C105_example : (forall x, plain (show01 x)) /\ exists m, Matrix_ [[0; 1]; [1; 1]] = Ok m /\
  Matrix_str show01 m = Ok ("[[0 1]" ++ String (ascii_of_nat 10) " [1 1]]")%string /\
  Matrix_repr show01 m = Ok ("Matrix([[0, 1]," ++ String (ascii_of_nat 10) "        [1, 1]])")%string.
Proof.
  split; [intros x; unfold show01; destruct (Rltb 0 x); (split; [discriminate|]; intros c [<-|[]]; unfold punctuation; cbn; intuition discriminate)|].
  eexists. split; [reflexivity|]. unfold Matrix_str, Matrix_repr, show_rows, show_row, show01. cbn. rewrite (proj2 (Rltb_true 0 1)), (proj2 (Rltb_false 0 0)) by lra. split; reflexivity.
Qed.
