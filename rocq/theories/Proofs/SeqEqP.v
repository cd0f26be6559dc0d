(** Equality of vectors, matrices, tensors through their entries and differences. *)
From Coq Require Import Reals Lra Lia ZArith List.
From Verif.Model Require Import Py Num Tensors TensorsX.
From Verif.Spec Require Import TensorSpec.
From Verif.Proofs Require Import Lib TensorsP SliceP.
Import ListNotations.
Local Open Scope R_scope.

Lemma mats_eqb_spec (v w : list (list (list R))) : mats_eqb v w = true <-> v = w.
Proof.
  revert w; induction v as [|x v IH]; intros [|y w]; cbn [mats_eqb]; split; intros H; try discriminate; try reflexivity.
  - apply andb_true_iff in H as [H1 H2]. apply rows_eqb_spec in H1. apply IH in H2. congruence.
  - injection H as <- <-. apply andb_true_iff; split; [apply rows_eqb_spec; reflexivity | apply IH; reflexivity].
Qed.
Lemma py_index_nth {A} (l : list A) i : (i < length l)%nat -> exists a, py_index l (Z.of_nat i) = Ok a /\ nth_error l i = Some a.
Proof.
  intros H. unfold py_index. destruct (Z.ltb_spec (Z.of_nat i) 0); [lia|]. destruct (Z.ltb_spec (Z.of_nat i) 0); [lia|]. rewrite Nat2Z.id.
  destruct (nth_error l i) as [a|] eqn:E; [eauto|]. apply nth_error_None in E. lia.
Qed.
Lemma vector_get_ext {A} (v w : list A) : (forall i, Vector_get v i = Vector_get w i) -> v = w.
Proof.
  intros H. assert (L : forall v w : list A, (forall i, Vector_get v i = Vector_get w i) -> (length w <= length v)%nat).
  { clear. intros v w H. destruct (le_lt_dec (length w) (length v)) as [|Q]; [assumption|]. specialize (H (Z.of_nat (length v))). unfold Vector_get in H.
    destruct (Z.ltb_spec (Z.of_nat (length v)) 0); [lia|]. destruct (Z.leb_spec (Z.of_nat (length v)) (Z.of_nat (length v))); [|lia]. destruct (Z.leb_spec (Z.of_nat (length w)) (Z.of_nat (length v))); [lia|]. cbn [orb] in H.
    destruct (py_index_nth w (length v) Q) as (a & E & _). congruence. }
  pose proof (L v w H) as L1. pose proof (L w v (fun i => eq_sym (H i))) as L2. apply nth_ext_error; [lia|]. intros j Hj.
  specialize (H (Z.of_nat j)). unfold Vector_get in H. destruct (Z.ltb_spec (Z.of_nat j) 0); [lia|].
  destruct (Z.leb_spec (Z.of_nat (length v)) (Z.of_nat j)); [lia|]. destruct (Z.leb_spec (Z.of_nat (length w)) (Z.of_nat j)); [lia|]. cbn [orb] in H.
  destruct (py_index_nth v j Hj) as (a & E & Ea). destruct (py_index_nth w j ltac:(lia)) as (b & F & Fb). congruence.
Qed.
Lemma rows_ext (a b : list (list R)) n m : length a = n -> length b = n -> (forall r, In r a -> length r = m) -> (forall r, In r b -> length r = m) ->
  (forall i j, (i < n)%nat -> (j < m)%nat -> (let* r := py_index a (Z.of_nat i) in py_index r (Z.of_nat j)) = (let* r := py_index b (Z.of_nat i) in py_index r (Z.of_nat j))) -> a = b.
Proof.
  intros La Lb Ra Rb H. apply nth_ext_error; [congruence|]. intros i Hi. rewrite La in Hi. destruct (py_index_nth a i ltac:(lia)) as (r & E & Er). destruct (py_index_nth b i ltac:(lia)) as (r' & F & Fr).
  rewrite Er, Fr. f_equal. pose proof (Ra r (nth_error_In _ _ Er)) as L1. pose proof (Rb r' (nth_error_In _ _ Fr)) as L2. apply nth_ext_error; [congruence|]. intros j Hj. specialize (H i j Hi ltac:(lia)). rewrite E, F in H. cbn [bind] in H.
  destruct (py_index_nth r j ltac:(lia)) as (x & G & Gx). destruct (py_index_nth r' j ltac:(lia)) as (y & K & Ky). congruence.
Qed.
Lemma zip_sub_zero (v w : list R) : length v = length w -> ((forall x, In x (map (fun '(x, y) => x - y) (zip v w)) -> x = 0) <-> v = w).
Proof.
  revert w. induction v as [|x v IH]; intros [|y w] L; try discriminate; cbn [zip map]; [split; [reflexivity|intros _ x []]|]. injection L as L. specialize (IH w L). split.
  - intros H. pose proof (H (x - y) (or_introl eq_refl)). assert (v = w) by (apply IH; intros z Hz; apply H; right; exact Hz). subst. f_equal. lra.
  - intros E. injection E as -> E. intros z [<-|Hz]; [ring|]. apply (proj2 IH E). exact Hz.
Qed.
Lemma zip_rows_sub_zero (a b : list (list R)) m : length a = length b -> (forall r, In r a -> length r = m) -> (forall r, In r b -> length r = m) ->
  ((forall x, In x (concat (zip_rows nsub a b)) -> x = 0) <-> a = b).
Proof.
  revert b. induction a as [|r a IH]; intros [|s b] L Ra Rb; try discriminate; [split; [reflexivity|intros _ x []]|]. injection L as L.
  specialize (IH b L (fun r' H => Ra r' (or_intror H)) (fun r' H => Rb r' (or_intror H))).
  pose proof (zip_sub_zero r s ltac:(rewrite (Ra r), (Rb s) by (left; reflexivity); reflexivity)) as Z.
  unfold zip_rows in *. cbn [zip map concat]. cbn [nsub RNum] in *. split.
  - intros H. f_equal; [apply Z; intros x Hx; apply H, in_or_app; left; exact Hx|apply IH; intros x Hx; apply H, in_or_app; right; exact Hx].
  - intros E. injection E as -> E. intros x Hx. apply in_app_or in Hx as [Hx|Hx]; [apply (proj2 Z eq_refl), Hx|apply (proj2 IH E), Hx].
Qed.
Lemma zip_mats_sub_zero (a b : list (list (list R))) n m : length a = length b -> (forall q, In q a -> length q = n /\ forall r, In r q -> length r = m) -> (forall q, In q b -> length q = n /\ forall r, In r q -> length r = m) ->
  ((forall x, In x (concat (concat (map (fun '(mat, other) => zip_rows nsub mat other) (zip a b)))) -> x = 0) <-> a = b).
Proof.
  revert b. induction a as [|q a IH]; intros [|s b] L Ra Rb; try discriminate; [split; [reflexivity|intros _ x []]|]. injection L as L.
  specialize (IH b L (fun r' H => Ra r' (or_intror H)) (fun r' H => Rb r' (or_intror H))). destruct (Ra q (or_introl eq_refl)) as [L1 R1]. destruct (Rb s (or_introl eq_refl)) as [L2 R2].
  pose proof (zip_rows_sub_zero q s m ltac:(congruence) R1 R2) as Z.
  unfold zip. cbn [combine map]. rewrite concat_cons, concat_app. fold (zip a b). split.
  - intros H. f_equal; [apply Z; intros x Hx; apply H, in_or_app; left; exact Hx|apply IH; intros x Hx; apply H, in_or_app; right; exact Hx].
  - intros E. injection E as -> E. intros x Hx. apply in_app_or in Hx as [Hx|Hx]; [apply (proj2 Z eq_refl), Hx|apply (proj2 IH E), Hx].
Qed.
Lemma sumsq_nonneg (l : list R) a : 0 <= a -> 0 <= fold_left Rplus (map (fun x => x * x) l) a.
Proof. revert a. induction l as [|x l IH]; intros a H; cbn [map fold_left]; [exact H|]. apply IH. nra. Qed.
Lemma norm_zero (l : list R) : sqrt (nsum (map (fun x => x * x) l)) = 0 <-> forall x, In x l -> x = 0.
Proof.
  assert (G : forall a, 0 <= a -> (fold_left Rplus (map (fun x => x * x) l) a = 0 <-> a = 0 /\ forall x, In x l -> x = 0)).
  { induction l as [|x l IH]; intros a Ha; cbn [map fold_left]; [split; [intros ->; split; [reflexivity|intros x []]|tauto]|].
    rewrite IH by nra. split; [intros [E H]; assert (a = 0 /\ x = 0) as [-> ->] by nra; split; [reflexivity|]; intros y [<-|Hy]; auto|].
    intros [-> H]. rewrite (H x (or_introl eq_refl)). split; [ring|]. intros y Hy. apply H. right. exact Hy. }
  assert (N : 0 <= nsum (map (fun x => x * x) l)) by (apply (sumsq_nonneg l 0); lra).
  split; [intros E; apply sqrt_eq_0 in E; [|exact N]; apply (G 0 ltac:(lra)), E|].
  intros H. replace (nsum (map (fun x => x * x) l)) with 0; [apply sqrt_0|]. symmetry. apply (G 0 ltac:(lra)). auto.
Qed.
