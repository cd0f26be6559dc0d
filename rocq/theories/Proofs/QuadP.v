(** Integrals of polynomials over the reference triangle. *)
From Coq Require Import Reals Lra Lia List.
From Coquelicot Require Import Coquelicot.
From Verif.Model Require Import Py Num Tensors Quadrature.
From Verif.Spec Require Import QuadSpec.
Local Open Scope R_scope.
Import ListNotations.

(** The type of an equation between integrals, spelled R. *)
Ltac toR := match goal with |- @eq _ ?a ?b => change (@eq R a b) end.
Lemma ex_RInt_cont (f : R -> R) a b : (forall x, ex_derive f x) -> ex_RInt f a b.
Proof. intros H. apply (ex_RInt_continuous (V := R_CompleteNormedModule)). intros x _. apply (ex_derive_continuous (K := R_AbsRing) (V := R_NormedModule)), H. Qed.
Lemma RInt_zero a b : RInt (fun _ => 0) a b = 0.
Proof. rewrite RInt_const. unfold scal. simpl. unfold mult. simpl. ring. Qed.
Lemma RInt_scal_R (f : R -> R) a b k : ex_RInt f a b -> RInt (fun x => k * f x) a b = k * RInt f a b.
Proof. intros H. exact (RInt_scal (V := R_CompleteNormedModule) f a b k H). Qed.
Lemma RInt_plus_R (f g : R -> R) a b : ex_RInt f a b -> ex_RInt g a b -> RInt (fun x => f x + g x) a b = RInt f a b + RInt g a b.
Proof. intros H K. exact (RInt_plus (V := R_CompleteNormedModule) f g a b H K). Qed.
Definition beta (i k : nat) : R := RInt (fun x => x ^ i * (1 - x) ^ k) 0 1.
Lemma beta_ex i k a b : ex_RInt (fun x => x ^ i * (1 - x) ^ k) a b.
Proof. apply ex_RInt_cont. intros x. auto_derive. exact I. Qed.
Lemma RInt_pow_ j b : RInt (fun y => y ^ j) 0 b = b ^ (S j) / INR (S j).
Proof.
  assert (H : is_RInt (fun y => y ^ j) 0 b (minus (b ^ (S j) / INR (S j)) (0 ^ (S j) / INR (S j)))).
  { apply (is_RInt_derive (fun y => y ^ (S j) / INR (S j)) (fun y => y ^ j)).
    - intros x _. auto_derive; [exact I|]. change (match j with O => 1 | S _ => INR j + 1 end) with (INR (S j)). rewrite ?Nat.pred_succ. field. apply not_0_INR. lia.
    - intros x _. apply (ex_derive_continuous (K := R_AbsRing) (V := R_NormedModule)). auto_derive. exact I. }
  apply (is_RInt_unique (V := R_CompleteNormedModule)) in H. rewrite H. unfold minus, plus, opp. cbn [R_NormedModule]. simpl. rewrite Rmult_0_l. unfold Rdiv. lra.
Qed.
Lemma beta_step i k : INR (S i) * beta i (S k) = INR (S k) * beta (S i) k.
Proof.
  set (F := fun x => x ^ (S i) * (1 - x) ^ (S k)).
  assert (H : is_RInt (fun x => INR (S i) * (x ^ i * (1 - x) ^ (S k)) - INR (S k) * (x ^ (S i) * (1 - x) ^ k)) 0 1 (minus (F 1) (F 0))).
  { apply (is_RInt_derive F).
    - intros x _. unfold F. auto_derive; [exact I|]. change (match i with O => 1 | S _ => INR i + 1 end) with (INR (S i)). change (match k with O => 1 | S _ => INR k + 1 end) with (INR (S k)). rewrite ?Nat.pred_succ. unfold Rminus; rewrite <- !tech_pow_Rmult; ring.
    - intros x _. apply (ex_derive_continuous (K := R_AbsRing) (V := R_NormedModule)). auto_derive. exact I. }
  assert (K : is_RInt (fun x => INR (S i) * (x ^ i * (1 - x) ^ (S k)) - INR (S k) * (x ^ (S i) * (1 - x) ^ k)) 0 1 (INR (S i) * beta i (S k) - INR (S k) * beta (S i) k)).
  { apply (is_RInt_minus (V := R_NormedModule)); apply (is_RInt_scal (V := R_NormedModule)); apply (RInt_correct (V := R_CompleteNormedModule)), beta_ex. }
  apply (is_RInt_unique (V := R_CompleteNormedModule)) in H. apply (is_RInt_unique (V := R_CompleteNormedModule)) in K. rewrite H in K. unfold F, minus, plus, opp in K. cbn -[pow INR beta] in K. rewrite (pow_ne_zero (S i)) in K by lia. replace (1 - 1) with 0 in K by ring. rewrite (pow_ne_zero (S k)) in K by lia. lra.
Qed.
Lemma beta_0 i : beta i 0 = 1 / INR (S i).
Proof. unfold beta. rewrite (RInt_ext _ (fun x => x ^ i)) by (intros; simpl; ring). rewrite RInt_pow_, pow1. reflexivity. Qed.
Lemma beta_fact k : forall i, beta i k = INR (fact i) * INR (fact k) / INR (fact (i + k + 1)).
Proof.
  induction k as [|k IH]; intros i.
  - rewrite beta_0, Nat.add_0_r, Nat.add_1_r. change (fact (S i)) with (S i * fact i)%nat. rewrite mult_INR. simpl (INR (fact 0)). field. split; [apply INR_fact_neq_0|apply not_0_INR; lia].
  - assert (N : INR (S i) <> 0) by (apply not_0_INR; lia). apply (Rmult_eq_reg_l (INR (S i))); [|exact N]. rewrite beta_step, IH. replace (S i + k + 1)%nat with (i + S k + 1)%nat by lia.
    change (fact (S i)) with (S i * fact i)%nat. change (fact (S k)) with (S k * fact k)%nat. rewrite !mult_INR. field. apply INR_fact_neq_0.
Qed.
Definition mono_int (i j : nat) : R := INR (fact i) * INR (fact j) / INR (fact (i + j + 2)).
Lemma inner_pow j b : RInt (fun y => y ^ j) 0 b = b ^ (S j) / INR (S j).
Proof. apply RInt_pow_. Qed.
Lemma inner_eval p x : RInt (fun y => peval p x y) 0 (1 - x) = fold_right (fun '(c, (i, j)) acc => c * (x ^ i * (1 - x) ^ (S j) / INR (S j)) + acc) 0 p.
Proof.
  assert (E : forall p a b, ex_RInt (fun y => peval p x y) a b).
  { intros q a b. induction q as [|[c [i j]] q IH]; [apply (ex_RInt_const (V := R_NormedModule) _ _ 0)|]. cbn [peval fold_right]. apply (ex_RInt_plus (V := R_NormedModule)); [|exact IH]. apply ex_RInt_cont. intros y. auto_derive. exact I. }
  induction p as [|[c [i j]] p IH]; [apply RInt_zero|].
  cbn [fold_right]. rewrite <- IH. cbn [peval fold_right].
  assert (E1 : ex_RInt (fun y => c * x ^ i * y ^ j) 0 (1 - x)) by (apply ex_RInt_cont; intros y; auto_derive; exact I).
  rewrite (RInt_plus_R (fun y => c * x ^ i * y ^ j) (fun y => peval p x y)) by (try exact E1; apply E).
  f_equal. assert (E2 : ex_RInt (fun y => y ^ j) 0 (1 - x)) by (apply ex_RInt_cont; intros y; auto_derive; exact I).
  rewrite (RInt_scal_R (fun y => y ^ j) 0 (1 - x) (c * x ^ i) E2), RInt_pow_. unfold Rdiv. toR. ring.
Qed.
Lemma reference_poly p : reference_integral (peval p) = fold_right (fun '(c, (i, j)) acc => c * mono_int i j + acc) 0 p.
Proof.
  unfold reference_integral. rewrite (RInt_ext _ (fun x => fold_right (fun '(c, (i, j)) acc => c * (x ^ i * (1 - x) ^ (S j) / INR (S j)) + acc) 0 p)) by (intros; apply inner_eval).
  assert (E : forall p, ex_RInt (fun x => fold_right (fun '(c, (i, j)) acc => c * (x ^ i * (1 - x) ^ (S j) / INR (S j)) + acc) 0 p) 0 1).
  { intros q. induction q as [|[c [i j]] q IH]; [apply (ex_RInt_const (V := R_NormedModule) _ _ 0)|]. cbn [fold_right]. apply (ex_RInt_plus (V := R_NormedModule)); [|exact IH]. apply ex_RInt_cont. intros y. auto_derive. exact I. }
  induction p as [|[c [i j]] p IH]; [apply RInt_zero|].
  cbn [fold_right]. rewrite <- IH.
  assert (E1 : ex_RInt (fun x => c * (x ^ i * (1 - x) ^ (S j) / INR (S j))) 0 1) by (apply ex_RInt_cont; intros y; auto_derive; exact I).
  rewrite (RInt_plus_R (fun x => c * (x ^ i * (1 - x) ^ (S j) / INR (S j))) (fun x => fold_right (fun '(c, (i, j)) acc => c * (x ^ i * (1 - x) ^ (S j) / INR (S j)) + acc) 0 p)) by (try exact E1; apply E).
  f_equal.
  rewrite (RInt_ext _ (fun x => c / INR (S j) * (x ^ i * (1 - x) ^ (S j)))) by (intros; unfold Rdiv; toR; ring).
  rewrite RInt_scal_R by apply beta_ex. fold (beta i (S j)). rewrite beta_fact. unfold mono_int.
  replace (i + S j + 1)%nat with (i + j + 2)%nat by lia. change (fact (S j)) with (S j * fact j)%nat. rewrite mult_INR. toR. field. split; [apply INR_fact_neq_0|apply not_0_INR; lia].
Qed.
Lemma weighted_sum_lin {A} (ps : list A) ws f g c : weighted_sum ps ws (fun p => c * f p + g p) = c * weighted_sum ps ws f + weighted_sum ps ws g.
Proof. revert ws. induction ps as [|p ps IH]; intros [|w ws]; cbn [weighted_sum]; try ring. rewrite IH. ring. Qed.
Lemma weighted_sum_ext {A} (ps : list A) ws f g : (forall p, In p ps -> f p = g p) -> weighted_sum ps ws f = weighted_sum ps ws g.
Proof. revert ws. induction ps as [|p ps IH]; intros [|w ws] H; cbn [weighted_sum]; try reflexivity. rewrite (H p), IH; [reflexivity| |left; reflexivity]. intros q Hq. apply H. right. exact Hq. Qed.
Lemma weighted_sum_const {A} (ps : list A) ws c : weighted_sum ps ws (fun _ => c) = c * weighted_sum ps ws (fun _ => 1).
Proof. revert ws. induction ps as [|p ps IH]; intros [|w ws]; cbn [weighted_sum]; try ring. rewrite IH. ring. Qed.
Definition mono_val (r : rule R) (i j : nat) : R := rule_value r (fun x y => x ^ i * y ^ j).
Lemma rule_poly r p : rule_value r (peval p) = fold_right (fun '(c, (i, j)) acc => c * mono_val r i j + acc) 0 p.
Proof.
  induction p as [|[c [i j]] p IH].
  - unfold rule_value. cbn [peval fold_right]. rewrite weighted_sum_const. ring.
  - cbn [fold_right]. rewrite <- IH. unfold rule_value, mono_val, rule_value. rewrite <- weighted_sum_lin. apply weighted_sum_ext. intros b _. cbn [peval fold_right]. fold (peval p (l1 b) (l2 b)). ring.
Qed.
(** Enough to check the monomials. *)
Lemma exact_monomials r d : (forall i j, (i + j <= d)%nat -> mono_val r i j = 2 * mono_int i j) -> exact_to r d.
Proof.
  intros H p. rewrite rule_poly, reference_poly. induction p as [|[c [i j]] p IH]; intros D; [cbn; ring|]. cbn [fold_right]. rewrite IH, H; [ring| |].
  - apply (D c). left. reflexivity.
  - intros c' i' j' K. apply (D c'). right. exact K.
Qed.
Lemma approx_monomials r d eps : 0 <= eps -> (forall i j, (i + j <= d)%nat -> Rabs (mono_val r i j - 2 * mono_int i j) <= eps) ->
  forall p, degree_le d p -> Rabs (rule_value r (peval p) - 2 * reference_integral (peval p)) <= eps * abs_coefficients p.
Proof.
  intros He H p. rewrite rule_poly, reference_poly. unfold abs_coefficients. induction p as [|[c [i j]] p IH]; intros D.
  - cbn. rewrite Rmult_0_r, Rminus_0_r, Rabs_R0. lra.
  - cbn [fold_right]. set (A := fold_right (fun '(c, (i, j)) acc => c * mono_val r i j + acc) 0 p) in *. set (B := fold_right (fun '(c, (i, j)) acc => c * mono_int i j + acc) 0 p) in *. set (S := fold_right _ 0 p) in *.
    replace (c * mono_val r i j + A - 2 * (c * mono_int i j + B)) with (c * (mono_val r i j - 2 * mono_int i j) + (A - 2 * B)) by ring.
    eapply Rle_trans; [apply Rabs_triang|]. rewrite Rabs_mult, Rmult_plus_distr_l. apply Rplus_le_compat.
    + rewrite Rmult_comm. apply Rmult_le_compat_r; [apply Rabs_pos|]. apply H, (D c). left. reflexivity.
    + apply IH. intros c' i' j' K. apply (D c'). right. exact K.
Qed.
