(** Checking a rule with rational data by computation in Q. *)
From Coq Require Import Reals Lra Lia List QArith Qreals.
From Verif.Model Require Import Py Num Tensors Quadrature.
From Verif.Spec Require Import QuadSpec.
From Verif.Proofs Require Import Lib QuadP.
Import ListNotations.

Fixpoint qpow (x : Q) (n : nat) : Q := match n with O => 1 | S n => Qred (x * qpow x n) end.
Lemma qpow_R x n : Q2R (qpow x n) = (Q2R x ^ n)%R.
Proof. induction n as [|n IH]; cbn [qpow pow]; [unfold Q2R; cbn; lra|]. rewrite (Qeq_eqR _ _ (Qred_correct _)), Q2R_mult, IH. reflexivity. Qed.
Fixpoint qval (ps : list (Q * Q)) (ws : list Q) (i j : nat) : Q :=
  match ps, ws with p :: ps, w :: ws => Qred (w * (qpow (fst p) i * qpow (snd p) j) + qval ps ws i j) | _, _ => 0 end.
Lemma qval_R ps ws i j :
  Q2R (qval ps ws i j) = mono_val (mkRule (map Q2R ws) (map (fun p => Bary (Q2R (fst p)) (Q2R (snd p))) ps)) i j.
Proof.
  unfold mono_val, rule_value. cbn [q_points q_weights]. revert ws. induction ps as [|p ps IH]; intros [|w ws]; cbn [qval map weighted_sum]; try (unfold Q2R; cbn; lra).
  rewrite (Qeq_eqR _ _ (Qred_correct _)), Q2R_plus, !Q2R_mult, !qpow_R, IH. reflexivity.
Qed.
Definition qmono (i j : nat) : Q := Qred ((2 * (Z.of_nat (fact i) * Z.of_nat (fact j)) # 1) / (Z.of_nat (fact (i + j + 2)) # 1)).
Lemma qmono_R i j : Q2R (qmono i j) = (2 * mono_int i j)%R.
Proof.
  unfold qmono, mono_int. rewrite (Qeq_eqR _ _ (Qred_correct _)).
  pose proof (fact_neq_0 (i + j + 2)) as N.
  rewrite Q2R_div; [|intros E; unfold Qeq in E; cbn in E; lia].
  unfold Q2R. cbn [Qnum Qden]. rewrite !mult_IZR, <- !INR_IZR_INZ. unfold Rdiv. rewrite Rinv_1, !Rmult_1_r. lra.
Qed.
Definition qcheck (ps : list (Q * Q)) (ws : list Q) (eps : Q) (d : nat) : bool :=
  forallb (fun i => forallb (fun j => let e := (qval ps ws i j - qmono i j)%Q in Qle_bool (- eps) e && Qle_bool e eps) (range (d + 1 - i))) (range (d + 1)).
Lemma qcheck_R ps ws eps d : qcheck ps ws eps d = true -> forall i j, (i + j <= d)%nat ->
  (Rabs (mono_val (mkRule (map Q2R ws) (map (fun p => Bary (Q2R (fst p)) (Q2R (snd p))) ps)) i j - 2 * mono_int i j) <= Q2R eps)%R.
Proof.
  intros H i j L. unfold qcheck in H. rewrite forallb_forall in H. assert (Ii : In i (range (d + 1))) by (apply in_range; lia). assert (Ij : In j (range (d + 1 - i))) by (apply in_range; lia). specialize (H i Ii). rewrite forallb_forall in H. specialize (H j Ij).
  apply andb_prop in H as [A B]. apply Qle_bool_iff, Qle_Rle in A. apply Qle_bool_iff, Qle_Rle in B. rewrite Q2R_minus, qmono_R, qval_R in A, B. rewrite Q2R_opp in A. apply Rabs_le. split; assumption.
Qed.

(** Decimal literals. *)
Fixpoint p10 (e : nat) : positive := match e with O => 1%positive | S e => (10 * p10 e)%positive end.
Lemma p10_R e : IZR (Zpos (p10 e)) = (10 ^ e)%R.
Proof. induction e as [|e IH]; [reflexivity|]. cbn [p10 pow]. rewrite Pos2Z.inj_mul, mult_IZR, IH. reflexivity. Qed.
Lemma dec_Q m e : @ndec R RNum m e = Q2R (m # p10 e).
Proof. cbn [ndec RNum]. unfold Q2R. cbn [Qnum Qden]. rewrite p10_R. reflexivity. Qed.
Lemma third_Q : (1 / 3)%R = Q2R (1 # 3). Proof. unfold Q2R. cbn. lra. Qed.
