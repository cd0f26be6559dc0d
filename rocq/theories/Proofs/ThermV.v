(** * The thermal potentials at a point. *)
From Coq Require Import Reals Lra Lia List ZArith.
From Coquelicot Require Import Coquelicot.
From Verif.Spec Require Import PotentialSpec.
From Verif.Model Require Import Py Num Tensors Expr Helpers Steps.
From Verif.Proofs Require Import Lib ExprP PotP.
Local Open Scope R_scope.
Import ListNotations.

Definition WA (F : strain2) : R := norm2 F - 2 - 2 * ln (det2 F) + (det2 F - 1) ^ 2.
(** Difference of the potentials of the phases. *)
Definition dW (F : strain2) : R := WA F - WM F.
Definition coupl (F0 : strain2) (t0 : R) : strain2 :=
  scal2 (1 - exp (-5 * t0)) (add2 (grad_of F0 s_austenite_potential) (scal2 (-1) (grad_of F0 s_martensite_potential))).
Definition source (fps : R) (F0 F : strain2) (t0 : R) : R :=
  norm2 (sym_delta F0 F) / 2 * 2 * (fps * fps) + frob (coupl F0 t0) (scal2 fps (add2 F (scal2 (-1) F0))).
Definition qf (K : strain2) (a b a' b' : R) : R := a' * (f11 K * a + f12 K * b) + b' * (f21 K * a + f22 K * b).
Definition U (F : strain2) (t : R) : R := ww t * dW F + 10 * t.
(** The part of the density depending on the value only, its derivative is fps * (U F t - U F0 t0). *)
Definition psi (F0 F : strain2) (t0 t : R) : R := 10 / 2 * (t - t0) ^ 2 + (AW t * dW F - ww t0 * dW F0 * t).

Lemma scalar_mat F G : Matrix_scalar_product (mat F) (mat G) = Ok (frob F G).
Proof. unfold Matrix_scalar_product, frob. cbn. apply (f_equal Ok). ring. Qed.
Lemma coupl_value F t0 : 0 < det2 F -> strain_derivative_coupling_potential (mat F) t0 = Ok (mat (coupl F t0)).
Proof.
  intros H. unfold strain_derivative_coupling_potential. rewrite frac_value. cbn [bind]. unfold derivative_austenite_potential, derivative_martensite_potential, s_derivative_austenite, s_derivative_martensite.
  rewrite !grad_ok by (first [apply aus_def, H|apply mar_def; lra]). cbn [bind]. rewrite sub_mat. cbn [bind]. apply mul_mat.
Qed.
Lemma U_value F t : 0 < det2 F -> internal_energy (mat F) t = Ok (U F t).
Proof. intros H. unfold internal_energy, internal_energy_no_entropy. rewrite weight_ok, aus_value, mar_value by lra. cbn [bind]. reflexivity. Qed.
Lemma energy_value fps F0 F t0 t a b : 0 < det2 F0 -> energy_potential fps (mat F0) (mat F) t0 t [a; b] = Ok (qf (Kref F0) a b a b + - source fps F0 F t0 * t).
Proof.
  intros H. unfold energy_potential. rewrite heat_value by lra. cbn [bind]. rewrite dot_mat. cbn [bind]. rewrite sub_mat. cbn [bind]. rewrite mul_mat. cbn [bind]. unfold dissipation_rate. rewrite dis_value. cbn [bind].
  rewrite coupl_value by exact H. cbn [bind]. rewrite scalar_mat. cbn [bind]. rewrite vdot2. reflexivity.
Qed.
Lemma psi_value F0 F t0 t : 0 < det2 F0 -> 0 < det2 F -> thermal_dissipation_potential (mat F0) (mat F) t0 t = Ok (psi F0 F t0 t).
Proof.
  intros H0 H. unfold thermal_dissipation_potential, temp_antrider_internal_energy_no_entropy, internal_energy_no_entropy, ENTROPY_CONSTANT. rewrite antider_value, weight_ok. cbn [bind]. rewrite !aus_value, !mar_value by lra. cbn [bind]. reflexivity.
Qed.
(** Where one of the strains is not orientation preserving the density fails. *)
Lemma energy_fail fps F0 F t0 t a b : det2 F0 = 0 -> energy_potential fps (mat F0) (mat F) t0 t [a; b] = Err ZeroDivisionError.
Proof. intros H. unfold energy_potential. rewrite heat_fail by exact H. reflexivity. Qed.
Lemma psi_fail F0 F t0 t : ~ (0 < det2 F0 /\ 0 < det2 F) -> thermal_dissipation_potential (mat F0) (mat F) t0 t = Err ValueError.
Proof.
  intros H. unfold thermal_dissipation_potential, temp_antrider_internal_energy_no_entropy, internal_energy_no_entropy. rewrite antider_value, weight_ok. cbn [bind].
  destruct (Rlt_dec 0 (det2 F)) as [D|D]; [|rewrite (aus_fail F) by lra; reflexivity]. rewrite (aus_value F D), (mar_value F) by lra. cbn [bind]. rewrite (aus_fail F0) by (destruct (Rlt_dec 0 (det2 F0)); [tauto|lra]). reflexivity.
Qed.
(** ** Monotonicity of the internal energy in the temperature *)
Lemma bump t : t * exp (-5 * t) <= exp (-1) / 5 /\ (t <> 1 / 5 -> t * exp (-5 * t) < exp (-1) / 5).
Proof.
  assert (E : exp (-5 * t) = exp (-1) * exp (1 - 5 * t)) by (rewrite <- exp_plus; f_equal; ring). pose proof (exp_pos (-1)) as P1. pose proof (exp_pos (1 - 5 * t)) as P2.
  assert (I : exp (1 - 5 * t) * exp (5 * t - 1) = 1) by (rewrite <- exp_plus; replace (1 - 5 * t + (5 * t - 1)) with 0 by ring; apply exp_0).
  assert (A : 1 + (5 * t - 1) <= exp (5 * t - 1)) by apply exp_ineq1_le.
  assert (B : t <> 1 / 5 -> 1 + (5 * t - 1) < exp (5 * t - 1)) by (intros N; apply exp_ineq1; lra).
  assert (A' : t * exp (1 - 5 * t) <= / 5). { apply Rle_trans with (exp (5 * t - 1) / 5 * exp (1 - 5 * t)); [apply Rmult_le_compat_r; lra|]. apply Req_le. replace (exp (5 * t - 1) / 5 * exp (1 - 5 * t)) with (exp (1 - 5 * t) * exp (5 * t - 1) / 5) by (unfold Rdiv; ring). rewrite I. field. }
  assert (B' : t <> 1 / 5 -> t * exp (1 - 5 * t) < / 5). { intros N. apply Rlt_le_trans with (exp (5 * t - 1) / 5 * exp (1 - 5 * t)); [apply Rmult_lt_compat_r; [exact P2|specialize (B N); lra]|]. apply Req_le. replace (exp (5 * t - 1) / 5 * exp (1 - 5 * t)) with (exp (1 - 5 * t) * exp (5 * t - 1) / 5) by (unfold Rdiv; ring). rewrite I. field. }
  rewrite E. replace (t * (exp (-1) * exp (1 - 5 * t))) with (exp (-1) * (t * exp (1 - 5 * t))) by ring. replace (exp (-1) / 5) with (exp (-1) * / 5) by (unfold Rdiv; ring).
  split; [apply Rmult_le_compat_l; lra|]. intros N. apply Rmult_lt_compat_l; [exact P1|exact (B' N)].
Qed.
Definition cap (F : strain2) (t : R) : R := 25 * t * exp (-5 * t) * dW F + 10.
Lemma U_derive F t : is_derive (U F) t (cap F t).
Proof.
  unfold U, cap. apply (is_derive_plus (K := R_AbsRing) (V := R_NormedModule) (fun x => ww x * dW F) (fun x => 10 * x)).
  - apply (is_derive_ext (fun x => scal (dW F) (ww x))); [intros x; unfold scal; cbn; unfold mult; cbn; ring|]. replace (25 * t * exp (-5 * t) * dW F) with (scal (dW F) (25 * t * exp (-5 * t))) by (unfold scal; cbn; unfold mult; cbn; ring). apply is_derive_scal, ww_derive.
  - auto_derive; trivial. ring.
Qed.
Lemma cap_pos F t : - dW F <= 2 * exp 1 -> 0 <= t -> t <> 1 / 5 -> 0 < cap F t.
Proof.
  intros H Ht N. unfold cap. assert (E1 : exp (-1) * exp 1 = 1) by (rewrite <- exp_plus; replace (-1 + 1) with 0 by ring; apply exp_0). destruct (bump t) as [B1 B2]. specialize (B2 N). pose proof (exp_pos (-5 * t)) as P. pose proof (exp_pos (-1)) as P1.
  destruct (Rle_dec 0 (dW F)) as [D|D]; [assert (0 <= 25 * t * exp (-5 * t) * dW F); [|lra]; repeat apply Rmult_le_pos; lra|].
  set (x := t * exp (-5 * t)) in *. assert (X0 : 0 <= x) by (unfold x; apply Rmult_le_pos; lra). replace (25 * t * exp (-5 * t) * dW F) with (- (25 * (x * - dW F))) by (unfold x; ring).
  assert (x * - dW F < exp (-1) / 5 * (2 * exp 1)); [|nra]. apply Rle_lt_trans with (x * (2 * exp 1)); [apply Rmult_le_compat_l; lra|]. apply Rmult_lt_compat_r; [pose proof (exp_pos 1); lra|exact B2].
Qed.
Lemma MVT_U F a b : a < b -> exists c, a < c < b /\ U F b - U F a = cap F c * (b - a).
Proof. intros H. destruct (MVT_cor2 (U F) (cap F) a b H) as [c [E B]]; [intros c _; apply is_derive_Reals, U_derive|]. exists c. auto. Qed.
Lemma U_increasing F a b : - dW F <= 2 * exp 1 -> 0 <= a -> a < b -> U F a < U F b.
Proof.
  intros H Ha Hl.
  assert (K : forall x y, 0 <= x -> x < y -> y <= 1 / 5 \/ 1 / 5 <= x -> U F x < U F y).
  { intros x y Hx Hxy S. destruct (MVT_U F x y Hxy) as [c [Hc E]]. assert (0 < cap F c) by (apply cap_pos; [exact H|lra|lra]). nra. }
  destruct (Rle_dec b (1 / 5)); [apply K; [lra|lra|left; lra]|]. destruct (Rle_dec (1 / 5) a); [apply K; [lra|lra|right; lra]|].
  apply Rlt_trans with (U F (1 / 5)); apply K; lra.
Qed.
(** Without the bound the internal energy decreases somewhere. *)
Lemma U_decreasing F : 2 * exp 1 < - dW F -> exists a b, 0 <= a /\ a < b /\ U F b < U F a.
Proof.
  intros H. assert (C : cap F (1 / 5) < 0).
  { unfold cap. replace (-5 * (1 / 5)) with (-1) by field. assert (E1 : exp (-1) * exp 1 = 1) by (rewrite <- exp_plus; replace (-1 + 1) with 0 by ring; apply exp_0). pose proof (exp_pos (-1)). nra. }
  pose proof (U_derive F (1 / 5)) as D. apply is_derive_Reals in D. destruct (D (- cap F (1 / 5))) as [[d Hd] K]; [lra|]. cbn in K. specialize (K (d / 2)). assert (d / 2 <> 0) by lra. specialize (K H0). rewrite Rabs_right in K by lra. specialize (K ltac:(lra)).
  exists (1 / 5), (1 / 5 + d / 2). split; [lra|]. split; [lra|]. apply Rabs_def2 in K as [K _]. assert (Q : (U F (1 / 5 + d / 2) - U F (1 / 5)) / (d / 2) < 0) by lra. apply Rmult_lt_compat_r with (r := d / 2) in Q; [|lra]. unfold Rdiv in Q at 1. rewrite Rmult_assoc, Rinv_l, Rmult_1_r, Rmult_0_l in Q by lra. lra.
Qed.
(** The value density lies above its tangents. *)
Lemma psi_derive F0 F t0 t : is_derive (psi F0 F t0) t (U F t - U F0 t0).
Proof.
  unfold psi. apply (is_derive_ext (fun x => (10 / 2 * (x - t0) ^ 2 - ww t0 * dW F0 * x) + scal (dW F) (AW x))); [intros x; unfold scal; cbn -[AW ww dW]; unfold mult; cbn -[AW ww dW]; ring|].
  replace (U F t - U F0 t0) with ((10 * (t - t0) - ww t0 * dW F0) + scal (dW F) (ww t)) by (unfold U, scal; cbn -[ww dW]; unfold mult; cbn -[ww dW]; ring).
  apply (is_derive_plus (K := R_AbsRing) (V := R_NormedModule) (fun x => 10 / 2 * (x - t0) ^ 2 - ww t0 * dW F0 * x)); [|apply is_derive_scal, AW_derive]. auto_derive; trivial. field.
Qed.
Lemma psi_tangent F0 F t0 a b : - dW F <= 2 * exp 1 -> 0 <= a -> 0 <= b -> a <> b -> psi F0 F t0 a + (U F a - U F0 t0) * (b - a) < psi F0 F t0 b.
Proof.
  intros H Ha Hb N. destruct (Rlt_or_le a b) as [L|L].
  - destruct (MVT_cor2 (psi F0 F t0) (fun t => U F t - U F0 t0) a b L) as [c [E B]]; [intros c _; apply is_derive_Reals, psi_derive|]. assert (U F a < U F c) by (apply U_increasing; lra). nra.
  - assert (L' : b < a) by lra. destruct (MVT_cor2 (psi F0 F t0) (fun t => U F t - U F0 t0) b a L') as [c [E B]]; [intros c _; apply is_derive_Reals, psi_derive|]. assert (U F c < U F a) by (apply U_increasing; lra). nra.
Qed.
Lemma psi_midpoint F0 F t0 a b : - dW F <= 2 * exp 1 -> 0 <= a -> 0 <= b -> a <> b -> psi F0 F t0 ((a + b) / 2) < (psi F0 F t0 a + psi F0 F t0 b) / 2.
Proof.
  intros H Ha Hb N. pose proof (psi_tangent F0 F t0 ((a + b) / 2) a H ltac:(lra) Ha ltac:(lra)). pose proof (psi_tangent F0 F t0 ((a + b) / 2) b H ltac:(lra) Hb ltac:(lra)). nra.
Qed.
(** The quadratic form of the conductivity. *)
Lemma qf_pos F a b : 0 < det2 F -> 0 <= qf (Kref F) a b a b /\ (qf (Kref F) a b a b = 0 -> a = 0 /\ b = 0).
Proof.
  intros H. assert (E : qf (Kref F) a b a b = ((f22 F * a - f21 F * b) ^ 2 + (f11 F * b - f12 F * a) ^ 2) / det2 F) by (unfold qf, Kref, st; cbn [f11 f12 f21 f22]; field; lra).
  rewrite E. split; [apply Rle_mult_inv_pos; [|exact H]; pose proof (pow2_ge_0 (f22 F * a - f21 F * b)); pose proof (pow2_ge_0 (f11 F * b - f12 F * a)); lra|].
  intros Z. assert (Z' : (f22 F * a - f21 F * b) ^ 2 + (f11 F * b - f12 F * a) ^ 2 = 0). { apply (Rmult_eq_reg_r (/ det2 F)); [|apply Rinv_neq_0_compat; lra]. rewrite Rmult_0_l. exact Z. }
  pose proof (pow2_ge_0 (f22 F * a - f21 F * b)) as P1. pose proof (pow2_ge_0 (f11 F * b - f12 F * a)) as P2. assert (Z1 : f22 F * a - f21 F * b = 0) by nra. assert (Z2 : f11 F * b - f12 F * a = 0) by nra.
  assert (A : det2 F * a = f11 F * (f22 F * a - f21 F * b) + f21 F * (f11 F * b - f12 F * a)) by (unfold det2; ring). assert (B : det2 F * b = f12 F * (f22 F * a - f21 F * b) + f22 F * (f11 F * b - f12 F * a)) by (unfold det2; ring). rewrite Z1, Z2 in A, B.
  split; apply (Rmult_eq_reg_l (det2 F)); lra.
Qed.
Lemma qf_sym F a b a' b' : det2 F <> 0 -> qf (Kref F) a b a' b' = qf (Kref F) a' b' a b.
Proof. intros H. unfold qf, Kref, st. cbn [f11 f12 f21 f22]. field. exact H. Qed.
