(** Binary64 operations as rounded real operations (via Flocq). *)
From Coq Require Import ZArith Reals Floats Lra Lia Psatz.
From Flocq Require Import Core BinarySingleNaN PrimFloat Relative Plus_error.
From Verif.Spec Require Import FloatSpec.
Local Open Scope R_scope.

Definition rnd : R -> R := round radix2 (FLT_exp (-1074) 53) ZnearestE.
Definition eta : R := / 2 * bpow radix2 (-1074).
Definition bound : R := bpow radix2 1000.

Lemma p53 : Prec_gt_0 53. Proof. reflexivity. Qed.
#[local] Existing Instance p53.
Lemma pe : Prec_lt_emax 53 1024. Proof. reflexivity. Qed.
#[local] Existing Instance pe.

Lemma real_of_B x : real_of x = B2R (Prim2B x).
Proof.
  unfold real_of. rewrite <- B2SF_Prim2B. destruct (Prim2B x) as [s|s| |s m e H]; cbn [B2SF B2R]; try reflexivity.
  unfold F2R. cbn [Fnum Fexp]. rewrite bpow_powerRZ. cbn [cond_Zopp]. destruct s; cbn [cond_Zopp]; [rewrite opp_IZR|]; change (IZR radix2) with 2; ring.
Qed.
Lemma is_num_B x : is_num x <-> is_finite (Prim2B x) = true.
Proof. unfold is_num. rewrite <- B2SF_Prim2B. destruct (Prim2B x); cbn; intuition discriminate. Qed.
Lemma real_of_format x : generic_format radix2 (FLT_exp (-1074) 53) (real_of x).
Proof. rewrite real_of_B. apply (generic_format_B2R 53 1024). Qed.
Lemma rnd_real x : rnd (real_of x) = real_of x.
Proof. apply round_generic; [apply valid_rnd_N|apply real_of_format]. Qed.
Lemma rnd_le x y : x <= y -> rnd x <= rnd y.
Proof. apply round_le; [apply FLT_exp_valid, p53|apply valid_rnd_N]. Qed.
Lemma rnd_0 : rnd 0 = 0.
Proof. apply round_0, valid_rnd_N. Qed.
Lemma rnd_bpow e : (-1074 <= e)%Z -> rnd (bpow radix2 e) = bpow radix2 e.
Proof. intros H. apply round_generic; [apply valid_rnd_N|]. apply generic_format_bpow. unfold FLT_exp. lia. Qed.
Lemma rnd_IZR z : (Z.abs z <= 2 ^ 53)%Z -> rnd (IZR z) = IZR z.
Proof.
  intros H. apply round_generic; [apply valid_rnd_N|].
  destruct (Z.eq_dec (Z.abs z) (2 ^ 53)) as [E|E].
  - assert (K : generic_format radix2 (FLT_exp (-1074) 53) (bpow radix2 53)) by (apply generic_format_bpow; unfold FLT_exp; lia).
    change (bpow radix2 53) with (IZR (2 ^ 53)) in K. destruct (Z.abs_eq_or_opp z) as [Q|Q].
    + rewrite <- Q, E. exact K.
    + replace z with (- 2 ^ 53)%Z by lia. rewrite opp_IZR. apply generic_format_opp, K.
  - apply generic_format_FLT. exists (Float radix2 z 0); cbn [Fnum Fexp]; [unfold F2R; cbn; ring|change (radix2 ^ 53)%Z with (2 ^ 53)%Z; lia|lia].
Qed.
Lemma ulp1_val : ulp1 = / 2 * bpow radix2 (-53 + 1).
Proof. unfold ulp1. change (bpow radix2 (-53 + 1)) with (/ IZR (2 ^ 52)). replace (IZR (2 ^ 52)) with (2 ^ 52) by (rewrite (pow_IZR 2 52); reflexivity). change (2 ^ 53) with (2 * 2 ^ 52). field. Qed.
Lemma ulp1_pos : 0 < ulp1. Proof. unfold ulp1. apply Rinv_0_lt_compat, pow_lt. lra. Qed.
Lemma eta_pos : 0 < eta. Proof. unfold eta. pose proof (bpow_gt_0 radix2 (-1074)). lra. Qed.
Lemma rnd_err x : Rabs (rnd x - x) <= ulp1 * Rabs x + eta.
Proof.
  destruct (error_N_FLT radix2 (-1074) 53 p53 (fun z => negb (Z.even z)) x) as (e & t & He & Ht & _ & Q). unfold rnd. rewrite Q. assert (He' : Rabs e <= ulp1) by (rewrite ulp1_val; exact He). assert (Ht' : Rabs t <= eta) by exact Ht.
  replace (x * (1 + e) + t - x) with (x * e + t) by ring. pose proof (Rabs_triang (x * e) t) as K. rewrite Rabs_mult in K. pose proof (Rabs_pos x). nra.
Qed.
Lemma plus_err x y : Rabs (rnd (real_of x + real_of y) - (real_of x + real_of y)) <= ulp1 * Rabs (real_of x + real_of y).
Proof.
  destruct (FLT_plus_error_N_ex radix2 (-1074) 53 (fun z => negb (Z.even z)) (real_of x) (real_of y) (real_of_format x) (real_of_format y)) as (e & He & Q).
  unfold rnd. rewrite Q. replace ((real_of x + real_of y) * (1 + e) - (real_of x + real_of y)) with ((real_of x + real_of y) * e) by ring. rewrite Rabs_mult, Rmult_comm.
  apply Rmult_le_compat_r; [apply Rabs_pos|]. apply (Rle_trans _ _ _ He). apply (Rle_trans _ (u_ro radix2 53)); [apply u_rod1pu_ro_le_u_ro|]. unfold u_ro. rewrite ulp1_val. apply Rle_refl.
Qed.
Lemma bound_ok x : Rabs x <= bound -> Rlt_bool (Rabs (rnd x)) (bpow radix2 1024) = true.
Proof.
  intros H. apply Rlt_bool_true. apply Rle_lt_trans with bound; [|apply bpow_lt; reflexivity].
  apply Rabs_le. apply Rabs_def2b in H || apply Rabs_le_inv in H. unfold bound in *. split.
  - rewrite <- (rnd_bpow 1000) by lia. unfold rnd. rewrite <- round_NE_opp. fold rnd. apply rnd_le. lra.
  - rewrite <- (rnd_bpow 1000) by lia. apply rnd_le. lra.
Qed.
Ltac use_bound K B := match type of K with (if ?c then _ else _) => let E := fresh in assert (E : c = true) by exact B; rewrite E in K end.
Lemma fadd x y : is_num x -> is_num y -> Rabs (real_of x + real_of y) <= bound -> is_num (x + y) /\ real_of (x + y) = rnd (real_of x + real_of y).
Proof.
  rewrite !is_num_B, !real_of_B, add_equiv. intros Hx Hy Hb. pose proof (Bplus_correct prec emax Hprec Hmax mode_NE _ _ Hx Hy) as K.
  pose proof (bound_ok _ Hb) as B. unfold rnd in B |- *. use_bound K B. destruct K as (K1 & K2 & _). split; [exact K2|exact K1].
Qed.
Lemma fsub x y : is_num x -> is_num y -> Rabs (real_of x - real_of y) <= bound -> is_num (x - y) /\ real_of (x - y) = rnd (real_of x - real_of y).
Proof.
  rewrite !is_num_B, !real_of_B, sub_equiv. intros Hx Hy Hb. pose proof (Bminus_correct prec emax Hprec Hmax mode_NE _ _ Hx Hy) as K.
  pose proof (bound_ok _ Hb) as B. unfold rnd in B |- *. use_bound K B. destruct K as (K1 & K2 & _). split; [exact K2|exact K1].
Qed.
Lemma fmul x y : is_num x -> is_num y -> Rabs (real_of x * real_of y) <= bound -> is_num (x * y) /\ real_of (x * y) = rnd (real_of x * real_of y).
Proof.
  rewrite !is_num_B, !real_of_B, mul_equiv. intros Hx Hy Hb. pose proof (Bmult_correct prec emax Hprec Hmax mode_NE (Prim2B x) (Prim2B y)) as K.
  pose proof (bound_ok _ Hb) as B. unfold rnd in B |- *. use_bound K B. destruct K as (K1 & K2 & _). rewrite K2, Hx, Hy. split; [reflexivity|exact K1].
Qed.
Lemma fdiv x y : is_num x -> real_of y <> 0 -> Rabs (real_of x / real_of y) <= bound -> is_num (x / y) /\ real_of (x / y) = rnd (real_of x / real_of y).
Proof.
  rewrite !is_num_B, !real_of_B, div_equiv. intros Hx Hy Hb. pose proof (Bdiv_correct prec emax Hprec Hmax mode_NE (Prim2B x) (Prim2B y) Hy) as K.
  pose proof (bound_ok _ Hb) as B. unfold rnd in B |- *. use_bound K B. destruct K as (K1 & K2 & _). rewrite K2, Hx. split; [reflexivity|exact K1].
Qed.
Lemma fsqrt x : is_num x -> 0 <= real_of x -> is_num (sqrt x) /\ real_of (sqrt x) = rnd (R_sqrt.sqrt (real_of x)).
Proof.
  rewrite !is_num_B, !real_of_B, sqrt_equiv. intros Hx Hp. destruct (Bsqrt_correct prec emax Hprec Hmax mode_NE (Prim2B x)) as (K1 & K2 & _). split; [|exact K1].
  rewrite K2. destruct (Prim2B x) as [s|s| |s m e H]; try discriminate; [reflexivity|]. destruct s; [|reflexivity]. exfalso. cbn in Hp.
  pose proof (F2R_lt_0 radix2 (Float radix2 (Z.neg m) e) ltac:(reflexivity)) as Q. unfold F2R in Q, Hp. cbn in Q, Hp. lra.
Qed.
Lemma fltb x y : is_num x -> is_num y -> (x <? y)%float = Rlt_bool (real_of x) (real_of y).
Proof. rewrite !is_num_B, !real_of_B, ltb_equiv. apply Bltb_correct. Qed.
Lemma feqb x y : is_num x -> is_num y -> (x =? y)%float = Req_bool (real_of x) (real_of y).
Proof. rewrite !is_num_B, !real_of_B, eqb_equiv. apply Beqb_correct. Qed.
Lemma fabs x : real_of (abs x) = Rabs (real_of x) /\ (is_num (abs x) <-> is_num x).
Proof. rewrite !is_num_B, !real_of_B, abs_equiv. split; [apply B2R_Babs|]. rewrite is_finite_Babs. tauto. Qed.
Lemma num_0 : is_num 0 /\ real_of 0 = 0. Proof. split; [exact I|reflexivity]. Qed.
Lemma num_1 : is_num 1 /\ real_of 1 = 1.
Proof. split; [exact I|]. unfold real_of. cbn. unfold powerRZ. replace (2 ^ Pos.to_nat 52) with (IZR (2 ^ 52)) by (rewrite pow_IZR; f_equal). cbn. lra. Qed.
Lemma rnd_rel x : bpow radix2 (-1022) <= Rabs x -> Rabs (rnd x - x) <= ulp1 * Rabs x.
Proof. intros H. rewrite ulp1_val. apply (relative_error_N_FLT radix2 (-1074) 53 p53 (fun z => negb (Z.even z))). exact H. Qed.
