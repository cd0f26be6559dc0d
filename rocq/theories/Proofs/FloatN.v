(** The binary64 scalars of the model. *)
From Coq Require Import ZArith Reals Floats Lra Lia Psatz.
From Flocq Require Import Core.
From Verif.Model Require Import Py Num NumFloat.
From Verif.Spec Require Import FloatSpec.
From Verif.Proofs Require Import FloatR.
Local Open Scope R_scope.

Lemma bound_ge z : (Z.abs z <= 2 ^ 60)%Z -> Rabs (IZR z) <= bound.
Proof.
  intros H. rewrite <- abs_IZR. apply Rle_trans with (IZR (2 ^ 60)); [apply IZR_le, H|]. change (IZR (2 ^ 60)) with (bpow radix2 60). apply bpow_le. lia.
Qed.
Lemma num_2 : is_num 2 /\ real_of 2 = 2.
Proof. split; [exact I|]. unfold real_of. cbn. unfold powerRZ. replace (2 ^ Pos.to_nat 51) with (IZR (2 ^ 51)) by (rewrite pow_IZR; f_equal). cbn. lra. Qed.
Lemma F_of_pos_ok p : (Zpos p <= 2 ^ 53)%Z -> is_num (F_of_pos p) /\ real_of (F_of_pos p) = IZR (Zpos p).
Proof.
  induction p as [p IH|p IH|]; intros H; [| |exact num_1].
  - destruct IH as [I1 I2]; [lia|]. change (F_of_pos p~1) with (2 * F_of_pos p + 1)%float.
    destruct (fmul 2 (F_of_pos p) (proj1 num_2) I1) as [J1 J2].
    { rewrite (proj2 num_2), I2, <- mult_IZR. apply bound_ge. lia. }
    rewrite (proj2 num_2), I2, <- mult_IZR, rnd_IZR in J2 by lia.
    destruct (fadd _ 1 J1 (proj1 num_1)) as [K1 K2]; rewrite J2, (proj2 num_1), <- plus_IZR in *; [apply bound_ge; lia|].
    rewrite rnd_IZR in K2 by lia. split; [exact K1|]. rewrite K2. f_equal. 
  - destruct IH as [I1 I2]; [lia|]. change (F_of_pos p~0) with (2 * F_of_pos p)%float.
    destruct (fmul 2 (F_of_pos p) (proj1 num_2) I1) as [J1 J2].
    { rewrite (proj2 num_2), I2, <- mult_IZR. apply bound_ge. lia. }
    rewrite (proj2 num_2), I2, <- mult_IZR, rnd_IZR in J2 by lia. split; [exact J1|]. rewrite J2. f_equal.
Qed.
Lemma F_of_Z_ok z : (0 <= z <= 2 ^ 53)%Z -> is_num (F_of_Z z) /\ real_of (F_of_Z z) = IZR z.
Proof. intros H. destruct z as [|p|p]; [exact num_0|apply F_of_pos_ok; lia|lia]. Qed.
Lemma F_trunc_ok x : is_num x -> 0 <= real_of x -> exists z, F_trunc x = Ok z /\ (0 <= z)%Z /\ IZR z <= real_of x < IZR z + 1.
Proof.
  unfold is_num, real_of, F_trunc. destruct (Prim2SF x) as [s|s| |s m e]; intros H Hp; try contradiction; [exists 0%Z; split; [reflexivity|lra || (split; [lia|lra])]|].
  assert (Q : 0 < powerRZ 2 e) by (apply powerRZ_lt; lra). assert (M : 0 < IZR (Zpos m)) by (apply IZR_lt; lia).
  destruct s; [exfalso; nra|]. rewrite Rmult_1_l in *. destruct e as [|q|q].
  - exists (Zpos m). split; [reflexivity|]. split; [lia|]. cbn [powerRZ]. lra.
  - exists (Zpos m * 2 ^ Zpos q)%Z. split; [reflexivity|]. split; [lia|]. cbn [powerRZ]. rewrite mult_IZR.
    replace (IZR (2 ^ Z.pos q)) with (2 ^ Pos.to_nat q) by (rewrite pow_IZR; f_equal; f_equal; lia). lra.
  - exists (Zpos m / 2 ^ Zpos q)%Z. split; [reflexivity|]. assert (Z2 : (0 < 2 ^ Z.pos q)%Z) by lia. split; [apply Z.div_pos; lia|]. cbn [powerRZ].
    replace (2 ^ Pos.to_nat q) with (IZR (2 ^ Z.pos q)) by (rewrite pow_IZR; f_equal; f_equal; lia).
    assert (D : 0 < IZR (2 ^ Z.pos q)) by (apply IZR_lt; exact Z2).
    pose proof (Z.mul_div_le (Zpos m) _ Z2) as A. pose proof (Z.mul_succ_div_gt (Zpos m) _ Z2) as B. apply IZR_le in A. apply IZR_lt in B. rewrite mult_IZR in A, B. rewrite succ_IZR in B.
    split; apply (Rmult_le_reg_r (IZR (2 ^ Z.pos q))) || apply (Rmult_lt_reg_r (IZR (2 ^ Z.pos q))); try exact D; rewrite Rmult_assoc, Rinv_l by lra; lra.
Qed.
Lemma bpow_le_bound e x : (e <= 1000)%Z -> Rabs x <= bpow radix2 e -> Rabs x <= bound.
Proof. intros H Q. apply (Rle_trans _ _ _ Q). apply bpow_le, H. Qed.
Lemma pow2_bpow n : 2 ^ n = bpow radix2 (Z.of_nat n).
Proof. rewrite bpow_powerRZ, <- pow_powerRZ. reflexivity. Qed.
(** [int(w / s)]. *)
Lemma trunc_quotient w s : is_num w -> is_num s -> 0 <= real_of w -> 0 < real_of s -> real_of w / real_of s <= 2 ^ 52 ->
  exists z, bind (@ndiv _ FNum w s) (fun q => bind (@ntrunc _ FNum q) (fun k => Ok (k + 1)%Z)) = Ok (z + 1)%Z /\ (0 <= z)%Z /\ IZR z <= rnd (real_of w / real_of s) < IZR z + 1.
Proof.
  intros Nw Ns Hw Hs Hq. cbn [ndiv ntrunc FNum]. rewrite feqb by (try exact Ns; apply num_0). rewrite (proj2 num_0), Req_bool_false by lra. cbn [bind].
  assert (Q0 : 0 <= real_of w / real_of s) by (apply Rmult_le_pos; [exact Hw|apply Rlt_le, Rinv_0_lt_compat, Hs]).
  destruct (fdiv w s Nw) as [D1 D2]; [lra|apply (bpow_le_bound 52); [lia|]; rewrite Rabs_pos_eq by exact Q0; rewrite pow2_bpow in Hq; exact Hq|].
  destruct (F_trunc_ok _ D1) as (z & E & Z0 & Z1); [rewrite D2, <- rnd_0; apply rnd_le, Q0|]. rewrite E. cbn [bind]. exists z. rewrite D2 in Z1. auto.
Qed.
Lemma rnd_half x : 1 <= rnd x -> / 2 <= x.
Proof.
  intros H. destruct (Rle_or_lt (/ 2) x) as [K|K]; [exact K|exfalso]. apply Rlt_le, rnd_le in K. change (/ 2) with (bpow radix2 (-1)) in K. rewrite rnd_bpow in K by lia. cbn in K. lra.
Qed.
Lemma floor_ex x : exists k, IZR k <= x < IZR k + 1.
Proof. exists (Zfloor x). split; [apply Zfloor_lb|]. apply Zfloor_ub. Qed.
Lemma small_bpow x : / 2 <= x -> bpow radix2 (-1022) <= Rabs x.
Proof. intros H. rewrite Rabs_pos_eq by lra. apply Rle_trans with (bpow radix2 (-1)); [apply bpow_le; lia|exact H]. Qed.
