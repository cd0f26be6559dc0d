(** Refinement in binary64: the hypotheses of GenRefine. *)
From Flocq Require Import Core.
From Coq Require Import ZArith Reals Floats Lra Lia Psatz.
From Verif.Model Require Import Py Num NumFloat Tensors Domain Refine.
From Verif.Spec Require Import FloatSpec.
From Verif.Proofs Require Import FloatR FloatN FloatE FloatD Lattice RefineP GenRefine.
Local Open Scope R_scope.

Section FRef.
Context (h : R) (K : Z) (Hh : / 10 ^ 14 <= h <= 2 ^ 400) (HK : (1 <= K <= 2 ^ 19)%Z).
Let X := IZR K * h.
Definition dlt : R := 40 * (ulp1 * (IZR K * h)).
Definition frep (x : Z2) (p : vector float) : Prop :=
  (0 <= fst x <= K)%Z /\ (0 <= snd x <= K)%Z /\ near2 p (IZR (fst x) * h) (IZR (snd x) * h) dlt.

Lemma h_pos : 0 < h. Proof. assert (0 < / 10 ^ 14) by (apply Rinv_0_lt_compat, pow_lt; lra). lra. Qed.
Lemma K_R : 1 <= IZR K <= 2 ^ 19. Proof. rewrite (pow_IZR 2 19). split; apply IZR_le; apply HK. Qed.
Lemma X_R : h <= IZR K * h <= 2 ^ 419.
Proof.
  pose proof K_R. pose proof h_pos. split; [nra|]. replace (2 ^ 419) with (2 ^ 19 * 2 ^ 400) by (rewrite <- pow_add; reflexivity). apply Rmult_le_compat; lra.
Qed.
Lemma uX : ulp1 * (IZR K * h) <= / 2 ^ 34 * h.
Proof.
  pose proof K_R. pose proof h_pos. rewrite <- Rmult_assoc. apply Rmult_le_compat_r; [lra|]. replace (/ 2 ^ 34) with (ulp1 * 2 ^ 19).
  - apply Rmult_le_compat_l; [apply Rlt_le, ulp1_pos|apply H].
  - unfold ulp1. replace (2 ^ 53) with (2 ^ 34 * 2 ^ 19) by (rewrite <- pow_add; reflexivity). field.
Qed.
(** One coordinate of a difference. *)
Lemma fdiff i j a b : (0 <= i <= K)%Z -> (0 <= j <= K)%Z -> near a (IZR i * h) dlt -> near b (IZR j * h) dlt ->
  near (a - b)%float (IZR (i - j) * h) (5 / 10 ^ 9 * h).
Proof.
  intros Hi Hj A B. pose proof X_R as XR. pose proof uX as UX. pose proof h_pos as H0. pose proof ulp1_pos as U0. pose proof ulp1_small as U1.
  assert (D0 : 0 <= dlt) by (unfold dlt; assert (0 < ulp1 * (IZR K * h)) by (apply Rmult_lt_0_compat; lra); lra).
  assert (D1 : dlt <= 40 * (/ 2 ^ 34 * h)) by (unfold dlt; lra). assert (D2 : dlt <= / 1000 * h) by lra.
  assert (Q : Rabs (IZR i * h - IZR j * h) <= IZR K * h).
  { assert (0 <= IZR i <= IZR K) by (split; apply IZR_le; lia). assert (0 <= IZR j <= IZR K) by (split; apply IZR_le; lia).
    rewrite <- Rmult_minus_distr_r, Rabs_mult, (Rabs_pos_eq h) by lra. apply Rmult_le_compat_r; [lra|]. apply Rabs_le. lra. }
  rewrite minus_IZR, Rmult_minus_distr_r. eapply near_weak; [apply (near_sub _ _ _ _ _ _ (2 * (IZR K * h)) A B); [lra|]|].
  - apply bound_big. apply Rle_trans with (2 * 2 ^ 419); [lra|]. apply (Rle_pow 2 420 900); [lra|lia].
  - assert (ulp1 * (2 * (IZR K * h)) <= 2 * (/ 2 ^ 34 * h)) by lra. lra.
Qed.
Lemma coord_ne x y : (x : Z2) <> y -> (1 <= Z.abs (fst x - fst y) \/ 1 <= Z.abs (snd x - snd y))%Z.
Proof. intros H. destruct x as [a b], y as [c d]. cbn. destruct (Z.eq_dec a c) as [->|]; [|lia]. destruct (Z.eq_dec b d) as [->|]; [congruence|lia]. Qed.
Lemma fdist x y p q : frep x p -> frep y q -> exists d N, @Vector_sub _ FNum p q = Ok d /\ @Vector_norm _ FNum d = N /\ is_num N /\
  (x <> y -> 0.85 * h <= real_of N) /\ (x = y -> real_of N <= 8 / 10 ^ 9 * h) /\ (short (x, y) -> 0.85 * h <= real_of N <= 1.5 * h).
Proof.
  intros (I1 & J1 & a1 & b1 & -> & A1 & B1) (I2 & J2 & a2 & b2 & -> & A2 & B2). pose proof h_pos as H0. pose proof (proj1 X_R) as XR. pose proof (proj2 X_R) as XR2.
  eexists _, _. split; [reflexivity|]. split; [reflexivity|]. cbn [combine map nsub FNum zip].
  pose proof (fdiff _ _ _ _ I1 I2 A1 A2) as [ND1 ED1]. pose proof (fdiff _ _ _ _ J1 J2 B1 B2) as [ND2 ED2].
  set (d1 := (a1 - a2)%float) in *. set (d2 := (b1 - b2)%float) in *. set (di := (fst x - fst y)%Z) in *. set (dj := (snd x - snd y)%Z) in *.
  assert (G : forall (z : Z) d, (Z.abs z <= K)%Z -> Rabs (real_of d - IZR z * h) <= 5 / 10 ^ 9 * h ->
     Rabs (real_of d) <= 2 ^ 420 /\ ((1 <= Z.abs z)%Z -> 0.99 * h <= Rabs (real_of d)) /\ ((Z.abs z <= 1)%Z -> Rabs (real_of d) <= 1.01 * h) /\ (z = 0%Z -> Rabs (real_of d) <= 5 / 10 ^ 9 * h)).
  { intros z d Hz E. pose proof (Rabs_triang_inv (IZR z * h) (IZR z * h - real_of d)) as T1. replace (IZR z * h - (IZR z * h - real_of d)) with (real_of d) in T1 by ring. rewrite (Rabs_minus_sym (IZR z * h)) in T1.
    pose proof (Rabs_triang (real_of d - IZR z * h) (IZR z * h)) as T2. replace (real_of d - IZR z * h + IZR z * h) with (real_of d) in T2 by ring.
    rewrite Rabs_mult, (Rabs_pos_eq h), <- abs_IZR in T1, T2 by lra. split; [|split; [|split]].
    - assert (IZR (Z.abs z) * h <= IZR K * h) by (apply Rmult_le_compat_r; [lra|apply IZR_le, Hz]). replace (2 ^ 420) with (2 * 2 ^ 419) by reflexivity. generalize dependent (2 ^ 419). intros p419 XR1. clear - E T2 XR1 XR H H0. lra.
    - intros Z1. apply IZR_le in Z1. assert (1 * h <= IZR (Z.abs z) * h) by (apply Rmult_le_compat_r; lra). lra.
    - intros Z1. apply IZR_le in Z1. assert (IZR (Z.abs z) * h <= 1 * h) by (apply Rmult_le_compat_r; lra). lra.
    - intros ->. rewrite Z.abs_0 in T2. rewrite ?Rmult_0_l in T2, E. lra. }
  destruct (G di d1) as (D1 & L1 & U1 & Z1); [lia|exact ED1|]. destruct (G dj d2) as (D2 & L2 & U2 & Z2); [lia|exact ED2|]. clear G.
  destruct (norm_f d1 d2 (2 ^ 420) ND1 ND2 D1 D2 (Rle_refl _)) as (N & <- & NN & N0 & NU & NL). split; [exact NN|].
  assert (T25 : / 10 ^ 25 <= 5 / 10 ^ 9 * h) by lra. assert (T26 : / 10 ^ 25 <= 0.99 * h) by lra. assert (T27 : / 10 ^ 25 <= 1.01 * h) by lra.
  assert (LO : x <> y -> 0.85 * h <= real_of (@Vector_norm _ FNum [d1; d2])).
  { intros H. pose proof (NL (0.99 * h) T26) as Q. assert (0.9 * (0.99 * h) <= real_of (@Vector_norm _ FNum [d1; d2])); [|lra]. apply Q. destruct (coord_ne x y H) as [C|C]; fold di dj in C; auto. }
  split; [exact LO|]. split.
  - intros E. assert (di = 0%Z) by (unfold di; rewrite E; lia). assert (dj = 0%Z) by (unfold dj; rewrite E; lia). pose proof (NU _ T25 (Z1 H) (Z2 H1)). lra.
  - intros (S1 & S2 & S3). cbn [fst snd] in *. split; [apply LO; intros ->; lia|]. pose proof (NU _ T27 (U1 ltac:(unfold di; lia)) (U2 ltac:(unfold dj; lia))). lra.
Qed.

(** ** The running mean *)
Definition JJ : Z := 2 ^ 48.
Definition fmok (j : nat) (m : option float) : Prop :=
  match m with
  | None => j = 0%nat
  | Some m => is_num m /\ (1 <= j)%nat /\ (Z.of_nat j <= JJ)%Z /\ 0.8 * h * (1 - 4 * ulp1 * INR j) <= real_of m <= 1.5 * h * (1 + 4 * ulp1 * INR j)
  end.
Lemma ujb j : (Z.of_nat j <= JJ)%Z -> 0 <= 4 * ulp1 * INR j <= / 8.
Proof.
  intros H. rewrite INR_IZR_INZ. apply IZR_le in H. unfold JJ in H. assert (Q : 4 * ulp1 * IZR (2 ^ 48) = / 8).
  { unfold ulp1. replace (IZR (2 ^ 48)) with (2 ^ 48) by (rewrite (pow_IZR 2 48); reflexivity). replace (2 ^ 53) with (32 * 2 ^ 48) by ring. field. }
  pose proof ulp1_pos. assert (0 <= IZR (Z.of_nat j)) by (apply IZR_le; lia). split; [apply Rmult_le_pos; lra|]. rewrite <- Q. apply Rmult_le_compat_l; lra.
Qed.
Lemma rnd_near x : / 10 ^ 200 <= x -> (1 - ulp1) * x <= rnd x <= (1 + ulp1) * x.
Proof.
  intros H. assert (P : 0 < / 10 ^ 200) by (apply Rinv_0_lt_compat, pow_lt; lra).
  assert (Q : Rabs (rnd x - x) <= ulp1 * Rabs x).
  { apply rnd_rel. rewrite Rabs_pos_eq by lra. apply Rle_trans with (2 := H). apply Rle_trans with (bpow radix2 (-700)); [apply bpow_le; lia|].
    replace (bpow radix2 (-700)) with (/ 2 ^ 700) by (rewrite (pow2_bpow 700), <- bpow_opp; reflexivity). apply Rinv_le; [apply pow_lt; lra|].
    replace (10 ^ 200) with ((10 ^ 2) ^ 100) by (rewrite <- pow_mult; reflexivity). replace (2 ^ 700) with ((2 ^ 7) ^ 100) by (rewrite <- pow_mult; reflexivity). apply pow_incr. lra. }
  rewrite (Rabs_pos_eq x) in Q by lra. apply Rabs_le_inv in Q. lra.
Qed.
Lemma h200 c : / 10 ^ 100 <= c -> / 10 ^ 200 <= c * h.
Proof. intros H. assert (P : 0 < / 10 ^ 100) by (apply Rinv_0_lt_compat, pow_lt; lra). apply Rle_trans with (/ 10 ^ 100 * / 10 ^ 14); [|apply Rmult_le_compat; try lra; apply Rlt_le, Rinv_0_lt_compat, pow_lt; lra]. rewrite <- Rinv_mult, <- pow_add. apply Rinv_le; [apply pow_lt; lra|]. apply Rle_pow; [lra|lia]. Qed.

Lemma mean_step j m L : (Z.of_nat j < JJ)%Z -> fmok j (Some m) -> is_num L -> 0.85 * h <= real_of L <= 1.5 * h ->
  exists a b, @ndiv _ FNum (@nmul _ FNum m (@nofZ _ FNum (Z.of_nat j))) (@nofZ _ FNum (Z.of_nat j + 1)) = Ok a /\ @ndiv _ FNum L (@nofZ _ FNum (Z.of_nat j + 1)) = Ok b /\ fmok (S j) (Some (a + b)%float).
Proof.
  intros HJ (Nm & J1 & J2 & M1 & M2) NL [L1 L2]. pose proof h_pos as H0. pose proof ulp1_pos as U0. pose proof ulp1_small as U1. pose proof (ujb j J2) as UJ.
  cbn [ndiv nmul nofZ FNum]. unfold JJ in HJ. destruct (F_of_Z_ok (Z.of_nat j)) as [Nj Rj]; [lia|]. destruct (F_of_Z_ok (Z.of_nat j + 1)) as [Nk Rk]; [lia|].
  rewrite plus_IZR in Rk. rewrite <- INR_IZR_INZ in Rj, Rk. set (x := INR j) in *. assert (X1 : 1 <= x) by (change 1 with (INR 1); apply le_INR; exact J1).
  assert (X2 : x <= 2 ^ 48) by (unfold x; rewrite INR_IZR_INZ, (pow_IZR 2 48); apply IZR_le; lia).
  assert (M3 : 0.7 * h <= real_of m) by (apply Rle_trans with (2 := M1); nra). assert (M4 : real_of m <= 1.7 * h) by (apply (Rle_trans _ _ _ M2); nra).
  assert (HB : forall c, c <= 2 ^ 60 -> 0 <= c -> c * h <= bound).
  { intros c C1 C0. apply bound_big. apply Rle_trans with (2 ^ 60 * 2 ^ 400); [apply Rmult_le_compat; lra|]. rewrite <- pow_add. apply Rle_pow; [lra|lia]. }
  assert (P60 : 2 ^ 60 = 4096 * 2 ^ 48) by ring. assert (P48 : 2 ^ 48 <= 10 ^ 15) by lra.
  rewrite feqb by (try exact Nk; apply num_0). rewrite (proj2 num_0), Rk, Req_bool_false by lra.
  destruct (fmul m (F_of_Z (Z.of_nat j)) Nm Nj) as [N1 R1].
  { rewrite Rj, Rabs_pos_eq by (apply Rmult_le_pos; lra). apply Rle_trans with (1.7 * x * h); [nra|apply HB; lra]. }
  rewrite Rj in R1. pose proof (rnd_near (real_of m * x)) as E1. rewrite <- R1 in E1.
  assert (G1 : 0.7 * h <= real_of m * x) by nra. specialize (E1 ltac:(apply Rle_trans with (2 := G1); apply h200; lra)).
  assert (G2 : real_of m * x <= 1.7 * x * h) by nra. set (mx := real_of m * x) in *. set (P := real_of (m * F_of_Z (Z.of_nat j))) in *.
  assert (G3 : 0.6 * h <= P <= 1.8 * x * h).
  { assert (ulp1 * mx <= / 1000 * mx) by (apply Rmult_le_compat_r; lra). assert (0 < x * h) by (apply Rmult_lt_0_compat; lra). split; lra. }
  assert (IK : 0 < / (x + 1) <= / 2) by (split; [apply Rinv_0_lt_compat; lra|apply Rinv_le; lra]).
  assert (IK2 : / 10 ^ 20 <= / (x + 1)) by (apply Rinv_le; lra).
  assert (XI : x * / (x + 1) <= 1) by (apply (Rmult_le_reg_r (x + 1)); [lra|]; rewrite Rmult_assoc, Rinv_l by lra; lra).
  assert (G4 : / 10 ^ 21 * h <= P / (x + 1) <= 1.8 * h).
  { unfold Rdiv. split; [apply Rle_trans with (0.6 * h * / 10 ^ 20); [lra|apply Rmult_le_compat; lra]|]. apply Rle_trans with (1.8 * x * h * / (x + 1)); [apply Rmult_le_compat_r; lra|]. replace (1.8 * x * h * / (x + 1)) with (1.8 * h * (x * / (x + 1))) by ring. rewrite <- (Rmult_1_r (1.8 * h)) at 2. apply Rmult_le_compat_l; lra. }
  destruct (fdiv (m * F_of_Z (Z.of_nat j))%float (F_of_Z (Z.of_nat j + 1)) N1) as [N2 R2]; [lra| |].
  { rewrite Rk. fold P. rewrite Rabs_pos_eq by lra. apply Rle_trans with (1.8 * h); [lra|]. apply HB; lra. }
  rewrite Rk in R2. fold P in R2. pose proof (rnd_near (P / (x + 1))) as E2. rewrite <- R2 in E2. specialize (E2 ltac:(apply Rle_trans with (2 := proj1 G4); apply h200; lra)).
  assert (G5 : / 10 ^ 21 * h <= real_of L / (x + 1) <= 1.5 * h).
  { unfold Rdiv. split; [apply Rle_trans with (0.85 * h * / 10 ^ 20); [lra|apply Rmult_le_compat; lra]|]. apply Rle_trans with (1.5 * h * / 2); [apply Rmult_le_compat; lra|lra]. }
  destruct (fdiv L (F_of_Z (Z.of_nat j + 1)) NL) as [N3 R3]; [lra| |].
  { rewrite Rk. rewrite Rabs_pos_eq by lra. apply Rle_trans with (1.5 * h); [lra|]. apply HB; lra. }
  rewrite Rk in R3. pose proof (rnd_near (real_of L / (x + 1))) as E3. rewrite <- R3 in E3. specialize (E3 ltac:(apply Rle_trans with (2 := proj1 G5); apply h200; lra)).
  eexists _, _. split; [reflexivity|]. split; [reflexivity|].
  set (fa := (m * F_of_Z (Z.of_nat j) / F_of_Z (Z.of_nat j + 1))%float) in *. set (fb := (L / F_of_Z (Z.of_nat j + 1))%float) in *. set (A := real_of fa) in *. set (B := real_of fb) in *.
  set (PA := P / (x + 1)) in *. set (LB := real_of L / (x + 1)) in *.
  assert (VA : ulp1 * PA <= / 1000 * PA) by (apply Rmult_le_compat_r; lra). assert (VB : ulp1 * LB <= / 1000 * LB) by (apply Rmult_le_compat_r; lra).
  assert (G6 : 0 <= A <= 2 * h) by lra. assert (G7 : 0 <= B <= 2 * h) by lra. assert (G8 : / 10 ^ 22 * h <= A + B) by lra.
  destruct (fadd fa fb N2 N3) as [N4 R4]. { fold A B. rewrite Rabs_pos_eq by lra. apply Rle_trans with (4 * h); [lra|]. apply HB; lra. }
  fold A B in R4. pose proof (rnd_near (A + B)) as E4. rewrite <- R4 in E4. specialize (E4 ltac:(apply Rle_trans with (2 := G8); apply h200; lra)).
  set (m' := real_of (fa + fb)) in *. cbn [fmok]. split; [exact N4|]. split; [lia|]. split; [unfold JJ; lia|].
  change (real_of (fa + fb)%float) with m'. assert (SX : INR (S j) = x + 1) by (rewrite S_INR; reflexivity). rewrite SX. clear SX.
  assert (AV : mx / (x + 1) + LB = (real_of m * x + real_of L) * / (x + 1)) by (unfold LB, mx; field; lra).
  assert (PAV : (1 - ulp1) * (mx / (x + 1)) <= PA <= (1 + ulp1) * (mx / (x + 1))).
  { unfold PA, Rdiv. rewrite <- !Rmult_assoc. split; apply Rmult_le_compat_r; lra. }
  set (Q := mx / (x + 1)) in *. assert (Q0 : 0 <= Q) by (unfold Q, Rdiv; apply Rmult_le_pos; lra). assert (LB0 : 0 <= LB) by lra.
  assert (EQ : forall t, t * / (x + 1) * (x + 1) = t) by (intros t; field; lra).
  assert (LOW : 0.8 * h * (1 - 4 * ulp1 * x) <= Q + LB).
  { rewrite AV. apply (Rmult_le_reg_r (x + 1)); [lra|]. rewrite EQ. set (c := 0.8 * h * (1 - 4 * ulp1 * x)) in *. assert (c <= real_of L) by (unfold c; nra). rewrite Rmult_plus_distr_l, Rmult_1_r. apply Rplus_le_compat; [apply Rmult_le_compat_r; lra|lra]. }
  assert (UPP : Q + LB <= 1.5 * h * (1 + 4 * ulp1 * x)).
  { rewrite AV. apply (Rmult_le_reg_r (x + 1)); [lra|]. rewrite EQ. set (c := 1.5 * h * (1 + 4 * ulp1 * x)) in *. assert (real_of L <= c) by (unfold c; nra). rewrite Rmult_plus_distr_l, Rmult_1_r. apply Rplus_le_compat; [apply Rmult_le_compat_r; lra|lra]. }
  clearbody Q LB PA A B m'. clear - E2 E3 E4 PAV LOW UPP UJ U0 U1 H0 Q0 LB0 X1.
  assert (D1 : 0 <= ulp1 <= / 100) by lra.
  assert (F1 : (1 - ulp1) * ((1 - ulp1) * ((1 - ulp1) * (Q + LB))) <= m').
  { apply Rle_trans with ((1 - ulp1) * (A + B)); [|lra]. apply Rmult_le_compat_l; [lra|].
    assert ((1 - ulp1) * ((1 - ulp1) * Q) <= A) by (apply Rle_trans with ((1 - ulp1) * PA); [apply Rmult_le_compat_l; lra|lra]).
    assert ((1 - ulp1) * ((1 - ulp1) * LB) <= B). { apply Rle_trans with ((1 - ulp1) * LB); [apply Rmult_le_compat_l; [lra|]; nra|lra]. } lra. }
  assert (F2 : m' <= (1 + ulp1) * ((1 + ulp1) * ((1 + ulp1) * (Q + LB)))).
  { apply Rle_trans with ((1 + ulp1) * (A + B)); [lra|]. apply Rmult_le_compat_l; [lra|].
    assert (A <= (1 + ulp1) * ((1 + ulp1) * Q)) by (apply Rle_trans with ((1 + ulp1) * PA); [lra|apply Rmult_le_compat_l; lra]).
    assert (B <= (1 + ulp1) * ((1 + ulp1) * LB)). { apply Rle_trans with ((1 + ulp1) * LB); [lra|]. apply Rmult_le_compat_l; [lra|]; nra. } lra. }
  assert (C1 : 1 - 3 * ulp1 <= (1 - ulp1) * ((1 - ulp1) * (1 - ulp1))) by nra. assert (C2 : (1 + ulp1) * ((1 + ulp1) * (1 + ulp1)) <= 1 + 3.1 * ulp1) by nra.
  set (w := Q + LB) in *. set (y := 4 * ulp1 * x) in *. assert (W0 : 0 <= w) by (unfold w; lra).
  split.
  - apply Rle_trans with (2 := F1). apply Rle_trans with ((1 - 3 * ulp1) * w); [|replace ((1 - ulp1) * ((1 - ulp1) * ((1 - ulp1) * w))) with ((1 - ulp1) * ((1 - ulp1) * (1 - ulp1)) * w) by ring; apply Rmult_le_compat_r; lra].
    apply Rle_trans with ((1 - 3 * ulp1) * (0.8 * h * (1 - y))); [|apply Rmult_le_compat_l; lra].
    replace (4 * ulp1 * (x + 1)) with (y + 4 * ulp1) by (unfold y; ring). replace ((1 - 3 * ulp1) * (0.8 * h * (1 - y))) with (0.8 * h * ((1 - 3 * ulp1) * (1 - y))) by ring. apply Rmult_le_compat_l; [lra|]. nra.
  - apply (Rle_trans _ _ _ F2). apply Rle_trans with ((1 + 3.1 * ulp1) * w); [replace ((1 + ulp1) * ((1 + ulp1) * ((1 + ulp1) * w))) with ((1 + ulp1) * ((1 + ulp1) * (1 + ulp1)) * w) by ring; apply Rmult_le_compat_r; lra|].
    apply Rle_trans with ((1 + 3.1 * ulp1) * (1.5 * h * (1 + y))); [apply Rmult_le_compat_l; lra|].
    replace (4 * ulp1 * (x + 1)) with (y + 4 * ulp1) by (unfold y; ring). replace ((1 + 3.1 * ulp1) * (1.5 * h * (1 + y))) with (1.5 * h * ((1 + 3.1 * ulp1) * (1 + y))) by ring. apply Rmult_le_compat_l; [lra|]. nra.
Qed.

Lemma F7 : is_num (F_of_Z 10000000) /\ real_of (F_of_Z 10000000) = 10000000. Proof. apply F_of_Z_ok. lia. Qed.
Lemma eps_some j m : fmok j (Some m) -> exists e, @coincide_eps _ FNum (Some m) = Ok e /\ is_num e /\ 5 / 10 ^ 8 * h <= real_of e <= 2 / 10 ^ 7 * h.
Proof.
  intros (Nm & J1 & J2 & M1 & M2). pose proof h_pos as H0. pose proof ulp1_pos as U0. pose proof ulp1_small as U1. pose proof (ujb j J2) as UJ. destruct F7 as [N7 R7].
  unfold coincide_eps. cbn [ndiv nofZ FNum]. rewrite feqb by (try exact N7; apply num_0). rewrite (proj2 num_0), R7, Req_bool_false by lra.
  assert (M3 : 0.7 * h <= real_of m) by (apply Rle_trans with (2 := M1); nra). assert (M4 : real_of m <= 1.7 * h) by (apply (Rle_trans _ _ _ M2); nra).
  eexists. split; [reflexivity|]. destruct (fdiv m (F_of_Z 10000000) Nm) as [NE RE]; [lra| |].
  { rewrite R7. rewrite Rabs_pos_eq by lra. apply bound_big. apply Rle_trans with (1 * 2 ^ 400); [lra|]. rewrite Rmult_1_l. apply Rle_pow; [lra|lia]. }
  split; [exact NE|]. rewrite RE, R7. pose proof (rnd_near (real_of m / 10000000)) as E. specialize (E ltac:(apply Rle_trans with (/ 10 ^ 10 * h); [apply h200; lra|lra])).
  assert (ulp1 * (real_of m / 10000000) <= / 1000 * (real_of m / 10000000)) by (apply Rmult_le_compat_r; lra). lra.
Qed.
Lemma eps_none : exists e, @coincide_eps _ FNum None = Ok e /\ is_num e /\ real_of e <= 2 / 10 ^ 15.
Proof.
  eexists. split; [reflexivity|]. cbn [ndec FNum]. change (pow10 15) with (10 ^ 15)%Z. destruct (F_of_Z_ok 1) as [N1 R1]; [lia|]. destruct (F_of_Z_ok (10 ^ 15)) as [N2 R2]; [lia|].
  pose proof ulp1_pos as U0. pose proof ulp1_small as U1. replace (IZR (10 ^ 15)) with (10 ^ 15) in R2 by (rewrite (pow_IZR 10 15); reflexivity).
  destruct (fdiv (F_of_Z 1) (F_of_Z (10 ^ 15)) N1) as [NE RE]; [rewrite R2; lra| |].
  { rewrite R1, R2, Rabs_pos_eq by lra. apply bound_big. apply Rle_trans with (2 ^ 0); [lra|]. apply Rle_pow; [lra|lia]. }
  split; [exact NE|]. rewrite RE, R1, R2. pose proof (rnd_near (1 / 10 ^ 15)) as E. specialize (E ltac:(unfold Rdiv; rewrite Rmult_1_l; apply Rinv_le; [apply pow_lt; lra|apply Rle_pow; [lra|lia]])).
  assert (ulp1 * (1 / 10 ^ 15) <= 1 * (1 / 10 ^ 15)) by (apply Rmult_le_compat_r; lra). lra.
Qed.
Lemma fHfalse : forall j m x y p q, fmok j m -> frep x p -> frep y q -> x <> y -> @points_coincide _ FNum m p q = Ok false.
Proof.
  intros j m x y p q HM Rx Ry Hne. destruct (fdist x y p q Rx Ry) as (d & N & E1 & E2 & NN & LO & _). pose proof h_pos as H0.
  assert (E : exists e, @coincide_eps _ FNum m = Ok e /\ is_num e /\ real_of e <= 0.5 * h).
  { destruct m as [m|]; [destruct (eps_some j m HM) as (e & A & B & C)|destruct eps_none as (e & A & B & C)]; exists e; (split; [exact A|split; [exact B|lra]]). }
  destruct E as (e & A & B & C). unfold points_coincide. rewrite A. cbn [bind]. rewrite E1. cbn [bind]. rewrite E2. apply (f_equal Ok). cbn [nltb FNum].
  rewrite (fltb N e NN B). apply Rlt_bool_false. specialize (LO Hne). lra.
Qed.
Lemma fHtrue : forall j m x p q, fmok (S j) m -> frep x p -> frep x q -> @points_coincide _ FNum m p q = Ok true.
Proof.
  intros j m x p q HM Rx Ry. destruct m as [m|]; [|discriminate HM]. destruct (fdist x x p q Rx Ry) as (d & N & E1 & E2 & NN & _ & UP & _). pose proof h_pos as H0.
  destruct (eps_some _ m HM) as (e & A & B & C). unfold points_coincide. rewrite A. cbn [bind]. rewrite E1. cbn [bind]. rewrite E2. apply (f_equal Ok). cbn [nltb FNum].
  rewrite (fltb N e NN B). apply Rlt_bool_true. specialize (UP eq_refl). lra.
Qed.
Lemma fHapp : forall j m x y p q pts es i i', (j < Z.to_nat JJ)%nat -> fmok j m -> frep x p -> frep y q -> short (x, y) -> length es = j ->
  nth_error pts i = Some p -> nth_error pts i' = Some q -> py_in edge_eqb (i, i') es = false -> py_in edge_eqb (i', i) es = false ->
  exists m', @append_edge_raw _ FNum pts (es, m) (i, i') = Ok (es ++ [(i, i')], m') /\ fmok (S j) m'.
Proof.
  intros j m x y p q pts es i i' HJ HM Rx Ry Hs Hlen Np Nq I1 I2. unfold append_edge_raw. change (flip (i, i')) with (i', i). rewrite I1, I2. cbn [negb andb].
  destruct (fdist x y p q Rx Ry) as (d & N & E1 & E2 & NN & _ & _ & SH). specialize (SH Hs). pose proof h_pos as H0. pose proof ulp1_pos as U0.
  unfold edge_length, py_nth. cbn [fst snd]. rewrite Np, Nq. cbn [bind]. rewrite E1. cbn [bind]. rewrite E2, Hlen. assert (HJ' : (Z.of_nat j < JJ)%Z) by lia.
  destruct m as [m|].
  - destruct (mean_step j m N HJ' HM NN) as (a & b & Ea & Eb & Hm); [lra|]. rewrite Ea, Eb. cbn [bind]. eexists. split; [reflexivity|exact Hm].
  - cbn [bind]. eexists. split; [reflexivity|]. cbn [fmok] in HM. cbn [fmok]. split; [exact NN|]. split; [lia|]. split; [unfold JJ; lia|]. pose proof ulp1_small. rewrite HM. cbn [INR]. assert (0 < ulp1 * h) by (apply Rmult_lt_0_compat; lra). clear - H H0 H1 SH U0. nra.
Qed.

(** ** The mean of the finished grid *)
Definition fmfin (m : float) : Prop := is_num m /\ 0.7 * h <= real_of m <= 1.7 * h.
Definition sumok (j : nat) (S : float) : Prop :=
  is_num S /\ 0.85 * h * (INR j - 2 * ulp1 * (INR j * INR j)) <= real_of S <= 1.5 * h * (INR j + 2 * ulp1 * (INR j * INR j)).
Lemma sum_step j S l : (Z.of_nat j < JJ)%Z -> sumok j S -> is_num l -> 0.85 * h <= real_of l <= 1.5 * h -> sumok (j + 1) (S + l)%float.
Proof.
  intros HJ (NS & S1 & S2) Nl Hl. pose proof h_pos as H0. pose proof ulp1_pos as U0. pose proof ulp1_small as U1. pose proof (ujb j ltac:(lia)) as UJ.
  set (x := INR j) in *. assert (X0 : 0 <= x) by apply pos_INR.
  assert (X2 : x <= 2 ^ 48) by (unfold x; rewrite INR_IZR_INZ, (pow_IZR 2 48); apply IZR_le; unfold JJ in HJ; lia).
  set (y := 2 * ulp1 * (x * x)) in *. assert (Y : 0 <= y <= / 16 * x) by (unfold y; nra).
  assert (LO : 0.85 * h <= real_of S + real_of l). { assert (0 <= 0.85 * h * (x - y)) by (apply Rmult_le_pos; lra). lra. }
  assert (UP : real_of S + real_of l <= 2 ^ 60 * h). { assert (1.5 * h * (x + y) <= 1.5 * h * (2 * 2 ^ 48)) by (apply Rmult_le_compat_l; lra). assert (2 ^ 60 = 4096 * 2 ^ 48) as -> by ring. nra. }
  destruct (fadd S l NS Nl) as [N R]. { rewrite Rabs_pos_eq by lra. apply bound_big. apply Rle_trans with (2 ^ 60 * 2 ^ 400); [apply (Rle_trans _ _ _ UP), Rmult_le_compat_l; lra|]. rewrite <- pow_add. apply Rle_pow; [lra|lia]. }
  pose proof (rnd_near (real_of S + real_of l)) as E. rewrite <- R in E. specialize (E ltac:(apply Rle_trans with (2 := LO); apply h200; lra)).
  split; [exact N|]. rewrite plus_INR. cbn [INR]. fold x. set (z := real_of (S + l)) in *. clearbody z.
  assert (A1 : 0.85 * h * (x - y + 1) <= real_of S + real_of l) by lra. assert (A2 : real_of S + real_of l <= 1.5 * h * (x + y + 1)) by lra.
  split.
  - apply Rle_trans with ((1 - ulp1) * (0.85 * h * (x - y + 1))); [|apply Rle_trans with (2 := proj1 E); apply Rmult_le_compat_l; lra].
    replace ((1 - ulp1) * (0.85 * h * (x - y + 1))) with (0.85 * h * ((1 - ulp1) * (x - y + 1))) by ring. apply Rmult_le_compat_l; [lra|].
    replace (2 * ulp1 * ((x + 1) * (x + 1))) with (y + 4 * (ulp1 * x) + 2 * ulp1) by (unfold y; ring). assert (0 <= ulp1 * x) by (apply Rmult_le_pos; lra). assert (0 <= ulp1 * y) by (apply Rmult_le_pos; lra). lra.
  - apply Rle_trans with ((1 + ulp1) * (1.5 * h * (x + y + 1))); [apply (Rle_trans _ _ _ (proj2 E)); apply Rmult_le_compat_l; lra|].
    replace ((1 + ulp1) * (1.5 * h * (x + y + 1))) with (1.5 * h * ((1 + ulp1) * (x + y + 1))) by ring. apply Rmult_le_compat_l; [lra|].
    replace (2 * ulp1 * ((x + 1) * (x + 1))) with (y + 4 * (ulp1 * x) + 2 * ulp1) by (unfold y; ring). assert (0 <= ulp1 * x) by (apply Rmult_le_pos; lra). assert (ulp1 * y <= ulp1 * (/ 16 * x)) by (apply Rmult_le_compat_l; lra). lra.
Qed.
Lemma sum_all lens : forall j S, sumok j S -> (Z.of_nat (j + length lens) <= JJ)%Z -> (forall l, In l lens -> is_num l /\ 0.85 * h <= real_of l <= 1.5 * h) -> sumok (j + length lens) (fold_left PrimFloat.add lens S).
Proof.
  induction lens as [|l lens IH]; intros j S HS HJ HL; cbn [fold_left length]; [rewrite Nat.add_0_r; exact HS|]. cbn [length] in HJ.
  replace (j + Datatypes.S (length lens))%nat with (j + 1 + length lens)%nat by lia. destruct (HL l (or_introl eq_refl)) as [Nl Bl]. apply IH; [apply sum_step; try assumption; lia|lia|]. intros l' Hl'. apply HL. right. exact Hl'.
Qed.
Lemma fHfin : forall L P E, Forall2 frep L P -> (forall e, In e E -> ein L e /\ short e) -> E <> [] -> (length E <= Z.to_nat JJ)%nat -> exists lens m,
  mapM (@edge_length _ FNum P) (map (eidx L) E) = Ok lens /\ @ndiv _ FNum (@nsum _ FNum lens) (@nofZ _ FNum (Z.of_nat (length E))) = Ok m /\ fmfin m.
Proof.
  intros L P E HP HE HN HJ. pose proof h_pos as H0. pose proof ulp1_pos as U0. pose proof ulp1_small as U1.
  assert (M : exists lens, mapM (@edge_length _ FNum P) (map (eidx L) E) = Ok lens /\ length lens = length E /\ (forall l, In l lens -> is_num l /\ 0.85 * h <= real_of l <= 1.5 * h)).
  { clear HN HJ. induction E as [|e E IH]; [exists []; split; [reflexivity|split; [reflexivity|intros l []]]|]. destruct IH as [lens [IH [IL IB]]]; [intros e' He'; apply HE; right; exact He'|].
    destruct (HE e (or_introl eq_refl)) as [[H1 H2] Hs]. destruct (F2_nth _ _ _ _ _ HP (idx_nth L _ H1)) as (p & Np & Rp). destruct (F2_nth _ _ _ _ _ HP (idx_nth L _ H2)) as (q & Nq & Rq).
    destruct (fdist _ _ p q Rp Rq) as (d & N & E1 & E2 & NN & _ & _ & SH). cbn [map mapM]. unfold edge_length at 1, py_nth. cbn [eidx fst snd]. rewrite Np, Nq. cbn [bind]. rewrite E1. cbn [bind]. rewrite IH. cbn [bind]. rewrite E2. eexists. split; [reflexivity|]. split; [cbn; congruence|].
    intros l [<-|Hl]; [split; [exact NN|apply SH; destruct e; exact Hs]|apply IB, Hl]. }
  destruct M as [lens [EL [LL LB]]]. exists lens. cbn [ndiv nofZ FNum]. unfold JJ in HJ. assert (1 <= length E)%nat by (destruct E; [congruence|cbn; lia]).
  destruct (F_of_Z_ok (Z.of_nat (length E))) as [Nn Rn]; [lia|]. assert (X1 : 1 <= IZR (Z.of_nat (length E))) by (apply IZR_le; lia).
  rewrite feqb by (try exact Nn; apply num_0). rewrite (proj2 num_0), Rn, Req_bool_false by lra. eexists. split; [exact EL|]. split; [reflexivity|].
  assert (S0 : sumok 0 0%float). { split; [apply num_0|]. rewrite (proj2 num_0). cbn [INR]. lra. }
  pose proof (sum_all lens 0 0%float S0 ltac:(unfold JJ; lia) LB) as (NS & S1 & S2). cbn [Nat.add] in S1, S2. rewrite LL in S1, S2. unfold nsum. cbn [nadd n0 FNum] in *.
  set (S := fold_left PrimFloat.add lens 0%float) in *. pose proof (ujb (length E) ltac:(unfold JJ; lia)) as UJ. rewrite INR_IZR_INZ in UJ, S1, S2. set (x := IZR (Z.of_nat (length E))) in *.
  assert (Y : 0 <= 2 * ulp1 * (x * x) <= / 16 * x) by nra. set (y := 2 * ulp1 * (x * x)) in *.
  assert (I1 : 0 < / x <= 1) by (split; [apply Rinv_0_lt_compat; lra|rewrite <- Rinv_1; apply Rinv_le; lra]).
  assert (Q1 : 0.79 * h <= real_of S / x). { apply (Rmult_le_reg_r x); [lra|]. unfold Rdiv. rewrite (Rmult_assoc (real_of S)), Rinv_l by lra. rewrite Rmult_1_r. apply Rle_trans with (2 := S1). apply Rle_trans with (0.85 * h * (15 / 16 * x)); [nra|apply Rmult_le_compat_l; lra]. }
  assert (Q2 : real_of S / x <= 1.6 * h). { apply (Rmult_le_reg_r x); [lra|]. unfold Rdiv. rewrite (Rmult_assoc (real_of S)), Rinv_l by lra. rewrite Rmult_1_r. apply (Rle_trans _ _ _ S2). apply Rle_trans with (1.5 * h * (17 / 16 * x)); [apply Rmult_le_compat_l; lra|nra]. }
  destruct (fdiv S (F_of_Z (Z.of_nat (length E))) NS) as [NE RE]; [lra| |].
  { rewrite Rn. fold x. rewrite Rabs_pos_eq by lra. apply bound_big. apply Rle_trans with (4 * 2 ^ 400); [lra|]. replace 4 with (2 ^ 2) by ring. rewrite <- pow_add. apply Rle_pow; [lra|lia]. }
  split; [exact NE|]. rewrite RE, Rn. fold x. pose proof (rnd_near (real_of S / x)) as E4. specialize (E4 ltac:(apply Rle_trans with (2 := Q1); apply h200; lra)).
  assert (ulp1 * (real_of S / x) <= / 1000 * (real_of S / x)) by (apply Rmult_le_compat_r; lra). lra.
Qed.
(** Looking points up. *)
Lemma fin_eps m : fmfin m -> exists e, @coincide_eps _ FNum (Some m) = Ok e /\ is_num e /\ 5 / 10 ^ 8 * h <= real_of e <= 2 / 10 ^ 7 * h.
Proof.
  intros (Nm & M3 & M4). pose proof h_pos as H0. pose proof ulp1_pos as U0. pose proof ulp1_small as U1. destruct F7 as [N7 R7].
  unfold coincide_eps. cbn [ndiv nofZ FNum]. rewrite feqb by (try exact N7; apply num_0). rewrite (proj2 num_0), R7, Req_bool_false by lra.
  eexists. split; [reflexivity|]. destruct (fdiv m (F_of_Z 10000000) Nm) as [NE RE]; [lra| |].
  { rewrite R7. rewrite Rabs_pos_eq by lra. apply bound_big. apply Rle_trans with (1 * 2 ^ 400); [lra|]. rewrite Rmult_1_l. apply Rle_pow; [lra|lia]. }
  split; [exact NE|]. rewrite RE, R7. pose proof (rnd_near (real_of m / 10000000)) as E. specialize (E ltac:(apply Rle_trans with (/ 10 ^ 10 * h); [apply h200; lra|lra])).
  assert (ulp1 * (real_of m / 10000000) <= / 1000 * (real_of m / 10000000)) by (apply Rmult_le_compat_r; lra). lra.
Qed.
Lemma fin_coincide m x y p q : fmfin m -> frep x p -> frep y q -> @points_coincide _ FNum (Some m) p q = Ok (if z2eqb x y then true else false).
Proof.
  intros HM Rx Ry. destruct (fin_eps m HM) as (e & A & B & C). pose proof h_pos as H0. destruct (fdist x y p q Rx Ry) as (d & N & E1 & E2 & NN & LO & UP & _).
  unfold points_coincide. rewrite A. cbn [bind]. rewrite E1. cbn [bind]. rewrite E2. apply (f_equal Ok). cbn [nltb FNum]. rewrite (fltb N e NN B).
  destruct (z2eqb_spec x y) as [->|Hne]; [apply Rlt_bool_true; specialize (UP eq_refl)|apply Rlt_bool_false; specialize (LO Hne)]; lra.
Qed.
Lemma fin_find m L P v p : fmfin m -> Forall2 frep L P -> NoDup L -> nth_error P v = Some p -> @find_point _ FNum (Some m) 0 P p = Ok (Some v).
Proof.
  intros HM F ND Hv. assert (Hx : exists x, nth_error L v = Some x /\ frep x p).
  { clear - F Hv. revert v Hv. induction F as [|y q L P Hy F IH]; intros [|v] Hv; cbn in *; try discriminate; [injection Hv as <-; eauto|apply IH, Hv]. }
  destruct Hx as (x & Nx & Rx).
  rewrite (find_gen 1 (le_n 1) frep (fun j m => match m with Some m => fmfin m | None => False end)) with (j := 1%nat) (L := L) (x := x).
  - rewrite (proj2 (memz_iff _ _)) by (apply (nth_error_In _ _ Nx)). cbn [Nat.add]. rewrite (idx_unique L x v ND Nx). reflexivity.
  - intros j [m'|] x' y' p' q' KM R1 R2 D; [|destruct KM]. rewrite (fin_coincide m' x' y' p' q' KM R1 R2). destruct (z2eqb_spec x' y'); [contradiction|reflexivity].
  - intros j [m'|] x' p' q' KM R1 R2; [|destruct KM]. rewrite (fin_coincide m' x' x' p' q' KM R1 R2). destruct (z2eqb_spec x' x'); [reflexivity|congruence].
  - exact HM.
  - intros _. apply le_n.
  - exact F.
  - exact Rx.
Qed.
End FRef.

(** ** Refining a grid built in binary64 *)
Section FTop.
Context (sc : float) (n : nat) (K0 : Z) (Nsc : is_num sc).
Let s := real_of sc.
Let h := s / INR n.
Context (Hn : (1 <= n)%nat) (HK0 : (1 <= K0)%Z) (HK : (Z.of_nat n * K0 <= 2 ^ 19)%Z) (Hlo : / 10 ^ 14 <= real_of sc / INR n) (Hhi : real_of sc <= 2 ^ 400).
Let K := (Z.of_nat n * K0)%Z.
(** A point of the coarse grid: rounded products. *)
Definition frep0 (x : Z2) (p : vector float) : Prop :=
  (0 <= fst x <= K0)%Z /\ (0 <= snd x <= K0)%Z /\ p = [(F_of_Z (fst x) * sc)%float; (F_of_Z (snd x) * sc)%float].
Lemma nR : 1 <= INR n. Proof. change 1 with (INR 1). apply le_INR, Hn. Qed.
Lemma s_h : s = INR n * h. Proof. pose proof nR. unfold h. field. lra. Qed.
Lemma fHh : / 10 ^ 14 <= h <= 2 ^ 400.
Proof.
  pose proof nR. split; [exact Hlo|]. apply Rle_trans with s; [|exact Hhi]. assert (0 < h) by (assert (0 < / 10 ^ 14) by (apply Rinv_0_lt_compat, pow_lt; lra); fold s h in Hlo; lra). rewrite s_h. nra.
Qed.
Lemma fHK : (1 <= K <= 2 ^ 19)%Z. Proof. unfold K. nia. Qed.
Lemma s_pos : / 10 ^ 14 <= s. Proof. pose proof nR. pose proof fHh. rewrite s_h. assert (0 < / 10 ^ 14) by (apply Rinv_0_lt_compat, pow_lt; lra). nra. Qed.
Lemma prod_f i : (0 <= i <= K0)%Z -> near (F_of_Z i * sc)%float (IZR i * s) (ulp1 * (IZR i * s)) /\ (IZR i * s <= IZR K * h).
Proof.
  intros Hi. pose proof s_pos as S0. pose proof nR as N1. pose proof HK as HK'. destruct (F_of_Z_ok i) as [Ni Ri]; [nia|]. assert (P : 0 < / 10 ^ 14) by (apply Rinv_0_lt_compat, pow_lt; lra).
  assert (I0 : 0 <= IZR i) by (apply IZR_le; lia). pose proof ulp1_pos as U0.
  assert (EK : IZR K * h = IZR K0 * s) by (unfold K; rewrite mult_IZR, <- INR_IZR_INZ, s_h; ring).
  assert (LE : IZR i * s <= IZR K * h) by (rewrite EK; apply Rmult_le_compat_r; [lra|apply IZR_le; lia]). split; [|exact LE].
  pose proof (X_R h K fHh fHK) as XR.
  destruct (fmul (F_of_Z i) sc Ni Nsc) as [N R].
  { rewrite Ri. fold s. rewrite Rabs_pos_eq by (apply Rmult_le_pos; lra). apply bound_big. apply Rle_trans with (2 ^ 419); [lra|]. apply Rle_pow; [lra|lia]. }
  split; [exact N|]. rewrite R, Ri. fold s. destruct (Z.eq_dec i 0) as [->|Hne].
  - rewrite Rmult_0_l, rnd_0, Rminus_0_r, Rabs_R0, Rmult_0_r. lra.
  - assert (1 <= IZR i) by (apply IZR_le; lia). pose proof (rnd_near (IZR i * s)) as E. specialize (E ltac:(apply Rle_trans with (1 * / 10 ^ 14); [rewrite Rmult_1_l; apply Rinv_le; [apply pow_lt; lra|apply Rle_pow; [lra|lia]]|apply Rmult_le_compat; lra])).
    apply Rabs_le. lra.
Qed.
Lemma frep0_near x p : frep0 x p -> near2 p (IZR (fst x) * s) (IZR (snd x) * s) (ulp1 * (IZR K * h)) /\ 0 <= IZR (fst x) * s <= IZR K * h /\ 0 <= IZR (snd x) * s <= IZR K * h.
Proof.
  intros (H1 & H2 & ->). destruct (prod_f (fst x) H1) as [A1 A2]. destruct (prod_f (snd x) H2) as [B1 B2]. pose proof ulp1_pos. pose proof s_pos. assert (P : 0 < / 10 ^ 14) by (apply Rinv_0_lt_compat, pow_lt; lra).
  assert (0 <= IZR (fst x)) by (apply IZR_le; lia). assert (0 <= IZR (snd x)) by (apply IZR_le; lia).
  split; [|split; split; try assumption; apply Rmult_le_pos; lra]. eexists _, _. split; [reflexivity|]. split; (eapply near_weak; [eassumption|apply Rmult_le_compat_l; lra]).
Qed.
Lemma fHrep x p : frep0 x p -> frep h K (scale n x) p.
Proof.
  intros H. destruct (frep0_near x p H) as ((a & b & -> & A & B) & A2 & B2). destruct H as (H1 & H2 & _). unfold frep, scale. cbn [fst snd].
  split; [unfold K; nia|]. split; [unfold K; nia|]. exists a, b. split; [reflexivity|]. rewrite !mult_IZR, <- !INR_IZR_INZ.
  replace (INR n * IZR (fst x) * h) with (IZR (fst x) * s) by (rewrite s_h; ring). replace (INR n * IZR (snd x) * h) with (IZR (snd x) * s) by (rewrite s_h; ring).
  assert (ulp1 * (IZR K * h) <= dlt h K). { unfold dlt. pose proof (X_R h K fHh fHK). pose proof (h_pos h fHh). pose proof ulp1_pos. assert (0 <= ulp1 * (IZR K * h)) by (apply Rmult_le_pos; lra). lra. }
  split; (eapply near_weak; [eassumption|assumption]).
Qed.
Lemma fn19 : (Z.of_nat n <= 2 ^ 19)%Z. Proof. pose proof HK. nia. Qed.
Lemma node_box (Y : ltri) k l : oriented Y -> (k + l <= n)%nat -> (0 <= fst (c1 Y) <= K0)%Z -> (0 <= snd (c1 Y) <= K0)%Z -> (0 <= fst (c2 Y) <= K0)%Z -> (0 <= snd (c3 Y) <= K0)%Z ->
  (0 <= fst (node n Y k l) <= K)%Z /\ (0 <= snd (node n Y k l) <= K)%Z.
Proof. unfold node, c1, c2, c3, oriented, K. cbn [fst snd]. intros HO Hkl A B C D. split; destruct HO as [HO|HO]; rewrite HO in *; nia. Qed.
Lemma fcombine : forall (Y : ltri) p1 p2 p3 k l, oriented Y -> frep0 (c1 Y) p1 -> frep0 (c2 Y) p2 -> frep0 (c3 Y) p3 -> (k + l <= n)%nat ->
  exists p, combine_points (Bary_assert_bounds n0 n1 (kbf n k l)) (p1, p2, p3) = Ok p /\ frep h K (node n Y k l) p.
Proof.
  intros Y p1 p2 p3 k l HO R1 R2 R3 Hkl.
  destruct (frep0_near _ _ R1) as (A1 & B1 & C1). destruct (frep0_near _ _ R2) as (A2 & B2 & C2). destruct (frep0_near _ _ R3) as (A3 & B3 & C3).
  pose proof (X_R h K fHh fHK) as XR. pose proof fHh as HH. pose proof nR as N1.
  destruct (combine_near n Hn fn19 (IZR K * h)) with (k := k) (l := l) (1 := conj (Rle_trans _ _ _ (proj1 HH) (proj1 XR)) (Rle_trans _ _ _ (proj2 XR) (Rle_pow 2 419 800 ltac:(lra) ltac:(lia)))) (2 := A1) (3 := A2) (4 := A3) as (p & EP & RP); try assumption.
  exists p. split; [exact EP|]. destruct R1 as (D1 & E1 & _), R2 as (D2 & E2 & _), R3 as (D3 & E3 & _).
  destruct (node_box Y k l HO Hkl D1 E1 D2 E3) as [G1 G2]. split; [exact G1|]. split; [exact G2|].
  unfold dlt. assert (P : 0 < INR n) by lra.
  replace (IZR (fst (node n Y k l)) * h) with (IZR (fst (c1 Y)) * s * (1 - INR k / INR n - INR l / INR n) + IZR (fst (c2 Y)) * s * (INR k / INR n) + IZR (fst (c3 Y)) * s * (INR l / INR n)).
  2:{ unfold node, c1, c2, c3. cbn [fst snd]. rewrite s_h. rewrite !plus_IZR, !mult_IZR, !plus_IZR, <- !INR_IZR_INZ. field. lra. }
  replace (IZR (snd (node n Y k l)) * h) with (IZR (snd (c1 Y)) * s * (1 - INR k / INR n - INR l / INR n) + IZR (snd (c2 Y)) * s * (INR k / INR n) + IZR (snd (c3 Y)) * s * (INR l / INR n)).
  2:{ unfold node, c1, c2, c3. cbn [fst snd]. rewrite s_h. rewrite ?plus_IZR, !mult_IZR, ?plus_IZR, <- !INR_IZR_INZ. field. lra. }
  exact RP.
Qed.
Lemma fself a : is_num a -> @nltb _ FNum (@nabs _ FNum (@nsub _ FNum a a)) (@assert_eps _ FNum) = true.
Proof.
  intros Na. cbn [nltb nabs nsub FNum]. destruct (fsub a a Na Na) as [N R]; [rewrite Rminus_diag_eq, Rabs_R0 by reflexivity; apply Rlt_le, bpow_gt_0|]. rewrite Rminus_diag_eq, rnd_0 in R by reflexivity.
  destruct (fabs (a - a)) as [R2 N2]. apply N2 in N. rewrite R, Rabs_R0 in R2. assert (NE : is_num (@assert_eps _ FNum) /\ 0 < real_of (@assert_eps _ FNum)).
  { unfold assert_eps. cbn [ndec FNum]. change (pow10 15) with (10 ^ 15)%Z. destruct (F_of_Z_ok 1) as [N1 R1]; [lia|]. destruct (F_of_Z_ok (10 ^ 15)) as [N3 R3]; [lia|].
    replace (IZR (10 ^ 15)) with (10 ^ 15) in R3 by (rewrite (pow_IZR 10 15); reflexivity).
    destruct (fdiv (F_of_Z 1) (F_of_Z (10 ^ 15)) N1) as [NE RE]; [rewrite R3; lra| |].
    { rewrite R1, R3, Rabs_pos_eq by lra. apply bound_big. apply Rle_trans with (2 ^ 0); [lra|]. apply Rle_pow; [lra|lia]. }
    split; [exact NE|]. rewrite RE, R1, R3. pose proof (rnd_near (1 / 10 ^ 15)) as E. specialize (E ltac:(unfold Rdiv; rewrite Rmult_1_l; apply Rinv_le; [apply pow_lt; lra|apply Rle_pow; [lra|lia]])).
    pose proof ulp1_small. assert (0 < 1 / 10 ^ 15) by lra. assert (0 < (1 - ulp1) * (1 / 10 ^ 15)) by (apply Rmult_lt_0_compat; lra). lra. }
  destruct NE as [NE PE]. rewrite fltb by assumption. apply Rlt_bool_true. lra.
Qed.
Lemma fHassert : forall (Y : ltri) p1 p2 p3, frep0 (c1 Y) p1 -> frep0 (c2 Y) p2 -> frep0 (c3 Y) p3 ->
  exists y1 y2 x2 x3, Vector_get p1 1 = Ok y1 /\ Vector_get p2 1 = Ok y2 /\ Vector_get p2 0 = Ok x2 /\ Vector_get p3 0 = Ok x3 /\
    @nltb _ FNum (@nabs _ FNum (@nsub _ FNum y1 y2)) (@assert_eps _ FNum) = true /\ @nltb _ FNum (@nabs _ FNum (@nsub _ FNum x2 x3)) (@assert_eps _ FNum) = true.
Proof.
  intros Y p1 p2 p3 (A1 & B1 & ->) (A2 & B2 & ->) (A3 & B3 & ->). eexists _, _, _, _. split; [reflexivity|]. split; [reflexivity|]. split; [reflexivity|]. split; [reflexivity|].
  change (snd (c2 Y)) with (snd (c1 Y)). change (fst (c3 Y)) with (fst (c2 Y)). split; apply fself; apply prod_f; assumption.
Qed.
End FTop.
