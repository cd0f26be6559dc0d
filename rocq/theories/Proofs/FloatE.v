(** Error bounds for the binary64 computations of refine. *)
From Flocq Require Import Core.
From Coq Require Import ZArith Reals Floats Lra Lia Psatz.
From Verif.Model Require Import Py Num NumFloat Tensors Domain Refine.
From Verif.Spec Require Import FloatSpec.
From Verif.Proofs Require Import FloatR FloatN.
Local Open Scope R_scope.

Lemma fopp x : real_of (- x)%float = - real_of x /\ (is_num (- x)%float <-> is_num x).
Proof. rewrite !is_num_B, !real_of_B. rewrite IEEE754.PrimFloat.opp_equiv. split; [apply IEEE754.BinarySingleNaN.B2R_Bopp|]. rewrite IEEE754.BinarySingleNaN.is_finite_Bopp. tauto. Qed.
Lemma minus_err x y : Rabs (rnd (real_of x - real_of y) - (real_of x - real_of y)) <= ulp1 * Rabs (real_of x - real_of y).
Proof. pose proof (plus_err x (- y)%float) as H. rewrite (proj1 (fopp y)) in H. exact H. Qed.

Definition near (a : float) (x e : R) : Prop := is_num a /\ Rabs (real_of a - x) <= e.
Lemma near_weak a x e f : near a x e -> e <= f -> near a x f.
Proof. intros [A B] H. split; [exact A|lra]. Qed.
Lemma near_add a x e b y f M : near a x e -> near b y f -> Rabs (x + y) + e + f <= M -> M <= bound -> near (a + b)%float (x + y) (e + f + ulp1 * M).
Proof.
  intros [Na Ea] [Nb Eb] HM HB. pose proof ulp1_pos.
  assert (K : Rabs (real_of a + real_of b) <= M).
  { replace (real_of a + real_of b) with ((real_of a - x) + (real_of b - y) + (x + y)) by ring.
    pose proof (Rabs_triang (real_of a - x + (real_of b - y)) (x + y)). pose proof (Rabs_triang (real_of a - x) (real_of b - y)). lra. }
  destruct (fadd a b Na Nb) as [N E]; [lra|]. split; [exact N|]. rewrite E. pose proof (plus_err a b) as P.
  set (r := rnd (real_of a + real_of b)) in *.
  replace (r - (x + y)) with ((r - (real_of a + real_of b)) + ((real_of a - x) + (real_of b - y))) by ring.
  pose proof (Rabs_triang (r - (real_of a + real_of b)) (real_of a - x + (real_of b - y))). pose proof (Rabs_triang (real_of a - x) (real_of b - y)). nra.
Qed.
Lemma near_sub a x e b y f M : near a x e -> near b y f -> Rabs (x - y) + e + f <= M -> M <= bound -> near (a - b)%float (x - y) (e + f + ulp1 * M).
Proof.
  intros [Na Ea] [Nb Eb] HM HB. pose proof ulp1_pos.
  assert (T2 : Rabs (real_of a - x - (real_of b - y)) <= e + f).
  { pose proof (Rabs_triang (real_of a - x) (- (real_of b - y))) as Q. rewrite Rabs_Ropp in Q. unfold Rminus at 1. lra. }
  assert (K : Rabs (real_of a - real_of b) <= M).
  { replace (real_of a - real_of b) with ((real_of a - x - (real_of b - y)) + (x - y)) by ring.
    pose proof (Rabs_triang (real_of a - x - (real_of b - y)) (x - y)). lra. }
  destruct (fsub a b Na Nb) as [N E]; [lra|]. split; [exact N|]. rewrite E. pose proof (minus_err a b) as P.
  set (r := rnd (real_of a - real_of b)) in *.
  replace (r - (x - y)) with ((r - (real_of a - real_of b)) + (real_of a - x - (real_of b - y))) by ring.
  pose proof (Rabs_triang (r - (real_of a - real_of b)) (real_of a - x - (real_of b - y))). nra.
Qed.
(** A product with a weight between 0 and 1. *)
Lemma near_wmul a x e b y f M : near a x e -> near b y f -> 0 <= real_of b <= 1 -> Rabs x + e <= M -> M <= bound ->
  near (a * b)%float (x * y) (e + Rabs x * f + ulp1 * M + eta).
Proof.
  intros [Na Ea] [Nb Eb] Hb HM HB. pose proof ulp1_pos. pose proof (Rabs_pos x) as Px.
  assert (Ka : Rabs (real_of a) <= M).
  { replace (real_of a) with ((real_of a - x) + x) by ring. pose proof (Rabs_triang (real_of a - x) x). lra. }
  assert (K : Rabs (real_of a * real_of b) <= M).
  { rewrite Rabs_mult, (Rabs_pos_eq (real_of b)) by lra. pose proof (Rabs_pos (real_of a)). nra. }
  destruct (fmul a b Na Nb) as [N E]; [lra|]. split; [exact N|]. rewrite E. pose proof (rnd_err (real_of a * real_of b)) as P.
  set (r := rnd (real_of a * real_of b)) in *.
  replace (r - x * y) with ((r - real_of a * real_of b) + ((real_of a - x) * real_of b + x * (real_of b - y))) by ring.
  pose proof (Rabs_triang (r - real_of a * real_of b) ((real_of a - x) * real_of b + x * (real_of b - y))) as T1.
  pose proof (Rabs_triang ((real_of a - x) * real_of b) (x * (real_of b - y))) as T2. rewrite !Rabs_mult, (Rabs_pos_eq (real_of b)) in T2 by lra.
  assert (Rabs (real_of a - x) * real_of b <= e) by (pose proof (Rabs_pos (real_of a - x)); nra).
  assert (Rabs x * Rabs (real_of b - y) <= Rabs x * f) by (apply Rmult_le_compat_l; assumption).
  assert (ulp1 * Rabs (real_of a * real_of b) <= ulp1 * M) by (apply Rmult_le_compat_l; lra).
  lra.
Qed.
Lemma near_clamp a x e : near a x e -> 0 <= x <= 1 -> near (@clamp _ FNum 0%float 1%float a) x e /\ 0 <= real_of (@clamp _ FNum 0%float 1%float a) <= 1.
Proof.
  intros [Na Ea] Hx. unfold clamp. cbn [nltb FNum]. rewrite (fltb a 0 Na (proj1 num_0)), (proj2 num_0). apply Rabs_le_inv in Ea.
  destruct (Rlt_bool_spec (real_of a) 0).
  - split; [split; [apply num_0|]|]; rewrite (proj2 num_0); [|lra]. apply Rabs_le. lra.
  - rewrite (fltb 1 a (proj1 num_1) Na), (proj2 num_1). destruct (Rlt_bool_spec 1 (real_of a)).
    + split; [split; [apply num_1|]|]; rewrite (proj2 num_1); [|lra]. apply Rabs_le. lra.
    + split; [split; [exact Na|apply Rabs_le; lra]|lra].
Qed.
Lemma bound_big x : x <= 2 ^ 900 -> x <= bound.
Proof. intros H. apply (Rle_trans _ _ _ H). rewrite (pow2_bpow 900). apply bpow_le. lia. Qed.
Lemma ulp1_small : ulp1 <= / 10 ^ 15.
Proof. unfold ulp1. apply Rinv_le; [apply pow_lt; lra|]. lra. Qed.
Lemma eta_small : eta <= / 10 ^ 60.
Proof.
  unfold eta. apply Rle_trans with (bpow radix2 (-200)); [|].
  - apply Rle_trans with (bpow radix2 (-1074)); [pose proof (bpow_gt_0 radix2 (-1074)); lra|apply bpow_le; lia].
  - replace (bpow radix2 (-200)) with (/ 2 ^ 200) by (rewrite (pow2_bpow 200), <- bpow_opp; reflexivity). apply Rinv_le; [apply pow_lt; lra|]. lra.
Qed.

(** ** Barycentric weights *)
Section Wt.
Context (n : nat) (Hn : (1 <= n)%nat) (Hn2 : (Z.of_nat n <= 2 ^ 19)%Z).

Let N := INR n.
Lemma N_pos : 1 <= INR n. Proof. change 1 with (INR 1). apply le_INR, Hn. Qed.
Lemma bary_frac k : (k <= n)%nat -> 0 <= INR k / INR n <= 1.
Proof.
  intros H. pose proof N_pos. apply le_INR in H. pose proof (pos_INR k). assert (0 < / INR n) by (apply Rinv_0_lt_compat; lra).
  split; [unfold Rdiv; apply Rmult_le_pos; lra|]. apply Rmult_le_reg_r with (INR n); [lra|]. unfold Rdiv. rewrite Rmult_assoc, Rinv_l by lra. lra.
Qed.
Lemma frac_f k : (k <= n)%nat -> exists f, @frac _ FNum k n = Ok f /\ near f (INR k / INR n) ulp1.
Proof.
  intros Hk. pose proof N_pos as N1. pose proof (bary_frac k Hk) as B. unfold frac. cbn [ndiv nofZ FNum].
  destruct (F_of_Z_ok (Z.of_nat n)) as [Nn Rn]; [lia|]. destruct (F_of_Z_ok (Z.of_nat k)) as [Nk Rk]; [lia|]. rewrite <- INR_IZR_INZ in Rn, Rk.
  rewrite feqb by (try exact Nn; apply num_0). rewrite (proj2 num_0), Req_bool_false by lra.
  eexists. split; [reflexivity|]. destruct (fdiv (F_of_Z (Z.of_nat k)) (F_of_Z (Z.of_nat n)) Nk) as [Nf Rf]; [lra|rewrite Rk, Rn|].
  { rewrite Rabs_pos_eq by lra. apply bound_big. apply Rle_trans with 1; [lra|]. rewrite <- (pow_O 2). apply Rle_pow; [lra|lia]. }
  split; [exact Nf|]. rewrite Rf, Rk, Rn. set (q := INR k / INR n) in *. destruct k as [|k].
  { assert (q = 0) as -> by (unfold q; cbn; field; lra). rewrite rnd_0, Rminus_0_r, Rabs_R0. pose proof ulp1_pos. lra. }
  assert (L : / 2 ^ 19 <= q).
  { assert (N2 : INR n <= 2 ^ 19) by (rewrite INR_IZR_INZ, (pow_IZR 2 19); apply IZR_le; exact Hn2). apply Rle_trans with (/ INR n); [apply Rinv_le; lra|]. unfold q, Rdiv. rewrite <- (Rmult_1_l (/ INR n)) at 1.
    apply Rmult_le_compat_r; [apply Rlt_le, Rinv_0_lt_compat; lra|]. change 1 with (INR 1). apply le_INR. lia. }
  eapply Rle_trans; [apply rnd_rel|rewrite Rabs_pos_eq by lra; pose proof ulp1_pos; nra].
  rewrite Rabs_pos_eq by lra. apply Rle_trans with (2 := L). replace (/ 2 ^ 19) with (bpow radix2 (-19)); [apply bpow_le; lia|]. rewrite (pow2_bpow 19), <- bpow_opp. reflexivity.
Qed.
Lemma kl_bary_f k l : (k <= n)%nat -> (l <= n)%nat -> exists b, @kl_bary _ FNum n k l = Ok b /\
  near (l1 b) (1 - INR k / INR n - INR l / INR n) (5 * ulp1) /\ near (l2 b) (INR k / INR n) ulp1 /\ near (l3 b) (INR l / INR n) (9 * ulp1).
Proof.
  intros Hk Hl. destruct (frac_f k Hk) as (fk & Ek & Fk). destruct (frac_f l Hl) as (fl & El & Fl). unfold kl_bary. rewrite Ek, El. cbn [bind]. eexists. split; [reflexivity|].
  unfold Bary, l1, l2, l3. cbn [fst snd nsub n1 FNum]. pose proof (bary_frac k Hk) as Bk. pose proof (bary_frac l Hl) as Bl. set (x := INR k / INR n) in *. set (y := INR l / INR n) in *.
  pose proof ulp1_pos as U0. pose proof ulp1_small as U1. assert (U2 : ulp1 <= / 100) by lra.
  assert (BB : 10 <= bound). { apply bound_big. apply Rle_trans with (2 ^ 4); [lra|]. apply Rle_pow; [lra|lia]. }
  assert (near 1%float 1 0) as N1 by (split; [apply num_1|rewrite (proj2 num_1), Rminus_diag_eq, Rabs_R0 by reflexivity; lra]).
  assert (A1 : near (1 - fk)%float (1 - x) (2.01 * ulp1)).
  { eapply near_weak; [apply (near_sub _ _ _ _ _ _ (1 + ulp1) N1 Fk); [rewrite Rabs_pos_eq by lra|]; lra|]. nra. }
  assert (A2 : near (1 - fk - fl)%float (1 - x - y) (4.1 * ulp1)).
  { eapply near_weak; [apply (near_sub _ _ _ _ _ _ (1 + 4 * ulp1) A1 Fl); [|lra]|nra]. assert (Rabs (1 - x - y) <= 1) by (apply Rabs_le; lra). lra. }
  assert (A3 : near (1 - (1 - fk - fl))%float (x + y) (5.2 * ulp1 + ulp1)).
  { replace (x + y) with (1 - (1 - x - y)) by ring. eapply near_weak; [apply (near_sub _ _ _ _ _ _ (2 + 5 * ulp1) N1 A2); [|lra]|nra]. assert (Rabs (1 - (1 - x - y)) <= 2) by (apply Rabs_le; lra). lra. }
  split; [eapply near_weak; [exact A2|lra]|]. split; [exact Fk|].
  replace y with (x + y - x) by ring. eapply near_weak; [apply (near_sub _ _ _ _ _ _ (1 + 8 * ulp1) A3 Fk); [|lra]|nra]. assert (Rabs (x + y - x) <= 1) by (apply Rabs_le; lra). lra.
Qed.
End Wt.

(** ** Points of a refined triangle *)
Section Comb.
Context (n : nat) (Hn : (1 <= n)%nat) (Hn2 : (Z.of_nat n <= 2 ^ 19)%Z) (X : R) (HX : / 10 ^ 14 <= X <= 2 ^ 800).
Definition kbf (k l : nat) : bary float := match @kl_bary _ FNum n k l with Ok b => b | Err _ => (0, 0, 0)%float end.
Definition frf (k : nat) : float := match @frac _ FNum k n with Ok b => b | Err _ => 0%float end.
Lemma kbf_ok k l : (k <= n)%nat -> (l <= n)%nat -> @kl_bary _ FNum n k l = Ok (kbf k l).
Proof. intros Hk Hl. unfold kbf. destruct (kl_bary_f n Hn Hn2 k l Hk Hl) as (b & -> & _). reflexivity. Qed.
Lemma frf_ok k : (k <= n)%nat -> @frac _ FNum k n = Ok (frf k).
Proof. intros Hk. unfold frf. destruct (frac_f n Hn Hn2 k Hk) as (b & -> & _). reflexivity. Qed.
Lemma eta_X : eta <= / 10 ^ 20 * (ulp1 * X).
Proof.
  pose proof eta_small as E. apply (Rle_trans _ _ _ E). assert (U : / 10 ^ 17 <= ulp1) by (unfold ulp1; apply Rinv_le; [apply pow_lt; lra|lra]).
  assert (Q : / 10 ^ 17 * / 10 ^ 14 <= ulp1 * X) by (apply Rmult_le_compat; lra). apply Rle_trans with (/ 10 ^ 20 * (/ 10 ^ 17 * / 10 ^ 14)); [|apply Rmult_le_compat_l; lra].
  rewrite <- !Rinv_mult, <- !pow_add. apply Rinv_le; [apply pow_lt; lra|]. apply Rle_pow; [lra|lia].
Qed.
Lemma prod_near a x w y : near a x (ulp1 * X) -> 0 <= x <= X -> near w y (9 * ulp1) -> 0 <= real_of w <= 1 -> near (a * w)%float (x * y) (11.1 * (ulp1 * X)).
Proof.
  intros A Hx W Hw. pose proof ulp1_pos as U0. pose proof ulp1_small as U1. pose proof eta_X as E. assert (X0 : 0 < X) by (assert (0 < / 10 ^ 14) by (apply Rinv_0_lt_compat, pow_lt; lra); lra).
  assert (P : 0 < ulp1 * X) by (apply Rmult_lt_0_compat; lra). assert (P2 : ulp1 * X <= / 1000 * X) by (apply Rmult_le_compat_r; lra).
  eapply near_weak; [apply (near_wmul a x (ulp1 * X) w y (9 * ulp1) (X + ulp1 * X) A W Hw); rewrite ?Rabs_pos_eq by lra; [lra|]|].
  - apply bound_big. apply Rle_trans with (2 * 2 ^ 800); [lra|]. apply (Rle_pow 2 801 900); [lra|lia].
  - rewrite Rabs_pos_eq by lra. assert (x * (9 * ulp1) <= 9 * (ulp1 * X)) by nra. assert (ulp1 * (ulp1 * X) <= / 1000 * (ulp1 * X)) by (apply Rmult_le_compat_r; lra).
    assert (/ 10 ^ 20 * (ulp1 * X) <= / 1000 * (ulp1 * X)) by (apply Rmult_le_compat_r; lra). lra.
Qed.
Lemma sum3_near a1 a2 a3 w1 w2 w3 x1 x2 x3 y1 y2 y3 : near a1 x1 (ulp1 * X) -> near a2 x2 (ulp1 * X) -> near a3 x3 (ulp1 * X) ->
  0 <= x1 <= X -> 0 <= x2 <= X -> 0 <= x3 <= X -> near w1 y1 (9 * ulp1) -> near w2 y2 (9 * ulp1) -> near w3 y3 (9 * ulp1) ->
  0 <= real_of w1 <= 1 -> 0 <= real_of w2 <= 1 -> 0 <= real_of w3 <= 1 -> 0 <= y1 -> 0 <= y2 -> 0 <= y3 -> y1 + y2 + y3 = 1 ->
  near (a1 * w1 + a2 * w2 + a3 * w3)%float (x1 * y1 + x2 * y2 + x3 * y3) (40 * (ulp1 * X)).
Proof.
  intros A1 A2 A3 X1 X2 X3 W1 W2 W3 V1 V2 V3 Y1 Y2 Y3 YS. pose proof (prod_near _ _ _ _ A1 X1 W1 V1) as P1. pose proof (prod_near _ _ _ _ A2 X2 W2 V2) as P2. pose proof (prod_near _ _ _ _ A3 X3 W3 V3) as P3.
  pose proof ulp1_pos as U0. pose proof ulp1_small as U1. assert (X0 : 0 < X) by (assert (0 < / 10 ^ 14) by (apply Rinv_0_lt_compat, pow_lt; lra); lra).
  assert (P : 0 < ulp1 * X) by (apply Rmult_lt_0_compat; lra). assert (Q2 : ulp1 * X <= / 10 ^ 4 * X) by (apply Rmult_le_compat_r; lra).
  assert (Q3 : ulp1 * (X + 40 * (ulp1 * X)) <= 1.01 * (ulp1 * X)).
  { rewrite Rmult_plus_distr_l. assert (ulp1 * (40 * (ulp1 * X)) <= / 10 ^ 4 * (40 * (ulp1 * X))) by (apply Rmult_le_compat_r; lra). lra. }
  assert (HB : X + 40 * (ulp1 * X) <= bound). { apply bound_big. apply Rle_trans with (2 * 2 ^ 800); [lra|]. apply (Rle_pow 2 801 900); [lra|lia]. }
  assert (Z1 : 0 <= x1 * y1 <= X * y1) by (split; [apply Rmult_le_pos; lra|apply Rmult_le_compat_r; lra]).
  assert (Z2 : 0 <= x2 * y2 <= X * y2) by (split; [apply Rmult_le_pos; lra|apply Rmult_le_compat_r; lra]).
  assert (Z3 : 0 <= x3 * y3 <= X * y3) by (split; [apply Rmult_le_pos; lra|apply Rmult_le_compat_r; lra]).
  assert (ZS : X * y1 + X * y2 + X * y3 = X) by (rewrite <- !Rmult_plus_distr_l, YS; ring).
  eapply near_weak; [apply (near_add _ _ _ _ _ _ (X + 40 * (ulp1 * X)) (near_add _ _ _ _ _ _ (X + 40 * (ulp1 * X)) P1 P2 ltac:(rewrite Rabs_pos_eq by lra; lra) HB) P3); [rewrite Rabs_pos_eq by lra; lra|exact HB]|]. lra.
Qed.
Definition near2 (p : vector float) (x y e : R) : Prop := exists a b, p = [a; b] /\ near a x e /\ near b y e.
Lemma combine_near p1 p2 p3 x1 y1 x2 y2 x3 y3 k l : near2 p1 x1 y1 (ulp1 * X) -> near2 p2 x2 y2 (ulp1 * X) -> near2 p3 x3 y3 (ulp1 * X) ->
  0 <= x1 <= X -> 0 <= x2 <= X -> 0 <= x3 <= X -> 0 <= y1 <= X -> 0 <= y2 <= X -> 0 <= y3 <= X -> (k + l <= n)%nat ->
  let w1 := 1 - INR k / INR n - INR l / INR n in let w2 := INR k / INR n in let w3 := INR l / INR n in
  exists p, @combine_points _ FNum (@Bary_assert_bounds _ FNum n0 n1 (kbf k l)) (p1, p2, p3) = Ok p /\
    near2 p (x1 * w1 + x2 * w2 + x3 * w3) (y1 * w1 + y2 * w2 + y3 * w3) (40 * (ulp1 * X)).
Proof.
  intros (a1 & b1 & -> & A1 & B1) (a2 & b2 & -> & A2 & B2) (a3 & b3 & -> & A3 & B3) X1 X2 X3 Y1 Y2 Y3 Hkl w1 w2 w3.
  destruct (kl_bary_f n Hn Hn2 k l) as (b & Eb & W1 & W2 & W3); [lia|lia|]. unfold kbf. rewrite Eb.
  pose proof (bary_frac n Hn k ltac:(lia)) as Q2. pose proof (bary_frac n Hn l ltac:(lia)) as Q3. pose proof (bary_frac n Hn (k + l) Hkl) as Q1. rewrite plus_INR in Q1. unfold Rdiv in Q1. rewrite Rmult_plus_distr_r in Q1. fold (INR k / INR n) (INR l / INR n) in Q1.
  fold w1 in W1. fold w2 in W2, Q2, Q1. fold w3 in W3, Q3, Q1. pose proof ulp1_pos. assert (V : 0 <= w1 <= 1) by (unfold w1; fold w2 w3; lra). assert (VS : w1 + w2 + w3 = 1) by (unfold w1; fold w2 w3; ring).
  destruct (near_clamp _ _ _ W1 V) as [C1 D1]. destruct (near_clamp _ _ _ W2 Q2) as [C2 D2]. destruct (near_clamp _ _ _ W3 Q3) as [C3 D3].
  eexists. split; [reflexivity|]. eexists _, _. split; [reflexivity|].
  cbn [nadd nmul FNum]. split; apply sum3_near; try assumption; try lra; (eapply near_weak; [eassumption|lra]).
Qed.
End Comb.
