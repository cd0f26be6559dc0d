(** Point location with binary64 floats: error analysis. *)
From Flocq Require Import Core.
From Coq Require Import ZArith Reals Floats Lra Lia Psatz List.
From Verif.Model Require Import Py Num NumFloat Tensors Domain.
From Verif.Spec Require Import FloatSpec GridSpec.
From Verif.Proofs Require Import FloatR FloatN FloatE LocateP.
Import ListNotations.
Local Open Scope R_scope.

Section Sc.
Context (u : R) (U0 : ulp1 <= u) (U1 : u <= / 10 ^ 10).
Lemma u_pos : 0 < u. Proof. pose proof ulp1_pos. lra. Qed.
Lemma Rabs_mul_le x y A B : Rabs x <= A -> Rabs y <= B -> Rabs (x * y) <= A * B.
Proof. intros H K. rewrite Rabs_mult. apply Rmult_le_compat; try assumption; apply Rabs_pos. Qed.
Lemma Rabs_add_le x y A B : Rabs x <= A -> Rabs y <= B -> Rabs (x + y) <= A + B.
Proof. intros H K. pose proof (Rabs_triang x y). lra. Qed.

Lemma mul_near a x c p b y d q A B : 0 < p -> 0 < q -> near a x (c * (u * p)) -> near b y (d * (u * q)) -> Rabs x <= A * p -> Rabs y <= B * q ->
  0 <= A -> 0 <= B -> 0 <= c -> 0 <= d -> c * d * u + u * (c * B + A * d + c * d * u) <= / 2 -> eta <= / 2 * (u * (p * q)) -> (A * B + 2) * (p * q) <= bound -> A * d + c * B + c * d * u <= 10 ^ 9 ->
  near (a * b)%float (x * y) ((A * d + c * B + A * B + 1) * (u * (p * q))).
Proof.
  intros Hp Hq [Na Ea] [Nb Eb] Hx Hy HA HB Hc Hd Hsm He Hbd Hbig. pose proof u_pos as UP. pose proof ulp1_pos as ULP. assert (PQ : 0 < p * q) by (apply Rmult_lt_0_compat; lra).
  set (Q := c * B + A * d + c * d * u) in *. set (ea := real_of a - x) in *. set (eb := real_of b - y) in *.
  assert (Q0 : 0 <= Q). { assert (0 <= c * B) by (apply Rmult_le_pos; assumption). assert (0 <= A * d) by (apply Rmult_le_pos; assumption). assert (0 <= c * d * u) by (apply Rmult_le_pos; [apply Rmult_le_pos; assumption|lra]). unfold Q; lra. }
  assert (Q9 : Q <= 10 ^ 9) by (unfold Q; lra).
  assert (UQ : u * Q <= 1). { apply Rle_trans with (/ 10 ^ 10 * 10 ^ 9); [apply Rmult_le_compat; lra|lra]. }
  assert (E : Rabs (real_of a * real_of b - x * y) <= Q * (u * (p * q))).
  { replace (real_of a * real_of b - x * y) with (ea * y + x * eb + ea * eb) by (unfold ea, eb; ring).
    apply Rle_trans with (c * (u * p) * (B * q) + A * p * (d * (u * q)) + c * (u * p) * (d * (u * q))); [|apply Req_le; unfold Q; ring].
    apply Rabs_add_le; [apply Rabs_add_le|]; apply Rabs_mul_le; assumption. }
  assert (XY : Rabs (x * y) <= A * B * (p * q)) by (apply Rle_trans with (A * p * (B * q)); [apply Rabs_mul_le; assumption|apply Req_le; ring]).
  assert (K : Rabs (real_of a * real_of b) <= (A * B + u * Q) * (p * q)).
  { replace (real_of a * real_of b) with (x * y + (real_of a * real_of b - x * y)) by ring. apply Rle_trans with (A * B * (p * q) + Q * (u * (p * q))); [apply Rabs_add_le; assumption|apply Req_le; ring]. }
  assert (AB : 0 <= A * B) by (apply Rmult_le_pos; assumption).
  destruct (fmul a b Na Nb) as [N R]. { apply (Rle_trans _ _ _ K). apply Rle_trans with ((A * B + 2) * (p * q)); [apply Rmult_le_compat_r; lra|exact Hbd]. }
  split; [exact N|]. rewrite R. pose proof (rnd_err (real_of a * real_of b)) as P. set (r := rnd (real_of a * real_of b)) in *.
  replace (r - x * y) with ((r - real_of a * real_of b) + (real_of a * real_of b - x * y)) by ring.
  apply Rle_trans with ((u * ((A * B + u * Q) * (p * q)) + / 2 * (u * (p * q))) + Q * (u * (p * q))).
  - apply Rabs_add_le; [|exact E]. apply (Rle_trans _ _ _ P). apply Rplus_le_compat; [|exact He]. apply Rmult_le_compat; try lra. apply Rabs_pos.
  - replace (u * ((A * B + u * Q) * (p * q)) + / 2 * (u * (p * q)) + Q * (u * (p * q))) with ((A * B + u * Q + / 2 + Q) * (u * (p * q))) by ring.
    apply Rmult_le_compat_r; [apply Rmult_le_pos; lra|]. unfold Q at 2. lra.
Qed.
Lemma sum_err e1 e2 t c d : e1 <= c * t -> e2 <= d * t -> e1 + e2 <= (c + d) * t. Proof. lra. Qed.
Lemma sub_near a x c b y d p A : 0 < p -> near a x (c * (u * p)) -> near b y (d * (u * p)) -> Rabs (x - y) <= A * p -> 0 <= A -> 0 <= c -> 0 <= d -> c + d <= 10 ^ 9 ->
  (A + 1) * p <= bound -> near (a - b)%float (x - y) ((c + d + A + 1) * (u * p)).
Proof.
  intros Hp Ha Hb Hx HA Hc Hd Hcd Hbd. pose proof u_pos as UP. pose proof ulp1_pos as ULP. assert (UC : (c + d) * u <= 1) by (apply Rle_trans with (10 ^ 9 * / 10 ^ 10); [apply Rmult_le_compat; lra|lra]).
  assert (UC' : (c + d) * u * p <= 1 * p) by (apply Rmult_le_compat_r; lra).
  eapply near_weak; [apply (near_sub _ _ _ _ _ _ ((A + 1) * p) Ha Hb); [|exact Hbd]|].
  - replace (Rabs (x - y) + c * (u * p) + d * (u * p)) with (Rabs (x - y) + (c + d) * u * p) by ring. lra.
  - assert (ulp1 * ((A + 1) * p) <= u * ((A + 1) * p)) by (apply Rmult_le_compat_r; [apply Rmult_le_pos; lra|exact U0]). lra.
Qed.
Lemma add_near a x c b y d p A : 0 < p -> near a x (c * (u * p)) -> near b y (d * (u * p)) -> Rabs (x + y) <= A * p -> 0 <= A -> 0 <= c -> 0 <= d -> c + d <= 10 ^ 9 ->
  (A + 1) * p <= bound -> near (a + b)%float (x + y) ((c + d + A + 1) * (u * p)).
Proof.
  intros Hp Ha Hb Hx HA Hc Hd Hcd Hbd. pose proof u_pos as UP. pose proof ulp1_pos as ULP. assert (UC : (c + d) * u <= 1) by (apply Rle_trans with (10 ^ 9 * / 10 ^ 10); [apply Rmult_le_compat; lra|lra]).
  assert (UC' : (c + d) * u * p <= 1 * p) by (apply Rmult_le_compat_r; lra).
  eapply near_weak; [apply (near_add _ _ _ _ _ _ ((A + 1) * p) Ha Hb); [|exact Hbd]|].
  - replace (Rabs (x + y) + c * (u * p) + d * (u * p)) with (Rabs (x + y) + (c + d) * u * p) by ring. lra.
  - assert (ulp1 * ((A + 1) * p) <= u * ((A + 1) * p)) by (apply Rmult_le_compat_r; [apply Rmult_le_pos; lra|exact U0]). lra.
Qed.
(** A quotient [x p / p]. *)
Lemma div_near a x c b d p A : 0 < p -> near a (x * p) (c * (u * p)) -> near b p (d * (u * p)) -> Rabs x <= A -> 0 <= A <= 10 -> 0 <= c <= 10 ^ 6 -> 0 <= d <= 10 ^ 6 ->
  real_of b <> 0 /\ near (a / b)%float x ((11 / 10 * (c + A * d) + A + 3) * u).
Proof.
  intros Hp [Na Ea] [Nb Eb] Hx HA Hc Hd. pose proof u_pos as UP. pose proof ulp1_pos as ULP. pose proof eta_pos as ETP.
  assert (UD : d * u <= / 1000) by (apply Rle_trans with (10 ^ 6 * / 10 ^ 10); [apply Rmult_le_compat; lra|lra]). assert (UC : c * u <= / 1000) by (apply Rle_trans with (10 ^ 6 * / 10 ^ 10); [apply Rmult_le_compat; lra|lra]).
  assert (DP : d * (u * p) <= / 1000 * p) by (rewrite <- Rmult_assoc; apply Rmult_le_compat_r; lra).
  assert (Eb' := Eb). apply Rabs_le_inv in Eb'. assert (BP : 999 / 1000 * p <= real_of b) by lra. assert (B0 : 0 < real_of b) by lra.
  set (ea := real_of a - x * p) in *. set (eb := real_of b - p) in *. set (q := real_of a / real_of b).
  assert (Q : q - x = (ea - x * eb) / real_of b) by (unfold q, ea, eb; field; lra).
  assert (H1 : Rabs (ea - x * eb) <= (c + A * d) * (u * p)).
  { replace (ea - x * eb) with (ea + (- x) * eb) by ring. apply Rle_trans with (c * (u * p) + A * (d * (u * p))); [|lra]. apply Rabs_add_le; [assumption|]. apply Rabs_mul_le; [rewrite Rabs_Ropp|]; assumption. }
  assert (AD : 0 <= A * d) by (apply Rmult_le_pos; lra).
  assert (H2 : Rabs (q - x) <= (11 / 10 * (c + A * d)) * u).
  { rewrite Q. unfold Rdiv at 1. rewrite Rabs_mult, (Rabs_pos_eq (/ real_of b)) by (apply Rlt_le, Rinv_0_lt_compat; lra). apply Rmult_le_reg_r with (real_of b); [lra|]. rewrite Rmult_assoc, Rinv_l, Rmult_1_r by lra.
    apply (Rle_trans _ _ _ H1). apply Rle_trans with (11 / 10 * (c + A * d) * u * (999 / 1000 * p)); [|apply Rmult_le_compat_l; [apply Rmult_le_pos; [lra|]; lra|exact BP]].
    assert (0 <= (c + A * d) * (u * p)) by (apply Rmult_le_pos; [lra|apply Rmult_le_pos; lra]). lra. }
  assert (AU : A * (d * u) <= 10 * / 1000) by (apply Rmult_le_compat; try lra; apply Rmult_le_pos; lra).
  assert (H3 : (11 / 10 * (c + A * d)) * u <= 1) by lra.
  assert (QB : Rabs q <= A + 1). { replace q with (x + (q - x)) by ring. apply Rle_trans with (A + (11 / 10 * (c + A * d)) * u); [apply Rabs_add_le; assumption|lra]. }
  destruct (fdiv a b Na) as [N R]; [lra|fold q; apply bound_big; apply Rle_trans with (2 ^ 4); [lra|apply Rle_pow; [lra|lia]]|].
  split; [lra|]. split; [exact N|]. rewrite R. fold q. pose proof (rnd_err q) as P. set (r := rnd q) in *.
  replace (r - x) with ((r - q) + (q - x)) by ring. apply Rle_trans with ((u * (A + 1) + u) + 11 / 10 * (c + A * d) * u); [|lra].
  apply Rabs_add_le; [|exact H2]. apply (Rle_trans _ _ _ P). apply Rplus_le_compat; [apply Rmult_le_compat; try lra; apply Rabs_pos|].
  pose proof eta_small. assert (/ 10 ^ 17 <= ulp1) by (unfold ulp1; apply Rinv_le; [apply pow_lt; lra|lra]). assert (/ 10 ^ 60 <= / 10 ^ 17) by (apply Rinv_le; [apply pow_lt; lra|apply Rle_pow; [lra|lia]]). lra.
Qed.
End Sc.

(** ** The orientation test *)
Section Tri.
Context (u : R) (U0 : ulp1 <= u) (U1 : u <= / 10 ^ 10) (s : R) (S0 : / 10 ^ 4 <= s <= 100).
Lemma s_pos : 0 < s. Proof. assert (0 < / 10 ^ 4) by (apply Rinv_0_lt_compat, pow_lt; lra). lra. Qed.
Lemma big_ok x : x <= 10 ^ 30 -> x <= bound.
Proof. intros H. apply bound_big. apply (Rle_trans _ _ _ H). apply Rle_trans with (2 ^ 100); [lra|apply Rle_pow; [lra|lia]]. Qed.
Lemma eta_tiny : eta <= / 10 ^ 60. Proof. exact eta_small. Qed.
Lemma s_pow (k : nat) : (k <= 4)%nat -> / 10 ^ 16 <= s ^ k <= 10 ^ 8.
Proof.
  intros Hk. split.
  - apply Rle_trans with ((/ 10 ^ 4) ^ k); [|apply pow_incr; split; [apply Rlt_le, Rinv_0_lt_compat, pow_lt; lra|lra]]. rewrite pow_inv by (apply pow_nonzero; lra). apply Rinv_le; [apply pow_lt, pow_lt; lra|]. rewrite <- pow_mult. apply Rle_pow; [lra|lia].
  - apply Rle_trans with (100 ^ k); [apply pow_incr; pose proof s_pos; lra|]. apply Rle_trans with (100 ^ 4); [apply Rle_pow; [lra|lia]|lra].
Qed.
Lemma eta_pow (k : nat) : (k <= 4)%nat -> eta <= / 2 * (u * s ^ k).
Proof.
  intros Hk. destruct (s_pow k Hk) as [L _]. pose proof eta_small as E. assert (UL : / 10 ^ 17 <= u) by (apply Rle_trans with ulp1; [unfold ulp1; apply Rinv_le; [apply pow_lt; lra|lra]|exact U0]).
  assert (Q : / 10 ^ 17 * / 10 ^ 16 <= u * s ^ k) by (apply Rmult_le_compat; try lra; apply Rlt_le, Rinv_0_lt_compat, pow_lt; lra).
  assert (W : / 10 ^ 60 <= / 2 * (/ 10 ^ 17 * / 10 ^ 16)) by lra. lra.
Qed.
(** A point of floats near a point of reals. *)
Definition nearp (c : R) (P : vector float) (p : R * R) : Prop := exists a b, P = [a; b] /\ near a (fst p) (c * (u * s)) /\ near b (snd p) (c * (u * s)).
Definition within (A : R) (p q : R * R) : Prop := Rabs (fst p - fst q) <= A * s /\ Rabs (snd p - snd q) <= A * s.

Lemma sign_near A X x Q q P p : 1 <= A <= 2 * 10 ^ 6 -> A * u <= / 10 ^ 4 -> nearp 0 X x -> nearp 40 Q q -> nearp 40 P p -> within A x p -> within 1 q p ->
  exists d, @sign_ _ FNum (X, Q, P) = Ok d /\ near d (cross x q p) ((170 * A + 85) * (u * (s * s))).
Proof.
  intros HA HAu (x0 & x1 & -> & X0 & X1) (q0 & q1 & -> & Q0 & Q1) (p0 & p1 & -> & P0 & P1) [W0 W1] [V0 V1].
  pose proof s_pos as SP. pose proof (u_pos u U0) as UP.
  assert (SA : (A + 1) * s <= 10 ^ 9) by (apply Rle_trans with ((2 * 10 ^ 6 + 1) * 100); [apply Rmult_le_compat; lra|lra]).
  eexists. split; [unfold sign_; cbn; reflexivity|].
  assert (D1 := sub_near u U0 U1 _ _ _ _ _ _ s A SP X0 P0 W0 ltac:(lra) ltac:(lra) ltac:(lra) ltac:(lra) ltac:(apply big_ok; lra)).
  assert (D2 := sub_near u U0 U1 _ _ _ _ _ _ s A SP X1 P1 W1 ltac:(lra) ltac:(lra) ltac:(lra) ltac:(lra) ltac:(apply big_ok; lra)).
  assert (E1 := sub_near u U0 U1 _ _ _ _ _ _ s 1 SP Q1 P1 V1 ltac:(lra) ltac:(lra) ltac:(lra) ltac:(lra) ltac:(apply big_ok; lra)).
  assert (E2 := sub_near u U0 U1 _ _ _ _ _ _ s 1 SP Q0 P0 V0 ltac:(lra) ltac:(lra) ltac:(lra) ltac:(lra) ltac:(apply big_ok; lra)).
  assert (SS : s * s <= 10 ^ 4) by (apply Rle_trans with (100 * 100); [apply Rmult_le_compat; lra|lra]). assert (SSP : 0 < s * s) by (apply Rmult_lt_0_compat; lra).
  assert (ET : eta <= / 2 * (u * (s * s))) by (replace (s * s) with (s ^ 2) by ring; apply eta_pow; lia).
  assert (B1 : (A * 1 + 2) * (s * s) <= 10 ^ 11) by (apply Rle_trans with ((2 * 10 ^ 6 + 2) * 10 ^ 4); [apply Rmult_le_compat; lra|lra]).
  assert (AU : (A + 41) * u <= / 5000) by lra. assert (AU2 : u * ((A + 41) * 1 + A * 82 + (A + 41) * 82 * u) <= / 10).
  { assert (u * ((A + 41) * u) <= u) by (rewrite <- (Rmult_1_r u) at 3; apply Rmult_le_compat_l; lra). lra. }
  assert (M1 := mul_near u U0 U1 _ _ _ _ _ _ _ _ A 1 SP SP D1 E1 W0 V1 ltac:(lra) ltac:(lra) ltac:(lra) ltac:(lra) ltac:(lra) ET ltac:(apply big_ok; lra) ltac:(lra)).
  assert (M2 := mul_near u U0 U1 _ _ _ _ _ _ _ _ 1 A SP SP E2 D2 V0 W1 ltac:(lra) ltac:(lra) ltac:(lra) ltac:(lra) ltac:(lra) ET ltac:(apply big_ok; lra) ltac:(lra)).
  replace (cross x q p) with ((fst x - fst p) * (snd q - snd p) - (fst q - fst p) * (snd x - snd p)) by (unfold cross; ring).
  eapply near_weak; [apply (sub_near u U0 U1 _ _ _ _ _ _ (s * s) (2 * A) SSP M1 M2)|]; try lra.
  - unfold Rminus at 1. apply Rle_trans with (A * s * (1 * s) + 1 * s * (A * s)); [|apply Req_le; ring]. apply Rabs_add_le; [apply Rabs_mul_le; assumption|]. rewrite Rabs_Ropp. apply Rabs_mul_le; assumption.
  - apply big_ok. apply Rle_trans with ((2 * (2 * 10 ^ 6) + 1) * 10 ^ 4); [apply Rmult_le_compat; lra|lra].
Qed.
Lemma eps_near : near (@contains_eps _ FNum) (/ 10 ^ 10) (/ 10 ^ 25).
Proof.
  assert (E : @contains_eps _ FNum = 0x1.b7cdfd9d7bdbbp-34%float) by (vm_compute; reflexivity). rewrite E. split; [exact I|].
  unfold real_of. replace (Prim2SF 0x1.b7cdfd9d7bdbbp-34%float) with (S754_finite false 7737125245533627 (-86)) by (vm_compute; reflexivity).
  change (powerRZ 2 (-86)) with (/ 2 ^ 86). apply Rabs_le. lra.
Qed.
Lemma within_sym A p q : within A p q -> within A q p.
Proof. unfold within. rewrite (Rabs_minus_sym (fst p)), (Rabs_minus_sym (snd p)). tauto. Qed.
Lemma contains_near A E X x P p Q q R r : 1 <= A <= 2 * 10 ^ 6 -> A * u <= / 10 ^ 4 -> E = (170 * A + 85) * (u * (s * s)) -> nearp 0 X x -> nearp 40 P p -> nearp 40 Q q -> nearp 40 R r ->
  within A x p -> within A x q -> within A x r -> within 1 p q -> within 1 q r -> within 1 r p -> cross p q r = s * s ->
  exists b, @triangle_contains_point _ FNum (P, Q, R) X = Ok b /\
    (b = true -> - (/ 10 ^ 10 + / 10 ^ 25 + E) <= cross x q r /\ - (/ 10 ^ 10 + / 10 ^ 25 + E) <= cross x r p /\ - (/ 10 ^ 10 + / 10 ^ 25 + E) <= cross x p q) /\
    (E <= 99 / 100 * / 10 ^ 10 -> 0 <= cross x q r -> 0 <= cross x r p -> 0 <= cross x p q -> b = true).
Proof.
  intros HA HAu HE NX NP NQ NR Wp Wq Wr Vpq Vqr Vrp HD. pose proof (u_pos u U0) as UP. pose proof s_pos as SP.
  destruct (sign_near A X x P p Q q HA HAu NX NP NQ Wq Vpq) as (d1 & E1 & [N1 D1]). destruct (sign_near A X x Q q R r HA HAu NX NQ NR Wr Vqr) as (d2 & E2 & [N2 D2]).
  destruct (sign_near A X x R r P p HA HAu NX NR NP Wp Vrp) as (d3 & E3 & [N3 D3]). rewrite <- HE in D1, D2, D3.
  unfold triangle_contains_point. rewrite E1, E2, E3. cbn [bind]. eexists. split; [reflexivity|].
  destruct eps_near as [Ne De]. set (ef := @contains_eps float FNum) in *. destruct (fopp ef) as [Ro No]. apply proj2 in No. specialize (No Ne).
  cbn [nltb nopp FNum]. rewrite !fltb by assumption. rewrite Ro.
  set (f1 := real_of d1) in *. set (f2 := real_of d2) in *. set (f3 := real_of d3) in *. set (e := real_of ef) in *.
  apply Rabs_le_inv in D1, D2, D3, De. pose proof (cross_sum p q r x) as CS. rewrite HD in CS.
  assert (S2 : / 10 ^ 8 <= s * s) by (apply Rle_trans with (/ 10 ^ 4 * / 10 ^ 4); [lra|apply Rmult_le_compat; lra]).
  assert (EB : E <= / 50 * (s * s)) by (rewrite HE; replace ((170 * A + 85) * (u * (s * s))) with ((170 * (A * u) + 85 * u) * (s * s)) by ring; apply Rmult_le_compat_r; lra).
  assert (E0 : 0 <= E) by (rewrite HE; apply Rmult_le_pos; [lra|]; apply Rmult_le_pos; [lra|]; apply Rmult_le_pos; lra).
  split.
  - intros H. apply Bool.negb_true_iff, Bool.andb_false_iff in H as [H|H]; apply Bool.orb_false_iff in H as [H H3]; apply Bool.orb_false_iff in H as [H1 H2].
    + destruct (Rlt_bool_spec f1 (- e)); [discriminate|]. destruct (Rlt_bool_spec f2 (- e)); [discriminate|]. destruct (Rlt_bool_spec f3 (- e)); [discriminate|]. repeat split; lra.
    + destruct (Rlt_bool_spec e f1); [discriminate|]. destruct (Rlt_bool_spec e f2); [discriminate|]. destruct (Rlt_bool_spec e f3); [discriminate|]. exfalso. lra.
  - intros H C1 C2 C3. rewrite !Rlt_bool_false by lra. reflexivity.
Qed.

(** ** The barycentric coordinates *)
Lemma num_near_0 t : 0 <= t -> near 0%float 0 t.
Proof. intros H. split; [apply num_0|]. rewrite (proj2 num_0), Rminus_0_r, Rabs_R0. exact H. Qed.
Lemma dot_near a0 a1 b0 b1 x0 x1 y0 y1 c d A B D : near a0 x0 (c * (u * s)) -> near a1 x1 (c * (u * s)) -> near b0 y0 (d * (u * s)) -> near b1 y1 (d * (u * s)) ->
  Rabs x0 <= A * s -> Rabs x1 <= A * s -> Rabs y0 <= B * s -> Rabs y1 <= B * s -> Rabs (x0 * y0 + x1 * y1) <= D * (s * s) ->
  0 <= A <= 2 -> 0 <= B <= 2 -> 0 <= D <= 4 -> 0 <= c <= 100 -> 0 <= d <= 100 ->
  near (@Vector_dot _ FNum [a0; a1] [b0; b1]) (x0 * y0 + x1 * y1) ((2 * (A * d + c * B + A * B + 1) + A * B + D + 2) * (u * (s * s))).
Proof.
  intros A0 A1 B0 B1 X0 X1 Y0 Y1 HD HA HB HD' Hc Hd. pose proof s_pos as SP. pose proof (u_pos u U0) as UP.
  assert (SS : s * s <= 10 ^ 4) by (apply Rle_trans with (100 * 100); [apply Rmult_le_compat; lra|lra]). assert (SSP : 0 < s * s) by (apply Rmult_lt_0_compat; lra).
  assert (ET : eta <= / 2 * (u * (s * s))) by (replace (s * s) with (s ^ 2) by ring; apply eta_pow; lia).
  assert (AB : 0 <= A * B <= 4) by (split; [apply Rmult_le_pos; lra|apply Rle_trans with (2 * 2); [apply Rmult_le_compat; lra|lra]]).
  assert (CD : 0 <= c * d <= 10000) by (split; [apply Rmult_le_pos; lra|apply Rle_trans with (100 * 100); [apply Rmult_le_compat; lra|lra]]).
  assert (CB : 0 <= c * B <= 200) by (split; [apply Rmult_le_pos; lra|apply Rle_trans with (100 * 2); [apply Rmult_le_compat; lra|lra]]).
  assert (AD : 0 <= A * d <= 200) by (split; [apply Rmult_le_pos; lra|apply Rle_trans with (2 * 100); [apply Rmult_le_compat; lra|lra]]).
  assert (CDU : 0 <= c * d * u <= / 10 ^ 6) by (split; [apply Rmult_le_pos; lra|apply Rle_trans with (10000 * / 10 ^ 10); [apply Rmult_le_compat; lra|lra]]).
  assert (QU : u * (c * B + A * d + c * d * u) <= / 1000) by (apply Rle_trans with (/ 10 ^ 10 * 500); [apply Rmult_le_compat; lra|lra]).
  assert (BS : forall k, k <= 100 -> k * (s * s) <= bound) by (intros k Hk; apply big_ok; apply Rle_trans with (100 * 10 ^ 4); [apply Rle_trans with (100 * (s * s)); [apply Rmult_le_compat_r; lra|lra]|lra]).
  assert (M1 := mul_near u U0 U1 _ _ _ _ _ _ _ _ A B SP SP A0 B0 X0 Y0 ltac:(lra) ltac:(lra) ltac:(lra) ltac:(lra) ltac:(lra) ET ltac:(apply BS; lra) ltac:(lra)).
  assert (M2 := mul_near u U0 U1 _ _ _ _ _ _ _ _ A B SP SP A1 B1 X1 Y1 ltac:(lra) ltac:(lra) ltac:(lra) ltac:(lra) ltac:(lra) ET ltac:(apply BS; lra) ltac:(lra)).
  set (e := A * d + c * B + A * B + 1) in *. assert (He : 0 <= e <= 10 ^ 3) by (unfold e; lra).
  unfold Vector_dot. unfold zip; cbn [combine map]. unfold nsum. cbn [fold_left nadd nmul n0 FNum].
  assert (Z : near 0%float 0 (0 * (u * (s * s)))) by (apply num_near_0; rewrite Rmult_0_l; lra).
  assert (XA : Rabs (0 + x0 * y0) <= A * B * (s * s)) by (rewrite Rplus_0_l; apply Rle_trans with (A * s * (B * s)); [apply Rabs_mul_le; assumption|apply Req_le; ring]).
  assert (T1 := add_near u U0 U1 _ _ _ _ _ _ _ (A * B) SSP Z M1 XA ltac:(lra) ltac:(lra) ltac:(lra) ltac:(lra) ltac:(apply BS; lra)). rewrite Rplus_0_l in T1.
  eapply near_weak; [apply (add_near u U0 U1 _ _ _ _ _ _ _ D SSP T1 M2 HD)|]; try lra.
  - apply BS; lra.
Qed.
Lemma bary_near sg X x P p Q q R r b1 b2 b3 : nearp 0 X x -> nearp 40 P p -> nearp 40 Q q -> nearp 40 R r -> (sg = 1 \/ sg = -1) ->
  fst q - fst p = sg * s -> snd q - snd p = 0 -> fst r - fst p = sg * s -> snd r - snd p = sg * s -> fst x - fst p = sg * ((b2 + b3) * s) -> snd x - snd p = sg * (b3 * s) ->
  b1 + b2 + b3 = 1 -> - / 20 <= b1 -> - / 20 <= b2 -> - / 20 <= b3 ->
  exists b, @to_barycentric_coordinates _ FNum (P, Q, R) X = Ok b /\ near (l1 b) b1 (13400 * u) /\ near (l2 b) b2 (13400 * u) /\ near (l3 b) b3 (13400 * u).
Proof.
  intros (x0 & x1 & -> & X0 & X1) (p0 & p1 & -> & P0 & P1) (q0 & q1 & -> & Q0 & Q1) (r0 & r1 & -> & R0 & R1) HS G1 G2 G3 G4 G5 G6 SB B1 B2 B3.
  pose proof s_pos as SP. pose proof (u_pos u U0) as UP.
  assert (RB : forall t A, - A <= t <= A -> Rabs (sg * (t * s)) <= A * s).
  { intros t A Ht. assert (K : Rabs (t * s) <= A * s) by (rewrite Rabs_mult, (Rabs_pos_eq s) by lra; apply Rmult_le_compat_r; [lra|]; apply Rabs_le; lra).
    destruct HS as [-> | ->]; [rewrite Rmult_1_l; exact K|]. replace (-1 * (t * s)) with (- (t * s)) by ring. rewrite Rabs_Ropp. exact K. }
  assert (G1' : Rabs (fst q - fst p) <= 1 * s) by (rewrite G1; replace (sg * s) with (sg * (1 * s)) by ring; apply RB; lra).
  assert (G2' : Rabs (snd q - snd p) <= 1 * s) by (rewrite G2, Rabs_R0; lra).
  assert (G3' : Rabs (fst r - fst p) <= 1 * s) by (rewrite G3; replace (sg * s) with (sg * (1 * s)) by ring; apply RB; lra).
  assert (G4' : Rabs (snd r - snd p) <= 1 * s) by (rewrite G4; replace (sg * s) with (sg * (1 * s)) by ring; apply RB; lra).
  assert (G5' : Rabs (fst x - fst p) <= 11 / 10 * s) by (rewrite G5; apply RB; lra). assert (G6' : Rabs (snd x - snd p) <= 11 / 10 * s) by (rewrite G6; apply RB; lra).
  assert (BS1 : forall k, k <= 100 -> k * s <= bound) by (intros k Hk; apply big_ok; apply Rle_trans with (100 * 100); [apply Rle_trans with (100 * s); [apply Rmult_le_compat_r; lra|lra]|lra]).
  assert (V10 := sub_near u U0 U1 _ _ _ _ _ _ s 1 SP Q0 P0 G1' ltac:(lra) ltac:(lra) ltac:(lra) ltac:(lra) ltac:(apply BS1; lra)).
  assert (V11 := sub_near u U0 U1 _ _ _ _ _ _ s 1 SP Q1 P1 G2' ltac:(lra) ltac:(lra) ltac:(lra) ltac:(lra) ltac:(apply BS1; lra)).
  assert (V20 := sub_near u U0 U1 _ _ _ _ _ _ s 1 SP R0 P0 G3' ltac:(lra) ltac:(lra) ltac:(lra) ltac:(lra) ltac:(apply BS1; lra)).
  assert (V21 := sub_near u U0 U1 _ _ _ _ _ _ s 1 SP R1 P1 G4' ltac:(lra) ltac:(lra) ltac:(lra) ltac:(lra) ltac:(apply BS1; lra)).
  assert (V30 := sub_near u U0 U1 _ _ _ _ _ _ s (11 / 10) SP X0 P0 G5' ltac:(lra) ltac:(lra) ltac:(lra) ltac:(lra) ltac:(apply BS1; lra)).
  assert (V31 := sub_near u U0 U1 _ _ _ _ _ _ s (11 / 10) SP X1 P1 G6' ltac:(lra) ltac:(lra) ltac:(lra) ltac:(lra) ltac:(apply BS1; lra)).
  set (q0p := (q0 - p0)%float) in *. set (q1p := (q1 - p1)%float) in *. set (r0p := (r0 - p0)%float) in *. set (r1p := (r1 - p1)%float) in *. set (x0p := (x0 - p0)%float) in *. set (x1p := (x1 - p1)%float) in *.
  assert (SS : s * s <= 10 ^ 4) by (apply Rle_trans with (100 * 100); [apply Rmult_le_compat; lra|lra]). assert (SSP : 0 < s * s) by (apply Rmult_lt_0_compat; lra).
  assert (UT : 0 < u * (s * s)) by (apply Rmult_lt_0_compat; lra).
  assert (SG : sg * sg = 1) by (destruct HS as [-> | ->]; ring).
  assert (DT : forall a0 a1 b0 b1 z0 z1 y0 y1 c d A B t D, near a0 z0 (c * (u * s)) -> near a1 z1 (c * (u * s)) -> near b0 y0 (d * (u * s)) -> near b1 y1 (d * (u * s)) ->
    Rabs z0 <= A * s -> Rabs z1 <= A * s -> Rabs y0 <= B * s -> Rabs y1 <= B * s -> z0 * y0 + z1 * y1 = t * (s * s) -> - D <= t <= D -> 0 <= A <= 2 -> 0 <= B <= 2 -> 0 <= D <= 4 -> 0 <= c <= 100 -> 0 <= d <= 100 ->
    2 * (A * d + c * B + A * B + 1) + A * B + D + 2 <= 340 -> near (@Vector_dot _ FNum [a0; a1] [b0; b1]) (t * (s * s)) (340 * (u * (s * s)))).
  { intros a0 a1 b0 b1' z0 z1 y0 y1 c d A B t D K1 K2 K3 K4 L1 L2 L3 L4 HT HB HA HB' HD Hc Hd HC. rewrite <- HT. eapply near_weak; [apply (dot_near _ _ _ _ _ _ _ _ c d A B D K1 K2 K3 K4 L1 L2 L3 L4)|]; try assumption.
    - rewrite HT, Rabs_mult, (Rabs_pos_eq (s * s)) by lra. apply Rmult_le_compat_r; [lra|]. apply Rabs_le. lra.
    - apply Rmult_le_compat_r; [lra|exact HC]. }
  assert (D11 : near (@Vector_dot _ FNum [q0p; q1p] [q0p; q1p]) (1 * (s * s)) (340 * (u * (s * s)))).
  { refine (DT _ _ _ _ _ _ _ _ _ _ _ _ 1 1 V10 V11 V10 V11 G1' G2' G1' G2' _ _ _ _ _ _ _ _); try lra. rewrite G1, G2. replace (sg * s * (sg * s) + 0 * 0) with ((sg * sg) * (s * s)) by ring. rewrite SG. ring. }
  assert (D12 : near (@Vector_dot _ FNum [q0p; q1p] [r0p; r1p]) (1 * (s * s)) (340 * (u * (s * s)))).
  { refine (DT _ _ _ _ _ _ _ _ _ _ _ _ 1 1 V10 V11 V20 V21 G1' G2' G3' G4' _ _ _ _ _ _ _ _); try lra. rewrite G1, G2, G3, G4. replace (sg * s * (sg * s) + 0 * (sg * s)) with ((sg * sg) * (s * s)) by ring. rewrite SG. ring. }
  assert (D22 : near (@Vector_dot _ FNum [r0p; r1p] [r0p; r1p]) (2 * (s * s)) (340 * (u * (s * s)))).
  { refine (DT _ _ _ _ _ _ _ _ _ _ _ _ 2 2 V20 V21 V20 V21 G3' G4' G3' G4' _ _ _ _ _ _ _ _); try lra. rewrite G3, G4. replace (sg * s * (sg * s) + sg * s * (sg * s)) with ((sg * sg) * (2 * (s * s))) by ring. rewrite SG. ring. }
  assert (D31 : near (@Vector_dot _ FNum [x0p; x1p] [q0p; q1p]) ((b2 + b3) * (s * s)) (340 * (u * (s * s)))).
  { refine (DT _ _ _ _ _ _ _ _ _ _ _ _ (b2 + b3) (11 / 10) V30 V31 V10 V11 G5' G6' G1' G2' _ _ _ _ _ _ _ _); try lra. rewrite G1, G2, G5, G6. replace (sg * ((b2 + b3) * s) * (sg * s) + sg * (b3 * s) * 0) with ((sg * sg) * ((b2 + b3) * (s * s))) by ring. rewrite SG. ring. }
  assert (D32 : near (@Vector_dot _ FNum [x0p; x1p] [r0p; r1p]) ((b2 + 2 * b3) * (s * s)) (340 * (u * (s * s)))).
  { refine (DT _ _ _ _ _ _ _ _ _ _ _ _ (b2 + 2 * b3) (11 / 5) V30 V31 V20 V21 G5' G6' G3' G4' _ _ _ _ _ _ _ _); try lra. rewrite G3, G4, G5, G6. replace (sg * ((b2 + b3) * s) * (sg * s) + sg * (b3 * s) * (sg * s)) with ((sg * sg) * ((b2 + 2 * b3) * (s * s))) by ring. rewrite SG. ring. }
  clear DT.
  unfold to_barycentric_coordinates. unfold Vector_sub. cbn [length Nat.eqb bind]. unfold zip; cbn [combine map nsub FNum]. fold q0p q1p r0p r1p x0p x1p.
  set (d11 := Vector_dot [q0p; q1p] [q0p; q1p]) in *. set (d12 := Vector_dot [q0p; q1p] [r0p; r1p]) in *. set (d22 := Vector_dot [r0p; r1p] [r0p; r1p]) in *. set (d31 := Vector_dot [x0p; x1p] [q0p; q1p]) in *. set (d32 := Vector_dot [x0p; x1p] [r0p; r1p]) in *.
  set (w := s * s) in *. assert (RA : forall t A, - A <= t <= A -> Rabs (t * w) <= A * w) by (intros t A Ht; rewrite Rabs_mult, (Rabs_pos_eq w) by lra; apply Rmult_le_compat_r; [lra|]; apply Rabs_le; lra).
  assert (WW : 0 < w * w) by (apply Rmult_lt_0_compat; lra). assert (WWB : w * w <= 10 ^ 8) by (apply Rle_trans with (10 ^ 4 * 10 ^ 4); [apply Rmult_le_compat; lra|lra]).
  assert (ET : eta <= / 2 * (u * (w * w))) by (replace (w * w) with (s ^ 4) by (unfold w; ring); apply eta_pow; lia). assert (UTT : 0 < u * (w * w)) by (apply Rmult_lt_0_compat; lra).
  assert (BS : forall k, k <= 100 -> k * (w * w) <= bound) by (intros k Hk; apply big_ok; apply Rle_trans with (100 * 10 ^ 8); [apply Rle_trans with (100 * (w * w)); [apply Rmult_le_compat_r; lra|lra]|lra]).
  assert (MT : forall a b t1 t2 A B, near a (t1 * w) (340 * (u * w)) -> near b (t2 * w) (340 * (u * w)) -> - A <= t1 <= A -> - B <= t2 <= B -> 0 <= A <= 3 -> 0 <= B <= 3 ->
    near (a * b)%float (t1 * t2 * (w * w)) ((340 * (A + B) + A * B + 1) * (u * (w * w)))).
  { intros a b t1 t2 A B K1 K2 L1 L2 HA HB. assert (AB : 0 <= A * B <= 9) by (split; [apply Rmult_le_pos; lra|apply Rle_trans with (3 * 3); [apply Rmult_le_compat; lra|lra]]). replace (t1 * t2 * (w * w)) with (t1 * w * (t2 * w)) by ring. eapply near_weak; [apply (mul_near u U0 U1 _ _ _ _ _ _ _ _ A B SSP SSP K1 K2 (RA _ _ L1) (RA _ _ L2)); try lra|].
    - assert (u * u <= / 10 ^ 10) by (apply Rle_trans with (/ 10 ^ 10 * 1); [apply Rmult_le_compat; lra|lra]). assert (u * A <= / 10 ^ 10 * 3) by (apply Rmult_le_compat; lra). assert (u * B <= / 10 ^ 10 * 3) by (apply Rmult_le_compat; lra). lra.
    - apply BS. lra.
    - apply Rmult_le_compat_r; [lra|]. lra. }
  assert (M1 := MT d22 d31 2 (b2 + b3) 2 (11 / 10) D22 D31 ltac:(lra) ltac:(lra) ltac:(lra) ltac:(lra)).
  assert (M2 := MT d12 d32 1 (b2 + 2 * b3) 1 (11 / 5) D12 D32 ltac:(lra) ltac:(lra) ltac:(lra) ltac:(lra)).
  assert (M3 := MT d11 d32 1 (b2 + 2 * b3) 1 (11 / 5) D11 D32 ltac:(lra) ltac:(lra) ltac:(lra) ltac:(lra)).
  assert (M4 := MT d12 d31 1 (b2 + b3) 1 (11 / 10) D12 D31 ltac:(lra) ltac:(lra) ltac:(lra) ltac:(lra)).
  assert (M5 := MT d11 d22 1 2 1 2 D11 D22 ltac:(lra) ltac:(lra) ltac:(lra) ltac:(lra)).
  assert (M6 := MT d12 d12 1 1 1 1 D12 D12 ltac:(lra) ltac:(lra) ltac:(lra) ltac:(lra)).
  assert (RAA : forall t A, - A <= t <= A -> Rabs (t * (w * w)) <= A * (w * w)) by (intros t A Ht; rewrite Rabs_mult, (Rabs_pos_eq (w * w)) by lra; apply Rmult_le_compat_r; [lra|]; apply Rabs_le; lra).
  assert (ST : forall a b t1 t2 t c d A C, near a (t1 * (w * w)) (c * (u * (w * w))) -> near b (t2 * (w * w)) (d * (u * (w * w))) -> t1 - t2 = t -> - A <= t <= A -> 0 <= A <= 3 -> 0 <= c <= 10 ^ 5 -> 0 <= d <= 10 ^ 5 -> c + d + A + 1 <= C ->
    near (a - b)%float (t * (w * w)) (C * (u * (w * w)))).
  { intros a b t1 t2 t c d A C K1 K2 HT HA HA' Hc Hd HC. replace (t * (w * w)) with (t1 * (w * w) - t2 * (w * w)) by (rewrite <- HT; ring). eapply near_weak; [apply (sub_near u U0 U1 _ _ _ _ _ _ (w * w) A WW K1 K2)|]; try lra.
    - replace (t1 * (w * w) - t2 * (w * w)) with (t * (w * w)) by (rewrite <- HT; ring). apply RAA, HA.
    - apply BS; lra.
    - apply Rmult_le_compat_r; [lra|exact HC]. }
  assert (NV := ST _ _ _ _ b2 _ _ (11 / 10) 2160 M1 M2 ltac:(ring) ltac:(lra) ltac:(lra) ltac:(lra) ltac:(lra) ltac:(lra)).
  assert (NW := ST _ _ _ _ b3 _ _ (11 / 10) 2160 M3 M4 ltac:(ring) ltac:(lra) ltac:(lra) ltac:(lra) ltac:(lra) ltac:(lra)).
  assert (ND := ST _ _ _ _ 1 _ _ 1 1710 M5 M6 ltac:(ring) ltac:(lra) ltac:(lra) ltac:(lra) ltac:(lra) ltac:(lra)). rewrite Rmult_1_l in ND.
  cbn [nmul FNum]. set (nv := (d22 * d31 - d12 * d32)%float) in *. set (nw := (d11 * d32 - d12 * d31)%float) in *. set (dn := (d11 * d22 - d12 * d12)%float) in *.
  destruct (div_near u U0 U1 _ _ _ _ _ _ (11 / 10) WW NV ND ltac:(apply Rabs_le; lra) ltac:(lra) ltac:(lra) ltac:(lra)) as [DZ QV]. destruct (div_near u U0 U1 _ _ _ _ _ _ (11 / 10) WW NW ND ltac:(apply Rabs_le; lra) ltac:(lra) ltac:(lra) ltac:(lra)) as [_ QW].
  assert (NQ : forall z, @ndiv _ FNum z dn = Ok (z / dn)%float).
  { intros z. cbn [ndiv FNum]. rewrite feqb by (try apply num_0; apply ND). rewrite (proj2 num_0), Req_bool_false by exact DZ. reflexivity. }
  rewrite !NQ. cbn [bind]. eexists. split; [reflexivity|]. unfold Bary, l1, l2, l3. cbn [fst snd nsub n1 FNum].
  assert (QV' : near (nv / dn)%float b2 (4450 * (u * 1))) by (eapply near_weak; [exact QV|lra]). assert (QW' : near (nw / dn)%float b3 (4450 * (u * 1))) by (eapply near_weak; [exact QW|lra]).
  assert (N1 : near 1%float 1 (0 * (u * 1))) by (split; [apply num_1|rewrite (proj2 num_1), Rminus_diag_eq, Rabs_R0 by reflexivity; lra]).
  set (fv := (nv / dn)%float) in *. set (fw := (nw / dn)%float) in *.
  assert (BQ : forall k, k <= 100 -> k * 1 <= bound) by (intros k Hk; apply big_ok; lra).
  assert (L1 := sub_near u U0 U1 _ _ _ _ _ _ 1 (11 / 10) Rlt_0_1 N1 QV' ltac:(apply Rabs_le; lra) ltac:(lra) ltac:(lra) ltac:(lra) ltac:(lra) ltac:(apply BQ; lra)).
  assert (L2 := sub_near u U0 U1 _ _ _ _ _ _ 1 (11 / 10) Rlt_0_1 L1 QW' ltac:(apply Rabs_le; lra) ltac:(lra) ltac:(lra) ltac:(lra) ltac:(lra) ltac:(apply BQ; lra)).
  assert (L3 := sub_near u U0 U1 _ _ _ _ _ _ 1 (11 / 10) Rlt_0_1 N1 L2 ltac:(apply Rabs_le; lra) ltac:(lra) ltac:(lra) ltac:(lra) ltac:(lra) ltac:(apply BQ; lra)).
  assert (L4 := sub_near u U0 U1 _ _ _ _ _ _ 1 (11 / 10) Rlt_0_1 L3 QV' ltac:(apply Rabs_le; lra) ltac:(lra) ltac:(lra) ltac:(lra) ltac:(lra) ltac:(apply BQ; lra)).
  split; [|split]; [|eapply near_weak; [exact QV'|lra]|].
  - replace b1 with (1 - b2 - b3) by lra. eapply near_weak; [exact L2|lra].
  - replace b3 with (1 - (1 - b2 - b3) - b2) by lra. eapply near_weak; [exact L4|lra].
Qed.
End Tri.
