(** * Lemmas for near-minimality (C113): smooth functions that are affine along a side. *)
From Coq Require Import Reals Lra Lia List Psatz ZArith.
From Coquelicot Require Import Coquelicot.
From Verif.Spec Require Import GridSpec QuadSpec BellSpec ConvSpec TaylorSpec.
From Verif.Model Require Import Py Num Tensors Domain.
From Verif.Proofs Require Import BellQ.
Local Open Scope R_scope.
Import ListNotations.

Lemma mono_second a i : exists B, forall t, Rabs t <= 1 -> Rabs ((a + t) ^ i - (a ^ i + INR i * a ^ pred i * t + INR i * INR (pred i) * a ^ pred (pred i) * t ^ 2 / 2)) <= B * Rabs t ^ 3.
Proof.
  induction i as [|i [B IH]].
  - exists 0. intros t _. cbn [pow INR pred]. match goal with |- Rabs ?z <= _ => replace z with 0 by field end. rewrite Rabs_R0. lra.
  - set (c := INR i * INR (pred i) * a ^ pred (pred i) / 2). exists ((Rabs a + 1) * B + Rabs c). intros t Ht. specialize (IH t Ht). set (r := (a + t) ^ i - _) in IH.
    replace ((a + t) ^ S i - (a ^ S i + INR (S i) * a ^ pred (S i) * t + INR (S i) * INR (pred (S i)) * a ^ pred (pred (S i)) * t ^ 2 / 2)) with ((a + t) * r + c * t ^ 3).
    + assert (T0 : 0 <= Rabs t ^ 3) by (apply pow_le, Rabs_pos). eapply Rle_trans; [apply Rabs_triang|]. rewrite !Rabs_mult, <- RPow_abs.
      replace (((Rabs a + 1) * B + Rabs c) * Rabs t ^ 3) with ((Rabs a + 1) * (B * Rabs t ^ 3) + Rabs c * Rabs t ^ 3) by ring. apply Rplus_le_compat_r.
      apply Rmult_le_compat; try apply Rabs_pos; [|exact IH]. eapply Rle_trans; [apply Rabs_triang|]. lra.
    + unfold r, c. cbn [pred]. rewrite S_INR. destruct i as [|[|i]]; cbn [pred pow INR]; field.
Qed.
Lemma poly_second_x P a b : exists B, forall t, Rabs t <= 1 -> Rabs (peval P (a + t) b - (peval P a b + peval (pdx P) a b * t + peval (pdx (pdx P)) a b * t ^ 2 / 2)) <= B * Rabs t ^ 3.
Proof.
  induction P as [|[c [i j]] P [B IH]].
  - exists 0. intros t _. cbn. match goal with |- Rabs ?z <= _ => replace z with 0 by field end. rewrite Rabs_R0. lra.
  - destruct (mono_second a i) as [B' H]. exists (Rabs (c * b ^ j) * B' + B). intros t Ht. specialize (IH t Ht). specialize (H t Ht).
    cbn [pdx map peval fold_right]. fold (peval P (a + t) b) (peval P a b). change (fold_right (fun '(c0, (i0, j0)) acc => c0 * a ^ i0 * b ^ j0 + acc) 0 (map (fun '(c0, (i0, j0)) => (c0 * INR i0, (Init.Nat.pred i0, j0))) P)) with (peval (pdx P) a b).
    change (fold_right (fun '(c0, (i0, j0)) acc => c0 * a ^ i0 * b ^ j0 + acc) 0 (map (fun '(c0, (i0, j0)) => (c0 * INR i0, (Init.Nat.pred i0, j0))) (map (fun '(c0, (i0, j0)) => (c0 * INR i0, (Init.Nat.pred i0, j0))) P))) with (peval (pdx (pdx P)) a b).
    set (r := (a + t) ^ i - _) in H. set (q := peval P (a + t) b - _) in IH.
    match goal with |- Rabs ?z <= _ => replace z with (c * b ^ j * r + q) by (unfold r, q; field) end.
    eapply Rle_trans; [apply Rabs_triang|]. rewrite Rabs_mult, Rmult_plus_distr_r. apply Rplus_le_compat; [|exact IH]. rewrite Rmult_assoc. apply Rmult_le_compat_l; [apply Rabs_pos|exact H].
Qed.
Lemma poly_second_y P a b : exists B, forall t, Rabs t <= 1 -> Rabs (peval P a (b + t) - (peval P a b + peval (pdy P) a b * t + peval (pdy (pdy P)) a b * t ^ 2 / 2)) <= B * Rabs t ^ 3.
Proof.
  induction P as [|[c [i j]] P [B IH]].
  - exists 0. intros t _. cbn. match goal with |- Rabs ?z <= _ => replace z with 0 by field end. rewrite Rabs_R0. lra.
  - destruct (mono_second b j) as [B' H]. exists (Rabs (c * a ^ i) * B' + B). intros t Ht. specialize (IH t Ht). specialize (H t Ht).
    cbn [pdy map peval fold_right]. fold (peval P a (b + t)) (peval P a b). change (fold_right (fun '(c0, (i0, j0)) acc => c0 * a ^ i0 * b ^ j0 + acc) 0 (map (fun '(c0, (i0, j0)) => (c0 * INR j0, (i0, Init.Nat.pred j0))) P)) with (peval (pdy P) a b).
    change (fold_right (fun '(c0, (i0, j0)) acc => c0 * a ^ i0 * b ^ j0 + acc) 0 (map (fun '(c0, (i0, j0)) => (c0 * INR j0, (i0, Init.Nat.pred j0))) (map (fun '(c0, (i0, j0)) => (c0 * INR j0, (i0, Init.Nat.pred j0))) P))) with (peval (pdy (pdy P)) a b).
    set (r := (b + t) ^ j - _) in H. set (q := peval P a (b + t) - _) in IH.
    match goal with |- Rabs ?z <= _ => replace z with (c * a ^ i * r + q) by (unfold r, q; field) end.
    eapply Rle_trans; [apply Rabs_triang|]. rewrite Rabs_mult, Rmult_plus_distr_r. apply Rplus_le_compat; [|exact IH]. rewrite Rmult_assoc. apply Rmult_le_compat_l; [apply Rabs_pos|exact H].
Qed.
(** A quantity below every multiple of small steps vanishes. *)
Lemma vanish c K s : 0 < s -> (forall t, 0 < t <= s -> Rabs c <= K * t) -> c = 0.
Proof.
  intros Hs H. destruct (Req_dec c 0) as [E|E]; [exact E|exfalso]. assert (P : 0 < Rabs c) by (apply Rabs_pos_lt, E). set (t := Rmin s (Rabs c / (2 * (Rabs K + 1)))).
  assert (K0 : 0 <= Rabs K) by apply Rabs_pos. assert (D : 0 < 2 * (Rabs K + 1)) by lra. assert (Q : 0 < Rabs c / (2 * (Rabs K + 1))) by (apply Rdiv_lt_0_compat; assumption).
  assert (T0 : 0 < t) by (unfold t; apply Rmin_glb_lt; assumption). specialize (H t (conj T0 (Rmin_l _ _))).
  assert (T1 : t <= Rabs c / (2 * (Rabs K + 1))) by apply Rmin_r. assert (K1 : K * t <= Rabs K * t) by (apply Rmult_le_compat_r; [lra|apply Rle_abs]).
  assert (K2 : (Rabs K + 1) * t <= Rabs c / 2). { replace (Rabs c / 2) with ((Rabs K + 1) * (Rabs c / (2 * (Rabs K + 1)))) by (field; lra). apply Rmult_le_compat_l; lra. }
  lra.
Qed.
Lemma second_zero c0 c1 c2 K s sg : 0 < s -> sg = 1 \/ sg = -1 -> (forall t, 0 < t <= s -> Rabs (c0 + c1 * (sg * t) + c2 * (sg * t) ^ 2 / 2) <= K * t ^ 3) -> c0 = 0 /\ c1 = 0 /\ c2 = 0.
Proof.
  intros Hs Hg H. set (e := Rmin s 1). assert (E0 : 0 < e) by (unfold e; apply Rmin_glb_lt; lra). assert (Es : e <= s) by apply Rmin_l. assert (E1 : e <= 1) by apply Rmin_r.
  assert (G2 : sg ^ 2 = 1) by (destruct Hg as [->| ->]; ring). assert (GA : Rabs sg = 1) by (destruct Hg as [->| ->]; [apply Rabs_R1|rewrite Rabs_left; lra]).
  assert (Z0 : c0 = 0).
  { apply (vanish c0 (Rabs K + Rabs c1 + Rabs c2) e E0). intros t [T0 T1]. specialize (H t ltac:(lra)). replace c0 with ((c0 + c1 * (sg * t) + c2 * (sg * t) ^ 2 / 2) + - (c1 * (sg * t)) + - (c2 * (sg * t) ^ 2 / 2)) by ring.
    eapply Rle_trans; [apply Rabs_triang|]. rewrite Rabs_Ropp. eapply Rle_trans; [apply Rplus_le_compat_r, Rabs_triang|]. rewrite Rabs_Ropp.
    assert (A1 : Rabs (c1 * (sg * t)) = Rabs c1 * t) by (rewrite !Rabs_mult, GA, (Rabs_pos_eq t) by lra; ring). rewrite A1.
    assert (A2 : Rabs (c2 * (sg * t) ^ 2 / 2) = Rabs c2 * (1 * t ^ 2 / 2)) by (replace (c2 * (sg * t) ^ 2 / 2) with (c2 * (sg ^ 2 * t ^ 2 / 2)) by field; rewrite G2, Rabs_mult, (Rabs_pos_eq (1 * t ^ 2 / 2)) by nra; reflexivity). rewrite A2.
    assert (T2 : t ^ 2 <= t) by nra. assert (T3 : 0 <= t ^ 3 <= t) by (split; [apply pow_le; lra|]; change (t ^ 3) with (t * t ^ 2); nra).
    assert (A : K * t ^ 3 <= Rabs K * t). { apply Rle_trans with (Rabs K * t ^ 3); [apply Rmult_le_compat_r; [lra|apply Rle_abs]|apply Rmult_le_compat_l; [apply Rabs_pos|lra]]. }
    assert (B : Rabs c2 * (1 * t ^ 2 / 2) <= Rabs c2 * t) by (apply Rmult_le_compat_l; [apply Rabs_pos|lra]). lra. }
  subst c0.
  assert (Z1 : c1 = 0).
  { apply (vanish c1 (Rabs K + Rabs c2) e E0). intros t [T0 T1]. specialize (H t ltac:(lra)). assert (TT : t * Rabs c1 <= t * (Rabs K * t + Rabs c2 * t)).
    { replace (t * Rabs c1) with (Rabs (c1 * (sg * t))) by (rewrite !Rabs_mult, GA, (Rabs_pos_eq t) by lra; ring). replace (c1 * (sg * t)) with ((0 + c1 * (sg * t) + c2 * (sg * t) ^ 2 / 2) + - (c2 * (sg * t) ^ 2 / 2)) by ring.
      eapply Rle_trans; [apply Rabs_triang|]. rewrite Rabs_Ropp. replace (c2 * (sg * t) ^ 2 / 2) with (c2 * (sg ^ 2 * t ^ 2 / 2)) by field. rewrite G2, (Rabs_mult c2). rewrite (Rabs_pos_eq (1 * t ^ 2 / 2)) by (apply Rmult_le_pos; [nra|lra]). replace (c2 * (1 * t ^ 2 / 2)) with (c2 * (sg * t) ^ 2 / 2) by (replace ((sg * t) ^ 2) with (sg ^ 2 * t ^ 2) by ring; rewrite G2; field).
      assert (A : K * t ^ 3 <= Rabs K * t ^ 2). { apply Rle_trans with (Rabs K * t ^ 3); [apply Rmult_le_compat_r; [apply pow_le; lra|apply Rle_abs]|apply Rmult_le_compat_l; [apply Rabs_pos|change (t ^ 3) with (t * t ^ 2); nra]]. }
      assert (B : Rabs c2 * (1 * t ^ 2 / 2) <= Rabs c2 * t ^ 2) by (apply Rmult_le_compat_l; [apply Rabs_pos|nra]). replace (t * (Rabs K * t + Rabs c2 * t)) with (Rabs K * t ^ 2 + Rabs c2 * t ^ 2) by ring. lra. }
    apply Rmult_le_reg_l in TT; [|lra]. lra. }
  subst c1. split; [reflexivity|]. split; [reflexivity|].
  apply (vanish c2 (2 * K) e E0). intros t [T0 T1]. specialize (H t ltac:(lra)). replace (0 + 0 * (sg * t) + c2 * (sg * t) ^ 2 / 2) with (c2 * (t ^ 2 / 2)) in H by (replace ((sg * t) ^ 2) with (sg ^ 2 * t ^ 2) by ring; rewrite G2; field).
  rewrite Rabs_mult, (Rabs_pos_eq (t ^ 2 / 2)) in H by nra. assert (P2 : 0 < t ^ 2 / 2) by nra. apply (Rmult_le_reg_r (t ^ 2 / 2)); [exact P2|]. replace (2 * K * t * (t ^ 2 / 2)) with (K * t ^ 3) by field. exact H.
Qed.
(** What the Taylor polynomial of [smooth_on] says at the point itself. *)
Lemma peval_jet P a b : d_x (peval P) a b = peval (pdx P) a b /\ d_y (peval P) a b = peval (pdy P) a b /\ d_x (d_x (peval P)) a b = peval (pdx (pdx P)) a b /\ d_y (d_y (peval P)) a b = peval (pdy (pdy P)) a b.
Proof.
  assert (X : forall Q s t, d_x (peval Q) s t = peval (pdx Q) s t) by (intros; apply is_derive_unique, peval_partials). assert (Y : forall Q s t, d_y (peval Q) s t = peval (pdy Q) s t) by (intros; apply is_derive_unique, peval_partials).
  split; [apply X|]. split; [apply Y|]. split.
  - unfold d_x at 1. rewrite (Derive_ext _ (fun s => peval (pdx P) s b)) by (intros; apply X). apply X.
  - unfold d_y at 1. rewrite (Derive_ext _ (fun s => peval (pdy P) a s)) by (intros; apply Y). apply Y.
Qed.
Lemma within_zero k u v : jets_within k 0 u v -> u = v.
Proof.
  destruct u as [|u0 [|u1 [|u2 [|u3 [|u4 [|u5 [|]]]]]]]; try contradiction; destruct v as [|v0 [|v1 [|v2 [|v3 [|v4 [|v5 [|]]]]]]]; try contradiction.
  cbn [jets_within]. rewrite !pow_i by lia. rewrite !Rmult_0_r. intros (A & B & C & D & E & F).
  assert (Z : forall a b, Rabs (a - b) <= 0 -> a = b) by (intros a b H; pose proof (Rabs_pos (a - b)); assert (Q : Rabs (a - b) = 0) by lra; destruct (Req_dec (a - b) 0) as [W|W]; [lra|apply Rabs_no_R0 in W; lra]).
  repeat (match goal with H : Rabs (_ - _) <= 0 |- _ => apply Z in H; subst end). reflexivity.
Qed.
Lemma dist_self x : dist x x = 0.
Proof. unfold dist. replace ((fst x - fst x) * (fst x - fst x) + (snd x - snd x) * (snd x - snd x)) with 0 by ring. apply sqrt_0. Qed.
Lemma dist_right a b t : dist (a, b) (a + t, b) = Rabs t.
Proof. unfold dist. cbn [fst snd]. replace ((a - (a + t)) * (a - (a + t)) + (b - b) * (b - b)) with (t * t) by ring. apply sqrt_Rsqr_abs. Qed.
Lemma dist_above a b t : dist (a, b) (a, b + t) = Rabs t.
Proof. unfold dist. cbn [fst snd]. replace ((a - a) * (a - a) + (b - (b + t)) * (b - (b + t))) with (t * t) by ring. apply sqrt_Rsqr_abs. Qed.
(** A smooth function that is affine from a point on in the first (second) direction has the slope as derivative there and no
    second derivative. *)
Lemma affine_along_x D k f a b s sg al be : 0 < s -> sg = 1 \/ sg = -1 -> smooth_on D k f -> D (a, b) -> (forall t, 0 < t <= s -> D (a + sg * t, b) /\ f (a + sg * t) b = al * (a + sg * t) + be) ->
  f a b = al * a + be /\ d_x f a b = al /\ d_x (d_x f) a b = 0.
Proof.
  intros Hs Hg SM D0 H. destruct (SM (a, b) D0) as (P & _ & J). pose proof (J (a, b) D0) as JJ. rewrite dist_self in JJ. apply within_zero in JJ. unfold jet in JJ. cbn [fst snd] in JJ. injection JJ as J0 J1 _ J3 _ _. destruct (peval_jet P a b) as (X1 & _ & X2 & _). rewrite J0, J1, J3, X1, X2.
  destruct (poly_second_x P a b) as [B T]. destruct (second_zero (peval P a b - (al * a + be)) (peval (pdx P) a b - al) (peval (pdx (pdx P)) a b) (B + Rabs k) (Rmin s 1) sg) as (Z0 & Z1 & Z2); [apply Rmin_glb_lt; lra|exact Hg| |repeat split; lra].
  intros t [T0 T1]. pose proof (Rle_trans _ _ _ T1 (Rmin_l _ _)) as Ts. pose proof (Rle_trans _ _ _ T1 (Rmin_r _ _)) as T2. destruct (H t (conj T0 Ts)) as [DD EF].
  assert (RA : Rabs (sg * t) = t) by (rewrite Rabs_mult, (Rabs_pos_eq t) by lra; destruct Hg as [->| ->]; [rewrite Rabs_R1|rewrite (Rabs_left (-1)) by lra]; ring).
  specialize (T (sg * t)). rewrite RA in T. specialize (T T2). specialize (J _ DD). rewrite dist_right, RA in J. unfold jet in J. cbn [fst snd jets_within] in J. destruct J as [J _]. rewrite EF in J.
  set (q := peval P (a + sg * t) b) in *. set (r := peval P a b + peval (pdx P) a b * (sg * t) + peval (pdx (pdx P)) a b * (sg * t) ^ 2 / 2) in *.
  match goal with |- Rabs ?z <= _ => replace z with (- (q - r) + - ((al * (a + sg * t) + be) - q)) by (unfold r; field) end. eapply Rle_trans; [apply Rabs_triang|]. rewrite !Rabs_Ropp. rewrite Rmult_plus_distr_r. apply Rplus_le_compat; [exact T|].
  eapply Rle_trans; [exact J|]. apply Rle_trans with (Rabs k * t ^ 5); [apply Rmult_le_compat_r; [apply pow_le; lra|apply Rle_abs]|]. apply Rmult_le_compat_l; [apply Rabs_pos|]. replace (t ^ 5) with (t ^ 3 * t ^ 2) by ring. rewrite <- (Rmult_1_r (t ^ 3)) at 2. apply Rmult_le_compat_l; [apply pow_le; lra|nra].
Qed.
Lemma affine_along_y D k f a b s sg al be : 0 < s -> sg = 1 \/ sg = -1 -> smooth_on D k f -> D (a, b) -> (forall t, 0 < t <= s -> D (a, b + sg * t) /\ f a (b + sg * t) = al * (b + sg * t) + be) ->
  f a b = al * b + be /\ d_y f a b = al /\ d_y (d_y f) a b = 0.
Proof.
  intros Hs Hg SM D0 H. destruct (SM (a, b) D0) as (P & _ & J). pose proof (J (a, b) D0) as JJ. rewrite dist_self in JJ. apply within_zero in JJ. unfold jet in JJ. cbn [fst snd] in JJ. injection JJ as J0 _ J2 _ _ J5. destruct (peval_jet P a b) as (_ & X1 & _ & X2). rewrite J0, J2, J5, X1, X2.
  destruct (poly_second_y P a b) as [B T]. destruct (second_zero (peval P a b - (al * b + be)) (peval (pdy P) a b - al) (peval (pdy (pdy P)) a b) (B + Rabs k) (Rmin s 1) sg) as (Z0 & Z1 & Z2); [apply Rmin_glb_lt; lra|exact Hg| |repeat split; lra].
  intros t [T0 T1]. pose proof (Rle_trans _ _ _ T1 (Rmin_l _ _)) as Ts. pose proof (Rle_trans _ _ _ T1 (Rmin_r _ _)) as T2. destruct (H t (conj T0 Ts)) as [DD EF].
  assert (RA : Rabs (sg * t) = t) by (rewrite Rabs_mult, (Rabs_pos_eq t) by lra; destruct Hg as [->| ->]; [rewrite Rabs_R1|rewrite (Rabs_left (-1)) by lra]; ring).
  specialize (T (sg * t)). rewrite RA in T. specialize (T T2). specialize (J _ DD). rewrite dist_above, RA in J. unfold jet in J. cbn [fst snd jets_within] in J. destruct J as [J _]. rewrite EF in J.
  set (q := peval P a (b + sg * t)) in *. set (r := peval P a b + peval (pdy P) a b * (sg * t) + peval (pdy (pdy P)) a b * (sg * t) ^ 2 / 2) in *.
  match goal with |- Rabs ?z <= _ => replace z with (- (q - r) + - ((al * (b + sg * t) + be) - q)) by (unfold r; field) end. eapply Rle_trans; [apply Rabs_triang|]. rewrite !Rabs_Ropp. rewrite Rmult_plus_distr_r. apply Rplus_le_compat; [exact T|].
  eapply Rle_trans; [exact J|]. apply Rle_trans with (Rabs k * t ^ 5); [apply Rmult_le_compat_r; [apply pow_le; lra|apply Rle_abs]|]. apply Rmult_le_compat_l; [apply Rabs_pos|]. replace (t ^ 5) with (t ^ 3 * t ^ 2) by ring. rewrite <- (Rmult_1_r (t ^ 3)) at 2. apply Rmult_le_compat_l; [apply pow_le; lra|nra].
Qed.
