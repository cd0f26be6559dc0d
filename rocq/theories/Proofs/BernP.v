(** * The Bell element in Bernstein form on the triangles of a mesh, for C110 *)
From Coq Require Import Reals Lra Lia List Psatz.
From Coquelicot Require Import Coquelicot.
From Verif.Model Require Import Py Num Tensors Domain Bell.
From Verif.Spec Require Import GridSpec BellSpec.
From Verif.Proofs Require Import Lib BellP BellV.
Local Open Scope R_scope.
Import ListNotations.

Definition pairsum (l : list (R * R)) : R := fold_right (fun t acc => fst t * snd t + acc) 0 l.
Definition firstsum (l : list (R * R)) : R := fold_right (fun t acc => fst t + acc) 0 l.
Lemma pairsum_bound l C : Forall (fun t => 0 <= fst t /\ Rabs (snd t) <= C) l -> Rabs (pairsum l) <= C * firstsum l.
Proof.
  induction 1 as [|t l [A B] F IH]; cbn [pairsum firstsum fold_right]; [rewrite Rabs_R0; lra|]. fold (pairsum l) (firstsum l).
  eapply Rle_trans; [apply Rabs_triang|]. rewrite Rabs_mult, (Rabs_right (fst t)) by lra. nra.
Qed.
Lemma pairsum_abs l : Rabs (pairsum l) <= pairsum (map (fun t => (Rabs (fst t), Rabs (snd t))) l).
Proof.
  induction l as [|t l IH]; cbn [pairsum fold_right map]; [rewrite Rabs_R0; lra|]. fold (pairsum l). cbn [fst snd]. fold (pairsum (map (fun t => (Rabs (fst t), Rabs (snd t))) l)).
  eapply Rle_trans; [apply Rabs_triang|]. rewrite Rabs_mult. lra.
Qed.
(** Polynomials of degree 5, 4, 3 in Bernstein form; the coefficient of [L1^i L2^j L3^k] is [c j k] times the multinomial coefficient. *)
Definition bl5 (c : nat -> nat -> R) (L1 L2 L3 : R) : list (R * R) :=
  [(1 * (L1 ^ 5 * L2 ^ 0 * L3 ^ 0), c 0%nat 0%nat); (5 * (L1 ^ 4 * L2 ^ 1 * L3 ^ 0), c 1%nat 0%nat); (5 * (L1 ^ 4 * L2 ^ 0 * L3 ^ 1), c 0%nat 1%nat); (10 * (L1 ^ 3 * L2 ^ 2 * L3 ^ 0), c 2%nat 0%nat); (20 * (L1 ^ 3 * L2 ^ 1 * L3 ^ 1), c 1%nat 1%nat); (10 * (L1 ^ 3 * L2 ^ 0 * L3 ^ 2), c 0%nat 2%nat); (10 * (L1 ^ 2 * L2 ^ 3 * L3 ^ 0), c 3%nat 0%nat); (30 * (L1 ^ 2 * L2 ^ 2 * L3 ^ 1), c 2%nat 1%nat); (30 * (L1 ^ 2 * L2 ^ 1 * L3 ^ 2), c 1%nat 2%nat); (10 * (L1 ^ 2 * L2 ^ 0 * L3 ^ 3), c 0%nat 3%nat); (5 * (L1 ^ 1 * L2 ^ 4 * L3 ^ 0), c 4%nat 0%nat); (20 * (L1 ^ 1 * L2 ^ 3 * L3 ^ 1), c 3%nat 1%nat); (30 * (L1 ^ 1 * L2 ^ 2 * L3 ^ 2), c 2%nat 2%nat); (20 * (L1 ^ 1 * L2 ^ 1 * L3 ^ 3), c 1%nat 3%nat); (5 * (L1 ^ 1 * L2 ^ 0 * L3 ^ 4), c 0%nat 4%nat); (1 * (L1 ^ 0 * L2 ^ 5 * L3 ^ 0), c 5%nat 0%nat); (5 * (L1 ^ 0 * L2 ^ 4 * L3 ^ 1), c 4%nat 1%nat); (10 * (L1 ^ 0 * L2 ^ 3 * L3 ^ 2), c 3%nat 2%nat); (10 * (L1 ^ 0 * L2 ^ 2 * L3 ^ 3), c 2%nat 3%nat); (5 * (L1 ^ 0 * L2 ^ 1 * L3 ^ 4), c 1%nat 4%nat); (1 * (L1 ^ 0 * L2 ^ 0 * L3 ^ 5), c 0%nat 5%nat)].
Definition bern5 (c : nat -> nat -> R) (L1 L2 L3 : R) : R := pairsum (bl5 c L1 L2 L3).
Definition bl4 (c : nat -> nat -> R) (L1 L2 L3 : R) : list (R * R) :=
  [(1 * (L1 ^ 4 * L2 ^ 0 * L3 ^ 0), c 0%nat 0%nat); (4 * (L1 ^ 3 * L2 ^ 1 * L3 ^ 0), c 1%nat 0%nat); (4 * (L1 ^ 3 * L2 ^ 0 * L3 ^ 1), c 0%nat 1%nat); (6 * (L1 ^ 2 * L2 ^ 2 * L3 ^ 0), c 2%nat 0%nat); (12 * (L1 ^ 2 * L2 ^ 1 * L3 ^ 1), c 1%nat 1%nat); (6 * (L1 ^ 2 * L2 ^ 0 * L3 ^ 2), c 0%nat 2%nat); (4 * (L1 ^ 1 * L2 ^ 3 * L3 ^ 0), c 3%nat 0%nat); (12 * (L1 ^ 1 * L2 ^ 2 * L3 ^ 1), c 2%nat 1%nat); (12 * (L1 ^ 1 * L2 ^ 1 * L3 ^ 2), c 1%nat 2%nat); (4 * (L1 ^ 1 * L2 ^ 0 * L3 ^ 3), c 0%nat 3%nat); (1 * (L1 ^ 0 * L2 ^ 4 * L3 ^ 0), c 4%nat 0%nat); (4 * (L1 ^ 0 * L2 ^ 3 * L3 ^ 1), c 3%nat 1%nat); (6 * (L1 ^ 0 * L2 ^ 2 * L3 ^ 2), c 2%nat 2%nat); (4 * (L1 ^ 0 * L2 ^ 1 * L3 ^ 3), c 1%nat 3%nat); (1 * (L1 ^ 0 * L2 ^ 0 * L3 ^ 4), c 0%nat 4%nat)].
Definition bern4 (c : nat -> nat -> R) (L1 L2 L3 : R) : R := pairsum (bl4 c L1 L2 L3).
Definition bl3 (c : nat -> nat -> R) (L1 L2 L3 : R) : list (R * R) :=
  [(1 * (L1 ^ 3 * L2 ^ 0 * L3 ^ 0), c 0%nat 0%nat); (3 * (L1 ^ 2 * L2 ^ 1 * L3 ^ 0), c 1%nat 0%nat); (3 * (L1 ^ 2 * L2 ^ 0 * L3 ^ 1), c 0%nat 1%nat); (3 * (L1 ^ 1 * L2 ^ 2 * L3 ^ 0), c 2%nat 0%nat); (6 * (L1 ^ 1 * L2 ^ 1 * L3 ^ 1), c 1%nat 1%nat); (3 * (L1 ^ 1 * L2 ^ 0 * L3 ^ 2), c 0%nat 2%nat); (1 * (L1 ^ 0 * L2 ^ 3 * L3 ^ 0), c 3%nat 0%nat); (3 * (L1 ^ 0 * L2 ^ 2 * L3 ^ 1), c 2%nat 1%nat); (3 * (L1 ^ 0 * L2 ^ 1 * L3 ^ 2), c 1%nat 2%nat); (1 * (L1 ^ 0 * L2 ^ 0 * L3 ^ 3), c 0%nat 3%nat)].
Definition bern3 (c : nat -> nat -> R) (L1 L2 L3 : R) : R := pairsum (bl3 c L1 L2 L3).
Lemma bern5_abs c L1 L2 L3 : Rabs (bern5 c L1 L2 L3) <= bern5 (fun j k => Rabs (c j k)) (Rabs L1) (Rabs L2) (Rabs L3).
Proof.
  unfold bern5. eapply Rle_trans; [apply pairsum_abs|]. apply Req_le. unfold bl5. cbn [map fst snd]. rewrite !Rabs_mult, <- !RPow_abs.
  repeat match goal with |- context [Rabs (IZR ?z)] => rewrite (Rabs_right (IZR z)) by lra end. reflexivity.
Qed.
Lemma bern5_bound c L1 L2 L3 C : (forall j k, Rabs (c j k) <= C) -> Rabs (bern5 c L1 L2 L3) <= C * (Rabs L1 + Rabs L2 + Rabs L3) ^ 5.
Proof.
  intros H. eapply Rle_trans; [apply bern5_abs|]. pose proof (Rabs_pos L1) as H1. pose proof (Rabs_pos L2) as H2. pose proof (Rabs_pos L3) as H3. generalize dependent (Rabs L1). generalize dependent (Rabs L2). generalize dependent (Rabs L3).
  clear L1 L2 L3. intros L3 H3 L2 H2 L1 H1. eapply Rle_trans; [apply Rle_abs|]. unfold bern5. eapply Rle_trans; [apply (pairsum_bound _ C)|].
  - unfold bl5. repeat (constructor; [cbn [fst snd]; split; [apply Rmult_le_pos; [lra|]; apply Rmult_le_pos; [apply Rmult_le_pos|]; apply pow_le; assumption|rewrite Rabs_Rabsolu; apply H]|]). constructor.
  - apply Req_le. unfold bl5. cbn [firstsum fold_right fst]. ring.
Qed.
Lemma bern4_abs c L1 L2 L3 : Rabs (bern4 c L1 L2 L3) <= bern4 (fun j k => Rabs (c j k)) (Rabs L1) (Rabs L2) (Rabs L3).
Proof.
  unfold bern4. eapply Rle_trans; [apply pairsum_abs|]. apply Req_le. unfold bl4. cbn [map fst snd]. rewrite !Rabs_mult, <- !RPow_abs.
  repeat match goal with |- context [Rabs (IZR ?z)] => rewrite (Rabs_right (IZR z)) by lra end. reflexivity.
Qed.
Lemma bern4_bound c L1 L2 L3 C : (forall j k, Rabs (c j k) <= C) -> Rabs (bern4 c L1 L2 L3) <= C * (Rabs L1 + Rabs L2 + Rabs L3) ^ 4.
Proof.
  intros H. eapply Rle_trans; [apply bern4_abs|]. pose proof (Rabs_pos L1) as H1. pose proof (Rabs_pos L2) as H2. pose proof (Rabs_pos L3) as H3. generalize dependent (Rabs L1). generalize dependent (Rabs L2). generalize dependent (Rabs L3).
  clear L1 L2 L3. intros L3 H3 L2 H2 L1 H1. eapply Rle_trans; [apply Rle_abs|]. unfold bern4. eapply Rle_trans; [apply (pairsum_bound _ C)|].
  - unfold bl4. repeat (constructor; [cbn [fst snd]; split; [apply Rmult_le_pos; [lra|]; apply Rmult_le_pos; [apply Rmult_le_pos|]; apply pow_le; assumption|rewrite Rabs_Rabsolu; apply H]|]). constructor.
  - apply Req_le. unfold bl4. cbn [firstsum fold_right fst]. ring.
Qed.
Lemma bern3_abs c L1 L2 L3 : Rabs (bern3 c L1 L2 L3) <= bern3 (fun j k => Rabs (c j k)) (Rabs L1) (Rabs L2) (Rabs L3).
Proof.
  unfold bern3. eapply Rle_trans; [apply pairsum_abs|]. apply Req_le. unfold bl3. cbn [map fst snd]. rewrite !Rabs_mult, <- !RPow_abs.
  repeat match goal with |- context [Rabs (IZR ?z)] => rewrite (Rabs_right (IZR z)) by lra end. reflexivity.
Qed.
Lemma bern3_bound c L1 L2 L3 C : (forall j k, Rabs (c j k) <= C) -> Rabs (bern3 c L1 L2 L3) <= C * (Rabs L1 + Rabs L2 + Rabs L3) ^ 3.
Proof.
  intros H. eapply Rle_trans; [apply bern3_abs|]. pose proof (Rabs_pos L1) as H1. pose proof (Rabs_pos L2) as H2. pose proof (Rabs_pos L3) as H3. generalize dependent (Rabs L1). generalize dependent (Rabs L2). generalize dependent (Rabs L3).
  clear L1 L2 L3. intros L3 H3 L2 H2 L1 H1. eapply Rle_trans; [apply Rle_abs|]. unfold bern3. eapply Rle_trans; [apply (pairsum_bound _ C)|].
  - unfold bl3. repeat (constructor; [cbn [fst snd]; split; [apply Rmult_le_pos; [lra|]; apply Rmult_le_pos; [apply Rmult_le_pos|]; apply pow_le; assumption|rewrite Rabs_Rabsolu; apply H]|]). constructor.
  - apply Req_le. unfold bl3. cbn [firstsum fold_right fst]. ring.
Qed.

(** Derivatives along the coordinates of a triangle with corners (A, B), (A + s, B), (A + s, B + s). *)
Definition dx (n : R) (c : nat -> nat -> R) : nat -> nat -> R := fun j k => n * (c (S j) k - c j k).
Definition dy (n : R) (c : nat -> nat -> R) : nat -> nat -> R := fun j k => n * (c j (S k) - c (S j) k).
Ltac reals := cbv beta; match goal with |- ?a = ?b => change (@eq R a b) end.
Lemma bern5_dx c X Y : is_derive (fun X => bern5 c (1 - X) (X - Y) Y) X (bern4 (dx 5 c) (1 - X) (X - Y) Y).
Proof.
  unfold bern5, bern4, bl5, bl4, dx. cbn [pairsum fold_right fst snd]. auto_derive; [exact I|]. reals. cbn [pred INR]. ring.
Qed.
Lemma bern5_dy c X Y : is_derive (fun Y => bern5 c (1 - X) (X - Y) Y) Y (bern4 (dy 5 c) (1 - X) (X - Y) Y).
Proof.
  unfold bern5, bern4, bl5, bl4, dy. cbn [pairsum fold_right fst snd]. auto_derive; [exact I|]. reals. cbn [pred INR]. ring.
Qed.
Lemma bern4_dx c X Y : is_derive (fun X => bern4 c (1 - X) (X - Y) Y) X (bern3 (dx 4 c) (1 - X) (X - Y) Y).
Proof.
  unfold bern4, bern3, bl4, bl3, dx. cbn [pairsum fold_right fst snd]. auto_derive; [exact I|]. reals. cbn [pred INR]. ring.
Qed.
Lemma bern4_dy c X Y : is_derive (fun Y => bern4 c (1 - X) (X - Y) Y) Y (bern3 (dy 4 c) (1 - X) (X - Y) Y).
Proof.
  unfold bern4, bern3, bl4, bl3, dy. cbn [pairsum fold_right fst snd]. auto_derive; [exact I|]. reals. cbn [pred INR]. ring.
Qed.

(** The coefficients of the Bell polynomial: [u, p, q, a, b, d] are the value, [s] times the first and [s^2] times the second derivatives at a corner. *)
Definition bcoef (u1 p1 q1 A1 B1 D1 u2 p2 q2 A2 B2 D2 u3 p3 q3 A3 B3 D3 : R) (j k : nat) : R :=
  match j, k with
  | 0, 0 => ((1) * u1 )%R
  | 1, 0 => ((1) * u1 + (1 / 5) * p1 )%R
  | 0, 1 => ((1) * u1 + (1 / 5) * p1 + (1 / 5) * q1 )%R
  | 2, 0 => ((1) * u1 + (2 / 5) * p1 + (1 / 20) * A1 )%R
  | 1, 1 => ((1) * u1 + (2 / 5) * p1 + (1 / 5) * q1 + (1 / 20) * A1 + (1 / 20) * B1 )%R
  | 0, 2 => ((1) * u1 + (2 / 5) * p1 + (2 / 5) * q1 + (1 / 20) * A1 + (1 / 10) * B1 + (1 / 20) * D1 )%R
  | 3, 0 => ((1) * u2 + (-2 / 5) * p2 + (1 / 20) * A2 )%R
  | 2, 1 => ((1 / 10) * q1 + (1 / 30) * B1 + (1) * u2 + (-2 / 5) * p2 + (1 / 10) * q2 + (1 / 20) * A2 + (-1 / 30) * B2 )%R
  | 1, 2 => ((1 / 2) * u1 + (1 / 4) * p1 + (3 / 20) * q1 + (1 / 24) * A1 + (1 / 20) * B1 + (1 / 120) * D1 + (1 / 2) * u3 + (-3 / 20) * p3 + (-1 / 4) * q3 + (1 / 120) * A3 + (1 / 20) * B3 + (1 / 24) * D3 )%R
  | 0, 3 => ((1) * u3 + (-2 / 5) * p3 + (-2 / 5) * q3 + (1 / 20) * A3 + (1 / 10) * B3 + (1 / 20) * D3 )%R
  | 4, 0 => ((1) * u2 + (-1 / 5) * p2 )%R
  | 3, 1 => ((1) * u2 + (-1 / 5) * p2 + (1 / 5) * q2 + (-1 / 20) * B2 )%R
  | 2, 2 => ((1) * u2 + (-1 / 10) * p2 + (2 / 5) * q2 + (-1 / 30) * B2 + (1 / 20) * D2 + (-1 / 10) * p3 + (1 / 30) * B3 )%R
  | 1, 3 => ((1) * u3 + (-1 / 5) * p3 + (-2 / 5) * q3 + (1 / 20) * B3 + (1 / 20) * D3 )%R
  | 0, 4 => ((1) * u3 + (-1 / 5) * p3 + (-1 / 5) * q3 )%R
  | 5, 0 => ((1) * u2 )%R
  | 4, 1 => ((1) * u2 + (1 / 5) * q2 )%R
  | 3, 2 => ((1) * u2 + (2 / 5) * q2 + (1 / 20) * D2 )%R
  | 2, 3 => ((1) * u3 + (-2 / 5) * q3 + (1 / 20) * D3 )%R
  | 1, 4 => ((1) * u3 + (-1 / 5) * q3 )%R
  | 0, 5 => ((1) * u3 )%R
  | _, _ => 0%R
  end%nat.
Lemma bcoef_bound u1 p1 q1 A1 B1 D1 u2 p2 q2 A2 B2 D2 u3 p3 q3 A3 B3 D3 U :
  Forall (fun z => Rabs z <= U) [u1; p1; q1; A1; B1; D1; u2; p2; q2; A2; B2; D2; u3; p3; q3; A3; B3; D3] ->
  forall j k, Rabs (bcoef u1 p1 q1 A1 B1 D1 u2 p2 q2 A2 B2 D2 u3 p3 q3 A3 B3 D3 j k) <= 2 * U.
Proof.
  intros H j k. repeat (match goal with H : Forall _ (_ :: _) |- _ => let H1 := fresh in pose proof (Forall_inv H) as H1; apply Forall_inv_tail in H; cbv beta in H1; apply Rabs_le_between in H1 end).
  destruct j as [|[|[|[|[|[|j]]]]]]; destruct k as [|[|[|[|[|[|k]]]]]]; cbn [bcoef]; apply Rabs_le; clear H; lra.
Qed.
Lemma rr_values s : s <> 0 -> rr s (- s) (- s) 0 = 1 / 2 /\ rr 0 (- s) s 0 = 0 /\ rr 0 s s (- s) = 1 /\ rr (- s) s 0 (- s) = 1 /\ rr (- s) 0 0 s = 0 /\ rr s 0 (- s) s = 1 / 2.
Proof. intros H. assert (s ^ 2 <> 0) by (apply pow_nonzero; exact H). unfold rr. repeat split; field; auto; try (intro; apply H; nra). Qed.
Lemma bell_bern A B s u1 p1 q1 A1 B1 D1 u2 p2 q2 A2 B2 D2 u3 p3 q3 A3 B3 D3 L1 L2 L3 : s <> 0 ->
  Vector_dot (Nf_all (L1, L2, L3) (bb (A, B) (A + s, B) (A + s, B + s)) (cc (A, B) (A + s, B) (A + s, B + s)))
    ([u1; p1; q1; A1; B1; D1] ++ [u2; p2; q2; A2; B2; D2] ++ [u3; p3; q3; A3; B3; D3]) =
  bern5 (bcoef u1 (s * p1) (s * q1) (s ^ 2 * A1) (s ^ 2 * B1) (s ^ 2 * D1) u2 (s * p2) (s * q2) (s ^ 2 * A2) (s ^ 2 * B2) (s ^ 2 * D2)
    u3 (s * p3) (s * q3) (s ^ 2 * A3) (s ^ 2 * B3) (s ^ 2 * D3)) L1 L2 L3.
Proof.
  intros H. destruct (rr_values s H) as (R1 & R2 & R3 & R4 & R5 & R6). unfold bb, cc. cbn [fst snd].
  replace (B - (B + s)) with (- s) by ring. replace (B + s - B) with s by ring. replace (B - B) with 0 by ring.
  replace (A + s - (A + s)) with 0 by ring. replace (A - (A + s)) with (- s) by ring. replace (A + s - A) with s by ring.
  unfold Nf_all. rewrite R1, R2, R3, R4, R5, R6. clear.
  unfold Nf, bern5, bl5, pairsum. cbn [app fold_right fst snd bcoef]. cbn. field.
Qed.
