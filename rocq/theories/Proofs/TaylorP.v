(** * Taylor polynomials of functions of the plane, for C110 *)
From Coq Require Import Reals Lra Lia List Psatz.
From Coquelicot Require Import Coquelicot.
From Verif.Model Require Import Py Num Tensors Domain Bell.
From Verif.Spec Require Import GridSpec BellSpec QuadSpec ConvSpec TaylorSpec.
From Verif.Proofs Require Import Lib BellQ BernP BernR ConvP.
Local Open Scope R_scope.
Import ListNotations.

(** ** Polynomials around a point are polynomials *)
Definition poly_fn (n : nat) (F : R -> R -> R) : Prop := exists P, degree_le n P /\ forall x y, F x y = peval P x y.
Lemma peval_app P Q x y : peval (P ++ Q) x y = peval P x y + peval Q x y.
Proof. induction P as [|[c [i j]] P IH]; cbn [app]; [unfold peval at 2; cbn [fold_right]; ring|]. unfold peval in *. cbn [fold_right]. rewrite IH. ring. Qed.
Lemma poly_plus n F G : poly_fn n F -> poly_fn n G -> poly_fn n (fun x y => F x y + G x y).
Proof.
  intros (P & DP & EP) (Q & DQ & EQ). exists (P ++ Q). split; [intros c i j I; apply in_app_iff in I as [I|I]; [apply (DP _ _ _ I)|apply (DQ _ _ _ I)]|].
  intros x y. rewrite peval_app, EP, EQ. reflexivity.
Qed.
Lemma poly_times n F c a b : (a + b <= 1)%nat -> poly_fn n F -> poly_fn (n + 1) (fun x y => c * x ^ a * y ^ b * F x y).
Proof.
  intros H (P & DP & EP). exists (map (fun '(c', (i, j)) => (c * c', ((a + i)%nat, (b + j)%nat))) P). split.
  - intros c' i j I. apply in_map_iff in I as [[c0 [i0 j0]] [E I]]. injection E as <- <- <-. pose proof (DP _ _ _ I). lia.
  - intros x y. rewrite EP. clear. induction P as [|[c' [i j]] P IH]; cbn [map peval fold_right]; [ring|]. fold (peval P x y). unfold peval in IH |- *. rewrite <- IH, !pow_add. ring.
Qed.
Lemma poly_weaken n m F : (n <= m)%nat -> poly_fn n F -> poly_fn m F.
Proof. intros H (P & DP & EP). exists P. split; [|exact EP]. intros c i j I. pose proof (DP _ _ _ I). lia. Qed.
Lemma poly_ext n F G : (forall x y, F x y = G x y) -> poly_fn n F -> poly_fn n G.
Proof. intros E (P & DP & EP). exists P. split; [exact DP|]. intros x y. rewrite <- E. apply EP. Qed.
Lemma poly_const c : poly_fn 0 (fun _ _ => c).
Proof. exists [(c, (0%nat, 0%nat))]. split; [intros ? ? ? [E|[]]; injection E as <- <- <-; lia|]. intros x y. cbn. ring. Qed.
Lemma poly_shift a b i j : poly_fn (i + j) (fun x y => (x - a) ^ i * (y - b) ^ j).
Proof.
  assert (S : forall n F c e f g, (e + f <= 1)%nat -> poly_fn n F -> poly_fn (n + 1) (fun x y => (c * x ^ e * y ^ f + g) * F x y)).
  { intros n F c e f g H P. apply (poly_ext _ (fun x y => c * x ^ e * y ^ f * F x y + g * x ^ 0 * y ^ 0 * F x y)); [intros; cbn [pow]; ring|].
    apply poly_plus; apply poly_times; try assumption; lia. }
  induction i as [|i IH].
  - induction j as [|j IH]; [apply (poly_ext _ (fun _ _ => 1)); [intros; cbn; ring|apply poly_const]|].
    apply (poly_ext _ (fun x y => (1 * x ^ 0 * y ^ 1 + - b) * ((x - a) ^ 0 * (y - b) ^ j))); [intros; cbn [pow]; ring|].
    replace (0 + Datatypes.S j)%nat with (0 + j + 1)%nat by lia. apply S; [lia|exact IH].
  - apply (poly_ext _ (fun x y => (1 * x ^ 1 * y ^ 0 + - a) * ((x - a) ^ i * (y - b) ^ j))); [intros; cbn [pow]; ring|].
    replace (Datatypes.S i + j)%nat with (i + j + 1)%nat by lia. apply S; [lia|exact IH].
Qed.
Lemma poly_term n a b c i j : (i + j <= n)%nat -> poly_fn n (fun x y => c * ((x - a) ^ i * (y - b) ^ j)).
Proof.
  intros H. pose proof (poly_shift a b i j) as (P & DP & EP). exists (map (fun '(c', ij) => (c * c', ij)) P). split.
  - intros c' i' j' I. apply in_map_iff in I as [[c0 [i0 j0]] [E I]]. injection E as <- <- <-. pose proof (DP _ _ _ I). lia.
  - intros x y. rewrite EP. clear. induction P as [|[c' [i j]] P IH]; cbn [map peval fold_right]; [ring|]. fold (peval P x y). unfold peval in IH |- *. rewrite <- IH. ring.
Qed.

(** ** Taylor polynomials of degree 4 to 0, with the derivatives [e] at [(a, b)] *)
Section Tay.
Context (a b : R).
Definition tm (e : nat -> nat -> R) (i j : nat) (x y : R) : R := e i j / (INR (fact i) * INR (fact j)) * ((x - a) ^ i * (y - b) ^ j).
Definition tay0 e x y := tm e 0 0 x y.
Definition tay1 e x y := tay0 e x y + (tm e 1 0 x y + tm e 0 1 x y).
Definition tay2 e x y := tay1 e x y + (tm e 2 0 x y + tm e 1 1 x y + tm e 0 2 x y).
Definition tay3 e x y := tay2 e x y + (tm e 3 0 x y + tm e 2 1 x y + tm e 1 2 x y + tm e 0 3 x y).
Definition tay4 e x y := tay3 e x y + (tm e 4 0 x y + tm e 3 1 x y + tm e 2 2 x y + tm e 1 3 x y + tm e 0 4 x y).
Definition tay (n : nat) : (nat -> nat -> R) -> R -> R -> R := match n with 0%nat => fun _ _ _ => 0 | 1%nat => tay0 | 2%nat => tay1 | 3%nat => tay2 | 4%nat => tay3 | _ => tay4 end.
Definition ex (e : nat -> nat -> R) i j := e (S i) j.
Definition ey (e : nat -> nat -> R) i j := e i (S j).
Lemma tay_partials n e : (n <= 4)%nat -> partials (tay (S n) e) (tay n (ex e)) (tay n (ey e)).
Proof.
  intros H x y. destruct n as [|[|[|[|[|n]]]]]; [| | | | |lia]; cbn [tay]; unfold tay4, tay3, tay2, tay1, tay0, tm, ex, ey; cbn [fact Nat.mul Nat.add INR];
  split; (auto_derive; [exact I|]; reals; cbn [pred INR pow]; field).
Qed.
Lemma tay_poly e : poly_fn 4 (tay 5 e).
Proof. unfold tay, tay4, tay3, tay2, tay1, tay0, tm. repeat apply poly_plus; apply poly_term; lia. Qed.
Lemma tay_at n e : tay (S n) e a b = e 0%nat 0%nat.
Proof. destruct n as [|[|[|[|n]]]]; cbn [tay]; unfold tay4, tay3, tay2, tay1, tay0, tm; cbn [fact Nat.mul Nat.add INR pow]; rewrite ?Rminus_diag_eq by reflexivity; field. Qed.
End Tay.

(** A function with small derivatives is small. *)
Lemma mean_value (g g' : R -> R) (u v M : R) : (forall t, is_derive g t (g' t)) -> (forall t, Rmin u v <= t <= Rmax u v -> Rabs (g' t) <= M) -> Rabs (g v - g u) <= M * Rabs (v - u).
Proof.
  intros D B. destruct (MVT_gen g u v g') as [c [Hc E]].
  - intros t _. apply D.
  - intros t _. apply derivable_continuous_pt. exists (g' t). apply is_derive_Reals, D.
  - rewrite E, Rabs_mult. apply Rmult_le_compat_r; [apply Rabs_pos|]. apply B, Hc.
Qed.
Definition taxi (a b x y : R) : R := Rabs (x - a) + Rabs (y - b).
Section Remainder.
Context (w h k : R) (f : R -> R -> R) (d : nat -> nat -> R -> R -> R) (F : five_derivatives (rectangle w h) k f d) (a b : R) (Da : rectangle w h (a, b)).
Definition e_at i j : nat -> nat -> R := fun i' j' => d (i + i')%nat (j + j')%nat a b.
Lemma between u v t lo hi : lo <= u <= hi -> lo <= v <= hi -> Rmin u v <= t <= Rmax u v -> lo <= t <= hi /\ Rabs (t - u) <= Rabs (v - u).
Proof.
  intros. unfold Rmin, Rmax in *. destruct (Rle_dec u v); split; try lra.
  - rewrite !Rabs_right by lra. lra.
  - rewrite !Rabs_left1 by lra. lra.
Qed.
Lemma remainder n : (n <= 5)%nat -> forall i j x y, (i + j + n = 5)%nat -> rectangle w h (x, y) -> Rabs (d i j x y - tay a b n (e_at i j) x y) <= k * taxi a b x y ^ n.
Proof.
  destruct F as (_ & Pd & Bd). induction n as [|n IH]; intros Hn i j x y E Dx.
  - cbn [tay pow]. rewrite Rminus_0_r, Rmult_1_r. apply (Bd i j (x, y)); [lia|exact Dx].
  - assert (Hk : 0 <= k) by (pose proof (Bd 5%nat 0%nat (a, b) eq_refl Da); pose proof (Rabs_pos (d 5%nat 0%nat (fst (a, b)) (snd (a, b)))); lra).
    pose proof (Pd i j ltac:(lia)) as P. pose proof (tay_partials a b n (e_at i j) ltac:(lia)) as Q.
    pose proof (partials_plus _ _ _ _ _ _ P Q) as PQ. set (g := fun x y => d i j x y - tay a b (S n) (e_at i j) x y) in *.
    assert (Z : g a b = 0) by (unfold g; rewrite tay_at; unfold e_at; rewrite !Nat.add_0_r; ring).
    assert (IX : forall t u, rectangle w h (t, u) -> Rabs (d (S i) j t u - tay a b n (ex (e_at i j)) t u) <= k * taxi a b t u ^ n).
    { intros t u Dt. replace (tay a b n (ex (e_at i j)) t u) with (tay a b n (e_at (S i) j) t u); [apply IH; [lia|lia|exact Dt]|].
      unfold ex, e_at. destruct n as [|[|[|[|[|]]]]]; cbn [tay]; unfold tay4, tay3, tay2, tay1, tay0, tm; rewrite <- ?Nat.add_succ_comm; reflexivity. }
    assert (IY : forall t u, rectangle w h (t, u) -> Rabs (d i (S j) t u - tay a b n (ey (e_at i j)) t u) <= k * taxi a b t u ^ n).
    { intros t u Dt. replace (tay a b n (ey (e_at i j)) t u) with (tay a b n (e_at i (S j)) t u); [apply IH; [lia|lia|exact Dt]|].
      unfold ey, e_at. destruct n as [|[|[|[|[|]]]]]; cbn [tay]; unfold tay4, tay3, tay2, tay1, tay0, tm; rewrite <- ?Nat.add_succ_comm; reflexivity. }
    destruct Da as [A1 A2], Dx as [X1 X2]. cbn [fst snd] in A1, A2, X1, X2. set (N := taxi a b x y).
    assert (M1 : Rabs (g x b - g a b) <= k * N ^ n * Rabs (x - a)).
    { apply (mean_value (fun t => g t b) (fun t => d (S i) j t b - tay a b n (ex (e_at i j)) t b)); [intros t; apply PQ|]. intros t Ht. destruct (between _ _ _ _ _ A1 X1 Ht) as [T1 T2].
      eapply Rle_trans; [apply IX; split; assumption|]. apply scale_le; [exact Hk|]. apply pow_incr. unfold N, taxi. rewrite (Rminus_diag_eq b b) by reflexivity. rewrite Rabs_R0. pose proof (Rabs_pos (t - a)). pose proof (Rabs_pos (y - b)). lra. }
    assert (M2 : Rabs (g x y - g x b) <= k * N ^ n * Rabs (y - b)).
    { apply (mean_value (fun t => g x t) (fun t => d i (S j) x t - tay a b n (ey (e_at i j)) x t)); [intros t; apply PQ|]. intros t Ht. destruct (between _ _ _ _ _ A2 X2 Ht) as [T1 T2].
      eapply Rle_trans; [apply IY; split; assumption|]. apply scale_le; [exact Hk|]. apply pow_incr. unfold N, taxi. pose proof (Rabs_pos (t - b)). pose proof (Rabs_pos (x - a)). lra. }
    change (Rabs (g x y) <= k * N ^ S n). replace (g x y) with ((g x y - g x b) + (g x b - g a b)) by (rewrite Z; ring).
    eapply Rle_trans; [apply Rabs_triang|]. replace (k * N ^ S n) with (k * N ^ n * Rabs (y - b) + k * N ^ n * Rabs (x - a)) by (unfold N, taxi; cbn [pow]; ring). lra.
Qed.
Lemma taxi_pos x y : 0 <= taxi a b x y.
Proof. unfold taxi. pose proof (Rabs_pos (x - a)). pose proof (Rabs_pos (y - b)). lra. Qed.
Lemma taxi_dist x y : taxi a b x y * taxi a b x y <= 2 * (dist (a, b) (x, y) * dist (a, b) (x, y)).
Proof.
  rewrite dist_sq. unfold taxi, sq. cbn [fst snd]. replace ((a - x) * (a - x)) with (Rabs (x - a) * Rabs (x - a)) by (rewrite <- Rabs_mult, Rabs_right; [ring|apply Rle_ge, Rle_0_sqr]).
  replace ((b - y) * (b - y)) with (Rabs (y - b) * Rabs (y - b)) by (rewrite <- Rabs_mult, Rabs_right; [ring|apply Rle_ge, Rle_0_sqr]).
  pose proof (Rle_0_sqr (Rabs (x - a) - Rabs (y - b))). unfold Rsqr in *. lra.
Qed.
Lemma taylor_jets P : (forall x y, tay a b 5 (e_at 0 0) x y = peval P x y) -> forall y, rectangle w h y -> jets_within (6 * k) (dist (a, b) y) (jet f y) (jet (peval P) y).
Proof.
  intros EP [x y] Dy. pose proof F as (F0 & Pd & Bd). set (T := fun i j n => tay a b n (e_at i j)).
  assert (PT : forall i j n, (n <= 4)%nat -> partials (T i j (S n)) (T (S i) j n) (T i (S j) n)).
  { intros i j n Hn u v. pose proof (tay_partials a b n (e_at i j) Hn u v) as [K1 K2].
    assert (EX : forall u v, tay a b n (ex (e_at i j)) u v = tay a b n (e_at (S i) j) u v) by (intros; unfold ex, e_at; destruct n as [|[|[|[|[|]]]]]; cbn [tay]; unfold tay4, tay3, tay2, tay1, tay0, tm; rewrite <- ?Nat.add_succ_comm; reflexivity).
    assert (EY : forall u v, tay a b n (ey (e_at i j)) u v = tay a b n (e_at i (S j)) u v) by (intros; unfold ey, e_at; destruct n as [|[|[|[|[|]]]]]; cbn [tay]; unfold tay4, tay3, tay2, tay1, tay0, tm; rewrite <- ?Nat.add_succ_comm; reflexivity).
    rewrite EX in K1. rewrite EY in K2. split; [exact K1|exact K2]. }
  assert (PP : partials (peval P) (T 1%nat 0%nat 4%nat) (T 0%nat 1%nat 4%nat)).
  { intros u v. destruct (PT 0%nat 0%nat 4%nat ltac:(lia) u v) as [K1 K2]. split; [apply (is_derive_ext (fun s => T 0%nat 0%nat 5%nat s v)); [intros; apply EP|exact K1]|apply (is_derive_ext (fun s => T 0%nat 0%nat 5%nat u s)); [intros; apply EP|exact K2]]. }
  rewrite <- F0. rewrite (jet_of _ _ _ _ _ _ _ (x, y) (Pd 0%nat 0%nat ltac:(lia)) (Pd 1%nat 0%nat ltac:(lia)) (Pd 0%nat 1%nat ltac:(lia))).
  rewrite (jet_of _ _ _ _ _ _ _ (x, y) PP (PT 1%nat 0%nat 3%nat ltac:(lia)) (PT 0%nat 1%nat 3%nat ltac:(lia))). cbn [fst snd jets_within].
  assert (Hk : 0 <= k) by (pose proof (Bd 5%nat 0%nat (a, b) eq_refl Da); pose proof (Rabs_pos (d 5%nat 0%nat (fst (a, b)) (snd (a, b)))); lra).
  set (dd := dist (a, b) (x, y)). assert (Hd : 0 <= dd) by apply dist_pos.
  assert (TD : taxi a b x y <= 10 / 7 * dd).
  { apply Rsqr_incr_0_var; [|lra]. unfold Rsqr. pose proof (taxi_dist x y) as K. fold dd in K. pose proof (Rmult_le_pos _ _ Hd Hd). lra. }
  assert (Q : forall n c, (10 / 7) ^ n <= c -> c <= 6 -> k * taxi a b x y ^ n <= 6 * k * dd ^ n).
  { intros n c C1 C2. replace (6 * k * dd ^ n) with (k * (6 * dd ^ n)) by ring. apply scale_le; [exact Hk|]. eapply Rle_trans; [apply pow_incr; split; [apply taxi_pos|exact TD]|]. rewrite Rpow_mult_distr. apply Rmult_le_compat_r; [apply pow_le, Hd|lra]. }
  assert (R5 : forall u, Rabs (d 0%nat 0%nat x y - u) <= k * taxi a b x y ^ 5 -> Rabs (d 0%nat 0%nat x y - u) <= 6 * k * dd ^ 5) by (intros u K; eapply Rle_trans; [exact K|]; apply (Q 5%nat 6); lra).
  assert (R4 : forall i j u, Rabs (d i j x y - u) <= k * taxi a b x y ^ 4 -> Rabs (d i j x y - u) <= 6 * k * dd ^ 4) by (intros i j u K; eapply Rle_trans; [exact K|]; apply (Q 4%nat 6); lra).
  assert (R3 : forall i j u, Rabs (d i j x y - u) <= k * taxi a b x y ^ 3 -> Rabs (d i j x y - u) <= 6 * k * dd ^ 3) by (intros i j u K; eapply Rle_trans; [exact K|]; apply (Q 3%nat 6); lra).
  split; [apply R5; rewrite <- EP; apply remainder; [lia|lia|exact Dy]|].
  split; [apply R4, remainder; [lia|lia|exact Dy]|]. split; [apply R4, remainder; [lia|lia|exact Dy]|].
  split; [apply R3, remainder; [lia|lia|exact Dy]|]. split; [apply R3, remainder; [lia|lia|exact Dy]|apply R3, remainder; [lia|lia|exact Dy]].
Qed.
End Remainder.
Lemma taylor w h k f d : five_derivatives (rectangle w h) k f d -> smooth_on (rectangle w h) (6 * k) f.
Proof.
  intros F [a b] Dx. destruct (tay_poly a b (e_at d a b 0 0)) as (P & DP & EP). exists P. split; [exact DP|]. apply (taylor_jets w h k f d F a b Dx P EP).
Qed.
