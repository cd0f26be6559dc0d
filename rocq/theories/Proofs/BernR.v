(** * The error of the Bell interpolation on a triangle of a mesh, for C110 *)
From Coq Require Import Reals Lra Lia List Psatz.
From Coquelicot Require Import Coquelicot.
From Verif.Model Require Import Py Num Tensors Domain Bell.
From Verif.Spec Require Import GridSpec BellSpec QuadSpec InterpSpec ConvSpec TaylorSpec.
From Verif.Proofs Require Import Lib BellP BellV BellDer BellQ BernP BernQ ConvP.
Local Open Scope R_scope.
Import ListNotations.

Definition minus_ (u v : list R) : list R := map (fun '(x, y) => -1 * x + y) (combine v u).
Lemma combine_app_ (a b a' b' : list R) : length a = length b -> combine a b ++ combine a' b' = combine (a ++ a') (b ++ b').
Proof. revert b. induction a as [|? a IHa]; intros [|? b] EL; try discriminate; [reflexivity|]. cbn. f_equal. apply IHa. cbn in EL. lia. Qed.
Lemma minus_app u v u' v' : length u = length v -> minus_ u v ++ minus_ u' v' = minus_ (u ++ u') (v ++ v').
Proof. intros E. unfold minus_. rewrite <- map_app, combine_app_ by (symmetry; exact E). reflexivity. Qed.
Lemma partials_plus f fx fy g gx gy : partials f fx fy -> partials g gx gy -> partials (fun x y => f x y - g x y) (fun x y => fx x y - gx x y) (fun x y => fy x y - gy x y).
Proof. intros F G x y. destruct (F x y) as [F1 F2], (G x y) as [G1 G2]. split; apply (is_derive_minus (K := R_AbsRing) (V := R_NormedModule)); assumption. Qed.
Section Lin.
Context (p q r : R * R) (H : cross p q r <> 0) (u v : list R) (E : length u = length v).
Lemma Bf_minus x y : Bf p q r (minus_ u v) x y = Bf p q r u x y - Bf p q r v x y.
Proof. unfold Bf, Fv, minus_. rewrite dot_lin by (symmetry; exact E). ring. Qed.
Lemma B1_minus x y : Bx p q r (minus_ u v) x y = Bx p q r u x y - Bx p q r v x y /\ By p q r (minus_ u v) x y = By p q r u x y - By p q r v x y.
Proof. revert x y. apply (derive_unique2 _ _ _ _ _ _ Bf_minus (partials_B p q r _ H)). apply partials_plus; apply partials_B, H. Qed.
Lemma B2_minus x y : Bxx p q r (minus_ u v) x y = Bxx p q r u x y - Bxx p q r v x y /\ Bxy p q r (minus_ u v) x y = Bxy p q r u x y - Bxy p q r v x y /\ Byy p q r (minus_ u v) x y = Byy p q r u x y - Byy p q r v x y.
Proof.
  destruct (derive_unique2 _ _ _ _ _ _ (fun a b => proj1 (B1_minus a b)) (partials_Bx p q r _ H) (partials_plus _ _ _ _ _ _ (partials_Bx p q r u H) (partials_Bx p q r v H)) x y) as [K1 K2].
  destruct (derive_unique2 _ _ _ _ _ _ (fun a b => proj2 (B1_minus a b)) (partials_By p q r _ H) (partials_plus _ _ _ _ _ _ (partials_By p q r u H) (partials_By p q r v H)) x y) as [_ K4]. auto.
Qed.
End Lin.

Lemma pow_le_pow a b n : 0 <= a <= b -> a ^ n <= b ^ n. Proof. intros H. apply pow_incr, H. Qed.
Lemma jets_small s k d Z C u v : 0 < s -> 0 <= k -> 1 <= Z -> Z ^ 5 <= C -> 0 <= d <= Z * s -> jets_within k d u v -> small s (k * (C * s ^ 5)) (minus_ u v).
Proof.
  intros Hs Hk HZ HC Hd J. destruct u as [|u1 [|u2 [|u3 [|u4 [|u5 [|u6 [|]]]]]]]; try contradiction. destruct v as [|v1 [|v2 [|v3 [|v4 [|v5 [|v6 [|]]]]]]]; try contradiction.
  cbn [jets_within] in J. unfold minus_. cbn [combine map small].
  assert (S5 : 0 < s ^ 5) by (apply pow_lt, Hs).
  assert (Z4 : Z ^ 4 <= Z ^ 5) by (apply Rle_pow; [exact HZ|lia]). assert (Z3 : Z ^ 3 <= Z ^ 5) by (apply Rle_pow; [exact HZ|lia]).
  assert (D5 : d ^ 5 <= C * s ^ 5). { eapply Rle_trans; [apply pow_le_pow, Hd|]. rewrite Rpow_mult_distr. apply Rmult_le_compat_r; lra. }
  assert (D4 : s * d ^ 4 <= C * s ^ 5). { eapply Rle_trans; [apply scale_le; [lra|apply pow_le_pow, Hd]|]. rewrite Rpow_mult_distr. replace (s * (Z ^ 4 * s ^ 4)) with (Z ^ 4 * s ^ 5) by ring. apply Rmult_le_compat_r; lra. }
  assert (D3 : s ^ 2 * d ^ 3 <= C * s ^ 5). { eapply Rle_trans; [apply scale_le; [apply pow_le; lra|apply pow_le_pow, Hd]|]. rewrite Rpow_mult_distr. replace (s ^ 2 * (Z ^ 3 * s ^ 3)) with (Z ^ 3 * s ^ 5) by ring. apply Rmult_le_compat_r; lra. }
  assert (S2 : 0 <= s ^ 2) by (apply pow_le; lra).
  assert (K5 : forall a b, Rabs (a - b) <= k * d ^ 5 -> Rabs (-1 * b + a) <= k * (C * s ^ 5)).
  { intros a b X. replace (-1 * b + a) with (a - b) by ring. eapply Rle_trans; [exact X|]. apply scale_le; assumption. }
  assert (K4 : forall a b, Rabs (a - b) <= k * d ^ 4 -> s * Rabs (-1 * b + a) <= k * (C * s ^ 5)).
  { intros a b X. replace (-1 * b + a) with (a - b) by ring. eapply Rle_trans; [apply scale_le; [lra|exact X]|]. replace (s * (k * d ^ 4)) with (k * (s * d ^ 4)) by ring. apply scale_le; assumption. }
  assert (K3 : forall a b, Rabs (a - b) <= k * d ^ 3 -> s ^ 2 * Rabs (-1 * b + a) <= k * (C * s ^ 5)).
  { intros a b X. replace (-1 * b + a) with (a - b) by ring. eapply Rle_trans; [apply scale_le; [exact S2|exact X]|]. replace (s ^ 2 * (k * d ^ 3)) with (k * (s ^ 2 * d ^ 3)) by ring. apply scale_le; assumption. }
  destruct J as (J1 & J2 & J3 & J4 & J5 & J6). auto 10.
Qed.
Lemma jets_zero k u v : jets_within k 0 u v -> u = v.
Proof.
  intros J. destruct u as [|u1 [|u2 [|u3 [|u4 [|u5 [|u6 [|]]]]]]]; try contradiction. destruct v as [|v1 [|v2 [|v3 [|v4 [|v5 [|v6 [|]]]]]]]; try contradiction.
  cbn [jets_within] in J. rewrite !pow_i, Rmult_0_r in J by lia.
  assert (Z : forall a b, Rabs (a - b) <= 0 -> a = b) by (intros a b X; pose proof (Rle_abs (a - b)); pose proof (Rle_abs (- (a - b))) as Y; rewrite Rabs_Ropp in Y; lra).
  destruct J as (J1 & J2 & J3 & J4 & J5 & J6). repeat (apply (f_equal2 (@cons R)); [apply Z; assumption|]). reflexivity.
Qed.
Lemma dist_self x : dist x x = 0.
Proof. unfold dist. rewrite !Rminus_diag_eq, !Rmult_0_l, Rplus_0_l by reflexivity. apply sqrt_0. Qed.

Section Error.
Context (s : R) (p q r x : R * R) (L : bary R) (f : R -> R -> R) (k Z C S : R) (D : R * R -> Prop).
Context (Hs : 0 < s) (Sh : shape s p q r) (B : bary_of p q r L x) (Hk : 0 <= k) (HZ : 1 <= Z) (HC : Z ^ 5 <= C) (HS : spread L <= S).
Context (Dp : D p) (Dq : D q) (Dr : D r) (Dx : D x) (Fp : dist x p <= Z * s) (Fq : dist x q <= Z * s) (Fr : dist x r <= Z * s) (Sm : smooth_on D k f).
Lemma bell_error : let ps := jet f p ++ jet f q ++ jet f r in let at_x (g : R -> R -> R) := g (fst x) (snd x) in
  Rabs (at_x (Bf p q r ps) - at_x f) <= 2 * C * S ^ 5 * k * s ^ 5 /\
  Rabs (at_x (Bx p q r ps) - at_x (d_x f)) <= 20 * C * S ^ 4 * k * s ^ 4 /\ Rabs (at_x (By p q r ps) - at_x (d_y f)) <= 20 * C * S ^ 4 * k * s ^ 4 /\
  Rabs (at_x (Bxx p q r ps) - at_x (d_x (d_x f))) <= 160 * C * S ^ 3 * k * s ^ 3 /\ Rabs (at_x (Bxy p q r ps) - at_x (d_y (d_x f))) <= 160 * C * S ^ 3 * k * s ^ 3 /\
  Rabs (at_x (Byy p q r ps) - at_x (d_y (d_y f))) <= 160 * C * S ^ 3 * k * s ^ 3.
Proof.
  cbv zeta. destruct (Sm x Dx) as (P & Dg & J). pose proof (J x Dx) as Jx. rewrite dist_self in Jx. apply jets_zero in Jx. unfold jet in Jx. cbv zeta in Jx. injection Jx as -> -> -> -> -> ->.
  assert (Hc : cross p q r <> 0) by (destruct (shape_oriented _ _ _ _ Hs Sh) as (z & Az & Hz & O); rewrite (oriented_cross _ _ _ _ O); nra).
  rewrite <- (quartic_Bf p q r P Hc Dg). destruct (quartic_first p q r P Hc Dg (fst x) (snd x)) as [<- <-]. destruct (quartic_second p q r P Hc Dg (fst x) (snd x)) as (<- & <- & <-).
  set (u := jet f p ++ jet f q ++ jet f r). set (v := jet (peval P) p ++ jet (peval P) q ++ jet (peval P) r).
  assert (E : length u = length v) by reflexivity.
  rewrite <- (Bf_minus p q r u v E). destruct (B1_minus p q r Hc u v E (fst x) (snd x)) as [<- <-]. destruct (B2_minus p q r Hc u v E (fst x) (snd x)) as (<- & <- & <-).
  unfold u, v. rewrite <- !minus_app by reflexivity.
  pose proof (jets_small s k _ Z C _ _ Hs Hk HZ HC (conj (dist_pos x p) Fp) (J p Dp)) as M1. pose proof (jets_small s k _ Z C _ _ Hs Hk HZ HC (conj (dist_pos x q) Fq) (J q Dq)) as M2. pose proof (jets_small s k _ Z C _ _ Hs Hk HZ HC (conj (dist_pos x r) Fr) (J r Dr)) as M3.
  assert (SP : 0 <= spread L) by (unfold spread; pose proof (Rabs_pos (l1 L)); pose proof (Rabs_pos (l2 L)); pose proof (Rabs_pos (l3 L)); lra).
  assert (C0 : 0 <= C) by (pose proof (pow_R1_Rle Z 5 HZ); lra).
  set (U := k * (C * s ^ 5)) in *. assert (HU : 0 <= U) by (unfold U; apply Rmult_le_pos; [exact Hk|]; apply Rmult_le_pos; [exact C0|apply pow_le; lra]).
  destruct (bell_bounds s p q r _ _ _ U L x Hs Sh M1 M2 M3 B) as (B1 & B2 & B3 & B4 & B5 & B6).
  assert (Q : forall a b c n m, 0 <= c -> (n + m = 5)%nat -> s ^ m * a <= c * U * spread L ^ n -> b = c * C * S ^ n * k * s ^ n -> a <= b).
  { intros a b c n m Hc0 En Ha ->. apply Rmult_le_reg_l with (s ^ m); [apply pow_lt, Hs|]. eapply Rle_trans; [exact Ha|]. 
    replace (s ^ m * (c * C * S ^ n * k * s ^ n)) with (c * U * S ^ n) by (unfold U; replace 5%nat with (n + m)%nat by exact En; rewrite pow_add; ring).
    apply scale_le; [apply Rmult_le_pos; assumption|]. apply pow_incr. lra. }
  split; [apply (Q _ _ 2 5%nat 0%nat); [lra|lia|rewrite pow_O, Rmult_1_l; exact B1|ring]|].
  rewrite <- (pow_1 s) in B2 at 1. rewrite <- (pow_1 s) in B3 at 1.
  split; [apply (Q _ _ 20 4%nat 1%nat); [lra|lia|exact B2|ring]|]. split; [apply (Q _ _ 20 4%nat 1%nat); [lra|lia|exact B3|ring]|].
  split; [apply (Q _ _ 160 3%nat 2%nat); [lra|lia|exact B4|ring]|]. split; [apply (Q _ _ 160 3%nat 2%nat); [lra|lia|exact B5|ring]|apply (Q _ _ 160 3%nat 2%nat); [lra|lia|exact B6|ring]].
Qed.
End Error.
