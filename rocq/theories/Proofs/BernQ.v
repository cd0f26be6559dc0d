(** * Bounds for the Bell element on the triangles of a mesh, for C110 *)
From Coq Require Import Reals Lra Lia List Psatz.
From Coquelicot Require Import Coquelicot.
From Verif.Model Require Import Py Num Tensors Domain Bell.
From Verif.Spec Require Import GridSpec BellSpec InterpSpec.
From Verif.Proofs Require Import Lib BellP BellV BellDer BellQ BernP ConvP.
Local Open Scope R_scope.
Import ListNotations.

(** Both shapes are the same up to the sign of [s]. *)
Definition oriented (s : R) (p q r : R * R) : Prop := q = (fst p + s, snd p) /\ r = (fst p + s, snd p + s).
Lemma shape_oriented s p q r : 0 < s -> shape s p q r -> exists z, Rabs z = s /\ z <> 0 /\ oriented z p q r.
Proof.
  intros Hs S. destruct S; unfold oriented; cbn [fst snd].
  - exists s. split; [apply Rabs_right; lra|]. split; [lra|]. auto.
  - exists (- s). split; [rewrite Rabs_Ropp; apply Rabs_right; lra|]. split; [lra|]. split; f_equal; ring.
Qed.
Lemma oriented_cross s p q r : oriented s p q r -> cross p q r = s * s.
Proof. intros [-> ->]. unfold cross. cbn [fst snd]. ring. Qed.
Lemma oriented_bary s p q r x : s <> 0 -> oriented s p q r ->
  bary_of p q r (1 - (fst x - fst p) / s, (fst x - fst p) / s - (snd x - snd p) / s, (snd x - snd p) / s) x.
Proof. intros H [-> ->]. unfold bary_of, l1, l2, l3. cbn [fst snd]. repeat split; field; exact H. Qed.

Section Scaled.
Context (A B s : R) (Hs : s <> 0).
Definition lX (x : R) := (x - A) / s.
Definition lY (y : R) := (y - B) / s.
Definition at5 c x y := bern5 c (1 - lX x) (lX x - lY y) (lY y).
Definition at4 c x y := bern4 c (1 - lX x) (lX x - lY y) (lY y).
Definition at3 c x y := bern3 c (1 - lX x) (lX x - lY y) (lY y).
Lemma der_lX x : is_derive lX x (/ s).
Proof. unfold lX. auto_derive; [exact I|]. reals. field. exact Hs. Qed.
Lemma der_lY y : is_derive lY y (/ s).
Proof. unfold lY. auto_derive; [exact I|]. reals. field. exact Hs. Qed.
Lemma chain_ (f g : R -> R) x f' g' : is_derive f (g x) f' -> is_derive g x g' -> is_derive (fun t => f (g t)) x (g' * f').
Proof. intros F G. exact (is_derive_comp f g x f' g' F G). Qed.
Lemma at5_partials c : partials (at5 c) (fun x y => / s * at4 (dx 5 c) x y) (fun x y => / s * at4 (dy 5 c) x y).
Proof.
  intros x y. split.
  - exact (chain_ (fun X => bern5 c (1 - X) (X - lY y) (lY y)) lX x _ _ (bern5_dx c (lX x) (lY y)) (der_lX x)).
  - exact (chain_ (fun Y => bern5 c (1 - lX x) (lX x - Y) Y) lY y _ _ (bern5_dy c (lX x) (lY y)) (der_lY y)).
Qed.
Lemma at4_partials c : partials (fun x y => / s * at4 c x y) (fun x y => / s * (/ s * at3 (dx 4 c) x y)) (fun x y => / s * (/ s * at3 (dy 4 c) x y)).
Proof.
  intros x y. split; apply is_derive_scal.
  - exact (chain_ (fun X => bern4 c (1 - X) (X - lY y) (lY y)) lX x _ _ (bern4_dx c (lX x) (lY y)) (der_lX x)).
  - exact (chain_ (fun Y => bern4 c (1 - lX x) (lX x - Y) Y) lY y _ _ (bern4_dy c (lX x) (lY y)) (der_lY y)).
Qed.
End Scaled.

Lemma dx_bound n c C : 0 <= n -> (forall j k, Rabs (c j k) <= C) -> forall j k, Rabs (dx n c j k) <= n * (2 * C).
Proof.
  intros Hn H j k. unfold dx. rewrite Rabs_mult, (Rabs_right n) by lra. apply Rmult_le_compat_l; [exact Hn|]. eapply Rle_trans; [apply Rabs_triang|]. rewrite Rabs_Ropp. pose proof (H (S j) k). pose proof (H j k). lra.
Qed.
Lemma dy_bound n c C : 0 <= n -> (forall j k, Rabs (c j k) <= C) -> forall j k, Rabs (dy n c j k) <= n * (2 * C).
Proof.
  intros Hn H j k. unfold dy. rewrite Rabs_mult, (Rabs_right n) by lra. apply Rmult_le_compat_l; [exact Hn|]. eapply Rle_trans; [apply Rabs_triang|]. rewrite Rabs_Ropp. pose proof (H (S j) k). pose proof (H j (S k)). lra.
Qed.

(** Parameters at one corner, scaled, are at most [U]. *)
Definition small (s U : R) (u : list R) : Prop :=
  match u with
  | [a; b; c; d; e; f] => Rabs a <= U /\ s * Rabs b <= U /\ s * Rabs c <= U /\ s ^ 2 * Rabs d <= U /\ s ^ 2 * Rabs e <= U /\ s ^ 2 * Rabs f <= U
  | _ => False
  end.
Definition spread (L : bary R) : R := Rabs (l1 L) + Rabs (l2 L) + Rabs (l3 L).

Lemma bell_bounds s p q r u v w U L x : 0 < s -> shape s p q r -> small s U u -> small s U v -> small s U w -> bary_of p q r L x ->
  let ps := u ++ v ++ w in let S := spread L in
  Rabs (Bf p q r ps (fst x) (snd x)) <= 2 * U * S ^ 5 /\
  s * Rabs (Bx p q r ps (fst x) (snd x)) <= 20 * U * S ^ 4 /\ s * Rabs (By p q r ps (fst x) (snd x)) <= 20 * U * S ^ 4 /\
  s ^ 2 * Rabs (Bxx p q r ps (fst x) (snd x)) <= 160 * U * S ^ 3 /\ s ^ 2 * Rabs (Bxy p q r ps (fst x) (snd x)) <= 160 * U * S ^ 3 /\ s ^ 2 * Rabs (Byy p q r ps (fst x) (snd x)) <= 160 * U * S ^ 3.
Proof.
  intros Hs Sh Mu Mv Mw B. cbv zeta. destruct (shape_oriented _ _ _ _ Hs Sh) as (z & Az & Hz & O). pose proof (oriented_cross _ _ _ _ O) as HC. assert (Hc : cross p q r <> 0) by (rewrite HC; nra).
  destruct u as [|u1 [|u2 [|u3 [|u4 [|u5 [|u6 [|]]]]]]]; try contradiction. destruct v as [|v1 [|v2 [|v3 [|v4 [|v5 [|v6 [|]]]]]]]; try contradiction. destruct w as [|w1 [|w2 [|w3 [|w4 [|w5 [|w6 [|]]]]]]]; try contradiction.
  set (ps := [u1; u2; u3; u4; u5; u6] ++ [v1; v2; v3; v4; v5; v6] ++ [w1; w2; w3; w4; w5; w6]).
  set (c := bcoef u1 (z * u2) (z * u3) (z ^ 2 * u4) (z ^ 2 * u5) (z ^ 2 * u6) v1 (z * v2) (z * v3) (z ^ 2 * v4) (z ^ 2 * v5) (z ^ 2 * v6) w1 (z * w2) (z * w3) (z ^ 2 * w4) (z ^ 2 * w5) (z ^ 2 * w6)).
  assert (Cb : forall j k, Rabs (c j k) <= 2 * U).
  { apply bcoef_bound. cbn [small] in Mu, Mv, Mw. rewrite !Forall_cons_iff. rewrite !Rabs_mult, <- !RPow_abs, !Az. intuition. }
  assert (VB : forall a b, Bf p q r ps a b = at5 (fst p) (snd p) z c a b).
  { intros a b. unfold Bf, Fv, rhoxy, rho3. rewrite N_all_value. pose proof (bcoords_of p q r Hc _ _ (oriented_bary z p q r (a, b) Hz O)) as EB. cbn [fst snd] in EB. rewrite <- EB. clear EB.
    destruct p as [p1 p2]. destruct O as [-> ->]. cbn [fst snd]. exact (bell_bern p1 p2 z u1 u2 u3 u4 u5 u6 v1 v2 v3 v4 v5 v6 w1 w2 w3 w4 w5 w6 _ _ _ Hz). }
  pose proof (derive_unique2 _ _ _ _ _ _ VB (partials_B p q r ps Hc) (at5_partials (fst p) (snd p) z Hz c)) as D1.
  pose proof (derive_unique2 _ _ _ _ _ _ (fun a b => proj1 (D1 a b)) (partials_Bx p q r ps Hc) (at4_partials (fst p) (snd p) z Hz _)) as D2.
  pose proof (derive_unique2 _ _ _ _ _ _ (fun a b => proj2 (D1 a b)) (partials_By p q r ps Hc) (at4_partials (fst p) (snd p) z Hz _)) as D3.
  assert (LE : L = (1 - lX (fst p) z (fst x), lX (fst p) z (fst x) - lY (snd p) z (snd x), lY (snd p) z (snd x))).
  { rewrite (bcoords_of p q r Hc L x B). symmetry. exact (bcoords_of p q r Hc _ x (oriented_bary z p q r x Hz O)). }
  rewrite (proj1 (D2 _ _)), (proj2 (D2 _ _)), (proj2 (D3 _ _)), (proj1 (D1 _ _)), (proj2 (D1 _ _)), VB. unfold at5, at4, at3.
  rewrite !Rabs_mult, Rabs_inv, Az.
  assert (S1 : forall a, s * (/ s * a) = a) by (intros; field; lra). assert (S2 : forall a, s ^ 2 * (/ s * (/ s * a)) = a) by (intros; field; lra). rewrite !S1, !S2.
  assert (P5 : forall c' C, (forall j k, Rabs (c' j k) <= C) -> Rabs (bern5 c' (1 - lX (fst p) z (fst x)) (lX (fst p) z (fst x) - lY (snd p) z (snd x)) (lY (snd p) z (snd x))) <= C * spread L ^ 5).
  { intros c' C K. rewrite LE. unfold spread, l1, l2, l3. cbn [fst snd]. apply bern5_bound, K. }
  assert (P4 : forall c' C, (forall j k, Rabs (c' j k) <= C) -> Rabs (bern4 c' (1 - lX (fst p) z (fst x)) (lX (fst p) z (fst x) - lY (snd p) z (snd x)) (lY (snd p) z (snd x))) <= C * spread L ^ 4).
  { intros c' C K. rewrite LE. unfold spread, l1, l2, l3. cbn [fst snd]. apply bern4_bound, K. }
  assert (P3 : forall c' C, (forall j k, Rabs (c' j k) <= C) -> Rabs (bern3 c' (1 - lX (fst p) z (fst x)) (lX (fst p) z (fst x) - lY (snd p) z (snd x)) (lY (snd p) z (snd x))) <= C * spread L ^ 3).
  { intros c' C K. rewrite LE. unfold spread, l1, l2, l3. cbn [fst snd]. apply bern3_bound, K. }
  assert (E1 : 20 * U = 5 * (2 * (2 * U))) by ring. assert (E2 : 160 * U = 4 * (2 * (5 * (2 * (2 * U))))) by ring. rewrite E1, E2.
  assert (X1 := dx_bound 5 c _ ltac:(lra) Cb). assert (X2 := dy_bound 5 c _ ltac:(lra) Cb).
  split; [apply P5, Cb|]. split; [apply P4, X1|]. split; [apply P4, X2|].
  split; [apply P3, dx_bound, X1; lra|]. split; [apply P3, dy_bound, X1; lra|apply P3, dy_bound, X2; lra].
Qed.
