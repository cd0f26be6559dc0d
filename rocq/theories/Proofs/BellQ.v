(** The Bell element reproduces polynomials of degree four. *)
From Coq Require Import Reals QArith Qreals Lra Lia List.
From Coquelicot Require Import Coquelicot.
From Verif.Model Require Import Py Num Tensors Domain Expr Bell.
From Verif.Spec Require Import GridSpec QuadSpec BellSpec.
From Verif.Proofs Require Import Lib TensorsP ExprP BellP BellD BellV BellDer.
Local Open Scope R_scope.
Import ListNotations.

(** Value and derivatives of a monomial. *)
Definition jm (i j : nat) (x y : R) : list R := [x ^ i * y ^ j; INR i * x ^ (pred i) * y ^ j; INR j * x ^ i * y ^ (pred j);
  INR i * INR (pred i) * x ^ (pred (pred i)) * y ^ j; INR i * INR j * x ^ (pred i) * y ^ (pred j); INR j * INR (pred j) * x ^ i * y ^ (pred (pred j))].
Definition core (i j : nat) : Prop := forall x1 y1 b2 b3 c2 c3 L2 L3 r21 r31 r12,
  let b1 := - b2 - b3 in let c1 := - c2 - c3 in let L1 := 1 - L2 - L3 in
  Vector_dot (Nf L1 L2 L3 b1 b2 b3 c1 c2 c3 r21 r31 ++ Nf L2 L3 L1 b2 b3 b1 c2 c3 c1 (1 - r31) r12 ++ Nf L3 L1 L2 b3 b1 b2 c3 c1 c2 (1 - r12) (1 - r21))
    (jm i j x1 y1 ++ jm i j (x1 + c3) (y1 - b3) ++ jm i j (x1 - c2) (y1 + b2)) =
  (L1 * x1 + L2 * (x1 + c3) + L3 * (x1 - c2)) ^ i * (L1 * y1 + L2 * (y1 - b3) + L3 * (y1 + b2)) ^ j.
Ltac core_tac := unfold core, jm, Nf; intros; cbv zeta; cbn [app INR pred]; rewrite !dot_cons, dot_nil; field.
Lemma core00 : core 0 0. Proof. core_tac. Qed.
Lemma core10 : core 1 0. Proof. core_tac. Qed.
Lemma core01 : core 0 1. Proof. core_tac. Qed.
Lemma core20 : core 2 0. Proof. core_tac. Qed.
Lemma core11 : core 1 1. Proof. core_tac. Qed.
Lemma core02 : core 0 2. Proof. core_tac. Qed.
Lemma core30 : core 3 0. Proof. core_tac. Qed.
Lemma core21 : core 2 1. Proof. core_tac. Qed.
Lemma core12 : core 1 2. Proof. core_tac. Qed.
Lemma core03 : core 0 3. Proof. core_tac. Qed.
Lemma core40 : core 4 0. Proof. core_tac. Qed.
Lemma core31 : core 3 1. Proof. core_tac. Qed.
Lemma core22 : core 2 2. Proof. core_tac. Qed.
Lemma core13 : core 1 3. Proof. core_tac. Qed.
Lemma core04 : core 0 4. Proof. core_tac. Qed.
Lemma core_all i j : (i + j <= 4)%nat -> core i j.
Proof.
  intros H. do 5 (destruct i as [|i]; [do 5 (destruct j as [|j]; [first [exact core00|exact core01|exact core02|exact core03|exact core04|exact core10|exact core11|exact core12|exact core13|exact core20|exact core21|exact core22|exact core30|exact core31|exact core40|lia]|]); lia|]). lia.
Qed.
Lemma rr_sum b1 b2 b3 c1 c2 c3 : b1 + b2 + b3 = 0 -> c1 + c2 + c3 = 0 -> b2 ^ 2 + c2 ^ 2 <> 0 -> rr b2 b3 c2 c3 = 1 - rr b2 b1 c2 c1.
Proof. intros B C N. unfold rr. replace b3 with (- b1 - b2) by lra. replace c3 with (- c1 - c2) by lra. field. exact N. Qed.
Lemma mono_value p q r L i j : cross p q r <> 0 -> (i + j <= 4)%nat -> l1 L + l2 L + l3 L = 1 ->
  Vector_dot (Nf_all L (bb p q r) (cc p q r)) (jm i j (fst p) (snd p) ++ jm i j (fst q) (snd q) ++ jm i j (fst r) (snd r)) =
  (l1 L * fst p + l2 L * fst q + l3 L * fst r) ^ i * (l1 L * snd p + l2 L * snd q + l3 L * snd r) ^ j.
Proof.
  intros H D E. destruct (cross_regular p q r H) as [R1 [R2 R3]]. destruct p as [x1 y1], q as [x2 y2], r as [x3 y3], L as [[L1 L2] L3]. unfold bb, cc, Nf_all, l1, l2, l3 in *. cbn [fst snd] in *.
  set (b1 := y2 - y3) in *. set (b2 := y3 - y1) in *. set (b3 := y1 - y2) in *. set (c1 := x3 - x2) in *. set (c2 := x1 - x3) in *. set (c3 := x2 - x1) in *.
  assert (B : b1 + b2 + b3 = 0) by (unfold b1, b2, b3; ring). assert (C : c1 + c2 + c3 = 0) by (unfold c1, c2, c3; ring).
  rewrite (rr_sum b1 b2 b3 c1 c2 c3 B C R2). rewrite (rr_sum b1 b3 b2 c1 c3 c2) by (assumption || lra). rewrite (rr_sum b2 b1 b3 c2 c1 c3) by (assumption || lra).
  pose proof (core_all i j D x1 y1 b2 b3 c2 c3 L2 L3 (rr b2 b1 c2 c1) (rr b3 b1 c3 c1) (rr b1 b2 c1 c2)) as K. cbv zeta in K.
  replace (- b2 - b3) with b1 in K by lra. replace (- c2 - c3) with c1 in K by lra. replace (1 - L2 - L3) with L1 in K by lra.
  replace (x1 + c3) with x2 in K by (unfold c3; ring). replace (x1 - c2) with x3 in K by (unfold c2; ring). replace (y1 - b3) with y2 in K by (unfold b3; ring). replace (y1 + b2) with y3 in K by (unfold b2; ring).
  exact K.
Qed.
(** Linearity of the value in the parameters. *)
Lemma dot_lin (N u v : vector R) c : length u = length v -> Vector_dot N (map (fun '(x, y) => c * x + y) (combine u v)) = c * Vector_dot N u + Vector_dot N v.
Proof.
  revert u v. induction N as [|n N IH]; intros u v E; [cbn [combine]; rewrite !dot_nil; ring|]. destruct u as [|x u], v as [|y v]; try discriminate; cbn [combine map]; [rewrite !dot_nil_r; ring|].
  rewrite !dot_cons, IH by (cbn in E; lia). ring.
Qed.
(** Derivatives of polynomials. *)
Definition pdx (P : poly2) : poly2 := map (fun '(c, (i, j)) => (c * INR i, (pred i, j))) P.
Definition pdy (P : poly2) : poly2 := map (fun '(c, (i, j)) => (c * INR j, (i, pred j))) P.
Lemma peval_partials P : partials (peval P) (peval (pdx P)) (peval (pdy P)).
Proof.
  intros x y. induction P as [|[c [i j]] P [IH1 IH2]]; cbn [pdx pdy map peval fold_right].
  - split; exact (is_derive_const (K := R_AbsRing) (V := R_NormedModule) 0 _).
  - split; (evar_last; [apply (is_derive_plus (K := R_AbsRing) (V := R_NormedModule)); [|eassumption]|]).
    + apply (is_derive_ext (fun s => (c * y ^ j) * s ^ i)); [intros; toR0; ring|]. apply is_derive_scal, (is_derive_pow (fun s => s) i). apply (is_derive_id (K := R_AbsRing)).
    + toR0. unfold one, peval, pdx, pdy. cbn. ring.
    + apply is_derive_scal, (is_derive_pow (fun s => s) j). apply (is_derive_id (K := R_AbsRing)).
    + toR0. unfold one, peval, pdx, pdy. cbn. ring.
Qed.
Lemma d_x_of f fx fy : partials f fx fy -> forall x y, d_x f x y = fx x y.
Proof. intros K x y. apply is_derive_unique, K. Qed.
Lemma d_y_of f fx fy : partials f fx fy -> forall x y, d_y f x y = fy x y.
Proof. intros K x y. apply is_derive_unique, K. Qed.
Lemma d_x_ext f g x y : (forall s, f s y = g s y) -> d_x f x y = d_x g x y.
Proof. intros K. apply Derive_ext, K. Qed.
Lemma d_y_ext f g x y : (forall s, f x s = g x s) -> d_y f x y = d_y g x y.
Proof. intros K. apply Derive_ext, K. Qed.
Lemma partials_ext f g fx fy : (forall x y, f x y = g x y) -> partials f fx fy -> partials g fx fy.
Proof. intros E K x y. destruct (K x y) as [K1 K2]. split; [apply (is_derive_ext (fun s => f s y))|apply (is_derive_ext (fun s => f x s))]; auto. Qed.
(** All the derivatives that appear in a jet, from functions that are the derivatives everywhere. *)
Lemma jet_of f fx fy fxx fxy fyx fyy p : partials f fx fy -> partials fx fxx fxy -> partials fy fyx fyy ->
  jet f p = [f (fst p) (snd p); fx (fst p) (snd p); fy (fst p) (snd p); fxx (fst p) (snd p); fxy (fst p) (snd p); fyy (fst p) (snd p)].
Proof.
  intros K Kx Ky. unfold jet. cbv zeta. rewrite (d_x_of _ _ _ K), (d_y_of _ _ _ K).
  rewrite (d_x_ext _ fx) by (intros; apply (d_x_of _ _ _ K)). rewrite (d_y_ext (d_x f) fx) by (intros; apply (d_x_of _ _ _ K)). rewrite (d_y_ext (d_y f) fy) by (intros; apply (d_y_of _ _ _ K)).
  rewrite (d_x_of _ _ _ Kx), (d_y_of _ _ _ Kx), (d_y_of _ _ _ Ky). reflexivity.
Qed.
Lemma jet_peval P p : jet (peval P) p = fold_right (fun '(c, (i, j)) acc => map (fun '(x, y) => c * x + y) (combine (jm i j (fst p) (snd p)) acc)) (repeat 0 6) P.
Proof.
  rewrite (jet_of _ _ _ _ _ _ _ p (peval_partials P) (peval_partials (pdx P)) (peval_partials (pdy P))).
  induction P as [|[c [i j]] P IH]; [reflexivity|]. cbn [fold_right]. rewrite <- IH. unfold jm. cbn [combine map].
  repeat (apply (f_equal2 (@cons R)); [unfold peval, pdx, pdy; cbn [map fold_right]; ring|]). reflexivity.
Qed.
Lemma jet_length f p : length (jet f p) = 6%nat. Proof. reflexivity. Qed.
Lemma fold_lin_length (l : poly2) (h : nat -> nat -> list R) : (forall i j, length (h i j) = 6%nat) ->
  length (fold_right (fun '(c, (i, j)) acc => map (fun '(x, y) => c * x + y) (combine (h i j) acc)) (repeat 0 6) l) = 6%nat.
Proof. intros K. induction l as [|[c [i j]] l IH]; [reflexivity|]. cbn [fold_right]. rewrite map_length, combine_length, K, IH. reflexivity. Qed.
Lemma poly_value p q r L P : cross p q r <> 0 -> degree_le 4 P -> l1 L + l2 L + l3 L = 1 ->
  Vector_dot (Nf_all L (bb p q r) (cc p q r)) (jet (peval P) p ++ jet (peval P) q ++ jet (peval P) r) =
  peval P (l1 L * fst p + l2 L * fst q + l3 L * fst r) (l1 L * snd p + l2 L * snd q + l3 L * snd r).
Proof.
  intros H D E. rewrite !jet_peval. set (N := Nf_all L (bb p q r) (cc p q r)). set (X := l1 L * fst p + l2 L * fst q + l3 L * fst r). set (Y := l1 L * snd p + l2 L * snd q + l3 L * snd r).
  induction P as [|[c [i j]] P IH].
  - cbn [fold_right peval repeat app]. unfold N, Nf_all. destruct L as [[L1 L2] L3]. destruct (bb p q r) as [[? ?] ?]. destruct (cc p q r) as [[? ?] ?]. unfold Nf. cbn [app]. rewrite !dot_cons, dot_nil. ring.
  - cbn [fold_right]. rewrite <- !map_app.
    set (F := fun pt : R * R => fold_right (fun '(c, (i, j)) acc => map (fun '(x, y) => c * x + y) (combine (jm i j (fst pt) (snd pt)) acc)) (repeat 0 6) P) in *.
    assert (LF : forall pt, length (F pt) = 6%nat) by (intros pt; apply (fold_lin_length P (fun i j => jm i j (fst pt) (snd pt))); reflexivity).
    change (Vector_dot N (map (fun '(x, y) => c * x + y) (combine (jm i j (fst p) (snd p)) (F p) ++ combine (jm i j (fst q) (snd q)) (F q) ++ combine (jm i j (fst r) (snd r)) (F r))) = c * X ^ i * Y ^ j + peval P X Y).
    change (degree_le 4 P -> Vector_dot N (F p ++ F q ++ F r) = peval P X Y) in IH.
    assert (CA : forall (a b a' b' : list R), length a = length b -> combine a b ++ combine a' b' = combine (a ++ a') (b ++ b')).
    { intros a. induction a as [|? a IHa]; intros [|? b] a' b' EL; try discriminate; [reflexivity|]. cbn. f_equal. apply IHa. cbn in EL. lia. }
    rewrite !CA by (rewrite LF; reflexivity). rewrite dot_lin by (rewrite !app_length, !LF; reflexivity).
    rewrite IH by (intros c' i' j' I; apply (D c' i' j'); right; exact I). unfold N. rewrite mono_value by (assumption || (apply (D c i j); left; reflexivity)). fold X Y. ring.
Qed.
Section Quartic.
Context (p q r : R * R) (P : poly2).
Hypothesis H : cross p q r <> 0.
Hypothesis D : degree_le 4 P.
Let ps := jet (peval P) p ++ jet (peval P) q ++ jet (peval P) r.
Lemma quartic_Bf x y : Bf p q r ps x y = peval P x y.
Proof.
  unfold Bf, Fv, rhoxy, rho3. rewrite N_all_value. pose proof (bary_bcoords p q r H x y) as [E1 [E2 E3]]. cbn [fst snd] in E2, E3. 
  pose proof (poly_value p q r (bcoords p q r x y) P H D E1) as K. rewrite <- E2, <- E3 in K. exact K.
Qed.
Lemma derive_unique2 f g fx fy gx gy : (forall x y, f x y = g x y) -> partials f fx fy -> partials g gx gy -> forall x y, fx x y = gx x y /\ fy x y = gy x y.
Proof.
  intros E F G x y. destruct (partials_ext _ _ _ _ E F x y) as [F1 F2]. destruct (G x y) as [G1 G2].
  split; [rewrite <- (is_derive_unique _ _ _ F1); apply is_derive_unique, G1|rewrite <- (is_derive_unique _ _ _ F2); apply is_derive_unique, G2].
Qed.
Lemma quartic_first x y : Bx p q r ps x y = d_x (peval P) x y /\ By p q r ps x y = d_y (peval P) x y.
Proof.
  rewrite (d_x_of _ _ _ (peval_partials P)), (d_y_of _ _ _ (peval_partials P)).
  apply (derive_unique2 (Bf p q r ps) (peval P)); [apply quartic_Bf|apply partials_B, H|apply peval_partials].
Qed.
Lemma quartic_second x y : Bxx p q r ps x y = d_x (d_x (peval P)) x y /\ Bxy p q r ps x y = d_y (d_x (peval P)) x y /\ Byy p q r ps x y = d_y (d_y (peval P)) x y.
Proof.
  assert (E1 : forall u v, d_x (peval P) u v = peval (pdx P) u v) by apply (d_x_of _ _ _ (peval_partials P)).
  assert (E2 : forall u v, d_y (peval P) u v = peval (pdy P) u v) by apply (d_y_of _ _ _ (peval_partials P)).
  rewrite (d_x_ext (d_x (peval P)) (peval (pdx P))), (d_y_ext (d_x (peval P)) (peval (pdx P))), (d_y_ext (d_y (peval P)) (peval (pdy P))) by auto.
  rewrite (d_x_of _ _ _ (peval_partials (pdx P))), (d_y_of _ _ _ (peval_partials (pdx P))), (d_y_of _ _ _ (peval_partials (pdy P))).
  assert (Q1 : forall u v, Bx p q r ps u v = peval (pdx P) u v) by (intros u v; rewrite <- E1; apply quartic_first).
  assert (Q2 : forall u v, By p q r ps u v = peval (pdy P) u v) by (intros u v; rewrite <- E2; apply quartic_first).
  destruct (derive_unique2 _ _ _ _ _ _ Q1 (partials_Bx p q r ps H) (peval_partials (pdx P)) x y) as [A1 A2].
  destruct (derive_unique2 _ _ _ _ _ _ Q2 (partials_By p q r ps H) (peval_partials (pdy P)) x y) as [A3 A4].
  auto.
Qed.
End Quartic.
