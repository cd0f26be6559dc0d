(** * Bell elements that are flat at the points of the degree 5 rule of one small triangle, for C123. *)
From Coq Require Import Reals Lra Lia List Psatz.
From Coquelicot Require Import Coquelicot.
From Verif.Model Require Import Py Num Tensors Domain Quadrature Bell.
From Verif.Spec Require Import GridSpec BellSpec InterpSpec.
From Verif.Proofs Require Import Lib BellP BellV BellDer BellQ BernP ConvP BernQ StepE FlatQ FlatV.
From Verif.Props Require Import QuadProps.
Local Open Scope R_scope.
Import ListNotations.

Definition affine_jet_at (al be ga : R) (p : R * R) : list R := [al * fst p + be * snd p + ga; al; be; 0; 0; 0].
(** The points of the rule are the seven points of the algebraic lemma. *)
Lemma seven_points q : DUNAVANT5 = Ok q -> forall u v, In (u, v) seven -> In (1 - u, u - v, v) (q_points q).
Proof.
  unfold DUNAVANT5. third. intros E. rewrite (rule_inv _ _ _ E). cbn [q_points]. clear E q. intros u v I. unfold seven in I. cbn [map fst snd]. unfold Bary. cbn -[IZR In pow].
  assert (D : 10 ^ 15 = 1000000000000000) by ring.
  assert (EQ : forall (a b c a' b' c' : R), a = a' -> b = b' -> c = c' -> (a, b, c) = (a', b', c')) by (intros; subst; reflexivity).
  cbn [In] in I |- *. rewrite D. repeat (destruct I as [I|I]; [injection I as <- <-|]); try destruct I.
  - left. apply EQ; field.
  - do 1 right. left. apply EQ; field.
  - do 2 right. left. apply EQ; field.
  - do 3 right. left. apply EQ; field.
  - do 4 right. left. apply EQ; field.
  - do 5 right. left. apply EQ; field.
  - do 6 right. left. apply EQ; field.
Qed.
Lemma affine_partials A B C : partials (fun X Y => A + B * X + C * Y) (fun _ _ => B) (fun _ _ => C) /\ partials (fun _ _ => B) (fun _ _ => 0) (fun _ _ => 0).
Proof. split; intros X Y; split; auto_derive; try exact I; reals; ring. Qed.
Lemma bern_affine c A B C : (forall X Y, bern5 c (1 - X) (X - Y) Y = A + B * X + C * Y) ->
  forall X Y, bern4 (dx 5 c) (1 - X) (X - Y) Y = B /\ bern4 (dy 5 c) (1 - X) (X - Y) Y = C /\ bern3 (dx 4 (dx 5 c)) (1 - X) (X - Y) Y = 0 /\ bern3 (dy 4 (dx 5 c)) (1 - X) (X - Y) Y = 0 /\ bern3 (dy 4 (dy 5 c)) (1 - X) (X - Y) Y = 0.
Proof.
  intros E X Y. destruct (affine_partials A B C) as [PA PB]. destruct (affine_partials A C B) as [_ PC].
  pose proof (derive_unique2 (fun X Y => bern5 c (1 - X) (X - Y) Y) _ _ _ _ _ E (fun X Y => conj (bern5_dx c X Y) (bern5_dy c X Y)) PA) as D1.
  pose proof (derive_unique2 (fun X Y => bern4 (dx 5 c) (1 - X) (X - Y) Y) _ _ _ _ _ (fun X Y => proj1 (D1 X Y)) (fun X Y => conj (bern4_dx _ X Y) (bern4_dy _ X Y)) PB) as D2.
  pose proof (derive_unique2 (fun X Y => bern4 (dy 5 c) (1 - X) (X - Y) Y) _ _ _ _ _ (fun X Y => proj2 (D1 X Y)) (fun X Y => conj (bern4_dx _ X Y) (bern4_dy _ X Y)) PC) as D3.
  split; [apply D1|]. split; [apply D1|]. split; [apply D2|]. split; [apply D2|apply D3].
Qed.
Lemma bell_flat s p q r u v w z' p' q' r' rl : 0 < s -> shape s p q r -> length u = 6%nat -> length v = 6%nat -> length w = 6%nat -> z' <> 0 -> oriented z' p' q' r' -> DUNAVANT5 = Ok rl ->
  (forall L x, In L (q_points rl) -> bary_of p' q' r' L x -> Bxx p q r (u ++ v ++ w) (fst x) (snd x) = 0 /\ Bxy p q r (u ++ v ++ w) (fst x) (snd x) = 0 /\ Byy p q r (u ++ v ++ w) (fst x) (snd x) = 0) ->
  exists al be ga, u = affine_jet_at al be ga p /\ v = affine_jet_at al be ga q /\ w = affine_jet_at al be ga r.
Proof.
  intros Hs Sh Lu Lv Lw Hz' O' RL H. destruct (shape_oriented _ _ _ _ Hs Sh) as (z & Az & Hz & O). pose proof (oriented_cross _ _ _ _ O) as HC. assert (Hc : cross p q r <> 0) by (rewrite HC; nra).
  destruct u as [|u1 [|u2 [|u3 [|u4 [|u5 [|u6 [|]]]]]]]; try discriminate. destruct v as [|v1 [|v2 [|v3 [|v4 [|v5 [|v6 [|]]]]]]]; try discriminate. destruct w as [|w1 [|w2 [|w3 [|w4 [|w5 [|w6 [|]]]]]]]; try discriminate. clear Lu Lv Lw.
  set (ps := [u1; u2; u3; u4; u5; u6] ++ [v1; v2; v3; v4; v5; v6] ++ [w1; w2; w3; w4; w5; w6]) in *.
  set (c := bcoef u1 (z * u2) (z * u3) (z ^ 2 * u4) (z ^ 2 * u5) (z ^ 2 * u6) v1 (z * v2) (z * v3) (z ^ 2 * v4) (z ^ 2 * v5) (z ^ 2 * v6) w1 (z * w2) (z * w3) (z ^ 2 * w4) (z ^ 2 * w5) (z ^ 2 * w6)).
  assert (VB : forall a b, Bf p q r ps a b = at5 (fst p) (snd p) z c a b).
  { intros a b. unfold Bf, Fv, rhoxy, rho3. rewrite N_all_value. pose proof (bcoords_of p q r Hc _ _ (oriented_bary z p q r (a, b) Hz O)) as EB. cbn [fst snd] in EB. rewrite <- EB. clear EB H.
    destruct p as [p1 p2]. destruct O as [-> ->]. cbn [fst snd]. exact (bell_bern p1 p2 z u1 u2 u3 u4 u5 u6 v1 v2 v3 v4 v5 v6 w1 w2 w3 w4 w5 w6 _ _ _ Hz). }
  pose proof (derive_unique2 _ _ _ _ _ _ VB (partials_B p q r ps Hc) (at5_partials (fst p) (snd p) z Hz c)) as D1.
  pose proof (derive_unique2 _ _ _ _ _ _ (fun a b => proj1 (D1 a b)) (partials_Bx p q r ps Hc) (at4_partials (fst p) (snd p) z Hz _)) as D2.
  pose proof (derive_unique2 _ _ _ _ _ _ (fun a b => proj2 (D1 a b)) (partials_By p q r ps Hc) (at4_partials (fst p) (snd p) z Hz _)) as D3.
  assert (IZ : / z <> 0) by (apply Rinv_neq_0_compat, Hz). assert (ZZ : forall e, / z * (/ z * e) = 0 -> e = 0) by (intros e E; apply Rmult_integral in E as [E|E]; [contradiction|]; apply Rmult_integral in E as [E|E]; [contradiction|exact E]).
  set (k := z' / z). assert (Hk : k <> 0) by (unfold k, Rdiv; apply Rmult_integral_contrapositive; split; assumption). set (X0 := (fst p' - fst p) / z). set (Y0 := (snd p' - snd p) / z).
  destruct (bern_flat c X0 Y0 k Hk) as (A & B & C & E).
  { intros a b I. pose proof (seven_points rl RL a b I) as IL. set (x := (fst p' + z' * a, snd p' + z' * b)).
    assert (BO : bary_of p' q' r' (1 - a, a - b, b) x) by (destruct O' as [-> ->]; unfold bary_of, l1, l2, l3, x; cbn [fst snd]; repeat split; ring).
    destruct (H _ _ IL BO) as (H1 & H2 & H3). rewrite (proj1 (D2 _ _)) in H1. rewrite (proj2 (D2 _ _)) in H2. rewrite (proj2 (D3 _ _)) in H3. apply ZZ in H1, H2, H3.
    assert (EX : lX (fst p) z (fst x) = XX X0 k a) by (unfold lX, XX, X0, k, x; cbn [fst]; field; exact Hz). assert (EY : lY (snd p) z (snd x) = YY Y0 k b) by (unfold lY, YY, Y0, k, x; cbn [snd]; field; exact Hz).
    unfold at3 in H1, H2, H3. rewrite EX, EY in H1, H2, H3. unfold F3. rewrite H1, H2, H3. repeat split; ring. }
  pose proof (bern_affine c A B C E) as K. clear D1 D2 D3 VB H. exists (B / z), (C / z), (A - B / z * fst p - C / z * snd p).
  assert (UP : forall e f, z * e = f -> e = f / z) by (intros e f Q; rewrite <- Q; field; exact Hz). assert (U2 : forall e, z ^ 2 * e = 0 -> e = 0) by (intros e Q; apply Rmult_integral in Q as [Q|Q]; [exfalso; revert Q; apply pow_nonzero, Hz|exact Q]).
  destruct O as [-> ->]. unfold affine_jet_at. cbn [fst snd].
  pose proof (E 0 0) as E1. pose proof (E 1 0) as E2. pose proof (E 1 1) as E3. destruct (K 0 0) as (K1 & K2 & K3 & K4 & K5). destruct (K 1 0) as (M1 & M2 & M3 & M4 & M5). destruct (K 1 1) as (N1 & N2 & N3 & N4 & N5).
  clear E K. unfold bern5, bern4, bern3, bl5, bl4, bl3, dx, dy, c in *. cbn [pairsum fold_right fst snd bcoef] in *. clear c X0 Y0 Hk k ps ZZ IZ O' RL.
  assert (P2 : z * u2 = B) by lra. assert (P3 : z * u3 = C) by lra. assert (P4 : z ^ 2 * u4 = 0) by lra. assert (P5 : z ^ 2 * u5 = 0) by lra. assert (P6 : z ^ 2 * u6 = 0) by lra.
  assert (Q2 : z * v2 = B) by lra. assert (Q3 : z * v3 = C) by lra. assert (Q4 : z ^ 2 * v4 = 0) by lra. assert (Q5 : z ^ 2 * v5 = 0) by lra. assert (Q6 : z ^ 2 * v6 = 0) by lra.
  assert (R2 : z * w2 = B) by lra. assert (R3 : z * w3 = C) by lra. assert (R4 : z ^ 2 * w4 = 0) by lra. assert (R5 : z ^ 2 * w5 = 0) by lra. assert (R6 : z ^ 2 * w6 = 0) by lra.
  assert (P1 : u1 = A) by lra. assert (Q1 : v1 = A + B) by lra. assert (R1 : w1 = A + B + C) by lra.
  rewrite (UP _ _ P2), (UP _ _ P3), (U2 _ P4), (U2 _ P5), (U2 _ P6), (UP _ _ Q2), (UP _ _ Q3), (U2 _ Q4), (U2 _ Q5), (U2 _ Q6), (UP _ _ R2), (UP _ _ R3), (U2 _ R4), (U2 _ R5), (U2 _ R6), P1, Q1, R1.
  split; [|split]; apply (f_equal2 (@cons R)); try reflexivity; field; exact Hz.
Qed.
