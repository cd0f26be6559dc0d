(** * A Bell element whose second derivatives vanish at the points of the degree 5 rule in one triangle of a refinement is affine (C123). *)
From Coq Require Import Reals Lra Lia List.
From Coquelicot Require Import Coquelicot.
From Verif.Model Require Import Py Num Tensors Domain Bell.
From Verif.Spec Require Import GridSpec BellSpec InterpSpec.
From Verif.Proofs Require Import Lib BellP BellV BellDer BellQ BernP BernQ FlatQ.
Local Open Scope R_scope.
Import ListNotations.

Definition deg1 (f : R -> R -> R) : Prop := exists g00 g10 g01, forall u v, f u v = g00 * (u ^ 0 * v ^ 0) + g10 * (u ^ 1 * v ^ 0) + g01 * (u ^ 0 * v ^ 1).
Definition deg2 (f : R -> R -> R) : Prop := exists g00 g10 g01 g20 g11 g02, forall u v, f u v = g00 * (u ^ 0 * v ^ 0) + g10 * (u ^ 1 * v ^ 0) + g01 * (u ^ 0 * v ^ 1) + g20 * (u ^ 2 * v ^ 0) + g11 * (u ^ 1 * v ^ 1) + g02 * (u ^ 0 * v ^ 2).
Definition deg3 (f : R -> R -> R) : Prop := exists g00 g10 g01 g20 g11 g02 g30 g21 g12 g03, forall u v, f u v = g00 * (u ^ 0 * v ^ 0) + g10 * (u ^ 1 * v ^ 0) + g01 * (u ^ 0 * v ^ 1) + g20 * (u ^ 2 * v ^ 0) + g11 * (u ^ 1 * v ^ 1) + g02 * (u ^ 0 * v ^ 2) + g30 * (u ^ 3 * v ^ 0) + g21 * (u ^ 2 * v ^ 1) + g12 * (u ^ 1 * v ^ 2) + g03 * (u ^ 0 * v ^ 3).
Definition deg4 (f : R -> R -> R) : Prop := exists g00 g10 g01 g20 g11 g02 g30 g21 g12 g03 g40 g31 g22 g13 g04, forall u v, f u v = g00 * (u ^ 0 * v ^ 0) + g10 * (u ^ 1 * v ^ 0) + g01 * (u ^ 0 * v ^ 1) + g20 * (u ^ 2 * v ^ 0) + g11 * (u ^ 1 * v ^ 1) + g02 * (u ^ 0 * v ^ 2) + g30 * (u ^ 3 * v ^ 0) + g21 * (u ^ 2 * v ^ 1) + g12 * (u ^ 1 * v ^ 2) + g03 * (u ^ 0 * v ^ 3) + g40 * (u ^ 4 * v ^ 0) + g31 * (u ^ 3 * v ^ 1) + g22 * (u ^ 2 * v ^ 2) + g13 * (u ^ 1 * v ^ 3) + g04 * (u ^ 0 * v ^ 4).
Definition deg5 (f : R -> R -> R) : Prop := exists g00 g10 g01 g20 g11 g02 g30 g21 g12 g03 g40 g31 g22 g13 g04 g50 g41 g32 g23 g14 g05, forall u v, f u v = g00 * (u ^ 0 * v ^ 0) + g10 * (u ^ 1 * v ^ 0) + g01 * (u ^ 0 * v ^ 1) + g20 * (u ^ 2 * v ^ 0) + g11 * (u ^ 1 * v ^ 1) + g02 * (u ^ 0 * v ^ 2) + g30 * (u ^ 3 * v ^ 0) + g21 * (u ^ 2 * v ^ 1) + g12 * (u ^ 1 * v ^ 2) + g03 * (u ^ 0 * v ^ 3) + g40 * (u ^ 4 * v ^ 0) + g31 * (u ^ 3 * v ^ 1) + g22 * (u ^ 2 * v ^ 2) + g13 * (u ^ 1 * v ^ 3) + g04 * (u ^ 0 * v ^ 4) + g50 * (u ^ 5 * v ^ 0) + g41 * (u ^ 4 * v ^ 1) + g32 * (u ^ 3 * v ^ 2) + g23 * (u ^ 2 * v ^ 3) + g14 * (u ^ 1 * v ^ 4) + g05 * (u ^ 0 * v ^ 5).
Lemma deg0_mul a b c : deg1 (fun u v => a + b * u + c * v).
Proof. exists a, b, c. intros u v. ring. Qed.
Lemma deg1_mul f h : deg1 f -> deg1 h -> deg2 (fun u v => f u v * h u v).
Proof. intros (a00 & a10 & a01 & A) (g00 & g10 & g01 & E). exists (a00 * g00), (a00 * g10 + a10 * g00), (a00 * g01 + a01 * g00), (a10 * g10), (a10 * g01 + a01 * g10), (a01 * g01). intros u v. rewrite A, E. ring. Qed.
Lemma deg2_mul f h : deg1 f -> deg2 h -> deg3 (fun u v => f u v * h u v).
Proof. intros (a00 & a10 & a01 & A) (g00 & g10 & g01 & g20 & g11 & g02 & E). exists (a00 * g00), (a00 * g10 + a10 * g00), (a00 * g01 + a01 * g00), (a00 * g20 + a10 * g10), (a00 * g11 + a10 * g01 + a01 * g10), (a00 * g02 + a01 * g01), (a10 * g20), (a10 * g11 + a01 * g20), (a10 * g02 + a01 * g11), (a01 * g02). intros u v. rewrite A, E. ring. Qed.
Lemma deg3_mul f h : deg1 f -> deg3 h -> deg4 (fun u v => f u v * h u v).
Proof. intros (a00 & a10 & a01 & A) (g00 & g10 & g01 & g20 & g11 & g02 & g30 & g21 & g12 & g03 & E). exists (a00 * g00), (a00 * g10 + a10 * g00), (a00 * g01 + a01 * g00), (a00 * g20 + a10 * g10), (a00 * g11 + a10 * g01 + a01 * g10), (a00 * g02 + a01 * g01), (a00 * g30 + a10 * g20), (a00 * g21 + a10 * g11 + a01 * g20), (a00 * g12 + a10 * g02 + a01 * g11), (a00 * g03 + a01 * g02), (a10 * g30), (a10 * g21 + a01 * g30), (a10 * g12 + a01 * g21), (a10 * g03 + a01 * g12), (a01 * g03). intros u v. rewrite A, E. ring. Qed.
Lemma deg4_mul f h : deg1 f -> deg4 h -> deg5 (fun u v => f u v * h u v).
Proof. intros (a00 & a10 & a01 & A) (g00 & g10 & g01 & g20 & g11 & g02 & g30 & g21 & g12 & g03 & g40 & g31 & g22 & g13 & g04 & E). exists (a00 * g00), (a00 * g10 + a10 * g00), (a00 * g01 + a01 * g00), (a00 * g20 + a10 * g10), (a00 * g11 + a10 * g01 + a01 * g10), (a00 * g02 + a01 * g01), (a00 * g30 + a10 * g20), (a00 * g21 + a10 * g11 + a01 * g20), (a00 * g12 + a10 * g02 + a01 * g11), (a00 * g03 + a01 * g02), (a00 * g40 + a10 * g30), (a00 * g31 + a10 * g21 + a01 * g30), (a00 * g22 + a10 * g12 + a01 * g21), (a00 * g13 + a10 * g03 + a01 * g12), (a00 * g04 + a01 * g03), (a10 * g40), (a10 * g31 + a01 * g40), (a10 * g22 + a01 * g31), (a10 * g13 + a01 * g22), (a10 * g04 + a01 * g13), (a01 * g04). intros u v. rewrite A, E. ring. Qed.
Lemma deg5_plus f h : deg5 f -> deg5 h -> deg5 (fun u v => f u v + h u v).
Proof. intros (g00 & g10 & g01 & g20 & g11 & g02 & g30 & g21 & g12 & g03 & g40 & g31 & g22 & g13 & g04 & g50 & g41 & g32 & g23 & g14 & g05 & E) (h00 & h10 & h01 & h20 & h11 & h02 & h30 & h21 & h12 & h03 & h40 & h31 & h22 & h13 & h04 & h50 & h41 & h32 & h23 & h14 & h05 & E'). exists (g00 + h00), (g10 + h10), (g01 + h01), (g20 + h20), (g11 + h11), (g02 + h02), (g30 + h30), (g21 + h21), (g12 + h12), (g03 + h03), (g40 + h40), (g31 + h31), (g22 + h22), (g13 + h13), (g04 + h04), (g50 + h50), (g41 + h41), (g32 + h32), (g23 + h23), (g14 + h14), (g05 + h05). intros u v. rewrite E, E'. ring. Qed.
Lemma deg5_scal c f : deg5 f -> deg5 (fun u v => c * f u v).
Proof. intros (g00 & g10 & g01 & g20 & g11 & g02 & g30 & g21 & g12 & g03 & g40 & g31 & g22 & g13 & g04 & g50 & g41 & g32 & g23 & g14 & g05 & E). exists (c * g00), (c * g10), (c * g01), (c * g20), (c * g11), (c * g02), (c * g30), (c * g21), (c * g12), (c * g03), (c * g40), (c * g31), (c * g22), (c * g13), (c * g04), (c * g50), (c * g41), (c * g32), (c * g23), (c * g14), (c * g05). intros u v. rewrite E. ring. Qed.
Lemma deg5_ext f h : (forall u v, f u v = h u v) -> deg5 h -> deg5 f.
Proof. intros X (g00 & g10 & g01 & g20 & g11 & g02 & g30 & g21 & g12 & g03 & g40 & g31 & g22 & g13 & g04 & g50 & g41 & g32 & g23 & g14 & g05 & E). exists g00, g10, g01, g20, g11, g02, g30, g21, g12, g03, g40, g31, g22, g13, g04, g50, g41, g32, g23, g14, g05. intros u v. rewrite X. apply E. Qed.
Section P.
Context (g00 g10 g01 g20 g11 g02 g30 g21 g12 g03 g40 g31 g22 g13 g04 g50 g41 g32 g23 g14 g05 : R).
Definition q5 (u v : R) : R := g00 * (u ^ 0 * v ^ 0) + g10 * (u ^ 1 * v ^ 0) + g01 * (u ^ 0 * v ^ 1) + g20 * (u ^ 2 * v ^ 0) + g11 * (u ^ 1 * v ^ 1) + g02 * (u ^ 0 * v ^ 2) + g30 * (u ^ 3 * v ^ 0) + g21 * (u ^ 2 * v ^ 1) + g12 * (u ^ 1 * v ^ 2) + g03 * (u ^ 0 * v ^ 3) + g40 * (u ^ 4 * v ^ 0) + g31 * (u ^ 3 * v ^ 1) + g22 * (u ^ 2 * v ^ 2) + g13 * (u ^ 1 * v ^ 3) + g04 * (u ^ 0 * v ^ 4) + g50 * (u ^ 5 * v ^ 0) + g41 * (u ^ 4 * v ^ 1) + g32 * (u ^ 3 * v ^ 2) + g23 * (u ^ 2 * v ^ 3) + g14 * (u ^ 1 * v ^ 4) + g05 * (u ^ 0 * v ^ 5).
Definition q5x (u v : R) : R := 1 * g10 * (u ^ 0 * v ^ 0) + 2 * g20 * (u ^ 1 * v ^ 0) + 1 * g11 * (u ^ 0 * v ^ 1) + 3 * g30 * (u ^ 2 * v ^ 0) + 2 * g21 * (u ^ 1 * v ^ 1) + 1 * g12 * (u ^ 0 * v ^ 2) + 4 * g40 * (u ^ 3 * v ^ 0) + 3 * g31 * (u ^ 2 * v ^ 1) + 2 * g22 * (u ^ 1 * v ^ 2) + 1 * g13 * (u ^ 0 * v ^ 3) + 5 * g50 * (u ^ 4 * v ^ 0) + 4 * g41 * (u ^ 3 * v ^ 1) + 3 * g32 * (u ^ 2 * v ^ 2) + 2 * g23 * (u ^ 1 * v ^ 3) + 1 * g14 * (u ^ 0 * v ^ 4).
Definition q5y (u v : R) : R := 1 * g01 * (u ^ 0 * v ^ 0) + 1 * g11 * (u ^ 1 * v ^ 0) + 2 * g02 * (u ^ 0 * v ^ 1) + 1 * g21 * (u ^ 2 * v ^ 0) + 2 * g12 * (u ^ 1 * v ^ 1) + 3 * g03 * (u ^ 0 * v ^ 2) + 1 * g31 * (u ^ 3 * v ^ 0) + 2 * g22 * (u ^ 2 * v ^ 1) + 3 * g13 * (u ^ 1 * v ^ 2) + 4 * g04 * (u ^ 0 * v ^ 3) + 1 * g41 * (u ^ 4 * v ^ 0) + 2 * g32 * (u ^ 3 * v ^ 1) + 3 * g23 * (u ^ 2 * v ^ 2) + 4 * g14 * (u ^ 1 * v ^ 3) + 5 * g05 * (u ^ 0 * v ^ 4).
Lemma q5_partials : partials q5 q5x q5y.
Proof. intros u v. split; unfold q5, q5x, q5y; auto_derive; try exact I; reals; cbn [pred INR]; ring. Qed.
Lemma q5x_partials : partials q5x (hxx g20 g11 g02 g30 g21 g12 g03 g40 g31 g22 g13 g04 g50 g41 g32 g23 g14 g05) (hxy g20 g11 g02 g30 g21 g12 g03 g40 g31 g22 g13 g04 g50 g41 g32 g23 g14 g05).
Proof. intros u v. split; unfold q5x, hxx, hxy; auto_derive; try exact I; reals; cbn [pred INR]; ring. Qed.
Lemma q5y_partials : partials q5y (hxy g20 g11 g02 g30 g21 g12 g03 g40 g31 g22 g13 g04 g50 g41 g32 g23 g14 g05) (hyy g20 g11 g02 g30 g21 g12 g03 g40 g31 g22 g13 g04 g50 g41 g32 g23 g14 g05).
Proof. intros u v. split; unfold q5y, hxy, hyy; auto_derive; try exact I; reals; cbn [pred INR]; ring. Qed.
End P.

Definition seven : list (R * R) := [(2 / 3, 1 / 3); (940284128210230 / 1000000000000000, 470142064105115 / 1000000000000000); (529857935894885 / 1000000000000000, 470142064105115 / 1000000000000000); (529857935894885 / 1000000000000000, 59715871789770 / 1000000000000000); (202573014646913 / 1000000000000000, 101286507323457 / 1000000000000000); (898713492676544 / 1000000000000000, 101286507323457 / 1000000000000000); (898713492676544 / 1000000000000000, 797426985353088 / 1000000000000000)].
Section B.
Context (c : nat -> nat -> R) (X0 Y0 k : R) (Hk : k <> 0).
Definition XX (u : R) := X0 + k * u.
Definition YY (v : R) := Y0 + k * v.
Lemma XX_der u : is_derive XX u k. Proof. unfold XX. auto_derive; [exact I|]. reals. ring. Qed.
Lemma YY_der v : is_derive YY v k. Proof. unfold YY. auto_derive; [exact I|]. reals. ring. Qed.
Definition F5 u v := bern5 c (1 - XX u) (XX u - YY v) (YY v).
Definition F4 d u v := k * bern4 d (1 - XX u) (XX u - YY v) (YY v).
Definition F3 d u v := k * (k * bern3 d (1 - XX u) (XX u - YY v) (YY v)).
Lemma F5_partials : partials F5 (F4 (dx 5 c)) (F4 (dy 5 c)).
Proof.
  intros u v. split.
  - exact (chain_ (fun X => bern5 c (1 - X) (X - YY v) (YY v)) XX u _ _ (bern5_dx c (XX u) (YY v)) (XX_der u)).
  - exact (chain_ (fun Y => bern5 c (1 - XX u) (XX u - Y) Y) YY v _ _ (bern5_dy c (XX u) (YY v)) (YY_der v)).
Qed.
Lemma F4_partials d : partials (F4 d) (F3 (dx 4 d)) (F3 (dy 4 d)).
Proof.
  intros u v. split; apply is_derive_scal.
  - exact (chain_ (fun X => bern4 d (1 - X) (X - YY v) (YY v)) XX u _ _ (bern4_dx d (XX u) (YY v)) (XX_der u)).
  - exact (chain_ (fun Y => bern4 d (1 - XX u) (XX u - Y) Y) YY v _ _ (bern4_dy d (XX u) (YY v)) (YY_der v)).
Qed.
Lemma deg_prod5 a1 b1 c1 a2 b2 c2 a3 b3 c3 a4 b4 c4 a5 b5 c5 : deg5 (fun u v => (a1 + b1 * u + c1 * v) * ((a2 + b2 * u + c2 * v) * ((a3 + b3 * u + c3 * v) * ((a4 + b4 * u + c4 * v) * (a5 + b5 * u + c5 * v))))).
Proof. apply (deg4_mul (fun u v => a1 + b1 * u + c1 * v)), (deg3_mul (fun u v => a2 + b2 * u + c2 * v)), (deg2_mul (fun u v => a3 + b3 * u + c3 * v)), (deg1_mul (fun u v => a4 + b4 * u + c4 * v)); apply deg0_mul. Qed.
Lemma F5_deg : deg5 F5.
Proof.
  unfold F5, bern5, bl5. cbn [pairsum fold_right fst snd]. 
  assert (Z : deg5 (fun _ _ => 0)). { exists 0, 0, 0, 0, 0, 0, 0, 0, 0, 0, 0, 0, 0, 0, 0, 0, 0, 0, 0, 0, 0. intros u v. ring. }
  assert (TERM : forall m i j l C, (i + j + l = 5)%nat -> deg5 (fun u v => m * ((1 - XX u) ^ i * (XX u - YY v) ^ j * YY v ^ l) * C)).
  { intros m i j l C S.
    set (p1 := fun u v => (1 - X0) + (- k) * u + 0 * v). set (p2 := fun u v => (X0 - Y0) + k * u + (- k) * v). set (p3 := fun u v => Y0 + 0 * u + k * v).
    set (pick := fun n => if (n <? i)%nat then (1 - X0, - k, 0) else if (n <? i + j)%nat then (X0 - Y0, k, - k) else (Y0, 0, k)).
    set (A n := fst (fst (pick n))). set (B n := snd (fst (pick n))). set (D n := snd (pick n)).
    pose proof (deg5_scal (m * C) _ (deg_prod5 (A 0%nat) (B 0%nat) (D 0%nat) (A 1%nat) (B 1%nat) (D 1%nat) (A 2%nat) (B 2%nat) (D 2%nat) (A 3%nat) (B 3%nat) (D 3%nat) (A 4%nat) (B 4%nat) (D 4%nat))) as Q.
    revert Q. apply deg5_ext. intros u v. unfold A, B, D, pick, XX, YY. clear p1 p2 p3 A B D pick Z.
    destruct i as [|[|[|[|[|[|i]]]]]]; destruct j as [|[|[|[|[|[|j]]]]]]; try lia; first [(assert (l = 5)%nat by lia)|(assert (l = 4)%nat by lia)|(assert (l = 3)%nat by lia)|(assert (l = 2)%nat by lia)|(assert (l = 1)%nat by lia)|(assert (l = 0)%nat by lia)]; subst l; cbn; ring. }
  repeat (apply (deg5_plus (fun u v => _ * (_ ^ _ * _ ^ _ * _ ^ _) * _)); [apply TERM; reflexivity|]). exact Z.
Qed.
Lemma bern_flat : (forall u v, In (u, v) seven -> F3 (dx 4 (dx 5 c)) u v = 0 /\ F3 (dy 4 (dx 5 c)) u v = 0 /\ F3 (dy 4 (dy 5 c)) u v = 0) ->
  exists A B C, forall X Y, bern5 c (1 - X) (X - Y) Y = A + B * X + C * Y.
Proof.
  intros H. destruct F5_deg as (g00 & g10 & g01 & g20 & g11 & g02 & g30 & g21 & g12 & g03 & g40 & g31 & g22 & g13 & g04 & g50 & g41 & g32 & g23 & g14 & g05 & E).
  pose proof (derive_unique2 _ _ _ _ _ _ E F5_partials (q5_partials g00 g10 g01 g20 g11 g02 g30 g21 g12 g03 g40 g31 g22 g13 g04 g50 g41 g32 g23 g14 g05)) as D1.
  pose proof (derive_unique2 _ _ _ _ _ _ (fun a b => proj1 (D1 a b)) (F4_partials _) (q5x_partials g10 g20 g11 g02 g30 g21 g12 g03 g40 g31 g22 g13 g04 g50 g41 g32 g23 g14 g05)) as D2.
  pose proof (derive_unique2 _ _ _ _ _ _ (fun a b => proj2 (D1 a b)) (F4_partials _) (q5y_partials g01 g20 g11 g02 g30 g21 g12 g03 g40 g31 g22 g13 g04 g50 g41 g32 g23 g14 g05)) as D3.
  assert (K : forall u v, In (u, v) seven -> hxx g20 g11 g02 g30 g21 g12 g03 g40 g31 g22 g13 g04 g50 g41 g32 g23 g14 g05 u v = 0 /\ hxy g20 g11 g02 g30 g21 g12 g03 g40 g31 g22 g13 g04 g50 g41 g32 g23 g14 g05 u v = 0 /\ hyy g20 g11 g02 g30 g21 g12 g03 g40 g31 g22 g13 g04 g50 g41 g32 g23 g14 g05 u v = 0).
  { intros u v I. destruct (H u v I) as (H1 & H2 & H3). rewrite <- (proj1 (D2 u v)), <- (proj2 (D2 u v)), <- (proj2 (D3 u v)). auto. }
  clear D1 D2 D3 H.
  destruct (K (2 / 3) (1 / 3) ltac:(unfold seven; cbn [In]; tauto)) as (E0 & E1 & E2). apply p0 in E0. apply p1 in E1. apply p2 in E2.
  destruct (K (940284128210230 / 1000000000000000) (470142064105115 / 1000000000000000) ltac:(unfold seven; cbn [In]; tauto)) as (E3 & E4 & E5). apply p3 in E3. apply p4 in E4. apply p5 in E5.
  destruct (K (529857935894885 / 1000000000000000) (470142064105115 / 1000000000000000) ltac:(unfold seven; cbn [In]; tauto)) as (E6 & E7 & E8). apply p6 in E6. apply p7 in E7. apply p8 in E8.
  destruct (K (529857935894885 / 1000000000000000) (59715871789770 / 1000000000000000) ltac:(unfold seven; cbn [In]; tauto)) as (E9 & E10 & E11). apply p9 in E9. apply p10 in E10. apply p11 in E11.
  destruct (K (202573014646913 / 1000000000000000) (101286507323457 / 1000000000000000) ltac:(unfold seven; cbn [In]; tauto)) as (E12 & E13 & E14). apply p12 in E12. apply p13 in E13. apply p14 in E14.
  destruct (K (898713492676544 / 1000000000000000) (101286507323457 / 1000000000000000) ltac:(unfold seven; cbn [In]; tauto)) as (E15 & E16 & E17). apply p15 in E15. apply p16 in E16. apply p17 in E17.
  destruct (K (898713492676544 / 1000000000000000) (797426985353088 / 1000000000000000) ltac:(unfold seven; cbn [In]; tauto)) as (E18 & E19 & E20). apply p18 in E18. apply p19 in E19. apply p20 in E20.
  assert (Zg20 : g20 = 0) by exact (zg20 g20 g11 g02 g30 g21 g12 g03 g40 g31 g22 g13 g04 g50 g41 g32 g23 g14 g05 E0 E1 E3 E4 E5 E6 E7 E8 E9 E10 E12 E13 E14 E15 E16 E17).
  assert (Zg11 : g11 = 0) by exact (zg11 g20 g11 g02 g30 g21 g12 g03 g40 g31 g22 g13 g04 g50 g41 g32 g23 g14 g05 E0 E1 E3 E4 E5 E6 E7 E8 E9 E10 E12 E13 E14 E15 E16 E17).
  assert (Zg02 : g02 = 0) by exact (zg02 g20 g11 g02 g30 g21 g12 g03 g40 g31 g22 g13 g04 g50 g41 g32 g23 g14 g05 E0 E1 E2 E3 E4 E5 E6 E7 E8 E9 E10 E11 E12 E13 E14 E15 E16 E17).
  assert (Zg30 : g30 = 0) by exact (zg30 g20 g11 g02 g30 g21 g12 g03 g40 g31 g22 g13 g04 g50 g41 g32 g23 g14 g05 E0 E1 E3 E4 E5 E6 E7 E8 E9 E10 E12 E13 E14 E15 E16 E17).
  assert (Zg21 : g21 = 0) by exact (zg21 g20 g11 g02 g30 g21 g12 g03 g40 g31 g22 g13 g04 g50 g41 g32 g23 g14 g05 E0 E1 E3 E4 E5 E6 E7 E8 E9 E10 E12 E13 E14 E15 E16 E17).
  assert (Zg12 : g12 = 0) by exact (zg12 g20 g11 g02 g30 g21 g12 g03 g40 g31 g22 g13 g04 g50 g41 g32 g23 g14 g05 E0 E1 E3 E4 E5 E6 E7 E8 E9 E10 E12 E13 E14 E15 E16 E17).
  assert (Zg03 : g03 = 0) by exact (zg03 g20 g11 g02 g30 g21 g12 g03 g40 g31 g22 g13 g04 g50 g41 g32 g23 g14 g05 E0 E1 E2 E3 E4 E5 E6 E7 E8 E9 E10 E11 E12 E13 E14 E15 E16 E17).
  assert (Zg40 : g40 = 0) by exact (zg40 g20 g11 g02 g30 g21 g12 g03 g40 g31 g22 g13 g04 g50 g41 g32 g23 g14 g05 E0 E1 E3 E4 E5 E6 E7 E8 E9 E10 E12 E13 E14 E15 E16 E17).
  assert (Zg31 : g31 = 0) by exact (zg31 g20 g11 g02 g30 g21 g12 g03 g40 g31 g22 g13 g04 g50 g41 g32 g23 g14 g05 E0 E1 E3 E4 E5 E6 E7 E8 E9 E10 E12 E13 E14 E15 E16 E17).
  assert (Zg22 : g22 = 0) by exact (zg22 g20 g11 g02 g30 g21 g12 g03 g40 g31 g22 g13 g04 g50 g41 g32 g23 g14 g05 E0 E1 E3 E4 E5 E6 E7 E8 E9 E10 E12 E13 E14 E15 E16 E17).
  assert (Zg13 : g13 = 0) by exact (zg13 g20 g11 g02 g30 g21 g12 g03 g40 g31 g22 g13 g04 g50 g41 g32 g23 g14 g05 E0 E1 E3 E4 E5 E6 E7 E8 E9 E10 E12 E13 E14 E15 E16 E17).
  assert (Zg04 : g04 = 0) by exact (zg04 g20 g11 g02 g30 g21 g12 g03 g40 g31 g22 g13 g04 g50 g41 g32 g23 g14 g05 E0 E1 E2 E3 E4 E5 E6 E7 E8 E9 E10 E11 E12 E13 E14 E15 E16 E17).
  assert (Zg50 : g50 = 0) by exact (zg50 g20 g11 g02 g30 g21 g12 g03 g40 g31 g22 g13 g04 g50 g41 g32 g23 g14 g05 E0 E1 E3 E4 E5 E6 E7 E8 E9 E10 E12 E13 E14 E15 E16 E17).
  assert (Zg41 : g41 = 0) by exact (zg41 g20 g11 g02 g30 g21 g12 g03 g40 g31 g22 g13 g04 g50 g41 g32 g23 g14 g05 E0 E1 E3 E4 E5 E6 E7 E8 E9 E10 E12 E13 E14 E15 E16 E17).
  assert (Zg32 : g32 = 0) by exact (zg32 g20 g11 g02 g30 g21 g12 g03 g40 g31 g22 g13 g04 g50 g41 g32 g23 g14 g05 E0 E1 E3 E4 E5 E6 E7 E8 E9 E10 E12 E13 E14 E15 E16 E17).
  assert (Zg23 : g23 = 0) by exact (zg23 g20 g11 g02 g30 g21 g12 g03 g40 g31 g22 g13 g04 g50 g41 g32 g23 g14 g05 E0 E1 E3 E4 E5 E6 E7 E8 E9 E10 E12 E13 E14 E15 E16 E17).
  assert (Zg14 : g14 = 0) by exact (zg14 g20 g11 g02 g30 g21 g12 g03 g40 g31 g22 g13 g04 g50 g41 g32 g23 g14 g05 E0 E1 E3 E4 E5 E6 E7 E8 E9 E10 E12 E13 E14 E15 E16 E17).
  assert (Zg05 : g05 = 0) by exact (zg05 g20 g11 g02 g30 g21 g12 g03 g40 g31 g22 g13 g04 g50 g41 g32 g23 g14 g05 E0 E1 E2 E3 E4 E5 E6 E7 E8 E9 E10 E11 E12 E13 E14 E15 E16 E17).
  clear K E0 E1 E2 E3 E4 E5 E6 E7 E8 E9 E10 E11 E12 E13 E14 E15 E16 E17 E18 E19 E20.
  exists (g00 - g10 * X0 / k - g01 * Y0 / k), (g10 / k), (g01 / k). intros X Y. specialize (E ((X - X0) / k) ((Y - Y0) / k)). unfold F5, XX, YY in E.
  replace (X0 + k * ((X - X0) / k)) with X in E by (field; exact Hk). replace (Y0 + k * ((Y - Y0) / k)) with Y in E by (field; exact Hk). rewrite E. rewrite Zg20, Zg11, Zg02, Zg30, Zg21, Zg12, Zg03, Zg40, Zg31, Zg22, Zg13, Zg04, Zg50, Zg41, Zg32, Zg23, Zg14, Zg05. field. exact Hk.
Qed.
End B.
