(** Point location with binary64 floats in a grid that approximates a lattice triangulation. *)
From Coq Require Import ZArith Reals Floats Lra Lia Psatz List.
From Verif.Model Require Import Py Num NumFloat Tensors Domain.
From Verif.Spec Require Import FloatSpec FloatGridSpec GridSpec RefineSpec.
From Verif.Proofs Require Import FloatR FloatN FloatE LocateP HatP MeshLoc FloatLoc.
Import ListNotations.
Local Open Scope R_scope.

Lemma Forall2_nth_l {A B} (P : A -> B -> Prop) l l' : Forall2 P l l' -> forall i b, nth_error l' i = Some b -> exists a, nth_error l i = Some a /\ P a b.
Proof. induction 1; intros [|i] b H1; cbn in *; try discriminate; [injection H1 as <-; eauto|apply IHForall2, H1]. Qed.

Section FL.
Context (gR : grid R) (s : R) (m n : nat) (M : mesh gR s m n) (Hm : (1 <= m)%nat) (Hn : (1 <= n)%nat).
Let K := INR (Nat.max m n).
Context (gF : grid float) (ST : g_triangles gF = g_triangles gR) (CP : close_points (40 * (ulp1 * (K * s))) (g_points gF) (g_points gR)).
Context (HK : K <= 2 ^ 19) (S0 : / 10 ^ 4 <= s) (SX : s * (K * s) <= 3000).
Let u := ulp1 * K.

Lemma K1 : 1 <= K. Proof. unfold K. change 1 with (INR 1). apply le_INR. lia. Qed.
Lemma mK : INR m <= K /\ INR n <= K. Proof. unfold K. split; apply le_INR; lia. Qed.
Lemma U0 : ulp1 <= u. Proof. pose proof K1. pose proof ulp1_pos. unfold u. rewrite <- (Rmult_1_r ulp1) at 1. apply Rmult_le_compat_l; lra. Qed.
Lemma Ul : u <= / 2 ^ 34.
Proof. unfold u, ulp1. apply Rle_trans with (/ 2 ^ 53 * 2 ^ 19); [apply Rmult_le_compat_l; [apply Rlt_le, Rinv_0_lt_compat, pow_lt; lra|exact HK]|lra]. Qed.
Lemma U1 : u <= / 10 ^ 10. Proof. pose proof Ul. lra. Qed.
Lemma sp : 0 < s. Proof. assert (0 < / 10 ^ 4) by (apply Rinv_0_lt_compat, pow_lt; lra). lra. Qed.
Lemma S1 : / 10 ^ 4 <= s <= 100.
Proof.
  split; [exact S0|]. pose proof K1. pose proof sp. destruct (Rle_dec s 100) as [|L]; [assumption|]. exfalso.
  assert (100 * 100 <= s * s) by (apply Rmult_le_compat; lra). assert (s * s <= s * (K * s)). { replace (s * (K * s)) with (K * (s * s)) by ring. rewrite <- (Rmult_1_l (s * s)) at 1. apply Rmult_le_compat_r; [apply Rmult_le_pos; lra|lra]. } lra.
Qed.
Lemma KU : 2 * K * u <= / 10 ^ 4.
Proof. pose proof Ul. pose proof K1. apply Rle_trans with (2 * 2 ^ 19 * / 2 ^ 34); [|lra]. pose proof U0. pose proof ulp1_pos. apply Rmult_le_compat; lra. Qed.
Lemma point_near v p : point_at gR v p -> exists P, nth_error (g_points gF) v = Some P /\ nearp u s 40 P p.
Proof.
  intros H. destruct (Forall2_nth_l _ _ _ CP _ _ H) as (P & HP & F). exists P. split; [exact HP|]. inversion F as [|a x P' q Ha F' E1 E2]; subst. inversion F' as [|b y P'' q' Hb F'' E3 E4]; subst. inversion F''; subst.
  assert (EQ : 40 * (ulp1 * (K * s)) = 40 * (u * s)) by (unfold u; ring). rewrite EQ in Ha, Hb. exists a, b. repeat split; first [apply Ha|apply Hb].
Qed.

(** What is known of a result. *)
Definition good (x : R * R) (t : triangle) (b : bary float) : Prop :=
  exists p q r beta, triangle_at gR t p q r /\ bary_of p q r beta x /\ close_bary (13400 * (ulp1 * K)) b beta /\
    - (/ 10 ^ 10 / (s * s) + 300 * (ulp1 * K)) <= l1 beta /\ - (/ 10 ^ 10 / (s * s) + 300 * (ulp1 * K)) <= l2 beta /\ - (/ 10 ^ 10 / (s * s) + 300 * (ulp1 * K)) <= l3 beta.

Context (fx fy : float) (Nx : is_num fx) (Ny : is_num fy).
Let x := (real_of fx, real_of fy).
Context (Rx : - (K * s) <= fst x <= 2 * (K * s)) (Ry : - (K * s) <= snd x <= 2 * (K * s)).
Lemma X0 : nearp u s 0 [fx; fy] x.
Proof. exists fx, fy. split; [reflexivity|]. cbn [fst snd x]. split; (split; [assumption|]); unfold x; cbn [fst snd]; rewrite Rminus_diag_eq, Rabs_R0 by reflexivity; lra. Qed.

Lemma lat_in i k : (i <= k)%nat -> INR k <= K -> 0 <= INR i * s <= K * s.
Proof. intros H1 H2. pose proof sp. pose proof (pos_INR i). apply le_INR in H1. split; [apply Rmult_le_pos; lra|apply Rmult_le_compat_r; lra]. Qed.
Lemma tri_shape t p q r : triangle_at gR t p q r -> exists sg, (sg = 1 \/ sg = -1) /\ fst q - fst p = sg * s /\ snd q - snd p = 0 /\ fst r - fst p = sg * s /\ snd r - snd p = sg * s /\
  forall c, (c = p \/ c = q \/ c = r) -> 0 <= fst c <= K * s /\ 0 <= snd c <= K * s.
Proof.
  intros T. destruct (tri_lattice gR s m n M t p q r T) as (i & j & Hi & Hj & C). destruct mK as [MK NK].
  assert (A1 := lat_in i m ltac:(lia) MK). assert (A2 := lat_in (i + 1) m ltac:(lia) MK). assert (A3 := lat_in j n ltac:(lia) NK). assert (A4 := lat_in (j + 1) n ltac:(lia) NK). rewrite plus_INR in A2, A4. cbn [INR] in A2, A4.
  destruct C as [(_ & -> & -> & ->)|(_ & -> & -> & ->)]; [exists 1|exists (-1)]; (split; [tauto|]); cbn [fst snd]; repeat split; try ring; destruct H as [->|[->| ->]]; cbn [fst snd]; lra.
Qed.
Lemma far_within p : 0 <= fst p <= K * s -> 0 <= snd p <= K * s -> within s (2 * K) x p.
Proof. intros Hp Hq. split; apply Rabs_le; lra. Qed.
(** One triangle. *)
Lemma one_triangle t : In t (g_triangles gR) -> exists tv ins, points_of (g_points gF) t = Ok tv /\ @triangle_contains_point _ FNum tv [fx; fy] = Ok ins /\
  (ins = true -> exists b, @to_barycentric_coordinates _ FNum tv [fx; fy] = Ok b /\ good x t b) /\
  ((exists p q r, triangle_at gR t p q r /\ in_triangle p q r x) -> ins = true).
Proof.
  intros It. destruct (mesh_triangle_at gR s m n M t It) as (p & q & r & T). destruct (tri_shape t p q r T) as (sg & HS & G1 & G2 & G3 & G4 & IN).
  pose proof (mesh_cross gR s m n M _ _ _ _ T) as HD. pose proof sp as SP. pose proof S1 as SS. pose proof U0 as HU0. pose proof U1 as HU1. pose proof KU as HKU. pose proof K1 as HK1. pose proof ulp1_pos as ULP. pose proof Ul as HUl.
  assert (uP : 0 < u) by lra.
  destruct t as [[ta tb] tc]. pose proof T as (_ & Pa & Pb & Pc). destruct (point_near _ _ Pa) as (P & EP & NP). destruct (point_near _ _ Pb) as (Q & EQ & NQ). destruct (point_near _ _ Pc) as (R & ER & NR).
  exists (P, Q, R). set (b3 := sg * (snd x - snd p) / s). set (b2 := sg * (fst x - fst p) / s - b3). set (b1 := 1 - b2 - b3).
  assert (SG : sg * sg = 1) by (destruct HS as [-> | ->]; ring).
  assert (G6 : snd x - snd p = sg * (b3 * s)). { unfold b3. replace (sg * (sg * (snd x - snd p) / s * s)) with (sg * sg * (snd x - snd p)) by (field; lra). rewrite SG. ring. }
  assert (G5 : fst x - fst p = sg * ((b2 + b3) * s)). { unfold b2. replace (sg * ((sg * (fst x - fst p) / s - b3 + b3) * s)) with (sg * sg * (fst x - fst p)) by (field; lra). rewrite SG. ring. }
  assert (C1 : cross x q r = b1 * (s * s)).
  { unfold cross. replace (fst q) with (fst p + sg * s) by lra. replace (snd q) with (snd p) by lra. replace (fst r) with (fst p + sg * s) by lra. replace (snd r) with (snd p + sg * s) by lra.
    replace (fst x) with (fst p + sg * ((b2 + b3) * s)) by lra. replace (snd x) with (snd p + sg * (b3 * s)) by lra. transitivity (sg * sg * (b1 * (s * s))); [unfold b1; ring|rewrite SG; ring]. }
  assert (C2 : cross x r p = b2 * (s * s)).
  { unfold cross. replace (fst r) with (fst p + sg * s) by lra. replace (snd r) with (snd p + sg * s) by lra.
    replace (fst x) with (fst p + sg * ((b2 + b3) * s)) by lra. replace (snd x) with (snd p + sg * (b3 * s)) by lra. transitivity (sg * sg * (b2 * (s * s))); [ring|rewrite SG; ring]. }
  assert (C3 : cross x p q = b3 * (s * s)).
  { unfold cross. replace (fst q) with (fst p + sg * s) by lra. replace (snd q) with (snd p) by lra.
    replace (fst x) with (fst p + sg * ((b2 + b3) * s)) by lra. replace (snd x) with (snd p + sg * (b3 * s)) by lra. transitivity (sg * sg * (b3 * (s * s))); [ring|rewrite SG; ring]. }
  assert (SSP : 0 < s * s) by (apply Rmult_lt_0_compat; lra).
  assert (RS : forall t A, - A <= t <= A -> Rabs (sg * (t * s)) <= A * s).
  { intros t A Ht. assert (L : Rabs (t * s) <= A * s) by (rewrite Rabs_mult, (Rabs_pos_eq s) by lra; apply Rmult_le_compat_r; [lra|]; apply Rabs_le; lra).
    destruct HS as [-> | ->]; [rewrite Rmult_1_l; exact L|]. replace (-1 * (t * s)) with (- (t * s)) by ring. rewrite Rabs_Ropp. exact L. }
  assert (Vpq : within s 1 p q) by (split; [replace (fst p - fst q) with (sg * (-1 * s)) by lra|replace (snd p - snd q) with (sg * (0 * s)) by lra]; apply RS; lra).
  assert (Vqr : within s 1 q r) by (split; [replace (fst q - fst r) with (sg * (0 * s)) by lra|replace (snd q - snd r) with (sg * (-1 * s)) by lra]; apply RS; lra).
  assert (Vrp : within s 1 r p) by (split; [replace (fst r - fst p) with (sg * (1 * s)) by lra|replace (snd r - snd p) with (sg * (1 * s)) by lra]; apply RS; lra).
  assert (Fp := IN p ltac:(tauto)). assert (Fq := IN q ltac:(tauto)). assert (Fr := IN r ltac:(tauto)).
  destruct (contains_near u HU0 HU1 s SS (2 * K) _ _ x P p Q q R r ltac:(lra) HKU eq_refl X0 NP NQ NR (far_within p ltac:(tauto) ltac:(tauto)) (far_within q ltac:(tauto) ltac:(tauto)) (far_within r ltac:(tauto) ltac:(tauto)) Vpq Vqr Vrp HD) as (ins & EI & ACC & _).
  exists ins. split; [cbn; unfold py_nth; rewrite EP, EQ, ER; reflexivity|]. split; [exact EI|].
  assert (NEAR : forall A, 1 <= A <= 2 -> - A <= b2 + b3 <= A -> - A <= b3 <= A -> - A <= b2 + b3 - 1 <= A -> - A <= b3 - 1 <= A ->
    (ins = true -> - (/ 10 ^ 10 + / 10 ^ 25 + (170 * A + 85) * (u * (s * s))) <= cross x q r /\ - (/ 10 ^ 10 + / 10 ^ 25 + (170 * A + 85) * (u * (s * s))) <= cross x r p /\ - (/ 10 ^ 10 + / 10 ^ 25 + (170 * A + 85) * (u * (s * s))) <= cross x p q) /\
    ((170 * A + 85) * (u * (s * s)) <= 99 / 100 * / 10 ^ 10 -> 0 <= cross x q r -> 0 <= cross x r p -> 0 <= cross x p q -> ins = true)).
  { intros A HA H1 H2 H3 H4. assert (Wp : within s A x p) by (split; [rewrite G5|rewrite G6]; apply RS; lra).
    assert (Wq : within s A x q) by (split; [replace (fst x - fst q) with (sg * ((b2 + b3 - 1) * s)) by lra|replace (snd x - snd q) with (sg * (b3 * s)) by lra]; apply RS; lra).
    assert (Wr : within s A x r) by (split; [replace (fst x - fst r) with (sg * ((b2 + b3 - 1) * s)) by lra|replace (snd x - snd r) with (sg * ((b3 - 1) * s)) by lra]; apply RS; lra).
    assert (AU : A * u <= / 10 ^ 4) by (apply Rle_trans with (2 * K * u); [apply Rmult_le_compat_r; lra|exact HKU]).
    destruct (contains_near u HU0 HU1 s SS A _ _ x P p Q q R r ltac:(lra) AU eq_refl X0 NP NQ NR Wp Wq Wr Vpq Vqr Vrp HD) as (ins' & EI' & B). rewrite EI in EI'. injection EI' as <-. exact B. }
  rewrite C1, C2, C3 in *.
  assert (DIV : forall c b, - c <= b * (s * s) -> - (c / (s * s)) <= b).
  { intros c b H. apply Rmult_le_reg_r with (s * s); [exact SSP|]. replace (- (c / (s * s)) * (s * s)) with (- c) by (field; lra). exact H. }
  assert (SQ : / 10 ^ 8 <= s * s) by (apply Rle_trans with (/ 10 ^ 4 * / 10 ^ 4); [lra|apply Rmult_le_compat; lra]).
  assert (IS : / (s * s) <= 10 ^ 8) by (replace (10 ^ 8) with (/ / 10 ^ 8) by (field; lra); apply Rinv_le_contravar; lra). assert (IS0 : 0 < / (s * s)) by (apply Rinv_0_lt_compat; lra).
  split.
  - intros Hi. destruct (ACC Hi) as (A1 & A2 & A3). apply DIV in A1, A2, A3.
    set (c := (/ 10 ^ 10 + / 10 ^ 25 + (170 * (2 * K) + 85) * (u * (s * s))) / (s * s)) in *.
    assert (HC : c <= / 20).
    { replace c with ((/ 10 ^ 10 + / 10 ^ 25) * / (s * s) + (170 * (2 * K * u) + 85 * u)) by (unfold c; field; lra).
      assert ((/ 10 ^ 10 + / 10 ^ 25) * / (s * s) <= (/ 10 ^ 10 + / 10 ^ 25) * 10 ^ 8) by (apply Rmult_le_compat_l; lra). lra. }
    clearbody c. destruct (bary_near u HU0 HU1 s SS sg [fx; fy] x P p Q q R r b1 b2 b3 X0 NP NQ NR HS G1 G2 G3 G4 G5 G6 ltac:(unfold b1; lra) ltac:(lra) ltac:(lra) ltac:(lra)) as (b & EB & L1 & L2 & L3).
    exists b. split; [exact EB|]. exists p, q, r, (b1, b2, b3). split; [exact T|]. change (ulp1 * K) with u.
    assert (SB : b1 + b2 + b3 = 1) by (unfold b1; lra).
    split; [unfold bary_of, Tensors.l1, Tensors.l2, Tensors.l3; cbn [fst snd]; split; [exact SB|]; replace b1 with (1 - b2 - b3) by reflexivity; split|].
    { replace (fst q) with (fst p + sg * s) by lra. replace (fst r) with (fst p + sg * s) by lra. replace (fst x) with (fst p + sg * ((b2 + b3) * s)) by lra. ring. }
    { replace (snd q) with (snd p) by lra. replace (snd r) with (snd p + sg * s) by lra. replace (snd x) with (snd p + sg * (b3 * s)) by lra. ring. }
    split; [split; [exact L1|split; [exact L2|exact L3]]|].
    destruct (NEAR (11 / 10) ltac:(lra) ltac:(lra) ltac:(lra) ltac:(lra) ltac:(lra)) as [AC _]. destruct (AC Hi) as (Z1 & Z2 & Z3). apply DIV in Z1, Z2, Z3.
    replace ((/ 10 ^ 10 + / 10 ^ 25 + (170 * (11 / 10) + 85) * (u * (s * s))) / (s * s)) with (/ 10 ^ 10 / (s * s) + / 10 ^ 25 * / (s * s) + 272 * u) in Z1, Z2, Z3 by (field; lra).
    assert (W : / 10 ^ 25 * / (s * s) <= 28 * u). { apply Rle_trans with (/ 10 ^ 25 * 10 ^ 8); [apply Rmult_le_compat_l; lra|]. assert (/ 10 ^ 17 <= ulp1) by (unfold ulp1; apply Rinv_le_contravar; [apply pow_lt; lra|lra]). lra. }
    unfold Tensors.l1, Tensors.l2, Tensors.l3. cbn [fst snd]. repeat split; lra.
  - intros (p' & q' & r' & T' & w1 & w2 & w3 & W1 & W2 & W3 & WS & WX & WY).
    assert (EQP : forall v p p', point_at gR v p -> point_at gR v p' -> p = p').
    { unfold point_at. intros v [a1 a2] [a1' a2'] H H'. rewrite H in H'. cbn [fst snd] in H'. injection H' as -> ->. reflexivity. }
    destruct T' as (_ & Pa' & Pb' & Pc'). rewrite <- (EQP _ _ _ Pa Pa'), <- (EQP _ _ _ Pb Pb'), <- (EQP _ _ _ Pc Pc') in WX, WY.
    assert (E3 : b3 = w3). { apply Rmult_eq_reg_r with (sg * s); [|destruct HS as [-> | ->]; lra]. replace (b3 * (sg * s)) with (snd x - snd p) by (rewrite G6; ring). rewrite WY. replace (snd q) with (snd p) by lra. replace (snd r) with (snd p + sg * s) by lra. replace w1 with (1 - w2 - w3) by lra. ring. }
    assert (E2 : b2 + b3 = w2 + w3). { apply Rmult_eq_reg_r with (sg * s); [|destruct HS as [-> | ->]; lra]. replace ((b2 + b3) * (sg * s)) with (fst x - fst p) by (rewrite G5; ring). rewrite WX. replace (fst q) with (fst p + sg * s) by lra. replace (fst r) with (fst p + sg * s) by lra. replace w1 with (1 - w2 - w3) by lra. ring. }
    destruct (NEAR 1 ltac:(lra) ltac:(lra) ltac:(lra) ltac:(lra) ltac:(lra)) as [_ AC]. assert (b1 = w1) by (unfold b1; lra). apply AC.
    + replace ((170 * 1 + 85) * (u * (s * s))) with (255 * (ulp1 * (s * (K * s)))) by (unfold u; ring). assert (ulp1 * (s * (K * s)) <= / 2 ^ 53 * 3000) by (apply Rmult_le_compat_l; [lra|exact SX]). lra.
    + apply Rmult_le_pos; lra.
    + apply Rmult_le_pos; lra.
    + apply Rmult_le_pos; lra.
Qed.
Lemma locate_f ts : incl ts (g_triangles gR) ->
  (exists t b, @locate _ FNum (g_points gF) ts [fx; fy] = Ok (Some (t, b)) /\ good x t b) \/
  (@locate _ FNum (g_points gF) ts [fx; fy] = Ok None /\ forall t p q r, In t ts -> triangle_at gR t p q r -> ~ in_triangle p q r x).
Proof.
  induction ts as [|t ts IH]; intros I.
  - right. split; [reflexivity|]. intros t p q r [].
  - destruct (one_triangle t ltac:(apply I; left; reflexivity)) as (tv & ins & E1 & E2 & G & N). cbn [locate]. rewrite E1. cbn [bind]. rewrite E2. cbn [bind]. destruct ins.
    + destruct (G eq_refl) as (b & EB & GB). left. exists t, b. rewrite EB. split; [reflexivity|exact GB].
    + destruct IH as [L|[L NL]]; [intros z Hz; apply I; right; exact Hz|left; exact L|right]. split; [exact L|]. intros t' p q r [<-|Ht] T HI; [|exact (NL t' p q r Ht T HI)]. discriminate N. exists p, q, r. auto.
Qed.
Lemma float_located : (exists t b, @to_barycentric_point _ FNum gF [fx; fy] = Ok (Some (t, b)) /\ good x t b) \/
  (@to_barycentric_point _ FNum gF [fx; fy] = Ok None /\ ~ (0 <= fst x <= INR m * s /\ 0 <= snd x <= INR n * s)).
Proof.
  unfold to_barycentric_point. rewrite ST. destruct (locate_f (g_triangles gR) (fun _ H => H)) as [L|[L N]]; [left; exact L|right]. split; [exact L|]. intros [H1 H2].
  destruct (mesh_covering gR s m n sp M x Hm Hn H1 H2) as (t & p & q & r & T & I). refine (N t p q r _ T I). destruct t as [[? ?] ?]. apply T.
Qed.
End FL.
