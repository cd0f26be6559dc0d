(** * Analysis for the mechanical objective: lists as pairs of lists, linear functionals, the elastic density and its barrier. *)
From Coq Require Import Reals Lra Lia List.
From Coquelicot Require Import Coquelicot.
From Verif.Spec Require Import GridSpec QuadSpec EnergySpec.
From Verif.Proofs Require Import LipMin LipMore IntegP StepF.
Local Open Scope R_scope.
Import ListNotations.

(** ** Products of boxes *)
Lemma inbox_app b1 b2 x : inbox (b1 ++ b2) x <-> inbox b1 (firstn (length b1) x) /\ inbox b2 (skipn (length b1) x).
Proof.
  revert x. induction b1 as [|b b1 IH]; intros x; cbn [length app firstn skipn]; [split; [intros H; split; [constructor|exact H]|tauto]|].
  split.
  - intros H. inversion H as [|? v ? x' C H']; subst. apply IH in H' as [A B]. cbn [firstn skipn]. split; [constructor; assumption|exact B].
  - intros [A B]. destruct x as [|v x]; [inversion A|]. cbn [firstn skipn] in *. inversion A; subst. constructor; [assumption|]. apply IH. split; assumption.
Qed.
Lemma dist1_firstn n x y : dist1 (firstn n x) (firstn n y) <= dist1 x y.
Proof.
  revert x y. induction n as [|n IH]; intros [|a x] [|b y]; cbn [firstn dist1]; try lra; try (pose proof (Rabs_pos (a - b)); pose proof (dist1_pos x y); lra). pose proof (IH x y). lra.
Qed.
Lemma dist1_skipn n x y : length x = length y -> dist1 (skipn n x) (skipn n y) <= dist1 x y.
Proof.
  revert x y. induction n as [|n IH]; intros [|a x] [|b y] L; try discriminate; cbn [skipn]; try lra. injection L as L. cbn [dist1]. pose proof (IH x y L). pose proof (Rabs_pos (a - b)). lra.
Qed.
Lemma lips_firstn b1 b2 f : lips b1 f -> lips (b1 ++ b2) (fun x => f (firstn (length b1) x)).
Proof.
  intros (K & K0 & H). exists K. split; [exact K0|]. intros x y Hx Hy. apply inbox_app in Hx as [Hx _], Hy as [Hy _]. apply Rle_trans with (1 := H _ _ Hx Hy). apply Rmult_le_compat_l; [exact K0|apply dist1_firstn].
Qed.
Lemma lips_skipn b1 b2 f : lips b2 f -> lips (b1 ++ b2) (fun x => f (skipn (length b1) x)).
Proof.
  intros (K & K0 & H). exists K. split; [exact K0|]. intros x y Hx Hy. assert (L : length x = length y) by (rewrite (inbox_length _ _ Hx), (inbox_length _ _ Hy); reflexivity). apply inbox_app in Hx as [_ Hx], Hy as [_ Hy]. apply Rle_trans with (1 := H _ _ Hx Hy). apply Rmult_le_compat_l; [exact K0|apply dist1_skipn, L].
Qed.

(** ** Linear functionals *)
Lemma lincomb_zero n y : length y = n -> lincomb 1 (repeat 0 n) 1 y = y.
Proof. intros <-. induction y as [|v y IH]; [reflexivity|]. unfold lincomb in *. cbn. f_equal; [ring|exact IH]. Qed.
Lemma linear_tail n X : linear (S n) X -> linear n (fun z => X (0 :: z)).
Proof.
  intros H al y be z Ly Lz. replace (0 :: lincomb al y be z) with (lincomb al (0 :: y) be (0 :: z)); [apply H; cbn; congruence|]. unfold lincomb. cbn. f_equal. ring.
Qed.
Lemma linear_lip n : forall X, linear n X -> exists K, 0 <= K /\ forall x y, length x = n -> length y = n -> Rabs (X x - X y) <= K * dist1 x y.
Proof.
  induction n as [|n IH]; intros X H.
  - exists 0. split; [lra|]. intros [|? ?] [|? ?] L L'; try discriminate. rewrite Rminus_diag_eq, Rabs_R0 by reflexivity. lra.
  - destruct (IH _ (linear_tail n X H)) as (K & K0 & HK). set (e := X (1 :: repeat 0 n)). exists (Rabs e + K). pose proof (Rabs_pos e). split; [lra|]. intros [|a x] [|b y] L L'; try discriminate. injection L as L. injection L' as L'.
    assert (S : forall v z, length z = n -> X (v :: z) = v * e + X (0 :: z)).
    { intros v z Lz. replace (v :: z) with (lincomb v (1 :: repeat 0 n) 1 (0 :: z)) at 1.
      - rewrite H by (cbn; rewrite ?repeat_length; congruence). unfold e. ring.
      - unfold lincomb. cbn. f_equal; [ring|]. clear - Lz. subst n. induction z as [|w z IH]; [reflexivity|]. cbn. f_equal; [ring|exact IH]. }
    rewrite (S a x L), (S b y L'). replace (a * e + X (0 :: x) - (b * e + X (0 :: y))) with (e * (a - b) + (X (0 :: x) - X (0 :: y))) by ring. cbn [dist1]. pose proof (HK x y L L') as D. pose proof (Rabs_triang (e * (a - b)) (X (0 :: x) - X (0 :: y))) as T. rewrite Rabs_mult in T.
    pose proof (Rabs_pos (a - b)). pose proof (dist1_pos x y). assert (0 <= Rabs e * dist1 x y) by (apply Rmult_le_pos; assumption). assert (0 <= K * Rabs (a - b)) by (apply Rmult_le_pos; assumption). lra.
Qed.
Lemma lips_linear bs n X : length bs = n -> linear n X -> lips bs X.
Proof. intros L H. destruct (linear_lip n X H) as (K & K0 & HK). exists K. split; [exact K0|]. intros x y Hx Hy. apply HK; [rewrite (inbox_length _ _ Hx)|rewrite (inbox_length _ _ Hy)]; exact L. Qed.

(** ** Sums *)
Lemma lips_wsum bs {A} (ps : list A) ws (f : list R -> A -> R) : (forall p, In p ps -> lips bs (fun x => f x p)) -> lips bs (fun x => weighted_sum ps ws (f x)).
Proof.
  revert ws. induction ps as [|p ps IH]; intros [|w ws] H; try exact (lips_const bs 0). cbn [weighted_sum]. apply lips_plus; [apply lips_scal, H; left; reflexivity|]. apply IH. intros p' Hp'. apply H. right. exact Hp'.
Qed.
Lemma lips_sumo bs {A} (ps : list A) (f : list R -> A -> R) : (forall p, In p ps -> lips bs (fun x => f x p)) -> lips bs (fun x => sum_over (f x) ps).
Proof.
  induction ps as [|p ps IH]; intros H; [exact (lips_const bs 0)|]. cbn [sum_over]. apply lips_plus; [apply H; left; reflexivity|]. apply IH. intros p' Hp'. apply H. right. exact Hp'.
Qed.
Lemma sum_nonneg {A} (f : A -> R) l : (forall a, In a l -> 0 <= f a) -> 0 <= sum_over f l.
Proof. induction l as [|a l IH]; intros H; cbn [sum_over]; [lra|]. pose proof (H a (or_introl eq_refl)). assert (0 <= sum_over f l) by (apply IH; intros b Hb; apply H; right; exact Hb). lra. Qed.
Lemma sum_zero {A} (f : A -> R) l : (forall a, In a l -> 0 <= f a) -> (sum_over f l = 0 <-> forall a, In a l -> f a = 0).
Proof.
  induction l as [|a l IH]; intros H; cbn [sum_over]; [split; [intros _ a []|reflexivity]|]. pose proof (H a (or_introl eq_refl)) as A0. assert (HH : forall b, In b l -> 0 <= f b) by (intros b Hb; apply H; right; exact Hb). pose proof (sum_nonneg f l HH) as S0. specialize (IH HH). split.
  - intros E. assert (f a = 0) by lra. assert (Z : sum_over f l = 0) by lra. intros b [<- |Hb]; [assumption|apply IH; assumption].
  - intros E. rewrite (E a (or_introl eq_refl)). rewrite (proj2 IH); [ring|]. intros b Hb. apply E. right. exact Hb.
Qed.
Lemma uniform {A} (l : list A) (P : A -> R -> Prop) : (forall a c d, P a c -> c <= d -> P a d) -> (forall a, In a l -> exists c, P a c) -> exists c, 0 <= c /\ forall a, In a l -> P a c.
Proof.
  intros MO. induction l as [|a l IH]; intros H; [exists 0; split; [lra|intros a []]|]. destruct IH as (c & C0 & HC); [intros b Hb; apply H; right; exact Hb|]. destruct (H a (or_introl eq_refl)) as (d & HD). exists (Rmax c d). split; [apply Rle_trans with c; [exact C0|apply Rmax_l]|].
  intros b [<- |Hb]; [exact (MO a d _ HD (Rmax_r c d))|exact (MO b c _ (HC b Hb) (Rmax_l c d))].
Qed.
Lemma weight_floor ws : (forall w : R, In w ws -> 0 < w) -> exists w0, 0 < w0 /\ forall w, In w ws -> w0 <= w.
Proof.
  induction ws as [|w ws IH]; intros H; [exists 1; split; [lra|intros w []]|]. destruct IH as (c & C0 & HC); [intros v Hv; apply H; right; exact Hv|]. pose proof (H w (or_introl eq_refl)). exists (Rmin c w). split; [apply Rmin_glb_lt; assumption|]. intros v [<- |Hv]; [apply Rmin_r|]. apply Rle_trans with c; [apply Rmin_l|exact (HC v Hv)].
Qed.
Definition total_weight (ws : list R) : R := sum_over (fun w => w) ws.
(** A weighted sum of terms above [- C] is large if one of the terms is. *)
Lemma wsum_floor {A} (ps : list A) ws f w0 C : 0 < w0 -> (forall w, In w ws -> w0 <= w) -> length ps = length ws -> 0 <= C -> (forall p, In p ps -> - C <= f p) ->
  - C * total_weight ws <= weighted_sum ps ws f /\ forall p, In p ps -> w0 * (f p + C) - C * total_weight ws <= weighted_sum ps ws f.
Proof.
  intros W0. revert ws. induction ps as [|p ps IH]; intros [|w ws] W L C0 H; try discriminate; unfold total_weight in *; cbn [weighted_sum sum_over]; [split; [lra|intros p []]|].
  destruct (IH ws) as [I1 I2]; [intros v Hv; apply W; right; exact Hv|cbn in L; lia|exact C0|intros v Hv; apply H; right; exact Hv|]. pose proof (W w (or_introl eq_refl)) as Hw. pose proof (H p (or_introl eq_refl)) as Hp. set (S := sum_over _ _) in *. set (V := weighted_sum _ _ _) in *.
  assert (D : 0 <= (w - w0) * (f p + C)) by (apply Rmult_le_pos; lra). assert (D' : 0 <= w0 * (f p + C)) by (apply Rmult_le_pos; lra). split; [lra|]. intros x [<- |Hx]; [lra|]. pose proof (I2 x Hx). lra.
Qed.

(** ** The elastic density *)
Definition density (e N d : R) : R := (1 - e) * (N - 2 - 2 * ln d + (d - 1) ^ 2) + e * ((N * / d - 9 / 4) ^ 2 + (d ^ 2 + (/ d) ^ 2 - 2) ^ 2).
Lemma ln_bound x : 0 < x -> ln x <= x - 1.
Proof. intros H. pose proof (exp_ineq1_le (ln x)) as K. rewrite exp_ln in K by exact H. lra. Qed.
Lemma barrier e M : 0 < e -> 0 <= M -> exists C, forall N d, 0 <= N <= M -> 0 < d <= M -> e / 2 * (/ d) ^ 2 - C <= density e N d.
Proof.
  intros He HM. set (A := Rabs (1 - e)). pose proof (Rabs_pos (1 - e)) as HA. fold A in HA. set (K := M * M + M + 4). exists (3 * e + A * K + 2 * (A * A) / e). intros N d HN Hd. unfold density. set (u := / d). assert (U : 0 < u) by (apply Rinv_0_lt_compat; lra). assert (DU : d * u = 1) by (unfold u; field; lra).
  set (W := N - 2 - 2 * ln d + (d - 1) ^ 2). assert (WB : - (K + 2 * u) <= W <= K + 2 * u).
  { pose proof (ln_bound d ltac:(lra)) as L1. pose proof (ln_bound u U) as L2. assert (EL : ln u = - ln d) by (unfold u; apply ln_Rinv; lra). rewrite EL in L2. unfold W, K. pose proof (pow2_ge_0 (d - 1)). assert ((d - 1) ^ 2 <= M * M + 1) by nra. split; nra. }
  assert (T1 : - (A * (K + 2 * u)) <= (1 - e) * W).
  { assert (Z : Rabs ((1 - e) * W) <= A * (K + 2 * u)) by (rewrite Rabs_mult; apply Rmult_le_compat_l; [exact HA|apply Rabs_le; exact WB]). pose proof (Rabs_le_between ((1 - e) * W) (A * (K + 2 * u))) as B. apply B in Z. lra. }
  set (s := d ^ 2 + u ^ 2 - 2). assert (S1 : s ^ 2 >= u ^ 2 - 3) by (unfold s; pose proof (pow2_ge_0 (d ^ 2 + u ^ 2 - 2 - 1 / 2)); pose proof (pow2_ge_0 d); nra).
  pose proof (pow2_ge_0 (N * u - 9 / 4)) as S2. assert (T2 : e * (u ^ 2 - 3) <= e * ((N * u - 9 / 4) ^ 2 + s ^ 2)) by (apply Rmult_le_compat_l; lra).
  assert (T3 : 2 * A * u <= e / 2 * u ^ 2 + 2 * (A * A) / e).
  { pose proof (pow2_ge_0 (e * u - 2 * A)) as Q. apply (Rmult_le_reg_l (2 * e)); [lra|]. replace (2 * e * (e / 2 * u ^ 2 + 2 * (A * A) / e)) with (e * e * u ^ 2 + 4 * (A * A)) by (field; lra). lra. }
  lra.
Qed.
(** The density with the determinant cut off from below is Lipschitz. *)
Lemma lips_density bs x0 e c (N d : list R -> R) : inbox bs x0 -> 0 < c -> lips bs N -> lips bs d -> lips bs (fun x => density e (N x) (Rmax c (d x))).
Proof.
  intros H0 Hc LN LD. assert (LM : lips bs (fun x => Rmax c (d x))) by (apply lips_max; exact LD). assert (B : forall x, inbox bs x -> c <= Rmax c (d x)) by (intros; apply Rmax_l).
  pose proof (lips_inv bs _ c Hc B LM) as LI. pose proof (lips_ln bs _ c Hc B LM) as LL. assert (SQ : forall f, lips bs f -> lips bs (fun x => f x ^ 2)) by (intros f Lf; apply (lips_ext bs _ (fun x => f x * f x)); [intros; ring|apply (lips_square bs f x0 H0 Lf)]).
  unfold density. apply lips_plus; apply lips_scal, lips_plus.
  - apply lips_minus; [apply lips_minus; [exact LN|apply lips_const]|apply lips_scal, LL].
  - apply (SQ (fun x => Rmax c (d x) - 1)), lips_minus; [exact LM|apply lips_const].
  - apply (SQ (fun x => N x * / Rmax c (d x) - 9 / 4)), lips_minus; [apply (lips_mult bs _ _ x0 H0); assumption|apply lips_const].
  - apply (SQ (fun x => Rmax c (d x) ^ 2 + (/ Rmax c (d x)) ^ 2 - 2)), lips_minus; [|apply lips_const]. apply lips_plus; apply SQ; assumption.
Qed.
