(** * Lipschitz functions on boxes attain their minimum. *)
From Coq Require Import Reals Lra Lia List.
From Coquelicot Require Import Coquelicot.
Local Open Scope R_scope.
Import ListNotations.

Definition inbox (bs : list (R * R)) (x : list R) : Prop := Forall2 (fun b v => fst b <= v <= snd b) bs x.
Fixpoint dist1 (x y : list R) : R := match x, y with a :: x', b :: y' => Rabs (a - b) + dist1 x' y' | _, _ => 0 end.
Lemma dist1_pos x y : 0 <= dist1 x y.
Proof. revert y. induction x as [|a x IH]; intros [|b y]; cbn; try lra. pose proof (Rabs_pos (a - b)). pose proof (IH y). lra. Qed.
Lemma dist1_refl x : dist1 x x = 0.
Proof. induction x as [|a x IH]; cbn; [reflexivity|]. rewrite IH, Rminus_diag_eq, Rabs_R0 by reflexivity. ring. Qed.
Lemma dist1_nth i x y : length x = length y -> Rabs (nth i x 0 - nth i y 0) <= dist1 x y.
Proof.
  revert i y. induction x as [|a x IH]; intros i [|b y] L; try discriminate; cbn [dist1].
  - destruct i; cbn; rewrite Rminus_diag_eq, Rabs_R0 by reflexivity; lra.
  - injection L as L. destruct i as [|i]; cbn [nth]; [pose proof (dist1_pos x y); lra|]. pose proof (IH i y L). pose proof (Rabs_pos (a - b)). lra.
Qed.
Lemma inbox_length bs x : inbox bs x -> length x = length bs.
Proof. intros H. induction H; cbn; congruence. Qed.
Fixpoint width (bs : list (R * R)) : R := match bs with [] => 0 | b :: r => (snd b - fst b) + width r end.
Lemma dist1_width bs x y : inbox bs x -> inbox bs y -> dist1 x y <= width bs.
Proof.
  intros H. revert y. induction H as [|b v bs x B H IH]; intros y Hy; [cbn; lra|]. inversion Hy as [|? w ? y' C Hy']; subst. cbn [dist1 width]. pose proof (IH y' Hy'). assert (Rabs (v - w) <= snd b - fst b) by (apply Rabs_le; lra). lra.
Qed.

Definition clamp (lo hi v : R) : R := Rmax lo (Rmin hi v).
Lemma clamp_in lo hi v : lo <= hi -> lo <= clamp lo hi v <= hi.
Proof. intros H. unfold clamp. split; [apply Rmax_l|]. apply Rmax_lub; [exact H|apply Rmin_l]. Qed.
Lemma clamp_id lo hi v : lo <= v <= hi -> clamp lo hi v = v.
Proof. intros H. unfold clamp. rewrite Rmin_right by lra. apply Rmax_right. lra. Qed.
Lemma clamp_lip lo hi v w : lo <= hi -> Rabs (clamp lo hi v - clamp lo hi w) <= Rabs (v - w).
Proof. intros H. unfold clamp, Rmax, Rmin. destruct (Rle_dec hi v); destruct (Rle_dec hi w); repeat destruct (Rle_dec _ _); unfold Rabs; repeat destruct (Rcase_abs _); lra. Qed.

Lemma lip_min bs : forall (f : list R -> R) K, (forall b, In b bs -> fst b <= snd b) -> (forall x y, inbox bs x -> inbox bs y -> Rabs (f x - f y) <= K * dist1 x y) ->
  exists x, inbox bs x /\ forall y, inbox bs y -> f x <= f y.
Proof.
  induction bs as [|[lo hi] bs IH]; intros f K NE LIP.
  - exists []. split; [constructor|]. intros y Hy. inversion Hy. lra.
  - assert (H : lo <= hi) by exact (NE (lo, hi) (or_introl eq_refl)).
    assert (IN : forall v x, inbox bs x -> inbox ((lo, hi) :: bs) (clamp lo hi v :: x)) by (intros v x Hx; constructor; [apply clamp_in, H|exact Hx]).
    assert (MIN : forall v, exists x, inbox bs x /\ forall y, inbox bs y -> f (clamp lo hi v :: x) <= f (clamp lo hi v :: y)).
    { intros v. apply (IH (fun x => f (clamp lo hi v :: x)) K); [intros b Hb; apply NE; right; exact Hb|]. intros x y Hx Hy. pose proof (LIP _ _ (IN v x Hx) (IN v y Hy)) as L. cbn [dist1] in L. rewrite (Rminus_diag_eq (clamp lo hi v) (clamp lo hi v) eq_refl), Rabs_R0, Rplus_0_l in L. exact L. }
    set (P := fun v r => exists x, inbox bs x /\ r = f (clamp lo hi v :: x)). set (m := fun v => real (Glb_Rbar (P v))).
    assert (MV : forall v x, inbox bs x -> (forall y, inbox bs y -> f (clamp lo hi v :: x) <= f (clamp lo hi v :: y)) -> m v = f (clamp lo hi v :: x)).
    { intros v x Hx Mx. unfold m. rewrite (is_glb_Rbar_unique (P v) (Finite (f (clamp lo hi v :: x)))); [reflexivity|]. split.
      - intros r [y [Hy ->]]. cbn. apply Mx, Hy.
      - intros b Hb. apply (Hb (f (clamp lo hi v :: x))). exists x. auto. }
    assert (ML : forall v w, m v <= m w + Rmax K 0 * Rabs (v - w)).
    { intros v w. destruct (MIN v) as (x & Hx & Mx). destruct (MIN w) as (y & Hy & My). rewrite (MV v x Hx Mx), (MV w y Hy My). pose proof (Mx y Hy) as A. pose proof (LIP _ _ (IN v y Hy) (IN w y Hy)) as B. cbn [dist1] in B. rewrite dist1_refl, Rplus_0_r in B.
      pose proof (Rle_abs (f (clamp lo hi v :: y) - f (clamp lo hi w :: y))) as C. pose proof (clamp_lip lo hi v w H) as D. pose proof (Rabs_pos (clamp lo hi v - clamp lo hi w)) as E. pose proof (Rmax_l K 0). pose proof (Rmax_r K 0).
      assert (K * Rabs (clamp lo hi v - clamp lo hi w) <= Rmax K 0 * Rabs (v - w)) by (apply Rle_trans with (Rmax K 0 * Rabs (clamp lo hi v - clamp lo hi w)); [apply Rmult_le_compat_r; assumption|apply Rmult_le_compat_l; assumption]). lra. }
    assert (MC : forall v, continuity_pt m v).
    { intros v e He. exists (e / (Rmax K 0 + 1)). pose proof (Rmax_r K 0) as K0. split; [apply Rdiv_lt_0_compat; lra|]. intros w [_ Hw]. cbn in Hw |- *. unfold R_dist in *.
      pose proof (ML v w) as A. pose proof (ML w v) as B. rewrite (Rabs_minus_sym v w) in A.
      assert (C : Rmax K 0 * Rabs (w - v) < e). { apply Rle_lt_trans with (Rmax K 0 * (e / (Rmax K 0 + 1))); [apply Rmult_le_compat_l; lra|]. apply (Rmult_lt_reg_r (Rmax K 0 + 1)); [lra|]. unfold Rdiv. rewrite !Rmult_assoc, Rinv_l, Rmult_1_r by lra. nra. }
      apply Rabs_def1; lra. }
    destruct (continuity_ab_min m lo hi H (fun v _ => MC v)) as (v & Mv & Hv). destruct (MIN v) as (x & Hx & Mx). exists (clamp lo hi v :: x). split; [apply IN, Hx|]. intros y Hy. inversion Hy as [|? w ? y' C Hy']; subst. cbn [fst snd] in C.
    rewrite <- (MV v x Hx Mx). destruct (MIN w) as (z & Hz & Mz). apply Rle_trans with (m w); [apply Mv, C|]. rewrite (MV w z Hz Mz). rewrite <- (clamp_id lo hi w C) at 2. apply Mz, Hy'.
Qed.

(** Closure properties. *)
Definition lips (bs : list (R * R)) (f : list R -> R) : Prop := exists K, 0 <= K /\ forall x y, inbox bs x -> inbox bs y -> Rabs (f x - f y) <= K * dist1 x y.
Section L.
Context (bs : list (R * R)).
Lemma lips_ext f k : (forall x, inbox bs x -> f x = k x) -> lips bs k -> lips bs f.
Proof. intros E (K & K0 & H). exists K. split; [exact K0|]. intros x y Hx Hy. rewrite (E x Hx), (E y Hy). apply H; assumption. Qed.
Lemma lips_const c : lips bs (fun _ => c).
Proof. exists 0. split; [lra|]. intros x y _ _. rewrite Rminus_diag_eq, Rabs_R0 by reflexivity. lra. Qed.
Lemma lips_nth i : lips bs (fun x => nth i x 0).
Proof. exists 1. split; [lra|]. intros x y Hx Hy. rewrite Rmult_1_l. apply dist1_nth. rewrite (inbox_length _ _ Hx), (inbox_length _ _ Hy). reflexivity. Qed.
Lemma lips_plus f k : lips bs f -> lips bs k -> lips bs (fun x => f x + k x).
Proof.
  intros (A & A0 & HA) (B & B0 & HB). exists (A + B). split; [lra|]. intros x y Hx Hy. pose proof (HA x y Hx Hy). pose proof (HB x y Hx Hy). replace (f x + k x - (f y + k y)) with ((f x - f y) + (k x - k y)) by ring. pose proof (Rabs_triang (f x - f y) (k x - k y)). lra.
Qed.
Lemma lips_scal c f : lips bs f -> lips bs (fun x => c * f x).
Proof.
  intros (A & A0 & HA). exists (Rabs c * A). pose proof (Rabs_pos c). split; [nra|]. intros x y Hx Hy. rewrite <- Rmult_minus_distr_l, Rabs_mult, Rmult_assoc. apply Rmult_le_compat_l; [assumption|]. apply HA; assumption.
Qed.
Lemma lips_minus f k : lips bs f -> lips bs k -> lips bs (fun x => f x - k x).
Proof. intros HA HB. apply (lips_ext _ (fun x => f x + -1 * k x)); [intros; ring|]. apply lips_plus; [exact HA|apply lips_scal, HB]. Qed.
Lemma lips_bounded f x0 : inbox bs x0 -> lips bs f -> exists M, 0 <= M /\ forall x, inbox bs x -> - M <= f x <= M.
Proof.
  intros H0 (A & A0 & HA). exists (Rabs (f x0) + A * width bs). assert (W : 0 <= width bs) by (pose proof (dist1_width bs x0 x0 H0 H0); rewrite dist1_refl in *; assumption). pose proof (Rabs_pos (f x0)). split; [nra|]. intros x Hx. pose proof (HA x x0 Hx H0) as D. pose proof (dist1_width bs x x0 Hx H0) as E.
  assert (A * dist1 x x0 <= A * width bs) by (apply Rmult_le_compat_l; assumption). apply Rabs_le_between. replace (f x) with ((f x - f x0) + f x0) by ring. pose proof (Rabs_triang (f x - f x0) (f x0)). lra.
Qed.
Lemma lips_comp f g g' x0 : inbox bs x0 -> (forall t, is_derive g t (g' t)) -> (forall t, continuity_pt g' t) -> lips bs f -> lips bs (fun x => g (f x)).
Proof.
  intros H0 DG CG LF. destruct (lips_bounded f x0 H0 LF) as (M & M0 & BM). destruct LF as (A & A0 & HA).
  assert (CA : forall t, - M <= t <= M -> continuity_pt (fun t => Rabs (g' t)) t) by (intros t _; apply (continuity_pt_comp g' Rabs); [apply CG|apply Rcontinuity_abs]).
  destruct (continuity_ab_maj (fun t => Rabs (g' t)) (- M) M ltac:(lra) CA) as (z & MZ & _). exists (Rabs (g' z) * A). pose proof (Rabs_pos (g' z)). split; [nra|]. intros x y Hx Hy. pose proof (BM x Hx) as Bx. pose proof (BM y Hy) as By. pose proof (HA x y Hx Hy) as D.
  destruct (MVT_gen g (f y) (f x) g') as (c & C & E).
  - intros t _. apply DG.
  - intros t _. apply derivable_continuous_pt. exists (g' t). apply is_derive_Reals, DG.
  - rewrite E, Rabs_mult, Rmult_assoc. apply Rmult_le_compat; try apply Rabs_pos; [|exact D]. apply MZ. pose proof (Rmin_glb (f y) (f x) (- M) ltac:(lra) ltac:(lra)). pose proof (Rmax_lub (f y) (f x) M ltac:(lra) ltac:(lra)). lra.
Qed.
Lemma lips_square f x0 : inbox bs x0 -> lips bs f -> lips bs (fun x => f x * f x).
Proof.
  intros H0 LF. apply (lips_comp f (fun t => t * t) (fun t => 2 * t) x0 H0); [| |exact LF].
  - intros t. auto_derive; [exact I|ring].
  - intros t. apply continuity_pt_mult; [apply continuity_pt_const; intros ? ?; reflexivity|apply derivable_continuous_pt, derivable_pt_id].
Qed.
Lemma lips_mult f k x0 : inbox bs x0 -> lips bs f -> lips bs k -> lips bs (fun x => f x * k x).
Proof.
  intros H0 HF HK. apply (lips_ext _ (fun x => 1/4 * ((f x + k x) * (f x + k x)) - 1/4 * ((f x - k x) * (f x - k x)))); [intros; field|].
  apply lips_minus; apply lips_scal, (lips_square _ x0 H0); [apply lips_plus|apply lips_minus]; assumption.
Qed.
End L.
