(** * Bounded Lipschitz functions: closed under the operations the material functions use (for C111-C113). *)
From Coq Require Import Reals Lra Psatz.
From Coquelicot Require Import Coquelicot.
Local Open Scope R_scope.

Section Tame.
Context {X : Type} (gap : X -> X -> R) (K : X -> Prop) (gap_pos : forall x y, 0 <= gap x y).
Definition tame (f : X -> R) : Prop := exists B L, 0 <= B /\ 0 <= L /\ (forall x, K x -> Rabs (f x) <= B) /\ forall x y, K x -> K y -> Rabs (f x - f y) <= L * gap x y.

Lemma tame_intro (f : X -> R) B L : (forall x, K x -> Rabs (f x) <= B) -> (forall x y, K x -> K y -> Rabs (f x - f y) <= L * gap x y) -> tame f.
Proof.
  intros HB HL. exists (Rmax 0 B), (Rmax 0 L). split; [apply Rmax_l|]. split; [apply Rmax_l|]. split.
  - intros x Hx. eapply Rle_trans; [apply HB, Hx|apply Rmax_r].
  - intros x y Hx Hy. eapply Rle_trans; [apply HL; assumption|]. apply Rmult_le_compat_r; [apply gap_pos|apply Rmax_r].
Qed.
Lemma tame_ext f g : (forall x, K x -> f x = g x) -> tame f -> tame g.
Proof. intros E (B & L & HB & HL & H1 & H2). exists B, L. split; [exact HB|]. split; [exact HL|]. split; [intros x Hx; rewrite <- E by exact Hx; auto|intros x y Hx Hy; rewrite <- !E by assumption; auto]. Qed.
Lemma tame_const c : tame (fun _ => c).
Proof. apply (tame_intro _ (Rabs c) 0); [intros; lra|intros; rewrite Rminus_diag_eq, Rabs_R0 by reflexivity; lra]. Qed.
Lemma tame_plus f g : tame f -> tame g -> tame (fun x => f x + g x).
Proof.
  intros (B & L & HB & HL & H1 & H2) (B' & L' & HB' & HL' & H1' & H2'). exists (B + B'), (L + L'). split; [lra|]. split; [lra|]. split.
  - intros x Hx. eapply Rle_trans; [apply Rabs_triang|]. specialize (H1 x Hx). specialize (H1' x Hx). lra.
  - intros x y Hx Hy. replace (f x + g x - (f y + g y)) with ((f x - f y) + (g x - g y)) by ring. eapply Rle_trans; [apply Rabs_triang|]. specialize (H2 x y Hx Hy). specialize (H2' x y Hx Hy). lra.
Qed.
Lemma tame_mult f g : tame f -> tame g -> tame (fun x => f x * g x).
Proof.
  intros (B & L & HB & HL & H1 & H2) (B' & L' & HB' & HL' & H1' & H2'). exists (B * B'), (B * L' + L * B'). split; [apply Rmult_le_pos; lra|]. split; [apply Rplus_le_le_0_compat; apply Rmult_le_pos; lra|]. split.
  - intros x Hx. rewrite Rabs_mult. apply Rmult_le_compat; auto using Rabs_pos.
  - intros x y Hx Hy. replace (f x * g x - f y * g y) with (f x * (g x - g y) + (f x - f y) * g y) by ring. eapply Rle_trans; [apply Rabs_triang|]. rewrite !Rabs_mult.
    assert (A : Rabs (f x) * Rabs (g x - g y) <= B * (L' * gap x y)) by (apply Rmult_le_compat; auto using Rabs_pos).
    assert (C : Rabs (f x - f y) * Rabs (g y) <= L * gap x y * B') by (apply Rmult_le_compat; auto using Rabs_pos). lra.
Qed.
Lemma tame_scal c f : tame f -> tame (fun x => c * f x). Proof. intros H. exact (tame_mult _ _ (tame_const c) H). Qed.
Lemma tame_opp f : tame f -> tame (fun x => - f x).
Proof. intros H. apply tame_ext with (fun x => -1 * f x); [intros; ring|apply tame_scal, H]. Qed.
Lemma tame_minus f g : tame f -> tame g -> tame (fun x => f x - g x).
Proof. intros H H'. apply (tame_plus f (fun x => - g x)); [exact H|apply tame_opp, H']. Qed.
Lemma tame_pow f n : tame f -> tame (fun x => f x ^ n).
Proof. intros H. induction n as [|n IH]; [exact (tame_const 1)|]. exact (tame_mult f (fun x => f x ^ n) H IH). Qed.
(** Composition with a function that is Lipschitz where it is needed. *)
Lemma tame_comp (P : R -> Prop) (h : R -> R) f c Lh : (forall x, K x -> P (f x)) -> (forall u v, P u -> P v -> Rabs (h u - h v) <= Lh * Rabs (u - v)) -> (forall x, K x -> Rabs (h (f x)) <= c) -> tame f -> tame (fun x => h (f x)).
Proof.
  intros HP HL HB (B & L & _ & L0 & _ & H2). apply (tame_intro _ c (Rabs Lh * L)); [exact HB|]. intros x y Hx Hy. eapply Rle_trans; [apply HL; apply HP; assumption|].
  apply Rle_trans with (Rabs Lh * Rabs (f x - f y)); [apply Rmult_le_compat_r; [apply Rabs_pos|apply Rle_abs]|]. rewrite Rmult_assoc. apply Rmult_le_compat_l; [apply Rabs_pos|]. apply H2; assumption.
Qed.
Lemma tame_inv f d : 0 < d -> (forall x, K x -> d <= f x) -> tame f -> tame (fun x => / f x).
Proof.
  intros Hd Hf. assert (I0 : 0 < / d) by (apply Rinv_0_lt_compat, Hd). apply (tame_comp (fun u => d <= u) Rinv f (/ d) (/ d * / d)); [exact Hf| |].
  - intros u v Hu Hv. assert (Iu : 0 < / u <= / d) by (split; [apply Rinv_0_lt_compat; lra|apply Rinv_le_contravar; lra]). assert (Iv : 0 < / v <= / d) by (split; [apply Rinv_0_lt_compat; lra|apply Rinv_le_contravar; lra]).
    replace (/ u - / v) with (/ u * / v * (v - u)) by (field; lra). rewrite Rabs_mult, (Rabs_minus_sym v u). apply Rmult_le_compat_r; [apply Rabs_pos|]. rewrite Rabs_right by (apply Rle_ge, Rmult_le_pos; lra). apply Rmult_le_compat; lra.
  - intros x Hx. specialize (Hf x Hx). rewrite Rabs_right by (apply Rle_ge, Rlt_le, Rinv_0_lt_compat; lra). apply Rinv_le_contravar; lra.
Qed.
Lemma ln_lip d u v : 0 < d -> d <= u -> d <= v -> Rabs (ln u - ln v) <= / d * Rabs (u - v).
Proof.
  intros Hd Hu Hv. assert (A : forall a b, d <= a -> d <= b -> ln a - ln b <= / d * Rabs (a - b)).
  { intros a b Ha Hb. assert (I : / b <= / d) by (apply Rinv_le_contravar; lra). assert (I0 : 0 < / b) by (apply Rinv_0_lt_compat; lra).
    rewrite <- ln_div by lra. assert (Q : 0 < a / b) by (apply Rdiv_lt_0_compat; lra). pose proof (exp_ineq1_le (ln (a / b))) as E. rewrite exp_ln in E by exact Q. apply Rle_trans with (a / b - 1); [lra|].
    replace (a / b - 1) with (/ b * (a - b)) by (field; lra). apply Rle_trans with (/ b * Rabs (a - b)); [apply Rmult_le_compat_l; [lra|apply Rle_abs]|apply Rmult_le_compat_r; [apply Rabs_pos|exact I]]. }
  apply Rabs_le. pose proof (A u v Hu Hv). pose proof (A v u Hv Hu) as B. rewrite Rabs_minus_sym in B. lra.
Qed.
Lemma tame_ln f d : 0 < d -> (forall x, K x -> d <= f x) -> tame f -> tame (fun x => ln (f x)).
Proof.
  intros Hd Hf T. pose proof T as (B & L & B0 & L0 & HB & HL). apply (tame_comp (fun u => d <= u) ln f (Rabs (ln d) + / d * (B + d)) (/ d)); [exact Hf|intros; apply ln_lip; assumption| |exact T].
  intros x Hx. pose proof (ln_lip d (f x) d Hd (Hf x Hx) (Rle_refl d)) as E. replace (ln (f x)) with (ln d + (ln (f x) - ln d)) by ring. eapply Rle_trans; [apply Rabs_triang|]. apply Rplus_le_compat_l. eapply Rle_trans; [exact E|].
  apply Rmult_le_compat_l; [left; apply Rinv_0_lt_compat, Hd|]. unfold Rminus. eapply Rle_trans; [apply Rabs_triang|]. rewrite Rabs_Ropp, (Rabs_right d) by lra. specialize (HB x Hx). lra.
Qed.
Lemma exp_lip u v : u <= 0 -> v <= 0 -> Rabs (exp u - exp v) <= 1 * Rabs (u - v).
Proof.
  intros Hu Hv. assert (A : forall a b, a <= 0 -> exp a - exp b <= Rabs (a - b)).
  { intros a b Ha. assert (E1 : exp a <= 1). { destruct Ha as [Ha| ->]; [left; rewrite <- exp_0; apply exp_increasing, Ha|rewrite exp_0; lra]. }
    pose proof (exp_pos a) as E0. replace (exp a - exp b) with (exp a * (1 - exp (b - a))) by (rewrite Rmult_minus_distr_l, <- exp_plus, Rmult_1_r; apply f_equal, f_equal; ring).
    pose proof (exp_ineq1_le (b - a)) as E. destruct (Rle_or_lt (1 - exp (b - a)) 0) as [N|N].
    - apply Rle_trans with 0; [|apply Rabs_pos]. nra.
    - apply Rle_trans with (1 * (1 - exp (b - a))); [apply Rmult_le_compat_r; lra|]. pose proof (Rle_abs (a - b)). lra. }
  apply Rabs_le. pose proof (A u v Hu). pose proof (A v u Hv) as B. rewrite Rabs_minus_sym in B. lra.
Qed.
Lemma tame_exp f : (forall x, K x -> f x <= 0) -> tame f -> tame (fun x => exp (f x)).
Proof.
  intros Hf. apply (tame_comp (fun u => u <= 0) exp f 1 1); [exact Hf|apply exp_lip|]. intros x Hx. rewrite Rabs_right by (left; apply exp_pos). destruct (Hf x Hx) as [H| ->]; [left; rewrite <- exp_0; apply exp_increasing, H|rewrite exp_0; lra].
Qed.
Lemma cube_lip A B : 0 <= A -> 0 <= B -> Rabs (sqrt A ^ 3 - sqrt B ^ 3) <= (sqrt A + sqrt B) * Rabs (A - B).
Proof.
  intros HA HB. pose proof (sqrt_pos A) as a0. pose proof (sqrt_pos B) as b0. pose proof (sqrt_sqrt A HA) as EA. pose proof (sqrt_sqrt B HB) as EB. set (a := sqrt A) in *. set (b := sqrt B) in *. rewrite <- EA, <- EB.
  replace (a ^ 3 - b ^ 3) with ((a - b) * (a * a + a * b + b * b)) by ring. replace (a * a - b * b) with ((a - b) * (a + b)) by ring. rewrite !Rabs_mult. assert (P : 0 <= a * b) by (apply Rmult_le_pos; assumption).
  assert (Pa : 0 <= a * a) by (apply Rmult_le_pos; assumption). assert (Pb : 0 <= b * b) by (apply Rmult_le_pos; assumption). rewrite (Rabs_right (a * a + a * b + b * b)), (Rabs_right (a + b)) by lra. pose proof (Rabs_pos (a - b)) as D.
  replace ((a + b) * (Rabs (a - b) * (a + b))) with (Rabs (a - b) * (a * a + 2 * (a * b) + b * b)) by ring. apply Rmult_le_compat_l; lra.
Qed.
Lemma tame_cube f : (forall x, K x -> 0 <= f x) -> tame f -> tame (fun x => sqrt (f x) ^ 3).
Proof.
  intros Hf T. pose proof T as (B & L & B0 & L0 & HB & HL). assert (HS : forall u, 0 <= u <= B -> 0 <= sqrt u <= sqrt B) by (intros u Hu; split; [apply sqrt_pos|apply sqrt_le_1_alt; lra]).
  assert (HP : forall x, K x -> 0 <= f x <= B) by (intros x Hx; split; [apply Hf, Hx|]; pose proof (HB x Hx); pose proof (Rle_abs (f x)); lra).
  apply (tame_comp (fun u => 0 <= u <= B) (fun u => sqrt u ^ 3) f (sqrt B ^ 3) (2 * sqrt B)); [exact HP| | |exact T].
  - intros u v Hu Hv. eapply Rle_trans; [apply cube_lip; lra|]. apply Rmult_le_compat_r; [apply Rabs_pos|]. pose proof (HS u Hu). pose proof (HS v Hv). lra.
  - intros x Hx. pose proof (HS _ (HP x Hx)) as [S0 S1]. rewrite Rabs_right by (apply Rle_ge, pow_le, S0). apply pow_incr. split; assumption.
Qed.
End Tame.
