(** * Strains near strains; the material functions are tame (for C111-C113). *)
From Coq Require Import Reals Lra Lia List Psatz.
From Coquelicot Require Import Coquelicot.
From Verif.Model Require Import Py Num Tensors Domain Refine Quadrature Integrators Interp Helpers Steps.
From Verif.Spec Require Import GridSpec QuadSpec BellSpec RefineSpec InterpSpec PotentialSpec ConvSpec ConsistSpec.
From Verif.Proofs Require Import Lib PotP MechV MechP ConvP TameP.
Local Open Scope R_scope.
Import ListNotations.

Definition near (e : R) (F G : strain2) : Prop := Rabs (f11 F - f11 G) <= e /\ Rabs (f12 F - f12 G) <= e /\ Rabs (f21 F - f21 G) <= e /\ Rabs (f22 F - f22 G) <= e.
Definition bounded (k : R) (F : strain2) : Prop := Rabs (f11 F) <= k /\ Rabs (f12 F) <= k /\ Rabs (f21 F) <= k /\ Rabs (f22 F) <= k.
Definition gapF (F G : strain2) : R := Rabs (f11 F - f11 G) + Rabs (f12 F - f12 G) + Rabs (f21 F - f21 G) + Rabs (f22 F - f22 G).
Lemma gapF_pos F G : 0 <= gapF F G.
Proof. unfold gapF. pose proof (Rabs_pos (f11 F - f11 G)). pose proof (Rabs_pos (f12 F - f12 G)). pose proof (Rabs_pos (f21 F - f21 G)). pose proof (Rabs_pos (f22 F - f22 G)). lra. Qed.
Lemma near_gap e F G : near e F G -> gapF F G <= 4 * e. Proof. unfold near, gapF. lra. Qed.
Lemma abs_near a b k e : Rabs b <= k -> Rabs (a - b) <= e -> Rabs a <= k + e.
Proof. intros H1 H2. replace a with (b + (a - b)) by ring. eapply Rle_trans; [apply Rabs_triang|]. lra. Qed.
Lemma bounded_near k e F G : bounded k G -> near e F G -> bounded (k + e) F.
Proof. intros (A & B & C & D) (E1 & E2 & E3 & E4). split; [exact (abs_near _ _ _ _ A E1)|]. split; [exact (abs_near _ _ _ _ B E2)|]. split; [exact (abs_near _ _ _ _ C E3)|exact (abs_near _ _ _ _ D E4)]. Qed.
Lemma prod_near a b a' b' k e : 0 <= k -> 0 <= e <= 1 -> Rabs a <= k -> Rabs b <= k -> Rabs (a' - a) <= e -> Rabs (b' - b) <= e -> Rabs (a' * b' - a * b) <= e * (2 * k + 1).
Proof.
  intros Hk [He He1] A B A' B'. assert (Bb : Rabs b' <= k + e) by (exact (abs_near _ _ _ _ B B')). replace (a' * b' - a * b) with ((a' - a) * b' + a * (b' - b)) by ring. eapply Rle_trans; [apply Rabs_triang|]. rewrite !Rabs_mult.
  assert (P1 : Rabs (a' - a) * Rabs b' <= e * (k + e)) by (apply Rmult_le_compat; auto using Rabs_pos). assert (P2 : Rabs a * Rabs (b' - b) <= k * e) by (apply Rmult_le_compat; auto using Rabs_pos). nra.
Qed.
Lemma det_near k e F G : 0 <= k -> 0 <= e <= 1 -> bounded k G -> near e F G -> Rabs (det2 F - det2 G) <= 2 * (e * (2 * k + 1)).
Proof.
  intros Hk He (A & B & C & D) (E1 & E2 & E3 & E4). unfold det2. replace (f11 F * f22 F - f12 F * f21 F - (f11 G * f22 G - f12 G * f21 G)) with ((f11 F * f22 F - f11 G * f22 G) - (f12 F * f21 F - f12 G * f21 G)) by ring.
  unfold Rminus at 1. eapply Rle_trans; [apply Rabs_triang|]. rewrite Rabs_Ropp. pose proof (prod_near _ _ _ _ k e Hk He A D E1 E4). pose proof (prod_near _ _ _ _ k e Hk He B C E2 E3). lra.
Qed.
(** A mesh so fine that strains keep half of their determinant. *)
Definition fine (k d : R) : R := Rmin 1 d / (12 * ((k + 1) * (k + 1))).
Lemma fine_pos k d : 0 <= k -> 0 < d -> 0 < fine k d.
Proof. intros Hk Hd. unfold fine. apply Rdiv_lt_0_compat; [apply Rmin_pos; lra|]. nra. Qed.
Lemma fine_ok k d s e : 0 <= k -> 0 < d -> 0 <= s <= fine k d -> 0 <= e <= 3 / 2 * k * s -> e <= 1 /\ 2 * (e * (2 * k + 1)) <= d / 2.
Proof.
  intros Hk Hd [Hs0 Hs] [He0 He]. set (K := (k + 1) * (k + 1)) in *. assert (K1 : 1 <= K) by (unfold K; nra). assert (Ms : 12 * K * s <= Rmin 1 d).
  { unfold fine in Hs. fold K in Hs. assert (E : 12 * K * (Rmin 1 d / (12 * K)) = Rmin 1 d) by (field; lra). rewrite <- E. apply Rmult_le_compat_l; lra. }
  pose proof (Rmin_l 1 d) as M1. pose proof (Rmin_r 1 d) as M2. assert (Ek : k * s <= K * s) by (apply Rmult_le_compat_r; [lra|unfold K; nra]). assert (Ks : 0 <= k * s) by (apply Rmult_le_pos; lra).
  split; [lra|]. assert (Q : e * (2 * k + 1) <= 3 / 2 * k * s * (2 * k + 1)) by (apply Rmult_le_compat_r; lra). assert (Q2 : k * (2 * k + 1) <= 2 * K) by (unfold K; nra). assert (Q3 : k * (2 * k + 1) * s <= 2 * K * s) by (apply Rmult_le_compat_r; lra). nra.
Qed.
Lemma det_keeps k d s e F G : 0 <= k -> 0 < d -> 0 <= s <= fine k d -> 0 <= e <= 3 / 2 * k * s -> bounded k G -> d <= det2 G -> near e F G -> bounded (k + 1) F /\ d / 2 <= det2 F.
Proof.
  intros Hk Hd Hs He BG DG N. destruct (fine_ok k d s e Hk Hd Hs He) as [E1 E2]. split.
  - destruct (bounded_near k e F G BG N) as (A & B & C & D). repeat split; lra.
  - pose proof (det_near k e F G Hk (conj (proj1 He) E1) BG N) as Q. apply Rabs_le_between in Q. lra.
Qed.

(** ** Tame densities *)
Section Strains.
Context {X : Type} (gap : X -> X -> R) (gap_pos : forall x y, 0 <= gap x y) (K : X -> Prop) (sF : X -> strain2) (k : R) (HB : forall x, K x -> bounded k (sF x)) (HG : forall x y, gapF (sF x) (sF y) <= gap x y).
Lemma tame_entry (f : strain2 -> R) : f = f11 \/ f = f12 \/ f = f21 \/ f = f22 -> tame gap K (fun x => f (sF x)).
Proof.
  intros Hf. apply (tame_intro gap K gap_pos _ k 1).
  - intros x Hx. destruct (HB x Hx) as (A & B & C & D). destruct Hf as [->|[->|[->| ->]]]; assumption.
  - intros x y _ _. rewrite Rmult_1_l. eapply Rle_trans; [|apply HG]. unfold gapF. pose proof (Rabs_pos (f11 (sF x) - f11 (sF y))). pose proof (Rabs_pos (f12 (sF x) - f12 (sF y))). pose proof (Rabs_pos (f21 (sF x) - f21 (sF y))). pose proof (Rabs_pos (f22 (sF x) - f22 (sF y))). destruct Hf as [->|[->|[->| ->]]]; lra.
Qed.
Lemma tame_norm2 : tame gap K (fun x => norm2 (sF x)).
Proof. unfold norm2. repeat apply (tame_plus gap K); apply (tame_mult gap K); apply tame_entry; auto. Qed.
Lemma tame_det2 : tame gap K (fun x => det2 (sF x)).
Proof. unfold det2. apply (tame_minus gap K gap_pos); apply (tame_mult gap K); apply tame_entry; auto. Qed.
End Strains.
(** The elastic density of a strain and a temperature. *)
Definition gapFt (p q : strain2 * R) : R := gapF (fst p) (fst q) + Rabs (snd p - snd q).
Lemma gapFt_pos p q : 0 <= gapFt p q. Proof. unfold gapFt. pose proof (gapF_pos (fst p) (fst q)). pose proof (Rabs_pos (snd p - snd q)). lra. Qed.
Definition elastic_set (k d : R) (p : strain2 * R) : Prop := bounded k (fst p) /\ d <= det2 (fst p) /\ 0 <= snd p.
Lemma exp_range t : 0 <= t -> 0 < exp (-5 * t) <= 1.
Proof. intros Ht. split; [apply exp_pos|]. destruct Ht as [Ht| <-]; [left; rewrite <- exp_0; apply exp_increasing; lra|right; rewrite <- exp_0; apply f_equal; ring]. Qed.
Lemma exp_lip5 t t' : 0 <= t -> 0 <= t' -> Rabs (exp (-5 * t) - exp (-5 * t')) <= 5 * Rabs (t - t').
Proof. intros H H'. eapply Rle_trans; [apply exp_lip; lra|]. rewrite Rmult_1_l. replace (-5 * t - -5 * t') with (-5 * (t - t')) by ring. rewrite Rabs_mult, (Rabs_left (-5)) by lra. lra. Qed.
Lemma tame_elastic k d : 0 < d -> tame gapFt (elastic_set k d) (fun p => value (total_elastic_potential (mat (fst p)) (snd p))).
Proof.
  intros Hd. set (K := elastic_set k d). set (G := gapFt). pose proof gapFt_pos as GP. fold G in GP.
  assert (HB : forall x, K x -> bounded k (fst x)) by (intros x Hx; apply Hx). assert (HG : forall x y, gapF (fst x) (fst y) <= G x y) by (intros x y; unfold G, gapFt; pose proof (Rabs_pos (snd x - snd y)); lra).
  pose proof (tame_norm2 G GP K fst k HB HG) as TN. pose proof (tame_det2 G GP K fst k HB HG) as TD. assert (HD : forall x, K x -> d <= det2 (fst x)) by (intros x Hx; apply Hx).
  pose proof (tame_inv G K GP (fun x => det2 (fst x)) d Hd HD TD) as TI. pose proof (tame_ln G K GP (fun x => det2 (fst x)) d Hd HD TD) as TL.
  assert (TE : tame G K (fun x => exp (-5 * snd x))).
  { apply (tame_intro G K GP _ 1 5); [intros x (_ & _ & Hx); destruct (exp_range _ Hx); rewrite Rabs_right; lra|]. intros x y (_ & _ & Hx) (_ & _ & Hy). eapply Rle_trans; [apply exp_lip5; assumption|]. apply Rmult_le_compat_l; [lra|]. unfold G, gapFt. pose proof (gapF_pos (fst x) (fst y)). lra. }
  pose proof (fun c => tame_const G K GP c) as TC. apply (tame_ext G K (fun x => density (exp (-5 * snd x)) (norm2 (fst x)) (det2 (fst x)))).
  { intros [F t] (_ & HF & _). cbn [fst snd] in *. rewrite (elastic_value F t) by lra. reflexivity. }
  unfold density. apply tame_plus; apply tame_mult; try exact GP; try assumption.
  - apply tame_minus; auto.
  - apply tame_plus; [apply tame_minus; try exact GP; [apply tame_minus; auto|apply tame_scal; auto]|]. apply (tame_pow G K GP (fun x => det2 (fst x) - 1) 2). apply tame_minus; auto.
  - apply tame_plus; [apply (tame_pow G K GP (fun x => norm2 (fst x) * / det2 (fst x) - 9 / 4) 2)|apply (tame_pow G K GP (fun x => det2 (fst x) ^ 2 + (/ det2 (fst x)) ^ 2 - 2) 2)].
    + apply tame_minus; auto. apply tame_mult; assumption.
    + apply tame_minus; auto. apply tame_plus; [apply (tame_pow G K GP (fun x => det2 (fst x)) 2)|apply (tame_pow G K GP (fun x => / det2 (fst x)) 2)]; assumption.
Qed.
(** The dissipation of two strains. *)
Definition gapFF (p q : strain2 * strain2) : R := gapF (fst p) (fst q) + gapF (snd p) (snd q).
Lemma gapFF_pos p q : 0 <= gapFF p q. Proof. unfold gapFF. pose proof (gapF_pos (fst p) (fst q)). pose proof (gapF_pos (snd p) (snd q)). lra. Qed.
Definition strains_set (k : R) (p : strain2 * strain2) : Prop := bounded k (fst p) /\ bounded k (snd p).
Lemma tame_dissipation k : tame gapFF (strains_set k) (fun p => value (dissipation_potential (mat (fst p)) (mat (snd p)))).
Proof.
  set (K := strains_set k). set (G := gapFF). pose proof gapFF_pos as GP. fold G in GP.
  assert (T1 : forall f, f = f11 \/ f = f12 \/ f = f21 \/ f = f22 -> tame G K (fun x => f (fst x))). { intros f. apply (tame_entry G GP K fst k); [intros x Hx; apply Hx|]. intros x y. unfold G, gapFF. pose proof (gapF_pos (snd x) (snd y)). lra. }
  assert (T2 : forall f, f = f11 \/ f = f12 \/ f = f21 \/ f = f22 -> tame G K (fun x => f (snd x))). { intros f. apply (tame_entry G GP K snd k); [intros x Hx; apply Hx|]. intros x y. unfold G, gapFF. pose proof (gapF_pos (fst x) (fst y)). lra. }
  apply (tame_ext G K (fun x => norm2 (sym_delta (fst x) (snd x)) / 2)); [intros x _; rewrite dis_value; reflexivity|].
  unfold norm2, sym_delta, mul2, tr2, add2, scal2, PotentialSpec.st. cbn [f11 f12 f21 f22]. apply (tame_mult G K _ (fun _ => / 2)); [|apply tame_const, GP].
  repeat first [apply (tame_plus G K)|apply (tame_mult G K)|apply (tame_const G K GP)|apply T1; auto; fail|apply T2; auto; fail].
Qed.
