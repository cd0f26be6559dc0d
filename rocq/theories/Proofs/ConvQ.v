(** * Integrals of functions of bounded variation rate over the cells of a mesh, for C109 *)
From Coq Require Import Reals Lra Lia List Psatz.
From Coquelicot Require Import Coquelicot.
From Verif.Model Require Import Py Num Tensors Domain Quadrature Integrators.
From Verif.Spec Require Import GridSpec QuadSpec ConvSpec.
From Verif.Proofs Require Import Lib QuadP QuadP2 IntegP GridP ConvP.
Local Open Scope R_scope.
Import ListNotations.

(** A function that varies slowly in each variable, everywhere. *)
Definition slow (K : R) (h : R -> R -> R) : Prop := 0 <= K /\ forall x y x' y', Rabs (h x y - h x' y') <= K * (Rabs (x - x') + Rabs (y - y')).
Lemma lip1_continuous (f : R -> R) K : 0 <= K -> (forall x y, Rabs (f x - f y) <= K * Rabs (x - y)) -> forall x, continuous f x.
Proof.
  intros HK H x. apply continuity_pt_filterlim. intros e He. exists (e / (K + 1)). split; [apply Rdiv_lt_0_compat; lra|].
  intros y [_ Hy]. simpl in *. unfold R_dist in *. eapply Rle_lt_trans; [apply H|]. apply Rle_lt_trans with ((K + 1) * Rabs (y - x)); [pose proof (Rabs_pos (y - x)); nra|].
  rewrite Rmult_comm. apply Rlt_div_r; lra.
Qed.
Lemma lip1_ex (f : R -> R) K a b : 0 <= K -> (forall x y, Rabs (f x - f y) <= K * Rabs (x - y)) -> ex_RInt f a b.
Proof. intros HK H. apply (ex_RInt_continuous (V := R_CompleteNormedModule)). intros z _. exact (lip1_continuous f K HK H z). Qed.
Lemma RInt_minus_R (f g : R -> R) a b : ex_RInt f a b -> ex_RInt g a b -> RInt (fun x => f x - g x) a b = RInt f a b - RInt g a b.
Proof. intros X Y. exact (RInt_minus (V := R_CompleteNormedModule) f g a b X Y). Qed.
Lemma ex_minus_R (f g : R -> R) a b : ex_RInt f a b -> ex_RInt g a b -> ex_RInt (fun x => f x - g x) a b.
Proof. intros X Y. exact (ex_RInt_minus (V := R_NormedModule) f g a b X Y). Qed.
Section Slow.
Context (K : R) (h : R -> R -> R) (HS : slow K h).
Lemma slow_inner x c d : ex_RInt (h x) c d.
Proof. destruct HS as [HK H]. apply (lip1_ex _ K _ _ HK). intros y y'. eapply Rle_trans; [apply H|]. rewrite Rminus_eq_0, Rabs_R0, Rplus_0_l. lra. Qed.
Lemma slow_outer_le x x' c d : c <= d -> Rabs (RInt (h x) c d - RInt (h x') c d) <= (d - c) * K * Rabs (x - x').
Proof.
  intros Hcd. destruct HS as [HK H].
  rewrite <- (RInt_minus_R (h x) (h x') c d (slow_inner x c d) (slow_inner x' c d)).
  eapply Rle_trans; [apply (abs_RInt_le_const _ c d (K * Rabs (x - x')) Hcd)|right; ring].
  - apply ex_minus_R; apply slow_inner.
  - intros t _. eapply Rle_trans; [apply H|]. rewrite Rminus_eq_0, Rabs_R0, Rplus_0_r. lra.
Qed.
Lemma slow_outer_ex c d a b : ex_RInt (fun x => RInt (h x) c d) a b.
Proof.
  pose proof (proj1 HS) as HK. apply (lip1_ex _ (Rabs (d - c) * K)); [apply Rmult_le_pos; [apply Rabs_pos|exact HK]|]. intros x x'. destruct (Rle_dec c d) as [L|L].
  - rewrite (Rabs_right (d - c)) by lra. apply slow_outer_le, L.
  - assert (E : forall z, RInt (h z) c d = - RInt (h z) d c). { intros z. apply RInt_swap_R, slow_inner. }
    rewrite !E. replace (- RInt (h x) d c - - RInt (h x') d c) with (- (RInt (h x) d c - RInt (h x') d c)) by ring. rewrite Rabs_Ropp. rewrite (Rabs_left (d - c)) by lra.
    replace (- (d - c)) with (c - d) by ring. apply slow_outer_le. lra.
Qed.
Lemma slow_cells s m n :
  Rsum (map (fun i => Rsum (map (fun j => RInt (fun x => RInt (fun y => h x y) (INR j * s) (INR j * s + s)) (INR i * s) (INR i * s + s)) (range n))) (range m))
  = rectangle_integral (INR m * s) (INR n * s) h.
Proof.
  unfold rectangle_integral. rewrite <- (chain (fun x => RInt (fun y => h x y) 0 (INR n * s)) s m) by (intros; apply slow_outer_ex).
  apply Rsum_map_ext. intros i _.
  destruct (RInt_sum (range n) (fun j x => RInt (fun y => h x y) (INR j * s) (INR j * s + s)) (INR i * s) (INR i * s + s)) as [_ S2]; [intros; apply slow_outer_ex|].
  rewrite <- S2. apply RInt_ext. intros x _. apply (chain (fun y => h x y)). intros. apply slow_inner.
Qed.
(** A cell integral of a function within [e] of the affine function [v + gx (x - cx) + gy (y - cy)] around the centre. *)
Lemma is_RInt_affine A B a b : is_RInt (fun y => A + B * y) a b (A * (b - a) + B * (b * b - a * a) / 2).
Proof.
  replace (A * (b - a) + B * (b * b - a * a) / 2) with (minus ((fun y => A * y + B * y * y / 2) b) ((fun y => A * y + B * y * y / 2) a)) by (unfold minus, plus, opp; simpl; field).
  apply (is_RInt_derive (V := R_CompleteNormedModule) (fun y => A * y + B * y * y / 2)).
  - intros y _. auto_derive; [trivial|]. cbv beta. match goal with |- ?a = ?b => change (@eq R a b) end. field.
  - intros y _. apply continuity_pt_filterlim. apply (continuity_pt_plus (fun _ => A) (fun y => B * y)); [apply continuity_pt_const; intros ? ?; reflexivity|]. apply continuity_pt_mult; [apply continuity_pt_const; intros ? ?; reflexivity|apply derivable_continuous_pt, derivable_pt_id].
Qed.
Lemma affine_cell v gx gy a b s : RInt (fun x => RInt (fun y => v + gx * (x - (a + s / 2)) + gy * (y - (b + s / 2))) b (b + s)) a (a + s) = s * s * v.
Proof.
  rewrite (RInt_ext _ (fun x => (s * v - s * gx * (a + s / 2)) + s * gx * x)).
  - rewrite (is_RInt_unique _ _ _ _ (is_RInt_affine _ _ a (a + s))). cbv beta. match goal with |- ?a = ?b => change (@eq R a b) end. field.
  - intros x _. rewrite (RInt_ext _ (fun y => (v + gx * (x - (a + s / 2)) - gy * (b + s / 2)) + gy * y)) by (intros; cbv beta; match goal with |- ?a = ?b => change (@eq R a b) end; ring).
    rewrite (is_RInt_unique _ _ _ _ (is_RInt_affine _ _ b (b + s))). cbv beta. match goal with |- ?a = ?b => change (@eq R a b) end. field.
Qed.
End Slow.
Lemma slow_minus K L h k : slow K h -> slow L k -> slow (K + L) (fun x y => h x y - k x y).
Proof.
  intros [HK H] [HL H']. split; [lra|]. intros x y x' y'. replace (h x y - k x y - (h x' y' - k x' y')) with ((h x y - h x' y') - (k x y - k x' y')) by ring.
  eapply Rle_trans; [apply Rabs_triang|]. rewrite Rabs_Ropp, Rmult_plus_distr_r. apply Rplus_le_compat; auto.
Qed.
Lemma slow_affine v gx gy c d : slow (Rabs gx + Rabs gy) (fun x y => v + gx * (x - c) + gy * (y - d)).
Proof.
  pose proof (Rabs_pos gx). pose proof (Rabs_pos gy). split; [lra|]. intros x y x' y'. replace (v + gx * (x - c) + gy * (y - d) - (v + gx * (x' - c) + gy * (y' - d))) with (gx * (x - x') + gy * (y - y')) by ring.
  eapply Rle_trans; [apply Rabs_triang|]. rewrite !Rabs_mult. pose proof (Rabs_pos (x - x')). pose proof (Rabs_pos (y - y')). nra.
Qed.
Lemma cell_bound K h v gx gy e a b s : slow K h -> 0 < s ->
  (forall x y, a <= x <= a + s -> b <= y <= b + s -> Rabs (h x y - (v + gx * (x - (a + s / 2)) + gy * (y - (b + s / 2)))) <= e) ->
  Rabs (RInt (fun x => RInt (fun y => h x y) b (b + s)) a (a + s) - s * s * v) <= s * s * e.
Proof.
  intros HS Hs H. set (k := fun x y => v + gx * (x - (a + s / 2)) + gy * (y - (b + s / 2))).
  assert (Sk : slow (Rabs gx + Rabs gy) k) by apply slow_affine. pose proof (slow_minus _ _ _ _ HS Sk) as Sd.
  rewrite <- (affine_cell v gx gy a b s). fold k.
  change (fun x => RInt (fun y => v + gx * (x - (a + s / 2)) + gy * (y - (b + s / 2))) b (b + s)) with (fun x => RInt (fun y => k x y) b (b + s)).
  assert (E : RInt (fun x => RInt (fun y => h x y - k x y) b (b + s)) a (a + s) = RInt (fun x => RInt (fun y => h x y) b (b + s)) a (a + s) - RInt (fun x => RInt (fun y => k x y) b (b + s)) a (a + s)).
  { rewrite <- (RInt_minus_R (fun x => RInt (fun y => h x y) b (b + s)) (fun x => RInt (fun y => k x y) b (b + s)) a (a + s) (slow_outer_ex K h HS _ _ _ _) (slow_outer_ex _ k Sk _ _ _ _)).
    apply RInt_ext. intros x _. rewrite (RInt_minus_R (fun y => h x y) (fun y => k x y) b (b + s) (slow_inner K h HS x _ _) (slow_inner _ k Sk x _ _)). reflexivity. }
  rewrite <- E. replace (s * s * e) with ((a + s - a) * ((b + s - b) * e)) by ring.
  apply abs_RInt_le_const; [lra|apply (slow_outer_ex _ _ Sd)|]. intros x Hx. apply abs_RInt_le_const; [lra|apply (slow_inner _ _ Sd)|]. intros y Hy. apply H; assumption.
Qed.

(** Continuing a function beyond a rectangle. *)
Definition clamp (a x : R) : R := Rmax 0 (Rmin a x).
Lemma clamp_in a x : 0 <= a -> 0 <= clamp a x <= a.
Proof. intros. unfold clamp. split; [apply Rmax_l|]. apply Rmax_lub; [assumption|apply Rmin_l]. Qed.
Lemma clamp_id a x : 0 <= x <= a -> clamp a x = x.
Proof. intros. unfold clamp. rewrite Rmin_right by lra. apply Rmax_right. lra. Qed.
Lemma max_lip x y : Rabs (Rmax 0 x - Rmax 0 y) <= Rabs (x - y).
Proof.
  destruct (Rle_dec 0 x); [rewrite (Rmax_right 0 x) by lra|rewrite (Rmax_left 0 x) by lra]; (destruct (Rle_dec 0 y); [rewrite (Rmax_right 0 y) by lra|rewrite (Rmax_left 0 y) by lra]);
    destruct (Rle_dec x y); [rewrite !Rabs_left1 by lra|rewrite !Rabs_right by lra|rewrite !Rabs_left1 by lra|rewrite !Rabs_right by lra|rewrite !Rabs_left1 by lra|rewrite !Rabs_right by lra|..]; try lra; rewrite Rminus_0_r, Rabs_R0; apply Rabs_pos.
Qed.
Lemma min_lip a x y : Rabs (Rmin a x - Rmin a y) <= Rabs (x - y).
Proof.
  destruct (Rle_dec a x); [rewrite (Rmin_left a x) by lra|rewrite (Rmin_right a x) by lra]; (destruct (Rle_dec a y); [rewrite (Rmin_left a y) by lra|rewrite (Rmin_right a y) by lra]);
    try (rewrite Rminus_eq_0, Rabs_R0; apply Rabs_pos); (destruct (Rle_dec x y); [rewrite !Rabs_left1 by lra|rewrite !Rabs_right by lra]); lra.
Qed.
Lemma clamp_lip a x y : Rabs (clamp a x - clamp a y) <= Rabs (x - y).
Proof. unfold clamp. eapply Rle_trans; [apply max_lip|apply min_lip]. Qed.
Lemma dist_le1 x y : dist x y <= Rabs (fst x - fst y) + Rabs (snd x - snd y).
Proof.
  pose proof (Rabs_pos (fst x - fst y)) as A. pose proof (Rabs_pos (snd x - snd y)) as B. apply dist_le; [lra|]. unfold sq.
  pose proof (Rsqr_abs (fst x - fst y)) as U. pose proof (Rsqr_abs (snd x - snd y)) as V. unfold Rsqr in *. nra.
Qed.
Lemma clamp_slow a b k f : 0 <= a -> 0 <= b -> 0 <= k -> lipschitz_on (rectangle a b) k f -> slow k (fun x y => f (clamp a x, clamp b y)).
Proof.
  intros Ha Hb Hk L. split; [exact Hk|]. intros x y x' y'.
  eapply Rle_trans; [apply L; split; apply clamp_in; assumption|]. apply Rmult_le_compat_l; [exact Hk|].
  eapply Rle_trans; [apply dist_le1|]. cbn [fst snd]. pose proof (clamp_lip a x x'). pose proof (clamp_lip b y y'). lra.
Qed.
Lemma clamp_integral a b f : 0 <= a -> 0 <= b -> rectangle_integral a b (fun x y => f (clamp a x, clamp b y)) = rectangle_integral a b (fun x y => f (x, y)).
Proof.
  intros Ha Hb. unfold rectangle_integral. apply RInt_ext. intros x Hx. rewrite Rmin_left, Rmax_right in Hx by lra. apply RInt_ext. intros y Hy. rewrite Rmin_left, Rmax_right in Hy by lra.
  rewrite !clamp_id by lra. reflexivity.
Qed.

(** Sums. *)
Lemma Rsum_close {A} (l : list A) f k e : (forall x, In x l -> Rabs (f x - k x) <= e) -> Rabs (Rsum (map f l) - Rsum (map k l)) <= INR (length l) * e.
Proof.
  induction l as [|x l IH]; intros H; [cbn; rewrite Rminus_0_r, Rabs_R0; lra|]. cbn [map length]. rewrite S_INR.
  change (Rsum (f x :: map f l)) with (f x + Rsum (map f l)). change (Rsum (k x :: map k l)) with (k x + Rsum (map k l)).
  replace (f x + Rsum (map f l) - (k x + Rsum (map k l))) with ((f x - k x) + (Rsum (map f l) - Rsum (map k l))) by ring.
  eapply Rle_trans; [apply Rabs_triang|]. pose proof (H x (or_introl eq_refl)). pose proof (IH (fun y Hy => H y (or_intror Hy))). lra.
Qed.
Lemma ws_close {A} (ps : list A) ws f c e : length ws = length ps -> (forall p, In p ps -> Rabs (f p - c) <= e) ->
  Rabs (weighted_sum ps ws f - c * weighted_sum ps ws (fun _ => 1)) <= sum_over Rabs ws * e.
Proof.
  revert ws. induction ps as [|p ps IH]; intros [|w ws] L H; try discriminate L; [cbn; rewrite Rmult_0_r, Rminus_0_r, Rabs_R0, Rmult_0_l; lra|]. cbn [weighted_sum].
  specialize (IH ws ltac:(simpl in L; lia) (fun p' I => H p' (or_intror I))). specialize (H p (or_introl eq_refl)).
  replace (w * f p + weighted_sum ps ws f - c * (w * 1 + weighted_sum ps ws (fun _ => 1))) with (w * (f p - c) + (weighted_sum ps ws f - c * weighted_sum ps ws (fun _ => 1))) by ring.
  eapply Rle_trans; [apply Rabs_triang|]. rewrite Rabs_mult. change (sum_over Rabs (w :: ws)) with (Rabs w + sum_over Rabs ws). pose proof (Rabs_pos w). nra.
Qed.
Lemma ws_ones {A} (ps : list A) ws : length ws = length ps -> weighted_sum ps ws (fun _ => 1) = sum_over (fun w => w) ws.
Proof. revert ws. induction ps as [|p ps IH]; intros [|w ws] L; try discriminate L; [reflexivity|]. cbn [weighted_sum]. rewrite IH by (simpl in L; lia). cbn. ring. Qed.
