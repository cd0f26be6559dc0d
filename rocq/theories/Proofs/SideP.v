(** * Sums over the edges of a side are close to the integral over the side: for C114, C115. *)
From Coq Require Import Reals Lra Lia List Psatz String Permutation.
From Coquelicot Require Import Coquelicot.
From Verif.Model Require Import Py Num Tensors Domain Quadrature Integrators.
From Verif.Spec Require Import GridSpec QuadSpec ConvSpec WorkSpec.
From Verif.Proofs Require Import Lib GridP GridTopo GridFix GridCover QuadP IntegP ConvP ConvQ FindP ThermQ.
Local Open Scope R_scope.
Import ListNotations.
Local Notation length := List.length.

Lemma sum_map {A B} (f : B -> R) (k : A -> B) l : sum_over f (map k l) = sum_over (fun x => f (k x)) l.
Proof. induction l as [|x l IH]; [reflexivity|]. cbn [map sum_over]. rewrite IH. reflexivity. Qed.
Lemma sum_perm {A} (f : A -> R) l l' : Permutation l l' -> sum_over f l = sum_over f l'.
Proof. induction 1; cbn [sum_over]; lra. Qed.
Lemma sum_Rsum {A} (f : A -> R) l : sum_over f l = Rsum (map f l).
Proof. induction l as [|x l IH]; [reflexivity|]. cbn [sum_over map]. rewrite IH. reflexivity. Qed.
Lemma sum_scale {A} (c : R) (f : A -> R) l : sum_over (fun x => c * f x) l = c * sum_over f l.
Proof. induction l as [|x l IH]; cbn [sum_over]; [ring|]. rewrite IH. ring. Qed.
Lemma sum_close {A} (f k : A -> R) e l : (forall x, In x l -> Rabs (f x - k x) <= e) -> Rabs (sum_over f l - sum_over k l) <= INR (length l) * e.
Proof.
  induction l as [|x l IH]; intros H; [cbn [sum_over length INR]; rewrite Rminus_eq_0, Rabs_R0; lra|]. cbn [sum_over length]. rewrite S_INR.
  replace (f x + sum_over f l - (k x + sum_over k l)) with ((f x - k x) + (sum_over f l - sum_over k l)) by ring. eapply Rle_trans; [apply Rabs_triang|].
  pose proof (H x (or_introl eq_refl)). pose proof (IH (fun y Hy => H y (or_intror Hy))). lra.
Qed.

Definition side_cells (m n : nat) (d : side) : nat := match d with Lower => m | Right => n | Upper => m | Left => n end.
Section S.
Context (g : grid R) (so : SetOrder) (m n : nat) (f : fixopt) (s : R) (Hs : 0 < s) (HG : rect_spec g so m n f s).
Let W := INR m * s. Let H := INR n * s.

Lemma W0 : 0 <= W. Proof. unfold W. apply Rmult_le_pos; [apply pos_INR|lra]. Qed.
Lemma H0 : 0 <= H. Proof. unfold H. apply Rmult_le_pos; [apply pos_INR|lra]. Qed.
Lemma side_length_cells d : side_length W H d = INR (side_cells m n d) * s.
Proof. destruct d; reflexivity. Qed.
Lemma side_edges_list d : exists E, side_edges (S m) (S n) d = map E (range (side_cells m n d)) /\
  forall k, (k < side_cells m n d)%nat -> point_at g (fst (E k)) (along_side W H d (INR k * s)) /\ point_at g (snd (E k)) (along_side W H d (INR k * s + s)).
Proof.
  assert (Q : forall k, INR k * s + s = INR (k + 1) * s) by (intros k; rewrite plus_INR; cbn [INR]; ring).
  destruct d; cbn [side_edges side_cells]; eexists; (split; [rewrite ?Nat.sub_succ, ?Nat.sub_0_r; reflexivity|]); intros k Hk; cbv beta; cbn [fst snd along_side]; rewrite Q;
    split; (eapply (point_at_ptv g so m n f s HG); [lia|lia|]); unfold GridCover.P, W, H; cbn [INR]; rewrite ?Rmult_0_l; reflexivity.
Qed.
Lemma along_rectangle d t : 0 <= t <= side_length W H d -> rectangle W H (along_side W H d t).
Proof. pose proof W0. pose proof H0. destruct d; cbn [along_side side_length]; intros T; split; cbn [fst snd]; lra. Qed.
Lemma along_dist d t t' : dist (along_side W H d t) (along_side W H d t') <= Rabs (t - t').
Proof. eapply Rle_trans; [apply dist_le1|]. destruct d; cbn [along_side fst snd]; rewrite ?Rminus_eq_0, ?Rabs_R0; lra. Qed.

Lemma side_close d (phi : edge -> R) F K delta : 0 <= K -> lipschitz_on (rectangle W H) K F ->
  (forall e p q x, In e (side_edges (S m) (S n) d) -> point_at g (fst e) p -> point_at g (snd e) q -> rectangle W H p -> rectangle W H q -> rectangle W H x -> dist p x <= s -> dist q x <= s -> Rabs (phi e - F x) <= delta) ->
  Rabs (s * sum_over phi (side_edges (S m) (S n) d) - side_integral W H d F) <= delta * side_length W H d.
Proof.
  intros HK LF HP. destruct (side_edges_list d) as (E & EE & EP). set (L := side_length W H d).
  assert (L0 : 0 <= L) by (unfold L; pose proof W0; pose proof H0; destruct d; cbn [side_length]; assumption).
  set (ff := fun t => F (along_side W H d (clamp L t))).
  assert (LI : forall x y, Rabs (ff x - ff y) <= K * Rabs (x - y)).
  { intros x y. unfold ff. eapply Rle_trans; [apply LF; apply along_rectangle, clamp_in, L0|]. apply Rmult_le_compat_l; [exact HK|]. eapply Rle_trans; [apply along_dist|]. apply clamp_lip. }
  assert (EX : forall x y, ex_RInt ff x y) by (intros x y; apply (lip1_ex ff K x y HK LI)).
  assert (EI : side_integral W H d F = RInt ff 0 L).
  { unfold side_integral. fold L. apply RInt_ext. intros x Hx. rewrite Rmin_left, Rmax_right in Hx by exact L0. unfold ff. rewrite clamp_id by lra. reflexivity. }
  assert (EL : L = INR (side_cells m n d) * s) by apply side_length_cells.
  rewrite EI, EE, sum_map. rewrite EL at 1. rewrite <- (chain ff s (side_cells m n d) EX), <- sum_scale, <- sum_Rsum.
  eapply Rle_trans; [apply (sum_close _ _ (delta * s))|rewrite range_length, EL; right; ring].
  intros k Hk. apply in_range in Hk. destruct (EP k Hk) as [P1 P2].
  assert (KS : 0 <= INR k * s /\ INR k * s + s <= L).
  { split; [apply Rmult_le_pos; [apply pos_INR|lra]|]. rewrite EL. replace (INR k * s + s) with (INR (S k) * s) by (rewrite S_INR; ring). apply Rmult_le_compat_r; [lra|]. apply le_INR. lia. }
  replace (s * phi (E k) - RInt ff (INR k * s) (INR k * s + s)) with (RInt (fun t => phi (E k) - ff t) (INR k * s) (INR k * s + s)).
  2:{ rewrite (RInt_minus_R (fun _ => phi (E k)) ff) by (try apply EX; apply (ex_RInt_const (V := R_NormedModule))). rewrite (RInt_const (V := R_CompleteNormedModule)). unfold scal. simpl. unfold mult. simpl. ring. }
  eapply Rle_trans; [apply (abs_RInt_le_const _ (INR k * s) (INR k * s + s) delta)|right; ring].
  - lra.
  - apply ex_minus_R; [apply (ex_RInt_const (V := R_NormedModule))|apply EX].
  - intros t Ht. unfold ff. rewrite clamp_id by lra. apply (HP (E k) _ _ (along_side W H d t)) with (2 := P1) (3 := P2).
    + rewrite EE. apply in_map. apply in_range. exact Hk.
    + apply along_rectangle. fold L. lra.
    + apply along_rectangle. fold L. lra.
    + apply along_rectangle. fold L. lra.
    + eapply Rle_trans; [apply along_dist|]. unfold Rabs. destruct (Rcase_abs _); lra.
    + eapply Rle_trans; [apply along_dist|]. unfold Rabs. destruct (Rcase_abs _); lra.
Qed.

Definition perimeter (ds : list side) : R := sum_over (side_length W H) ds.
Lemma sides_close ds (phi : edge -> R) F K delta : 0 <= K -> lipschitz_on (rectangle W H) K F ->
  (forall e p q x, In e (flat_map (side_edges (S m) (S n)) ds) -> point_at g (fst e) p -> point_at g (snd e) q -> rectangle W H p -> rectangle W H q -> rectangle W H x -> dist p x <= s -> dist q x <= s -> Rabs (phi e - F x) <= delta) ->
  Rabs (s * sum_over phi (flat_map (side_edges (S m) (S n)) ds) - sides_integral W H ds F) <= delta * perimeter ds.
Proof.
  intros HK LF. unfold sides_integral, perimeter. induction ds as [|d ds IH]; intros HP; [cbn [flat_map sum_over]; replace (s * 0 - 0) with 0 by ring; rewrite Rabs_R0; lra|].
  cbn [flat_map sum_over] in *. rewrite sum_over_app.
  replace (s * (sum_over phi (side_edges (S m) (S n) d) + sum_over phi (flat_map (side_edges (S m) (S n)) ds)) - (side_integral W H d F + sum_over (fun d0 => side_integral W H d0 F) ds))
    with ((s * sum_over phi (side_edges (S m) (S n) d) - side_integral W H d F) + (s * sum_over phi (flat_map (side_edges (S m) (S n)) ds) - sum_over (fun d0 => side_integral W H d0 F) ds)) by ring.
  eapply Rle_trans; [apply Rabs_triang|]. rewrite Rmult_plus_distr_l. apply Rplus_le_compat.
  - apply (side_close d phi F K delta HK LF). intros e p q x He. apply HP, in_app_iff. left. exact He.
  - apply IH. intros e p q x He. apply HP, in_app_iff. right. exact He.
Qed.

Lemma free_sides_iff d : In d (free_sides f) <-> ~ fixed_side f d.
Proof.
  unfold free_sides, fixed_side. rewrite filter_In, Bool.negb_true_iff. split.
  - intros [_ E] I. assert (T : existsb (String.eqb (side_name d)) (names_of f) = true) by (apply existsb_exists; exists (side_name d); split; [exact I|apply String.eqb_refl]). congruence.
  - intros N. split; [destruct d; cbn; tauto|]. destruct (existsb _ _) eqn:E; [|reflexivity]. exfalso. apply N. apply existsb_exists in E as (x & I & Q). apply String.eqb_eq in Q. subst x. exact I.
Qed.
Lemma all_sides_NoDup : NoDup all_sides.
Proof. repeat constructor; cbn; intuition discriminate. Qed.
Lemma sides_NoDup ds : (1 <= m)%nat -> (1 <= n)%nat -> NoDup ds -> NoDup (flat_map (side_edges (S m) (S n)) ds).
Proof.
  intros Hm Hn. induction 1 as [|d ds Hd N IH]; [constructor|]. cbn [flat_map]. apply NoDup_app_; [apply side_edges_NoDup; lia|exact IH|].
  intros e He He'. apply in_flat_map in He' as (d' & Hd' & He'). assert (d = d') by (apply (side_edges_disjoint (S m) (S n) d d' e); try lia; assumption). subst d'. contradiction.
Qed.
Lemma neumann_sum (phi : edge -> R) : (1 <= m)%nat -> (1 <= n)%nat ->
  sum_over phi (b_edges (g_neumann g)) = sum_over phi (flat_map (side_edges (S m) (S n)) (free_sides f)).
Proof.
  intros Hm Hn. apply sum_perm, NoDup_Permutation.
  - rewrite (rs_n _ _ _ _ _ _ HG). apply neumann_edges_NoDup.
  - apply sides_NoDup; try assumption. unfold free_sides. apply NoDup_filter, all_sides_NoDup.
  - intros e. rewrite (rs_n _ _ _ _ _ _ HG), neumann_edges, in_boundary_edges, in_flat_map. split.
    + intros [(d & Hd) N]. exists d. split; [apply free_sides_iff; intros F; apply N; exists d; split; assumption|exact Hd].
    + intros (d & Hd & He). split; [exists d; exact He|]. intros (d' & F & He'). assert (d = d') by (apply (side_edges_disjoint (S m) (S n) d d' e); try lia; assumption). subst d'. apply free_sides_iff in Hd. contradiction.
Qed.
Lemma boundary_all (phi : edge -> R) : sum_over phi (b_edges (g_boundary g)) = sum_over phi (flat_map (side_edges (S m) (S n)) all_sides).
Proof. rewrite (rs_be _ _ _ _ _ _ HG). unfold boundary_edges, all_sides. cbn [flat_map]. rewrite app_nil_r. reflexivity. Qed.
End S.
