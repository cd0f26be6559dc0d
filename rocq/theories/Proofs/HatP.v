(** Triangles of a lattice mesh meeting in a point share the corners with positive weight. *)
From Coq Require Import Reals Lra Lia List.
From Verif.Model Require Import Py Num Tensors Domain.
From Verif.Spec Require Import GridSpec RefineSpec InterpSpec.
Local Open Scope R_scope.
Import ListNotations.

Definition hat (a b : R) : R := 1 - Rmax (Rabs a) (Rmax (Rabs b) (Rabs (a - b))).
Lemma nat_near i k : k = i \/ k = (i + 1)%nat \/ INR k <= INR i - 1 \/ INR i + 2 <= INR k.
Proof.
  destruct (Nat.eq_dec k i); [auto|]. destruct (Nat.eq_dec k (i + 1)); [auto|]. right. right. destruct (Nat.lt_ge_cases k i).
  - left. assert (E : (k + 1 <= i)%nat) by lia. apply le_INR in E. rewrite plus_INR in E. cbn [INR] in E. lra.
  - right. assert (E : (i + 2 <= k)%nat) by lia. apply le_INR in E. rewrite plus_INR in E. cbn [INR] in E. lra.
Qed.
Ltac hat_tac := unfold hat, Rmax, Rabs; repeat match goal with |- context [Rcase_abs ?x] => destruct (Rcase_abs x) | |- context [Rle_dec ?x ?y] => lazymatch y with context [Rle_dec] => fail | _ => destruct (Rle_dec x y) end end; lra.
Lemma hat_lower i j X Y u v w : 0 <= u -> 0 <= v -> 0 <= w -> u + v + w = 1 -> X = INR i + v + w -> Y = INR j + w -> forall k l,
  let h := hat (X - INR k) (Y - INR l) in
  (k = i /\ l = j /\ h = u) \/ (k = i + 1 /\ l = j /\ h = v)%nat \/ (k = i + 1 /\ l = j + 1 /\ h = w)%nat \/ h <= 0.
Proof.
  intros Hu Hv Hw S -> -> k l. cbv zeta.
  destruct (nat_near i k) as [-> | [-> | [K | K]]]; destruct (nat_near j l) as [-> | [-> | [L | L]]]; rewrite ?plus_INR; cbn [INR].
  - left. split; [reflexivity|]. split; [reflexivity|]. hat_tac.
  - right. right. right. hat_tac.
  - right. right. right. hat_tac.
  - right. right. right. hat_tac.
  - right. left. split; [reflexivity|]. split; [reflexivity|]. hat_tac.
  - right. right. left. split; [reflexivity|]. split; [reflexivity|]. hat_tac.
  - right. right. right. hat_tac.
  - right. right. right. hat_tac.
  - right. right. right. hat_tac.
  - right. right. right. hat_tac.
  - right. right. right. hat_tac.
  - right. right. right. hat_tac.
  - right. right. right. hat_tac.
  - right. right. right. hat_tac.
  - right. right. right. hat_tac.
  - right. right. right. hat_tac.
Qed.
Lemma hat_upper i j X Y u v w : 0 <= u -> 0 <= v -> 0 <= w -> u + v + w = 1 -> X = INR i + u -> Y = INR j + u + v -> forall k l,
  let h := hat (X - INR k) (Y - INR l) in
  (k = i + 1 /\ l = j + 1 /\ h = u)%nat \/ (k = i /\ l = j + 1 /\ h = v)%nat \/ (k = i /\ l = j /\ h = w) \/ h <= 0.
Proof.
  intros Hu Hv Hw S -> -> k l. cbv zeta.
  destruct (nat_near i k) as [-> | [-> | [K | K]]]; destruct (nat_near j l) as [-> | [-> | [L | L]]]; rewrite ?plus_INR; cbn [INR].
  - right. right. left. split; [reflexivity|]. split; [reflexivity|]. hat_tac.
  - right. left. split; [reflexivity|]. split; [reflexivity|]. hat_tac.
  - right. right. right. hat_tac.
  - right. right. right. hat_tac.
  - right. right. right. hat_tac.
  - left. split; [reflexivity|]. split; [reflexivity|]. hat_tac.
  - right. right. right. hat_tac.
  - right. right. right. hat_tac.
  - right. right. right. hat_tac.
  - right. right. right. hat_tac.
  - right. right. right. hat_tac.
  - right. right. right. hat_tac.
  - right. right. right. hat_tac.
  - right. right. right. hat_tac.
  - right. right. right. hat_tac.
  - right. right. right. hat_tac.
Qed.
Section Mesh.
Context (g : grid R) (s : R) (m n : nat).
Hypothesis Hs : 0 < s.
Hypothesis M : mesh g s m n.
Lemma at_point v i j p : vertex_at g s v i j -> point_at g v p -> p = (INR i * s, INR j * s).
Proof. intros [_ A] B. unfold point_at in B. rewrite A in B. injection B as X Y. destruct p; cbn in *; congruence. Qed.
Lemma corner_weights t p q r b x v w : triangle_at g t p q r -> bary_of p q r b x -> non_negative b -> In (v, w) (weights t b) ->
  exists k l, (k <= m)%nat /\ (l <= n)%nat /\ vertex_at g s v k l /\ w = hat (fst x / s - INR k) (snd x / s - INR l).
Proof.
  destruct t as [[a c] d]. intros [It [Pa [Pc Pd]]] [S [X Y]] [H1 [H2 H3]] I.
  apply (mesh_triangles _ _ _ _ M) in It as [i [j [Hi [Hj [[Va [Vc Vd]] | [Va [Vc Vd]]]]]]];
    pose proof (at_point _ _ _ _ Va Pa); pose proof (at_point _ _ _ _ Vc Pc); pose proof (at_point _ _ _ _ Vd Pd); subst p q r; cbn [fst snd] in X, Y; rewrite !plus_INR in X, Y; cbn [INR] in X, Y.
  - assert (X' : fst x / s = INR i + l2 b + l3 b). { rewrite X. replace (l1 b) with (1 - l2 b - l3 b) by lra. field. lra. }
    assert (Y' : snd x / s = INR j + l3 b). { rewrite Y. replace (l1 b) with (1 - l2 b - l3 b) by lra. field. lra. }
    pose proof (hat_lower i j _ _ _ _ _ H1 H2 H3 S X' Y') as K. cbv zeta in K. cbn in I. destruct I as [I | [I | [I | []]]]; injection I as <- <-.
    + exists i, j. repeat split; try lia; try apply Va. destruct (K i j) as [[_ [_ E]] | [[E [_ _]] | [[E [_ _]] | E]]]; try lia; [symmetry; exact E|]. rewrite X', Y' in E |- *. revert E. hat_tac.
    + exists (i + 1)%nat, j. repeat split; try lia; try apply Vc. rewrite X', Y', plus_INR. cbn [INR]. hat_tac.
    + exists (i + 1)%nat, (j + 1)%nat. repeat split; try lia; try apply Vd. rewrite X', Y', !plus_INR. cbn [INR]. hat_tac.
  - assert (X' : fst x / s = INR i + l1 b). { rewrite X. replace (l3 b) with (1 - l1 b - l2 b) by lra. field. lra. }
    assert (Y' : snd x / s = INR j + l1 b + l2 b). { rewrite Y. replace (l3 b) with (1 - l1 b - l2 b) by lra. field. lra. }
    cbn in I. destruct I as [I | [I | [I | []]]]; injection I as <- <-.
    + exists (i + 1)%nat, (j + 1)%nat. repeat split; try lia; try apply Va. rewrite X', Y', !plus_INR. cbn [INR]. hat_tac.
    + exists i, (j + 1)%nat. repeat split; try lia; try apply Vc. rewrite X', Y', !plus_INR. cbn [INR]. hat_tac.
    + exists i, j. repeat split; try lia; try apply Vd. rewrite X', Y'. hat_tac.
Qed.
Lemma hat_corner t p q r b x k l v : triangle_at g t p q r -> bary_of p q r b x -> non_negative b -> (k <= m)%nat -> (l <= n)%nat -> vertex_at g s v k l ->
  let h := hat (fst x / s - INR k) (snd x / s - INR l) in 0 < h -> In (v, h) (weights t b).
Proof.
  destruct t as [[a c] d]. intros [It [Pa [Pc Pd]]] [S [X Y]] [H1 [H2 H3]] Hk Hl V. cbv zeta. intros Hp.
  destruct (mesh_points _ _ _ _ M k l Hk Hl) as [v0 [_ U]]. assert (U' : forall v', vertex_at g s v' k l -> v' = v) by (intros v' V'; rewrite <- (U _ V'); apply U, V).
  apply (mesh_triangles _ _ _ _ M) in It as [i [j [Hi [Hj [[Va [Vc Vd]] | [Va [Vc Vd]]]]]]];
    pose proof (at_point _ _ _ _ Va Pa); pose proof (at_point _ _ _ _ Vc Pc); pose proof (at_point _ _ _ _ Vd Pd); subst p q r; cbn [fst snd] in X, Y; rewrite !plus_INR in X, Y; cbn [INR] in X, Y.
  - assert (X' : fst x / s = INR i + l2 b + l3 b). { rewrite X. replace (l1 b) with (1 - l2 b - l3 b) by lra. field. lra. }
    assert (Y' : snd x / s = INR j + l3 b). { rewrite Y. replace (l1 b) with (1 - l2 b - l3 b) by lra. field. lra. }
    pose proof (hat_lower i j _ _ _ _ _ H1 H2 H3 S X' Y' k l) as K. cbv zeta in K. cbn. destruct K as [[-> [-> E]] | [[-> [-> E]] | [[-> [-> E]] | E]]]; [| | |lra]; rewrite <- E.
    + left. f_equal. apply U', Va. + right. left. f_equal. apply U', Vc. + right. right. left. f_equal. apply U', Vd.
  - assert (X' : fst x / s = INR i + l1 b). { rewrite X. replace (l3 b) with (1 - l1 b - l2 b) by lra. field. lra. }
    assert (Y' : snd x / s = INR j + l1 b + l2 b). { rewrite Y. replace (l3 b) with (1 - l1 b - l2 b) by lra. field. lra. }
    pose proof (hat_upper i j _ _ _ _ _ H1 H2 H3 S X' Y' k l) as K. cbv zeta in K. cbn. destruct K as [[-> [-> E]] | [[-> [-> E]] | [[-> [-> E]] | E]]]; [| | |lra]; rewrite <- E.
    + left. f_equal. apply U', Va. + right. left. f_equal. apply U', Vc. + right. right. left. f_equal. apply U', Vd.
Qed.
Lemma conforming t p q r b t' p' q' r' b' x : triangle_at g t p q r -> bary_of p q r b x -> non_negative b ->
  triangle_at g t' p' q' r' -> bary_of p' q' r' b' x -> non_negative b' -> forall v w, 0 < w -> In (v, w) (weights t b) -> In (v, w) (weights t' b').
Proof.
  intros T B N T' B' N' v w Hw I. destruct (corner_weights _ _ _ _ _ _ _ _ T B N I) as [k [l [Hk [Hl [V ->]]]]].
  apply (hat_corner _ _ _ _ _ _ _ _ _ T' B' N' Hk Hl V Hw).
Qed.
Lemma mesh_cross t p q r : triangle_at g t p q r -> cross p q r = s * s.
Proof.
  destruct t as [[a c] d]. intros [It [Pa [Pc Pd]]].
  apply (mesh_triangles _ _ _ _ M) in It as [i [j [Hi [Hj [[Va [Vc Vd]] | [Va [Vc Vd]]]]]]];
    rewrite (at_point _ _ _ _ Va Pa), (at_point _ _ _ _ Vc Pc), (at_point _ _ _ _ Vd Pd); unfold cross; cbn [fst snd]; rewrite !plus_INR; cbn [INR]; ring.
Qed.
Lemma mesh_triangle_at t : In t (g_triangles g) -> exists p q r, triangle_at g t p q r.
Proof.
  destruct t as [[a c] d]. intros I. pose proof I as It.
  assert (K : forall v k l, vertex_at g s v k l -> point_at g v (INR k * s, INR l * s)) by (intros v k l V; apply V).
  apply (mesh_triangles _ _ _ _ M) in It as [i [j [Hi [Hj [[Va [Vc Vd]] | [Va [Vc Vd]]]]]]]; apply K in Va, Vc, Vd; do 3 eexists; exact (conj I (conj Va (conj Vc Vd))).
Qed.
Lemma mesh_length : length (g_vertices g) = length (g_points g).
Proof. rewrite (mesh_numbers _ _ _ _ M) at 1. apply seq_length. Qed.
End Mesh.
