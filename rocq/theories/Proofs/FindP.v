(** point_to_vertex, append_edge. *)
From Coq Require Import Reals Lra Lia String Psatz.
From Verif.Model Require Import Py Num Tensors Domain.
From Verif.Spec Require Import GridSpec.
From Verif.Proofs Require Import Lib GridP GridTopo GridFix GridCover LocateP.
Local Open Scope R_scope.

Lemma coincide_eps_R mean : coincide_eps mean = Ok (match mean with Some a => a / 10000000 | None => / 10 ^ 15 end).
Proof.
  unfold coincide_eps. destruct mean as [a|].
  - cbn [nofZ RNum]. rewrite ndiv_R by lra. reflexivity.
  - apply (f_equal Ok). cbn [ndec RNum]. unfold Rdiv. ring.
Qed.
Lemma points_coincide_vec mean p q : exists b, points_coincide mean (vec p) (vec q) = Ok b /\
  (b = true <-> dist p q < match mean with Some a => a / 10000000 | None => / 10 ^ 15 end).
Proof.
  unfold points_coincide. rewrite coincide_eps_R. cbn [bind]. destruct p as [px py], q as [qx qy]. unfold vec. cbn [fst snd].
  unfold Vector_sub. cbn [length Nat.eqb zip combine map bind]. eexists. split; [reflexivity|]. cbn [nltb RNum]. rewrite Rltb_true.
  unfold Vector_norm, Vector_normsqr, nsum, dist. cbn [map fold_left nsqrt RNum nadd nmul n0 nsub fst snd].
  rewrite Rplus_0_l. tauto.
Qed.
(** First match. *)
Lemma find_point_spec mean pts p i : (forall x, In x pts -> exists q, x = vec q) ->
  (exists k q, find_point mean i pts (vec p) = Ok (Some (i + k)%nat) /\ nth_error pts k = Some (vec q) /\
     dist p q < match mean with Some a => a / 10000000 | None => / 10 ^ 15 end /\
     forall k' q', (k' < k)%nat -> nth_error pts k' = Some (vec q') -> ~ dist p q' < match mean with Some a => a / 10000000 | None => / 10 ^ 15 end) \/
  (find_point mean i pts (vec p) = Ok None /\
     forall k q, nth_error pts k = Some (vec q) -> ~ dist p q < match mean with Some a => a / 10000000 | None => / 10 ^ 15 end).
Proof.
  revert i. induction pts as [|x pts IH]; intros i H.
  - right. split; [reflexivity|]. intros [|k] q; discriminate.
  - destruct (H x (or_introl eq_refl)) as [q ->]. cbn [find_point]. destruct (points_coincide_vec mean p q) as [b [E Hb]].
    rewrite E. cbn [bind]. destruct b.
    + left. exists 0%nat, q. rewrite Nat.add_0_r. split; [reflexivity|]. split; [reflexivity|]. split; [apply Hb; reflexivity|].
      intros k' q' Hk. lia.
    + assert (Hf : ~ dist p q < match mean with Some a => a / 10000000 | None => / 10 ^ 15 end) by (intros C; apply Hb in C; discriminate).
      destruct (IH (S i) (fun y Hy => H y (or_intror Hy))) as [[k [q' [E1 [E2 [E3 E4]]]]]|[E1 E2]].
      * left. exists (S k), q'. split; [rewrite E1; do 2 f_equal; lia|]. split; [exact E2|]. split; [exact E3|].
        intros [|k'] q'' Hk HN; [cbn [nth_error] in HN; injection HN as HN1 HN2; destruct q, q''; cbn in HN1, HN2; subst; exact Hf|].
        apply (E4 k' q''); [lia|exact HN].
      * right. split; [exact E1|]. intros [|k] q'' HN; [cbn [nth_error] in HN; injection HN as HN1 HN2; destruct q, q''; cbn in HN1, HN2; subst; exact Hf|].
        apply (E2 k q'' HN).
Qed.
Lemma dist_refl p : dist p p = 0.
Proof. unfold dist. replace (_ + _) with 0 by ring. apply sqrt_0. Qed.
Lemma dist_sym p q : dist p q = dist q p.
Proof. unfold dist. f_equal. ring. Qed.
Lemma dist_nonneg p q : 0 <= dist p q.
Proof. apply sqrt_pos. Qed.
Lemma dist_ge p q a : 0 <= a -> a * a <= (fst p - fst q) * (fst p - fst q) + (snd p - snd q) * (snd p - snd q) -> a <= dist p q.
Proof. intros Ha H. unfold dist. rewrite <- (sqrt_square a Ha). apply sqrt_le_1_alt, H. Qed.
(** Different lattice points are at least one mesh width apart. *)
Lemma lattice_dist s i j i' j' : 0 <= s -> (i, j) <> (i', j') -> s <= dist (P s i j) (P s i' j').
Proof.
  intros Hs H. apply dist_ge; [exact Hs|]. unfold P. cbn [fst snd]. rewrite !INR_IZR_INZ.
  set (a := (Z.of_nat i - Z.of_nat i')%Z). set (b := (Z.of_nat j - Z.of_nat j')%Z).
  assert (Hab : (1 <= a * a + b * b)%Z).
  { assert (a <> 0 \/ b <> 0)%Z by (unfold a, b; destruct (Nat.eq_dec i i'); [right; intros E; apply H; f_equal; lia|left; lia]). nia. }
  apply IZR_le in Hab. rewrite plus_IZR, !mult_IZR in Hab. unfold a, b in Hab. rewrite !minus_IZR in Hab. clear a b.
  set (A := IZR (Z.of_nat i)) in *. set (B := IZR (Z.of_nat i')) in *. set (C := IZR (Z.of_nat j)) in *. set (D := IZR (Z.of_nat j')) in *.
  replace ((A * s - B * s) * (A * s - B * s) + (C * s - D * s) * (C * s - D * s)) with (((A - B) * (A - B) + (C - D) * (C - D)) * (s * s)) by ring.
  assert (0 <= s * s) by nra. nra.
Qed.
Lemma sqrt2_lt2 : sqrt 2 < 2.
Proof. replace 2 with (sqrt (2 * 2)) at 2 by (apply sqrt_square; lra). apply sqrt_lt_1_alt. lra. Qed.

Section G.
Context (g : grid R) (so : SetOrder) (m n : nat) (f : fixopt) (s : R) (Hs : 0 < s) (HG : rect_spec g so m n f s).
Lemma planar_rect : planar g.
Proof.
  intros v p H. rewrite (rs_p _ _ _ _ _ _ HG) in H. assert (Hlt : (v < S m * S n)%nat) by (rewrite <- (rg_points_length _ _ s); apply nth_error_Some; congruence).
  destruct (ptv_surj' (S m) (S n) v Hlt) as [i [j [Hi [Hj ->]]]]. rewrite rg_points_nth in H by assumption. injection H as <-.
  exists (P s i j). reflexivity.
Qed.
Lemma tolerance_lt : (2 <= S m * S n)%nat -> 0 < tolerance g < s.
Proof.
  intros Hbig. unfold tolerance. pose proof (rs_m _ _ _ _ _ _ HG) as HM. unfold mean_ok in HM. destruct (g_mean g) as [a|].
  - pose proof sqrt2_lt2. destruct HM as [_ [H1 H2]]. split; [apply Rmult_lt_0_compat; lra|]. nra.
  - exfalso. assert (L : length (rg_edges (S m) (S n)) = 0%nat) by (rewrite HM; reflexivity). rewrite edges_length in L.
    cbn [Nat.sub] in L. rewrite !Nat.sub_0_r in L. nia.
Qed.
End G.

(** ** append_edge *)
Lemma point_at_det (g : grid R) v p q : point_at g v p -> point_at g v q -> p = q.
Proof. unfold point_at. intros H1 H2. rewrite H1 in H2. injection H2 as E1 E2. destruct p, q; simpl in *; congruence. Qed.
Lemma edge_length_at (g : grid R) e p q : point_at g (fst e) p -> point_at g (snd e) q -> edge_length (g_points g) e = Ok (dist p q).
Proof. intros H1 H2. destruct e as [a b]. apply edge_length_pts; assumption. Qed.
Lemma sum_over_app {A} (h : A -> R) l l' : sum_over h (l ++ l') = sum_over h l + sum_over h l'.
Proof. induction l as [|x l IH]; simpl; [ring|rewrite IH; ring]. Qed.
Lemma sum_over_Rsum l : sum_over (fun x => x) l = Rsum l.
Proof. induction l as [|x l IH]; simpl; [reflexivity|rewrite IH; reflexivity]. Qed.

Definition with_edges (g : grid R) es mean : grid R :=
  mkGrid (g_vertices g) es (g_triangles g) (g_boundary g) (g_dirichlet g) (g_neumann g) (g_points g) mean.
Definition known (es : list edge) (e : edge) : Prop := exists e', In e' es /\ same_edge e e'.
Lemma known_b es e : (py_in edge_eqb e es || py_in edge_eqb (flip e) es)%bool = true <-> known es e.
Proof.
  rewrite orb_true_iff. unfold edge_eqb. rewrite !py_in_pair. unfold known, same_edge, flip. split.
  - intros [H|H]; [exists e; auto|exists (snd e, fst e); split; [exact H|right; destruct e; reflexivity]].
  - intros [e' [H [->| ->]]]; [left; exact H|right; cbn; destruct e'; exact H].
Qed.
Lemma append_edge_cases (g : grid R) e : mean_is_average g -> (exists p q, point_at g (fst e) p /\ point_at g (snd e) q) ->
  (known (g_edges g) e /\ append_edge g e = Ok g) \/
  (~ known (g_edges g) e /\ exists a, append_edge g e = Ok (with_edges g (g_edges g ++ [e]) (Some a)) /\
     mean_is_average (with_edges g (g_edges g ++ [e]) (Some a))).
Proof.
  intros HM [p [q [Hp Hq]]]. unfold append_edge, append_edge_raw.
  destruct (py_in edge_eqb e (g_edges g) || py_in edge_eqb (flip e) (g_edges g))%bool eqn:E.
  - left. split; [apply known_b, E|]. rewrite <- negb_orb, E. cbn [negb bind]. destruct g; reflexivity.
  - right. split; [intros K; apply known_b in K; congruence|]. rewrite <- negb_orb, E. cbn [negb].
    rewrite (edge_length_at g e p q Hp Hq). cbn [bind]. unfold mean_is_average in HM. destruct (g_mean g) as [a|] eqn:Em.
    + destruct HM as [Hne [lens [HL HA]]]. cbn [nofZ RNum].
      assert (Hnz : IZR (Z.of_nat (length (g_edges g)) + 1) <> 0) by (apply IZR_neq; lia).
      rewrite !ndiv_R by exact Hnz. cbn [bind]. eexists. split; [reflexivity|]. unfold mean_is_average, with_edges. cbn [g_mean g_edges].
      split; [intros C; apply app_eq_nil in C; destruct C; discriminate|]. exists (lens ++ [dist p q]). split.
      * apply Forall2_app; [exact HL|]. constructor; [|constructor]. exists p, q. auto.
      * cbn [nadd nmul RNum]. rewrite sum_over_app, app_length. cbn [length sum_over]. rewrite <- HA, plus_INR, INR_IZR_INZ. simpl INR.
        rewrite plus_IZR in *. field. exact Hnz.
    + cbn [bind]. eexists. split; [reflexivity|]. unfold mean_is_average, with_edges. cbn [g_mean g_edges]. rewrite HM.
      split; [discriminate|]. exists [dist p q]. split; [constructor; [exists p, q; auto|constructor]|]. simpl. ring.
Qed.
