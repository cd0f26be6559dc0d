(** * C11-C19: RectangleDomain.grid.  Vocabulary: Spec/GridSpec.v.
    [fits w s m] : m cells of width s fit into w; [vertex_at g s v i j] : vertex v is lattice point (i*s, j*s). *)
From Coq Require Import Reals Lra Lia String Permutation.
From Verif.Model Require Import Py Num Tensors Domain.
From Verif.Spec Require Import GridSpec.
From Verif.Proofs Require Import Lib GridP GridTopo GridFix GridCover StdOrder.
Local Open Scope R_scope.

(** The concrete grid used in the examples: 2 x 1 cells of width 1/2 in a rectangle 1.2 x 0.9. *)
Lemma ex_fits_w : fits (12/10) (1/2) 2. Proof. unfold fits; simpl; lra. Qed.
Lemma ex_fits_h : fits (9/10) (1/2) 1. Proof. unfold fits; simpl; lra. Qed.
Lemma ex_pos : 0 < 1/2. Proof. lra. Qed.

(** ** C11 *)
(** Non-vacuity of the common hypotheses: every non-negative rectangle and positive scale has such m, n and a grid. *)
Theorem C11_grid_succeeds : forall so w h f s, 0 <= w -> 0 <= h -> 0 < s ->
  exists m n g, fits w s m /\ fits h s n /\ domain_grid so w h f s = Ok g.
Proof.
  intros so w h f s Hw Hh Hs. destruct (fits_exists w s Hw Hs) as [m Hm]. destruct (fits_exists h s Hh Hs) as [n Hn].
  destruct (rect_grid_ok so (S m) (S n) f s (Rlt_le _ _ Hs)) as [mean [E _]]. exists m, n. eexists.
  split; [exact Hm|]. split; [exact Hn|]. rewrite (domain_grid_rect so w h f s m n Hs Hm Hn). exact E.
Qed.
Print Assumptions C11_grid_succeeds.

(** Vertices are 0..N-1 in order with one point each; N = (m+1)(n+1). *)
Theorem C11_vertices_numbered : forall so w h f s m n g, 0 < s -> fits w s m -> fits h s n -> domain_grid so w h f s = Ok g ->
  g_vertices g = seq 0 ((m + 1) * (n + 1)) /\ length (g_points g) = ((m + 1) * (n + 1))%nat.
Proof.
  intros so w h f s m n g Hs Hm Hn H. pose proof (grid_spec _ _ _ _ _ _ _ _ Hs Hm Hn H) as G.
  rewrite (rs_v _ _ _ _ _ _ G), (rs_p _ _ _ _ _ _ G), rg_points_length. replace ((m + 1) * (n + 1))%nat with (S m * S n)%nat by lia. auto.
Qed.
Print Assumptions C11_vertices_numbered.

(** A point is stored iff it is a lattice point inside the rectangle, and it is stored at one index only. *)
Theorem C11_points_are_the_lattice : forall so w h f s m n g, 0 < s -> fits w s m -> fits h s n -> domain_grid so w h f s = Ok g ->
  (forall p, In p (g_points g) <-> exists i j, p = [INR i * s; INR j * s] /\ INR i * s <= w /\ INR j * s <= h) /\
  NoDup (g_points g).
Proof.
  intros so w h f s m n g Hs Hm Hn H. pose proof (grid_spec _ _ _ _ _ _ _ _ Hs Hm Hn H) as G.
  assert (Hle : forall e k l, fits e s k -> (INR l * s <= e <-> (l <= k)%nat)).
  { intros e k l [H1 H2]. split; intros HH.
    - assert (INR l < INR (k + 1)) by (apply Rmult_lt_reg_r with s; lra). apply INR_lt in H0. lia.
    - apply le_INR in HH. assert (INR l * s <= INR k * s) by (apply Rmult_le_compat_r; lra). lra. }
  split.
  - intros p. rewrite (rs_p _ _ _ _ _ _ G). split.
    + intros Hin. apply In_nth_error in Hin as [v Hv]. assert (Hlt : (v < S m * S n)%nat) by (rewrite <- (rg_points_length _ _ s); apply nth_error_Some; congruence).
      destruct (ptv_surj' (S m) (S n) v Hlt) as [i [j [Hi [Hj ->]]]]. rewrite rg_points_nth in Hv by assumption. injection Hv as <-.
      exists i, j. split; [reflexivity|]. rewrite (Hle w m i Hm), (Hle h n j Hn). lia.
    + intros [i [j [-> [Hi Hj]]]]. rewrite (Hle w m i Hm) in Hi. rewrite (Hle h n j Hn) in Hj.
      apply nth_error_In with (pair_to_vertex (S m) i j). apply rg_points_nth; lia.
  - rewrite (rs_p _ _ _ _ _ _ G). apply NoDup_nth_error. intros a b Ha E. rewrite rg_points_length in Ha.
    assert (Hb : (b < S m * S n)%nat). { rewrite <- (rg_points_length _ _ s). apply nth_error_Some. rewrite <- E. apply nth_error_Some. rewrite rg_points_length. exact Ha. }
    destruct (ptv_surj' (S m) (S n) a Ha) as [i [j [Hi [Hj ->]]]]. destruct (ptv_surj' (S m) (S n) b Hb) as [i' [j' [Hi' [Hj' ->]]]].
    rewrite !rg_points_nth in E by assumption. injection E as E1 E2.
    apply Rmult_eq_reg_r in E1; [|lra]. apply Rmult_eq_reg_r in E2; [|lra]. apply INR_eq in E1, E2. subst. reflexivity.
Qed.
Print Assumptions C11_points_are_the_lattice.

(** The grid covers the rectangle up to less than one cell. *)
Theorem C11_extent : forall so w h f s m n g, 0 < s -> fits w s m -> fits h s n -> domain_grid so w h f s = Ok g ->
  In [INR m * s; INR n * s] (g_points g) /\ 0 <= w - INR m * s < s /\ 0 <= h - INR n * s < s.
Proof.
  intros so w h f s m n g Hs Hm Hn H. split.
  - apply (C11_points_are_the_lattice so w h f s m n g Hs Hm Hn H). exists m, n. unfold fits in *. split; [reflexivity|lra].
  - unfold fits in *. rewrite plus_INR in *. simpl in *. lra.
Qed.
Print Assumptions C11_extent.
Example C11_example : exists g, domain_grid std_order (12/10) (9/10) (FixOne "lower") (1/2) = Ok g /\
  fits (12/10) (1/2) 2 /\ fits (9/10) (1/2) 1 /\ g_vertices g = [0; 1; 2; 3; 4; 5]%nat.
Proof.
  destruct (C11_grid_succeeds std_order (12/10) (9/10) (FixOne "lower") (1/2)) as [m [n [g [Hm [Hn Hg]]]]]; try lra.
  exists g. split; [exact Hg|]. split; [exact ex_fits_w|]. split; [exact ex_fits_h|].
  rewrite (proj1 (C11_vertices_numbered _ _ _ _ _ _ _ _ ex_pos ex_fits_w ex_fits_h Hg)). reflexivity.
Qed.

(** ** C12 *)
Theorem C12_edges_valid : forall so w h f s m n g a b, 0 < s -> fits w s m -> fits h s n -> domain_grid so w h f s = Ok g ->
  In (a, b) (g_edges g) -> In a (g_vertices g) /\ In b (g_vertices g) /\ a <> b.
Proof.
  intros so w h f s m n g a b Hs Hm Hn H Hin. pose proof (grid_spec _ _ _ _ _ _ _ _ Hs Hm Hn H) as G.
  rewrite (rs_e _ _ _ _ _ _ G) in Hin. rewrite (rs_v _ _ _ _ _ _ G), !in_vertices.
  apply in_edges in Hin as [i [j [di [dj [Hst [Hi [Hj E]]]]]]]. injection E as -> ->.
  split; [apply ptv_lt; lia|]. split; [apply ptv_lt; lia|]. intros E. apply ptv_inj in E; unfold step in Hst; lia.
Qed.
Print Assumptions C12_edges_valid.
Theorem C12_edges_unique : forall so w h f s m n g k l e e', 0 < s -> fits w s m -> fits h s n -> domain_grid so w h f s = Ok g ->
  nth_error (g_edges g) k = Some e -> nth_error (g_edges g) l = Some e' -> same_edge e e' -> k = l.
Proof.
  intros so w h f s m n g k l e e' Hs Hm Hn H Hk Hl Hsame. pose proof (grid_spec _ _ _ _ _ _ _ _ Hs Hm Hn H) as G.
  rewrite (rs_e _ _ _ _ _ _ G) in *.
  assert (e = e') as <-.
  { destruct Hsame as [E|E]; [exact E|]. apply nth_error_In in Hk, Hl. apply in_edges in Hk as [i [j [di [dj [Hst [Hi [Hj ->]]]]]]].
    apply in_edges in Hl as [i' [j' [di' [dj' [Hst' [Hi' [Hj' ->]]]]]]]. cbn [fst snd] in E. apply pair_ptv_iff in E; try lia.
    unfold step in *. lia. }
  apply (proj1 (NoDup_nth_error _) (NoDup_edges (S m) (S n))); [apply nth_error_Some; congruence|congruence].
Qed.
Print Assumptions C12_edges_unique.
(** Exactly the pairs of horizontal, vertical and up-right diagonal neighbours, oriented right/up. *)
Theorem C12_edges_join_neighbours : forall so w h f s m n g a b, 0 < s -> fits w s m -> fits h s n -> domain_grid so w h f s = Ok g ->
  (In (a, b) (g_edges g) <->
   exists i j i' j', vertex_at g s a i j /\ vertex_at g s b i' j' /\
     (i' = i + 1 /\ j' = j \/ i' = i /\ j' = j + 1 \/ i' = i + 1 /\ j' = j + 1)%nat).
Proof.
  intros so w h f s m n g a b Hs Hm Hn H. pose proof (grid_spec _ _ _ _ _ _ _ _ Hs Hm Hn H) as G.
  rewrite (rs_e _ _ _ _ _ _ G). split.
  - intros Hin. apply in_edges in Hin as [i [j [di [dj [Hst [Hi [Hj E]]]]]]]. injection E as -> ->.
    exists i, j, (i + di)%nat, (j + dj)%nat. rewrite !(vertex_at_ptv g so m n f s Hs G). unfold step in Hst. repeat split; lia.
  - intros [i [j [i' [j' [Ha [Hb Hst]]]]]]. apply (vertex_at_ptv g so m n f s Hs G) in Ha as [Hi [Hj ->]].
    apply (vertex_at_ptv g so m n f s Hs G) in Hb as [Hi' [Hj' ->]]. apply in_edges_ptv; lia.
Qed.
Print Assumptions C12_edges_join_neighbours.
Example C12_example : exists g a b, domain_grid std_order (12/10) (9/10) FixNone (1/2) = Ok g /\
  In (a, b) (g_edges g) /\ vertex_at g (1/2) a 1 0 /\ vertex_at g (1/2) b 2 1.
Proof.
  destruct (C11_grid_succeeds std_order (12/10) (9/10) FixNone (1/2)) as [m [n [g [_ [_ Hg]]]]]; try lra.
  pose proof (grid_spec _ _ _ _ _ _ _ _ ex_pos ex_fits_w ex_fits_h Hg) as G.
  exists g, (pair_to_vertex 3 1 0), (pair_to_vertex 3 2 1). split; [exact Hg|].
  assert (A : vertex_at g (1/2) (pair_to_vertex 3 1 0) 1 0) by (apply (vertex_at_ptv g _ 2 1 _ _ ex_pos G); repeat split; lia).
  assert (B : vertex_at g (1/2) (pair_to_vertex 3 2 1) 2 1) by (apply (vertex_at_ptv g _ 2 1 _ _ ex_pos G); repeat split; lia).
  split; [|auto]. apply (C12_edges_join_neighbours _ _ _ _ _ _ _ _ _ _ ex_pos ex_fits_w ex_fits_h Hg).
  exists 1%nat, 0%nat, 2%nat, 1%nat. repeat split; try apply A; try apply B; lia.
Qed.

(** ** C13 *)
Theorem C13_triangles_shape : forall so w h f s m n g a b c, 0 < s -> fits w s m -> fits h s n -> domain_grid so w h f s = Ok g ->
  In (a, b, c) (g_triangles g) ->
  exists p q r e, triangle_at g (a, b, c) p q r /\ (e = 1 \/ e = -1) /\
    fst q = fst p + e * s /\ snd q = snd p /\ fst r = fst q /\ snd r = snd q + e * s /\
    signed_area p q r = s * s / 2.
Proof.
  intros so w h f s m n g a b c Hs Hm Hn H Hin. pose proof (grid_spec _ _ _ _ _ _ _ _ Hs Hm Hn H) as G.
  destruct (triangle_at_ex g so m n f s G _ Hin) as [p [q [r HT]]]. exists p, q, r.
  pose proof HT as HT'. apply (triangle_at_iff g so m n f s G) in HT' as [i [j [Hi [Hj C]]]].
  destruct C as [[_ [-> [-> ->]]]|[_ [-> [-> ->]]]]; [exists 1|exists (-1)]; (split; [exact HT|]); (split; [lra|]);
    unfold P, signed_area, cross; cbn [fst snd]; rewrite !plus_INR; simpl INR; repeat split; try lra; field.
Qed.
Print Assumptions C13_triangles_shape.
(** No triangle twice, not even with its corners listed in another order. *)
Theorem C13_triangles_unique : forall so w h f s m n g k l t t', 0 < s -> fits w s m -> fits h s n -> domain_grid so w h f s = Ok g ->
  nth_error (g_triangles g) k = Some t -> nth_error (g_triangles g) l = Some t' ->
  (forall v, corner_of v t <-> corner_of v t') -> k = l.
Proof.
  intros so w h f s m n g k l t t' Hs Hm Hn H Hk Hl Hc. pose proof (grid_spec _ _ _ _ _ _ _ _ Hs Hm Hn H) as G.
  rewrite (rs_t _ _ _ _ _ _ G) in *.
  assert (t = t') as <-.
  { pose proof (nth_error_In _ _ Hk) as A. pose proof (nth_error_In _ _ Hl) as B.
    apply in_triangles in A as [i [j [Hi [Hj A]]]]. apply in_triangles in B as [i' [j' [Hi' [Hj' B]]]].
    assert (K : forall x y, (x <= i' + 1)%nat -> corner_of (pair_to_vertex (S m) x y) t' ->
       (x = i' /\ y = j' \/ x = i' + 1 /\ y = j' + 1 \/ (t' = lower_tri (S m) i' j' /\ x = i' + 1 /\ y = j') \/ (t' = upper_tri (S m) i' j' /\ x = i' /\ y = j' + 1))%nat).
    { intros x y Hx HC. destruct B as [-> | ->]; unfold lower_tri, upper_tri, corner_of in HC; rewrite !ptv_eq_iff in HC by lia; tauto. }
    assert (K' : forall x y, (x <= i + 1)%nat -> corner_of (pair_to_vertex (S m) x y) t ->
       (x = i /\ y = j \/ x = i + 1 /\ y = j + 1 \/ (t = lower_tri (S m) i j /\ x = i + 1 /\ y = j) \/ (t = upper_tri (S m) i j /\ x = i /\ y = j + 1))%nat).
    { intros x y Hx HC. destruct A as [-> | ->]; unfold lower_tri, upper_tri, corner_of in HC; rewrite !ptv_eq_iff in HC by lia; tauto. }
    assert (D : forall x y, (x < S m)%nat -> (corner_of (pair_to_vertex (S m) x y) t <->
        (x = i /\ y = j \/ x = i + 1 /\ y = j + 1 \/ (t = lower_tri (S m) i j /\ x = i + 1 /\ y = j) \/ (t = upper_tri (S m) i j /\ x = i /\ y = j + 1))%nat)).
    { intros x y Hx. destruct A as [E|E]; rewrite E at 1; unfold lower_tri at 1, upper_tri at 1, corner_of; rewrite !ptv_eq_iff by lia;
        split; try tauto; intros [C|[C|[[C1 C]|[C1 C]]]]; try tauto; exfalso; rewrite E in C1.
      - apply (lower_upper (S m) i j i j); auto.
      - symmetry in C1. apply (lower_upper (S m) i j i j) in C1; auto. }
    assert (D' : forall x y, (x < S m)%nat -> (corner_of (pair_to_vertex (S m) x y) t' <->
        (x = i' /\ y = j' \/ x = i' + 1 /\ y = j' + 1 \/ (t' = lower_tri (S m) i' j' /\ x = i' + 1 /\ y = j') \/ (t' = upper_tri (S m) i' j' /\ x = i' /\ y = j' + 1))%nat)).
    { intros x y Hx. destruct B as [E|E]; rewrite E at 1; unfold lower_tri at 1, upper_tri at 1, corner_of; rewrite !ptv_eq_iff by lia;
        split; try tauto; intros [C|[C|[[C1 C]|[C1 C]]]]; try tauto; exfalso; rewrite E in C1.
      - apply (lower_upper (S m) i' j' i' j'); auto.
      - symmetry in C1. apply (lower_upper (S m) i' j' i' j') in C1; auto. }
    assert (X : forall x y, (x < S m)%nat -> (
        (x = i /\ y = j \/ x = i + 1 /\ y = j + 1 \/ (t = lower_tri (S m) i j /\ x = i + 1 /\ y = j) \/ (t = upper_tri (S m) i j /\ x = i /\ y = j + 1)) <->
        (x = i' /\ y = j' \/ x = i' + 1 /\ y = j' + 1 \/ (t' = lower_tri (S m) i' j' /\ x = i' + 1 /\ y = j') \/ (t' = upper_tri (S m) i' j' /\ x = i' /\ y = j' + 1)))%nat).
    { intros x y Hx. rewrite <- D, <- D' by exact Hx. apply Hc. }
    clear K K' D D'.
    assert (X1 := proj1 (X i j ltac:(lia)) ltac:(tauto)). assert (X2 := proj1 (X (i + 1)%nat (j + 1)%nat ltac:(lia)) ltac:(tauto)).
    assert (i = i' /\ j = j')%nat as [-> ->] by lia.
    destruct A as [-> | ->], B as [-> | ->]; try reflexivity; exfalso.
    - assert (Y := proj1 (X (i' + 1)%nat j' ltac:(lia)) ltac:(tauto)).
      destruct Y as [Y|[Y|[[Y _]|[_ Y]]]]; try lia. symmetry in Y. revert Y. apply lower_upper; lia.
    - assert (Y := proj1 (X i' (j' + 1)%nat ltac:(lia)) ltac:(tauto)).
      destruct Y as [Y|[Y|[[_ Y]|[Y _]]]]; try lia. revert Y. apply lower_upper; lia. }
  apply (proj1 (NoDup_nth_error _) (NoDup_triangles (S m) (S n))); [apply nth_error_Some; congruence|congruence].
Qed.
Print Assumptions C13_triangles_unique.
(** If [area t] is the signed area of every listed triangle, the areas add up to the area of the grid rectangle. *)
Theorem C13_areas_add_up : forall so w h f s m n g (area : triangle -> R), 0 < s -> fits w s m -> fits h s n -> domain_grid so w h f s = Ok g ->
  (forall t p q r, triangle_at g t p q r -> area t = signed_area p q r) ->
  sum_over area (g_triangles g) = (INR m * s) * (INR n * s).
Proof.
  intros so w h f s m n g area Hs Hm Hn H Ha. pose proof (grid_spec _ _ _ _ _ _ _ _ Hs Hm Hn H) as G.
  assert (E : forall t, In t (g_triangles g) -> area t = s * s / 2).
  { intros [[a b] c] Hin. destruct (C13_triangles_shape _ _ _ _ _ _ _ _ _ _ _ Hs Hm Hn H Hin) as [p [q [r [e [HT [_ [_ [_ [_ [_ HA]]]]]]]]]].
    rewrite (Ha _ _ _ _ HT). exact HA. }
  assert (L : length (g_triangles g) = (2 * (m * n))%nat) by (rewrite (rs_t _ _ _ _ _ _ G), triangles_length; simpl; rewrite !Nat.sub_0_r; lia).
  assert (K : forall ts, (forall t, In t ts -> area t = s * s / 2) -> sum_over area ts = INR (length ts) * (s * s / 2)).
  { induction ts as [|t ts IH]; intros HE; [simpl; ring|]. cbn [sum_over length]. rewrite S_INR, IH, (HE t (or_introl eq_refl)) by (intros t' Ht'; apply HE; right; exact Ht'). ring. }
  rewrite (K _ E), L, !mult_INR. simpl INR. field.
Qed.
Print Assumptions C13_areas_add_up.
Example C13_example : exists g t p q r, domain_grid std_order (12/10) (9/10) FixNone (1/2) = Ok g /\ triangle_at g t p q r /\
  p = (1, 1/2) /\ q = (1/2, 1/2) /\ r = (1/2, 0).
Proof.
  destruct (C11_grid_succeeds std_order (12/10) (9/10) FixNone (1/2)) as [m [n [g [_ [_ Hg]]]]]; try lra.
  pose proof (grid_spec _ _ _ _ _ _ _ _ ex_pos ex_fits_w ex_fits_h Hg) as G.
  exists g, (upper_tri 3 1 0), (P (1/2) 2 1), (P (1/2) 1 1), (P (1/2) 1 0). split; [exact Hg|]. split.
  - apply (triangle_at_iff g _ 2 1 _ _ G). exists 1%nat, 0%nat. split; [lia|]. split; [lia|]. right. auto.
  - unfold P. simpl INR. repeat split; f_equal; lra.
Qed.

(** ** C14 *)
Theorem C14_sides_are_edges : forall so w h f s m n g t e, 0 < s -> fits w s m -> fits h s n -> domain_grid so w h f s = Ok g ->
  In t (g_triangles g) -> side_of e t -> exists e', same_edge e e' /\ In e' (g_edges g).
Proof.
  intros so w h f s m n g t e Hs Hm Hn H Hin Hside. pose proof (grid_spec _ _ _ _ _ _ _ _ Hs Hm Hn H) as G.
  rewrite (rs_t _ _ _ _ _ _ G) in Hin. rewrite (rs_e _ _ _ _ _ _ G).
  assert (F : forall x y, same_edge e (x, y) -> In (x, y) (rg_edges (S m) (S n)) \/ In (y, x) (rg_edges (S m) (S n)) ->
     exists e', same_edge e e' /\ In e' (rg_edges (S m) (S n))).
  { intros x y HS [I|I]; [exists (x, y)|exists (y, x)]; (split; [|exact I]); unfold same_edge in *; cbn [fst snd] in *; tauto. }
  apply in_triangles in Hin as [i [j [Hi [Hj [-> | ->]]]]]; unfold lower_tri, upper_tri, side_of in Hside;
    destruct Hside as [HS|[HS|HS]]; apply (F _ _ HS); rewrite !in_edges_ptv by lia; lia.
Qed.
Print Assumptions C14_sides_are_edges.
(** Every edge is a side of one or two triangles, and the boundary edges are those with only one. *)
Theorem C14_edges_in_one_or_two_triangles : forall so w h f s m n g e, 0 < s -> fits w s m -> fits h s n ->
  domain_grid so w h f s = Ok g -> (1 <= m)%nat -> (1 <= n)%nat -> In e (g_edges g) ->
  (how_many (g_triangles g) (side_of e) 1 \/ how_many (g_triangles g) (side_of e) 2) /\
  (how_many (g_triangles g) (side_of e) 1 <-> In e (b_edges (g_boundary g))).
Proof.
  intros so w h f s m n g e Hs Hm Hn H Hm1 Hn1 Hin. pose proof (grid_spec _ _ _ _ _ _ _ _ Hs Hm Hn H) as G.
  rewrite (rs_e _ _ _ _ _ _ G) in Hin. rewrite (rs_t _ _ _ _ _ _ G), (rs_be _ _ _ _ _ _ G).
  apply in_edges in Hin as [i [j [di [dj [Hst [Hi [Hj ->]]]]]]].
  pose proof (how_many_adj (S m) (S n) i j di dj Hst Hi Hj) as HM.
  destruct (boundary_iff_one (S m) (S n) i j di dj ltac:(lia) ltac:(lia) Hst Hi Hj) as [B HB].
  split.
  - assert (length (adj (S m) (S n) i j di dj) = 1 \/ length (adj (S m) (S n) i j di dj) = 2)%nat as [E|E] by lia; rewrite E in HM; auto.
  - rewrite <- HB. split; [intros H1; apply (how_many_unique _ _ _ _ HM H1)|intros E; rewrite <- E; exact HM].
Qed.
Print Assumptions C14_edges_in_one_or_two_triangles.
Theorem C14_boundary_edges_are_edges : forall so w h f s m n g, 0 < s -> fits w s m -> fits h s n ->
  domain_grid so w h f s = Ok g -> (1 <= m)%nat -> (1 <= n)%nat ->
  incl (b_edges (g_boundary g)) (g_edges g) /\ NoDup (b_edges (g_boundary g)).
Proof.
  intros so w h f s m n g Hs Hm Hn H Hm1 Hn1. pose proof (grid_spec _ _ _ _ _ _ _ _ Hs Hm Hn H) as G.
  rewrite (rs_e _ _ _ _ _ _ G), (rs_be _ _ _ _ _ _ G). split; [intros e; apply boundary_edges_sub; lia|apply boundary_edges_NoDup; lia].
Qed.
Print Assumptions C14_boundary_edges_are_edges.
Theorem C14_euler : forall so w h f s m n g, 0 < s -> fits w s m -> fits h s n -> domain_grid so w h f s = Ok g ->
  (length (g_vertices g) + length (g_triangles g) = length (g_edges g) + 1)%nat.
Proof.
  intros so w h f s m n g Hs Hm Hn H. pose proof (grid_spec _ _ _ _ _ _ _ _ Hs Hm Hn H) as G.
  rewrite (rs_e _ _ _ _ _ _ G), (rs_t _ _ _ _ _ _ G), (rs_v _ _ _ _ _ _ G), vertices_length, triangles_length, edges_length.
  cbn [Nat.sub]. rewrite !Nat.sub_0_r. nia.
Qed.
Print Assumptions C14_euler.
Example C14_example : exists g e, domain_grid std_order (12/10) (9/10) FixNone (1/2) = Ok g /\ In e (g_edges g) /\
  how_many (g_triangles g) (side_of e) 2 /\ ~ In e (b_edges (g_boundary g)).
Proof.
  destruct (C11_grid_succeeds std_order (12/10) (9/10) FixNone (1/2)) as [m [n [g [_ [_ Hg]]]]]; try lra.
  pose proof (grid_spec _ _ _ _ _ _ _ _ ex_pos ex_fits_w ex_fits_h Hg) as G.
  exists g, (pair_to_vertex 3 0 0, pair_to_vertex 3 1 1).
  assert (I : In (pair_to_vertex 3 0 0, pair_to_vertex 3 1 1) (g_edges g)) by (rewrite (rs_e _ _ _ _ _ _ G); apply in_edges_ptv; lia).
  assert (HM : how_many (g_triangles g) (side_of (pair_to_vertex 3 0 0, pair_to_vertex 3 1 1)) 2).
  { rewrite (rs_t _ _ _ _ _ _ G). apply (how_many_adj 3 2 0 0 1 1); [unfold step; lia|lia|lia]. }
  split; [exact Hg|]. split; [exact I|]. split; [exact HM|]. intros HB.
  apply (C14_edges_in_one_or_two_triangles _ _ _ _ _ _ _ _ _ ex_pos ex_fits_w ex_fits_h Hg ltac:(lia) ltac:(lia) I) in HB.
  pose proof (how_many_unique _ _ _ _ HM HB). discriminate.
Qed.

(** ** C15 *)
Theorem C15_covering : forall so w h f s m n g x y, 0 < s -> fits w s m -> fits h s n -> domain_grid so w h f s = Ok g ->
  (1 <= m)%nat -> (1 <= n)%nat -> 
  (0 <= x <= INR m * s /\ 0 <= y <= INR n * s <-> exists t p q r, triangle_at g t p q r /\ in_triangle p q r (x, y)).
Proof.
  intros so w h f s m n g x y Hs Hm Hn H Hm1 Hn1. pose proof (grid_spec _ _ _ _ _ _ _ _ Hs Hm Hn H) as G. split.
  - intros [Hx Hy]. apply (covering g so m n f s Hs G); assumption.
  - intros [t [p [q [r [HT HI]]]]]. apply (in_rectangle g so m n f s Hs G t p q r (x, y) HT HI).
Qed.
Print Assumptions C15_covering.
Theorem C15_no_overlap : forall so w h f s m n g t t' p q r p' q' r' x, 0 < s -> fits w s m -> fits h s n ->
  domain_grid so w h f s = Ok g -> triangle_at g t p q r -> triangle_at g t' p' q' r' ->
  inside_triangle p q r x -> inside_triangle p' q' r' x -> t = t'.
Proof.
  intros so w h f s m n g t t' p q r p' q' r' x Hs Hm Hn H. pose proof (grid_spec _ _ _ _ _ _ _ _ Hs Hm Hn H) as G.
  apply (no_overlap g so m n f s Hs G).
Qed.
Print Assumptions C15_no_overlap.
Example C15_example : exists g t p q r, domain_grid std_order (12/10) (9/10) FixNone (1/2) = Ok g /\
  triangle_at g t p q r /\ inside_triangle p q r (7/10, 4/10).
Proof.
  destruct (C11_grid_succeeds std_order (12/10) (9/10) FixNone (1/2)) as [m [n [g [_ [_ Hg]]]]]; try lra.
  pose proof (grid_spec _ _ _ _ _ _ _ _ ex_pos ex_fits_w ex_fits_h Hg) as G.
  exists g, (upper_tri 3 1 0), (P (1/2) 2 1), (P (1/2) 1 1), (P (1/2) 1 0). split; [exact Hg|]. split.
  - apply (triangle_at_iff g _ 2 1 _ _ G). exists 1%nat, 0%nat. split; [lia|]. split; [lia|]. right. auto.
  - exists (4/10), (4/10), (2/10). unfold P. simpl. lra.
Qed.

(** ** C16 *)
Theorem C16_boundary_is_outline : forall so w h f s m n g, 0 < s -> fits w s m -> fits h s n -> domain_grid so w h f s = Ok g ->
  (forall v, In v (b_vertices (g_boundary g)) <-> exists d, vertex_on_side g s m n d v) /\
  NoDup (b_vertices (g_boundary g)) /\
  (forall e, In e (b_edges (g_boundary g)) <-> exists d, edge_on_side g s m n d e).
Proof.
  intros so w h f s m n g Hs Hm Hn H. pose proof (grid_spec _ _ _ _ _ _ _ _ Hs Hm Hn H) as G.
  rewrite (rs_bv _ _ _ _ _ _ G), (rs_be _ _ _ _ _ _ G). split; [|split].
  - intros v. rewrite in_boundary_vertices. split; intros [d Hd]; exists d; apply (side_vertices_iff g so m n f s Hs G); exact Hd.
  - unfold boundary_vertices. apply so_nat_ok.
  - intros e. rewrite in_boundary_edges. split; intros [d Hd]; exists d; apply (side_edges_iff g so m n f s Hs G); exact Hd.
Qed.
Print Assumptions C16_boundary_is_outline.
Theorem C16_dirichlet_edges : forall so w h f s m n g, 0 < s -> fits w s m -> fits h s n -> domain_grid so w h f s = Ok g ->
  NoDup (b_edges (g_dirichlet g)) /\
  forall e, In e (b_edges (g_dirichlet g)) <-> exists d, fixed_side f d /\ edge_on_side g s m n d e.
Proof.
  intros so w h f s m n g Hs Hm Hn H. pose proof (grid_spec _ _ _ _ _ _ _ _ Hs Hm Hn H) as G.
  rewrite (rs_d _ _ _ _ _ _ G). split; [apply dirichlet_edges_NoDup|]. intros e. rewrite dirichlet_edges.
  split; intros [d [Hf Hd]]; exists d; (split; [exact Hf|apply (side_edges_iff g so m n f s Hs G); exact Hd]).
Qed.
Print Assumptions C16_dirichlet_edges.
Theorem C16_neumann_edges : forall so w h f s m n g, 0 < s -> fits w s m -> fits h s n -> domain_grid so w h f s = Ok g ->
  NoDup (b_edges (g_neumann g)) /\
  forall e, In e (b_edges (g_neumann g)) <-> In e (b_edges (g_boundary g)) /\ ~ In e (b_edges (g_dirichlet g)).
Proof.
  intros so w h f s m n g Hs Hm Hn H. pose proof (grid_spec _ _ _ _ _ _ _ _ Hs Hm Hn H) as G.
  rewrite (rs_d _ _ _ _ _ _ G), (rs_n _ _ _ _ _ _ G), (rs_be _ _ _ _ _ _ G). split; [apply neumann_edges_NoDup|].
  intros e. rewrite neumann_edges, dirichlet_edges. tauto.
Qed.
Print Assumptions C16_neumann_edges.
Theorem C16_dirichlet_within_boundary : forall so w h f s m n g, 0 < s -> fits w s m -> fits h s n -> domain_grid so w h f s = Ok g ->
  incl (b_edges (g_dirichlet g)) (b_edges (g_boundary g)) /\ incl (b_vertices (g_dirichlet g)) (b_vertices (g_boundary g)) /\
  incl (b_vertices (g_neumann g)) (b_vertices (g_boundary g)).
Proof.
  intros so w h f s m n g Hs Hm Hn H. pose proof (grid_spec _ _ _ _ _ _ _ _ Hs Hm Hn H) as G.
  rewrite (rs_d _ _ _ _ _ _ G), (rs_n _ _ _ _ _ _ G), (rs_be _ _ _ _ _ _ G), (rs_bv _ _ _ _ _ _ G). split; [|split].
  - intros e He. apply dirichlet_edges in He as [d [_ Hd]]. apply in_boundary_edges. exists d. exact Hd.
  - rewrite dirichlet_vertices_eq. intros v Hv. apply filter_In in Hv. apply Hv.
  - rewrite neumann_vertices_eq. intros v Hv. apply filter_In in Hv. apply Hv.
Qed.
Print Assumptions C16_dirichlet_within_boundary.
Example C16_example : exists g e e', domain_grid std_order (12/10) (9/10) (FixList ["upper"; "left"]%string) (1/2) = Ok g /\
  In e (b_edges (g_dirichlet g)) /\ In e' (b_edges (g_neumann g)).
Proof.
  destruct (C11_grid_succeeds std_order (12/10) (9/10) (FixList ["upper"; "left"]%string) (1/2)) as [m [n [g [_ [_ Hg]]]]]; try lra.
  pose proof (grid_spec _ _ _ _ _ _ _ _ ex_pos ex_fits_w ex_fits_h Hg) as G.
  exists g, (pair_to_vertex 3 0 1, pair_to_vertex 3 1 1), (pair_to_vertex 3 0 0, pair_to_vertex 3 1 0). rewrite (rs_d _ _ _ _ _ _ G), (rs_n _ _ _ _ _ _ G). split; [exact Hg|]. split.
  - apply dirichlet_edges. exists Upper. split; [left; reflexivity|]. apply in_side_edges. exists 0%nat, 1%nat, 1%nat, 0%nat. split; [reflexivity|lia].
  - apply neumann_edges. split.
    + apply in_boundary_edges. exists Lower. apply in_side_edges. exists 0%nat, 0%nat, 1%nat, 0%nat. split; [reflexivity|lia].
    + intros [d [Hd HI]]. assert (d = Lower); [|subst d; destruct Hd as [Hd|[Hd|[]]]; discriminate Hd].
      apply (side_edges_disjoint 3 2 d Lower _ ltac:(lia) ltac:(lia) HI).
      apply in_side_edges. exists 0%nat, 0%nat, 1%nat, 0%nat. split; [reflexivity|lia].
Qed.

(** ** C17 *)
Theorem C17_dirichlet_vertices : forall so w h f s m n g, 0 < s -> fits w s m -> fits h s n -> domain_grid so w h f s = Ok g ->
  NoDup (b_vertices (g_dirichlet g)) /\
  forall v, In v (b_vertices (g_dirichlet g)) <-> exists d, fixed_side f d /\ vertex_on_side g s m n d v.
Proof.
  intros so w h f s m n g Hs Hm Hn H. pose proof (grid_spec _ _ _ _ _ _ _ _ Hs Hm Hn H) as G.
  rewrite (rs_d _ _ _ _ _ _ G). split; [rewrite dirichlet_vertices_eq; apply NoDup_filter; unfold boundary_vertices; apply so_nat_ok|].
  intros v. rewrite dirichlet_vertices.
  split; intros [d [Hf Hd]]; exists d; (split; [exact Hf|apply (side_vertices_iff g so m n f s Hs G); exact Hd]).
Qed.
Print Assumptions C17_dirichlet_vertices.
Theorem C17_no_fix : forall so w h s g, 0 <= w -> 0 <= h -> 0 < s -> domain_grid so w h FixNone s = Ok g ->
  b_vertices (g_dirichlet g) = [] /\ b_edges (g_dirichlet g) = [].
Proof.
  intros so w h s g Hw Hh Hs H. destruct (fits_exists w s Hw Hs) as [m Hm]. destruct (fits_exists h s Hh Hs) as [n Hn].
  pose proof (C17_dirichlet_vertices _ _ _ _ _ _ _ _ Hs Hm Hn H) as [_ A]. pose proof (C16_dirichlet_edges _ _ _ _ _ _ _ _ Hs Hm Hn H) as [_ B].
  split.
  - destruct (b_vertices (g_dirichlet g)) as [|v l]; [reflexivity|]. destruct (proj1 (A v) (or_introl eq_refl)) as [d [[] _]].
  - destruct (b_edges (g_dirichlet g)) as [|v l]; [reflexivity|]. destruct (proj1 (B v) (or_introl eq_refl)) as [d [[] _]].
Qed.
Print Assumptions C17_no_fix.
(** Endpoints of Dirichlet edges are Dirichlet vertices. *)
Theorem C17_dirichlet_edge_ends : forall so w h f s m n g a b, 0 < s -> fits w s m -> fits h s n -> domain_grid so w h f s = Ok g ->
  In (a, b) (b_edges (g_dirichlet g)) -> In a (b_vertices (g_dirichlet g)) /\ In b (b_vertices (g_dirichlet g)).
Proof.
  intros so w h f s m n g a b Hs Hm Hn H HI.
  apply (C16_dirichlet_edges _ _ _ _ _ _ _ _ Hs Hm Hn H) in HI as [d [Hf [i [j [i' [j' [A [B [SA [SB _]]]]]]]]]].
  split; apply (C17_dirichlet_vertices _ _ _ _ _ _ _ _ Hs Hm Hn H); exists d; (split; [exact Hf|]); [exists i, j|exists i', j']; auto.
Qed.
Print Assumptions C17_dirichlet_edge_ends.
Example C17_example : exists g v, domain_grid std_order (12/10) (9/10) (FixOne "right") (1/2) = Ok g /\ In v (b_vertices (g_dirichlet g)) /\
  vertex_at g (1/2) v 2 0.
Proof.
  destruct (C11_grid_succeeds std_order (12/10) (9/10) (FixOne "right") (1/2)) as [m [n [g [_ [_ Hg]]]]]; try lra.
  pose proof (grid_spec _ _ _ _ _ _ _ _ ex_pos ex_fits_w ex_fits_h Hg) as G. exists g, (pair_to_vertex 3 2 0).
  assert (A : vertex_at g (1/2) (pair_to_vertex 3 2 0) 2 0) by (apply (vertex_at_ptv g _ 2 1 _ _ ex_pos G); repeat split; lia).
  split; [exact Hg|]. split; [|exact A]. apply (C17_dirichlet_vertices _ _ _ _ _ _ _ _ ex_pos ex_fits_w ex_fits_h Hg).
  exists Right. split; [left; reflexivity|]. exists 2%nat, 0%nat. split; [exact A|reflexivity].
Qed.

(** ** C18 *)
(** What the code computes: boundary vertices that lie on at most one fixed side. *)
Theorem C18_neumann_vertices_exact_partial : forall so w h f s m n g, 0 < s -> fits w s m -> fits h s n -> domain_grid so w h f s = Ok g ->
  NoDup (b_vertices (g_neumann g)) /\
  forall v, In v (b_vertices (g_neumann g)) <->
    (exists d, vertex_on_side g s m n d v) /\
    (forall d d', fixed_side f d -> fixed_side f d' -> vertex_on_side g s m n d v -> vertex_on_side g s m n d' v -> d = d').
Proof.
  intros so w h f s m n g Hs Hm Hn H. pose proof (grid_spec _ _ _ _ _ _ _ _ Hs Hm Hn H) as G.
  rewrite (rs_n _ _ _ _ _ _ G). split; [rewrite neumann_vertices_eq; apply NoDup_filter; unfold boundary_vertices; apply so_nat_ok|].
  intros v. rewrite neumann_vertices, in_boundary_vertices. pose proof (side_vertices_iff g so m n f s Hs G) as E.
  split.
  - intros [[d A] B]. split; [exists d; apply E, A|]. intros d1 d2 F1 F2 V1 V2. apply B; try assumption; apply E; assumption.
  - intros [[d A] B]. split; [exists d; apply E, A|]. intros d1 d2 F1 F2 V1 V2. apply B; try assumption; apply E; assumption.
Qed.
Print Assumptions C18_neumann_vertices_exact_partial.
(** The half that holds: both ends of a Neumann edge are Neumann vertices. *)
Theorem C18_neumann_edge_ends_partial : forall so w h f s m n g a b, 0 < s -> fits w s m -> fits h s n -> domain_grid so w h f s = Ok g ->
  (1 <= m)%nat -> (1 <= n)%nat -> In (a, b) (b_edges (g_neumann g)) ->
  In a (b_vertices (g_neumann g)) /\ In b (b_vertices (g_neumann g)).
Proof.
  intros so w h f s m n g a b Hs Hm Hn H Hm1 Hn1 HI. pose proof (grid_spec _ _ _ _ _ _ _ _ Hs Hm Hn H) as G.
  apply (C16_neumann_edges _ _ _ _ _ _ _ _ Hs Hm Hn H) in HI as [HB HD].
  apply (C16_boundary_is_outline _ _ _ _ _ _ _ _ Hs Hm Hn H) in HB as [d0 Hd0].
  assert (NF : ~ fixed_side f d0) by (intros F; apply HD, (C16_dirichlet_edges _ _ _ _ _ _ _ _ Hs Hm Hn H); exists d0; auto).
  assert (K : forall v, vertex_on_side g s m n d0 v -> In v (b_vertices (g_neumann g))).
  { intros v V. apply (C18_neumann_vertices_exact_partial _ _ _ _ _ _ _ _ Hs Hm Hn H). split; [exists d0; exact V|].
    intros d d' F F' [i [j [A S1]]] [i' [j' [A' S2]]]. destruct V as [k [l [A0 S0]]].
    apply (vertex_at_ptv g so m n f s Hs G) in A as [Bi [Bj ->]], A' as [Bi' [Bj' E]], A0 as [Bk [Bl E0]].
    apply ptv_inj in E as [<- <-]; try lia. apply ptv_inj in E0 as [<- <-]; try lia.
    unfold on_side in *. destruct d, d', d0; try reflexivity; try contradiction; exfalso; lia. }
  destruct Hd0 as [i [j [i' [j' [A [B [SA [SB _]]]]]]]].
  split; apply K; [exists i, j|exists i', j']; auto.
Qed.
Print Assumptions C18_neumann_edge_ends_partial.
(** The half that fails, for every grid with at least two cells vertically and only the left side fixed: the inner
    vertices of the fixed side are reported as Neumann vertices although no Neumann edge touches them. *)
Theorem C18_only_ends_of_neumann_edges_refuted : forall so w h s m n g j, 0 < s -> fits w s m -> fits h s n ->
  domain_grid so w h (FixOne "left") s = Ok g -> (1 <= m)%nat -> (0 < j < n)%nat ->
  exists v, vertex_at g s v 0 j /\ In v (b_vertices (g_neumann g)) /\
    forall e, In e (b_edges (g_neumann g)) -> fst e <> v /\ snd e <> v.
Proof.
  intros so w h s m n g j Hs Hm Hn H Hm1 Hj. pose proof (grid_spec _ _ _ _ _ _ _ _ Hs Hm Hn H) as G.
  exists (pair_to_vertex (S m) 0 j).
  assert (A : vertex_at g s (pair_to_vertex (S m) 0 j) 0 j) by (apply (vertex_at_ptv g so m n _ s Hs G); repeat split; lia).
  split; [exact A|]. split.
  - apply (C18_neumann_vertices_exact_partial _ _ _ _ _ _ _ _ Hs Hm Hn H). split; [exists Left, 0%nat, j; split; [exact A|reflexivity]|].
    intros d d' [F|[]] [F'|[]] _ _. apply side_name_inj. congruence.
  - intros [a b] HI. apply (C16_neumann_edges _ _ _ _ _ _ _ _ Hs Hm Hn H) in HI as [HB HD].
    apply (C16_boundary_is_outline _ _ _ _ _ _ _ _ Hs Hm Hn H) in HB as [d [i [k [i' [k' [A1 [A2 [S1 [S2 St]]]]]]]]].
    assert (HL : d <> Left). { intros ->. apply HD, (C16_dirichlet_edges _ _ _ _ _ _ _ _ Hs Hm Hn H). exists Left. split; [left; reflexivity|]. exists i, k, i', k'. auto. }
    apply (vertex_at_ptv g so m n _ s Hs G) in A1 as [Bi [Bk E1]], A2 as [Bi' [Bk' E2]]. cbn [fst snd] in *. subst a b.
    split; intros E; apply ptv_inj in E; try lia; destruct E as [-> ->]; unfold on_side in *; destruct d; try lia; contradiction.
Qed.
Print Assumptions C18_only_ends_of_neumann_edges_refuted.
Example C18_example : fits (12/10) (1/2) 2 /\ fits (11/10) (1/2) 2 /\ (0 < 1 < 2)%nat /\
  exists g, domain_grid std_order (12/10) (11/10) (FixOne "left") (1/2) = Ok g.
Proof.
  split; [exact ex_fits_w|]. split; [unfold fits; simpl; lra|]. split; [lia|].
  destruct (C11_grid_succeeds std_order (12/10) (11/10) (FixOne "left") (1/2)) as [m [n [g [_ [_ Hg]]]]]; try lra. exists g. exact Hg.
Qed.

(** ** C19 *)
Theorem C19_single_name_is_singleton_list : forall so (w h s : R) name,
  domain_grid so w h (FixOne name) s = domain_grid so w h (FixList [name]) s.
Proof.
  intros so w h s name. assert (E : so_str so [name] = [name]).
  { destruct (so_str_ok so [name]) as [N I]. destruct (so_str so [name]) as [|a [|b l]].
    - destruct (proj2 (I name) (or_introl eq_refl)).
    - f_equal. destruct (proj1 (I a) (or_introl eq_refl)) as [<-|[]]. reflexivity.
    - exfalso. destruct (proj1 (I a) (or_introl eq_refl)) as [<-|[]]. destruct (proj1 (I b) (or_intror (or_introl eq_refl))) as [<-|[]].
      inversion N as [|x y Hx]. apply Hx. left. reflexivity. }
  unfold domain_grid, rect_grid, rg_dirichlet, rg_neumann, fix_loop, fix_names. rewrite E. reflexivity.
Qed.
Print Assumptions C19_single_name_is_singleton_list.

(** Order and repetition of the names, even under different set orders: same grid (edge lists as sets). *)
Theorem C19_order_and_repetition : forall so so' w h f f' s m n g g', 0 < s -> fits w s m -> fits h s n ->
  (forall d, fixed_side f d <-> fixed_side f' d) ->
  domain_grid so w h f s = Ok g -> domain_grid so' w h f' s = Ok g' ->
  g_vertices g = g_vertices g' /\ g_points g = g_points g' /\ g_edges g = g_edges g' /\ g_triangles g = g_triangles g' /\
  g_mean g = g_mean g' /\ b_edges (g_boundary g) = b_edges (g_boundary g') /\
  Permutation (b_vertices (g_boundary g)) (b_vertices (g_boundary g')) /\
  Permutation (b_vertices (g_dirichlet g)) (b_vertices (g_dirichlet g')) /\
  Permutation (b_edges (g_dirichlet g)) (b_edges (g_dirichlet g')) /\
  Permutation (b_vertices (g_neumann g)) (b_vertices (g_neumann g')) /\
  Permutation (b_edges (g_neumann g)) (b_edges (g_neumann g')).
Proof.
  intros so so' w h f f' s m n g g' Hs Hm Hn Hf H H'.
  pose proof (grid_spec _ _ _ _ _ _ _ _ Hs Hm Hn H) as G. pose proof (grid_spec _ _ _ _ _ _ _ _ Hs Hm Hn H') as G'.
  assert (EM : g_mean g = g_mean g').
  { rewrite (domain_grid_rect so w h f s m n Hs Hm Hn) in H. rewrite (domain_grid_rect so' w h f' s m n Hs Hm Hn) in H'. unfold rect_grid, Grid_ in H, H'.
    destruct (rg_edges (S m) (S n)); [injection H as <-; injection H' as <-; reflexivity|]. destruct (mapM _ _) as [lens|]; [|discriminate].
    cbn [bind] in *. destruct (ndiv _ _) as [mean|]; [|discriminate]. cbn [bind] in *. injection H as <-; injection H' as <-; reflexivity. }
  rewrite (rs_v _ _ _ _ _ _ G), (rs_v _ _ _ _ _ _ G'), (rs_p _ _ _ _ _ _ G), (rs_p _ _ _ _ _ _ G'), (rs_e _ _ _ _ _ _ G), (rs_e _ _ _ _ _ _ G'),
    (rs_t _ _ _ _ _ _ G), (rs_t _ _ _ _ _ _ G'), (rs_be _ _ _ _ _ _ G), (rs_be _ _ _ _ _ _ G'), (rs_bv _ _ _ _ _ _ G), (rs_bv _ _ _ _ _ _ G'),
    (rs_d _ _ _ _ _ _ G), (rs_d _ _ _ _ _ _ G'), (rs_n _ _ _ _ _ _ G), (rs_n _ _ _ _ _ _ G').
  repeat (split; [first [reflexivity | exact EM] | ]).
  assert (EB : forall x, In x (boundary_vertices so (S m) (S n)) <-> In x (boundary_vertices so' (S m) (S n)))
    by (intros x; rewrite !in_boundary_vertices; tauto).
  repeat split; apply NoDup_Permutation; rewrite ?dirichlet_vertices_eq, ?neumann_vertices_eq; try apply NoDup_filter;
    try apply dirichlet_edges_NoDup; try apply neumann_edges_NoDup; try (unfold boundary_vertices; apply so_nat_ok).
  - exact EB.
  - intros x. rewrite <- !dirichlet_vertices_eq, !dirichlet_vertices. split; intros [d [F I]]; exists d; split; auto; apply Hf; auto.
  - intros x. rewrite !dirichlet_edges. split; intros [d [F I]]; exists d; split; auto; apply Hf; auto.
  - intros x. rewrite <- !neumann_vertices_eq, !neumann_vertices, EB. split; intros [A B]; (split; [exact A|]); intros d d' F F'; apply B; apply Hf; auto.
  - intros x. rewrite !neumann_edges. split; intros [A B]; (split; [exact A|]); intros [d [F I]]; apply B; exists d; split; auto; apply Hf; auto.
Qed.
Print Assumptions C19_order_and_repetition.

(** Unknown names are not rejected: they are ignored, on every rectangle and scale. *)
Theorem C19_unknown_name_rejected_refuted : forall so w h s name, 0 <= w -> 0 <= h -> 0 < s ->
  (forall d, name <> side_name d) ->
  domain_grid so w h (FixOne name) s = domain_grid so w h FixNone s /\ exists g, domain_grid so w h (FixOne name) s = Ok g.
Proof.
  intros so w h s name Hw Hh Hs Hn. split.
  - assert (E : side_of_name name = None).
    { destruct (side_of_name name) as [d|] eqn:E; [|reflexivity]. apply side_of_name_iff in E. destruct (Hn d E). }
    unfold domain_grid, rect_grid, rg_dirichlet, rg_neumann, fix_loop, fix_names. cbn [fold_left]. unfold apply_fix. rewrite E. reflexivity.
  - destruct (C11_grid_succeeds so w h (FixOne name) s Hw Hh Hs) as [_ [_ [g [_ [_ Hg]]]]]. exists g. exact Hg.
Qed.
Print Assumptions C19_unknown_name_rejected_refuted.
Example C19_example : (forall d, "top"%string <> side_name d) /\
  (forall d, fixed_side (FixList ["upper"; "left"; "upper"]%string) d <-> fixed_side (FixList ["left"; "upper"]%string) d).
Proof.
  split; [intros []; discriminate|]. intros d. unfold fixed_side, names_of. simpl. tauto.
Qed.
