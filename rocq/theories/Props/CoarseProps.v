(** * Statements and proofs: what a refined grid says about its coarse grid (C29-C33, C72). *)
From Coq Require Import Reals Lra Lia Psatz Permutation String.
From Verif.Model Require Import Py Num Tensors Domain Refine.
From Verif.Spec Require Import GridSpec EqSpec RefineSpec.
From Verif.Proofs Require Import Lib FindP GridP GridCover EqP EqRect StdOrder Lattice RefineP RefineTri RefineAll MeshLat MeshP RefineMesh RefineBd RefineOut RefineSetup EqMesh RectMesh RefineEdge RefineRect.
From Verif.Props Require Import GridProps LocateProps RefineProps.
Local Open Scope R_scope.

(** ** C29 *)
(** A triangle that is not one of the grid's, in any rotation, raises ValueError. *)
Theorem C29_unknown_triangle : forall (r : refined_grid R) t b, (forall t', In t' (g_triangles (r_grid r)) -> ~ same_triangle t t') ->
  to_coarse_barycentric_point r (t, b) = Err ValueError.
Proof.
  intros r [[i j] k] b H. unfold to_coarse_barycentric_point, listed_triangle.
  assert (K : forall t', same_triangle (i, j, k) t' -> py_in triangle_eqb t' (g_triangles (r_grid r)) = false).
  { intros t' S. destruct (py_in triangle_eqb t' (g_triangles (r_grid r))) eqn:Q; [|reflexivity]. apply py_in_triple in Q. destruct (H t' Q S). }
  rewrite !K; [reflexivity| | |]; cbn; auto.
Qed.
Print Assumptions C29_unknown_triangle.
(** Concrete case: the centroid of a triangle of a grid refined by 3. *)
Lemma ex_refined : exists g r, domain_grid std_order 1 1 (FixOne "left") (1/2) = Ok g /\ refine g 3 = Ok r /\ mesh g (1/2) 2 2 /\ mesh (r_grid r) (1/2 / INR 3) 6 6 /\ boundaries_outline g (1/2) 2 2 /\ / 10 ^ 15 <= 1/2 / INR 3.
Proof.
  destruct (C11_grid_succeeds std_order 1 1 (FixOne "left") (1/2)) as [m1 [n1 [g [_ [_ Hg]]]]]; try lra.
  assert (F : fits 1 (1/2) 2) by (unfold fits; simpl; lra). assert (He : / 10 ^ 15 <= 1/2 / INR 3) by (simpl; lra).
  pose proof (rect_mesh std_order 1 1 (FixOne "left") (1/2) 2 2 g ex_pos F F Hg ltac:(lia) ltac:(lia)) as M.
  pose proof (rect_outlines std_order 1 1 (FixOne "left") (1/2) 2 2 g ex_pos F F Hg ltac:(lia) ltac:(lia)) as B.
  destruct (C27_refinement_is_fine_mesh g (1/2) 2 2 3 ex_pos) as [r [R K]]; try lia; try assumption. exists g, r. destruct K as [_ [K _]]. exact (conj Hg (conj R (conj M (conj K (conj B He))))).
Qed.

Example C29_example : exists g r t p q q' x, domain_grid std_order 1 1 (FixOne "left") (1/2) = Ok g /\ refine g 3 = Ok r /\ triangle_at (r_grid r) t p q q' /\ bary_of p q q' (1/3, 1/3, 1/3) x /\
  exists T P Q Q' b', to_coarse_barycentric_point r (t, (1/3, 1/3, 1/3)) = Ok (T, b') /\ triangle_at g T P Q Q' /\ bary_of P Q Q' b' x.
Proof.
  destruct ex_refined as [g [r [Hg [R [M [M' [_ He]]]]]]]. exists g, r.
  destruct (setup_of g (1/2) 2 2 3 r ex_pos) as [Hh [QQ [C [Ts [E SU]]]]]; try lia; try assumption.
  pose proof (su_f _ _ _ _ _ _ _ _ _ SU) as FM.
  assert (HX : In (low 0 0) (flat_map (subs 3) Ts)) by (apply (lm_tin _ _ _ _ _ _ _ FM); split; [left; reflexivity|unfold cbox; cbn; lia]).
  pose proof (corner_at _ _ _ _ _ _ _ FM _ HX) as A.
  eexists _, _, _, _, _. split; [exact Hg|]. split; [exact R|]. split; [exact A|].
  assert (B : bary_of (lp (1/2 / INR 3) (c1 (low 0 0))) (lp (1/2 / INR 3) (c2 (low 0 0))) (lp (1/2 / INR 3) (c3 (low 0 0))) (1/3, 1/3, 1/3)
     (1/3 * fst (lp (1/2 / INR 3) (c1 (low 0 0))) + 1/3 * fst (lp (1/2 / INR 3) (c2 (low 0 0))) + 1/3 * fst (lp (1/2 / INR 3) (c3 (low 0 0))),
      1/3 * snd (lp (1/2 / INR 3) (c1 (low 0 0))) + 1/3 * snd (lp (1/2 / INR 3) (c2 (low 0 0))) + 1/3 * snd (lp (1/2 / INR 3) (c3 (low 0 0))))).
  { unfold bary_of, l1, l2, l3. cbn [fst snd]. repeat split; lra. }
  split; [exact B|]. destruct (C29_same_point g (1/2) 2 2 3 r _ _ _ _ _ _ ex_pos ltac:(lia) ltac:(lia) ltac:(lia) He M R A B) as [T [P [Q [Q' [b' [K1 [K2 [K3 _]]]]]]]].
  rewrite (su_c _ _ _ _ _ _ _ _ _ SU) in K2. exists T, P, Q, Q', b'. auto.
Qed.

(** ** C72 *)
(** The same fine triangle listed from another corner: the coordinates are not rotated with it.  At coordinates
    (1, 0, 0), the first corner of (b, c, a), the method answers with coordinates of a different point (corner a
    of the listed triangle instead of b). *)
Theorem C72_rotated_triangle_refuted : forall g s m n N r a b c p q q', 0 < s -> (1 <= m)%nat -> (1 <= n)%nat -> (1 <= N)%nat -> / 10 ^ 15 <= s / INR N -> mesh g s m n ->
  refine g (Z.of_nat N) = Ok r -> triangle_at (r_grid r) (a, b, c) p q q' ->
  exists T P Q Q' b', to_coarse_barycentric_point r ((b, c, a), (1, 0, 0)) = Ok (T, b') /\ triangle_at g T P Q Q' /\ bary_of P Q Q' b' p /\ ~ bary_of P Q Q' b' q /\ bary_of q q' p (1, 0, 0) q.
Proof.
  intros g s m n N r a b c p q q' Hs Hm Hn HN He M R HT. pose proof HT as HT0.
  assert (HB : bary_of p q q' (1, 0, 0) p) by (unfold bary_of, l1, l2, l3; cbn [fst snd]; repeat split; lra).
  destruct (C29_same_point g s m n N r _ _ _ _ _ _ Hs Hm Hn HN He M R HT HB) as [T [P [Q [Q' [b' [K1 [K2 [K3 _]]]]]]]].
  destruct (setup_of g s m n N r Hs Hm Hn HN He M R) as [Hh [QQ [C [Ts [E SU]]]]]. rewrite (su_c _ _ _ _ _ _ _ _ _ SU) in K2.
  pose proof (su_f _ _ _ _ _ _ _ _ _ SU) as FM.
  exists T, P, Q, Q', b'.
  assert (NE : p <> q /\ ~ In (b, c, a) (g_triangles (r_grid r)) /\ ~ In (c, a, b) (g_triangles (r_grid r))).
  { destruct HT as [I [A [B D]]]. rewrite (lm_t _ _ _ _ _ _ _ FM) in I. apply in_map_iff in I as [X [Q1 HX]]. pose proof HX as HX'. apply (lm_tin _ _ _ _ _ _ _ FM) in HX'. pose proof (ltri_in_corners _ _ _ HX') as [B1 [B2 B3]].
    unfold tidx in Q1. injection Q1 as <- <- <-.
    apply (lp_at _ _ _ _ _ _ _ FM) in A; [|exact B1]. apply (lp_at _ _ _ _ _ _ _ FM) in B; [|exact B2].
    assert (OX : oriented X) by (apply HX').
    assert (KK : forall Y, In Y (flat_map (subs N) Ts) -> c1 Y = c2 X -> c2 Y = c3 X -> c3 Y = c1 X -> False).
    { intros Y HY. apply (lm_tin _ _ _ _ _ _ _ FM) in HY as [HY _]. destruct X as [[x1 x2] tx], Y as [[y1 y2] ty]. unfold c1, c2, c3, oriented in *. cbn [fst snd] in *. intros E1 E2 E3. apply z2_eq in E1, E2, E3. lia. }
    assert (KK' : forall Y, In Y (flat_map (subs N) Ts) -> c1 Y = c3 X -> c2 Y = c1 X -> c3 Y = c2 X -> False).
    { intros Y HY. apply (lm_tin _ _ _ _ _ _ _ FM) in HY as [HY _]. destruct X as [[x1 x2] tx], Y as [[y1 y2] ty]. unfold c1, c2, c3, oriented in *. cbn [fst snd] in *. intros E1 E2 E3. apply z2_eq in E1, E2, E3. lia. }
    split; [|split].
    - subst p q. intros Q1. apply (lp_inj (s / INR N) Hh) in Q1. destruct X as [[x1 x2] tx]. unfold c1, c2, oriented in *. cbn [fst snd] in *. apply z2_eq in Q1. lia.
    - intros I. rewrite (lm_t _ _ _ _ _ _ _ FM) in I. apply in_map_iff in I as [Y [Q2 HY]]. pose proof HY as HY'. apply (lm_tin _ _ _ _ _ _ _ FM), ltri_in_corners in HY' as [D1 [D2 D3]]. unfold tidx in Q2. injection Q2 as E1 E2 E3.
      apply (idx_inj) in E1; [|apply (lm_box _ _ _ _ _ _ _ FM); assumption|apply (lm_box _ _ _ _ _ _ _ FM); assumption]. apply (idx_inj) in E2; [|apply (lm_box _ _ _ _ _ _ _ FM); assumption|apply (lm_box _ _ _ _ _ _ _ FM); assumption]. apply (idx_inj) in E3; [|apply (lm_box _ _ _ _ _ _ _ FM); assumption|apply (lm_box _ _ _ _ _ _ _ FM); assumption].
      apply (KK Y HY E1 E2 E3).
    - intros I. rewrite (lm_t _ _ _ _ _ _ _ FM) in I. apply in_map_iff in I as [Y [Q2 HY]]. pose proof HY as HY'. apply (lm_tin _ _ _ _ _ _ _ FM), ltri_in_corners in HY' as [D1 [D2 D3]]. unfold tidx in Q2. injection Q2 as E1 E2 E3.
      apply (idx_inj) in E1; [|apply (lm_box _ _ _ _ _ _ _ FM); assumption|apply (lm_box _ _ _ _ _ _ _ FM); assumption]. apply (idx_inj) in E2; [|apply (lm_box _ _ _ _ _ _ _ FM); assumption|apply (lm_box _ _ _ _ _ _ _ FM); assumption]. apply (idx_inj) in E3; [|apply (lm_box _ _ _ _ _ _ _ FM); assumption|apply (lm_box _ _ _ _ _ _ _ FM); assumption].
      apply (KK' Y HY E1 E2 E3). }
  destruct NE as [NE [NI NI']]. split.
  - rewrite <- K1. unfold to_coarse_barycentric_point, listed_triangle.
    assert (IN : py_in triangle_eqb (a, b, c) (g_triangles (r_grid r)) = true) by (apply py_in_triple, HT0).
    assert (F : forall x, ~ In x (g_triangles (r_grid r)) -> py_in triangle_eqb x (g_triangles (r_grid r)) = false).
    { intros x Hx. destruct (py_in triangle_eqb x (g_triangles (r_grid r))) eqn:Y; [|reflexivity]. apply py_in_triple in Y. destruct (Hx Y). }
    rewrite IN, (F _ NI), (F _ NI'). reflexivity.
  - split; [exact K2|]. split; [exact K3|]. split.
    + intros [_ [W1 W2]]. destruct K3 as [_ [V1 V2]]. apply NE. destruct p, q. cbn [fst snd] in *. f_equal; lra.
    + unfold bary_of, l1, l2, l3; cbn [fst snd]; repeat split; lra.
Qed.
Print Assumptions C72_rotated_triangle_refuted.
Example C72_example : exists g r a b c p q q', domain_grid std_order 1 1 (FixOne "left") (1/2) = Ok g /\ refine g 3 = Ok r /\ triangle_at (r_grid r) (a, b, c) p q q' /\
  exists T P Q Q' b', to_coarse_barycentric_point r ((b, c, a), (1, 0, 0)) = Ok (T, b') /\ triangle_at g T P Q Q' /\ ~ bary_of P Q Q' b' q.
Proof.
  destruct C29_example as [g [r [[[a b] c] [p [q [q' [x [Hg [R [A _]]]]]]]]]]. exists g, r, a, b, c, p, q, q'. split; [exact Hg|]. split; [exact R|]. split; [exact A|].
  destruct ex_refined as [g0 [r0 [Hg0 [R0 [M [_ [_ He]]]]]]]. rewrite Hg in Hg0. injection Hg0 as <-.
  destruct (C72_rotated_triangle_refuted g (1/2) 2 2 3 r a b c p q q' ex_pos ltac:(lia) ltac:(lia) ltac:(lia) He M R A) as [T [P [Q [Q' [b' [K1 [K2 [_ [K4 _]]]]]]]]].
  exists T, P, Q, Q', b'. auto.
Qed.

(** ** C30 *)
Lemma axis_dir g s m n C Ts E (Hs : 0 < s) (LM : lmesh g s m n C Ts E) x : In x E -> axis_parallel g (eidx C x) -> (dir x = (1, 0) \/ dir x = (0, 1))%Z.
Proof.
  intros Hx [p [q [A [B D]]]]. destruct (lm_boxes _ _ _ _ _ _ _ LM x Hx) as [B1 B2]. unfold eidx in A, B. cbn [fst snd] in A, B.
  apply (lp_at _ _ _ _ _ _ _ LM) in A; [|exact B1]. apply (lp_at _ _ _ _ _ _ _ LM) in B; [|exact B2]. subst p q.
  pose proof (ldir _ _ _ _ _ _ _ LM x Hx) as K. unfold fdir in K. destruct K as [K|[K|[K|K]]]; auto; exfalso;
  destruct x as [[a b] [c d]]; unfold dir, lp in *; cbn [fst snd] in *; apply z2_eq in K as [K1 K2];
  (destruct D as [D|D]; apply Rmult_eq_reg_r in D; [apply eq_IZR in D; lia|lra|apply eq_IZR in D; lia|lra]).
Qed.
Lemma diagonal_dir g s m n C Ts E (LM : lmesh g s m n C Ts E) x : In x E -> diagonal g (eidx C x) -> (dir x = (1, 1) \/ dir x = (-1, -1))%Z.
Proof.
  intros Hx [p [q [A [B [D1 D2]]]]]. destruct (lm_boxes _ _ _ _ _ _ _ LM x Hx) as [B1 B2]. unfold eidx in A, B. cbn [fst snd] in A, B.
  apply (lp_at _ _ _ _ _ _ _ LM) in A; [|exact B1]. apply (lp_at _ _ _ _ _ _ _ LM) in B; [|exact B2]. subst p q.
  pose proof (ldir _ _ _ _ _ _ _ LM x Hx) as K. unfold fdir in K. destruct K as [K|[K|[K|K]]]; auto; exfalso;
  destruct x as [[a b] [c d]]; unfold dir, lp in *; cbn [fst snd] in *; apply z2_eq in K as [K1 K2]; [apply D2|apply D1]; f_equal; f_equal; lia.
Qed.
Lemma sub_boxes m n N (HN : (1 <= N)%nat) x i : box m n (fst x) -> box m n (snd x) -> fdir x -> (i <= N)%nat -> box (m * N) (n * N) (subv N x i).
Proof.
  intros B1 B2 D Hi. destruct x as [[a b] [c d]]. unfold subv, box, fdir, dir in *. cbn [fst snd] in *. rewrite !z2_eq in D. rewrite !Nat2Z.inj_mul.
  destruct D as [[D1 D2]|[[D1 D2]|[[D1 D2]|[D1 D2]]]]; rewrite D1, D2; nia.
Qed.
(** The point of a piece and the answer of the lookup. *)
Lemma piece_point g N h m n r C Ts E (HN : (1 <= N)%nat) (Hm : (1 <= m)%nat) (Hn : (1 <= n)%nat) (SU : setup g N h m n r C Ts E) x i t : In x E -> (i < N)%nat ->
  exists t', to_coarse_edge_point r (eidx (LL N C Ts) (sube N x i)) t = Ok (eidx C x, t') /\ (0 <= t <= 1 -> 0 <= t' <= 1) /\
    forall z, edge_point (r_grid r) (eidx (LL N C Ts) (sube N x i)) t z -> edge_point g (eidx C x) t' z.
Proof.
  intros Hx Hi. pose proof (su_lm _ _ _ _ _ _ _ _ _ SU) as LM. pose proof (su_f _ _ _ _ _ _ _ _ _ SU) as FM. assert (HP : 0 < INR N) by (apply lt_0_INR; lia).
  destruct (edge_lookup N h HN g m n Hm Hn C Ts E LM r t (su_ce _ _ _ _ _ _ _ _ _ SU) (su_cc _ _ _ _ _ _ _ _ _ SU)) as [L1 _].
  eexists. split; [apply L1; assumption|]. destruct (lm_boxes _ _ _ _ _ _ _ LM x Hx) as [B1 B2]. pose proof (ldir _ _ _ _ _ _ _ LM x Hx) as D.
  assert (A0 : INR (i + 1) <= INR N) by (apply le_INR; lia). pose proof (pos_INR i) as A1. rewrite plus_INR in *. simpl (INR 1) in *.
  assert (A2 : 0 <= INR i / INR N). { apply Rmult_le_pos; [exact A1|]. apply Rlt_le, Rinv_0_lt_compat, HP. }
  assert (A3 : (INR i + 1) / INR N <= 1). { apply (Rmult_le_reg_r (INR N)); [exact HP|]. unfold Rdiv. rewrite Rmult_assoc, Rinv_l; lra. }
  assert (A4 : INR i / INR N <= (INR i + 1) / INR N). { apply Rmult_le_compat_r; [apply Rlt_le, Rinv_0_lt_compat, HP|lra]. }
  split.
  - intros Ht. set (a := INR i / INR N) in *. set (b := (INR i + 1) / INR N) in *. nra.
  - intros z [p [q [P [Q ->]]]]. unfold eidx, sube in P, Q. cbn [fst snd] in P, Q.
    apply (lp_at _ _ _ _ _ _ _ FM) in P; [|apply sub_boxes; try assumption; lia]. apply (lp_at _ _ _ _ _ _ _ FM) in Q; [|apply sub_boxes; try assumption; lia]. subst p q.
    rewrite !(lp_subv N HN h).
    exists (lp (INR N * h) (fst x)), (lp (INR N * h) (snd x)). unfold eidx. cbn [fst snd]. split; [apply (at_lp _ _ _ _ _ _ _ LM), B1|]. split; [apply (at_lp _ _ _ _ _ _ _ LM), B2|].
    unfold along. cbn [fst snd]. rewrite plus_INR. simpl (INR 1). f_equal; field; lra.
Qed.
(** On every fine edge lying on a horizontal or vertical coarse edge the answer denotes the same point. *)
Theorem C30_same_edge_point : forall g s m n N r e e' t, 0 < s -> (1 <= m)%nat -> (1 <= n)%nat -> (1 <= N)%nat -> / 10 ^ 15 <= s / INR N -> mesh g s m n ->
  refine g (Z.of_nat N) = Ok r -> In e (g_edges g) -> axis_parallel g e -> In e' (g_edges (r_grid r)) -> lies_on (r_grid r) e' g e ->
  exists t', to_coarse_edge_point r e' t = Ok (e, t') /\ (0 <= t <= 1 -> 0 <= t' <= 1) /\ forall z, edge_point (r_grid r) e' t z -> edge_point g e t' z.
Proof.
  intros g s m n N r e e' t Hs Hm Hn HN He M R Ie Ax Ie' Lo. destruct (setup_of g s m n N r Hs Hm Hn HN He M R) as [Hh [QQ [C [Ts [E SU]]]]].
  destruct (lies_on_l g N _ m n r C Ts E Hh HN SU e e' Ie Ie' Lo) as [x [i [y [Hx [-> [Hi [Hy [-> K]]]]]]]].
  assert (D : (dir x = (1, 0) \/ dir x = (0, 1))%Z). { apply (axis_dir g (INR N * (s / INR N)) m n C Ts E); [rewrite QQ; exact Hs|apply (su_lm _ _ _ _ _ _ _ _ _ SU)|exact Hx|exact Ax]. }
  rewrite (straight_dir g N _ m n r C Ts E HN Hm Hn SU x i y D Hi Hy K). apply (piece_point g N _ m n r C Ts E HN Hm Hn SU); assumption.
Qed.
Print Assumptions C30_same_edge_point.
(** Every boundary edge of the refined grid is such an edge: its pieces lie on boundary edges of the coarse grid. *)
Lemma outline_axis g s m n bd e (Hs : 0 < s) : outline g s m n bd -> In e (b_edges bd) -> axis_parallel g e.
Proof.
  intros O H. apply (outline_sides _ _ _ _ _ O) in H as [d H].
  destruct H as [i [j [i' [j' [[_ A] [[_ B] [_ [_ D]]]]]]]]. exists (INR i * s, INR j * s), (INR i' * s, INR j' * s). split; [exact A|]. split; [exact B|]. cbn [fst snd].
  destruct D as [[_ ->]|[-> _]]; auto.
Qed.

(** ** C32 *)
(** The three kinds of boundary. *)
Definition is_kind (sel : grid R -> boundary) : Prop := sel = g_boundary (T := R) \/ sel = g_dirichlet (T := R) \/ sel = g_neumann (T := R).
Lemma kind_fine g N h m n r C Ts E sel (SU : setup g N h m n r C Ts E) : is_kind sel -> sel (r_grid r) = BB N g C (LL N C Ts) (sel g) Ts.
Proof. destruct (su_g _ _ _ _ _ _ _ _ _ SU) as [mm [Q _]]. intros [->|[->| ->]]; rewrite Q; reflexivity. Qed.
Lemma kind_outline g s m n sel : is_kind sel -> boundaries_outline g s m n -> outline g s m n (sel g).
Proof. intros [->|[->| ->]] [A [B D]]; assumption. Qed.
Lemma division_l g N h m n r C Ts E (HN : (1 <= N)%nat) (Hh : 0 < h) (SU : setup g N h m n r C Ts E) x k v : In x E -> (k <= N)%nat ->
  division_point g (eidx C x) N k (r_grid r) v <-> v = idx (LL N C Ts) (subv N x k).
Proof.
  intros Hx Hk. pose proof (su_lm _ _ _ _ _ _ _ _ _ SU) as LM. pose proof (su_f _ _ _ _ _ _ _ _ _ SU) as FM.
  destruct (lm_boxes _ _ _ _ _ _ _ LM x Hx) as [B1 B2]. pose proof (ldir _ _ _ _ _ _ _ LM x Hx) as D. unfold division_point, eidx. cbn [fst snd]. split.
  - intros [p [q [P [Q V]]]]. apply (lp_at _ _ _ _ _ _ _ LM) in P; [|exact B1]. apply (lp_at _ _ _ _ _ _ _ LM) in Q; [|exact B2]. subst p q. rewrite <- (lp_subv N HN h) in V.
    apply (point_at_l _ _ _ _ _ _ _ FM) in V as [y [_ [-> Q]]]. apply (lp_inj h Hh) in Q. rewrite Q. reflexivity.
  - intros ->. eexists _, _. split; [apply (at_lp _ _ _ _ _ _ _ LM), B1|]. split; [apply (at_lp _ _ _ _ _ _ _ LM), B2|]. rewrite <- (lp_subv N HN h). apply (at_lp _ _ _ _ _ _ _ FM), sub_boxes; assumption.
Qed.
Lemma lout_E g s m n C Ts E (LM : lmesh g s m n C Ts E) bd Vb Eb : lout C m n bd Vb Eb -> incl Eb E.
Proof. intros L x Hx. pose proof (lo_on _ _ _ _ _ _ L x Hx) as [B1 [B2 D]]. apply (up_in g s m n C Ts E LM); [exact B1|exact B2|]. destruct D as [[D _]|[D _]]; auto. Qed.
(** The edges are, each once and in the orientation of the coarse edge, the N parts of the coarse boundary edges. *)
Theorem C32_boundary_edges : forall sel g s m n N r, is_kind sel -> 0 < s -> (1 <= m)%nat -> (1 <= n)%nat -> (1 <= N)%nat -> / 10 ^ 15 <= s / INR N ->
  mesh g s m n -> boundaries_outline g s m n -> refine g (Z.of_nat N) = Ok r ->
  NoDup (b_edges (sel (r_grid r))) /\ incl (b_edges (sel (r_grid r))) (g_edges (r_grid r)) /\
  (forall e', In e' (b_edges (sel (r_grid r))) <-> exists e k, In e (b_edges (sel g)) /\ (k < N)%nat /\ part_of g e N k (r_grid r) e') /\
  (forall e k, In e (b_edges (sel g)) -> (k < N)%nat -> exists! e', part_of g e N k (r_grid r) e').
Proof.
  intros sel g s m n N r Sel Hs Hm Hn HN He M B R. destruct (setup_of g s m n N r Hs Hm Hn HN He M R) as [Hh [QQ [C [Ts [E SU]]]]].
  pose proof (su_lm _ _ _ _ _ _ _ _ _ SU) as LM. pose proof (su_f _ _ _ _ _ _ _ _ _ SU) as FM.
  pose proof (kind_outline g s m n sel Sel B) as O. assert (HsN : 0 < INR N * (s / INR N)) by (rewrite QQ; exact Hs). rewrite <- QQ in O. destruct (lout_of_outline g _ m n C Ts E HsN LM _ O) as [Vb [Eb L]].
  pose proof (fine_lout N _ HN g m n Hm Hn C Ts E LM _ Vb Eb L) as FL. rewrite <- (kind_fine g N _ m n r C Ts E sel SU Sel) in FL.
  pose proof (outline_of_lout _ _ _ _ _ _ _ Hh FM _ _ _ FL) as FO.
  split; [apply (outline_edges_once _ _ _ _ _ FO)|]. split; [apply (outline_edges _ _ _ _ _ FO)|].
  assert (PE : forall x k e', In x Eb -> (k < N)%nat -> part_of g (eidx C x) N k (r_grid r) e' <-> e' = eidx (LL N C Ts) (sube N x k)).
  { intros x k [u v] Hx Hk. apply (lout_E _ _ _ _ _ _ _ LM _ _ _ L) in Hx. unfold part_of. cbn [fst snd]. rewrite !(division_l g N _ m n r C Ts E HN Hh SU) by (assumption || lia). unfold eidx, sube. cbn [fst snd]. split; [intros [-> ->]; reflexivity|intros Q; injection Q; auto]. }
  split.
  - intros e'. rewrite (lo_e _ _ _ _ _ _ FL), (lo_e _ _ _ _ _ _ L), in_map_iff. split.
    + intros [y [<- Hy]]. apply (in_Ef N _ HN g m n Hm Hn C Ts E LM _ Vb Eb L) in Hy as [x [i [Hx [Hi ->]]]]. exists (eidx C x), i. split; [apply in_map, Hx|]. split; [exact Hi|]. apply PE; auto.
    + intros [e [k [Ie [Hk P]]]]. apply in_map_iff in Ie as [x [<- Hx]]. apply PE in P; try assumption. subst e'. exists (sube N x k). split; [reflexivity|]. apply (in_Ef N _ HN g m n Hm Hn C Ts E LM _ Vb Eb L). eauto.
  - intros e k Ie Hk. rewrite (lo_e _ _ _ _ _ _ L) in Ie. apply in_map_iff in Ie as [x [<- Hx]]. exists (eidx (LL N C Ts) (sube N x k)). split; [apply PE; auto|]. intros e' P. apply PE in P; auto.
Qed.
Print Assumptions C32_boundary_edges.
(** The vertices are, each once, the coarse boundary vertices (same numbers) and the inner division points. *)
Theorem C32_boundary_vertices : forall sel g s m n N r, is_kind sel -> 0 < s -> (1 <= m)%nat -> (1 <= n)%nat -> (1 <= N)%nat -> / 10 ^ 15 <= s / INR N ->
  mesh g s m n -> boundaries_outline g s m n -> refine g (Z.of_nat N) = Ok r ->
  NoDup (b_vertices (sel (r_grid r))) /\
  forall v, In v (b_vertices (sel (r_grid r))) <-> In v (b_vertices (sel g)) \/ exists e k, In e (b_edges (sel g)) /\ (0 < k < N)%nat /\ division_point g e N k (r_grid r) v.
Proof.
  intros sel g s m n N r Sel Hs Hm Hn HN He M B R. destruct (setup_of g s m n N r Hs Hm Hn HN He M R) as [Hh [QQ [C [Ts [E SU]]]]].
  pose proof (su_lm _ _ _ _ _ _ _ _ _ SU) as LM. pose proof (su_f _ _ _ _ _ _ _ _ _ SU) as FM.
  pose proof (kind_outline g s m n sel Sel B) as O. assert (HsN : 0 < INR N * (s / INR N)) by (rewrite QQ; exact Hs). rewrite <- QQ in O. destruct (lout_of_outline g _ m n C Ts E HsN LM _ O) as [Vb [Eb L]].
  pose proof (fine_lout N _ HN g m n Hm Hn C Ts E LM _ Vb Eb L) as FL. rewrite <- (kind_fine g N _ m n r C Ts E sel SU Sel) in FL.
  pose proof (outline_of_lout _ _ _ _ _ _ _ Hh FM _ _ _ FL) as FO. split; [apply (outline_vertices_once _ _ _ _ _ FO)|].
  intros v. rewrite (lo_v _ _ _ _ _ _ FL), (lo_v _ _ _ _ _ _ L), (lo_e _ _ _ _ _ _ L), !in_map_iff.
  assert (SC : forall x, In x Vb -> idx (LL N C Ts) (scale N x) = idx C x).
  { intros x Hx. apply (lo_vin _ _ _ _ _ _ L), (lm_box _ _ _ _ _ _ _ LM) in Hx. apply (idx_scale N HN); assumption. }
  split.
  - intros [y [<- Hy]]. apply (in_Vf N _ HN g m n Hm Hn C Ts E LM _ Vb Eb L) in Hy as [[x [Hx ->]]|[x [i [Hx [Hi ->]]]]].
    + left. exists x. split; [symmetry; apply SC, Hx|exact Hx].
    + right. exists (eidx C x), i. split; [apply in_map, Hx|]. split; [exact Hi|]. apply (division_l g N _ m n r C Ts E HN Hh SU); [apply (lout_E _ _ _ _ _ _ _ LM _ _ _ L), Hx|lia|reflexivity].
  - intros [[x [<- Hx]]|[e [k [Ie [Hk P]]]]].
    + exists (scale N x). split; [apply SC, Hx|]. apply (in_Vf N _ HN g m n Hm Hn C Ts E LM _ Vb Eb L). left. eauto.
    + apply in_map_iff in Ie as [x [<- Hx]]. apply (division_l g N _ m n r C Ts E HN Hh SU) in P; [|apply (lout_E _ _ _ _ _ _ _ LM _ _ _ L), Hx|lia]. exists (subv N x k). split; [symmetry; exact P|].
      apply (in_Vf N _ HN g m n Hm Hn C Ts E LM _ Vb Eb L). right. eauto.
Qed.
Print Assumptions C32_boundary_vertices.
Example C32_example : exists g r, domain_grid std_order 1 1 (FixOne "left") (1/2) = Ok g /\ refine g 3 = Ok r /\
  forall e', In e' (b_edges (g_dirichlet (r_grid r))) <-> exists e k, In e (b_edges (g_dirichlet g)) /\ (k < 3)%nat /\ part_of g e 3 k (r_grid r) e'.
Proof.
  destruct ex_refined as [g [r [Hg [R [M [M' [B He]]]]]]]. exists g, r. split; [exact Hg|]. split; [exact R|].
  apply (C32_boundary_edges _ g (1/2) 2 2 3 r ltac:(right; left; reflexivity) ex_pos); try lia; assumption.
Qed.
(** C30 for the boundary: on every edge of the outline the answer denotes the same point of a coarse boundary edge. *)
Theorem C30_boundary_edges : forall sel g s m n N r e' t, is_kind sel -> 0 < s -> (1 <= m)%nat -> (1 <= n)%nat -> (1 <= N)%nat -> / 10 ^ 15 <= s / INR N ->
  mesh g s m n -> boundaries_outline g s m n -> refine g (Z.of_nat N) = Ok r -> In e' (b_edges (sel (r_grid r))) ->
  exists e t', In e (b_edges (sel g)) /\ to_coarse_edge_point r e' t = Ok (e, t') /\ (0 <= t <= 1 -> 0 <= t' <= 1) /\ forall z, edge_point (r_grid r) e' t z -> edge_point g e t' z.
Proof.
  intros sel g s m n N r e' t Sel Hs Hm Hn HN He M B R I. destruct (C32_boundary_edges sel g s m n N r Sel Hs Hm Hn HN He M B R) as [_ [IN [K _]]]. pose proof (IN _ I) as I'.
  apply K in I as [e [k [Ie [Hk P]]]]. pose proof (kind_outline g s m n sel Sel B) as O.
  destruct (C30_same_edge_point g s m n N r e e' t) as [t' T]; try assumption; [apply (outline_edges _ _ _ _ _ O), Ie|apply (outline_axis g s m n (sel g)); assumption| |exists e, t'; auto].
  destruct P as [[p [q [P1 [P2 P3]]]] [p' [q' [P4 [P5 P6]]]]]. assert (HP : 0 < INR N) by (apply lt_0_INR; lia).
  unfold point_at in P1, P2, P4, P5. rewrite P1 in P4. rewrite P2 in P5. injection P4 as X1 X2. injection P5 as X3 X4. assert (p' = p) by (destruct p, p'; cbn in *; congruence). assert (q' = q) by (destruct q, q'; cbn in *; congruence). subst p' q'.
  exists p, q, (INR k / INR N), (INR (k + 1) / INR N). assert (U : forall j, (j <= N)%nat -> 0 <= INR j / INR N <= 1).
  { intros j Hj. split; [apply Rmult_le_pos; [apply pos_INR|apply Rlt_le, Rinv_0_lt_compat, HP]|]. apply (Rmult_le_reg_r (INR N)); [exact HP|]. unfold Rdiv. rewrite Rmult_assoc, Rinv_l, Rmult_1_r, Rmult_1_l by lra. apply le_INR, Hj. }
  repeat split; try assumption; apply U; lia.
Qed.
Print Assumptions C30_boundary_edges.
Example C30_example : exists g r e' e t', domain_grid std_order 1 1 (FixOne "left") (1/2) = Ok g /\ refine g 3 = Ok r /\ In e' (b_edges (g_dirichlet (r_grid r))) /\
  to_coarse_edge_point r e' (1/4) = Ok (e, t') /\ In e (b_edges (g_dirichlet g)) /\ forall z, edge_point (r_grid r) e' (1/4) z -> edge_point g e t' z.
Proof.
  destruct ex_refined as [g [r [Hg [R [M [M' [B He]]]]]]]. exists g, r.
  assert (D : exists e, In e (b_edges (g_dirichlet g))).
  { assert (F : fits 1 (1/2) 2) by (unfold fits; simpl; lra). destruct (C16_dirichlet_edges _ _ _ _ _ _ _ _ ex_pos F F Hg) as [_ K].
    destruct (mesh_points _ _ _ _ M 0%nat 0%nat) as [u [U _]]; try lia. destruct (mesh_points _ _ _ _ M 0%nat 1%nat) as [v [V _]]; try lia. exists (u, v). apply K. exists Left. split; [left; reflexivity|].
    exists 0%nat, 0%nat, 0%nat, 1%nat. unfold on_side. repeat split; try assumption; try lia; try apply U; try apply V. }
  destruct D as [e De]. destruct (C32_boundary_edges (@g_dirichlet _) g (1/2) 2 2 3 r) as [_ [_ [K U]]]; try lia; try assumption; [right; left; reflexivity|exact ex_pos|].
  destruct (U e 0%nat De ltac:(lia)) as [e' [P _]]. assert (I : In e' (b_edges (g_dirichlet (r_grid r)))) by (apply K; exists e, 0%nat; repeat split; try assumption; try lia; apply P).
  destruct (C30_boundary_edges (@g_dirichlet _) g (1/2) 2 2 3 r e' (1/4)) as [e0 [t' [A1 [A2 [A3 A4]]]]]; try lia; try assumption; [right; left; reflexivity|exact ex_pos|].
  exists e', e0, t'. auto 8.
Qed.

(** ** C31 *)
(** Refuted: on every edge of the refined grid that lies on a diagonal edge of the coarse grid the method raises ValueError. *)
Lemma diag_piece g N h m n r C Ts E (Hh : 0 < h) (HN : (1 <= N)%nat) (Hm : (1 <= m)%nat) (Hn : (1 <= n)%nat) (SU : setup g N h m n r C Ts E) x i y : In x E -> (dir x = (1, 1) \/ dir x = (-1, -1))%Z -> (i < N)%nat ->
  In y (EE N g C Ts) -> y = sube N x i \/ y = lflip (sube N x i) -> y = lflip (sube N x i) /\ forall t, to_coarse_edge_point r (eidx (LL N C Ts) y) t = Err ValueError.
Proof.
  intros Hx D Hi Hy K. pose proof (su_lm _ _ _ _ _ _ _ _ _ SU) as LM. pose proof (su_f _ _ _ _ _ _ _ _ _ SU) as FM.
  assert (Q : y = lflip (sube N x i)). { destruct K as [K|K]; [|exact K]. subst y. destruct (diag_dir g N h m n r C Ts E HN Hm Hn SU x i Hx D Hi Hy). }
  split; [exact Q|]. intros t. destruct (edge_lookup N h HN g m n Hm Hn C Ts E LM r t (su_ce _ _ _ _ _ _ _ _ _ SU) (su_cc _ _ _ _ _ _ _ _ _ SU)) as [_ L2]. apply L2.
  - destruct (lm_boxes _ _ _ _ _ _ _ FM y Hy) as [B1 B2]. split; apply (lm_box _ _ _ _ _ _ _ FM); assumption.
  - intros e j He Hj Y. rewrite Q, (lflip_sube N HN) in Y by exact Hi. apply (sube_inj_d N HN) in Y as [Y _]; [|right; rewrite lflip2; apply (ldir _ _ _ _ _ _ _ LM), Hx|lia|exact Hj].
    apply (proj2 (lm_eu _ _ _ _ _ _ _ LM) x Hx). rewrite Y. exact He.
Qed.
Theorem C31_diagonal_edges_refuted : forall g s m n N r e e' t, 0 < s -> (1 <= m)%nat -> (1 <= n)%nat -> (1 <= N)%nat -> / 10 ^ 15 <= s / INR N -> mesh g s m n ->
  refine g (Z.of_nat N) = Ok r -> In e (g_edges g) -> diagonal g e -> In e' (g_edges (r_grid r)) -> lies_on (r_grid r) e' g e -> to_coarse_edge_point r e' t = Err ValueError.
Proof.
  intros g s m n N r e e' t Hs Hm Hn HN He M R Ie Dg Ie' Lo. destruct (setup_of g s m n N r Hs Hm Hn HN He M R) as [Hh [QQ [C [Ts [E SU]]]]].
  destruct (lies_on_l g N _ m n r C Ts E Hh HN SU e e' Ie Ie' Lo) as [x [i [y [Hx [-> [Hi [Hy [-> K]]]]]]]].
  apply (diagonal_dir _ _ _ _ _ _ _ (su_lm _ _ _ _ _ _ _ _ _ SU)) in Dg; [|exact Hx].
  apply (diag_piece g N _ m n r C Ts E Hh HN Hm Hn SU x i y); assumption.
Qed.
Print Assumptions C31_diagonal_edges_refuted.
(** Every refined grid has such edges. *)
Theorem C31_affected_edges_exist_refuted : forall g s m n N r, 0 < s -> (1 <= m)%nat -> (1 <= n)%nat -> (1 <= N)%nat -> / 10 ^ 15 <= s / INR N -> mesh g s m n ->
  refine g (Z.of_nat N) = Ok r -> exists e e', In e (g_edges g) /\ diagonal g e /\ In e' (g_edges (r_grid r)) /\ lies_on (r_grid r) e' g e /\ forall t, to_coarse_edge_point r e' t = Err ValueError.
Proof.
  intros g s m n N r Hs Hm Hn HN He M R. destruct (setup_of g s m n N r Hs Hm Hn HN He M R) as [Hh [QQ [C [Ts [E SU]]]]].
  pose proof (su_lm _ _ _ _ _ _ _ _ _ SU) as LM. pose proof (su_f _ _ _ _ _ _ _ _ _ SU) as FM. assert (HP : 0 < INR N) by (apply lt_0_INR; lia).
  assert (X : exists x, In x E /\ (dir x = (1, 1) \/ dir x = (-1, -1))%Z).
  { destruct (lm_eall _ _ _ _ _ _ _ LM ((0, 0), (1, 1))%Z) as [X|X]; [|eexists; split; [exact X|left; reflexivity]|eexists; split; [exact X|right; reflexivity]].
    unfold lup, box, dir. cbn [fst snd]. repeat split; try lia. auto. }
  destruct X as [x [Hx D]]. destruct (lm_boxes _ _ _ _ _ _ _ LM x Hx) as [B1 B2]. pose proof (ldir _ _ _ _ _ _ _ LM x Hx) as FD.
  assert (S1 : box (m * N) (n * N) (subv N x 0)) by (apply sub_boxes; try assumption; lia). assert (S2 : box (m * N) (n * N) (subv N x 1)) by (apply sub_boxes; try assumption; lia).
  assert (DS : dir (sube N x 0) = dir x) by (destruct x as [[a b] [c d]]; unfold sube, subv, dir; cbn [fst snd]; apply z2_eq; lia).
  assert (Y : exists y, In y (EE N g C Ts) /\ (y = sube N x 0 \/ y = lflip (sube N x 0))).
  { destruct D as [D|D].
    - destruct (lm_eall _ _ _ _ _ _ _ FM (sube N x 0)) as [Y|Y]; eauto. unfold lup. split; [exact S1|]. split; [exact S2|]. rewrite DS. auto.
    - destruct (lm_eall _ _ _ _ _ _ _ FM (lflip (sube N x 0))) as [Y|Y]; [|eauto|rewrite lflip2 in Y; eauto]. unfold lup. split; [exact S2|]. split; [exact S1|]. rewrite dir_flip', DS, D. auto. }
  destruct Y as [y [Hy K]]. destruct (diag_piece g N _ m n r C Ts E Hh HN Hm Hn SU x 0 y Hx D ltac:(lia) Hy K) as [Q Er].
  exists (eidx C x), (eidx (LL N C Ts) y). split; [rewrite (lm_e _ _ _ _ _ _ _ LM); apply (in_map (eidx C)), Hx|]. split.
  - eexists _, _. unfold eidx. cbn [fst snd]. split; [apply (at_lp _ _ _ _ _ _ _ LM), B1|]. split; [apply (at_lp _ _ _ _ _ _ _ LM), B2|]. rewrite QQ. destruct x as [[a b] [c d]]. unfold lp, dir in *. cbn [fst snd] in *. rewrite !z2_eq in D.
    split; intros W; apply Rmult_eq_reg_r in W; try lra; apply eq_IZR in W; lia.
  - split; [rewrite (lm_e _ _ _ _ _ _ _ FM); apply (in_map (eidx (LL N C Ts))), Hy|]. split; [|exact Er].
    assert (U : 0 <= INR 1 / INR N <= 1). { split; [apply Rmult_le_pos; [apply pos_INR|apply Rlt_le, Rinv_0_lt_compat, HP]|]. apply (Rmult_le_reg_r (INR N)); [exact HP|]. unfold Rdiv. rewrite Rmult_assoc, Rinv_l, Rmult_1_r, Rmult_1_l by lra. apply le_INR, HN. }
    assert (U0 : 0 <= INR 0 / INR N <= 1) by (simpl INR; unfold Rdiv; rewrite Rmult_0_l; lra).
    exists (lp (INR N * (s / INR N)) (fst x)), (lp (INR N * (s / INR N)) (snd x)), (INR 1 / INR N), (INR 0 / INR N). unfold eidx. cbn [fst snd].
    split; [apply (at_lp _ _ _ _ _ _ _ LM), B1|]. split; [apply (at_lp _ _ _ _ _ _ _ LM), B2|]. split; [exact U|]. split; [exact U0|]. rewrite <- !(lp_subv N HN). subst y. unfold lflip, sube. cbn [fst snd]. split; apply (at_lp _ _ _ _ _ _ _ FM); assumption.
Qed.
Print Assumptions C31_affected_edges_exist_refuted.
(** What holds: the same edges given in the opposite direction are answered, with the same point. *)
Theorem C31_reversed_edge_partial : forall g s m n N r e e' t, 0 < s -> (1 <= m)%nat -> (1 <= n)%nat -> (1 <= N)%nat -> / 10 ^ 15 <= s / INR N -> mesh g s m n ->
  refine g (Z.of_nat N) = Ok r -> In e (g_edges g) -> diagonal g e -> In e' (g_edges (r_grid r)) -> lies_on (r_grid r) e' g e ->
  exists t', to_coarse_edge_point r (flip e') t = Ok (e, t') /\ (0 <= t <= 1 -> 0 <= t' <= 1) /\ forall z, edge_point (r_grid r) (flip e') t z -> edge_point g e t' z.
Proof.
  intros g s m n N r e e' t Hs Hm Hn HN He M R Ie Dg Ie' Lo. destruct (setup_of g s m n N r Hs Hm Hn HN He M R) as [Hh [QQ [C [Ts [E SU]]]]].
  destruct (lies_on_l g N _ m n r C Ts E Hh HN SU e e' Ie Ie' Lo) as [x [i [y [Hx [-> [Hi [Hy [-> K]]]]]]]].
  apply (diagonal_dir _ _ _ _ _ _ _ (su_lm _ _ _ _ _ _ _ _ _ SU)) in Dg; [|exact Hx].
  destruct (diag_piece g N _ m n r C Ts E Hh HN Hm Hn SU x i y Hx Dg Hi Hy K) as [-> _].
  change (flip (eidx (LL N C Ts) (lflip (sube N x i)))) with (eidx (LL N C Ts) (sube N x i)). apply (piece_point g N _ m n r C Ts E HN Hm Hn SU); assumption.
Qed.
Print Assumptions C31_reversed_edge_partial.
(** The documented error: an edge of the refined grid on no coarse edge raises ValueError. *)
Theorem C31_inner_edges_raise : forall g s m n N r e' t, 0 < s -> (1 <= m)%nat -> (1 <= n)%nat -> (1 <= N)%nat -> / 10 ^ 15 <= s / INR N -> mesh g s m n ->
  refine g (Z.of_nat N) = Ok r -> In e' (g_edges (r_grid r)) -> (forall e, In e (g_edges g) -> ~ lies_on (r_grid r) e' g e) -> to_coarse_edge_point r e' t = Err ValueError.
Proof.
  intros g s m n N r e' t Hs Hm Hn HN He M R Ie' No. destruct (setup_of g s m n N r Hs Hm Hn HN He M R) as [Hh [QQ [C [Ts [E SU]]]]].
  pose proof (su_lm _ _ _ _ _ _ _ _ _ SU) as LM. pose proof (su_f _ _ _ _ _ _ _ _ _ SU) as FM. assert (HP : 0 < INR N) by (apply lt_0_INR; lia).
  rewrite (lm_e _ _ _ _ _ _ _ FM) in Ie'. apply in_map_iff in Ie' as [y [<- Hy]].
  destruct (edge_lookup N _ HN g m n Hm Hn C Ts E LM r t (su_ce _ _ _ _ _ _ _ _ _ SU) (su_cc _ _ _ _ _ _ _ _ _ SU)) as [_ L2]. apply L2.
  - destruct (lm_boxes _ _ _ _ _ _ _ FM y Hy) as [B1 B2]. split; apply (lm_box _ _ _ _ _ _ _ FM); assumption.
  - intros x i Hx Hi ->. apply (No (eidx C x)); [rewrite (lm_e _ _ _ _ _ _ _ LM); apply (in_map (eidx C)), Hx|].
    destruct (lm_boxes _ _ _ _ _ _ _ LM x Hx) as [B1 B2]. destruct (lm_boxes _ _ _ _ _ _ _ FM _ Hy) as [B3 B4].
    assert (U : forall j, (j <= N)%nat -> 0 <= INR j / INR N <= 1).
    { intros j Hj. split; [apply Rmult_le_pos; [apply pos_INR|apply Rlt_le, Rinv_0_lt_compat, HP]|]. apply (Rmult_le_reg_r (INR N)); [exact HP|]. unfold Rdiv. rewrite Rmult_assoc, Rinv_l, Rmult_1_r, Rmult_1_l by lra. apply le_INR, Hj. }
    exists (lp (INR N * (s / INR N)) (fst x)), (lp (INR N * (s / INR N)) (snd x)), (INR i / INR N), (INR (i + 1) / INR N). unfold eidx. cbn [fst snd].
    split; [apply (at_lp _ _ _ _ _ _ _ LM), B1|]. split; [apply (at_lp _ _ _ _ _ _ _ LM), B2|]. split; [apply U; lia|]. split; [apply U; lia|]. rewrite <- !(lp_subv N HN). split; apply (at_lp _ _ _ _ _ _ _ FM); assumption.
Qed.
Print Assumptions C31_inner_edges_raise.
Example C31_example : exists g r e', domain_grid std_order 1 1 (FixOne "left") (1/2) = Ok g /\ refine g 3 = Ok r /\ In e' (g_edges (r_grid r)) /\ (exists e, In e (g_edges g) /\ lies_on (r_grid r) e' g e) /\
  forall t, to_coarse_edge_point r e' t = Err ValueError.
Proof.
  destruct ex_refined as [g [r [Hg [R [M [M' [B He]]]]]]]. destruct (C31_affected_edges_exist_refuted g (1/2) 2 2 3 r ex_pos) as [e [e' [A1 [A2 [A3 [A4 A5]]]]]]; try lia; try assumption. exists g, r, e'. eauto 9.
Qed.

(** ** C33 *)
(** A factor below 1 raises ValueError on every grid whatsoever. *)
Theorem C33_bad_factor : forall (g : grid R) k, (k < 1)%Z -> refine g k = Err ValueError.
Proof. intros g k H. unfold refine. apply Z.ltb_lt in H. rewrite H. reflexivity. Qed.
Print Assumptions C33_bad_factor.
(** On triangulated lattice rectangles every factor from 1 on succeeds: no assertion, lookup or index error. *)
Theorem C33_no_other_failure : forall g s m n k, 0 < s -> (1 <= m)%nat -> (1 <= n)%nat -> mesh g s m n -> / 10 ^ 15 <= s / IZR k \/ (k < 1)%Z ->
  ((k < 1)%Z -> refine g k = Err ValueError) /\ ((1 <= k)%Z -> exists r, refine g k = Ok r).
Proof.
  intros g s m n k Hs Hm Hn M He. split; [apply C33_bad_factor|]. intros Hk. destruct He as [He|He]; [|lia].
  rewrite <- (Z2Nat.id k) by lia. destruct (C27_refinement_is_fine_mesh g s m n (Z.to_nat k) Hs Hm Hn) as [r [R _]]; [lia| |exact M|eauto].
  rewrite INR_IZR_INZ, Z2Nat.id by lia. exact He.
Qed.
Print Assumptions C33_no_other_failure.
(** The grids that [grid()] produces and any chain of refinements of them. *)
Theorem C33_reachable_grids : forall so w h f s m n g Ns g' k, 0 < s -> fits w s m -> fits h s n -> (1 <= m)%nat -> (1 <= n)%nat -> domain_grid so w h f s = Ok g ->
  (forall N, In N Ns -> (1 <= N)%nat) -> / 10 ^ 15 <= s / INR (product Ns) -> refine_chain g Ns = Ok g' ->
  (/ 10 ^ 15 <= s / INR (product Ns) / IZR k \/ (k < 1)%Z) ->
  (refine g' k = Err ValueError <-> (k < 1)%Z) /\ ((exists r, refine g' k = Ok r) <-> (1 <= k)%Z).
Proof.
  intros so w h f s m n g Ns g' k Hs Fm Fn Hm Hn Hg HN He RC Hk. destruct (C27_rectangle_grid_is_mesh so w h f s m n g Hs Fm Fn Hg Hm Hn) as [M B].
  destruct (C27_chains Ns g s m n Hs Hm Hn HN He M B) as [g0 [RC' [M' _]]]. rewrite RC in RC'. injection RC' as <-.
  assert (PN : (1 <= product Ns)%nat). { clear -HN. induction Ns as [|a l IH]; [cbn; lia|]. change (product (a :: l)) with (a * product l)%nat. assert (1 <= a)%nat by (apply HN; left; reflexivity). assert (1 <= product l)%nat by (apply IH; intros; apply HN; right; assumption). nia. }
  assert (HS : 0 < s / INR (product Ns)) by (apply Rdiv_lt_0_compat; [exact Hs|apply lt_0_INR; lia]).
  destruct (C33_no_other_failure g' _ (m * product Ns) (n * product Ns) k HS ltac:(nia) ltac:(nia) M' Hk) as [A1 A2].
  split; split.
  - intros Q. destruct (Z_lt_ge_dec k 1) as [L|G]; [exact L|]. destruct (A2 ltac:(lia)) as [r R]. congruence.
  - exact A1.
  - intros [r R]. destruct (Z_lt_ge_dec k 1) as [L|G]; [|lia]. rewrite (A1 L) in R. discriminate.
  - exact A2.
Qed.
Print Assumptions C33_reachable_grids.
Example C33_example : exists g g', domain_grid std_order 1 1 (FixOne "left") (1/2) = Ok g /\ refine_chain g [3%nat] = Ok g' /\ (exists r, refine g' 2 = Ok r) /\ refine g' 0 = Err ValueError /\ refine g' (-4) = Err ValueError.
Proof.
  destruct ex_refined as [g [r [Hg [R [M [M' [B He]]]]]]]. exists g, (r_grid r).
  split; [exact Hg|]. assert (RC : refine_chain g [3%nat] = Ok (r_grid r)) by (cbn [refine_chain]; change (Z.of_nat 3) with 3%Z; rewrite R; reflexivity). split; [exact RC|].
  assert (F : fits 1 (1/2) 2) by (unfold fits; simpl; lra).
  assert (HN : forall N, In N [3%nat] -> (1 <= N)%nat) by (intros N [<-|[]]; lia). assert (HE : / 10 ^ 15 <= 1/2 / INR (product [3%nat])) by (simpl; lra).
  assert (K : forall k, (/ 10 ^ 15 <= 1/2 / INR (product [3%nat]) / IZR k \/ (k < 1)%Z) -> _) by (intros k; exact (C33_reachable_grids std_order 1 1 (FixOne "left") (1/2) 2 2 g [3%nat] (r_grid r) k ex_pos F F ltac:(lia) ltac:(lia) Hg HN HE RC)).
  destruct (K 2%Z) as [_ [_ K2]]; [left; simpl; lra|]. destruct (K 0%Z) as [[_ K0] _]; [right; lia|]. destruct (K (-4)%Z) as [[_ K4] _]; [right; lia|].
  split; [apply K2; lia|]. split; [apply K0|apply K4]; lia.
Qed.
