(** The grid of a rectangle is a triangulated lattice rectangle whose three boundaries lie on the outline. *)
From Coq Require Import Reals Lra Lia Psatz Permutation.
From Verif.Model Require Import Py Num Tensors Domain.
From Verif.Spec Require Import GridSpec RefineSpec.
From Verif.Proofs Require Import Lib GridP GridTopo GridFix GridCover.
From Verif.Props Require Import GridProps.
Local Open Scope R_scope.

Section Rect.
Context (so : SetOrder) (w h : R) (f : fixopt) (s : R) (m n : nat) (g : grid R).
Context (Hs : 0 < s) (Hm : fits w s m) (Hn : fits h s n) (H : domain_grid so w h f s = Ok g) (H1 : (1 <= m)%nat) (H2 : (1 <= n)%nat).
Lemma rect_at v i j : vertex_at g s v i j <-> (i <= m)%nat /\ (j <= n)%nat /\ v = pair_to_vertex (S m) i j.
Proof. pose proof (grid_spec _ _ _ _ _ _ _ _ Hs Hm Hn H) as G. apply vertex_at_iff; [exact Hs|apply (rs_v _ _ _ _ _ _ G)|apply (rs_p _ _ _ _ _ _ G)]. Qed.
Lemma rect_mesh : mesh g s m n.
Proof.
  pose proof (grid_spec _ _ _ _ _ _ _ _ Hs Hm Hn H) as G. split.
  - destruct (C11_vertices_numbered _ _ _ _ _ _ _ _ Hs Hm Hn H) as [A B]. rewrite A, B. reflexivity.
  - intros v Hv. rewrite (rs_v _ _ _ _ _ _ G), in_vertices in Hv. apply ptv_surj' in Hv as [i [j [Hi [Hj ->]]]]. exists i, j. rewrite rect_at. repeat split; lia.
  - intros i j Hi Hj. exists (pair_to_vertex (S m) i j). split; [apply rect_at; auto|]. intros v Hv. apply rect_at in Hv as [_ [_ ->]]. reflexivity.
  - rewrite (rs_t _ _ _ _ _ _ G). apply NoDup_triangles.
  - intros t. rewrite (rs_t _ _ _ _ _ _ G), in_triangles. split.
    + intros [i [j [Hi [Hj Q]]]]. exists i, j. split; [lia|]. split; [lia|]. destruct Q as [-> | ->]; [left|right]; unfold lower_at, upper_at, lower_tri, upper_tri; rewrite !rect_at; repeat split; lia.
    + intros [i [j [Hi [Hj Q]]]]. exists i, j. split; [lia|]. split; [lia|]. destruct t as [[a b] c]. unfold lower_at, upper_at, lower_tri, upper_tri in *. rewrite !rect_at in Q.
      destruct Q as [[[_ [_ ->]] [[_ [_ ->]] [_ [_ ->]]]]|[[_ [_ ->]] [[_ [_ ->]] [_ [_ ->]]]]]; auto.
  - intros k l e e' A B D. apply (C12_edges_unique _ _ _ _ _ _ _ _ _ _ _ _ Hs Hm Hn H A B D).
  - intros e. split.
    + intros [e' [He' Q]]. destruct (C14_edges_in_one_or_two_triangles _ _ _ _ _ _ _ _ _ Hs Hm Hn H H1 H2 He') as [K _].
      assert (X : exists t, In t (g_triangles g) /\ side_of e' t).
      { assert (Y : exists k, (1 <= k)%nat /\ how_many (g_triangles g) (side_of e') k) by (destruct K as [K|K]; eexists; (split; [|exact K]); lia).
        destruct Y as [k [Hk [F [HF HL]]]]. destruct (filter F (g_triangles g)) as [|t l] eqn:Q'; [cbn in HL; lia|].
        assert (In t (filter F (g_triangles g))) as Ht by (rewrite Q'; left; reflexivity). apply filter_In in Ht as [Ht Ft]. exists t. split; [exact Ht|]. apply HF; assumption. }
      destruct X as [t [Ht Hside]]. exists t. split; [exact Ht|]. destruct Q as [-> | ->]; [exact Hside|]. destruct t as [[a b] c], e' as [x y]. unfold side_of, same_edge in *. cbn [fst snd] in *. intuition (congruence || auto).
      all: repeat match goal with Q : (_, _) = (_, _) |- _ => injection Q as -> -> end; auto 6.
    + intros [t [Ht Hside]]. destruct (C14_sides_are_edges _ _ _ _ _ _ _ _ _ _ Hs Hm Hn H Ht Hside) as [e' [A B]]. eauto.
  - intros [a b] He. apply (C12_edges_join_neighbours _ _ _ _ _ _ _ _ _ _ Hs Hm Hn H) in He as [i [j [i' [j' [A [B D]]]]]]. exists i, j, i', j'. cbn [fst snd]. tauto.
Qed.
Lemma rect_outlines : boundaries_outline g s m n.
Proof.
  pose proof (grid_spec _ _ _ _ _ _ _ _ Hs Hm Hn H) as G.
  destruct (C16_boundary_is_outline _ _ _ _ _ _ _ _ Hs Hm Hn H) as [BV [BN BE]].
  destruct (C14_boundary_edges_are_edges _ _ _ _ _ _ _ _ Hs Hm Hn H H1 H2) as [BI BD].
  destruct (C16_dirichlet_within_boundary _ _ _ _ _ _ _ _ Hs Hm Hn H) as [DI [DV NV]].
  destruct (C16_dirichlet_edges _ _ _ _ _ _ _ _ Hs Hm Hn H) as [DN DE]. destruct (C17_dirichlet_vertices _ _ _ _ _ _ _ _ Hs Hm Hn H) as [DVN _].
  destruct (C16_neumann_edges _ _ _ _ _ _ _ _ Hs Hm Hn H) as [NN NE]. destruct (C18_neumann_vertices_exact_partial _ _ _ _ _ _ _ _ Hs Hm Hn H) as [NVN _].
  assert (VI : incl (b_vertices (g_boundary g)) (g_vertices g)).
  { intros v Hv. apply BV in Hv as [d [i [j [[A _] _]]]]. exact A. }
  split; [|split]; split; try assumption.
  - intros e He. apply BE, He.
  - intros v Hv. apply VI, DV, Hv.
  - intros e He. apply BI, DI, He.
  - intros e He. apply BE, DI, He.
  - intros v Hv. apply VI, NV, Hv.
  - intros e He. apply NE in He as [He _]. apply BI, He.
  - intros e He. apply NE in He as [He _]. apply BE, He.
Qed.
End Rect.
