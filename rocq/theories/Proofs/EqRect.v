(** Rectangle grids: separated, well referenced; equality of rectangle grids; curves. *)
From Coq Require Import Reals Lra Lia String Psatz Permutation.
From Verif.Model Require Import Py Num Tensors Domain.
From Verif.Spec Require Import GridSpec EqSpec.
From Verif.Proofs Require Import Lib GridP GridTopo GridFix GridCover LocateP FindP EqP.
Local Open Scope R_scope.

Section G.
Context (g : grid R) (so : SetOrder) (m n : nat) (f : fixopt) (s : R) (Hs : 0 < s) (HG : rect_spec g so m n f s).
Lemma points_len : length (g_points g) = (S m * S n)%nat.
Proof. rewrite (rs_p _ _ _ _ _ _ HG). apply rg_points_length. Qed.
Lemma tol_pos : 0 < tolerance g.
Proof.
  unfold tolerance. pose proof (rs_m _ _ _ _ _ _ HG) as HM. unfold mean_ok in HM. destruct (g_mean g) as [a|].
  - destruct HM as [_ [H1 H2]]. apply Rmult_lt_0_compat; lra.
  - apply Rinv_0_lt_compat, pow_lt. lra.
Qed.
Lemma separated_rect : separated g.
Proof.
  split; [apply (planar_rect g so m n f s HG)|]. split; [apply tol_pos|]. intros v w p q Hvw Hv Hw.
  apply (point_at_iff g m n s (rs_p _ _ _ _ _ _ HG)) in Hv as [i [j [Hi [Hj [-> ->]]]]].
  apply (point_at_iff g m n s (rs_p _ _ _ _ _ _ HG)) in Hw as [i' [j' [Hi' [Hj' [-> ->]]]]].
  assert (Hne : (i, j) <> (i', j')) by (intros E; injection E as -> ->; congruence).
  pose proof (lattice_dist s i j i' j' (Rlt_le _ _ Hs) Hne) as HD. unfold P in HD.
  assert (Hbig : (2 <= S m * S n)%nat) by (assert (i <> i' \/ j <> j')%nat by (destruct (Nat.eq_dec i i'); [right; congruence|left; assumption]); nia).
  pose proof (tolerance_lt g so m n f s Hs HG Hbig). lra.
Qed.
Lemma refers_rect : refers_to_points g.
Proof.
  unfold refers_to_points. rewrite points_len.
  assert (HE : forall e, In e (rg_edges (S m) (S n)) -> (fst e < S m * S n)%nat /\ (snd e < S m * S n)%nat).
  { intros e He. apply in_edges in He as [i [j [di [dj [Hst [Hi [Hj ->]]]]]]]. cbn [fst snd]. split; apply ptv_lt; lia. }
  assert (HSV : forall d v, In v (side_vertices (S m) (S n) d) -> (v < S m * S n)%nat).
  { intros d v H. apply in_side_vertices in H as [i [j [-> H]]]. destruct d; apply ptv_lt; lia. }
  assert (HSE : forall d e, In e (side_edges (S m) (S n) d) -> (fst e < S m * S n)%nat /\ (snd e < S m * S n)%nat).
  { intros d e H. apply in_side_edges in H as [i [j [di [dj [-> H]]]]]. cbn [fst snd]. destruct d; split; apply ptv_lt; lia. }
  rewrite (rs_e _ _ _ _ _ _ HG), (rs_t _ _ _ _ _ _ HG), (rs_be _ _ _ _ _ _ HG), (rs_bv _ _ _ _ _ _ HG), (rs_d _ _ _ _ _ _ HG), (rs_n _ _ _ _ _ _ HG).
  split; [exact HE|]. split.
  { intros a b c Ht. apply in_triangles in Ht as [i [j [Hi [Hj Ht]]]].
    destruct Ht as [E|E]; injection E as -> -> ->; repeat split; apply ptv_lt; lia. }
  split; [|split]; split.
  - intros v Hv. apply in_boundary_vertices in Hv as [d Hd]. apply (HSV d), Hd.
  - intros e He. apply in_boundary_edges in He as [d Hd]. apply (HSE d), Hd.
  - intros v Hv. apply dirichlet_vertices in Hv as [d [_ Hd]]. apply (HSV d), Hd.
  - intros e He. apply dirichlet_edges in He as [d [_ Hd]]. apply (HSE d), Hd.
  - intros v Hv. apply neumann_vertices in Hv as [Hv _]. apply in_boundary_vertices in Hv as [d Hd]. apply (HSV d), Hd.
  - intros e He. apply neumann_edges in He as [He _]. apply in_boundary_edges in He as [d Hd]. apply (HSE d), Hd.
Qed.
End G.

Lemma edge_image_id e : edge_image (fun v => v) e = e. Proof. destruct e; reflexivity. Qed.
Lemma triangle_image_id t : triangle_image (fun v => v) t = t. Proof. destruct t as [[a b] c]; reflexivity. Qed.
Lemma reordering_id {A} (rel : A -> A -> Prop) (im : A -> A) l l' : (forall x, im x = x) -> (forall x, rel x x) -> Permutation l l' ->
  reordering rel l (map im l').
Proof.
  intros Hi Hr HP. exists l'. split; [symmetry; exact HP|]. rewrite (map_ext im (fun x => x) Hi), map_id.
  clear - Hr. induction l'; constructor; auto.
Qed.
Lemma same_edge_refl e : same_edge e e. Proof. left. reflexivity. Qed.
Lemma same_triangle_refl t : same_triangle t t. Proof. destruct t as [[a b] c]. left. reflexivity. Qed.
Lemma same_boundary_id b b' : Permutation (b_vertices b) (b_vertices b') -> Permutation (b_edges b) (b_edges b') ->
  same_boundary (fun v => v) b b'.
Proof.
  intros HV HE. split; [rewrite map_id; symmetry; exact HV|]. apply reordering_id; [apply edge_image_id|apply same_edge_refl|exact HE].
Qed.
Lemma renumbering_refl g : renumbering (fun v => v) g g.
Proof.
  unfold renumbering. split; [reflexivity|]. split; [reflexivity|]. split; [auto|].
  split; [apply reordering_id; [apply edge_image_id|apply same_edge_refl|reflexivity]|].
  split; [apply reordering_id; [apply triangle_image_id|apply same_triangle_refl|reflexivity]|].
  split; [|split]; apply same_boundary_id; reflexivity.
Qed.

(** The one-cell-wide degenerate grid with two vertices (width s, height 0). *)
Local Transparent pair_to_vertex.
Lemma two_point_grid so s : 0 < s -> exists g, domain_grid so s 0 FixNone s = Ok g /\ g_mean g = Some s /\
  g_points g = [vec (0, 0); vec (s, 0)].
Proof.
  intros Hs. rewrite (domain_grid_rect so s 0 FixNone s 1 0 Hs) by (unfold fits; simpl; lra).
  unfold rect_grid, Grid_.
  replace (rg_edges 2 1) with [(0, 1)]%nat by reflexivity.
  replace (rg_points 2 1 s) with [vec (0, 0); vec (s, 0)].
  2:{ unfold rg_points, rg_vertices, range, vec. cbn [Nat.mul Nat.add seq map fst snd Nat.modulo Nat.div Nat.divmod Z.of_nat]. cbn [nofZ nmul RNum]. simpl. 
      repeat (f_equal; try lra). }
  cbn [mapM]. rewrite (edge_length_pts _ 0 1 0 0 s 0) by reflexivity. cbn [bind length].
  cbn [nofZ RNum]. rewrite ndiv_R by (simpl; lra). cbn [bind]. eexists. split; [reflexivity|]. cbn [g_mean g_points].
  split; [|reflexivity]. f_equal. unfold nsum. cbn [fold_left nadd n0 RNum]. 
  replace ((0 - s) * (0 - s) + (0 - 0) * (0 - 0)) with (s * s) by ring. rewrite sqrt_square by lra. simpl. field.
Qed.
