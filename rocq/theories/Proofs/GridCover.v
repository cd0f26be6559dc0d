(** Triangles of the rectangle grid as point sets: areas, covering, no overlap; sides by position. *)
From Coq Require Import Reals Lra Lia String.
From Verif.Model Require Import Py Num Tensors Domain.
From Verif.Spec Require Import GridSpec.
From Verif.Proofs Require Import Lib GridP GridTopo GridFix.
Local Open Scope R_scope.

Definition P (s : R) (i j : nat) : R * R := (INR i * s, INR j * s).

(** What is known of the grid returned by the builder. *)
Record rect_spec (g : grid R) (so : SetOrder) (m n : nat) (f : fixopt) (s : R) : Prop := {
  rs_v : g_vertices g = rg_vertices (S m) (S n);
  rs_e : g_edges g = rg_edges (S m) (S n);
  rs_t : g_triangles g = rg_triangles (S m) (S n);
  rs_bv : b_vertices (g_boundary g) = boundary_vertices so (S m) (S n);
  rs_be : b_edges (g_boundary g) = boundary_edges (S m) (S n);
  rs_d : g_dirichlet g = rg_dirichlet so (S m) (S n) f;
  rs_n : g_neumann g = rg_neumann so (S m) (S n) f;
  rs_p : g_points g = rg_points (S m) (S n) s;
  rs_m : mean_ok (rg_edges (S m) (S n)) (g_mean g) s
}.
Lemma grid_spec so w h f s m n g : 0 < s -> fits w s m -> fits h s n -> domain_grid so w h f s = Ok g ->
  rect_spec g so m n f s.
Proof.
  intros Hs Hm Hn H. rewrite (domain_grid_rect so w h f s m n Hs Hm Hn) in H.
  destruct (rect_grid_ok so (S m) (S n) f s (Rlt_le _ _ Hs)) as [mean [E Hmean]]. rewrite E in H. injection H as <-.
  split; try reflexivity. exact Hmean.
Qed.

Section G.
Context (g : grid R) (so : SetOrder) (m n : nat) (f : fixopt) (s : R) (Hs : 0 < s) (HG : rect_spec g so m n f s).
Let Hv := rs_v _ _ _ _ _ _ HG.
Let Hp := rs_p _ _ _ _ _ _ HG.

Lemma point_at_ptv i j p : (i <= m)%nat -> (j <= n)%nat -> (point_at g (pair_to_vertex (S m) i j) p <-> p = P s i j).
Proof.
  intros Hi Hj. unfold point_at. rewrite Hp, rg_points_nth by lia. split.
  - intros H. injection H as H1 H2. destruct p; unfold P; simpl in *; congruence.
  - intros ->. reflexivity.
Qed.
Lemma triangle_at_iff t p q r : triangle_at g t p q r <->
  exists i j, (i < m)%nat /\ (j < n)%nat /\
    (t = lower_tri (S m) i j /\ p = P s i j /\ q = P s (i + 1) j /\ r = P s (i + 1) (j + 1) \/
     t = upper_tri (S m) i j /\ p = P s (i + 1) (j + 1) /\ q = P s i (j + 1) /\ r = P s i j).
Proof.
  unfold triangle_at. rewrite (rs_t _ _ _ _ _ _ HG). split.
  - destruct t as [[a b] c]. intros [Ht [Ha [Hb Hc]]]. apply in_triangles in Ht as [i [j [Hi [Hj Ht]]]].
    exists i, j. split; [lia|]. split; [lia|]. destruct Ht as [E|E]; injection E as -> -> ->; [left|right];
      (split; [reflexivity|]); apply point_at_ptv in Ha; try lia; apply point_at_ptv in Hb; try lia; apply point_at_ptv in Hc; try lia; auto.
  - intros [i [j [Hi [Hj [[-> [-> [-> ->]]]|[-> [-> [-> ->]]]]]]]]; unfold lower_tri, upper_tri;
      (split; [apply in_triangles; exists i, j; split; [lia|]; split; [lia|]; auto|]); rewrite !point_at_ptv by lia; auto.
Qed.
Lemma triangle_at_ex t : In t (g_triangles g) -> exists p q r, triangle_at g t p q r.
Proof.
  intros Ht. pose proof Ht as Ht'. rewrite (rs_t _ _ _ _ _ _ HG) in Ht. apply in_triangles in Ht as [i [j [Hi [Hj Ht]]]].
  destruct Ht as [E|E]; do 3 eexists; apply triangle_at_iff; exists i, j; (split; [lia|]); (split; [lia|]); [left|right]; eauto.
Qed.
Lemma triangle_at_in t p q r : triangle_at g t p q r -> In t (g_triangles g).
Proof. destruct t as [[a b] c]. intros H. apply H. Qed.

Lemma inside_lower i j p : inside_triangle (P s i j) (P s (i + 1) j) (P s (i + 1) (j + 1)) p ->
  INR i * s < fst p < (INR i + 1) * s /\ INR j * s < snd p < (INR j + 1) * s /\ snd p - INR j * s < fst p - INR i * s.
Proof.
  intros [u [v [w [Hu [H1 [Hw [E [Ex Ey]]]]]]]]. unfold P in *. simpl in Ex, Ey. rewrite !plus_INR in Ex, Ey. simpl in Ex, Ey.
  rewrite Ex, Ey. assert (u = 1 - v - w) as -> by lra.
  assert (0 < v * s /\ 0 < w * s /\ 0 < (1 - v - w) * s) by (repeat split; apply Rmult_lt_0_compat; lra).
  repeat split; lra.
Qed.
Lemma inside_upper i j p : inside_triangle (P s (i + 1) (j + 1)) (P s i (j + 1)) (P s i j) p ->
  INR i * s < fst p < (INR i + 1) * s /\ INR j * s < snd p < (INR j + 1) * s /\ fst p - INR i * s < snd p - INR j * s.
Proof.
  intros [u [v [w [Hu [H1 [Hw [E [Ex Ey]]]]]]]]. unfold P in *. simpl in Ex, Ey. rewrite !plus_INR in Ex, Ey. simpl in Ex, Ey.
  rewrite Ex, Ey. assert (u = 1 - v - w) as -> by lra.
  assert (0 < v * s /\ 0 < w * s /\ 0 < (1 - v - w) * s) by (repeat split; apply Rmult_lt_0_compat; lra).
  repeat split; lra.
Qed.
Lemma cell_unique i i' x : INR i * s < x < (INR i + 1) * s -> INR i' * s < x < (INR i' + 1) * s -> i = i'.
Proof. intros H H'. apply (fits_unique x s); [exact Hs| |]; unfold fits; rewrite plus_INR; simpl; lra. Qed.

Lemma no_overlap t t' p q r p' q' r' x : triangle_at g t p q r -> triangle_at g t' p' q' r' ->
  inside_triangle p q r x -> inside_triangle p' q' r' x -> t = t'.
Proof.
  intros H H' I I'. apply triangle_at_iff in H as [i [j [Hi [Hj C]]]]. apply triangle_at_iff in H' as [i' [j' [Hi' [Hj' C']]]].
  destruct C as [[-> [-> [-> ->]]]|[-> [-> [-> ->]]]], C' as [[-> [-> [-> ->]]]|[-> [-> [-> ->]]]];
    (apply inside_lower in I || apply inside_upper in I); (apply inside_lower in I' || apply inside_upper in I');
    destruct I as [I1 [I2 I3]], I' as [I1' [I2' I3']];
    pose proof (cell_unique _ _ _ I1 I1'); pose proof (cell_unique _ _ _ I2 I2'); subst; try reflexivity; exfalso; lra.
Qed.

Lemma cell_exists k x : (1 <= k)%nat -> 0 <= x <= INR k * s -> exists i, (i < k)%nat /\ INR i * s <= x <= (INR i + 1) * s.
Proof.
  intros Hk [H0 H1]. destruct (fits_exists x s H0 Hs) as [i [Hi Hi']]. rewrite plus_INR in Hi'. simpl in Hi'.
  destruct (Nat.ltb_spec i k) as [L|L]; [exists i; split; [exact L|lra]|].
  exists (k - 1)%nat. split; [lia|]. rewrite minus_INR by lia. simpl.
  assert (INR k <= INR i) by (apply le_INR, L). assert (INR k * s <= INR i * s) by (apply Rmult_le_compat_r; lra).
  lra.
Qed.
Lemma covering x y : (1 <= m)%nat -> (1 <= n)%nat -> 0 <= x <= INR m * s -> 0 <= y <= INR n * s ->
  exists t p q r, triangle_at g t p q r /\ in_triangle p q r (x, y).
Proof.
  intros Hm Hn Hx Hy. destruct (cell_exists m x Hm Hx) as [i [Hi Bx]]. destruct (cell_exists n y Hn Hy) as [j [Hj By]].
  assert (Hinv : / s * s = 1) by (field; lra).
  set (a := (x - INR i * s) / s). set (b := (y - INR j * s) / s).
  assert (Ea : a * s = x - INR i * s) by (unfold a; field; lra). assert (Eb : b * s = y - INR j * s) by (unfold b; field; lra).
  assert (Ba : 0 <= a <= 1) by (split; apply Rmult_le_reg_r with s; lra).
  assert (Bb : 0 <= b <= 1) by (split; apply Rmult_le_reg_r with s; lra).
  destruct (Rle_dec b a) as [L|L].
  - exists (lower_tri (S m) i j). do 3 eexists. split; [apply triangle_at_iff; exists i, j; split; [exact Hi|]; split; [exact Hj|]; left; eauto|].
    exists (1 - a), (a - b), b. unfold P. simpl. rewrite !plus_INR. simpl. repeat split; try lra; nra.
  - exists (upper_tri (S m) i j). do 3 eexists. split; [apply triangle_at_iff; exists i, j; split; [exact Hi|]; split; [exact Hj|]; right; eauto|].
    exists a, (b - a), (1 - b). unfold P. simpl. rewrite !plus_INR. simpl. repeat split; try lra; nra.
Qed.
(** Points of the triangles lie in the rectangle. *)
Lemma in_rectangle t p q r x : triangle_at g t p q r -> in_triangle p q r x ->
  0 <= fst x <= INR m * s /\ 0 <= snd x <= INR n * s.
Proof.
  intros H [u [v [w [Hu [H1 [Hw [E [Ex Ey]]]]]]]]. apply triangle_at_iff in H as [i [j [Hi [Hj C]]]].
  assert (Bi : INR i + 1 <= INR m) by (rewrite <- S_INR; apply le_INR; lia).
  assert (Bj : INR j + 1 <= INR n) by (rewrite <- S_INR; apply le_INR; lia).
  pose proof (pos_INR i) as Pi. pose proof (pos_INR j) as Pj.
  assert (u = 1 - v - w) as -> by lra.
  assert (HX : exists z z', 0 <= z <= 1 /\ 0 <= z' <= 1 /\ fst x = INR i * s + z * s /\ snd x = INR j * s + z' * s).
  { destruct C as [[_ [-> [-> ->]]]|[_ [-> [-> ->]]]]; unfold P in Ex, Ey; simpl in Ex, Ey; rewrite !plus_INR in Ex, Ey; simpl in Ex, Ey.
    - exists (v + w), w. repeat split; try lra.
    - exists (1 - v - w), (1 - w). repeat split; try lra. }
  destruct HX as [z [z' [Bz [Bz' [-> ->]]]]].
  assert (0 <= INR i * s) by (apply Rmult_le_pos; lra). assert (0 <= INR j * s) by (apply Rmult_le_pos; lra).
  assert (0 <= z * s <= 1 * s) by (split; [apply Rmult_le_pos; lra|apply Rmult_le_compat_r; lra]).
  assert (0 <= z' * s <= 1 * s) by (split; [apply Rmult_le_pos; lra|apply Rmult_le_compat_r; lra]).
  assert ((INR i + 1) * s <= INR m * s) by (apply Rmult_le_compat_r; lra).
  assert ((INR j + 1) * s <= INR n * s) by (apply Rmult_le_compat_r; lra).
  lra.
Qed.

(** ** Sides by position *)
Lemma vertex_at_ptv v i j : vertex_at g s v i j <-> (i <= m)%nat /\ (j <= n)%nat /\ v = pair_to_vertex (S m) i j.
Proof. apply (vertex_at_iff g m n s Hs Hv Hp). Qed.
Lemma side_vertices_iff d v : In v (side_vertices (S m) (S n) d) <-> vertex_on_side g s m n d v.
Proof.
  rewrite in_side_vertices. unfold vertex_on_side. split.
  - intros [i [j [-> H]]]. exists i, j. rewrite vertex_at_ptv. unfold on_side. destruct d; (split; [split; [lia|split; [lia|reflexivity]]|lia]).
  - intros [i [j [H H']]]. apply vertex_at_ptv in H as [Hi [Hj ->]]. exists i, j. split; [reflexivity|]. unfold on_side in H'. destruct d; lia.
Qed.
Lemma side_edges_iff d e : In e (side_edges (S m) (S n) d) <-> edge_on_side g s m n d e.
Proof.
  rewrite in_side_edges. unfold edge_on_side. split.
  - intros [i [j [di [dj [-> H]]]]]. exists i, j, (i + di)%nat, (j + dj)%nat. cbn [fst snd]. rewrite !vertex_at_ptv. unfold on_side.
    destruct d; (split; [split; [lia|split; [lia|reflexivity]]|]); (split; [split; [lia|split; [lia|reflexivity]]|]); lia.
  - intros [i [j [i' [j' [H [H' [S1 [S2 St]]]]]]]]. apply vertex_at_ptv in H as [Hi [Hj E]]. apply vertex_at_ptv in H' as [Hi' [Hj' E']].
    exists i, j, (i' - i)%nat, (j' - j)%nat. replace (i + (i' - i))%nat with i' by lia. replace (j + (j' - j))%nat with j' by lia.
    split; [rewrite (surjective_pairing e); f_equal; assumption|]. unfold on_side in S1, S2. destruct d; lia.
Qed.
End G.
