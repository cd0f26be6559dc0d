(** Point location in lattice triangulations, refined grids included. *)
From Coq Require Import Reals Lra Lia List ZArith Psatz.
From Verif.Model Require Import Py Num Tensors Domain.
From Verif.Spec Require Import GridSpec RefineSpec InterpSpec.
From Verif.Proofs Require Import Lib GridP GridCover LocateP HatP.
Local Open Scope R_scope.
Import ListNotations.

Section ML.
Context (g : grid R) (s : R) (m n : nat) (Hs : 0 < s) (M : mesh g s m n).

(** The corners of a triangle, in the lattice. *)
Lemma tri_lattice t p q r : triangle_at g t p q r -> exists i j, (i < m)%nat /\ (j < n)%nat /\
  (lower_at g s t i j /\ p = (INR i * s, INR j * s) /\ q = ((INR i + 1) * s, INR j * s) /\ r = ((INR i + 1) * s, (INR j + 1) * s) \/
   upper_at g s t i j /\ p = ((INR i + 1) * s, (INR j + 1) * s) /\ q = (INR i * s, (INR j + 1) * s) /\ r = (INR i * s, INR j * s)).
Proof.
  destruct t as [[a c] d]. intros [It [Pa [Pc Pd]]].
  apply (mesh_triangles _ _ _ _ M) in It as [i [j [Hi [Hj [L | L]]]]]; exists i, j; (split; [exact Hi|]); (split; [exact Hj|]); pose proof L as [Va [Vc Vd]];
    rewrite (at_point _ _ _ _ _ _ Va Pa), (at_point _ _ _ _ _ _ Vc Pc), (at_point _ _ _ _ _ _ Vd Pd); rewrite !plus_INR; cbn [INR]; auto.
Qed.
Lemma mesh_locate x :
  (exists t p q r, triangle_at g t p q r /\ holds_tri p q r x /\ to_barycentric_point g (vec x) = Ok (Some (t, bary3 p q r x))) \/
  (to_barycentric_point g (vec x) = Ok None /\ forall t p q r, triangle_at g t p q r -> ~ holds_tri p q r x).
Proof.
  unfold to_barycentric_point.
  destruct (locate_list (g_points g) (g_triangles g) x) as [[t [p [q [r [I [E [C L]]]]]]]|[L N]].
  - intros t Ht. destruct (mesh_triangle_at g s m n M t Ht) as [p [q [r HT]]]. exists p, q, r.
    split; [apply points_of_iff; assumption|]. rewrite (mesh_cross g s m n M _ _ _ _ HT). nra.
  - left. exists t, p, q, r. split; [apply points_of_iff; assumption|]. auto.
  - right. split; [exact L|]. intros t p q r HT. assert (I : In t (g_triangles g)) by (destruct t as [[? ?] ?]; apply HT). apply (N t p q r I). apply points_of_iff; assumption.
Qed.
Lemma mesh_never_raises x : exists r, to_barycentric_point g (vec x) = Ok r.
Proof. destruct (mesh_locate x) as [(t & p & q & r & _ & _ & E)|[E _]]; eauto. Qed.
Lemma mesh_reproduce x t b : to_barycentric_point g (vec x) = Ok (Some (t, b)) -> exists p q r, triangle_at g t p q r /\ bary_of p q r b x.
Proof.
  intros E. destruct (mesh_locate x) as [(t' & p & q & r & HT & _ & E')|[E' _]]; rewrite E in E'; [|discriminate].
  injection E' as -> ->. exists p, q, r. split; [exact HT|]. apply bary3_of. rewrite (mesh_cross g s m n M _ _ _ _ HT). nra.
Qed.
Lemma mesh_bounded_below x t b : eps10 <= s * s -> to_barycentric_point g (vec x) = Ok (Some (t, b)) ->
  - eps10 / (s * s) <= l1 b /\ - eps10 / (s * s) <= l2 b /\ - eps10 / (s * s) <= l3 b.
Proof.
  intros Hb E. destruct (mesh_locate x) as [(t' & p & q & r & HT & HH & E')|[E' _]]; rewrite E in E'; [|discriminate].
  injection E' as -> ->. pose proof (mesh_cross g s m n M _ _ _ _ HT) as HC.
  apply holds_tri_iff in HH; [|rewrite HC; exact Hb]. unfold bary3, l1, l2, l3. cbn [fst snd]. rewrite HC.
  assert (Hinv : 0 <= / (s * s)) by (apply Rlt_le, Rinv_0_lt_compat; nra). unfold Rdiv.
  repeat split; apply Rmult_le_compat_r; try assumption; apply HH.
Qed.
Lemma mesh_covering x : (1 <= m)%nat -> (1 <= n)%nat -> 0 <= fst x <= INR m * s -> 0 <= snd x <= INR n * s ->
  exists t p q r, triangle_at g t p q r /\ in_triangle p q r x.
Proof.
  intros Hm Hn Hx Hy. destruct x as [x y]. cbn [fst snd] in *. destruct (cell_exists s Hs m x Hm Hx) as [i [Hi Bx]]. destruct (cell_exists s Hs n y Hn Hy) as [j [Hj By]].
  set (a := (x - INR i * s) / s). set (b := (y - INR j * s) / s).
  assert (Ea : a * s = x - INR i * s) by (unfold a; field; lra). assert (Eb : b * s = y - INR j * s) by (unfold b; field; lra).
  assert (Ba : 0 <= a <= 1) by (split; apply Rmult_le_reg_r with s; lra). assert (Bb : 0 <= b <= 1) by (split; apply Rmult_le_reg_r with s; lra).
  destruct (mesh_points _ _ _ _ M i j ltac:(lia) ltac:(lia)) as [v1 [V1 _]]. destruct (mesh_points _ _ _ _ M (i + 1) j ltac:(lia) ltac:(lia)) as [v2 [V2 _]].
  destruct (mesh_points _ _ _ _ M (i + 1) (j + 1) ltac:(lia) ltac:(lia)) as [v3 [V3 _]]. destruct (mesh_points _ _ _ _ M i (j + 1) ltac:(lia) ltac:(lia)) as [v4 [V4 _]].
  assert (K : forall v k l, vertex_at g s v k l -> point_at g v (INR k * s, INR l * s)) by (intros v k l V; apply V).
  destruct (Rle_dec b a) as [L|L].
  - exists (v1, v2, v3), (INR i * s, INR j * s), (INR (i + 1) * s, INR j * s), (INR (i + 1) * s, INR (j + 1) * s). split.
    + split; [apply (mesh_triangles _ _ _ _ M); exists i, j; split; [lia|]; split; [lia|]; left; repeat split; first [apply V1|apply V2|apply V3]|]. repeat split; apply K; assumption.
    + exists (1 - a), (a - b), b. rewrite !plus_INR. cbn [fst snd INR]. repeat split; try lra; nra.
  - exists (v3, v4, v1), (INR (i + 1) * s, INR (j + 1) * s), (INR i * s, INR (j + 1) * s), (INR i * s, INR j * s). split.
    + split; [apply (mesh_triangles _ _ _ _ M); exists i, j; split; [lia|]; split; [lia|]; right; repeat split; first [apply V3|apply V4|apply V1]|]. repeat split; apply K; assumption.
    + exists a, (b - a), (1 - b). rewrite !plus_INR. cbn [fst snd INR]. repeat split; try lra; nra.
Qed.
Lemma mesh_found x : (1 <= m)%nat -> (1 <= n)%nat -> 0 <= fst x <= INR m * s -> 0 <= snd x <= INR n * s ->
  exists t p q r b, to_barycentric_point g (vec x) = Ok (Some (t, b)) /\ triangle_at g t p q r /\ bary_of p q r b x.
Proof.
  intros Hm Hn Hx Hy. destruct (mesh_locate x) as [(t' & p & q & r & HT & _ & E')|[_ N]].
  - destruct (mesh_reproduce _ _ _ E') as (p' & q' & r' & T & B). exists t', p', q', r', (bary3 p q r x). auto.
  - destruct (mesh_covering x Hm Hn Hx Hy) as (t & p & q & r & HT & HI). exfalso. apply (N _ _ _ _ HT). apply inside_holds; [|exact HI].
    rewrite (mesh_cross g s m n M _ _ _ _ HT). nra.
Qed.
(** Points of the lattice refined [k] times are found in a triangle that contains them, if the mesh is not too fine. *)
Lemma integral_nonneg (k : nat) z (c : R) : (1 <= k)%nat -> c * INR k = IZR z -> eps10 * INR k < s * s -> - eps10 / (s * s) <= c -> 0 <= c.
Proof.
  intros Hk E Hb Hc. assert (K : 0 < INR k) by (apply lt_0_INR; lia). assert (Z : (-1 < z)%Z).
  { apply lt_IZR. rewrite <- E. apply Rlt_le_trans with (- eps10 / (s * s) * INR k); [|apply Rmult_le_compat_r; lra].
    apply Rmult_lt_reg_r with (s * s); [nra|]. replace (- eps10 / (s * s) * INR k * (s * s)) with (- (eps10 * INR k)) by (field; lra). lra. }
  assert (Z0 : 0 <= IZR z) by (apply IZR_le; lia). apply Rmult_le_reg_r with (INR k); [exact K|]. lra.
Qed.
Lemma lattice_contained (k a b : nat) t L : (1 <= k)%nat -> eps10 * INR k < s * s ->
  to_barycentric_point g (vec (INR a * (s / INR k), INR b * (s / INR k))) = Ok (Some (t, L)) -> non_negative L.
Proof.
  intros Hk Hb E. assert (K : 0 < INR k) by (apply lt_0_INR; lia). assert (K1 : 1 <= INR k) by (apply (le_INR 1); lia). pose proof eps10_pos as EP.
  destruct (mesh_bounded_below _ _ _ ltac:(nra) E) as (B1 & B2 & B3). destruct (mesh_reproduce _ _ _ E) as (p & q & r & T & S1 & X & Y). cbn [fst snd] in X, Y.
  destruct (tri_lattice _ _ _ _ T) as (i & j & _ & _ & C).
  set (A := (Z.of_nat a - Z.of_nat i * Z.of_nat k)%Z). set (B := (Z.of_nat b - Z.of_nat j * Z.of_nat k)%Z).
  assert (EA : INR a = INR i * INR k + IZR A) by (rewrite !INR_IZR_INZ; unfold A; rewrite minus_IZR, mult_IZR; ring).
  assert (EB : INR b = INR j * INR k + IZR B) by (rewrite !INR_IZR_INZ; unfold B; rewrite minus_IZR, mult_IZR; ring).
  assert (QX : forall z, INR a * (s / INR k) = z * s -> INR a = z * INR k). { intros z H. apply Rmult_eq_reg_r with (s / INR k); [|apply Rgt_not_eq, Rdiv_lt_0_compat; lra]. rewrite H. field. lra. }
  assert (QY : forall z, INR b * (s / INR k) = z * s -> INR b = z * INR k). { intros z H. apply Rmult_eq_reg_r with (s / INR k); [|apply Rgt_not_eq, Rdiv_lt_0_compat; lra]. rewrite H. field. lra. }
  destruct C as [[_ (-> & -> & ->)]|[_ (-> & -> & ->)]]; cbn [fst snd] in X, Y.
  - assert (X' : INR a = (INR i + l2 L + l3 L) * INR k) by (apply QX; rewrite X; replace (l1 L) with (1 - l2 L - l3 L) by lra; ring).
    assert (Y' : INR b = (INR j + l3 L) * INR k) by (apply QY; rewrite Y; replace (l1 L) with (1 - l2 L - l3 L) by lra; ring).
    assert (E3 : l3 L * INR k = IZR B) by lra. assert (E2 : l2 L * INR k = IZR (A - B)) by (rewrite minus_IZR; lra).
    assert (E1 : l1 L * INR k = IZR (Z.of_nat k - A)) by (rewrite minus_IZR, <- INR_IZR_INZ; replace (l1 L) with (1 - l2 L - l3 L) by lra; lra).
    repeat split; eapply integral_nonneg; eassumption.
  - assert (X' : INR a = (INR i + l1 L) * INR k) by (apply QX; rewrite X; replace (l3 L) with (1 - l1 L - l2 L) by lra; ring).
    assert (Y' : INR b = (INR j + l1 L + l2 L) * INR k) by (apply QY; rewrite Y; replace (l3 L) with (1 - l1 L - l2 L) by lra; ring).
    assert (E3 : l1 L * INR k = IZR A) by lra. assert (E2 : l2 L * INR k = IZR (B - A)) by (rewrite minus_IZR; lra).
    assert (E1 : l3 L * INR k = IZR (Z.of_nat k - B)) by (rewrite minus_IZR, <- INR_IZR_INZ; replace (l3 L) with (1 - l1 L - l2 L) by lra; lra).
    repeat split; eapply integral_nonneg; eassumption.
Qed.
(** A vertex of the mesh is found with its own weight 1. *)
Lemma vertex_weight v x t L p q r : vertex_at g s v (fst x) (snd x) -> triangle_at g t p q r -> bary_of p q r L (INR (fst x) * s, INR (snd x) * s) -> non_negative L ->
  (fst x <= m)%nat -> (snd x <= n)%nat -> In (v, 1) (weights t L).
Proof.
  intros V T B N H1 H2. destruct x as [k l]. cbn [fst snd] in *. pose proof (hat_corner g s m n Hs M t p q r L _ k l v T B N H1 H2 V) as H. cbv zeta in H. cbn [fst snd] in H.
  replace (INR k * s / s - INR k) with 0 in H by (field; lra). replace (INR l * s / s - INR l) with 0 in H by (field; lra).
  assert (E : hat 0 0 = 1) by (unfold hat; replace (0 - 0) with 0 by ring; rewrite Rabs_R0, !(Rmax_left 0 0) by lra; lra). rewrite E in H. apply H. lra.
Qed.
End ML.
