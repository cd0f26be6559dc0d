(** * Integrals over all meshes of a rectangle, refined ones included: C79. *)
From Coq Require Import Reals Lra Lia List ZArith Permutation.
From Coquelicot Require Import Coquelicot.
From Verif.Model Require Import Py Num Tensors Domain Refine Quadrature Integrators.
From Verif.Spec Require Import GridSpec QuadSpec RefineSpec.
From Verif.Proofs Require Import Lib QuadP QuadP2 IntegP GridP GridCover StdOrder MeshArea HatP.
From Verif.Props Require Import GridProps QuadProps IntegProps RefineProps CoarseProps.
Local Open Scope R_scope.
Import ListNotations.

Section M.
Context (g : grid R) (s : R) (m n : nat) (Hs : 0 < s) (Hm : (1 <= m)%nat) (Hn : (1 <= n)%nat) (M : mesh g s m n).
Lemma vertex_point v i j : vertex_at g s v i j -> point_at g v (GridCover.P s i j).
Proof. intros [_ E]. unfold point_at, GridCover.P. cbn [fst snd]. exact E. Qed.
Lemma lower_corners t i j : lower_at g s t i j -> corners (g_points g) t (GridCover.P s i j) (GridCover.P s (i + 1) j) (GridCover.P s (i + 1) (j + 1)).
Proof. destruct t as [[a b] c]. intros (A & B & C). repeat split; apply vertex_point; assumption. Qed.
Lemma upper_corners t i j : upper_at g s t i j -> corners (g_points g) t (GridCover.P s (i + 1) (j + 1)) (GridCover.P s i (j + 1)) (GridCover.P s i j).
Proof. destruct t as [[a b] c]. intros (A & B & C). repeat split; apply vertex_point; assumption. Qed.
(** Sums over the triangles. *)
Lemma mesh_sum (V : R * R -> R * R -> R * R -> R) values : Forall2 (fun t v => exists a b c, corners (g_points g) t a b c /\ v = V a b c) (g_triangles g) values ->
  Rsum values = Rsum (map (fun '(i, j) => V (GridCover.P s i j) (GridCover.P s (i + 1) j) (GridCover.P s (i + 1) (j + 1)) + V (GridCover.P s (i + 1) (j + 1)) (GridCover.P s i (j + 1)) (GridCover.P s i j)) (cells m n)).
Proof.
  intros H. destruct (mesh_cells g s m n Hs Hm Hn M) as (lo & up & LU & P). destruct (Permutation_Forall2 P H) as (values' & P' & H'). rewrite (Rsum_perm _ _ P').
  assert (E : values' = map (fun '(i, j) => V (GridCover.P s i j) (GridCover.P s (i + 1) j) (GridCover.P s (i + 1) (j + 1))) (cells m n) ++ map (fun '(i, j) => V (GridCover.P s (i + 1) (j + 1)) (GridCover.P s i (j + 1)) (GridCover.P s i j)) (cells m n)).
  { eapply Forall2_det; [|exact H'|].
    - intros t v v' [a [b [c [K ->]]]] [a' [b' [c' [K' ->]]]]. destruct (corners_det _ _ _ _ _ _ _ _ K K') as [-> [-> ->]]. reflexivity.
    - apply Forall2_app_; apply Forall2_maps; intros [i j] I; destruct (LU i j I) as [L U]; eexists _, _, _; (split; [first [exact (lower_corners _ i j L)|exact (upper_corners _ i j U)]|reflexivity]). }
  rewrite E, Rsum_app, <- Rsum_map_plus. apply Rsum_map_ext. intros [i j] _. reflexivity.
Qed.
Lemma cells_rows (f : nat -> nat -> R) : Rsum (map (fun '(i, j) => f i j) (cells m n)) = Rsum (map (fun i => Rsum (map (f i) (range n))) (range m)).
Proof.
  unfold cells. generalize (range m) as l. induction l as [|i l IH]; [reflexivity|]. cbn [list_prod map]. rewrite map_app, Rsum_app, IH, map_map. reflexivity.
Qed.
Lemma cross_lower i j : Rabs (cross (GridCover.P s i j) (GridCover.P s (i + 1) j) (GridCover.P s (i + 1) (j + 1))) = s * s.
Proof. unfold cross, GridCover.P. cbn [fst snd]. rewrite !plus_INR. cbn [INR]. rewrite <- (Rabs_right (s * s)) by nra. f_equal. ring. Qed.
Lemma cross_upper i j : Rabs (cross (GridCover.P s (i + 1) (j + 1)) (GridCover.P s i (j + 1)) (GridCover.P s i j)) = s * s.
Proof. unfold cross, GridCover.P. cbn [fst snd]. rewrite !plus_INR. cbn [INR]. rewrite <- (Rabs_right (s * s)) by nra. f_equal. ring. Qed.
Lemma mesh_areas (q : rule R) I : Integrator_ q (g_triangles g) (g_points g) = Ok I -> sum_over (fun A => A) (i_areas I) = (INR m * s) * (INR n * s).
Proof.
  intros HI. destruct (C38_areas q (g_triangles g) (g_points g)) as (I' & HI' & _ & _ & F).
  { intros t Ht. destruct (mesh_triangle_at g s m n M t Ht) as (a & b & c & T). exists a, b, c. apply at_corners, T. }
  rewrite HI in HI'. injection HI' as <-. rewrite sum_over_Rsum, (mesh_sum area _ F).
  rewrite (map_ext_in _ (fun _ => s * s)).
  - assert (K : forall l : list (nat * nat), Rsum (map (fun _ => s * s) l) = INR (length l) * (s * s)). { induction l as [|c l IH]; [cbn; ring|]. cbn [map length]. rewrite S_INR. change (s * s + Rsum (map (fun _ => s * s) l) = (INR (length l) + 1) * (s * s)). rewrite IH. ring. }
    rewrite K, cells_length, mult_INR. ring.
  - intros [i j] _. unfold area, signed_area. unfold Rdiv. rewrite !Rabs_mult, cross_lower, cross_upper, (Rabs_right (/ 2)) by lra. lra.
Qed.
End M.
(** A mesh of [m] x [n] cells of size [s] has [2 m n] triangles with total area (m s)(n s). *)
Theorem C79_total_area : forall g s m n q I, 0 < s -> (1 <= m)%nat -> (1 <= n)%nat -> mesh g s m n ->
  length (g_triangles g) = (2 * (m * n))%nat /\
  (Integrator_ q (g_triangles g) (g_points g) = Ok I -> sum_over (fun A => A) (i_areas I) = (INR m * s) * (INR n * s)).
Proof. intros g s m n q I Hs Hm Hn M. split; [exact (mesh_count g s m n Hs Hm Hn M)|exact (mesh_areas g s m n Hs Hm Hn M q I)]. Qed.
Print Assumptions C79_total_area.
(** Integrators over a mesh of a rectangle integrate polynomials exactly, up to the degree of the rule. *)
Theorem C79_mesh_integral : forall g s m n weights rpoints (q : rule R) d I (P : poly2) F,
  0 < s -> (1 <= m)%nat -> (1 <= n)%nat -> mesh g s m n ->
  TriangleQuadratureRule_ weights rpoints = Ok q -> exact_to q d -> Integrator_ q (g_triangles g) (g_points g) = Ok I ->
  degree_le d P ->
  (forall t a b c l x, triangle_at g t a b c -> bary_of a b c l x -> F t l = Ok (peval P (fst x) (snd x))) ->
  integrate I F = Ok (rectangle_integral (INR m * s) (INR n * s) (peval P)).
Proof.
  intros g s m n weights rpoints q d I P F Hs Hm Hn M Hq HE HI HD HF.
  destruct (C38_exact weights rpoints q d (g_triangles g) (g_points g) I (fun _ => P) F Hq HE HI (fun _ _ => HD)) as [values [V ->]].
  { intros t a b c l x Ht K B. apply (HF t a b c l x (corners_at _ _ _ _ _ K Ht) B). }
  apply (f_equal Ok). rewrite sum_over_Rsum, (mesh_sum g s m n Hs Hm Hn M (fun a b c => triangle_integral a b c (peval P)) values V).
  assert (HP : is_poly d (peval P)) by (apply is_poly_peval, HD).
  rewrite cells_rows, <- (cells_sum d) by exact HP. apply Rsum_map_ext. intros i _. apply Rsum_map_ext. intros j _.
  rewrite <- (cell_halves d) by exact HP. unfold triangle_integral. rewrite cross_lower, cross_upper. unfold GridCover.P. cbn [fst snd].
  f_equal; f_equal; apply reference_ext; intros u v; rewrite !plus_INR; cbn [INR]; f_equal; ring.
Qed.
Print Assumptions C79_mesh_integral.
(** In particular over refinements: the integral over the refined grid of a polynomial is the integral over the original rectangle. *)
Theorem C79_refined_integral : forall g s m n N r weights rpoints (q : rule R) d I (P : poly2) F,
  0 < s -> (1 <= m)%nat -> (1 <= n)%nat -> (1 <= N)%nat -> / 10 ^ 15 <= s / INR N -> mesh g s m n -> refine g (Z.of_nat N) = Ok r ->
  TriangleQuadratureRule_ weights rpoints = Ok q -> exact_to q d -> Integrator_ q (g_triangles (r_grid r)) (g_points (r_grid r)) = Ok I ->
  degree_le d P ->
  (forall t a b c l x, triangle_at (r_grid r) t a b c -> bary_of a b c l x -> F t l = Ok (peval P (fst x) (snd x))) ->
  integrate I F = Ok (rectangle_integral (INR m * s) (INR n * s) (peval P)).
Proof.
  intros g s m n N r weights rpoints q d I P F Hs Hm Hn HN He M Rf Hq HE HI HD HF.
  destruct (C27_refinement_is_fine_mesh g s m n N Hs Hm Hn HN He M) as (r' & Rf' & _ & M' & _). rewrite Rf in Rf'. injection Rf' as <-.
  assert (N0 : INR N <> 0) by (apply not_0_INR; lia). assert (NP : 0 < INR N) by (apply lt_0_INR; lia).
  rewrite (C79_mesh_integral (r_grid r) (s / INR N) (m * N) (n * N) weights rpoints q d I P F) by (try assumption; try nia; apply Rdiv_lt_0_compat; assumption).
  rewrite !mult_INR. replace (INR m * INR N * (s / INR N)) with (INR m * s) by (field; exact N0). replace (INR n * INR N * (s / INR N)) with (INR n * s) by (field; exact N0). reflexivity.
Qed.
Print Assumptions C79_refined_integral.

(** DUNAVANT2 on a grid of 2 x 2 cells refined by 3 and the integrand x y. *)
Example C79_example : exists g r q I F, mesh g (1/2) 2 2 /\ refine g 3 = Ok r /\ length (g_triangles (r_grid r)) = 72%nat /\ DUNAVANT2 = Ok q /\
  Integrator_ q (g_triangles (r_grid r)) (g_points (r_grid r)) = Ok I /\ integrate I F = Ok (1 / 4).
Proof.
  destruct ex_refined as [g [r [Hg [Rf [M [M' [_ He]]]]]]]. destruct C34_dunavant2 as [q [Hq Eq]]. assert (S3 : 0 < 1/2 / INR 3) by (cbn; lra).
  destruct (C38_areas q (g_triangles (r_grid r)) (g_points (r_grid r))) as [I [HI _]].
  { intros t Ht. destruct (mesh_triangle_at _ _ _ _ M' t Ht) as (a & b & c & T). exists a, b, c. apply at_corners, T. }
  set (pt := fun v => match nth_error (g_points (r_grid r)) v with Some p => (nth 0 p 0, nth 1 p 0) | None => (0, 0) end).
  set (F := fun (t : triangle) (l : bary R) => let '(i, j, k) := t in
     Ok (peval [(1, (1, 1)%nat)] (l1 l * fst (pt i) + l2 l * fst (pt j) + l3 l * fst (pt k)) (l1 l * snd (pt i) + l2 l * snd (pt j) + l3 l * snd (pt k)))).
  exists g, r, q, I, F. split; [exact M|]. split; [exact Rf|]. split; [rewrite (mesh_count _ _ 6 6 S3 ltac:(lia) ltac:(lia) M'); reflexivity|]. split; [exact Hq|]. split; [exact HI|].
  unfold DUNAVANT2 in Hq. revert Hq. third. intros Hq.
  rewrite (C79_refined_integral g (1/2) 2 2 3 r _ _ q 2 I [(1, (1, 1)%nat)] F ex_pos ltac:(lia) ltac:(lia) ltac:(lia) He M Rf Hq Eq HI).
  - apply (f_equal Ok). unfold rectangle_integral. rewrite (RInt_ext _ (fun x => 1/2 * x ^ 1)).
    + rewrite RInt_scal_R by (apply ex_RInt_cont; intros; auto_derive; exact Logic.I). rewrite RInt_pow_. cbn. field.
    + intros x _. rewrite RInt_from0. cbn. field.
  - intros c i j [E|[]]. injection E as <- <- <-. lia.
  - intros [[i j] k] a b c l x [_ [A [B C]]] [_ [X Y]]. unfold F, pt. rewrite A, B, C. cbn [nth fst snd]. rewrite X, Y. reflexivity.
Qed.
