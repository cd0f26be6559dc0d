(** * C20-C26: point location, point_to_vertex, append_edge, Grid equality, accessors, curves.
    Vocabulary: Spec/GridSpec.v and Spec/EqSpec.v. *)
From Coq Require Import Reals Lra Lia String Psatz Permutation.
From Verif.Model Require Import Py Num Tensors Domain.
From Verif.Spec Require Import GridSpec EqSpec.
From Verif.Proofs Require Import Lib GridP GridTopo GridFix GridCover LocateP FindP EqP EqRect StdOrder.
From Verif.Props Require Import GridProps.
Local Open Scope R_scope.

(** ** C20 *)
(** It never raises on a point of the plane. *)
Theorem C20_never_raises : forall so w h f s m n g x, 0 < s -> fits w s m -> fits h s n -> domain_grid so w h f s = Ok g ->
  exists r, to_barycentric_point g (vec x) = Ok r.
Proof.
  intros so w h f s m n g x Hs Hm Hn H. pose proof (grid_spec _ _ _ _ _ _ _ _ Hs Hm Hn H) as G.
  destruct (locate_grid g so m n f s Hs G x) as [[t [p [q [r [_ [_ E]]]]]]|[E _]]; eauto.
Qed.
Print Assumptions C20_never_raises.
(** The answer is a grid triangle with the barycentric coordinates of the point, for every mesh width. *)
Theorem C20_coordinates_reproduce_point : forall so w h f s m n g x t b, 0 < s -> fits w s m -> fits h s n -> domain_grid so w h f s = Ok g ->
  to_barycentric_point g (vec x) = Ok (Some (t, b)) ->
  exists p q r, triangle_at g t p q r /\ bary_of p q r b x.
Proof.
  intros so w h f s m n g x t b Hs Hm Hn H E. pose proof (grid_spec _ _ _ _ _ _ _ _ Hs Hm Hn H) as G.
  destruct (locate_grid g so m n f s Hs G x) as [[t' [p [q [r [HT [_ E']]]]]]|[E' _]]; rewrite E in E'; [|discriminate].
  injection E' as -> ->. exists p, q, r. split; [exact HT|]. apply bary3_of. rewrite (cross_at g so m n f s G _ _ _ _ HT). nra.
Qed.
Print Assumptions C20_coordinates_reproduce_point.
(** For mesh widths of at least 1e-5 no coordinate is below -1e-10 / (2 * area). *)
Theorem C20_coordinates_bounded_below : forall so w h f s m n g x t b, 0 < s -> fits w s m -> fits h s n -> domain_grid so w h f s = Ok g ->
  / 10 ^ 10 <= s * s -> to_barycentric_point g (vec x) = Ok (Some (t, b)) ->
  - (/ 10 ^ 10) / (s * s) <= l1 b /\ - (/ 10 ^ 10) / (s * s) <= l2 b /\ - (/ 10 ^ 10) / (s * s) <= l3 b.
Proof.
  intros so w h f s m n g x t b Hs Hm Hn H Hbig E. pose proof (grid_spec _ _ _ _ _ _ _ _ Hs Hm Hn H) as G.
  destruct (locate_grid g so m n f s Hs G x) as [[t' [p [q [r [HT [HH E']]]]]]|[E' _]]; rewrite E in E'; [|discriminate].
  injection E' as -> ->. pose proof (cross_at g so m n f s G _ _ _ _ HT) as HC. fold eps10 in *.
  apply holds_tri_iff in HH; [|rewrite HC; exact Hbig]. unfold bary3, l1, l2, l3. cbn [fst snd]. rewrite HC.
  assert (Hinv : 0 <= / (s * s)) by (apply Rlt_le, Rinv_0_lt_compat; nra). unfold Rdiv.
  repeat split; apply Rmult_le_compat_r; tauto.
Qed.
Print Assumptions C20_coordinates_bounded_below.
(** Every point of the grid rectangle is found, for every mesh width. *)
Theorem C20_inside_is_found : forall so w h f s m n g x, 0 < s -> fits w s m -> fits h s n -> domain_grid so w h f s = Ok g ->
  (1 <= m)%nat -> (1 <= n)%nat -> 0 <= fst x <= INR m * s -> 0 <= snd x <= INR n * s ->
  exists t b, to_barycentric_point g (vec x) = Ok (Some (t, b)).
Proof.
  intros so w h f s m n g x Hs Hm Hn H Hm1 Hn1 Hx Hy. pose proof (grid_spec _ _ _ _ _ _ _ _ Hs Hm Hn H) as G.
  destruct (locate_grid g so m n f s Hs G x) as [[t' [p [q [r [HT [HH E']]]]]]|[_ N]]; [eauto|].
  destruct (covering g so m n f s Hs G (fst x) (snd x) Hm1 Hn1 Hx Hy) as [t [p [q [r [HT HI]]]]].
  rewrite <- surjective_pairing in HI. exfalso. apply (N _ _ _ _ HT). apply inside_holds; [|exact HI].
  rewrite (cross_at g so m n f s G _ _ _ _ HT). nra.
Qed.
Print Assumptions C20_inside_is_found.
(** Mesh widths of at least 1e-5: a point more than 2e-10 / s outside the grid rectangle is not found. *)
Theorem C20_outside_is_none : forall so w h f s m n g x, 0 < s -> fits w s m -> fits h s n -> domain_grid so w h f s = Ok g ->
  / 10 ^ 10 <= s * s ->
  let d := 2 * / 10 ^ 10 / s in
  fst x < - d \/ INR m * s + d < fst x \/ snd x < - d \/ INR n * s + d < snd x ->
  to_barycentric_point g (vec x) = Ok None.
Proof.
  intros so w h f s m n g x Hs Hm Hn H Hbig d Hout. pose proof (grid_spec _ _ _ _ _ _ _ _ Hs Hm Hn H) as G.
  destruct (C20_never_raises _ _ _ _ _ _ _ _ x Hs Hm Hn H) as [[[t b]|] E]; [|exact E]. exfalso.
  pose proof (C20_coordinates_bounded_below _ _ _ _ _ _ _ _ _ _ _ Hs Hm Hn H Hbig E) as [B1 [B2 B3]].
  destruct (C20_coordinates_reproduce_point _ _ _ _ _ _ _ _ _ _ _ Hs Hm Hn H E) as [p [q [r [HT [S1 [Ex Ey]]]]]].
  apply (triangle_at_iff g so m n f s G) in HT as [i [j [Hi [Hj C]]]].
  assert (Bi : INR i + 1 <= INR m) by (rewrite <- S_INR; apply le_INR; lia).
  assert (Bj : INR j + 1 <= INR n) by (rewrite <- S_INR; apply le_INR; lia).
  pose proof (pos_INR i) as Pi. pose proof (pos_INR j) as Pj. fold eps10 in *. pose proof eps10_pos.
  assert (Hd : d = 2 * (eps10 / (s * s)) * s) by (unfold d; field; lra).
  set (k := eps10 / (s * s)) in *. assert (Hk : - eps10 / (s * s) = - k) by (unfold k; field; lra). rewrite Hk in B1, B2, B3.
  assert (Hk0 : 0 < k) by (apply Rmult_lt_0_compat; [assumption|apply Rinv_0_lt_compat; nra]).
  assert (HX : exists z z', - 2 * k <= z <= 1 + 2 * k /\ - 2 * k <= z' <= 1 + 2 * k /\ fst x = (INR i + z) * s /\ snd x = (INR j + z') * s).
  { destruct C as [[_ [-> [-> ->]]]|[_ [-> [-> ->]]]]; unfold P in Ex, Ey; cbn [fst snd] in Ex, Ey; rewrite !plus_INR in Ex, Ey; simpl INR in Ex, Ey.
    - exists (l2 b + l3 b), (l3 b). repeat split; try lra; rewrite ?Ex, ?Ey; assert (l1 b = 1 - l2 b - l3 b) as -> by lra; ring.
    - exists (l1 b), (l1 b + l2 b). repeat split; try lra; rewrite ?Ex, ?Ey; assert (l3 b = 1 - l1 b - l2 b) as -> by lra; ring. }
  destruct HX as [z [z' [Bz [Bz' [Zx Zy]]]]]. rewrite Zx, Zy, Hd in Hout.
  destruct Hout as [O|[O|[O|O]]]; revert O; apply Rle_not_lt; nra.
Qed.
Print Assumptions C20_outside_is_none.
Example C20_example : exists g t b, domain_grid std_order (12/10) (9/10) FixNone (1/2) = Ok g /\ / 10 ^ 10 <= 1/2 * (1/2) /\
  to_barycentric_point g (vec (7/10, 4/10)) = Ok (Some (t, b)).
Proof.
  destruct (C11_grid_succeeds std_order (12/10) (9/10) FixNone (1/2)) as [m [n [g [_ [_ Hg]]]]]; try lra.
  destruct (C20_inside_is_found _ _ _ _ _ _ _ _ (7/10, 4/10) ex_pos ex_fits_w ex_fits_h Hg ltac:(lia) ltac:(lia)) as [t [b E]]; [simpl; lra|simpl; lra|].
  exists g, t, b. split; [exact Hg|]. split; [simpl; lra|exact E].
Qed.

(** ** C21 *)
(** Mesh width above 1e-5: the triangle found for a grid point has that vertex as a corner, with weight 1 there. *)
Theorem C21_grid_point_is_corner_partial : forall so w h f s m n g v x, 0 < s -> fits w s m -> fits h s n -> domain_grid so w h f s = Ok g ->
  / 10 ^ 10 < s * s -> (1 <= m)%nat -> (1 <= n)%nat -> point_at g v x ->
  exists a b c l, to_barycentric_point g (vec x) = Ok (Some ((a, b, c), l)) /\ In (a, b, c) (g_triangles g) /\
    (v = a /\ l1 l = 1 /\ l2 l = 0 /\ l3 l = 0 \/ v = b /\ l1 l = 0 /\ l2 l = 1 /\ l3 l = 0 \/ v = c /\ l1 l = 0 /\ l2 l = 0 /\ l3 l = 1).
Proof.
  intros so w h f s m n g v x Hs Hm Hn H Hbig Hm1 Hn1 Hv. pose proof (grid_spec _ _ _ _ _ _ _ _ Hs Hm Hn H) as G.
  apply (point_at_iff g m n s (rs_p _ _ _ _ _ _ G)) in Hv as [k [k' [Hk [Hk' [-> ->]]]]].
  pose proof (le_INR _ _ Hk) as Ik. pose proof (le_INR _ _ Hk') as Ik'. pose proof (pos_INR k) as Pk. pose proof (pos_INR k') as Pk'.
  destruct (C20_inside_is_found _ _ _ _ _ _ _ _ (INR k * s, INR k' * s) Hs Hm Hn H Hm1 Hn1) as [t [b E]]; [cbn [fst]; split; [nra|apply Rmult_le_compat_r; lra]|cbn [snd]; split; [nra|apply Rmult_le_compat_r; lra]|].
  destruct t as [[ta tb] tc]. exists ta, tb, tc, b. split; [exact E|].
  pose proof (C20_coordinates_bounded_below _ _ _ _ _ _ _ _ _ _ _ Hs Hm Hn H (Rlt_le _ _ Hbig) E) as [B1 [B2 B3]].
  destruct (C20_coordinates_reproduce_point _ _ _ _ _ _ _ _ _ _ _ Hs Hm Hn H E) as [p [q [r [HT [S1 [Ex Ey]]]]]].
  split; [apply (triangle_at_in g _ _ _ _ HT)|].
  apply (triangle_at_iff g so m n f s G) in HT as [i [j [Hi [Hj C]]]].
  assert (HL : -1 < - (/ 10 ^ 10) / (s * s)).
  { apply Rmult_lt_reg_r with (s * s); [nra|]. unfold Rdiv. rewrite Rmult_assoc, Rinv_l by nra. lra. }
  set (A := (Z.of_nat k - Z.of_nat i)%Z). set (B := (Z.of_nat k' - Z.of_nat j)%Z).
  assert (EA : INR k = INR i + IZR A) by (rewrite !INR_IZR_INZ; unfold A; rewrite minus_IZR; ring).
  assert (EB : INR k' = INR j + IZR B) by (rewrite !INR_IZR_INZ; unfold B; rewrite minus_IZR; ring).
  destruct C as [[ET [-> [-> ->]]]|[ET [-> [-> ->]]]]; unfold P in Ex, Ey; cbn [fst snd] in Ex, Ey; rewrite !plus_INR, ?EA, ?EB in Ex, Ey; simpl INR in Ex, Ey;
    injection ET as -> -> ->.
  - assert (E3 : l3 b = IZR B) by (apply Rmult_eq_reg_r with s; [assert (l1 b = 1 - l2 b - l3 b) by lra; nra|lra]).
    assert (E2 : l2 b = IZR (A - B)) by (rewrite minus_IZR; apply Rmult_eq_reg_r with s; [assert (l1 b = 1 - l2 b - l3 b) by lra; nra|lra]).
    assert (E1 : l1 b = IZR (1 - A)) by (rewrite !minus_IZR in *; lra).
    assert (Z1 : (-1 < 1 - A)%Z) by (apply lt_IZR; rewrite <- E1; lra). assert (Z2 : (-1 < A - B)%Z) by (apply lt_IZR; rewrite <- E2; lra). assert (Z3 : (-1 < B)%Z) by (apply lt_IZR; rewrite <- E3; lra).
    rewrite E1, E2, E3.
    assert (A = 0 /\ B = 0 \/ A = 1 /\ B = 0 \/ A = 1 /\ B = 1)%Z as [[QA QB]|[[QA QB]|[QA QB]]] by lia; rewrite ?QA, ?QB; simpl; unfold A, B in QA, QB.
    + left. split; [f_equal; lia|lra].
    + right; left. split; [f_equal; lia|lra].
    + right; right. split; [f_equal; lia|lra].
  - assert (E3 : l1 b = IZR A) by (apply Rmult_eq_reg_r with s; [assert (l2 b = 1 - l1 b - l3 b) by lra; nra|lra]).
    assert (E2 : l2 b = IZR (B - A)) by (rewrite minus_IZR; apply Rmult_eq_reg_r with s; [assert (l3 b = 1 - l1 b - l2 b) by lra; nra|lra]).
    assert (E1 : l3 b = IZR (1 - B)) by (rewrite !minus_IZR in *; lra).
    assert (Z1 : (-1 < 1 - B)%Z) by (apply lt_IZR; rewrite <- E1; lra). assert (Z2 : (-1 < B - A)%Z) by (apply lt_IZR; rewrite <- E2; lra). assert (Z3 : (-1 < A)%Z) by (apply lt_IZR; rewrite <- E3; lra).
    rewrite E1, E2, E3.
    assert (A = 0 /\ B = 0 \/ A = 0 /\ B = 1 \/ A = 1 /\ B = 1)%Z as [[QA QB]|[[QA QB]|[QA QB]]] by lia; rewrite ?QA, ?QB; simpl; unfold A, B in QA, QB.
    + right; right. split; [f_equal; lia|lra].
    + right; left. split; [f_equal; lia|lra].
    + left. split; [f_equal; lia|lra].
Qed.
Print Assumptions C21_grid_point_is_corner_partial.
(** At every mesh width up to 1e-5 (and at least two columns) the vertex (2,0) is located in the first triangle,
    which does not have it as a corner, with coordinates -1, 2, 0. *)
Theorem C21_every_scale_refuted : forall so w h f s m n g, 0 < s -> fits w s m -> fits h s n -> domain_grid so w h f s = Ok g ->
  s * s <= / 10 ^ 10 -> (2 <= m)%nat -> (1 <= n)%nat ->
  exists v t l, vertex_at g s v 2 0 /\ to_barycentric_point g (vec (INR 2 * s, INR 0 * s)) = Ok (Some (t, l)) /\
    ~ corner_of v t /\ l1 l = -1 /\ l2 l = 2 /\ l3 l = 0.
Proof.
  intros so w h f s m n g Hs Hm Hn H Hsmall Hm2 Hn1. pose proof (grid_spec _ _ _ _ _ _ _ _ Hs Hm Hn H) as G.
  exists (pair_to_vertex (S m) 2 0), (lower_tri (S m) 0 0), (bary3 (P s 0 0) (P s 1 0) (P s 1 1) (P s 2 0)).
  split; [apply (vertex_at_ptv g so m n f s Hs G); repeat split; lia|].
  assert (HT : triangle_at g (lower_tri (S m) 0 0) (P s 0 0) (P s 1 0) (P s 1 1)).
  { apply (triangle_at_iff g so m n f s G). exists 0%nat, 0%nat. split; [lia|]. split; [lia|]. left. auto. }
  assert (Hne : cross (P s 0 0) (P s 1 0) (P s 1 1) <> 0) by (rewrite (cross_at g so m n f s G _ _ _ _ HT); nra).
  split.
  { unfold to_barycentric_point. rewrite (rs_t _ _ _ _ _ _ G).
    assert (Hhd : exists rest, rg_triangles (S m) (S n) = lower_tri (S m) 0 0 :: rest).
    { destruct m as [|m']; [lia|]. destruct n as [|n']; [lia|]. unfold rg_triangles, lower_triangles, lower_tri.
      replace (S (S m') - 1)%nat with (S m') by lia. replace (S (S n') - 1)%nat with (S n') by lia.
      unfold range. cbn [seq flat_map map app]. eexists. reflexivity. }
    destruct Hhd as [rest ->].
    assert (Hc : holds_tri (P s 0 0) (P s 1 0) (P s 1 1) (P s 2 0)).
    { unfold holds_tri, cross, P. fold eps10 in Hsmall. cbn [fst snd]. simpl INR. intros [[C|[C|C]] _]; ring_simplify in C; nra. }
    pose proof (triangle_at_in g _ _ _ _ HT) as HI.
    apply (points_of_iff g _ _ _ _ HI) in HT.
    cbn [locate]. rewrite HT. cbn [bind].
    change (vec (INR 2 * s, INR 0 * s)) with (vec (P s 2 0)).
    destruct (contains_vec (P s 0 0) (P s 1 0) (P s 1 1) (P s 2 0)) as [b [Eb Hb]]. rewrite Eb. cbn [bind].
    apply Hb in Hc. rewrite Hc. rewrite bary_vec by exact Hne. reflexivity. }
  split.
  - unfold corner_of, lower_tri. rewrite !ptv_eq_iff by lia. lia.
  - unfold bary3, l1, l2, l3. cbn [fst snd]. unfold cross, P in *. cbn [fst snd] in *. simpl INR in *. repeat split; field; lra.
Qed.
Print Assumptions C21_every_scale_refuted.
Example C21_example : exists m n g, fits (/ 10 ^ 4) (/ 10 ^ 5) m /\ fits (/ 10 ^ 5) (/ 10 ^ 5) n /\
  domain_grid std_order (/ 10 ^ 4) (/ 10 ^ 5) FixNone (/ 10 ^ 5) = Ok g /\ / 10 ^ 5 * / 10 ^ 5 <= / 10 ^ 10 /\ m = 10%nat /\ n = 1%nat.
Proof.
  destruct (C11_grid_succeeds std_order (/ 10 ^ 4) (/ 10 ^ 5) FixNone (/ 10 ^ 5)) as [m [n [g [Hm [Hn Hg]]]]]; try (simpl; lra).
  exists m, n, g. repeat split; try (apply Hm); try apply Hn; try exact Hg; try (simpl; lra).
  - apply (fits_unique (/ 10 ^ 4) (/ 10 ^ 5)); [simpl; lra|exact Hm|unfold fits; simpl; lra].
  - apply (fits_unique (/ 10 ^ 5) (/ 10 ^ 5)); [simpl; lra|exact Hn|unfold fits; simpl; lra].
Qed.

(** ** C22 *)
Theorem C22_inverts_points : forall so w h f s m n g v p, 0 < s -> fits w s m -> fits h s n -> domain_grid so w h f s = Ok g ->
  nth_error (g_points g) v = Some p -> point_to_vertex g p = Ok (Some v).
Proof.
  intros so w h f s m n g v p Hs Hm Hn H Hv. pose proof (grid_spec _ _ _ _ _ _ _ _ Hs Hm Hn H) as G.
  apply find_self; [apply (separated_rect g so m n f s Hs G)|exact Hv].
Qed.
Print Assumptions C22_inverts_points.
(** On any grid with two-dimensional points: the first vertex closer than the tolerance, [None] if there is none. *)
Theorem C22_first_close_vertex : forall g x, planar g ->
  (exists v p, point_to_vertex g (vec x) = Ok (Some v) /\ point_at g v p /\ dist x p < tolerance g /\
     forall v' p', (v' < v)%nat -> point_at g v' p' -> tolerance g <= dist x p') \/
  (point_to_vertex g (vec x) = Ok None /\ forall v p, point_at g v p -> tolerance g <= dist x p).
Proof.
  intros g x Hpl. unfold point_to_vertex. destruct (find_point_spec (g_mean g) (g_points g) x 0) as [[k [q [E [Hk [Hd Hmin]]]]]|[E N]].
  - intros y Hy. apply In_nth_error in Hy as [w Hw]. apply (Hpl w y Hw).
  - left. exists k, q. split; [exact E|]. split; [exact Hk|]. split; [exact Hd|]. intros v' p' Hlt Hp. apply Rnot_lt_le. apply (Hmin v' p' Hlt Hp).
  - right. split; [exact E|]. intros v p Hp. apply Rnot_lt_le. apply (N v p Hp).
Qed.
Print Assumptions C22_first_close_vertex.
(** On a rectangle grid the tolerance is below the mesh width, so at most one vertex can match. *)
Theorem C22_tolerance_below_mesh_width : forall so w h f s m n g, 0 < s -> fits w s m -> fits h s n -> domain_grid so w h f s = Ok g ->
  (1 <= m \/ 1 <= n)%nat -> planar g /\ s / 10000000 <= tolerance g < s / 5000000.
Proof.
  intros so w h f s m n g Hs Hm Hn H Hbig. pose proof (grid_spec _ _ _ _ _ _ _ _ Hs Hm Hn H) as G.
  split; [apply (planar_rect g so m n f s G)|].
  unfold tolerance. pose proof (rs_m _ _ _ _ _ _ G) as HM. unfold mean_ok in HM. destruct (g_mean g) as [a|].
  - pose proof sqrt2_lt2. destruct HM as [_ [H1 H2]]. split; [lra|]. nra.
  - exfalso. assert (L : List.length (rg_edges (S m) (S n)) = 0%nat) by (rewrite HM; reflexivity). rewrite edges_length in L.
    cbn [Nat.sub] in L. rewrite !Nat.sub_0_r in L. nia.
Qed.
Print Assumptions C22_tolerance_below_mesh_width.
Example C22_example : exists g, domain_grid std_order (12/10) (9/10) FixNone (1/2) = Ok g /\ nth_error (g_points g) 4 = Some [1 * (1/2); 1 * (1/2)] /\
  point_to_vertex g [1 * (1/2); 1 * (1/2)] = Ok (Some 4%nat).
Proof.
  destruct (C11_grid_succeeds std_order (12/10) (9/10) FixNone (1/2)) as [m [n [g [_ [_ Hg]]]]]; try lra.
  pose proof (grid_spec _ _ _ _ _ _ _ _ ex_pos ex_fits_w ex_fits_h Hg) as G.
  assert (E : nth_error (g_points g) 4 = Some [1 * (1/2); 1 * (1/2)]) by (rewrite (rs_p _ _ _ _ _ _ G); reflexivity).
  exists g. split; [exact Hg|]. split; [exact E|]. apply (C22_inverts_points _ _ _ _ _ _ _ _ _ _ ex_pos ex_fits_w ex_fits_h Hg E).
Qed.

(** ** C23 *)
(** Any sequence of append_edge calls with edges between existing points. *)
Theorem C23_append_edges : forall (es : list edge) g, planar g -> mean_is_average g -> edges_unique (g_edges g) ->
  (forall e, In e es -> (fst e < length (g_points g))%nat /\ (snd e < length (g_points g))%nat) ->
  exists g' new, foldM append_edge es g = Ok g' /\
    g_edges g' = g_edges g ++ new /\ incl new es /\ edges_unique (g_edges g') /\
    (forall e, In e es -> exists e', In e' (g_edges g') /\ same_edge e e') /\
    mean_is_average g' /\
    g_vertices g' = g_vertices g /\ g_triangles g' = g_triangles g /\ g_points g' = g_points g /\
    g_boundary g' = g_boundary g /\ g_dirichlet g' = g_dirichlet g /\ g_neumann g' = g_neumann g.
Proof.
  induction es as [|e es IH]; intros g Hpl HM HU HI.
  - exists g, []. rewrite app_nil_r. split; [reflexivity|]. split; [reflexivity|]. split; [intros x []|].
    split; [exact HU|]. split; [intros x []|]. split; [exact HM|]. repeat split.
  - assert (HP : exists p q, point_at g (fst e) p /\ point_at g (snd e) q).
    { destruct (HI e (or_introl eq_refl)) as [H1 H2].
      destruct (nth_error (g_points g) (fst e)) as [x|] eqn:E1; [|apply nth_error_None in E1; lia].
      destruct (nth_error (g_points g) (snd e)) as [y|] eqn:E2; [|apply nth_error_None in E2; lia].
      destruct (Hpl _ _ E1) as [p ->]. destruct (Hpl _ _ E2) as [q ->]. exists p, q. auto. }
    cbn [foldM]. destruct (append_edge_cases g e HM HP) as [[K E]|[K [a [E HM']]]]; rewrite E; cbn [bind].
    + destruct (IH g Hpl HM HU) as [g' [new [E' [A [B [C [D R]]]]]]]; [intros x Hx; apply HI; right; exact Hx|].
      exists g', new. split; [exact E'|]. split; [exact A|]. split; [intros x Hx; right; apply B, Hx|]. split; [exact C|]. split; [|exact R].
      intros x [<-|Hx]; [|apply D, Hx]. destruct K as [e' [K1 K2]]. exists e'. split; [rewrite A; apply in_or_app; left; exact K1|exact K2].
    + destruct (IH (with_edges g (g_edges g ++ [e]) (Some a))) as [g' [new [E' [A [B [C [D R]]]]]]].
      * exact Hpl.
      * exact HM'.
      * cbn [with_edges g_edges]. intros k l x y Hk Hl Hxy.
        assert (Q : forall j z, nth_error (g_edges g ++ [e]) j = Some z -> (j < length (g_edges g))%nat /\ nth_error (g_edges g) j = Some z \/ j = length (g_edges g) /\ z = e).
        { intros j z Hj. destruct (Nat.lt_ge_cases j (length (g_edges g))) as [L|L].
          - left. rewrite nth_error_app1 in Hj by exact L. auto.
          - right. rewrite nth_error_app2 in Hj by exact L. destruct (j - length (g_edges g))%nat as [|j'] eqn:Ej; [|destruct j'; discriminate Hj].
            cbn in Hj. injection Hj as <-. split; [lia|reflexivity]. }
        destruct (Q _ _ Hk) as [[Lk Nk]|[Lk ->]], (Q _ _ Hl) as [[Ll Nl]|[Ll ->]].
        -- apply (HU k l x y); assumption.
        -- exfalso. apply K. exists x. split; [apply (nth_error_In _ _ Nk)|]. destruct Hxy as [-> | ->]; [left; reflexivity|right; destruct e; reflexivity].
        -- exfalso. apply K. exists y. split; [apply (nth_error_In _ _ Nl)|exact Hxy].
        -- congruence.
      * intros x Hx. apply HI. right. exact Hx.
      * cbn [with_edges g_edges] in A. exists g', (e :: new). split; [exact E'|]. split; [rewrite A, <- app_assoc; reflexivity|].
        split; [intros x [<-|Hx]; [left; reflexivity|right; apply B, Hx]|]. split; [exact C|]. split; [|exact R].
        intros x [<-|Hx]; [|apply D, Hx]. exists e. split; [rewrite A; apply in_or_app; left; apply in_or_app; right; left; reflexivity|left; reflexivity].
Qed.
Print Assumptions C23_append_edges.
(** The constructor establishes the invariant. *)
Theorem C23_constructor_mean : forall vs es ts bd dir neu pts (g : grid R), Grid_ vs es ts bd dir neu pts = Ok g ->
  (forall p, In p pts -> exists q, p = vec q) -> mean_is_average g /\ g_edges g = es /\ g_points g = pts.
Proof.
  intros vs es ts bd dir neu pts g H Hpl. unfold Grid_ in H. destruct es as [|e0 es0]; [injection H as <-; cbn; auto|].
  set (es := e0 :: es0) in *. destruct (mapM _ es) as [lens|] eqn:El; [|discriminate]. cbn [bind] in H.
  cbn [nofZ RNum] in H. rewrite ndiv_R in H by (apply IZR_neq; simpl; lia). cbn [bind] in H. injection H as <-.
  split; [|auto]. unfold mean_is_average. cbn [g_mean g_edges]. split; [discriminate|]. exists lens.
  assert (Hnz : INR (List.length es) <> 0) by (apply not_0_INR; discriminate).
  split; [|rewrite sum_over_Rsum, nsum_Rsum; rewrite INR_IZR_INZ in Hnz |- *; change (Z.pos (Pos.of_succ_nat (List.length es0))) with (Z.of_nat (List.length es)); clearbody es; field; exact Hnz].
  clearbody es. clear Hnz. revert lens El. induction es as [|e es IH]; intros lens El; [injection El as <-; constructor|].
  cbn [mapM] in El. destruct (edge_length pts e) as [l|] eqn:Ee; [|discriminate]. cbn [bind] in El. destruct (mapM _ es) as [ls|] eqn:Es; [|discriminate].
  injection El as <-. constructor; [|apply IH; reflexivity].
  unfold point_at. cbn [g_points]. unfold edge_length, py_nth in Ee.
  destruct (nth_error pts (fst e)) as [x|] eqn:E1; [|discriminate]. destruct (nth_error pts (snd e)) as [y|] eqn:E2; [|discriminate].
  destruct (Hpl x (nth_error_In _ _ E1)) as [p ->]. destruct (Hpl y (nth_error_In _ _ E2)) as [q ->]. exists p, q.
  split; [exact E1|]. split; [exact E2|]. destruct e as [a b]. cbn [fst snd] in E1, E2.
  assert (EE : edge_length pts (a, b) = Ok l) by (unfold edge_length, py_nth; cbn [fst snd]; rewrite E1, E2; exact Ee).
  rewrite (edge_length_pts pts a b _ _ _ _ E1 E2) in EE. injection EE as <-. reflexivity.
Qed.
Print Assumptions C23_constructor_mean.
Example C23_example : exists g g', domain_grid std_order (12/10) (9/10) FixNone (1/2) = Ok g /\ planar g /\ mean_is_average g /\ edges_unique (g_edges g) /\
  foldM append_edge [(0, 5); (5, 0); (1, 0)]%nat g = Ok g' /\ g_edges g' = g_edges g ++ [(0, 5)]%nat.
Proof.
  destruct (C11_grid_succeeds std_order (12/10) (9/10) FixNone (1/2)) as [m [n [g [_ [_ Hg]]]]]; try lra.
  pose proof (grid_spec _ _ _ _ _ _ _ _ ex_pos ex_fits_w ex_fits_h Hg) as G. pose proof (planar_rect g _ 2 1 _ _ G) as HP.
  assert (HU : edges_unique (g_edges g)) by (intros k l e e' Hk Hl; apply (C12_edges_unique _ _ _ _ _ _ _ _ _ _ _ _ ex_pos ex_fits_w ex_fits_h Hg Hk Hl)).
  assert (HM : mean_is_average g).
  { pose proof Hg as Hg'. rewrite (domain_grid_rect _ _ _ _ _ _ _ ex_pos ex_fits_w ex_fits_h) in Hg'. apply C23_constructor_mean in Hg' as [M _]; [exact M|].
    intros p Hp. apply In_nth_error in Hp as [v Hv]. rewrite <- (rs_p _ _ _ _ _ _ G) in Hv. apply (HP v p Hv). }
  destruct (C23_append_edges [(0, 5); (5, 0); (1, 0)]%nat g HP HM HU) as [g' [new [E [A [B [C [D R]]]]]]].
  { rewrite (points_len g _ 2 1 _ _ G). intros e [<-|[<-|[<-|[]]]]; cbn; lia. }
  exists g, g'. repeat (split; [assumption|]). rewrite A. f_equal.
  pose proof (rs_e _ _ _ _ _ _ G) as HE. replace (rg_edges 3 2) with [(0, 1); (1, 2); (3, 4); (4, 5); (0, 3); (1, 4); (2, 5); (0, 4); (1, 5)]%nat in HE by reflexivity.
  rewrite HE in *.
  assert (K1 : In (0, 5)%nat new \/ In (5, 0)%nat new).
  { destruct (D (0, 5)%nat (or_introl eq_refl)) as [e' [I S1]]. rewrite A in I. apply in_app_iff in I as [I|I].
    - exfalso. unfold same_edge in S1. cbn in I. repeat (destruct I as [<-|I]; [cbn in S1; destruct S1; discriminate|]). destruct I.
    - destruct S1 as [-> | S1]; [left; exact I|right]. destruct e' as [x y]. cbn in S1. injection S1 as -> ->. exact I. }
  clear - E G HE A B K1. 
  unfold foldM in E. unfold append_edge at 1, append_edge_raw in E. rewrite HE in E. cbn in E.
  destruct (edge_length (g_points g) (0, 5)%nat) as [l1'|]; [|discriminate]. cbn [bind] in E.
  destruct (match g_mean g with Some _ => _ | None => _ end) as [a|]; [|discriminate]. cbn in E. injection E as <-. cbn in A.
  injection A as <-. reflexivity.
Qed.

(** ** C24 *)
Theorem C24_renumbering_is_equal_partial : forall f g g', separated g -> refers_to_points g' -> renumbering f g g' -> Grid_eqb g g' = Ok true.
Proof. exact renumbering_equal. Qed.
Print Assumptions C24_renumbering_is_equal_partial.
Theorem C24_reflexive : forall so w h f s m n g, 0 < s -> fits w s m -> fits h s n -> domain_grid so w h f s = Ok g -> Grid_eqb g g = Ok true.
Proof.
  intros so w h f s m n g Hs Hm Hn H. pose proof (grid_spec _ _ _ _ _ _ _ _ Hs Hm Hn H) as G.
  apply (renumbering_equal (fun v => v)); [apply (separated_rect g so m n f s Hs G)|apply (refers_rect g so m n f s G)|apply renumbering_refl].
Qed.
Print Assumptions C24_reflexive.
(** The order in which Python enumerates sets does not matter for equality; equality of these grids is symmetric. *)
Theorem C24_set_order_irrelevant : forall so so' w h f f' s m n g g', 0 < s -> fits w s m -> fits h s n ->
  (forall d, fixed_side f d <-> fixed_side f' d) ->
  domain_grid so w h f s = Ok g -> domain_grid so' w h f' s = Ok g' -> Grid_eqb g g' = Ok true /\ Grid_eqb g' g = Ok true.
Proof.
  assert (K : forall so so' w h f f' s m n g g', 0 < s -> fits w s m -> fits h s n ->
    (forall d, fixed_side f d <-> fixed_side f' d) ->
    domain_grid so w h f s = Ok g -> domain_grid so' w h f' s = Ok g' -> Grid_eqb g g' = Ok true).
  { intros so so' w h f f' s m n g g' Hs Hm Hn Hf H H'.
    pose proof (grid_spec _ _ _ _ _ _ _ _ Hs Hm Hn H) as G. pose proof (grid_spec _ _ _ _ _ _ _ _ Hs Hm Hn H') as G'.
    destruct (C19_order_and_repetition _ _ _ _ _ _ _ _ _ _ _ Hs Hm Hn Hf H H') as [E1 [E2 [E3 [E4 [E5 [E6 [P1 [P2 [P3 [P4 P5]]]]]]]]]].
    apply (renumbering_equal (fun v => v)); [apply (separated_rect g so m n f s Hs G)|apply (refers_rect g' so' m n f' s G')|].
    unfold renumbering. rewrite E1, E2, E3, E4. split; [reflexivity|]. split; [reflexivity|]. split; [auto|].
    split; [apply reordering_id; [apply edge_image_id|apply same_edge_refl|reflexivity]|].
    split; [apply reordering_id; [apply triangle_image_id|apply same_triangle_refl|reflexivity]|].
    split; [apply same_boundary_id; [exact P1|rewrite E6; reflexivity]|]. split; apply same_boundary_id; assumption. }
  intros so so' w h f f' s m n g g' Hs Hm Hn Hf H H'. split; [apply (K so so' w h f f' s m n g g'); assumption|].
  apply (K so' so w h f' f s m n g' g Hs Hm Hn); [|assumption|assumption]. intros d. symmetry. apply Hf.
Qed.
Print Assumptions C24_set_order_irrelevant.
(** What equality guarantees: same counts, and a vertex map under which points are closer than the tolerance and every edge,
    triangle and boundary edge of the right grid is one of the left grid. *)
Theorem C24_equal_means_partial : forall g g', planar g -> planar g' -> Grid_eqb g g' = Ok true ->
  exists f, Permutation (g_vertices g) (g_vertices g') /\ length (g_points g) = length (g_points g') /\
    (forall v q, point_at g' v q -> exists p, point_at g (f v) p /\ dist q p < tolerance g) /\
    length (g_edges g) = length (g_edges g') /\
    (forall e, In e (g_edges g') -> exists e', In e' (g_edges g) /\ same_edge (edge_image f e) e') /\
    length (g_triangles g) = length (g_triangles g') /\
    (forall t, In t (g_triangles g') -> exists t', In t' (g_triangles g) /\ same_triangle (triangle_image f t) t') /\
    boundary_within f (g_boundary g) (g_boundary g') /\ boundary_within f (g_dirichlet g) (g_dirichlet g') /\
    boundary_within f (g_neumann g) (g_neumann g').
Proof. exact equal_sound. Qed.
Print Assumptions C24_equal_means_partial.
(** Symmetry fails, at every scale: the tolerance is the left grid's. *)
Theorem C24_symmetric_refuted : forall so s, 0 < s ->
  let s' := s * (1 + 1 / 10000000) in
  exists g g', domain_grid so s 0 FixNone s = Ok g /\ domain_grid so s' 0 FixNone s' = Ok g' /\
    Grid_eqb g g' = Ok false /\ Grid_eqb g' g = Ok true.
Proof.
  intros so s Hs s'. assert (Hs' : 0 < s') by (unfold s'; lra).
  destruct (two_point_grid so s Hs) as [g [Hg [Mg Pg]]]. destruct (two_point_grid so s' Hs') as [g' [Hg' [Mg' Pg']]].
  exists g, g'. split; [exact Hg|]. split; [exact Hg'|].
  assert (F : fits s s 1) by (unfold fits; simpl; lra). assert (F0 : fits 0 s 0) by (unfold fits; simpl; lra).
  assert (F' : fits s' s' 1) by (unfold fits; simpl; lra). assert (F0' : fits 0 s' 0) by (unfold fits; simpl; lra).
  pose proof (grid_spec _ _ _ _ _ _ _ _ Hs F F0 Hg) as G. pose proof (grid_spec _ _ _ _ _ _ _ _ Hs' F' F0' Hg') as G'.
  assert (D1 : forall a, 0 <= a -> dist (a, 0) (0, 0) = a).
  { intros a Ha. unfold dist. cbn [fst snd]. replace (_ + _) with (a * a) by ring. apply sqrt_square, Ha. }
  assert (D2 : dist (s', 0) (s, 0) = s / 10000000).
  { unfold dist. cbn [fst snd]. replace (_ + _) with ((s / 10000000) * (s / 10000000)) by (unfold s'; field). apply sqrt_square. lra. }
  assert (PL : planar g) by (apply (planar_rect g so 1 0 _ s G)). assert (PL' : planar g') by (apply (planar_rect g' so 1 0 _ s' G')).
  assert (T : tolerance g = s / 10000000) by (unfold tolerance; rewrite Mg; reflexivity).
  assert (T' : tolerance g' = s' / 10000000) by (unfold tolerance; rewrite Mg'; reflexivity).
  split.
  - unfold Grid_eqb. rewrite (rs_v _ _ _ _ _ _ G), (rs_v _ _ _ _ _ _ G'). rewrite (proj2 (sorted_eq_iff _ _) (Permutation_refl _)). cbn [negb].
    rewrite (points_len g _ _ _ _ _ G), (points_len g' _ _ _ _ _ G'), Nat.eqb_refl. cbn [negb].
    assert (E : vertex_map g 0 (g_points g') = Ok None); [|rewrite E; reflexivity].
    rewrite Pg'. cbn [vertex_map].
    assert (E0 : point_to_vertex g (vec (0, 0)) = Ok (Some 0%nat)) by (apply find_self; [apply (separated_rect g so 1 0 _ s Hs G)|rewrite Pg; reflexivity]).
    assert (E1 : point_to_vertex g (vec (s', 0)) = Ok None).
    { destruct (C22_first_close_vertex g (s', 0) PL) as [[v [p [_ [Hv [Hd _]]]]]|[E _]]; [|exact E]. exfalso. rewrite T in Hd.
      unfold point_at in Hv. rewrite Pg in Hv. destruct v as [|[|v]]; [| |destruct v; discriminate Hv].
      - cbn [nth_error] in Hv. apply (f_equal (option_map (fun l => l))) in Hv. injection Hv as E1 E2. destruct p as [a b]. cbn [fst snd] in *. subst a b.
        rewrite D1 in Hd by lra. unfold s' in Hd. lra.
      - cbn [nth_error] in Hv. injection Hv as E1 E2. destruct p as [a b]. cbn [fst snd] in *. subst a b. rewrite D2 in Hd. lra. }
    rewrite E0. cbn [bind]. rewrite E1. reflexivity.
  - apply (equal_by_map (fun v => v)).
    + apply (refers_rect g so 1 0 _ s G).
    + rewrite (rs_v _ _ _ _ _ _ G), (rs_v _ _ _ _ _ _ G'). reflexivity.
    + rewrite (points_len g _ _ _ _ _ G), (points_len g' _ _ _ _ _ G'). reflexivity.
    + intros v p Hv. rewrite Pg in Hv.
      assert (exists q, p = vec q /\ (v = 0%nat /\ q = (0, 0) \/ v = 1%nat /\ q = (s, 0))) as [q [-> Hq]].
      { destruct v as [|[|v]]; [| |destruct v; discriminate Hv]; cbn [nth_error] in Hv; injection Hv as <-; eexists; eauto. }
      destruct (C22_first_close_vertex g' q PL') as [[w [p [E [Hw [Hd Hmin]]]]]|[_ N]].
      * rewrite E. do 2 f_equal. unfold point_at in Hw. rewrite Pg' in Hw. rewrite T' in Hd.
        destruct w as [|[|w]]; [| |destruct w; discriminate Hw]; cbn [nth_error] in Hw; injection Hw as E1 E2; destruct p as [a b]; cbn [fst snd] in *; subst a b;
          destruct Hq as [[-> ->]|[-> ->]]; try reflexivity; exfalso.
        -- rewrite D1 in Hd by lra. unfold s' in Hd. lra.
        -- rewrite dist_sym, D1 in Hd by lra. lra.
      * exfalso. destruct Hq as [[-> ->]|[-> ->]].
        -- assert (HH : point_at g' 0%nat (0, 0)) by (unfold point_at; rewrite Pg'; reflexivity). apply N in HH. rewrite dist_refl, T' in HH. lra.
        -- assert (HH : point_at g' 1%nat (s', 0)) by (unfold point_at; rewrite Pg'; reflexivity). apply N in HH. rewrite dist_sym, D2, T' in HH. unfold s' in HH. lra.
    + rewrite (rs_e _ _ _ _ _ _ G), (rs_e _ _ _ _ _ _ G'). apply reordering_id; [apply edge_image_id|apply same_edge_refl|reflexivity].
    + rewrite (rs_t _ _ _ _ _ _ G), (rs_t _ _ _ _ _ _ G'). apply reordering_id; [apply triangle_image_id|apply same_triangle_refl|reflexivity].
    + apply same_boundary_id; [rewrite (rs_bv _ _ _ _ _ _ G), (rs_bv _ _ _ _ _ _ G')|rewrite (rs_be _ _ _ _ _ _ G), (rs_be _ _ _ _ _ _ G')]; reflexivity.
    + rewrite (rs_d _ _ _ _ _ _ G), (rs_d _ _ _ _ _ _ G'). apply same_boundary_id; reflexivity.
    + rewrite (rs_n _ _ _ _ _ _ G), (rs_n _ _ _ _ _ _ G'). apply same_boundary_id; reflexivity.
Qed.
Print Assumptions C24_symmetric_refuted.
Example C24_example : exists g, domain_grid std_order (12/10) (9/10) FixNone (1/2) = Ok g /\ separated g /\ refers_to_points g /\ planar g.
Proof.
  destruct (C11_grid_succeeds std_order (12/10) (9/10) FixNone (1/2)) as [m [n [g [_ [_ Hg]]]]]; try lra.
  pose proof (grid_spec _ _ _ _ _ _ _ _ ex_pos ex_fits_w ex_fits_h Hg) as G. exists g. split; [exact Hg|].
  split; [apply (separated_rect g _ 2 1 _ _ ex_pos G)|]. split; [apply (refers_rect g _ 2 1 _ _ G)|apply (planar_rect g _ 2 1 _ _ G)].
Qed.

(** ** C25 *)
Theorem C25_triangle_vertices : forall (g : grid R) a b c pa pb pc, In (a, b, c) (g_triangles g) ->
  nth_error (g_points g) a = Some pa -> nth_error (g_points g) b = Some pb -> nth_error (g_points g) c = Some pc ->
  triangle_vertices g (a, b, c) = Ok (pa, pb, pc).
Proof.
  intros g a b c pa pb pc Hin Ha Hb Hc. assert (E : py_in triangle_eqb (a, b, c) (g_triangles g) = true) by (apply py_in_triple; exact Hin).
  unfold triangle_vertices. rewrite E.
  unfold points_of, py_nth. rewrite Ha, Hb, Hc. reflexivity.
Qed.
Print Assumptions C25_triangle_vertices.
Theorem C25_triangle_unknown : forall (g : grid R) t, ~ In t (g_triangles g) -> triangle_vertices g t = Err ValueError.
Proof.
  intros g t H. unfold triangle_vertices. destruct (py_in triangle_eqb t (g_triangles g)) eqn:E; [|reflexivity].
  apply py_in_triple in E. contradiction.
Qed.
Print Assumptions C25_triangle_unknown.
Theorem C25_edge_vertices : forall (g : grid R) a b pa pb, In (a, b) (g_edges g) ->
  nth_error (g_points g) a = Some pa -> nth_error (g_points g) b = Some pb -> edge_vertices g (a, b) = Ok (pa, pb).
Proof.
  intros g a b pa pb Hin Ha Hb. assert (E : py_in edge_eqb (a, b) (g_edges g) = true) by (apply py_in_pair; exact Hin).
  unfold edge_vertices. rewrite E.
  unfold py_nth. cbn [fst snd]. rewrite Ha, Hb. reflexivity.
Qed.
Print Assumptions C25_edge_vertices.
Theorem C25_edge_unknown : forall (g : grid R) e, ~ In e (g_edges g) -> edge_vertices g e = Err ValueError.
Proof.
  intros g e H. unfold edge_vertices. destruct (py_in edge_eqb e (g_edges g)) eqn:E; [|reflexivity].
  apply py_in_pair in E. contradiction.
Qed.
Print Assumptions C25_edge_unknown.
(** In particular on rectangle grids a stored edge given backwards is refused. *)
Theorem C25_edge_reversed : forall so w h f s m n g a b, 0 < s -> fits w s m -> fits h s n -> domain_grid so w h f s = Ok g ->
  In (a, b) (g_edges g) -> edge_vertices g (b, a) = Err ValueError.
Proof.
  intros so w h f s m n g a b Hs Hm Hn H Hin. apply C25_edge_unknown. intros Hrev.
  destruct (C12_edges_valid _ _ _ _ _ _ _ _ _ _ Hs Hm Hn H Hin) as [_ [_ Hne]].
  apply In_nth_error in Hin as [k Hk]. apply In_nth_error in Hrev as [l Hl].
  pose proof (C12_edges_unique _ _ _ _ _ _ _ _ _ _ _ _ Hs Hm Hn H Hk Hl (or_intror eq_refl)) as E. rewrite E in Hk.
  pose proof (eq_trans (eq_sym Hk) Hl) as X. injection X as X1 _. exact (Hne X1).
Qed.
Print Assumptions C25_edge_reversed.
Example C25_example : exists g, domain_grid std_order (12/10) (9/10) FixNone (1/2) = Ok g /\ In (1, 5)%nat (g_edges g) /\ In (0, 1, 4)%nat (g_triangles g).
Proof.
  destruct (C11_grid_succeeds std_order (12/10) (9/10) FixNone (1/2)) as [m [n [g [_ [_ Hg]]]]]; try lra.
  pose proof (grid_spec _ _ _ _ _ _ _ _ ex_pos ex_fits_w ex_fits_h Hg) as G. exists g. split; [exact Hg|].
  rewrite (rs_e _ _ _ _ _ _ G), (rs_t _ _ _ _ _ _ G). split; vm_compute; tauto.
Qed.

(** ** C26 *)
(** Point [i] of horizontal curve [j] and of vertical curve [j], with [n] points per curve and [h], [v] inner curves. *)
Theorem C26_curves : forall w ht n h v, (2 <= n)%nat ->
  exists hs vs, curves w ht (Z.of_nat n) (Z.of_nat h) (Some (Z.of_nat v)) = Ok (hs ++ vs) /\
    length hs = (h + 2)%nat /\ length vs = (v + 2)%nat /\
    (forall c, In c (hs ++ vs) -> length c = n) /\
    (forall j i c p, nth_error hs j = Some c -> nth_error c i = Some p -> p = vec (INR i * w / INR (n - 1), INR j * ht / INR (h + 1))) /\
    (forall j i c p, nth_error vs j = Some c -> nth_error c i = Some p -> p = vec (INR j * w / INR (v + 1), INR i * ht / INR (n - 1))).
Proof.
  intros w ht n h v Hn. unfold curves, curve_point. rewrite !Nat2Z.id.
  replace (Z.to_nat (Z.of_nat h + 2)) with (h + 2)%nat by lia. replace (Z.to_nat (Z.of_nat v + 2)) with (v + 2)%nat by lia.
  replace (Z.of_nat n - 1)%Z with (Z.of_nat (n - 1)) by lia. replace (Z.of_nat h + 2 - 1)%Z with (Z.of_nat (h + 1)) by lia.
  replace (Z.of_nat v + 2 - 1)%Z with (Z.of_nat (v + 1)) by lia.
  assert (N1 : IZR (Z.of_nat (n - 1)) <> 0) by (apply IZR_neq; lia).
  assert (N2 : IZR (Z.of_nat (h + 1)) <> 0) by (apply IZR_neq; lia).
  assert (N3 : IZR (Z.of_nat (v + 1)) <> 0) by (apply IZR_neq; lia).
  set (HP := fun j i : Z => vec (IZR i * w / IZR (Z.of_nat (n - 1)), IZR j * ht / IZR (Z.of_nat (h + 1)))).
  set (VP := fun j i : Z => vec (IZR j * w / IZR (Z.of_nat (v + 1)), IZR i * ht / IZR (Z.of_nat (n - 1)))).
  exists (map (fun j => map (HP j) (map Z.of_nat (range n))) (map Z.of_nat (range (h + 2)))),
         (map (fun j => map (VP j) (map Z.of_nat (range n))) (map Z.of_nat (range (v + 2)))).
  split.
  { erewrite mapM_map; cycle 1.
    { intros j _. apply mapM_map. intros i _. cbn [nofZ RNum nmul]. rewrite !ndiv_R by assumption. cbn [bind]. reflexivity. }
    cbn [bind]. erewrite mapM_map; cycle 1.
    { intros j _. apply mapM_map. intros i _. cbn [nofZ RNum nmul]. rewrite !ndiv_R by assumption. cbn [bind]. reflexivity. }
    cbn [bind]. reflexivity. }
  rewrite !map_length, !range_length. split; [reflexivity|]. split; [reflexivity|].
  assert (K : forall {A} (F : Z -> A) k l a, nth_error (map F (map Z.of_nat (range k))) l = Some a -> a = F (Z.of_nat l)).
  { intros A F k l a E. rewrite map_map in E. assert (L : (l < k)%nat).
    { rewrite <- (range_length k), <- (map_length (fun x => F (Z.of_nat x))). apply nth_error_Some. rewrite E. discriminate. }
    rewrite nth_error_map in E. unfold range in E. rewrite nth_error_nth' with (d := O) in E by (rewrite seq_length; exact L).
    rewrite seq_nth in E by exact L. cbn in E. injection E as <-. reflexivity. }
  split; [|split].
  - intros c Hc. apply in_app_iff in Hc as [Hc|Hc]; apply in_map_iff in Hc as [j [<- _]]; rewrite !map_length, range_length; reflexivity.
  - intros j i c p Hj Hi. apply K in Hj as ->. apply K in Hi as ->. unfold HP. rewrite !INR_IZR_INZ. reflexivity.
  - intros j i c p Hj Hi. apply K in Hj as ->. apply K in Hi as ->. unfold VP. rewrite !INR_IZR_INZ. reflexivity.
Qed.
Print Assumptions C26_curves.
(** Everything lies in the rectangle. *)
Theorem C26_inside : forall w ht n h v cs c p, 0 <= w -> 0 <= ht -> (2 <= n)%nat ->
  curves w ht (Z.of_nat n) (Z.of_nat h) (Some (Z.of_nat v)) = Ok cs -> In c cs -> In p c ->
  exists x y, p = vec (x, y) /\ 0 <= x <= w /\ 0 <= y <= ht.
Proof.
  intros w ht n h v cs c p Hw Hh Hn E Hc Hp.
  destruct (C26_curves w ht n h v Hn) as [hs [vs [E' [Lh [Lv [LL [PH PV]]]]]]]. rewrite E in E'. injection E' as ->.
  assert (F : forall a k d, 0 <= a -> (k <= d)%nat -> (0 < d)%nat -> 0 <= INR k * a / INR d <= a).
  { intros a k d Ha Hk Hd. apply le_INR in Hk. apply lt_INR in Hd. simpl in Hd. pose proof (pos_INR k).
    assert (0 <= / INR d) by (apply Rlt_le, Rinv_0_lt_compat; exact Hd).
    split; [unfold Rdiv; repeat apply Rmult_le_pos; assumption|]. apply Rmult_le_reg_r with (INR d); [exact Hd|].
    unfold Rdiv. rewrite Rmult_assoc, Rinv_l by lra. nra. }
  pose proof (LL c Hc) as Ln. apply In_nth_error in Hp as [i Hi].
  assert (Li : (i < n)%nat) by (rewrite <- Ln; apply nth_error_Some; rewrite Hi; discriminate).
  apply in_app_iff in Hc as [Hc|Hc]; apply In_nth_error in Hc as [j Hj].
  - assert (Lj : (j < h + 2)%nat) by (rewrite <- Lh; apply nth_error_Some; rewrite Hj; discriminate).
    rewrite (PH _ _ _ _ Hj Hi). do 2 eexists. split; [reflexivity|]. split; apply F; auto; lia.
  - assert (Lj : (j < v + 2)%nat) by (rewrite <- Lv; apply nth_error_Some; rewrite Hj; discriminate).
    rewrite (PV _ _ _ _ Hj Hi). do 2 eexists. split; [reflexivity|]. split; apply F; auto; lia.
Qed.
Print Assumptions C26_inside.
(** First and last curve of each family run along the outline, from corner to corner, in equal steps. *)
Theorem C26_outline : forall w ht n h v hs vs, (2 <= n)%nat -> length hs = (h + 2)%nat ->
  curves w ht (Z.of_nat n) (Z.of_nat h) (Some (Z.of_nat v)) = Ok (hs ++ vs) ->
  exists bottom top left right,
    nth_error hs 0 = Some bottom /\ nth_error hs (h + 1) = Some top /\ nth_error vs 0 = Some left /\ nth_error vs (v + 1) = Some right /\
    forall i, (i < n)%nat -> let u := INR i / INR (n - 1) in
      nth_error bottom i = Some (vec (u * w, 0)) /\ nth_error top i = Some (vec (u * w, ht)) /\
      nth_error left i = Some (vec (0, u * ht)) /\ nth_error right i = Some (vec (w, u * ht)).
Proof.
  intros w ht n h v hs vs Hn Lh0 E.
  destruct (C26_curves w ht n h v Hn) as [hs' [vs' [E' [Lh [Lv [LL [PH PV]]]]]]]. rewrite E in E'. injection E' as E'.
  assert (hs' = hs /\ vs' = vs) as [-> ->].
  { assert (firstn (length hs) (hs ++ vs) = firstn (length hs') (hs' ++ vs')) by congruence. assert (skipn (length hs) (hs ++ vs) = skipn (length hs') (hs' ++ vs')) by congruence.
    rewrite !firstn_app, !skipn_app, !Nat.sub_diag, !firstn_all, !skipn_all in *. cbn in *. rewrite !app_nil_r in *. auto. }
  assert (G : forall {A} (l : list A) k, (k < length l)%nat -> exists a, nth_error l k = Some a).
  { intros A l k Hk. destruct (nth_error l k) eqn:Q; [eauto|]. apply nth_error_None in Q. lia. }
  destruct (G _ hs 0%nat) as [b Hb]; [lia|]. destruct (G _ hs (h + 1)%nat) as [t Ht]; [lia|].
  destruct (G _ vs 0%nat) as [l Hl]; [lia|]. destruct (G _ vs (v + 1)%nat) as [r Hr]; [lia|].
  exists b, t, l, r. repeat (split; [assumption|]). intros i Hi u.
  assert (Lb : length b = n) by (apply LL, in_or_app; left; apply (nth_error_In _ _ Hb)).
  assert (Lt : length t = n) by (apply LL, in_or_app; left; apply (nth_error_In _ _ Ht)).
  assert (Ll : length l = n) by (apply LL, in_or_app; right; apply (nth_error_In _ _ Hl)).
  assert (Lr : length r = n) by (apply LL, in_or_app; right; apply (nth_error_In _ _ Hr)).
  assert (N1 : INR (n - 1) <> 0) by (apply not_0_INR; lia). assert (N2 : INR (h + 1) <> 0) by (apply not_0_INR; lia). assert (N3 : INR (v + 1) <> 0) by (apply not_0_INR; lia).
  destruct (G _ b i) as [pb Hpb]; [lia|]. destruct (G _ t i) as [pt Hpt]; [lia|]. destruct (G _ l i) as [pl Hpl]; [lia|]. destruct (G _ r i) as [pr Hpr]; [lia|].
  rewrite Hpb, Hpt, Hpl, Hpr, (PH _ _ _ _ Hb Hpb), (PH _ _ _ _ Ht Hpt), (PV _ _ _ _ Hl Hpl), (PV _ _ _ _ Hr Hpr). unfold u. cbn [INR].
  repeat split; do 2 f_equal; f_equal; field; assumption.
Qed.
Print Assumptions C26_outline.
(** The default: as many vertical as horizontal curves. One point per curve: ZeroDivisionError. *)
Theorem C26_single_point_raises : forall w ht h v, (0 <= h)%Z -> curves w ht 1 h v = Err ZeroDivisionError.
Proof.
  intros w ht h v Hh. unfold curves, curve_point. destruct (Z.to_nat (h + 2)) as [|k] eqn:E; [lia|].
  unfold range at 2. cbn [seq map mapM]. change (Z.to_nat 1) with 1%nat. unfold range at 1. cbn [seq map mapM Z.sub Z.opp Z.add Z.pos_sub nofZ RNum].
  change (IZR (1 - 1)) with 0. rewrite ndiv_R0. reflexivity.
Qed.
Print Assumptions C26_single_point_raises.
Theorem C26_default_counts : forall (w ht : R) n h, curves w ht n h None = curves w ht n h (Some h).
Proof. reflexivity. Qed.
Print Assumptions C26_default_counts.
Example C26_example : exists cs, curves 2 1 5 1 (Some 0%Z) = Ok cs /\ length cs = 5%nat.
Proof.
  destruct (C26_curves 2 1 5 1 0 ltac:(lia)) as [hs [vs [E [Lh [Lv _]]]]]. exists (hs ++ vs). split; [exact E|]. rewrite app_length, Lh, Lv. reflexivity.
Qed.
