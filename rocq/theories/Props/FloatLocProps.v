(** * C106, C107: locating a point with binary64 floats. *)
From Coq Require Import ZArith Reals Floats Lra Lia List.
From Verif.Model Require Import Py Num NumFloat Tensors Domain Refine.
From Verif.Spec Require Import FloatSpec FloatGridSpec GridSpec RefineSpec FloatLocSpec.
From Verif.Proofs Require Import FloatR FloatN FloatE FloatTop StdOrder FloatLocM.
From Verif.Props Require Import RefineProps FloatProps.
Import ListNotations.
Local Open Scope R_scope.

(** C106: a grid of floats that approximates a triangulated rectangle: every point of the rectangle is found, and whatever is found (also for points outside) is
    a triangle of the grid with accurate weights. *)
Theorem C106_meshes (gF : grid float) (gR : grid R) (s : R) (m n : nat) (K := INR (Nat.max m n)) : (1 <= m)%nat -> (1 <= n)%nat -> mesh gR s m n ->
  g_triangles gF = g_triangles gR -> close_points (40 * (ulp1 * (K * s))) (g_points gF) (g_points gR) -> K <= 2 ^ 19 -> / 10 ^ 4 <= s -> s * (K * s) <= 3000 ->
  forall x y, is_num x -> is_num y -> - (K * s) <= real_of x <= 2 * (K * s) -> - (K * s) <= real_of y <= 2 * (K * s) ->
  (exists o, to_barycentric_point gF [x; y] = Ok o) /\
  (0 <= real_of x <= INR m * s -> 0 <= real_of y <= INR n * s -> exists t b, to_barycentric_point gF [x; y] = Ok (Some (t, b))) /\
  (forall t b, to_barycentric_point gF [x; y] = Ok (Some (t, b)) -> In t (g_triangles gF) /\ located gR s K (real_of x, real_of y) t b).
Proof.
  intros Hm Hn M ST CP HK S0 SX x y Nx Ny Rx Ry. destruct (float_located gR s m n M Hm Hn gF ST CP HK S0 SX x y Nx Ny Rx Ry) as [(t & b & E & G)|[E N]].
  - split; [eauto|]. split; [eauto|]. intros t' b' E'. rewrite E in E'. injection E' as <- <-. split; [|exact G]. destruct G as (p & q & r & beta & T & _). rewrite ST. destruct t as [[? ?] ?]. apply T.
  - split; [eauto|]. split; [intros H1 H2; exfalso; apply N; split; assumption|]. intros t b E'. rewrite E in E'. discriminate.
Qed.
Print Assumptions C106_meshes.

Lemma fits_self s m : 0 < s -> fits (INR m * s) s m.
Proof. intros H. unfold fits. rewrite plus_INR. cbn [INR]. split; [lra|]. apply Rmult_lt_compat_r; lra. Qed.
Lemma fit_size w s m : 0 < s -> almost_fits w s m -> s * w <= 2900 -> s * (INR m * s) <= 3000.
Proof. intros H [A _] B. pose proof ulp1_small as U. pose proof ulp1_pos. assert (ulp1 * (s * w) <= / 10 ^ 15 * 2900). { destruct (Rle_dec 0 (s * w)); [apply Rmult_le_compat; lra|]. assert (0 <= ulp1 * - (s * w)) by (apply Rmult_le_pos; lra). lra. } assert (s * (INR m * s) <= s * ((1 + ulp1) * w)) by (apply Rmult_le_compat_l; lra). lra. Qed.
Lemma max_cases (P : nat -> Prop) m n : P m -> P n -> P (Nat.max m n).
Proof. intros. destruct (Nat.max_dec m n) as [-> | ->]; assumption. Qed.
Lemma max_size w h s m n : 0 < s -> almost_fits w s m -> almost_fits h s n -> s * w <= 2900 -> s * h <= 2900 -> s * (INR (Nat.max m n) * s) <= 3000.
Proof. intros. apply (max_cases (fun k => s * (INR k * s) <= 3000)); eapply fit_size; eassumption. Qed.
Lemma inv14 : 0 < / 10 ^ 4. Proof. apply Rinv_0_lt_compat, pow_lt. lra. Qed.
Lemma count_le w s m : 0 < s -> almost_fits w s m -> w <= 500000 * s -> INR m <= 2 ^ 19.
Proof.
  intros Hs [A _] B. pose proof ulp1_small as U. pose proof ulp1_pos. apply Rmult_le_reg_r with s; [exact Hs|]. apply (Rle_trans _ _ _ A). apply Rle_trans with ((1 + ulp1) * (500000 * s)); [apply Rmult_le_compat_l; lra|].
  replace ((1 + ulp1) * (500000 * s)) with ((500000 + 500000 * ulp1) * s) by ring. apply Rmult_le_compat_r; lra.
Qed.
Lemma Forall2_weaken {A B} (P Q : A -> B -> Prop) l l' : (forall a b, In b l' -> P a b -> Q a b) -> Forall2 P l l' -> Forall2 Q l l'.
Proof. intros H F. induction F; constructor; [apply H; [left; reflexivity|assumption]|]. apply IHF. intros a b Hb. apply H. right. exact Hb. Qed.
(** ... in particular in the grid of a rectangle ... *)
Theorem C106_domain_grid (w h s : float) : moderate w h s 1 -> / 10 ^ 4 <= real_of s -> real_of s * real_of w <= 2900 -> real_of s * real_of h <= 2900 ->
  exists m n, almost_fits (real_of w) (real_of s) m /\ almost_fits (real_of h) (real_of s) n /\
  forall so f, exists gF gR, @domain_grid float FNum so w h f s = Ok gF /\ @domain_grid R RNum so (INR m * real_of s) (INR n * real_of s) f (real_of s) = Ok gR /\
  forall x y, is_num x -> is_num y -> 0 <= real_of x <= INR m * real_of s -> 0 <= real_of y <= INR n * real_of s ->
  exists t b, to_barycentric_point gF [x; y] = Ok (Some (t, b)) /\ In t (g_triangles gF) /\ located gR (real_of s) (INR (Nat.max m n)) (real_of x, real_of y) t b.
Proof.
  intros Mo S0 Sw Sh. destruct (C99_float_grid w h s Mo) as (m & n & Fm & Fn & HG). exists m, n. split; [exact Fm|]. split; [exact Fn|]. intros so f. destruct (HG so f) as (gF & gR & EF & ER & SI & RP & _).
  exists gF, gR. split; [exact EF|]. split; [exact ER|]. destruct Mo as (_ & _ & Ns & _ & _ & _ & Ww & Wh & Uw & Uh). cbn [INR] in Uw, Uh. rewrite Rmult_1_l in Uw, Uh. pose proof inv14 as I4. assert (SP : 0 < real_of s) by lra.
  assert (P1 : forall k e, real_of s <= e -> almost_fits e (real_of s) k -> (1 <= k)%nat).
  { intros k e H1 [_ H2]. destruct k; [|lia]. cbn in H2. lra. }
  assert (Hm := P1 _ _ Ww Fm). assert (Hn := P1 _ _ Wh Fn). destruct (C27_rectangle_grid_is_mesh _ _ _ _ _ _ _ _ SP (fits_self _ m SP) (fits_self _ n SP) ER Hm Hn) as [M _].
  set (K := INR (Nat.max m n)). assert (HK : K <= 2 ^ 19) by (apply (max_cases (fun k => INR k <= 2 ^ 19)); eapply count_le; eassumption).
  assert (SX := max_size _ _ _ _ _ SP Fm Fn Sw Sh). fold K in SX. assert (MK : INR m <= K /\ INR n <= K) by (split; apply le_INR; lia).
  assert (K1 : 1 <= K) by (change 1 with (INR 1); apply le_INR; lia). assert (mS : INR m * real_of s <= K * real_of s) by (apply Rmult_le_compat_r; lra). assert (nS : INR n * real_of s <= K * real_of s) by (apply Rmult_le_compat_r; lra).
  assert (CP : close_points (40 * (ulp1 * (K * real_of s))) (g_points gF) (g_points gR)).
  { unfold rounded_points in RP. unfold close_points. eapply Forall2_weaken; [|exact RP]. intros P p Hp HPp. apply In_nth_error in Hp as [v Hv]. cbv beta in HPp. eapply Forall2_weaken; [|exact HPp]. intros a c Hc [Na Hac]. split; [exact Na|]. apply (Rle_trans _ _ _ Hac).
    assert (V : In v (g_vertices gR)) by (rewrite (mesh_numbers _ _ _ _ M); apply in_seq; split; [lia|]; apply nth_error_Some; intros Z; pose proof (eq_trans (eq_sym Hv) Z); discriminate).
    destruct (mesh_inside _ _ _ _ M v V) as (i & j & Hi & Hj & VA). unfold vertex_at, point_at in VA. destruct VA as [_ VA]. apply (eq_trans (eq_sym Hv)) in VA. apply (f_equal (fun o => match o with Some l => l | None => [] end)) in VA. cbn [fst snd] in VA. rewrite VA in Hc.
    assert (C0 : 0 <= c <= K * real_of s).
    { apply le_INR in Hi, Hj. pose proof (pos_INR i). pose proof (pos_INR j). assert (INR i * real_of s <= K * real_of s) by (apply Rmult_le_compat_r; lra). assert (INR j * real_of s <= K * real_of s) by (apply Rmult_le_compat_r; lra).
      destruct Hc as [<-|[<-|[]]]; (split; [apply Rmult_le_pos; lra|assumption]). }
    pose proof ulp1_pos as UP. rewrite Rabs_pos_eq by lra. assert (ulp1 * c <= ulp1 * (K * real_of s)) by (apply Rmult_le_compat_l; lra). assert (0 <= ulp1 * (K * real_of s)) by (apply Rmult_le_pos; lra). lra. }
  intros x y Nx Ny Hx Hy. destruct SI as (_ & _ & ST & _). assert (KS : 0 <= K * real_of s) by (apply Rmult_le_pos; lra).
  destruct (C106_meshes gF gR (real_of s) m n Hm Hn M ST CP HK S0 SX x y Nx Ny) as (_ & F & A); try (fold K; lra). destruct (F Hx Hy) as (t & b & E). destruct (A t b E) as [I L]. exists t, b. auto.
Qed.
Print Assumptions C106_domain_grid.
(** ... and in its refinements. *)
Theorem C106_refined_grid (w h s : float) (N : nat) : moderate w h s N -> / 10 ^ 4 <= real_of s / INR N -> real_of s * real_of w <= 2900 -> real_of s * real_of h <= 2900 ->
  exists m n, almost_fits (real_of w) (real_of s) m /\ almost_fits (real_of h) (real_of s) n /\
  forall so f, exists gF rF gR rR, @domain_grid float FNum so w h f s = Ok gF /\ @refine float FNum gF (Z.of_nat N) = Ok rF /\
    @domain_grid R RNum so (INR m * real_of s) (INR n * real_of s) f (real_of s) = Ok gR /\ @refine R RNum gR (Z.of_nat N) = Ok rR /\
  forall x y, is_num x -> is_num y -> 0 <= real_of x <= INR m * real_of s -> 0 <= real_of y <= INR n * real_of s ->
  exists t b, to_barycentric_point (r_grid rF) [x; y] = Ok (Some (t, b)) /\ In t (g_triangles (r_grid rF)) /\
    located (r_grid rR) (real_of s / INR N) (INR (N * Nat.max m n)) (real_of x, real_of y) t b.
Proof.
  intros Mo S0 Sw Sh. destruct (C100_float_refine w h s N Mo) as (m & n & Fm & Fn & HG). exists m, n. split; [exact Fm|]. split; [exact Fn|]. intros so f.
  destruct (HG so f) as (gF & gR & rF & rR & EF & ER & EF' & ER' & SI & _ & _ & _ & CP & _). exists gF, rF, gR, rR. split; [exact EF|]. split; [exact EF'|]. split; [exact ER|]. split; [exact ER'|].
  destruct Mo as (_ & _ & Ns & HN & Lo & _ & Ww & Wh & Uw & Uh). pose proof inv14 as I4. assert (N1 : 1 <= INR N) by (change 1 with (INR 1); apply le_INR; lia).
  assert (SP : 0 < real_of s). { destruct (Rle_or_lt (real_of s) 0) as [Q|Q]; [|exact Q]. exfalso. assert (0 <= - real_of s * / INR N) by (apply Rmult_le_pos; [lra|apply Rlt_le, Rinv_0_lt_compat; lra]). unfold Rdiv in S0. lra. }
  assert (P1 : forall k e, real_of s <= e -> almost_fits e (real_of s) k -> (1 <= k)%nat).
  { intros k e H1 [_ H2]. destruct k; [|lia]. cbn in H2. lra. }
  assert (Hm := P1 _ _ Ww Fm). assert (Hn := P1 _ _ Wh Fn). destruct (C27_rectangle_grid_is_mesh _ _ _ _ _ _ _ _ SP (fits_self _ m SP) (fits_self _ n SP) ER Hm Hn) as [M _].
  destruct (C27_refinement_is_fine_mesh gR (real_of s) m n N SP Hm Hn HN ltac:(lra) M) as (r & Er & _ & MR & _). rewrite ER' in Er. injection Er as <-.
  set (sN := real_of s / INR N) in *. assert (sNP : 0 < sN) by lra. assert (SN : INR N * sN = real_of s) by (unfold sN; field; lra).
  assert (EM : Nat.max (m * N) (n * N) = (N * Nat.max m n)%nat) by (rewrite Nat.mul_max_distr_r; lia).
  set (K := INR (N * Nat.max m n)). assert (KE : K = INR N * INR (Nat.max m n)) by apply mult_INR. assert (KS : K * sN = INR (Nat.max m n) * real_of s) by (rewrite KE, <- SN; ring).
  assert (K1 : 1 <= K) by (change 1 with (INR 1); apply le_INR; nia).
  assert (HK : K <= 2 ^ 19).
  { rewrite KE. apply (max_cases (fun k => INR N * INR k <= 2 ^ 19)).
    - apply Rmult_le_reg_r with (real_of s); [exact SP|]. destruct Fm as [A _]. pose proof ulp1_small as U. pose proof ulp1_pos. rewrite Rmult_assoc. assert (INR N * (INR m * real_of s) <= INR N * ((1 + ulp1) * real_of w)) by (apply Rmult_le_compat_l; lra). assert ((1 + ulp1) * (INR N * real_of w) <= (1 + / 10 ^ 15) * (500000 * real_of s)) by (apply Rmult_le_compat; try lra; apply Rmult_le_pos; lra). lra.
    - apply Rmult_le_reg_r with (real_of s); [exact SP|]. destruct Fn as [A _]. pose proof ulp1_small as U. pose proof ulp1_pos. rewrite Rmult_assoc. assert (INR N * (INR n * real_of s) <= INR N * ((1 + ulp1) * real_of h)) by (apply Rmult_le_compat_l; lra). assert ((1 + ulp1) * (INR N * real_of h) <= (1 + / 10 ^ 15) * (500000 * real_of s)) by (apply Rmult_le_compat; try lra; apply Rmult_le_pos; lra). lra. }
  assert (SX : sN * (K * sN) <= 3000).
  { rewrite KS. pose proof (max_size _ _ _ _ _ SP Fm Fn Sw Sh) as Q. apply (Rle_trans _ _ _) with (2 := Q). apply Rmult_le_compat_r; [apply Rmult_le_pos; [apply pos_INR|lra]|]. rewrite <- SN. rewrite <- (Rmult_1_l sN) at 1. apply Rmult_le_compat_r; lra. }
  assert (mE : INR (m * N) * sN = INR m * real_of s) by (rewrite mult_INR, <- SN; ring). assert (nE : INR (n * N) * sN = INR n * real_of s) by (rewrite mult_INR, <- SN; ring).
  assert (mS : INR m * real_of s <= K * sN) by (rewrite KS; apply Rmult_le_compat_r; [lra|apply le_INR; lia]). assert (nS : INR n * real_of s <= K * sN) by (rewrite KS; apply Rmult_le_compat_r; [lra|apply le_INR; lia]).
  intros x y Nx Ny Hx Hy. destruct SI as (_ & _ & ST & _). assert (KS0 : 0 <= K * sN) by (apply Rmult_le_pos; lra). rewrite <- KS in CP.
  assert (LM : (1 <= m * N)%nat) by nia. assert (LN : (1 <= n * N)%nat) by nia.
  pose proof (C106_meshes (r_grid rF) (r_grid rR) sN (m * N) (n * N) LM LN MR ST) as Q. cbv zeta in Q. rewrite EM in Q. fold K in Q. rewrite mE, nE in Q.
  destruct (Q CP HK S0 SX x y Nx Ny ltac:(lra) ltac:(lra)) as (_ & F & A). destruct (F Hx Hy) as (t & b & E). destruct (A t b E) as [I L]. exists t, b. auto.
Qed.
Print Assumptions C106_refined_grid.
(** The hypotheses are met by the unit square with mesh width 1/10, refined three times. *)
Example C106_example : moderate 1%float 1%float 0.1%float 3 /\ / 10 ^ 4 <= real_of 0.1 / INR 3 /\ real_of 0.1 * real_of 1 <= 2900 /\ is_num 0.3 /\ 0 <= real_of 0.3 <= INR 9 * real_of 0.1.
Proof.
  assert (H1 : real_of 1 = 1) by apply num_1. assert (H2 : real_of 0.1 = 7205759403792794 * / 2 ^ 56). { unfold real_of. replace (Prim2SF 0.1) with (S754_finite false 7205759403792794 (-56)) by (vm_compute; reflexivity). change (powerRZ 2 (-56)) with (/ 2 ^ 56). ring. }
  assert (H3 : real_of 0.3 = 5404319552844595 * / 2 ^ 54). { unfold real_of. replace (Prim2SF 0.3) with (S754_finite false 5404319552844595 (-54)) by (vm_compute; reflexivity). change (powerRZ 2 (-54)) with (/ 2 ^ 54). ring. }
  unfold moderate. rewrite H1, H2, H3. cbn [INR]. assert (P : 1 <= 2 ^ 400) by (rewrite <- (pow_O 2); apply Rle_pow; [lra|lia]). repeat split; try exact I; try lia; lra.
Qed.

(** C107: without the restriction on the size, a point can be lost.  A strip of width 1197.2 and height 3600 with mesh width 1197.2 (three cells): the point
    (31.9, 2426.3), well inside the grid and next to the diagonal of the third cell, is outside of both triangles of that cell: the tolerance 1e-10 is absolute. *)
Theorem C107_point_lost_refuted : forall so f, exists g, @domain_grid float FNum so 1197.2%float 3600%float f 1197.2%float = Ok g /\ length (g_triangles g) = 6%nat /\
  0 < real_of 31.9 < real_of 1197.2 /\ 2 * real_of 1197.2 < real_of 2426.3 < 3 * real_of 1197.2 /\ @to_barycentric_point float FNum g [31.9%float; 2426.3%float] = Ok None.
Proof.
  assert (H1 : real_of 1197.2 = 5265341283093709 * / 2 ^ 42). { unfold real_of. replace (Prim2SF 1197.2) with (S754_finite false 5265341283093709 (-42)) by (vm_compute; reflexivity). change (powerRZ 2 (-42)) with (/ 2 ^ 42). ring. }
  assert (H2 : real_of 31.9 = 8979051757069926 * / 2 ^ 48). { unfold real_of. replace (Prim2SF 31.9) with (S754_finite false 8979051757069926 (-48)) by (vm_compute; reflexivity). change (powerRZ 2 (-48)) with (/ 2 ^ 48). ring. }
  assert (H3 : real_of 2426.3 = 5335490124945818 * / 2 ^ 41). { unfold real_of. replace (Prim2SF 2426.3) with (S754_finite false 5335490124945818 (-41)) by (vm_compute; reflexivity). change (powerRZ 2 (-41)) with (/ 2 ^ 41). ring. }
  intros so f. eexists. split; [vm_compute; reflexivity|]. split; [reflexivity|]. rewrite H1, H2, H3. split; [lra|]. split; [lra|]. vm_compute. reflexivity.
Qed.
Print Assumptions C107_point_lost_refuted.
