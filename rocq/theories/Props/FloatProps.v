(** * C98 to C102: grids in binary64 arithmetic (Python's floats) instead of exact arithmetic. *)
From Flocq Require Import Core.
From Coq Require Import ZArith Reals Floats Lra Lia Psatz.
From Verif.Model Require Import Py Num NumFloat Tensors Domain Refine.
From Verif.Spec Require Import FloatSpec FloatGridSpec.
From Verif.Proofs Require Import FloatR FloatN FloatE StdOrder RealRef FloatRef FloatTop.
Local Open Scope R_scope.

(** C98: the number of vertices along a side is the whole part of the exact quotient plus one, except that it is one more if the quotient
    falls short of a whole number by at most the rounding error. *)
Theorem C98_vertex_count (w s : float) : is_num w -> is_num s -> 0 <= real_of w -> 0 < real_of s -> real_of w / real_of s <= 2 ^ 52 ->
  exists k, IZR k <= real_of w / real_of s < IZR k + 1 /\
    (num_vertices_along w s = Ok (k + 1)%Z \/
     num_vertices_along w s = Ok (k + 2)%Z /\ IZR k + 1 - real_of w / real_of s <= ulp1 * (real_of w / real_of s)).
Proof.
  intros Nw Ns Hw Hs Hq. destruct (trunc_quotient w s Nw Ns Hw Hs Hq) as (z & E & Z0 & Z1 & Z2). fold (@num_vertices_along _ FNum w s) in E.
  set (q := real_of w / real_of s) in *. destruct (floor_ex q) as (k & K1 & K2). exists k. split; [split; assumption|]. rewrite E.
  assert (Q0 : 0 <= q) by (apply Rmult_le_pos; [exact Hw|apply Rlt_le, Rinv_0_lt_compat, Hs]).
  assert (P52 : 2 ^ 52 = IZR (2 ^ 52)) by (rewrite pow_IZR; reflexivity).
  assert (A : (0 <= k <= 2 ^ 52)%Z) by (split; [apply Z.lt_succ_r; apply lt_IZR; rewrite succ_IZR; lra|apply le_IZR; lra]).
  assert (L : IZR k <= rnd q) by (rewrite <- (rnd_IZR k) by lia; apply rnd_le, K1).
  assert (U : rnd q <= IZR (k + 1)) by (rewrite <- (rnd_IZR (k + 1)) by lia; apply rnd_le; rewrite plus_IZR; lra).
  assert (B : (z = k \/ z = k + 1)%Z).
  { assert (k < z + 1)%Z by (apply lt_IZR; rewrite plus_IZR; lra). assert (z <= k + 1)%Z by (apply le_IZR; lra). lia. }
  destruct B as [-> | ->]; [left; reflexivity|right]. split; [f_equal; lia|].
  rewrite plus_IZR in *. assert (H1 : rnd q = IZR k + 1) by lra. assert (0 <= IZR k) by (apply IZR_le; lia).
  pose proof (rnd_rel q (small_bpow q (rnd_half q ltac:(lra)))) as R. rewrite H1, !Rabs_pos_eq in R by lra. exact R.
Qed.
(** In particular a side that is exactly a whole number of mesh widths gets all its vertices ... *)
Theorem C98_whole_multiple (w s : float) (k : Z) : is_num w -> is_num s -> 0 < real_of s -> (0 <= k <= 2 ^ 52)%Z -> real_of w = IZR k * real_of s ->
  num_vertices_along w s = Ok (k + 1)%Z.
Proof.
  intros Nw Ns Hs Hk E. assert (K0 : 0 <= IZR k) by (apply IZR_le; lia). assert (Q : real_of w / real_of s = IZR k) by (rewrite E; field; lra).
  destruct (trunc_quotient w s Nw Ns) as (z & F & Z0 & Z1); [rewrite E; nra|exact Hs|rewrite Q; replace (2 ^ 52) with (IZR (2 ^ 52)) by (rewrite (pow_IZR 2 52); reflexivity); apply IZR_le; lia|].
  fold (@num_vertices_along _ FNum w s) in F. rewrite Q, rnd_IZR in Z1 by lia. rewrite F. do 2 f_equal.
  assert (z <= k)%Z by (apply le_IZR; lra). assert (k < z + 1)%Z by (apply lt_IZR; rewrite plus_IZR; lra). lia.
Qed.
(** ... and asking for k cells by the mesh width [width / k] loses at most one of them. *)
Theorem C98_requested_cells (w : float) (k : Z) : is_num w -> (1 <= k <= 2 ^ 50)%Z -> 1 <= real_of w / IZR k <= 2 ^ 900 ->
  let s := (w / F_of_Z k)%float in num_vertices_along w s = Ok k \/ num_vertices_along w s = Ok (k + 1)%Z.
Proof.
  intros Nw Hk Hq s. destruct (F_of_Z_ok k) as [Nk Rk]; [lia|]. assert (K1 : 1 <= IZR k) by (apply IZR_le; lia).
  assert (P50 : 2 ^ 50 = IZR (2 ^ 50)) by (rewrite (pow_IZR 2 50); reflexivity). assert (K2 : IZR k <= 2 ^ 50) by (rewrite P50; apply IZR_le; lia).
  set (p := real_of w / IZR k) in *. assert (W : real_of w = p * IZR k) by (unfold p; field; lra).
  destruct (fdiv w (F_of_Z k) Nw) as [Ns Rs]; [lra|rewrite Rk; fold p; apply (bpow_le_bound 900); [lia|]; rewrite Rabs_pos_eq by lra; rewrite (pow2_bpow 900) in Hq; apply Hq|].
  fold s in Ns, Rs. rewrite Rk in Rs. fold p in Rs. pose proof (rnd_rel p (small_bpow p ltac:(lra))) as E. rewrite <- Rs, (Rabs_pos_eq p) in E by lra. apply Rabs_le_inv in E.
  pose proof ulp1_pos as U0. assert (U1 : ulp1 * 2 ^ 53 = 1) by (unfold ulp1; field). assert (U2 : ulp1 * 2 ^ 50 = / 8) by (replace (2 ^ 53) with (2 ^ 50 * 8) in U1 by ring; lra).
  assert (U3 : ulp1 <= / 1000) by nra.
  assert (S0 : 0 < real_of s) by nra.
  assert (Q1 : real_of w <= real_of s * (IZR k + / 4)). { rewrite W. assert (ulp1 * IZR k <= / 8) by nra. nra. }
  assert (Q2 : real_of s * (IZR k - / 4) <= real_of w). { rewrite W. assert (ulp1 * IZR k <= / 8) by nra. nra. }
  assert (R1 : real_of w / real_of s <= IZR k + / 4) by (apply (Rmult_le_reg_r (real_of s)); [exact S0|]; unfold Rdiv; rewrite Rmult_assoc, Rinv_l by lra; lra).
  assert (R2 : IZR k - / 4 <= real_of w / real_of s) by (apply (Rmult_le_reg_r (real_of s)); [exact S0|]; unfold Rdiv; rewrite Rmult_assoc, Rinv_l by lra; lra).
  assert (P52 : 2 ^ 52 = 4 * 2 ^ 50) by ring.
  destruct (C98_vertex_count w s Nw Ns) as (j & [J1 J2] & D); [rewrite W; nra|exact S0|lra|].
  assert (J : (j = k - 1 \/ j = k)%Z).
  { assert (k - 1 < j + 1)%Z by (apply lt_IZR; rewrite minus_IZR, plus_IZR; lra). assert (j < k + 1)%Z by (apply lt_IZR; rewrite plus_IZR; lra). lia. }
  destruct J as [-> | ->].
  - destruct D as [D|[D _]]; [left|right]; rewrite D; f_equal; lia.
  - destruct D as [D|[_ D]]; [right; exact D|exfalso]. assert (ulp1 * (real_of w / real_of s) <= / 4) by nra. lra.
Qed.

(** C102: the decimals 0.3 and 0.1: exactly three mesh widths, but in binary64 the last column and the last row of cells are missing
    and the corner of the rectangle is in no triangle of the grid. *)
Theorem C102_decimal_sides_refuted :
  @num_vertices_along R RNum (ndec 3 1) (ndec 1 1) = Ok 4%Z /\ @num_vertices_along float FNum (ndec 3 1) (ndec 1 1) = Ok 3%Z /\
  forall so f, exists g, @domain_grid float FNum so 0.3%float 0.3%float f 0.1%float = Ok g /\ length (g_vertices g) = 9%nat /\
    to_barycentric_point g [0.3%float; 0.3%float] = Ok None.
Proof.
  split; [|split].
  - unfold num_vertices_along. cbn [ndiv ndec RNum]. unfold Reqb. destruct (Req_EM_T (1 / 10 ^ 1) 0) as [Q|_]; [lra|]. cbn [bind ntrunc RNum].
    replace (3 / 10 ^ 1 / (1 / 10 ^ 1)) with 3 by field. unfold Rtrunc, Rltb. destruct (Rlt_dec 3 0) as [Q|_]; [lra|].
    assert (U : up 3 = 4%Z) by (symmetry; apply tech_up; lra). rewrite U. reflexivity.
  - vm_compute. reflexivity.
  - intros so f. eexists. split; [vm_compute; reflexivity|]. split; [reflexivity|]. vm_compute. reflexivity.
Qed.
(** Mesh width 1/93 on the unit square: 92 cells. *)
Theorem C102_requested_cells_refuted : @num_vertices_along float FNum 1%float (1 / F_of_Z 93)%float = Ok 93%Z.
Proof. vm_compute. reflexivity. Qed.
(** The grid can stick out of the rectangle: the last vertex of the bottom row of a grid of width 1.7 and mesh width 0.1 lies right of 1.7. *)
Theorem C102_inside_refuted : forall so f, exists g x, @domain_grid float FNum so 1.7%float 0.1%float f 0.1%float = Ok g /\
  nth_error (g_points g) 17 = Some [x; 0%float] /\ real_of 1.7 < real_of x.
Proof.
  intros so f. eexists _, _. split; [vm_compute; reflexivity|]. split; [reflexivity|].
  unfold real_of. match goal with |- context [Prim2SF ?a] => let v := eval vm_compute in (Prim2SF a) in change (Prim2SF a) with v end.
  match goal with |- context [Prim2SF ?a] => let v := eval vm_compute in (Prim2SF a) in change (Prim2SF a) with v end. cbv iota beta. unfold powerRZ. simpl. lra.
Qed.

(** C99: up to rounding, the grid of a rectangle computed in floats is the exact grid of the rectangle made of the cells that fit (up to one rounding error, C98). *)
Lemma counts (w h s : float) N : moderate w h s N -> exists m n, almost_fits (real_of w) (real_of s) m /\ almost_fits (real_of h) (real_of s) n /\ (1 <= m)%nat /\ (1 <= n)%nat /\
  (Z.of_nat N * Z.of_nat (Nat.max m n) <= 2 ^ 19)%Z /\ forall so f, @domain_grid _ FNum so w h f s = @rect_grid _ FNum so (S m) (S n) f s.
Proof.
  intros (Nw & Nh & Ns & HN & Lo & Hi & Ww & Wh & Uw & Uh). assert (P0 : 0 < / 10 ^ 14) by (apply Rinv_0_lt_compat, pow_lt; lra).
  pose proof (nR N HN) as N1. assert (S0 : 0 < real_of s). { destruct (Rle_or_lt (real_of s) 0) as [Q|Q]; [|exact Q]. exfalso. assert (0 < / INR N) by (apply Rinv_0_lt_compat; lra). unfold Rdiv in Lo. nra. }
  pose proof ulp1_pos as U0. pose proof ulp1_small as U1.
  assert (A : forall x : float, is_num x -> real_of s <= real_of x -> INR N * real_of x <= 500000 * real_of s ->
    exists k, almost_fits (real_of x) (real_of s) k /\ (1 <= k)%nat /\ (Z.of_nat N * Z.of_nat k <= 2 ^ 19)%Z /\ @num_vertices_along _ FNum x s = Ok (Z.of_nat (S k))).
  { intros x Nx Wx Ux. set (q := real_of x / real_of s). assert (EX : real_of x = q * real_of s) by (unfold q; field; lra).
    assert (Q1 : 1 <= q) by nra. assert (Q2 : INR N * q <= 500000) by (rewrite EX in Ux; nra). assert (Q3 : q <= 500000) by nra.
    destruct (C98_vertex_count x s Nx Ns) as (k & [K1 K2] & D); [lra|exact S0|fold q; apply Rle_trans with 500000; [exact Q3|]; lra|]. fold q in K1, K2, D.
    assert (K0 : (1 <= k)%Z) by (apply Z.lt_succ_r; apply lt_IZR; rewrite succ_IZR; lra).
    assert (FIN : forall z, (1 <= z)%Z -> IZR z <= (1 + ulp1) * q -> q < IZR z + 1 -> @num_vertices_along _ FNum x s = Ok (z + 1)%Z ->
      exists k, almost_fits (real_of x) (real_of s) k /\ (1 <= k)%nat /\ (Z.of_nat N * Z.of_nat k <= 2 ^ 19)%Z /\ @num_vertices_along _ FNum x s = Ok (Z.of_nat (S k))).
    { intros z Z1 Z2 Z3 Z4. exists (Z.to_nat z). split; [|split; [lia|split]].
      - unfold almost_fits. rewrite plus_INR, INR_IZR_INZ, Z2Nat.id by lia. change (INR 1) with 1. rewrite EX. split; nra.
      - rewrite Z2Nat.id by lia. apply le_IZR. rewrite mult_IZR, <- INR_IZR_INZ. change (IZR (2 ^ 19)) with 524288. nra.
      - rewrite Z4. f_equal. lia. }
    destruct D as [D|[D E]].
    - apply (FIN k K0); try assumption; nra.
    - apply (FIN (k + 1)%Z); [lia|rewrite plus_IZR; lra|rewrite plus_IZR; lra|rewrite D; f_equal; lia]. }
  destruct (A w Nw Ww Uw) as (m & Fm & Pm & Km & Em). destruct (A h Nh Wh Uh) as (n & Fn & Pn & Kn & En).
  exists m, n. split; [exact Fm|]. split; [exact Fn|]. split; [exact Pm|]. split; [exact Pn|]. split; [destruct (Nat.max_spec m n) as [[_ ->]|[_ ->]]; assumption|].
  intros so f. unfold domain_grid. rewrite Em, En. cbn [bind]. replace (_ || _)%bool with false by (symmetry; apply Bool.orb_false_iff; split; apply Z.ltb_ge; lia). rewrite !Nat2Z.id. reflexivity.
Qed.
Lemma moderate_s w h s N : moderate w h s N -> / 10 ^ 14 <= real_of s.
Proof. intros (_ & _ & _ & HN & Lo & Hi & _). apply (s_pos s N HN Lo Hi). Qed.
Theorem C99_float_grid (w h s : float) : moderate w h s 1 -> exists m n, almost_fits (real_of w) (real_of s) m /\ almost_fits (real_of h) (real_of s) n /\
  forall so f, exists gF gR, @domain_grid float FNum so w h f s = Ok gF /\ @domain_grid R RNum so (INR m * real_of s) (INR n * real_of s) f (real_of s) = Ok gR /\
    same_indices gF gR /\ rounded_points (g_points gF) (g_points gR) /\ finds_vertices gF.
Proof.
  intros M. pose proof (moderate_s _ _ _ _ M) as Lo. destruct (counts w h s 1 M) as (m & n & Fm & Fn & Pm & Pn & K & E). exists m, n. split; [exact Fm|]. split; [exact Fn|]. intros so f.
  destruct M as (_ & _ & Ns & _ & _ & Hi & _). rewrite Z.mul_1_l in K.
  destruct (float_rect so f s m n Ns Pm Pn K Lo Hi) as (gR & gF & C & Ts & E' & mean & HG & LM & HC & EF & SI & PF & MF & FF). exists gF, gR. rewrite E. split; [exact EF|]. split; [exact HG|]. split; [exact SI|].
  split; [rewrite PF, (MeshP.lm_p _ _ _ _ _ _ _ LM), HC; apply rounded; assumption|].
  intros v p Hv. unfold point_to_vertex. rewrite MF. apply (fin_find (real_of s) (Z.of_nat (Nat.max m n))) with (L := C); try (split; assumption); try assumption; [split; [lia|exact K]|rewrite PF, HC; apply frep_CC; assumption|apply (MeshP.lm_nd _ _ _ _ _ _ _ LM)].
Qed.
(** In particular no vertex lies outside the rectangle by more than three relative rounding errors. *)
Theorem C99_nearly_inside (w h s : float) so f g : moderate w h s 1 -> @domain_grid float FNum so w h f s = Ok g ->
  forall p, In p (g_points g) -> exists x y, p = [x; y] /\ is_num x /\ is_num y /\ 0 <= real_of x <= (1 + 3 * ulp1) * real_of w /\ 0 <= real_of y <= (1 + 3 * ulp1) * real_of h.
Proof.
  intros M HG p HP. pose proof (moderate_s _ _ _ _ M) as Lo. destruct (counts w h s 1 M) as (m & n & Fm & Fn & Pm & Pn & K & E). destruct M as (_ & _ & Ns & _ & _ & Hi & Ww & Wh & _). rewrite Z.mul_1_l in K.
  destruct (float_rect so f s m n Ns Pm Pn K Lo Hi) as (gR & gF & C & Ts & E' & mean & _ & _ & _ & EF & _ & PF & _). rewrite E, EF in HG. injection HG as <-. rewrite PF in HP.
  pose proof ulp1_pos as U0. pose proof ulp1_small as U1. assert (P0 : 0 < / 10 ^ 14) by (apply Rinv_0_lt_compat, pow_lt; lra).
  unfold rg_points, rg_vertices in HP. apply in_map_iff in HP as (v & <- & Hv). apply Lib.in_range in Hv. pose proof (Nat.mod_upper_bound v (S m) ltac:(lia)) as B1. assert (B2 : (v / S m < S n)%nat) by (apply Nat.div_lt_upper_bound; lia).
  assert (A : forall (i k : nat) e, (i <= k)%nat -> (k <= Nat.max m n)%nat -> real_of s <= e -> almost_fits e (real_of s) k -> is_num (F_of_Z (Z.of_nat i) * s)%float /\ 0 <= real_of (F_of_Z (Z.of_nat i) * s)%float <= (1 + 3 * ulp1) * e).
  { intros i k e Hi1 Hk He [F1 F2]. destruct (prod_f s 1 (Z.of_nat (Nat.max m n)) Ns (le_n 1) ltac:(lia) ltac:(rewrite Z.mul_1_l; exact K) ltac:(change (INR 1) with 1; unfold Rdiv; rewrite Rinv_1, Rmult_1_r; exact Lo) Hi (Z.of_nat i) ltac:(lia)) as [[N1 R1] _].
    split; [exact N1|]. apply Rabs_le_inv in R1. rewrite <- INR_IZR_INZ in R1. assert (I0 : 0 <= INR i) by apply pos_INR. assert (I1 : INR i <= INR k) by (apply le_INR, Hi1).
    set (x := real_of (F_of_Z (Z.of_nat i) * s)%float) in *. assert (J0 : 0 <= INR i * real_of s) by (apply Rmult_le_pos; lra). assert (J1 : INR i * real_of s <= INR k * real_of s) by (apply Rmult_le_compat_r; lra).
    set (y := INR i * real_of s) in *. assert (J2 : y <= (1 + ulp1) * e) by lra. assert (J3 : ulp1 * y <= ulp1 * ((1 + ulp1) * e)) by (apply Rmult_le_compat_l; lra).
    assert (J4 : ulp1 * y <= 1 * y) by (apply Rmult_le_compat_r; lra). split; [lra|]. assert (J5 : ulp1 * (ulp1 * e) <= 1 * (ulp1 * e)) by (apply Rmult_le_compat_r; [apply Rmult_le_pos; lra|lra]). lra. }
  destruct (A (v mod S m)%nat m (real_of w) ltac:(lia) ltac:(lia) Ww Fm) as [A1 A2]. destruct (A (v / S m)%nat n (real_of h) ltac:(lia) ltac:(lia) Wh Fn) as [B3 B4]. eexists _, _. split; [reflexivity|]. auto.
Qed.
(** Numbers as in the examples of the package meet the hypothesis, with up to 1000 subdivisions. *)
Lemma moderate_example : moderate 1.7%float 1%float 0.1%float 1000.
Proof.
  assert (E1 : real_of 0.1 = 3602879701896397 / 36028797018963968) by (unfold real_of; let v := eval vm_compute in (Prim2SF 0.1) in change (Prim2SF 0.1) with v; cbv iota beta; unfold powerRZ; simpl; lra).
  assert (E2 : real_of 1.7 = 7656119366529843 / 4503599627370496) by (unfold real_of; let v := eval vm_compute in (Prim2SF 1.7) in change (Prim2SF 1.7) with v; cbv iota beta; unfold powerRZ; simpl; lra).
  unfold moderate. rewrite E1, E2, (proj2 num_1). replace (INR 1000) with 1000 by (rewrite INR_IZR_INZ; reflexivity).
  split; [exact I|]. split; [exact I|]. split; [exact I|]. split; [lia|]. split; [lra|]. split; [|lra]. apply Rle_trans with (2 ^ 0); [simpl; lra|apply Rle_pow; [lra|lia]].
Qed.

(** C100: refining such a grid in floats gives, up to rounding, the exact refinement: it returns, with the same vertices, edges, triangles, boundaries and maps to the coarse grid. *)
Theorem C100_float_refine (w h s : float) (N : nat) : moderate w h s N -> exists m n, almost_fits (real_of w) (real_of s) m /\ almost_fits (real_of h) (real_of s) n /\
  forall so f, exists gF gR rF rR, @domain_grid float FNum so w h f s = Ok gF /\ @domain_grid R RNum so (INR m * real_of s) (INR n * real_of s) f (real_of s) = Ok gR /\
    @refine float FNum gF (Z.of_nat N) = Ok rF /\ @refine R RNum gR (Z.of_nat N) = Ok rR /\
    same_indices (r_grid rF) (r_grid rR) /\ r_coarse rF = gF /\ r_coarse_triangle rF = r_coarse_triangle rR /\ r_coarse_edge rF = r_coarse_edge rR /\
    close_points (40 * (ulp1 * (INR (Nat.max m n) * real_of s))) (g_points (r_grid rF)) (g_points (r_grid rR)) /\
    close_dict (close_bary3 (9 * ulp1)) (r_coarse_bary rF) (r_coarse_bary rR) /\
    close_dict (close_pair (4 * ulp1)) (r_coarse_edge_coords rF) (r_coarse_edge_coords rR) /\
    finds_vertices (r_grid rF) /\ exists new, g_points (r_grid rF) = g_points gF ++ new.
Proof.
  intros M. destruct (counts w h s N M) as (m & n & Fm & Fn & Pm & Pn & K & E). exists m, n. split; [exact Fm|]. split; [exact Fn|]. intros so f.
  destruct M as (_ & _ & Ns & HN & Lo & Hi & _). destruct (float_refine so f s m n N Ns Pm Pn HN K Lo Hi) as (gR & gF & rR & rF & A1 & A2 & A3 & A4 & A5 & A6 & A7 & A8 & A9 & A10 & A11 & A12 & A13 & A14).
  exists gF, gR, rF, rR. rewrite E. tauto.
Qed.

(** C101: the regularized simulations refine a refined grid.  In floats the second refinement can fail although every number involved is
    harmless: a square of side 10 with mesh width 5, refined three times for the simulation and then five times (the plotting factor): the tolerance 1e-15 is absolute. *)
Theorem C101_double_refine_refuted : exists g r, @domain_grid float FNum std_order 10%float 10%float FixNone 5%float = Ok g /\ @refine float FNum g 3 = Ok r /\
  @refine float FNum (r_grid r) 5 = Err AssertionError.
Proof.
  assert (Q : match @domain_grid float FNum std_order 10%float 10%float FixNone 5%float with
    | Ok g => match @refine float FNum g 3 with Ok r => match @refine float FNum (r_grid r) 5 with Err AssertionError => true | _ => false end | _ => false end
    | _ => false end = true) by (vm_compute; reflexivity).
  destruct (@domain_grid float FNum std_order 10%float 10%float FixNone 5%float) as [g|]; [|discriminate]. destruct (@refine float FNum g 3) as [r|] eqn:E1; [|discriminate].
  destruct (@refine float FNum (r_grid r) 5) as [|[]] eqn:E2; try discriminate. exists g, r. auto.
Qed.
