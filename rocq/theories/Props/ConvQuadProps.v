(** * Theorems on the convergence of the integrators (C109) *)
From Coq Require Import Reals Lra Lia List Psatz.
From Coquelicot Require Import Coquelicot.
From Verif.Model Require Import Py Num Tensors Domain Refine Quadrature Integrators.
From Verif.Spec Require Import GridSpec QuadSpec RefineSpec InterpSpec ConvSpec.
From Verif.Proofs Require Import Lib QuadP QuadP2 IntegP GridP GridCover StdOrder MeshArea HatP ConvP ConvQ.
From Verif.Props Require Import GridProps QuadProps IntegProps MeshIntegProps ConvProps.
Local Open Scope R_scope.
Import ListNotations.

Definition pt (a b c : R * R) (l : bary R) : R * R := (l1 l * fst a + l2 l * fst b + l3 l * fst c, l1 l * snd a + l2 l * snd b + l3 l * snd c).
Lemma cross_abs_lower s i j : 0 < s -> area (GridCover.P s i j) (GridCover.P s (i + 1) j) (GridCover.P s (i + 1) (j + 1)) = s * s / 2.
Proof. intros Hs. unfold area, signed_area. unfold Rdiv. rewrite Rabs_mult, (Rabs_right (/ 2)) by lra. apply Rmult_eq_compat_r. unfold cross, GridCover.P. cbn [fst snd]. rewrite !plus_INR. cbn [INR]. rewrite <- (Rabs_right (s * s)) by nra. apply f_equal. ring. Qed.
Lemma cross_abs_upper s i j : 0 < s -> area (GridCover.P s (i + 1) (j + 1)) (GridCover.P s i (j + 1)) (GridCover.P s i j) = s * s / 2.
Proof. intros Hs. unfold area, signed_area. unfold Rdiv. rewrite Rabs_mult, (Rabs_right (/ 2)) by lra. apply Rmult_eq_compat_r. unfold cross, GridCover.P. cbn [fst snd]. rewrite !plus_INR. cbn [INR]. rewrite <- (Rabs_right (s * s)) by nra. apply f_equal. ring. Qed.
Lemma ws_Forall2 {A} (ts : list A) sizes S (P : A -> R -> Prop) : Forall2 P ts sizes -> exists vs, Forall2 (fun t v => exists z, P t z /\ v = z * S t) ts vs /\ weighted_sum ts sizes S = Rsum vs.
Proof.
  induction 1 as [|t z ts sizes H F IH]; [exists []; split; [constructor|reflexivity]|]. destruct IH as (vs & F' & E). exists (z * S t :: vs). split; [constructor; [exists z; auto|exact F']|].
  cbn [weighted_sum]. rewrite E. reflexivity.
Qed.
Lemma centre_in s m n i j : 0 < s -> (i < m)%nat -> (j < n)%nat -> rectangle (INR m * s) (INR n * s) (INR i * s + s / 2, INR j * s + s / 2) /\
  forall x y, INR i * s <= x <= INR i * s + s -> INR j * s <= y <= INR j * s + s -> rectangle (INR m * s) (INR n * s) (x, y).
Proof.
  intros Hs Hi Hj. assert (Bi : 0 <= INR i /\ INR i + 1 <= INR m). { split; [apply pos_INR|]. change 1 with (INR 1). rewrite <- plus_INR. apply le_INR. lia. }
  assert (Bj : 0 <= INR j /\ INR j + 1 <= INR n). { split; [apply pos_INR|]. change 1 with (INR 1). rewrite <- plus_INR. apply le_INR. lia. }
  unfold rectangle. cbn [fst snd]. split; [repeat split; nra|]. intros x y Hx Hy. repeat split; nra.
Qed.
Lemma mean_in a u v w s : 0 <= u -> 0 <= v -> 0 <= w -> u + v + w = 1 -> 0 < s -> a <= u * a + v * (a + s) + w * (a + s) <= a + s /\ a <= u * a + v * a + w * (a + s) <= a + s.
Proof. intros. assert (u = 1 - v - w) by lra. subst u. split; nra. Qed.
Lemma pt_lower s i j l : 0 < s -> non_negative l -> l1 l + l2 l + l3 l = 1 ->
  let x := pt (GridCover.P s i j) (GridCover.P s (i + 1) j) (GridCover.P s (i + 1) (j + 1)) l in INR i * s <= fst x <= INR i * s + s /\ INR j * s <= snd x <= INR j * s + s.
Proof.
  intros Hs (A & B & C) E. unfold pt, GridCover.P. cbn [fst snd]. rewrite !plus_INR. cbn [INR]. rewrite !Rmult_plus_distr_r, !Rmult_1_l.
  split; [apply (mean_in (INR i * s) (l1 l) (l2 l) (l3 l) s)|apply (mean_in (INR j * s) (l1 l) (l2 l) (l3 l) s)]; assumption.
Qed.
Lemma pt_upper s i j l : 0 < s -> non_negative l -> l1 l + l2 l + l3 l = 1 ->
  let x := pt (GridCover.P s (i + 1) (j + 1)) (GridCover.P s i (j + 1)) (GridCover.P s i j) l in INR i * s <= fst x <= INR i * s + s /\ INR j * s <= snd x <= INR j * s + s.
Proof.
  intros Hs (A & B & C) E. unfold pt, GridCover.P. cbn [fst snd]. rewrite !plus_INR. cbn [INR]. rewrite !Rmult_plus_distr_r, !Rmult_1_l.
  destruct (mean_in (INR i * s) (l3 l) (l2 l) (l1 l) s C B A ltac:(lra) Hs) as [_ U]. destruct (mean_in (INR j * s) (l3 l) (l2 l) (l1 l) s C B A ltac:(lra) Hs) as [V _]. split; lra.
Qed.
Lemma centre_dist a b s x y : 0 < s -> a <= x <= a + s -> b <= y <= b + s -> sq (x, y) (a + s / 2, b + s / 2) <= s * s / 2.
Proof.
  intros Hs Hx Hy. unfold sq. cbn [fst snd]. assert ((x - (a + s / 2)) * (x - (a + s / 2)) <= s / 2 * (s / 2)) by (apply abs_sq; lra).
  assert ((y - (b + s / 2)) * (y - (b + s / 2)) <= s / 2 * (s / 2)) by (apply abs_sq; lra). lra.
Qed.

Lemma Forall2_impl_ {A B} (P Q : A -> B -> Prop) l l' : (forall a b, P a b -> Q a b) -> Forall2 P l l' -> Forall2 Q l l'.
Proof. intros H. induction 1; constructor; auto. Qed.
Section Quad.
Context (g : grid R) (s : R) (m n : nat) (Hs : 0 < s) (Hm : (1 <= m)%nat) (Hn : (1 <= n)%nat) (M : mesh g s m n).
Context (weights : list R) (rpoints : list (R * R)) (q : rule R) (Hq : TriangleQuadratureRule_ weights rpoints = Ok q) (HL : length weights = length rpoints).
Context (I : integrator R) (HI : Integrator_ q (g_triangles g) (g_points g) = Ok I).
Context (f : R * R -> R) (F : triangle -> bary R -> res R) (HF : forall t a b c l x, triangle_at g t a b c -> bary_of a b c l x -> F t l = Ok (f x)).
Let S a b c := weighted_sum (q_points q) (q_weights q) (fun l => f (pt a b c l)).
Let W := sum_over (fun w => w) weights.

Lemma rule_facts : q_weights q = weights /\ (forall l, In l (q_points q) -> l1 l + l2 l + l3 l = 1 /\ non_negative l) /\ weighted_sum (q_points q) (q_weights q) (fun _ => 1) = W /\ length (q_weights q) = length (q_points q).
Proof.
  apply C36_accepted_iff in Hq as [Hp [_ [Ew [Ep H1]]]]. split; [exact Ew|]. split.
  - intros l Il. split; [apply H1, Il|]. assert (Ip : In (l1 l, l2 l) rpoints) by (rewrite <- Ep; apply (in_map (fun b => (l1 b, l2 b))), Il).
    specialize (Hp _ Ip). cbn [fst snd] in Hp. specialize (H1 l Il). unfold non_negative. lra.
  - rewrite Ew. assert (LL : length weights = length (q_points q)) by (rewrite HL, <- Ep, map_length; reflexivity). split; [apply ws_ones, LL|exact LL].
Qed.
Lemma numeric : integrate I F = Ok (Rsum (map (fun i => Rsum (map (fun j =>
   s * s / 2 * S (GridCover.P s i j) (GridCover.P s (i + 1) j) (GridCover.P s (i + 1) (j + 1)) + s * s / 2 * S (GridCover.P s (i + 1) (j + 1)) (GridCover.P s i (j + 1)) (GridCover.P s i j)) (range n))) (range m))).
Proof.
  destruct (C38_areas q (g_triangles g) (g_points g)) as (I' & HI' & Eq & Et & FA).
  { intros t Ht. destruct (mesh_triangle_at g s m n M t Ht) as (a & b & c & T). exists a, b, c. apply at_corners, T. }
  rewrite HI in HI'. injection HI' as <-. destruct rule_facts as (_ & R1 & _).
  set (pts := fun k => match nth_error (g_points g) k with Some [x; y] => (x, y) | _ => (0, 0) end).
  assert (PT : forall k x, point_at g k x -> pts k = x). { intros k [x y] P. unfold point_at in P. unfold pts. exact (f_equal (fun o => match o with Some [u; v] => (u, v) | _ => (0, 0) end) P). }
  rewrite (integrate_ws I F (fun t l => let '(a, b, c) := t in f (pt (pts a) (pts b) (pts c) l))).
  - rewrite Et, Eq. apply (f_equal Ok).
    destruct (ws_Forall2 (g_triangles g) (i_areas I) (fun t => weighted_sum (q_points q) (q_weights q) (fun l => let '(a, b, c) := t in f (pt (pts a) (pts b) (pts c) l))) _ FA) as (vs & F2 & ->).
    rewrite (mesh_sum g s m n Hs Hm Hn M (fun a b c => area a b c * S a b c) vs).
    + rewrite cells_rows. apply Rsum_map_ext. intros i _. apply Rsum_map_ext. intros j _. rewrite cross_abs_lower, cross_abs_upper by exact Hs. reflexivity.
    + eapply Forall2_impl_; [|exact F2]. intros t v (z & (a & b & c & K & ->) & ->). exists a, b, c. split; [exact K|]. apply (f_equal (Rmult (area a b c))). unfold S.
      apply weighted_sum_ext. intros l _. destruct t as [[t1 t2] t3]. destruct K as (K1 & K2 & K3). rewrite (PT _ _ K1), (PT _ _ K2), (PT _ _ K3). reflexivity.
  - rewrite Et. clear -FA. induction FA; cbn; congruence.
  - intros t l Ht Hl. rewrite Et in Ht. rewrite Eq in Hl. destruct (mesh_triangle_at g s m n M t Ht) as (a & b & c & T). destruct t as [[t1 t2] t3]. pose proof T as (_ & K1 & K2 & K3).
    rewrite (PT _ _ K1), (PT _ _ K2), (PT _ _ K3). apply (HF _ _ _ _ _ _ T). split; [apply R1, Hl|]. split; reflexivity.
Qed.
End Quad.
Lemma Rsum_scale {A} (l : list A) f c : c * Rsum (map f l) = Rsum (map (fun x => c * f x) l).
Proof. induction l as [|x l IH]; [cbn; ring|]. cbn [map]. change (Rsum (f x :: map f l)) with (f x + Rsum (map f l)). change (Rsum (c * f x :: map (fun x => c * f x) l)) with (c * f x + Rsum (map (fun x => c * f x) l)). rewrite <- IH. ring. Qed.
Lemma cells_close (N C : nat -> nat -> R) W e m n : (forall i j, (i < m)%nat -> (j < n)%nat -> Rabs (N i j - W * C i j) <= e) ->
  Rabs (Rsum (map (fun i => Rsum (map (N i) (range n))) (range m)) - W * Rsum (map (fun i => Rsum (map (C i) (range n))) (range m))) <= INR m * (INR n * e).
Proof.
  intros H. rewrite Rsum_scale. pose proof (Rsum_close (range m) (fun i => Rsum (map (N i) (range n))) (fun i => W * Rsum (map (C i) (range n))) (INR n * e)) as K.
  rewrite range_length in K. apply K. intros i Hi. apply in_range in Hi. rewrite Rsum_scale.
  pose proof (Rsum_close (range n) (N i) (fun j => W * C i j) e) as K'. rewrite range_length in K'. apply K'. intros j Hj. apply in_range in Hj. apply H; assumption.
Qed.
(** One cell: rule sums [S1], [S2] and the integral [c]. *)
Lemma cell_error s W A S1 S2 v c e : 0 < s -> Rabs (S1 - v * W) <= A * e -> Rabs (S2 - v * W) <= A * e -> Rabs (c - s * s * v) <= s * s * e ->
  Rabs (s * s / 2 * S1 + s * s / 2 * S2 - W * c) <= (A + Rabs W) * (s * s) * e.
Proof.
  intros Hs H1 H2 C. replace (s * s / 2 * S1 + s * s / 2 * S2 - W * c) with (s * s / 2 * (S1 - v * W) + s * s / 2 * (S2 - v * W) + - W * (c - s * s * v)) by field.
  assert (P : 0 <= s * s / 2) by nra. replace ((A + Rabs W) * (s * s) * e) with (s * s / 2 * (A * e) + s * s / 2 * (A * e) + Rabs W * (s * s * e)) by field.
  apply abs3; rewrite Rabs_mult; [rewrite (Rabs_right (s * s / 2)) by lra|rewrite (Rabs_right (s * s / 2)) by lra|rewrite Rabs_Ropp]; apply Rmult_le_compat_l; try assumption. apply Rabs_pos.
Qed.
Lemma cell_error1 s A S1 S2 v c e : 0 < s -> Rabs (S1 + S2 - 2 * v) <= 2 * (A * e) -> Rabs (c - s * s * v) <= s * s * e ->
  Rabs (s * s / 2 * S1 + s * s / 2 * S2 - 1 * c) <= (A + 1) * (s * s) * e.
Proof.
  intros Hs H C. replace (s * s / 2 * S1 + s * s / 2 * S2 - 1 * c) with (s * s / 2 * (S1 + S2 - 2 * v) + - (c - s * s * v)) by field.
  assert (P : 0 <= s * s / 2) by nra. eapply Rle_trans; [apply Rabs_triang|]. rewrite Rabs_Ropp, Rabs_mult, (Rabs_right (s * s / 2)) by lra.
  assert (s * s / 2 * Rabs (S1 + S2 - 2 * v) <= s * s / 2 * (2 * (A * e))) by (apply Rmult_le_compat_l; assumption). lra.
Qed.

(** ** C109 *)
(** For every rule the class accepts: let [W] be the sum of the weights (1, up to 1e-9) and [A] the sum of their absolute values. The
    computed integral of a function that varies by at most [k] times the distance is within [(A + |W|) / 2 * k * sqrt 2 * s] times the
    area of [W] times the integral. *)
Theorem C109_continuous_functions : forall g s m n weights rpoints (q : rule R) I f k F, 0 < s -> (1 <= m)%nat -> (1 <= n)%nat -> mesh g s m n ->
  TriangleQuadratureRule_ weights rpoints = Ok q -> length weights = length rpoints ->
  Integrator_ q (g_triangles g) (g_points g) = Ok I ->
  lipschitz_on (rectangle (INR m * s) (INR n * s)) k f ->
  (forall t a b c l x, triangle_at g t a b c -> bary_of a b c l x -> F t l = Ok (f x)) ->
  exists v, integrate I F = Ok v /\
    Rabs (v - sum_over (fun w => w) weights * rectangle_integral (INR m * s) (INR n * s) (fun x y => f (x, y))) <=
    (sum_over Rabs weights + Rabs (sum_over (fun w => w) weights)) / 2 * (k * (sqrt 2 * s) * ((INR m * s) * (INR n * s))).
Proof.
  intros g s m n weights rpoints q I f k F Hs Hm Hn M Hq HL HI Lf HF. rewrite (numeric g s m n Hs Hm Hn M weights rpoints q Hq HL I HI f F HF).
  eexists. split; [reflexivity|]. destruct (rule_facts weights rpoints q Hq HL) as (Ew & R1 & RW & LL). set (W := sum_over (fun w => w) weights) in *.
  assert (A0 : 0 <= INR m * s) by (apply Rmult_le_pos; [apply pos_INR|lra]). assert (B0 : 0 <= INR n * s) by (apply Rmult_le_pos; [apply pos_INR|lra]).
  assert (Hk : 0 <= k).
  { destruct (centre_in s m n 0 0 Hs ltac:(lia) ltac:(lia)) as [D1 D2]. apply (lipschitz_pos _ _ _ (INR 0 * s + s / 2, INR 0 * s + s / 2) (0, 0) Lf D1); [apply D2; cbn [INR]; lra|]. unfold sq. cbn [fst snd INR]. nra. }
  rewrite <- (clamp_integral _ _ f A0 B0). pose proof (clamp_slow _ _ _ _ A0 B0 Hk Lf) as SL. rewrite <- (slow_cells k _ SL s m n).
  match goal with |- Rabs (Rsum (map (fun i => Rsum (map (fun j => @?N i j) _)) _) - W * Rsum (map (fun i => Rsum (map (fun j => @?C i j) _)) _)) <= _ => pose proof (cells_close N C W ((sum_over Rabs weights + Rabs W) * (s * s) * (k * (sqrt 2 * s / 2))) m n) as T end.
  eapply Rle_trans; [apply T|right; field]. clear T. intros i j Hi Hj. cbv beta.
  destruct (centre_in s m n i j Hs Hi Hj) as [Dc Din]. pose proof (sqrt_pos 2) as S2.
  assert (NEAR : forall x y, INR i * s <= x <= INR i * s + s -> INR j * s <= y <= INR j * s + s -> Rabs (f (x, y) - f (INR i * s + s / 2, INR j * s + s / 2)) <= k * (sqrt 2 * s / 2)).
  { intros x y Hx Hy. eapply Rle_trans; [apply Lf; [apply Din; assumption|exact Dc]|]. apply Rmult_le_compat_l; [exact Hk|]. apply dist_le; [nra|].
    replace (sqrt 2 * s / 2 * (sqrt 2 * s / 2)) with (sqrt 2 * sqrt 2 * (s * s / 4)) by field. rewrite sqrt_sqrt by lra. replace (2 * (s * s / 4)) with (s * s / 2) by field. apply centre_dist; assumption. }
  apply (cell_error s W (sum_over Rabs weights) _ _ (f (INR i * s + s / 2, INR j * s + s / 2))); try assumption.
  - rewrite <- RW, <- Ew. apply ws_close; [exact LL|]. intros l Hl. destruct (R1 l Hl) as [E1 N1]. destruct (pt_lower s i j l Hs N1 E1) as [X Y]. rewrite (surjective_pairing (pt _ _ _ l)). apply NEAR; assumption.
  - rewrite <- RW, <- Ew. apply ws_close; [exact LL|]. intros l Hl. destruct (R1 l Hl) as [E1 N1]. destruct (pt_upper s i j l Hs N1 E1) as [X Y]. rewrite (surjective_pairing (pt _ _ _ l)). apply NEAR; assumption.
  - apply (cell_bound k _ _ 0 0 _ _ _ s SL Hs). intros x y Hx Hy. destruct (Din x y Hx Hy) as [Hx' Hy']. cbn [fst snd] in Hx', Hy'. rewrite !clamp_id by assumption. rewrite !Rmult_0_l, !Rplus_0_r. apply NEAR; assumption.
Qed.
Print Assumptions C109_continuous_functions.

Lemma moments q : exact_to q 1 -> (forall l, In l (q_points q) -> l1 l + l2 l + l3 l = 1) ->
  weighted_sum (q_points q) (q_weights q) (fun _ => 1) = 1 /\ weighted_sum (q_points q) (q_weights q) (@l1 R) = 1 / 3 /\
  weighted_sum (q_points q) (q_weights q) (@l2 R) = 1 / 3 /\ weighted_sum (q_points q) (q_weights q) (@l3 R) = 1 / 3.
Proof.
  intros H H1.
  assert (MO : forall i j, (i + j <= 1)%nat -> weighted_sum (q_points q) (q_weights q) (fun b => l1 b ^ i * l2 b ^ j) = 2 * mono_int i j).
  { intros i j L. pose proof (H [(1, (i, j))]) as E. rewrite reference_poly in E. cbn [fold_right] in E. unfold rule_value in E.
    rewrite (weighted_sum_ext _ _ (fun b => l1 b ^ i * l2 b ^ j) (fun b => peval [(1, (i, j))] (l1 b) (l2 b))) by (intros; cbn [peval fold_right]; ring).
    rewrite E; [ring|]. intros c i' j' [X|[]]. injection X as _ <- <-. exact L. }
  assert (A : weighted_sum (q_points q) (q_weights q) (fun _ => 1) = 1).
  { rewrite (weighted_sum_ext _ _ (fun _ => 1) (fun b => l1 b ^ 0 * l2 b ^ 0)) by (intros; ring). rewrite MO by lia. unfold mono_int. cbn. field. }
  assert (B : weighted_sum (q_points q) (q_weights q) (@l1 R) = 1 / 3).
  { rewrite (weighted_sum_ext _ _ (@l1 R) (fun b => l1 b ^ 1 * l2 b ^ 0)) by (intros; ring). rewrite MO by lia. unfold mono_int. cbn. field. }
  assert (C : weighted_sum (q_points q) (q_weights q) (@l2 R) = 1 / 3).
  { rewrite (weighted_sum_ext _ _ (@l2 R) (fun b => l1 b ^ 0 * l2 b ^ 1)) by (intros; ring). rewrite MO by lia. unfold mono_int. cbn. field. }
  split; [exact A|]. split; [exact B|]. split; [exact C|].
  rewrite (weighted_sum_ext _ _ (@l3 R) (fun b => (-1) * l1 b + ((-1) * l2 b + 1))) by (intros p Hp; specialize (H1 p Hp); lra).
  rewrite !weighted_sum_lin. rewrite A, B, C. lra.
Qed.
(** Rules that are exact for affine functions: for functions with bounded second derivatives the error is at most [(A + 1) / 2 * k * s^2 / 2]
    times the area. *)
Theorem C109_smooth_functions : forall g s m n weights rpoints (q : rule R) I f fx fy k K F, 0 < s -> (1 <= m)%nat -> (1 <= n)%nat -> mesh g s m n ->
  TriangleQuadratureRule_ weights rpoints = Ok q -> length weights = length rpoints -> exact_to q 1 ->
  Integrator_ q (g_triangles g) (g_points g) = Ok I ->
  lipschitz_on (rectangle (INR m * s) (INR n * s)) K f -> curved_on (rectangle (INR m * s) (INR n * s)) k f fx fy ->
  (forall t a b c l x, triangle_at g t a b c -> bary_of a b c l x -> F t l = Ok (f x)) ->
  exists v, integrate I F = Ok v /\
    Rabs (v - rectangle_integral (INR m * s) (INR n * s) (fun x y => f (x, y))) <= (sum_over Rabs weights + 1) / 2 * (k * (s * s) / 2 * ((INR m * s) * (INR n * s))).
Proof.
  intros g s m n weights rpoints q I f fx fy k K F Hs Hm Hn M Hq HL HE HI Lf Cf HF. rewrite (numeric g s m n Hs Hm Hn M weights rpoints q Hq HL I HI f F HF).
  eexists. split; [reflexivity|]. destruct (rule_facts weights rpoints q Hq HL) as (Ew & R1 & RW & LL).
  destruct (moments q HE (fun l Hl => proj1 (R1 l Hl))) as (M0 & M1 & M2 & M3).
  assert (A0 : 0 <= INR m * s) by (apply Rmult_le_pos; [apply pos_INR|lra]). assert (B0 : 0 <= INR n * s) by (apply Rmult_le_pos; [apply pos_INR|lra]).
  destruct (centre_in s m n 0 0 Hs ltac:(lia) ltac:(lia)) as [D1 D2]. assert (D0 : rectangle (INR m * s) (INR n * s) (0, 0)) by (apply D2; cbn [INR]; lra).
  assert (AP : 0 < sq (INR 0 * s + s / 2, INR 0 * s + s / 2) (0, 0)) by (unfold sq; cbn [fst snd INR]; nra).
  pose proof (lipschitz_pos _ _ _ _ _ Lf D1 D0 AP) as HK. pose proof (curved_pos _ _ _ _ _ _ _ Cf D1 D0 AP) as Hk.
  rewrite <- (clamp_integral _ _ f A0 B0). pose proof (clamp_slow _ _ _ _ A0 B0 HK Lf) as SL. rewrite <- (slow_cells K _ SL s m n).
  match goal with |- Rabs (Rsum (map (fun i => Rsum (map (fun j => @?N i j) _)) _) - Rsum (map (fun i => Rsum (map (fun j => @?C i j) _)) _)) <= _ => pose proof (cells_close N C 1 ((sum_over Rabs weights + 1) * (s * s) * (k * (s * s) / 4)) m n) as T end.
  rewrite Rmult_1_l in T. eapply Rle_trans; [apply T|right; field]. clear T. intros i j Hi Hj. cbv beta.
  destruct (centre_in s m n i j Hs Hi Hj) as [Dc Din]. set (c := (INR i * s + s / 2, INR j * s + s / 2)) in *.
  assert (NEAR : forall x y, INR i * s <= x <= INR i * s + s -> INR j * s <= y <= INR j * s + s -> Rabs (f (x, y) - (f c + fx c * (x - (INR i * s + s / 2)) + fy c * (y - (INR j * s + s / 2)))) <= k * (s * s) / 4).
  { intros x y Hx Hy. pose proof (Cf c (x, y) Dc (Din _ _ Hx Hy)) as E. rewrite dist_sq in E. cbn [fst snd] in E. pose proof (centre_dist (INR i * s) (INR j * s) s x y Hs Hx Hy) as D. fold c in D. rewrite sq_sym in D.
    replace (f (x, y) - (f c + fx c * (x - (INR i * s + s / 2)) + fy c * (y - (INR j * s + s / 2)))) with (f (x, y) - f c - fx c * (x - fst c) - fy c * (y - snd c)) by (unfold c; cbn [fst snd]; ring).
    eapply Rle_trans; [exact E|]. replace (k * (s * s) / 4) with (k / 2 * (s * s / 2)) by field. apply Rmult_le_compat_l; lra. }
  apply (cell_error1 s (sum_over Rabs weights) _ _ (f c) _ (k * (s * s) / 4) Hs).
  - set (A := fun z : R * R => f c + fx c * (fst z - (INR i * s + s / 2)) + fy c * (snd z - (INR j * s + s / 2))).
    set (lo := pt (GridCover.P s i j) (GridCover.P s (i + 1) j) (GridCover.P s (i + 1) (j + 1))). set (up := pt (GridCover.P s (i + 1) (j + 1)) (GridCover.P s i (j + 1)) (GridCover.P s i j)).
    assert (EL : Rabs (weighted_sum (q_points q) (q_weights q) (fun l => f (lo l) - A (lo l)) - 0 * weighted_sum (q_points q) (q_weights q) (fun _ => 1)) <= sum_over Rabs weights * (k * (s * s) / 4)).
    { rewrite <- Ew. apply ws_close; [exact LL|]. intros l Hl. destruct (R1 l Hl) as [E1 N1]. destruct (pt_lower s i j l Hs N1 E1) as [X Y]. fold lo in X, Y. rewrite Rminus_0_r. unfold A. rewrite (surjective_pairing (lo l)) at 1. apply NEAR; assumption. }
    assert (EU : Rabs (weighted_sum (q_points q) (q_weights q) (fun l => f (up l) - A (up l)) - 0 * weighted_sum (q_points q) (q_weights q) (fun _ => 1)) <= sum_over Rabs weights * (k * (s * s) / 4)).
    { rewrite <- Ew. apply ws_close; [exact LL|]. intros l Hl. destruct (R1 l Hl) as [E1 N1]. destruct (pt_upper s i j l Hs N1 E1) as [X Y]. fold up in X, Y. rewrite Rminus_0_r. unfold A. rewrite (surjective_pairing (up l)) at 1. apply NEAR; assumption. }
    rewrite Rmult_0_l, Rminus_0_r in EL, EU.
    assert (SUM : weighted_sum (q_points q) (q_weights q) (fun l => A (lo l)) + weighted_sum (q_points q) (q_weights q) (fun l => A (up l)) = 2 * f c).
    { rewrite (weighted_sum_ext _ _ (fun l => A (lo l)) (fun l => f c * 1 + ((- fx c * s / 2 - fy c * s / 2) * l1 l + ((fx c * s / 2 - fy c * s / 2) * l2 l + ((fx c * s / 2 + fy c * s / 2) * l3 l + 0))))).
      2:{ intros l Hl. destruct (R1 l Hl) as [E1 _]. unfold A, lo, pt, GridCover.P. cbn [fst snd]. rewrite !plus_INR. cbn [INR]. replace (l1 l) with (1 - l2 l - l3 l) by lra. field. }
      rewrite (weighted_sum_ext _ _ (fun l => A (up l)) (fun l => f c * 1 + ((fx c * s / 2 + fy c * s / 2) * l1 l + ((- fx c * s / 2 + fy c * s / 2) * l2 l + ((- fx c * s / 2 - fy c * s / 2) * l3 l + 0))))).
      2:{ intros l Hl. destruct (R1 l Hl) as [E1 _]. unfold A, up, pt, GridCover.P. cbn [fst snd]. rewrite !plus_INR. cbn [INR]. replace (l1 l) with (1 - l2 l - l3 l) by lra. field. }
      rewrite !weighted_sum_lin. rewrite (weighted_sum_ext _ _ (fun _ => 0) (fun _ => 0 * 1 + 0)) by (intros; ring). rewrite !(weighted_sum_const _ _ (0 * 1 + 0)), M0, M1, M2, M3. field. }
    assert (SPL : forall h : bary R -> R * R, weighted_sum (q_points q) (q_weights q) (fun l => f (h l)) = weighted_sum (q_points q) (q_weights q) (fun l => f (h l) - A (h l)) + weighted_sum (q_points q) (q_weights q) (fun l => A (h l))).
    { intros h. rewrite (weighted_sum_ext _ _ (fun l => f (h l)) (fun l => 1 * (f (h l) - A (h l)) + A (h l))) by (intros; ring). rewrite weighted_sum_lin. ring. }
    rewrite (SPL lo), (SPL up). match goal with |- Rabs ?z <= _ => replace z with (weighted_sum (q_points q) (q_weights q) (fun l => f (lo l) - A (lo l)) + weighted_sum (q_points q) (q_weights q) (fun l => f (up l) - A (up l))) by lra end.
    eapply Rle_trans; [apply Rabs_triang|]. lra.
  - apply (cell_bound K _ (f c) (fx c) (fy c) _ _ _ s SL Hs). intros x y Hx Hy. destruct (Din x y Hx Hy) as [Hx' Hy']. cbn [fst snd] in Hx', Hy'. rewrite !clamp_id by assumption. apply NEAR; assumption.
Qed.
Print Assumptions C109_smooth_functions.
(** The six rules of the library. *)
Lemma third_ok (a b : R) : b <> 0 -> ndiv a b = Ok (a / b).
Proof. intros H. cbn. rewrite (proj2 (Reqb_false b 0)) by exact H. reflexivity. Qed.
Lemma library_rule (q : rule R) : In (Ok q) [CENTROID; VERTEX; DUNAVANT2; DUNAVANT3; DUNAVANT4; DUNAVANT5] ->
  exists weights rpoints, TriangleQuadratureRule_ weights rpoints = Ok q /\ length weights = length rpoints /\ sum_over Rabs weights <= 17 / 8 /\
    Rabs (sum_over (fun w => w) weights - 1) <= 1 / 10 ^ 14.
Proof.
  assert (A : forall x, 0 <= x -> Rabs x = x) by (intros; apply Rabs_right; lra).
  intros [H|[H|[H|[H|[H|[H|[]]]]]]]; [unfold CENTROID in H|unfold VERTEX in H|unfold DUNAVANT2 in H|unfold DUNAVANT3 in H|unfold DUNAVANT4 in H|unfold DUNAVANT5 in H];
    rewrite ?third_ok in H by (cbn; lra); cbn [bind] in H; cbv zeta in H;
    (eexists; eexists; split; [exact H|]; split; [reflexivity|]; clear H; cbn; split; [|apply Rabs_le; lra]).
  1,2,3,5,6: rewrite !A by lra; lra.
  rewrite (Rabs_left1 (- (5 / _) - _)) by lra. rewrite !A by lra. lra.
Qed.
(** All six: within [25/16 * k * sqrt 2 * s] times the area, up to a relative 1e-14 for the rounded weights. *)
Theorem C109_library_rules : forall g s m n (q : rule R) I f k F, 0 < s -> (1 <= m)%nat -> (1 <= n)%nat -> mesh g s m n ->
  In (Ok q) [CENTROID; VERTEX; DUNAVANT2; DUNAVANT3; DUNAVANT4; DUNAVANT5] -> Integrator_ q (g_triangles g) (g_points g) = Ok I ->
  lipschitz_on (rectangle (INR m * s) (INR n * s)) k f ->
  (forall t a b c l x, triangle_at g t a b c -> bary_of a b c l x -> F t l = Ok (f x)) ->
  exists v, integrate I F = Ok v /\
    Rabs (v - rectangle_integral (INR m * s) (INR n * s) (fun x y => f (x, y))) <=
    25 / 16 * (1 + 1 / 10 ^ 14) * (k * (sqrt 2 * s) * ((INR m * s) * (INR n * s))) + 1 / 10 ^ 14 * Rabs (rectangle_integral (INR m * s) (INR n * s) (fun x y => f (x, y))).
Proof.
  intros g s m n q I f k F Hs Hm Hn M Hq HI Lf HF. destruct (library_rule q Hq) as (ws & rp & HT & HL & HA & HW).
  destruct (C109_continuous_functions g s m n ws rp q I f k F Hs Hm Hn M HT HL HI Lf HF) as (v & Hv & B). exists v. split; [exact Hv|].
  set (J := rectangle_integral _ _ _) in *. set (W := sum_over (fun w => w) ws) in *. set (A := sum_over Rabs ws) in *.
  assert (A0 : 0 <= INR m * s) by (apply Rmult_le_pos; [apply pos_INR|lra]). assert (B0 : 0 <= INR n * s) by (apply Rmult_le_pos; [apply pos_INR|lra]).
  assert (Hk : 0 <= k).
  { destruct (centre_in s m n 0 0 Hs ltac:(lia) ltac:(lia)) as [D1 D2]. apply (lipschitz_pos _ _ _ (INR 0 * s + s / 2, INR 0 * s + s / 2) (0, 0) Lf D1); [apply D2; cbn [INR]; lra|]. unfold sq. cbn [fst snd INR]. nra. }
  assert (Q : 0 <= k * (sqrt 2 * s) * ((INR m * s) * (INR n * s))). { pose proof (sqrt_pos 2). repeat apply Rmult_le_pos; try apply pos_INR; lra. }
  set (X := k * (sqrt 2 * s) * ((INR m * s) * (INR n * s))) in *. clearbody X W A J. clear - B HW HA Q.
  assert (WA : Rabs W <= 1 + 1 / 10 ^ 14). { replace W with ((W - 1) + 1) by ring. eapply Rle_trans; [apply Rabs_triang|]. rewrite Rabs_R1. lra. }
  replace (v - J) with ((v - W * J) + (W - 1) * J) by ring. eapply Rle_trans; [apply Rabs_triang|]. apply Rplus_le_compat.
  - eapply Rle_trans; [exact B|]. apply Rmult_le_compat_r; [exact Q|]. lra.
  - rewrite Rabs_mult. apply Rmult_le_compat_r; [apply Rabs_pos|exact HW].
Qed.
Print Assumptions C109_library_rules.
(** The four rules with exact weights: second order. *)
Theorem C109_library_rules_smooth : forall g s m n (q : rule R) I f fx fy k K F, 0 < s -> (1 <= m)%nat -> (1 <= n)%nat -> mesh g s m n ->
  In (Ok q) [CENTROID; VERTEX; DUNAVANT2; DUNAVANT3] -> Integrator_ q (g_triangles g) (g_points g) = Ok I ->
  lipschitz_on (rectangle (INR m * s) (INR n * s)) K f -> curved_on (rectangle (INR m * s) (INR n * s)) k f fx fy ->
  (forall t a b c l x, triangle_at g t a b c -> bary_of a b c l x -> F t l = Ok (f x)) ->
  exists v, integrate I F = Ok v /\
    Rabs (v - rectangle_integral (INR m * s) (INR n * s) (fun x y => f (x, y))) <= 25 / 32 * k * (s * s) * ((INR m * s) * (INR n * s)).
Proof.
  intros g s m n q I f fx fy k K F Hs Hm Hn M Hq HI Lf Cf HF.
  assert (Hq' : In (Ok q) [CENTROID; VERTEX; DUNAVANT2; DUNAVANT3; DUNAVANT4; DUNAVANT5]) by (cbn [In] in *; tauto). destruct (library_rule q Hq') as (ws & rp & HT & HL & HA & _).
  assert (HE : exact_to q 1).
  { assert (UP : forall r d, (1 <= d)%nat -> exact_to r d -> exact_to r 1) by (intros r d Hd He p Hp; apply He; intros c i j Ip; specialize (Hp c i j Ip); lia).
    destruct Hq as [E|[E|[E|[E|[]]]]].
    - destruct C34_centroid as (r & E' & X). rewrite E in E'. injection E' as <-. exact X.
    - destruct C34_vertex as (r & E' & X). rewrite E in E'. injection E' as <-. exact X.
    - destruct C34_dunavant2 as (r & E' & X). rewrite E in E'. injection E' as <-. apply (UP q 2%nat); [lia|exact X].
    - destruct C34_dunavant3 as (r & E' & X). rewrite E in E'. injection E' as <-. apply (UP q 3%nat); [lia|exact X]. }
  destruct (C109_smooth_functions g s m n ws rp q I f fx fy k K F Hs Hm Hn M HT HL HE HI Lf Cf HF) as (v & Hv & B). exists v. split; [exact Hv|].
  eapply Rle_trans; [exact B|].
  destruct (centre_in s m n 0 0 Hs ltac:(lia) ltac:(lia)) as [D1 D2]. assert (D0 : rectangle (INR m * s) (INR n * s) (0, 0)) by (apply D2; cbn [INR]; lra).
  assert (AP : 0 < sq (INR 0 * s + s / 2, INR 0 * s + s / 2) (0, 0)) by (unfold sq; cbn [fst snd INR]; nra). pose proof (curved_pos _ _ _ _ _ _ _ Cf D1 D0 AP) as Hk.
  assert (Q : 0 <= k * (s * s) / 2 * ((INR m * s) * (INR n * s))). { unfold Rdiv. repeat apply Rmult_le_pos; try apply pos_INR; lra. }
  replace (25 / 32 * k * (s * s) * ((INR m * s) * (INR n * s))) with (25 / 16 * (k * (s * s) / 2 * ((INR m * s) * (INR n * s)))) by field. apply Rmult_le_compat_r; [exact Q|lra].
Qed.
Print Assumptions C109_library_rules_smooth.

(** The hypotheses are met by [x^2 + y^2] on a mesh the library builds. *)
Lemma bowl_lipschitz : lipschitz_on (rectangle (INR 2 * (1 / 2)) (INR 2 * (1 / 2))) 4 bowl.
Proof.
  intros [x y] [x' y'] [A B] [C D]. cbn [fst snd INR] in *. unfold bowl. cbn [fst snd].
  replace (x * x + y * y - (x' * x' + y' * y')) with ((x + x') * (x - x') + (y + y') * (y - y')) by ring.
  eapply Rle_trans; [apply Rabs_triang|]. rewrite !Rabs_mult, (Rabs_right (x + x')), (Rabs_right (y + y')) by lra.
  assert (U : forall u v, Rabs u <= sqrt (u * u + v * v)). { intros u v. rewrite <- sqrt_Rsqr_abs. apply sqrt_le_1_alt. unfold Rsqr. nra. }
  pose proof (U (x - x') (y - y')) as U1. pose proof (U (y - y') (x - x')) as U2. rewrite Rplus_comm in U2. unfold dist. cbn [fst snd].
  pose proof (Rabs_pos (x - x')). pose proof (Rabs_pos (y - y')). set (S := sqrt _) in *. clearbody S. clear -U1 U2 H H0 A B C D. nra.
Qed.
Example C109_example : exists g q I F, domain_grid std_order 1 1 FixNone (1/2) = Ok g /\ mesh g (1/2) 2 2 /\ DUNAVANT2 = Ok q /\ Integrator_ q (g_triangles g) (g_points g) = Ok I /\
  (forall t a b c l x, triangle_at g t a b c -> bary_of a b c l x -> F t l = Ok (bowl x)) /\
  exists v, integrate I F = Ok v /\ Rabs (v - rectangle_integral 1 1 (fun x y => bowl (x, y))) <= 25 / 64.
Proof.
  destruct InterpProps.ex_mesh as (g & G & M). destruct C34_dunavant2 as (q & Eq & _).
  destruct (C38_areas q (g_triangles g) (g_points g)) as (I & HI & _).
  { intros t Ht. destruct (mesh_triangle_at g (1/2) 2 2 M t Ht) as (a & b & c & T). exists a, b, c. apply at_corners, T. }
  set (pts := fun k => match nth_error (g_points g) k with Some [x; y] => (x, y) | _ => (0, 0) end).
  assert (PT : forall k x, point_at g k x -> pts k = x). { intros k [x y] P. unfold point_at in P. unfold pts. exact (f_equal (fun o => match o with Some [u; v] => (u, v) | _ => (0, 0) end) P). }
  set (F := fun (t : triangle) (l : bary R) => let '(a, b, c) := t in Ok (bowl (pt (pts a) (pts b) (pts c) l))).
  assert (HF : forall t a b c l x, triangle_at g t a b c -> bary_of a b c l x -> F t l = Ok (bowl x)).
  { intros [[t1 t2] t3] a b c l [x y] (_ & K1 & K2 & K3) (_ & X & Y). unfold F. rewrite (PT _ _ K1), (PT _ _ K2), (PT _ _ K3). cbn [fst snd] in X, Y. unfold pt. rewrite <- X, <- Y. reflexivity. }
  exists g, q, I, F. split; [exact G|]. split; [exact M|]. split; [exact Eq|]. split; [exact HI|]. split; [exact HF|].
  destruct (C109_library_rules_smooth g (1/2) 2 2 q I bowl _ _ 2 4 F ltac:(lra) ltac:(lia) ltac:(lia) M ltac:(rewrite <- Eq; cbn [In]; tauto) HI bowl_lipschitz (bowl_curved _) HF) as (v & Hv & B).
  exists v. split; [exact Hv|]. replace (INR 2 * (1 / 2)) with 1 in B by (cbn [INR]; field). lra.
Qed.
Print Assumptions C109_example.
