(** * Theorems on the convergence of the C1 interpolation (C110) *)
From Coq Require Import Reals Lra Lia List Psatz.
From Coquelicot Require Import Coquelicot.
From Verif.Model Require Import Py Num Tensors Domain Refine Bell Interp.
From Verif.Spec Require Import GridSpec RefineSpec QuadSpec BellSpec InterpSpec ConvSpec TaylorSpec.
From Verif.Proofs Require Import Lib LocateP FindP HatP InterpP MeshLoc StdOrder BellV BellDer BellQ BernP BernQ BernR TaylorP ConvP.
From Verif.Props Require Import InterpProps ConvProps.
Local Open Scope R_scope.
Import ListNotations.

Lemma C1_sampled g s m n params i t p q r L x f : 0 < s -> mesh g s m n -> C1Interpolation_ g params = Ok i -> samples g (jet f) params -> triangle_at g t p q r -> bary_of p q r L x ->
  let ps := jet f p ++ jet f q ++ jet f r in let at_x (F : R -> R -> R) := F (fst x) (snd x) in
  i_call i t L = Ok (at_x (Bf p q r ps)) /\ i_gradient i t L = Ok (gradient_value (at_x (Bx p q r ps)) (at_x (By p q r ps))) /\
  i_hessian i t L = Ok (hessian_value (at_x (Bxx p q r ps)) (at_x (Bxy p q r ps)) (at_x (Byy p q r ps))).
Proof.
  intros Hs M I Sa T B. cbv zeta. apply C1_ok in I as [-> _]. assert (Hc : cross p q r <> 0) by (rewrite (mesh_cross g s m n M _ _ _ _ T); nra).
  destruct t as [[a b] c]. pose proof T as [_ [A1 [A2 A3]]]. destruct (C1_calls g params a b c p q r _ _ _ L T (Sa _ _ A1) (Sa _ _ A2) (Sa _ _ A3)) as [-> [-> ->]].
  destruct L as [[L1 L2] L3]. unfold nodes_of, call. cbn [pos dofs l1 l2 l3 fst snd].
  split; [apply (value_B p q r (jet f p ++ jet f q ++ jet f r) Hc eq_refl (L1, L2, L3) x B)|]. split; [apply (gradient_B p q r (jet f p ++ jet f q ++ jet f r) Hc eq_refl (L1, L2, L3) x B)|apply (hessian_B p q r (jet f p ++ jet f q ++ jet f r) Hc eq_refl (L1, L2, L3) x B)].
Qed.
Lemma smooth_pos D k f p q : smooth_on D k f -> D p -> D q -> dist p q <> 0 -> 0 <= k.
Proof.
  intros S Dp Dq N. destruct (S p Dp) as (P & _ & J). pose proof (J q Dq) as K. unfold jet in K. cbn [jets_within] in K. destruct K as [K _].
  pose proof (dist_pos p q). assert (0 < dist p q ^ 5) by (apply pow_lt; lra). match type of K with Rabs ?e <= _ => pose proof (Rabs_pos e) end.
  destruct (Rle_lt_dec 0 k) as [H2|H2]; [exact H2|]. exfalso. assert (k * dist p q ^ 5 < 0) by nra. lra.
Qed.
Lemma shape_dist s p q r : 0 < s -> shape s p q r -> dist p q <> 0.
Proof. intros Hs Sh E. pose proof (dist_sq p q) as K. rewrite E in K. destruct Sh; unfold sq in K; cbn [fst snd] in K; nra. Qed.
Lemma spread_almost p q r L x d : bary_of p q r L x -> 0 <= d -> almost d L -> spread L <= 1 + 6 * d.
Proof.
  intros [E _] Hd (A & B & C). unfold spread. assert (K : forall l, - d <= l -> Rabs l <= l + 2 * d) by (intros; apply Rabs_le; lra).
  pose proof (K _ A). pose proof (K _ B). pose proof (K _ C). lra.
Qed.
Lemma far_dist s p q r L x d Z : 0 < s -> shape s p q r -> bary_of p q r L x -> 0 <= d -> almost d L -> 0 <= Z -> 2 * (1 + 2 * d) * (1 + 2 * d) <= Z * Z ->
  dist x p <= Z * s /\ dist x q <= Z * s /\ dist x r <= Z * s.
Proof.
  intros Hs Sh B Hd A HZ K. destruct (shape_far _ _ _ _ _ _ _ Sh B Hd A) as (F1 & F2 & F3).
  assert (Q : 2 * (1 + 2 * d) * (1 + 2 * d) * (s * s) <= Z * s * (Z * s)) by (replace (Z * s * (Z * s)) with (Z * Z * (s * s)) by ring; apply Rmult_le_compat_r; [nra|exact K]).
  assert (P : 0 <= Z * s) by (apply Rmult_le_pos; lra). rewrite !(dist_sym x). repeat split; apply dist_le; try exact P; eapply Rle_trans; eassumption.
Qed.
Lemma C1_error g s m n params i f k t p q r L x d Z C Sp : 0 < s -> mesh g s m n -> C1Interpolation_ g params = Ok i ->
  samples g (jet f) params -> smooth_on (rectangle (INR m * s) (INR n * s)) k f -> triangle_at g t p q r -> bary_of p q r L x -> rectangle (INR m * s) (INR n * s) x ->
  0 <= d -> almost d L -> 1 <= Z -> 2 * (1 + 2 * d) * (1 + 2 * d) <= Z * Z -> Z ^ 5 <= C -> 1 + 6 * d <= Sp ->
  let at_x (F : R -> R -> R) := F (fst x) (snd x) in 0 <= k /\
  exists v gx gy hxx hxy hyy, i_call i t L = Ok v /\ i_gradient i t L = Ok (gradient_value gx gy) /\ i_hessian i t L = Ok (hessian_value hxx hxy hyy) /\
    Rabs (v - at_x f) <= 2 * C * Sp ^ 5 * k * s ^ 5 /\
    Rabs (gx - at_x (d_x f)) <= 20 * C * Sp ^ 4 * k * s ^ 4 /\ Rabs (gy - at_x (d_y f)) <= 20 * C * Sp ^ 4 * k * s ^ 4 /\
    Rabs (hxx - at_x (d_x (d_x f))) <= 160 * C * Sp ^ 3 * k * s ^ 3 /\ Rabs (hxy - at_x (d_y (d_x f))) <= 160 * C * Sp ^ 3 * k * s ^ 3 /\ Rabs (hyy - at_x (d_y (d_y f))) <= 160 * C * Sp ^ 3 * k * s ^ 3.
Proof.
  intros Hs M I S Sm T B Dx Hd A HZ K HC HS. cbv zeta. destruct (C1_sampled g s m n params i t p q r L x f Hs M I S T B) as (-> & -> & ->).
  pose proof (mesh_shape _ _ _ _ _ _ _ _ M T) as Sh. destruct (mesh_corners g s m n t p q r Hs M T) as (Dp & Dq & Dr).
  pose proof (smooth_pos _ _ _ _ _ Sm Dp Dq (shape_dist _ _ _ _ Hs Sh)) as Hk. split; [exact Hk|].
  destruct (far_dist s p q r L x d Z Hs Sh B Hd A ltac:(lra) K) as (F1 & F2 & F3). pose proof (spread_almost _ _ _ _ _ _ B Hd A) as Hp.
  do 6 eexists. split; [reflexivity|]. split; [reflexivity|]. split; [reflexivity|].
  exact (bell_error s p q r x L f k Z C Sp _ Hs Sh B Hk HZ HC (Rle_trans _ _ _ Hp HS) Dp Dq Dr Dx F1 F2 F3 Sm).
Qed.

(** ** C110 *)
(** In every triangle of a mesh with cells of side [s] the C1 interpolation of a function is within a constant times [s^5] of the
    function, its gradient within a constant times [s^4] and its Hessian within a constant times [s^3]. *)
Theorem C110_convergence : forall g s m n params i f k t p q r L x, 0 < s -> mesh g s m n -> C1Interpolation_ g params = Ok i ->
  samples g (jet f) params -> smooth_on (rectangle (INR m * s) (INR n * s)) k f -> triangle_at g t p q r -> bary_of p q r L x -> non_negative L ->
  let at_x (F : R -> R -> R) := F (fst x) (snd x) in
  exists v gx gy hxx hxy hyy, i_call i t L = Ok v /\ i_gradient i t L = Ok (gradient_value gx gy) /\ i_hessian i t L = Ok (hessian_value hxx hxy hyy) /\
    Rabs (v - at_x f) <= 12 * k * s ^ 5 /\
    Rabs (gx - at_x (d_x f)) <= 120 * k * s ^ 4 /\ Rabs (gy - at_x (d_y f)) <= 120 * k * s ^ 4 /\
    Rabs (hxx - at_x (d_x (d_x f))) <= 960 * k * s ^ 3 /\ Rabs (hxy - at_x (d_y (d_x f))) <= 960 * k * s ^ 3 /\ Rabs (hyy - at_x (d_y (d_y f))) <= 960 * k * s ^ 3.
Proof.
  intros g s m n params i f k t p q r L x Hs M I S Sm T B N. cbv zeta. destruct (mesh_corners g s m n t p q r Hs M T) as (Dp & Dq & Dr).
  pose proof (rectangle_convex _ _ _ _ _ _ _ Dp Dq Dr B N) as Dx.
  destruct (C1_error g s m n params i f k t p q r L x 0 (10 / 7) 6 1 Hs M I S Sm T B Dx (Rle_refl 0) (non_negative_almost _ N) ltac:(lra) ltac:(lra) ltac:(lra) ltac:(lra))
    as (Hk & v & gx & gy & hxx & hxy & hyy & V & G & H & E). rewrite !pow1 in E. exists v, gx, gy, hxx, hxy, hyy. split; [exact V|]. split; [exact G|]. split; [exact H|].
  replace (12 * k) with (2 * 6 * 1 * k) by ring. replace (120 * k) with (20 * 6 * 1 * k) by ring. replace (960 * k) with (160 * 6 * 1 * k) by ring. exact E.
Qed.
Print Assumptions C110_convergence.
(** The same for evaluation at points of the rectangle, for cells of side at least 1e-4. *)
Theorem C110_euclidean : forall g s m n params i f k x, 1 / 10 ^ 4 <= s -> mesh g s m n -> (1 <= m)%nat -> (1 <= n)%nat -> C1Interpolation_ g params = Ok i ->
  samples g (jet f) params -> smooth_on (rectangle (INR m * s) (INR n * s)) k f -> 0 <= fst x <= INR m * s -> 0 <= snd x <= INR n * s ->
  let at_x (F : R -> R -> R) := F (fst x) (snd x) in
  exists v gx gy hxx hxy hyy, euclid_call i (fst x) (snd x) = Ok v /\ euclid_gradient i (fst x) (snd x) = Ok (gradient_value gx gy) /\
    euclid_hessian i (fst x) (snd x) = Ok (hessian_value hxx hxy hyy) /\
    Rabs (v - at_x f) <= 18 * k * s ^ 5 /\
    Rabs (gx - at_x (d_x f)) <= 165 * k * s ^ 4 /\ Rabs (gy - at_x (d_y f)) <= 165 * k * s ^ 4 /\
    Rabs (hxx - at_x (d_x (d_x f))) <= 1250 * k * s ^ 3 /\ Rabs (hxy - at_x (d_y (d_x f))) <= 1250 * k * s ^ 3 /\ Rabs (hyy - at_x (d_y (d_y f))) <= 1250 * k * s ^ 3.
Proof.
  intros g s m n params i f k x Hs M Hm Hn I S Sm Hx Hy. cbv zeta. assert (Hs0 : 0 < s) by (eapply Rlt_le_trans; [|exact Hs]; lra).
  destruct (found_almost g s m n x Hs M Hm Hn Hx Hy) as (t & p & q & r & L & d & E & T & B & A & Hd & _).
  assert (Gi : i_grid i = g) by (destruct (C1_ok _ _ _ I) as [-> _]; reflexivity). rewrite <- Gi in E. destruct (euclid_at i x t L E) as [-> ->].
  assert (EH : euclid_hessian i (fst x) (snd x) = i_hessian i t L) by (unfold euclid_hessian, to_barycentric_inputs; unfold vec in E; rewrite E; reflexivity). rewrite EH.
  assert (A' : almost (1 / 100) L) by (unfold almost in *; lra). assert (Dx : rectangle (INR m * s) (INR n * s) x) by (split; assumption).
  destruct (C1_error g s m n params i f k t p q r L x (1 / 100) (29 / 20) (641 / 100) (53 / 50) Hs0 M I S Sm T B Dx ltac:(lra) A' ltac:(lra) ltac:(lra) ltac:(lra) ltac:(lra))
    as (Hk & v & gx & gy & hxx & hxy & hyy & V & G & H & R1 & R2 & R3 & R4 & R5 & R6). exists v, gx, gy, hxx, hxy, hyy. split; [exact V|]. split; [exact G|]. split; [exact H|].
  assert (Q : forall a c c' n', c <= c' -> a <= c * k * s ^ n' -> a <= c' * k * s ^ n').
  { intros a c c' n' Hc Ha. eapply Rle_trans; [exact Ha|]. apply Rmult_le_compat_r; [apply pow_le; lra|]. apply Rmult_le_compat_r; assumption. }
  split; [eapply Q; [|exact R1]; lra|]. split; [eapply Q; [|exact R2]; lra|]. split; [eapply Q; [|exact R3]; lra|].
  split; [eapply Q; [|exact R4]; lra|]. split; [eapply Q; [|exact R5]; lra|eapply Q; [|exact R6]; lra].
Qed.
Print Assumptions C110_euclidean.
(** A function of the plane whose derivatives of order five are at most [k] meets the hypothesis with [6 * k]. *)
Theorem C110_bounded_derivatives : forall w h k f d, five_derivatives (rectangle w h) k f d -> smooth_on (rectangle w h) (6 * k) f.
Proof. exact taylor. Qed.
Print Assumptions C110_bounded_derivatives.

(** A function that meets the hypotheses, on a mesh the library builds. *)
Definition fifth (x y : R) : R := x ^ 5 + x ^ 2 * y ^ 3.
Definition fifth_d (i j : nat) (x y : R) : R := match i, j with
  | 0, 0 => x ^ 5 + x ^ 2 * y ^ 3 | 1, 0 => 5 * x ^ 4 + 2 * x * y ^ 3 | 2, 0 => 20 * x ^ 3 + 2 * y ^ 3 | 3, 0 => 60 * x ^ 2 | 4, 0 => 120 * x | 5, 0 => 120
  | 0, 1 => 3 * x ^ 2 * y ^ 2 | 1, 1 => 6 * x * y ^ 2 | 2, 1 => 6 * y ^ 2 | 0, 2 => 6 * x ^ 2 * y | 1, 2 => 12 * x * y | 2, 2 => 12 * y
  | 0, 3 => 6 * x ^ 2 | 1, 3 => 12 * x | 2, 3 => 12 | _, _ => 0 end%R.
Lemma fifth_derivatives w h : five_derivatives (rectangle w h) 120 fifth fifth_d.
Proof.
  split; [reflexivity|]. split.
  - intros i j H x y. destruct i as [|[|[|[|[|i]]]]]; [| | | | |lia]; (destruct j as [|[|[|[|[|j]]]]]; try lia); cbn [fifth_d]; split; (auto_derive; [exact I|]; cbv beta; match goal with |- ?a = ?b => change (@eq R a b) end; cbn [pred INR pow]; ring).
  - intros i j x H _. destruct i as [|[|[|[|[|[|i]]]]]]; try lia; (destruct j as [|[|[|[|[|[|j]]]]]]; try lia); cbn [fifth_d]; apply Rabs_le; lra.
Qed.
Theorem C110_example : exists g params i, domain_grid std_order 1 1 FixNone (1/2) = Ok g /\ mesh g (1/2) 2 2 /\
  C1Interpolation_ g params = Ok i /\ samples g (jet fifth) params /\ smooth_on (rectangle (INR 2 * (1/2)) (INR 2 * (1/2))) 720 fifth /\
  five_derivatives (rectangle (INR 2 * (1/2)) (INR 2 * (1/2))) 120 fifth fifth_d /\ exists t p q r, triangle_at g t p q r.
Proof.
  destruct ex_mesh as (g & G & M). set (rd := fun v => match nth_error (g_points g) v with Some [a; b] => jet fifth (a, b) | _ => repeat 0 6 end).
  set (params := map rd (seq 0 (length (g_points g)))).
  assert (Sm : samples g (jet fifth) params).
  { intros v p P. unfold point_at in P. assert (Hv : (v < length (g_points g))%nat) by (apply nth_error_Some; rewrite P; discriminate).
    unfold params. rewrite nth_error_map. rewrite (nth_error_nth' _ 0%nat) by (rewrite seq_length; exact Hv). rewrite seq_nth by exact Hv. cbn [option_map]. apply f_equal. unfold rd. replace (0 + v)%nat with v by lia. destruct p as [p1 p2]. exact (f_equal (fun o => match o with Some [a; b] => jet fifth (a, b) | _ => repeat 0 6 end) P). }
  destruct (mesh_points _ _ _ _ M 0 0 ltac:(lia) ltac:(lia)) as [v1 [V1 _]]. destruct (mesh_points _ _ _ _ M 1 0 ltac:(lia) ltac:(lia)) as [v2 [V2 _]].
  destruct (mesh_points _ _ _ _ M 1 1 ltac:(lia) ltac:(lia)) as [v3 [V3 _]].
  assert (T : exists t p q r, triangle_at g t p q r).
  { exists (v1, v2, v3), (INR 0 * (1/2), INR 0 * (1/2)), (INR 1 * (1/2), INR 0 * (1/2)), (INR 1 * (1/2), INR 1 * (1/2)).
    split; [apply (mesh_triangles _ _ _ _ M); exists 0%nat, 0%nat; split; [lia|]; split; [lia|]; left; repeat split; first [apply V1|apply V2|apply V3]|].
    split; [apply V1|split; [apply V2|apply V3]]. }
  assert (I : exists i, C1Interpolation_ g params = Ok i).
  { apply (C49_C1 g params). split.
    - unfold params. rewrite map_length, seq_length. symmetry. apply (mesh_length g (1/2) 2 2). exact M.
    - intros u Hu. unfold params in Hu. apply in_map_iff in Hu as [v [<- Hv]]. apply in_seq in Hv. unfold rd.
      destruct (nth_error (g_points g) v) as [[|a [|b [|]]]|]; reflexivity. }
  destruct I as [i I]. exists g, params, i. split; [exact G|]. split; [exact M|]. split; [exact I|]. split; [exact Sm|].
  split; [replace 720 with (6 * 120) by lra; apply (taylor _ _ _ _ _ (fifth_derivatives _ _))|]. split; [apply fifth_derivatives|exact T].
Qed.
Print Assumptions C110_example.
