(** * Theorems on convergence with the mesh (C108) *)
From Coq Require Import Reals Lra Lia List Psatz.
From Coquelicot Require Import Coquelicot.
From Verif.Model Require Import Py Num Tensors Domain Refine Interp.
From Verif.Spec Require Import GridSpec RefineSpec QuadSpec BellSpec InterpSpec ConvSpec.
From Verif.Proofs Require Import Lib LocateP FindP HatP InterpP MeshLoc StdOrder ConvP.
From Verif.Props Require Import InterpProps.
Local Open Scope R_scope.
Import ListNotations.

Lemma non_negative_almost b : non_negative b -> almost 0 b.
Proof. intros (A & B & C). unfold almost. lra. Qed.
Lemma P1_sampled g params i t p q r L f : P1Interpolation_ g params = Ok i -> samples g f params -> triangle_at g t p q r ->
  i_call i t L = Ok (l1 L * f p + l2 L * f q + l3 L * f r) /\
  (cross p q r <> 0 -> i_gradient i t L = Ok (gradient_value
     (((snd q - snd r) * f p + (snd r - snd p) * f q + (snd p - snd q) * f r) / cross p q r)
     (((fst r - fst q) * f p + (fst p - fst r) * f q + (fst q - fst p) * f r) / cross p q r))).
Proof.
  intros H S T. apply P1_ok in H as [-> _]. destruct t as [[a b] c]. pose proof T as [_ [A [B C]]].
  exact (P1_calls g params a b c p q r _ _ _ L T (S _ _ A) (S _ _ B) (S _ _ C)).
Qed.

(** ** C108 *)
(** In every triangle of a mesh with cells of side [s] the P1 interpolation of a function that varies by at most [k] times
    the distance is within [k * sqrt 2 * s] of the function. *)
Theorem C108_continuous_functions : forall g s m n params i f k t p q r L x, 0 < s -> mesh g s m n -> P1Interpolation_ g params = Ok i ->
  samples g f params -> lipschitz_on (rectangle (INR m * s) (INR n * s)) k f -> triangle_at g t p q r -> bary_of p q r L x -> non_negative L ->
  exists v, i_call i t L = Ok v /\ Rabs (v - f x) <= k * (sqrt 2 * s).
Proof.
  intros g s m n params i f k t p q r L x Hs M I S Lf T B N. destruct (P1_sampled g params i t p q r L f I S T) as [-> _].
  eexists. split; [reflexivity|]. pose proof (mesh_shape _ _ _ _ _ _ _ _ M T) as Sh. destruct (mesh_corners g s m n t p q r Hs M T) as (Dp & Dq & Dr). pose proof Sh as Ap. apply (shape_apart s p q r Hs) in Ap.
  pose proof (rectangle_convex _ _ _ _ _ _ _ Dp Dq Dr B N) as Dx.
  pose proof (value_lip s Hs p q r x L Sh B 0 (Rle_refl 0) (non_negative_almost _ N) _ Dp Dq Dr Dx k f (lipschitz_pos _ _ _ _ _ Lf Dp Dq Ap) Lf) as V.
  eapply Rle_trans; [exact V|]. right. ring.
Qed.
Print Assumptions C108_continuous_functions.
(** For functions with bounded second derivatives the value is within [k * s^2 / 4] and each derivative within [3/2 * k * s]. *)
Theorem C108_smooth_functions : forall g s m n params i f fx fy k t p q r L x, 0 < s -> mesh g s m n -> P1Interpolation_ g params = Ok i ->
  samples g f params -> curved_on (rectangle (INR m * s) (INR n * s)) k f fx fy -> triangle_at g t p q r -> bary_of p q r L x -> non_negative L ->
  exists v gx gy, i_call i t L = Ok v /\ i_gradient i t L = Ok (gradient_value gx gy) /\
    Rabs (v - f x) <= k * (s * s) / 4 /\ Rabs (gx - fx x) <= 3 / 2 * k * s /\ Rabs (gy - fy x) <= 3 / 2 * k * s.
Proof.
  intros g s m n params i f fx fy k t p q r L x Hs M I S Cf T B N. destruct (P1_sampled g params i t p q r L f I S T) as [-> G].
  pose proof (mesh_shape _ _ _ _ _ _ _ _ M T) as Sh. destruct (mesh_corners g s m n t p q r Hs M T) as (Dp & Dq & Dr). pose proof Sh as Ap. apply (shape_apart s p q r Hs) in Ap. pose proof (mesh_cross g s m n M _ _ _ _ T) as HC. rewrite G by (rewrite HC; nra).
  destruct (shape_two _ _ _ _ _ _ Sh B N) as [D1 D2]. pose proof (curved_pos _ _ _ _ _ _ _ Cf Dp Dq Ap) as Hk. pose proof (rectangle_convex _ _ _ _ _ _ _ Dp Dq Dr B N) as Dx.
  destruct (gradient_curved _ s p q r x k f fx fy 3 Dx Dp Dq Dr Hs Sh Hk Cf D1 D2 HC) as [G1 G2].
  do 3 eexists. split; [reflexivity|]. split; [reflexivity|]. split; [|split].
  - pose proof (value_curved s p q r x L Sh B 0 (Rle_refl 0) (non_negative_almost _ N) _ Dp Dq Dr Dx k f fx fy Hk Cf) as V. eapply Rle_trans; [exact V|]. right. field.
  - eapply Rle_trans; [exact G1|]. right. field.
  - eapply Rle_trans; [exact G2|]. right. field.
Qed.
Print Assumptions C108_smooth_functions.

Lemma found_almost g s m n x : 1 / 10 ^ 4 <= s -> mesh g s m n -> (1 <= m)%nat -> (1 <= n)%nat -> 0 <= fst x <= INR m * s -> 0 <= snd x <= INR n * s ->
  exists t p q r L d, to_barycentric_point g (vec x) = Ok (Some (t, L)) /\ triangle_at g t p q r /\ bary_of p q r L x /\ almost d L /\ 0 <= d <= 1 / 100 /\ d * (s * s) = / 10 ^ 10.
Proof.
  intros Hs M Hm Hn Hx Hy. assert (Hs0 : 0 < s) by (eapply Rlt_le_trans; [|exact Hs]; lra).
  assert (SS : / 10 ^ 8 <= s * s). { replace (/ 10 ^ 8) with ((1 / 10 ^ 4) * (1 / 10 ^ 4)) by field. apply Rmult_le_compat; lra. }
  assert (E10 : eps10 <= s * s) by (unfold eps10; lra).
  destruct (mesh_found g s m n Hs0 M x Hm Hn Hx Hy) as (t & p & q & r & L & E & T & B).
  exists t, p, q, r, L, (eps10 / (s * s)). split; [exact E|]. split; [exact T|]. split; [exact B|].
  pose proof (mesh_bounded_below g s m n Hs0 M x t L E10 E) as Bb. assert (P : 0 < s * s) by nra.
  split; [unfold almost; replace (- (eps10 / (s * s))) with (- eps10 / (s * s)) by (field; lra); exact Bb|]. split; [split|unfold eps10; field; lra].
  - apply Rlt_le, Rdiv_lt_0_compat; [apply eps10_pos|exact P].
  - apply Rle_div_l; [exact P|]. unfold eps10. lra.
Qed.
Lemma euclid_at i x t L : to_barycentric_point (i_grid i) (vec x) = Ok (Some (t, L)) ->
  euclid_call i (fst x) (snd x) = i_call i t L /\ euclid_gradient i (fst x) (snd x) = i_gradient i t L.
Proof. intros E. unfold euclid_call, euclid_gradient, to_barycentric_inputs. unfold vec in E. rewrite E. cbn [bind]. auto. Qed.
(** The same for evaluation at points of the rectangle, for cells of side at least 1e-4; the tolerance 1e-10 of point location
    (which may pick a triangle that misses the point by that much) costs a little. *)
Theorem C108_euclidean_continuous : forall g s m n params i f k x, 1 / 10 ^ 4 <= s -> mesh g s m n -> (1 <= m)%nat -> (1 <= n)%nat ->
  P1Interpolation_ g params = Ok i -> samples g f params -> lipschitz_on (rectangle (INR m * s) (INR n * s)) k f -> 0 <= fst x <= INR m * s -> 0 <= snd x <= INR n * s ->
  exists v, euclid_call i (fst x) (snd x) = Ok v /\ Rabs (v - f x) <= 2 * k * s.
Proof.
  intros g s m n params i f k x Hs M Hm Hn I S Lf Hx Hy. assert (Hs0 : 0 < s) by (eapply Rlt_le_trans; [|exact Hs]; lra).
  destruct (found_almost g s m n x Hs M Hm Hn Hx Hy) as (t & p & q & r & L & d & E & T & B & A & Hd & _).
  assert (Gi : i_grid i = g) by (destruct (P1_ok _ _ _ I) as [-> _]; reflexivity). rewrite <- Gi in E. destruct (euclid_at i x t L E) as [-> _].
  destruct (P1_sampled g params i t p q r L f I S T) as [-> _]. eexists. split; [reflexivity|].
  pose proof (mesh_shape _ _ _ _ _ _ _ _ M T) as Sh. destruct (mesh_corners g s m n t p q r Hs0 M T) as (Dp & Dq & Dr). pose proof Sh as Ap. apply (shape_apart s p q r Hs0) in Ap.
  assert (Dx : rectangle (INR m * s) (INR n * s) x) by (split; assumption).
  pose proof (lipschitz_pos _ _ _ _ _ Lf Dp Dq Ap) as Hk. pose proof (value_lip s Hs0 p q r x L Sh B d (proj1 Hd) A _ Dp Dq Dr Dx k f Hk Lf) as V.
  eapply Rle_trans; [exact V|]. replace (2 * k * s) with (k * (2 * s)) by ring. apply scale_le; [exact Hk|]. rewrite <- !Rmult_assoc. apply Rmult_le_compat_r; [lra|].
  assert (S2 : sqrt 2 <= 3 / 2). { rewrite <- (sqrt_square (3 / 2)) by lra. apply sqrt_le_1_alt. lra. } pose proof (sqrt_pos 2).
  assert ((1 + 6 * d) * (1 + 2 * d) <= 4 / 3) by nra. assert (0 <= (1 + 6 * d) * (1 + 2 * d)) by nra. nra.
Qed.
Print Assumptions C108_euclidean_continuous.
Theorem C108_euclidean_smooth : forall g s m n params i f fx fy k x, 1 / 10 ^ 4 <= s -> mesh g s m n -> (1 <= m)%nat -> (1 <= n)%nat ->
  P1Interpolation_ g params = Ok i -> samples g f params -> curved_on (rectangle (INR m * s) (INR n * s)) k f fx fy -> 0 <= fst x <= INR m * s -> 0 <= snd x <= INR n * s ->
  exists v gx gy, euclid_call i (fst x) (snd x) = Ok v /\ euclid_gradient i (fst x) (snd x) = Ok (gradient_value gx gy) /\
    Rabs (v - f x) <= k * (s * s / 4 + 1 / 10 ^ 9) /\ Rabs (gx - fx x) <= 8 / 5 * k * s /\ Rabs (gy - fy x) <= 8 / 5 * k * s.
Proof.
  intros g s m n params i f fx fy k x Hs M Hm Hn I S Cf Hx Hy. assert (Hs0 : 0 < s) by (eapply Rlt_le_trans; [|exact Hs]; lra).
  destruct (found_almost g s m n x Hs M Hm Hn Hx Hy) as (t & p & q & r & L & d & E & T & B & A & Hd & De).
  assert (Gi : i_grid i = g) by (destruct (P1_ok _ _ _ I) as [-> _]; reflexivity). rewrite <- Gi in E. destruct (euclid_at i x t L E) as [-> ->].
  destruct (P1_sampled g params i t p q r L f I S T) as [-> G].
  pose proof (mesh_shape _ _ _ _ _ _ _ _ M T) as Sh. destruct (mesh_corners g s m n t p q r Hs0 M T) as (Dp & Dq & Dr). pose proof Sh as Ap. apply (shape_apart s p q r Hs0) in Ap. pose proof (mesh_cross g s m n M _ _ _ _ T) as HC. rewrite G by (rewrite HC; nra).
  pose proof (curved_pos _ _ _ _ _ _ _ Cf Dp Dq Ap) as Hk. assert (Dx : rectangle (INR m * s) (INR n * s) x) by (split; assumption). assert (A' : almost (1 / 100) L) by (unfold almost in *; lra).
  destruct (shape_two1 _ _ _ _ _ _ Sh B A') as [D1 D2].
  destruct (gradient_curved _ s p q r x k f fx fy (16 / 5) Dx Dp Dq Dr Hs0 Sh Hk Cf D1 D2 HC) as [G1 G2].
  do 3 eexists. split; [reflexivity|]. split; [reflexivity|]. split; [|split].
  - pose proof (value_curved s p q r x L Sh B d (proj1 Hd) A _ Dp Dq Dr Dx k f fx fy Hk Cf) as V. eapply Rle_trans; [exact V|]. apply scale_le; [exact Hk|]. apply Rplus_le_compat_l.
    replace (6 * d * ((1 + 2 * d) * (1 + 2 * d)) * (s * s)) with (6 * ((1 + 2 * d) * (1 + 2 * d)) * (d * (s * s))) by ring. rewrite De.
    assert ((1 + 2 * d) * (1 + 2 * d) <= 11 / 10) by nra. lra.
  - eapply Rle_trans; [exact G1|]. right. field.
  - eapply Rle_trans; [exact G2|]. right. field.
Qed.
Print Assumptions C108_euclidean_smooth.

(** A function that meets the hypotheses, on a mesh the library builds; at the middle of a diagonal the error is the bound. *)
Definition bowl (x : R * R) : R := fst x * fst x + snd x * snd x.
Lemma bowl_curved D : curved_on D 2 bowl (fun x => 2 * fst x) (fun x => 2 * snd x).
Proof.
  intros x y _ _. rewrite dist_sq. unfold bowl, sq. apply Req_le. rewrite Rabs_right; [field|].
  match goal with |- ?a >= 0 => replace a with ((fst y - fst x) * (fst y - fst x) + (snd y - snd x) * (snd y - snd x)) by ring end. apply Rle_ge. apply (sq_pos y x).
Qed.
Theorem C108_example : exists g params i t p q r, domain_grid std_order 1 1 FixNone (1/2) = Ok g /\ mesh g (1/2) 2 2 /\
  P1Interpolation_ g params = Ok i /\ samples g bowl params /\ curved_on (rectangle (INR 2 * (1/2)) (INR 2 * (1/2))) 2 bowl (fun x => 2 * fst x) (fun x => 2 * snd x) /\
  triangle_at g t p q r /\ bary_of p q r (1/2, 0, 1/2) (1/4, 1/4) /\
  exists v, i_call i t (1/2, 0, 1/2) = Ok v /\ v - bowl (1/4, 1/4) = 2 * (1/2 * (1/2)) / 4.
Proof.
  destruct ex_mesh as (g & G & M). set (rd := fun v => match nth_error (g_points g) v with Some [a; b] => bowl (a, b) | _ => 0 end).
  set (params := map rd (seq 0 (length (g_points g)))).
  assert (Sm : samples g bowl params).
  { intros v p P. unfold point_at in P. assert (Hv : (v < length (g_points g))%nat) by (apply nth_error_Some; rewrite P; discriminate).
    unfold params. rewrite nth_error_map. rewrite (nth_error_nth' _ 0%nat) by (rewrite seq_length; exact Hv). rewrite seq_nth by exact Hv. cbn [option_map]. apply f_equal. unfold rd. replace (0 + v)%nat with v by lia. destruct p as [p1 p2]. exact (f_equal (fun o => match o with Some [a; b] => bowl (a, b) | _ => 0 end) P). }
  destruct (mesh_points _ _ _ _ M 0 0 ltac:(lia) ltac:(lia)) as [v1 [V1 _]]. destruct (mesh_points _ _ _ _ M 1 0 ltac:(lia) ltac:(lia)) as [v2 [V2 _]].
  destruct (mesh_points _ _ _ _ M 1 1 ltac:(lia) ltac:(lia)) as [v3 [V3 _]].
  assert (K : forall v k l, vertex_at g (1/2) v k l -> point_at g v (INR k * (1/2), INR l * (1/2))) by (intros v k l V; apply V).
  assert (T : triangle_at g (v1, v2, v3) (0, 0) (1/2, 0) (1/2, 1/2)).
  { split; [apply (mesh_triangles _ _ _ _ M); exists 0%nat, 0%nat; split; [lia|]; split; [lia|]; left; repeat split; first [apply V1|apply V2|apply V3]|].
    split; [|split]; [replace (0, 0) with (INR 0 * (1/2), INR 0 * (1/2)) by (cbn [INR]; f_equal; field)|replace (1/2, 0) with (INR 1 * (1/2), INR 0 * (1/2)) by (cbn [INR]; f_equal; field)|replace (1/2, 1/2) with (INR 1 * (1/2), INR 1 * (1/2)) by (cbn [INR]; f_equal; field)]; apply K; assumption. }
  destruct (P1Interpolation_ g params) as [i|e] eqn:I.
  2:{ exfalso. assert (X : (exists i, P1Interpolation_ g params = Ok i)); [|destruct X as [i X]; rewrite X in I; discriminate]. 
      apply (C49_P1 g params). unfold params. rewrite map_length, seq_length. symmetry. apply (mesh_length g (1/2) 2 2). exact M. }
  exists g, params, i, (v1, v2, v3), (0, 0), (1/2, 0), (1/2, 1/2). split; [exact G|]. split; [exact M|]. split; [exact I|]. split; [exact Sm|]. split; [apply bowl_curved|].
  split; [exact T|]. split; [unfold bary_of, l1, l2, l3; cbn [fst snd]; lra|].
  destruct (P1_sampled g params i _ _ _ _ (1/2, 0, 1/2) bowl I Sm T) as [-> _]. eexists. split; [reflexivity|]. unfold l1, l2, l3, bowl. cbn [fst snd]. field.
Qed.
Print Assumptions C108_example.
