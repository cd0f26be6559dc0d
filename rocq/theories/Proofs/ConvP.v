(** * Distances in a triangle of a mesh, for C108 and C109 *)
From Coq Require Import Reals Lra Lia List Psatz.
From Verif.Model Require Import Py Num Tensors Domain Refine Interp.
From Verif.Spec Require Import GridSpec RefineSpec InterpSpec ConvSpec.
From Verif.Proofs Require Import Lib LocateP FindP HatP InterpP MeshLoc.
Local Open Scope R_scope.
Import ListNotations.

Definition sq (x y : R * R) : R := (fst x - fst y) * (fst x - fst y) + (snd x - snd y) * (snd x - snd y).
Lemma sq_pos x y : 0 <= sq x y. Proof. unfold sq. pose proof (Rle_0_sqr (fst x - fst y)). pose proof (Rle_0_sqr (snd x - snd y)). unfold Rsqr in *. lra. Qed.
Lemma dist_sq x y : dist x y * dist x y = sq x y. Proof. unfold dist. apply sqrt_sqrt. apply sq_pos. Qed.
Lemma dist_pos x y : 0 <= dist x y. Proof. apply sqrt_pos. Qed.
Lemma dist_le x y c : 0 <= c -> sq x y <= c * c -> dist x y <= c.
Proof. intros Hc H. unfold dist. fold (sq x y). rewrite <- (sqrt_square c Hc). apply sqrt_le_1_alt, H. Qed.
Lemma sq_sym x y : sq x y = sq y x. Proof. unfold sq. ring. Qed.
Lemma dist_sym x y : dist x y = dist y x. Proof. unfold dist. f_equal. ring. Qed.

(** The two shapes. *)
Inductive shape (s : R) : R * R -> R * R -> R * R -> Prop :=
| sh_lower a b : shape s (a, b) (a + s, b) (a + s, b + s)
| sh_upper a b : shape s (a + s, b + s) (a, b + s) (a, b).
Lemma mesh_shape g s m n t p q r : mesh g s m n -> triangle_at g t p q r -> shape s p q r.
Proof.
  intros M T. destruct (tri_lattice g s m n M t p q r T) as (i & j & _ & _ & [(_ & -> & -> & ->)|(_ & -> & -> & ->)]).
  - replace ((INR i + 1) * s) with (INR i * s + s) by ring. replace ((INR j + 1) * s) with (INR j * s + s) by ring. constructor.
  - replace ((INR i + 1) * s) with (INR i * s + s) by ring. replace ((INR j + 1) * s) with (INR j * s + s) by ring. constructor.
Qed.
(** Squared distances to the corners, in the coordinates. *)
Lemma shape_sq s p q r b x : shape s p q r -> bary_of p q r b x ->
  sq p x = s * s * ((1 - l1 b) * (1 - l1 b) + l3 b * l3 b) /\ sq q x = s * s * (l1 b * l1 b + l3 b * l3 b) /\
  sq r x = s * s * (l1 b * l1 b + (1 - l3 b) * (1 - l3 b)).
Proof.
  intros S [E [X Y]]. assert (Z : l2 b = 1 - l1 b - l3 b) by lra. destruct S; unfold sq; cbn [fst snd] in *; rewrite X, Y, Z; repeat split; ring.
Qed.
Lemma scale_le c a b : 0 <= c -> a <= b -> c * a <= c * b. Proof. intros. apply Rmult_le_compat_l; assumption. Qed.
Lemma ss_pos s : 0 <= s * s. Proof. nra. Qed.
(** The mean squared distance is at most the squared circumradius. *)
Lemma shape_mean s p q r b x : shape s p q r -> bary_of p q r b x -> l1 b * sq p x + l2 b * sq q x + l3 b * sq r x <= s * s / 2.
Proof.
  intros S B. destruct (shape_sq _ _ _ _ _ _ S B) as (-> & -> & ->). destruct B as [E _].
  assert (Z : l2 b = 1 - l1 b - l3 b) by lra. rewrite Z. generalize (l1 b) (l3 b). intros u w.
  replace (s * s / 2) with (s * s * (1 / 2)) by field. 
  match goal with |- ?a <= _ => replace a with (s * s * (u * (1 - u) + w * (1 - w))) by ring end.
  apply scale_le; [apply ss_pos|]. pose proof (Rle_0_sqr (u - 1/2)). pose proof (Rle_0_sqr (w - 1/2)). unfold Rsqr in *. lra.
Qed.
Definition almost (d : R) (b : bary R) : Prop := - d <= l1 b /\ - d <= l2 b /\ - d <= l3 b.
Lemma abs_sq a c : - c <= a <= c -> a * a <= c * c. Proof. intros. nra. Qed.
Lemma shape_far s p q r b x d : shape s p q r -> bary_of p q r b x -> 0 <= d -> almost d b ->
  sq p x <= 2 * (1 + 2 * d) * (1 + 2 * d) * (s * s) /\ sq q x <= 2 * (1 + 2 * d) * (1 + 2 * d) * (s * s) /\ sq r x <= 2 * (1 + 2 * d) * (1 + 2 * d) * (s * s).
Proof.
  intros S B Hd [A1 [A2 A3]]. destruct (shape_sq _ _ _ _ _ _ S B) as (-> & -> & ->). destruct B as [E _].
  assert (B1 : l1 b * l1 b <= (1 + 2 * d) * (1 + 2 * d)) by (apply abs_sq; lra).
  assert (B3 : l3 b * l3 b <= (1 + 2 * d) * (1 + 2 * d)) by (apply abs_sq; lra).
  assert (C1 : (1 - l1 b) * (1 - l1 b) <= (1 + 2 * d) * (1 + 2 * d)) by (apply abs_sq; lra).
  assert (C3 : (1 - l3 b) * (1 - l3 b) <= (1 + 2 * d) * (1 + 2 * d)) by (apply abs_sq; lra).
  replace (2 * (1 + 2 * d) * (1 + 2 * d) * (s * s)) with (s * s * (2 * ((1 + 2 * d) * (1 + 2 * d)))) by ring.
  repeat split; apply scale_le; try apply ss_pos; lra.
Qed.
Lemma two_far0 u v w : 0 <= u -> 0 <= v -> 0 <= w -> u + v + w = 1 ->
  (1 - u) * (1 - u) + w * w + (u * u + w * w) <= 3 /\ (u * u + w * w) + (u * u + (1 - w) * (1 - w)) <= 3.
Proof. intros. split; nra. Qed.
Lemma two_far1 u v w : - (1/100) <= u -> - (1/100) <= v -> - (1/100) <= w -> u + v + w = 1 ->
  (1 - u) * (1 - u) + w * w + (u * u + w * w) <= 16/5 /\ (u * u + w * w) + (u * u + (1 - w) * (1 - w)) <= 16/5.
Proof.
  intros H1 H2 H3 E. set (a := u + 1/100). set (c := w + 1/100). assert (Ha : 0 <= a) by (unfold a; lra). assert (Hc : 0 <= c) by (unfold c; lra).
  assert (Hs : a + c <= 103/100) by (unfold a, c; lra). replace u with (a - 1/100) by (unfold a; lra). replace w with (c - 1/100) by (unfold c; lra).
  clearbody a c. clear -Ha Hc Hs. split; nra.
Qed.
Lemma shape_two s p q r b x : shape s p q r -> bary_of p q r b x -> non_negative b ->
  sq p x + sq q x <= 3 * (s * s) /\ sq q x + sq r x <= 3 * (s * s).
Proof.
  intros S B (A1 & A2 & A3). destruct (shape_sq _ _ _ _ _ _ S B) as (-> & -> & ->). destruct B as [E _].
  destruct (two_far0 _ _ _ A1 A2 A3 E) as [H1 H2]. rewrite <- !Rmult_plus_distr_l, !(Rmult_comm 3). split; apply scale_le; try apply ss_pos; assumption.
Qed.
Lemma shape_two1 s p q r b x : shape s p q r -> bary_of p q r b x -> almost (1/100) b ->
  sq p x + sq q x <= 16/5 * (s * s) /\ sq q x + sq r x <= 16/5 * (s * s).
Proof.
  intros S B (A1 & A2 & A3). destruct (shape_sq _ _ _ _ _ _ S B) as (-> & -> & ->). destruct B as [E _].
  destruct (two_far1 _ _ _ A1 A2 A3 E) as [H1 H2]. rewrite <- !Rmult_plus_distr_l, !(Rmult_comm (16/5)). split; apply scale_le; try apply ss_pos; assumption.
Qed.

(** ** Weighted sums of values at the corners *)
Lemma abs3 a b c A B C : Rabs a <= A -> Rabs b <= B -> Rabs c <= C -> Rabs (a + b + c) <= A + B + C.
Proof. intros. eapply Rle_trans; [apply Rabs_triang|]. pose proof (Rabs_triang a b). lra. Qed.
Lemma abs_scale l a A d : - d <= l -> 0 <= d -> Rabs a <= A -> Rabs (l * a) <= (l + 2 * d) * A.
Proof. intros. rewrite Rabs_mult. pose proof (Rabs_pos a). assert (Rabs l <= l + 2 * d) by (apply Rabs_le; lra). pose proof (Rabs_pos l). apply Rmult_le_compat; assumption. Qed.

Section Tri.
Context (s : R) (Hs : 0 < s) (p q r x : R * R) (b : bary R) (Sh : shape s p q r) (B : bary_of p q r b x).
Context (d : R) (Hd : 0 <= d) (A : almost d b).
Context (D : R * R -> Prop) (Dp : D p) (Dq : D q) (Dr : D r) (Dx : D x).

Lemma value_lip k f : 0 <= k -> lipschitz_on D k f ->
  Rabs (l1 b * f p + l2 b * f q + l3 b * f r - f x) <= k * ((1 + 6 * d) * ((1 + 2 * d) * (sqrt 2 * s))).
Proof.
  intros Hk Lf. pose proof B as [E _]. destruct A as (A1 & A2 & A3).
  destruct (shape_far _ _ _ _ _ _ _ Sh B Hd A) as (F1 & F2 & F3).
  set (Z := (1 + 2 * d) * (sqrt 2 * s)). assert (HZ : 0 <= Z) by (unfold Z; pose proof (sqrt_pos 2); apply Rmult_le_pos; [lra|apply Rmult_le_pos; lra]).
  assert (ZZ : Z * Z = 2 * (1 + 2 * d) * (1 + 2 * d) * (s * s)).
  { unfold Z. replace ((1 + 2 * d) * (sqrt 2 * s) * ((1 + 2 * d) * (sqrt 2 * s))) with ((sqrt 2 * sqrt 2) * ((1 + 2 * d) * (1 + 2 * d) * (s * s))) by ring. rewrite sqrt_sqrt by lra. ring. }
  rewrite <- ZZ in F1, F2, F3. apply (dist_le _ _ _ HZ) in F1. apply (dist_le _ _ _ HZ) in F2. apply (dist_le _ _ _ HZ) in F3.
  assert (V : forall y, D y -> dist y x <= Z -> Rabs (f y - f x) <= k * Z) by (intros y Dy Hy; eapply Rle_trans; [apply Lf; assumption|apply scale_le; assumption]).
  replace (l1 b * f p + l2 b * f q + l3 b * f r - f x) with (l1 b * (f p - f x) + l2 b * (f q - f x) + l3 b * (f r - f x)) by (replace (l1 b) with (1 - l2 b - l3 b) by lra; ring).
  eapply Rle_trans; [apply abs3; apply abs_scale with (d := d); try eassumption; apply V; assumption|].
  right. replace (l1 b) with (1 - l2 b - l3 b) by lra. ring.
Qed.
Lemma value_curved k f fx fy : 0 <= k -> curved_on D k f fx fy ->
  Rabs (l1 b * f p + l2 b * f q + l3 b * f r - f x) <= k * (s * s / 4 + 6 * d * ((1 + 2 * d) * (1 + 2 * d)) * (s * s)).
Proof.
  intros Hk Cf. pose proof B as [E [X Y]]. destruct A as (A1 & A2 & A3).
  destruct (shape_far _ _ _ _ _ _ _ Sh B Hd A) as (F1 & F2 & F3). pose proof (shape_mean _ _ _ _ _ _ Sh B) as Mn.
  pose proof (Cf x p Dx Dp) as C1. pose proof (Cf x q Dx Dq) as C2. pose proof (Cf x r Dx Dr) as C3. rewrite dist_sq, sq_sym in C1, C2, C3.
  match type of C1 with Rabs ?e <= _ => set (e1 := e) in * end. match type of C2 with Rabs ?e <= _ => set (e2 := e) in * end. match type of C3 with Rabs ?e <= _ => set (e3 := e) in * end.
  replace (l1 b * f p + l2 b * f q + l3 b * f r - f x) with (l1 b * e1 + l2 b * e2 + l3 b * e3).
  2:{ unfold e1, e2, e3. rewrite X, Y. replace (l1 b) with (1 - l2 b - l3 b) by lra. ring. }
  eapply Rle_trans; [apply abs3; apply abs_scale with (d := d); eassumption|].
  set (T := 2 * (1 + 2 * d) * (1 + 2 * d) * (s * s)) in *.
  replace (k * (s * s / 4 + 6 * d * ((1 + 2 * d) * (1 + 2 * d)) * (s * s))) with (k / 2 * (s * s / 2 + 2 * d * (3 * T))) by (unfold T; field).
  match goal with |- ?a <= _ => replace a with (k / 2 * ((l1 b * sq p x + l2 b * sq q x + l3 b * sq r x) + 2 * d * (sq p x + sq q x + sq r x))) by field end.
  apply scale_le; [lra|]. apply Rplus_le_compat; [exact Mn|]. apply scale_le; lra.
Qed.
End Tri.

(** The difference quotients a P1 function on a triangle of the mesh has. *)
Lemma quotient (D : R * R -> Prop) k f fx fy s x y z c : D x -> D y -> D z -> 0 < s -> 0 <= k -> curved_on D k f fx fy -> sq y x + sq z x <= c * (s * s) ->
  Rabs ((f y - f z) / s - (fx x * (fst y - fst z) + fy x * (snd y - snd z)) / s) <= k / 2 * c * s.
Proof.
  intros Dx Dy Dz Hs Hk Cf H. pose proof (Cf x y Dx Dy) as C1. pose proof (Cf x z Dx Dz) as C2. rewrite dist_sq, sq_sym in C1, C2.
  match type of C1 with Rabs ?e <= _ => set (e1 := e) in * end. match type of C2 with Rabs ?e <= _ => set (e2 := e) in * end.
  match goal with |- Rabs ?e <= _ => replace e with ((e1 - e2) / s) by (unfold e1, e2; field; lra) end.
  unfold Rdiv at 1. rewrite Rabs_mult, (Rabs_right (/ s)) by (apply Rle_ge, Rlt_le, Rinv_0_lt_compat; exact Hs).
  apply Rmult_le_reg_r with s; [exact Hs|]. rewrite Rmult_assoc, Rinv_l, Rmult_1_r by lra.
  assert (Rabs (e1 - e2) <= k / 2 * (sq y x + sq z x)). { eapply Rle_trans; [apply Rabs_triang|]. rewrite Rabs_Ropp. lra. }
  eapply Rle_trans; [eassumption|]. replace (k / 2 * c * s * s) with (k / 2 * (c * (s * s))) by ring. apply scale_le; lra.
Qed.
Lemma gradient_curved (D : R * R -> Prop) s p q r x k f fx fy c : D x -> D p -> D q -> D r -> 0 < s -> shape s p q r -> 0 <= k -> curved_on D k f fx fy -> sq p x + sq q x <= c * (s * s) -> sq q x + sq r x <= c * (s * s) ->
  cross p q r = s * s -> 
  Rabs (((snd q - snd r) * f p + (snd r - snd p) * f q + (snd p - snd q) * f r) / cross p q r - fx x) <= k / 2 * c * s /\
  Rabs (((fst r - fst q) * f p + (fst p - fst r) * f q + (fst q - fst p) * f r) / cross p q r - fy x) <= k / 2 * c * s.
Proof.
  intros Dx Dp Dq Dr Hs Sh Hk Cf H1 H2 Hc. rewrite Hc. rewrite (Rplus_comm (sq p x)) in H1. pose proof H2 as H2'. rewrite Rplus_comm in H2'. pose proof H1 as H1'. rewrite Rplus_comm in H1'.
  pose proof (quotient D k f fx fy s x q p c Dx Dq Dp Hs Hk Cf H1) as Q1. pose proof (quotient D k f fx fy s x p q c Dx Dp Dq Hs Hk Cf H1') as Q2.
  pose proof (quotient D k f fx fy s x r q c Dx Dr Dq Hs Hk Cf H2') as Q3. pose proof (quotient D k f fx fy s x q r c Dx Dq Dr Hs Hk Cf H2) as Q4.
  destruct Sh; cbn [fst snd] in *.
  - split; [eapply Rle_trans; [|exact Q1]|eapply Rle_trans; [|exact Q3]]; right; apply f_equal; field; lra.
  - split; [eapply Rle_trans; [|exact Q2]|eapply Rle_trans; [|exact Q4]]; right; apply f_equal; field; lra.
Qed.

(** Corners and points of the triangles of a mesh lie in its rectangle. *)
Lemma mesh_corners g s m n t p q r : 0 < s -> mesh g s m n -> triangle_at g t p q r ->
  rectangle (INR m * s) (INR n * s) p /\ rectangle (INR m * s) (INR n * s) q /\ rectangle (INR m * s) (INR n * s) r.
Proof.
  intros Hs M T. destruct (tri_lattice g s m n M t p q r T) as (i & j & Hi & Hj & Sh).
  assert (Bi : 0 <= INR i /\ INR i + 1 <= INR m). { split; [apply pos_INR|]. change 1 with (INR 1). rewrite <- plus_INR. apply le_INR. lia. }
  assert (Bj : 0 <= INR j /\ INR j + 1 <= INR n). { split; [apply pos_INR|]. change 1 with (INR 1). rewrite <- plus_INR. apply le_INR. lia. }
  unfold rectangle. destruct Sh as [(_ & -> & -> & ->)|(_ & -> & -> & ->)]; cbn [fst snd]; repeat split; nra.
Qed.
Lemma mean_between a b c u v w m : 0 <= u -> 0 <= v -> 0 <= w -> u + v + w = 1 -> 0 <= a <= m -> 0 <= b <= m -> 0 <= c <= m -> 0 <= u * a + v * b + w * c <= m.
Proof. intros. nra. Qed.
Lemma rectangle_convex a b p q r L x : rectangle a b p -> rectangle a b q -> rectangle a b r -> bary_of p q r L x -> non_negative L -> rectangle a b x.
Proof. intros [] [] [] [E [X Y]] (N1 & N2 & N3). split; [rewrite X|rewrite Y]; apply mean_between; assumption. Qed.
Lemma lipschitz_pos (D : R * R -> Prop) k f x y : lipschitz_on D k f -> D x -> D y -> 0 < sq x y -> 0 <= k.
Proof.
  intros H Dx Dy P. specialize (H x y Dx Dy). pose proof (Rabs_pos (f x - f y)). assert (0 < dist x y) by (apply sqrt_lt_R0, P).
  destruct (Rle_dec 0 k); [assumption|]. nra.
Qed.
Lemma curved_pos (D : R * R -> Prop) k f fx fy x y : curved_on D k f fx fy -> D x -> D y -> 0 < sq x y -> 0 <= k.
Proof.
  intros H Dx Dy P. specialize (H x y Dx Dy). rewrite dist_sq in H. match type of H with Rabs ?e <= _ => pose proof (Rabs_pos e) end.
  destruct (Rle_dec 0 k); [assumption|]. nra.
Qed.
Lemma shape_apart s p q r : 0 < s -> shape s p q r -> 0 < sq p q.
Proof. intros Hs S. destruct S; unfold sq; cbn [fst snd]; nra. Qed.
