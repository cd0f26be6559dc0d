(** * Integrating a function that is known up to an error (for C111-C113). *)
From Coq Require Import Reals Lra Lia List Psatz.
From Coquelicot Require Import Coquelicot.
From Verif.Model Require Import Py Num Tensors Domain Refine Quadrature Integrators.
From Verif.Spec Require Import GridSpec QuadSpec RefineSpec InterpSpec ConvSpec.
From Verif.Proofs Require Import Lib QuadP QuadP2 IntegP GridP GridCover StdOrder MeshArea HatP ConvP ConvQ.
From Verif.Props Require Import GridProps QuadProps IntegProps MeshIntegProps ConvProps ConvQuadProps.
Local Open Scope R_scope.
Import ListNotations.

Lemma ws_near {A} (ps : list A) ws f k e : 0 <= e -> (forall p, In p ps -> Rabs (f p - k p) <= e) ->
  Rabs (weighted_sum ps ws f - weighted_sum ps ws k) <= sum_over Rabs ws * e.
Proof.
  intros He. revert ws. induction ps as [|p ps IH]; intros [|w ws] H; cbn [weighted_sum sum_over]; try (rewrite Rminus_diag_eq, Rabs_R0 by reflexivity; try lra).
  - assert (0 <= sum_over Rabs ws) by (clear; induction ws as [|x ws IH]; cbn [sum_over]; [lra|pose proof (Rabs_pos x); lra]). pose proof (Rabs_pos w). apply Rmult_le_pos; lra.
  - specialize (IH ws (fun p' Hp => H p' (or_intror Hp))). specialize (H p (or_introl eq_refl)). replace (w * f p + weighted_sum ps ws f - (w * k p + weighted_sum ps ws k)) with (w * (f p - k p) + (weighted_sum ps ws f - weighted_sum ps ws k)) by ring.
    eapply Rle_trans; [apply Rabs_triang|]. rewrite Rabs_mult, Rmult_plus_distr_r. apply Rplus_le_compat; [apply Rmult_le_compat_l; [apply Rabs_pos|exact H]|exact IH].
Qed.
Section Near.
Context (g : grid R) (s : R) (m n : nat) (Hs : 0 < s) (Hm : (1 <= m)%nat) (Hn : (1 <= n)%nat) (M : mesh g s m n).
Context (weights : list R) (rpoints : list (R * R)) (q : rule R) (Hq : TriangleQuadratureRule_ weights rpoints = Ok q) (HL : length weights = length rpoints).
Context (I : integrator R) (HI : Integrator_ q (g_triangles g) (g_points g) = Ok I).

Lemma areas_sum : sum_over Rabs (i_areas I) = INR m * s * (INR n * s).
Proof.
  destruct (C38_areas q (g_triangles g) (g_points g)) as (I' & HI' & Eq & Et & FA).
  { intros t Ht. destruct (mesh_triangle_at g s m n M t Ht) as (a & b & c & T). exists a, b, c. apply at_corners, T. }
  rewrite HI in HI'. injection HI' as <-.
  assert (EA : forall t z, In t (g_triangles g) -> (exists a b c, corners (g_points g) t a b c /\ z = area a b c) -> z = s * s / 2).
  { intros t z Ht (a & b & c & K & ->). destruct t as [[t1 t2] t3]. assert (T : triangle_at g (t1, t2, t3) a b c) by (split; [exact Ht|exact K]). unfold area, signed_area. rewrite (mesh_cross g s m n M _ _ _ _ T). apply Rabs_right. nra. }
  pose proof (mesh_count g s m n Hs Hm Hn M) as C. assert (E : sum_over Rabs (i_areas I) = INR (length (g_triangles g)) * (s * s / 2)).
  { clear -FA EA Hs. induction FA as [|t z ts zs K FA IH]; [cbn; ring|]. cbn [sum_over length]. rewrite S_INR, IH by (intros; eapply EA; [right; eassumption|assumption]). rewrite (EA t z (or_introl eq_refl) K). rewrite Rabs_right by nra. ring. }
  rewrite E, C, !mult_INR. cbn [INR]. field.
Qed.
(** If the values [F] of the integrand at the quadrature points are within [e] of [k], so are the computed integrals, up to a factor. *)
Lemma integrals_near (F : triangle -> bary R -> res R) (k : triangle -> bary R -> R) e : 0 <= e ->
  (forall t a b c l x, triangle_at g t a b c -> bary_of a b c l x -> non_negative l -> exists v, F t l = Ok v /\ Rabs (v - k t l) <= e) ->
  exists v u, integrate I F = Ok v /\ integrate I (fun t l => Ok (k t l)) = Ok u /\ Rabs (v - u) <= INR m * s * (INR n * s) * (sum_over Rabs weights * e).
Proof.
  intros He HF. destruct (C38_areas q (g_triangles g) (g_points g)) as (I' & HI' & Eq & Et & FA).
  { intros t Ht. destruct (mesh_triangle_at g s m n M t Ht) as (a & b & c & T). exists a, b, c. apply at_corners, T. }
  rewrite HI in HI'. injection HI' as <-. destruct (rule_facts weights rpoints q Hq HL) as (Ew & R1 & _).
  assert (LA : length (i_areas I) = length (i_triangles I)) by (rewrite Et; clear -FA; induction FA; cbn; congruence).
  set (vf := fun t l => match F t l with Ok v => v | Err _ => 0 end).
  assert (V : forall t l, In t (g_triangles g) -> In l (q_points q) -> F t l = Ok (vf t l) /\ Rabs (vf t l - k t l) <= e).
  { intros t l Ht Hl. destruct (mesh_triangle_at g s m n M t Ht) as (a & b & c & T). destruct (R1 l Hl) as [S1 N1]. destruct (HF t a b c l (pt a b c l) T) as (v & E & B); [split; [exact S1|split; reflexivity]|exact N1|]. unfold vf. rewrite E. auto. }
  eexists _, _. split; [apply (integrate_ws I F vf LA)|split; [apply (integrate_ws I _ k LA); reflexivity|]].
  - intros t l Ht Hl. rewrite Et in Ht. rewrite Eq in Hl. apply V; assumption.
  - rewrite Et, Eq. rewrite <- areas_sum. apply ws_near.
    + apply Rmult_le_pos; [|exact He]. clear. induction weights as [|x ws IH]; cbn [sum_over]; [lra|pose proof (Rabs_pos x); lra].
    + intros t Ht. rewrite <- Ew. apply ws_near; [exact He|]. intros l Hl. apply V; assumption.
Qed.
End Near.
(** The six rules and an integrand within [e] of a function that varies by at most [k] times the distance. *)
Lemma near_integral g s m n (q : rule R) I f k e F : 0 < s -> (1 <= m)%nat -> (1 <= n)%nat -> mesh g s m n -> 0 <= e ->
  In (Ok q) [CENTROID; VERTEX; DUNAVANT2; DUNAVANT3; DUNAVANT4; DUNAVANT5] -> Integrator_ q (g_triangles g) (g_points g) = Ok I ->
  lipschitz_on (rectangle (INR m * s) (INR n * s)) k f ->
  (forall t a b c l x, triangle_at g t a b c -> bary_of a b c l x -> non_negative l -> exists v, F t l = Ok v /\ Rabs (v - f x) <= e) ->
  exists v, integrate I F = Ok v /\
    Rabs (v - rectangle_integral (INR m * s) (INR n * s) (fun x y => f (x, y))) <=
    (3 * k * s + 17 / 8 * e) * ((INR m * s) * (INR n * s)) + 1 / 10 ^ 14 * Rabs (rectangle_integral (INR m * s) (INR n * s) (fun x y => f (x, y))).
Proof.
  intros Hs Hm Hn M He Hq HI Lf HF. destruct (library_rule q Hq) as (ws & rp & HT & HL & HA & HW).
  set (pts := fun k => match nth_error (g_points g) k with Some [x; y] => (x, y) | _ => (0, 0) end).
  assert (PT : forall k x, point_at g k x -> pts k = x). { intros k' [x y] P. unfold point_at in P. unfold pts. exact (f_equal (fun o => match o with Some [u; v] => (u, v) | _ => (0, 0) end) P). }
  set (kf := fun (t : triangle) l => let '(a, b, c) := t in f (pt (pts a) (pts b) (pts c) l)).
  assert (KF : forall t a b c l x, triangle_at g t a b c -> bary_of a b c l x -> kf t l = f x).
  { intros [[t1 t2] t3] a b c l [x y] (_ & K1 & K2 & K3) (_ & B1 & B2). unfold kf. rewrite (PT _ _ K1), (PT _ _ K2), (PT _ _ K3). cbn [fst snd] in B1, B2. unfold pt. rewrite <- B1, <- B2. reflexivity. }
  destruct (integrals_near g s m n Hs Hm Hn M ws rp q HT HL I HI F kf e He) as (v & u & E1 & E2 & D).
  { intros t a b c l x T B N. rewrite (KF _ _ _ _ _ _ T B). apply (HF _ _ _ _ _ _ T B N). }
  destruct (C109_library_rules g s m n q I f k _ Hs Hm Hn M Hq HI Lf (fun t a b c l x T B => f_equal Ok (KF t a b c l x T B))) as (u' & E2' & D'). rewrite E2 in E2'. injection E2' as <-.
  exists v. split; [exact E1|]. set (J := rectangle_integral (INR m * s) (INR n * s) (fun x y => f (x, y))) in *. replace (v - J) with ((v - u) + (u - J)) by ring. eapply Rle_trans; [apply Rabs_triang|].
  assert (P : 0 <= INR m * s * (INR n * s)) by (repeat apply Rmult_le_pos; try apply pos_INR; lra). assert (S2 : sqrt 2 <= 3 / 2) by (rewrite <- (sqrt_Rsqr (3/2)) by lra; apply sqrt_le_1_alt; unfold Rsqr; lra). pose proof (sqrt_pos 2) as S0.
  assert (K0 : 0 <= k). { destruct (g_triangles g) as [|t ts] eqn:ET; [pose proof (mesh_count g s m n Hs Hm Hn M) as C; rewrite ET in C; cbn in C; nia|]. destruct (mesh_triangle_at g s m n M t) as (a & b & c & T); [rewrite ET; left; reflexivity|]. destruct (mesh_corners g s m n t a b c Hs M T) as (Da & Db & _). pose proof (mesh_shape _ _ _ _ _ _ _ _ M T) as Sh. apply (shape_apart s a b c Hs) in Sh. exact (lipschitz_pos _ _ _ _ _ Lf Da Db Sh). }
  assert (B1 : INR m * s * (INR n * s) * (sum_over Rabs ws * e) <= 17 / 8 * e * (INR m * s * (INR n * s))). { rewrite Rmult_comm. apply Rmult_le_compat_r; [exact P|]. apply Rmult_le_compat_r; lra. }
  assert (B2 : k * (sqrt 2 * s) <= 3 / 2 * (k * s)). { replace (3 / 2 * (k * s)) with (k * (3 / 2 * s)) by ring. apply Rmult_le_compat_l; [exact K0|]. apply Rmult_le_compat_r; lra. }
  assert (B3 : k * (sqrt 2 * s) * (INR m * s * (INR n * s)) <= 3 / 2 * (k * s) * (INR m * s * (INR n * s))) by (apply Rmult_le_compat_r; assumption).
  assert (Q : 0 <= 3 / 2 * (k * s) * (INR m * s * (INR n * s))) by (apply Rmult_le_pos; [apply Rmult_le_pos; [lra|apply Rmult_le_pos; lra]|exact P]).
  assert (T : 25 / 16 * (1 + 1 / 10 ^ 14) <= 2) by lra.
  set (Z := k * (sqrt 2 * s) * (INR m * s * (INR n * s))) in *. assert (Z0 : 0 <= Z) by (unfold Z; apply Rmult_le_pos; [apply Rmult_le_pos; [exact K0|apply Rmult_le_pos; lra]|exact P]).
  assert (B4 : 25 / 16 * (1 + 1 / 10 ^ 14) * Z <= 2 * Z) by (apply Rmult_le_compat_r; assumption). 
  replace ((3 * k * s + 17 / 8 * e) * (INR m * s * (INR n * s))) with (2 * (3 / 2 * (k * s) * (INR m * s * (INR n * s))) + 17 / 8 * e * (INR m * s * (INR n * s))) by field. lra.
Qed.
(** Rules whose weights sum to one exactly. *)
Lemma near_integral_exact g s m n (q : rule R) I f k e F : 0 < s -> (1 <= m)%nat -> (1 <= n)%nat -> mesh g s m n -> 0 <= e ->
  In (Ok q) [CENTROID; DUNAVANT2] -> Integrator_ q (g_triangles g) (g_points g) = Ok I ->
  lipschitz_on (rectangle (INR m * s) (INR n * s)) k f ->
  (forall t a b c l x, triangle_at g t a b c -> bary_of a b c l x -> non_negative l -> exists v, F t l = Ok v /\ Rabs (v - f x) <= e) ->
  exists v, integrate I F = Ok v /\
    Rabs (v - rectangle_integral (INR m * s) (INR n * s) (fun x y => f (x, y))) <= (3 * k * s + 17 / 8 * e) * ((INR m * s) * (INR n * s)).
Proof.
  intros Hs Hm Hn M He Hq HI Lf HF.
  assert (WR : exists ws rp, TriangleQuadratureRule_ ws rp = Ok q /\ length ws = length rp /\ sum_over Rabs ws = 1 /\ sum_over (fun w => w) ws = 1).
  { assert (A : forall x, 0 <= x -> Rabs x = x) by (intros; apply Rabs_right; lra). destruct Hq as [H|[H|[]]]; [unfold CENTROID in H|unfold DUNAVANT2 in H]; rewrite ?third_ok in H by (cbn; lra); cbn [bind] in H; cbv zeta in H;
      (eexists; eexists; split; [exact H|]; split; [reflexivity|]; clear H; cbn; split; [rewrite !A by lra; lra|lra]). }
  destruct WR as (ws & rp & HT & HL & HA & HW).
  set (pts := fun k => match nth_error (g_points g) k with Some [x; y] => (x, y) | _ => (0, 0) end).
  assert (PT : forall k x, point_at g k x -> pts k = x). { intros k' [x y] P. unfold point_at in P. unfold pts. exact (f_equal (fun o => match o with Some [u; v] => (u, v) | _ => (0, 0) end) P). }
  set (kf := fun (t : triangle) l => let '(a, b, c) := t in f (pt (pts a) (pts b) (pts c) l)).
  assert (KF : forall t a b c l x, triangle_at g t a b c -> bary_of a b c l x -> kf t l = f x).
  { intros [[t1 t2] t3] a b c l [x y] (_ & K1 & K2 & K3) (_ & B1 & B2). unfold kf. rewrite (PT _ _ K1), (PT _ _ K2), (PT _ _ K3). cbn [fst snd] in B1, B2. unfold pt. rewrite <- B1, <- B2. reflexivity. }
  destruct (integrals_near g s m n Hs Hm Hn M ws rp q HT HL I HI F kf e He) as (v & u & E1 & E2 & D).
  { intros t a b c l x T B N. rewrite (KF _ _ _ _ _ _ T B). apply (HF _ _ _ _ _ _ T B N). }
  destruct (C109_continuous_functions g s m n ws rp q I f k _ Hs Hm Hn M HT HL HI Lf (fun t a b c l x T B => f_equal Ok (KF t a b c l x T B))) as (u' & E2' & D'). rewrite E2 in E2'. injection E2' as <-.
  exists v. split; [exact E1|]. rewrite HA, HW, Rmult_1_l, Rabs_R1 in D'. rewrite HA, Rmult_1_l in D. set (J := rectangle_integral (INR m * s) (INR n * s) (fun x y => f (x, y))) in *. replace (v - J) with ((v - u) + (u - J)) by ring. eapply Rle_trans; [apply Rabs_triang|].
  assert (P : 0 <= INR m * s * (INR n * s)) by (repeat apply Rmult_le_pos; try apply pos_INR; lra). assert (S2 : sqrt 2 <= 3 / 2) by (rewrite <- (sqrt_Rsqr (3/2)) by lra; apply sqrt_le_1_alt; unfold Rsqr; lra). pose proof (sqrt_pos 2) as S0.
  assert (K0 : 0 <= k). { destruct (g_triangles g) as [|t ts] eqn:ET; [pose proof (mesh_count g s m n Hs Hm Hn M) as C; rewrite ET in C; cbn in C; nia|]. destruct (mesh_triangle_at g s m n M t) as (a & b & c & T); [rewrite ET; left; reflexivity|]. destruct (mesh_corners g s m n t a b c Hs M T) as (Da & Db & _). pose proof (mesh_shape _ _ _ _ _ _ _ _ M T) as Sh. apply (shape_apart s a b c Hs) in Sh. exact (lipschitz_pos _ _ _ _ _ Lf Da Db Sh). }
  assert (B2 : k * (sqrt 2 * s) <= 3 * (k * s)). { replace (3 * (k * s)) with (k * (3 * s)) by ring. apply Rmult_le_compat_l; [exact K0|]. apply Rmult_le_compat_r; lra. }
  assert (B3 : k * (sqrt 2 * s) * (INR m * s * (INR n * s)) <= 3 * (k * s) * (INR m * s * (INR n * s))) by (apply Rmult_le_compat_r; assumption).
  assert (Q : 0 <= e * (INR m * s * (INR n * s))) by (apply Rmult_le_pos; assumption).
  set (Ar := INR m * s * (INR n * s)) in *. replace ((3 * k * s + 17 / 8 * e) * Ar) with (3 * (k * s) * Ar + 17 / 8 * (e * Ar)) by ring. replace (Ar * e) with (e * Ar) in D by ring. lra.
Qed.
(** The integrand is a function [Phi] of fields; the discrete fields are close to those at the point. *)
Section Density.
Context {X : Type} (gap : X -> X -> R) (gap_pos : forall x y, 0 <= gap x y) (K : X -> Prop) (Phi : X -> R) (L c e : R) (L0 : 0 <= L) (e0 : 0 <= e) (P : R * R -> X).
Context (HPhi : forall p q, K p -> K q -> Rabs (Phi p - Phi q) <= L * gap p q).
Context (g : grid R) (s : R) (m n : nat) (Hs : 0 < s) (Hm : (1 <= m)%nat) (Hn : (1 <= n)%nat) (M : mesh g s m n) (q : rule R) (I : integrator R) (HI : Integrator_ q (g_triangles g) (g_points g) = Ok I).
Context (HK : forall x, rectangle (INR m * s) (INR n * s) x -> K (P x)) (HP : forall x y, rectangle (INR m * s) (INR n * s) x -> rectangle (INR m * s) (INR n * s) y -> gap (P x) (P y) <= c * dist x y).
Context (F : triangle -> bary R -> res R) (HF : forall t a b d l x, triangle_at g t a b d -> bary_of a b d l x -> non_negative l -> exists p, K p /\ F t l = Ok (Phi p) /\ gap p (P x) <= e).
Lemma density_lip : lipschitz_on (rectangle (INR m * s) (INR n * s)) (L * c) (fun x => Phi (P x)).
Proof. intros x y Hx Hy. eapply Rle_trans; [apply HPhi; apply HK; assumption|]. rewrite Rmult_assoc. apply Rmult_le_compat_l; [exact L0|]. apply HP; assumption. Qed.
Lemma density_near t a b d l x : triangle_at g t a b d -> bary_of a b d l x -> non_negative l -> exists v, F t l = Ok v /\ Rabs (v - Phi (P x)) <= L * e.
Proof.
  intros T B N. destruct (HF t a b d l x T B N) as (p & Kp & E & G). exists (Phi p). split; [exact E|]. destruct (mesh_corners g s m n t a b d Hs M T) as (Da & Db & Dd). eapply Rle_trans; [apply HPhi; [exact Kp|apply HK, (rectangle_convex _ _ a b d l x); assumption]|]. apply Rmult_le_compat_l; assumption.
Qed.
Lemma density_exact : In (Ok q) [CENTROID; DUNAVANT2] -> exists v, integrate I F = Ok v /\
  Rabs (v - rectangle_integral (INR m * s) (INR n * s) (fun x y => Phi (P (x, y)))) <= L * (3 * c * s + 17 / 8 * e) * ((INR m * s) * (INR n * s)).
Proof.
  intros Hq. destruct (near_integral_exact g s m n q I (fun x => Phi (P x)) (L * c) (L * e) F Hs Hm Hn M (Rmult_le_pos _ _ L0 e0) Hq HI density_lip density_near) as (v & E & B). exists v. split; [exact E|]. eapply Rle_trans; [exact B|]. right. ring.
Qed.
Lemma density_rounded : In (Ok q) [CENTROID; VERTEX; DUNAVANT2; DUNAVANT3; DUNAVANT4; DUNAVANT5] -> exists v, integrate I F = Ok v /\
  Rabs (v - rectangle_integral (INR m * s) (INR n * s) (fun x y => Phi (P (x, y)))) <= L * (3 * c * s + 17 / 8 * e) * ((INR m * s) * (INR n * s)) + 1 / 10 ^ 14 * Rabs (rectangle_integral (INR m * s) (INR n * s) (fun x y => Phi (P (x, y)))).
Proof.
  intros Hq. destruct (near_integral g s m n q I (fun x => Phi (P x)) (L * c) (L * e) F Hs Hm Hn M (Rmult_le_pos _ _ L0 e0) Hq HI density_lip density_near) as (v & E & B). exists v. split; [exact E|]. eapply Rle_trans; [exact B|]. right. ring.
Qed.
End Density.
