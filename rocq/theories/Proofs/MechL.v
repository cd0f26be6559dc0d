(** * The mechanical objective is Lipschitz away from degenerate deformations, and infinite towards them. *)
From Coq Require Import Reals Lra Lia List ZArith.
From Verif.Spec Require Import GridSpec QuadSpec BellSpec InterpSpec RefineSpec PotentialSpec.
From Verif.Model Require Import Py Num Tensors Domain Refine Quadrature Integrators Expr Bell Interp Helpers Steps.
From Verif.Spec Require Import StepSpec EnergySpec MotionSpec TractionSpec ThermSpec MechSpec.
From Verif.Proofs Require Import Lib InterpP PotP HatP QuadP IntegP StepP StepU StepE StepF StepG StepH SimP ThermV ThermP LipMin LipMore MechV MechP.
From Verif.Props Require Import GridProps QuadProps IntegProps InterpProps RefineProps MeshIntegProps PotentialProps EnergyProps AffineProps TractionProps.
Local Open Scope R_scope.
Import ListNotations.

Definition span (v : pvar) : R * R := if v_fixed v then (v_val v, v_val v) else (v_lb v, v_ub v).
Lemma admits_box vs y : Forall2 admits vs y <-> inbox (map span vs) y.
Proof.
  revert y. induction vs as [|v vs IH]; intros y; cbn [map]; split; intros H; inversion H as [|? x ? z C H']; subst; constructor; try (apply IH; assumption).
  - unfold admits, span in *. destruct (v_fixed v); cbn [fst snd]; lra.
  - unfold admits, span in *. destruct (v_fixed v); cbn [fst snd] in C; lra.
Qed.
Lemma lips_scal_r bs c f : lips bs f -> lips bs (fun x => f x * c).
Proof. intros H. apply (lips_ext bs _ (fun x => c * f x)); [intros; ring|apply lips_scal, H]. Qed.
Ltac lp := repeat first [assumption | apply lips_const | apply lips_nth | apply lips_minus | apply lips_plus | apply lips_scal | apply lips_scal_r].

(** ** The constraints as a penalty *)
Lemma nth_of_error {A} (l : list A) n d : nth n l d = match nth_error l n with Some x => x | None => d end.
Proof. revert n. induction l as [|x l IH]; intros [|n]; cbn; auto. Qed.
Lemma chunk_py N (y : list R) v : py_nth (chunks N 6 y) v = if (v <? N)%nat then Ok (slice (v * 6) 6 y) else Err IndexError.
Proof.
  unfold py_nth, chunks. rewrite nth_error_map. destruct (Nat.ltb_spec v N) as [L|L].
  - unfold range. rewrite nth_error_nth' with (d := 0%nat) by (rewrite seq_length; exact L). rewrite seq_nth by exact L. reflexivity.
  - rewrite (proj2 (nth_error_None _ _)); [reflexivity|]. unfold range. rewrite seq_length. exact L.
Qed.
Lemma slice_entry (y : list R) o n : (n < 6)%nat -> nth n (slice o 6 y) 0 = nth (o + n) y 0.
Proof. intros H. rewrite !nth_of_error, slice_nth by exact H. reflexivity. Qed.
Definition violation (N : nat) (y : list R) (e : edge) (p q : R * R) (second : bool) (j : nat) : R :=
  match dirichlet_constraint (chunks N 6 y) e p q j second with Ok (Some v) => Rabs v | _ => 1 end.
Lemma violation_nonneg N y e p q j second : 0 <= violation N y e p q second j.
Proof. unfold violation. destruct (dirichlet_constraint _ _ _ _ _ _) as [[v|]|]; try lra. apply Rabs_pos. Qed.
Lemma violation_zero N y e p q j second : violation N y e p q second j = 0 <-> dirichlet_constraint (chunks N 6 y) e p q j second = Ok (Some 0).
Proof.
  unfold violation. destruct (dirichlet_constraint _ _ _ _ _ _) as [[v|]|]; split; intros H; try discriminate; try lra; [|injection H as ->; apply Rabs_R0]. assert (v = 0) as -> by (destruct (Req_dec v 0) as [E|E]; [exact E|apply Rabs_no_R0 in E; contradiction]). reflexivity.
Qed.
Lemma violation_lips bs N e p q j second : lips bs (fun y => violation N y e p q second j).
Proof.
  unfold violation, dirichlet_constraint. set (x := fst q - fst p). set (z := snd q - snd p). set (c := fun w : R * R => if second then snd w else fst w).
  apply (lips_ext bs _ (fun y => match (if (fst e <? N)%nat then Ok (slice (fst e * 6) 6 y) else Err IndexError) with Err _ => 1 | Ok yi =>
     match (if (snd e <? N)%nat then Ok (slice (snd e * 6) 6 y) else Err IndexError) with Err _ => 1 | Ok yj =>
     match j with 1%nat => Rabs (nth 0 yi 0 - c p) | 2%nat => Rabs (nth 1 yi 0 * x + nth 2 yi 0 * z - c (x, z)) | 3%nat => Rabs (nth 3 yi 0 * x ^ 2 + 2 * nth 4 yi 0 * x * z + nth 5 yi 0 * z ^ 2 - 0)
       | 4%nat => Rabs (nth 0 yj 0 - c q) | 5%nat => Rabs (nth 1 yj 0 * x + nth 2 yj 0 * z - c (x, z)) | 6%nat => Rabs (nth 3 yj 0 * x ^ 2 + 2 * nth 4 yj 0 * x * z + nth 5 yj 0 * z ^ 2 - 0) | _ => 1 end end end)).
  - intros y _. rewrite !chunk_py. destruct (fst e <? N)%nat; cbn [bind]; [|reflexivity]. destruct (snd e <? N)%nat; cbn [bind]; [|reflexivity]. destruct j as [|[|[|[|[|[|[|j]]]]]]]; reflexivity.
  - destruct (fst e <? N)%nat; [|apply lips_const]. destruct (snd e <? N)%nat; [|apply lips_const].
    destruct j as [|[|[|[|[|[|[|j]]]]]]]; try apply lips_const; apply lips_abs.
    all: eapply lips_ext; [intros w _; rewrite ?slice_entry by lia; reflexivity|]; lp.
Qed.

Section P.
Context (m : mech).
Let g := ms_grid m. Let N := num_vertices g.
Definition edge_penalty (y1 y2 : list R) (e : edge) : R :=
  match edge_vertices g e with
  | Ok (pp, qq) => match xy pp with Err _ => 0 | Ok p => match xy qq with Err _ => 0 | Ok q =>
      sum_over (violation N y1 e p q false) [1; 2; 3; 4; 5; 6]%nat + sum_over (violation N y2 e p q true) [1; 2; 3; 4; 5; 6]%nat end end
  | Err _ => 0
  end.
Definition penalty (y1 y2 : list R) : R := match ms_refined m with None => 0 | Some _ => sum_over (edge_penalty y1 y2) (b_edges (g_dirichlet g)) end.
Lemma edge_penalty_nonneg y1 y2 e : 0 <= edge_penalty y1 y2 e.
Proof.
  unfold edge_penalty. destruct (edge_vertices g e) as [[pp qq]|]; [|lra]. destruct (xy pp) as [p|]; [|lra]. destruct (xy qq) as [q|]; [|lra].
  pose proof (sum_nonneg (violation N y1 e p q false) [1; 2; 3; 4; 5; 6]%nat (fun j _ => violation_nonneg N y1 e p q j false)). pose proof (sum_nonneg (violation N y2 e p q true) [1; 2; 3; 4; 5; 6]%nat (fun j _ => violation_nonneg N y2 e p q j true)). lra.
Qed.
Lemma penalty_nonneg y1 y2 : 0 <= penalty y1 y2.
Proof. unfold penalty. destruct (ms_refined m); [|lra]. apply sum_nonneg. intros e _. apply edge_penalty_nonneg. Qed.
Lemma penalty_zero y1 y2 : penalty y1 y2 = 0 <-> (ms_refined m <> None -> dirichlet_constraints_hold m y1 y2).
Proof.
  unfold penalty. destruct (ms_refined m) as [r|]; [|split; [intros _ X; congruence|reflexivity]]. rewrite (sum_zero (edge_penalty y1 y2)) by (intros; apply edge_penalty_nonneg). split.
  - intros H _ e He pp qq p q EV Ep Eq j Hj. specialize (H e He). unfold edge_penalty in H. unfold g in *. rewrite EV, Ep, Eq in H.
    pose proof (sum_nonneg (violation N y1 e p q false) [1; 2; 3; 4; 5; 6]%nat (fun j _ => violation_nonneg N y1 e p q j false)) as A. pose proof (sum_nonneg (violation N y2 e p q true) [1; 2; 3; 4; 5; 6]%nat (fun j _ => violation_nonneg N y2 e p q j true)) as B.
    assert (IJ : In j [1; 2; 3; 4; 5; 6]%nat) by (cbn; lia). assert (A0 : sum_over (violation N y1 e p q false) [1; 2; 3; 4; 5; 6]%nat = 0) by lra. assert (B0 : sum_over (violation N y2 e p q true) [1; 2; 3; 4; 5; 6]%nat = 0) by lra.
    rewrite sum_zero in A0 by (intros; apply violation_nonneg). rewrite sum_zero in B0 by (intros; apply violation_nonneg). split; apply violation_zero; [exact (A0 j IJ)|exact (B0 j IJ)].
  - intros H e He. specialize (H ltac:(congruence) e He). unfold edge_penalty, g in *. destruct (edge_vertices (ms_grid m) e) as [[pp qq]|] eqn:EV; [|reflexivity]. destruct (xy pp) as [p|] eqn:Ep; [|reflexivity]. destruct (xy qq) as [q|] eqn:Eq; [|reflexivity].
    assert (K : forall j, In j [1; 2; 3; 4; 5; 6]%nat -> violation N y1 e p q false j = 0 /\ violation N y2 e p q true j = 0).
    { intros j Hj. destruct (H pp qq p q eq_refl Ep Eq j) as [A B]; [cbn in Hj; lia|]. split; apply violation_zero; assumption. }
    rewrite (proj2 (sum_zero (violation N y1 e p q false) _ (fun j _ => violation_nonneg N y1 e p q j false))), (proj2 (sum_zero (violation N y2 e p q true) _ (fun j _ => violation_nonneg N y2 e p q j true))) by (intros; apply K; assumption). ring.
Qed.
Lemma penalty_lips b1 b2 : lips (b1 ++ b2) (fun x => penalty (firstn (length b1) x) (skipn (length b1) x)).
Proof.
  unfold penalty. destruct (ms_refined m); [|apply lips_const]. apply (lips_sumo _ _ (fun x e => edge_penalty (firstn (length b1) x) (skipn (length b1) x) e)). intros e _. unfold edge_penalty.
  destruct (edge_vertices g e) as [[pp qq]|]; [|apply lips_const]. destruct (xy pp) as [p|]; [|apply lips_const]. destruct (xy qq) as [q|]; [|apply lips_const]. apply lips_plus.
  - apply (lips_sumo _ _ (fun x j => violation N (firstn (length b1) x) e p q false j)). intros j _. apply (lips_firstn b1 b2 (fun y => violation N y e p q false j)), violation_lips.
  - apply (lips_sumo _ _ (fun x j => violation N (skipn (length b1) x) e p q true j)). intros j _. apply (lips_skipn b1 b2 (fun y => violation N y e p q true j)), violation_lips.
Qed.
End P.

(** ** Lipschitz bounds *)
Section B.
Context (m : mech) (h : R) (a b : nat) (GG : good_grids (ms_grid m) (ms_refined m) h a b).
Let g := ms_grid m. Let rg := ms_refined m. Let tg := theta_grid g rg. Let NK := (length (g_vertices g) * dofs rg)%nat.
Context (b1 b2 : list (R * R)) (LB1 : length b1 = NK) (LB2 : length b2 = NK) (x0 : list R) (H0 : inbox (b1 ++ b2) x0).
Let Y1 (x : list R) := firstn (length b1) x. Let Y2 (x : list R) := skipn (length b1) x.
Lemma halves x : inbox (b1 ++ b2) x -> length (Y1 x) = NK /\ length (Y2 x) = NK.
Proof. intros H. apply inbox_app in H as [A B]. unfold Y1, Y2. split; [rewrite (inbox_length _ _ A)|rewrite (inbox_length _ _ B)]; assumption. Qed.
Lemma strain_lips t p : In t (g_triangles tg) -> l1 p + l2 p + l3 p = 1 ->
  let F x := strain_at g rg (Y1 x) (Y2 x) t p in
  lips (b1 ++ b2) (fun x => f11 (F x)) /\ lips (b1 ++ b2) (fun x => f12 (F x)) /\ lips (b1 ++ b2) (fun x => f21 (F x)) /\ lips (b1 ++ b2) (fun x => f22 (F x)).
Proof.
  intros Ht Hp F. destruct (strain_at_ok g rg h a b GG t p Ht Hp) as (X & Y & LX & LY & K). assert (E : forall x, inbox (b1 ++ b2) x -> F x = strain_of X Y (Y1 x) (Y2 x)) by (intros x Hx; destruct (halves x Hx); apply K; assumption).
  pose proof (lips_linear b1 NK X LB1 LX) as A1. pose proof (lips_linear b1 NK Y LB1 LY) as A2. pose proof (lips_linear b2 NK X LB2 LX) as A3. pose proof (lips_linear b2 NK Y LB2 LY) as A4.
  split; [|split; [|split]].
  - apply (lips_ext _ _ (fun x => X (Y1 x))); [intros x Hx; rewrite (E x Hx); reflexivity|apply (lips_firstn b1 b2 X A1)].
  - apply (lips_ext _ _ (fun x => Y (Y1 x))); [intros x Hx; rewrite (E x Hx); reflexivity|apply (lips_firstn b1 b2 Y A2)].
  - apply (lips_ext _ _ (fun x => X (Y2 x))); [intros x Hx; rewrite (E x Hx); reflexivity|apply (lips_skipn b1 b2 X A3)].
  - apply (lips_ext _ _ (fun x => Y (Y2 x))); [intros x Hx; rewrite (E x Hx); reflexivity|apply (lips_skipn b1 b2 Y A4)].
Qed.
Ltac lm := repeat first [assumption | apply lips_const | apply lips_minus | apply lips_plus | apply lips_scal | apply lips_scal_r | apply (lips_mult _ _ _ x0 H0)].
Lemma invariants_lips t p : In t (g_triangles tg) -> l1 p + l2 p + l3 p = 1 ->
  lips (b1 ++ b2) (fun x => norm2 (strain_at g rg (Y1 x) (Y2 x) t p)) /\ lips (b1 ++ b2) (fun x => det2 (strain_at g rg (Y1 x) (Y2 x) t p)).
Proof.
  intros Ht Hp. destruct (strain_lips t p Ht Hp) as (A & B & C & D). cbv zeta in *. unfold norm2, det2. split; [|lm]. apply (lips_ext _ _ (fun x => f11 (strain_at g rg (Y1 x) (Y2 x) t p) * f11 (strain_at g rg (Y1 x) (Y2 x) t p) + f12 (strain_at g rg (Y1 x) (Y2 x) t p) * f12 (strain_at g rg (Y1 x) (Y2 x) t p) + f21 (strain_at g rg (Y1 x) (Y2 x) t p) * f21 (strain_at g rg (Y1 x) (Y2 x) t p) + f22 (strain_at g rg (Y1 x) (Y2 x) t p) * f22 (strain_at g rg (Y1 x) (Y2 x) t p))); [intros; ring|lm].
Qed.
Lemma loss_lips t p : In t (g_triangles tg) -> l1 p + l2 p + l3 p = 1 -> lips (b1 ++ b2) (fun x => loss_at m (Y1 x) (Y2 x) t p).
Proof.
  intros Ht Hp. destruct (strain_lips t p Ht Hp) as (A & B & C & D). cbv zeta in *. unfold loss_at. fold g rg. set (F0 := strain_at g rg (ms_prev_y1 m) _ t p).
  assert (SQ : forall f, lips (b1 ++ b2) f -> lips (b1 ++ b2) (fun x => f x ^ 2)) by (intros f Lf; apply (lips_ext _ _ (fun x => f x * f x)); [intros; ring|apply (lips_square _ f x0 H0 Lf)]).
  unfold norm2, sym_delta, Rdiv. cbn [f11 f12 f21 f22 add2 scal2 mul2 tr2]. apply lips_scal_r. repeat apply lips_plus.
  all: first [apply (lips_mult _ _ _ x0 H0) | match goal with |- lips _ (fun x => ?e ^ 2) => refine (SQ (fun x => e) _) end]; lm.
Qed.
Lemma hyper_lips r t p : rg = Some r -> In t (g_triangles tg) -> l1 p + l2 p + l3 p = 1 -> lips (b1 ++ b2) (fun x => hyper_at g rg (Y1 x) (Y2 x) t p).
Proof.
  intros Hr Ht Hp. destruct (hyper_at_ok g rg h a b GG r t p Hr Ht Hp) as (XX & XY & YY & LXX & LXY & LYY & K).
  pose proof (lips_firstn b1 b2 XX (lips_linear b1 NK XX LB1 LXX)) as A1. pose proof (lips_firstn b1 b2 XY (lips_linear b1 NK XY LB1 LXY)) as A2. pose proof (lips_firstn b1 b2 YY (lips_linear b1 NK YY LB1 LYY)) as A3.
  pose proof (lips_skipn b1 b2 XX (lips_linear b2 NK XX LB2 LXX)) as C1. pose proof (lips_skipn b1 b2 XY (lips_linear b2 NK XY LB2 LXY)) as C2. pose proof (lips_skipn b1 b2 YY (lips_linear b2 NK YY LB2 LYY)) as C3. fold (Y1) in A1, A2, A3. fold (Y2) in C1, C2, C3.
  set (n3 := fun u v w : R => sqrt (u * u + sqrt (v * v + sqrt (v * v + w * w) * sqrt (v * v + w * w)) * sqrt (v * v + sqrt (v * v + w * w) * sqrt (v * v + w * w)))).
  assert (N3 : forall u v w, n3 u v w * n3 u v w = u * u + v * v + v * v + w * w).
  { intros u v w. unfold n3. pose proof (sum_sq v w). rewrite (sqrt_sqrt (v * v + w * w)) by assumption. rewrite !sqrt_sqrt; [ring|nra|rewrite sqrt_sqrt by nra; nra]. }
  apply (lips_ext _ _ (fun x => let n := sqrt (n3 (XX (Y1 x)) (XY (Y1 x)) (YY (Y1 x)) * n3 (XX (Y1 x)) (XY (Y1 x)) (YY (Y1 x)) + n3 (XX (Y2 x)) (XY (Y2 x)) (YY (Y2 x)) * n3 (XX (Y2 x)) (XY (Y2 x)) (YY (Y2 x))) in n * (n * n))).
  - intros x Hx. destruct (halves x Hx) as [L1 L2]. rewrite (proj2 (K _ _ L1 L2)). cbv zeta. rewrite !N3. ring.
  - cbv zeta. assert (LN : forall u v w, lips (b1 ++ b2) u -> lips (b1 ++ b2) v -> lips (b1 ++ b2) w -> lips (b1 ++ b2) (fun x => n3 (u x) (v x) (w x))).
    { intros u v w U V W. unfold n3. apply (lips_hyp _ u (fun x => sqrt (v x * v x + sqrt (v x * v x + w x * w x) * sqrt (v x * v x + w x * w x)))); [exact U|]. apply (lips_hyp _ v (fun x => sqrt (v x * v x + w x * w x))); [exact V|]. apply lips_hyp; assumption. }
    pose proof (lips_hyp _ _ _ (LN _ _ _ A1 A2 A3) (LN _ _ _ C1 C2 C3)) as LL. cbv beta in LL. apply (lips_mult _ _ _ x0 H0); [exact LL|]. apply (lips_mult _ _ _ x0 H0); exact LL.
Qed.
Context (qe qd : rule R) (Ge : good_rule qe) (Gd : good_rule qd) (Ie Id : integrator R).
Lemma WS_lips q I (f : list R -> triangle -> bary R -> R) : good_rule q -> (forall t p, In t (g_triangles tg) -> l1 p + l2 p + l3 p = 1 -> lips (b1 ++ b2) (fun x => f x t p)) -> lips (b1 ++ b2) (fun x => WS g rg q I (f x)).
Proof.
  intros GQ H. unfold WS. apply (lips_wsum _ _ _ (fun x t => weighted_sum (q_points q) (q_weights q) (f x t))). intros t Ht. apply (lips_wsum _ _ _ (fun x p => f x t p)). intros p Hp. apply H; [exact Ht|exact (proj2 (proj2 GQ) p Hp)].
Qed.
Lemma rest_lips : lips (b1 ++ b2) (fun x => rest m h qe qd Ie Id (Y1 x) (Y2 x)).
Proof.
  pose proof (WS_lips qd Id (fun x => loss_at m (Y1 x) (Y2 x)) Gd loss_lips) as LL. unfold rest. fold g rg. destruct (opt_case rg) as [[r Hr]|Hr].
  - pose proof (WS_lips qe Ie (fun x => hyper_at g rg (Y1 x) (Y2 x)) Ge (fun t p => hyper_lips r t p Hr)) as LH. set (f := fun x => WS g rg qe Ie _) in LH. set (k := fun x => WS g rg qd Id _) in LL.
    apply (lips_ext _ _ (fun x => ms_reg m * f x + ms_fps m * k x)); [intros x _; unfold f, k; rewrite Hr; reflexivity|]. lp.
  - set (k := fun x => WS g rg qd Id _) in LL. apply (lips_ext _ _ (fun x => -1 * work m h (Y1 x) (Y2 x) + ms_fps m * k x)); [intros x _; unfold k, rg in *; rewrite !Hr; ring|]. apply lips_plus; [|apply lips_scal, LL]. apply lips_scal. unfold work. apply lips_scal.
    apply (lips_sumo _ _ (fun x e => mean_of_ends (value_for (ms_g1 m)) e * mean_of_ends (at_vertex (Y1 x)) e + mean_of_ends (value_for (ms_g2 m)) e * mean_of_ends (at_vertex (Y2 x)) e)). intros e _.
    assert (V1 : forall v, lips (b1 ++ b2) (fun x => nth v (Y1 x) 0)) by (intros v; apply (lips_firstn b1 b2 (fun y => nth v y 0)), lips_nth). assert (V2 : forall v, lips (b1 ++ b2) (fun x => nth v (Y2 x) 0)) by (intros v; apply (lips_skipn b1 b2 (fun y => nth v y 0)), lips_nth).
    apply lips_plus; apply lips_scal; unfold mean_of_ends, at_vertex, Rdiv; apply lips_scal_r, lips_plus; auto.
Qed.
(** The determinants cut off at [c]. *)
Definition cut_off (c : R) (y1 y2 : list R) (t : triangle) (p : bary R) : R := density (cold m t p) (norm2 (strain_at g rg y1 y2 t p)) (Rmax c (det2 (strain_at g rg y1 y2 t p))).
Lemma cut_off_lips c t p : 0 < c -> In t (g_triangles tg) -> l1 p + l2 p + l3 p = 1 -> lips (b1 ++ b2) (fun x => cut_off c (Y1 x) (Y2 x) t p).
Proof. intros Hc Ht Hp. destruct (invariants_lips t p Ht Hp) as [A B]. unfold cut_off. apply (lips_density _ x0 _ c (fun x => norm2 (strain_at g rg (Y1 x) (Y2 x) t p)) (fun x => det2 (strain_at g rg (Y1 x) (Y2 x) t p)) H0 Hc A B). Qed.

(** ** The barrier *)
Context (Pe : pos_rule qe) (EIe : Integrator_ qe (g_triangles tg) (g_points tg) = Ok Ie).
Let F x t p := strain_at g rg (Y1 x) (Y2 x) t p.
Let points := list_prod (g_triangles tg) (q_points qe).
Let positive x := forall t p, In t (g_triangles tg) -> In p (q_points qe) -> 0 < det2 (F x t p).
Let J x := WS g rg qe Ie (elastic_at m (Y1 x) (Y2 x)) + rest m h qe qd Ie Id (Y1 x) (Y2 x).
Lemma invariants_bounded : exists M, 0 <= M /\ forall t p x, In t (g_triangles tg) -> In p (q_points qe) -> inbox (b1 ++ b2) x -> 0 <= norm2 (F x t p) <= M /\ det2 (F x t p) <= M.
Proof.
  destruct (uniform points (fun tp M => forall x, inbox (b1 ++ b2) x -> norm2 (F x (fst tp) (snd tp)) <= M /\ det2 (F x (fst tp) (snd tp)) <= M)) as (M & M0 & HM).
  - intros tp c d H L x Hx. specialize (H x Hx). lra.
  - intros [t p] Htp. apply in_prod_iff in Htp as [Ht Hp]. cbn [fst snd]. destruct (invariants_lips t p Ht (proj2 (proj2 Ge) p Hp)) as [A B]. destruct (lips_bounded _ _ x0 H0 A) as (M & M0 & BM). destruct (lips_bounded _ _ x0 H0 B) as (M' & M0' & BM'). exists (M + M'). intros x Hx. specialize (BM x Hx). specialize (BM' x Hx). unfold F. lra.
  - exists M. split; [exact M0|]. intros t p x Ht Hp Hx. destruct (HM (t, p) (proj2 (in_prod_iff _ _ t p) (conj Ht Hp)) x Hx) as [A B]. cbn [fst snd] in A, B. split; [split; [|exact A]|exact B]. unfold norm2. nra.
Qed.
Lemma energy_barrier : exists k B, 0 < k /\ forall x t p, inbox (b1 ++ b2) x -> positive x -> In t (g_triangles tg) -> In p (q_points qe) -> k * (/ det2 (F x t p)) ^ 2 - B <= J x.
Proof.
  destruct invariants_bounded as (M & M0 & HM).
  destruct (weight_floor (map (fun tp => cold m (fst tp) (snd tp)) points)) as (e0 & E0 & HE); [intros w Hw; apply in_map_iff in Hw as (tp & <- & _); apply exp_pos|].
  destruct (uniform points (fun tp C => forall N d, 0 <= N <= M -> 0 < d <= M -> cold m (fst tp) (snd tp) / 2 * (/ d) ^ 2 - C <= density (cold m (fst tp) (snd tp)) N d)) as (C & C0 & HC).
  { intros tp c d H L N d' HN Hd. specialize (H N d' HN Hd). lra. }
  { intros tp _. apply barrier; [apply exp_pos|exact M0]. }
  destruct (weight_floor (q_weights qe) (proj1 Pe)) as (w0 & W0 & HW). destruct (weight_floor (i_areas Ie) (areas_positive g rg h a b GG qe Ie EIe)) as (A0 & A0P & HA).
  destruct (lips_bounded _ _ x0 H0 rest_lips) as (Rb & _ & HR). set (W := total_weight (q_weights qe)). set (AA := total_weight (i_areas Ie)).
  assert (WP : 0 <= W) by (apply sum_nonneg; intros w Hw; specialize (proj1 Pe w Hw) as Q; lra).
  exists (A0 * (w0 * (e0 / 2))), (C * W * AA + Rb). split; [repeat apply Rmult_lt_0_compat; lra|]. intros x t p Hx PX Ht Hp.
  assert (LOW : forall t p, In t (g_triangles tg) -> In p (q_points qe) -> e0 / 2 * (/ det2 (F x t p)) ^ 2 - C <= elastic_at m (Y1 x) (Y2 x) t p).
  { intros t' p' Ht' Hp'. pose proof (PX t' p' Ht' Hp') as DP. destruct (HM t' p' x Ht' Hp' Hx) as [HN HD]. assert (IP : In (t', p') points) by (apply in_prod; assumption). pose proof (HC (t', p') IP (norm2 (F x t' p')) (det2 (F x t' p')) HN (conj DP HD)) as Q. cbn [fst snd] in Q.
    assert (e0 <= cold m t' p') by (apply HE, in_map_iff; exists (t', p'); split; [reflexivity|exact IP]). pose proof (pow2_ge_0 (/ det2 (F x t' p'))). apply Rle_trans with (2 := Q). assert (e0 / 2 * (/ det2 (F x t' p')) ^ 2 <= cold m t' p' / 2 * (/ det2 (F x t' p')) ^ 2) by (apply Rmult_le_compat_r; lra). lra. }
  assert (CW : 0 <= C * W) by (apply Rmult_le_pos; assumption).
  assert (INNER : forall t, In t (g_triangles tg) -> - (C * W) <= weighted_sum (q_points qe) (q_weights qe) (elastic_at m (Y1 x) (Y2 x) t) /\ forall p, In p (q_points qe) -> w0 * (elastic_at m (Y1 x) (Y2 x) t p + C) - C * W <= weighted_sum (q_points qe) (q_weights qe) (elastic_at m (Y1 x) (Y2 x) t)).
  { intros t' Ht'. destruct (wsum_floor (q_points qe) (q_weights qe) (elastic_at m (Y1 x) (Y2 x) t') w0 C W0 HW (proj1 Ge) C0) as [I1 I2]; [|split; [fold W in I1; lra|exact I2]].
    intros p' Hp'. pose proof (LOW t' p' Ht' Hp'). pose proof (pow2_ge_0 (/ det2 (F x t' p'))). assert (0 <= e0 / 2 * (/ det2 (F x t' p')) ^ 2) by (apply Rmult_le_pos; lra). lra. }
  destruct (integrator_parts _ _ _ _ EIe) as (_ & _ & LA).
  destruct (wsum_floor (g_triangles tg) (i_areas Ie) (fun t => weighted_sum (q_points qe) (q_weights qe) (elastic_at m (Y1 x) (Y2 x) t)) A0 (C * W) A0P HA (eq_sym LA) CW (fun t Ht => proj1 (INNER t Ht))) as [_ O2].
  specialize (O2 t Ht). cbv beta in O2. pose proof (proj2 (INNER t Ht) p Hp) as Q. pose proof (LOW t p Ht Hp) as Q'. pose proof (HR x Hx) as [RL _]. cbv beta in RL. unfold J, WS. fold tg. fold AA in O2. set (S := weighted_sum (q_points qe) _ _) in *. set (V := weighted_sum (g_triangles tg) _ _) in *. set (u := (/ det2 (F x t p)) ^ 2) in *. set (f := elastic_at m _ _ t p) in *.
  assert (X1 : w0 * (e0 / 2 * u) <= w0 * (f + C)) by (apply Rmult_le_compat_l; lra). assert (X2 : A0 * (w0 * (e0 / 2 * u)) <= A0 * (S + C * W)) by (apply Rmult_le_compat_l; lra). lra.
Qed.
End B.
