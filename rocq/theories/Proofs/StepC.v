(** The Dirichlet constraints of the regularized scheme. *)
From Coq Require Import Reals Lra Lia List ZArith.
From Verif.Spec Require Import GridSpec BellSpec InterpSpec.
From Verif.Model Require Import Py Num Tensors Domain Refine Bell Interp Steps.
From Verif.Proofs Require Import Lib GridP GridCover BellDer BellE InterpP SimP SimQ StepP.
From Verif.Props Require Import GridProps.
Local Open Scope R_scope.
Import ListNotations.

Definition six_of (u : list R) (n : nat) : R := nth n u 0.
(** The C1 interpolation on an edge in terms of the six directional quantities the constraints speak about. *)
Lemma hermite p q t u v : length u = 6%nat -> length v = 6%nat ->
  let d1 := fst q - fst p in let d2 := snd q - snd p in let s := 1 - t in let x := six_of u in let z := six_of v in
  bell_interpolation_on_edge (vec p, vec q) t (u ++ v) =
  Ok (x 0%nat * (t^5 + 5*t^4*s + 10*t^3*s^2) + (x 1%nat * d1 + x 2%nat * d2) * (t^4*s + 4*t^3*s^2) + (x 3%nat * d1 ^ 2 + 2 * x 4%nat * d1 * d2 + x 5%nat * d2 ^ 2) / 2 * (t^3*s^2)
      + z 0%nat * (s^5 + 5*s^4*t + 10*s^3*t^2) - (z 1%nat * d1 + z 2%nat * d2) * (s^4*t + 4*s^3*t^2) + (z 3%nat * d1 ^ 2 + 2 * z 4%nat * d1 * d2 + z 5%nat * d2 ^ 2) / 2 * (s^3*t^2)).
Proof.
  intros U V d1 d2 s x z. rewrite on_edge_value. apply (f_equal Ok). apply six in U as [e0 [e1 [e2 [e3 [e4 [e5 ->]]]]]]. apply six in V as [f0 [f1 [f2 [f3 [f4 [f5 ->]]]]]].
  unfold x, z, six_of, Ne. cbn [app nth]. rewrite !dot_cons, !dot_nil. unfold s, d1, d2. field.
Qed.
Definition side_value (second : bool) (z : R * R) : R := if second then snd z else fst z.
Lemma constraint_iff y e p q second u v : nth_error y (fst e) = Some u -> nth_error y (snd e) = Some v -> length u = 6%nat -> length v = 6%nat ->
  ((forall j, (1 <= j <= 6)%nat -> dirichlet_constraint y e p q j second = Ok (Some 0)) <->
   (forall t, 0 <= t <= 1 -> bell_interpolation_on_edge (vec p, vec q) t (u ++ v) = Ok (t * side_value second p + (1 - t) * side_value second q))).
Proof.
  intros Hu Hv U V. pose proof (fun t => hermite p q t u v U V) as H. cbv zeta in H. unfold six_of in H.
  set (d1 := fst q - fst p) in *. set (d2 := snd q - snd p) in *.
  set (A := nth 1 u 0 * d1 + nth 2 u 0 * d2) in *. set (B := nth 3 u 0 * d1 ^ 2 + 2 * nth 4 u 0 * d1 * d2 + nth 5 u 0 * d2 ^ 2) in *. set (A' := nth 1 v 0 * d1 + nth 2 v 0 * d2) in *. set (B' := nth 3 v 0 * d1 ^ 2 + 2 * nth 4 v 0 * d1 * d2 + nth 5 v 0 * d2 ^ 2) in *.
  set (d := side_value second q - side_value second p).
  assert (DC : forall j, dirichlet_constraint y e p q j second = Ok (match j with 1%nat => Some (nth 0 u 0 - side_value second p) | 2%nat => Some (A - d) | 3%nat => Some (B - 0) | 4%nat => Some (nth 0 v 0 - side_value second q) | 5%nat => Some (A' - d) | 6%nat => Some (B' - 0) | _ => None end)).
  { intros j. unfold dirichlet_constraint. rewrite (nth_py _ _ _ Hu), (nth_py _ _ _ Hv). cbn [bind]. unfold d, side_value. destruct j as [|[|[|[|[|[|[|j]]]]]]]; destruct second; reflexivity. }
  assert (EQ : (forall j, (1 <= j <= 6)%nat -> dirichlet_constraint y e p q j second = Ok (Some 0)) <-> nth 0 u 0 = side_value second p /\ A = d /\ B = 0 /\ nth 0 v 0 = side_value second q /\ A' = d /\ B' = 0).
  { assert (K : forall a b : R, Ok (Some (a - b)) = Ok (Some 0) <-> a = b) by (intros a b; split; [intros Q; injection Q as Q; lra|intros ->; repeat (apply f_equal); lra]). split.
    - intros C. assert (C1 := C 1%nat ltac:(lia)). assert (C2 := C 2%nat ltac:(lia)). assert (C3 := C 3%nat ltac:(lia)). assert (C4 := C 4%nat ltac:(lia)). assert (C5 := C 5%nat ltac:(lia)). assert (C6 := C 6%nat ltac:(lia)).
      rewrite DC in C1, C2, C3, C4, C5, C6. apply K in C1, C2, C3, C4, C5, C6. auto 10.
    - intros (C1 & C2 & C3 & C4 & C5 & C6) j Hj. rewrite DC. destruct j as [|[|[|[|[|[|[|j]]]]]]]; try lia; apply K; assumption. }
  rewrite EQ. clear EQ DC. split.
  - intros (C1 & C2 & C3 & C4 & C5 & C6) t _. rewrite H, C1, C2, C3, C4, C5, C6. apply (f_equal Ok). unfold d. field.
  - intros C. assert (K : forall t, 0 <= t <= 1 -> _) by (intros t Ht; specialize (C t Ht); rewrite H in C; injection C as C; exact C). clear C H.
    assert (K1 := K 0 ltac:(lra)). assert (K2 := K 1 ltac:(lra)). assert (K3 := K (1/2) ltac:(lra)). assert (K4 := K (1/4) ltac:(lra)). assert (K5 := K (3/4) ltac:(lra)). assert (K6 := K (1/3) ltac:(lra)). clear K. unfold d. clearbody A B A' B'. clear d.
    generalize (nth 0 u 0) (nth 0 v 0) (side_value second p) (side_value second q) K1 K2 K3 K4 K5 K6. clear. intros x z P Q K1 K2 K3 K4 K5 K6. repeat split; lra.
Qed.
Lemma chunk_nth {A} N (l : list A) v : length l = (N * 6)%nat -> (v < N)%nat -> exists u, nth_error (chunks N 6 l) v = Some u /\ length u = 6%nat /\ forall j, (j < 6)%nat -> nth_error u j = nth_error l (v * 6 + j).
Proof.
  intros L Hv. unfold chunks. rewrite nth_error_map. unfold range. rewrite nth_error_nth' with (d := 0%nat) by (rewrite seq_length; exact Hv). rewrite seq_nth by exact Hv. cbn [option_map Nat.add]. eexists. split; [reflexivity|]. split; [apply slice_length; lia|]. intros j Hj. apply slice_nth, Hj.
Qed.

(** All constraints of a mechanical problem hold iff both interpolations are the identity along the Dirichlet edges. *)
Definition good_edges (g : grid R) : Prop := forall a b, In (a, b) (b_edges (g_dirichlet g)) -> (a < num_vertices g)%nat /\ (b < num_vertices g)%nat /\ exists p q, point_at g a p /\ point_at g b q /\ edge_vertices g (a, b) = Ok (vec p, vec q).
Lemma constraints_iff m y1 y2 i1 i2 : let g := ms_grid m in good_edges g -> C1Interpolation_ g (chunks (num_vertices g) 6 y1) = Ok i1 -> C1Interpolation_ g (chunks (num_vertices g) 6 y2) = Ok i2 ->
  (dirichlet_constraints_hold m y1 y2 <->
   forall a b p q t, In (a, b) (b_edges (g_dirichlet g)) -> point_at g a p -> point_at g b q -> 0 <= t <= 1 ->
     deform_on_edge i1 i2 (a, b) t = Ok [t * fst p + (1 - t) * fst q; t * snd p + (1 - t) * snd q]).
Proof.
  intros g GE H1 H2. apply C1_ok in H1 as [-> [L1 S1]]. apply C1_ok in H2 as [-> [L2 S2]].
  assert (ROW : forall y v, length (chunks (num_vertices g) 6 y) = length (g_vertices g) -> (forall u, In u (chunks (num_vertices g) 6 y) -> length u = 6%nat) -> (v < num_vertices g)%nat -> exists u : list R, nth_error (chunks (num_vertices g) 6 y) v = Some u /\ length u = 6%nat).
  { intros y v L S Hv. destruct (nth_error (chunks (num_vertices g) 6 y) v) as [u|] eqn:E; [exists u; split; [reflexivity|exact (S u (nth_error_In _ _ E))]|apply nth_error_None in E; rewrite L in E; unfold num_vertices in Hv; lia]. }
  assert (EDGE : forall a b p q, In (a, b) (b_edges (g_dirichlet g)) -> point_at g a p -> point_at g b q ->
    edge_vertices g (a, b) = Ok (vec p, vec q) /\ exists u1 v1 u2 v2, 
      nth_error (chunks (num_vertices g) 6 y1) a = Some u1 /\ nth_error (chunks (num_vertices g) 6 y1) b = Some v1 /\ nth_error (chunks (num_vertices g) 6 y2) a = Some u2 /\ nth_error (chunks (num_vertices g) 6 y2) b = Some v2 /\
      (length u1 = 6 /\ length v1 = 6 /\ length u2 = 6 /\ length v2 = 6)%nat /\
      forall t, deform_on_edge (C1I g (chunks (num_vertices g) 6 y1)) (C1I g (chunks (num_vertices g) 6 y2)) (a, b) t =
        (let* x := bell_interpolation_on_edge (vec p, vec q) t (u1 ++ v1) in let* y := bell_interpolation_on_edge (vec p, vec q) t (u2 ++ v2) in Ok [x; y])).
  { intros a b p q He Hp Hq. destruct (GE a b He) as [La [Lb [p' [q' [Hp' [Hq' EV]]]]]]. unfold point_at in Hp, Hq, Hp', Hq'. rewrite Hp in Hp'. rewrite Hq in Hq'. injection Hp' as X1 X2. injection Hq' as X3 X4.
    destruct p as [p1 p2], q as [q1 q2], p' as [p1' p2'], q' as [q1' q2']. cbn in X1, X2, X3, X4. subst. split; [exact EV|].
    destruct (ROW y1 a L1 S1 La) as [u1 [U1 V1]]. destruct (ROW y1 b L1 S1 Lb) as [v1 [U2 V2]]. destruct (ROW y2 a L2 S2 La) as [u2 [U3 V3]]. destruct (ROW y2 b L2 S2 Lb) as [v2 [U4 V4]].
    exists u1, v1, u2, v2. repeat (split; [assumption|]). split; [auto|]. intros t. unfold deform_on_edge. cbn [i_on_edge fst snd]. rewrite (nth_py _ _ _ U1), (nth_py _ _ _ U2), (nth_py _ _ _ U3), (nth_py _ _ _ U4), (nth_py _ _ _ Hp), (nth_py _ _ _ Hq). reflexivity. }
  split.
  - intros C a b p q t He Hp Hq Ht. destruct (EDGE a b p q He Hp Hq) as (EV & u1 & v1 & u2 & v2 & U1 & U2 & U3 & U4 & (A1 & A2 & A3 & A4) & D). rewrite D.
    unfold dirichlet_constraints_hold in C. fold g in C. destruct p as [p1 p2], q as [q1 q2]. pose proof (C (a, b) He (vec (p1, p2)) (vec (q1, q2)) (p1, p2) (q1, q2) EV eq_refl eq_refl) as CC.
    rewrite (proj1 (constraint_iff _ (a, b) (p1, p2) (q1, q2) false u1 v1 U1 U2 A1 A2) (fun j Hj => proj1 (CC j Hj)) t Ht). rewrite (proj1 (constraint_iff _ (a, b) (p1, p2) (q1, q2) true u2 v2 U3 U4 A3 A4) (fun j Hj => proj2 (CC j Hj)) t Ht). reflexivity.
  - intros C [a b] He pp qq p q EV Xp Xq j Hj. fold g in He, EV |- *. destruct (GE a b He) as [_ [_ [p' [q' [Hp [Hq EV']]]]]]. rewrite EV in EV'. injection EV' as -> ->. destruct p' as [p1 p2], q' as [q1 q2]. injection Xp as <-. injection Xq as <-.
    destruct (EDGE a b _ _ He Hp Hq) as (_ & u1 & v1 & u2 & v2 & U1 & U2 & U3 & U4 & (A1 & A2 & A3 & A4) & D).
    assert (K : forall t, 0 <= t <= 1 -> bell_interpolation_on_edge (vec (p1, p2), vec (q1, q2)) t (u1 ++ v1) = Ok (t * p1 + (1 - t) * q1) /\ bell_interpolation_on_edge (vec (p1, p2), vec (q1, q2)) t (u2 ++ v2) = Ok (t * p2 + (1 - t) * q2)).
    { intros t Ht. specialize (C a b _ _ t He Hp Hq Ht). rewrite D in C. apply bind_ok' in C as [x [X C]]. apply bind_ok' in C as [y [Y C]]. injection C as -> ->. auto. }
    split; [apply (constraint_iff _ (a, b) (p1, p2) (q1, q2) false u1 v1 U1 U2 A1 A2)|apply (constraint_iff _ (a, b) (p1, p2) (q1, q2) true u2 v2 U3 U4 A3 A4)]; try exact Hj; intros t Ht; apply K, Ht.
Qed.
Lemma rect_good_edges so w h f s m n g : 0 < s -> fits w s m -> fits h s n -> (1 <= m)%nat -> (1 <= n)%nat -> domain_grid so w h f s = Ok g -> good_edges g.
Proof.
  intros Hs Hm Hn M1 N1 H a b He. pose proof He as He'. apply (proj2 (C16_dirichlet_edges _ _ _ _ _ _ _ _ Hs Hm Hn H)) in He as [d [_ D]].
  destruct (C16_dirichlet_within_boundary _ _ _ _ _ _ _ _ Hs Hm Hn H) as [IB _]. destruct (C14_boundary_edges_are_edges _ _ _ _ _ _ _ _ Hs Hm Hn H M1 N1) as [IE _].
  destruct D as [i [j [i' [j' [[A1 A2] [[B1 B2] _]]]]]]. 
  pose proof (proj1 (C11_vertices_numbered _ _ _ _ _ _ _ _ Hs Hm Hn H)) as V.
  rewrite V in A1, B1. apply in_seq in A1, B1. cbn [fst snd Nat.add] in *. unfold num_vertices. rewrite V, seq_length. split; [apply A1|]. split; [apply B1|].
  eexists (_, _), (_, _). split; [exact A2|]. split; [exact B2|]. unfold edge_vertices. assert (Q : py_in edge_eqb (a, b) (g_edges g) = true).
  { apply py_in_pair. apply IE, IB, He'. }
  rewrite Q. cbn [fst snd]. rewrite (nth_py _ _ _ A2), (nth_py _ _ _ B2). reflexivity.
Qed.
(** The reference configuration satisfies all constraints. *)
Lemma chunks_flat (f : R * R -> list R) ps v : (forall z, length (f z) = 6%nat) -> nth_error (chunks (length ps) 6 (flat_map f ps)) v = option_map f (nth_error ps v).
Proof.
  intros F. unfold chunks. rewrite nth_error_map. destruct (Nat.lt_ge_cases v (length ps)) as [Hv|Hv].
  - unfold range. rewrite nth_error_nth' with (d := 0%nat) by (rewrite seq_length; exact Hv). rewrite seq_nth by exact Hv. cbn [option_map Nat.add].
    revert v Hv. induction ps as [|z ps IH]; intros [|v] Hv; cbn in Hv; try lia.
    + cbn [nth_error option_map flat_map]. f_equal. unfold slice. cbn [Nat.mul skipn]. rewrite <- (F z), firstn_app, Nat.sub_diag, firstn_all, firstn_O, app_nil_r. reflexivity.
    + cbn [nth_error flat_map]. rewrite <- (IH v ltac:(lia)). f_equal. unfold slice. replace (S v * 6)%nat with (length (f z) + v * 6)%nat by (rewrite F; lia). rewrite skipn_app, skipn_all2 by lia. replace (length (f z) + v * 6 - length (f z))%nat with (v * 6)%nat by lia. reflexivity.
  - rewrite (proj2 (nth_error_None ps v)) by exact Hv. unfold range. rewrite (proj2 (nth_error_None _ _)) by (rewrite seq_length; exact Hv). reflexivity.
Qed.
