(** * Deformations without strain are rigid motions; simulations above the transition temperature stay at rest (C121). *)
From Coq Require Import Reals Lra Lia List ZArith Psatz.
From Coquelicot Require Import Coquelicot.
From Verif.Spec Require Import GridSpec QuadSpec BellSpec InterpSpec RefineSpec PotentialSpec.
From Verif.Model Require Import Py Num Tensors Domain Refine Quadrature Integrators Expr Bell Interp Helpers Steps Simulation.
From Verif.Spec Require Import SimSpec LiveSpec StepSpec EnergySpec MotionSpec TractionSpec ThermSpec MechSpec MomentumSpec IdealSpec RestSpec WarmSpec.
From Verif.Proofs Require Import Lib GridP GridCover InterpP PotP HatP QuadP IntegP StepP StepU StepE StepF StepG StepH SimP SimQ SimH SimL SimA StepC ThermV ThermP LipMin LipMore MechV MechP MechL MechD.
From Verif.Props Require Import GridProps QuadProps IntegProps InterpProps RefineProps MeshIntegProps PotentialProps SimProps EnergyProps EnergyExamples AffineProps TractionProps ThermProps HeatProps MechExistProps IdealProps MomentumProps RestProps WarmProps.
Local Open Scope R_scope.
Import ListNotations.
Local Notation length := List.length.

(** ** The discrete Cauchy-Riemann equations determine everything from two neighbours. *)
Lemma propagate (W1 W2 : nat -> nat -> R) (a b : nat) : (1 <= a)%nat -> (1 <= b)%nat ->
  (forall i j, (i < a)%nat -> (j < b)%nat ->
     W1 (S i) (S j) - W1 (S i) j = - (W2 (S i) j - W2 i j) /\ W2 (S i) (S j) - W2 (S i) j = W1 (S i) j - W1 i j /\
     W1 i (S j) - W1 i j = - (W2 (S i) (S j) - W2 i (S j)) /\ W2 i (S j) - W2 i j = W1 (S i) (S j) - W1 i (S j)) ->
  W1 0%nat 0%nat = 0 -> W2 0%nat 0%nat = 0 -> W1 1%nat 0%nat = 0 -> W2 1%nat 0%nat = 0 -> forall i j, (i <= a)%nat -> (j <= b)%nat -> W1 i j = 0 /\ W2 i j = 0.
Proof.
  intros Ha Hb H A1 A2 B1 B2.
  assert (R0 : forall i, (i < a)%nat -> (W1 i 0%nat = 0 /\ W2 i 0%nat = 0) /\ (W1 i 1%nat = 0 /\ W2 i 1%nat = 0) /\ (W1 (S i) 0%nat = 0 /\ W2 (S i) 0%nat = 0) /\ (W1 (S i) 1%nat = 0 /\ W2 (S i) 1%nat = 0)).
  { induction i as [|i IH]; intros Hi.
    - destruct (H 0%nat 0%nat Hi Hb) as (E1 & E2 & E3 & E4). repeat split; lra.
    - destruct (IH ltac:(lia)) as (_ & _ & C & D). destruct (H (S i) 0%nat Hi Hb) as (E1 & E2 & E3 & E4). repeat split; lra. }
  assert (RJ : forall j, (j < b)%nat -> forall i, (i < a)%nat -> (W1 i j = 0 /\ W2 i j = 0) /\ (W1 i (S j) = 0 /\ W2 i (S j) = 0) /\ (W1 (S i) j = 0 /\ W2 (S i) j = 0) /\ (W1 (S i) (S j) = 0 /\ W2 (S i) (S j) = 0)).
  { induction j as [|j IH]; intros Hj i Hi; [exact (R0 i Hi)|]. destruct (IH ltac:(lia) i Hi) as (_ & C & _ & D). destruct (H i (S j) Hi Hj) as (E1 & E2 & E3 & E4). repeat split; lra. }
  intros i j Hi Hj. destruct i as [|i], j as [|j].
  - tauto.
  - apply (RJ j ltac:(lia) 0%nat ltac:(lia)).
  - apply (R0 i ltac:(lia)).
  - apply (RJ j ltac:(lia) i ltac:(lia)).
Qed.

Section G.
Context (g : grid R) (so : SetOrder) (a b : nat) (f : fixopt) (s : R) (Hs : 0 < s) (Ha : (1 <= a)%nat) (Hb : (1 <= b)%nat) (HG : rect_spec g so a b f s) (M : mesh g s a b).
Context (y1 y2 : list R) (L1 : length y1 = length (g_vertices g)) (L2 : length y2 = length (g_vertices g)).
Let V i j := pair_to_vertex (S a) i j.
Let U1 i j := nth (V i j) y1 0. Let U2 i j := nth (V i j) y2 0.
Lemma vert i j : (i <= a)%nat -> (j <= b)%nat -> vertex_at g s (V i j) i j.
Proof. intros Hi Hj. apply (vertex_at_ptv g so a b f s Hs HG). auto. Qed.
Lemma vals i j : (i <= a)%nat -> (j <= b)%nat -> nth_error y1 (V i j) = Some (U1 i j) /\ nth_error y2 (V i j) = Some (U2 i j).
Proof.
  intros Hi Hj. destruct (vert i j Hi Hj) as [I _]. rewrite (mesh_numbers _ _ _ _ M) in I. apply in_seq in I. rewrite <- (mesh_length _ _ _ _ M) in I. split; apply nth_error_nth'; lia.
Qed.
(** The strains of the two triangles of a cell. *)
Lemma strains i j l : (i < a)%nat -> (j < b)%nat ->
  (exists t, In t (g_triangles g) /\ deform_strain (comp_interp g None y1) (comp_interp g None y2) t l =
     Ok (mat (PotentialSpec.st ((U1 (S i) j - U1 i j) / s) ((U1 (S i) (S j) - U1 (S i) j) / s) ((U2 (S i) j - U2 i j) / s) ((U2 (S i) (S j) - U2 (S i) j) / s)))) /\
  (exists t, In t (g_triangles g) /\ deform_strain (comp_interp g None y1) (comp_interp g None y2) t l =
     Ok (mat (PotentialSpec.st ((U1 (S i) (S j) - U1 i (S j)) / s) ((U1 i (S j) - U1 i j) / s) ((U2 (S i) (S j) - U2 i (S j)) / s) ((U2 i (S j) - U2 i j) / s)))).
Proof.
  intros Hi Hj. set (X := INR i * s). set (Y := INR j * s).
  assert (P : forall i' j', (i' = i \/ i' = S i) -> (j' = j \/ j' = S j) -> vertex_at g s (V i' j') i' j' /\ point_at g (V i' j') (INR i' * s, INR j' * s)).
  { intros i' j' Q1 Q2. assert (VV : vertex_at g s (V i' j') i' j') by (apply vert; lia). split; [exact VV|apply VV]. }
  assert (EX : INR (S i) * s = X + s) by (rewrite S_INR; unfold X; ring). assert (EY : INR (S j) * s = Y + s) by (rewrite S_INR; unfold Y; ring).
  destruct (P i j ltac:(auto) ltac:(auto)) as [V00 P00]. destruct (P (S i) j ltac:(auto) ltac:(auto)) as [V10 P10]. destruct (P i (S j) ltac:(auto) ltac:(auto)) as [V01 P01]. destruct (P (S i) (S j) ltac:(auto) ltac:(auto)) as [V11 P11].
  fold X in P00, P01. fold Y in P00, P10. rewrite EX in P10, P11. rewrite EY in P01, P11.
  destruct (vals i j ltac:(lia) ltac:(lia)) as [N00 O00]. destruct (vals (S i) j ltac:(lia) ltac:(lia)) as [N10 O10]. destruct (vals i (S j) ltac:(lia) ltac:(lia)) as [N01 O01]. destruct (vals (S i) (S j) ltac:(lia) ltac:(lia)) as [N11 O11].
  split.
  - set (t := (V i j, V (S i) j, V (S i) (S j))). assert (It : In t (g_triangles g)).
    { apply (mesh_triangles _ _ _ _ M). exists i, j. split; [exact Hi|]. split; [exact Hj|]. left. cbn. rewrite !Nat.add_1_r. auto. }
    exists t. split; [exact It|]. assert (T : triangle_at g t (X, Y) (X + s, Y) (X + s, Y + s)) by (cbn; auto). assert (CR : cross (X, Y) (X + s, Y) (X + s, Y + s) = s * s) by (unfold cross; cbn [fst snd]; ring).
    assert (SS : 0 < s * s) by (apply Rmult_lt_0_compat; lra).
    destruct (P1_calls g y1 _ _ _ _ _ _ _ _ _ l T N00 N10 N11) as [_ G1]. destruct (P1_calls g y2 _ _ _ _ _ _ _ _ _ l T O00 O10 O11) as [_ G2]. rewrite CR in G1, G2. specialize (G1 ltac:(lra)). specialize (G2 ltac:(lra)).
    match type of G1 with _ = ?y => change (i_gradient (comp_interp g None y1) t l = y) in G1 end. match type of G2 with _ = ?y => change (i_gradient (comp_interp g None y2) t l = y) in G2 end. unfold deform_strain. rewrite G1. cbn [bind]. rewrite G2. cbn [bind fst snd]. unfold gradient_value, Vector_stack, mat. cbn. match goal with |- Ok {| m_rows := _; m_cols := _; m_data := [[?p;?q];[?r;?o]] |} = Ok {| m_rows := _; m_cols := _; m_data := [[?p';?q'];[?r';?o']] |} => replace p with p' by (field; lra); replace q with q' by (field; lra); replace r with r' by (field; lra); replace o with o' by (field; lra); reflexivity end.
  - set (t := (V (S i) (S j), V i (S j), V i j)). assert (It : In t (g_triangles g)).
    { apply (mesh_triangles _ _ _ _ M). exists i, j. split; [exact Hi|]. split; [exact Hj|]. right. cbn. rewrite !Nat.add_1_r. auto. }
    exists t. split; [exact It|]. assert (T : triangle_at g t (X + s, Y + s) (X, Y + s) (X, Y)) by (cbn; auto). assert (CR : cross (X + s, Y + s) (X, Y + s) (X, Y) = s * s) by (unfold cross; cbn [fst snd]; ring).
    assert (SS : 0 < s * s) by (apply Rmult_lt_0_compat; lra).
    destruct (P1_calls g y1 _ _ _ _ _ _ _ _ _ l T N11 N01 N00) as [_ G1]. destruct (P1_calls g y2 _ _ _ _ _ _ _ _ _ l T O11 O01 O00) as [_ G2]. rewrite CR in G1, G2. specialize (G1 ltac:(lra)). specialize (G2 ltac:(lra)).
    match type of G1 with _ = ?y => change (i_gradient (comp_interp g None y1) t l = y) in G1 end. match type of G2 with _ = ?y => change (i_gradient (comp_interp g None y2) t l = y) in G2 end. unfold deform_strain. rewrite G1. cbn [bind]. rewrite G2. cbn [bind fst snd]. unfold gradient_value, Vector_stack, mat. cbn. match goal with |- Ok {| m_rows := _; m_cols := _; m_data := [[?p;?q];[?r;?o]] |} = Ok {| m_rows := _; m_cols := _; m_data := [[?p';?q'];[?r';?o']] |} => replace p with p' by (field; lra); replace q with q' by (field; lra); replace r with r' by (field; lra); replace o with o' by (field; lra); reflexivity end.
Qed.
Context (l : bary R) (RI : forall t, In t (g_triangles g) -> exists F, deform_strain (comp_interp g None y1) (comp_interp g None y2) t l = Ok (mat F) /\ rotation F).
Lemma rigid_affine : exists Q c1 c2, rotation Q /\ affine_field g None (f11 Q) (f12 Q) c1 y1 /\ affine_field g None (f21 Q) (f22 Q) c2 y2.
Proof.
  destruct (strains 0 0 l ltac:(lia) ltac:(lia)) as [(t & It & E) _]. destruct (RI t It) as (Q & EQ & c & z & UN & ->). rewrite E in EQ. assert (EF : PotentialSpec.st ((U1 1%nat 0%nat - U1 0%nat 0%nat) / s) ((U1 1%nat 1%nat - U1 1%nat 0%nat) / s) ((U2 1%nat 0%nat - U2 0%nat 0%nat) / s) ((U2 1%nat 1%nat - U2 1%nat 0%nat) / s) = PotentialSpec.st c (- z) z c) by (apply mat_inj; congruence). injection EF as F1 _ F3 _.
  assert (DV : forall x y, x / s = y -> x = y * s) by (intros x y <-; field; lra). apply DV in F1, F3.
  set (k1 := U1 0%nat 0%nat). set (k2 := U2 0%nat 0%nat). exists (PotentialSpec.st c (- z) z c), k1, k2. split; [exists c, z; auto|].
  assert (W : forall i j, (i <= a)%nat -> (j <= b)%nat -> U1 i j - (c * (INR i * s) - z * (INR j * s) + k1) = 0 /\ U2 i j - (z * (INR i * s) + c * (INR j * s) + k2) = 0).
  { apply (propagate (fun i j => U1 i j - (c * (INR i * s) - z * (INR j * s) + k1)) (fun i j => U2 i j - (z * (INR i * s) + c * (INR j * s) + k2)) a b Ha Hb).
    - intros i j Hi Hj. destruct (strains i j l Hi Hj) as [(t1 & I1 & S1) (t2 & I2 & S2)]. destruct (RI t1 I1) as (R1 & ER1 & c1 & z1 & _ & ->). destruct (RI t2 I2) as (R2 & ER2 & c2 & z2 & _ & ->).
      rewrite S1 in ER1. rewrite S2 in ER2. assert (A1 := mat_inj _ _ (f_equal (fun o => match o with Ok x => x | Err _ => mat (PotentialSpec.st 0 0 0 0) end) ER1)). assert (A2 := mat_inj _ _ (f_equal (fun o => match o with Ok x => x | Err _ => mat (PotentialSpec.st 0 0 0 0) end) ER2)).
      injection A1 as D1 D2 D3 D4. injection A2 as D5 D6 D7 D8. apply DV in D1, D2, D3, D4, D5, D6, D7, D8. rewrite !S_INR. repeat split; lra.
    - cbn [INR]. fold k1. ring.
    - cbn [INR]. fold k2. ring.
    - cbn [INR]. unfold k1. lra.
    - cbn [INR]. unfold k2. lra. }
  assert (K : forall v p, point_at g v p -> exists i j, (i <= a)%nat /\ (j <= b)%nat /\ v = V i j /\ p = (INR i * s, INR j * s)).
  { intros v p P. assert (Hv : In v (g_vertices g)) by (rewrite (mesh_numbers _ _ _ _ M); apply in_seq; split; [lia|]; cbn; apply nth_error_Some; unfold point_at in P; rewrite P; discriminate).
    destruct (mesh_inside _ _ _ _ M v Hv) as (i & j & Hi & Hj & VA). exists i, j. split; [exact Hi|]. split; [exact Hj|]. pose proof VA as VA'. apply (vertex_at_ptv g so a b f s Hs HG) in VA as (_ & _ & ->). split; [reflexivity|]. destruct VA' as [_ P']. unfold point_at in P. rewrite P in P'. injection P' as X1 X2. destruct p. cbn in X1, X2. congruence. }
  split; (split; [cbn [dofs]; lia|]); intros v p P j0 Hj0; cbn [dofs] in Hj0 |- *; assert (j0 = 0%nat) as -> by lia; destruct (K v p P) as (i & j & Hi & Hj & -> & ->); rewrite Nat.mul_1_r, Nat.add_0_r; destruct (W i j Hi Hj) as [W1 W2]; destruct (vals i j Hi Hj) as [N1 N2]; cbn [nth_error fst snd f11 f12 f21 f22]; rewrite ?N1, ?N2; apply (f_equal Some); cbn; lra.
Qed.
(** A rigid motion that fixes two neighbouring vertices is the identity. *)
Lemma held_identity i j i' j' : (i <= a)%nat -> (j <= b)%nat -> (i' <= a)%nat -> (j' <= b)%nat -> (i <> i' \/ j <> j') ->
  U1 i j = INR i * s -> U2 i j = INR j * s -> U1 i' j' = INR i' * s -> U2 i' j' = INR j' * s -> affine_field g None 1 0 0 y1 /\ affine_field g None 0 1 0 y2.
Proof.
  intros Hi Hj Hi' Hj' NE A1 A2 B1 B2. destruct rigid_affine as (Q & c1 & c2 & (c & z & UN & ->) & F1 & F2). cbn [f11 f12 f21 f22] in F1, F2.
  assert (AT : forall i j, (i <= a)%nat -> (j <= b)%nat -> U1 i j = c * (INR i * s) - z * (INR j * s) + c1 /\ U2 i j = z * (INR i * s) + c * (INR j * s) + c2).
  { intros k m Hk Hm. destruct (vals k m Hk Hm) as [N1 N2]. destruct (vert k m Hk Hm) as [_ P]. pose proof (proj2 F1 (V k m) (INR k * s, INR m * s) P 0%nat ltac:(cbn; lia)) as E1. pose proof (proj2 F2 (V k m) (INR k * s, INR m * s) P 0%nat ltac:(cbn; lia)) as E2.
    cbn [dofs nth_error fst snd] in E1, E2. rewrite Nat.mul_1_r, Nat.add_0_r in E1, E2. rewrite N1 in E1. rewrite N2 in E2. injection E1 as E1. injection E2 as E2. split; lra. }
  destruct (AT i j Hi Hj) as [X1 X2]. destruct (AT i' j' Hi' Hj') as [Y1 Y2].
  set (dx := INR i' * s - INR i * s). set (dy := INR j' * s - INR j * s). assert (D1 : dx = c * dx - z * dy) by (unfold dx, dy; lra). assert (D2 : dy = z * dx + c * dy) by (unfold dx, dy; lra).
  assert (NZ : 0 < dx * dx + dy * dy).
  { assert (KK : dx <> 0 \/ dy <> 0). { destruct NE as [N|N]; [left|right]; intros Z; apply N, INR_eq; [unfold dx in Z|unfold dy in Z]; apply (Rmult_eq_reg_r s); lra. }
    pose proof (Rle_0_sqr dx) as S1. pose proof (Rle_0_sqr dy) as S2. unfold Rsqr in S1, S2. destruct KK as [N|N]; [assert (0 < dx * dx) by (apply Rsqr_pos_lt in N; exact N)|assert (0 < dy * dy) by (apply Rsqr_pos_lt in N; exact N)]; lra. }
  assert (C1 : (c - 1) * (dx * dx + dy * dy) = 0) by (replace ((c - 1) * (dx * dx + dy * dy)) with ((c * dx - z * dy - dx) * dx + (z * dx + c * dy - dy) * dy) by ring; rewrite <- D1, <- D2; ring).
  apply Rmult_integral in C1 as [C1|C1]; [|lra]. assert (c = 1) as -> by lra. assert (z = 0) as -> by nra. assert (c1 = 0) as -> by lra. assert (c2 = 0) as -> by lra.
  rewrite Ropp_0 in F1. split; assumption.
Qed.
End G.

(** ** C121 *)
Lemma plain_rest m so w h f s a b : 0 < s -> (1 <= a)%nat -> (1 <= b)%nat -> fits w s a -> fits h s b -> domain_grid so w h f s = Ok (ms_grid m) -> ms_refined m = None -> problem_grids (ms_grid m) (ms_refined m) s a b.
Proof. intros Hs Ha Hb Fw Fh DG Hr. rewrite Hr. split; [exact Hs|]. split; [exact Ha|]. split; [exact Hb|]. split; [exists so, w, h, f; auto|exact I]. Qed.
(** Without regularization a deformation whose strains are rotations everywhere is a rigid motion of the whole body. *)
Theorem C121_rigid_motion : forall m s a b y1 y2, problem_grids (ms_grid m) (ms_refined m) s a b -> ms_refined m = None ->
  length y1 = length (g_vertices (ms_grid m)) -> length y2 = length (g_vertices (ms_grid m)) -> rigid m y1 y2 -> rigid_motion (ms_grid m) y1 y2.
Proof.
  intros m s a b y1 y2 PG Hr L1 L2 R. destruct (problem_good _ _ _ _ _ PG) as (Hs & Ha & Hb & M & _). pose proof PG as (_ & _ & _ & (so & w & h & f & Fw & Fh & DG) & _).
  pose proof (grid_spec _ _ _ _ _ _ _ _ Hs Fw Fh DG) as HG. destruct (energy_rule_good (ms_grid m) (ms_refined m)) as (q & Eq & Gq & Pq). assert (NE : exists l, In l (q_points q)) by (destruct Gq as (_ & N & _); destruct (q_points q) as [|l ls]; [contradiction N; reflexivity|exists l; left; reflexivity]). destruct NE as [l Hl].
  apply (rigid_affine (ms_grid m) so a b f s Hs Ha Hb HG M y1 y2 L1 L2 l). intros t Ht. destruct (R q t l Eq) as (F & EF & RF); [rewrite Hr; exact Ht|exact Hl|]. exists F. rewrite Hr in EF. split; assumption.
Qed.
Print Assumptions C121_rigid_motion.
Lemma identity_unique g s a b y1 z1 al be ga : mesh g s a b -> affine_field g None al be ga y1 -> affine_field g None al be ga z1 -> y1 = z1.
Proof.
  intros M [L1 A1] [L2 A2]. cbn [dofs] in *. rewrite Nat.mul_1_r in L1, L2. apply nth_error_ext; [congruence|]. intros v Hv. rewrite L1 in Hv. assert (Iv : In v (g_vertices g)) by (rewrite (mesh_numbers _ _ _ _ M); apply in_seq; rewrite <- (mesh_length _ _ _ _ M); lia).
  destruct (mesh_inside _ _ _ _ M v Iv) as (i & j & _ & _ & _ & P). pose proof (A1 v (INR i * s, INR j * s) P 0%nat ltac:(lia)) as E1. pose proof (A2 v (INR i * s, INR j * s) P 0%nat ltac:(lia)) as E2. rewrite Nat.mul_1_r, Nat.add_0_r in E1, E2. congruence.
Qed.
Section Held.
Context (lg : Z -> res (list R * list R)) (m : mech) (so : SetOrder) (w h : R) (f : fixopt) (s : R) (a b : nat) (Hs : 0 < s) (Ha : (1 <= a)%nat) (Hb : (1 <= b)%nat) (Fw : fits w s a) (Fh : fits h s b) (DG : domain_grid so w h f s = Ok (ms_grid m)) (Hr : ms_refined m = None).
Context (HM : msized m) (LG : midpoint_rule lg) (WT : forall x, In x (ms_prev_theta m) -> warm x) (UL : unloaded m) (F0 : 0 <= ms_fps m)  (FE : mech_feasible m (ms_prev_y1 m) (ms_prev_y2 m)).
Context (A1 : affine_field (ms_grid m) None 1 0 0 (ms_prev_y1 m)) (A2 : affine_field (ms_grid m) None 0 1 0 (ms_prev_y2 m)).
Lemma still : mech_minimizes lg m (ms_prev_y1 m) (ms_prev_y2 m) /\ forall y1 y2, mech_minimizes lg m y1 y2 -> rigid_motion (ms_grid m) y1 y2.
Proof.
  pose proof (plain_rest m so w h f s a b Hs Ha Hb Fw Fh DG Hr) as PG. destruct (warm_rest lg m s a b id2 0 0 PG HM (fun _ => LG) WT UL F0 (fun N => False_ind _ (N Hr)) FE rotation_id) as [MI RG]; try (rewrite Hr; assumption); [intros N; contradiction|]. split; [exact MI|].
  intros y1 y2 MY. pose proof (RG y1 y2 MY) as RGD. destruct MY as ((G1 & G2 & _) & _). apply Forall2_len in G1, G2. destruct (proj1 HM) as [_ _ Y1 Y2 _]. rewrite Hr in Y1, Y2. cbn [dofs] in Y1, Y2. rewrite Nat.mul_1_r in Y1, Y2. unfold num_vertices in Y1, Y2.
  apply (C121_rigid_motion m s a b); try assumption; congruence.
Qed.
Context (V1 : map v_val (ms_y1 m) = ms_prev_y1 m) (V2 : map v_val (ms_y2 m) = ms_prev_y2 m) (d : side) (FS : fixed_side f d)
  (FX : forall v x, In v (b_vertices (g_dirichlet (ms_grid m))) -> nth_error (ms_y1 m) v = Some x \/ nth_error (ms_y2 m) v = Some x -> v_fixed x = true).
Lemma held_still y1 y2 : mech_minimizes lg m y1 y2 -> y1 = ms_prev_y1 m /\ y2 = ms_prev_y2 m.
Proof.
  intros MY. pose proof (plain_rest m so w h f s a b Hs Ha Hb Fw Fh DG Hr) as PG. destruct (problem_good _ _ _ _ _ PG) as (_ & _ & _ & M & _). pose proof (grid_spec _ _ _ _ _ _ _ _ Hs Fw Fh DG) as HG.
  destruct (warm_rest lg m s a b id2 0 0 PG HM (fun _ => LG) WT UL F0 (fun N => False_ind _ (N Hr)) FE rotation_id) as [_ RG]; try (rewrite Hr; assumption); [intros N; contradiction|]. pose proof (RG y1 y2 MY) as RGD. destruct MY as ((G1 & G2 & _) & _).
  destruct (proj1 HM) as [_ _ Y1 Y2 _]. rewrite Hr in Y1, Y2. cbn [dofs] in Y1, Y2. rewrite Nat.mul_1_r in Y1, Y2. unfold num_vertices in Y1, Y2. pose proof (Forall2_len _ _ _ G1) as K1. pose proof (Forall2_len _ _ _ G2) as K2. assert (L1 : length y1 = length (g_vertices (ms_grid m))) by congruence. assert (L2 : length y2 = length (g_vertices (ms_grid m))) by congruence.
  destruct (energy_rule_good (ms_grid m) (ms_refined m)) as (q & Eq & Gq & Pq). assert (NE : exists l, In l (q_points q)) by (destruct Gq as (_ & N & _); destruct (q_points q) as [|l ls]; [contradiction N; reflexivity|exists l; left; reflexivity]). destruct NE as [l Hl].
  assert (RI : forall t, In t (g_triangles (ms_grid m)) -> exists F, deform_strain (comp_interp (ms_grid m) None y1) (comp_interp (ms_grid m) None y2) t l = Ok (mat F) /\ rotation F).
  { intros t Ht. destruct (RGD q t l Eq) as (F & EF & RF); [rewrite Hr; exact Ht|exact Hl|]. exists F. rewrite Hr in EF. split; assumption. }
  assert (KEEP : forall (xs : list pvar) (z p : list R) v, Forall2 admits xs z -> map v_val xs = p -> (forall x, nth_error xs v = Some x -> v_fixed x = true) -> nth_error z v = nth_error p v).
  { clear. intros xs z p v F2 <- FX. rewrite nth_error_map. revert v FX. induction F2 as [|x y xs z AD F2 IH]; intros [|v] FX; cbn [nth_error option_map]; try reflexivity; [|exact (IH v FX)]. unfold admits in AD. rewrite (FX x eq_refl) in AD. congruence. }
  assert (AT : forall i j, (i <= a)%nat -> (j <= b)%nat -> on_side a b d i j -> nth (pair_to_vertex (S a) i j) y1 0 = INR i * s /\ nth (pair_to_vertex (S a) i j) y2 0 = INR j * s).
  { intros i j Hi Hj OS. pose proof (proj2 (vertex_at_ptv (ms_grid m) so a b f s Hs HG (pair_to_vertex (S a) i j) i j) (conj Hi (conj Hj eq_refl))) as VA. set (v := pair_to_vertex (S a) i j) in *.
    assert (ID : In v (b_vertices (g_dirichlet (ms_grid m)))) by (apply (proj2 (C17_dirichlet_vertices _ _ _ _ _ _ _ _ Hs Fw Fh DG)); exists d; split; [exact FS|exists i, j; auto]). destruct VA as [_ P].
    pose proof (KEEP _ _ _ v G1 V1 (fun x X => FX v x ID (or_introl X))) as E1. pose proof (KEEP _ _ _ v G2 V2 (fun x X => FX v x ID (or_intror X))) as E2.
    pose proof (proj2 A1 v (INR i * s, INR j * s) P 0%nat ltac:(cbn; lia)) as B1. pose proof (proj2 A2 v (INR i * s, INR j * s) P 0%nat ltac:(cbn; lia)) as B2. cbn [dofs nth_error fst snd] in B1, B2. rewrite Nat.mul_1_r, Nat.add_0_r in B1, B2.
    rewrite B1 in E1. rewrite B2 in E2. rewrite (nth_error_nth _ _ 0 E1), (nth_error_nth _ _ 0 E2). split; ring. }
  assert (ID : affine_field (ms_grid m) None 1 0 0 y1 /\ affine_field (ms_grid m) None 0 1 0 y2).
  { pose proof (held_identity (ms_grid m) so a b f s Hs Ha Hb HG M y1 y2 L1 L2 l RI) as HI.
    destruct d; cbn [on_side] in AT.
    - destruct (AT 0%nat 0%nat ltac:(lia) ltac:(lia) eq_refl), (AT 1%nat 0%nat ltac:(lia) ltac:(lia) eq_refl). apply (HI 0%nat 0%nat 1%nat 0%nat); auto; lia.
    - destruct (AT a 0%nat ltac:(lia) ltac:(lia) eq_refl), (AT a 1%nat ltac:(lia) ltac:(lia) eq_refl). apply (HI a 0%nat a 1%nat); auto; lia.
    - destruct (AT 0%nat b ltac:(lia) ltac:(lia) eq_refl), (AT 1%nat b ltac:(lia) ltac:(lia) eq_refl). apply (HI 0%nat b 1%nat b); auto; lia.
    - destruct (AT 0%nat 0%nat ltac:(lia) ltac:(lia) eq_refl), (AT 0%nat 1%nat ltac:(lia) ltac:(lia) eq_refl). apply (HI 0%nat 0%nat 0%nat 1%nat); auto; lia. }
  destruct ID as [I1 I2]. split; [exact (identity_unique _ _ _ _ _ _ _ _ _ M I1 A1)|exact (identity_unique _ _ _ _ _ _ _ _ _ M I2 A2)].
Qed.
End Held.
(** Without regularization, from the transition temperature on and without traction, the solutions of the mechanical problem posed by
    the undeformed body are rigid motions: the undeformed body is one of them ... *)
Theorem C121_solutions : forall lg m so w h f s a b, 0 < s -> (1 <= a)%nat -> (1 <= b)%nat -> fits w s a -> fits h s b -> domain_grid so w h f s = Ok (ms_grid m) -> mech_history m -> ms_refined m = None ->
  midpoint_rule lg -> (forall x, In x (ms_prev_theta m) -> warm x) -> unloaded m -> 0 <= ms_fps m -> mech_feasible m (ms_prev_y1 m) (ms_prev_y2 m) ->
  affine_field (ms_grid m) None 1 0 0 (ms_prev_y1 m) -> affine_field (ms_grid m) None 0 1 0 (ms_prev_y2 m) ->
  mech_minimizes lg m (ms_prev_y1 m) (ms_prev_y2 m) /\ forall y1 y2, mech_minimizes lg m y1 y2 -> rigid_motion (ms_grid m) y1 y2.
Proof.
  intros lg m so w h f s a b Hs Ha Hb Fw Fh DG HM Hr LG WT UL F0 FE A1 A2. exact (still lg m so w h f s a b Hs Ha Hb Fw Fh DG Hr (mech_history_sized m HM) LG WT UL F0 FE A1 A2).
Qed.
Print Assumptions C121_solutions.
(** ... and the only one if a side is held. *)
Theorem C121_held : forall lg m so w h f s a b d y1 y2, 0 < s -> (1 <= a)%nat -> (1 <= b)%nat -> fits w s a -> fits h s b -> domain_grid so w h f s = Ok (ms_grid m) -> mech_history m -> ms_refined m = None ->
  midpoint_rule lg -> (forall x, In x (ms_prev_theta m) -> warm x) -> unloaded m -> 0 <= ms_fps m -> mech_feasible m (ms_prev_y1 m) (ms_prev_y2 m) ->
  affine_field (ms_grid m) None 1 0 0 (ms_prev_y1 m) -> affine_field (ms_grid m) None 0 1 0 (ms_prev_y2 m) -> map v_val (ms_y1 m) = ms_prev_y1 m -> map v_val (ms_y2 m) = ms_prev_y2 m ->
  fixed_side f d -> (forall v x, In v (b_vertices (g_dirichlet (ms_grid m))) -> nth_error (ms_y1 m) v = Some x \/ nth_error (ms_y2 m) v = Some x -> v_fixed x = true) ->
  mech_minimizes lg m y1 y2 -> y1 = ms_prev_y1 m /\ y2 = ms_prev_y2 m.
Proof.
  intros lg m so w h f s a b d y1 y2 Hs Ha Hb Fw Fh DG HM Hr LG WT UL F0 FE A1 A2 V1 V2 FS FX. exact (held_still lg m so w h f s a b Hs Ha Hb Fw Fh DG Hr (mech_history_sized m HM) LG WT UL F0 FE A1 A2 V1 V2 d FS FX y1 y2).
Qed.
Print Assumptions C121_held.
