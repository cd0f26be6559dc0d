(** * Near-minimality of recorded steps (C113). *)
From Coq Require Import Reals Lra Lia List Psatz ZArith String.
From Coquelicot Require Import Coquelicot.
From Verif.Spec Require Import GridSpec QuadSpec BellSpec InterpSpec RefineSpec PotentialSpec.
From Verif.Model Require Import Py Num Tensors Domain Refine Quadrature Integrators Expr Bell Interp Helpers Steps Simulation.
From Verif.Spec Require Import ConvSpec TaylorSpec ConsistSpec ConsistRSpec NearSpec SimSpec LiveSpec StepSpec EnergySpec MotionSpec ThermSpec MechSpec IdealSpec.
From Verif.Proofs Require Import Lib GridP RectMesh GridCover StdOrder StepP StepU StepF StepG StepH StepE StepC SimP SimQ SimR SimH SimC SimL SimA InterpP HatP PotP MechV MechP ConvP NearP.
From Verif.Props Require Import RefineProps GridProps IntegProps InterpProps SimProps EnergyProps AffineProps ThermProps ConvProps ConsistProps ConsistExamples ConsistRProps ConsistRExamples MechExistProps IdealProps.
Local Open Scope R_scope.
Local Notation length := List.length.
Import ListNotations.

Lemma row_jet g f p v x : length (g_points g) = length (g_vertices g) -> jet_nodal g f p -> point_at g v x -> nth_error (chunks (num_vertices g) 6 p) v = Some (jet f x).
Proof.
  intros LP [L H] P. assert (Hv : (v < num_vertices g)%nat) by (unfold num_vertices; rewrite <- LP; apply nth_error_Some; unfold point_at in P; rewrite P; discriminate).
  destruct (chunk_nth (num_vertices g) p v) as (u & EU & LU & NU); [rewrite L; unfold num_vertices; lia|exact Hv|]. rewrite EU. f_equal. apply nth_error_ext; [exact LU|]. intros i Hi. rewrite LU in Hi. rewrite (NU i Hi), Nat.mul_comm. exact (H v x i P Hi).
Qed.
(** What the identity along an edge says about value and derivatives at an end of it. *)
Lemma pinned_row (w h s : R) f (k : R) (v1 v2 : R -> R -> R) d (x y sg : R) : 0 < s -> sg = 1 \/ sg = -1 -> fixed_side f d -> clamped w h f v1 v2 -> smooth_on (rectangle w h) k v1 -> smooth_on (rectangle w h) k v2 -> rectangle w h (x, y) ->
  ((forall t, 0 < t <= s -> rectangle w h (x + sg * t, y) /\ on_line w h d (x + sg * t, y)) ->
    v1 x y = x /\ v2 x y = y /\ d_x v1 x y = 1 /\ d_x v2 x y = 0 /\ d_x (d_x v1) x y = 0 /\ d_x (d_x v2) x y = 0) /\
  ((forall t, 0 < t <= s -> rectangle w h (x, y + sg * t) /\ on_line w h d (x, y + sg * t)) ->
    v1 x y = x /\ v2 x y = y /\ d_y v1 x y = 0 /\ d_y v2 x y = 1 /\ d_y (d_y v1) x y = 0 /\ d_y (d_y v2) x y = 0).
Proof.
  intros Hs Hg HF PI S1 S2 D0. split; intros HT.
  - destruct (affine_along_x _ k v1 x y s sg 1 0 Hs Hg S1 D0) as (A1 & A2 & A3); [intros t Ht; destruct (HT t Ht) as [T1 T2]; split; [exact T1|]; pose proof (proj1 (PI d _ HF T1 T2)) as E; cbn [fst snd] in E; lra|].
    destruct (affine_along_x _ k v2 x y s sg 0 y Hs Hg S2 D0) as (B1 & B2 & B3); [intros t Ht; destruct (HT t Ht) as [T1 T2]; split; [exact T1|]; pose proof (proj2 (PI d _ HF T1 T2)) as E; cbn [fst snd] in E; lra|]. repeat split; lra.
  - destruct (affine_along_y _ k v1 x y s sg 0 x Hs Hg S1 D0) as (A1 & A2 & A3); [intros t Ht; destruct (HT t Ht) as [T1 T2]; split; [exact T1|]; pose proof (proj1 (PI d _ HF T1 T2)) as E; cbn [fst snd] in E; lra|].
    destruct (affine_along_y _ k v2 x y s sg 1 0 Hs Hg S2 D0) as (B1 & B2 & B3); [intros t Ht; destruct (HT t Ht) as [T1 T2]; split; [exact T1|]; pose proof (proj2 (PI d _ HF T1 T2)) as E; cbn [fst snd] in E; lra|]. repeat split; lra.
Qed.

(** ** C113 *)
(** The parameters of a smooth deformation that is the identity on the fixed sides satisfy the constraints of the regularized
    mechanical problem. *)
Theorem C113_boundary_conditions : forall so w0 h0 f s a b pb k v1 v2 p1 p2, 0 < s -> fits w0 s a -> fits h0 s b -> (1 <= a)%nat -> (1 <= b)%nat -> domain_grid so w0 h0 f s = Ok (ms_grid pb) ->
  smooth_on (rectangle (INR a * s) (INR b * s)) k v1 -> smooth_on (rectangle (INR a * s) (INR b * s)) k v2 -> clamped (INR a * s) (INR b * s) f v1 v2 ->
  jet_nodal (ms_grid pb) v1 p1 -> jet_nodal (ms_grid pb) v2 p2 -> dirichlet_constraints_hold pb p1 p2.
Proof.
  intros so w0 h0 f s a b pb k v1 v2 p1 p2 Hs Fa Fb Ha Hb Hg S1 S2 PI N1 N2. pose proof (proj1 (C27_rectangle_grid_is_mesh _ _ _ _ _ _ _ _ Hs Fa Fb Hg Ha Hb)) as M. pose proof (eq_sym (mesh_length _ _ _ _ M)) as LP. symmetry in LP.
  set (g := ms_grid pb) in *. set (w := INR a * s) in *. set (h := INR b * s) in *. assert (LP' : length (g_points g) = length (g_vertices g)) by congruence.
  unfold dirichlet_constraints_hold. fold g. cbv zeta. intros [e1 e2] He. apply (C16_dirichlet_edges _ _ _ _ _ _ _ _ Hs Fa Fb Hg) in He as (d & HF & i & j & i' & j' & [_ V1] & [_ V2] & O1 & O2 & ST). cbn [fst snd] in V1, V2.
  intros pp qq p q EV XP XQ jj Hjj. unfold edge_vertices in EV. destruct (py_in edge_eqb (e1, e2) (g_edges g)); [|discriminate]. cbn [fst snd] in EV. unfold py_nth in EV. rewrite V1, V2 in EV. cbn [bind] in EV. injection EV as <- <-. cbn in XP, XQ. injection XP as <-. injection XQ as <-.
  pose proof (row_jet g v1 p1 e1 (INR i * s, INR j * s) LP' N1 V1) as R11. pose proof (row_jet g v1 p1 e2 (INR i' * s, INR j' * s) LP' N1 V2) as R12. pose proof (row_jet g v2 p2 e1 (INR i * s, INR j * s) LP' N2 V1) as R21. pose proof (row_jet g v2 p2 e2 (INR i' * s, INR j' * s) LP' N2 V2) as R22.
  assert (BD : (i <= a /\ j <= b /\ i' <= a /\ j' <= b)%nat).
  { assert (K : forall v c r, nth_error (g_points g) v = Some [INR c * s; INR r * s] -> (c <= a /\ r <= b)%nat).
    { intros v c r V. assert (Hv : (v < length (g_points g))%nat) by (apply nth_error_Some; rewrite V; discriminate). assert (Iv : In v (g_vertices g)) by (rewrite (mesh_numbers _ _ _ _ M); apply in_seq; lia). destruct (mesh_inside _ _ _ _ M v Iv) as (c' & r' & C1 & C2 & _ & P). unfold point_at in P. rewrite V in P. injection P as P1 P2. cbn in P1, P2. apply Rmult_eq_reg_r in P1, P2; try lra. apply INR_eq in P1, P2. lia. }
    destruct (K _ _ _ V1), (K _ _ _ V2). lia. }
  assert (PT : forall c r, (c <= a)%nat -> (r <= b)%nat -> 0 <= INR c * s <= w /\ 0 <= INR r * s <= h) by (intros c r C1 C2; pose proof (pos_INR c); pose proof (pos_INR r); apply le_INR in C1, C2; unfold w, h; split; split; nra).
  destruct (PT i j ltac:(lia) ltac:(lia)) as [PX PY]. destruct (PT i' j' ltac:(lia) ltac:(lia)) as [QX QY].
  assert (D1 : rectangle w h (INR i * s, INR j * s)) by (split; assumption). assert (D2 : rectangle w h (INR i' * s, INR j' * s)) by (split; assumption).
  assert (L1 : on_line w h d (INR i * s, INR j * s)) by (destruct d; cbn in O1 |- *; subst; unfold w, h; cbn; ring). assert (L2 : on_line w h d (INR i' * s, INR j' * s)) by (destruct d; cbn in O2 |- *; subst; unfold w, h; cbn; ring).
  unfold dirichlet_constraint. cbn [fst snd]. unfold py_nth. fold g. rewrite R11, R12, R21, R22. cbn [bind]. unfold jet. cbn [nth fst snd].
  destruct ST as [[-> ->]|[-> ->]].
  - assert (ND : d = Lower \/ d = Upper) by (destruct d; cbn in O1, O2; auto; lia). set (X := INR i * s) in *. set (Y := INR j * s) in *. assert (EX : INR (i + 1) * s = X + s) by (rewrite plus_INR; unfold X; cbn [INR]; ring). rewrite EX in *.
    destruct (pinned_row w h s f k v1 v2 d X Y 1 Hs ltac:(auto) HF PI S1 S2 D1) as [K1 _]. destruct (pinned_row w h s f k v1 v2 d (X + s) Y (-1) Hs ltac:(auto) HF PI S1 S2 D2) as [K2 _].
    destruct K1 as (A1 & A2 & A3 & A4 & A5 & A6). { intros t Ht. split; [split; cbn [fst snd]; [lra|exact PY]|]. destruct ND as [-> | ->]; exact L1. }
    destruct K2 as (B1 & B2 & B3 & B4 & B5 & B6). { intros t Ht. split; [split; cbn [fst snd]; [lra|exact PY]|]. destruct ND as [-> | ->]; exact L1. }
    rewrite A1, A2, A3, A4, A5, A6, B1, B2, B3, B4, B5, B6.
    destruct jj as [|[|[|[|[|[|[|]]]]]]]; try lia; split; do 2 f_equal; ring.
  - assert (ND : d = Left \/ d = Right) by (destruct d; cbn in O1, O2; auto; lia). set (X := INR i * s) in *. set (Y := INR j * s) in *. assert (EX : INR (j + 1) * s = Y + s) by (rewrite plus_INR; unfold Y; cbn [INR]; ring). rewrite EX in *.
    destruct (pinned_row w h s f k v1 v2 d X Y 1 Hs ltac:(auto) HF PI S1 S2 D1) as [_ K1]. destruct (pinned_row w h s f k v1 v2 d X (Y + s) (-1) Hs ltac:(auto) HF PI S1 S2 D2) as [_ K2].
    destruct K1 as (A1 & A2 & A3 & A4 & A5 & A6). { intros t Ht. split; [split; cbn [fst snd]; [exact PX|lra]|]. destruct ND as [-> | ->]; exact L1. }
    destruct K2 as (B1 & B2 & B3 & B4 & B5 & B6). { intros t Ht. split; [split; cbn [fst snd]; [exact PX|lra]|]. destruct ND as [-> | ->]; exact L1. }
    rewrite A1, A2, A3, A4, A5, A6, B1, B2, B3, B4, B5, B6.
    destruct jj as [|[|[|[|[|[|[|]]]]]]]; try lia; split; do 2 f_equal; ring.
Qed.
Print Assumptions C113_boundary_conditions.

Lemma admits_list xs p : length xs = length p -> (forall i x v, nth_error xs i = Some x -> nth_error p i = Some v -> admits x v) -> Forall2 admits xs p.
Proof.
  revert p. induction xs as [|x xs IH]; intros [|v p] L H; try discriminate; constructor; [exact (H 0%nat x v eq_refl eq_refl)|]. apply IH; [cbn in L; lia|]. intros i y z A B. exact (H (S i) y z A B).
Qed.
Lemma array_nodal g r u1 u2 arr y1 y2 : length (g_points g) = length (g_vertices g) -> length y1 = (num_vertices g * 6)%nat -> length y2 = (num_vertices g * 6)%nat -> y_array g (Some r) y1 y2 = arr -> array_of g u1 u2 arr -> jet_nodal g u1 y1 /\ jet_nodal g u2 y2.
Proof.
  intros LP L1 L2 <- A. assert (HV : forall v x, point_at g v x -> (v < num_vertices g)%nat) by (intros v x P; unfold num_vertices; rewrite <- LP; apply nth_error_Some; unfold point_at in P; rewrite P; discriminate).
  split; (split; [rewrite ?L1, ?L2; unfold num_vertices; lia|]); intros v x i P Hi; destruct (A v x i P Hi) as [A1 A2]; pose proof (HV v x P) as Hv.
  - rewrite (y_at_array g (Some r) y1 y2 v 0 i L1 L2 Hv) in A1 by (cbn; lia). cbn [Nat.eqb dofs] in A1. rewrite Nat.mul_comm. exact A1.
  - rewrite (y_at_array g (Some r) y1 y2 v 1 i L1 L2 Hv) in A2 by (cbn; lia). cbn [Nat.eqb dofs] in A2. rewrite Nat.mul_comm. exact A2.
Qed.
(** The parameters of the competitor are among those the solver may choose. *)
Lemma competitor_admitted g (xs : list pvar) (prev p : list R) (u v : R -> R -> R) w h rad (fixed : nat -> Prop) : length xs = length prev -> map v_val xs = prev -> jet_nodal g u prev -> jet_nodal g v p ->
  (forall i, (i < length (g_vertices g))%nat -> exists x, point_at g i x /\ rectangle w h x) -> (forall i x y, nth_error xs i = Some x -> nth_error prev i = Some y -> v_lb x = y - rad /\ v_ub x = y + rad) ->
  (forall i x, nth_error xs i = Some x -> v_fixed x = true -> exists q, fixed q /\ i = (q * 6)%nat) -> (forall q x, fixed q -> point_at g q x -> v (fst x) (snd x) = u (fst x) (snd x)) -> within_reach w h rad u v -> Forall2 admits xs p.
Proof.
  intros LX VX [LU NU] [LV NV] HV BX FX EQ WR. apply admits_list; [congruence|]. intros i x z Hx Hz. assert (Hi : (i < 6 * length (g_vertices g))%nat) by (rewrite <- LV; apply nth_error_Some; congruence).
  destruct (HV (i / 6)%nat) as (pt & P & RP); [apply Nat.div_lt_upper_bound; lia|]. pose proof (Nat.div_mod i 6 ltac:(lia)) as DM. assert (M6 : (i mod 6 < 6)%nat) by (apply Nat.mod_upper_bound; lia).
  pose proof (NU _ _ _ P M6) as U. pose proof (NV _ _ _ P M6) as V. rewrite <- DM in U, V. rewrite Hz in V. destruct (nth_error prev i) as [y|] eqn:Y; [|apply nth_error_None in Y; lia]. specialize (WR pt (i mod 6)%nat RP M6).
  symmetry in U, V. rewrite (nth_error_nth _ _ 0 U), (nth_error_nth _ _ 0 V) in WR. destruct (BX i x y Hx Y) as [B1 B2]. unfold admits. destruct (v_fixed x) eqn:F; [|rewrite B1, B2; apply Rabs_def2 in WR || (unfold Rabs in WR; destruct (Rcase_abs (z - y))); lra].
  destruct (FX i x Hx F) as (q & FQ & ->). rewrite Nat.div_mul in P by lia. rewrite Nat.mod_mul in U, V by lia. cbn [jet nth_error] in U, V. injection U as U. injection V as V. specialize (EQ q pt FQ P). cbv beta in *. assert (EV : v_val x = y) by (assert (Q : nth_error (map v_val xs) (q * 6) = Some (v_val x)) by (rewrite nth_error_map, Hx; reflexivity); rewrite VX, Y in Q; congruence). rewrite EV. unfold jet in U, V. congruence.
Qed.

(** In a regularized simulation with an exact solver every recorded step nearly minimizes the continuous functional: elastic energy
    plus regularization plus dissipation of the new deformation, as computed, are at most those of any smooth deformation that is
    the identity on the fixed sides and within the search radius, up to an error that vanishes with the mesh widths. *)
Theorem C113_near_minimal : forall w h k d, 0 <= k -> 0 < d -> exists C, forall u lg sm i a b r reg K nx ny u1 u2 v1 v2 theta,
  let s := p_scale (se_params u) in let fps := p_fps (se_params u) in let rad := p_search_radius (se_params u) in
  undisturbed u sm -> exact lg (se_solver u) -> LiveSpec.fine_enough u -> p_regularization (se_params u) = Some reg -> p_refinement_factor (se_params u) = Some K -> s_refined sm = Some r ->
  se_width u = w -> se_height u = h -> INR nx * s = w -> INR ny * s = h -> (1 <= nx)%nat -> (1 <= ny)%nat -> s <= Rmin 1 d / (960 * (k + 1) ^ 2) ->
  nth_error (s_steps sm) i = Some a -> nth_error (s_steps sm) (S i) = Some b ->
  array_of (s_grid sm) u1 u2 (st_y_data a) -> nodal (r_grid r) theta (nd_data (st_theta_data a)) ->
  smooth_field (rectangle w h) k u1 -> smooth_field (rectangle w h) k u2 -> regular_temperature (rectangle w h) k theta ->
  smooth_field (rectangle w h) k v1 -> smooth_field (rectangle w h) k v2 -> (forall x, rectangle w h x -> d <= det2 (gradient_of (motion_of v1 v2) x)) ->
  clamped w h (se_fix u) v1 v2 -> within_reach w h rad u1 v1 -> within_reach w h rad u2 v2 ->
  let JE := elastic_energy w h (motion_of v1 v2) theta in let JH := reg * hyper_energy w h v1 v2 in let JD := fps * dissipated w h (motion_of u1 u2) (motion_of v1 v2) in
  exists m J, let m' := fst (mech_solve (sv_mech (se_solver u) (2 * i) m) m) in
    mech_problem_from u sm a (INR i / fps) m /\ mech_y m' = st_y_data b /\
    mech_objective lg m (map v_val (ms_y1 m')) (map v_val (ms_y2 m')) = Ok J /\
    J <= JE + JH + JD + C * (1 + reg + fps) * (s ^ 3 + s / IZR K) + 1 / 10 ^ 14 * (Rabs JE + Rabs JH + Rabs JD).
Proof.
  intros w h k d Hk Hd. destruct (C112_objective w h k d Hk Hd) as [C T]. exists C. intros u lg sm i a b r reg K nx ny u1 u2 v1 v2 theta s fps rad H EX FE Preg PK Hr Ew Eh Nw Nh Hnx Hny Hss Ha Hb AR NT U1 U2 RT V1 V2 HD CL W1 W2 JE JH JD.
  pose proof (undisturbed_reachable u sm H) as HR. destruct (C57_grid_of_the_domain u sm HR) as (EG & _ & _ & RR). destruct (RR r Hr) as (K' & PK' & RF). rewrite PK in PK'. injection PK' as <-. clear RR.
  destruct (undisturbed_chain u sm H) as (g0 & rg0 & ps0 & G & _). pose proof (params_ok u (gr_valid _ _ _ _ G)) as (_ & P2 & P3 & P4 & P5). clear G g0 rg0 ps0. rewrite Preg, PK in P5. destruct P5 as (R0 & K' & PK' & KP). injection PK' as <-.
  fold s in P4, EG. fold fps in P3. fold rad in P2. assert (Fw : fits (se_width u) s nx) by (rewrite Ew, <- Nw; split; [lra|rewrite plus_INR; cbn [INR]; lra]). assert (Fh : fits (se_height u) s ny) by (rewrite Eh, <- Nh; split; [lra|rewrite plus_INR; cbn [INR]; lra]).
  assert (Hw1 : s <= se_width u) by (rewrite Ew, <- Nw; apply le_INR in Hnx; cbn [INR] in Hnx; nra). assert (Hh1 : s <= se_height u) by (rewrite Eh, <- Nh; apply le_INR in Hny; cbn [INR] in Hny; nra).
  assert (HL : p_regularization (se_params u) = None -> midpoint_rule lg) by (rewrite Preg; discriminate).
  destruct (exact_steps u lg HL EX FE Hw1 Hh1 sm HR) as [AA AC]. destruct (sim_mechanical u lg HL FE Hw1 Hh1 sm i a b AA AC H Ha Hb) as (m & mc & nc & J0 & MP & MY & PG & MS & ML & L1 & L2 & MF & MO).
  pose proof (proj1 MS) as Len. destruct (mp_grid _ _ _ _ _ MP) as [Gm Rm]. rewrite Hr in Rm. destruct (mp_constants _ _ _ _ _ MP) as (_ & Fm & RGm). specialize (RGm reg Preg).
  set (g := s_grid sm) in *. pose proof (proj1 (C27_rectangle_grid_is_mesh _ _ _ _ _ _ _ _ P4 Fw Fh EG Hnx Hny)) as M. pose proof (eq_sym (mesh_length _ _ _ _ M)) as LP.
  destruct Len as [Lp1 Lp2 Ly1 Ly2 Lth]. rewrite Gm, Rm in Lp1, Lp2, Ly1, Ly2, Lth. cbn [dofs] in Lp1, Lp2, Ly1, Ly2.
  assert (YA : y_array g (Some r) (ms_prev_y1 m) (ms_prev_y2 m) = st_y_data a) by (rewrite <- (mp_prev_y _ _ _ _ _ MP); unfold mech_prev_y; rewrite Gm, Rm; reflexivity).
  destruct (array_nodal g r u1 u2 _ _ _ LP Lp1 Lp2 YA AR) as [Nu1 Nu2]. assert (NTm : nodal (r_grid r) theta (ms_prev_theta m)) by (rewrite <- (mp_prev_theta _ _ _ _ _ MP) in NT; exact NT).
  destruct (jet_nodal_exists g s nx ny v1 M) as [p1 Nv1]. destruct (jet_nodal_exists g s nx ny v2 M) as [p2 Nv2].
  assert (EK : INR (Z.to_nat K) = IZR K) by (rewrite INR_IZR_INZ, Z2Nat.id by lia; reflexivity). assert (K1 : 1 <= IZR K) by (apply (IZR_le 1 K); lia).
  assert (FS : / 10 ^ 15 <= s / INR (Z.to_nat K)). { unfold LiveSpec.fine_enough in FE. rewrite Preg, PK in FE. destruct FE as (_ & _ & F). fold s in F. rewrite EK. apply (Rle_trans _ _ _ F). apply Rmult_le_compat_l; [lra|]. apply Rinv_le_contravar; lra. }
  assert (RF' : refine g (Z.of_nat (Z.to_nat K)) = Ok r) by (rewrite Z2Nat.id by lia; exact RF).
  assert (RG : regularized m r s nx ny (Z.to_nat K)).
  { split; [exact Rm|]. rewrite Gm. split; [|split; [lia|split; [exact FS|exact RF']]]. split; [exact P4|]. split; [exact Hnx|]. split; [exact Hny|]. split; [exists (se_order u), (se_width u), (se_height u), (se_fix u); auto|]. exists (Z.to_nat K). split; [lia|]. split; [exact FS|exact RF']. }
  rewrite <- Gm in Nu1, Nu2, Nv1, Nv2. destruct (T lg m r s nx ny (Z.to_nat K) u1 u2 v1 v2 theta p1 p2 Hss RG Nw Nh U1 U2 V1 V2 RT HD Nu1 Nu2 NTm Nv1 Nv2) as (J' & EJ' & BJ). cbv zeta in BJ. rewrite RGm, Fm, EK in BJ. fold fps in BJ. fold JE JH JD in BJ. rewrite (Rabs_pos_eq reg R0), (Rabs_pos_eq fps P3) in BJ.
  assert (FEAS : mech_feasible m p1 p2).
  { assert (VV : forall j, (j < length (g_vertices g))%nat -> exists x, point_at g j x /\ rectangle w h x).
    { intros j Hj. assert (Ij : In j (g_vertices g)) by (rewrite (mesh_numbers _ _ _ _ M); apply in_seq; rewrite <- LP in Hj; lia). destruct (mesh_inside _ _ _ _ M j Ij) as (c & e & C1 & C2 & _ & P). exists (INR c * s, INR e * s). split; [exact P|]. pose proof (pos_INR c). pose proof (pos_INR e). apply le_INR in C1, C2. split; cbn [fst snd]; [rewrite <- Nw|rewrite <- Nh]; split; nra. }
    assert (BX : forall xs ps, (xs = ms_y1 m /\ ps = ms_prev_y1 m \/ xs = ms_y2 m /\ ps = ms_prev_y2 m) -> forall j x y, nth_error xs j = Some x -> nth_error ps j = Some y -> v_lb x = y - rad /\ v_ub x = y + rad).
    { assert (CI : forall (xs : list pvar) (ps : list R) j x y, nth_error xs j = Some x -> nth_error ps j = Some y -> In (x, y) (combine xs ps)) by (induction xs as [|z xs IH]; intros [|q ps] [|j] x y Hx Hy; try discriminate; cbn in *; [left; congruence|right; exact (IH ps j x y Hx Hy)]).
      assert (CA : forall (xs xs' : list pvar) (ps ps' : list R), length xs = length ps -> combine (xs ++ xs') (ps ++ ps') = combine xs ps ++ combine xs' ps') by (induction xs as [|z xs IH]; intros xs' [|q ps] ps' L; try discriminate; cbn in *; [reflexivity|f_equal; apply IH; lia]).
      intros xs ps Q j x y Hx Hy. apply (mp_box _ _ _ _ _ MP). rewrite CA by congruence. apply in_or_app. destruct Q as [[-> ->]|[-> ->]]; [left|right]; exact (CI _ _ j x y Hx Hy). }
    assert (FX : forall xs, (xs = ms_y1 m \/ xs = ms_y2 m) -> forall j x, nth_error xs j = Some x -> v_fixed x = true -> exists q, In q (b_vertices (g_dirichlet g)) /\ j = (q * 6)%nat).
    { intros xs Q j x Hx Fx. destruct (proj1 (mp_fixed _ _ _ _ _ MP j x ltac:(destruct Q as [-> | ->]; auto)) Fx) as (q & Q1 & Q2). rewrite Hr in Q2. exists q. split; [exact Q1|exact Q2]. }
    assert (DV : forall q x, In q (b_vertices (g_dirichlet g)) -> point_at g q x -> v1 (fst x) (snd x) = u1 (fst x) (snd x) /\ v2 (fst x) (snd x) = u2 (fst x) (snd x)).
    { intros q x Hq P. destruct (C57_dirichlet_vertices_stay u sm a q (fst x) (snd x) HR (nth_error_In _ _ Ha) Hq P) as [Y1 Y2]. destruct (AR q x 0%nat P ltac:(lia)) as [Z1 Z2]. rewrite Y1 in Z1. rewrite Y2 in Z2. cbn [jet nth_error] in Z1, Z2. unfold jet in Z1, Z2. injection Z1 as Z1. injection Z2 as Z2. rewrite <- Z1, <- Z2.
      apply (proj2 (C17_dirichlet_vertices _ _ _ _ _ _ _ _ P4 Fw Fh EG)) in Hq as (sd & HF & c & e & [Iq Pq] & OS). destruct (VV q) as (x' & P' & RX). { rewrite <- LP. apply nth_error_Some. rewrite Pq. discriminate. }
      assert (x' = x) as ->. { unfold point_at in P, P'. rewrite P in P'. injection P' as X1 X2. destruct x, x'; cbn in *; congruence. }
      apply (CL sd x HF RX). unfold point_at in P. rewrite Pq in P. injection P as X1 X2. destruct sd; cbn in OS |- *; subst; rewrite <- ?X1, <- ?X2; rewrite <- ?Nw, <- ?Nh; cbn; ring. }
    rewrite Gm in Nu1, Nu2, Nv1, Nv2. split; [|split].
    - exact (competitor_admitted g (ms_y1 m) (ms_prev_y1 m) p1 u1 v1 w h rad (fun q => In q (b_vertices (g_dirichlet g))) ltac:(congruence) L1 Nu1 Nv1 VV (BX _ _ (or_introl (conj eq_refl eq_refl))) (FX _ (or_introl eq_refl)) (fun q x Q P => proj1 (DV q x Q P)) W1).
    - exact (competitor_admitted g (ms_y2 m) (ms_prev_y2 m) p2 u2 v2 w h rad (fun q => In q (b_vertices (g_dirichlet g))) ltac:(congruence) L2 Nu2 Nv2 VV (BX _ _ (or_intror (conj eq_refl eq_refl))) (FX _ (or_intror eq_refl)) (fun q x Q P => proj2 (DV q x Q P)) W2).
    - intros _. rewrite <- Nw, <- Nh in CL, V1, V2. rewrite <- Gm in EG, Nv1, Nv2. exact (C113_boundary_conditions _ _ _ _ _ _ _ m k v1 v2 p1 p2 P4 Fw Fh Hnx Hny EG (proj1 V1) (proj1 V2) CL Nv1 Nv2). }
  destruct (solution_exists lg m _ _ _ _ _ J0 PG MS ML MF MO) as (z1 & z2 & MM). destruct EX as (_ & _ & EM & _). pose proof (EM (2 * i)%nat _ _ _ MM) as MM'. cbv zeta in MM'. destruct MM' as (_ & J & EJ & MIN).
  exists m, J. cbv zeta. split; [exact MP|]. split; [symmetry; exact MY|]. split; [exact EJ|]. pose proof (MIN _ _ _ FEAS EJ') as LE. apply Rabs_le_between in BJ || idtac. unfold Rabs in BJ at 1. destruct (Rcase_abs (J' - (JE + JH + JD))) in BJ; lra.
Qed.
Print Assumptions C113_near_minimal.
