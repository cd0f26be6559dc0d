(** * C124: how the time steps respond to their constants.
    Vocabulary: Spec/ResponseSpec.v, Spec/MechSpec.v, Spec/ThermSpec.v, Spec/TractionSpec.v. *)
From Coq Require Import Reals Lra Lia List ZArith.
From Verif.Spec Require Import GridSpec QuadSpec RefineSpec PotentialSpec.
From Verif.Model Require Import Py Num Tensors Domain Refine Quadrature Integrators Interp Helpers Steps.
From Verif.Spec Require Import SimSpec StepSpec EnergySpec MotionSpec TractionSpec ThermSpec MechSpec ResponseSpec.
From Verif.Proofs Require Import Lib GridP InterpP StepP SimP StepD StepU StepE ThermQ.
From Verif.Props Require Import GridProps EnergyProps TractionProps.
Local Open Scope R_scope.
Import ListNotations.
Local Notation length := List.length.

(** The parts of the mechanical objective. *)
Definition mech_rest (lg : Z -> res (list R * list R)) (m : mech) (y1 y2 : list R) : res R :=
  let* E := mech_elastic_energy m y1 y2 in
  match ms_refined m with
  | None => let* W := mech_traction_energy lg m y1 y2 in Ok (E - W)
  | Some _ => let* H := mech_hyper_elastic_energy m y1 y2 in Ok (E + ms_reg m * H)
  end.
Lemma objective_parts lg m y1 y2 J : mech_objective lg m y1 y2 = Ok J <-> exists P D, mech_rest lg m y1 y2 = Ok P /\ mech_dissipation m y1 y2 = Ok D /\ J = P + ms_fps m * D.
Proof.
  unfold mech_objective, mech_rest. destruct (mech_elastic_energy m y1 y2) as [E|e]; cbn [bind]; [|split; [discriminate|intros (? & ? & ? & _); discriminate]].
  destruct (ms_refined m) as [r|].
  - destruct (mech_hyper_elastic_energy m y1 y2) as [H|e]; cbn [bind]; [|split; [discriminate|intros (? & ? & ? & _); discriminate]].
    destruct (mech_dissipation m y1 y2) as [D|e]; cbn [bind]; [|split; [discriminate|intros (? & ? & _ & ? & _); discriminate]].
    split; [intros K; injection K as <-; exists (E + ms_reg m * H), D; auto|intros (P & D' & K1 & K2 & ->); congruence].
  - destruct (mech_dissipation m y1 y2) as [D|e]; cbn [bind]; [|split; [discriminate|intros (? & ? & _ & ? & _); discriminate]].
    destruct (mech_traction_energy lg m y1 y2) as [W|e]; cbn [bind]; [|split; [discriminate|intros (? & ? & ? & _); discriminate]].
    split; [intros K; injection K as <-; exists (E - W), D; auto|intros (P & D' & K1 & K2 & ->); congruence].
Qed.
Lemma cross a b c d f f' : 0 <= f -> f < f' -> a + f * c <= b + f * d -> b + f' * d <= a + f' * c -> d <= c /\ a <= b.
Proof. intros F0 F1 H1 H2. assert (K : (f' - f) * d <= (f' - f) * c) by lra. assert (d <= c) by (apply (Rmult_le_reg_l (f' - f)); [lra|exact K]). split; [assumption|]. assert (f * d <= f * c) by (apply Rmult_le_compat_l; lra). lra. Qed.

(** A higher frame rate (a shorter time step): the body moves no further, measured by the dissipation, and what is left of the
    objective (stored energy minus work of the load, or plus regularization) is no lower. *)
Theorem C124_frame_rate : forall lg m f y1 y2 z1 z2, 0 <= ms_fps m -> ms_fps m < f -> mech_minimizes lg m y1 y2 -> mech_minimizes lg (with_fps f m) z1 z2 ->
  exists Jy Jz Dy Dz, mech_objective lg m y1 y2 = Ok Jy /\ mech_objective lg m z1 z2 = Ok Jz /\ mech_dissipation m y1 y2 = Ok Dy /\ mech_dissipation m z1 z2 = Ok Dz /\
    Dz <= Dy /\ Jy - ms_fps m * Dy <= Jz - ms_fps m * Dz.
Proof.
  intros lg m f y1 y2 z1 z2 F0 F1 (FY & Jy & EY & MY) (FZ & Jz & EZ & MZ).
  apply objective_parts in EY as (Py & Dy & RY & DY & ->). apply objective_parts in EZ as (Pz & Dz & RZ & DZ & ->).
  assert (OY : mech_objective lg (with_fps f m) y1 y2 = Ok (Py + f * Dy)) by (apply objective_parts; exists Py, Dy; auto).
  assert (OZ : mech_objective lg m z1 z2 = Ok (Pz + ms_fps m * Dz)) by (apply objective_parts; exists Pz, Dz; auto).
  pose proof (MY z1 z2 _ FZ OZ) as K1. pose proof (MZ y1 y2 _ FY OY) as K2. cbn [with_fps ms_fps] in K2.
  destruct (cross _ _ _ _ _ _ F0 F1 K1 K2) as [C1 C2].
  exists (Py + ms_fps m * Dy), (Pz + ms_fps m * Dz), Dy, Dz. split; [apply objective_parts; eauto|]. split; [exact OZ|]. split; [exact DY|]. split; [exact DZ|]. split; [exact C1|lra].
Qed.
Print Assumptions C124_frame_rate.

Lemma reg_parts lg m y1 y2 J : ms_refined m <> None -> mech_objective lg m y1 y2 = Ok J <->
  exists E H D, mech_elastic_energy m y1 y2 = Ok E /\ mech_hyper_elastic_energy m y1 y2 = Ok H /\ mech_dissipation m y1 y2 = Ok D /\ J = E + ms_reg m * H + ms_fps m * D.
Proof.
  intros NR. unfold mech_objective. destruct (ms_refined m) as [r|]; [|congruence].
  destruct (mech_elastic_energy m y1 y2) as [E|e]; cbn [bind]; [|split; [discriminate|intros (? & ? & ? & ? & _); discriminate]].
  destruct (mech_hyper_elastic_energy m y1 y2) as [H|e]; cbn [bind]; [|split; [discriminate|intros (? & ? & ? & _ & ? & _); discriminate]].
  destruct (mech_dissipation m y1 y2) as [D|e]; cbn [bind]; [|split; [discriminate|intros (? & ? & ? & _ & _ & ? & _); discriminate]].
  split; [intros K; injection K as <-; exists E, H, D; auto|intros (E' & H' & D' & K1 & K2 & K3 & ->); congruence].
Qed.
(** More regularization: the solution has no more regularization energy and its remaining energies are no lower. *)
Theorem C124_regularization : forall lg m e y1 y2 z1 z2, ms_refined m <> None -> 0 <= ms_reg m -> ms_reg m < e -> mech_minimizes lg m y1 y2 -> mech_minimizes lg (with_regularization e m) z1 z2 ->
  exists Hy Hz Ey Ez Dy Dz, mech_hyper_elastic_energy m y1 y2 = Ok Hy /\ mech_hyper_elastic_energy m z1 z2 = Ok Hz /\ mech_elastic_energy m y1 y2 = Ok Ey /\ mech_elastic_energy m z1 z2 = Ok Ez /\
    mech_dissipation m y1 y2 = Ok Dy /\ mech_dissipation m z1 z2 = Ok Dz /\
    Hz <= Hy /\ Ey + ms_fps m * Dy <= Ez + ms_fps m * Dz.
Proof.
  intros lg m e y1 y2 z1 z2 NR F0 F1 (FY & Jy & EY & MY) (FZ & Jz & EZ & MZ).
  apply (reg_parts lg m y1 y2 _ NR) in EY as (Ey & Hy & Dy & EY & HY & DY & ->). apply (reg_parts lg (with_regularization e m) z1 z2 _ NR) in EZ as (Ez & Hz & Dz & EZ & HZ & DZ & ->). cbn [with_regularization ms_reg ms_fps] in *.
  change (mech_elastic_energy m z1 z2 = Ok Ez) in EZ. change (mech_hyper_elastic_energy m z1 z2 = Ok Hz) in HZ. change (mech_dissipation m z1 z2 = Ok Dz) in DZ.
  assert (OY : mech_objective lg (with_regularization e m) y1 y2 = Ok (Ey + e * Hy + ms_fps m * Dy)) by (apply (reg_parts lg (with_regularization e m) y1 y2 _ NR); exists Ey, Hy, Dy; auto).
  assert (OZ : mech_objective lg m z1 z2 = Ok (Ez + ms_reg m * Hz + ms_fps m * Dz)) by (apply (reg_parts lg m z1 z2 _ NR); exists Ez, Hz, Dz; auto).
  pose proof (MY z1 z2 _ FZ OZ) as K1. pose proof (MZ y1 y2 _ FY OY) as K2.
  destruct (cross (Ey + ms_fps m * Dy) (Ez + ms_fps m * Dz) Hy Hz (ms_reg m) e F0 F1) as [C1 C2]; [lra|lra|].
  exists Hy, Hz, Ey, Ez, Dy, Dz. repeat (split; [assumption|]). exact C2.
Qed.
Print Assumptions C124_regularization.

Lemma plain_parts lg m y1 y2 J : ms_refined m = None -> mech_objective lg m y1 y2 = Ok J <->
  exists E W D, mech_elastic_energy m y1 y2 = Ok E /\ mech_traction_energy lg m y1 y2 = Ok W /\ mech_dissipation m y1 y2 = Ok D /\ J = E - W + ms_fps m * D.
Proof.
  intros NR. unfold mech_objective. rewrite NR.
  destruct (mech_elastic_energy m y1 y2) as [E|e]; cbn [bind]; [|split; [discriminate|intros (? & ? & ? & ? & _); discriminate]].
  destruct (mech_dissipation m y1 y2) as [D|e]; cbn [bind]; [|split; [discriminate|intros (? & ? & ? & _ & _ & ? & _); discriminate]].
  destruct (mech_traction_energy lg m y1 y2) as [W|e]; cbn [bind]; [|split; [discriminate|intros (? & ? & ? & _ & ? & _); discriminate]].
  split; [intros K; injection K as <-; exists E, W, D; auto|intros (E' & W' & D' & K1 & K2 & K3 & ->); congruence].
Qed.
Lemma f2_len {A B} (P : A -> B -> Prop) xs ys : Forall2 P xs ys -> length xs = length ys.
Proof. induction 1; [reflexivity|]. cbn [List.length]. congruence. Qed.
Lemma feasible_sizes m y1 y2 : mech_history m -> ms_refined m = None -> mech_feasible m y1 y2 -> length y1 = length (g_vertices (ms_grid m)) /\ length y2 = length (g_vertices (ms_grid m)).
Proof.
  intros HM PL (F1 & F2 & _). pose proof (mech_history_len m HM) as ML. destruct ML as [_ _ Y1 Y2 _]. unfold num_vertices in Y1, Y2. rewrite PL in Y1, Y2. cbn [dofs] in Y1, Y2. rewrite Nat.mul_1_r in Y1, Y2.
  pose proof (f2_len _ _ _ F1) as K1. pose proof (f2_len _ _ _ F2) as K2. split; congruence.
Qed.
(** Another load: on the new solution the load has gained at least as much work as on the old one. *)
Theorem C124_load : forall lg m h a b d1 d2 y1 y2 z1 z2, problem_grids (ms_grid m) (ms_refined m) h a b -> mech_history m -> ms_refined m = None -> midpoint_rule lg ->
  map fst d1 = b_vertices (g_neumann (ms_grid m)) -> map fst d2 = b_vertices (g_neumann (ms_grid m)) ->
  mech_minimizes lg m y1 y2 -> mech_minimizes lg (with_load d1 d2 m) z1 z2 ->
  exists Wy Wz Wy' Wz', mech_traction_energy lg m y1 y2 = Ok Wy /\ mech_traction_energy lg m z1 z2 = Ok Wz /\
    mech_traction_energy lg (with_load d1 d2 m) y1 y2 = Ok Wy' /\ mech_traction_energy lg (with_load d1 d2 m) z1 z2 = Ok Wz' /\ Wy' - Wy <= Wz' - Wz.
Proof.
  intros lg m h a b d1 d2 y1 y2 z1 z2 PG HM PL LG K1 K2 (FY & Jy & EY & MY) (FZ & Jz & EZ & MZ). pose proof PG as (Hs & A1 & B1 & (so & w & hh & f & Fw & Fh & Eg) & _).
  destruct (mech_history_keys m HM PL) as [G1 G2]. destruct (feasible_sizes m y1 y2 HM PL FY) as [L1 L2]. destruct (feasible_sizes m z1 z2 HM PL FZ) as [L3 L4].
  apply (plain_parts lg m y1 y2 _ PL) in EY as (Ey & Wy & Dy & EY & WY & DY & ->). apply (plain_parts lg (with_load d1 d2 m) z1 z2 _ PL) in EZ as (Ez & Wz' & Dz & EZ & WZ' & DZ & ->).
  destruct (traction_work so w hh f h a b lg m z1 z2 Hs Fw Fh A1 B1 G1 G2 Eg LG L3 L4) as [WZ _]. destruct (traction_work so w hh f h a b lg (with_load d1 d2 m) y1 y2 Hs Fw Fh A1 B1 K1 K2 Eg LG L1 L2) as [WY' _].
  match type of WZ with _ = Ok ?X => set (Wz := X) in * end. match type of WY' with _ = Ok ?X => set (Wy' := X) in * end.
  assert (OY : mech_objective lg (with_load d1 d2 m) y1 y2 = Ok (Ey - Wy' + ms_fps m * Dy)) by (apply (plain_parts lg (with_load d1 d2 m) y1 y2 _ PL); exists Ey, Wy', Dy; auto).
  assert (OZ : mech_objective lg m z1 z2 = Ok (Ez - Wz + ms_fps m * Dz)) by (apply (plain_parts lg m z1 z2 _ PL); exists Ez, Wz, Dz; auto).
  pose proof (MY z1 z2 _ FZ OZ) as Q1. pose proof (MZ y1 y2 _ FY OY) as Q2. cbn [with_load ms_fps] in Q2. exists Wy, Wz, Wy', Wz'. repeat (split; [assumption|]). lra.
Qed.
Print Assumptions C124_load.

Lemma value_times c d v : value_for (times c d) v = c * value_for d v.
Proof.
  unfold value_for, times, dget. induction d as [|[k x] d IH]; cbn [map dfind]; [ring|]. cbn [fst snd]. destruct (Nat.eqb v k); [reflexivity|exact IH].
Qed.
Lemma keys_times c (d : dict nat R) : map fst (times c d) = map fst d.
Proof. unfold times. rewrite map_map. reflexivity. Qed.
(** A larger load in the same direction does at least as much work, and stores and dissipates at least as much energy. *)
Theorem C124_larger_load : forall lg m h a b c y1 y2 z1 z2, problem_grids (ms_grid m) (ms_refined m) h a b -> mech_history m -> ms_refined m = None -> midpoint_rule lg -> 1 < c ->
  mech_minimizes lg m y1 y2 -> mech_minimizes lg (with_load_times c m) z1 z2 ->
  exists Wy Wz Ey Ez Dy Dz, mech_traction_energy lg m y1 y2 = Ok Wy /\ mech_traction_energy lg m z1 z2 = Ok Wz /\ mech_elastic_energy m y1 y2 = Ok Ey /\ mech_elastic_energy m z1 z2 = Ok Ez /\
    mech_dissipation m y1 y2 = Ok Dy /\ mech_dissipation m z1 z2 = Ok Dz /\ Wy <= Wz /\ Ey + ms_fps m * Dy <= Ez + ms_fps m * Dz.
Proof.
  intros lg m h a b c y1 y2 z1 z2 PG HM PL LG Hc MY MZ. destruct (mech_history_keys m HM PL) as [G1 G2].
  destruct (C124_load lg m h a b (times c (ms_g1 m)) (times c (ms_g2 m)) y1 y2 z1 z2 PG HM PL LG) as (Wy & Wz & Wy' & Wz' & E1 & E2 & E3 & E4 & LE); [rewrite keys_times; exact G1|rewrite keys_times; exact G2|exact MY|exact MZ|].
  pose proof PG as (Hs & A1 & B1 & (so & w & hh & f & Fw & Fh & Eg) & _). destruct MY as (FY & Jy & EY & MY). destruct MZ as (FZ & Jz & EZ & MZ). destruct (feasible_sizes m y1 y2 HM PL FY) as [L1 L2]. destruct (feasible_sizes m z1 z2 HM PL FZ) as [L3 L4].
  assert (SC : forall v1 v2 W W', length v1 = length (g_vertices (ms_grid m)) -> length v2 = length (g_vertices (ms_grid m)) -> mech_traction_energy lg m v1 v2 = Ok W -> mech_traction_energy lg (with_load_times c m) v1 v2 = Ok W' -> W' = c * W).
  { intros v1 v2 W W' V1 V2 H1 H2. pose proof (keys_times c (ms_g1 m)) as T1. pose proof (keys_times c (ms_g2 m)) as T2. rewrite G1 in T1. rewrite G2 in T2. rewrite (proj1 (traction_work so w hh f h a b lg m v1 v2 Hs Fw Fh A1 B1 G1 G2 Eg LG V1 V2)) in H1.
    rewrite (proj1 (traction_work so w hh f h a b lg (with_load_times c m) v1 v2 Hs Fw Fh A1 B1 T1 T2 Eg LG V1 V2)) in H2. injection H1 as <-. injection H2 as <-.
    cbn [with_load_times with_load ms_g1 ms_g2 ms_grid]. set (l := b_edges (g_neumann (ms_grid m))). induction l as [|e l IH]; cbn [sum_over]; [ring|]. rewrite !Rmult_plus_distr_l, IH. unfold mean_of_ends. rewrite !value_times. unfold mean_of_ends. field. }
  pose proof (SC y1 y2 Wy Wy' L1 L2 E1 E3) as S1. pose proof (SC z1 z2 Wz Wz' L3 L4 E2 E4) as S2. subst Wy' Wz'.
  assert (LE' : Wy <= Wz) by (apply (Rmult_le_reg_l (c - 1)); lra).
  apply (plain_parts lg m y1 y2 _ PL) in EY as (Ey & Wy' & Dy & EY & WY & DY & ->). assert (Wy' = Wy) as -> by congruence. apply (plain_parts lg (with_load_times c m) z1 z2 _ PL) in EZ as (Ez & Wz' & Dz & EZ & _ & DZ & _).
  change (mech_elastic_energy m z1 z2 = Ok Ez) in EZ. change (mech_dissipation m z1 z2 = Ok Dz) in DZ.
  assert (OZ : mech_objective lg m z1 z2 = Ok (Ez - Wz + ms_fps m * Dz)) by (apply (plain_parts lg m z1 z2 _ PL); exists Ez, Wz, Dz; auto). pose proof (MY z1 z2 _ FZ OZ) as Q.
  exists Wy, Wz, Ey, Ez, Dy, Dz. repeat (split; [assumption|]). lra.
Qed.
Print Assumptions C124_larger_load.

(** Warmer surroundings: the boundary of the body is on average at least as warm. *)
Theorem C124_surroundings : forall lg s h a b e th th', problem_grids (ts_grid s) (ts_refined s) h a b -> ts_refined s = None -> midpoint_rule lg -> temperatures_of s th -> temperatures_of s th' -> ts_ext s < e ->
  minimizes lg s th -> minimizes lg (with_surroundings e s) th' ->
  sum_over (mean_of_ends (at_vertex th)) (b_edges (g_boundary (ts_grid s))) <= sum_over (mean_of_ends (at_vertex th')) (b_edges (g_boundary (ts_grid s))).
Proof.
  intros lg s h a b e th th' PG PL LG T1 T2 He (F1 & J1 & E1 & M1) (F2 & J2 & E2 & M2). pose proof PG as (Hs & _).
  assert (PARTS : forall e0 v J, temperatures_of s v -> therm_objective lg (with_surroundings e0 s) v = Ok J <-> exists E D, therm_energy s v = Ok E /\ therm_dissipation s v = Ok D /\
     J = E + ts_fps s * D + h * sum_over (fun d => 1 / 4 * (mean_of_ends (at_vertex v) d - e0) ^ 2) (b_edges (g_boundary (ts_grid s)))).
  { intros e0 v J TV. assert (BD : therm_boundary lg (with_surroundings e0 s) v = Ok (h * sum_over (fun d => 1 / 4 * (mean_of_ends (at_vertex v) d - e0) ^ 2) (b_edges (g_boundary (ts_grid s))))).
    { rewrite (bd_value lg (with_surroundings e0 s) h a b PG (fun _ => LG) v TV). unfold bd. cbn [with_surroundings ts_refined ts_ext ts_grid]. rewrite PL. reflexivity. }
    unfold therm_objective. rewrite BD. set (BB := h * sum_over (fun d => 1 / 4 * (mean_of_ends (at_vertex v) d - e0) ^ 2) (b_edges (g_boundary (ts_grid s)))). change (therm_energy (with_surroundings e0 s) v) with (therm_energy s v). change (therm_dissipation (with_surroundings e0 s) v) with (therm_dissipation s v).
    destruct (therm_energy s v) as [E|x]; cbn [bind]; [|split; [discriminate|intros (? & ? & ? & _); discriminate]].
    destruct (therm_dissipation s v) as [D|x]; cbn [bind]; [|split; [discriminate|intros (? & ? & _ & ? & _); discriminate]]. cbn [with_surroundings ts_fps].
    split; [intros K; injection K as <-; exists E, D; split; [reflexivity|split; [reflexivity|ring]]|intros (E0 & D0 & K1 & K2 & ->)]. injection K1 as <-. injection K2 as <-. apply (f_equal Ok). ring. }
  assert (SELF : with_surroundings (ts_ext s) s = s) by (destruct s; reflexivity).
  rewrite <- SELF in E1. apply (PARTS (ts_ext s) th _ T1) in E1 as (A1 & D1 & EA1 & ED1 & ->). apply (PARTS e th' _ T2) in E2 as (A2 & D2 & EA2 & ED2 & ->).
  assert (O2 : therm_objective lg s th' = Ok (A2 + ts_fps s * D2 + h * sum_over (fun d => 1 / 4 * (mean_of_ends (at_vertex th') d - ts_ext s) ^ 2) (b_edges (g_boundary (ts_grid s))))) by (rewrite <- SELF at 1; apply (PARTS (ts_ext s) th' _ T2); eauto).
  assert (O1 : therm_objective lg (with_surroundings e s) th = Ok (A1 + ts_fps s * D1 + h * sum_over (fun d => 1 / 4 * (mean_of_ends (at_vertex th) d - e) ^ 2) (b_edges (g_boundary (ts_grid s))))) by (apply (PARTS e th _ T1); eauto).
  pose proof (M1 th' _ F2 O2) as Q1. pose proof (M2 th _ F1 O1) as Q2.
  assert (EXP : forall v, sum_over (fun d => 1 / 4 * (mean_of_ends (at_vertex v) d - e) ^ 2) (b_edges (g_boundary (ts_grid s))) - sum_over (fun d => 1 / 4 * (mean_of_ends (at_vertex v) d - ts_ext s) ^ 2) (b_edges (g_boundary (ts_grid s))) =
     sum_over (fun _ => 1 / 4 * (e * e - ts_ext s * ts_ext s)) (b_edges (g_boundary (ts_grid s))) - (e - ts_ext s) / 2 * sum_over (mean_of_ends (at_vertex v)) (b_edges (g_boundary (ts_grid s)))).
  { intros v. set (l := b_edges (g_boundary (ts_grid s))). induction l as [|d l IH]; cbn [sum_over]; [ring|].
    match goal with |- (?x1 + ?S1) - (?x2 + ?S2) = (?x3 + ?S3) - ?k * (?x4 + ?S4) => replace ((x1 + S1) - (x2 + S2)) with (x1 - x2 + (S1 - S2)) by ring; rewrite IH; field end. }
  pose proof (EXP th) as X1. pose proof (EXP th') as X2. apply (Rmult_le_reg_l (h * ((e - ts_ext s) / 2))); [apply Rmult_lt_0_compat; lra|].
  match type of X1 with ?s1 - ?s2 = ?c0 - ?k * ?u => set (a1 := s1) in *; set (a2 := s2) in *; set (cc := c0) in *; set (u1 := u) in *; set (kk := k) in * end.
  match type of X2 with ?s1 - ?s2 = _ - _ * ?u => set (b1 := s1) in *; set (b2 := s2) in *; set (u2 := u) in * end.
  assert (h * (a1 - a2) = h * (cc - kk * u1)) by (rewrite X1; reflexivity). assert (h * (b1 - b2) = h * (cc - kk * u2)) by (rewrite X2; reflexivity). lra.
Qed.
Print Assumptions C124_surroundings.
