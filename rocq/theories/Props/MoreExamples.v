(** * Concrete cases that meet the hypotheses of C35, C55, C67, C74, C77, C80, C81, C87, C95. *)
From Coq Require Import Reals Lra Lia List ZArith.
From Verif.Spec Require Import GridSpec QuadSpec BellSpec InterpSpec RefineSpec PotentialSpec.
From Verif.Model Require Import Py Num Tensors Domain Refine Quadrature Integrators Expr Bell Interp Helpers Steps Simulation.
From Verif.Spec Require Import SimSpec LiveSpec StepSpec EnergySpec MotionSpec TractionSpec ThermSpec MechSpec MomentumSpec IdealSpec RestSpec.
From Verif.Proofs Require Import Lib GridP StepP StepU StepE SimP SimQ SimR SimH SimC SimL SimA SimE StepC ThermP MechP PotP StdOrder.
From Verif.Props Require Import GridProps SimProps PotentialProps QuadProps EnergyProps EnergyExamples AffineProps TractionProps MechExistProps IdealProps MomentumProps RestProps RestExamples ThermProps HeatProps HeatExamples BalanceProps.
Local Open Scope R_scope.
Import ListNotations.
Local Notation length := List.length.

Example C35_example : exists r e, DUNAVANT5 = Ok r /\ degree_le 5 [(2, (2, 3)%nat); (-5, (4, 0)%nat); (7, (0, 0)%nat)] /\
  rule_value r (peval [(2, (2, 3)%nat); (-5, (4, 0)%nat); (7, (0, 0)%nat)]) = 2 * reference_integral (peval [(2, (2, 3)%nat); (-5, (4, 0)%nat); (7, (0, 0)%nat)]) + e /\ Rabs e <= 14 / 10 ^ 14.
Proof.
  destruct C35_dunavant5 as (r & E & K). assert (D : degree_le 5 [(2, (2, 3)%nat); (-5, (4, 0)%nat); (7, (0, 0)%nat)]) by (intros c i j [H|[H|[H|[]]]]; injection H as <- <- <-; lia).
  specialize (K _ D). eexists r, _. split; [exact E|]. split; [exact D|]. assert (A : abs_coefficients [(2, (2, 3)%nat); (-5, (4, 0)%nat); (7, (0, 0)%nat)] = 14) by (unfold abs_coefficients; cbn [fold_right]; rewrite (Rabs_right 2), (Rabs_left (-5)), (Rabs_right 7) by lra; ring).
  rewrite A in K. split; [|eapply Rle_trans; [exact K|]; right; field]. ring.
Qed.
Example C55_example : exists K, heat_conductivity_reference (mat (PotentialSpec.st 2 1 (-1) 3)) = Ok (mat K) /\ K = PotentialSpec.st (10/7) (1/7) (1/7) (5/7).
Proof. exists (Kref (PotentialSpec.st 2 1 (-1) 3)). split; [apply heat_value; unfold det2, PotentialSpec.st; cbn; lra|]. unfold Kref, det2, PotentialSpec.st. cbn [f11 f12 f21 f22]. f_equal; field. Qed.
Example C74_example : 0 < det2 (PotentialSpec.st 1 (1/2) 0 1) /\ martensite_potential (mat (PotentialSpec.st 1 (1/2) 0 1)) = Ok 0 /\
  0 < det2 (PotentialSpec.st 2 1 (-1) 3) /\ martensite_potential (mat (PotentialSpec.st 2 1 (-1) 3)) <> Ok 0.
Proof.
  assert (D1 : 0 < det2 (PotentialSpec.st 1 (1/2) 0 1)) by (unfold det2, PotentialSpec.st; cbn; lra). assert (D2 : 0 < det2 (PotentialSpec.st 2 1 (-1) 3)) by (unfold det2, PotentialSpec.st; cbn; lra).
  split; [exact D1|]. split; [apply (C74_zero_set _ D1); unfold det2, norm2, PotentialSpec.st; cbn; split; field|]. split; [exact D2|]. intros E. apply (C74_zero_set _ D2) in E as [E _]. unfold det2, PotentialSpec.st in E. cbn in E. lra.
Qed.
(** C67: a simulation with five steps, with and without regularization. *)
Example C67_example : forall reg, reg = None \/ reg = Some 1 -> let u := ex_setting reg [] in exists s a b, undisturbed u s /\ nth_error (s_steps s) 3 = Some a /\ nth_error (s_steps s) 4 = Some b /\ (s_refined s = None <-> reg = None).
Proof.
  intros reg Hr u. assert (Hr' : forall e, reg = Some e -> 0 <= e) by (intros e E; destruct Hr as [-> | ->]; [discriminate|injection E as <-; lra]).
  destruct (ex_state reg Hr') as (s & U & L & Eg & Er & Q). destruct (Q 3%nat ltac:(lia)) as [a Ha]. destruct (Q 4%nat ltac:(lia)) as [b Hb]. exists s, a, b. auto.
Qed.
(** C77: the simulations of C60_example, with the conclusions. *)
Example C77_example : forall reg, reg = None \/ reg = Some 1 -> let u := ex_free reg in exists s st, reachable u s /\ nth_error (s_steps s) 4 = Some st /\ cautious lg0 (se_solver u) /\ fine_enough u /\
  (s_refined s = None -> step_keeps_orientation (s_grid s) st) /\
  (forall r q, s_refined s = Some r -> DUNAVANT5 = Ok q -> forall t b, In t (g_triangles (r_grid r)) -> In b (q_points q) -> exists F, deform_strain (RefI (st_y1 st) r) (RefI (st_y2 st) r) t b = Ok (mat F) /\ 0 < det2 F).
Proof.
  intros reg Hr u. destruct (C60_example reg Hr) as (s & a & b & v & U & Er & CA & FE & W & H & _ & Hb & _). exists s, b. pose proof (undisturbed_reachable _ _ U) as RE.
  split; [exact RE|]. split; [exact Hb|]. split; [exact CA|]. split; [exact FE|]. split.
  - intros N. apply (C77_recorded_steps_keep_orientation u lg0 [0] [2] s b RE N CA eq_refl W H). exact (nth_error_In _ _ Hb).
  - intros r q N Eq. exact (C77_recorded_steps_positive_jacobian u lg0 q s r b RE N CA FE Eq (nth_error_In _ _ Hb)).
Qed.
(** C80, C81: the fresh step of the free square, loaded with the traction (1, 2); the reference deformation and its quarter turn. *)
Lemma free_problem reg : reg = None \/ reg = Some 1 -> exists m, problem_grids (ms_grid m) (ms_refined m) (1/2) 2 2 /\ mech_history m /\ (ms_refined m = None <-> reg = None) /\
  domain_grid std_order 1 1 FixNone (1/2) = Ok (ms_grid m) /\ affine_field (ms_grid m) (ms_refined m) 1 0 0 (ms_prev_y1 m) /\ affine_field (ms_grid m) (ms_refined m) 0 1 0 (ms_prev_y2 m) /\ length (g_points (ms_grid m)) = length (g_vertices (ms_grid m)) /\
  (forall v t, In (v, t) (ms_g1 m) -> t = 1) /\ (forall v t, In (v, t) (ms_g2 m) -> t = 2).
Proof.
  intros Hr. assert (Hr' : forall e, reg = Some e -> 0 <= e) by (intros e E; destruct Hr as [-> | ->]; [discriminate|injection E as <-; lra]).
  destruct (free_state reg Hr') as (s & U & _ & _ & Er). destruct (undisturbed_chain _ s U) as (g & rg & ps & G & CH). destruct (hist_grid _ _ _ _ _ (ch_hist _ _ _ _ _ CH)) as (_ & Er' & _). rewrite Er' in Er. clear CH Er' U s.
  pose proof (free_grids reg g rg ps G) as PG. pose proof (gr_points _ _ _ _ G) as GP. pose proof (gr_len _ _ _ _ G) as GL. assert (LP : length (g_points g) = length (g_vertices g)) by (rewrite GP, map_length; exact GL).
  destruct (loaded_step 1 2 reg g rg ps G Er) as (m & NM & Em & Rm & P1 & P2 & _ & _ & _ & _ & _ & _ & T1 & T2). assert (HM : mech_history m) by exact (mh_new _ _ _ _ _ _ _ _ LP NM).
  destruct (reference_affine (ex_free reg) g rg ps G) as [A1 A2]. exists m. rewrite Em, Rm, P1, P2. split; [exact PG|]. split; [exact HM|]. split; [exact Er|]. split; [exact (gr_grid _ _ _ _ G)|]. split; [exact A1|]. split; [exact A2|]. split; [exact LP|]. split; [exact T1|exact T2].
Qed.
Lemma moved_exists rg c s t1 t2 y1 y2 : length y1 = length y2 -> exists z1 z2, moved rg c s t1 t2 y1 y2 z1 z2.
Proof.
  intros L. set (K := dofs rg). assert (HK : K <> 0%nat) by (unfold K; destruct rg; discriminate).
  set (F := fun u w t (i : nat) => u * nth i y1 0 + w * nth i y2 0 + (if Nat.eqb (i mod K) 0 then t else 0)).
  exists (map (F c (- s) t1) (seq 0 (length y1))), (map (F s c t2) (seq 0 (length y1))). split; [rewrite map_length, seq_length; reflexivity|]. split; [rewrite map_length, seq_length; exact L|].
  intros v j a b Hj Ea Eb. fold K in Hj, Ea, Eb |- *. assert (I : (v * K + j < length y1)%nat) by (apply nth_error_Some; congruence).
  assert (N : forall G : nat -> R, nth_error (map G (seq 0 (length y1))) (v * K + j) = Some (G (v * K + j)%nat)).
  { intros G. rewrite nth_error_map, (nth_error_nth' _ 0%nat) by (rewrite seq_length; exact I). rewrite seq_nth by exact I. reflexivity. }
  rewrite !N. unfold F. rewrite (nth_error_nth _ _ 0 Ea), (nth_error_nth _ _ 0 Eb). replace ((v * K + j) mod K) with j by (rewrite Nat.add_comm, Nat.mod_add, Nat.mod_small by lia; reflexivity).
  split; f_equal; ring.
Qed.
Example C80_example : forall reg, reg = None \/ reg = Some 1 -> exists m z1 z2, problem_grids (ms_grid m) (ms_refined m) (1/2) 2 2 /\ mech_history m /\ (ms_refined m = None <-> reg = None) /\
  moved (ms_refined m) 0 1 5 (-3) (ms_prev_y1 m) (ms_prev_y2 m) z1 z2 /\ mech_elastic_energy m z1 z2 = mech_elastic_energy m (ms_prev_y1 m) (ms_prev_y2 m) /\
  (exists v : nat, nth_error (g_points (ms_grid m)) v = Some [1; 1/2] /\ nth_error z1 (v * dofs (ms_refined m)) = Some (- (1/2) + 5) /\ nth_error z2 (v * dofs (ms_refined m)) = Some (1 + - 3)).
Proof.
  intros reg Hr. destruct (free_problem reg Hr) as (m & PG & HM & Er & EG & A1 & A2 & LP & _). destruct (mech_history_len m HM) as [Q1 Q2 _ _ _]. unfold num_vertices in Q1, Q2.
  destruct (moved_exists (ms_refined m) 0 1 5 (-3) (ms_prev_y1 m) (ms_prev_y2 m) ltac:(congruence)) as (z1 & z2 & MV). exists m, z1, z2. split; [exact PG|]. split; [exact HM|]. split; [exact Er|]. split; [exact MV|].
  split; [exact (C80_elastic_energy m (1/2) 2 2 0 1 5 (-3) _ _ z1 z2 PG ltac:(ring) Q1 Q2 MV)|].
  destruct (ex_vertex (ex_free reg) _ 2 1 EG ltac:(lia) ltac:(lia)) as [_ W]. cbn [INR] in W. replace ((1 + 1) * (1/2)) with 1 in W by lra. replace (1 * (1/2)) with (1/2) in W by lra.
  exists (pair_to_vertex 3 2 1). split; [exact W|]. destruct MV as (_ & _ & MV).
  assert (H0 : (0 < dofs (ms_refined m))%nat) by (destruct (ms_refined m); cbn; lia). pose proof (proj2 A1 _ (1, 1/2) W 0%nat H0) as B1. pose proof (proj2 A2 _ (1, 1/2) W 0%nat H0) as B2. cbn [nth_error fst snd] in B1, B2.
  destruct (MV _ _ _ _ H0 B1 B2) as [V1 V2]. rewrite Nat.add_0_r in V1, V2. cbn [Nat.eqb] in V1, V2. rewrite V1, V2. split; f_equal; ring.
Qed.
Lemma dget_in_ (d : dict nat R) v t : dget Nat.eqb v d = Ok t -> In (v, t) d.
Proof.
  unfold dget. destruct (dfind Nat.eqb v d) as [x|] eqn:E; intros H; [|discriminate]. injection H as <-. revert E. induction d as [|[k w] d IH]; cbn; [discriminate|].
  destruct (Nat.eqb v k) eqn:K; [apply Nat.eqb_eq in K as ->; intros H; injection H as <-; left; reflexivity|intros H; right; apply IH, H].
Qed.
Example C81_example : exists m z1 z2 W n, mech_history m /\ ms_refined m = None /\ domain_grid std_order 1 1 FixNone (1/2) = Ok (ms_grid m) /\ moved None 1 0 5 (-3) (ms_prev_y1 m) (ms_prev_y2 m) z1 z2 /\
  n = length (b_edges (g_neumann (ms_grid m))) /\ (0 < n)%nat /\
  mech_traction_energy lg0 m (ms_prev_y1 m) (ms_prev_y2 m) = Ok W /\ mech_traction_energy lg0 m z1 z2 = Ok (W + (5 * (1/2 * (INR n * 1)) + - 3 * (1/2 * (INR n * 2)))).
Proof.
  destruct (free_problem None (or_introl eq_refl)) as (m & PG & HM & Er & EG & A1 & A2 & LP & T1 & T2). pose proof (proj2 Er eq_refl) as NR. destruct (mech_history_len m HM) as [Q1 Q2 _ _ _]. unfold num_vertices in Q1, Q2. rewrite NR in Q1, Q2. cbn [dofs] in Q1, Q2. rewrite Nat.mul_1_r in Q1, Q2.
  destruct (moved_exists None 1 0 5 (-3) (ms_prev_y1 m) (ms_prev_y2 m) ltac:(congruence)) as (z1 & z2 & MV).
  assert (H2 : 0 < 1/2) by lra.
  destruct (C81_traction_work std_order 1 1 FixNone (1/2) 2 2 lg0 m _ _ H2 ex_fits1 ex_fits1 ltac:(lia) ltac:(lia) HM NR EG eq_refl Q1 Q2) as [EW ENDS].
  pose proof (C81_translation std_order 1 1 FixNone (1/2) 2 2 lg0 m 5 (-3) _ _ z1 z2 _ H2 ex_fits1 ex_fits1 ltac:(lia) ltac:(lia) HM NR EG eq_refl Q1 Q2 MV EW) as ET. cbv beta zeta in ET.
  assert (V : forall (d : list (nat * R)) c es, (forall v t, In (v, t) d -> t = c) -> (forall e v, In e es -> v = fst e \/ v = snd e -> exists t, dget Nat.eqb v d = Ok t) -> sum_over (mean_of_ends (value_for d)) es = INR (length es) * c).
  { intros d c es Hc. induction es as [|e es IH]; intros He; [cbn; ring|]. cbn [sum_over]. rewrite IH by (intros; eapply He; [right; eassumption|assumption]). change (length (e :: es)) with (S (length es)). rewrite S_INR.
    assert (X : forall v, v = fst e \/ v = snd e -> value_for d v = c). { intros v Hv. destruct (He e v (or_introl eq_refl) Hv) as [t Et]. unfold value_for. rewrite Et. apply (Hc v). apply dget_in_, Et. }
    unfold mean_of_ends. rewrite !X by auto. field. }
  rewrite (V (ms_g1 m) 1), (V (ms_g2 m) 2) in ET; try assumption.
  2,3: intros e v He Hv; destruct (ENDS e v He Hv) as (_ & _ & t1 & t2 & E1 & E2); eauto.
  exists m, z1, z2. eexists. exists (length (b_edges (g_neumann (ms_grid m)))). split; [exact HM|]. split; [exact NR|]. split; [exact EG|]. split; [exact MV|]. split; [reflexivity|]. split; [|split; [exact EW|exact ET]].
  assert (E : exists e, In e (b_edges (g_neumann (ms_grid m)))).
  { exists (pair_to_vertex 3 0 0, pair_to_vertex 3 1 0). apply (C16_neumann_edges _ _ _ _ _ _ _ _ H2 ex_fits1 ex_fits1 EG). destruct (C17_no_fix std_order 1 1 (1/2) _ ltac:(lra) ltac:(lra) H2 EG) as [_ D]. rewrite D. split; [|intros []].
    apply (C16_boundary_is_outline _ _ _ _ _ _ _ _ H2 ex_fits1 ex_fits1 EG). exists Lower, 0%nat, 0%nat, 1%nat, 0%nat. cbn [fst snd].
    split; [exact (ex_vertex (ex_free None) _ 0 0 EG ltac:(lia) ltac:(lia))|]. split; [exact (ex_vertex (ex_free None) _ 1 0 EG ltac:(lia) ltac:(lia))|]. split; [reflexivity|]. split; [reflexivity|]. left. lia. }
  destruct E as [e E]. destruct (b_edges (g_neumann (ms_grid m))); [destruct E|cbn; lia].
Qed.
(** C87: a body at rest at the temperature of its surroundings; both bounds are inactive and the balance reads 0 = 0. *)
Example C87_example : forall reg, reg = None \/ reg = Some 1 -> exists t E S L, thermal_problem lg0 t (1/2) 2 2 /\ (ts_refined t = None <-> reg = None) /\ minimizes lg0 t (ts_prev_theta t) /\ interior t (ts_prev_theta t) /\
  ThermSpec.over_body t (inner_energy t (ts_prev_y1 t) (ts_prev_y2 t) (ts_prev_theta t)) = Ok E /\ ThermSpec.over_body t (heat_source t) = Ok S /\ total_loss lg0 t (ts_prev_theta t) = Ok L /\ S = L.
Proof.
  intros reg Hr. destruct (C84_example reg Hr) as (t & q & TH & TP & RR & Eq & OK & MM & YA & YB & C & EX & MI & IN & _).
  destruct (C87_heat_balance lg0 t _ _ _ _ TP MI IN) as (E0 & E1 & S & L & A & B & CS & CL & K). exists t, E0, S, L. split; [exact TP|]. split; [exact RR|]. split; [exact MI|]. split; [exact IN|]. split; [exact A|]. split; [exact CS|]. split; [exact CL|].
  rewrite <- YA, <- YB in B. rewrite A in B. injection B as <-. assert (FP : 0 < ts_fps t) by apply TP. assert (Z : (S - L) / ts_fps t * ts_fps t = 0) by (rewrite <- K; ring). unfold Rdiv in Z. rewrite Rmult_assoc, Rinv_l in Z by lra. lra.
Qed.
(** C95: the martensite variant of C97_example, in equilibrium, tested with all virtual velocities. *)
Example C95_example : forall reg, reg = None \/ reg = Some 1 -> exists m, problem_grids (ms_grid m) (ms_refined m) (1/2) 2 2 /\ mech_history m /\ (ms_refined m = None <-> reg = None) /\ midpoint_rule lg0 /\ mech_minimizes lg0 m (ms_prev_y1 m) (ms_prev_y2 m) /\
  forall w1 w2, virtual_velocity m w1 w2 -> free_along m (ms_prev_y1 m) (ms_prev_y2 m) w1 w2 /\ momentum_form lg0 m (ms_prev_y1 m) (ms_prev_y2 m) w1 w2 = Ok 0.
Proof.
  intros reg Hr. destruct (C97_example reg Hr) as (m & PG & HM & Er & ML & _ & _ & _ & _ & _ & _ & MM & _ & _ & FA). exists m. split; [exact PG|]. split; [exact HM|]. split; [exact Er|]. split; [exact ML|]. split; [exact MM|].
  intros w1 w2 VV. split; [exact (FA w1 w2 VV)|]. exact (C95_momentum_balance lg0 m (1/2) 2 2 _ _ w1 w2 PG HM (fun _ => ML) MM VV (FA w1 w2 VV)).
Qed.
