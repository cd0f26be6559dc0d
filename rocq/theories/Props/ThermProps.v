(** * The thermal step: C82-C87. *)
From Coq Require Import Reals Lra Lia List ZArith.
From Coquelicot Require Import Coquelicot.
From Verif.Spec Require Import GridSpec QuadSpec BellSpec InterpSpec RefineSpec PotentialSpec.
From Verif.Model Require Import Py Num Tensors Domain Refine Quadrature Integrators Expr Bell Interp Helpers Steps Simulation.
From Verif.Spec Require Import SimSpec LiveSpec StepSpec EnergySpec MotionSpec TractionSpec ThermSpec.
From Verif.Proofs Require Import Lib InterpP PotP StepP StepD SimP SimQ SimR SimH SimL SimA SimC HatP QuadP IntegP StepU StepE StepF StepG StepH ThermV ThermP ThermQ.
From Verif.Props Require Import GridProps QuadProps IntegProps InterpProps RefineProps MeshIntegProps PotentialProps SimProps EnergyProps AffineProps.
Local Open Scope R_scope.
Import ListNotations.

Lemma rule_of s q : therm_rule s = Ok q -> good_rule q /\ pos_rule q.
Proof. intros E. destruct (therm_rule_good s) as (q' & E' & A & B & _). rewrite E in E'. injection E' as <-. auto. Qed.

Lemma sized_len s : sized s -> tlen s.
Proof. intros (A & B & C & D & E & F). constructor; assumption. Qed.
(** The parameter lists of every thermal step used through its interface have these sizes. *)
Theorem C82_sized : forall s, therm_history s -> sized s.
Proof. intros s H. destruct (therm_history_len s H) as [A B C D E F]. unfold sized. auto 10. Qed.
Print Assumptions C82_sized.

(** ** C82 *)
(** The objective of the thermal problem is defined exactly if the strains of the previous and of the new deformation have positive
    determinant at the points of the quadrature rule; otherwise its evaluation raises. *)
Theorem C82_objective_defined : forall lg s h a b q theta, thermal_problem lg s h a b -> therm_rule s = Ok q -> temperatures_of s theta ->
  ((exists J, therm_objective lg s theta = Ok J) <-> orientation_kept s q) /\
  (~ orientation_kept s q -> exists e, therm_objective lg s theta = Err e).
Proof.
  intros lg s h a b q th (HM & PG & FP & LG) Eq L. destruct (rule_of s q Eq) as [GQ PQ]. pose proof (sized_len s HM) as TL. pose proof (problem_good _ _ _ _ _ PG) as GG. unfold temperatures_of in L.
  assert (K : (exists J, therm_objective lg s th = Ok J) <-> orientation_kept s q).
  { split.
    - intros [J EJ]. unfold therm_objective in EJ. apply bind_ok' in EJ as [E [_ EJ]]. apply bind_ok' in EJ as [D [ED _]]. unfold therm_dissipation in ED. destruct (therm_integ s h a b GG q Eq) as (I & E1 & EI). rewrite E1 in ED. cbn [bind] in ED.
      pose proof (integrate_all _ _ _ _ EI (proj1 GQ) _ _ ED) as ALL. destruct TL as [P1 P2 Y1 Y2 T0 _].
      assert (KK : forall t p, In t (g_triangles (theta_grid (ts_grid s) (ts_refined s))) -> In p (q_points q) -> 0 < det2 (sat s (ts_prev_y1 s) (ts_prev_y2 s) t p) /\ 0 < det2 (sat s (ts_y1 s) (ts_y2 s) t p)).
      { intros t p Ht Hp. destruct (ALL t p Ht Hp) as [x X]. rewrite (sat_ok s h a b GG q GQ _ _ _ p P1 P2 Ht Hp), (sat_ok s h a b GG q GQ _ _ _ p Y1 Y2 Ht Hp) in X. cbn [bind] in X.
        apply bind_ok' in X as [u [_ X]]. apply bind_ok' in X as [v [_ X]].
        destruct (Classical_Prop.classic (0 < det2 (sat s (ts_prev_y1 s) (ts_prev_y2 s) t p) /\ 0 < det2 (sat s (ts_y1 s) (ts_y2 s) t p))) as [C|C]; [exact C|]. rewrite psi_fail in X by exact C. discriminate. }
      split; intros t p Ht Hp; [exists (sat s (ts_prev_y1 s) (ts_prev_y2 s) t p)|exists (sat s (ts_y1 s) (ts_y2 s) t p)]; (split; [apply (sat_ok s h a b GG q GQ); assumption|apply (KK t p Ht Hp)]).
    - intros PJ. destruct (therm_integ s h a b GG q Eq) as (I & E1 & EI). eexists. exact (obj_value lg s h a b PG TL LG q Eq GQ PJ th I L EI). }
  split; [exact K|]. intros N. destruct (therm_objective lg s th) as [J|e] eqn:E; [exfalso; apply N, K; eauto|eauto].
Qed.
Print Assumptions C82_objective_defined.
(** Without regularization: exactly if both deformations keep all triangles positively oriented. *)
Lemma positive_keeps g h a b q y1 y2 : good_grids g None h a b -> good_rule q -> length y1 = length (g_vertices g) -> length y2 = length (g_vertices g) -> positive_jacobian g None q y1 y2 <-> keeps_orientation g y1 y2.
Proof.
  intros GG GQ L1 L2. pose proof GG as (Hs & Ha & Hb & M & _).
  assert (K : forall t p, In t (g_triangles g) -> exists F, deform_strain (comp_interp g None y1) (comp_interp g None y2) t p = Ok (mat F) /\ (0 < det2 F <-> positive_triangle y1 y2 t)).
  { intros t p Ht. destruct (mesh_triangle_at g h a b M t Ht) as (P0 & Q0 & Z0 & T). pose proof (mesh_cross g h a b M _ _ _ _ T) as C. destruct t as [[i j] k].
    destruct (mesh_params g h a b y1 (i, j, k) P0 Q0 Z0 M L1 T) as (u & v & w & A1 & A2 & A3). destruct (mesh_params g h a b y2 (i, j, k) P0 Q0 Z0 M L2 T) as (u' & v' & w' & B1 & B2 & B3).
    assert (C0 : cross P0 Q0 Z0 <> 0) by (rewrite C; nra).
    pose proof (proj2 (P1_calls g y1 i j k P0 Q0 Z0 _ _ _ p T A1 A2 A3) C0) as G1. pose proof (proj2 (P1_calls g y2 i j k P0 Q0 Z0 _ _ _ p T B1 B2 B3) C0) as G2.
    unfold deform_strain. change (comp_interp g None y1) with (P1I g y1). change (comp_interp g None y2) with (P1I g y2). rewrite G1, G2. unfold gradient_value. cbn [bind].
    exists (PotentialSpec.st (((snd Q0 - snd Z0) * u + (snd Z0 - snd P0) * v + (snd P0 - snd Q0) * w) / cross P0 Q0 Z0) (((fst Z0 - fst Q0) * u + (fst P0 - fst Z0) * v + (fst Q0 - fst P0) * w) / cross P0 Q0 Z0)
      (((snd Q0 - snd Z0) * u' + (snd Z0 - snd P0) * v' + (snd P0 - snd Q0) * w') / cross P0 Q0 Z0) (((fst Z0 - fst Q0) * u' + (fst P0 - fst Z0) * v' + (fst Q0 - fst P0) * w') / cross P0 Q0 Z0)). split; [reflexivity|].
    assert (PP : positive_triangle y1 y2 (i, j, k) <-> 0 < cross (u, u') (v, v') (w, w')).
    { split; [|intros X; exists (u, u'), (v, v'), (w, w'); cbn [fst snd]; auto 10]. intros ([x x'] & [z z'] & [y y'] & X1 & X2 & X3 & X4 & X5 & X6 & X). cbn [fst snd] in *. congruence. }
    rewrite PP. unfold det2, PotentialSpec.st. cbn [f11 f12 f21 f22]. destruct P0 as [p1 p2], Q0 as [q1 q2], Z0 as [z1 z2]. cbn [fst snd] in *.
    match goal with |- 0 < ?x <-> 0 < ?y => assert (E : x = y / (h * h)) end; [|rewrite E; split; intros X; [apply (Rmult_lt_reg_r (/ (h * h))); [apply Rinv_0_lt_compat; nra|rewrite Rmult_0_l; exact X]|apply Rdiv_lt_0_compat; [exact X|nra]]].
    rewrite <- C. unfold cross in *. cbn [fst snd] in *. field. exact C0. }
  split.
  - intros PJ t Ht. destruct GQ as (_ & NE & _). destruct (q_points q) as [|p ps] eqn:EP; [congruence|]. destruct (PJ t p Ht) as (F & EF & D); [rewrite EP; left; reflexivity|]. destruct (K t p Ht) as (F' & EF' & KK). assert (F = F') as -> by (apply mat_inj; congruence). apply KK, D.
  - intros KO t p Ht Hp. destruct (K t p Ht) as (F & EF & KK). exists F. split; [exact EF|]. apply KK, KO, Ht.
Qed.
Theorem C82_objective_defined_unregularized : forall lg s h a b theta, thermal_problem lg s h a b -> ts_refined s = None -> temperatures_of s theta ->
  ((exists J, therm_objective lg s theta = Ok J) <-> keeps_orientation (ts_grid s) (ts_prev_y1 s) (ts_prev_y2 s) /\ keeps_orientation (ts_grid s) (ts_y1 s) (ts_y2 s)).
Proof.
  intros lg s h a b th TP Hr L. destruct (therm_rule_good s) as (q & Eq & GQ & _). destruct (C82_objective_defined lg s h a b q th TP Eq L) as [K _]. rewrite K. destruct TP as (HM & PG & _). pose proof (sized_len s HM) as [P1 P2 Y1 Y2 _ _].
  apply problem_good in PG. rewrite Hr in PG, P1, P2, Y1, Y2. cbn [dofs] in *. rewrite Nat.mul_1_r in *. unfold orientation_kept. rewrite Hr.
  rewrite (positive_keeps _ h a b q _ _ PG GQ P1 P2), (positive_keeps _ h a b q _ _ PG GQ Y1 Y2). reflexivity.
Qed.
Print Assumptions C82_objective_defined_unregularized.

(** In a simulation whose mechanical solver never leaves the domain of the objective, all thermal problems are defined. *)
Section Sim.
Context (u : setting) (lg : Z -> res (list R * list R)) (HL : p_regularization (se_params u) = None -> midpoint_rule lg).
Context (FE : fine_enough u) (Hw1 : p_scale (se_params u) <= se_width u) (Hh1 : p_scale (se_params u) <= se_height u) (FP : 0 < p_fps (se_params u)).
Lemma ground_problem g rg ps : ground u g rg ps -> exists a b, problem_grids g rg (p_scale (se_params u)) a b.
Proof.
  intros G. destruct (ground_grids u FE Hw1 Hh1 g rg ps G) as (mc & nc & (A & B & C & _ & RR) & F1 & F2). exists mc, nc. split; [exact A|]. split; [exact B|]. split; [exact C|]. split; [|exact RR].
  exists (se_order u), (se_width u), (se_height u), (se_fix u). split; [exact F1|]. split; [exact F2|exact (gr_grid _ _ _ _ G)].
Qed.
Lemma sim_thermal_from s k a b : all_admissible u s -> undisturbed u s -> nth_error (s_steps s) k = Some a -> nth_error (s_steps s) (S k) = Some b -> exists t mc nc q,
  therm_problem_from u s a (st_y_data b) (INR k / p_fps (se_params u)) t /\ st_theta_data b = therm_theta (fst (therm_solve (sv_therm (se_solver u) (2 * k + 1) t) t)) /\
  thermal_problem lg t (p_scale (se_params u)) mc nc /\ therm_rule t = Ok q /\ orientation_kept t q /\ non_negative_values (ts_prev_theta t) /\ forall x, In x (ts_theta t) -> v_fixed x = false.
Proof.
  intros SA H Ha Hb. destruct (undisturbed_chain u s H) as (g & rg & ps & G & CH). pose proof (ch_hist _ _ _ _ _ CH) as HH.
  destruct (ch_links _ _ _ _ _ CH k a b Ha Hb) as (a1 & a2 & th & m & t & HO & PM & PT & HB). cbv zeta in *.
  assert (TM : INR k * s_tau s = INR k / p_fps (se_params u)).
  { pose proof (si_tau _ _ _ _ _ _ _ (hi_inv _ _ _ _ _ HH)) as T. rewrite ndiv_R in T by lra. injection T as <-. field. lra. }
  rewrite TM in *. destruct (link_problems u g rg ps s a b a1 a2 th m t _ _ _ HH HO PM PT HB) as (_ & L1 & L2 & L3). cbv zeta in L1, L2. rewrite <- L2 in L1.
  destruct (ground_problem g rg ps G) as (mc & nc & PG). pose proof (pt_inv _ _ _ _ _ _ _ _ _ _ _ _ _ PT) as IT. pose proof (ti_grid _ _ _ _ _ _ _ _ IT) as Eg. pose proof (ti_ref _ _ _ _ _ _ _ _ IT) as Er.
  destruct (therm_rule_good t) as (q & Eq & GQ & PQ & _). exists t, mc, nc, q. split; [exact L1|]. split; [exact L3|]. split; [|split; [exact Eq|split; [|split; [unfold non_negative_values; rewrite (pt_th _ _ _ _ _ _ _ _ _ _ _ _ _ PT); exact (pt_nn _ _ _ _ _ _ _ _ _ _ _ _ _ PT)|exact (ti_fixed _ _ _ _ _ _ _ _ IT)]]]].
  - split; [|split; [rewrite Eg, Er; exact PG|split; [rewrite (ti_fps _ _ _ _ _ _ _ _ IT); exact FP|]]].
    + unfold sized. rewrite Eg, Er. destruct IT. auto 10.
    + rewrite Er. intros Z. apply HL. destruct (gr_ref _ _ _ _ G) as [[P _]|(e & k' & r & _ & _ & _ & P)]; [exact P|congruence].
  - destruct SA as (g' & rg' & ps' & G' & HH' & ST). destruct (ground_unique _ _ _ _ _ _ _ G G') as (Q1 & Q2 & Q3). subst g' rg' ps'.
    assert (AD : forall st y1 y2 z, In st (s_steps s) -> holds g rg st y1 y2 z -> length y1 = (num_vertices g * dofs rg)%nat -> length y2 = (num_vertices g * dofs rg)%nat -> positive_jacobian g rg q y1 y2).
    { intros st y1 y2 z Hst HO1 Ly1 Ly2. destruct (ST st Hst) as (b1 & b2 & th' & HO' & M1 & M2 & AD). destruct (holds_comp g rg _ _ _ _ HO1 Ly1 Ly2) as (A1 & A2 & _). destruct (holds_comp g rg _ _ _ _ HO' M1 M2) as (B1 & B2 & _).
      assert (b1 = y1) as -> by congruence. assert (b2 = y2) as -> by congruence. unfold therm_rule in Eq. rewrite Er in Eq. unfold admissible in AD. apply problem_good in PG. clear - AD PG Eq GQ Ly1 Ly2. destruct rg as [r|]; [exact (AD q Eq)|].
      cbn [dofs] in *. rewrite Nat.mul_1_r in *. apply (positive_keeps _ _ _ _ q _ _ PG GQ Ly1 Ly2), AD. }
    unfold orientation_kept. rewrite Eg, Er, (pt_p1 _ _ _ _ _ _ _ _ _ _ _ _ _ PT), (pt_p2 _ _ _ _ _ _ _ _ _ _ _ _ _ PT), (pt_y1 _ _ _ _ _ _ _ _ _ _ _ _ _ PT), (pt_y2 _ _ _ _ _ _ _ _ _ _ _ _ _ PT).
    pose proof (ti_p1 _ _ _ _ _ _ _ _ IT) as W1. pose proof (ti_p2 _ _ _ _ _ _ _ _ IT) as W2. pose proof (ti_y1 _ _ _ _ _ _ _ _ IT) as W3. pose proof (ti_y2 _ _ _ _ _ _ _ _ IT) as W4.
    rewrite (pt_p1 _ _ _ _ _ _ _ _ _ _ _ _ _ PT) in W1. rewrite (pt_p2 _ _ _ _ _ _ _ _ _ _ _ _ _ PT) in W2. rewrite (pt_y1 _ _ _ _ _ _ _ _ _ _ _ _ _ PT) in W3. rewrite (pt_y2 _ _ _ _ _ _ _ _ _ _ _ _ _ PT) in W4.
    split; [exact (AD a _ _ _ (nth_error_In _ _ Ha) HO W1 W2)|exact (AD b _ _ _ (nth_error_In _ _ Hb) HB W3 W4)].
Qed.
Lemma sim_thermal s k a b : cautious lg (se_solver u) -> undisturbed u s -> nth_error (s_steps s) k = Some a -> nth_error (s_steps s) (S k) = Some b -> exists t mc nc q,
  therm_problem_from u s a (st_y_data b) (INR k / p_fps (se_params u)) t /\ st_theta_data b = therm_theta (fst (therm_solve (sv_therm (se_solver u) (2 * k + 1) t) t)) /\
  thermal_problem lg t (p_scale (se_params u)) mc nc /\ therm_rule t = Ok q /\ orientation_kept t q /\ non_negative_values (ts_prev_theta t).
Proof. intros CA H Ha Hb. destruct (sim_thermal_from s k a b) as (t & mc & nc & q & A & B & C & D & E & F & _); [|exact H|exact Ha|exact Hb|exists t, mc, nc, q; auto 10]. exact (steps_admissible u lg (fun P => ex_intro _ [0] (ex_intro _ [2] (HL P))) CA FE Hw1 Hh1 s (undisturbed_reachable u s H)). Qed.
End Sim.
Theorem C82_simulation : forall u lg s k a b, undisturbed u s -> cautious lg (se_solver u) -> (p_regularization (se_params u) = None -> midpoint_rule lg) -> fine_enough u ->
  p_scale (se_params u) <= se_width u -> p_scale (se_params u) <= se_height u -> 0 < p_fps (se_params u) ->
  nth_error (s_steps s) k = Some a -> nth_error (s_steps s) (S k) = Some b ->
  exists t, therm_problem_from u s a (st_y_data b) (INR k / p_fps (se_params u)) t /\
    st_theta_data b = therm_theta (fst (therm_solve (sv_therm (se_solver u) (2 * k + 1) t) t)) /\
    forall theta, temperatures_of t theta -> exists J, therm_objective lg t theta = Ok J.
Proof.
  intros u lg s k a b H CA HL FE Hw Hh FP Ha Hb. destruct (sim_thermal u lg HL FE Hw Hh FP s k a b CA H Ha Hb) as (t & mc & nc & q & A & B & C & D & E & _). exists t. split; [exact A|]. split; [exact B|].
  intros th L. apply (C82_objective_defined lg t _ mc nc q th C D L), E.
Qed.
Print Assumptions C82_simulation.
