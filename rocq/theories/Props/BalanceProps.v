(** * The thermal step: energy balance (C87). *)
From Coq Require Import Reals Lra Lia List ZArith.
From Coquelicot Require Import Coquelicot.
From Verif.Spec Require Import GridSpec QuadSpec BellSpec InterpSpec RefineSpec PotentialSpec.
From Verif.Model Require Import Py Num Tensors Domain Refine Quadrature Integrators Expr Bell Interp Helpers Steps Simulation.
From Verif.Spec Require Import SimSpec LiveSpec StepSpec EnergySpec MotionSpec TractionSpec ThermSpec.
From Verif.Proofs Require Import Lib InterpP PotP StepP StepD SimP HatP QuadP IntegP StepU StepE StepF StepG StepH ThermV ThermP ThermQ.
From Verif.Props Require Import GridProps QuadProps IntegProps InterpProps RefineProps MeshIntegProps PotentialProps AffineProps ThermProps HeatProps.
Local Open Scope R_scope.
Import ListNotations.

Section B.
Context (lg : Z -> res (list R * list R)) (s : therm) (h : R) (a b : nat) (TP : thermal_problem lg s h a b) (q : rule R) (Eq : therm_rule s = Ok q) (PJ : orientation_kept s q).
Let GG : good_grids (ts_grid s) (ts_refined s) h a b := problem_good _ _ _ _ _ (proj1 (proj2 TP)).
Let PG := proj1 (proj2 TP). Let TL := sized_len s (proj1 TP). Let LG := proj2 (proj2 (proj2 TP)). Let GQ := proj1 (rule_of s q Eq).
Lemma inner_value I y1 y2 th : Integrator_ q (g_triangles (theta_grid (ts_grid s) (ts_refined s))) (g_points (theta_grid (ts_grid s) (ts_refined s))) = Ok I ->
  length y1 = (length (g_vertices (ts_grid s)) * dofs (ts_refined s))%nat -> length y2 = (length (g_vertices (ts_grid s)) * dofs (ts_refined s))%nat -> temperatures_of s th ->
  (forall t p, In t (g_triangles (theta_grid (ts_grid s) (ts_refined s))) -> In p (q_points q) -> 0 < det2 (sat s y1 y2 t p)) ->
  over_body s (inner_energy s y1 y2 th) = Ok (WSum s q I (fun t p => U (sat s y1 y2 t p) (vat th t p))).
Proof.
  intros EI L1 L2 L D. destruct (therm_integ s h a b GG q Eq) as (I' & E1 & E2). rewrite EI in E2. injection E2 as <-. unfold over_body. rewrite E1. cbn [bind]. apply (integ_ok s q I _ _ EI).
  intros t p Ht Hp. pose proof (D t p Ht Hp) as D1. destruct (temp_ok s h a b GG t p Ht) as (c1 & c2 & c3 & d1 & d2 & d3 & K). destruct t as [[i j] k]. destruct K as (_ & _ & _ & K & _). destruct (K th L) as (V & _).
  unfold inner_energy. rewrite (sat_ok s h a b GG q GQ _ _ _ p L1 L2 Ht Hp), V. cbn [bind]. apply U_value, D1.
Qed.
Lemma source_value I : Integrator_ q (g_triangles (theta_grid (ts_grid s) (ts_refined s))) (g_points (theta_grid (ts_grid s) (ts_refined s))) = Ok I ->
  over_body s (heat_source s) = Ok (WSum s q I (fun t p => source (ts_fps s) (sat s (ts_prev_y1 s) (ts_prev_y2 s) t p) (sat s (ts_y1 s) (ts_y2 s) t p) (vat (ts_prev_theta s) t p))).
Proof.
  intros EI. destruct (therm_integ s h a b GG q Eq) as (I' & E1 & E2). rewrite EI in E2. injection E2 as <-. unfold over_body. rewrite E1. cbn [bind]. apply (integ_ok s q I _ _ EI).
  intros t p Ht Hp. destruct (dets s h a b PG TL q GQ PJ t p Ht Hp) as [D0 D1]. destruct TL as [P1 P2 Y1 Y2 T0 _]. destruct (temp_ok s h a b GG t p Ht) as (c1 & c2 & c3 & d1 & d2 & d3 & K). destruct t as [[i j] k]. destruct K as (_ & _ & _ & K & _). destruct (K _ T0) as (V & _).
  unfold heat_source. rewrite (sat_ok s h a b GG q GQ _ _ _ p P1 P2 Ht Hp), (sat_ok s h a b GG q GQ _ _ _ p Y1 Y2 Ht Hp), V. cbn [bind]. unfold dissipation_rate. rewrite dis_value. cbn [bind]. rewrite coupl_value by exact D0. cbn [bind]. rewrite sub_mat. cbn [bind]. rewrite mul_mat. cbn [bind]. rewrite scalar_mat. reflexivity.
Qed.
Lemma ones_length : temperatures_of s (repeat 1 (length (g_vertices (theta_grid (ts_grid s) (ts_refined s))))). Proof. apply repeat_length. Qed.
Lemma loss_value th : temperatures_of s th -> total_loss lg s th = Ok (bform s h th (repeat 1 (length (g_vertices (theta_grid (ts_grid s) (ts_refined s)))))).
Proof.
  intros L. unfold total_loss, bform. destruct (opt_case (ts_refined s)) as [[r Hr]|Hr]; rewrite !Hr; [reflexivity|]. pose proof PG as (Hs & A1 & B1 & (so & w & hh & f & Fw & Fh & Eg) & _).
  apply (boundary_sum so w hh f h a b (ts_grid s) lg _ (fun e => 1 / 2 * (mean_of_ends (at_vertex th) e - ts_ext s) * mean_of_ends (at_vertex (repeat 1 (length (g_vertices (theta_grid (ts_grid s) None))))) e) Hs Fw Fh Eg (LG Hr)).
  intros e He. rewrite (on_edge s h a b PG th e Hr L He). cbn [bind]. apply (f_equal Ok). destruct (boundary_ends s h a b PG e Hr He) as [U1 U2]. rewrite Hr in U1, U2. unfold mean_of_ends, at_vertex. assert (N1 : forall v, (v < length (g_vertices (theta_grid (ts_grid s) None)))%nat -> nth v (repeat 1 (length (g_vertices (theta_grid (ts_grid s) None)))) 0 = 1) by (intros v Hv; apply (repeat_spec _ _ _ (nth_In _ _ ltac:(rewrite repeat_length; exact Hv)))). rewrite !N1 by assumption. unfold HEAT_TRANSFER_COEFFICIENT. field.
Qed.
End B.

(** ** C87 *)
(** Energy balance: if the temperatures minimize the objective and no bound is active, the internal energy of the body changes
    by the heat produced (dissipation and adiabatic power) minus the heat lost through the boundary, during the time 1 / fps. *)
Theorem C87_heat_balance : forall lg s h a b theta, thermal_problem lg s h a b -> minimizes lg s theta -> interior s theta ->
  exists E0 E1 S L, over_body s (inner_energy s (ts_prev_y1 s) (ts_prev_y2 s) (ts_prev_theta s)) = Ok E0 /\ over_body s (inner_energy s (ts_y1 s) (ts_y2 s) theta) = Ok E1 /\
    over_body s (heat_source s) = Ok S /\ total_loss lg s theta = Ok L /\ E1 - E0 = (S - L) / ts_fps s.
Proof.
  intros lg s h a b th TP MI IN. destruct (therm_rule_good s) as (q & Eq & GQ & PQ & _). pose proof (sized_len s (proj1 TP)) as TL.
  assert (L : temperatures_of s th) by (destruct MI as ((L & _) & _); unfold temperatures_of; rewrite L; exact (tl_th _ TL)).
  assert (PJ : orientation_kept s q) by (destruct MI as (_ & J0 & EJ0 & _); exact (defined_kept lg s h a b TP q Eq th J0 L EJ0)).
  pose proof (problem_good _ _ _ _ _ (proj1 (proj2 TP))) as GG. destruct (therm_integ s h a b GG q Eq) as (I & _ & EI). pose proof TL as [P1 P2 Y1 Y2 T0 _].
  pose proof (C86_heat_equation_partial lg s h a b th _ TP MI IN (ones_length s)) as HF. rewrite (form_value lg s h a b (proj1 (proj2 TP)) TL (proj2 (proj2 (proj2 TP))) q Eq GQ PJ 2 th _ I L (ones_length s) EI) in HF. injection HF as HF.
  do 4 eexists. split; [|split; [|split; [exact (source_value lg s h a b TP q Eq PJ I EI)|split; [exact (loss_value lg s h a b TP th L)|]]]].
  - apply (inner_value lg s h a b TP q Eq I _ _ _ EI P1 P2 T0). intros t p Ht Hp. apply (dets s h a b (proj1 (proj2 TP)) TL q GQ PJ t p Ht Hp).
  - apply (inner_value lg s h a b TP q Eq I _ _ _ EI Y1 Y2 L). intros t p Ht Hp. apply (dets s h a b (proj1 (proj2 TP)) TL q GQ PJ t p Ht Hp).
  - set (B := bform s h th _) in *. set (W1 := WSum s q I (fun t p => U (sat s (ts_y1 s) (ts_y2 s) t p) (vat th t p))). set (W0 := WSum s q I (fun t p => U (sat s (ts_prev_y1 s) _ t p) _)). set (WS := WSum s q I (fun t p => source _ _ _ _)).
    assert (E : WSum s q I (form s 2 th (repeat 1 (length (g_vertices (theta_grid (ts_grid s) (ts_refined s)))))) = 1 * (ts_fps s * W1 + - ts_fps s * W0) + -1 * WS).
    { unfold W1, W0, WS. rewrite <- !WSum_comb. apply WSum_ext. intros t p Ht Hp. destruct (vat_const s h a b GG q GQ _ 1 t p Ht (ones_length s) (fun x Hx => repeat_spec _ _ _ Hx) Hp) as [V1 V2]. unfold form. rewrite V1, V2. cbn [fst snd]. unfold qf. ring. }
    rewrite E in HF. destruct TP as (_ & _ & FP & _). apply (Rmult_eq_reg_l (ts_fps s)); [|lra]. unfold Rdiv. field_simplify; [|lra]. lra.
Qed.
Print Assumptions C87_heat_balance.
(** In simulations with an exact solver the balance holds in every time step in which no bound is active. *)
Theorem C87_simulation : forall u lg s k a b, undisturbed u s -> cautious lg (se_solver u) -> (p_regularization (se_params u) = None -> midpoint_rule lg) -> fine_enough u ->
  p_scale (se_params u) <= se_width u -> p_scale (se_params u) <= se_height u -> 0 < p_fps (se_params u) ->
  nth_error (s_steps s) k = Some a -> nth_error (s_steps s) (S k) = Some b ->
  exists t, therm_problem_from u s a (st_y_data b) (INR k / p_fps (se_params u)) t /\
    (minimizes lg t (nd_data (st_theta_data b)) -> interior t (nd_data (st_theta_data b)) ->
     exists E0 E1 S L, over_body t (inner_energy t (ts_prev_y1 t) (ts_prev_y2 t) (ts_prev_theta t)) = Ok E0 /\ over_body t (inner_energy t (ts_y1 t) (ts_y2 t) (nd_data (st_theta_data b))) = Ok E1 /\
       over_body t (heat_source t) = Ok S /\ total_loss lg t (nd_data (st_theta_data b)) = Ok L /\ E1 - E0 = (S - L) / p_fps (se_params u)).
Proof.
  intros u lg s k a b H CA HL FE Hw Hh FP Ha Hb. destruct (sim_thermal u lg HL FE Hw Hh FP s k a b CA H Ha Hb) as (t & mc & nc & q & A & B & C & D & E & _). exists t. split; [exact A|]. intros MI IN.
  destruct (C87_heat_balance lg t _ mc nc _ C MI IN) as (E0 & E1 & SS & L & K). exists E0, E1, SS, L. assert (F : ts_fps t = p_fps (se_params u)); [|rewrite F in K; exact K].
  apply (tp_constants _ _ _ _ _ _ A).
Qed.
Print Assumptions C87_simulation.
