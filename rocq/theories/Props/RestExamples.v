(** * Examples for C95 and C97. *)
From Coq Require Import Reals Lra Lia List ZArith.
From Verif.Spec Require Import GridSpec QuadSpec BellSpec InterpSpec RefineSpec PotentialSpec.
From Verif.Model Require Import Py Num Tensors Domain Refine Quadrature Integrators Expr Bell Interp Helpers Steps Simulation.
From Verif.Spec Require Import SimSpec LiveSpec StepSpec EnergySpec MotionSpec TractionSpec ThermSpec MechSpec MomentumSpec IdealSpec RestSpec.
From Verif.Proofs Require Import Lib GridP StepP StepU StepE SimP SimQ SimR SimH SimC SimL SimA SimE StepC ThermP MechP.
From Verif.Props Require Import GridProps SimProps PotentialProps EnergyProps EnergyExamples AffineProps TractionProps MechExistProps IdealProps MomentumProps RestProps.
Local Open Scope R_scope.
Import ListNotations.

(** The free square, sheared homogeneously by 1/2 at temperature 0: a martensite variant. *)
Lemma sheared_step reg : reg = None \/ reg = Some 1 -> exists m, problem_grids (ms_grid m) (ms_refined m) (1/2) 2 2 /\ mech_history m /\ (ms_refined m = None <-> reg = None) /\ (forall x, In x (ms_prev_theta m) -> x = 0) /\
  unloaded m /\ ms_fps m = 1 /\ 0 <= ms_reg m /\ affine_field (ms_grid m) (ms_refined m) 1 (1/2) 0 (ms_prev_y1 m) /\ affine_field (ms_grid m) (ms_refined m) 0 1 0 (ms_prev_y2 m) /\
  mech_feasible m (ms_prev_y1 m) (ms_prev_y2 m) /\ floats (ms_y1 m) (ms_prev_y1 m) /\ floats (ms_y2 m) (ms_prev_y2 m) /\ b_edges (g_dirichlet (ms_grid m)) = [].
Proof.
  intros Hr. assert (Hr' : forall e, reg = Some e -> 0 <= e) by (intros e E; destruct Hr as [-> | ->]; [discriminate|injection E as <-; lra]).
  destruct (free_state reg Hr') as (s & U & _ & _ & Er). destruct (undisturbed_chain _ s U) as (g & rg & ps & G & CH). destruct (hist_grid _ _ _ _ _ (ch_hist _ _ _ _ _ CH)) as (_ & Er' & _). rewrite Er' in Er. clear CH Er' U s.
  pose proof (free_grids reg g rg ps G) as PG. pose proof (gr_points _ _ _ _ G) as GP. pose proof (gr_len _ _ _ _ G) as GL. assert (LP : length (g_points g) = length (g_vertices g)) by (rewrite GP, map_length; exact GL).
  assert (DV : b_vertices (g_dirichlet g) = []). { destruct (b_vertices (g_dirichlet g)) as [|v l] eqn:E; [reflexivity|]. destruct (proj1 (proj2 (C17_dirichlet_vertices _ _ _ _ _ _ _ _ ex_pos ex_fits1 ex_fits1 (gr_grid _ _ _ _ G)) v)) as (d & [] & _). rewrite E. left; reflexivity. }
  assert (DE : b_edges (g_dirichlet g) = []). { destruct (b_edges (g_dirichlet g)) as [|v l] eqn:E; [reflexivity|]. destruct (proj1 (proj2 (C16_dirichlet_edges _ _ _ _ _ _ _ _ ex_pos ex_fits1 ex_fits1 (gr_grid _ _ _ _ G)) v)) as (d & [] & _). rewrite E. left; reflexivity. }
  destruct (loaded_step 0 0 reg g rg ps G Er) as (m & NM & Em & Rm & P1 & P2 & PT & (fx & FX & V1 & V2) & RA & FP & RG1 & RG0 & T1 & T2). specialize (FX DV).
  destruct (affine_exists g rg ps 1 (1/2) 0 GP LP) as [a1 A1]. destruct (affine_exists g rg ps 0 1 0 GP LP) as [a2 A2]. assert (HM : mech_history m) by exact (mh_new _ _ _ _ _ _ _ _ LP NM).
  pose proof (proj1 A1) as L1. pose proof (proj1 A2) as L2. destruct (unpack_pack (num_vertices g) (dofs rg) a1 a2 L1 L2) as [E1 E2].
  destruct (mech_update_prev_y m (y_array g rg a1 a2)) as [m' r] eqn:UP. assert (HM' : mech_history m') by exact (mh_prev_y m _ m' r HM (y_array_wf g rg a1 a2 L1 L2) UP).
  unfold mech_update_prev_y in UP. rewrite Em, Rm, y_shape_array in UP. cbn [negb nd_data y_array] in UP. rewrite E1, E2 in UP. injection UP as UP _. exists m'. subst m'. cbn [ms_grid ms_refined ms_prev_y1 ms_prev_y2 ms_prev_theta ms_fps ms_reg ms_y1 ms_y2] in *.
  destruct (mech_history_len m HM) as [_ _ Y1 Y2 _]. rewrite Em, Rm in Y1, Y2. unfold num_vertices in Y1, Y2. assert (K1 : length (ms_y1 m) = length a1) by congruence. assert (K2 : length (ms_y2 m) = length a2) by congruence.
  assert (NF : forall x, In x (ms_y1 m) \/ In x (ms_y2 m) -> v_fixed x = false). { intros x Hx. rewrite V1, V2 in Hx. destruct Hx as [Hx|Hx]; apply in_map_iff in Hx as ([i v] & <- & _); apply FX. }
  assert (FL : forall xs y, length xs = length y -> (forall x, In x xs -> v_fixed x = false) -> floats (recenter_all (ms_radius m) xs y) y).
  { intros xs y L F i x X. assert (I : (i < length (recenter_all (ms_radius m) xs y))%nat) by (apply nth_error_Some; congruence). rewrite recenter_length in I by exact L.
    destruct (nth_error xs i) as [x'|] eqn:X'; [|apply nth_error_None in X'; lia]. rewrite (recenter_nth _ _ _ _ _ _ X' (nth_error_nth' y 0 I)) in X. injection X as <-. unfold recenter. cbn. split; [exact (F x' (nth_error_In _ _ X'))|]. rewrite RA. lra. }
  split; [exact PG|]. split; [exact HM'|]. split; [exact Er|]. split; [exact PT|]. split; [intros _ v t [H|H]; [exact (T1 v t H)|exact (T2 v t H)]|]. split; [exact FP|]. split; [destruct Hr as [-> | ->]; [rewrite RG0 by reflexivity; lra|rewrite (RG1 1 eq_refl); lra]|]. split; [exact A1|]. split; [exact A2|].
  split; [|split; [apply FL; [exact K1|intros x Hx; apply NF; auto]|split; [apply FL; [exact K2|intros x Hx; apply NF; auto]|exact DE]]].
  destruct (recenter_bounds (ms_radius m) (ms_y1 m) a1 K1) as [B1 B2]. destruct (recenter_bounds (ms_radius m) (ms_y2 m) a2 K2) as [C1 C2].
  split; [apply (box_admits (ms_radius m)); [rewrite RA; lra|apply recenter_vals; exact K1|exact B1|exact B2]|]. split; [apply (box_admits (ms_radius m)); [rewrite RA; lra|apply recenter_vals; exact K2|exact C1|exact C2]|]. intros _ e He. cbn [ms_grid] in He. rewrite DE in He. destruct He.
Qed.
(** The martensite variant stores no energy, hence it is a rest state; it can be moved in all directions. *)
Example C97_example : forall reg, reg = None \/ reg = Some 1 -> exists m, problem_grids (ms_grid m) (ms_refined m) (1/2) 2 2 /\ mech_history m /\ (ms_refined m = None <-> reg = None) /\ midpoint_rule lg0 /\ non_negative_values (ms_prev_theta m) /\
  unloaded m /\ 0 < ms_fps m /\ 0 <= ms_reg m /\ mech_feasible m (ms_prev_y1 m) (ms_prev_y2 m) /\ relaxed m (ms_prev_y1 m) (ms_prev_y2 m) /\ mech_minimizes lg0 m (ms_prev_y1 m) (ms_prev_y2 m) /\
  floats (ms_y1 m) (ms_prev_y1 m) /\ floats (ms_y2 m) (ms_prev_y2 m) /\ (forall w1 w2, virtual_velocity m w1 w2 -> free_along m (ms_prev_y1 m) (ms_prev_y2 m) w1 w2).
Proof.
  intros reg Hr. destruct (sheared_step reg Hr) as (m & PG & HM & Er & PT & UL & FP & RP & A1 & A2 & FE & F1 & F2 & DE). exists m. assert (NN : non_negative_values (ms_prev_theta m)) by (intros x Hx; rewrite (PT x Hx); lra).
  assert (RX : relaxed m (ms_prev_y1 m) (ms_prev_y2 m)).
  { assert (RQ : rotation id2) by (exists 1, 0; split; [ring|]; unfold id2, PotentialSpec.st; f_equal; ring). apply (C97_wells_relaxed m (1/2) 2 2 id2 (1/2) 0 0 _ _ PG HM PT RQ (or_introl eq_refl)); unfold mul2, id2, well, PotentialSpec.st; cbn [f11 f12 f21 f22];
      [replace (1 * 1 + 0 * 0) with 1 by ring; replace (1 * (1 / 2) + 0 * 1) with (1 / 2) by ring; exact A1|replace (0 * 1 + 1 * 0) with 0 by ring; replace (0 * (1 / 2) + 1 * 1) with 1 by ring; exact A2]. }
  split; [exact PG|]. split; [exact HM|]. split; [exact Er|]. split; [reflexivity|]. split; [exact NN|]. split; [exact UL|]. split; [lra|]. split; [exact RP|]. split; [exact FE|]. split; [exact RX|].
  split; [apply (C97_rest_state lg0 m (1/2) 2 2 PG HM (fun _ => eq_refl) NN UL ltac:(lra) RP FE RX)|]. split; [exact F1|]. split; [exact F2|]. intros w1 w2 [W1 W2]. apply free_plain; [right; exact DE|exact FE|split; [exact W1|intros i x X; right; exact (F1 i x X)]|split; [exact W2|intros i x X; right; exact (F2 i x X)]].
Qed.
