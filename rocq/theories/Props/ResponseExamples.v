(** * C124: the constructors, and concrete cases. *)
From Coq Require Import Reals Lra Lia List ZArith.
From Verif.Spec Require Import GridSpec QuadSpec BellSpec InterpSpec RefineSpec PotentialSpec.
From Verif.Model Require Import Py Num Tensors Domain Refine Quadrature Integrators Expr Bell Interp Helpers Steps Simulation.
From Verif.Spec Require Import SimSpec LiveSpec StepSpec EnergySpec MotionSpec TractionSpec ThermSpec MechSpec ForcingSpec ResponseSpec.
From Verif.Proofs Require Import Lib GridP StdOrder InterpP PotP HatP QuadP IntegP StepP StepU StepE StepF StepG StepH SimP SimQ SimR SimH SimC SimL SimA SimE SimF StepC StepD ThermV ThermP MechV MechP.
From Verif.Props Require Import GridProps QuadProps IntegProps InterpProps RefineProps SimProps UpdateProps EnergyProps TractionProps AffineProps EnergyExamples ThermProps ExistProps HeatExamples MechExistProps IdealProps ResponseProps.
Local Open Scope R_scope.
Import ListNotations.
Local Notation length := List.length.

(** The changed steps are what the constructor returns for the changed parameter. *)
Lemma scaled_row c (l : list R) i : py_index (map (Rmult c) l) i = (let* x := py_index l i in Ok (c * x)).
Proof.
  unfold py_index. rewrite map_length. repeat match goal with |- context [if ?b then _ else _] => destruct b end; try reflexivity;
  unfold py_nth; rewrite nth_error_map; destruct (nth_error l _); reflexivity.
Qed.
Theorem C124_constructor : forall g T r f reg rg tr m, mechanical_step g T r f reg rg tr = Ok m ->
  (forall f', mechanical_step g T r f' reg rg tr = Ok (with_fps f' m)) /\
  (forall e, reg <> None -> mechanical_step g T r f (Some e) rg tr = Ok (with_regularization e m)) /\
  (forall c, reg = None -> let scaled := fun t x y => let* l := tr t x y in Ok (map (Rmult c) l) in mechanical_step g T r f None rg scaled = Ok (with_traction scaled (with_load_times c m))).
Proof.
  intros g T r f reg rg tr m H. unfold mechanical_step, mech_init_plain, mech_init_reg in *. split; [|split].
  - intros f'. destruct reg as [e|]; [destruct rg as [rr|]; [|discriminate]|]; destruct (mapM xy (g_points g)) as [ps|]; try discriminate; cbn [bind] in *; destruct (Rltb T 0); try discriminate.
    + injection H as <-. reflexivity.
    + destruct (init_traction g tr) as [[g1 g2]|]; [|discriminate]. cbn [bind] in *. injection H as <-. reflexivity.
  - intros e NE. destruct reg as [e0|]; [|congruence]. destruct rg as [rr|]; [|discriminate]. destruct (mapM xy (g_points g)) as [ps|]; [|discriminate]. cbn [bind] in *. destruct (Rltb T 0); [discriminate|]. injection H as <-. reflexivity.
  - intros c ->. cbv zeta. destruct (mapM xy (g_points g)) as [ps|]; [|discriminate]. cbn [bind] in *. destruct (Rltb T 0); [discriminate|].
    destruct (init_traction g tr) as [[g1 g2]|] eqn:IT; [|discriminate]. cbn [bind] in H. injection H as <-.
    assert (E : init_traction g (fun t x y => let* l := tr t x y in Ok (map (Rmult c) l)) = Ok (times c g1, times c g2)).
    { unfold init_traction in *. apply bind_ok in IT as (rows & ER & IT). injection IT as <- <-.
      match goal with |- (let* rows := mapM ?F _ in _) = _ => set (FF := F) end.
      assert (K : mapM FF (b_vertices (g_neumann g)) = Ok (map (fun '(v, (a, b)) => (v, (c * a, c * b))) rows)).
      { revert rows ER. induction (b_vertices (g_neumann g)) as [|v vs IH]; intros rows ER; cbn [mapM] in *; [injection ER as <-; reflexivity|].
        apply bind_ok in ER as ([v' [a b]] & E1 & ER). apply bind_ok in ER as (rest & E2 & ER). injection ER as <-. rewrite (IH rest E2). unfold FF at 1.
        apply bind_ok in E1 as (p & P1 & E1). apply bind_ok in E1 as ([x y] & P2 & E1). apply bind_ok in E1 as (l & P3 & E1). apply bind_ok in E1 as (a' & P4 & E1). apply bind_ok in E1 as (b' & P5 & E1). injection E1 as <- <- <-.
        rewrite P1. cbn [bind]. rewrite P2. cbn [bind]. rewrite P3. cbn [bind]. rewrite !scaled_row, P4, P5. reflexivity. }
      rewrite K. cbn [bind]. unfold times. rewrite !map_map. apply (f_equal Ok). apply f_equal2; apply map_ext; intros [v [a b]]; reflexivity. }
    rewrite E. reflexivity.
Qed.
Print Assumptions C124_constructor.

(** The unit square, pulled with traction (1, 2), or regularized: 1 frame per second, search radius 1. *)
Lemma response_step reg : reg = None \/ reg = Some 1 -> exists m y1 y2 J, problem_grids (ms_grid m) (ms_refined m) (1/2) 2 2 /\ mech_history m /\ (ms_refined m = None <-> reg = None) /\ ms_fps m = 1 /\ (forall e, reg = Some e -> ms_reg m = e) /\
  mech_feasible m y1 y2 /\ mech_objective lg0 m y1 y2 = Ok J.
Proof.
  intros Hr. assert (Hr' : forall e, reg = Some e -> 0 <= e) by (intros e E; destruct Hr as [-> | ->]; [discriminate|injection E as <-; lra]).
  destruct (free_state reg Hr') as (s & U & _ & _ & Er). destruct (undisturbed_chain _ s U) as (g & rg & ps & G & CH). destruct (hist_grid _ _ _ _ _ (ch_hist _ _ _ _ _ CH)) as (_ & Er' & _). rewrite Er' in Er. clear CH Er' U s.
  pose proof (free_grids reg g rg ps G) as PG. pose proof (gr_points _ _ _ _ G) as GP. pose proof (gr_len _ _ _ _ G) as GL. assert (LP : length (g_points g) = length (g_vertices g)) by (rewrite GP, map_length; exact GL).
  destruct (loaded_step 1 2 reg g rg ps G Er) as (m & NM & Em & Rm & P1 & P2 & PT & (fx & _ & V1 & V2) & _ & FP & RG & _). assert (HM : mech_history m) by exact (mh_new _ _ _ _ _ _ _ _ LP NM).
  pose proof (reference_admissible (ex_free reg) (free_fine reg) ltac:(cbn; lra) ltac:(cbn; lra) g rg ps G) as AD. destruct (iref_length rg ps) as [L1 L2]. rewrite GL in L1, L2.
  assert (EJ : exists J, mech_objective lg0 m (iref1 rg ps) (iref2 rg ps) = Ok J).
  { pose proof PG as (Hs & _ & _ & (so & w & h & f & Fw & Fh & DG) & RR). destruct rg as [r|].
    - destruct RR as (N & N1 & HN & RF). destruct dun5_good as (q & Eq & _). rewrite <- Em in DG, RF.
      apply (C77_objective_defined_regularized so w h f (1/2) 2 2 N lg0 q m r _ _ Hs Fw Fh ltac:(lia) ltac:(lia) N1 HN HM DG RF Rm Eq); [rewrite Em; exact L1|rewrite Em; exact L2|]. rewrite Em. exact (AD q Eq).
    - rewrite <- Em in DG. cbn [dofs] in L1, L2. rewrite Nat.mul_1_r in L1, L2. apply (C77_objective_defined so w h f (1/2) 2 2 lg0 [0] [2] m _ _ Hs Fw Fh ltac:(lia) ltac:(lia) HM Rm DG eq_refl); [rewrite Em; exact L1|rewrite Em; exact L2|]. rewrite Em. exact AD. }
  destruct EJ as [J EJ]. exists m, (iref1 rg ps), (iref2 rg ps), J. rewrite Em, Rm. split; [exact PG|]. split; [exact HM|]. split; [exact Er|]. split; [exact FP|]. split; [exact RG|]. split; [|exact EJ].
  destruct (ivars_maps 1 fx (iref1 rg ps)) as (B1 & B2 & B3 & _). destruct (ivars_maps 1 fx (iref2 rg ps)) as (C1 & C2 & C3 & _). rewrite <- V1 in B1, B2, B3. rewrite <- V2 in C1, C2, C3.
  split; [apply (box_admits 1); [lra|assumption..]|]. split; [apply (box_admits 1); [lra|assumption..]|]. rewrite Rm. intros NR.
  destruct (init_good (ex_free reg) (free_fine reg) ltac:(cbn; lra) ltac:(cbn; lra) g rg ps G) as [_ Q]. exact (Q NR m Em).
Qed.
Example C124_frame_rate_example : forall reg, reg = None \/ reg = Some 1 -> exists m y1 y2 z1 z2, (ms_refined m = None <-> reg = None) /\ 0 <= ms_fps m < 2 /\ mech_minimizes lg0 m y1 y2 /\ mech_minimizes lg0 (with_fps 2 m) z1 z2.
Proof.
  intros reg Hr. destruct (response_step reg Hr) as (m & y1 & y2 & J & PG & HM & RR & FP & _ & FE & EJ).
  destruct (C94_solution_exists lg0 m _ _ _ y1 y2 J PG HM ltac:(reflexivity) FE EJ) as (v1 & v2 & MV).
  apply objective_parts in EJ as (P & D & E1 & E2 & _).
  assert (OZ : mech_objective lg0 (with_fps 2 m) y1 y2 = Ok (P + 2 * D)) by (apply objective_parts; exists P, D; auto).
  assert (MS : msized (with_fps 2 m)). { destruct (mech_history_sized m HM) as [[X1 X2 X3 X4 X5] K]. split; [constructor; assumption|exact K]. }
  destruct (solution_exists lg0 (with_fps 2 m) (1/2) 2 2 y1 y2 _ PG MS (fun _ => eq_refl) FE OZ) as (w1 & w2 & MW).
  exists m, v1, v2, w1, w2. rewrite FP. split; [exact RR|]. split; [lra|]. split; assumption.
Qed.
Example C124_regularization_example : exists m y1 y2 z1 z2, ms_refined m <> None /\ 0 <= ms_reg m < 2 /\ mech_minimizes lg0 m y1 y2 /\ mech_minimizes lg0 (with_regularization 2 m) z1 z2.
Proof.
  destruct (response_step (Some 1) (or_intror eq_refl)) as (m & y1 & y2 & J & PG & HM & RR & _ & RG & FE & EJ). specialize (RG 1 eq_refl). assert (NR : ms_refined m <> None) by (intros N; apply RR in N; discriminate).
  destruct (C94_solution_exists lg0 m _ _ _ y1 y2 J PG HM ltac:(reflexivity) FE EJ) as (v1 & v2 & MV).
  apply (reg_parts lg0 m y1 y2 _ NR) in EJ as (E & H & D & E1 & E2 & E3 & _).
  assert (OZ : mech_objective lg0 (with_regularization 2 m) y1 y2 = Ok (E + 2 * H + ms_fps m * D)) by (apply (reg_parts lg0 (with_regularization 2 m) y1 y2 _ NR); exists E, H, D; auto).
  assert (MS : msized (with_regularization 2 m)). { destruct (mech_history_sized m HM) as [[X1 X2 X3 X4 X5] K]. split; [constructor; assumption|exact K]. }
  destruct (solution_exists lg0 (with_regularization 2 m) (1/2) 2 2 y1 y2 _ PG MS (fun _ => eq_refl) FE OZ) as (w1 & w2 & MW).
  exists m, v1, v2, w1, w2. rewrite RG. split; [exact NR|]. split; [lra|]. split; assumption.
Qed.
Example C124_larger_load_example : exists m y1 y2 z1 z2, problem_grids (ms_grid m) (ms_refined m) (1/2) 2 2 /\ mech_history m /\ ms_refined m = None /\ midpoint_rule lg0 /\ mech_minimizes lg0 m y1 y2 /\ mech_minimizes lg0 (with_load_times 2 m) z1 z2.
Proof.
  destruct (response_step None (or_introl eq_refl)) as (m & y1 & y2 & J & PG & HM & RR & _ & _ & FE & EJ). pose proof (proj2 RR eq_refl) as PL.
  destruct (C94_solution_exists lg0 m _ _ _ y1 y2 J PG HM ltac:(reflexivity) FE EJ) as (v1 & v2 & MV).
  destruct (mech_history_keys m HM PL) as [G1 G2]. destruct (feasible_sizes m y1 y2 HM PL FE) as [L1 L2]. pose proof PG as (Hs & A1 & B1 & (so & w & hh & f & Fw & Fh & Eg) & _).
  destruct (traction_work so w hh f (1/2) 2 2 lg0 (with_load_times 2 m) y1 y2 Hs Fw Fh A1 B1) as [W _]; [cbn; rewrite keys_times; exact G1|cbn; rewrite keys_times; exact G2|exact Eg|reflexivity|exact L1|exact L2|].
  apply (plain_parts lg0 m y1 y2 _ PL) in EJ as (E & W0 & D & E1 & E2 & E3 & _).
  match type of W with _ = Ok ?X => assert (OZ : mech_objective lg0 (with_load_times 2 m) y1 y2 = Ok (E - X + ms_fps m * D)) by (apply (plain_parts lg0 (with_load_times 2 m) y1 y2 _ PL); exists E, X, D; auto) end.
  assert (MS : msized (with_load_times 2 m)). { destruct (mech_history_sized m HM) as [[X1 X2 X3 X4 X5] K]. split; [constructor; assumption|]. intros _. cbn. rewrite !keys_times. split; assumption. }
  destruct (solution_exists lg0 (with_load_times 2 m) (1/2) 2 2 y1 y2 _ PG MS (fun _ => eq_refl) FE OZ) as (w1 & w2 & MW).
  exists m, v1, v2, w1, w2. split; [exact PG|]. split; [exact HM|]. split; [exact PL|]. split; [reflexivity|]. split; assumption.
Qed.
Example C124_surroundings_example : exists s th th', problem_grids (ts_grid s) (ts_refined s) (1/2) 2 2 /\ ts_refined s = None /\ midpoint_rule lg0 /\ temperatures_of s th /\ temperatures_of s th' /\ ts_ext s < ts_ext s + 1 /\
  minimizes lg0 s th /\ minimizes lg0 (with_surroundings (ts_ext s + 1) s) th'.
Proof.
  destruct (C88_example None (or_introl eq_refl)) as (t & q & TH & TP & RR & Eq & PJ & _ & FE & (th & MT & _)). pose proof (proj2 RR eq_refl) as PL.
  destruct (C88_solution_exists lg0 (with_surroundings (ts_ext t + 1) t) (1/2) 2 2 q TP Eq PJ FE) as [th' MT'].
  assert (TO : forall x, feasible t x -> temperatures_of t x). { intros x (L & _). unfold temperatures_of. rewrite L. exact (tl_th _ (sized_len t (proj1 TP))). }
  exists t, th, th'. split; [exact (proj1 (proj2 TP))|]. split; [exact PL|]. split; [reflexivity|]. split; [apply TO, (proj1 MT)|]. split; [apply TO, (proj1 MT')|]. split; [lra|]. split; assumption.
Qed.
