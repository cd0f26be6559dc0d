(** * Concrete thermal steps (C82-C87). *)
From Coq Require Import Reals Lra Lia List ZArith String.
From Coquelicot Require Import Coquelicot.
From Verif.Spec Require Import GridSpec QuadSpec BellSpec InterpSpec RefineSpec PotentialSpec.
From Verif.Model Require Import Py Num Tensors Domain Refine Quadrature Integrators Expr Bell Interp Helpers Steps Simulation.
From Verif.Spec Require Import SimSpec LiveSpec StepSpec EnergySpec MotionSpec TractionSpec ThermSpec.
From Verif.Proofs Require Import Lib Lattice MeshLat MeshP GridP StdOrder InterpP PotP StepP StepD SimP SimQ SimR SimH SimL SimA SimE SimF SimC HatP QuadP IntegP StepU StepE StepF StepG StepH ThermV ThermP ThermQ.
From Verif.Props Require Import GridProps QuadProps IntegProps InterpProps RefineProps MeshIntegProps PotentialProps SimProps UpdateProps EnergyProps TractionProps AffineProps EnergyExamples ThermProps HeatProps BalanceProps ExistProps.
Local Open Scope R_scope.
Import ListNotations.
Local Notation length := List.length.

(** The unit square, stretched by the factor [x0] in the previous and by [x] in the new step, at temperature [c]. *)
Definition stretched (t : therm) (x0 x c : R) : Prop :=
  let g := ts_grid t in let rg := ts_refined t in
  affine_field g rg x0 0 0 (ts_prev_y1 t) /\ affine_field g rg 0 x0 0 (ts_prev_y2 t) /\ affine_field g rg x 0 0 (ts_y1 t) /\ affine_field g rg 0 x 0 (ts_y2 t) /\
  constant c (ts_prev_theta t) /\ (x0 = x -> ts_prev_y1 t = ts_y1 t /\ ts_prev_y2 t = ts_y2 t) /\ (ts_refined t = None -> ts_ext t = c) /\ ts_fps t = 1 /\
  ts_theta t = map (new_var 1 false) (ts_prev_theta t).
Lemma stretched_step reg : reg = None \/ reg = Some 1 -> forall x0 x c, 0 <= c ->
  exists t, therm_history t /\ thermal_problem lg0 t (1/2) 2 2 /\ (ts_refined t = None <-> reg = None) /\ stretched t x0 x c.
Proof.
  intros Hr x0 x c Hc. assert (Hr' : forall e, reg = Some e -> 0 <= e) by (intros e E; destruct Hr as [-> | ->]; [discriminate|injection E as <-; lra]).
  destruct (free_state reg Hr') as (s & U & _ & _ & Er). destruct (undisturbed_chain _ s U) as (g & rg & ps & G & CH). destruct (hist_grid _ _ _ _ _ (ch_hist _ _ _ _ _ CH)) as (_ & Er' & _). rewrite Er' in Er. clear CH Er' U s.
  pose proof (free_grids reg g rg ps G) as PG. pose proof (gr_points _ _ _ _ G) as GP. pose proof (gr_len _ _ _ _ G) as GL.
  assert (LP : length (g_points g) = length (g_vertices g)) by (rewrite GP, map_length; exact GL).
  destruct (affine_exists g rg ps x0 0 0 GP LP) as [p1 P1]. destruct (affine_exists g rg ps 0 x0 0 GP LP) as [p2 P2]. 
  assert (Y : exists y1 y2, affine_field g rg x 0 0 y1 /\ affine_field g rg 0 x 0 y2 /\ (x0 = x -> p1 = y1 /\ p2 = y2)).
  { destruct (Req_dec x0 x) as [<- |N]; [exists p1, p2; auto|]. destruct (affine_exists g rg ps x 0 0 GP LP) as [y1 Y1]. destruct (affine_exists g rg ps 0 x 0 GP LP) as [y2 Y2]. exists y1, y2. split; [exact Y1|]. split; [exact Y2|]. intros E. contradiction. }
  destruct Y as (y1 & y2 & Y1 & Y2 & YY). set (th := repeat c (num_vertices (theta_grid g rg))).
  set (t := mkTherm g rg 1 1 p1 p2 y1 y2 th (map (new_var 1 false) th) (match rg with None => c | Some _ => 0 end) (fun _ => Ok c)).
  pose proof (proj1 P1) as L1. pose proof (proj1 P2) as L2. pose proof (proj1 Y1) as L3. pose proof (proj1 Y2) as L4.
  assert (ET : thermal_step g (y_array g rg p1 p2) (y_array g rg y1 y2) (theta_array g rg th) 1 1 reg (fun _ => Ok c) rg = Ok t).
  { assert (I : therm_init g rg (y_array g rg p1 p2) (y_array g rg y1 y2) (theta_array g rg th) 1 1 (fun _ => Ok c) = Ok t).
    { unfold therm_init. assert (E0 : match rg with None => Ok c | Some _ => Ok 0 end = Ok (match rg with None => c | Some _ => 0 end)) by (destruct rg; reflexivity). rewrite E0. cbn [bind]. unfold check_prev_step_data. rewrite !y_shape_array, theta_shape_array. cbn [negb bind].
      assert (NN : all_nonneg (nd_data (theta_array g rg th)) = true). { cbn [theta_array nd_data]. unfold all_nonneg. apply forallb_forall. intros z Hz. unfold th in Hz. apply repeat_spec in Hz. subst z. apply Bool.negb_true_iff, Rltb_false. exact Hc. }
      rewrite NN. cbn [negb]. assert (XX : Rltb (match rg with None => c | Some _ => 0 end) 0 = false) by (apply Rltb_false; destruct rg; lra). rewrite XX. unfold y_array. cbn [nd_data].
      destruct (unpack_pack (num_vertices g) (dofs rg) p1 p2 L1 L2) as [A1 A2]. destruct (unpack_pack (num_vertices g) (dofs rg) y1 y2 L3 L4) as [A3 A4]. rewrite A1, A2, A3, A4. reflexivity. }
    unfold thermal_step. clear - I Er. destruct reg as [e|]; [destruct rg as [r|]; [exact I|apply proj1 in Er; specialize (Er eq_refl); discriminate]|]. pose proof (proj2 Er eq_refl) as E. subst rg. exact I. }
  exists t. split; [|split; [|split; [exact Er|]]].
  - refine (th_new _ _ _ _ _ _ _ _ _ _ _ _ _ ET); [apply y_array_wf; assumption|apply y_array_wf; assumption|apply theta_array_wf; apply repeat_length].
  - split; [|split; [exact PG|split; [cbn; lra|reflexivity]]]. split; [exact L1|]. split; [exact L2|]. split; [exact L3|]. split; [exact L4|]. cbn [t ts_prev_theta ts_theta ts_grid ts_refined]. rewrite map_length. unfold th. rewrite repeat_length. split; reflexivity.
  - split; [exact P1|]. split; [exact P2|]. split; [exact Y1|]. split; [exact Y2|]. split; [exact (fun z Hz => repeat_spec _ _ _ Hz)|]. split; [exact YY|]. split; [|split; reflexivity]. cbn [t ts_refined ts_ext]. intros ->. reflexivity.
Qed.
Section S.
Context (t : therm) (x0 x c : R) (TP : thermal_problem lg0 t (1/2) 2 2) (ST : stretched t x0 x c) (q : rule R) (Eq : therm_rule t = Ok q).
Let GG : good_grids (ts_grid t) (ts_refined t) (1/2) 2 2 := problem_good _ _ _ _ _ (proj1 (proj2 TP)). Let GQ := proj1 (rule_of t q Eq).
Lemma st_strains tr p : In tr (g_triangles (theta_grid (ts_grid t) (ts_refined t))) -> In p (q_points q) ->
  deform_strain (comp_interp (ts_grid t) (ts_refined t) (ts_prev_y1 t)) (comp_interp (ts_grid t) (ts_refined t) (ts_prev_y2 t)) tr p = Ok (mat (PotentialSpec.st x0 0 0 x0)) /\
  deform_strain (comp_interp (ts_grid t) (ts_refined t) (ts_y1 t)) (comp_interp (ts_grid t) (ts_refined t) (ts_y2 t)) tr p = Ok (mat (PotentialSpec.st x 0 0 x)).
Proof.
  intros Ht Hp. destruct ST as (P1 & P2 & Y1 & Y2 & _). destruct (field _ _ _ _ _ GG tr p Ht (proj2 (proj2 GQ) p Hp)) as (X & Y & FU).
  rewrite (field_strain _ _ tr p X Y _ _ FU (proj1 P1) (proj1 P2)), (field_strain _ _ tr p X Y _ _ FU (proj1 Y1) (proj1 Y2)).
  rewrite (strain_affine _ _ tr p X Y (PotentialSpec.st x0 0 0 x0) 0 0 _ _ FU P1 P2), (strain_affine _ _ tr p X Y (PotentialSpec.st x 0 0 x) 0 0 _ _ FU Y1 Y2). split; reflexivity.
Qed.
Lemma st_kept : x0 <> 0 -> x <> 0 -> orientation_kept t q.
Proof.
  intros A B. split; intros tr p Ht Hp; destruct (st_strains tr p Ht Hp) as [E0 E1].
  - exists (PotentialSpec.st x0 0 0 x0). split; [exact E0|]. unfold det2. cbn. pose proof (pow2_gt_0 x0 A). nra.
  - exists (PotentialSpec.st x 0 0 x). split; [exact E1|]. unfold det2. cbn. pose proof (pow2_gt_0 x B). nra.
Qed.
Lemma st_moderate : x = 1 -> moderate_martensite t q (2 * exp 1).
Proof.
  intros X tr p Ht Hp. destruct (st_strains tr p Ht Hp) as [_ E1]. destruct C83_example as (A & B & C). exists id2, 0, (1/16). split; [|auto]. rewrite E1, X. reflexivity.
Qed.
Lemma sat_st tr p : In tr (g_triangles (theta_grid (ts_grid t) (ts_refined t))) -> In p (q_points q) -> sat t (ts_prev_y1 t) (ts_prev_y2 t) tr p = PotentialSpec.st x0 0 0 x0 /\ sat t (ts_y1 t) (ts_y2 t) tr p = PotentialSpec.st x 0 0 x.
Proof. intros Ht Hp. destruct (st_strains tr p Ht Hp) as [E0 E1]. unfold sat. rewrite E0, E1. split; reflexivity. Qed.
End S.

(** C84: a body at rest with and without regularization; C85-C87: its temperature is the only minimizer, strictly inside the bounds. *)
Example C84_example : forall reg, reg = None \/ reg = Some 1 -> exists t q, therm_history t /\ thermal_problem lg0 t (1/2) 2 2 /\ (ts_refined t = None <-> reg = None) /\ therm_rule t = Ok q /\
  orientation_kept t q /\ moderate_martensite t q (2 * exp 1) /\ ts_prev_y1 t = ts_y1 t /\ ts_prev_y2 t = ts_y2 t /\ constant (3/10) (ts_prev_theta t) /\ (ts_refined t = None -> ts_ext t = 3/10) /\
  minimizes lg0 t (ts_prev_theta t) /\ interior t (ts_prev_theta t) /\ (forall theta, minimizes lg0 t theta -> theta = ts_prev_theta t).
Proof.
  intros reg Hr. destruct (stretched_step reg Hr 1 1 (3/10) ltac:(lra)) as (t & TH & TP & RR & ST). destruct (therm_rule_good t) as (q & Eq & _). exists t, q. pose proof (st_kept t 1 1 (3/10) TP ST q Eq ltac:(lra) ltac:(lra)) as PJ. pose proof (st_moderate t 1 1 (3/10) TP ST q Eq eq_refl) as MM.
  destruct ST as (P1 & P2 & Y1 & Y2 & C & YY & EX & FP & VA). destruct (YY eq_refl) as [YA YB].
  assert (CP : forall z, In z (ts_prev_theta t) -> 0 < z) by (intros z Hz; rewrite (C z Hz); lra).
  assert (BO : forall i v w, nth_error (ts_theta t) i = Some v -> nth_error (ts_prev_theta t) i = Some w -> v_lb v < w < v_ub v).
  { intros i v w V W. rewrite VA, nth_error_map, W in V. injection V as <-. cbn. lra. }
  assert (LL : length (ts_prev_theta t) = length (ts_theta t)) by (rewrite VA, map_length; reflexivity).
  assert (MI : minimizes lg0 t (ts_prev_theta t)).
  { destruct (C84_equilibrium_partial lg0 t _ _ _ q (3/10) TP Eq PJ MM YA YB ltac:(lra) C EX) as (J & EJ & MIN). split.
    - split; [exact LL|]. split; [intros z Hz; left; exact (CP z Hz)|]. intros i v w V W. pose proof (BO i v w V W). lra.
    - exists J. split; [exact EJ|]. intros th' J' FE EJ'. apply (MIN th' J'); [exact (feasible_len lg0 t _ _ _ TP th' FE)|exact (proj1 (proj2 FE))|exact EJ']. }
  split; [exact TH|]. split; [exact TP|]. split; [exact RR|]. split; [exact Eq|]. split; [exact PJ|]. split; [exact MM|]. split; [exact YA|]. split; [exact YB|]. split; [exact C|]. split; [exact EX|]. split; [exact MI|]. split.
  - split; [exact LL|]. split; [exact CP|exact BO].
  - intros th M. exact (C85_unique_partial lg0 t _ _ _ q th _ TP Eq MM M MI).
Qed.

(** Under strong compression the equilibrium is not a minimizer. *)
Lemma psi_descends F : 2 * exp 1 < - dW F -> exists d, 0 < d < 1 /\ psi F F (1/5) (1/5 + d) < psi F F (1/5) (1/5).
Proof.
  intros H. assert (C : cap F (1/5) < 0).
  { unfold cap. replace (-5 * (1/5)) with (-1) by field. assert (E : exp 1 * exp (-1) = 1) by (rewrite <- exp_plus; replace (1 + -1) with 0 by ring; apply exp_0). pose proof (exp_pos (-1)). pose proof (exp_pos 1). nra. }
  pose proof (U_derive F (1/5)) as D. apply is_derive_Reals in D. destruct (D (- cap F (1/5) / 2) ltac:(lra)) as [[e E0] KD]. cbn in KD.
  assert (LT : forall z, 0 < z < e -> U F (1/5 + z) < U F (1/5)).
  { intros z Z. specialize (KD z ltac:(lra)). rewrite Rabs_right in KD by lra. specialize (KD (proj2 Z)). apply Rabs_def2 in KD as [KD _]. assert (Q : (U F (1/5 + z) - U F (1/5)) / z < 0) by lra.
    apply (Rmult_lt_compat_r z) in Q; [|lra]. rewrite Rmult_0_l in Q. unfold Rdiv in Q. rewrite Rmult_assoc, Rinv_l, Rmult_1_r in Q by lra. lra. }
  set (d := Rmin (e / 2) (1/2)). assert (D1 : 0 < d <= 1/2) by (split; [apply Rmin_glb_lt; lra|apply Rmin_r]). assert (D2 : d < e) by (apply Rle_lt_trans with (e / 2); [apply Rmin_l|lra]). exists d. split; [lra|].
  destruct (MVT_cor2 (psi F F (1/5)) (fun z => U F z - U F (1/5)) (1/5) (1/5 + d)) as (z & EQ & Z); [lra|intros z _; apply is_derive_Reals, psi_derive|].
  assert (U F z < U F (1/5)) by (replace z with (1/5 + (z - 1/5)) by ring; apply LT; lra). nra.
Qed.
(** Not at every strain: a body at rest, compressed by the factor 1/2, with constant temperature 1/5 (with regularization: the
    boundary is insulated) can lower the objective by heating up everywhere. *)
Theorem C84_equilibrium_refuted : exists t q, therm_history t /\ thermal_problem lg0 t (1/2) 2 2 /\ ts_refined t <> None /\ therm_rule t = Ok q /\ orientation_kept t q /\
  ts_prev_y1 t = ts_y1 t /\ ts_prev_y2 t = ts_y2 t /\ constant (1/5) (ts_prev_theta t) /\ feasible t (ts_prev_theta t) /\ ~ minimizes lg0 t (ts_prev_theta t).
Proof.
  destruct (stretched_step (Some 1) (or_intror eq_refl) (1/2) (1/2) (1/5) ltac:(lra)) as (t & TH & TP & RR & ST). destruct (therm_rule_good t) as (q & Eq & GQ & PQ & _). exists t, q. pose proof (st_kept t _ _ _ TP ST q Eq ltac:(lra) ltac:(lra)) as PJ. pose proof (sat_st t _ _ _ TP ST q Eq) as SS.
  destruct ST as (P1 & P2 & Y1 & Y2 & C & YY & EX & FP & VA). destruct (YY eq_refl) as [YA YB]. assert (NR : ts_refined t <> None) by (intros E; apply RR in E; discriminate).
  assert (LL : length (ts_prev_theta t) = length (ts_theta t)) by (rewrite VA, map_length; reflexivity).
  assert (BO : forall i v w, nth_error (ts_theta t) i = Some v -> nth_error (ts_prev_theta t) i = Some w -> v_lb v = w - 1 /\ v_ub v = w + 1).
  { intros i v w V W. rewrite VA, nth_error_map, W in V. injection V as <-. cbn. split; reflexivity. }
  split; [exact TH|]. split; [exact TP|]. split; [exact NR|]. split; [exact Eq|]. split; [exact PJ|]. split; [exact YA|]. split; [exact YB|]. split; [exact C|]. split.
  { split; [exact LL|]. split; [intros z Hz; rewrite (C z Hz); lra|]. intros i v w V W. destruct (BO i v w V W). lra. }
  intros (_ & J & EJ & MIN). set (F := PotentialSpec.st (1/2) 0 0 (1/2)) in *. destruct (psi_descends F half_dW) as (d & D & LT). pose proof (sized_len t (proj1 TP)) as TL. pose proof (tl_pt _ TL) as LT0.
  set (th := repeat (1/5 + d) (length (g_vertices (theta_grid (ts_grid t) (ts_refined t))))). assert (L : temperatures_of t th) by apply repeat_length.
  assert (CT : constant (1/5 + d) th) by exact (fun z Hz => repeat_spec _ _ _ Hz). destruct (obj_defined lg0 t _ _ _ TP q Eq th PJ L) as [J' EJ'].
  assert (FE : feasible t th).
  { split; [rewrite <- LL, LT0; exact L|]. split; [intros z Hz; rewrite (CT z Hz); lra|]. intros i v w V W. assert (W0 : exists w0, nth_error (ts_prev_theta t) i = Some w0). { destruct (nth_error (ts_prev_theta t) i) eqn:E; [eauto|]. apply nth_error_None in E. assert (i < length (ts_theta t))%nat by (apply nth_error_Some; congruence). lia. }
    destruct W0 as [w0 W0]. destruct (BO i v w0 V W0) as [-> ->]. rewrite (C w0 (nth_error_In _ _ W0)), (CT w (nth_error_In _ _ W)). lra. }
  pose proof (MIN th J' FE EJ') as LE. pose proof (problem_good _ _ _ _ _ (proj1 (proj2 TP))) as GG. destruct (therm_integ t _ _ _ GG q Eq) as (I & _ & EI).
  rewrite (obj_value lg0 t _ _ _ (proj1 (proj2 TP)) TL (proj2 (proj2 (proj2 TP))) q Eq GQ PJ _ I LT0 EI) in EJ. rewrite (obj_value lg0 t _ _ _ (proj1 (proj2 TP)) TL (proj2 (proj2 (proj2 TP))) q Eq GQ PJ _ I L EI) in EJ'. injection EJ as <-. injection EJ' as <-.
  assert (BD : forall z, bd t (1/2) z = 0) by (intros z; unfold bd; destruct (opt_case (ts_refined t)) as [[r Hr]|Hr]; [rewrite Hr; reflexivity|contradiction]). rewrite !BD in LE.
  assert (DV : forall z c, length z = length (g_vertices (theta_grid (ts_grid t) (ts_refined t))) -> constant c z -> forall tr p, In tr (g_triangles (theta_grid (ts_grid t) (ts_refined t))) -> In p (q_points q) -> dens t z tr p = psi F F (1/5) c).
  { intros z c Lz Cz tr p Ht Hp. destruct (SS tr p Ht Hp) as [S0 S1]. destruct (vat_const t _ _ _ GG q GQ z c tr p Ht Lz Cz Hp) as [V1 V2]. destruct (vat_const t _ _ _ GG q GQ _ _ tr p Ht LT0 C Hp) as [V3 _]. unfold dens. rewrite S0, S1, V1, V2, V3, FP, source_rest. cbn [fst snd]. unfold qf. ring. }
  destruct (WSum_le t _ _ _ GG q GQ PQ I (dens t th) (dens t (ts_prev_theta t)) EI) as [W1 W2].
  { intros tr p Ht Hp. rewrite (DV th _ L CT tr p Ht Hp), (DV _ _ LT0 C tr p Ht Hp). lra. }
  assert (EQ : WSum t q I (dens t th) = WSum t q I (dens t (ts_prev_theta t))) by lra. 
  assert (NE : exists tr p, In tr (g_triangles (theta_grid (ts_grid t) (ts_refined t))) /\ In p (q_points q)).
  { destruct (fine t _ _ _ GG) as (s' & m & n & Hs & Hm & Hn & M). destruct (lmesh_of_mesh _ s' m n Hs Hm Hn M) as (CC & Ts & EE & LM). destruct GQ as (_ & NE & _). destruct (q_points q) as [|p ps]; [congruence|].
    exists (idx CC (c1 (low 0 0)), idx CC (c2 (low 0 0)), idx CC (c3 (low 0 0))), p. split; [|left; reflexivity]. rewrite (lm_t _ _ _ _ _ _ _ LM). apply in_map_iff. exists (low 0 0). split; [reflexivity|]. apply (lm_tin _ _ _ _ _ _ _ LM), low_in. unfold cbox. cbn. lia. }
  destruct NE as (tr & p & Ht & Hp). pose proof (W2 EQ tr p Ht Hp) as X. rewrite (DV th _ L CT tr p Ht Hp), (DV _ _ LT0 C tr p Ht Hp) in X. lra.
Qed.
Print Assumptions C84_equilibrium_refuted.

(** C82: deformations with orientation kept and lost. C86: a temperature that is not constant. *)
Example C82_example : forall reg, reg = None \/ reg = Some 1 ->
  (exists t q, therm_history t /\ thermal_problem lg0 t (1/2) 2 2 /\ (ts_refined t = None <-> reg = None) /\ therm_rule t = Ok q /\ stretched t 1 2 (3/10) /\ orientation_kept t q) /\
  (exists t theta, therm_history t /\ thermal_problem lg0 t (1/2) 2 2 /\ (ts_refined t = None <-> reg = None) /\ stretched t 1 0 (3/10) /\ temperatures_of t theta /\ ~ exists J, therm_objective lg0 t theta = Ok J).
Proof.
  intros reg Hr. split.
  - destruct (stretched_step reg Hr 1 2 (3/10) ltac:(lra)) as (t & TH & TP & RR & ST). destruct (therm_rule_good t) as (q & Eq & _). exists t, q. pose proof (st_kept t _ _ _ TP ST q Eq ltac:(lra) ltac:(lra)). auto 10.
  - destruct (stretched_step reg Hr 1 0 (3/10) ltac:(lra)) as (t & TH & TP & RR & ST). destruct (therm_rule_good t) as (q & Eq & GQ & PQ & _). exists t, (ts_prev_theta t). pose proof (tl_pt _ (sized_len t (proj1 TP))) as L. split; [exact TH|]. split; [exact TP|]. split; [exact RR|]. split; [exact ST|]. split; [exact L|].
    intros [J EJ]. pose proof (defined_kept lg0 t _ _ _ TP q Eq _ J L EJ) as [_ PJ]. pose proof (problem_good _ _ _ _ _ (proj1 (proj2 TP))) as GG.
    destruct (fine t _ _ _ GG) as (s' & m & n & Hs & Hm & Hn & M). destruct (lmesh_of_mesh _ s' m n Hs Hm Hn M) as (CC & Ts & EE & LM). destruct (q_points q) as [|p ps] eqn:EP; [destruct GQ as (_ & NE & _); congruence|].
    assert (Ht : In (idx CC (c1 (low 0 0)), idx CC (c2 (low 0 0)), idx CC (c3 (low 0 0))) (g_triangles (theta_grid (ts_grid t) (ts_refined t)))). { rewrite (lm_t _ _ _ _ _ _ _ LM). apply in_map_iff. exists (low 0 0). split; [reflexivity|]. apply (lm_tin _ _ _ _ _ _ _ LM), low_in. unfold cbox. cbn. lia. }
    assert (Hp : In p (q_points q)) by (rewrite EP; left; reflexivity). destruct (PJ _ p Ht Hp) as (A & EA & DA). destruct (st_strains t _ _ _ TP ST q Eq _ p Ht Hp) as [_ E1]. rewrite E1 in EA. assert (EF : A = PotentialSpec.st 0 0 0 0) by (apply mat_inj; congruence). subst A. unfold det2 in DA. cbn in DA. lra.
Qed.
Example C86_example : forall reg, reg = None \/ reg = Some 1 -> exists t q theta, therm_history t /\ thermal_problem lg0 t (1/2) 2 2 /\ (ts_refined t = None <-> reg = None) /\ therm_rule t = Ok q /\ orientation_kept t q /\
  moderate_martensite t q (2 * exp 1) /\ feasible t theta /\ temperatures_of t theta /\ ~ exists c, constant c theta.
Proof.
  intros reg Hr. destruct (stretched_step reg Hr 2 1 (3/10) ltac:(lra)) as (t & TH & TP & RR & ST). destruct (therm_rule_good t) as (q & Eq & _). 
  pose proof (sized_len t (proj1 TP)) as TL. pose proof (tl_pt _ TL) as L0. pose proof (tl_th _ TL) as L1. pose proof (problem_good _ _ _ _ _ (proj1 (proj2 TP))) as GG. 
  assert (N2 : (2 <= length (ts_prev_theta t))%nat).
  { destruct (fine t _ _ _ GG) as (s' & m & n & Hs & Hm & Hn & M). destruct (lmesh_of_mesh _ s' m n Hs Hm Hn M) as (CC & Ts & EE & LM). rewrite L0. unfold num_vertices. rewrite (lm_v _ _ _ _ _ _ _ LM). unfold range. rewrite seq_length.
    assert (LE : (length [(0, 0); (1, 0)]%Z <= length CC)%nat); [|exact LE]. apply NoDup_incl_length.
    - repeat constructor; cbn; intuition congruence.
    - intros x Hx. apply (lm_box _ _ _ _ _ _ _ LM). destruct Hx as [<- |[<- |[]]]; unfold box; cbn; lia. }
  destruct (ts_prev_theta t) as [|z0 [|z1 zs]] eqn:EZ; cbn [length] in N2; try lia. pose proof (st_kept t _ _ _ TP ST q Eq ltac:(lra) ltac:(lra)) as PJ. pose proof (st_moderate t _ _ _ TP ST q Eq eq_refl) as MM. destruct ST as (_ & _ & _ & _ & C & _ & _ & _ & VA). rewrite EZ in C, VA.
  exists t, q, (z0 + 1 :: z1 :: zs). split; [exact TH|]. split; [exact TP|]. split; [exact RR|]. split; [exact Eq|]. split; [exact PJ|]. split; [exact MM|]. split; [|split].
  - split; [rewrite VA, map_length; reflexivity|]. split.
    + intros z [<- |Hz]; [rewrite (C z0 (or_introl eq_refl)); lra|rewrite (C z (or_intror Hz)); lra].
    + intros [|i] v w V W; rewrite VA in V; cbn [map nth_error] in V, W; [injection V as <-; injection W as <-; cbn; lra|]. change (new_var 1 false z1 :: map (new_var 1 false) zs) with (map (new_var 1 false) (z1 :: zs)) in V. rewrite nth_error_map, W in V. injection V as <-. cbn. lra.
  - exact L0.
  - intros [c K]. pose proof (K (z0 + 1) (or_introl eq_refl)). pose proof (K z1 (or_intror (or_introl eq_refl))). pose proof (C z0 (or_introl eq_refl)). pose proof (C z1 (or_intror (or_introl eq_refl))). lra.
Qed.
(** C88: a body released from a stretch by the factor 2 (heat is produced) has exactly one next temperature. *)
Example C88_example : forall reg, reg = None \/ reg = Some 1 -> exists t q, therm_history t /\ thermal_problem lg0 t (1/2) 2 2 /\ (ts_refined t = None <-> reg = None) /\ therm_rule t = Ok q /\ orientation_kept t q /\
  moderate_martensite t q (2 * exp 1) /\ (exists theta, feasible t theta) /\ exists! theta, minimizes lg0 t theta.
Proof.
  intros reg Hr. destruct (C86_example reg Hr) as (t & q & th & TH & TP & RR & Eq & PJ & MM & FE & _). exists t, q. split; [exact TH|]. split; [exact TP|]. split; [exact RR|]. split; [exact Eq|]. split; [exact PJ|]. split; [exact MM|]. split; [eauto|].
  apply (C85_well_posed_partial lg0 t _ _ _ q TP Eq PJ MM). eauto.
Qed.
