(** * The mechanical step: existence of a solution (C94). *)
From Coq Require Import Reals Lra Lia List ZArith.
From Verif.Spec Require Import GridSpec QuadSpec BellSpec InterpSpec RefineSpec PotentialSpec.
From Verif.Model Require Import Py Num Tensors Domain Refine Quadrature Integrators Expr Bell Interp Helpers Steps Simulation.
From Verif.Spec Require Import SimSpec LiveSpec StepSpec EnergySpec MotionSpec TractionSpec ThermSpec MechSpec.
From Verif.Proofs Require Import Lib GridP InterpP PotP HatP QuadP IntegP StepP StepU StepE StepF StepG StepH SimP SimQ SimR SimH SimC SimL SimA SimF StepC StepD ThermV ThermP LipMin LipMore MechV MechP MechL.
From Verif.Props Require Import GridProps QuadProps IntegProps InterpProps RefineProps MeshIntegProps PotentialProps SimProps UpdateProps EnergyProps AffineProps TractionProps ThermProps.
Local Open Scope R_scope.
Import ListNotations.

Lemma below_square U u : 1 <= U -> U < u -> U <= u ^ 2.
Proof. intros. nra. Qed.
Lemma solution_exists : forall lg m h a b y1 y2 J, problem_grids (ms_grid m) (ms_refined m) h a b -> msized m -> (ms_refined m = None -> midpoint_rule lg) ->
  mech_feasible m y1 y2 -> mech_objective lg m y1 y2 = Ok J -> exists z1 z2, mech_minimizes lg m z1 z2.
Proof.
  intros lg m h a b y1 y2 J0 PG HM HL (FY1 & FY2 & FC) EJ. pose proof (problem_good _ _ _ _ _ PG) as GG. destruct (proj1 HM) as [_ _ ML1 ML2 _]. set (g := ms_grid m) in *. set (rg := ms_refined m) in *. set (tg := theta_grid g rg).
  destruct (energy_rule_good g rg) as (qe & Ee & Ge & Pe). destruct (dissipation_rule_mass rg) as (qd & Ed & Gd & _). destruct (grid_integrator g rg h a b GG qe) as [Ie EIe]. destruct (grid_integrator g rg h a b GG qd) as [Id EId].
  set (b1 := map span (ms_y1 m)). set (b2 := map span (ms_y2 m)). assert (LB1 : length b1 = (length (g_vertices g) * dofs rg)%nat) by (unfold b1; rewrite map_length; exact ML1). assert (LB2 : length b2 = (length (g_vertices g) * dofs rg)%nat) by (unfold b2; rewrite map_length; exact ML2).
  set (Y1 := fun x : list R => firstn (length b1) x). set (Y2 := fun x : list R => skipn (length b1) x). set (x0 := y1 ++ y2).
  apply admits_box in FY1, FY2. fold b1 in FY1. fold b2 in FY2. assert (LY1 : length y1 = length b1) by exact (inbox_length _ _ FY1).
  assert (P0 : Y1 x0 = y1 /\ Y2 x0 = y2). { unfold Y1, Y2, x0. rewrite <- LY1. rewrite firstn_app, skipn_app, Nat.sub_diag, firstn_all, skipn_all. cbn. rewrite app_nil_r. split; reflexivity. }
  assert (H0 : inbox (b1 ++ b2) x0) by (apply inbox_app; unfold Y1, Y2 in P0; rewrite (proj1 P0), (proj2 P0); split; assumption).
  assert (HV : forall x, inbox (b1 ++ b2) x -> length (Y1 x) = (length (g_vertices g) * dofs rg)%nat /\ length (Y2 x) = (length (g_vertices g) * dofs rg)%nat) by (intros x Hx; exact (halves m b1 b2 LB1 LB2 x Hx)).
  set (F := fun x t p => strain_at g rg (Y1 x) (Y2 x) t p).
  set (val := fun x => WS g rg qe Ie (elastic_at m (Y1 x) (Y2 x)) + rest m h qe qd Ie Id (Y1 x) (Y2 x)).
  assert (VAL : forall x J, inbox (b1 ++ b2) x -> mech_objective lg m (Y1 x) (Y2 x) = Ok J -> (forall t p, In t (g_triangles tg) -> In p (q_points qe) -> 0 < det2 (F x t p)) /\ J = val x).
  { intros x J Hx EX. destruct (HV x Hx) as [L1 L2]. pose proof (defined_positive lg m h a b PG HM qe Ee Ge Ie EIe (Y1 x) (Y2 x) L1 L2 J EX) as PJ. split; [apply (positive_iff m h a b PG qe Ge (Y1 x) (Y2 x) L1 L2), PJ|].
    rewrite (mech_value lg m h a b PG HM HL qe qd Ee Ed Ge Gd Ie Id EIe EId (Y1 x) (Y2 x) L1 L2 PJ) in EX. injection EX as <-. reflexivity. }
  assert (VAL' : forall x, inbox (b1 ++ b2) x -> (forall t p, In t (g_triangles tg) -> In p (q_points qe) -> 0 < det2 (F x t p)) -> mech_objective lg m (Y1 x) (Y2 x) = Ok (val x)).
  { intros x Hx PX. destruct (HV x Hx) as [L1 L2]. apply (mech_value lg m h a b PG HM HL qe qd Ee Ed Ge Gd Ie Id EIe EId (Y1 x) (Y2 x) L1 L2). apply (positive_iff m h a b PG qe Ge (Y1 x) (Y2 x) L1 L2), PX. }
  destruct (VAL x0 J0 H0) as [PX0 EV0]; [rewrite (proj1 P0), (proj2 P0); exact EJ|].
  destruct (energy_barrier m h a b GG b1 b2 LB1 LB2 x0 H0 qe qd Ge Gd Ie Id Pe EIe) as (k & B & KP & BAR). fold tg in BAR.
  set (points := list_prod (g_triangles tg) (q_points qe)).
  destruct (weight_floor (map (fun tp => det2 (F x0 (fst tp) (snd tp))) points)) as (d0 & D0 & HD0).
  { intros w Hw. apply in_map_iff in Hw as ([t p] & <- & Htp). apply in_prod_iff in Htp as [Ht Hp]. exact (PX0 t p Ht Hp). }
  set (U := Rmax 1 ((Rabs (J0 + B) + 1) / k)). assert (U1 : 1 <= U) by apply Rmax_l. assert (U2 : (Rabs (J0 + B) + 1) / k <= U) by apply Rmax_r. set (c := Rmin d0 (/ U)).
  assert (UP : 0 < / U) by (apply Rinv_0_lt_compat; lra). assert (C0 : 0 < c) by (apply Rmin_glb_lt; assumption).
  (* a determinant below [c] is worse than the starting point *)
  assert (BAD : forall x t p, inbox (b1 ++ b2) x -> (forall t p, In t (g_triangles tg) -> In p (q_points qe) -> 0 < det2 (F x t p)) -> In t (g_triangles tg) -> In p (q_points qe) -> det2 (F x t p) < c -> J0 < val x).
  { intros x t p Hx PX Ht Hp LT. pose proof (BAR x t p Hx PX Ht Hp) as Q. change (k * (/ det2 (F x t p)) ^ 2 - B <= val x) in Q. pose proof (PX t p Ht Hp) as DP. assert (LU : det2 (F x t p) < / U) by (apply Rlt_le_trans with c; [exact LT|apply Rmin_r]).
    assert (UD : U < / det2 (F x t p)) by (rewrite <- (Rinv_inv U); apply Rinv_lt_contravar; [apply Rmult_lt_0_compat; assumption|exact LU]). set (u := / det2 (F x t p)) in *.
    assert (U3 : Rabs (J0 + B) + 1 <= k * U) by (apply (Rmult_le_reg_r (/ k)); [apply Rinv_0_lt_compat, KP|]; replace (k * U * / k) with U by (field; lra); exact U2).
    assert (U4 : k * U <= k * u ^ 2) by (apply Rmult_le_compat_l; [lra|exact (below_square U u U1 UD)]). pose proof (Rle_abs (J0 + B)). lra. }
  set (pen := fun x => penalty m (Y1 x) (Y2 x) + sum_over (fun tp => Rmax 0 (c - det2 (F x (fst tp) (snd tp)))) points).
  set (obj := fun x => WS g rg qe Ie (cut_off m c (Y1 x) (Y2 x)) + rest m h qe qd Ie Id (Y1 x) (Y2 x)).
  assert (SAME : forall x, inbox (b1 ++ b2) x -> (forall t p, In t (g_triangles tg) -> In p (q_points qe) -> c <= det2 (F x t p)) -> obj x = val x).
  { intros x Hx GE. unfold obj, val. f_equal. apply WS_ext. intros t p Ht Hp. unfold cut_off, elastic_at. fold g rg. rewrite Rmax_right; [reflexivity|]. exact (GE t p Ht Hp). }
  assert (MP : forall x, (forall tp, In tp points -> 0 <= Rmax 0 (c - det2 (F x (fst tp) (snd tp))))) by (intros; apply Rmax_l).
  assert (PEN : forall x, pen x = 0 <-> (rg <> None -> dirichlet_constraints_hold m (Y1 x) (Y2 x)) /\ forall t p, In t (g_triangles tg) -> In p (q_points qe) -> c <= det2 (F x t p)).
  { intros x. pose proof (penalty_nonneg m (Y1 x) (Y2 x)) as A. pose proof (sum_nonneg _ points (MP x)) as B'. pose proof (sum_zero _ points (MP x)) as Z. split.
    - intros E. unfold pen in E. split; [apply penalty_zero; lra|]. intros t p Ht Hp. assert (E' : sum_over (fun tp => Rmax 0 (c - det2 (F x (fst tp) (snd tp)))) points = 0) by lra. pose proof (proj1 Z E' (t, p) (in_prod _ _ t p Ht Hp)) as Q. cbn [fst snd] in Q. pose proof (Rmax_r 0 (c - det2 (F x t p))). lra.
    - intros [E1 E2]. unfold pen. rewrite (proj2 (penalty_zero m (Y1 x) (Y2 x)) E1), (proj2 Z); [ring|]. intros [t p] Htp. apply in_prod_iff in Htp as [Ht Hp]. cbn [fst snd]. apply Rmax_left. specialize (E2 t p Ht Hp). lra. }
  destruct (lip_min_on (b1 ++ b2) x0 H0 obj pen) as (x & Hx & Px & Mx).
  - apply lips_plus; [|exact (rest_lips m h a b GG b1 b2 LB1 LB2 x0 H0 qe qd Ge Gd Ie Id)]. apply (WS_lips m b1 b2 qe Ie (fun x => cut_off m c (Y1 x) (Y2 x)) Ge). intros t p Ht Hp. exact (cut_off_lips m h a b GG b1 b2 LB1 LB2 x0 H0 c t p C0 Ht Hp).
  - apply lips_plus; [apply penalty_lips|]. apply (lips_sumo _ _ (fun x tp => Rmax 0 (c - det2 (F x (fst tp) (snd tp))))). intros [t p] Htp. apply in_prod_iff in Htp as [Ht Hp]. cbn [fst snd]. apply lips_max, lips_minus; [apply lips_const|]. exact (proj2 (invariants_lips m h a b GG b1 b2 LB1 LB2 x0 H0 t p Ht (proj2 (proj2 Ge) p Hp))).
  - intros x _. unfold pen. pose proof (penalty_nonneg m (Y1 x) (Y2 x)). pose proof (sum_nonneg _ points (MP x)). lra.
  - apply PEN. split; [rewrite (proj1 P0), (proj2 P0); exact FC|]. intros t p Ht Hp. apply Rle_trans with d0; [apply Rmin_l|]. apply HD0, in_map_iff. exists (t, p). split; [reflexivity|apply in_prod; assumption].
  - apply PEN in Px as [CX DX]. assert (PX : forall t p, In t (g_triangles tg) -> In p (q_points qe) -> 0 < det2 (F x t p)) by (intros t p Ht Hp; specialize (DX t p Ht Hp); lra).
    exists (Y1 x), (Y2 x). pose proof Hx as HX. apply inbox_app in HX as [HX1 HX2]. split; [split; [apply admits_box; exact HX1|]; split; [apply admits_box; exact HX2|exact CX]|].
    exists (val x). split; [apply VAL'; assumption|]. intros z1 z2 J' (FZ1 & FZ2 & CZ) EZ. apply admits_box in FZ1, FZ2. fold b1 in FZ1. fold b2 in FZ2. set (z := z1 ++ z2). assert (LZ1 : length z1 = length b1) by exact (inbox_length _ _ FZ1).
    assert (PZ : Y1 z = z1 /\ Y2 z = z2). { unfold Y1, Y2, z. rewrite <- LZ1. rewrite firstn_app, skipn_app, Nat.sub_diag, firstn_all, skipn_all. cbn. rewrite app_nil_r. split; reflexivity. }
    assert (HZ : inbox (b1 ++ b2) z) by (apply inbox_app; unfold Y1, Y2 in PZ; rewrite (proj1 PZ), (proj2 PZ); split; assumption).
    destruct (VAL z J' HZ) as [DZ EV]; [rewrite (proj1 PZ), (proj2 PZ); exact EZ|]. subst J'.
    assert (X0 : val x <= J0). { rewrite <- (SAME x Hx DX), EV0. rewrite <- (SAME x0 H0); [apply Mx; [exact H0|]; apply PEN; split; [rewrite (proj1 P0), (proj2 P0); exact FC|]|]; intros t p Ht Hp; (apply Rle_trans with d0; [apply Rmin_l|]; apply HD0, in_map_iff; exists (t, p); split; [reflexivity|apply in_prod; assumption]). }
    destruct (Classical_Prop.classic (forall t p, In t (g_triangles tg) -> In p (q_points qe) -> c <= det2 (F z t p))) as [GE|NG].
    + rewrite <- (SAME x Hx DX), <- (SAME z HZ GE). apply Mx; [exact HZ|]. apply PEN. split; [rewrite (proj1 PZ), (proj2 PZ); exact CZ|exact GE].
    + apply Classical_Pred_Type.not_all_ex_not in NG as [t NG]. apply Classical_Pred_Type.not_all_ex_not in NG as [p NG]. assert (Ht : In t (g_triangles tg)) by (apply Classical_Prop.NNPP; intros N; apply NG; intros H; contradiction). assert (Hp : In p (q_points qe)) by (apply Classical_Prop.NNPP; intros N; apply NG; intros _ H; contradiction).
      assert (LT : det2 (F z t p) < c) by (apply Rnot_le_lt; intros L; apply NG; intros _ _; exact L). pose proof (BAD z t p HZ DZ Ht Hp LT). lra.
Qed.
(** ** C94 *)
(** If some admissible deformation has a defined objective, some admissible deformation has the smallest one. *)
Theorem C94_solution_exists : forall lg m h a b y1 y2 J, problem_grids (ms_grid m) (ms_refined m) h a b -> mech_history m -> (ms_refined m = None -> midpoint_rule lg) ->
  mech_feasible m y1 y2 -> mech_objective lg m y1 y2 = Ok J -> exists z1 z2, mech_minimizes lg m z1 z2.
Proof. intros lg m h a b y1 y2 J PG HM. exact (solution_exists lg m h a b y1 y2 J PG (mech_history_sized m HM)). Qed.
Print Assumptions C94_solution_exists.

(** ** In simulations *)
Section Sim.
Context (u : setting) (lg : Z -> res (list R * list R)) (HL : p_regularization (se_params u) = None -> midpoint_rule lg).
Context (FE : fine_enough u) (Hw1 : p_scale (se_params u) <= se_width u) (Hh1 : p_scale (se_params u) <= se_height u).
Lemma posed_shape g rg ps m : minv (se_params u) g rg (se_traction u) (ifx g rg) (iref1 rg ps) (iref2 rg ps) m -> msized m.
Proof. intros IM. pose proof (mi_grid _ _ _ _ _ _ _ _ IM) as Em. pose proof (mi_ref _ _ _ _ _ _ _ _ IM) as PL. split; [split; rewrite ?Em, ?PL; apply IM|]. rewrite PL, Em. exact (mi_g _ _ _ _ _ _ _ _ IM). Qed.
(** All recorded deformations satisfy the constraints along the Dirichlet edges. *)
Definition all_constrained (s : sim) : Prop := exists g rg ps, ground u g rg ps /\ hist u g rg ps s /\ forall st, In st (s_steps s) -> exists a1 a2 th, holds g rg st a1 a2 th /\ length a1 = (num_vertices g * dofs rg)%nat /\ length a2 = (num_vertices g * dofs rg)%nat /\
  (rg <> None -> forall m, ms_grid m = g -> dirichlet_constraints_hold m a1 a2).
Lemma recorded_constraints s : (p_regularization (se_params u) <> None -> respects_constraints (se_solver u)) -> reachable u s -> all_constrained s.
Proof.
  intros RC H. set (P := fun (g : grid R) (rg : option (refined_grid R)) (y1 y2 : list R) => rg <> None -> forall m, ms_grid m = g -> dirichlet_constraints_hold m y1 y2).
  assert (GE : forall g rg ps, ground u g rg ps -> good_edges g).
  { intros g rg ps G. pose proof (gr_valid _ _ _ _ G) as V. pose proof (params_ok u V) as (_ & _ & _ & PS & _). destruct V as [Hw [Hh _]].
    destruct (fits_exists _ _ Hw PS) as [mc Hmc]. destruct (fits_exists _ _ Hh PS) as [nc Hnc]. exact (rect_good_edges _ _ _ _ _ _ _ _ PS Hmc Hnc (fits_one _ _ _ PS Hw1 Hmc) (fits_one _ _ _ PS Hh1 Hnc) (gr_grid _ _ _ _ G)). }
  assert (INIT : forall g rg ps, ground u g rg ps -> P g rg (iref1 rg ps) (iref2 rg ps)).
  { intros g rg ps G NR m Em. destruct rg as [r|]; [|congruence]. subst g. apply reference_feasible; [exact (gr_points _ _ _ _ G)|exact (gr_len _ _ _ _ G)|exact (GE _ _ _ G)]. }
  assert (KEEP : forall g rg ps m c a1 a2 th time, ground u g rg ps -> posed_m u g rg (ifx g rg) (iref1 rg ps) (iref2 rg ps) m a1 a2 th time -> P g rg a1 a2 -> P g rg (map v_val (ms_y1 (m_loaded u c m))) (map v_val (ms_y2 (m_loaded u c m)))).
  { intros g rg ps m c a1 a2 th time G PM HP NR m' Em. pose proof (pm_inv _ _ _ _ _ _ _ _ _ _ _ PM) as IM. apply (constraints_grid m); [rewrite Em; apply IM|].
    assert (PR : p_regularization (se_params u) <> None) by (destruct (gr_ref _ _ _ _ G) as [[_ Z]|(e & k' & r & Z & _ & _ & _)]; [congruence|rewrite Z; discriminate]).
    apply (RC PR c m); [rewrite (mi_ref _ _ _ _ _ _ _ _ IM); exact NR|]. rewrite (pm_v1 _ _ _ _ _ _ _ _ _ _ _ PM), (pm_v2 _ _ _ _ _ _ _ _ _ _ _ PM). apply (HP NR). apply IM. }
  destruct (reachable_y u P INIT KEEP s H) as (g & rg & ps & G & [HH NOW ST]). exists g, rg, ps. auto.
Qed.
Lemma box_admits r xs : 0 <= r -> forall vs, map v_val xs = vs -> map v_lb xs = map (fun w => w - r) vs -> map v_ub xs = map (fun w => w + r) vs -> Forall2 admits xs vs.
Proof.
  intros Hr. induction xs as [|x xs IH]; intros vs <- B1 B2; cbn in *; constructor.
  - injection B1 as B1 _. injection B2 as B2 _. unfold admits. destruct (v_fixed x); [reflexivity|]. lra.
  - injection B1 as _ B1. injection B2 as _ B2. apply IH; auto.
Qed.
Lemma sim_mechanical s k a b : all_admissible u s -> all_constrained s -> undisturbed u s -> nth_error (s_steps s) k = Some a -> nth_error (s_steps s) (S k) = Some b -> exists m mc nc J,
  mech_problem_from u s a (INR k / p_fps (se_params u)) m /\ st_y_data b = mech_y (fst (mech_solve (sv_mech (se_solver u) (2 * k) m) m)) /\
  problem_grids (ms_grid m) (ms_refined m) (p_scale (se_params u)) mc nc /\ msized m /\ (ms_refined m = None -> midpoint_rule lg) /\
  map v_val (ms_y1 m) = ms_prev_y1 m /\ map v_val (ms_y2 m) = ms_prev_y2 m /\
  mech_feasible m (ms_prev_y1 m) (ms_prev_y2 m) /\ mech_objective lg m (ms_prev_y1 m) (ms_prev_y2 m) = Ok J.
Proof.
  intros SA SC H Ha Hb. destruct (undisturbed_chain u s H) as (g & rg & ps & G & CH). pose proof (ch_hist _ _ _ _ _ CH) as HH.
  destruct (ch_links _ _ _ _ _ CH k a b Ha Hb) as (a1 & a2 & th & m & t & HO & PM & PT & HB). cbv zeta in *.
  assert (TM : INR k * s_tau s = INR k / p_fps (se_params u)).
  { pose proof (si_tau _ _ _ _ _ _ _ (hi_inv _ _ _ _ _ HH)) as T. destruct (Req_dec (p_fps (se_params u)) 0) as [Z|Z].
    - rewrite Z in T. rewrite ndiv_R0 in T. discriminate.
    - rewrite ndiv_R in T by exact Z. injection T as <-. field. exact Z. }
  rewrite TM in PM. pose proof (pm_inv _ _ _ _ _ _ _ _ _ _ _ PM) as IM. assert (I2 : minv (se_params u) g rg (se_traction u) (ifx g rg) (iref1 rg ps) (iref2 rg ps) (m_loaded u (2 * k) m)) by (apply m_solve_inv, IM).
  destruct (ground_problem u FE Hw1 Hh1 g rg ps G) as (mc & nc & PG). pose proof (mi_grid _ _ _ _ _ _ _ _ IM) as Em. pose proof (mi_ref _ _ _ _ _ _ _ _ IM) as Er.
  assert (HL' : p_regularization (se_params u) = None -> exists pts ws, lg 1%Z = Ok (pts, ws)) by (intros P; exists [0], [2]; exact (HL P)).
  destruct SA as (g' & rg' & ps' & G' & _ & ST). destruct (ground_unique _ _ _ _ _ _ _ G G') as (Q1 & Q2 & Q3). subst g' rg' ps'.
  destruct SC as (g' & rg' & ps' & G'' & _ & SC). destruct (ground_unique _ _ _ _ _ _ _ G G'') as (Q1 & Q2 & Q3). subst g' rg' ps'.
  assert (LA : length a1 = (num_vertices g * dofs rg)%nat /\ length a2 = (num_vertices g * dofs rg)%nat) by (rewrite <- (pm_p1 _ _ _ _ _ _ _ _ _ _ _ PM), <- (pm_p2 _ _ _ _ _ _ _ _ _ _ _ PM); split; apply IM). destruct LA as [LA1 LA2]. destruct (holds_comp g rg _ _ _ _ HO LA1 LA2) as (A1 & A2 & _).
  destruct (ST a (nth_error_In _ _ Ha)) as (b1 & b2 & th' & HO' & L1 & L2 & AD). destruct (holds_comp g rg _ _ _ _ HO' L1 L2) as (B1 & B2 & _). assert (b1 = a1) as -> by congruence. assert (b2 = a2) as -> by congruence. clear B1 B2 L1 L2.
  destruct (SC a (nth_error_In _ _ Ha)) as (b1 & b2 & th'' & HO'' & L1 & L2 & CC). destruct (holds_comp g rg _ _ _ _ HO'' L1 L2) as (B1 & B2 & _). assert (b1 = a1) as -> by congruence. assert (b2 = a2) as -> by congruence. clear B1 B2 L1 L2.
  destruct (proj2 (posed_objective u lg HL' FE Hw1 Hh1 g rg ps m G IM a1 a2 LA1 LA2) AD) as [J EJ]. exists m, mc, nc, J.
  split; [exact (posed_problem u g rg ps s a m a1 a2 th _ HH HO PM)|]. split; [destruct (mech_getters u g rg _ _ _ _ I2) as [_ [Gy2 _]]; unfold m_loaded in Gy2 at 1; rewrite Gy2; exact (ho_y _ _ _ _ _ _ HB)|].
  split; [rewrite Em, Er; exact PG|]. split; [exact (posed_shape g rg ps m IM)|]. split; [intros Z; apply HL; rewrite Er in Z; destruct (gr_ref _ _ _ _ G) as [[P _]|(e & k' & r & _ & _ & _ & P)]; [exact P|congruence]|].
  rewrite (pm_p1 _ _ _ _ _ _ _ _ _ _ _ PM), (pm_p2 _ _ _ _ _ _ _ _ _ _ _ PM). split; [apply PM|]. split; [apply PM|]. split; [|exact EJ].
  destruct (params_ok u (gr_valid _ _ _ _ G)) as (_ & RP & _). split; [apply (box_admits (p_search_radius (se_params u))); [lra|apply PM|apply PM|apply PM]|]. split; [apply (box_admits (p_search_radius (se_params u))); [lra|apply PM|apply PM|apply PM]|].
  rewrite Er. intros NR. apply (CC NR). exact Em.
Qed.
End Sim.
(** The mechanical problem posed by every recorded step of an undisturbed simulation has a solution. *)
Theorem C94_simulation : forall u lg s k a b, undisturbed u s -> cautious lg (se_solver u) -> (p_regularization (se_params u) = None -> midpoint_rule lg) -> (p_regularization (se_params u) <> None -> respects_constraints (se_solver u)) -> fine_enough u ->
  p_scale (se_params u) <= se_width u -> p_scale (se_params u) <= se_height u -> nth_error (s_steps s) k = Some a -> nth_error (s_steps s) (S k) = Some b ->
  exists m z1 z2, mech_problem_from u s a (INR k / p_fps (se_params u)) m /\ mech_y (fst (mech_solve (sv_mech (se_solver u) (2 * k) m) m)) = st_y_data b /\ mech_minimizes lg m z1 z2.
Proof.
  intros u lg s k a b H CA HL RC FE Hw Hh Ha Hb. destruct (sim_mechanical u lg HL FE Hw Hh s k a b (steps_admissible u lg (fun P => ex_intro _ [0] (ex_intro _ [2] (HL P))) CA FE Hw Hh s (undisturbed_reachable u s H)) (recorded_constraints u Hw Hh s RC (undisturbed_reachable u s H)) H Ha Hb) as (m & mc & nc & J & MP & MY & PG & MS & ML & _ & _ & MF & MO).
  destruct (solution_exists lg m _ _ _ _ _ J PG MS ML MF MO) as (z1 & z2 & MM). exists m, z1, z2. auto.
Qed.
Print Assumptions C94_simulation.
