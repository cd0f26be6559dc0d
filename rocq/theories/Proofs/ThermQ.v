(** * Value, gap and derivative of the thermal objective. *)
From Coq Require Import Reals Lra Lia List ZArith.
From Coquelicot Require Import Coquelicot.
From Verif.Spec Require Import GridSpec QuadSpec BellSpec InterpSpec RefineSpec PotentialSpec.
From Verif.Model Require Import Py Num Tensors Domain Refine Quadrature Integrators Expr Bell Interp Helpers Steps.
From Verif.Spec Require Import StepSpec EnergySpec MotionSpec TractionSpec ThermSpec.
From Verif.Proofs Require Import Lib InterpP PotP Lattice MeshLat MeshP StepP StepD SimP HatP QuadP IntegP StepU StepE StepF StepG StepH ThermV ThermP.
From Verif.Props Require Import GridProps QuadProps IntegProps InterpProps RefineProps MeshIntegProps PotentialProps AffineProps.
Local Open Scope R_scope.
Import ListNotations.

Lemma sum_comb {A} (f k : A -> R) al be l : sum_over (fun e => al * f e + be * k e) l = al * sum_over f l + be * sum_over k l.
Proof. induction l as [|x l IH]; cbn [sum_over]; [ring|]. rewrite IH. ring. Qed.
Lemma sum_ext {A} (f k : A -> R) l : (forall e, In e l -> f e = k e) -> sum_over f l = sum_over k l.
Proof. induction l as [|x l IH]; intros H; [reflexivity|]. cbn [sum_over]. rewrite IH, (H x (or_introl eq_refl)) by (intros; apply H; right; assumption). reflexivity. Qed.
Lemma sum_le {A} (f k : A -> R) l : (forall e, In e l -> f e <= k e) -> sum_over f l <= sum_over k l.
Proof. induction l as [|x l IH]; intros H; cbn [sum_over]; [lra|]. pose proof (IH (fun e He => H e (or_intror He))). pose proof (H x (or_introl eq_refl)). lra. Qed.

(** ** One-point Gauss rule on the boundary *)
Lemma boundary_sum so w h f s a b g lg X F : 0 < s -> fits w s a -> fits h s b -> domain_grid so w h f s = Ok g -> midpoint_rule lg ->
  (forall e, In e (b_edges (g_boundary g)) -> X e (1 / 2) = Ok (F e)) ->
  (let* I := BoundaryIntegrator_ lg 1 (b_edges (g_boundary g)) (g_points g) in boundary_integrate I X) = Ok (s * sum_over F (b_edges (g_boundary g))).
Proof.
  intros Hs Ha Hb Eg LG HX.
  assert (LEN : forall e, In e (b_edges (g_boundary g)) -> edge_length (g_points g) e = Ok s).
  { intros e He. apply (proj2 (proj2 (C16_boundary_is_outline _ _ _ _ _ _ _ _ Hs Ha Hb Eg))) in He as (d & i & j & i' & j' & [_ P] & [_ Q] & _ & _ & N).
    rewrite (edge_length_dist _ e (INR i * s, INR j * s) (INR i' * s, INR j' * s)) by (split; assumption). apply (f_equal Ok). unfold dist. cbn [fst snd]. rewrite <- (sqrt_square s) by lra. f_equal. destruct N as [[-> ->]|[-> ->]]; rewrite plus_INR; cbn [INR]; rewrite !sqrt_square by lra; ring. }
  assert (GR : GaussQuadratureRule_ lg 1 = Ok ([(1 + 0) / 2], [2 / 2])).
  { unfold GaussQuadratureRule_. rewrite LG. cbn [bind mapM]. change (@n1 R RNum) with 1. change (@nofZ R RNum) with IZR. rewrite !ndiv_R by lra. reflexivity. }
  unfold BoundaryIntegrator_. rewrite GR. cbn [bind].
  assert (LENS : mapM (edge_length (g_points g)) (b_edges (g_boundary g)) = Ok (repeat s (length (b_edges (g_boundary g))))).
  { clear - LEN. induction (b_edges (g_boundary g)) as [|e es IH]; [reflexivity|]. cbn [mapM length repeat]. rewrite (LEN e (or_introl eq_refl)), IH by (intros; apply LEN; right; assumption). reflexivity. }
  rewrite LENS. cbn [bind]. unfold boundary_integrate. cbn [bi_points bi_weights bi_lengths bi_edges].
  match goal with |- context [mapM ?G _] => set (GG := G) end.
  assert (ONE : forall e, In e (b_edges (g_boundary g)) -> GG (s, e) = Ok (s * F e)).
  { intros e He. unfold GG, quad_sum, zip. cbn [combine mapM]. replace ((1 + 0) / 2) with (1 / 2) by field. rewrite (HX e He). cbn [bind]. apply (f_equal Ok). rewrite !nsum_Rsum. cbn. field. }
  assert (MM : mapM GG (zip (repeat s (length (b_edges (g_boundary g)))) (b_edges (g_boundary g))) = Ok (map (fun e => s * F e) (b_edges (g_boundary g)))).
  { clearbody GG. clear - ONE. induction (b_edges (g_boundary g)) as [|e es IH]; [reflexivity|]. cbn [length repeat]. unfold zip in *. cbn [combine mapM map]. rewrite IH by (intros; apply ONE; right; assumption). rewrite (ONE e (or_introl eq_refl)). reflexivity. }
  rewrite MM. cbn [bind]. apply (f_equal Ok). rewrite nsum_Rsum. clear. induction (b_edges (g_boundary g)) as [|e es IH]; cbn in *; [ring|]. rewrite IH. ring.
Qed.

Lemma ws_derive {A} (ps : list A) ws (f : R -> A -> R) f' x0 : (forall p, In p ps -> is_derive (fun x => f x p) x0 (f' p)) -> is_derive (fun x => weighted_sum ps ws (f x)) x0 (weighted_sum ps ws f').
Proof.
  revert ws. induction ps as [|p ps IH]; intros [|w ws] H; try (apply (is_derive_const (K := R_AbsRing) (V := R_NormedModule) 0)). cbn [weighted_sum].
  apply (is_derive_plus (K := R_AbsRing) (V := R_NormedModule) (fun x => w * f x p)); [|apply IH; intros; apply H; right; assumption].
  apply (is_derive_scal (fun x => f x p) x0 w), H. left. reflexivity.
Qed.
Lemma sum_derive {A} (ps : list A) (f : R -> A -> R) f' x0 : (forall p, In p ps -> is_derive (fun x => f x p) x0 (f' p)) -> is_derive (fun x => sum_over (f x) ps) x0 (sum_over f' ps).
Proof.
  induction ps as [|p ps IH]; intros H; [apply (is_derive_const (K := R_AbsRing) (V := R_NormedModule) 0)|]. cbn [sum_over].
  apply (is_derive_plus (K := R_AbsRing) (V := R_NormedModule) (fun x => f x p)); [|apply IH; intros; apply H; right; assumption]. apply H. left. reflexivity.
Qed.

Section T.
Context (lg : Z -> res (list R * list R)) (s : therm) (h : R) (a b : nat) (PG : problem_grids (ts_grid s) (ts_refined s) h a b) (TL : tlen s).
Context (LG : ts_refined s = None -> midpoint_rule lg).
Let GG : good_grids (ts_grid s) (ts_refined s) h a b := problem_good _ _ _ _ _ PG.
Let g := ts_grid s. Let rg := ts_refined s. Let tg := theta_grid g rg. Let NV := length (g_vertices tg).
Context (q : rule R) (Eq : therm_rule s = Ok q) (GQ : good_rule q) (PQ : pos_rule q).
Context (PJ : orientation_kept s q).
Let F0 := sat s (ts_prev_y1 s) (ts_prev_y2 s). Let F := sat s (ts_y1 s) (ts_y2 s). Let t0 := vat (ts_prev_theta s).

Lemma dets t p : In t (g_triangles tg) -> In p (q_points q) -> 0 < det2 (F0 t p) /\ 0 < det2 (F t p).
Proof.
  intros Ht Hp. destruct TL as [P1 P2 Y1 Y2 _ _]. destruct PJ as [J0 J1]. destruct (J0 t p Ht Hp) as (A & EA & DA). destruct (J1 t p Ht Hp) as (B & EB & DB).
  rewrite (sat_ok s h a b GG q GQ _ _ t p P1 P2 Ht Hp) in EA. rewrite (sat_ok s h a b GG q GQ _ _ t p Y1 Y2 Ht Hp) in EB. injection EA as EA. injection EB as EB.
  assert (F0 t p = A) as -> by (apply mat_inj; unfold mat, F0; congruence). assert (F t p = B) as -> by (apply mat_inj; unfold mat, F; congruence). auto.
Qed.
Definition bd (th : list R) : R := match ts_refined s with Some _ => 0 | None => h * sum_over (fun e => 1 / 4 * (mean_of_ends (at_vertex th) e - ts_ext s) ^ 2) (b_edges (g_boundary (ts_grid s))) end.
Definition bform (th et : list R) : R := match ts_refined s with Some _ => 0 | None => h * sum_over (fun e => 1 / 2 * (mean_of_ends (at_vertex th) e - ts_ext s) * mean_of_ends (at_vertex et) e) (b_edges (g_boundary (ts_grid s))) end.
Definition form (k : R) (th et : list R) (t : triangle) (p : bary R) : R :=
  k * qf (Kref (F0 t p)) (fst (gat s th t p)) (snd (gat s th t p)) (fst (gat s et t p)) (snd (gat s et t p))
  + (ts_fps s * (U (F t p) (vat th t p) - U (F0 t p) (t0 t p)) - source (ts_fps s) (F0 t p) (F t p) (t0 t p)) * vat et t p.
Lemma boundary_ends e : ts_refined s = None -> In e (b_edges (g_boundary g)) -> (fst e < NV)%nat /\ (snd e < NV)%nat.
Proof.
  intros Hr He. pose proof PG as (Hs & A1 & B1 & (so & w & hh & f & Fw & Fh & Eg) & _). destruct (C11_vertices_numbered _ _ _ _ _ _ _ _ Hs Fw Fh Eg) as [VN _].
  apply (proj2 (proj2 (C16_boundary_is_outline _ _ _ _ _ _ _ _ Hs Fw Fh Eg))) in He as (d & i & j & i' & j' & [P _] & [Q _] & _). unfold NV, tg, rg. rewrite Hr. cbn [theta_grid]. fold g in VN, P, Q. rewrite VN in P, Q |- *. rewrite seq_length. apply in_seq in P, Q. lia.
Qed.
Lemma on_edge th e : ts_refined s = None -> length th = NV -> In e (b_edges (g_boundary g)) -> i_on_edge (P1I g th) e (1 / 2) = Ok (mean_of_ends (at_vertex th) e).
Proof.
  intros Hr L He. destruct (boundary_ends e Hr He) as [U1 U2]. rewrite <- L in U1, U2. cbn [i_on_edge]. rewrite (nth_py _ _ _ (nth_error_nth' th 0 U1)), (nth_py _ _ _ (nth_error_nth' th 0 U2)). cbn [bind]. apply (f_equal Ok). unfold mean_of_ends, at_vertex. cbn. field.
Qed.
Lemma bd_value th : length th = NV -> therm_boundary lg s th = Ok (bd th).
Proof.
  intros L. unfold therm_boundary, bd. destruct (opt_case (ts_refined s)) as [[r Hr]|Hr]; rewrite !Hr; [reflexivity|]. pose proof PG as (Hs & A1 & B1 & (so & w & hh & f & Fw & Fh & Eg) & _).
  apply (boundary_sum so w hh f h a b (ts_grid s) lg _ (fun e => 1 / 4 * (mean_of_ends (at_vertex th) e - ts_ext s) ^ 2) Hs Fw Fh Eg (LG Hr)). intros e He. fold g. rewrite (on_edge th e Hr L He). cbn [bind]. apply (f_equal Ok). unfold boundary_potential, HEAT_TRANSFER_COEFFICIENT. field.
Qed.
Lemma energy_dens th t p : length th = NV -> In t (g_triangles tg) -> In p (q_points q) ->
  (let* F0 := deform_strain (comp_interp g rg (ts_prev_y1 s)) (comp_interp g rg (ts_prev_y2 s)) t p in
    let* F := deform_strain (comp_interp g rg (ts_y1 s)) (comp_interp g rg (ts_y2 s)) t p in
    let* th0 := i_call (temp_interp g rg (ts_prev_theta s)) t p in
    let* th := i_call (temp_interp g rg th) t p in
    thermal_dissipation_potential F0 F th0 th) = Ok (psi (F0 t p) (F t p) (t0 t p) (vat th t p)) /\
  (let* F0 := deform_strain (comp_interp g rg (ts_prev_y1 s)) (comp_interp g rg (ts_prev_y2 s)) t p in
    let* F := deform_strain (comp_interp g rg (ts_y1 s)) (comp_interp g rg (ts_y2 s)) t p in
    let* th0 := i_call (temp_interp g rg (ts_prev_theta s)) t p in
    let* v := i_call (temp_interp g rg th) t p in
    let* gr := i_gradient (temp_interp g rg th) t p in
    energy_potential (ts_fps s) F0 F th0 v gr) =
   Ok (qf (Kref (F0 t p)) (fst (gat s th t p)) (snd (gat s th t p)) (fst (gat s th t p)) (snd (gat s th t p)) - source (ts_fps s) (F0 t p) (F t p) (t0 t p) * vat th t p).
Proof.
  intros L Ht Hp. destruct TL as [P1 P2 Y1 Y2 T0 _]. destruct (dets t p Ht Hp) as [D0 D1]. destruct (temp_ok s h a b GG t p Ht) as (c1 & c2 & c3 & d1 & d2 & d3 & K). destruct t as [[i j] k]. destruct K as (_ & _ & _ & K & _).
  destruct (K th L) as (V & G & _). destruct (K _ T0) as (V0 & _). unfold g, rg in *. rewrite (sat_ok s h a b GG q GQ _ _ _ p P1 P2 Ht Hp), (sat_ok s h a b GG q GQ _ _ _ p Y1 Y2 Ht Hp), V0, V, G. cbn [bind]. split; [apply psi_value; assumption|].
  rewrite energy_value by exact D0. apply (f_equal Ok). unfold F0, F, t0. ring.
Qed.
Lemma obj_value th I : length th = NV -> Integrator_ q (g_triangles tg) (g_points tg) = Ok I -> therm_objective lg s th = Ok (WSum s q I (dens s th) + bd th).
Proof.
  intros L EI. destruct (therm_integ s h a b GG q Eq) as (I' & E1 & E2). fold g rg tg in E2. rewrite EI in E2. injection E2 as <-.
  unfold therm_objective, therm_energy, therm_dissipation. rewrite E1. cbn [bind].
  rewrite (integ_ok s q I _ (fun t p => qf (Kref (F0 t p)) (fst (gat s th t p)) (snd (gat s th t p)) (fst (gat s th t p)) (snd (gat s th t p)) - source (ts_fps s) (F0 t p) (F t p) (t0 t p) * vat th t p) EI) by (intros t p Ht Hp; apply energy_dens; assumption).
  rewrite (integ_ok s q I _ (fun t p => psi (F0 t p) (F t p) (t0 t p) (vat th t p)) EI) by (intros t p Ht Hp; apply energy_dens; assumption). cbn [bind].
  rewrite bd_value by exact L. cbn [bind]. apply (f_equal Ok).
  assert (E : WSum s q I (dens s th) = 1 * WSum s q I (fun t p => qf (Kref (F0 t p)) (fst (gat s th t p)) (snd (gat s th t p)) (fst (gat s th t p)) (snd (gat s th t p)) - source (ts_fps s) (F0 t p) (F t p) (t0 t p) * vat th t p) + ts_fps s * WSum s q I (fun t p => psi (F0 t p) (F t p) (t0 t p) (vat th t p))).
  { rewrite <- WSum_comb. apply WSum_ext. intros t p _ _. unfold dens, F0, F, t0. ring. }
  rewrite E. ring.
Qed.
Lemma form_value k th et I : length th = NV -> length et = NV -> Integrator_ q (g_triangles tg) (g_points tg) = Ok I -> heat_form lg s k th et = Ok (WSum s q I (form k th et) + bform th et).
Proof.
  intros L L' EI. destruct (therm_integ s h a b GG q Eq) as (I' & E1 & E2). fold g rg tg in E2. rewrite EI in E2. injection E2 as <-. unfold heat_form. rewrite E1. cbn [bind].
  rewrite (integ_ok s q I _ (form k th et) EI).
  - cbn [bind].
    match goal with |- (let* B := ?Y in _) = _ => assert (EB : Y = Ok (bform th et)) end; [|rewrite EB; reflexivity].
    unfold bform. destruct (opt_case (ts_refined s)) as [[r Hr]|Hr]; rewrite !Hr; [reflexivity|]. pose proof PG as (Hs & A1 & B1 & (so & w & hh & f & Fw & Fh & Eg) & _).
    apply (boundary_sum so w hh f h a b (ts_grid s) lg _ (fun e => 1 / 2 * (mean_of_ends (at_vertex th) e - ts_ext s) * mean_of_ends (at_vertex et) e) Hs Fw Fh Eg (LG Hr)). intros e He. unfold heat_loss. fold g. rewrite (on_edge th e Hr L He), (on_edge et e Hr L' He). reflexivity.
  - intros t p Ht Hp. destruct TL as [P1 P2 Y1 Y2 T0 _]. destruct (dets t p Ht Hp) as [D0 D1]. destruct (temp_ok s h a b GG t p Ht) as (c1 & c2 & c3 & d1 & d2 & d3 & K). destruct t as [[i j] kk]. destruct K as (_ & _ & _ & K & _).
    destruct (K th L) as (V & G & _). destruct (K et L') as (V' & G' & _). destruct (K _ T0) as (V0 & _). unfold heat_equation. rewrite (sat_ok s h a b GG q GQ _ _ _ p P1 P2 Ht Hp), (sat_ok s h a b GG q GQ _ _ _ p Y1 Y2 Ht Hp), V0, V, G, V', G'. cbn [bind].
    fold F0 F. rewrite heat_value by lra. cbn [bind]. rewrite dot_mat. cbn [bind]. rewrite !U_value by assumption. cbn [bind]. rewrite coupl_value by assumption. rewrite sub_mat. cbn [bind]. rewrite mul_mat. cbn [bind]. rewrite scalar_mat.
    assert (RV : dissipation_rate (mat (F0 (i, j, kk) p)) (mat (F (i, j, kk) p)) (ts_fps s) = Ok (norm2 (sym_delta (F0 (i, j, kk) p) (F (i, j, kk) p)) / 2 * 2 * (ts_fps s * ts_fps s))).
    { unfold dissipation_rate. rewrite dis_value. reflexivity. }
    rewrite RV. cbn [bind]. rewrite vdot2. reflexivity.
Qed.
Lemma bform_lin th al y be z : length y = NV -> length z = NV -> bform th (lincomb al y be z) = al * bform th y + be * bform th z.
Proof.
  intros Ly Lz. unfold bform. destruct (opt_case (ts_refined s)) as [[r Hr]|Hr]; rewrite !Hr; [ring|]. rewrite <- !Rmult_assoc, (Rmult_comm al), (Rmult_comm be), !Rmult_assoc, <- Rmult_plus_distr_l, <- sum_comb. f_equal. apply sum_ext. intros e He. destruct (boundary_ends e Hr He) as [U1 U2].
  unfold mean_of_ends, at_vertex. rewrite !(nth_lincomb s) by assumption. field.
Qed.
Lemma form_lin k th al y be z t p : In t (g_triangles tg) -> length y = NV -> length z = NV -> form k th (lincomb al y be z) t p = al * form k th y t p + be * form k th z t p.
Proof.
  intros Ht Ly Lz. unfold form. rewrite (vat_lin s h a b GG) by assumption. destruct (gat_lin s h a b GG al y be z t p Ht Ly Lz) as [-> ->]. unfold qf. ring.
Qed.
(** The derivative along [et]. *)
Lemma dens_derive th et t p : In t (g_triangles tg) -> In p (q_points q) -> length th = NV -> length et = NV -> is_derive (fun x => dens s (lincomb 1 th x et) t p) 0 (form 2 th et t p).
Proof.
  intros Ht Hp L L'.
  - destruct (dets t p Ht Hp) as [D0 D1]. unfold dens. fold F0 F t0. set (S := source (ts_fps s) (F0 t p) (F t p) (t0 t p)).
    apply (is_derive_ext (fun x => (qf (Kref (F0 t p)) (1 * fst (gat s th t p) + x * fst (gat s et t p)) (1 * snd (gat s th t p) + x * snd (gat s et t p)) (1 * fst (gat s th t p) + x * fst (gat s et t p)) (1 * snd (gat s th t p) + x * snd (gat s et t p)) - S * (1 * vat th t p + x * vat et t p)) + ts_fps s * psi (F0 t p) (F t p) (t0 t p) (1 * vat th t p + x * vat et t p))).
    { intros x. rewrite (vat_lin s h a b GG) by assumption. destruct (gat_lin s h a b GG 1 th x et t p Ht L L') as [-> ->]. reflexivity. }
    set (gx := fst (gat s th t p)). set (gy := snd (gat s th t p)). set (ex := fst (gat s et t p)). set (ey := snd (gat s et t p)). set (v := vat th t p). set (w := vat et t p).
    replace (form 2 th et t p) with ((2 * qf (Kref (F0 t p)) gx gy ex ey - S * w) + ts_fps s * (w * (U (F t p) v - U (F0 t p) (t0 t p)))) by (unfold form; fold gx gy ex ey v w S; ring).
    apply (is_derive_plus (K := R_AbsRing) (V := R_NormedModule) (fun x => qf (Kref (F0 t p)) (1 * gx + x * ex) (1 * gy + x * ey) (1 * gx + x * ex) (1 * gy + x * ey) - S * (1 * v + x * w))).
    + pose proof (qf_sym (F0 t p) gx gy ex ey ltac:(lra)) as Q. unfold qf in *. auto_derive; [trivial|]. transitivity (qf (Kref (F0 t p)) gx gy ex ey + qf (Kref (F0 t p)) ex ey gx gy - S * w); [unfold qf, Kref, PotentialSpec.st; cbn [f11 f12 f21 f22]; ring|unfold qf; lra].
    + apply (is_derive_scal (fun x => psi (F0 t p) (F t p) (t0 t p) (1 * v + x * w)) 0 (ts_fps s)).
      apply (is_derive_comp (psi (F0 t p) (F t p) (t0 t p)) (fun x => 1 * v + x * w) 0 (U (F t p) v - U (F0 t p) (t0 t p)) w).
      * replace (1 * v + 0 * w) with v by ring. apply psi_derive.
      * auto_derive; [trivial|]. ring.
Qed.
Lemma obj_derive th et I : length th = NV -> length et = NV -> Integrator_ q (g_triangles tg) (g_points tg) = Ok I -> is_derive (fun x => WSum s q I (dens s (lincomb 1 th x et)) + bd (lincomb 1 th x et)) 0 (WSum s q I (form 2 th et) + bform th et).
Proof.
  intros L L' EI. apply (is_derive_plus (K := R_AbsRing) (V := R_NormedModule) (fun x => WSum s q I (dens s (lincomb 1 th x et)))).
  - unfold WSum. apply (ws_derive _ _ (fun x t => weighted_sum (q_points q) (q_weights q) (dens s (lincomb 1 th x et) t))). intros t Ht. apply (ws_derive _ _ (fun x p => dens s (lincomb 1 th x et) t p)). intros p Hp. apply dens_derive; assumption.
  - unfold bd, bform. destruct (opt_case (ts_refined s)) as [[r Hr]|Hr]; rewrite !Hr; [apply (is_derive_const (K := R_AbsRing) (V := R_NormedModule) 0)|].
    apply (is_derive_scal (fun x => sum_over (fun e => 1 / 4 * (mean_of_ends (at_vertex (lincomb 1 th x et)) e - ts_ext s) ^ 2) (b_edges (g_boundary (ts_grid s)))) 0 h).
    apply (sum_derive _ (fun x e => 1 / 4 * (mean_of_ends (at_vertex (lincomb 1 th x et)) e - ts_ext s) ^ 2)). intros e He. destruct (boundary_ends e Hr He) as [U1 U2].
    apply (is_derive_ext (fun x => 1 / 4 * (mean_of_ends (at_vertex th) e + x * mean_of_ends (at_vertex et) e - ts_ext s) ^ 2)).
    { intros x. unfold mean_of_ends, at_vertex. rewrite !(nth_lincomb s) by assumption. apply (f_equal (fun z => 1 / 4 * z ^ 2)). field. }
    auto_derive; [trivial|]. field.
Qed.
(** The gap: the objective lies above its tangent, strictly. *)
Context (FP : 0 < ts_fps s) (MM : moderate_martensite s q (2 * exp 1)).
Lemma moderate t p : In t (g_triangles tg) -> In p (q_points q) -> - dW (F t p) <= 2 * exp 1.
Proof.
  intros Ht Hp. destruct (MM t p Ht Hp) as (A & wa & wm & EA & Ea & Em & LE). destruct TL as [P1 P2 Y1 Y2 _ _]. rewrite (sat_ok s h a b GG q GQ _ _ t p Y1 Y2 Ht Hp) in EA. injection EA as EA.
  assert (F t p = A) by (apply mat_inj; unfold mat, F; congruence). subst A. destruct (dets t p Ht Hp) as [_ D]. rewrite aus_value in Ea by exact D. rewrite mar_value in Em by lra. injection Ea as <-. injection Em as <-. unfold dW, WA in *. lra.
Qed.
Lemma gap_point th th' t p : In t (g_triangles tg) -> In p (q_points q) -> length th = NV -> length th' = NV -> non_negative_values th -> non_negative_values th' ->
  dens s th t p + form 2 th (lincomb 1 th' (-1) th) t p <= dens s th' t p /\ (dens s th t p + form 2 th (lincomb 1 th' (-1) th) t p = dens s th' t p -> vat th t p = vat th' t p /\ gat s th t p = gat s th' t p).
Proof.
  intros Ht Hp L L' N N'. unfold form. rewrite (vat_lin s h a b GG) by assumption. destruct (gat_lin s h a b GG 1 th' (-1) th t p Ht L' L) as [-> ->]. destruct (dets t p Ht Hp) as [D0 D1]. pose proof (moderate t p Ht Hp) as MO.
  pose proof (vat_nonneg q PQ th t p N Hp) as V. pose proof (vat_nonneg q PQ th' t p N' Hp) as V'.
  unfold dens. fold F0 F t0. set (gx := fst (gat s th t p)). set (gy := snd (gat s th t p)). set (gx' := fst (gat s th' t p)). set (gy' := snd (gat s th' t p)). set (v := vat th t p) in *. set (v' := vat th' t p) in *.
  assert (Q : qf (Kref (F0 t p)) gx' gy' gx' gy' = qf (Kref (F0 t p)) gx gy gx gy + 2 * qf (Kref (F0 t p)) gx gy (1 * gx' + -1 * gx) (1 * gy' + -1 * gy) + qf (Kref (F0 t p)) (gx' - gx) (gy' - gy) (gx' - gx) (gy' - gy)).
  { pose proof (qf_sym (F0 t p) gx gy (gx' - gx) (gy' - gy) ltac:(lra)) as S. unfold qf in *. nra. }
  rewrite Q. destruct (qf_pos (F0 t p) (gx' - gx) (gy' - gy) D0) as [Q0 QZ].
  set (S := source (ts_fps s) (F0 t p) (F t p) (t0 t p)). set (u := U (F t p) v - U (F0 t p) (t0 t p)).
  assert (PS : psi (F0 t p) (F t p) (t0 t p) v + u * (v' - v) <= psi (F0 t p) (F t p) (t0 t p) v' /\ (psi (F0 t p) (F t p) (t0 t p) v + u * (v' - v) = psi (F0 t p) (F t p) (t0 t p) v' -> v = v')).
  { destruct (Req_dec v v') as [<- |NE]; [split; [lra|reflexivity]|]. pose proof (psi_tangent (F0 t p) (F t p) (t0 t p) v v' MO V V' NE) as T. fold u in T. split; [lra|]. intros E. exfalso. lra. }
  destruct PS as [P1 P2]. set (A := psi (F0 t p) (F t p) (t0 t p) v) in *. set (B := psi (F0 t p) (F t p) (t0 t p) v') in *.
  pose proof (Rmult_le_compat_l _ _ _ (Rlt_le _ _ FP) P1) as P3.
  split; [nra|]. intros E. set (K := qf (Kref (F0 t p)) (gx' - gx) (gy' - gy) (gx' - gx) (gy' - gy)) in *.
  assert (E0 : K + ts_fps s * (B - (A + u * (v' - v))) = 0) by nra. assert (0 <= ts_fps s * (B - (A + u * (v' - v)))) by (apply Rmult_le_pos; lra). assert (K = 0) by lra.
  assert (EB : ts_fps s * (B - (A + u * (v' - v))) = 0) by lra. apply Rmult_integral in EB as [EB|EB]; [lra|]. split; [apply P2; lra|]. destruct (QZ H0) as [Z1 Z2]. unfold gx, gx', gy, gy' in Z1, Z2. destruct (gat s th t p), (gat s th' t p). cbn [fst snd] in *. f_equal; lra.
Qed.
Lemma gap th th' J J' : length th = NV -> length th' = NV -> non_negative_values th -> non_negative_values th' -> therm_objective lg s th = Ok J -> therm_objective lg s th' = Ok J' ->
  exists D, heat_form lg s 2 th (lincomb 1 th' (-1) th) = Ok D /\ J + D <= J' /\ (J + D = J' -> th = th').
Proof.
  intros L L' N N' EJ EJ'. destruct (therm_integ s h a b GG q Eq) as (I & _ & EI). fold g rg tg in EI. rewrite (obj_value _ I L EI) in EJ. rewrite (obj_value _ I L' EI) in EJ'. injection EJ as <-. injection EJ' as <-.
  assert (LL : length (lincomb 1 th' (-1) th) = NV) by (rewrite lincomb_length; congruence).
  rewrite (form_value 2 th _ I L LL EI). eexists. split; [reflexivity|].
  assert (B : bd th + bform th (lincomb 1 th' (-1) th) <= bd th').
  { rewrite bform_lin by assumption. unfold bd, bform. destruct (opt_case (ts_refined s)) as [[r Hr]|Hr]; rewrite !Hr; [lra|]. pose proof PG as (Hs & _).
    match goal with |- h * ?x + (1 * (h * ?y) + -1 * (h * ?z)) <= h * ?w => assert (X : x + (1 * y + -1 * z) <= w) end; [|nra]. rewrite <- sum_comb.
    rewrite <- (Rmult_1_l (sum_over _ _)) at 1. rewrite <- (Rmult_1_l (_ + sum_over _ _)).
    rewrite <- (Rmult_1_l (sum_over (fun e => 1 * _ + _) _)).
    rewrite Rmult_1_l, <- sum_comb. apply sum_le. intros e _. set (m := mean_of_ends (at_vertex th) e). set (m' := mean_of_ends (at_vertex th') e). pose proof (pow2_ge_0 (m' - m)). nra. }
  assert (W : WSum s q I (dens s th) + WSum s q I (form 2 th (lincomb 1 th' (-1) th)) = WSum s q I (fun t p => dens s th t p + form 2 th (lincomb 1 th' (-1) th) t p)).
  { rewrite <- (Rmult_1_l (WSum s q I (dens s th))), <- (Rmult_1_l (WSum s q I (form _ _ _))), <- WSum_comb. apply WSum_ext. intros. ring. }
  destruct (WSum_le s h a b GG q GQ PQ I (fun t p => dens s th t p + form 2 th (lincomb 1 th' (-1) th) t p) (dens s th') EI) as [W1 W2].
  { intros t p Ht Hp. apply gap_point; assumption. }
  split; [lra|]. intros E. apply (fields_determine s h a b GG q GQ th th' L L'). intros t p Ht Hp. apply gap_point; try assumption. apply W2; [lra|exact Ht|exact Hp].
Qed.
End T.

(** ** Vanishing gradients: the mesh is connected. *)
Lemma box_connected m n (f : Z2 -> R) : (1 <= m)%nat -> (1 <= n)%nat -> (forall T, ltri_in m n T -> f (c1 T) = f (c2 T) /\ f (c2 T) = f (c3 T)) -> forall x, box m n x -> f x = f (0, 0)%Z.
Proof.
  intros Hm Hn H.
  assert (LO : forall a b, cbox m n (a, b) -> f (a, b) = f (a + 1, b)%Z /\ f (a + 1, b)%Z = f (a + 1, b + 1)%Z).
  { intros a b C. destruct (H (low a b) (low_in m n a b C)) as [A B]. unfold low, c1, c2, c3 in A, B. cbn [fst snd] in A, B. split; assumption. }
  assert (UP : forall a b, cbox m n (a, b) -> f (a + 1, b + 1)%Z = f (a, b + 1)%Z /\ f (a, b + 1)%Z = f (a, b)).
  { intros a b C. destruct (H (upp a b) (upp_in m n a b C)) as [A B]. unfold upp, c1, c2, c3 in A, B. cbn [fst snd] in A, B. assert (EA : (a + 1 + -1 = a)%Z) by lia. assert (EB : (b + 1 + -1 = b)%Z) by lia. rewrite EA in A, B. rewrite EB in B. split; assumption. }
  assert (HOR : forall a b, (0 <= a < Z.of_nat m)%Z -> (0 <= b <= Z.of_nat n)%Z -> f (a + 1, b)%Z = f (a, b)).
  { intros a b Ha Hb. destruct (Z.eq_dec b (Z.of_nat n)) as [->|NE].
    - destruct (UP a (Z.of_nat n - 1)%Z) as [A _]; [unfold cbox; cbn; lia|]. replace (Z.of_nat n - 1 + 1)%Z with (Z.of_nat n) in A by lia. exact A.
    - destruct (LO a b) as [A _]; [unfold cbox; cbn; lia|]. congruence. }
  assert (VER : forall a b, (0 <= a <= Z.of_nat m)%Z -> (0 <= b < Z.of_nat n)%Z -> f (a, b + 1)%Z = f (a, b)).
  { intros a b Ha Hb. destruct (Z.eq_dec a (Z.of_nat m)) as [->|NE].
    - destruct (LO (Z.of_nat m - 1)%Z b) as [_ A]; [unfold cbox; cbn; lia|]. replace (Z.of_nat m - 1 + 1)%Z with (Z.of_nat m) in A by lia. congruence.
    - destruct (UP a b) as [_ A]; [unfold cbox; cbn; lia|]. exact A. }
  assert (VV : forall k, (k <= n)%nat -> f (0, Z.of_nat k)%Z = f (0, 0)%Z).
  { induction k as [|k IH]; intros K; [reflexivity|]. rewrite Nat2Z.inj_succ. unfold Z.succ. rewrite VER by lia. apply IH. lia. }
  assert (HH : forall k b, (k <= m)%nat -> (0 <= b <= Z.of_nat n)%Z -> f (Z.of_nat k, b) = f (0, b)%Z).
  { induction k as [|k IH]; intros b K Hb; [reflexivity|]. rewrite Nat2Z.inj_succ. unfold Z.succ. rewrite HOR by lia. apply IH; lia. }
  intros [a b] [Ha Hb]. cbn [fst snd] in Ha, Hb. rewrite <- (Z2Nat.id a), <- (Z2Nat.id b) by lia. rewrite HH by lia. apply VV. lia.
Qed.
Lemma grad_zero_constant s h a b (GG : good_grids (ts_grid s) (ts_refined s) h a b) q (GQ : good_rule q) th : temperatures_of s th ->
  (forall t p, In t (g_triangles (theta_grid (ts_grid s) (ts_refined s))) -> In p (q_points q) -> gat s th t p = (0, 0)) -> exists c, constant c th.
Proof.
  intros L H. destruct (fine s h a b GG) as (s' & m & n & Hs & Hm & Hn & M). destruct (lmesh_of_mesh _ s' m n Hs Hm Hn M) as (C & Ts & E & LM).
  assert (EQ : forall T, ltri_in m n T -> nth (idx C (c1 T)) th 0 = nth (idx C (c2 T)) th 0 /\ nth (idx C (c2 T)) th 0 = nth (idx C (c3 T)) th 0).
  { intros T HT. assert (Ht : In (idx C (c1 T), idx C (c2 T), idx C (c3 T)) (g_triangles (theta_grid (ts_grid s) (ts_refined s)))) by (rewrite (lm_t _ _ _ _ _ _ _ LM); apply in_map_iff; exists T; split; [reflexivity|apply (lm_tin _ _ _ _ _ _ _ LM), HT]).
    destruct GQ as (_ & NE & _). destruct (q_points q) as [|p ps] eqn:EP; [congruence|]. pose proof (H _ p Ht (or_introl eq_refl)) as G0.
    destruct (temp_ok s h a b GG _ p Ht) as (e1 & e2 & e3 & d1 & d2 & d3 & _ & _ & _ & K & S1 & S2 & ND). destruct (K th L) as (_ & _ & G1 & G2). rewrite G0 in G1, G2. cbn [fst snd] in G1, G2.
    set (x := nth (idx C (c1 T)) th 0) in *. set (y := nth (idx C (c2 T)) th 0) in *. set (z := nth (idx C (c3 T)) th 0) in *.
    assert (X1 : e2 * (y - x) + e3 * (z - x) = 0). { replace (e2 * (y - x) + e3 * (z - x)) with (e1 * x + e2 * y + e3 * z - (e1 + e2 + e3) * x) by ring. rewrite S1. lra. }
    assert (X2 : d2 * (y - x) + d3 * (z - x) = 0). { replace (d2 * (y - x) + d3 * (z - x)) with (d1 * x + d2 * y + d3 * z - (d1 + d2 + d3) * x) by ring. rewrite S2. lra. }
    assert (Y0 : y - x = 0). { apply (Rmult_eq_reg_l (e2 * d3 - e3 * d2)); [|exact ND]. rewrite Rmult_0_r. replace ((e2 * d3 - e3 * d2) * (y - x)) with (d3 * (e2 * (y - x) + e3 * (z - x)) - e3 * (d2 * (y - x) + d3 * (z - x))) by ring. rewrite X1, X2. ring. }
    assert (Z0 : z - x = 0). { apply (Rmult_eq_reg_l (e2 * d3 - e3 * d2)); [|exact ND]. rewrite Rmult_0_r. replace ((e2 * d3 - e3 * d2) * (z - x)) with (e2 * (d2 * (y - x) + d3 * (z - x)) - d2 * (e2 * (y - x) + e3 * (z - x))) by ring. rewrite X1, X2. ring. }
    lra. }
  exists (nth (idx C (0, 0)%Z) th 0). intros v Hv. apply In_nth_error in Hv as [i Hi]. assert (I : (i < length C)%nat). { assert (i < length th)%nat by (apply nth_error_Some; congruence). unfold temperatures_of in L. rewrite L, (lm_v _ _ _ _ _ _ _ LM) in H0. unfold range in H0. rewrite seq_length in H0. exact H0. }
  destruct (nth_error C i) as [x|] eqn:Ex; [|apply nth_error_None in Ex; lia]. assert (EI : i = idx C x) by (symmetry; apply idx_unique; [apply (lm_nd _ _ _ _ _ _ _ LM)|exact Ex]).
  rewrite <- (box_connected m n (fun x => nth (idx C x) th 0) Hm Hn EQ x); [|apply (lm_box _ _ _ _ _ _ _ LM), (nth_error_In _ _ Ex)]. cbn beta. rewrite <- EI. symmetry. apply nth_error_nth, Hi.
Qed.
