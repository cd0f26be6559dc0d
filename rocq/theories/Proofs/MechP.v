(** * The mechanical objective as a weighted sum. *)
From Coq Require Import Reals Lra Lia List ZArith.
From Verif.Spec Require Import GridSpec QuadSpec BellSpec InterpSpec RefineSpec PotentialSpec.
From Verif.Model Require Import Py Num Tensors Domain Refine Quadrature Integrators Expr Bell Interp Helpers Steps.
From Verif.Spec Require Import StepSpec EnergySpec MotionSpec TractionSpec ThermSpec MechSpec.
From Verif.Proofs Require Import Lib InterpP PotP HatP QuadP IntegP StepU StepE StepF StepG StepH SimP ThermV ThermP LipMin LipMore MechV.
From Verif.Props Require Import GridProps QuadProps IntegProps InterpProps RefineProps MeshIntegProps PotentialProps EnergyProps AffineProps TractionProps.
Local Open Scope R_scope.
Import ListNotations.

(** The rules of the mechanical step. *)
Definition energy_rule (rg : option (refined_grid R)) : res (rule R) := match rg with None => DUNAVANT2 | Some _ => DUNAVANT5 end.
Definition loss_rule (rg : option (refined_grid R)) : res (rule R) := match rg with None => CENTROID | Some _ => DUNAVANT5 end.
Lemma energy_rule_good (g : grid R) rg : exists q, energy_rule rg = Ok q /\ good_rule q /\ pos_rule q.
Proof. destruct (therm_rule_good (mkTherm g rg 0 0 [] [] [] [] [] [] 0 (fun _ => Err ValueError))) as (q & E & GQ & PQ & _). exists q. split; [exact E|]. split; assumption. Qed.

Section G.
Context (g : grid R) (rg : option (refined_grid R)) (h : R) (a b : nat) (GG : good_grids g rg h a b).
Let tg := theta_grid g rg. Let NK := (length (g_vertices g) * dofs rg)%nat.
(** Strain and hyper elastic density at a point. *)
Definition strain_at (y1 y2 : list R) (t : triangle) (p : bary R) : strain2 :=
  match deform_strain (comp_interp g rg y1) (comp_interp g rg y2) t p with
  | Ok m => match m_data m with [[x; y]; [z; w]] => PotentialSpec.st x y z w | _ => id2 end
  | Err _ => id2
  end.
Definition hyper_at (y1 y2 : list R) (t : triangle) (p : bary R) : R :=
  match deform_hyper_strain (comp_interp g rg y1) (comp_interp g rg y2) t p with Ok x => hyper_elastic_potential x | Err _ => 0 end.
Lemma strain_at_ok t p : In t (g_triangles tg) -> l1 p + l2 p + l3 p = 1 -> exists X Y, linear NK X /\ linear NK Y /\
  forall y1 y2, length y1 = NK -> length y2 = NK -> deform_strain (comp_interp g rg y1) (comp_interp g rg y2) t p = Ok (mat (strain_at y1 y2 t p)) /\ strain_at y1 y2 t p = strain_of X Y y1 y2.
Proof.
  intros Ht Hp. destruct (field g rg h a b GG t p Ht Hp) as (X & Y & FU). exists X, Y. split; [exact (fu_linx _ _ _ _ _ _ FU)|]. split; [exact (fu_liny _ _ _ _ _ _ FU)|]. intros y1 y2 L1 L2. unfold strain_at. rewrite (field_strain g rg t p X Y y1 y2 FU L1 L2). split; reflexivity.
Qed.
Lemma temp_at th t p : length th = length (g_vertices tg) -> In t (g_triangles tg) -> i_call (temp_interp g rg th) t p = Ok (vat th t p).
Proof.
  intros LT Ht. destruct (fine_mesh g rg h a b GG) as (s' & a' & b' & Hs' & M'). fold tg in M'. destruct (mesh_triangle_at _ s' a' b' M' t Ht) as (P & Q & Z & T). destruct t as [[i j] k].
  destruct (mesh_params _ s' a' b' th (i, j, k) P Q Z M' LT T) as (u1 & u2 & u3 & U1 & U2 & U3). unfold temp_interp. fold tg. destruct (P1_calls _ th i j k P Q Z _ _ _ p T U1 U2 U3) as [-> _]. unfold vat. rewrite (nth_error_nth _ _ 0 U1), (nth_error_nth _ _ 0 U2), (nth_error_nth _ _ 0 U3). reflexivity.
Qed.
Definition WS (q : rule R) (I : integrator R) (f : triangle -> bary R -> R) : R := weighted_sum (g_triangles tg) (i_areas I) (fun t => weighted_sum (q_points q) (q_weights q) (f t)).
Lemma WS_ok q I X f : Integrator_ q (g_triangles tg) (g_points tg) = Ok I -> (forall t p, In t (g_triangles tg) -> In p (q_points q) -> X t p = Ok (f t p)) -> integrate I X = Ok (WS q I f).
Proof. intros EI H. destruct (integrator_parts _ _ _ _ EI) as (Q & T & LA). rewrite (integrate_ws I X f) by (rewrite ?Q, ?T; assumption). rewrite Q, T. reflexivity. Qed.
Lemma WS_ext q I f k : (forall t p, In t (g_triangles tg) -> In p (q_points q) -> f t p = k t p) -> WS q I f = WS q I k.
Proof. intros H. unfold WS. apply weighted_sum_ext. intros t Ht. apply weighted_sum_ext. intros p Hp. apply H; assumption. Qed.
Lemma areas_positive q I : Integrator_ q (g_triangles tg) (g_points tg) = Ok I -> forall A, In A (i_areas I) -> 0 < A.
Proof. intros EI. exact (areas_pos (mkTherm g rg 0 0 [] [] [] [] [] [] 0 (fun _ => Err ValueError)) h a b GG q I EI). Qed.
Lemma elastic_value F th : 0 < det2 F -> total_elastic_potential (mat F) th = Ok (density (exp (-5 * th)) (norm2 F) (det2 F)).
Proof.
  intros D. unfold total_elastic_potential. rewrite frac_value. cbn [bind]. rewrite (aus_value F D), (mar_value F) by lra. cbn [bind]. apply (f_equal Ok). unfold density, WM. rewrite pow_inv by lra. unfold Rdiv. ring.
Qed.
Lemma hyper_at_ok r t p : rg = Some r -> In t (g_triangles tg) -> l1 p + l2 p + l3 p = 1 -> exists XX XY YY, linear NK XX /\ linear NK XY /\ linear NK YY /\
  forall y1 y2, length y1 = NK -> length y2 = NK -> (let* x := deform_hyper_strain (comp_interp g rg y1) (comp_interp g rg y2) t p in Ok (hyper_elastic_potential x)) = Ok (hyper_at y1 y2 t p) /\
    hyper_at y1 y2 t p = sqrt (XX y1 * XX y1 + XY y1 * XY y1 + XY y1 * XY y1 + YY y1 * YY y1 + (XX y2 * XX y2 + XY y2 * XY y2 + XY y2 * XY y2 + YY y2 * YY y2)) ^ 3.
Proof.
  intros E Ht Hp. unfold NK, tg, hyper_at in *. rewrite E in *. destruct (reg_functionals g r h a b t p GG Ht Hp) as (X & Y & XX & XY & YY & _ & F2). exists XX, XY, YY. split; [exact (fu_linxx _ _ _ _ _ _ _ F2)|]. split; [exact (fu_linxy _ _ _ _ _ _ _ F2)|]. split; [exact (fu_linyy _ _ _ _ _ _ _ F2)|].
  intros y1 y2 L1 L2. unfold deform_hyper_strain. rewrite (fu_hess _ _ _ _ _ _ _ F2 y1 L1), (fu_hess _ _ _ _ _ _ _ F2 y2 L2). cbn [bind]. rewrite stack_value. cbn [bind]. split; [reflexivity|]. rewrite hyper_value. f_equal. f_equal. ring.
Qed.
End G.

(** ** The objective *)
(** The lists of a problem have the lengths of the grid, and tractions are known at the Neumann vertices. *)
Definition msized (m : mech) : Prop := mlen m /\ (ms_refined m = None -> map fst (ms_g1 m) = b_vertices (g_neumann (ms_grid m)) /\ map fst (ms_g2 m) = b_vertices (g_neumann (ms_grid m))).
Lemma mech_history_sized m : mech_history m -> msized m.
Proof. intros H. split; [exact (mech_history_len m H)|exact (mech_history_keys m H)]. Qed.
Section M.
Context (lg : Z -> res (list R * list R)) (m : mech) (h : R) (a b : nat) (PG : problem_grids (ms_grid m) (ms_refined m) h a b) (HM : msized m) (HL : ms_refined m = None -> midpoint_rule lg).
Let g := ms_grid m. Let rg := ms_refined m. Let tg := theta_grid g rg. Let NK := (length (g_vertices g) * dofs rg)%nat.
Let GG : good_grids g rg h a b := problem_good _ _ _ _ _ PG.
Context (qe qd : rule R) (Ee : energy_rule rg = Ok qe) (Ed : loss_rule rg = Ok qd) (Ge : good_rule qe) (Gd : good_rule qd) (Ie Id : integrator R).
Context (EIe : Integrator_ qe (g_triangles tg) (g_points tg) = Ok Ie) (EId : Integrator_ qd (g_triangles tg) (g_points tg) = Ok Id).
Definition cold (t : triangle) (p : bary R) : R := exp (-5 * vat (ms_prev_theta m) t p).
Definition elastic_at (y1 y2 : list R) (t : triangle) (p : bary R) : R := let F := strain_at g rg y1 y2 t p in density (cold t p) (norm2 F) (det2 F).
Definition loss_at (y1 y2 : list R) (t : triangle) (p : bary R) : R := norm2 (sym_delta (strain_at g rg (ms_prev_y1 m) (ms_prev_y2 m) t p) (strain_at g rg y1 y2 t p)) / 2.
Definition work (y1 y2 : list R) : R := h * sum_over (fun e => mean_of_ends (value_for (ms_g1 m)) e * mean_of_ends (at_vertex y1) e + mean_of_ends (value_for (ms_g2 m)) e * mean_of_ends (at_vertex y2) e) (b_edges (g_neumann g)).
Definition rest (y1 y2 : list R) : R := match rg with
  | None => - work y1 y2 + ms_fps m * WS g rg qd Id (loss_at y1 y2)
  | Some _ => ms_reg m * WS g rg qe Ie (hyper_at g rg y1 y2) + ms_fps m * WS g rg qd Id (loss_at y1 y2)
  end.
Context (y1 y2 : list R) (L1 : length y1 = NK) (L2 : length y2 = NK).
Lemma loss_value : mech_dissipation m y1 y2 = Ok (WS g rg qd Id (loss_at y1 y2)).
Proof.
  destruct (proj1 HM) as [P1 P2 _ _ _]. unfold mech_dissipation. fold g rg. change (match rg with None => CENTROID | Some _ => DUNAVANT5 end) with (loss_rule rg). rewrite Ed. cbn [bind]. fold tg. rewrite EId. cbn [bind]. apply (WS_ok g rg qd Id); [exact EId|].
  intros t p Ht Hp. destruct (strain_at_ok g rg h a b GG t p Ht (proj2 (proj2 Gd) p Hp)) as (X & Y & _ & _ & K). rewrite (proj1 (K _ _ P1 P2)), (proj1 (K _ _ L1 L2)). cbn [bind]. rewrite dis_value. reflexivity.
Qed.
Lemma elastic_energy_value : positive_jacobian g rg qe y1 y2 -> mech_elastic_energy m y1 y2 = Ok (WS g rg qe Ie (elastic_at y1 y2)).
Proof.
  intros PJ. destruct (proj1 HM) as [_ _ _ _ PT]. unfold mech_elastic_energy. fold g rg. change (match rg with None => DUNAVANT2 | Some _ => DUNAVANT5 end) with (energy_rule rg). rewrite Ee. cbn [bind]. fold tg. rewrite EIe. cbn [bind]. apply (WS_ok g rg qe Ie); [exact EIe|].
  intros t p Ht Hp. destruct (strain_at_ok g rg h a b GG t p Ht (proj2 (proj2 Ge) p Hp)) as (X & Y & _ & _ & K). destruct (K _ _ L1 L2) as [K1 _]. destruct (PJ t p Ht Hp) as (F & EF & D). assert (F = strain_at g rg y1 y2 t p) as -> by (apply mat_inj; congruence).
  rewrite K1. cbn [bind]. rewrite (temp_at g rg h a b GG (ms_prev_theta m) t p PT Ht). cbn [bind]. rewrite (elastic_value _ _ D). reflexivity.
Qed.
Lemma positive_iff : positive_jacobian g rg qe y1 y2 <-> forall t p, In t (g_triangles tg) -> In p (q_points qe) -> 0 < det2 (strain_at g rg y1 y2 t p).
Proof.
  split; intros H t p Ht Hp; destruct (strain_at_ok g rg h a b GG t p Ht (proj2 (proj2 Ge) p Hp)) as (X & Y & _ & _ & K); destruct (K _ _ L1 L2) as [K1 _].
  - destruct (H t p Ht Hp) as (F & EF & D). assert (F = strain_at g rg y1 y2 t p) as <- by (apply mat_inj; congruence). exact D.
  - exists (strain_at g rg y1 y2 t p). split; [exact K1|exact (H t p Ht Hp)].
Qed.
Lemma mech_value : positive_jacobian g rg qe y1 y2 -> mech_objective lg m y1 y2 = Ok (WS g rg qe Ie (elastic_at y1 y2) + rest y1 y2).
Proof.
  intros PJ. unfold mech_objective. rewrite (elastic_energy_value PJ). cbn [bind]. fold rg. unfold rest. destruct (opt_case rg) as [[r Hr]|Hr].
  - assert (EH : mech_hyper_elastic_energy m y1 y2 = Ok (WS g rg qe Ie (hyper_at g rg y1 y2))).
    { unfold mech_hyper_elastic_energy. fold g rg. assert (E5 : @DUNAVANT5 R RNum = Ok qe) by (pose proof Ee as E; unfold energy_rule in E; rewrite Hr in E; exact E). rewrite E5. cbn [bind]. fold tg. rewrite EIe. cbn [bind]. apply (WS_ok g rg qe Ie); [exact EIe|].
      intros t p Ht Hp. destruct (hyper_at_ok g rg h a b GG r t p Hr Ht (proj2 (proj2 Ge) p Hp)) as (XX & XY & YY & _ & _ & _ & K). exact (proj1 (K y1 y2 L1 L2)). }
    rewrite EH, loss_value. rewrite Hr. cbn [bind]. apply (f_equal Ok). ring.
  - pose proof PG as (Hs & Ha & Hb & (so & w & h' & f & Fw & Fh & DG) & _). rewrite loss_value. rewrite Hr. cbn [bind].
    assert (LL : forall y : list R, length y = NK -> length y = length (g_vertices (ms_grid m))) by (intros y L; rewrite L; unfold NK, g; rewrite Hr; cbn; lia).
    rewrite (proj1 (traction_work so w h' f h a b lg m y1 y2 Hs Fw Fh Ha Hb (proj1 (proj2 HM Hr)) (proj2 (proj2 HM Hr)) DG (HL Hr) (LL y1 L1) (LL y2 L2))). cbn [bind]. apply (f_equal Ok). unfold work. fold g. ring.
Qed.
Lemma defined_positive J : mech_objective lg m y1 y2 = Ok J -> positive_jacobian g rg qe y1 y2.
Proof.
  intros H. destruct (Classical_Prop.classic (positive_jacobian g rg qe y1 y2)) as [PJ|NP]; [exact PJ|exfalso]. destruct (proj1 HM) as [_ _ _ _ PT].
  destruct (elastic_general g rg h a b GG qe Ge (ms_prev_theta m) PT y1 y2 L1 L2 Ie EIe) as [_ N]. specialize (N NP). unfold mech_objective, mech_elastic_energy in H. fold g rg in H. change (match rg with None => DUNAVANT2 | Some _ => DUNAVANT5 end) with (energy_rule rg) in H. rewrite Ee in H. cbn [bind] in H. fold tg in H. rewrite EIe in H. cbn [bind] in H. rewrite N in H. discriminate.
Qed.
End M.
