(** * Derivatives of the mechanical objective. *)
From Coq Require Import Reals Lra Lia List ZArith.
From Coquelicot Require Import Coquelicot.
From Verif.Spec Require Import GridSpec QuadSpec BellSpec InterpSpec RefineSpec PotentialSpec.
From Verif.Model Require Import Py Num Tensors Domain Refine Quadrature Integrators Expr Bell Interp Helpers Steps.
From Verif.Spec Require Import StepSpec EnergySpec MotionSpec TractionSpec ThermSpec MechSpec MomentumSpec.
From Verif.Proofs Require Import Lib ExprP InterpP PotP HatP QuadP IntegP StepU StepE StepF StepG StepH SimP ThermV ThermP ThermQ LipMin LipMore MechV MechP.
From Verif.Props Require Import GridProps QuadProps IntegProps InterpProps RefineProps MeshIntegProps PotentialProps EnergyProps AffineProps TractionProps.
Local Open Scope R_scope.
Import ListNotations.

(** ** At a point *)
Definition stress (F : strain2) (th : R) : strain2 := add2 (grad_of F s_martensite_potential) (coupl F th).
Lemma density_derive F G th : 0 < det2 F -> is_derive (fun x => density (exp (-5 * th)) (norm2 (add2 F (scal2 x G))) (det2 (add2 F (scal2 x G)))) 0 (frob (stress F th) G).
Proof.
  intros H. set (e := exp (-5 * th)).
  apply (is_derive_ext_loc (fun x => (1 - e) * teval (Fenv (add2 F (scal2 x G))) s_austenite_potential + e * teval (Fenv (add2 F (scal2 x G))) s_martensite_potential)).
  - apply (filter_imp (F := locally 0)) with (2 := line_open F G _ (pos_open _ H)). intros x Hx. cbv beta in Hx. rewrite aus_teval, mar_teval by lra. unfold density, WM. rewrite pow_inv by lra. unfold Rdiv. cbv beta. match goal with |- ?a = ?b => change (@eq R a b) end. ring.
  - evar_last; [apply (is_derive_plus (V := R_NormedModule)); [apply (is_derive_scal (fun x => teval (Fenv (add2 F (scal2 x G))) s_austenite_potential) 0 (1 - e)), (line_derive F G _ (aus_def F H))|apply (is_derive_scal (fun x => teval (Fenv (add2 F (scal2 x G))) s_martensite_potential) 0 e), (line_derive F G _ (mar_def F ltac:(lra)))]|].
    unfold stress, coupl. fold e. set (A := grad_of F s_austenite_potential). set (M := grad_of F s_martensite_potential). unfold plus. cbn -[A M e frob]. unfold frob, add2, scal2, PotentialSpec.st. cbn [f11 f12 f21 f22]. unfold scal, mult. cbn -[A M e]. ring.
Qed.
Lemma stress_value F th : 0 < det2 F -> (let* P := derivative_martensite_potential (mat F) in let* C := strain_derivative_coupling_potential (mat F) th in Matrix_add P C) = Ok (mat (stress F th)).
Proof.
  intros H. rewrite (coupl_value F th H). unfold derivative_martensite_potential, s_derivative_martensite. rewrite grad_ok by (apply mar_def; lra). cbn [bind]. apply add_mat.
Qed.
Definition drag (F0 F : strain2) : strain2 := scal2 2 (mul2 F0 (sym_delta F0 F)).
Lemma loss_derive F0 F G : is_derive (fun x => norm2 (sym_delta F0 (add2 F (scal2 x G))) / 2) 0 (frob (drag F0 F) G).
Proof.
  unfold drag, norm2, sym_delta, frob, add2, scal2, mul2, tr2, PotentialSpec.st. cbn [f11 f12 f21 f22]. auto_derive; [trivial|]. field.
Qed.
(** Six second derivatives: [q6 a 0 b] is the squared norm, [d6 a b] the product. *)
Lemma sq_bound c a : 0 <= c -> 0 <= a -> a < 1 -> c * a ^ 2 <= (c + 1) * a.
Proof. intros. assert (a ^ 2 <= a) by nra. assert (c * a ^ 2 <= c * a) by (apply Rmult_le_compat_l; assumption). lra. Qed.
Lemma cube_derive k : 0 <= k -> is_derive (fun x => sqrt (k * x ^ 2) ^ 3) 0 0.
Proof.
  intros Hk. assert (E : forall x, sqrt (k * x ^ 2) ^ 3 = sqrt k ^ 3 * Rabs x ^ 3). { intros x. rewrite sqrt_mult by nra. replace (x ^ 2) with (Rsqr x) by (unfold Rsqr; ring). rewrite sqrt_Rsqr_abs. ring. }
  apply (is_derive_ext (fun x => sqrt k ^ 3 * Rabs x ^ 3)); [intros x; symmetry; apply E|]. apply is_derive_Reals. intros eps He. set (c := sqrt k ^ 3). assert (Hc : 0 <= c) by (apply pow_le, sqrt_pos).
  set (d := Rmin 1 (eps / (c + 1))). assert (Hd : 0 < d) by (apply Rmin_glb_lt; [lra|apply Rdiv_lt_0_compat; lra]). exists (mkposreal d Hd). intros h Hh Hd'. cbn [pos] in Hd'.
  replace ((c * Rabs (0 + h) ^ 3 - c * Rabs 0 ^ 3) / h - 0) with (c * Rabs h ^ 2 * (Rabs h / h)) by (rewrite Rplus_0_l, Rabs_R0; field; exact Hh).
  rewrite Rabs_mult. assert (Q : Rabs (Rabs h / h) = 1) by (unfold Rdiv; rewrite Rabs_mult, Rabs_Rabsolu, Rabs_inv; apply Rinv_r, Rabs_no_R0, Hh). rewrite Q, Rmult_1_r.
  pose proof (Rabs_pos h) as P. rewrite Rabs_right by (apply Rle_ge, Rmult_le_pos; [exact Hc|apply pow_le, P]). assert (H1 : Rabs h < 1) by (eapply Rlt_le_trans; [exact Hd'|apply Rmin_l]). assert (H2 : Rabs h < eps / (c + 1)) by (eapply Rlt_le_trans; [exact Hd'|apply Rmin_r]).
  assert (H3 : c * Rabs h ^ 2 <= (c + 1) * Rabs h) by (apply sq_bound; assumption). assert (H4 : (c + 1) * Rabs h < eps); [|lra]. apply (Rmult_lt_compat_l (c + 1)) in H2; [|lra]. replace ((c + 1) * (eps / (c + 1))) with eps in H2 by (field; lra). exact H2.
Qed.
Definition q6 (a1 a2 a3 a4 a5 a6 : R) : R := a1 * a1 + a2 * a2 + a2 * a2 + a3 * a3 + (a4 * a4 + a5 * a5 + a5 * a5 + a6 * a6).
Definition d6 (a1 a2 a3 a4 a5 a6 b1 b2 b3 b4 b5 b6 : R) : R := a1 * b1 + a2 * b2 + a2 * b2 + a3 * b3 + (a4 * b4 + a5 * b5 + a5 * b5 + a6 * b6).
Lemma q6_pos a1 a2 a3 a4 a5 a6 : 0 <= q6 a1 a2 a3 a4 a5 a6. Proof. unfold q6. nra. Qed.
Lemma q6_zero a1 a2 a3 a4 a5 a6 : q6 a1 a2 a3 a4 a5 a6 = 0 -> a1 = 0 /\ a2 = 0 /\ a3 = 0 /\ a4 = 0 /\ a5 = 0 /\ a6 = 0.
Proof.
  unfold q6. intros H. pose proof (Rle_0_sqr a1). pose proof (Rle_0_sqr a2). pose proof (Rle_0_sqr a3). pose proof (Rle_0_sqr a4). pose proof (Rle_0_sqr a5). pose proof (Rle_0_sqr a6). unfold Rsqr in *.
  assert (Z : forall a, a * a = 0 -> a = 0) by (intros a E; apply Rmult_integral in E; tauto). repeat split; apply Z; lra.
Qed.
Lemma hyper_derive a1 a2 a3 a4 a5 a6 b1 b2 b3 b4 b5 b6 :
  is_derive (fun x => sqrt (q6 (a1 + x * b1) (a2 + x * b2) (a3 + x * b3) (a4 + x * b4) (a5 + x * b5) (a6 + x * b6)) ^ 3) 0 (3 * sqrt (q6 a1 a2 a3 a4 a5 a6) * d6 a1 a2 a3 a4 a5 a6 b1 b2 b3 b4 b5 b6).
Proof.
  destruct (Req_dec (q6 a1 a2 a3 a4 a5 a6) 0) as [Z|NZ].
  - destruct (q6_zero _ _ _ _ _ _ Z) as (-> & -> & -> & -> & -> & ->). replace (3 * sqrt (q6 0 0 0 0 0 0) * d6 0 0 0 0 0 0 b1 b2 b3 b4 b5 b6) with 0 by (rewrite Z, sqrt_0; ring).
    apply (is_derive_ext (fun x => sqrt (q6 b1 b2 b3 b4 b5 b6 * x ^ 2) ^ 3)); [|apply cube_derive, q6_pos]. intros x. f_equal. f_equal. unfold q6. ring.
  - pose proof (q6_pos a1 a2 a3 a4 a5 a6) as P. assert (PP : 0 < q6 a1 a2 a3 a4 a5 a6) by lra. set (s := sqrt (q6 a1 a2 a3 a4 a5 a6)). assert (S0 : 0 < s) by (apply sqrt_lt_R0, PP).
    set (f := fun x => q6 (a1 + x * b1) (a2 + x * b2) (a3 + x * b3) (a4 + x * b4) (a5 + x * b5) (a6 + x * b6)). assert (F0 : f 0 = q6 a1 a2 a3 a4 a5 a6) by (unfold f; rewrite !Rmult_0_l, !Rplus_0_r; reflexivity).
    assert (DF : is_derive f 0 (2 * d6 a1 a2 a3 a4 a5 a6 b1 b2 b3 b4 b5 b6)) by (unfold f, q6, d6; auto_derive; [trivial|ring]).
    assert (DS : is_derive (fun x => sqrt (f x)) 0 (2 * d6 a1 a2 a3 a4 a5 a6 b1 b2 b3 b4 b5 b6 / (2 * s))). { unfold s. rewrite <- F0. apply is_derive_sqrt; [exact DF|rewrite F0; exact PP]. }
    evar_last; [exact (is_derive_pow (fun x => sqrt (f x)) 3 0 _ DS)|]. cbn [Init.Nat.pred]. rewrite F0. fold s. cbn [INR]. field. lra.
Qed.

(** ** On the body *)
Lemma locally_list {A} (l : list A) (P : A -> R -> Prop) : (forall a, In a l -> locally 0 (P a)) -> locally 0 (fun x => forall a, In a l -> P a x).
Proof.
  induction l as [|a l IH]; intros H; [apply filter_forall; intros x b []|]. apply (filter_imp (F := locally 0)) with (2 := filter_and (F := locally 0) _ _ (H a (or_introl eq_refl)) (IH (fun b Hb => H b (or_intror Hb)))).
  intros x [X1 X2] b [<- |Hb]; auto.
Qed.
Lemma shifted_length y x w : length y = length w -> length (shifted y x w) = length y.
Proof. intros L. unfold shifted, lincomb. rewrite map_length, combine_length. lia. Qed.
Lemma shifted_nth y x w i : length y = length w -> nth i (shifted y x w) 0 = nth i y 0 + x * nth i w 0.
Proof. intros L. revert w i L. induction y as [|u y IH]; intros [|v w] [|i] L; try discriminate; unfold shifted, lincomb; cbn; try ring. apply IH. injection L; auto. Qed.
Section M.
Context (lg : Z -> res (list R * list R)) (m : mech) (h : R) (a b : nat) (PG : problem_grids (ms_grid m) (ms_refined m) h a b) (HM : msized m) (HL : ms_refined m = None -> midpoint_rule lg).
Let g := ms_grid m. Let rg := ms_refined m. Let tg := theta_grid g rg. Let NK := (length (g_vertices g) * dofs rg)%nat.
Let GG : good_grids g rg h a b := problem_good _ _ _ _ _ PG.
Context (qe qd : rule R) (Ee : energy_rule rg = Ok qe) (Ed : loss_rule rg = Ok qd) (Ge : good_rule qe) (Gd : good_rule qd) (Ie Id : integrator R).
Context (EIe : Integrator_ qe (g_triangles tg) (g_points tg) = Ok Ie) (EId : Integrator_ qd (g_triangles tg) (g_points tg) = Ok Id).
Context (y1 y2 w1 w2 : list R) (L1 : length y1 = NK) (L2 : length y2 = NK) (M1 : length w1 = NK) (M2 : length w2 = NK).
Let F t p := strain_at g rg y1 y2 t p. Let G t p := strain_at g rg w1 w2 t p. Let F0 t p := strain_at g rg (ms_prev_y1 m) (ms_prev_y2 m) t p.
Definition epow (t : triangle) (p : bary R) : R := frob (stress (F t p) (vat (ms_prev_theta m) t p)) (G t p).
Definition vpow (t : triangle) (p : bary R) : R := frob (drag (F0 t p) (F t p)) (G t p).
Definition hpow (t : triangle) (p : bary R) : R := match hyper_power m y1 y2 w1 w2 t p with Ok x => x | Err _ => 0 end.
Lemma moved_strain x t p : In t (g_triangles tg) -> l1 p + l2 p + l3 p = 1 -> strain_at g rg (shifted y1 x w1) (shifted y2 x w2) t p = add2 (F t p) (scal2 x (G t p)).
Proof.
  intros Ht Hp. destruct (strain_at_ok g rg h a b GG t p Ht Hp) as (X & Y & LX & LY & K). assert (S1 : length (shifted y1 x w1) = NK) by (rewrite shifted_length; lia). assert (S2 : length (shifted y2 x w2) = NK) by (rewrite shifted_length; lia).
  unfold F, G. rewrite (proj2 (K _ _ S1 S2)), (proj2 (K _ _ L1 L2)), (proj2 (K _ _ M1 M2)). unfold strain_of, add2, scal2, PotentialSpec.st. cbn [f11 f12 f21 f22]. unfold shifted. rewrite !LX, !LY by assumption. rewrite !Rmult_1_l. reflexivity.
Qed.
Lemma epow_ok t p : In t (g_triangles tg) -> In p (q_points qe) -> 0 < det2 (F t p) -> elastic_power m y1 y2 w1 w2 t p = Ok (epow t p).
Proof.
  intros Ht Hp D. destruct (proj1 HM) as [_ _ _ _ PT]. destruct (strain_at_ok g rg h a b GG t p Ht (proj2 (proj2 Ge) p Hp)) as (X & Y & _ & _ & K). unfold elastic_power. fold g rg. rewrite (proj1 (K _ _ L1 L2)), (proj1 (K _ _ M1 M2)). cbn [bind]. rewrite (temp_at g rg h a b GG (ms_prev_theta m) t p PT Ht). cbn [bind].
  fold (F t p). pose proof (stress_value (F t p) (vat (ms_prev_theta m) t p) D) as S. apply bind_ok' in S as [P [E1 S]]. apply bind_ok' in S as [C [E2 S]]. rewrite E1. cbn [bind]. rewrite E2. cbn [bind]. rewrite S. cbn [bind]. apply scalar_mat.
Qed.
Lemma vpow_ok t p : In t (g_triangles tg) -> In p (q_points qd) -> viscous_power m y1 y2 w1 w2 t p = Ok (vpow t p).
Proof.
  intros Ht Hp. destruct (proj1 HM) as [P1 P2 _ _ _]. destruct (strain_at_ok g rg h a b GG t p Ht (proj2 (proj2 Gd) p Hp)) as (X & Y & _ & _ & K). unfold viscous_power. fold g rg. rewrite (proj1 (K _ _ P1 P2)), (proj1 (K _ _ L1 L2)), (proj1 (K _ _ M1 M2)). cbn [bind].
  rewrite sym_value. cbn [bind]. rewrite matmul_mat. cbn [bind]. rewrite scalar_mat. cbn [bind]. apply (f_equal Ok). unfold vpow, drag, F0, F, G. unfold frob, scal2, PotentialSpec.st. cbn [f11 f12 f21 f22]. ring.
Qed.
Lemma hpow_ok r t p : rg = Some r -> In t (g_triangles tg) -> l1 p + l2 p + l3 p = 1 -> hyper_power m y1 y2 w1 w2 t p = Ok (hpow t p) /\ is_derive (fun x => hyper_at g rg (shifted y1 x w1) (shifted y2 x w2) t p) 0 (hpow t p).
Proof.
  intros E Ht Hp. pose proof GG as GG'. unfold hpow, hyper_power. fold g rg. unfold NK, tg in *. rewrite E in *. destruct (reg_functionals g r h a b t p GG' Ht Hp) as (X & Y & XX & XY & YY & _ & F2).
  pose proof (fu_hess _ _ _ _ _ _ _ F2) as HH. assert (V : forall z1 z2 : list R, length z1 = (length (g_vertices g) * dofs (Some r))%nat -> length z2 = (length (g_vertices g) * dofs (Some r))%nat ->
    deform_hyper_strain (comp_interp g (Some r) z1) (comp_interp g (Some r) z2) t p = Ok (mkTensor3 2 2 2 [[[XX z1; XY z1]; [XY z1; YY z1]]; [[XX z2; XY z2]; [XY z2; YY z2]]])).
  { intros z1 z2 Z1 Z2. unfold deform_hyper_strain. rewrite (HH z1 Z1), (HH z2 Z2). cbn [bind]. apply stack_value. }
  rewrite (V y1 y2 L1 L2), (V w1 w2 M1 M2). cbn [bind]. split; [reflexivity|].
  assert (N : forall a1 a2 a3 a4 a5 a6, Tensor3D_norm (mkTensor3 2 2 2 [[[a1; a2]; [a2; a3]]; [[a4; a5]; [a5; a6]]]) = sqrt (q6 a1 a2 a3 a4 a5 a6)).
  { intros. unfold Tensor3D_norm, Tensor3D_normsqr. rewrite nsum_Rsum. cbn -[pow sqrt Rplus Rmult]. unfold nsqrt, RNum. f_equal. unfold q6. cbn. ring. }
  assert (DD : forall a1 a2 a3 a4 a5 a6 b1 b2 b3 b4 b5 b6 : R, Vector_dot [a1; a2; a2; a3; a4; a5; a5; a6] [b1; b2; b2; b3; b4; b5; b5; b6] = d6 a1 a2 a3 a4 a5 a6 b1 b2 b3 b4 b5 b6) by (intros; unfold Vector_dot; rewrite nsum_Rsum; unfold d6; cbn; ring).
  cbn [t_data concat app]. rewrite N, DD.
  apply (is_derive_ext (fun x => sqrt (q6 (XX y1 + x * XX w1) (XY y1 + x * XY w1) (YY y1 + x * YY w1) (XX y2 + x * XX w2) (XY y2 + x * XY w2) (YY y2 + x * YY w2)) ^ 3)); [|apply hyper_derive].
  intros x. assert (S1 : length (shifted y1 x w1) = length y1) by (apply shifted_length; lia). assert (S2 : length (shifted y2 x w2) = length y2) by (apply shifted_length; lia). unfold hyper_at. rewrite V by lia. unfold hyper_elastic_potential, HYPER_ELASTIC_POWER. rewrite N. f_equal. f_equal. unfold shifted.
  rewrite !(fu_linxx _ _ _ _ _ _ _ F2), !(fu_linxy _ _ _ _ _ _ _ F2), !(fu_linyy _ _ _ _ _ _ _ F2) by assumption. rewrite !Rmult_1_l. reflexivity.
Qed.
Lemma work_shift x : work m h (shifted y1 x w1) (shifted y2 x w2) = work m h y1 y2 + x * work m h w1 w2.
Proof.
  unfold work. fold g. rewrite <- Rmult_assoc, (Rmult_comm x h), Rmult_assoc, <- Rmult_plus_distr_l. f_equal. induction (b_edges (g_neumann g)) as [|e es IH]; cbn [sum_over]; [ring|]. rewrite IH. unfold mean_of_ends, at_vertex. rewrite !shifted_nth by lia. field.
Qed.
Definition rest_power : R := match rg with
  | None => - work m h w1 w2 + ms_fps m * WS g rg qd Id vpow
  | Some _ => ms_reg m * WS g rg qe Ie hpow + ms_fps m * WS g rg qd Id vpow
  end.
Context (PX : forall t p, In t (g_triangles tg) -> In p (q_points qe) -> 0 < det2 (F t p)).
Lemma WS_derive q I f f' : (forall t p, In t (g_triangles tg) -> In p (q_points q) -> is_derive (fun x => f x t p) 0 (f' t p)) -> is_derive (fun x => WS g rg q I (f x)) 0 (WS g rg q I f').
Proof.
  intros H. unfold WS. apply (ws_derive (g_triangles (theta_grid g rg)) (i_areas I) (fun x t => weighted_sum (q_points q) (q_weights q) (f x t)) (fun t => weighted_sum (q_points q) (q_weights q) (f' t))). intros t Ht.
  apply (ws_derive (q_points q) (q_weights q) (fun x p => f x t p) (f' t)). intros p Hp. apply H; assumption.
Qed.
Lemma value_derive : is_derive (fun x => WS g rg qe Ie (elastic_at m (shifted y1 x w1) (shifted y2 x w2)) + rest m h qe qd Ie Id (shifted y1 x w1) (shifted y2 x w2)) 0 (WS g rg qe Ie epow + rest_power).
Proof.
  assert (DV : is_derive (fun x => WS g rg qd Id (loss_at m (shifted y1 x w1) (shifted y2 x w2))) 0 (WS g rg qd Id vpow)).
  { apply (WS_derive qd Id (fun x => loss_at m (shifted y1 x w1) (shifted y2 x w2)) vpow). intros t p Ht Hp. apply (is_derive_ext (fun x => norm2 (sym_delta (F0 t p) (add2 (F t p) (scal2 x (G t p)))) / 2)); [|apply loss_derive].
    intros x. unfold loss_at. fold g rg. rewrite (moved_strain x t p Ht (proj2 (proj2 Gd) p Hp)). reflexivity. }
  apply (is_derive_plus (V := R_NormedModule)).
  - apply (WS_derive qe Ie (fun x => elastic_at m (shifted y1 x w1) (shifted y2 x w2)) epow). intros t p Ht Hp. apply (is_derive_ext (fun x => density (exp (-5 * vat (ms_prev_theta m) t p)) (norm2 (add2 (F t p) (scal2 x (G t p)))) (det2 (add2 (F t p) (scal2 x (G t p)))))); [|apply density_derive, PX; assumption].
    intros x. unfold elastic_at. fold g rg. rewrite (moved_strain x t p Ht (proj2 (proj2 Ge) p Hp)). reflexivity.
  - unfold rest, rest_power. fold rg g. destruct (opt_case rg) as [[r Hr]|Hr]; rewrite !Hr; rewrite <- ?Hr.
    + apply (is_derive_plus (V := R_NormedModule)); [|exact (is_derive_scal _ _ (ms_fps m) _ DV)]. apply (is_derive_scal (fun x => WS g rg qe Ie (hyper_at g rg (shifted y1 x w1) (shifted y2 x w2))) 0 (ms_reg m)).
      apply (WS_derive qe Ie (fun x => hyper_at g rg (shifted y1 x w1) (shifted y2 x w2)) hpow). intros t p Ht Hp. apply (hpow_ok r t p Hr Ht (proj2 (proj2 Ge) p Hp)).
    + apply (is_derive_plus (V := R_NormedModule)); [|exact (is_derive_scal _ _ (ms_fps m) _ DV)]. apply (is_derive_ext (fun x => - (work m h y1 y2 + x * work m h w1 w2))); [intros x; rewrite work_shift; reflexivity|]. auto_derive; [trivial|ring].
Qed.
Lemma form_value : momentum_form lg m y1 y2 w1 w2 = Ok (WS g rg qe Ie epow + rest_power).
Proof.
  assert (IE : integrate Ie (elastic_power m y1 y2 w1 w2) = Ok (WS g rg qe Ie epow)) by (apply (WS_ok g rg qe Ie); [exact EIe|]; intros t p Ht Hp; apply epow_ok; auto).
  assert (IV : integrate Id (viscous_power m y1 y2 w1 w2) = Ok (WS g rg qd Id vpow)) by (apply (WS_ok g rg qd Id); [exact EId|]; intros t p Ht Hp; apply vpow_ok; auto).
  unfold momentum_form, rest_power, over_body. fold g rg. destruct (opt_case rg) as [[r Hr]|Hr].
  - assert (E5 : @DUNAVANT5 R RNum = Ok qe) by (pose proof Ee as E; unfold energy_rule in E; rewrite Hr in E; exact E). assert (E5' : @DUNAVANT5 R RNum = Ok qd) by (pose proof Ed as E; unfold loss_rule in E; rewrite Hr in E; exact E). assert (qe = qd) by congruence. assert (Ie = Id) by congruence.
    assert (IH : integrate Ie (hyper_power m y1 y2 w1 w2) = Ok (WS g rg qe Ie hpow)) by (apply (WS_ok g rg qe Ie); [exact EIe|]; intros t p Ht Hp; apply (hpow_ok r t p Hr Ht (proj2 (proj2 Ge) p Hp))).
    subst qd Id. rewrite E5. cbn [bind]. fold tg. rewrite EIe. cbn [bind]. rewrite IE, IV, IH. rewrite Hr. cbn [bind]. apply (f_equal Ok). ring.
  - pose proof PG as (Hs & Ha & Hb & (so & w & h' & f & Fw & Fh & DG) & _). assert (LL : forall y : list R, length y = NK -> length y = length (g_vertices (ms_grid m))) by (intros y L; rewrite L; unfold NK, g; rewrite Hr; cbn; lia).
    assert (E2 : @DUNAVANT2 R RNum = Ok qe) by (pose proof Ee as E; unfold energy_rule in E; rewrite Hr in E; exact E). assert (E1 : @CENTROID R RNum = Ok qd) by (pose proof Ed as E; unfold loss_rule in E; rewrite Hr in E; exact E).
    rewrite E2, E1. cbn [bind]. fold tg. rewrite EIe, EId. cbn [bind]. rewrite IE, IV, (proj1 (traction_work so w h' f h a b lg m w1 w2 Hs Fw Fh Ha Hb (proj1 (proj2 HM Hr)) (proj2 (proj2 HM Hr)) DG (HL Hr) (LL w1 M1) (LL w2 M2))).
    rewrite Hr. cbn [bind]. apply (f_equal Ok). unfold work. fold g. ring.
Qed.
Lemma near : locally 0 (fun x => mech_objective lg m (shifted y1 x w1) (shifted y2 x w2) = Ok (WS g rg qe Ie (elastic_at m (shifted y1 x w1) (shifted y2 x w2)) + rest m h qe qd Ie Id (shifted y1 x w1) (shifted y2 x w2))).
Proof.
  assert (Q : locally 0 (fun x => forall tp, In tp (list_prod (g_triangles tg) (q_points qe)) -> 0 < det2 (add2 (F (fst tp) (snd tp)) (scal2 x (G (fst tp) (snd tp)))))).
  { apply (locally_list _ (fun tp x => 0 < det2 (add2 (F (fst tp) (snd tp)) (scal2 x (G (fst tp) (snd tp)))))). intros [t p] Htp. apply in_prod_iff in Htp as [Ht Hp]. cbn [fst snd]. apply (line_open (F t p) (G t p) (fun d => 0 < d)), pos_open, PX; assumption. }
  apply (filter_imp (F := locally 0)) with (2 := Q). intros x Hx. assert (S1 : length (shifted y1 x w1) = NK) by (rewrite shifted_length; lia). assert (S2 : length (shifted y2 x w2) = NK) by (rewrite shifted_length; lia).
  apply (mech_value lg m h a b PG HM HL qe qd Ee Ed Ge Gd Ie Id EIe EId _ _ S1 S2). apply (positive_iff m h a b PG qe Ge _ _ S1 S2). intros t p Ht Hp. fold g rg. rewrite (moved_strain x t p Ht (proj2 (proj2 Ge) p Hp)). exact (Hx (t, p) (in_prod _ _ t p Ht Hp)).
Qed.
End M.
