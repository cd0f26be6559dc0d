(** * Energies of mechanical problems: C60, C77, C78. *)
From Coq Require Import Reals Lra Lia List ZArith String.
From Verif.Spec Require Import GridSpec QuadSpec InterpSpec RefineSpec PotentialSpec.
From Verif.Model Require Import Py Num Tensors Domain Refine Quadrature Integrators Bell Interp Helpers Steps Simulation.
From Verif.Spec Require Import SimSpec LiveSpec StepSpec EnergySpec.
From Verif.Proofs Require Import Lib GridP StdOrder InterpP PotP StepP SimP SimQ SimR SimH SimL SimA SimE SimF StepD StepU StepE StepF StepG SimC.
From Verif.Props Require Import GridProps RefineProps InterpProps QuadProps IntegProps SimProps UpdateProps.
Local Open Scope R_scope.
Import ListNotations.

(** ** C77 *)
Section Rect.
Context (so : SetOrder) (w h : R) (f : fixopt) (s : R) (a b : nat) (Hs : 0 < s) (Ha : fits w s a) (Hb : fits h s b) (A1 : (1 <= a)%nat) (B1 : (1 <= b)%nat).
Lemma rect_neumann g : domain_grid so w h f s = Ok g -> (forall e, In e (b_edges (g_neumann g)) -> In (fst e) (b_vertices (g_neumann g)) /\ In (snd e) (b_vertices (g_neumann g))) /\ (forall v, In v (b_vertices (g_neumann g)) -> In v (g_vertices g)).
Proof.
  intros Eg. split.
  - intros [x y] He. exact (C18_neumann_edge_ends_partial _ _ _ _ _ _ _ _ _ _ Hs Ha Hb Eg A1 B1 He).
  - intros v Hv. apply (C18_neumann_vertices_exact_partial _ _ _ _ _ _ _ _ Hs Ha Hb Eg) in Hv as [[d (i & j & [V _] & _)] _]. exact V.
Qed.
End Rect.
(** The objective of an unregularized mechanical problem on a rectangle is defined exactly at the deformations that keep every
    triangle positively oriented; elsewhere its evaluation raises. *)
Theorem C77_objective_defined : forall so w h f s a b lg pts ws m y1 y2, 0 < s -> fits w s a -> fits h s b -> (1 <= a)%nat -> (1 <= b)%nat ->
  mech_history m -> ms_refined m = None -> domain_grid so w h f s = Ok (ms_grid m) -> lg 1%Z = Ok (pts, ws) ->
  List.length y1 = List.length (g_vertices (ms_grid m)) -> List.length y2 = List.length (g_vertices (ms_grid m)) ->
  ((exists J, mech_objective lg m y1 y2 = Ok J) <-> keeps_orientation (ms_grid m) y1 y2) /\
  (~ keeps_orientation (ms_grid m) y1 y2 -> mech_objective lg m y1 y2 = Err ValueError).
Proof.
  intros so w h f s a b lg pts ws m y1 y2 Hs Ha Hb A1 B1 HM PL Eg LG L1 L2. pose proof (mech_history_len m HM) as [P1 P2 _ _ PT]. destruct (mech_history_keys m HM PL) as [K1 K2]. rewrite PL in P1, P2, PT. cbn [dofs theta_grid] in P1, P2, PT. rewrite Nat.mul_1_r in P1, P2.
  destruct (rect_neumann so w h f s a b Hs Ha Hb A1 B1 _ Eg) as [NE NV]. pose proof (proj1 (C27_rectangle_grid_is_mesh _ _ _ _ _ _ _ _ Hs Ha Hb Eg A1 B1)) as M.
  destruct (objective_defined m s a b Hs M PL PT P1 P2 y1 y2 L1 L2 K1 K2 NE NV lg pts ws LG) as [D1 D2]. split; [split; [|exact D1]|exact D2].
  intros [J E]. destruct (Classical_Prop.classic (keeps_orientation (ms_grid m) y1 y2)) as [K|K]; [exact K|]. rewrite (D2 K) in E. discriminate.
Qed.
Print Assumptions C77_objective_defined.

(** With regularization: exactly at the deformations whose strain has positive determinant at all quadrature points. *)
Theorem C77_objective_defined_regularized : forall so w h f s a b N lg q m r y1 y2, 0 < s -> fits w s a -> fits h s b -> (1 <= a)%nat -> (1 <= b)%nat -> (1 <= N)%nat -> / 10 ^ 15 <= s / INR N ->
  mech_history m -> domain_grid so w h f s = Ok (ms_grid m) -> refine (ms_grid m) (Z.of_nat N) = Ok r -> ms_refined m = Some r -> DUNAVANT5 = Ok q ->
  List.length y1 = (List.length (g_vertices (ms_grid m)) * 6)%nat -> List.length y2 = (List.length (g_vertices (ms_grid m)) * 6)%nat ->
  ((exists J, mech_objective lg m y1 y2 = Ok J) <-> positive_jacobian (ms_grid m) (Some r) q y1 y2) /\
  (~ positive_jacobian (ms_grid m) (Some r) q y1 y2 -> mech_objective lg m y1 y2 = Err ValueError).
Proof.
  intros so w h f s a b N lg q m r y1 y2 Hs Ha Hb A1 B1 N1 HN HM Eg Rf RR Eq L1 L2. pose proof (mech_history_len m HM) as [P1 P2 _ _ PT]. rewrite RR in P1, P2, PT. cbn [dofs theta_grid] in P1, P2, PT.
  pose proof (proj1 (C27_rectangle_grid_is_mesh _ _ _ _ _ _ _ _ Hs Ha Hb Eg A1 B1)) as M. assert (GG : good_grids (ms_grid m) (Some r) s a b) by (split; [exact Hs|]; split; [exact A1|]; split; [exact B1|]; split; [exact M|]; exists N; auto).
  destruct (objective_defined_reg m r s a b GG RR PT P1 P2 y1 y2 L1 L2 lg q Eq) as [D1 D2]. split; [split; [|exact D1]|exact D2].
  intros [J E]. destruct (Classical_Prop.classic (positive_jacobian (ms_grid m) (Some r) q y1 y2)) as [K|K]; [exact K|]. rewrite (D2 K) in E. discriminate.
Qed.
Print Assumptions C77_objective_defined_regularized.

(** In a simulation. *)
Definition admissible (g : grid R) (rg : option (refined_grid R)) (y1 y2 : list R) : Prop :=
  match rg with None => keeps_orientation g y1 y2 | Some r => forall q, DUNAVANT5 = Ok q -> positive_jacobian g (Some r) q y1 y2 end.
Section Sim.
Context (u : setting) (lg : Z -> res (list R * list R)) (HL : p_regularization (se_params u) = None -> exists pts ws, lg 1%Z = Ok (pts, ws)) (CA : cautious lg (se_solver u)).
Context (FE : fine_enough u) (Hw1 : p_scale (se_params u) <= se_width u) (Hh1 : p_scale (se_params u) <= se_height u).
Lemma ground_grids g rg ps : ground u g rg ps -> exists mc nc, good_grids g rg (p_scale (se_params u)) mc nc /\ fits (se_width u) (p_scale (se_params u)) mc /\ fits (se_height u) (p_scale (se_params u)) nc.
Proof.
  intros G. pose proof (gr_valid _ _ _ _ G) as V. pose proof (params_ok u V) as (_ & _ & _ & PS & PK). destruct V as [Hw [Hh _]].
  destruct (fits_exists _ _ Hw PS) as [mc Hmc]. destruct (fits_exists _ _ Hh PS) as [nc Hnc]. exists mc, nc. pose proof (fits_one _ _ _ PS Hw1 Hmc) as M1. pose proof (fits_one _ _ _ PS Hh1 Hnc) as N1.
  split; [|split; assumption]. split; [exact PS|]. split; [exact M1|]. split; [exact N1|]. split; [exact (proj1 (C27_rectangle_grid_is_mesh _ _ _ _ _ _ _ _ PS Hmc Hnc (gr_grid _ _ _ _ G) M1 N1))|].
  destruct (gr_ref _ _ _ _ G) as [[_ ->]|(e & k & r & E1 & E2 & E3 & ->)]; [exact I|]. unfold fine_enough in FE. rewrite E1, E2 in FE. destruct FE as (_ & _ & F).
  rewrite E1 in PK. destruct PK as (_ & k' & E4 & Hk). rewrite E2 in E4. injection E4 as <-.
  exists (Z.to_nat k). split; [lia|]. rewrite INR_IZR_INZ, Z2Nat.id by lia. split; [|exact E3]. assert (K1 : 1 <= IZR k) by (apply (IZR_le 1 k); lia). apply (Rle_trans _ _ _ F). apply Rmult_le_compat_l; [lra|]. apply Rinv_le_contravar; lra.
Qed.
Lemma reference_affine g rg ps : ground u g rg ps -> affine_field g rg 1 0 0 (iref1 rg ps) /\ affine_field g rg 0 1 0 (iref2 rg ps).
Proof.
  intros G. pose proof (gr_len _ _ _ _ G) as GL. destruct (iref_length rg ps) as [R1 R2]. rewrite GL in R1, R2. split; (split; [assumption|]); intros v p Hp j Hj; apply (points_nth _ ps _ _ _ (gr_points _ _ _ _ G)) in Hp; destruct rg as [r|]; cbn [dofs iref1 iref2] in *.
  - clear -Hp Hj. revert v Hp. induction ps as [|[x y] ps IH]; intros [|v] Hp; try discriminate.
    + injection Hp as -> ->. cbn [flat_map]. rewrite nth_error_app1 by (cbn; lia). rewrite Nat.mul_0_l. replace (1 * fst p + 0 * snd p + 0) with (fst p) by ring. reflexivity.
    + cbn [flat_map]. rewrite nth_error_app2 by (cbn; lia). match goal with |- nth_error _ ?k = _ => replace k with (v * 6 + j)%nat by (cbn; lia) end. exact (IH v Hp).
  - assert (j = 0)%nat by lia. subst j. rewrite Nat.mul_1_r, Nat.add_0_r, nth_error_map, Hp. cbn. f_equal. ring.
  - clear -Hp Hj. revert v Hp. induction ps as [|[x y] ps IH]; intros [|v] Hp; try discriminate.
    + injection Hp as -> ->. cbn [flat_map]. rewrite nth_error_app1 by (cbn; lia). rewrite Nat.mul_0_l. replace (0 * fst p + 1 * snd p + 0) with (snd p) by ring. reflexivity.
    + cbn [flat_map]. rewrite nth_error_app2 by (cbn; lia). match goal with |- nth_error _ ?k = _ => replace k with (v * 6 + j)%nat by (cbn; lia) end. exact (IH v Hp).
  - assert (j = 0)%nat by lia. subst j. rewrite Nat.mul_1_r, Nat.add_0_r, nth_error_map, Hp. cbn. f_equal. ring.
Qed.
Lemma reference_admissible g rg ps : ground u g rg ps -> admissible g rg (iref1 rg ps) (iref2 rg ps).
Proof.
  intros G. destruct (ground_grids _ _ _ G) as (mc & nc & GG & _). destruct (reference_affine g rg ps G) as [A1 A2]. destruct rg as [r|]; unfold admissible.
  - intros q Eq t b Ht Hb. destruct dun5_good as (q' & Eq' & _ & _ & SQ). rewrite Eq in Eq'. injection Eq' as <-. destruct (field g (Some r) _ mc nc GG t b Ht (SQ b Hb)) as (X & Y & FU). exists (strain_of X Y (iref1 (Some r) ps) (iref2 (Some r) ps)).
    split; [apply field_strain; [exact FU|exact (proj1 A1)|exact (proj1 A2)]|]. unfold strain_of, det2, PotentialSpec.st. cbn [f11 f12 f21 f22]. rewrite (fu_affx _ _ _ _ _ _ FU _ _ _ _ A1), (fu_affx _ _ _ _ _ _ FU _ _ _ _ A2), (fu_affy _ _ _ _ _ _ FU _ _ _ _ A1), (fu_affy _ _ _ _ _ _ FU _ _ _ _ A2). lra.
  - intros [[a b] c] Ht. destruct GG as (PS & _ & _ & M & _). destruct (HatP.mesh_triangle_at g _ _ _ M _ Ht) as (p & q & r & T). exists p, q, r.
    assert (V : forall v z, nth_error (g_points g) v = Some (vec z) -> nth_error (iref1 None ps) v = Some (fst z) /\ nth_error (iref2 None ps) v = Some (snd z)).
    { intros v z E. apply (points_nth _ ps _ _ _ (gr_points _ _ _ _ G)) in E. destruct (iref_nth None ps v _ _ E) as [A B]. cbn [dofs] in A, B. rewrite Nat.mul_1_r in A, B. split; assumption. }
    pose proof (HatP.mesh_cross g _ _ _ M _ _ _ _ T) as CR. destruct T as (T1 & A & B & C). destruct (V _ _ A) as [A11 A12]. destruct (V _ _ B) as [B1 B2]. destruct (V _ _ C) as [C1 C2]. repeat split; try assumption. rewrite CR. nra.
Qed.
Lemma posed_objective g rg ps m : ground u g rg ps -> minv (se_params u) g rg (se_traction u) (ifx g rg) (iref1 rg ps) (iref2 rg ps) m -> forall y1 y2, List.length y1 = (List.length (g_vertices g) * dofs rg)%nat -> List.length y2 = (List.length (g_vertices g) * dofs rg)%nat ->
  (exists J, mech_objective lg m y1 y2 = Ok J) <-> admissible g rg y1 y2.
Proof.
  intros G IM y1 y2 L1 L2. destruct (ground_grids _ _ _ G) as (mc & nc & GG & F1 & F2). pose proof (mi_grid _ _ _ _ _ _ _ _ IM) as Em. pose proof (mi_ref _ _ _ _ _ _ _ _ IM) as PL.
  pose proof (mi_p1 _ _ _ _ _ _ _ _ IM) as P1. pose proof (mi_p2 _ _ _ _ _ _ _ _ IM) as P2. pose proof (mi_th _ _ _ _ _ _ _ _ IM) as PT. unfold num_vertices in P1, P2, PT.
  assert (W : (admissible g rg y1 y2 -> exists J, mech_objective lg m y1 y2 = Ok J) /\ (~ admissible g rg y1 y2 -> mech_objective lg m y1 y2 = Err ValueError)).
  { destruct rg as [r|]; cbn [dofs theta_grid] in *.
    - subst g. destruct dun5_good as (q & Eq & _). destruct (objective_defined_reg m r _ mc nc GG PL PT P1 P2 y1 y2 L1 L2 lg q Eq) as [D1 D2]. split; [intros A; exact (D1 (A q Eq))|]. intros A. apply D2. intros B. apply A. intros q' Eq'. rewrite Eq in Eq'. injection Eq' as <-. exact B.
    - rewrite Nat.mul_1_r in *. destruct GG as (PS & M1 & N1 & M & _). destruct (rect_neumann _ _ _ _ _ _ _ PS F1 F2 M1 N1 _ (gr_grid _ _ _ _ G)) as [NE NV]. destruct (mi_g _ _ _ _ _ _ _ _ IM eq_refl) as [K1 K2]. subst g.
      destruct HL as (pts & ws & LG). { destruct (gr_ref _ _ _ _ G) as [[Z _]|(e & k & r & _ & _ & _ & Z)]; [exact Z|discriminate]. }
      exact (objective_defined m _ mc nc PS M PL PT P1 P2 y1 y2 L1 L2 K1 K2 NE NV lg pts ws LG). }
  destruct W as [W1 W2]. split; [|exact W1]. intros [J E]. destruct (Classical_Prop.classic (admissible g rg y1 y2)) as [K|K]; [exact K|]. rewrite (W2 K) in E. discriminate.
Qed.
Lemma keep_admissible g rg ps m c a1 a2 th time : ground u g rg ps -> posed_m u g rg (ifx g rg) (iref1 rg ps) (iref2 rg ps) m a1 a2 th time -> admissible g rg a1 a2 -> admissible g rg (map v_val (ms_y1 (m_loaded u c m))) (map v_val (ms_y2 (m_loaded u c m))).
Proof.
  intros G PM HP. pose proof (pm_inv _ _ _ _ _ _ _ _ _ _ _ PM) as IM. assert (I2 : minv (se_params u) g rg (se_traction u) (ifx g rg) (iref1 rg ps) (iref2 rg ps) (m_loaded u c m)) by (apply m_solve_inv, IM).
  pose proof (mi_y1 _ _ _ _ _ _ _ _ IM) as Y1. pose proof (mi_y2 _ _ _ _ _ _ _ _ IM) as Y2. pose proof (mi_y1 _ _ _ _ _ _ _ _ I2) as Z1. pose proof (mi_y2 _ _ _ _ _ _ _ _ I2) as Z2.
  destruct (proj2 (posed_objective g rg ps m G IM (map v_val (ms_y1 m)) (map v_val (ms_y2 m)) ltac:(rewrite map_length; exact Y1) ltac:(rewrite map_length; exact Y2))) as [J EJ].
  { rewrite (pm_v1 _ _ _ _ _ _ _ _ _ _ _ PM), (pm_v2 _ _ _ _ _ _ _ _ _ _ _ PM). exact HP. }
  destruct (CA c m J EJ) as (J' & EJ' & _). apply (proj1 (posed_objective g rg ps m G IM _ _ ltac:(rewrite map_length; exact Z1) ltac:(rewrite map_length; exact Z2))). exists J'. exact EJ'.
Qed.
(** All recorded deformations have positive determinants at the points of the rule of the energy. *)
Definition all_admissible (s : sim) : Prop := exists g rg ps, ground u g rg ps /\ hist u g rg ps s /\ forall st, In st (s_steps s) -> exists a1 a2 th, holds g rg st a1 a2 th /\ List.length a1 = (num_vertices g * dofs rg)%nat /\ List.length a2 = (num_vertices g * dofs rg)%nat /\ admissible g rg a1 a2.
Lemma steps_admissible s : reachable u s -> all_admissible s.
Proof.
  intros H. destruct (reachable_y u admissible reference_admissible keep_admissible s H) as (g & rg & ps & G & [HH NOW ST]). exists g, rg, ps. auto.
Qed.
End Sim.
(** If the solver never leaves the domain of the objective, every recorded step of every unregularized simulation (with at least
    one cell, also after runs that raised) keeps all triangles positively oriented: no triangle is ever inverted. *)
Theorem C77_recorded_steps_keep_orientation : forall u lg pts ws s st, reachable u s -> s_refined s = None -> cautious lg (se_solver u) -> lg 1%Z = Ok (pts, ws) ->
  p_scale (se_params u) <= se_width u -> p_scale (se_params u) <= se_height u -> In st (s_steps s) -> step_keeps_orientation (s_grid s) st.
Proof.
  intros u lg pts ws s st H Hr CA LG Hw1 Hh1 Hst. destruct (reachable_hist u s H) as (g0 & rg0 & ps0 & G0 & HH0). destruct (hist_grid _ _ _ _ _ HH0) as (_ & Er0 & _). rewrite Hr in Er0. subst rg0.
  assert (PR : p_regularization (se_params u) = None) by (destruct (gr_ref _ _ _ _ G0) as [[Z _]|(e & k & r & _ & _ & _ & Z)]; [exact Z|discriminate]).
  assert (FE : fine_enough u) by (unfold fine_enough; rewrite PR; exact I).
  destruct (steps_admissible u lg (fun _ => ex_intro _ pts (ex_intro _ ws LG)) CA FE Hw1 Hh1 s H) as (g & rg & ps & G & HH & ST). destruct (hist_grid _ _ _ _ _ HH) as (Eg & Er & _). rewrite Eg. rewrite Er in Hr. clear Eg Er. subst rg.
  destruct (ST st Hst) as (a1 & a2 & th & HO & L1 & L2 & C). intros a b c Ht. destruct (C _ Ht) as (p & q & r & A1 & A2 & B1 & B2 & C1 & C2 & D). exists p, q, r. rewrite (ho_y _ _ _ _ _ _ HO).
  assert (V : forall v x, nth_error a1 v = Some x -> (v < num_vertices g)%nat). { intros v x E. assert (v < List.length a1)%nat by (apply nth_error_Some; congruence). cbn [dofs] in L1. lia. }
  repeat split; try exact D; rewrite y_at_zero by (try assumption; try lia; eapply V; eassumption); cbn [Nat.eqb dofs]; rewrite Nat.mul_1_r; assumption.
Qed.
Print Assumptions C77_recorded_steps_keep_orientation.
(** With regularization: the strain of every recorded step, restricted to the refined grid, has positive determinant at all
    quadrature points. *)
Theorem C77_recorded_steps_positive_jacobian : forall u lg q s r st, reachable u s -> s_refined s = Some r -> cautious lg (se_solver u) -> fine_enough u -> DUNAVANT5 = Ok q -> In st (s_steps s) ->
  forall t b, In t (g_triangles (r_grid r)) -> In b (q_points q) -> exists F, deform_strain (RefI (st_y1 st) r) (RefI (st_y2 st) r) t b = Ok (mat F) /\ 0 < det2 F.
Proof.
  intros u lg q s r st H Hr CA FE Eq Hst t b Ht Hb. destruct (reachable_hist u s H) as (g0 & rg0 & ps0 & G0 & HH0). destruct (hist_grid _ _ _ _ _ HH0) as (_ & Er0 & _). rewrite Hr in Er0. subst rg0.
  destruct (gr_ref _ _ _ _ G0) as [[_ Z]|(e & k & r' & PR & PK & _ & _)]; [discriminate|]. pose proof FE as FE'. unfold fine_enough in FE'. rewrite PR, PK in FE'. destruct FE' as (Hw1 & Hh1 & _).
  destruct (steps_admissible u lg ltac:(congruence) CA FE Hw1 Hh1 s H) as (g & rg & ps & G & HH & ST). destruct (hist_grid _ _ _ _ _ HH) as (_ & Er & _). rewrite Hr in Er. subst rg.
  destruct (ST st Hst) as (a1 & a2 & th & HO & L1 & L2 & C). destruct (C q Eq t b Ht Hb) as (F & EF & D). exists F. rewrite (ho_i1 _ _ _ _ _ _ HO), (ho_i2 _ _ _ _ _ _ HO). split; [exact EF|exact D].
Qed.
Print Assumptions C77_recorded_steps_positive_jacobian.

(** ** C60 *)
Lemma at_rest m : mech_history m -> mech_y m = mech_prev_y m -> map v_val (ms_y1 m) = ms_prev_y1 m /\ map v_val (ms_y2 m) = ms_prev_y2 m.
Proof.
  intros HM E. destruct (mech_history_len m HM) as [P1 P2 Y1 Y2 _]. unfold mech_y, mech_prev_y, y_array in E. injection E as E.
  destruct (unpack_pack (num_vertices (ms_grid m)) (dofs (ms_refined m)) (map v_val (ms_y1 m)) (map v_val (ms_y2 m)) ltac:(rewrite map_length; exact Y1) ltac:(rewrite map_length; exact Y2)) as [A B].
  destruct (unpack_pack (num_vertices (ms_grid m)) (dofs (ms_refined m)) (ms_prev_y1 m) (ms_prev_y2 m) P1 P2) as [C D]. rewrite E in A, B. split; congruence.
Qed.
Lemma objective_parts lg m y1 y2 J : mech_objective lg m y1 y2 = Ok J -> exists E D, mech_elastic_energy m y1 y2 = Ok E /\ mech_dissipation m y1 y2 = Ok D /\ 0 <= D /\
  (ms_refined m = None -> exists W, mech_traction_energy lg m y1 y2 = Ok W /\ J = E - W + ms_fps m * D) /\
  (ms_refined m <> None -> exists H, mech_hyper_elastic_energy m y1 y2 = Ok H /\ J = E + ms_reg m * H + ms_fps m * D).
Proof.
  intros EJ. unfold mech_objective in EJ. apply bind_ok' in EJ as [E [EE EJ]]. destruct (ms_refined m) eqn:Er.
  - apply bind_ok' in EJ as [H [EH EJ]]. apply bind_ok' in EJ as [D [ED EJ]]. injection EJ as <-. exists E, D. split; [exact EE|]. split; [exact ED|]. split; [exact (mech_dissipation_nonneg _ _ _ _ ED)|]. split; [discriminate|]. intros _. exists H. auto.
  - apply bind_ok' in EJ as [D [ED EJ]]. apply bind_ok' in EJ as [W [EW EJ]]. injection EJ as <-. exists E, D. split; [exact EE|]. split; [exact ED|]. split; [exact (mech_dissipation_nonneg _ _ _ _ ED)|]. split; [|congruence]. intros _. exists W. auto.
Qed.
Section Descent.
Context (lg : Z -> res (list R * list R)) (sv : solver) (k : nat) (m : mech) (J J' : R) (DE : descends lg sv) (HM : mech_history m) (RE : mech_y m = mech_prev_y m).
Let m' := fst (mech_solve (sv_mech sv k m) m).
Context (B : before (mech_objective lg) m = Ok J) (A : after (mech_objective lg) m m' = Ok J').
Lemma descent : J' <= J.
Proof. destruct (at_rest m HM RE) as [E1 E2]. apply (DE k m J J'); [rewrite E1, E2; exact B|exact A]. Qed.
End Descent.
(** Energy-dissipation inequality for a mechanical problem whose variables start at the previous deformation: the elastic energy
    minus the work of the traction, plus fps times the dissipation of the step, is at most the elastic energy minus the work before;
    the dissipation is non-negative. *)
Theorem C60_energy_dissipation : forall lg sv k m J J', descends lg sv -> mech_history m -> ms_refined m = None -> mech_y m = mech_prev_y m ->
  let m' := fst (mech_solve (sv_mech sv k m) m) in
  before (mech_objective lg) m = Ok J -> after (mech_objective lg) m m' = Ok J' ->
  exists E W E' W' D, before mech_elastic_energy m = Ok E /\ before (mech_traction_energy lg) m = Ok W /\
    after mech_elastic_energy m m' = Ok E' /\ after (mech_traction_energy lg) m m' = Ok W' /\ after mech_dissipation m m' = Ok D /\
    0 <= D /\ E' - W' + ms_fps m * D <= E - W.
Proof.
  intros lg sv k m J J' DE HM PL RE m' B A. pose proof (descent lg sv k m J J' DE HM RE B A) as LE.
  destruct (objective_parts lg m _ _ J B) as (E & D & EE & ED & _ & K & _). destruct (objective_parts lg m _ _ J' A) as (E' & D' & EE' & ED' & DN & K' & _).
  destruct (K PL) as (W & EW & ->). destruct (K' PL) as (W' & EW' & ->). exists E, W, E', W', D'. split; [exact EE|]. split; [exact EW|]. split; [exact EE'|]. split; [exact EW'|]. split; [exact ED'|]. split; [exact DN|].
  rewrite (mech_dissipation_rest m D ED) in LE. lra.
Qed.
Print Assumptions C60_energy_dissipation.
(** The same with regularization: the stored energy is the elastic energy plus the regularization times the hyperelastic energy
    (regularized problems have no traction, C63). *)
Theorem C60_energy_dissipation_regularized : forall lg sv k m J J', descends lg sv -> mech_history m -> ms_refined m <> None -> mech_y m = mech_prev_y m ->
  let m' := fst (mech_solve (sv_mech sv k m) m) in
  before (mech_objective lg) m = Ok J -> after (mech_objective lg) m m' = Ok J' ->
  exists E H E' H' D, before mech_elastic_energy m = Ok E /\ before mech_hyper_elastic_energy m = Ok H /\
    after mech_elastic_energy m m' = Ok E' /\ after mech_hyper_elastic_energy m m' = Ok H' /\ after mech_dissipation m m' = Ok D /\
    0 <= D /\ E' + ms_reg m * H' + ms_fps m * D <= E + ms_reg m * H.
Proof.
  intros lg sv k m J J' DE HM PL RE m' B A. pose proof (descent lg sv k m J J' DE HM RE B A) as LE.
  destruct (objective_parts lg m _ _ J B) as (E & D & EE & ED & _ & _ & K). destruct (objective_parts lg m _ _ J' A) as (E' & D' & EE' & ED' & DN & _ & K').
  destruct (K PL) as (W & EW & ->). destruct (K' PL) as (W' & EW' & ->). exists E, W, E', W', D'. split; [exact EE|]. split; [exact EW|]. split; [exact EE'|]. split; [exact EW'|]. split; [exact ED'|]. split; [exact DN|].
  rewrite (mech_dissipation_rest m D ED) in LE. lra.
Qed.
Print Assumptions C60_energy_dissipation_regularized.

(** In a simulation. *)
Lemma posed_problem u g rg ps s a m a1 a2 th time : hist u g rg ps s -> holds g rg a a1 a2 th -> posed_m u g rg (ifx g rg) (iref1 rg ps) (iref2 rg ps) m a1 a2 th time -> mech_problem_from u s a time m.
Proof.
  intros HH HO PM. destruct (hist_grid _ _ _ _ _ HH) as (Eg & Er & _). pose proof (pm_inv _ _ _ _ _ _ _ _ _ _ _ PM) as IM. destruct (mech_getters u g rg _ _ _ _ IM) as [Gp [Gy Gth]].
  rewrite (pm_p1 _ _ _ _ _ _ _ _ _ _ _ PM), (pm_p2 _ _ _ _ _ _ _ _ _ _ _ PM) in Gp. rewrite (pm_v1 _ _ _ _ _ _ _ _ _ _ _ PM), (pm_v2 _ _ _ _ _ _ _ _ _ _ _ PM) in Gy. rewrite (pm_th _ _ _ _ _ _ _ _ _ _ _ PM) in Gth.
  assert (BOX : forall r (xs : list pvar) vs x v, map v_lb xs = map (fun w => w - r) vs -> map v_ub xs = map (fun w => w + r) vs -> In (x, v) (combine xs vs) -> v_lb x = v - r /\ v_ub x = v + r).
  { intros r xs. induction xs as [|x0 xs IH]; intros [|v0 vs] x v B1 B2 I; cbn in I; try contradiction. cbn in B1, B2. injection B1 as B1 B1'. injection B2 as B2 B2'. destruct I as [I|I]; [injection I as <- <-; auto|exact (IH vs x v B1' B2' I)]. }
  split.
  - rewrite Gp, (ho_y _ _ _ _ _ _ HO). reflexivity.
  - rewrite Gth, (ho_th _ _ _ _ _ _ HO). reflexivity.
  - rewrite Gy, (ho_y _ _ _ _ _ _ HO). reflexivity.
  - intros x v. rewrite (pm_p1 _ _ _ _ _ _ _ _ _ _ _ PM), (pm_p2 _ _ _ _ _ _ _ _ _ _ _ PM). apply BOX; rewrite !map_app; f_equal; apply PM.
  - rewrite Eg, Er. split; apply IM.
  - split; [apply IM|]. split; apply IM.
  - rewrite Eg, Er. intros i x Hx. assert (F : nth_error (ifx g rg) i = Some (v_fixed x)) by (destruct Hx as [Hx|Hx]; [rewrite <- (mi_f1 _ _ _ _ _ _ _ _ IM)|rewrite <- (mi_f2 _ _ _ _ _ _ _ _ IM)]; rewrite nth_error_map, Hx; reflexivity).
    pose proof (ifx_spec g rg i) as S. rewrite F in S. split.
    + intros E. rewrite E in S. apply S. reflexivity.
    + intros E. assert (Q : Some (v_fixed x) = Some true); [|injection Q as ->; reflexivity]. apply S. split; [|exact E]. assert (L : List.length (ifx g rg) = (num_vertices g * dofs rg)%nat) by (unfold ifx; rewrite map_length; apply range_length). rewrite <- L. apply nth_error_Some. congruence.
  - rewrite Eg, Er. apply PM.
Qed.
Section SimEnergy.
Context (u : setting) (lg : Z -> res (list R * list R)) (HL : p_regularization (se_params u) = None -> exists pts ws, lg 1%Z = Ok (pts, ws)) (CA : cautious lg (se_solver u)).
Context (FE : fine_enough u) (Hw1 : p_scale (se_params u) <= se_width u) (Hh1 : p_scale (se_params u) <= se_height u).
Lemma sim_descent s k a b : undisturbed u s -> nth_error (s_steps s) k = Some a -> nth_error (s_steps s) (S k) = Some b -> exists m,
  let m' := fst (mech_solve (sv_mech (se_solver u) (2 * k) m) m) in
  mech_problem_from u s a (INR k / p_fps (se_params u)) m /\ mech_y m' = st_y_data b /\
  exists J J', before (mech_objective lg) m = Ok J /\ after (mech_objective lg) m m' = Ok J' /\ J' <= J.
Proof.
  intros H Ha Hb. destruct (undisturbed_chain u s H) as (g & rg & ps & G & CH). pose proof (ch_hist _ _ _ _ _ CH) as HH.
  destruct (ch_links _ _ _ _ _ CH k a b Ha Hb) as (a1 & a2 & th & m & t & HO & PM & PT & HB). exists m. cbv zeta in *.
  assert (TM : INR k * s_tau s = INR k / p_fps (se_params u)).
  { pose proof (si_tau _ _ _ _ _ _ _ (hi_inv _ _ _ _ _ HH)) as T. destruct (Req_dec (p_fps (se_params u)) 0) as [Z|Z].
    - rewrite Z in T. rewrite ndiv_R0 in T. discriminate.
    - rewrite ndiv_R in T by exact Z. injection T as <-. field. exact Z. }
  rewrite TM in PM. split; [exact (posed_problem u g rg ps s a m a1 a2 th _ HH HO PM)|].
  pose proof (pm_inv _ _ _ _ _ _ _ _ _ _ _ PM) as IM. assert (I2 : minv (se_params u) g rg (se_traction u) (ifx g rg) (iref1 rg ps) (iref2 rg ps) (m_loaded u (2 * k) m)) by (apply m_solve_inv, IM).
  split; [destruct (mech_getters u g rg _ _ _ _ I2) as [_ [Gy2 _]]; unfold m_loaded in Gy2 at 1; rewrite Gy2; symmetry; exact (ho_y _ _ _ _ _ _ HB)|].
  destruct (steps_admissible u lg HL CA FE Hw1 Hh1 s (undisturbed_reachable u s H)) as (g' & rg' & ps' & G' & HH' & ST). destruct (ground_unique _ _ _ _ _ _ _ G G') as (-> & -> & ->).
  destruct (ST a (nth_error_In _ _ Ha)) as (b1 & b2 & th' & HO' & L1 & L2 & AD).
  assert (LA : List.length a1 = (num_vertices g * dofs rg)%nat /\ List.length a2 = (num_vertices g * dofs rg)%nat) by (rewrite <- (pm_p1 _ _ _ _ _ _ _ _ _ _ _ PM), <- (pm_p2 _ _ _ _ _ _ _ _ _ _ _ PM); split; apply IM). destruct LA as [LA1 LA2].
  destruct (holds_comp g rg _ _ _ _ HO LA1 LA2) as (A1 & A2 & _). destruct (holds_comp g rg _ _ _ _ HO' L1 L2) as (B1 & B2 & _). assert (b1 = a1) as -> by congruence. assert (b2 = a2) as -> by congruence.
  destruct (proj2 (posed_objective u lg HL FE Hw1 Hh1 g rg ps m G IM a1 a2 LA1 LA2) AD) as [J EJ]. exists J.
  pose proof (CA (2 * k)%nat m J) as K. cbv zeta in K. rewrite (pm_v1 _ _ _ _ _ _ _ _ _ _ _ PM), (pm_v2 _ _ _ _ _ _ _ _ _ _ _ PM) in K. destruct (K EJ) as (J' & EJ' & LE). exists J'. unfold before, after. rewrite (pm_p1 _ _ _ _ _ _ _ _ _ _ _ PM), (pm_p2 _ _ _ _ _ _ _ _ _ _ _ PM). auto.
Qed.
End SimEnergy.
(** Along undisturbed runs with a solver that never leaves the domain of the objective and never makes it larger, every step obeys
    the energy-dissipation inequality; the energies are those of the problem posed by the previous step (C67). *)
Theorem C60_simulation : forall u lg pts ws s k a b, undisturbed u s -> s_refined s = None -> cautious lg (se_solver u) -> lg 1%Z = Ok (pts, ws) ->
  p_scale (se_params u) <= se_width u -> p_scale (se_params u) <= se_height u ->
  nth_error (s_steps s) k = Some a -> nth_error (s_steps s) (S k) = Some b ->
  exists m E W E' W' D,
    let m' := fst (mech_solve (sv_mech (se_solver u) (2 * k) m) m) in
    mech_problem_from u s a (INR k / p_fps (se_params u)) m /\ mech_y m' = st_y_data b /\
    before mech_elastic_energy m = Ok E /\ before (mech_traction_energy lg) m = Ok W /\
    after mech_elastic_energy m m' = Ok E' /\ after (mech_traction_energy lg) m m' = Ok W' /\ after mech_dissipation m m' = Ok D /\
    0 <= D /\ E' - W' + p_fps (se_params u) * D <= E - W.
Proof.
  intros u lg pts ws s k a b H Hr CA LG Hw1 Hh1 Ha Hb. destruct (reachable_hist u s (undisturbed_reachable u s H)) as (g0 & rg0 & ps0 & G0 & HH0). destruct (hist_grid _ _ _ _ _ HH0) as (_ & Er0 & _). rewrite Hr in Er0. subst rg0.
  assert (PR : p_regularization (se_params u) = None) by (destruct (gr_ref _ _ _ _ G0) as [[Z _]|(e & k' & r & _ & _ & _ & Z)]; [exact Z|discriminate]).
  assert (FE : fine_enough u) by (unfold fine_enough; rewrite PR; exact I).
  destruct (sim_descent u lg (fun _ => ex_intro _ pts (ex_intro _ ws LG)) CA FE Hw1 Hh1 s k a b H Ha Hb) as (m & MP & MY & J & J' & EJ & EJ' & LE).
  pose proof (proj2 (mp_grid _ _ _ _ _ MP)) as PL. rewrite Hr in PL. destruct (mp_constants _ _ _ _ _ MP) as (_ & FP & _).
  destruct (objective_parts lg m _ _ J EJ) as (E & D & EE & ED & _ & K & _). destruct (objective_parts lg m _ _ J' EJ') as (E' & D' & EE' & ED' & DN & K' & _).
  destruct (K PL) as (W & EW & ->). destruct (K' PL) as (W' & EW' & ->). exists m, E, W, E', W', D'. cbv zeta. split; [exact MP|]. split; [exact MY|]. split; [exact EE|]. split; [exact EW|]. split; [exact EE'|]. split; [exact EW'|]. split; [exact ED'|]. split; [exact DN|].
  rewrite (mech_dissipation_rest m D ED), FP in LE. lra.
Qed.
Print Assumptions C60_simulation.
(** With regularization. *)
Theorem C60_simulation_regularized : forall u lg e s k a b, undisturbed u s -> p_regularization (se_params u) = Some e -> cautious lg (se_solver u) -> fine_enough u ->
  nth_error (s_steps s) k = Some a -> nth_error (s_steps s) (S k) = Some b ->
  exists m E H E' H' D,
    let m' := fst (mech_solve (sv_mech (se_solver u) (2 * k) m) m) in
    mech_problem_from u s a (INR k / p_fps (se_params u)) m /\ mech_y m' = st_y_data b /\
    before mech_elastic_energy m = Ok E /\ before mech_hyper_elastic_energy m = Ok H /\
    after mech_elastic_energy m m' = Ok E' /\ after mech_hyper_elastic_energy m m' = Ok H' /\ after mech_dissipation m m' = Ok D /\
    0 <= D /\ E' + e * H' + p_fps (se_params u) * D <= E + e * H.
Proof.
  intros u lg e s k a b H PR CA FE Ha Hb. destruct (reachable_hist u s (undisturbed_reachable u s H)) as (g0 & rg0 & ps0 & G0 & HH0). destruct (hist_grid _ _ _ _ _ HH0) as (_ & Er0 & _).
  destruct (gr_ref _ _ _ _ G0) as [[Z _]|(e' & k' & r & PR' & PK & _ & Rr)]; [congruence|]. pose proof FE as FE'. unfold fine_enough in FE'. rewrite PR, PK in FE'. destruct FE' as (Hw1 & Hh1 & _).
  destruct (sim_descent u lg ltac:(congruence) CA FE Hw1 Hh1 s k a b H Ha Hb) as (m & MP & MY & J & J' & EJ & EJ' & LE).
  pose proof (proj2 (mp_grid _ _ _ _ _ MP)) as PL. destruct (mp_constants _ _ _ _ _ MP) as (_ & FP & RG). assert (NN : ms_refined m <> None) by congruence.
  destruct (objective_parts lg m _ _ J EJ) as (E & D & EE & ED & _ & _ & K). destruct (objective_parts lg m _ _ J' EJ') as (E' & D' & EE' & ED' & DN & _ & K').
  destruct (K NN) as (W & EW & ->). destruct (K' NN) as (W' & EW' & ->). exists m, E, W, E', W', D'. cbv zeta. split; [exact MP|]. split; [exact MY|]. split; [exact EE|]. split; [exact EW|]. split; [exact EE'|]. split; [exact EW'|]. split; [exact ED'|]. split; [exact DN|].
  rewrite (mech_dissipation_rest m D ED), FP, (RG e PR) in LE. lra.
Qed.
Print Assumptions C60_simulation_regularized.
