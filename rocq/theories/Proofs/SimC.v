(** Properties of deformations that every answer of the solver preserves. *)
From Coq Require Import Reals Lra Lia List ZArith.
From Verif.Spec Require Import GridSpec BellSpec.
From Verif.Model Require Import Py Num Tensors Domain Refine Bell Interp Steps Simulation.
From Verif.Spec Require Import SimSpec StepSpec.
From Verif.Proofs Require Import Lib StepP SimP SimQ SimR SimH SimL SimA SimF InterpP StepC.
Local Open Scope R_scope.
Import ListNotations.

Lemma ground_unique u g rg ps g' rg' ps' : ground u g rg ps -> ground u g' rg' ps' -> g' = g /\ rg' = rg /\ ps' = ps.
Proof.
  intros G G'. assert (g' = g) by (pose proof (gr_grid _ _ _ _ G'); pose proof (gr_grid _ _ _ _ G); congruence). subst g'. split; [reflexivity|]. split.
  - destruct (gr_ref _ _ _ _ G') as [[A ->]|[e [k [r [A [B [D ->]]]]]]]; destruct (gr_ref _ _ _ _ G) as [[A' ->]|[e' [k' [r' [A' [B' [D' ->]]]]]]]; congruence.
  - pose proof (gr_points _ _ _ _ G') as Q. rewrite (gr_points _ _ _ _ G) in Q. clear - Q. revert ps' Q. induction ps as [|[a b] ps IH]; intros [|[a' b'] ps'] Q; try discriminate; [reflexivity|]. cbn in Q. injection Q as -> -> Q. f_equal. apply IH, Q.
Qed.

Section Y.
Context (u : setting) (P : grid R -> option (refined_grid R) -> list R -> list R -> Prop).
Context (init : forall g rg ps, ground u g rg ps -> P g rg (iref1 rg ps) (iref2 rg ps)).
Context (keep : forall g rg ps m c a1 a2 th time, ground u g rg ps -> posed_m u g rg (ifx g rg) (iref1 rg ps) (iref2 rg ps) m a1 a2 th time -> P g rg a1 a2 ->
  P g rg (map v_val (ms_y1 (m_loaded u c m))) (map v_val (ms_y2 (m_loaded u c m)))).

Record yinv (g : grid R) (rg : option (refined_grid R)) (ps : list (R * R)) (s : sim) : Prop := {
  yi_hist : hist u g rg ps s;
  yi_now : P g rg (ts_y1 (s_therm s)) (ts_y2 (s_therm s));
  yi_steps : forall st, In st (s_steps s) -> exists a1 a2 th, holds g rg st a1 a2 th /\ length a1 = (num_vertices g * dofs rg)%nat /\ length a2 = (num_vertices g * dofs rg)%nat /\ P g rg a1 a2
}.
Lemma yinv_single g rg ps s s' r : ground u g rg ps -> yinv g rg ps s -> run_single_step (se_solver u) s = (s', r) -> yinv g rg ps s'.
Proof.
  intros G [HH NOW ST] E. pose proof (hist_single u g rg ps _ _ _ HH E) as HH'. pose proof (hi_st _ _ _ _ _ HH) as HS. pose proof (hi_inv _ _ _ _ _ HH) as HI.
  destruct (single_step u g rg _ _ _ HS s s' r HI E) as [HI' [(e & -> & E1 & _)|(-> & m1 & t1 & st & mx & x0 & x1 & y0 & y1 & PM & PT & E1 & E2 & E3 & E4 & E5 & HO & _)]].
  - split; [exact HH'| |rewrite E1; exact ST]. destruct (failed_step u g rg _ _ _ HS s s' e HI E) as [[-> _]|(m1 & PM & [-> ->] & _)]; [exact NOW|]. exact (keep _ _ _ _ _ _ _ _ _ G PM NOW).
  - pose proof (keep _ _ _ _ (s_calls s) _ _ _ _ G PM NOW) as NEW. split; [exact HH'| |].
    + rewrite E2. cbn [t_loaded therm_solve fst ts_y1 ts_y2]. unfold t_loaded, therm_solve. cbn [fst ts_y1 ts_y2]. rewrite (pt_y1 _ _ _ _ _ _ _ _ _ _ _ _ _ PT), (pt_y2 _ _ _ _ _ _ _ _ _ _ _ _ _ PT). exact NEW.
    + rewrite E3. intros st' Hst. apply in_app_or in Hst as [Hst|[<- |[]]]; [exact (ST st' Hst)|]. pose proof (pm_inv _ _ _ _ _ _ _ _ _ _ _ PM) as IM.
      assert (I2 : minv (se_params u) g rg (se_traction u) (ifx g rg) (iref1 rg ps) (iref2 rg ps) (m_loaded u (s_calls s) m1)) by (apply m_solve_inv, IM).
      eexists _, _, _. split; [exact HO|]. rewrite !map_length. split; [exact (mi_y1 _ _ _ _ _ _ _ _ I2)|]. split; [exact (mi_y2 _ _ _ _ _ _ _ _ I2)|exact NEW].
Qed.
Lemma reachable_y s : reachable u s -> exists g rg ps, ground u g rg ps /\ yinv g rg ps s.
Proof.
  induction 1 as [s V C|n s s' r HR IH E].
  - destruct (reachable_hist u s (r_construct u s V C)) as [g' [rg' [ps' [GR HH]]]].
    destruct (construct_inv u s V C) as (g & rg & ps & Eg & RG & GP & LP & GV & ST & SI & m0 & t0 & st0 & st1 & mx & x0 & x1 & y0 & y1 & mx' & x0' & x1' & y0' & y1' & PM & PT & E1 & E2 & E3 & E4 & E5 & HO0 & HO1 & _).
    assert (G : ground u g rg ps) by (split; assumption). destruct (ground_unique _ _ _ _ _ _ _ G GR) as (-> & -> & ->). exists g, rg, ps. split; [exact G|].
    pose proof (init _ _ _ G) as I0. pose proof (keep _ _ _ _ 0%nat _ _ _ _ G PM I0) as NEW. split; [exact HH| |].
    + rewrite E2. unfold t_loaded, therm_solve. cbn [fst ts_y1 ts_y2]. rewrite (pt_y1 _ _ _ _ _ _ _ _ _ _ _ _ _ PT), (pt_y2 _ _ _ _ _ _ _ _ _ _ _ _ _ PT). exact NEW.
    + rewrite E3. intros st Hst. destruct Hst as [<- |[<- |[]]].
      * eexists _, _, _. split; [exact HO0|]. destruct (iref_length rg ps) as [A B]. rewrite LP in A, B. auto.
      * pose proof (pm_inv _ _ _ _ _ _ _ _ _ _ _ PM) as IM. assert (I2 : minv (se_params u) g rg (se_traction u) (ifx g rg) (iref1 rg ps) (iref2 rg ps) (m_loaded u 0 m0)) by (apply m_solve_inv, IM).
        eexists _, _, _. split; [exact HO1|]. rewrite !map_length. split; [exact (mi_y1 _ _ _ _ _ _ _ _ I2)|]. split; [exact (mi_y2 _ _ _ _ _ _ _ _ I2)|exact NEW].
  - destruct IH as [g [rg [ps [GR YI]]]]. exists g, rg, ps. split; [exact GR|]. refine (run_pres (se_solver u) (yinv g rg ps) _ n s s' r YI E). intros a b c A B. exact (yinv_single g rg ps a b c GR A B).
Qed.
End Y.

Lemma constraints_grid m m' y1 y2 : ms_grid m = ms_grid m' -> dirichlet_constraints_hold m y1 y2 -> dirichlet_constraints_hold m' y1 y2.
Proof. unfold dirichlet_constraints_hold. intros ->. auto. Qed.
(** The reference configuration satisfies the constraints. *)
Lemma reference_feasible m ps r : let rg := Some r in g_points (ms_grid m) = map (fun '(x, y) => [x; y]) ps -> length ps = num_vertices (ms_grid m) -> good_edges (ms_grid m) -> dirichlet_constraints_hold m (iref1 rg ps) (iref2 rg ps).
Proof.
  intros rg GP GL GE [a b] He pp qq p q EV Xp Xq j Hj. destruct (GE a b He) as [_ [_ [p' [q' [Hp [Hq EV']]]]]]. rewrite EV in EV'. injection EV' as -> ->. destruct p' as [p1 p2], q' as [q1 q2]. injection Xp as <-. injection Xq as <-.
  apply (points_nth _ ps _ _ _ GP) in Hp. apply (points_nth _ ps _ _ _ GP) in Hq. cbn [fst snd] in Hp, Hq.
  unfold rg, iref1, iref2. rewrite <- GL.
  assert (R1 : forall v x y, nth_error ps v = Some (x, y) -> nth_error (chunks (length ps) 6 (flat_map (fun '(x, _) => [x; 1; 0; 0; 0; 0]) ps)) v = Some [x; 1; 0; 0; 0; 0]).
  { intros v x y E. rewrite chunks_flat by (intros [? ?]; reflexivity). rewrite E. reflexivity. }
  assert (R2 : forall v x y, nth_error ps v = Some (x, y) -> nth_error (chunks (length ps) 6 (flat_map (fun '(_, y) => [y; 0; 1; 0; 0; 0]) ps)) v = Some [y; 0; 1; 0; 0; 0]).
  { intros v x y E. rewrite chunks_flat by (intros [? ?]; reflexivity). rewrite E. reflexivity. }
  unfold dirichlet_constraint. cbn [fst snd]. rewrite (nth_py _ _ _ (R1 _ _ _ Hp)), (nth_py _ _ _ (R1 _ _ _ Hq)), (nth_py _ _ _ (R2 _ _ _ Hp)), (nth_py _ _ _ (R2 _ _ _ Hq)). cbn [bind nth].
  destruct j as [|[|[|[|[|[|[|j]]]]]]]; try lia; split; apply (f_equal Ok), (f_equal Some); lra.
Qed.
