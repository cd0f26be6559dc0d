(** * The influence of the forcing: C63. *)
From Coq Require Import Reals Lra Lia List ZArith String.
From Verif.Spec Require Import GridSpec.
From Verif.Model Require Import Py Num Tensors Domain Refine Bell Interp Steps Simulation.
From Verif.Spec Require Import SimSpec LiveSpec ForcingSpec.
From Verif.Proofs Require Import Lib GridP StdOrder StepP SimP SimQ SimR SimH SimL SimA SimE.
From Verif.Props Require Import GridProps SimProps.
Local Open Scope R_scope.
Import ListNotations.
Local Notation length := List.length.

Section Reforce.
Context (sv : solver) (BL : sees_only_numbers sv) (tr : traction_fn) (ex : external_fn).
Definition reforce (s : sim) : sim := set_therm (set_mech s (with_traction tr (s_mech s))) (with_external ex (s_therm s)).
Definition reg (s : sim) : Prop := ms_refined (s_mech s) <> None /\ ts_refined (s_therm s) <> None.
Definition lift (x : sim * res unit) : sim * res unit := (reforce (fst x), snd x).
(** The operation does not notice the change, and keeps the simulation regularized. *)
Definition blind (f : sim -> sim * res unit) : Prop := forall s, reg s -> f (reforce s) = lift (f s) /\ reg (fst (f s)).
Lemma blind_andthen f k : blind f -> blind k -> blind (fun s => andthen (f s) k).
Proof.
  intros F K s H. destruct (F s H) as [E R]. rewrite E. destruct (f s) as [s1 [[]|e]]; cbn [lift andthen fst snd] in *; [exact (K s1 R)|]. split; [reflexivity|exact R].
Qed.
Lemma blind_mech (f : sim -> mech -> mech * res unit) : (forall s m, f (reforce s) m = f s m) ->
  (forall s m, ms_refined m <> None -> f s (with_traction tr m) = (with_traction tr (fst (f s m)), snd (f s m)) /\ ms_refined (fst (f s m)) = ms_refined m) ->
  blind (fun s => on_mech (f s) s).
Proof.
  intros A B s [R1 R2]. unfold on_mech. rewrite A. destruct (B s (s_mech s) R1) as [E Q]. change (s_mech (reforce s)) with (with_traction tr (s_mech s)). rewrite E. destruct (f s (s_mech s)) as [m r]. cbn [fst snd] in *. split; [reflexivity|]. split; [cbn; congruence|exact R2].
Qed.
Lemma blind_therm (f : sim -> therm -> therm * res unit) : (forall s t, f (reforce s) t = f s t) ->
  (forall s t, ts_refined t <> None -> f s (with_external ex t) = (with_external ex (fst (f s t)), snd (f s t)) /\ ts_refined (fst (f s t)) = ts_refined t) ->
  blind (fun s => on_therm (f s) s).
Proof.
  intros A B s [R1 R2]. unfold on_therm. rewrite A. destruct (B s (s_therm s) R2) as [E Q]. change (s_therm (reforce s)) with (with_external ex (s_therm s)). rewrite E. destruct (f s (s_therm s)) as [t r]. cbn [fst snd] in *. split; [reflexivity|]. split; [exact R1|cbn; congruence].
Qed.
Lemma blind_update_m : blind update_mechanical_step.
Proof.
  apply (blind_andthen (fun s => on_mech (fun m => mech_update_prev_y m (therm_y (s_therm s))) s)); [|apply (blind_andthen (fun s => on_mech (fun m => mech_update_prev_theta m (therm_theta (s_therm s))) s))].
  - apply (blind_mech (fun s m => mech_update_prev_y m (therm_y (s_therm s)))); [reflexivity|]. intros s m _. unfold mech_update_prev_y. cbn [with_traction ms_grid ms_refined]. destruct (negb _); split; reflexivity.
  - apply (blind_mech (fun s m => mech_update_prev_theta m (therm_theta (s_therm s)))); [reflexivity|]. intros s m _. unfold mech_update_prev_theta. cbn [with_traction ms_grid ms_refined ms_prev_theta]. destruct (negb _); [split; reflexivity|]. destruct (set_nonneg _ _). split; reflexivity.
  - apply (blind_mech (fun s m => mech_update_boundary_traction m (s_time s))); [reflexivity|]. intros s m H. unfold mech_update_boundary_traction. cbn [with_traction ms_refined]. destruct (ms_refined m) eqn:E; [split; [reflexivity|exact E]|congruence].
Qed.
Lemma blind_update_t : blind update_thermal_step.
Proof.
  apply (blind_andthen (fun s => on_therm (fun t => therm_update_prev_y t (mech_prev_y (s_mech s))) s)); [|apply (blind_andthen (fun s => on_therm (fun t => therm_update_prev_theta t (mech_prev_theta (s_mech s))) s)); [|apply (blind_andthen (fun s => on_therm (fun t => therm_update_y t (mech_y (s_mech s))) s))]].
  - apply (blind_therm (fun s t => therm_update_prev_y t (mech_prev_y (s_mech s)))); [reflexivity|]. intros s t _. unfold therm_update_prev_y. cbn [with_external ts_grid ts_refined]. destruct (negb _); split; reflexivity.
  - apply (blind_therm (fun s t => therm_update_prev_theta t (mech_prev_theta (s_mech s)))); [reflexivity|]. intros s t _. unfold therm_update_prev_theta. cbn [with_external ts_grid ts_refined ts_prev_theta ts_theta ts_radius]. destruct (negb _); [split; reflexivity|]. destruct (theta_loop _ _ _ _) as [[? ?] ?]. split; reflexivity.
  - apply (blind_therm (fun s t => therm_update_y t (mech_y (s_mech s)))); [reflexivity|]. intros s t _. unfold therm_update_y. cbn [with_external ts_grid ts_refined]. destruct (negb _); split; reflexivity.
  - apply (blind_therm (fun s t => therm_update_external_temperature t (s_time s))); [reflexivity|]. intros s t H. unfold therm_update_external_temperature. cbn [with_external ts_refined]. destruct (ts_refined t) eqn:E; [split; [reflexivity|exact E]|congruence].
Qed.
Lemma blind_solve_m : blind (solve_mech sv).
Proof.
  intros s [R1 R2]. unfold solve_mech, on_mech. change (s_calls (reforce s)) with (s_calls s). change (s_mech (count_call (reforce s))) with (with_traction tr (s_mech s)). rewrite (proj1 BL). split; [reflexivity|]. split; [exact R1|exact R2].
Qed.
Lemma blind_solve_t : blind (solve_therm sv).
Proof.
  intros s [R1 R2]. unfold solve_therm, on_therm. change (s_calls (reforce s)) with (s_calls s). change (s_therm (count_call (reforce s))) with (with_external ex (s_therm s)). rewrite (proj2 BL). split; [reflexivity|]. split; [exact R1|exact R2].
Qed.
Lemma append_reforce s y th : append_step (reforce s) y th = lift (append_step s y th) /\ s_mech (fst (append_step s y th)) = s_mech s /\ s_therm (fst (append_step s y th)) = s_therm s /\ s_refined (fst (append_step s y th)) = s_refined s.
Proof.
  unfold append_step. change (lims_data (reforce s)) with (lims_data s). destruct (np_max (nd_data th)) as [mt|e]; [|repeat split; reflexivity].
  destruct (np_min (lims_data s 0 y)) as [x0|e]; [|repeat split; reflexivity]. destruct (np_max (lims_data s 0 y)) as [x1|e]; [|repeat split; reflexivity].
  destruct (np_min (lims_data s 1 y)) as [y0|e]; [|repeat split; reflexivity]. destruct (np_max (lims_data s 1 y)) as [y1|e]; [|repeat split; reflexivity].
  change (new_step (s_params (reforce s)) (s_grid (reforce s)) (s_refined (reforce s)) y th) with (new_step (s_params s) (s_grid s) (s_refined s) y th). destruct (new_step _ _ _ y th); repeat split; reflexivity.
Qed.
Lemma blind_append : blind (fun s => append_step s (therm_y (s_therm s)) (therm_theta (s_therm s))).
Proof.
  intros s [R1 R2]. change (therm_y (s_therm (reforce s))) with (therm_y (s_therm s)). change (therm_theta (s_therm (reforce s))) with (therm_theta (s_therm s)). destruct (append_reforce s (therm_y (s_therm s)) (therm_theta (s_therm s))) as (E & A & B & _).
  split; [exact E|]. split; [rewrite A; exact R1|rewrite B; exact R2].
Qed.
Lemma blind_single : blind (run_single_step sv).
Proof.
  apply (blind_andthen update_mechanical_step _ blind_update_m). apply (blind_andthen (solve_mech sv) _ blind_solve_m). apply (blind_andthen update_thermal_step _ blind_update_t). apply (blind_andthen (solve_therm sv) _ blind_solve_t). exact blind_append.
Qed.
Lemma blind_loop n : blind (run_loop sv n).
Proof.
  induction n as [|n IH]; [intros s H; split; [reflexivity|exact H]|]. exact (blind_andthen (run_single_step sv) _ blind_single IH).
Qed.
Lemma blind_run n : blind (run sv n).
Proof.
  intros s H. unfold run. destruct (n <=? 0)%Z; [split; [reflexivity|exact H]|]. destruct (n =? 1)%Z; [apply blind_single, H|apply blind_loop, H].
Qed.
Lemma play_reforce ns : forall s, reg s -> play sv ns (reforce s) = (fst (play sv ns s), reforce (snd (play sv ns s))).
Proof.
  induction ns as [|n ns IH]; intros s H; [reflexivity|]. cbn [play]. destruct (blind_run n s H) as [E R]. rewrite E. destruct (run sv n s) as [s1 r]. cbn [lift fst snd] in *. rewrite (IH s1 R). destruct (play sv ns s1) as [rs s2]. reflexivity.
Qed.
End Reforce.

(** ** C63 *)
(** Refuted: with regularization the boundary traction and the external temperature have no influence at all.  Two
    settings that differ only in the forcing - one of them may even raise at every call - give the same session: same
    outcome of the construction and of every run, same steps, times and limits. *)
Theorem C63_regularized_ignores_forcing_refuted : forall u u' ns, same_but_forcing u u' -> p_regularization (se_params u) <> None -> sees_only_numbers (se_solver u) ->
  session u' ns = session u ns.
Proof.
  intros u u' ns [E1 E2 E3 E4 E5 E6] HR BL. unfold session.
  assert (C : match construct u with Err e => construct u' = Err e | Ok s => construct u' = Ok (reforce (se_traction u') (se_external u') s) /\ reg s end).
  { unfold construct. rewrite E1, E2, E3, E4, E5, E6. unfold Simulation_. destruct (domain_grid _ _ _ _ _) as [g|e]; [cbn [bind]|reflexivity].
    destruct (match p_refinement_factor (se_params u) with Some k => _ | None => _ end) as [rg|e]; [cbn [bind]|reflexivity].
    unfold mechanical_step. destruct (p_regularization (se_params u)) as [eps|] eqn:EP; [|congruence]. destruct rg as [r|]; [|reflexivity]. unfold mech_init_reg.
    destruct (mapM xy (g_points g)) as [ps|e]; [cbn [bind]|reflexivity]. destruct (Rltb _ 0); [reflexivity|]. cbn [bind].
    set (m0 := mkMech g (Some r) _ _ _ _ _ _ _ _ _ _ (se_traction u)). set (m0' := mkMech g (Some r) _ _ _ _ _ _ _ _ _ _ (se_traction u')).
    assert (M0 : m0' = with_traction (se_traction u') m0) by reflexivity. unfold mech_solved. rewrite M0, (proj1 BL). unfold mech_solve. destruct (ma_exn (sv_mech (se_solver u) 0 m0)) as [e|]; [reflexivity|]. cbn [bind].
    set (m := mkMech (ms_grid m0) _ _ _ _ _ _ _ _ _ _ _ (ms_traction m0)). set (m' := mkMech _ _ _ _ _ _ _ _ _ _ _ _ (ms_traction (with_traction _ _))). assert (M : m' = with_traction (se_traction u') m) by reflexivity. rewrite M. clearbody m'. clear M0 M m0' m'.
    destruct (ndiv 1 (p_fps (se_params u))) as [tau|e]; [cbn [bind]|reflexivity].
    change (mech_prev_y (with_traction (se_traction u') m)) with (mech_prev_y m). change (mech_prev_theta (with_traction (se_traction u') m)) with (mech_prev_theta m). change (mech_y (with_traction (se_traction u') m)) with (mech_y m).
    set (s0 := mkSim _ g (Some r) m _ _ _ _ _ _ _ _). set (s0' := mkSim _ _ _ (with_traction _ _) _ _ _ _ _ _ _ _). assert (S0 : s0' = reforce (se_traction u') (se_external u') s0) by reflexivity. rewrite S0.
    destruct (append_reforce (se_traction u') (se_external u') s0 (mech_prev_y m) (mech_prev_theta m)) as (EA & A1 & A2 & A3). rewrite EA. unfold lift. destruct (append_step s0 (mech_prev_y m) (mech_prev_theta m)) as [s1 [[]|e]]; cbn [fst snd finish] in *; [|reflexivity].
    unfold thermal_step, therm_init. cbn [bind]. destruct (check_prev_step_data _ _ _ _ _) as [[]|e]; [cbn [bind]|reflexivity]. destruct (negb _); [reflexivity|]. destruct (Rltb 0 0); [reflexivity|]. cbn [bind].
    set (t0 := mkTherm g (Some r) _ _ _ _ _ _ _ _ _ (se_external u)). set (t0' := mkTherm g (Some r) _ _ _ _ _ _ _ _ _ (se_external u')). assert (T0 : t0' = with_external (se_external u') t0) by reflexivity. unfold therm_solved. rewrite T0, (proj2 BL). unfold therm_solve.
    destruct (ta_exn (sv_therm (se_solver u) 1 t0)) as [e|]; [reflexivity|]. cbn [bind]. set (t := mkTherm (ts_grid t0) _ _ _ _ _ _ _ _ _ _ (ts_external t0)). set (t' := mkTherm _ _ _ _ _ _ _ _ _ _ _ (ts_external (with_external _ _))).
    assert (TT : t' = with_external (se_external u') t) by reflexivity. rewrite TT. clearbody t'. change (therm_y (with_external (se_external u') t)) with (therm_y t). change (therm_theta (with_external (se_external u') t)) with (therm_theta t).
    set (s2 := count_call (set_therm s1 t)). set (s2' := count_call (set_therm (reforce _ _ s1) _)). assert (S2 : s2' = reforce (se_traction u') (se_external u') s2) by reflexivity. rewrite S2.
    destruct (append_reforce (se_traction u') (se_external u') s2 (therm_y t) (therm_theta t)) as (EB & B1 & B2 & B3). rewrite EB. unfold lift. destruct (append_step s2 (therm_y t) (therm_theta t)) as [s3 [[]|e]]; cbn [fst snd finish] in *; [|reflexivity].
    split; [reflexivity|]. split; [rewrite B1; change (s_mech s2) with (s_mech s1); rewrite A1; discriminate|rewrite B2; discriminate]. }
  destruct (construct u) as [s|e]; [|rewrite C; reflexivity]. destruct C as [-> R]. rewrite E2. pose proof (play_reforce (se_solver u) BL (se_traction u') (se_external u') ns s R) as P. rewrite P. destruct (play (se_solver u) ns s) as [rs s']. reflexivity.
Qed.
Print Assumptions C63_regularized_ignores_forcing_refuted.
(** The objectives of the regularized problems do not contain the traction values and the external temperature. *)
Theorem C63_regularized_objectives_refuted : forall lg m t g1 g2 v y1 y2 th, ms_refined m <> None -> ts_refined t <> None ->
  mech_objective lg (mech_set_g m g1 g2) y1 y2 = mech_objective lg m y1 y2 /\
  therm_objective lg (mkTherm (ts_grid t) (ts_refined t) (ts_radius t) (ts_fps t) (ts_prev_y1 t) (ts_prev_y2 t) (ts_y1 t) (ts_y2 t) (ts_prev_theta t) (ts_theta t) v (ts_external t)) th = therm_objective lg t th.
Proof.
  intros lg m t g1 g2 v y1 y2 th Hm Ht. split.
  - unfold mech_objective, mech_elastic_energy, mech_dissipation, mech_hyper_elastic_energy. cbn [mech_set_g ms_grid ms_refined ms_prev_theta ms_prev_y1 ms_prev_y2 ms_reg ms_fps]. destruct (ms_refined m); [reflexivity|congruence].
  - unfold therm_objective, therm_energy, therm_dissipation, therm_boundary, therm_integrator. cbn [ts_grid ts_refined ts_fps ts_prev_y1 ts_prev_y2 ts_y1 ts_y2 ts_prev_theta]. destruct (ts_refined t); [reflexivity|congruence].
Qed.
Print Assumptions C63_regularized_objectives_refuted.

(** The example: the forcing of the example setting against one that raises whenever it is called. *)
Lemma push_blind bad : sees_only_numbers (push bad).
Proof. split; reflexivity. Qed.
Definition hostile (u : setting) : setting :=
  {| se_order := se_order u; se_solver := se_solver u; se_width := se_width u; se_height := se_height u; se_fix := se_fix u; se_params := se_params u;
     se_external := fun _ => Err CallbackError; se_traction := fun _ _ _ => Err CallbackError |}.
Lemma play_runs u s ns : never_raises (se_solver u) -> respects_domain (se_solver u) -> 0 < p_fps (se_params u) -> (forall t, 0 <= t -> forcing_fine u t) -> undisturbed u s -> Forall (fun n => (1 <= n)%Z) ns ->
  fst (play (se_solver u) ns s) = map (fun _ => Ok tt) ns.
Proof.
  intros NR RD FP FF U H. revert s U. induction H as [|n ns Hn H IH]; intros s U; [reflexivity|]. cbn [play map]. destruct (run_live u s n U FP FF NR RD Hn) as [s' E]. rewrite E. specialize (IH s' (u_run u n s s' U E)). destruct (play (se_solver u) ns s') as [rs s'']. cbn [fst] in *. rewrite IH. reflexivity.
Qed.
Example C63_example : let u := ex_setting (Some 1) [] in same_but_forcing u (hostile u) /\ p_regularization (se_params u) <> None /\ sees_only_numbers (se_solver u) /\
  (exists x, session u [1; 4; 2]%Z = Ok (repeat (Ok tt) 3, x)) /\ session (hostile u) [1; 4; 2]%Z = session u [1; 4; 2]%Z.
Proof.
  intros u. assert (S : same_but_forcing u (hostile u)) by (split; reflexivity). assert (P : p_regularization (se_params u) <> None) by discriminate. split; [exact S|]. split; [exact P|]. split; [exact (push_blind [])|]. split; [|exact (C63_regularized_ignores_forcing_refuted u (hostile u) _ S P (push_blind []))].
  destruct (ex_runs (Some 1) 1 ltac:(intros e E; injection E as <-; lra) ltac:(lia)) as (s0 & _ & C & _ & U & _). fold u in C, U. unfold session. rewrite C.
  pose proof (play_runs u s0 [1; 4; 2]%Z push_quiet (push_domain []) (ex_fps _ _) (ex_forcing _ _) U ltac:(repeat constructor; lia)) as E. destruct (play (se_solver u) [1; 4; 2]%Z s0) as [rs s']. cbn [fst] in E. rewrite E. eexists. reflexivity.
Qed.
(** Without regularization the same replacement is noticed at once. *)
Example C63_example_plain : let u := ex_setting None [] in construct (hostile u) = Err CallbackError /\ exists s, construct u = Ok s.
Proof.
  intros u. split; [|destruct (ex_runs None 1 ltac:(discriminate) ltac:(lia)) as (s0 & _ & C & _); eauto].
  destruct (ex_state None ltac:(discriminate)) as (s & _ & _ & Eg & _). set (g := s_grid s) in *. clearbody g.
  unfold construct, Simulation_. cbn [hostile u ex_setting ex_params se_order se_width se_height se_fix se_params se_traction se_external p_scale p_refinement_factor p_regularization p_initial_temperature p_search_radius p_fps]. rewrite Eg. cbn [bind mechanical_step]. unfold mech_init_plain.
  destruct (grid_bounds std_order 1 1 (FixOne "left") (1/2) g) as (PL & NL & NP & NB & _); [lra|lra|lra|exact Eg|].
  destruct (mapM_total xy (g_points g)) as [ps Eps]. { intros q Hq. destruct (PL q Hq) as [x [y ->]]. exists (x, y). reflexivity. } rewrite Eps. cbn [bind]. rewrite (proj2 (Rltb_false 1 0)) by lra.
  assert (T : init_traction g (fun _ _ _ => Err CallbackError) = Err CallbackError).
  { unfold init_traction. pose proof (ex_vertex u g 2 1 Eg ltac:(lia) ltac:(lia)) as W.
    assert (IN : In (pair_to_vertex 3 2 1) (b_vertices (g_neumann g))). { apply (C18_neumann_vertices_exact_partial _ _ _ _ _ _ _ _ ex_pos ex_fits1 ex_fits1 Eg). split; [exists Right, 2%nat, 1%nat; split; [exact W|reflexivity]|]. intros d d' [F|[]] [F'|[]]; destruct d, d'; try discriminate; reflexivity. }
    destruct (b_vertices (g_neumann g)) as [|v vs] eqn:EV; [destruct IN|]. cbn [mapM]. pose proof (NB v (or_introl eq_refl)) as L. apply nth_error_Some in L. destruct (nth_error (g_points g) v) as [q|] eqn:Eq; [|congruence]. destruct (PL q (nth_error_In _ _ Eq)) as [x [y ->]].
    unfold py_nth. rewrite Eq. reflexivity. }
  rewrite T. reflexivity.
Qed.
