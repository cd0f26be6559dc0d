(** Invariants of the simulation. *)
From Coq Require Import Reals Lra Lia List ZArith.
From Verif.Model Require Import Py Num Tensors Domain Refine Interp Steps Simulation.
From Verif.Spec Require Import GridSpec SimSpec.
From Verif.Proofs Require Import Lib GridCover StepP.
Local Open Scope R_scope.
Import ListNotations.

Lemma bind_ok' {A B} (x : res A) (f : A -> res B) b : (let* a := x in f a) = Ok b -> exists a, x = Ok a /\ f a = Ok b.
Proof. intros H. destruct x as [a|e]; cbn in H; [eauto|discriminate]. Qed.

Lemma opt_case {A} (o : option A) : (exists a, o = Some a) \/ o = None. Proof. destruct o; eauto. Qed.
(** ** Shapes of the two models *)
Section Fixed.
Context (p : sim_params) (g : grid R) (rg : option (refined_grid R)) (ext : external_fn) (trac : traction_fn) (fx : list bool) (ref1 ref2 : list R).
Let N := num_vertices g.
Let K := dofs rg.
Let NT := num_vertices (theta_grid g rg).
Let rad := p_search_radius p.

(** [y] keeps the reference value wherever the variable is fixed. *)
Definition pinned (ref y : list R) : Prop := forall i, nth_error fx i = Some true -> nth_error y i = nth_error ref i.

Record minv (m : mech) : Prop := {
  mi_grid : ms_grid m = g; mi_ref : ms_refined m = rg; mi_rad : ms_radius m = rad; mi_fps : ms_fps m = p_fps p;
  mi_reg : forall e, p_regularization p = Some e -> ms_reg m = e; mi_tr : ms_traction m = trac;
  mi_p1 : length (ms_prev_y1 m) = (N * K)%nat; mi_p2 : length (ms_prev_y2 m) = (N * K)%nat;
  mi_y1 : length (ms_y1 m) = (N * K)%nat; mi_y2 : length (ms_y2 m) = (N * K)%nat;
  mi_th : length (ms_prev_theta m) = NT;
  mi_f1 : map v_fixed (ms_y1 m) = fx; mi_f2 : map v_fixed (ms_y2 m) = fx;
  mi_g : rg = None -> map fst (ms_g1 m) = b_vertices (g_neumann g) /\ map fst (ms_g2 m) = b_vertices (g_neumann g);
  mi_pin : pinned ref1 (ms_prev_y1 m) /\ pinned ref2 (ms_prev_y2 m) /\ pinned ref1 (map v_val (ms_y1 m)) /\ pinned ref2 (map v_val (ms_y2 m))
}.
Record tinv (t : therm) : Prop := {
  ti_grid : ts_grid t = g; ti_ref : ts_refined t = rg; ti_rad : ts_radius t = rad; ti_fps : ts_fps t = p_fps p; ti_ext : ts_external t = ext;
  ti_p1 : length (ts_prev_y1 t) = (N * K)%nat; ti_p2 : length (ts_prev_y2 t) = (N * K)%nat;
  ti_y1 : length (ts_y1 t) = (N * K)%nat; ti_y2 : length (ts_y2 t) = (N * K)%nat;
  ti_pth : length (ts_prev_theta t) = NT; ti_th : length (ts_theta t) = NT;
  ti_fixed : forall x, In x (ts_theta t) -> v_fixed x = false;
  ti_pin : pinned ref1 (ts_prev_y1 t) /\ pinned ref2 (ts_prev_y2 t) /\ pinned ref1 (ts_y1 t) /\ pinned ref2 (ts_y2 t)
}.

Lemma y_shape_array y1 y2 : shape_is (y_array g rg y1 y2) (y_shape g rg) = true.
Proof. apply shape_is_spec. reflexivity. Qed.
Lemma theta_shape_array th : shape_is (theta_array g rg th) (theta_shape g rg) = true.
Proof. apply shape_is_spec. reflexivity. Qed.

(** *** Mechanical updates *)
Definition m_with_y (m : mech) (a1 a2 : list R) : mech :=
  mkMech g rg rad (ms_fps m) (ms_reg m) a1 a2 (ms_prev_theta m) (recenter_all rad (ms_y1 m) a1) (recenter_all rad (ms_y2 m) a2) (ms_g1 m) (ms_g2 m) (ms_traction m).
Lemma m_update_y m a1 a2 : minv m -> length a1 = (N * K)%nat -> length a2 = (N * K)%nat -> mech_update_prev_y m (y_array g rg a1 a2) = (m_with_y m a1 a2, Ok tt).
Proof.
  intros I H1 H2. unfold mech_update_prev_y. rewrite (mi_grid m I), (mi_ref m I), (mi_rad m I), y_shape_array. cbn [negb]. unfold y_array. cbn [nd_data].
  destruct (unpack_pack N K a1 a2 H1 H2) as [E1 E2]. fold N K. rewrite E1, E2. reflexivity.
Qed.
Lemma pinned_map fx' vs ref xs : fx' = fx -> length xs = length vs -> pinned ref vs -> pinned ref (map v_val (recenter_all rad xs vs)).
Proof. intros _ H P. rewrite recenter_vals by exact H. exact P. Qed.
Lemma m_with_y_inv m a1 a2 : minv m -> length a1 = (N * K)%nat -> length a2 = (N * K)%nat -> pinned ref1 a1 -> pinned ref2 a2 -> minv (m_with_y m a1 a2).
Proof.
  intros I H1 H2 P1 P2. pose proof (mi_y1 m I) as L1. pose proof (mi_y2 m I) as L2.
  split; cbn; try reflexivity; try apply I; try assumption; rewrite ?recenter_length by congruence; try assumption; rewrite ?recenter_fixed, ?recenter_vals by congruence; try apply I. repeat split; assumption.
Qed.
Lemma m_update_theta m th m' r : minv m -> length th = NT -> mech_update_prev_theta m (theta_array g rg th) = (m', r) ->
  minv m' /\ (exists l, m' = mech_set_prev_theta m l) /\ (r = Ok tt -> m' = mech_set_prev_theta m th /\ forall v, In v th -> 0 <= v) /\ (forall e, r = Err e -> e = ValueError /\ exists v, In v th /\ v < 0).
Proof.
  intros I H E. unfold mech_update_prev_theta in E. rewrite (mi_grid m I), (mi_ref m I), theta_shape_array in E. cbn [negb] in E. unfold theta_array in E. cbn [nd_data] in E.
  pose proof (set_nonneg_length (ms_prev_theta m) th) as L. destruct (set_nonneg (ms_prev_theta m) th) as [l e] eqn:S. cbn [fst] in L. injection E as <- <-. split; [|split; [eauto|split]].
  - split; cbn; try apply I. rewrite L. apply I.
  - intros ->. apply set_nonneg_inv in S as [-> P]; [auto|rewrite (mi_th m I), H; reflexivity].
  - intros e' ->. exact (set_nonneg_err _ _ _ _ S).
Qed.
Lemma dreplace_fst v x d : map fst (dreplace v x d) = map fst d.
Proof. unfold dreplace. rewrite map_map. apply map_ext. intros [k y]. destruct (Nat.eqb k v); reflexivity. Qed.
Lemma dreplace_find v x d w : dfind Nat.eqb w (dreplace v x d) = (if Nat.eqb w v then match dfind Nat.eqb w d with Some _ => Some x | None => None end else dfind Nat.eqb w d).
Proof.
  induction d as [|[k y] d IH]; [cbn; destruct (Nat.eqb w v); reflexivity|]. assert (U : dreplace v x ((k, y) :: d) = (if Nat.eqb k v then (k, x) else (k, y)) :: dreplace v x d) by reflexivity. rewrite U.
  destruct (Nat.eqb k v) eqn:E1; cbn [dfind]; destruct (Nat.eqb w k) eqn:E2; try exact IH.
  - apply Nat.eqb_eq in E2 as ->. rewrite E1. reflexivity.
  - apply Nat.eqb_eq in E2 as ->. rewrite E1. reflexivity.
Qed.
Lemma mech_set_g_twice m a b c d : mech_set_g (mech_set_g m a b) c d = mech_set_g m c d. Proof. reflexivity. Qed.
Lemma traction_loop_shape vs : forall m t m' r, traction_loop m t vs = (m', r) -> exists g1 g2, m' = mech_set_g m g1 g2 /\ map fst g1 = map fst (ms_g1 m) /\ map fst g2 = map fst (ms_g2 m).
Proof.
  induction vs as [|v vs IH]; intros m t m' r E; cbn in E.
  - injection E as <- <-. exists (ms_g1 m), (ms_g2 m). split; [destruct m; reflexivity|auto].
  - destruct (traction_at m t v) as [[a b]|e]; [|injection E as <- <-; exists (ms_g1 m), (ms_g2 m); split; [destruct m; reflexivity|auto]].
    destruct (IH _ _ _ _ E) as [g1 [g2 [-> [A B]]]]. exists g1, g2. rewrite mech_set_g_twice. split; [reflexivity|]. cbn in A, B. rewrite !dreplace_fst in A, B. auto.
Qed.
Lemma traction_loop_ok vs : forall m t m', traction_loop m t vs = (m', Ok tt) -> incl vs (map fst (ms_g1 m)) -> incl vs (map fst (ms_g2 m)) ->
  (forall v, In v vs -> exists a b, traction_at m t v = Ok (a, b) /\ dfind Nat.eqb v (ms_g1 m') = Some a /\ dfind Nat.eqb v (ms_g2 m') = Some b) /\
  (forall v, ~ In v vs -> dfind Nat.eqb v (ms_g1 m') = dfind Nat.eqb v (ms_g1 m) /\ dfind Nat.eqb v (ms_g2 m') = dfind Nat.eqb v (ms_g2 m)).
Proof.
  induction vs as [|v vs IH]; intros m t m' E I1 I2; cbn in E.
  - injection E as <-. split; [intros ? []|auto].
  - destruct (traction_at m t v) as [[a b]|e] eqn:T; [|discriminate]. specialize (IH _ _ _ E). cbn in IH. rewrite !dreplace_fst in IH.
    destruct IH as [A B]; [intros x Hx; apply I1; right; exact Hx|intros x Hx; apply I2; right; exact Hx|].
    assert (F : forall d : dict nat R, In v (map fst d) -> exists y, dfind Nat.eqb v d = Some y).
    { intros d. induction d as [|[k y] d IHd]; cbn; [intros []|]. intros [-> |H]; [rewrite Nat.eqb_refl; eauto|]. destruct (Nat.eqb v k); eauto. }
    split.
    + intros w [<- |Hw]; [|apply A, Hw]. destruct (in_dec Nat.eq_dec v vs) as [Y|Y]; [apply A, Y|]. exists a, b. split; [exact T|]. destruct (B v Y) as [-> ->]. rewrite !dreplace_find, Nat.eqb_refl.
      destruct (F _ (I1 v (or_introl eq_refl))) as [y1 ->]. destruct (F _ (I2 v (or_introl eq_refl))) as [y2 ->]. auto.
    + intros w Hw. destruct (B w) as [-> ->]; [intros Y; apply Hw; right; exact Y|]. rewrite !dreplace_find. destruct (Nat.eqb w v) eqn:Q; [apply Nat.eqb_eq in Q as ->; exfalso; apply Hw; left; reflexivity|auto].
Qed.
Lemma m_update_traction m t m' r : minv m -> mech_update_boundary_traction m t = (m', r) ->
  minv m' /\ exists g1 g2, m' = mech_set_g m g1 g2 /\ (r = Ok tt -> rg = None -> forall v, In v (b_vertices (g_neumann g)) -> exists a b, traction_at m t v = Ok (a, b) /\ dget Nat.eqb v g1 = Ok a /\ dget Nat.eqb v g2 = Ok b).
Proof.
  intros I E. unfold mech_update_boundary_traction in E. rewrite (mi_ref m I), (mi_grid m I) in E. destruct (opt_case rg) as [[r0 Er] | Er]; rewrite Er in E.
  - injection E as <- <-. split; [exact I|]. exists (ms_g1 m), (ms_g2 m). split; [destruct m; reflexivity|congruence].
  - destruct (mi_g m I Er) as [G1 G2]. destruct (traction_loop_shape _ _ _ _ _ E) as [g1 [g2 [-> [A B]]]]. split.
    + split; cbn; try apply I. intros _. rewrite A, B. auto.
    + exists g1, g2. split; [reflexivity|]. intros -> _ v Hv. apply traction_loop_ok in E as [S _]; [|rewrite G1; apply incl_refl|rewrite G2; apply incl_refl].
      destruct (S v Hv) as [a [b [T [D1 D2]]]]. exists a, b. cbn in D1, D2. unfold dget. rewrite D1, D2. auto.
Qed.
Lemma pinned_load ref xs sol : map v_fixed xs = fx -> pinned ref (map v_val xs) -> pinned ref (map v_val (load sol xs)).
Proof.
  intros F P i Hi. rewrite <- (P i Hi). rewrite <- F in Hi. rewrite nth_error_map in Hi. destruct (nth_error xs i) as [x|] eqn:E; [|discriminate]. injection Hi as Hx.
  rewrite !nth_error_map, (load_nth _ _ _ _ E), E, Hx. reflexivity.
Qed.
Lemma m_solve_inv m a : minv m -> minv (fst (mech_solve a m)).
Proof.
  intros I. split; cbn; try apply I; rewrite ?load_length, ?load_fixed; try apply I. destruct (mi_pin m I) as [P1 [P2 [P3 P4]]]. repeat split; auto; apply pinned_load; auto; apply I.
Qed.

(** *** Thermal updates *)
Definition t_with_prev_y (t : therm) (a1 a2 : list R) : therm :=
  mkTherm g rg (ts_radius t) (ts_fps t) a1 a2 (ts_y1 t) (ts_y2 t) (ts_prev_theta t) (ts_theta t) (ts_ext t) (ts_external t).
Definition t_with_y (t : therm) (a1 a2 : list R) : therm :=
  mkTherm g rg (ts_radius t) (ts_fps t) (ts_prev_y1 t) (ts_prev_y2 t) a1 a2 (ts_prev_theta t) (ts_theta t) (ts_ext t) (ts_external t).
Definition t_with_theta (t : therm) (ps : list R) (xs : list pvar) : therm :=
  mkTherm g rg (ts_radius t) (ts_fps t) (ts_prev_y1 t) (ts_prev_y2 t) (ts_y1 t) (ts_y2 t) ps xs (ts_ext t) (ts_external t).
Definition t_with_ext (t : therm) (v : R) : therm :=
  mkTherm g rg (ts_radius t) (ts_fps t) (ts_prev_y1 t) (ts_prev_y2 t) (ts_y1 t) (ts_y2 t) (ts_prev_theta t) (ts_theta t) v (ts_external t).
Lemma t_update_prev_y t a1 a2 : tinv t -> length a1 = (N * K)%nat -> length a2 = (N * K)%nat -> therm_update_prev_y t (y_array g rg a1 a2) = (t_with_prev_y t a1 a2, Ok tt).
Proof.
  intros I H1 H2. unfold therm_update_prev_y. rewrite (ti_grid t I), (ti_ref t I), y_shape_array. cbn [negb]. unfold y_array. cbn [nd_data].
  destruct (unpack_pack N K a1 a2 H1 H2) as [E1 E2]. fold N K. rewrite E1, E2. reflexivity.
Qed.
Lemma t_update_y t a1 a2 : tinv t -> length a1 = (N * K)%nat -> length a2 = (N * K)%nat -> therm_update_y t (y_array g rg a1 a2) = (t_with_y t a1 a2, Ok tt).
Proof.
  intros I H1 H2. unfold therm_update_y. rewrite (ti_grid t I), (ti_ref t I), y_shape_array. cbn [negb]. unfold y_array. cbn [nd_data].
  destruct (unpack_pack N K a1 a2 H1 H2) as [E1 E2]. fold N K. rewrite E1, E2. reflexivity.
Qed.
Lemma t_with_prev_y_inv t a1 a2 : tinv t -> length a1 = (N * K)%nat -> length a2 = (N * K)%nat -> pinned ref1 a1 -> pinned ref2 a2 -> tinv (t_with_prev_y t a1 a2).
Proof. intros I H1 H2 P1 P2. destruct (ti_pin t I) as [_ [_ [Q1 Q2]]]. split; cbn; try reflexivity; try apply I; auto. Qed.
Lemma t_with_y_inv t a1 a2 : tinv t -> length a1 = (N * K)%nat -> length a2 = (N * K)%nat -> pinned ref1 a1 -> pinned ref2 a2 -> tinv (t_with_y t a1 a2).
Proof. intros I H1 H2 P1 P2. destruct (ti_pin t I) as [Q1 [Q2 _]]. split; cbn; try reflexivity; try apply I; auto. Qed.
Lemma recenter_in r xs vs x : In x (recenter_all r xs vs) -> exists y v, In y xs /\ x = recenter r y v.
Proof. unfold recenter_all. intros H. apply in_map_iff in H as [[y v] [<- H]]. exists y, v. split; [|reflexivity]. clear - H. revert vs H. induction xs as [|z xs IH]; intros [|w vs] H; cbn in H; try contradiction. destruct H as [E|H]; [injection E as -> _; left; reflexivity|right; exact (IH _ H)]. Qed.
Lemma theta_loop_fixed r old xs new : let '(_, ys, _) := theta_loop r old xs new in (forall x, In x xs -> v_fixed x = false) -> forall y, In y ys -> v_fixed y = false.
Proof.
  revert old xs. induction new as [|v new IH]; intros [|o old] [|x xs]; cbn; auto. destruct (Rltb v 0); [auto|]. specialize (IH old xs). destruct (theta_loop r old xs new) as [[ps ys] e]. intros F y [<- |Hy]; [cbn; apply F; left; reflexivity|apply IH; [intros; apply F; right; assumption|exact Hy]].
Qed.
Lemma t_update_theta t th t' r : tinv t -> length th = NT -> therm_update_prev_theta t (theta_array g rg th) = (t', r) ->
  tinv t' /\ (exists ps xs, t' = t_with_theta t ps xs) /\ (r = Ok tt -> t' = t_with_theta t th (recenter_all rad (ts_theta t) th) /\ forall v, In v th -> 0 <= v) /\ (forall e, r = Err e -> e = ValueError /\ exists v, In v th /\ v < 0).
Proof.
  intros I H E. unfold therm_update_prev_theta in E. rewrite (ti_grid t I), (ti_ref t I), (ti_rad t I), theta_shape_array in E. cbn [negb] in E. unfold theta_array in E. cbn [nd_data] in E.
  pose proof (theta_loop_length rad (ts_prev_theta t) (ts_theta t) th) as L. pose proof (theta_loop_fixed rad (ts_prev_theta t) (ts_theta t) th) as F. destruct (theta_loop rad (ts_prev_theta t) (ts_theta t) th) as [[ps xs] e] eqn:S. destruct L as [L1 L2]. injection E as <- <-. split; [|split; [|split]].
  - split; cbn; try reflexivity; try apply I; [rewrite L1; apply I|rewrite L2; apply I|apply F, I].
  - exists ps, xs. unfold t_with_theta. rewrite (ti_rad t I). reflexivity.
  - intros ->. apply theta_loop_inv in S as [-> [-> P]]; [|rewrite (ti_pth t I), H; reflexivity|rewrite (ti_th t I), H; reflexivity]. split; [|exact P]. unfold t_with_theta. rewrite (ti_rad t I). reflexivity.
  - intros e' ->. exact (theta_loop_err _ _ _ _ _ _ _ S).
Qed.
Lemma t_update_ext t tm t' r : tinv t -> therm_update_external_temperature t tm = (t', r) ->
  tinv t' /\ (exists v, t' = t_with_ext t v) /\ (r = Ok tt -> rg = None -> exists v, t' = t_with_ext t v /\ ext tm = Ok v /\ 0 <= v).
Proof.
  intros I E. unfold therm_update_external_temperature in E. rewrite (ti_ref t I), (ti_grid t I), (ti_ext t I) in E.
  assert (same : t = t_with_ext t (ts_ext t)) by (unfold t_with_ext; rewrite <- (ti_grid t I) at 1; rewrite <- (ti_ref t I) at 1; destruct t; reflexivity).
  destruct (opt_case rg) as [[r0 Er] | Er]; rewrite Er in E.
  - injection E as <- <-. split; [exact I|]. split; [eauto|congruence].
  - assert (INV : forall v, tinv (t_with_ext t v)). { intros v. pose proof I as [A1 A2 A3 A4 A5 A6 A7 A8 A9 A10 A11 A12 A13]. split; cbn; auto. }
    destruct (ext tm) as [v|e] eqn:Ev; [|injection E as <- <-; split; [exact I|split; [eauto|congruence]]]. destruct (Rltb v 0) eqn:Lv; injection E as <- <-.
    + split; [exact I|]. split; [eauto|congruence].
    + assert (Q : mkTherm g None (ts_radius t) (ts_fps t) (ts_prev_y1 t) (ts_prev_y2 t) (ts_y1 t) (ts_y2 t) (ts_prev_theta t) (ts_theta t) v ext = t_with_ext t v) by (unfold t_with_ext; rewrite (ti_ext t I), Er; reflexivity).
      rewrite Q. split; [apply INV|]. split; [eauto|]. intros _ _. exists v. split; [reflexivity|]. split; [reflexivity|]. apply Rltb_false, Lv.
Qed.
Lemma t_solve_inv t a : tinv t -> tinv (fst (therm_solve a t)).
Proof.
  intros I. split; cbn; try apply I; rewrite ?load_length; try apply I. intros x Hx. apply in_nth in Hx as [i Hi].
  destruct (nth_error (ts_theta t) i) as [y|] eqn:E.
  - rewrite (load_nth _ _ _ _ E) in Hi. injection Hi as <-. rewrite (ti_fixed t I y (nth_error_In _ _ E)). reflexivity.
  - exfalso. apply nth_error_None in E. assert (i < length (load (ta_theta a) (ts_theta t)))%nat by (apply nth_error_Some; congruence). rewrite load_length in *. lia.
Qed.
End Fixed.
