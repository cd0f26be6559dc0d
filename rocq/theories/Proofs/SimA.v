(** Access to recorded steps. *)
From Coq Require Import Reals Lra Lia List ZArith.
From Verif.Model Require Import Py Num Tensors Domain Refine Bell Interp Steps Simulation.
From Verif.Spec Require Import GridSpec SimSpec.
From Verif.Proofs Require Import Lib StepP SimP SimQ SimR SimH SimL.
Local Open Scope R_scope.
Import ListNotations.

Lemma y_at_array g rg a1 a2 v c j : length a1 = (num_vertices g * dofs rg)%nat -> length a2 = (num_vertices g * dofs rg)%nat -> (v < num_vertices g)%nat -> (c < 2)%nat -> (j < dofs rg)%nat ->
  y_at (y_array g rg a1 a2) v c j = nth_error (if Nat.eqb c 0 then a1 else a2) (v * dofs rg + j).
Proof.
  intros H1 H2 Hv Hc Hj. rewrite <- (pack_nth (num_vertices g) (dofs rg) a1 a2 v c j H1 H2 Hv Hc Hj). unfold y_at, y_array. destruct rg as [r|]; cbn [y_shape nd_shape nd_data dofs] in *.
  - f_equal. lia.
  - assert (j = 0)%nat by lia. subst j. cbn [Nat.eqb]. f_equal. lia.
Qed.
Lemma y_at_zero g rg a1 a2 v c : length a1 = (num_vertices g * dofs rg)%nat -> length a2 = (num_vertices g * dofs rg)%nat -> (v < num_vertices g)%nat -> (c < 2)%nat ->
  y_at (y_array g rg a1 a2) v c 0 = nth_error (if Nat.eqb c 0 then a1 else a2) (v * dofs rg).
Proof. intros. rewrite y_at_array; auto; [f_equal; lia|destruct rg; cbn; lia]. Qed.
(** Every entry is one of the entries of the two components. *)
Lemma y_at_inv g rg a1 a2 v c j x : length a1 = (num_vertices g * dofs rg)%nat -> length a2 = (num_vertices g * dofs rg)%nat -> y_at (y_array g rg a1 a2) v c j = Some x -> (c < 2)%nat -> (j < dofs rg)%nat -> (v < num_vertices g)%nat.
Proof.
  intros H1 H2 H Hc Hj. pose proof (pack_length (num_vertices g) (dofs rg) a1 a2 H1 H2) as L. unfold y_at, y_array in H. destruct rg as [r|]; cbn [y_shape nd_shape nd_data dofs] in *.
  - assert (Q : (((2 * v + c) * 6 + j) < length (pack (num_vertices g) 6 a1 a2))%nat) by (apply nth_error_Some; congruence). lia.
  - assert (j = 0)%nat by lia. subst j. cbn in H. assert (Q : ((2 * v + c) < length (pack (num_vertices g) 1 a1 a2))%nat) by (apply nth_error_Some; cbn; congruence). lia.
Qed.
Lemma iref_nth rg ps v x y : nth_error ps v = Some (x, y) -> nth_error (iref1 rg ps) (v * dofs rg) = Some x /\ nth_error (iref2 rg ps) (v * dofs rg) = Some y.
Proof.
  intros H. unfold iref1, iref2, dofs. destruct rg as [r|].
  - revert v H. induction ps as [|[a b] ps IH]; intros [|v] H; try discriminate; [injection H as -> ->; auto|]. cbn [flat_map]. replace (S v * 6)%nat with (6 + v * 6)%nat by lia. destruct (IH v H) as [A B]. split; [exact A|exact B].
  - rewrite Nat.mul_1_r, !nth_error_map, H. auto.
Qed.
Lemma points_nth (g : grid R) ps v x y : g_points g = map (fun '(a, b) => [a; b]) ps -> (nth_error (g_points g) v = Some [x; y] <-> nth_error ps v = Some (x, y)).
Proof.
  intros ->. rewrite nth_error_map. destruct (nth_error ps v) as [[a b]|]; cbn; split; intros H; try discriminate; injection H as -> ->; reflexivity.
Qed.
Lemma ifx_dirichlet g rg v : (v < num_vertices g)%nat -> In v (b_vertices (g_dirichlet g)) -> nth_error (ifx g rg) (v * dofs rg) = Some true.
Proof.
  intros Hv Hd. unfold ifx. rewrite nth_error_map. assert (L : (v * dofs rg < num_vertices g * dofs rg)%nat) by (apply Nat.mul_lt_mono_pos_r; [destruct rg; cbn; lia|exact Hv]).
  assert (Q : nth_error (range (num_vertices g * dofs rg)) (v * dofs rg) = Some (v * dofs rg)%nat).
  { unfold range. rewrite nth_error_nth' with (d := 0%nat) by (rewrite seq_length; exact L). rewrite seq_nth by exact L. reflexivity. }
  rewrite Q. cbn [option_map]. f_equal. assert (EX : existsb (Nat.eqb v) (b_vertices (g_dirichlet g)) = true) by (apply existsb_exists; exists v; split; [exact Hd|apply Nat.eqb_refl]).
  unfold ifix, dofs. destruct rg as [r|]; [|rewrite Nat.mul_1_r; exact EX]. rewrite Nat.mod_mul, Nat.div_mul by lia. rewrite EX. reflexivity.
Qed.
Lemma ifx_spec g rg i : nth_error (ifx g rg) i = Some true <-> (i < num_vertices g * dofs rg)%nat /\ exists v, In v (b_vertices (g_dirichlet g)) /\ i = (v * dofs rg)%nat.
Proof.
  unfold ifx. rewrite nth_error_map. split.
  - intros H. destruct (nth_error (range (num_vertices g * dofs rg)) i) as [k|] eqn:E; [|discriminate]. assert (L : (i < num_vertices g * dofs rg)%nat) by (rewrite <- (range_length (num_vertices g * dofs rg)); apply nth_error_Some; congruence).
    unfold range in E. rewrite nth_error_nth' with (d := 0%nat) in E by (rewrite seq_length; exact L). rewrite seq_nth in E by exact L. cbn in E. injection E as <-. split; [exact L|]. cbn in H. injection H as H. unfold ifix in H. unfold dofs. destruct rg as [r|].
    + apply andb_true_iff in H as [H1 H2]. apply existsb_exists in H2 as [v [Hv E]]. apply Nat.eqb_eq in E, H1. exists v. split; [exact Hv|]. pose proof (Nat.div_mod i 6). lia.
    + apply existsb_exists in H as [v [Hv E]]. apply Nat.eqb_eq in E. exists v. split; [exact Hv|lia].
  - intros [L [v [Hv ->]]]. rewrite <- nth_error_map. apply ifx_dirichlet; [|exact Hv]. destruct rg; cbn in L; lia.
Qed.
(** The grid of a reachable simulation. *)
Lemma hist_grid u g rg ps s : hist u g rg ps s -> s_grid s = g /\ s_refined s = rg /\ s_params s = se_params u.
Proof. intros H. pose proof (hi_inv _ _ _ _ _ H) as I. repeat split; apply I. Qed.
Lemma ground_bounds u g rg ps : ground u g rg ps -> (forall v, In v (b_vertices (g_neumann g)) -> (v < num_vertices g)%nat) /\ (forall v, In v (b_vertices (g_dirichlet g)) -> (v < num_vertices g)%nat) /\ num_vertices g = length (g_points g).
Proof.
  intros G. pose proof (gr_valid _ _ _ _ G) as V. pose proof (params_ok u V) as (_ & _ & _ & PS & _). destruct V as [Hw [Hh _]].
  destruct (grid_bounds _ _ _ _ _ _ Hw Hh PS (gr_grid _ _ _ _ G)) as (_ & NL & _ & A & B). rewrite NL. auto.
Qed.
Lemma load_vals_nth sol xs i x : nth_error xs i = Some x -> nth_error (map v_val (load sol xs)) i = Some (if v_fixed x then v_val x else sol i).
Proof. intros H. rewrite nth_error_map, (load_nth _ _ _ _ H). cbn. destruct (v_fixed x); reflexivity. Qed.

(** Lists that are close entry by entry. *)
Lemma Forall2_slice {A B} (P : A -> B -> Prop) o k l l' : Forall2 P l l' -> Forall2 P (slice o k l) (slice o k l').
Proof.
  unfold slice. intros H. assert (S : Forall2 P (skipn o l) (skipn o l')). { revert o. induction H; intros [|o]; cbn; auto. }
  clear H. revert k. induction S; intros [|k]; cbn; auto.
Qed.
Lemma Forall2_pack {A B} (P : A -> B -> Prop) N k a1 a2 b1 b2 : Forall2 P a1 b1 -> Forall2 P a2 b2 -> Forall2 P (pack N k a1 a2) (pack N k b1 b2).
Proof.
  intros H1 H2. unfold pack. induction (range N) as [|i l IH]; cbn; [constructor|]. apply Forall2_app; [apply Forall2_app; apply Forall2_slice; assumption|exact IH].
Qed.
Lemma Forall2_nth {A B} (P : A -> B -> Prop) l l' i x : Forall2 P l l' -> nth_error l i = Some x -> exists x', nth_error l' i = Some x' /\ P x x'.
Proof. intros H. revert i. induction H; intros [|i] E; cbn in *; try discriminate; [injection E as <-; eauto|eauto]. Qed.
Lemma load_close r sol xs vs : 0 < r -> map v_val xs = vs -> map v_lb xs = map (fun v => v - r) vs -> map v_ub xs = map (fun v => v + r) vs ->
  (forall i x, nth_error xs i = Some x -> v_fixed x = false -> v_lb x <= sol i <= v_ub x) -> Forall2 (fun v w => Rabs (w - v) <= r) vs (map v_val (load sol xs)).
Proof.
  intros Hr E1 E2 E3 B. unfold load. assert (B' : forall i x, nth_error xs i = Some x -> v_fixed x = false -> v_lb x <= sol (0 + i)%nat <= v_ub x) by exact B. clear B. revert vs E1 E2 E3 B'. generalize 0%nat as n. induction xs as [|x xs IH]; intros n [|v vs] E1 E2 E3 B; try discriminate; [constructor|]. cbn in E1, E2, E3. injection E1 as E1 F1. injection E2 as E2 F2. injection E3 as E3 F3.
  cbn [load_from map]. constructor.
  - destruct (v_fixed x) eqn:Fx; cbn [v_val]; [rewrite E1, Rminus_diag_eq by reflexivity; rewrite Rabs_R0; lra|]. specialize (B 0%nat x eq_refl Fx). rewrite Nat.add_0_r, E2, E3 in B. apply Rabs_le. lra.
  - apply (IH (S n) vs F1 F2 F3). intros i y Hy Hf. specialize (B (S i) y Hy Hf). replace (S n + i)%nat with (n + S i)%nat by lia. exact B.
Qed.
Lemma flat_nth_all {A} (l pre : list A) : flat_map (fun v => match nth_error (pre ++ l) v with Some x => [x] | None => [] end) (seq (length pre) (length l)) = l.
Proof.
  revert pre. induction l as [|x l IH]; intros pre; [reflexivity|]. cbn [length seq flat_map]. rewrite nth_error_app2, Nat.sub_diag by lia. cbn [nth_error app]. f_equal. specialize (IH (pre ++ [x])). rewrite <- app_assoc, app_length in IH. cbn [length app] in IH. rewrite Nat.add_1_r in IH. exact IH.
Qed.
