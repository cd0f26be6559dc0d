(** Arrays, variables and update methods of the mechanical and thermal step. *)
From Coq Require Import Reals Lra Lia List.
From Verif.Model Require Import Py Num Tensors Domain Refine Interp Steps.
From Verif.Proofs Require Import Lib.
Local Open Scope R_scope.
Import ListNotations.

(** ** Flattened arrays *)
Lemma slice_length {A} o k (l : list A) : (o + k <= length l)%nat -> length (slice o k l) = k.
Proof. intros H. unfold slice. rewrite firstn_length, skipn_length. lia. Qed.
Lemma slice_nth {A} o k (l : list A) j : (j < k)%nat -> nth_error (slice o k l) j = nth_error l (o + j).
Proof.
  intros H. unfold slice. revert l. induction o as [|o IH]; intros l.
  - cbn [skipn]. rewrite Nat.add_0_l. revert j l H. induction k as [|k IHk]; intros j l H; [lia|]. destruct l as [|x l]; [destruct j; reflexivity|]. destruct j as [|j]; [reflexivity|]. cbn. apply IHk. lia.
  - destruct l as [|x l]; [cbn; destruct k; destruct j; reflexivity|]. cbn [skipn]. rewrite IH. reflexivity.
Qed.
Lemma flat_nth {A} (f : nat -> list A) N k : (forall i, (i < N)%nat -> length (f i) = k) -> forall i j, (i < N)%nat -> (j < k)%nat -> nth_error (flat_map f (range N)) (i * k + j) = nth_error (f i) j.
Proof.
  intros L. induction N as [|N IH]; intros i j Hi Hj; [lia|]. rewrite range_S, flat_map_app. cbn [flat_map]. rewrite app_nil_r.
  assert (LL : length (flat_map f (range N)) = (N * k)%nat). { clear - L. induction N as [|N IH]; [reflexivity|]. rewrite range_S, flat_map_app, app_length. cbn [flat_map]. rewrite app_nil_r, IH, (L N) by (intros; try apply L; lia). lia. }
  destruct (Nat.eq_dec i N) as [->|D].
  - rewrite nth_error_app2 by (rewrite LL; lia). rewrite LL. f_equal. lia.
  - rewrite nth_error_app1 by (rewrite LL; nia). apply IH; [intros; apply L; lia|lia|exact Hj].
Qed.
Lemma flat_length {A} (f : nat -> list A) N k : (forall i, (i < N)%nat -> length (f i) = k) -> length (flat_map f (range N)) = (N * k)%nat.
Proof. induction N as [|N IH]; intros L; [reflexivity|]. rewrite range_S, flat_map_app, app_length. cbn [flat_map]. rewrite app_nil_r, IH, (L N) by (intros; try apply L; lia). lia. Qed.
Lemma pack_length {A} N k (y1 y2 : list A) : length y1 = (N * k)%nat -> length y2 = (N * k)%nat -> length (pack N k y1 y2) = (N * (2 * k))%nat.
Proof. intros H1 H2. unfold pack. apply flat_length. intros i Hi. rewrite app_length, !slice_length by nia. lia. Qed.
Lemma unpack_length {A} N k c (d : list A) : (c < 2)%nat -> length d = (N * (2 * k))%nat -> length (unpack N k c d) = (N * k)%nat.
Proof. intros Hc H. unfold unpack. apply flat_length. intros i Hi. apply slice_length. nia. Qed.
Lemma pack_nth {A} N k (y1 y2 : list A) i c j : length y1 = (N * k)%nat -> length y2 = (N * k)%nat -> (i < N)%nat -> (c < 2)%nat -> (j < k)%nat ->
  nth_error (pack N k y1 y2) (i * (2 * k) + c * k + j) = nth_error (if Nat.eqb c 0 then y1 else y2) (i * k + j).
Proof.
  intros H1 H2 Hi Hc Hj. unfold pack. replace (i * (2 * k) + c * k + j)%nat with (i * (2 * k) + (c * k + j))%nat by lia. rewrite (flat_nth _ N (2 * k)); [|intros i' Hi'; rewrite app_length, !slice_length by nia; lia|exact Hi|nia].
  destruct c as [|[|c]]; [| |lia]; cbn [Nat.eqb].
  - rewrite nth_error_app1 by (rewrite slice_length by nia; lia). rewrite slice_nth by lia. f_equal; lia.
  - rewrite nth_error_app2 by (rewrite slice_length by nia; lia). rewrite (slice_length _ _ y1) by nia. rewrite slice_nth by lia. f_equal; lia.
Qed.
Lemma unpack_nth {A} N k c (d : list A) i j : (c < 2)%nat -> length d = (N * (2 * k))%nat -> (i < N)%nat -> (j < k)%nat ->
  nth_error (unpack N k c d) (i * k + j) = nth_error d (i * (2 * k) + c * k + j).
Proof.
  intros Hc Hd Hi Hj. unfold unpack. rewrite (flat_nth _ N k); [|intros; apply slice_length; nia|exact Hi|exact Hj]. apply slice_nth, Hj.
Qed.
Lemma nth_error_ext {A} (l l' : list A) : length l = length l' -> (forall i, (i < length l)%nat -> nth_error l i = nth_error l' i) -> l = l'.
Proof.
  revert l'. induction l as [|x l IH]; intros [|y l'] L H; try discriminate; [reflexivity|]. pose proof (H 0%nat ltac:(cbn; lia)) as E. injection E as ->. f_equal. apply IH; [injection L; auto|]. intros i Hi. exact (H (S i) ltac:(cbn; lia)).
Qed.
Lemma split_index N k n : (n < N * k)%nat -> exists i j, (i < N)%nat /\ (j < k)%nat /\ n = (i * k + j)%nat.
Proof.
  intros H. assert (k <> 0)%nat by nia. exists (n / k)%nat, (n mod k)%nat. pose proof (Nat.div_mod n k ltac:(assumption)). pose proof (Nat.mod_upper_bound n k ltac:(assumption)). split; [|split; [assumption|nia]]. apply Nat.div_lt_upper_bound; nia.
Qed.
Lemma unpack_pack {A} N k (y1 y2 : list A) : length y1 = (N * k)%nat -> length y2 = (N * k)%nat -> unpack N k 0 (pack N k y1 y2) = y1 /\ unpack N k 1 (pack N k y1 y2) = y2.
Proof.
  intros H1 H2. pose proof (pack_length N k y1 y2 H1 H2) as LP. split; apply nth_error_ext; rewrite unpack_length by (exact LP || lia); try congruence; intros n Hn; destruct (split_index _ _ _ Hn) as [i [j [Hi [Hj ->]]]]; rewrite unpack_nth by (exact LP || lia); rewrite pack_nth by (assumption || lia); reflexivity.
Qed.
Lemma pack_unpack {A} N k (d : list A) : length d = (N * (2 * k))%nat -> pack N k (unpack N k 0 d) (unpack N k 1 d) = d.
Proof.
  intros H. assert (L0 := unpack_length N k 0 d ltac:(lia) H). assert (L1 := unpack_length N k 1 d ltac:(lia) H). apply nth_error_ext; [rewrite pack_length by assumption; auto|]. rewrite pack_length by assumption. intros n Hn.
  destruct (split_index _ _ _ Hn) as [i [q [Hi [Hq ->]]]]. replace (2 * k)%nat with (2 * k)%nat in Hq by reflexivity. destruct (split_index 2 k q Hq) as [c [j [Hc [Hj ->]]]].
  replace (i * (2 * k) + (c * k + j))%nat with (i * (2 * k) + c * k + j)%nat by lia. rewrite pack_nth by assumption. destruct c as [|[|c]]; [| |lia]; cbn [Nat.eqb]; rewrite unpack_nth by (assumption || lia); f_equal; lia.
Qed.
Lemma unpack_map {A B} (f : A -> B) N k c (d : list A) : unpack N k c (map f d) = map f (unpack N k c d).
Proof.
  unfold unpack. induction (range N) as [|i l IH]; [reflexivity|]. cbn [flat_map]. rewrite IH, map_app. f_equal. unfold slice. rewrite skipn_map, firstn_map. reflexivity.
Qed.

(** ** Variables *)
Lemma load_length sol xs : length (load sol xs) = length xs.
Proof. unfold load. generalize 0%nat. induction xs as [|x xs IH]; intros n; cbn; [reflexivity|]. rewrite IH. reflexivity. Qed.
Lemma load_from_nth n sol xs i x : nth_error xs i = Some x -> nth_error (load_from n sol xs) i = Some (if v_fixed x then x else mkVar (sol (n + i)%nat) (v_lb x) (v_ub x) (v_fixed x)).
Proof.
  revert n i. induction xs as [|y xs IH]; intros n [|i] H; try discriminate; cbn in *.
  - injection H as ->. rewrite Nat.add_0_r. reflexivity.
  - rewrite (IH (S n) i H). replace (S n + i)%nat with (n + S i)%nat by lia. reflexivity.
Qed.
Lemma load_nth sol xs i x : nth_error xs i = Some x -> nth_error (load sol xs) i = Some (if v_fixed x then x else mkVar (sol i) (v_lb x) (v_ub x) (v_fixed x)).
Proof. intros H. unfold load. rewrite (load_from_nth 0 sol xs i x H). reflexivity. Qed.
Lemma load_fixed sol xs : map v_fixed (load sol xs) = map v_fixed xs.
Proof. unfold load. generalize 0%nat. induction xs as [|x xs IH]; intros n; cbn; [reflexivity|]. rewrite IH. destruct (v_fixed x) eqn:E; cbn; rewrite ?E; reflexivity. Qed.
Lemma recenter_length r xs vs : length xs = length vs -> length (recenter_all r xs vs) = length vs.
Proof. intros H. unfold recenter_all. rewrite map_length. revert vs H. induction xs as [|x xs IH]; intros [|v vs] H; try discriminate; [reflexivity|]. cbn. f_equal. apply IH. injection H; auto. Qed.
Lemma recenter_nth r xs vs i x v : nth_error xs i = Some x -> nth_error vs i = Some v -> nth_error (recenter_all r xs vs) i = Some (recenter r x v).
Proof.
  unfold recenter_all. revert vs i. induction xs as [|y xs IH]; intros [|w vs] [|i] H1 H2; try discriminate; cbn in *; [injection H1 as ->; injection H2 as ->; reflexivity|]. apply IH; assumption.
Qed.
Lemma recenter_vals r xs vs : length xs = length vs -> map v_val (recenter_all r xs vs) = vs.
Proof. unfold recenter_all. revert vs. induction xs as [|x xs IH]; intros [|v vs] H; try discriminate; [reflexivity|]. cbn. f_equal. apply IH. injection H; auto. Qed.
Lemma recenter_fixed r xs vs : length xs = length vs -> map v_fixed (recenter_all r xs vs) = map v_fixed xs.
Proof. unfold recenter_all. revert vs. induction xs as [|x xs IH]; intros [|v vs] H; try discriminate; [reflexivity|]. cbn. f_equal. apply IH. injection H; auto. Qed.
Lemma recenter_bounds r xs vs : length xs = length vs -> map v_lb (recenter_all r xs vs) = map (fun v => v - r) vs /\ map v_ub (recenter_all r xs vs) = map (fun v => v + r) vs.
Proof. unfold recenter_all. revert vs. induction xs as [|x xs IH]; intros [|v vs] H; try discriminate; [auto|]. cbn. destruct (IH vs) as [A B]; [injection H; auto|]. split; f_equal; assumption. Qed.

(** ** Non-negative parameters *)
Lemma set_nonneg_ok old new : length old = length new -> (forall v, In v new -> 0 <= v) -> set_nonneg old new = (new, Ok tt).
Proof.
  revert new. induction old as [|o old IH]; intros [|v new] H P; try discriminate; [reflexivity|]. cbn. assert (E : Rltb v 0 = false) by (apply Rltb_false, P; left; reflexivity). rewrite E, (IH new); [reflexivity|injection H; auto|intros; apply P; right; assumption].
Qed.
Lemma set_nonneg_inv old new l : length old = length new -> set_nonneg old new = (l, Ok tt) -> l = new /\ forall v, In v new -> 0 <= v.
Proof.
  revert new l. induction old as [|o old IH]; intros [|v new] l H E; try discriminate; cbn in E.
  - injection E as <-. split; [reflexivity|intros ? []].
  - destruct (Rltb v 0) eqn:F; [discriminate|]. destruct (set_nonneg old new) as [l' e] eqn:G. injection E as <- ->. destruct (IH new l') as [-> P]; [injection H; auto|exact G|]. split; [reflexivity|]. intros w [<-|Hw]; [apply Rltb_false, F|apply P, Hw].
Qed.
Lemma set_nonneg_length old new : length (fst (set_nonneg old new)) = length old.
Proof. revert new. induction old as [|o old IH]; intros [|v new]; cbn; try reflexivity. destruct (Rltb v 0); [reflexivity|]. specialize (IH new). destruct (set_nonneg old new). cbn in *. f_equal. exact IH. Qed.
Lemma set_nonneg_err old new l e : set_nonneg old new = (l, Err e) -> e = ValueError /\ exists v, In v new /\ v < 0.
Proof.
  revert new l. induction old as [|o old IH]; intros [|v new] l E; try discriminate; cbn in E. destruct (Rltb v 0) eqn:F.
  - injection E as <- <-. split; [reflexivity|]. exists v. split; [left; reflexivity|apply Rltb_true, F].
  - destruct (set_nonneg old new) as [l' e'] eqn:G. injection E as <- ->. destruct (IH new l' G) as [-> [w [Hw Pw]]]. split; [reflexivity|]. exists w. split; [right; exact Hw|exact Pw].
Qed.
Lemma theta_loop_ok r old xs new : length old = length new -> length xs = length new -> (forall v, In v new -> 0 <= v) -> theta_loop r old xs new = (new, recenter_all r xs new, Ok tt).
Proof.
  revert old xs. induction new as [|v new IH]; intros [|o old] [|x xs] H1 H2 P; try discriminate; [reflexivity|]. cbn. assert (E : Rltb v 0 = false) by (apply Rltb_false, P; left; reflexivity). rewrite E, IH; [reflexivity|injection H1; auto|injection H2; auto|intros; apply P; right; assumption].
Qed.
Lemma theta_loop_inv r old xs new ps ys : length old = length new -> length xs = length new -> theta_loop r old xs new = (ps, ys, Ok tt) -> ps = new /\ ys = recenter_all r xs new /\ forall v, In v new -> 0 <= v.
Proof.
  revert old xs ps ys. induction new as [|v new IH]; intros [|o old] [|x xs] ps ys H1 H2 E; try discriminate; cbn in E.
  - injection E as <- <-. repeat split. intros ? [].
  - destruct (Rltb v 0) eqn:F; [discriminate|]. destruct (theta_loop r old xs new) as [[ps' ys'] e] eqn:G. injection E as <- <- ->. destruct (IH old xs ps' ys') as [-> [-> P]]; [injection H1; auto|injection H2; auto|exact G|]. repeat split. intros w [<-|Hw]; [apply Rltb_false, F|apply P, Hw].
Qed.
Lemma theta_loop_err r old xs new ps ys e : theta_loop r old xs new = (ps, ys, Err e) -> e = ValueError /\ exists v, In v new /\ v < 0.
Proof.
  revert old xs ps ys. induction new as [|v new IH]; intros [|o old] [|x xs] ps ys E; try discriminate; cbn in E. destruct (Rltb v 0) eqn:F.
  - injection E as <- <- <-. split; [reflexivity|]. exists v. split; [left; reflexivity|apply Rltb_true, F].
  - destruct (theta_loop r old xs new) as [[ps' ys'] e'] eqn:G. injection E as <- <- ->. destruct (IH old xs ps' ys' G) as [-> [w [Hw Pw]]]. split; [reflexivity|]. exists w. split; [right; exact Hw|exact Pw].
Qed.
Lemma theta_loop_length r old xs new : let '(ps, ys, _) := theta_loop r old xs new in length ps = length old /\ length ys = length xs.
Proof.
  revert old xs. induction new as [|v new IH]; intros [|o old] [|x xs]; cbn; try (split; reflexivity). destruct (Rltb v 0); [split; reflexivity|]. specialize (IH old xs). destruct (theta_loop r old xs new) as [[ps ys] e]. cbn. destruct IH as [-> ->]. split; reflexivity.
Qed.
Lemma all_nonneg_spec l : all_nonneg l = true <-> forall v, In v l -> 0 <= v.
Proof.
  unfold all_nonneg. rewrite forallb_forall. split; intros H v Hv; specialize (H v Hv).
  - apply Rltb_false. destruct (Rltb v 0); [discriminate|reflexivity].
  - apply Rltb_false in H. rewrite H. reflexivity.
Qed.
Lemma nats_eqb_spec a b : nats_eqb a b = true <-> a = b.
Proof. split; [revert b; induction a as [|x a IH]; intros [|y b] H; cbn in H; try discriminate; [reflexivity|]; apply andb_prop in H as [E F]; apply Nat.eqb_eq in E as ->; rewrite (IH b F); reflexivity|intros ->; induction b as [|y b IH]; cbn; [reflexivity|rewrite Nat.eqb_refl; exact IH]]. Qed.
Lemma shape_is_spec a s : shape_is a s = true <-> nd_shape a = s. Proof. apply nats_eqb_spec. Qed.
Lemma in_nth {A} (x : A) l : In x l <-> exists i, nth_error l i = Some x.
Proof. split; [apply In_nth_error|intros [i H]; exact (nth_error_In _ _ H)]. Qed.
