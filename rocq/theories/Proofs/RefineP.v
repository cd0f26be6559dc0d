(** Execution of refine on lattice grids: every step of the model computes the lattice-level lists. *)
From Coq Require Import Reals Lra Lia Psatz.
From Verif.Model Require Import Py Num Tensors Domain Refine.
From Verif.Spec Require Import GridSpec.
From Verif.Proofs Require Import Lib LocateP FindP Lattice.
Local Open Scope R_scope.

Definition lp (h : R) (x : Z2) : R * R := (IZR (fst x) * h, IZR (snd x) * h).
Definition lpt (h : R) (x : Z2) : vector R := vec (lp h x).
Definition mok (h : R) (mean : option R) : Prop := match mean with None => True | Some m => 0 < m <= 2 * h end.
Definition tol (mean : option R) : R := match mean with Some a => a / 10000000 | None => / 10 ^ 15 end.

Lemma lp_dist h x y : 0 < h -> x <> y -> h <= dist (lp h x) (lp h y).
Proof.
  intros Hh H. apply dist_ge; [lra|]. unfold lp. cbn [fst snd].
  set (a := (fst x - fst y)%Z). set (b := (snd x - snd y)%Z).
  assert (Hab : (1 <= a * a + b * b)%Z).
  { destruct x as [x1 x2], y as [y1 y2]. unfold a, b. cbn [fst snd] in *.
    assert (Q : (x1 - y1 <> 0 \/ x2 - y2 <> 0)%Z).
    { destruct (Z.eq_dec (x1 - y1) 0) as [Q1|Q1]; [right|left; exact Q1]. intros Q2. apply H.
      assert (x1 = y1) as -> by lia. assert (x2 = y2) as -> by lia. reflexivity. }
    revert Q; generalize (x1 - y1)%Z (x2 - y2)%Z; intros u w [Q|Q]; [destruct (Z.lt_total u 0)|destruct (Z.lt_total w 0)]; nia. }
  apply IZR_le in Hab. rewrite plus_IZR, !mult_IZR in Hab. unfold a, b in Hab. rewrite !minus_IZR in Hab. clear a b.
  set (A := IZR (fst x)) in *. set (B := IZR (fst y)) in *. set (C := IZR (snd x)) in *. set (D := IZR (snd y)) in *.
  replace ((A * h - B * h) * (A * h - B * h) + (C * h - D * h) * (C * h - D * h)) with (((A - B) * (A - B) + (C - D) * (C - D)) * (h * h)) by ring.
  assert (0 <= h * h) by nra. nra.
Qed.
Lemma lpt_inj h x y : 0 < h -> lpt h x = lpt h y -> x = y.
Proof.
  intros Hh E. apply vec_inj in E. destruct (z2eqb_spec x y) as [->|Hne]; [reflexivity|].
  pose proof (lp_dist h x y Hh Hne) as D. rewrite E, dist_refl in D. lra.
Qed.
Lemma mok_tol h mean : 0 < h -> / 10 ^ 15 <= h -> mok h mean -> 0 < tol mean <= h.
Proof.
  intros Hh Heps H. unfold tol, mok in *. destruct mean as [m|]; [lra|]. split; [|exact Heps].
  apply Rinv_0_lt_compat, pow_lt. lra.
Qed.
Lemma find_lattice h mean L x i : 0 < h -> 0 < tol mean <= h ->
  find_point mean i (map (lpt h) L) (lpt h x) = Ok (if memz x L then Some (i + idx L x)%nat else None).
Proof.
  intros Hh Ht. revert i. induction L as [|y L IH]; intros i; [reflexivity|]. cbn [map find_point].
  destruct (points_coincide_vec mean (lp h x) (lp h y)) as [b [E Hb]]. unfold lpt at 1 2. rewrite E. cbn [bind].
  fold (tol mean) in Hb. unfold memz. cbn [existsb idx]. destruct (z2eqb_spec x y) as [->|Hne].
  - cbn [orb]. assert (b = true) as -> by (apply Hb; rewrite dist_refl; lra). rewrite Nat.add_0_r. reflexivity.
  - cbn [orb]. assert (b = false) as ->.
    { destruct b; [|reflexivity]. exfalso. assert (Q : dist (lp h x) (lp h y) < tol mean) by (apply Hb; reflexivity).
      pose proof (lp_dist h x y Hh Hne). lra. }
    rewrite IH. fold (memz x L). destruct (memz x L); [|reflexivity]. do 2 f_equal. lia.
Qed.

(** ** Lattice edges *)
Definition ledge := (Z2 * Z2)%type.
Definition lflip (e : ledge) : ledge := (snd e, fst e).
Definition ledge_eqb (a b : ledge) : bool := (z2eqb (fst a) (fst b) && z2eqb (snd a) (snd b))%bool.
Lemma ledge_eqb_spec a b : Bool.reflect (a = b) (ledge_eqb a b).
Proof.
  destruct a as [x y], b as [x' y']. unfold ledge_eqb. cbn [fst snd].
  destruct (z2eqb_spec x x'), (z2eqb_spec y y'); cbn [andb]; constructor; congruence.
Qed.
Definition lmem (e : ledge) (E : list ledge) : bool := existsb (ledge_eqb e) E.
Lemma lmem_iff e E : lmem e E = true <-> In e E.
Proof.
  unfold lmem. rewrite existsb_exists. split.
  - intros [y [H Q]]. destruct (ledge_eqb_spec e y); [subst; exact H|discriminate].
  - intros H. exists e. split; [exact H|]. destruct (ledge_eqb_spec e e); congruence.
Qed.
Definition addle (E : list ledge) (e : ledge) : list ledge := if (lmem e E || lmem (lflip e) E)%bool then E else E ++ [e].
Definition eidx (L : list Z2) (e : ledge) : edge := (idx L (fst e), idx L (snd e)).
Definition ein (L : list Z2) (e : ledge) : Prop := In (fst e) L /\ In (snd e) L.
Lemma eidx_inj L e e' : ein L e -> ein L e' -> eidx L e = eidx L e' -> e = e'.
Proof. destruct e, e'. intros [A B] [A' B'] E. injection E as E1 E2. apply idx_inj in E1; try assumption. apply idx_inj in E2; try assumption. cbn in *. congruence. Qed.
Lemma eidx_flip L e : flip (eidx L e) = eidx L (lflip e).
Proof. reflexivity. Qed.
Lemma in_map_eidx L e E : ein L e -> (forall e', In e' E -> ein L e') -> (In (eidx L e) (map (eidx L) E) <-> In e E).
Proof.
  intros He HE. split; [|apply in_map]. intros H. apply in_map_iff in H as [e' [Q H]]. rewrite <- (eidx_inj L e' e (HE _ H) He Q). exact H.
Qed.
Lemma py_in_eidx L e E : ein L e -> (forall e', In e' E -> ein L e') -> py_in edge_eqb (eidx L e) (map (eidx L) E) = lmem e E.
Proof.
  intros He HE. destruct (lmem e E) eqn:Q.
  - apply py_in_pair, in_map, lmem_iff, Q.
  - apply Bool.not_true_iff_false. intros H. apply py_in_pair in H. apply in_map_eidx in H; try assumption. apply lmem_iff in H. congruence.
Qed.
Lemma eidx_adds L xs e : ein L e -> eidx (adds L xs) e = eidx L e.
Proof. intros [A B]. unfold eidx. rewrite !idx_adds by assumption. reflexivity. Qed.
Lemma ein_adds L xs e : ein L e -> ein (adds L xs) e.
Proof. intros [A B]. split; apply adds_in; left; assumption. Qed.
Lemma addle_cases E e : ((In e E \/ In (lflip e) E) /\ addle E e = E) \/ (~ In e E /\ ~ In (lflip e) E /\ addle E e = E ++ [e]).
Proof.
  unfold addle. destruct (lmem e E || lmem (lflip e) E)%bool eqn:Q.
  - left. split; [|reflexivity]. apply Bool.orb_true_iff in Q as [Q|Q]; apply lmem_iff in Q; auto.
  - right. apply Bool.orb_false_iff in Q as [Q1 Q2]. repeat split; try (intros H; apply lmem_iff in H; congruence).
Qed.
(** Edge vectors of fine edges. *)
Definition short (e : ledge) : Prop :=
  let dx := (fst (snd e) - fst (fst e))%Z in let dy := (snd (snd e) - snd (fst e))%Z in
  (Z.abs dx <= 1 /\ Z.abs dy <= 1 /\ (dx <> 0 \/ dy <> 0))%Z.
Lemma short_dist h e : 0 < h -> short e -> 0 < dist (lp h (fst e)) (lp h (snd e)) <= 2 * h.
Proof.
  intros Hh [H1 [H2 H3]]. split.
  - apply Rlt_le_trans with h; [exact Hh|]. apply lp_dist; [exact Hh|]. intros E. rewrite E in H3. lia.
  - unfold dist. rewrite <- (sqrt_square (2 * h)) by lra. apply sqrt_le_1_alt. unfold lp. cbn [fst snd].
    set (dx := (fst (snd e) - fst (fst e))%Z) in *. set (dy := (snd (snd e) - snd (fst e))%Z) in *.
    assert (Q : (dx * dx + dy * dy <= 4)%Z) by nia. apply IZR_le in Q. rewrite plus_IZR, !mult_IZR in Q. unfold dx, dy in Q. rewrite !minus_IZR in Q.
    assert (0 <= h * h) by nra. nra.
Qed.

Section Append.
Context (h : R) (Hh : 0 < h).
Lemma lpt_at (g : grid R) L x : g_points g = map (lpt h) L -> In x L -> point_at g (idx L x) (lp h x).
Proof. intros E H. unfold point_at. rewrite E, nth_error_map, (idx_nth L x H). reflexivity. Qed.
Lemma append_lattice (g : grid R) L E e : g_points g = map (lpt h) L -> g_edges g = map (eidx L) E -> mok h (g_mean g) ->
  (forall e', In e' E -> ein L e') -> ein L e -> short e ->
  exists m, append_edge g (eidx L e) = Ok (with_edges g (map (eidx L) (addle E e)) m) /\ mok h m.
Proof.
  intros HP HE HM HEin He Hsh. unfold append_edge, append_edge_raw. rewrite HE, eidx_flip.
  rewrite (py_in_eidx L e E He HEin), (py_in_eidx L (lflip e) E) by (try exact HEin; destruct He; split; assumption).
  rewrite <- Bool.negb_orb. unfold addle. destruct (lmem e E || lmem (lflip e) E)%bool; cbn [negb].
  - exists (g_mean g). split; [|exact HM]. cbn [bind]. reflexivity.
  - pose proof (short_dist h e Hh Hsh) as [D1 D2]. destruct He as [He1 He2].
    rewrite (edge_length_at g (eidx L e) (lp h (fst e)) (lp h (snd e)) (lpt_at g L _ HP He1) (lpt_at g L _ HP He2)). cbn [bind].
    rewrite map_length. cbn [nofZ RNum]. destruct (g_mean g) as [m|] eqn:Em.
    + assert (Hnz : IZR (Z.of_nat (length E) + 1) <> 0) by (apply IZR_neq; lia).
      rewrite !ndiv_R by exact Hnz. cbn [bind]. eexists. split; [unfold with_edges; rewrite map_app; reflexivity|].
      cbn [mok] in *. cbn [nadd nmul RNum]. rewrite plus_IZR in *. assert (Hk : 0 <= IZR (Z.of_nat (length E))) by (apply IZR_le; lia).
      set (k := IZR (Z.of_nat (length E))) in *. set (d := dist (lp h (fst e)) (lp h (snd e))) in *.
      replace (m * k / (k + 1) + d / (k + 1)) with ((m * k + d) * / (k + 1)) by (field; exact Hnz).
      assert (Hi : 0 < / (k + 1)) by (apply Rinv_0_lt_compat; lra). split; [apply Rmult_lt_0_compat; [nra|exact Hi]|].
      apply Rmult_le_reg_r with (k + 1); [lra|]. rewrite Rmult_assoc, Rinv_l by exact Hnz. nra.
    + cbn [bind]. eexists. split; [unfold with_edges; rewrite map_app; reflexivity|]. exact (conj D1 D2).
Qed.
Lemma addle_in E e x : In x (addle E e) -> In x E \/ x = e.
Proof. destruct (addle_cases E e) as [[_ ->]|[_ [_ ->]]]; [tauto|]. rewrite in_app_iff. cbn. intuition congruence. Qed.
Lemma append_list_lattice L : forall es (g : grid R) E, g_points g = map (lpt h) L -> g_edges g = map (eidx L) E -> mok h (g_mean g) ->
  (forall e', In e' E -> ein L e') -> (forall e, In e es -> ein L e /\ short e) ->
  exists m, foldM append_edge (map (eidx L) es) g = Ok (with_edges g (map (eidx L) (fold_left addle es E)) m) /\ mok h m.
Proof.
  induction es as [|e es IH]; intros g E HP HE HM HEin Hes.
  - exists (g_mean g). split; [|exact HM]. cbn. rewrite <- HE. unfold with_edges. destruct g; reflexivity.
  - destruct (Hes e (or_introl eq_refl)) as [He Hsh]. destruct (append_lattice g L E e HP HE HM HEin He Hsh) as [m [Q Hm]].
    cbn [map foldM fold_left]. rewrite Q. cbn [bind].
    destruct (IH (with_edges g (map (eidx L) (addle E e)) m) (addle E e)) as [m' [Q' Hm']]; try reflexivity; try exact HP; try exact Hm.
    + intros e' He'. apply addle_in in He' as [He'| ->]; [apply HEin, He'|exact He].
    + intros e' He'. apply Hes. right. exact He'.
    + exists m'. split; [rewrite Q'; reflexivity|exact Hm'].
Qed.
End Append.
