(** Lattice combinatorics of a triangulated rectangle and its subdivision. *)
From Coq Require Import Reals Lra Lia Psatz.
From Verif.Model Require Import Py Num Tensors Domain Refine.
From Verif.Spec Require Import GridSpec.
From Verif.Proofs Require Import Lib Lattice RefineP RefineTri.
Local Open Scope Z_scope.

Definition box (m n : nat) (x : Z2) : Prop := 0 <= fst x <= Z.of_nat m /\ 0 <= snd x <= Z.of_nat n.
Definition cbox (m n : nat) (x : Z2) : Prop := 0 <= fst x < Z.of_nat m /\ 0 <= snd x < Z.of_nat n.
Definition ltri_in (m n : nat) (T : ltri) : Prop := oriented T /\ cbox m n (cell T).
Definition dir (e : ledge) : Z2 := (fst (snd e) - fst (fst e), snd (snd e) - snd (fst e)).
(** Right, up, diagonal (increasing). *)
Definition lup (m n : nat) (e : ledge) : Prop :=
  box m n (fst e) /\ box m n (snd e) /\ (dir e = (1, 0) \/ dir e = (0, 1) \/ dir e = (1, 1)).
Definition lside (e : ledge) (T : ltri) : Prop :=
  e = (c1 T, c2 T) \/ e = (c2 T, c3 T) \/ e = (c3 T, c1 T) \/ lflip e = (c1 T, c2 T) \/ lflip e = (c2 T, c3 T) \/ lflip e = (c3 T, c1 T).

Lemma ltri_in_corners m n T : ltri_in m n T -> box m n (c1 T) /\ box m n (c2 T) /\ box m n (c3 T).
Proof.
  destruct T as [[x y] e]. unfold ltri_in, oriented, cbox, cell, box, c1, c2, c3. cbn [fst snd]. intros [[-> | ->] H]; cbn in H; lia.
Qed.
Lemma pair_eq {A B} (a a' : A) (b b' : B) : (a, b) = (a', b') <-> a = a' /\ b = b'.
Proof. split; [intros H; injection H; auto|intros [-> ->]; reflexivity]. Qed.
Lemma lside_lup m n T e : ltri_in m n T -> lside e T -> lup m n e \/ lup m n (lflip e).
Proof.
  destruct T as [[x y] s], e as [[a b] [c d]]. unfold ltri_in, oriented, cbox, cell, lside, lup, box, dir, lflip, c1, c2, c3. cbn [fst snd].
  unfold ledge, ltri, Z2 in *; rewrite !pair_eq. intros [[-> | ->] H]; cbn [Z.eqb Pos.eqb fst snd] in H; lia.
Qed.
Definition low (x y : Z) : ltri := ((x, y), 1).
Definition upp (x y : Z) : ltri := ((x + 1, y + 1), -1).
Lemma low_in m n x y : cbox m n (x, y) -> ltri_in m n (low x y).
Proof. intros H. split; [left; reflexivity|exact H]. Qed.
Lemma upp_in m n x y : cbox m n (x, y) -> ltri_in m n (upp x y).
Proof. intros H. split; [right; reflexivity|]. unfold cell, upp, cbox in *. cbn [fst snd Z.eqb Pos.eqb] in *. lia. Qed.
Lemma ltri_in_cases m n T : ltri_in m n T -> exists x y, cbox m n (x, y) /\ (T = low x y \/ T = upp x y).
Proof.
  destruct T as [[x y] s]. unfold ltri_in, oriented, cell. cbn [fst snd]. intros [[-> | ->] H]; cbn [Z.eqb Pos.eqb] in H.
  - exists x, y. auto.
  - exists (x - 1), (y - 1). split; [exact H|right]. unfold upp. repeat f_equal; lia.
Qed.
Lemma lup_lside m n e : (1 <= m)%nat -> (1 <= n)%nat -> lup m n e -> exists T, ltri_in m n T /\ lside e T.
Proof.
  intros Hm Hn. destruct e as [[a b] [c d]]. unfold lup, box, dir. cbn [fst snd]. unfold ledge, ltri, Z2 in *; rewrite !pair_eq. intros [B1 [B2 H]].
  destruct H as [H|[H|H]].
  - destruct (Z.eq_dec b 0) as [E|E].
    + exists (low a b). split; [apply low_in; unfold cbox; cbn [fst snd]; lia|]. left. unfold low, c1, c2. cbn [fst snd]. unfold ledge, ltri, Z2 in *; rewrite !pair_eq. lia.
    + exists (upp a (b - 1)). split; [apply upp_in; unfold cbox; cbn [fst snd]; lia|]. right. right. right. left.
      unfold upp, c1, c2, lflip. cbn [fst snd]. unfold ledge, ltri, Z2 in *; rewrite !pair_eq. lia.
  - destruct (Z.eq_dec a 0) as [E|E].
    + exists (upp a b). split; [apply upp_in; unfold cbox; cbn [fst snd]; lia|]. do 4 right. left. unfold upp, c2, c3, lflip. cbn [fst snd]. unfold ledge, ltri, Z2 in *; rewrite !pair_eq. lia.
    + exists (low (a - 1) b). split; [apply low_in; unfold cbox; cbn [fst snd]; lia|]. right. left.
      unfold low, c2, c3. cbn [fst snd]. unfold ledge, ltri, Z2 in *; rewrite !pair_eq. lia.
  - exists (low a b). split; [apply low_in; unfold cbox; cbn [fst snd]; lia|]. do 5 right. unfold low, c3, c1, lflip. cbn [fst snd]. unfold ledge, ltri, Z2 in *; rewrite !pair_eq. lia.
Qed.
Lemma lside_flip e T : lside (lflip e) T <-> lside e T.
Proof. destruct e as [a b]. unfold lside, lflip. cbn [fst snd]. tauto. Qed.
Lemma box_corner m n x : (1 <= m)%nat -> (1 <= n)%nat -> box m n x -> exists T, ltri_in m n T /\ (x = c1 T \/ x = c2 T \/ x = c3 T).
Proof.
  intros Hm Hn. destruct x as [a b]. unfold box. cbn [fst snd]. intros H.
  destruct (Z.eq_dec a (Z.of_nat m)) as [E|E], (Z.eq_dec b (Z.of_nat n)) as [E'|E'].
  - exists (low (a - 1) (b - 1)). split; [apply low_in; unfold cbox; cbn [fst snd]; lia|]. unfold low, c1, c2, c3. cbn [fst snd]. unfold ledge, ltri, Z2 in *; rewrite !pair_eq. lia.
  - exists (low (a - 1) b). split; [apply low_in; unfold cbox; cbn [fst snd]; lia|]. unfold low, c1, c2, c3. cbn [fst snd]. unfold ledge, ltri, Z2 in *; rewrite !pair_eq. lia.
  - exists (upp a (b - 1)). split; [apply upp_in; unfold cbox; cbn [fst snd]; lia|]. unfold upp, c1, c2, c3. cbn [fst snd]. unfold ledge, ltri, Z2 in *; rewrite !pair_eq. lia.
  - exists (low a b). split; [apply low_in; unfold cbox; cbn [fst snd]; lia|]. unfold low, c1, c2, c3. cbn [fst snd]. unfold ledge, ltri, Z2 in *; rewrite !pair_eq. lia.
Qed.

(** ** Subdivision *)
Section Sub.
Context (N : nat) (HN : (1 <= N)%nat) (m n : nat).
Lemma node_box T k l : ltri_in m n T -> (k + l <= N)%nat -> box (m * N) (n * N) (node N T k l).
Proof.
  destruct T as [[x y] s]. unfold ltri_in, oriented, cell, cbox, box, node. cbn [fst snd]. rewrite !Nat2Z.inj_mul. intros [[-> | ->] H]; cbn [Z.eqb Pos.eqb fst snd] in H; nia.
Qed.
Lemma nodes_box T x : ltri_in m n T -> In x (nodes N T) -> box (m * N) (n * N) x.
Proof. intros HT H. apply in_nodes in H as [k [l [H ->]]]. apply node_box; assumption. Qed.
Lemma subs_in T S : ltri_in m n T -> In S (subs N T) -> ltri_in (m * N) (n * N) S.
Proof.
  intros [HO HC] H. split; [apply (subs_oriented N T S HO H)|]. destruct (sub_cell N T S HO H) as [u [w [Hu [Hw [E _]]]]]. rewrite E.
  unfold cbox in *. cbn [fst snd]. rewrite !Nat2Z.inj_mul. destruct (cell T) as [X Y]. cbn [fst snd] in *. nia.
Qed.
Lemma subs_cover S : ltri_in (m * N) (n * N) S -> exists T, ltri_in m n T /\ In S (subs N T).
Proof.
  intros H. apply ltri_in_cases in H as [X [Y [HC HS]]]. unfold cbox in HC. cbn [fst snd] in HC. rewrite !Nat2Z.inj_mul in HC.
  pose proof (Z.div_mod X (Z.of_nat N) ltac:(lia)) as DX. pose proof (Z.mod_pos_bound X (Z.of_nat N) ltac:(lia)) as MX.
  pose proof (Z.div_mod Y (Z.of_nat N) ltac:(lia)) as DY. pose proof (Z.mod_pos_bound Y (Z.of_nat N) ltac:(lia)) as MY.
  set (a := X / Z.of_nat N) in *. set (u := X mod Z.of_nat N) in *. set (b := Y / Z.of_nat N) in *. set (w := Y mod Z.of_nat N) in *.
  assert (HB : cbox m n (a, b)) by (unfold cbox; cbn [fst snd]; nia).
  destruct HS as [-> | ->].
  - destruct (Z_le_gt_dec w u) as [L|L].
    + exists (low a b). split; [apply low_in, HB|]. apply in_subs. left. exists (Z.to_nat (u - w)), (Z.to_nat w). split; [lia|].
      unfold lsub, low, node. cbn [fst snd]. rewrite !Z2Nat.id by lia. repeat (apply pair_eq; split); try reflexivity; lia.
    + exists (upp a b). split; [apply upp_in, HB|]. apply in_subs. right. exists (Z.to_nat (w - u)), (Z.to_nat (Z.of_nat N - 1 - w)). split; [lia|].
      unfold usub, upp, low, node. cbn [fst snd]. rewrite !Nat2Z.inj_add, !Z2Nat.id by lia. repeat (apply pair_eq; split); try reflexivity; lia.
  - destruct (Z_lt_ge_dec w u) as [L|L].
    + exists (low a b). split; [apply low_in, HB|]. apply in_subs. right. exists (Z.to_nat (u - w)), (Z.to_nat w). split; [lia|].
      unfold usub, low, upp, node. cbn [fst snd]. rewrite !Nat2Z.inj_add, !Z2Nat.id by lia. repeat (apply pair_eq; split); try reflexivity; lia.
    + exists (upp a b). split; [apply upp_in, HB|]. apply in_subs. left. exists (Z.to_nat (w - u)), (Z.to_nat (Z.of_nat N - 1 - w)). split; [lia|].
      unfold lsub, upp, node. cbn [fst snd]. rewrite !Z2Nat.id by lia. repeat (apply pair_eq; split); try reflexivity; lia.
Qed.
(** Up to orientation the edges of the edge loop are the sides of the subtriangles. *)
Definition esame (e e' : ledge) : Prop := e = e' \/ e = lflip e'.
Lemma esame_orient ok e : esame (orient ok e) e.
Proof. destruct ok; [left|right]; reflexivity. Qed.
Lemma esame_flip e e' : esame (lflip e) e' <-> esame e e'.
Proof. destruct e, e'. unfold esame, lflip. cbn [fst snd]. unfold ledge, ltri, Z2 in *; rewrite !pair_eq. tauto. Qed.
Lemma side_oedges T hc vc dc S e : In S (subs N T) -> lside e S -> exists e', In e' (oedges N T hc vc dc) /\ esame e e'.
Proof.
  intros HS He.
  assert (K : forall k l a b ok, (k + l < N)%nat -> In (orient ok (a, b)) (edges3 N T hc vc dc (k, l)) ->
      e = (a, b) \/ e = (b, a) -> exists e', In e' (oedges N T hc vc dc) /\ esame e e').
  { intros k l a b ok Hkl HI E. exists (orient ok (a, b)). split; [unfold oedges; apply in_flat_map; exists (k, l); split; [apply in_kl_lower, Hkl|exact HI]|].
    unfold esame, orient, lflip. destruct E as [-> | ->], ok; cbn [fst snd]; auto. }
  assert (F : forall a b, lflip e = (a, b) -> e = (b, a)) by (intros a b E; destruct e; unfold lflip in E; cbn in E; congruence).
  apply in_subs in HS as [[k [l [H ->]]]|[k [l [H ->]]]].
  - destruct (lsub_corners N T k l) as [E1 [E2 E3]]. unfold lside in He. rewrite E1, E2, E3 in He.
    destruct He as [He|[He|[He|[He|[He|He]]]]]; try apply F in He.
    + eapply (K k l _ _ hc H); [left; reflexivity|left; exact He].
    + eapply (K k l _ _ vc H); [right; left; reflexivity|left; exact He].
    + eapply (K k l _ _ dc H); [right; right; left; reflexivity|right; exact He].
    + eapply (K k l _ _ hc H); [left; reflexivity|right; exact He].
    + eapply (K k l _ _ vc H); [right; left; reflexivity|right; exact He].
    + eapply (K k l _ _ dc H); [right; right; left; reflexivity|left; exact He].
  - destruct (usub_corners N T k l (proj1 H)) as [E1 [E2 E3]]. unfold lside in He. rewrite E1, E2, E3 in He.
    assert (L1 : (k - 1 + (l + 1) < N)%nat) by lia. assert (L2 : (k - 1 + l < N)%nat) by lia. assert (L3 : (k + l < N)%nat) by lia.
    assert (A1 : In (orient hc (node N T (k - 1) (l + 1), node N T k (l + 1))) (edges3 N T hc vc dc ((k - 1)%nat, (l + 1)%nat))).
    { left. replace (k - 1 + 1)%nat with k by lia. reflexivity. }
    assert (A2 : In (orient vc (node N T k l, node N T (k - 1) (l + 1))) (edges3 N T hc vc dc ((k - 1)%nat, l))).
    { right. left. replace (k - 1 + 1)%nat with k by lia. reflexivity. }
    assert (A3 : In (orient dc (node N T k l, node N T k (l + 1))) (edges3 N T hc vc dc (k, l))) by (right; right; left; reflexivity).
    destruct He as [He|[He|[He|[He|[He|He]]]]]; try apply F in He.
    + apply (K _ _ _ _ _ L1 A1). auto.
    + apply (K _ _ _ _ _ L2 A2). auto.
    + apply (K _ _ _ _ _ L3 A3). auto.
    + apply (K _ _ _ _ _ L1 A1). auto.
    + apply (K _ _ _ _ _ L2 A2). auto.
    + apply (K _ _ _ _ _ L3 A3). auto.
Qed.
Lemma oedges_side T hc vc dc e : In e (oedges N T hc vc dc) -> exists S, In S (subs N T) /\ lside e S.
Proof.
  unfold oedges. rewrite in_flat_map. intros [[k l] [H He]]. apply in_kl_lower in H. exists (lsub N T (k, l)).
  split; [apply in_subs; left; eauto|]. destruct (lsub_corners N T k l) as [E1 [E2 E3]]. unfold lside. rewrite E1, E2, E3. cbn [edges3] in He.
  destruct He as [<-|[<-|[<-|[]]]]; [destruct hc|destruct vc|destruct dc]; unfold orient, lflip; cbn [fst snd]; tauto.
Qed.
End Sub.

(** ** Edge lists without repetition up to orientation *)
Definition lunique (E : list ledge) : Prop := NoDup E /\ forall e, In e E -> ~ In (lflip e) E.
Lemma lunique_addle E e : lunique E -> fst e <> snd e -> lunique (addle E e).
Proof.
  intros [ND HF] He. destruct (addle_cases E e) as [[_ ->]|[N1 [N2 ->]]]; [split; assumption|]. split.
  - apply NoDup_app_; [exact ND|constructor; [intros []|constructor]|]. intros x Hx [<-|[]]. contradiction.
  - intros x Hx. rewrite in_app_iff in Hx |- *. assert (FF : forall y, lflip (lflip y) = y) by (intros [a b]; reflexivity).
    destruct Hx as [Hx|[<-|[]]]; intros [K|[K|[]]].
    + apply (HF x Hx K).
    + apply N2. rewrite K, FF. exact Hx.
    + contradiction.
    + apply He. destruct e as [a b]. unfold lflip in K. cbn in *. congruence.
Qed.
Lemma lunique_fold es : forall E, lunique E -> (forall e, In e es -> fst e <> snd e) -> lunique (fold_left addle es E).
Proof.
  induction es as [|e es IH]; intros E HE H; [exact HE|]. cbn [fold_left]. apply IH; [apply lunique_addle; [exact HE|apply H; left; reflexivity]|].
  intros x Hx. apply H. right. exact Hx.
Qed.
Lemma fold_addle_mono es : forall E e, In e E -> In e (fold_left addle es E).
Proof.
  induction es as [|x es IH]; intros E e H; [exact H|]. cbn [fold_left]. apply IH. destruct (addle_cases E x) as [[_ ->]|[_ [_ ->]]]; [exact H|apply in_or_app; left; exact H].
Qed.
Lemma fold_addle_cover es : forall E e, In e es -> In e (fold_left addle es E) \/ In (lflip e) (fold_left addle es E).
Proof.
  induction es as [|x es IH]; intros E e H; [destruct H|]. cbn [fold_left]. destruct H as [<-|H]; [|apply IH, H].
  destruct (addle_cases E x) as [[[A|A] ->]|[_ [_ ->]]]; [left|right|left]; apply fold_addle_mono; try exact A. apply in_or_app. right. left. reflexivity.
Qed.
