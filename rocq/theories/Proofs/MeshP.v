(** A mesh (specification) is the same thing as a lattice mesh (internal description). *)
From Coq Require Import Reals Lra Lia Psatz.
From Verif.Model Require Import Py Num Tensors Domain Refine.
From Verif.Spec Require Import GridSpec RefineSpec.
From Verif.Proofs Require Import Lib FindP Lattice RefineP RefineTri MeshLat.
Local Open Scope R_scope.

Lemma list_map_choice {A B} (k : B -> A) (Q : B -> Prop) l : (forall x, In x l -> exists y, x = k y /\ Q y) ->
  exists l', l = map k l' /\ forall y, In y l' -> Q y.
Proof.
  induction l as [|x l IH]; intros H; [exists []; split; [reflexivity|intros y []]|].
  destruct (H x (or_introl eq_refl)) as [y [-> Hy]]. destruct IH as [l' [-> Hl]]; [intros z Hz; apply H; right; exact Hz|].
  exists (y :: l'). split; [reflexivity|]. intros z [<-|Hz]; [exact Hy|apply Hl, Hz].
Qed.

Record lmesh (g : grid R) (s : R) (m n : nat) (C : list Z2) (Ts : list ltri) (E : list ledge) : Prop := {
  lm_v : g_vertices g = range (length C);
  lm_p : g_points g = map (lpt s) C;
  lm_nd : NoDup C;
  lm_box : forall x, In x C <-> box m n x;
  lm_t : g_triangles g = map (tidx C) Ts;
  lm_tnd : NoDup Ts;
  lm_tin : forall T, In T Ts <-> ltri_in m n T;
  lm_e : g_edges g = map (eidx C) E;
  lm_eu : lunique E;
  lm_ein : forall e, In e E -> lup m n e \/ (lup m n (lflip e) /\ dir e = (-1, -1)%Z);
  lm_eall : forall e, lup m n e -> In e E \/ In (lflip e) E
}.
Definition zz (i j : nat) : Z2 := (Z.of_nat i, Z.of_nat j).
Lemma lpt_zz s i j : lpt s (zz i j) = [INR i * s; INR j * s].
Proof. unfold lpt, vec, lp, zz. cbn [fst snd]. rewrite <- !INR_IZR_INZ. reflexivity. Qed.
Lemma zz_inj i j i' j' : zz i j = zz i' j' -> i = i' /\ j = j'.
Proof. unfold zz. intros E. injection E as E1 E2. lia. Qed.
Lemma box_zz m n x : box m n x -> exists i j, x = zz i j /\ (i <= m)%nat /\ (j <= n)%nat.
Proof. destruct x as [a b]. unfold box, zz. cbn [fst snd]. intros H. exists (Z.to_nat a), (Z.to_nat b). rewrite !Z2Nat.id by lia. repeat split; lia. Qed.
Lemma zz_box m n i j : box m n (zz i j) <-> (i <= m)%nat /\ (j <= n)%nat.
Proof. unfold box, zz. cbn [fst snd]. lia. Qed.
Lemma dir_ne e : dir e = (1, 0)%Z \/ dir e = (0, 1)%Z \/ dir e = (1, 1)%Z \/ dir e = (-1, -1)%Z -> fst e <> snd e.
Proof. destruct e as [[a b] [c d]]. unfold dir, Z2. cbn [fst snd]. unfold triangle, edge, vertex, ledge, ltri, Z2 in *; rewrite !pair_eq. intros H E. lia. Qed.

Lemma some_lpt s x y : 0 < s -> option_map (lpt s) (Some x) = Some (lpt s y) -> x = y.
Proof. intros Hs H. apply (lpt_inj s); [exact Hs|]. cbn [option_map] in H. apply (f_equal (fun o => match o with Some a => a | None => [] end)) in H. exact H. Qed.
Section LM.
Context (g : grid R) (s : R) (m n : nat) (C : list Z2) (Ts : list ltri) (E : list ledge) (Hs : 0 < s) (LM : lmesh g s m n C Ts E).
Lemma vertex_at_l v i j : vertex_at g s v i j <-> (i <= m)%nat /\ (j <= n)%nat /\ v = idx C (zz i j).
Proof.
  unfold vertex_at. rewrite (lm_v _ _ _ _ _ _ _ LM), (lm_p _ _ _ _ _ _ _ LM), in_range, nth_error_map, <- lpt_zz. split.
  - intros [Hv Hp]. destruct (nth_error C v) as [x|] eqn:Ev; [|discriminate]. apply some_lpt in Hp; [|exact Hs]. subst x.
    pose proof (nth_error_In _ _ Ev) as HI. apply (lm_box _ _ _ _ _ _ _ LM), zz_box in HI. split; [lia|]. split; [lia|].
    symmetry. apply idx_unique; [apply (lm_nd _ _ _ _ _ _ _ LM)|exact Ev].
  - intros [Hi [Hj ->]]. assert (HI : In (zz i j) C) by (apply (lm_box _ _ _ _ _ _ _ LM), zz_box; auto).
    rewrite (idx_nth C _ HI). split; [apply idx_lt, HI|reflexivity].
Qed.
Lemma vertex_at_z v x : box m n x -> exists i j, x = zz i j /\ (vertex_at g s v i j <-> v = idx C x).
Proof. intros H. destruct (box_zz m n x H) as [i [j [-> [Hi Hj]]]]. exists i, j. split; [reflexivity|]. rewrite vertex_at_l. tauto. Qed.
Lemma lm_lne e : In e E -> fst e <> snd e.
Proof.
  intros H. apply (lm_ein _ _ _ _ _ _ _ LM) in H as [[_ [_ H]]|[_ H]]; apply dir_ne; tauto.
Qed.
Lemma lm_boxes e : In e E -> box m n (fst e) /\ box m n (snd e).
Proof. intros H. apply (lm_ein _ _ _ _ _ _ _ LM) in H as [[A [B _]]|[[A [B _]] _]]; split; assumption. Qed.
Lemma lm_eins e : In e E -> ein C e.
Proof. intros H. apply lm_boxes in H as [A B]. split; apply (lm_box _ _ _ _ _ _ _ LM); assumption. Qed.
Lemma lm_tins T : In T Ts -> tin C T.
Proof. intros H. apply (lm_tin _ _ _ _ _ _ _ LM), ltri_in_corners in H as [A [B D]]. repeat split; apply (lm_box _ _ _ _ _ _ _ LM); assumption. Qed.
Lemma lm_or T : In T Ts -> oriented T.
Proof. intros H. apply (lm_tin _ _ _ _ _ _ _ LM) in H. apply H. Qed.

Lemma lower_at_l t i j : lower_at g s t i j <-> (i + 1 <= m)%nat /\ (j + 1 <= n)%nat /\ t = tidx C (low (Z.of_nat i) (Z.of_nat j)).
Proof.
  destruct t as [[a b] c]. unfold lower_at, tidx, low, c1, c2, c3. rewrite !vertex_at_l. cbn [fst snd].
  assert (E1 : zz (i + 1) j = (Z.of_nat i + 1, Z.of_nat j)%Z) by (unfold zz; rewrite Nat2Z.inj_add; reflexivity).
  assert (E2 : zz (i + 1) (j + 1) = (Z.of_nat i + 1, Z.of_nat j + 1)%Z) by (unfold zz; rewrite !Nat2Z.inj_add; reflexivity).
  rewrite <- E1, <- E2. change (Z.of_nat i, Z.of_nat j) with (zz i j). unfold triangle, edge, vertex, ledge, ltri, Z2 in *; rewrite !pair_eq. repeat split; try lia; intuition lia.
Qed.
Lemma upper_at_l t i j : upper_at g s t i j <-> (i + 1 <= m)%nat /\ (j + 1 <= n)%nat /\ t = tidx C (upp (Z.of_nat i) (Z.of_nat j)).
Proof.
  destruct t as [[a b] c]. unfold upper_at, tidx, upp, c1, c2, c3. rewrite !vertex_at_l. cbn [fst snd].
  assert (E1 : zz i (j + 1) = (Z.of_nat i + 1 + -1, Z.of_nat j + 1)%Z) by (unfold zz; f_equal; lia).
  assert (E2 : zz (i + 1) (j + 1) = (Z.of_nat i + 1, Z.of_nat j + 1)%Z) by (unfold zz; rewrite !Nat2Z.inj_add; reflexivity).
  assert (E3 : zz i j = (Z.of_nat i + 1 + -1, Z.of_nat j + 1 + -1)%Z) by (unfold zz; f_equal; lia).
  rewrite <- E1, <- E2, <- E3. unfold triangle, edge, vertex, ledge, ltri, Z2 in *; rewrite !pair_eq. repeat split; try lia; intuition lia.
Qed.
Lemma side_of_idx e T : lside e T -> side_of (eidx C e) (tidx C T).
Proof.
  destruct e as [a b]. unfold lside, side_of, same_edge, tidx, eidx, lflip. cbn [fst snd]. unfold triangle, edge, vertex, ledge, ltri, Z2 in *; rewrite !pair_eq.
  intros [[-> ->]|[[-> ->]|[[-> ->]|[[-> ->]|[[-> ->]|[-> ->]]]]]]; tauto.
Qed.
Lemma side_of_idx_inv e T : side_of e (tidx C T) -> exists le, e = eidx C le /\ lside le T.
Proof.
  unfold side_of, tidx, same_edge, lside. cbn [fst snd].
  intros [[-> | ->]|[[-> | ->]|[-> | ->]]];
  [exists (c1 T, c2 T)|exists (c2 T, c1 T)|exists (c2 T, c3 T)|exists (c3 T, c2 T)|exists (c3 T, c1 T)|exists (c1 T, c3 T)];
    (split; [reflexivity|]); unfold lflip; cbn [fst snd]; tauto.
Qed.

Lemma mesh_of_lmesh : (1 <= m)%nat -> (1 <= n)%nat -> mesh g s m n.
Proof.
  intros Hm Hn. split.
  - rewrite (lm_v _ _ _ _ _ _ _ LM), (lm_p _ _ _ _ _ _ _ LM), map_length. reflexivity.
  - intros v Hv. rewrite (lm_v _ _ _ _ _ _ _ LM), in_range in Hv. destruct (nth_error C v) as [x|] eqn:Ev; [|apply nth_error_None in Ev; lia].
    pose proof (nth_error_In _ _ Ev) as HI. apply (lm_box _ _ _ _ _ _ _ LM), box_zz in HI as [i [j [-> [Hi Hj]]]].
    exists i, j. split; [exact Hi|]. split; [exact Hj|]. apply vertex_at_l. split; [exact Hi|]. split; [exact Hj|]. symmetry. apply idx_unique; [apply (lm_nd _ _ _ _ _ _ _ LM)|exact Ev].
  - intros i j Hi Hj. exists (idx C (zz i j)). split; [apply vertex_at_l; auto|]. intros v Hv. apply vertex_at_l in Hv. symmetry. apply Hv.
  - rewrite (lm_t _ _ _ _ _ _ _ LM). apply NoDup_map_inj_in; [apply (lm_tnd _ _ _ _ _ _ _ LM)|].
    intros T T' HT HT' Q. apply (tidx_inj C); [apply lm_tins, HT|apply lm_tins, HT'|exact Q].
  - intros t. rewrite (lm_t _ _ _ _ _ _ _ LM), in_map_iff. split.
    + intros [T [<- HT]]. apply (lm_tin _ _ _ _ _ _ _ LM), ltri_in_cases in HT as [x [y [HB HT]]].
      unfold cbox in HB. cbn [fst snd] in HB. exists (Z.to_nat x), (Z.to_nat y). split; [lia|]. split; [lia|].
      rewrite lower_at_l, upper_at_l, !Z2Nat.id by lia. destruct HT as [-> | ->]; [left|right]; (split; [lia|]); (split; [lia|reflexivity]).
    + intros [i [j [Hi [Hj H]]]]. rewrite lower_at_l, upper_at_l in H. destruct H as [[_ [_ ->]]|[_ [_ ->]]]; eexists; (split; [reflexivity|]); apply (lm_tin _ _ _ _ _ _ _ LM);
        [apply low_in|apply upp_in]; unfold cbox; cbn [fst snd]; lia.
  - intros k l e e' Hk Hl Hse. rewrite (lm_e _ _ _ _ _ _ _ LM) in Hk, Hl. rewrite nth_error_map in Hk, Hl.
    destruct (nth_error E k) as [x|] eqn:Ek; [|discriminate]. destruct (nth_error E l) as [y|] eqn:El; [|discriminate]. cbn [option_map] in Hk, Hl.
    injection Hk as <-. injection Hl as <-. pose proof (nth_error_In _ _ Ek) as Ix. pose proof (nth_error_In _ _ El) as Iy.
    destruct (lm_eu _ _ _ _ _ _ _ LM) as [ND NF]. destruct Hse as [Q|Q].
    + apply (eidx_inj C) in Q; [|apply lm_eins, Ix|apply lm_eins, Iy]. subst y. apply (proj1 (NoDup_nth_error E) ND); [apply nth_error_Some; congruence|congruence].
    + change (eidx C x = eidx C (lflip y)) in Q. apply (eidx_inj C) in Q; [|apply lm_eins, Ix|destruct (lm_eins y Iy) as [A B]; split; assumption].
      exfalso. apply (NF y Iy). rewrite <- Q. exact Ix.
  - intros e. rewrite (lm_e _ _ _ _ _ _ _ LM), (lm_t _ _ _ _ _ _ _ LM). split.
    + intros [e' [HI Hse]]. apply in_map_iff in HI as [x [<- Ix]].
      assert (HT : exists T, ltri_in m n T /\ lside x T).
      { destruct (lm_ein _ _ _ _ _ _ _ LM x Ix) as [U|[U _]]; [apply lup_lside; assumption|]. destruct (lup_lside m n (lflip x) Hm Hn U) as [T [HT HS]]. exists T. split; [exact HT|apply lside_flip, HS]. }
      destruct HT as [T [HT HS]]. exists (tidx C T). split; [apply in_map, (lm_tin _ _ _ _ _ _ _ LM), HT|].
      destruct Hse as [-> | ->]; [apply side_of_idx, HS|]. change (side_of (eidx C (lflip x)) (tidx C T)). apply side_of_idx, lside_flip, HS.
    + intros [t [HI HS]]. apply in_map_iff in HI as [T [<- HT]]. apply (lm_tin _ _ _ _ _ _ _ LM) in HT. apply side_of_idx_inv in HS as [x [-> HS]].
      assert (HIx : In x E \/ In (lflip x) E).
      { destruct (lside_lup m n T x HT HS) as [U|U]; [apply (lm_eall _ _ _ _ _ _ _ LM), U|].
        destruct (lm_eall _ _ _ _ _ _ _ LM _ U) as [A|A]; [right; exact A|left]. destruct x. exact A. }
      destruct HIx as [A|A]; [exists (eidx C x)|exists (eidx C (lflip x))]; (split; [apply in_map, A|]); [left|right]; reflexivity.
  - intros e. rewrite (lm_e _ _ _ _ _ _ _ LM), in_map_iff. intros [x [<- Ix]]. destruct (lm_boxes x Ix) as [B1 B2].
    destruct (box_zz m n _ B1) as [i [j [E1 [Hi Hj]]]]. destruct (box_zz m n _ B2) as [i' [j' [E2 [Hi' Hj']]]].
    exists i, j, i', j'. unfold eidx. cbn [fst snd]. rewrite E1, E2. split; [apply vertex_at_l; auto|]. split; [apply vertex_at_l; auto|].
    apply (lm_ein _ _ _ _ _ _ _ LM) in Ix. destruct x as [xa xb]. cbn [fst snd] in E1, E2. subst xa xb. unfold lup, dir, lflip, zz in Ix. cbn [fst snd] in Ix.
    unfold Z2 in Ix. rewrite !pair_eq in Ix.
    clear - Ix. destruct Ix as [[_ [_ H]]|[_ H]]; lia.
Qed.
End LM.

Lemma lmesh_of_mesh g s m n : 0 < s -> (1 <= m)%nat -> (1 <= n)%nat -> mesh g s m n -> exists C Ts E, lmesh g s m n C Ts E.
Proof.
  intros Hs Hm Hn M.
  assert (HC : exists C, g_points g = map (lpt s) C /\ forall x, In x C -> box m n x).
  { apply list_map_choice. intros x Hx. apply In_nth_error in Hx as [v Hv].
    assert (Lv : In v (g_vertices g)) by (rewrite (mesh_numbers _ _ _ _ M); apply in_seq; split; [lia|]; apply nth_error_Some; congruence).
    destruct (mesh_inside _ _ _ _ M v Lv) as [i [j [Hi [Hj [_ HP]]]]]. exists (zz i j). rewrite lpt_zz. split; [congruence|apply zz_box; auto]. }
  destruct HC as [C [HP HCb]].
  assert (HVv : g_vertices g = range (length C)) by (rewrite (mesh_numbers _ _ _ _ M), HP, map_length; reflexivity).
  assert (Hall : forall x, box m n x -> In x C).
  { intros x Hx. destruct (box_zz m n x Hx) as [i [j [-> [Hi Hj]]]]. destruct (mesh_points _ _ _ _ M i j Hi Hj) as [v [[_ Hv] _]].
    rewrite HP, nth_error_map, <- lpt_zz in Hv. destruct (nth_error C v) as [y|] eqn:Ey; [|discriminate]. apply some_lpt in Hv; [|exact Hs]. subst y. apply (nth_error_In _ _ Ey). }
  assert (HND : NoDup C).
  { apply NoDup_nth_error. intros k l Hk Q. destruct (nth_error C k) as [x|] eqn:Ek; [|apply nth_error_None in Ek; lia]. symmetry in Q.
    pose proof (HCb x (nth_error_In _ _ Ek)) as HB. destruct (box_zz m n x HB) as [i [j [-> [Hi Hj]]]].
    destruct (mesh_points _ _ _ _ M i j Hi Hj) as [v [_ U]].
    assert (W : forall w, nth_error C w = Some (zz i j) -> v = w).
    { intros w Hw. apply U. split; [rewrite HVv; apply in_range, nth_error_Some; congruence|]. rewrite HP, nth_error_map, Hw. cbn [option_map]. rewrite lpt_zz. reflexivity. }
    rewrite <- (W k Ek), <- (W l Q). reflexivity. }
  assert (HAT : forall v i j, (vertex_at g s v i j <-> (i <= m)%nat /\ (j <= n)%nat /\ v = idx C (zz i j))).
  { intros v i j. unfold vertex_at. rewrite HVv, in_range, HP, nth_error_map, <- lpt_zz. split.
    - intros [Hv Q]. destruct (nth_error C v) as [x|] eqn:Ev; [|discriminate]. apply some_lpt in Q; [|exact Hs]. subst x.
      pose proof (HCb _ (nth_error_In _ _ Ev)) as HI. apply zz_box in HI. split; [lia|]. split; [lia|]. symmetry. apply idx_unique; assumption.
    - intros [Hi [Hj ->]]. assert (HI : In (zz i j) C) by (apply Hall, zz_box; auto). rewrite (idx_nth C _ HI). split; [apply idx_lt, HI|reflexivity]. }
  (* an auxiliary lmesh without triangles and edges lets us reuse the section lemmas *)
  assert (HLow : forall t i j, lower_at g s t i j <-> (i + 1 <= m)%nat /\ (j + 1 <= n)%nat /\ t = tidx C (low (Z.of_nat i) (Z.of_nat j))).
  { intros [[a b] c] i j. unfold lower_at, tidx, low, c1, c2, c3. rewrite !HAT. cbn [fst snd].
    assert (E1 : zz (i + 1) j = (Z.of_nat i + 1, Z.of_nat j)%Z) by (unfold zz; rewrite Nat2Z.inj_add; reflexivity).
    assert (E2 : zz (i + 1) (j + 1) = (Z.of_nat i + 1, Z.of_nat j + 1)%Z) by (unfold zz; rewrite !Nat2Z.inj_add; reflexivity).
    rewrite <- E1, <- E2. change (Z.of_nat i, Z.of_nat j) with (zz i j). unfold triangle, edge, vertex, ledge, ltri, Z2 in *; rewrite !pair_eq. repeat split; try lia; intuition lia. }
  assert (HUpp : forall t i j, upper_at g s t i j <-> (i + 1 <= m)%nat /\ (j + 1 <= n)%nat /\ t = tidx C (upp (Z.of_nat i) (Z.of_nat j))).
  { intros [[a b] c] i j. unfold upper_at, tidx, upp, c1, c2, c3. rewrite !HAT. cbn [fst snd].
    assert (E1 : zz i (j + 1) = (Z.of_nat i + 1 + -1, Z.of_nat j + 1)%Z) by (unfold zz; f_equal; lia).
    assert (E2 : zz (i + 1) (j + 1) = (Z.of_nat i + 1, Z.of_nat j + 1)%Z) by (unfold zz; rewrite !Nat2Z.inj_add; reflexivity).
    assert (E3 : zz i j = (Z.of_nat i + 1 + -1, Z.of_nat j + 1 + -1)%Z) by (unfold zz; f_equal; lia).
    rewrite <- E1, <- E2, <- E3. unfold triangle, edge, vertex, ledge, ltri, Z2 in *; rewrite !pair_eq. repeat split; try lia; intuition lia. }
  assert (HT : exists Ts, g_triangles g = map (tidx C) Ts /\ forall T, In T Ts -> ltri_in m n T).
  { apply list_map_choice. intros t Ht. apply (mesh_triangles _ _ _ _ M) in Ht as [i [j [Hi [Hj H]]]]. rewrite HLow, HUpp in H.
    destruct H as [[_ [_ ->]]|[_ [_ ->]]]; eexists; (split; [reflexivity|]); [apply low_in|apply upp_in]; unfold cbox; cbn [fst snd]; lia. }
  destruct HT as [Ts [HTe HTi]].
  assert (HTin : forall T, ltri_in m n T -> tin C T) by (intros T HT; apply ltri_in_corners in HT as [A [B D]]; repeat split; apply Hall; assumption).
  assert (HTall : forall T, ltri_in m n T -> In T Ts).
  { intros T HT. assert (HI : In (tidx C T) (g_triangles g)).
    { apply (mesh_triangles _ _ _ _ M). destruct (ltri_in_cases m n T HT) as [x [y [HB Q]]]. unfold cbox in HB. cbn [fst snd] in HB.
      exists (Z.to_nat x), (Z.to_nat y). split; [lia|]. split; [lia|]. rewrite HLow, HUpp, !Z2Nat.id by lia.
      destruct Q as [-> | ->]; [left|right]; (split; [lia|]); (split; [lia|reflexivity]). }
    rewrite HTe in HI. apply in_map_iff in HI as [T' [Q HI]]. rewrite <- (tidx_inj C T' T); [exact HI|apply HTin, HTi, HI|apply HTin, HT|exact Q]. }
  assert (HE : exists E, g_edges g = map (eidx C) E /\ forall e, In e E -> lup m n e \/ (lup m n (lflip e) /\ dir e = (-1, -1)%Z)).
  { apply list_map_choice. intros e He. destruct (mesh_directions _ _ _ _ M e He) as [i [j [i' [j' [V1 [V2 D]]]]]].
    apply HAT in V1 as [Hi [Hj V1]]. apply HAT in V2 as [Hi' [Hj' V2]]. exists (zz i j, zz i' j'). split.
    - unfold eidx. cbn [fst snd]. destruct e. cbn in *. congruence.
    - assert (B1 : box m n (zz i j)) by (apply zz_box; auto). assert (B2 : box m n (zz i' j')) by (apply zz_box; auto).
      unfold lup, lflip. cbn [fst snd].
      assert (K : (dir (zz i j, zz i' j') = (1, 0) \/ dir (zz i j, zz i' j') = (0, 1) \/ dir (zz i j, zz i' j') = (1, 1) \/ (dir (zz i' j', zz i j) = (1, 1) /\ dir (zz i j, zz i' j') = (-1, -1)))%Z).
      { unfold dir, zz, Z2. cbn [fst snd]. unfold triangle, edge, vertex, ledge, ltri, Z2 in *; rewrite !pair_eq. lia. }
      tauto. }
  destruct HE as [E [HEe HEi]].
  assert (HEin : forall e, In e E -> ein C e) by (intros e He; apply HEi in He as [[A [B _]]|[[A [B _]] _]]; split; apply Hall; assumption).
  exists C, Ts, E. split; try assumption.
  - intros x. split; [apply HCb|apply Hall].
  - apply (NoDup_map_inv (tidx C)). rewrite <- HTe. apply (mesh_triangles_once _ _ _ _ M).
  - intros T. split; [apply HTi|apply HTall].
  - assert (NDE : NoDup E).
    { apply NoDup_nth_error. intros k l Hk Q. destruct (nth_error E k) as [x|] eqn:Ek; [|apply nth_error_None in Ek; lia]. symmetry in Q.
      apply (mesh_edges_once _ _ _ _ M k l (eidx C x) (eidx C x)); [| |left; reflexivity]; rewrite HEe, nth_error_map; [rewrite Ek|rewrite Q]; reflexivity. }
    split; [exact NDE|]. intros e He Hf. apply In_nth_error in He as [k Hk]. apply In_nth_error in Hf as [l Hl].
    assert (k = l) as <-. { apply (mesh_edges_once _ _ _ _ M k l (eidx C e) (eidx C (lflip e))); [| |right; reflexivity]; rewrite HEe, nth_error_map; [rewrite Hk|rewrite Hl]; reflexivity. }
    rewrite Hk in Hl. injection Hl as Q. assert (fst e <> snd e) as N.
    { apply dir_ne. apply nth_error_In, HEi in Hk as [[_ [_ H]]|[_ H]]; tauto. }
    apply N. rewrite Q at 1. reflexivity.
  - intros e He. destruct (lup_lside m n e Hm Hn He) as [T [HT HS]].
    destruct (proj2 (mesh_edges _ _ _ _ M (eidx C e))) as [e' [HI Hse]].
    { exists (tidx C T). split; [rewrite HTe; apply in_map, HTall, HT|apply side_of_idx, HS]. }
    rewrite HEe in HI. apply in_map_iff in HI as [x [<- Ix]]. destruct He as [B1 [B2 _]].
    assert (HIe : ein C e) by (split; apply Hall; assumption).
    destruct Hse as [Q|Q].
    + apply (eidx_inj C) in Q; [|exact HIe|apply HEin, Ix]. left. rewrite Q. exact Ix.
    + change (eidx C e = eidx C (lflip x)) in Q. apply (eidx_inj C) in Q; [|exact HIe|destruct (HEin x Ix); split; assumption].
      right. rewrite Q. destruct x. exact Ix.
Qed.
