(** Boundary parts in specification and lattice form; the coarse coordinate dictionaries. *)
From Coq Require Import Reals Lra Lia Psatz.
From Verif.Model Require Import Py Num Tensors Domain Refine.
From Verif.Spec Require Import GridSpec RefineSpec.
From Verif.Proofs Require Import Lib FindP Lattice RefineP RefineTri RefineAll MeshLat MeshP RefineMesh RefineBd.
Local Open Scope R_scope.

Definition lon (m n : nat) (d : side) (e : ledge) : Prop := box m n (fst e) /\ box m n (snd e) /\
  match d with
  | Lower => dir e = (1, 0)%Z /\ snd (fst e) = 0%Z
  | Upper => dir e = (1, 0)%Z /\ snd (fst e) = Z.of_nat n
  | Left => dir e = (0, 1)%Z /\ fst (fst e) = 0%Z
  | Right => dir e = (0, 1)%Z /\ fst (fst e) = Z.of_nat m
  end.
Lemma lonside_lon m n e : lonside m n e <-> exists d, lon m n d e.
Proof.
  unfold lonside, lon. split.
  - intros [A [B [[D [S|S]]|[D [S|S]]]]]; [exists Lower|exists Upper|exists Left|exists Right]; auto.
  - intros [d [A [B S]]]. destruct d; tauto.
Qed.
Section LM.
Context (g : grid R) (s : R) (m n : nat) (C : list Z2) (Ts : list ltri) (E : list ledge) (Hs : 0 < s) (LM : lmesh g s m n C Ts E).
Lemma eos_lon d e : edge_on_side g s m n d e <-> exists x, e = eidx C x /\ lon m n d x.
Proof.
  unfold edge_on_side. split.
  - intros [i [j [i' [j' [V1 [V2 [S1 [S2 D]]]]]]]]. apply (vertex_at_l g s m n C Ts E Hs LM) in V1 as [Hi [Hj V1]]. apply (vertex_at_l g s m n C Ts E Hs LM) in V2 as [Hi' [Hj' V2]].
    exists (zz i j, zz i' j'). split; [destruct e; cbn [fst snd] in *; unfold eidx; cbn [fst snd]; congruence|].
    unfold lon. cbn [fst snd]. split; [apply zz_box; auto|]. split; [apply zz_box; auto|]. unfold dir, zz. cbn [fst snd]. unfold on_side in *. destruct d; rewrite z2_eq; lia.
  - intros [[a b] [-> [B1 [B2 S]]]]. cbn [fst snd] in *. destruct (box_zz m n a B1) as [i [j [-> [Hi Hj]]]]. destruct (box_zz m n b B2) as [i' [j' [-> [Hi' Hj']]]].
    exists i, j, i', j'. unfold eidx. cbn [fst snd]. rewrite !(vertex_at_l g s m n C Ts E Hs LM). unfold dir, zz in S. cbn [fst snd] in S. unfold on_side. repeat (split; [lia || reflexivity|] || split; [reflexivity|]).
    destruct d; rewrite z2_eq in S; repeat split; lia.
Qed.
Lemma vos_box d v : vertex_on_side g s m n d v <-> exists x, v = idx C x /\ box m n x /\
  match d with Lower => snd x = 0%Z | Upper => snd x = Z.of_nat n | Left => fst x = 0%Z | Right => fst x = Z.of_nat m end.
Proof.
  unfold vertex_on_side. split.
  - intros [i [j [V S]]]. apply (vertex_at_l g s m n C Ts E Hs LM) in V as [Hi [Hj ->]]. exists (zz i j). split; [reflexivity|]. split; [apply zz_box; auto|].
    unfold zz. cbn [fst snd]. unfold on_side in S. destruct d; lia.
  - intros [x [-> [B S]]]. destruct (box_zz m n x B) as [i [j [-> [Hi Hj]]]]. exists i, j. rewrite (vertex_at_l g s m n C Ts E Hs LM). split; [auto|].
    unfold zz in S. cbn [fst snd] in S. unfold on_side. destruct d; lia.
Qed.
Lemma lout_of_outline bd : outline g s m n bd -> exists Vb Eb, lout C m n bd Vb Eb.
Proof.
  intros O.
  assert (HV : exists Vb, b_vertices bd = map (idx C) Vb /\ forall x, In x Vb -> box m n x).
  { apply list_map_choice. intros v Hv. apply (outline_vertices _ _ _ _ _ O) in Hv. rewrite (lm_v _ _ _ _ _ _ _ LM), in_range in Hv.
    destruct (nth_error C v) as [x|] eqn:Ev; [|apply nth_error_None in Ev; lia]. exists x. split; [symmetry; apply idx_unique; [apply (lm_nd _ _ _ _ _ _ _ LM)|exact Ev]|].
    apply (lm_box _ _ _ _ _ _ _ LM), (nth_error_In _ _ Ev). }
  assert (HE : exists Eb, b_edges bd = map (eidx C) Eb /\ forall x, In x Eb -> lonside m n x).
  { apply list_map_choice. intros e He. destruct (outline_sides _ _ _ _ _ O e He) as [d Hd]. apply eos_lon in Hd as [x [-> Hx]]. exists x. split; [reflexivity|]. apply lonside_lon. eauto. }
  destruct HV as [Vb [V1 V2]], HE as [Eb [E1 E2]]. exists Vb, Eb. split; try assumption.
  - apply (NoDup_map_inv (idx C)). rewrite <- V1. apply (outline_vertices_once _ _ _ _ _ O).
  - apply (NoDup_map_inv (eidx C)). rewrite <- E1. apply (outline_edges_once _ _ _ _ _ O).
Qed.
Lemma dir_flip' e : dir (lflip e) = (- fst (dir e), - snd (dir e))%Z.
Proof. destruct e as [[a b] [c d]]. unfold dir, lflip. cbn [fst snd]. apply z2_eq. cbn [fst snd]. lia. Qed.
Lemma up_in e : box m n (fst e) -> box m n (snd e) -> dir e = (1, 0)%Z \/ dir e = (0, 1)%Z -> In e E.
Proof.
  intros A B D. destruct (lm_eall _ _ _ _ _ _ _ LM e) as [K|K]; [unfold lup; tauto|exact K|]. exfalso.
  assert (K' : (dir (lflip e) = (1, 0) \/ dir (lflip e) = (0, 1) \/ dir (lflip e) = (1, 1) \/ dir (lflip e) = (-1, -1))%Z).
  { apply (lm_ein _ _ _ _ _ _ _ LM) in K as [[_ [_ H]]|[_ H]]; tauto. }
  rewrite dir_flip' in K'. destruct D as [D|D]; rewrite D in K'; cbn [fst snd] in K'; rewrite !z2_eq in K'; lia.
Qed.
Lemma outline_of_lout bd Vb Eb : lout C m n bd Vb Eb -> outline g s m n bd.
Proof.
  intros O.
  assert (HI : forall x, In x Vb -> In x C) by (intros x Hx; apply (lm_box _ _ _ _ _ _ _ LM), (lo_vin _ _ _ _ _ _ O), Hx).
  assert (HE : forall e, In e Eb -> ein C e) by (intros e He; apply (lo_on _ _ _ _ _ _ O) in He as [A [B _]]; split; apply (lm_box _ _ _ _ _ _ _ LM); assumption).
  split.
  - rewrite (lo_v _ _ _ _ _ _ O). apply NoDup_map_inj_in; [apply (lo_vnd _ _ _ _ _ _ O)|]. intros a b Ha Hb. apply idx_inj; apply HI; assumption.
  - rewrite (lo_v _ _ _ _ _ _ O), (lm_v _ _ _ _ _ _ _ LM). intros v Hv. apply in_map_iff in Hv as [x [<- Hx]]. apply in_range, idx_lt, HI, Hx.
  - rewrite (lo_e _ _ _ _ _ _ O). apply NoDup_map_inj_in; [apply (lo_end _ _ _ _ _ _ O)|]. intros a b Ha Hb. apply eidx_inj; apply HE; assumption.
  - rewrite (lo_e _ _ _ _ _ _ O), (lm_e _ _ _ _ _ _ _ LM). intros e He. apply in_map_iff in He as [x [<- Hx]]. apply in_map.
    apply (lo_on _ _ _ _ _ _ O) in Hx as [A [B D]]. apply up_in; [exact A|exact B|tauto].
  - rewrite (lo_e _ _ _ _ _ _ O). intros e He. apply in_map_iff in He as [x [<- Hx]]. apply (lo_on _ _ _ _ _ _ O), lonside_lon in Hx as [d Hd].
    exists d. apply eos_lon. eauto.
Qed.
Lemma point_at_l v p : point_at g v p <-> exists x, box m n x /\ v = idx C x /\ p = lp s x.
Proof.
  unfold point_at. rewrite (lm_p _ _ _ _ _ _ _ LM), nth_error_map. split.
  - intros H. destruct (nth_error C v) as [x|] eqn:Ev; [|discriminate]. exists x. split; [apply (lm_box _ _ _ _ _ _ _ LM), (nth_error_In _ _ Ev)|].
    split; [symmetry; apply idx_unique; [apply (lm_nd _ _ _ _ _ _ _ LM)|exact Ev]|]. cbn [option_map] in H. injection H as H1 H2. destruct p. unfold lp. cbn in *. congruence.
  - intros [x [B [-> ->]]]. rewrite idx_nth by (apply (lm_box _ _ _ _ _ _ _ LM), B). reflexivity.
Qed.
Lemma lp_inj x y : lp s x = lp s y -> x = y.
Proof. intros H. apply (lpt_inj s); [exact Hs|]. unfold lpt. rewrite H. reflexivity. Qed.
End LM.

(** ** Dictionaries *)
Lemma dfind_some_of_in {K V} (eqb : K -> K -> bool) (Heq : forall a b, eqb a b = true <-> a = b) (d : dict K V) k v : In (k, v) d -> exists v', dfind eqb k d = Some v' /\ In (k, v') d.
Proof.
  induction d as [|[k0 v0] d IH]; [intros []|]. intros H. cbn [dfind]. destruct (eqb k k0) eqn:Q.
  - apply Heq in Q. subst k0. exists v0. split; [reflexivity|left; reflexivity].
  - destruct H as [H|H]; [injection H as <- <-; rewrite (proj2 (Heq k0 k0) eq_refl) in Q; discriminate|]. destruct (IH H) as [v' [A B]]. exists v'. split; [exact A|right; exact B].
Qed.
Lemma dfind_some_in {K V} (eqb : K -> K -> bool) (Heq : forall a b, eqb a b = true <-> a = b) (d : dict K V) k v : dfind eqb k d = Some v -> In (k, v) d.
Proof.
  induction d as [|[k0 v0] d IH]; [discriminate|]. cbn [dfind]. destruct (eqb k k0) eqn:Q; [|intros H; right; apply IH, H].
  intros H. injection H as <-. apply Heq in Q. subst. left. reflexivity.
Qed.

Section RD.
Context (N : nat) (h : R) (HN : (1 <= N)%nat) (Hh : 0 < h).
Context (cg : grid R) (m n : nat) (Hm : (1 <= m)%nat) (Hn : (1 <= n)%nat) (C : list Z2) (Ts : list ltri) (E : list ledge).
Context (LM : lmesh cg (INR N * h) m n C Ts E).
Let LL' := LL N C Ts.
Definition hvd (T : ltri) : list ledge := [he cg C T; ve cg C T; de cg C T].
Lemma hvd_E T e : In T Ts -> In e (hvd T) -> In e E.
Proof.
  intros HT [<-|[<-|[<-|[]]]]; [apply (he_in N h HN cg m n Hm Hn C Ts E LM T HT)|apply (ve_in N h HN cg m n Hm Hn C Ts E LM T HT)|apply (dc_spec N h cg m n C Ts E LM T HT)].
Qed.
Lemma E_hvd e : In e E -> exists T, In T Ts /\ In e (hvd T).
Proof.
  intros He.
  assert (HT : exists T, ltri_in m n T /\ lside e T).
  { destruct (lm_ein _ _ _ _ _ _ _ LM e He) as [U|[U _]]; [apply lup_lside; assumption|]. destruct (lup_lside m n (lflip e) Hm Hn U) as [T [HT HS]]. exists T. split; [exact HT|apply lside_flip, HS]. }
  destruct HT as [T [HT HS]]. apply (lm_tin _ _ _ _ _ _ _ LM) in HT. exists T. split; [exact HT|].
  assert (U : forall x, In x E -> e = x \/ e = lflip x -> e = x).
  { intros x Hx [Q|Q]; [exact Q|]. exfalso. apply (proj2 (lm_eu _ _ _ _ _ _ _ LM) x Hx). rewrite <- Q. exact He. }
  assert (K : forall ok x, In (orient ok x) E -> e = x \/ lflip e = x -> e = orient ok x).
  { intros ok x Hx Q. apply U; [exact Hx|]. destruct e, x, ok; unfold orient, lflip in *; cbn [fst snd] in *; intuition congruence. }
  unfold lside in HS. unfold hvd.
  assert (A : In (he cg C T) E) by (apply (hvd_E T); [exact HT|left; reflexivity]).
  assert (B : In (ve cg C T) E) by (apply (hvd_E T); [exact HT|right; left; reflexivity]).
  assert (D : In (de cg C T) E) by (apply (hvd_E T); [exact HT|right; right; left; reflexivity]).
  destruct HS as [HS|[HS|[HS|[HS|[HS|HS]]]]].
  - left. symmetry. apply K; auto.
  - right. left. symmetry. apply K; auto.
  - right. right. left. symmetry. apply K; auto.
  - left. symmetry. apply K; auto.
  - right. left. symmetry. apply K; auto.
  - right. right. left. symmetry. apply K; auto.
Qed.
Lemma wt_rev i : (i < N)%nat -> aw false (wt N i) = wt N (N - 1 - i).
Proof.
  intros Hi. pose proof (Nn_pos N HN) as HP. unfold aw, wt. cbn [fst snd]. rewrite !plus_INR, !minus_INR by lia. simpl INR. f_equal; field; lra.
Qed.
(** Every entry: the [i]-th piece of a coarse edge, with the weights of its ends. *)
Lemma in_ces T x : In T Ts -> (In x (ces N cg C T) <-> exists e i, In e (hvd T) /\ (i < N)%nat /\ x = (sube N e i, eidx C e, wt N i)).
Proof.
  intros HT. unfold ces, cents. rewrite in_flat_map. destruct (Ts_ok N h cg m n C Ts E LM T HT) as [HO _].
  assert (K1 : forall e i, (i < N)%nat -> lflip (sube N e i) = sube N (lflip e) (N - 1 - i)).
  { intros e i Hi. destruct e as [[a b] [c d]]. unfold sube, subv, lflip, dir. cbn [fst snd]. unfold ledge, Z2. rewrite !pair_eq. replace (N - 1 - i + 1)%nat with (N - i)%nat by lia.
    rewrite !Nat2Z.inj_sub, !Nat2Z.inj_add by lia. repeat split; lia. }
  assert (KH : forall i, (i < N)%nat -> (node N T i 0, node N T (i + 1) 0) = sube N (c1 T, c2 T) i).
  { intros i Hi. destruct T as [[a b] t]. unfold sube, subv, dir, node, c1, c2. cbn [fst snd]. unfold ledge, Z2. rewrite !pair_eq. rewrite !Nat2Z.inj_add. repeat split; lia. }
  assert (KV : forall i, (i < N)%nat -> (node N T (N - i) i, node N T (N - (i + 1)) (i + 1)) = sube N (c2 T, c3 T) i).
  { intros i Hi. destruct T as [[a b] t]. unfold sube, subv, dir, node, c2, c3. cbn [fst snd]. unfold ledge, Z2. rewrite !pair_eq. rewrite !Nat2Z.inj_sub, !Nat2Z.inj_add by lia. repeat split; lia. }
  assert (KD : forall i, (i < N)%nat -> (node N T 0 (N - i), node N T 0 (N - (i + 1))) = sube N (c3 T, c1 T) i).
  { intros i Hi. destruct T as [[a b] t]. unfold sube, subv, dir, node, c3, c1. cbn [fst snd]. unfold ledge, Z2. rewrite !pair_eq. rewrite !Nat2Z.inj_sub, !Nat2Z.inj_add by lia. repeat split; lia. }
  assert (F : forall ok e i, (i < N)%nat -> exists j, (j < N)%nat /\ (orient ok (sube N e i), aw ok (wt N i)) = (sube N (orient ok e) j, wt N j)).
  { intros [|] e i Hi; [exists i; auto|]. exists (N - 1 - i)%nat. split; [lia|]. cbn [orient]. rewrite K1, wt_rev by exact Hi. reflexivity. }
  assert (F' : forall ok e j, (j < N)%nat -> exists i, (i < N)%nat /\ (orient ok (sube N e i), aw ok (wt N i)) = (sube N (orient ok e) j, wt N j)).
  { intros [|] e j Hj; [exists j; auto|]. exists (N - 1 - j)%nat. split; [lia|]. cbn [orient]. rewrite K1, wt_rev by lia. replace (N - 1 - (N - 1 - j))%nat with j by lia. reflexivity. }
  split.
  - intros [i [Hi Hx]]. rewrite <- in_rev in Hi. apply in_range in Hi. unfold cent in Hx. rewrite (KH i Hi), (KV i Hi), (KD i Hi) in Hx.
    destruct Hx as [<-|[<-|[<-|[]]]].
    + destruct (F (dc cg C T) (c3 T, c1 T) i Hi) as [j [Hj Q]]. injection Q as Q1 Q2. exists (de cg C T), j. split; [right; right; left; reflexivity|]. split; [exact Hj|]. rewrite Q1, <- Q2. unfold de. reflexivity.
    + destruct (F (vc cg C T) (c2 T, c3 T) i Hi) as [j [Hj Q]]. injection Q as Q1 Q2. exists (ve cg C T), j. split; [right; left; reflexivity|]. split; [exact Hj|]. rewrite Q1, <- Q2. unfold ve. reflexivity.
    + destruct (F (hc cg C T) (c1 T, c2 T) i Hi) as [j [Hj Q]]. injection Q as Q1 Q2. exists (he cg C T), j. split; [left; reflexivity|]. split; [exact Hj|]. rewrite Q1, <- Q2. unfold he. reflexivity.
  - intros [e [j [He [Hj ->]]]]. destruct He as [<-|[<-|[<-|[]]]].
    + destruct (F' (hc cg C T) (c1 T, c2 T) j Hj) as [i [Hi Q]]. injection Q as Q1 Q2. exists i. split; [rewrite <- in_rev; apply in_range, Hi|]. unfold cent. rewrite (KH i Hi), (KV i Hi), (KD i Hi).
      right. right. left. rewrite Q1, Q2. reflexivity.
    + destruct (F' (vc cg C T) (c2 T, c3 T) j Hj) as [i [Hi Q]]. injection Q as Q1 Q2. exists i. split; [rewrite <- in_rev; apply in_range, Hi|]. unfold cent. rewrite (KH i Hi), (KV i Hi), (KD i Hi).
      right. left. rewrite Q1, Q2. reflexivity.
    + destruct (F' (dc cg C T) (c3 T, c1 T) j Hj) as [i [Hi Q]]. injection Q as Q1 Q2. exists i. split; [rewrite <- in_rev; apply in_range, Hi|]. unfold cent. rewrite (KH i Hi), (KV i Hi), (KD i Hi).
      left. rewrite Q1, Q2. reflexivity.
Qed.
Lemma sube_inj_E e e' i i' : In e E -> In e' E -> (i < N)%nat -> (i' < N)%nat -> sube N e i = sube N e' i' -> e = e' /\ i = i'.
Proof.
  intros He He' Hi Hi' Q.
  assert (D : (dir e = (1, 0) \/ dir e = (0, 1) \/ dir e = (1, 1) \/ dir e = (-1, -1))%Z) by apply (E_dirs N h cg m n C Ts E LM e He).
  assert (D' : (dir e' = (1, 0) \/ dir e' = (0, 1) \/ dir e' = (1, 1) \/ dir e' = (-1, -1))%Z) by apply (E_dirs N h cg m n C Ts E LM e' He').
  destruct e as [[a b] [c d]], e' as [[a' b'] [c' d']]. unfold sube, subv, dir in *. cbn [fst snd] in *. rewrite !z2_eq in D, D'. unfold ledge, Z2 in *. rewrite !pair_eq in *.
  rewrite !Nat2Z.inj_add in Q. destruct Q as [[Q1 Q2] [Q3 Q4]].
  assert (EX : (c - a = c' - a')%Z) by lia. assert (EY : (d - b = d' - b')%Z) by lia. clear Q3 Q4 D'.
  destruct D as [[D1 D2]|[[D1 D2]|[[D1 D2]|[D1 D2]]]]; rewrite <- EX, <- EY, D1, D2 in *.
  - assert (K : (a = a' /\ Z.of_nat i = Z.of_nat i')%Z) by (apply (divmod N HN m n Hm Hn); lia). assert (b = b')%Z by (apply (divmod0 N HN m n Hm Hn); lia). lia.
  - assert (K : (b = b' /\ Z.of_nat i = Z.of_nat i')%Z) by (apply (divmod N HN m n Hm Hn); lia). assert (a = a')%Z by (apply (divmod0 N HN m n Hm Hn); lia). lia.
  - assert (K : (a = a' /\ Z.of_nat i = Z.of_nat i')%Z) by (apply (divmod N HN m n Hm Hn); lia). assert (b = b')%Z by (apply (divmod0 N HN m n Hm Hn); lia). lia.
  - assert (K : (- a = - a' /\ Z.of_nat i = Z.of_nat i')%Z) by (apply (divmod N HN m n Hm Hn); lia). assert (b = b')%Z by (apply (divmod0 N HN m n Hm Hn); lia). lia.
Qed.
Lemma sube_in_LL e i : In e E -> (i < N)%nat -> ein LL' (sube N e i).
Proof.
  intros He Hi. destruct (lm_boxes _ _ _ _ _ _ _ LM e He) as [B1 B2].
  assert (D : (dir e = (1, 0) \/ dir e = (0, 1) \/ dir e = (1, 1) \/ dir e = (-1, -1))%Z) by apply (E_dirs N h cg m n C Ts E LM e He).
  split; apply (LL_box N h HN cg m n Hm Hn C Ts E LM); destruct e as [[a b] [c d]]; unfold sube, subv, dir, box in *; cbn [fst snd] in *; rewrite !z2_eq in D;
    rewrite ?Nat2Z.inj_add, !Nat2Z.inj_mul; destruct D as [[D1 D2]|[[D1 D2]|[[D1 D2]|[D1 D2]]]]; rewrite D1, D2; nia.
Qed.
(** The result of the edge lookup, exactly. *)
Lemma edge_lookup (r : refined_grid R) t : ce_spec N cg C Ts (r_coarse_edge r) -> cc_spec N cg C Ts (r_coarse_edge_coords r) ->
  (forall e i, In e E -> (i < N)%nat ->
     to_coarse_edge_point r (eidx LL' (sube N e i)) t = Ok (eidx C e, t * (1 - INR i / INR N) + (1 - t) * (1 - INR (i + 1) / INR N))) /\
  (forall x, ein LL' x -> (forall e i, In e E -> (i < N)%nat -> x <> sube N e i) -> to_coarse_edge_point r (eidx LL' x) t = Err ValueError).
Proof.
  intros S3 S4. split.
  - intros e i He Hi. destruct (E_hvd e He) as [T [HT HI]].
    assert (Hx : In (sube N e i, eidx C e, wt N i) (ces N cg C T)) by (apply (in_ces T); [exact HT|exists e, i; auto]).
    assert (A3 : In (eidx LL' (sube N e i), eidx C e) (r_coarse_edge r)).
    { apply S3. exists T, (sube N e i, eidx C e, wt N i). auto. }
    assert (A4 : In (eidx LL' (sube N e i), wt N i) (r_coarse_edge_coords r)).
    { apply S4. exists T, (sube N e i, eidx C e, wt N i). auto. }
    destruct (dfind_some_of_in edge_eqb pair_eqb_spec _ _ _ A3) as [v3 [F3 I3]]. destruct (dfind_some_of_in edge_eqb pair_eqb_spec _ _ _ A4) as [v4 [F4 I4]].
    apply S3 in I3 as [T3 [x3 [HT3 [X3 [K3 ->]]]]]. apply S4 in I4 as [T4 [x4 [HT4 [X4 [K4 ->]]]]].
    apply (in_ces T3 _ HT3) in X3 as [e3 [i3 [H3 [Hi3 ->]]]]. apply (in_ces T4 _ HT4) in X4 as [e4 [i4 [H4 [Hi4 ->]]]]. cbn [fst snd] in *.
    apply (hvd_E _ _ HT3) in H3. apply (hvd_E _ _ HT4) in H4.
    apply (eidx_inj LL') in K3; [|apply sube_in_LL; assumption|apply sube_in_LL; assumption]. apply (eidx_inj LL') in K4; [|apply sube_in_LL; assumption|apply sube_in_LL; assumption].
    apply sube_inj_E in K3 as [<- <-]; try assumption. apply sube_inj_E in K4 as [<- <-]; try assumption.
    unfold to_coarse_edge_point, dmem, dget. rewrite F3, F4. reflexivity.
  - intros x Hx Hno. unfold to_coarse_edge_point, dmem. destruct (dfind edge_eqb (eidx LL' x) (r_coarse_edge r)) as [v|] eqn:F; [|reflexivity]. exfalso.
    apply (dfind_some_in edge_eqb pair_eqb_spec) in F. apply S3 in F as [T [y [HT [Hy [K _]]]]]. apply (in_ces T _ HT) in Hy as [e [i [He [Hi ->]]]]. cbn [fst snd] in K.
    apply (hvd_E _ _ HT) in He. apply (eidx_inj LL') in K; [|exact Hx|apply sube_in_LL; assumption]. apply (Hno e i He Hi K).
Qed.
End RD.
