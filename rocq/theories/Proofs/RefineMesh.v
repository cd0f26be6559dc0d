(** Refinement of a lattice mesh is a lattice mesh; the refined boundary. *)
From Coq Require Import Reals Lra Lia Psatz.
From Verif.Model Require Import Py Num Tensors Domain Refine.
From Verif.Spec Require Import GridSpec RefineSpec.
From Verif.Proofs Require Import Lib FindP Lattice RefineP RefineTri RefineAll MeshLat MeshP.
Local Open Scope R_scope.

Lemma z2_eq (a b c d : Z) : ((a, b) : Z2) = (c, d) <-> a = c /\ b = d.
Proof. apply pair_eq. Qed.
Section RM.
Context (N : nat) (h : R) (HN : (1 <= N)%nat) (Hh : 0 < h) (Heps : / 10 ^ 15 <= h).
Context (cg : grid R) (m n : nat) (Hm : (1 <= m)%nat) (Hn : (1 <= n)%nat) (C : list Z2) (Ts : list ltri) (E : list ledge).
Context (LM : lmesh cg (INR N * h) m n C Ts E).
Let LL' := LL N C Ts.
Let EE' := EE N cg C Ts.

Lemma Ts_ok T : In T Ts -> oriented T /\ tin C T.
Proof. intros H. split; [apply (lm_or _ _ _ _ _ _ _ LM), H|apply (lm_tins _ _ _ _ _ _ _ LM), H]. Qed.
Lemma in_E_b e : ein C e -> (py_in edge_eqb (eidx C e) (g_edges cg) = true <-> In e E).
Proof.
  intros He. rewrite (lm_e _ _ _ _ _ _ _ LM), (py_in_eidx C e E He (lm_eins _ _ _ _ _ _ _ LM)). apply lmem_iff.
Qed.
Lemma tin_edges T : In T Ts -> ein C (c1 T, c2 T) /\ ein C (c2 T, c3 T) /\ ein C (c3 T, c1 T).
Proof. intros H. destruct (Ts_ok T H) as [_ [A [B D]]]. repeat split; assumption. Qed.
Lemma tri_dirs T : oriented T -> dir (c1 T, c2 T) = (snd T, 0)%Z /\ dir (c2 T, c3 T) = (0, snd T)%Z /\ dir (c3 T, c1 T) = (- snd T, - snd T)%Z.
Proof. intros _. destruct T as [[x y] s]. unfold dir, c1, c2, c3. cbn [fst snd]. repeat split; apply z2_eq; split; lia. Qed.
Lemma dir_flip e : dir (lflip e) = (- fst (dir e), - snd (dir e))%Z.
Proof. destruct e as [a b]. unfold dir, lflip. cbn [fst snd]. apply z2_eq. split; lia. Qed.
Lemma E_dirs e : In e E -> dir e = (1, 0)%Z \/ dir e = (0, 1)%Z \/ dir e = (1, 1)%Z \/ dir e = (-1, -1)%Z.
Proof. intros H. apply (lm_ein _ _ _ _ _ _ _ LM) in H as [[_ [_ H]]|[_ H]]; tauto. Qed.
Lemma up_in_E e : box m n (fst e) -> box m n (snd e) -> dir e = (1, 0)%Z \/ dir e = (0, 1)%Z -> In e E.
Proof.
  intros A B D. destruct (lm_eall _ _ _ _ _ _ _ LM e) as [K|K]; [unfold lup; tauto|exact K|]. exfalso.
  apply E_dirs in K. rewrite dir_flip in K. destruct D as [D|D]; rewrite D in K; cbn [fst snd] in K; rewrite !z2_eq in K; lia.
Qed.
(** Horizontal and vertical coarse edges are stored in increasing direction. *)
Lemma hc_sign T : In T Ts -> hc cg C T = Z.eqb (snd T) 1.
Proof.
  intros HT. destruct (Ts_ok T HT) as [HO HI]. destruct (tin_edges T HT) as [I1 _]. pose proof (tri_dirs T HO) as [D _].
  unfold hc. apply Bool.eq_true_iff_eq. rewrite (in_E_b _ I1), Z.eqb_eq. split.
  - intros K. apply E_dirs in K. rewrite D in K. rewrite !z2_eq in K. destruct HO; lia.
  - intros K. apply up_in_E; [apply (lm_box _ _ _ _ _ _ _ LM), I1|apply (lm_box _ _ _ _ _ _ _ LM), I1|]. left. rewrite D, K. reflexivity.
Qed.
Lemma vc_sign T : In T Ts -> vc cg C T = Z.eqb (snd T) 1.
Proof.
  intros HT. destruct (Ts_ok T HT) as [HO HI]. destruct (tin_edges T HT) as [_ [I1 _]]. pose proof (tri_dirs T HO) as [_ [D _]].
  unfold vc. apply Bool.eq_true_iff_eq. rewrite (in_E_b _ I1), Z.eqb_eq. split.
  - intros K. apply E_dirs in K. rewrite D in K. rewrite !z2_eq in K. destruct HO; lia.
  - intros K. apply up_in_E; [apply (lm_box _ _ _ _ _ _ _ LM), I1|apply (lm_box _ _ _ _ _ _ _ LM), I1|]. right. rewrite D, K. reflexivity.
Qed.
Lemma dc_spec T : In T Ts -> In (orient (dc cg C T) (c3 T, c1 T)) E.
Proof.
  intros HT. destruct (Ts_ok T HT) as [HO HI]. destruct (tin_edges T HT) as [_ [_ I1]]. unfold dc. destruct (py_in _ _ _) eqn:Q; cbn [orient].
  - apply in_E_b; assumption.
  - assert (K : In (c3 T, c1 T) E \/ In (lflip (c3 T, c1 T)) E).
    { assert (HL : lup m n (c3 T, c1 T) \/ lup m n (lflip (c3 T, c1 T))).
      { apply (lside_lup m n T); [apply (lm_tin _ _ _ _ _ _ _ LM), HT|]. unfold lside. tauto. }
      destruct HL as [U|U]; destruct (lm_eall _ _ _ _ _ _ _ LM _ U) as [K|K]; auto. }
    destruct K as [K|K]; [|exact K]. apply (in_E_b _ I1) in K. congruence.
Qed.
Lemma he_in T : In T Ts -> In (he cg C T) E /\ dir (he cg C T) = (1, 0)%Z.
Proof.
  intros HT. destruct (Ts_ok T HT) as [HO [A [B D]]]. unfold he. rewrite (hc_sign T HT). pose proof (tri_dirs T HO) as [K _].
  assert (Q : dir (orient (snd T =? 1)%Z (c1 T, c2 T)) = (1, 0)%Z).
  { destruct HO as [S|S]; rewrite S in *; cbn [Z.eqb Pos.eqb orient]; [exact K|]. rewrite dir_flip, K. reflexivity. }
  split; [|exact Q]. apply (lm_box _ _ _ _ _ _ _ LM) in A, B. apply up_in_E; [| |left; exact Q]; destruct (snd T =? 1)%Z; assumption.
Qed.
Lemma ve_in T : In T Ts -> In (ve cg C T) E /\ dir (ve cg C T) = (0, 1)%Z.
Proof.
  intros HT. destruct (Ts_ok T HT) as [HO [A [B D]]]. unfold ve. rewrite (vc_sign T HT). pose proof (tri_dirs T HO) as [_ [K _]].
  assert (Q : dir (orient (snd T =? 1)%Z (c2 T, c3 T)) = (0, 1)%Z).
  { destruct HO as [S|S]; rewrite S in *; cbn [Z.eqb Pos.eqb orient]; [exact K|]. rewrite dir_flip, K. reflexivity. }
  split; [|exact Q]. apply (lm_box _ _ _ _ _ _ _ LM) in B, D. apply up_in_E; [| |right; exact Q]; destruct (snd T =? 1)%Z; assumption.
Qed.

(** ** The fine mesh *)
Lemma node_diff T k l k' l' : dir (node N T k l, node N T k' l') =
  (snd T * (Z.of_nat k' + Z.of_nat l' - Z.of_nat k - Z.of_nat l), snd T * (Z.of_nat l' - Z.of_nat l))%Z.
Proof. unfold dir, node. cbn [fst snd]. apply z2_eq. split; lia. Qed.
Lemma oe_dirs T e : In T Ts -> In e (oe N cg C T) -> dir e = (1, 0)%Z \/ dir e = (0, 1)%Z \/ dir e = (1, 1)%Z \/ dir e = (-1, -1)%Z.
Proof.
  intros HT. destruct (Ts_ok T HT) as [HO _]. unfold oe, oedges. rewrite in_flat_map. intros [[k l] [H He]]. cbn [edges3] in He.
  rewrite (hc_sign T HT), (vc_sign T HT) in He.
  destruct He as [<-|[<-|[<-|[]]]].
  - left. destruct HO as [S|S]; rewrite S; cbn [Z.eqb Pos.eqb orient]; rewrite ?dir_flip, node_diff, S; cbn [fst snd]; apply z2_eq; lia.
  - right. left. destruct HO as [S|S]; rewrite S; cbn [Z.eqb Pos.eqb orient]; rewrite ?dir_flip, node_diff, S; cbn [fst snd]; apply z2_eq; lia.
  - right. right. destruct HO as [S|S]; destruct (dc cg C T); cbn [orient]; rewrite ?dir_flip, node_diff, S; cbn [fst snd]; rewrite !z2_eq; lia.
Qed.
Lemma fine_lup e : (dir e = (1, 0) \/ dir e = (0, 1) \/ dir e = (1, 1) \/ dir e = (-1, -1))%Z -> box (m * N) (n * N) (fst e) -> box (m * N) (n * N) (snd e) ->
  lup (m * N) (n * N) e \/ (lup (m * N) (n * N) (lflip e) /\ dir e = (-1, -1)%Z).
Proof.
  intros D A B. destruct D as [D|[D|[D|D]]]; [left; unfold lup; tauto..|]. right. split; [|exact D]. unfold lup. split; [exact B|]. split; [exact A|].
  rewrite dir_flip, D. cbn. auto.
Qed.
Lemma LL_box x : In x LL' <-> box (m * N) (n * N) x.
Proof.
  unfold LL', LL. rewrite adds_in, in_flat_map. split.
  - intros [H|[T [HT Hx]]].
    + unfold L0 in H. apply in_map_iff in H as [y [<- Hy]]. apply (lm_box _ _ _ _ _ _ _ LM) in Hy. destruct y as [a b]. unfold box, scale in *. cbn [fst snd] in *. rewrite !Nat2Z.inj_mul. nia.
    + apply (nodes_box N HN m n T); [apply (lm_tin _ _ _ _ _ _ _ LM), HT|exact Hx].
  - intros Hx. right. destruct (box_corner (m * N) (n * N) x) as [S [HS Hc]]; [nia|nia|exact Hx|].
    destruct (subs_cover N HN m n S HS) as [T [HT HI]]. exists T. split; [apply (lm_tin _ _ _ _ _ _ _ LM), HT|].
    destruct (subs_corners N T S HI) as [A [B D]]. destruct Hc as [-> |[-> | ->]]; assumption.
Qed.
Lemma fine_lmesh mm : lmesh (GG N h cg C Ts mm) h (m * N) (n * N) LL' (flat_map (subs N) Ts) EE'.
Proof.
  split.
  - reflexivity.
  - reflexivity.
  - apply adds_NoDup. unfold L0. apply NoDup_map_inj_in; [apply (lm_nd _ _ _ _ _ _ _ LM)|]. intros a b _ _. apply scale_inj, HN.
  - apply LL_box.
  - reflexivity.
  - apply NoDup_flat_map; [apply (lm_tnd _ _ _ _ _ _ _ LM)|intros T HT; apply subs_NoDup, Ts_ok, HT|].
    intros T T' S HT HT' H H'. apply (sub_parent N T T' S); try assumption; apply Ts_ok; assumption.
  - intros S. rewrite in_flat_map. split.
    + intros [T [HT HS]]. apply (subs_in N HN m n T); [apply (lm_tin _ _ _ _ _ _ _ LM), HT|exact HS].
    + intros HS. destruct (subs_cover N HN m n S HS) as [T [HT HI]]. exists T. split; [apply (lm_tin _ _ _ _ _ _ _ LM), HT|exact HI].
  - reflexivity.
  - apply lunique_fold; [split; [constructor|intros e []]|]. intros e He. apply in_flat_map in He as [T [HT He]]. apply dir_ne, (oe_dirs T e HT He).
  - intros e He. apply EE_in in He as [T [HT He]]; try assumption. apply fine_lup; [apply (oe_dirs T e HT He)| |]; apply (nodes_box N HN m n T); try apply (lm_tin _ _ _ _ _ _ _ LM), HT;
      apply (oe_nodes N HN cg C T e He).
  - intros e He. destruct (lup_lside (m * N) (n * N) e) as [S [HS HE]]; [nia|nia|exact He|]. destruct (subs_cover N HN m n S HS) as [T [HT HI]].
    apply (lm_tin _ _ _ _ _ _ _ LM) in HT. destruct (side_oedges N HN T (hc cg C T) (vc cg C T) (dc cg C T) S e HI HE) as [e' [HI' Hs]].
    assert (K : In e' EE' \/ In (lflip e') EE') by (apply fold_addle_cover, in_flat_map; exists T; split; [exact HT|exact HI']).
    destruct e' as [a b]. destruct Hs as [-> | ->]; [exact K|]. cbn. tauto.
Qed.
End RM.
