(** Grid equality for triangulated lattice rectangles. *)
From Coq Require Import Reals Lra Lia Psatz Permutation.
From Verif.Model Require Import Py Num Tensors Domain Refine.
From Verif.Spec Require Import GridSpec EqSpec RefineSpec.
From Verif.Proofs Require Import Lib FindP EqP EqRect Lattice RefineP RefineTri RefineAll MeshLat MeshP RefineMesh RefineBd RefineOut.
Local Open Scope R_scope.

Lemma forall2_map {A B} (rel : B -> B -> Prop) (f g : A -> B) l : (forall x, In x l -> rel (f x) (g x)) -> Forall2 rel (map f l) (map g l).
Proof. induction l as [|a l IH]; intros H; cbn [map]; constructor; [apply H; left; reflexivity|apply IH; intros x Hx; apply H; right; exact Hx]. Qed.

Section One.
Context (g : grid R) (s : R) (m n : nat) (C : list Z2) (Ts : list ltri) (E : list ledge) (Hs : 0 < s) (LM : lmesh g s m n C Ts E).
Lemma planar_l : planar g.
Proof.
  intros v p Hp. rewrite (lm_p _ _ _ _ _ _ _ LM), nth_error_map in Hp. destruct (nth_error C v) as [x|]; [|discriminate]. injection Hp as <-. exists (lp s x). reflexivity.
Qed.
Lemma separated_l : 0 < tol (g_mean g) <= s -> separated g.
Proof.
  intros Ht. split; [apply planar_l|]. change (tolerance g) with (tol (g_mean g)). split; [lra|]. intros v w p q Hv P Q.
  apply (point_at_l g s m n C Ts E LM) in P as [x [Bx [-> ->]]]. apply (point_at_l g s m n C Ts E LM) in Q as [y [By [-> ->]]].
  assert (x <> y) by congruence. pose proof (lp_dist s x y Hs H). lra.
Qed.
Lemma idx_len x : box m n x -> (idx C x < length (g_points g))%nat.
Proof. intros H. rewrite (lm_p _ _ _ _ _ _ _ LM), map_length. apply idx_lt, (lm_box _ _ _ _ _ _ _ LM), H. Qed.
Lemma refers_l Vb Eb Vd Ed Vn En : lout C m n (g_boundary g) Vb Eb -> lout C m n (g_dirichlet g) Vd Ed -> lout C m n (g_neumann g) Vn En -> refers_to_points g.
Proof.
  intros Ob Od On.
  assert (K : forall b V E', lout C m n b V E' -> (forall v, In v (b_vertices b) -> (v < length (g_points g))%nat) /\ (forall e, In e (b_edges b) -> (fst e < length (g_points g))%nat /\ (snd e < length (g_points g))%nat)).
  { intros b V E' O. rewrite (lo_v _ _ _ _ _ _ O), (lo_e _ _ _ _ _ _ O). split.
    - intros v Hv. apply in_map_iff in Hv as [x [<- Hx]]. apply idx_len, (lo_vin _ _ _ _ _ _ O), Hx.
    - intros e He. apply in_map_iff in He as [x [<- Hx]]. apply (lo_on _ _ _ _ _ _ O) in Hx as [A [B _]]. split; apply idx_len; assumption. }
  split; [|split; [|split; [apply (K _ _ _ Ob)|split; [apply (K _ _ _ Od)|apply (K _ _ _ On)]]]].
  - rewrite (lm_e _ _ _ _ _ _ _ LM). intros e He. apply in_map_iff in He as [x [<- Hx]]. destruct (lm_boxes _ _ _ _ _ _ _ LM x Hx). split; apply idx_len; assumption.
  - rewrite (lm_t _ _ _ _ _ _ _ LM). intros a b c Ht. apply in_map_iff in Ht as [T [Q HT]]. injection Q as <- <- <-.
    apply (lm_tin _ _ _ _ _ _ _ LM), ltri_in_corners in HT as [A [B D]]. repeat split; apply idx_len; assumption.
Qed.
End One.

Section Two.
Context (s : R) (m n : nat) (Hs : 0 < s).
Context (g : grid R) (C : list Z2) (Ts : list ltri) (E : list ledge) (LM : lmesh g s m n C Ts E).
Context (g' : grid R) (C' : list Z2) (Ts' : list ltri) (E' : list ledge) (LM' : lmesh g' s m n C' Ts' E').
Definition fmap (v : nat) : nat := match nth_error C' v with Some x => idx C x | None => O end.
Lemma fmap_idx x : box m n x -> fmap (idx C' x) = idx C x.
Proof. intros H. unfold fmap. rewrite idx_nth by (apply (lm_box _ _ _ _ _ _ _ LM'), H). reflexivity. Qed.
Lemma perm_C : Permutation C C'.
Proof.
  apply NoDup_Permutation; [apply (lm_nd _ _ _ _ _ _ _ LM)|apply (lm_nd _ _ _ _ _ _ _ LM')|]. intros x. rewrite (lm_box _ _ _ _ _ _ _ LM), (lm_box _ _ _ _ _ _ _ LM'). tauto.
Qed.
Lemma same_len : length C = length C'. Proof. apply Permutation_length, perm_C. Qed.
Lemma fmap_edge e : box m n (fst e) -> box m n (snd e) -> edge_image fmap (eidx C' e) = eidx C e.
Proof. intros A B. unfold edge_image, eidx. cbn [fst snd]. rewrite !fmap_idx by assumption. reflexivity. Qed.
Lemma same_boundary_l b V Eb b' V' Eb' : lout C m n b V Eb -> lout C' m n b' V' Eb' -> (forall x, In x V <-> In x V') -> (forall e, In e Eb <-> In e Eb') -> same_boundary fmap b b'.
Proof.
  intros O O' HV HE. split.
  - rewrite (lo_v _ _ _ _ _ _ O), (lo_v _ _ _ _ _ _ O'), map_map.
    rewrite (map_ext_in _ (idx C)) by (intros x Hx; apply fmap_idx, (lo_vin _ _ _ _ _ _ O'), Hx). apply Permutation_map. apply NoDup_Permutation; [apply (lo_vnd _ _ _ _ _ _ O')|apply (lo_vnd _ _ _ _ _ _ O)|].
    intros x. symmetry. apply HV.
  - exists (map (eidx C) Eb'). split.
    + rewrite (lo_e _ _ _ _ _ _ O). apply Permutation_map, NoDup_Permutation; [apply (lo_end _ _ _ _ _ _ O')|apply (lo_end _ _ _ _ _ _ O)|]. intros x. symmetry. apply HE.
    + rewrite (lo_e _ _ _ _ _ _ O'), map_map. apply forall2_map. intros x Hx. apply (lo_on _ _ _ _ _ _ O') in Hx as [A [B _]]. rewrite fmap_edge by assumption. left. reflexivity.
Qed.
Definition norm (e : ledge) : ledge := if lmem e E then e else lflip e.
Lemma lflip2 e : lflip (lflip e) = e. Proof. destruct e; reflexivity. Qed.
Lemma lups (h : grid R) D Us F : lmesh h s m n D Us F -> forall e, In e F -> lup m n e \/ lup m n (lflip e).
Proof. intros L e He. destruct (lm_ein _ _ _ _ _ _ _ L e He) as [K|[K _]]; auto. Qed.
Lemma norm_in e : In e E' -> In (norm e) E.
Proof.
  intros He. unfold norm. destruct (lmem e E) eqn:M; [apply lmem_iff, M|].
  assert (N : ~ In e E) by (rewrite <- lmem_iff, M; discriminate).
  destruct (lups _ _ _ _ LM' e He) as [K|K]; apply (lm_eall _ _ _ _ _ _ _ LM) in K as [K|K]; rewrite ?lflip2 in K; tauto.
Qed.
Lemma norm_cases e : norm e = e \/ norm e = lflip e. Proof. unfold norm. destruct (lmem e E); auto. Qed.
Lemma norm_perm : Permutation (map norm E') E.
Proof.
  apply NoDup_Permutation.
  - apply NoDup_map_inj_in; [apply (lm_eu _ _ _ _ _ _ _ LM')|]. intros a b Ha Hb Q.
    destruct (norm_cases a) as [A|A], (norm_cases b) as [B|B]; rewrite A, B in Q; [exact Q| | |].
    + destruct (proj2 (lm_eu _ _ _ _ _ _ _ LM') b Hb). rewrite <- Q. exact Ha.
    + destruct (proj2 (lm_eu _ _ _ _ _ _ _ LM') a Ha). rewrite Q. exact Hb.
    + rewrite <- (lflip2 a), Q, lflip2. reflexivity.
  - apply (lm_eu _ _ _ _ _ _ _ LM).
  - intros e. rewrite in_map_iff. split; [intros [x [<- Hx]]; apply norm_in, Hx|]. intros He.
    assert (NF : ~ In (lflip e) E) by (apply (lm_eu _ _ _ _ _ _ _ LM), He).
    assert (ME : lmem e E = true) by (apply lmem_iff, He). assert (MF : lmem (lflip e) E = false) by (destruct (lmem (lflip e) E) eqn:Q; [apply lmem_iff in Q; tauto|reflexivity]).
    assert (K : In e E' \/ In (lflip e) E').
    { destruct (lups _ _ _ _ LM e He) as [K|K]; apply (lm_eall _ _ _ _ _ _ _ LM') in K as [K|K]; rewrite ?lflip2 in K; tauto. }
    destruct K as [K|K]; [exists e|exists (lflip e)]; unfold norm; [rewrite ME|rewrite MF, lflip2]; auto.
Qed.
Lemma renumbering_l Vb Eb Vd Ed Vn En Vb' Eb' Vd' Ed' Vn' En' :
  lout C m n (g_boundary g) Vb Eb -> lout C m n (g_dirichlet g) Vd Ed -> lout C m n (g_neumann g) Vn En ->
  lout C' m n (g_boundary g') Vb' Eb' -> lout C' m n (g_dirichlet g') Vd' Ed' -> lout C' m n (g_neumann g') Vn' En' ->
  (forall x, In x Vb <-> In x Vb') -> (forall e, In e Eb <-> In e Eb') ->
  (forall x, In x Vd <-> In x Vd') -> (forall e, In e Ed <-> In e Ed') ->
  (forall x, In x Vn <-> In x Vn') -> (forall e, In e En <-> In e En') -> renumbering fmap g g'.
Proof.
  intros Ob Od On Ob' Od' On' A1 A2 A3 A4 A5 A6. split; [rewrite (lm_v _ _ _ _ _ _ _ LM), (lm_v _ _ _ _ _ _ _ LM'), same_len; apply Permutation_refl|].
  split; [rewrite (lm_p _ _ _ _ _ _ _ LM), (lm_p _ _ _ _ _ _ _ LM'), !map_length; apply same_len|].
  split.
  { rewrite (lm_p _ _ _ _ _ _ _ LM), (lm_p _ _ _ _ _ _ _ LM'), !map_length. intros v Hv. destruct (nth_error C' v) as [x|] eqn:Ev; [|apply nth_error_None in Ev; lia].
    assert (Hx : In x C) by (apply (lm_box _ _ _ _ _ _ _ LM), (lm_box _ _ _ _ _ _ _ LM'), (nth_error_In _ _ Ev)).
    unfold fmap. rewrite Ev. split; [apply idx_lt, Hx|]. rewrite !nth_error_map, Ev, idx_nth by exact Hx. reflexivity. }
  split.
  { exists (map (eidx C) (map norm E')). split; [rewrite (lm_e _ _ _ _ _ _ _ LM); apply Permutation_map, norm_perm|].
    rewrite (lm_e _ _ _ _ _ _ _ LM'), !map_map. apply forall2_map. intros e He. destruct (lm_boxes _ _ _ _ _ _ _ LM' e He). rewrite fmap_edge by assumption.
    destruct (norm_cases e) as [-> | ->]; [left|right]; destruct e; reflexivity. }
  split.
  { exists (map (tidx C) Ts'). split.
    - rewrite (lm_t _ _ _ _ _ _ _ LM). apply Permutation_map, NoDup_Permutation; [apply (lm_tnd _ _ _ _ _ _ _ LM')|apply (lm_tnd _ _ _ _ _ _ _ LM)|]. intros T. rewrite (lm_tin _ _ _ _ _ _ _ LM), (lm_tin _ _ _ _ _ _ _ LM'). tauto.
    - rewrite (lm_t _ _ _ _ _ _ _ LM'), map_map. apply forall2_map. intros T HT. apply (lm_tin _ _ _ _ _ _ _ LM'), ltri_in_corners in HT as [A [B D]].
      unfold tidx, triangle_image. rewrite !fmap_idx by assumption. left. reflexivity. }
  split; [apply (same_boundary_l _ _ _ _ _ _ Ob Ob' A1 A2)|]. split; [apply (same_boundary_l _ _ _ _ _ _ Od Od' A3 A4)|apply (same_boundary_l _ _ _ _ _ _ On On' A5 A6)].
Qed.
(** Conversely, equal grids have the same Neumann points. *)
Lemma equal_neumann Vn En Vn' En' : lout C m n (g_neumann g) Vn En -> lout C' m n (g_neumann g') Vn' En' -> 0 < tol (g_mean g) <= s ->
  Grid_eqb g g' = Ok true -> forall x, In x Vn <-> In x Vn'.
Proof.
  intros O O' Ht Q. apply equal_sound in Q as [f [_ [_ [HP [_ [_ [_ [_ [_ [_ [PV _]]]]]]]]]]]; [|apply (planar_l _ _ _ _ _ _ _ LM)|apply (planar_l _ _ _ _ _ _ _ LM')].
  assert (F : forall x, box m n x -> f (idx C' x) = idx C x).
  { intros x Bx. destruct (HP (idx C' x) (lp s x)) as [p [P D]]; [apply (point_at_l g' s m n C' Ts' E' LM'); eauto|].
    apply (point_at_l g s m n C Ts E LM) in P as [y [By [-> ->]]]. destruct (z2eqb_spec x y) as [-> |Hne]; [reflexivity|].
    pose proof (lp_dist s x y Hs Hne). change (tolerance g) with (tol (g_mean g)) in D. lra. }
  rewrite (lo_v _ _ _ _ _ _ O), (lo_v _ _ _ _ _ _ O'), map_map, (map_ext_in _ (idx C)) in PV by (intros x Hx; apply F, (lo_vin _ _ _ _ _ _ O'), Hx).
  intros x. split; intros Hx.
  - apply (in_map (idx C)) in Hx as Hi. apply (Permutation_in _ (Permutation_sym PV)) in Hi. apply in_map_iff in Hi as [y [Q Hy]].
    apply idx_inj in Q; [subst; exact Hy| |]; apply (lm_box _ _ _ _ _ _ _ LM); [apply (lo_vin _ _ _ _ _ _ O'), Hy|apply (lo_vin _ _ _ _ _ _ O), Hx].
  - apply (in_map (idx C)) in Hx as Hi. apply (Permutation_in _ PV) in Hi. apply in_map_iff in Hi as [y [Q Hy]].
    apply idx_inj in Q; [subst; exact Hy| |]; apply (lm_box _ _ _ _ _ _ _ LM); [apply (lo_vin _ _ _ _ _ _ O), Hy|apply (lo_vin _ _ _ _ _ _ O'), Hx].
Qed.
End Two.
