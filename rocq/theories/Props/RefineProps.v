(** * C27-C33, C72: refinement of grids and the coarse coordinates of a refined grid.
    Vocabulary: Spec/GridSpec.v, Spec/EqSpec.v, Spec/RefineSpec.v. *)
From Coq Require Import Reals Lra Lia String Psatz Permutation.
From Verif.Model Require Import Py Num Tensors Domain Refine.
From Verif.Spec Require Import GridSpec EqSpec RefineSpec.
From Verif.Proofs Require Import Lib GridP GridCover EqP EqRect StdOrder Lattice RefineP RefineTri RefineAll MeshLat MeshP RefineMesh RefineBd RefineOut RefineSetup EqMesh RefineEdge RectMesh RefineRect.
From Verif.Props Require Import GridProps LocateProps.
Local Open Scope R_scope.

(** ** C27 *)
(** Every rectangle grid with at least one cell is a triangulated lattice rectangle with boundaries on its outline. *)
Theorem C27_rectangle_grid_is_mesh : forall so w h f s m n g, 0 < s -> fits w s m -> fits h s n -> domain_grid so w h f s = Ok g ->
  (1 <= m)%nat -> (1 <= n)%nat -> mesh g s m n /\ boundaries_outline g s m n.
Proof. intros so w h f s m n g Hs Hm Hn H H1 H2. split; [apply (rect_mesh so w h f)|apply (rect_outlines so w h f)]; assumption. Qed.
Print Assumptions C27_rectangle_grid_is_mesh.
(** Refining a triangulated lattice rectangle gives the triangulated lattice rectangle of the finer width; old points keep their numbers. *)
Theorem C27_refinement_is_fine_mesh : forall g s m n N, 0 < s -> (1 <= m)%nat -> (1 <= n)%nat -> (1 <= N)%nat -> / 10 ^ 15 <= s / INR N -> mesh g s m n ->
  exists r, refine g (Z.of_nat N) = Ok r /\ r_coarse r = g /\ mesh (r_grid r) (s / INR N) (m * N) (n * N) /\
    (exists new, g_points (r_grid r) = g_points g ++ new) /\
    (boundaries_outline g s m n -> boundaries_outline (r_grid r) (s / INR N) (m * N) (n * N)).
Proof.
  intros g s m n N Hs Hm Hn HN He M. destruct (setup_exists g s m n N Hs Hm Hn HN He M) as [Hh [Q [r [C [Ts [E [R SU]]]]]]].
  assert (m * N >= 1)%nat by nia. assert (n * N >= 1)%nat by nia. pose proof (su_f _ _ _ _ _ _ _ _ _ SU) as FM. pose proof (su_lm _ _ _ _ _ _ _ _ _ SU) as LM.
  exists r. split; [exact R|]. split; [apply (su_c _ _ _ _ _ _ _ _ _ SU)|]. split; [apply (mesh_of_lmesh _ _ _ _ _ _ _ Hh FM); lia|].
  split; [apply (su_points g N (s / INR N) m n r C Ts E SU)|]. destruct (su_g _ _ _ _ _ _ _ _ _ SU) as [mm [G Hmm]].
  assert (K : forall bd, outline g s m n bd -> outline (r_grid r) (s / INR N) (m * N) (n * N) (BB N g C (LL N C Ts) bd Ts)).
  { intros bd O. assert (HsN : 0 < INR N * (s / INR N)) by (rewrite Q; exact Hs). replace s with (INR N * (s / INR N)) in O by exact Q. destruct (lout_of_outline _ _ _ _ _ _ _ HsN LM _ O) as [Vb [Eb L]].
    apply (outline_of_lout _ _ _ _ _ _ _ Hh FM _ _ _ (fine_lout N (s / INR N) HN g m n Hm Hn C Ts E LM bd Vb Eb L)). }
  intros [O1 [O2 O3]]. unfold boundaries_outline. rewrite G in *. cbn [GG g_boundary g_dirichlet g_neumann]. split; [apply (K _ O1)|]. split; [apply (K _ O2)|apply (K _ O3)].
Qed.
Print Assumptions C27_refinement_is_fine_mesh.
(** Chains of refinements. *)
Fixpoint refine_chain (g : grid R) (Ns : list nat) : res (grid R) :=
  match Ns with [] => Ok g | N :: rest => let* r := refine g (Z.of_nat N) in refine_chain (r_grid r) rest end.
Definition product (Ns : list nat) : nat := fold_right Nat.mul 1%nat Ns.
Theorem C27_chains : forall Ns g s m n, 0 < s -> (1 <= m)%nat -> (1 <= n)%nat -> (forall N, In N Ns -> (1 <= N)%nat) ->
  / 10 ^ 15 <= s / INR (product Ns) -> mesh g s m n -> boundaries_outline g s m n ->
  exists g', refine_chain g Ns = Ok g' /\ mesh g' (s / INR (product Ns)) (m * product Ns) (n * product Ns) /\
    boundaries_outline g' (s / INR (product Ns)) (m * product Ns) (n * product Ns).
Proof.
  induction Ns as [|N Ns IH]; intros g s m n Hs Hm Hn HN He M O.
  - exists g. split; [reflexivity|]. cbn [product fold_right]. simpl INR. rewrite !Nat.mul_1_r. replace (s / 1) with s by field. auto.
  - assert (PP : (1 <= product Ns)%nat). { clear -HN. assert (forall N, In N Ns -> (1 <= N)%nat) by (intros M HM; apply HN; right; exact HM). clear HN. induction Ns as [|a l IH]; cbn [product fold_right]; [lia|]. pose proof (H a (or_introl eq_refl)). assert (1 <= product l)%nat by (apply IH; intros N' HN'; apply H; right; exact HN'). unfold product in *. nia. }
    assert (H1 : (1 <= N)%nat) by (apply HN; left; reflexivity).
    assert (R1 : 1 <= INR N) by (apply (le_INR 1); exact H1). assert (R2 : 1 <= INR (product Ns)) by (apply (le_INR 1); exact PP).
    change (product (N :: Ns)) with (N * product Ns)%nat in *. rewrite mult_INR in *.
    assert (Q : s / (INR N * INR (product Ns)) = s / INR N / INR (product Ns)) by (field; split; lra). rewrite Q in *.
    assert (H0 : 0 < s / INR N) by (apply Rdiv_lt_0_compat; lra).
    assert (E1 : / 10 ^ 15 <= s / INR N).
    { apply (Rle_trans _ _ _ He). unfold Rdiv at 1. rewrite <- (Rmult_1_r (s / INR N)) at 2. apply Rmult_le_compat_l; [lra|]. rewrite <- Rinv_1. apply Rinv_le_contravar; lra. }
    destruct (C27_refinement_is_fine_mesh g s m n N Hs Hm Hn H1 E1 M) as [r [R [_ [M' [_ O']]]]].
    destruct (IH (r_grid r) (s / INR N) (m * N)%nat (n * N)%nat) as [g' [R' [M'' O'']]]; try assumption; try nia.
    { intros N' HN'. apply HN. right. exact HN'. }
    { apply O', O. }
    exists g'. cbn [refine_chain]. rewrite R. cbn [bind]. rewrite <- !Nat.mul_assoc in *. auto.
Qed.
Print Assumptions C27_chains.
(** Every coarse triangle has exactly [N * N] fine triangles. *)
Theorem C27_subtriangle_count : forall g s m n N r T, 0 < s -> (1 <= m)%nat -> (1 <= n)%nat -> (1 <= N)%nat -> / 10 ^ 15 <= s / INR N -> mesh g s m n ->
  refine g (Z.of_nat N) = Ok r -> In T (g_triangles g) ->
  how_many (g_triangles (r_grid r)) (fun t => exists b b', to_coarse_barycentric_point r (t, b) = Ok (T, b')) (N * N).
Proof.
  intros g s m n N r T Hs Hm Hn HN He M R HT. destruct (setup_of g s m n N r Hs Hm Hn HN He M R) as [Hh [Q [C [Ts [E SU]]]]].
  pose proof (su_f _ _ _ _ _ _ _ _ _ SU) as FM. pose proof (su_lm _ _ _ _ _ _ _ _ _ SU) as LM.
  rewrite (lm_t _ _ _ _ _ _ _ LM) in HT. apply in_map_iff in HT as [T0 [<- HT]].
  set (F := fun t => match dfind triangle_eqb t (r_coarse_triangle r) with Some c => triangle_eqb c (tidx C T0) | None => false end).
  assert (KF : forall T1 X, In T1 Ts -> In X (subs N T1) -> (F (tidx (LL N C Ts) X) = true <-> T1 = T0)).
  { intros T1 X HT1 HX. destruct (subs_subq N T1 X HX) as [q Hq]. destruct (tri_lookup g N _ m n r C Ts E SU T1 X q HT1 Hq) as [D _]. unfold dget in D. unfold F.
    destruct (dfind triangle_eqb (tidx (LL N C Ts) X) (r_coarse_triangle r)) as [c|]; [|discriminate]. injection D as ->. rewrite triangle_eqb_iff. split; [|intros ->; reflexivity].
    apply tidx_inj; [apply (lm_tins _ _ _ _ _ _ _ LM), HT1|apply (lm_tins _ _ _ _ _ _ _ LM), HT]. }
  exists F. split.
  - intros t Ht. apply (fine_cases g N _ m n r C Ts E SU) in Ht as [T1 [X [HT1 [HX ->]]]]. rewrite (KF T1 X HT1 HX). destruct (subs_subq N T1 X HX) as [[[q1 q2] q3] Hq]. split.
    + intros ->. exists (Bary 0 0). eexists. rewrite (to_coarse_ok g N _ m n r C Ts E SU T0 X _ _ HT1 Hq). reflexivity.
    + intros [b [b' K]]. rewrite (to_coarse_ok g N _ m n r C Ts E SU T1 X _ _ HT1 Hq) in K. injection K as K1 K2 K3 _. 
      apply (tidx_inj C); [apply (lm_tins _ _ _ _ _ _ _ LM), HT1|apply (lm_tins _ _ _ _ _ _ _ LM), HT|]. unfold tidx. congruence.
  - rewrite <- (subs_length N m n HN Hm Hn T0), <- (map_length (tidx (LL N C Ts)) (subs N T0)). apply Permutation_length, NoDup_Permutation.
    + apply NoDup_filter. rewrite (lm_t _ _ _ _ _ _ _ FM). apply NoDup_map_inj_in; [apply (lm_tnd _ _ _ _ _ _ _ FM)|]. intros a b Ha Hb. apply tidx_inj; apply (lm_tins _ _ _ _ _ _ _ FM); assumption.
    + apply NoDup_map_inj_in; [apply subs_NoDup, (lm_or _ _ _ _ _ _ _ LM), HT|]. intros a b Ha Hb. apply tidx_inj; apply (sub_tin N C Ts T0); assumption.
    + intros t. rewrite filter_In, in_map_iff. split.
      * intros [Ht HF]. apply (fine_cases g N _ m n r C Ts E SU) in Ht as [T1 [X [HT1 [HX ->]]]]. apply (KF T1 X HT1 HX) in HF. subst T1. eauto.
      * intros [X [<- HX]]. split; [apply (fine_cases g N _ m n r C Ts E SU); eauto|apply (KF T0 X HT HX); reflexivity].
Qed.
Print Assumptions C27_subtriangle_count.
(** A concrete case: a 2 x 1 cell grid refined by 3. *)
Example C27_example : exists g r, domain_grid std_order (12/10) (9/10) (FixOne "left") (1/2) = Ok g /\ mesh g (1/2) 2 1 /\ boundaries_outline g (1/2) 2 1 /\ / 10 ^ 15 <= 1/2 / INR 3 /\
  refine g 3 = Ok r /\ mesh (r_grid r) (1/2 / INR 3) 6 3.
Proof.
  destruct (C11_grid_succeeds std_order (12/10) (9/10) (FixOne "left") (1/2)) as [m' [n' [g [Hm' [Hn' Hg]]]]]; try lra.
  destruct (C27_rectangle_grid_is_mesh _ _ _ _ _ _ _ _ ex_pos ex_fits_w ex_fits_h Hg) as [M O]; try lia.
  assert (He : / 10 ^ 15 <= 1/2 / INR 3) by (simpl; lra). destruct (C27_refinement_is_fine_mesh g (1/2) 2 1 3 ex_pos) as [r [R [_ [M' _]]]]; try lia; try assumption.
  exists g, r. auto 8.
Qed.

(** ** C28 *)
Lemma mean_tol (g : grid R) mm h : g_mean g = mm -> mok h mm -> 0 < h -> / 10 ^ 15 <= h -> 0 < tol (g_mean g) <= h.
Proof. intros -> Hm Hh He. apply mok_tol; assumption. Qed.
Lemma rect_tol so w h f s m n g : 0 < s -> / 10 ^ 15 <= s -> fits w s m -> fits h s n -> domain_grid so w h f s = Ok g -> 0 < tol (g_mean g) <= s.
Proof.
  intros Hs He Hm Hn H. pose proof (grid_spec _ _ _ _ _ _ _ _ Hs Hm Hn H) as G. pose proof (rs_m _ _ _ _ _ _ G) as K. apply mok_tol; [exact Hs|exact He|].
  unfold mean_ok in K. unfold mok. destruct (g_mean g) as [a|]; [|exact I]. destruct K as [_ [K1 K2]]. assert (sqrt 2 <= 2) by (rewrite <- (sqrt_square 2) at 2 by lra; apply sqrt_le_1; lra). nra.
Qed.
(** What the refinement of a rectangle grid and the rectangle grid of the finer width look like side by side. *)
Lemma side_by_side so so' w h f s m n N g g' r : 0 < s -> (1 <= m)%nat -> (1 <= n)%nat -> (1 <= N)%nat -> / 10 ^ 15 <= s / INR N ->
  fits w s m -> fits h s n -> fits w (s / INR N) (m * N) -> fits h (s / INR N) (n * N) ->
  domain_grid so w h f s = Ok g -> domain_grid so' w h f (s / INR N) = Ok g' -> refine g (Z.of_nat N) = Ok r ->
  0 < s / INR N /\ 0 < tol (g_mean (r_grid r)) <= s / INR N /\ 0 < tol (g_mean g') <= s / INR N /\
  exists C Ts E C' Ts' E', lmesh (r_grid r) (s / INR N) (m * N) (n * N) C Ts E /\ lmesh g' (s / INR N) (m * N) (n * N) C' Ts' E' /\
  exists Vb Eb Vd Ed Vn En Vb' Eb' Vd' Ed' Vn' En',
    lout C (m * N) (n * N) (g_boundary (r_grid r)) Vb Eb /\ lout C (m * N) (n * N) (g_dirichlet (r_grid r)) Vd Ed /\ lout C (m * N) (n * N) (g_neumann (r_grid r)) Vn En /\
    lout C' (m * N) (n * N) (g_boundary g') Vb' Eb' /\ lout C' (m * N) (n * N) (g_dirichlet g') Vd' Ed' /\ lout C' (m * N) (n * N) (g_neumann g') Vn' En' /\
    (forall x, In x Vb <-> In x Vb') /\ (forall e, In e Eb <-> In e Eb') /\ (forall x, In x Vd <-> In x Vd') /\ (forall e, In e Ed <-> In e Ed') /\ (forall e, In e En <-> In e En') /\
    (forall x, In x Vn -> (exists y, x = scale N y) \/ (exists e i, (exists d, lon m n d e) /\ ~ (exists d, fixed_side f d /\ lon m n d e) /\ (0 < i < N)%nat /\ x = subv N e i)) /\
    ((forall d, ~ fixed_side f d) -> forall x, In x Vn <-> In x Vn') /\
    (forall x, In x Vn' <-> (exists d, lonv (m * N) (n * N) d x) /\ forall d d', fixed_side f d -> fixed_side f d' -> lonv (m * N) (n * N) d x -> lonv (m * N) (n * N) d' x -> d = d').
Proof.
  intros Hs Hm Hn HN He F1 F2 F3 F4 Hg Hg' R.
  pose proof (rect_mesh so w h f s m n g Hs F1 F2 Hg Hm Hn) as M. destruct (setup_of g s m n N r Hs Hm Hn HN He M R) as [Hh [Q [C [Ts [E SU]]]]].
  pose proof (su_f _ _ _ _ _ _ _ _ _ SU) as FM. pose proof (su_lm _ _ _ _ _ _ _ _ _ SU) as LM. destruct (su_g _ _ _ _ _ _ _ _ _ SU) as [mm [G Hmm]].
  assert (m * N >= 1)%nat by nia. assert (n * N >= 1)%nat by nia.
  assert (HmN : (1 <= m * N)%nat) by lia. assert (HnN : (1 <= n * N)%nat) by lia.
  pose proof (rect_mesh so' w h f _ _ _ g' Hh F3 F4 Hg' HmN HnN) as M'. destruct (lmesh_of_mesh g' _ _ _ Hh HmN HnN M') as [C' [Ts' [E' LM']]].
  split; [exact Hh|]. split; [rewrite G; apply mok_tol; assumption|]. split; [apply (rect_tol so' w h f _ _ _ _ Hh He F3 F4 Hg')|].
  exists (LL N C Ts), (flat_map (subs N) Ts), (EE N g C Ts), C', Ts', E'. split; [exact FM|]. split; [exact LM'|].
  rewrite Q in LM. destruct (rect_louts so w h f s m n g Hs F1 F2 Hg Hm Hn C Ts E LM) as [Vb [Eb [Vd [Ed [Vn [En [L1 [L2 [L3 [K1 [K2 [K3 [K4 [K5 K6]]]]]]]]]]]]]].
  rewrite <- Q in LM. destruct (rect_louts so' w h f _ _ _ g' Hh F3 F4 Hg' HmN HnN C' Ts' E' LM') as [Vb' [Eb' [Vd' [Ed' [Vn' [En' [L1' [L2' [L3' [K1' [K2' [K3' [K4' [K5' K6']]]]]]]]]]]]]].
  exists (Vf N g C Ts (g_boundary g) Vb), (Ef N g C Ts (g_boundary g)), (Vf N g C Ts (g_dirichlet g) Vd), (Ef N g C Ts (g_dirichlet g)), (Vf N g C Ts (g_neumann g) Vn), (Ef N g C Ts (g_neumann g)).
  exists Vb', Eb', Vd', Ed', Vn', En'.
  rewrite G. cbn [GG g_boundary g_dirichlet g_neumann].
  split; [apply (fine_lout N _ HN g m n Hm Hn C Ts E LM _ _ _ L1)|]. split; [apply (fine_lout N _ HN g m n Hm Hn C Ts E LM _ _ _ L2)|]. split; [apply (fine_lout N _ HN g m n Hm Hn C Ts E LM _ _ _ L3)|].
  split; [exact L1'|]. split; [exact L2'|]. split; [exact L3'|].
  pose proof (in_Vf N _ HN g m n Hm Hn C Ts E LM _ _ _ L1) as V1. pose proof (in_Ef N _ HN g m n Hm Hn C Ts E LM _ _ _ L1) as E1.
  pose proof (in_Vf N _ HN g m n Hm Hn C Ts E LM _ _ _ L2) as V2. pose proof (in_Ef N _ HN g m n Hm Hn C Ts E LM _ _ _ L2) as E2.
  pose proof (in_Vf N _ HN g m n Hm Hn C Ts E LM _ _ _ L3) as V3. pose proof (in_Ef N _ HN g m n Hm Hn C Ts E LM _ _ _ L3) as E3.
  assert (VB : forall x, In x (Vf N g C Ts (g_boundary g) Vb) <-> In x Vb').
  { intros x. rewrite V1, K1'. setoid_rewrite onv_fine_iff; [|exact HN]. setoid_rewrite K1. setoid_rewrite K2. split.
    - intros [[y [[d Hd] ->]]|[e [i [[d Hd] [Hi ->]]]]]; exists d; [left|right]; eauto 6.
    - intros [d [[y [Hd ->]]|[e [i [Hd [Hi ->]]]]]]; [left|right]; eauto 8. }
  split; [exact VB|].
  assert (EB : forall e, In e (Ef N g C Ts (g_boundary g)) <-> In e Eb').
  { intros x. rewrite E1, K2'. setoid_rewrite on_fine; [|exact HN]. setoid_rewrite K2. split.
    - intros [e [i [[d Hd] [Hi ->]]]]; exists d; eauto 6.
    - intros [d [e [i [Hd [Hi ->]]]]]; eauto 8. }
  split; [exact EB|].
  split.
  { intros x. rewrite V2, K3'. setoid_rewrite onv_fine_iff; [|exact HN]. setoid_rewrite K3. setoid_rewrite K4. split.
    - intros [[y [[d [Fd Hd]] ->]]|[e [i [[d [Fd Hd]] [Hi ->]]]]]; exists d; (split; [exact Fd|]); [left|right]; eauto 6.
    - intros [d [Fd [[y [Hd ->]]|[e [i [Hd [Hi ->]]]]]]]; [left|right]; eauto 10. }
  split.
  { intros x. rewrite E2, K4'. setoid_rewrite on_fine; [|exact HN]. setoid_rewrite K4. split.
    - intros [e [i [[d [Fd Hd]] [Hi ->]]]]; exists d; eauto 8.
    - intros [d [Fd [e [i [Hd [Hi ->]]]]]]; eauto 10. }
  assert (NE : forall e, In e (Ef N g C Ts (g_neumann g)) <-> In e En').
  { intros x. rewrite E3, K6'. setoid_rewrite K6. split.
    - intros [e [i [[[d Hd] Fd] [Hi ->]]]]. split; [exists d; apply sube_lon; assumption|]. intros [d' [Fd' Hd']]. apply Fd. apply (on_fine N HN) in Hd' as [e' [i' [He' [Hi' Q']]]].
      apply (sube_inj_d N HN) in Q' as [<- _]; [eauto|left; apply (lon_fdir m n d), Hd|assumption|assumption].
    - intros [[d Hd] Fd]. apply (on_fine N HN) in Hd as [e [i [Hd [Hi ->]]]]. exists e, i. split; [|auto]. split; [eauto|]. intros [d' [Fd' Hd']]. apply Fd. exists d'. split; [exact Fd'|]. apply sube_lon; assumption. }
  split; [exact NE|].
  split; [|split; [|exact K5']].
  - intros x Hx. apply V3 in Hx as [[y [_ ->]]|[e [i [Hin [Hi ->]]]]]; [left; eauto|right]. apply K6 in Hin as [A B]. exists e, i. auto.
  - intros NF x. rewrite V3, K5'. setoid_rewrite K5. setoid_rewrite K6. split.
    + intros [[y [[[d Hd] _] ->]]|[e [i [[[d Hd] _] [Hi ->]]]]]; (split; [exists d; apply onv_fine_iff; [exact HN|]; eauto 8|intros d1 d2 X1; destruct (NF d1 X1)]).
    + intros [[d Hd] _]. apply (onv_fine_iff N HN) in Hd as [[y [Hd ->]]|[e [i [Hd [Hi ->]]]]]; [left; exists y|right; exists e, i].
      * split; [|reflexivity]. split; [eauto|]. intros d1 d2 X1. destruct (NF d1 X1).
      * split; [|auto]. split; [eauto|]. intros [d1 [X1 _]]. destruct (NF d1 X1).
Qed.
(** If no side is fixed, both are equal, whichever is asked. *)
Theorem C28_equal_without_fixed_sides_partial : forall so so' w h f s m n N g g' r, 0 < s -> (1 <= m)%nat -> (1 <= n)%nat -> (1 <= N)%nat -> / 10 ^ 15 <= s / INR N ->
  fits w s m -> fits h s n -> fits w (s / INR N) (m * N) -> fits h (s / INR N) (n * N) -> (forall d, ~ fixed_side f d) ->
  domain_grid so w h f s = Ok g -> domain_grid so' w h f (s / INR N) = Ok g' -> refine g (Z.of_nat N) = Ok r ->
  Grid_eqb (r_grid r) g' = Ok true /\ Grid_eqb g' (r_grid r) = Ok true.
Proof.
  intros so so' w h f s m n N g g' r Hs Hm Hn HN He F1 F2 F3 F4 NF Hg Hg' R.
  destruct (side_by_side so so' w h f s m n N g g' r Hs Hm Hn HN He F1 F2 F3 F4 Hg Hg' R) as [Hh [T1 [T2 [C [Ts [E [C' [Ts' [E' [LM [LM' K]]]]]]]]]]].
  destruct K as [Vb [Eb [Vd [Ed [Vn [En [Vb' [Eb' [Vd' [Ed' [Vn' [En' [L1 [L2 [L3 [L4 [L5 [L6 [A1 [A2 [A3 [A4 [A5 [_ [A6 _]]]]]]]]]]]]]]]]]]]]]]]]].
  specialize (A6 NF). split.
  - apply (renumbering_equal (fmap C C')); [apply (separated_l _ _ _ _ _ _ _ Hh LM T1)|apply (refers_l _ _ _ _ _ _ _ LM' _ _ _ _ _ _ L4 L5 L6)|].
    apply (renumbering_l _ _ _ _ _ _ _ LM _ _ _ _ LM' _ _ _ _ _ _ _ _ _ _ _ _ L1 L2 L3 L4 L5 L6); assumption.
  - apply (renumbering_equal (fmap C' C)); [apply (separated_l _ _ _ _ _ _ _ Hh LM' T2)|apply (refers_l _ _ _ _ _ _ _ LM _ _ _ _ _ _ L1 L2 L3)|].
    apply (renumbering_l _ _ _ _ _ _ _ LM' _ _ _ _ LM _ _ _ _ _ _ _ _ _ _ _ _ L4 L5 L6 L1 L2 L3); intros x; symmetry; auto.
Qed.
Print Assumptions C28_equal_without_fixed_sides_partial.
(** With any fixed sides: everything except the list of Neumann vertices coincides up to numbering. *)
Theorem C28_all_but_neumann_vertices_partial : forall so so' w h f s m n N g g' r, 0 < s -> (1 <= m)%nat -> (1 <= n)%nat -> (1 <= N)%nat -> / 10 ^ 15 <= s / INR N ->
  fits w s m -> fits h s n -> fits w (s / INR N) (m * N) -> fits h (s / INR N) (n * N) ->
  domain_grid so w h f s = Ok g -> domain_grid so' w h f (s / INR N) = Ok g' -> refine g (Z.of_nat N) = Ok r ->
  let same_neumann_edges b := mkBoundary [] (b_edges b) in
  let forget x := mkGrid (g_vertices x) (g_edges x) (g_triangles x) (g_boundary x) (g_dirichlet x) (same_neumann_edges (g_neumann x)) (g_points x) (g_mean x) in
  exists phi, renumbering phi (forget (r_grid r)) (forget g').
Proof.
  intros so so' w h f s m n N g g' r Hs Hm Hn HN He F1 F2 F3 F4 Hg Hg' R sn forget.
  destruct (side_by_side so so' w h f s m n N g g' r Hs Hm Hn HN He F1 F2 F3 F4 Hg Hg' R) as [Hh [T1 [T2 [C [Ts [E [C' [Ts' [E' [LM [LM' K]]]]]]]]]]].
  destruct K as [Vb [Eb [Vd [Ed [Vn [En [Vb' [Eb' [Vd' [Ed' [Vn' [En' [L1 [L2 [L3 [L4 [L5 [L6 [A1 [A2 [A3 [A4 [A5 _]]]]]]]]]]]]]]]]]]]]]]].
  exists (fmap C C').
  assert (FL : forall x C0 T0 E0, lmesh x (s / INR N) (m * N) (n * N) C0 T0 E0 -> lmesh (forget x) (s / INR N) (m * N) (n * N) C0 T0 E0) by (intros x C0 T0 E0 X; destruct X; split; assumption).
  assert (FO : forall b C0 V0 E0, lout C0 (m * N) (n * N) b V0 E0 -> lout C0 (m * N) (n * N) (sn b) [] E0) by (intros b C0 V0 E0 X; destruct X; split; try assumption; [reflexivity|constructor|intros y []]).
  apply (renumbering_l _ _ _ _ _ _ _ (FL _ _ _ _ LM) _ _ _ _ (FL _ _ _ _ LM') _ _ _ _ _ _ _ _ _ _ _ _ L1 L2 (FO _ _ _ _ L3) L4 L5 (FO _ _ _ _ L6)); try assumption. tauto.
Qed.
Print Assumptions C28_all_but_neumann_vertices_partial.
(** With a fixed side and a factor of at least two they are never equal: the refinement lacks the new Neumann vertices on the fixed side
    which the rectangle grid has. *)
Theorem C28_fixed_side_refuted : forall so so' w h f s m n N g g' r d, 0 < s -> (1 <= m)%nat -> (1 <= n)%nat -> (2 <= N)%nat -> / 10 ^ 15 <= s / INR N ->
  fits w s m -> fits h s n -> fits w (s / INR N) (m * N) -> fits h (s / INR N) (n * N) -> fixed_side f d ->
  domain_grid so w h f s = Ok g -> domain_grid so' w h f (s / INR N) = Ok g' -> refine g (Z.of_nat N) = Ok r ->
  Grid_eqb (r_grid r) g' <> Ok true /\ Grid_eqb g' (r_grid r) <> Ok true.
Proof.
  intros so so' w h f s m n N g g' r d Hs Hm Hn HN He F1 F2 F3 F4 Fd Hg Hg' R. assert (HN1 : (1 <= N)%nat) by lia.
  destruct (side_by_side so so' w h f s m n N g g' r Hs Hm Hn HN1 He F1 F2 F3 F4 Hg Hg' R) as [Hh [T1 [T2 [C [Ts [E [C' [Ts' [E' [LM [LM' K]]]]]]]]]]].
  destruct K as [Vb [Eb [Vd [Ed [Vn [En [Vb' [Eb' [Vd' [Ed' [Vn' [En' [L1 [L2 [L3 [L4 [L5 [L6 [A1 [A2 [A3 [A4 [A5 [A6 [_ A8]]]]]]]]]]]]]]]]]]]]]]]]].
  set (x0 := match d with Lower => (1, 0) | Upper => (1, Z.of_nat (n * N)) | Left => (0, 1) | Right => (Z.of_nat (m * N), 1) end%Z : Z2).
  assert (B1 : (2 <= m * N)%nat) by nia. assert (B2 : (2 <= n * N)%nat) by nia.
  assert (I1 : In x0 Vn').
  { apply A8. split.
    - exists d. unfold lonv, box, x0. destruct d; cbn [fst snd]; lia.
    - intros d1 d2 _ _. unfold lonv, box, x0. destruct d, d1, d2; cbn [fst snd]; intros [_ X1] [_ X2]; try reflexivity; exfalso; lia. }
  assert (I2 : ~ In x0 Vn).
  { intros I2. apply A6 in I2 as [[[a b] Q]|[[[a b] [c e]] [i [[d' Hd'] [ND [Hi Q]]]]]].
    - unfold scale, x0 in Q. cbn [fst snd] in Q. assert (N1 : forall t, (1 <> Z.of_nat N * t)%Z) by (intros t; destruct (Z_le_gt_dec t 0); nia). destruct d; apply z2_eq in Q; destruct Q as [Q1 Q2]; (destruct (N1 _ Q1) || destruct (N1 _ Q2)).
    - apply ND. exists d. split; [exact Fd|]. unfold lon, subv, dir, box, x0 in *. cbn [fst snd] in *. destruct Hd' as [B3 [B4 D]]. split; [exact B3|]. split; [exact B4|].
      assert (N1 : forall t, (1 <> Z.of_nat N * t)%Z) by (intros t; destruct (Z_le_gt_dec t 0); nia).
      assert (N2 : forall t, (Z.of_nat N * t = 0 -> t = 0)%Z) by (intros t Ht; apply Z.mul_eq_0 in Ht; lia). assert (N3 : forall t k, (Z.of_nat (k * N) = Z.of_nat N * t -> t = Z.of_nat k)%Z) by (intros t k Ht; rewrite Nat2Z.inj_mul in Ht; apply (dm0 N HN1); lia).
      assert (D' : ((c - a = 1 /\ e - b = 0) \/ (c - a = 0 /\ e - b = 1))%Z) by (destruct d'; rewrite z2_eq in D; tauto). clear D.
      destruct D' as [[D1 D2]|[D1 D2]]; rewrite D1, D2 in *; destruct d; rewrite z2_eq; apply z2_eq in Q; destruct Q as [Q1 Q2]; try (exfalso; apply (N1 a); lia); try (exfalso; apply (N1 b); lia);
        (split; [auto|]); solve [apply N2; lia|apply N3; lia]. }
  split; intros Q.
  - apply I2. apply (equal_neumann _ _ _ Hh _ _ _ _ LM _ _ _ _ LM' _ _ _ _ L3 L6 T1 Q), I1.
  - apply I2. apply (equal_neumann _ _ _ Hh _ _ _ _ LM' _ _ _ _ LM _ _ _ _ L6 L3 T2 Q), I1.
Qed.
Print Assumptions C28_fixed_side_refuted.
(** Concrete cases: 1 x 1 rectangle, width 1/2, factor 3, without and with a fixed side. *)
Example C28_example : exists g g' r, domain_grid std_order 1 1 FixNone (1/2) = Ok g /\ domain_grid std_order 1 1 FixNone (1/2 / INR 3) = Ok g' /\ refine g 3 = Ok r /\ Grid_eqb (r_grid r) g' = Ok true.
Proof.
  destruct (C11_grid_succeeds std_order 1 1 FixNone (1/2)) as [m1 [n1 [g [_ [_ Hg]]]]]; try lra.
  destruct (C11_grid_succeeds std_order 1 1 FixNone (1/2 / INR 3)) as [m2 [n2 [g' [_ [_ Hg']]]]]; try lra. { simpl; lra. }
  assert (F : fits 1 (1/2) 2) by (unfold fits; simpl; lra). assert (F' : fits 1 (1/2 / INR 3) (2 * 3)) by (unfold fits; simpl; lra). assert (He : / 10 ^ 15 <= 1/2 / INR 3) by (simpl; lra).
  pose proof (rect_mesh std_order 1 1 FixNone (1/2) 2 2 g ex_pos F F Hg ltac:(lia) ltac:(lia)) as M.
  destruct (C27_refinement_is_fine_mesh g (1/2) 2 2 3 ex_pos) as [r [R _]]; try lia; try assumption. exists g, g', r. split; [exact Hg|]. split; [exact Hg'|]. split; [exact R|].
  apply (C28_equal_without_fixed_sides_partial std_order std_order 1 1 FixNone (1/2) 2 2 3 g g' r ex_pos); try lia; try assumption. intros d [].
Qed.
Example C28_example_refuted : exists g g' r, domain_grid std_order 1 1 (FixOne "left") (1/2) = Ok g /\ domain_grid std_order 1 1 (FixOne "left") (1/2 / INR 3) = Ok g' /\ refine g 3 = Ok r /\ Grid_eqb (r_grid r) g' <> Ok true.
Proof.
  destruct (C11_grid_succeeds std_order 1 1 (FixOne "left") (1/2)) as [m1 [n1 [g [_ [_ Hg]]]]]; try lra.
  destruct (C11_grid_succeeds std_order 1 1 (FixOne "left") (1/2 / INR 3)) as [m2 [n2 [g' [_ [_ Hg']]]]]; try lra. { simpl; lra. }
  assert (F : fits 1 (1/2) 2) by (unfold fits; simpl; lra). assert (F' : fits 1 (1/2 / INR 3) (2 * 3)) by (unfold fits; simpl; lra). assert (He : / 10 ^ 15 <= 1/2 / INR 3) by (simpl; lra).
  pose proof (rect_mesh std_order 1 1 (FixOne "left") (1/2) 2 2 g ex_pos F F Hg ltac:(lia) ltac:(lia)) as M.
  destruct (C27_refinement_is_fine_mesh g (1/2) 2 2 3 ex_pos) as [r [R _]]; try lia; try assumption. exists g, g', r. split; [exact Hg|]. split; [exact Hg'|]. split; [exact R|].
  apply (C28_fixed_side_refuted std_order std_order 1 1 (FixOne "left") (1/2) 2 2 3 g g' r Left ex_pos); try lia; try assumption. left. reflexivity.
Qed.

(** ** C29 *)
Lemma lp_node N h T k l : (1 <= N)%nat -> lp h (node N T k l) =
  let P := lp (INR N * h) (c1 T) in let Q := lp (INR N * h) (c2 T) in let R' := lp (INR N * h) (c3 T) in let b := kl_b N k l in
  (l1 b * fst P + l2 b * fst Q + l3 b * fst R', l1 b * snd P + l2 b * snd Q + l3 b * snd R').
Proof.
  intros HN. assert (HP : 0 < INR N) by (apply lt_0_INR; lia). destruct T as [[a b] t]. unfold lp, node, c1, c2, c3, kl_b, l1, l2, l3. cbn [fst snd].
  rewrite !plus_IZR, !mult_IZR, !plus_IZR, <- !INR_IZR_INZ. f_equal; field; lra.
Qed.
Lemma subq_corner N T X q1 q2 q3 : (1 <= N)%nat -> In (X, (q1, q2, q3)) (subq N T) ->
  exists k1 l1 k2 l2 k3 l3, (k1 + l1 <= N /\ k2 + l2 <= N /\ k3 + l3 <= N)%nat /\ q1 = kl_b N k1 l1 /\ q2 = kl_b N k2 l2 /\ q3 = kl_b N k3 l3 /\
    c1 X = node N T k1 l1 /\ c2 X = node N T k2 l2 /\ c3 X = node N T k3 l3.
Proof.
  intros HN H. unfold subq in H. apply in_app_or in H as [H|H]; apply in_map_iff in H as [[k l] [Q H]]; injection Q as <- <- <- <-.
  - apply in_kl_lower in H. destruct (lsub_corners N T k l) as [A [B D]]. exists k, l, (k + 1)%nat, l, k, (l + 1)%nat. repeat split; try lia; assumption.
  - apply in_kl_upper in H. destruct (usub_corners N T k l) as [A [B D]]; [lia|]. exists k, (l + 1)%nat, (k - 1)%nat, (l + 1)%nat, k, l. repeat split; try lia; assumption.
Qed.
Lemma kl_b_ok N k l : (1 <= N)%nat -> (k + l <= N)%nat -> 0 <= l1 (kl_b N k l) /\ 0 <= l2 (kl_b N k l) /\ 0 <= l3 (kl_b N k l) /\ l1 (kl_b N k l) + l2 (kl_b N k l) + l3 (kl_b N k l) = 1.
Proof.
  intros HN H. assert (HP : 0 < INR N) by (apply lt_0_INR; lia). unfold kl_b, l1, l2, l3. cbn [fst snd].
  assert (A : INR k + INR l <= INR N) by (rewrite <- plus_INR; apply le_INR; exact H). pose proof (pos_INR k). pose proof (pos_INR l).
  assert (B : 0 <= / INR N) by (apply Rlt_le, Rinv_0_lt_compat, HP). assert (D : INR k / INR N + INR l / INR N <= 1).
  { replace 1 with (INR N / INR N) by (field; lra). unfold Rdiv. rewrite <- Rmult_plus_distr_r. apply Rmult_le_compat_r; assumption. }
  unfold Rdiv in *. repeat split; try lra; nra.
Qed.
Lemma corner_points g s m n C Ts E (LM : lmesh g s m n C Ts E) T p q r : ltri_in m n T -> triangle_at g (tidx C T) p q r ->
  p = lp s (c1 T) /\ q = lp s (c2 T) /\ r = lp s (c3 T).
Proof.
  intros HT [_ [A [B D]]]. apply ltri_in_corners in HT as [X1 [X2 X3]].
  apply (lp_at _ _ _ _ _ _ _ LM) in A; [|exact X1]. apply (lp_at _ _ _ _ _ _ _ LM) in B; [|exact X2]. apply (lp_at _ _ _ _ _ _ _ LM) in D; [|exact X3]. auto.
Qed.
Lemma corner_at g s m n C Ts E (LM : lmesh g s m n C Ts E) T : In T Ts -> triangle_at g (tidx C T) (lp s (c1 T)) (lp s (c2 T)) (lp s (c3 T)).
Proof.
  intros HT. pose proof HT as HT'. apply (lm_tin _ _ _ _ _ _ _ LM), ltri_in_corners in HT' as [X1 [X2 X3]].
  split; [rewrite (lm_t _ _ _ _ _ _ _ LM); apply (in_map (tidx C)), HT|]. split; [apply (at_lp _ _ _ _ _ _ _ LM), X1|]. split; apply (at_lp _ _ _ _ _ _ _ LM); assumption.
Qed.
(** The coarse coordinates denote the same point of the plane; coordinates in [0, 1] stay in [0, 1]. *)
Theorem C29_same_point : forall g s m n N r t p q q' b x, 0 < s -> (1 <= m)%nat -> (1 <= n)%nat -> (1 <= N)%nat -> / 10 ^ 15 <= s / INR N -> mesh g s m n ->
  refine g (Z.of_nat N) = Ok r -> triangle_at (r_grid r) t p q q' -> bary_of p q q' b x ->
  exists T P Q Q' b', to_coarse_barycentric_point r (t, b) = Ok (T, b') /\ triangle_at (r_coarse r) T P Q Q' /\ bary_of P Q Q' b' x /\
    (0 <= l1 b <= 1 -> 0 <= l2 b <= 1 -> 0 <= l3 b <= 1 -> 0 <= l1 b' <= 1 /\ 0 <= l2 b' <= 1 /\ 0 <= l3 b' <= 1).
Proof.
  intros g s m n N r t p q q' b x Hs Hm Hn HN He M R HT HB. destruct (setup_of g s m n N r Hs Hm Hn HN He M R) as [Hh [QQ [C [Ts [E SU]]]]].
  pose proof (su_f _ _ _ _ _ _ _ _ _ SU) as FM. pose proof (su_lm _ _ _ _ _ _ _ _ _ SU) as LM. rewrite (su_c _ _ _ _ _ _ _ _ _ SU).
  assert (It : In t (g_triangles (r_grid r))) by (destruct t as [[? ?] ?]; apply HT).
  apply (fine_cases g N _ m n r C Ts E SU) in It as [T [X [HT1 [HX ->]]]].
  assert (IX : ltri_in (m * N) (n * N) X) by (apply (lm_tin _ _ _ _ _ _ _ FM), in_flat_map; eauto).
  apply (corner_points _ _ _ _ _ _ _ FM) in HT as [-> [-> ->]]; [|exact IX].
  destruct (subs_subq N T X HX) as [[[q1 q2] q3] Hq]. pose proof (to_coarse_ok g N _ m n r C Ts E SU T X _ b HT1 Hq) as TC. cbn beta iota in TC.
  destruct (subq_corner N T X q1 q2 q3 HN Hq) as [k1 [j1 [k2 [j2 [k3 [j3 [[B1 [B2 B3]] [Q1 [Q2 [Q3 [C1 [C2 C3]]]]]]]]]]]].
  pose proof (kl_b_ok N k1 j1 HN B1) as [G11 [G12 [G13 G14]]]. pose proof (kl_b_ok N k2 j2 HN B2) as [G21 [G22 [G23 G24]]]. pose proof (kl_b_ok N k3 j3 HN B3) as [G31 [G32 [G33 G34]]]. rewrite <- Q1, <- Q2, <- Q3 in *.
  rewrite C1, C2, C3, !lp_node in HB by exact HN. rewrite <- Q1, <- Q2, <- Q3 in HB. clear Q1 Q2 Q3 C1 C2 C3.
  do 5 eexists. split; [exact TC|]. split; [apply (corner_at _ _ _ _ _ _ _ LM), HT1|].
  revert HB. generalize (lp (INR N * (s / INR N)) (c1 T)) (lp (INR N * (s / INR N)) (c2 T)) (lp (INR N * (s / INR N)) (c3 T)). intros P Q Q' HB. clear TC.
  destruct b as [[b1 b2] b3], q1 as [[x1 y1] z1], q2 as [[x2 y2] z2], q3 as [[x3 y3] z3]. destruct P as [P1 P2], Q as [R1 R2], Q' as [S1 S2], x as [u1 u2].
  unfold bary_of, Bary, l1, l2, l3 in *. cbn in *. destruct HB as [H0 [H1 H2]].
  replace z1 with (1 - x1 - y1) in * by lra. replace z2 with (1 - x2 - y2) in * by lra. replace z3 with (1 - x3 - y3) in * by lra. replace b3 with (1 - b1 - b2) in * by lra.
  split.
  - split; [ring|]. split; [rewrite H1; ring|rewrite H2; ring].
  - intros [K1 _] [K2 _] [K3 _].
    assert (Hu : 0 <= b1 * x1 + b2 * x2 + (1 - b1 - b2) * x3) by (repeat apply Rplus_le_le_0_compat; apply Rmult_le_pos; lra).
    assert (Hv : 0 <= b1 * y1 + b2 * y2 + (1 - b1 - b2) * y3) by (repeat apply Rplus_le_le_0_compat; apply Rmult_le_pos; lra).
    assert (Hz : 0 <= b1 * (1 - x1 - y1) + b2 * (1 - x2 - y2) + (1 - b1 - b2) * (1 - x3 - y3)) by (repeat apply Rplus_le_le_0_compat; apply Rmult_le_pos; lra).
    repeat split; lra.
Qed.
Print Assumptions C29_same_point.
