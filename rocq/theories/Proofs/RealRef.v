(** The exact instance of GenRefine: the same explicit lists as in binary64. *)
From Coq Require Import Reals Lra Lia Psatz.
From Verif.Model Require Import Py Num Tensors Domain Refine.
From Verif.Spec Require Import GridSpec.
From Verif.Proofs Require Import Lib GridP FindP Lattice RefineP RefineTri RefineAll GenRefine.
Local Open Scope R_scope.

Section RRef.
Context (n : nat) (h : R) (Hn : (1 <= n)%nat) (Hh : 0 < h) (Heps : / 10 ^ 15 <= h).
Definition rmok (j : nat) (m : option R) : Prop := RefineP.mok h m.
Definition rrep (x : Z2) (p : vector R) : Prop := p = lpt h x.
Definition rrep0 (x : Z2) (p : vector R) : Prop := p = lpt (INR n * h) x.
Lemma rHc m x y : RefineP.mok h m -> points_coincide m (lpt h x) (lpt h y) = Ok (if z2eqb x y then true else false).
Proof.
  intros Hm. pose proof (mok_tol h m Hh Heps Hm) as T. destruct (points_coincide_vec m (lp h x) (lp h y)) as [b [E Hb]]. unfold lpt. rewrite E. apply (f_equal Ok). fold (tol m) in Hb.
  destruct (z2eqb_spec x y) as [->|Hne].
  - apply Hb. rewrite dist_refl. lra.
  - pose proof (lp_dist h x y Hh Hne) as D. destruct b; [|reflexivity]. assert (dist (lp h x) (lp h y) < tol m) by (apply Hb; reflexivity). lra.
Qed.
Lemma rHfalse : forall j m x y p q, rmok j m -> rrep x p -> rrep y q -> x <> y -> points_coincide m p q = Ok false.
Proof. intros j m x y p q Hm -> -> Hne. rewrite rHc by exact Hm. destruct (z2eqb_spec x y); [contradiction|reflexivity]. Qed.
Lemma rHtrue : forall j m x p q, rmok (S j) m -> rrep x p -> rrep x q -> points_coincide m p q = Ok true.
Proof. intros j m x p q Hm -> ->. rewrite rHc by exact Hm. destruct (z2eqb_spec x x); [reflexivity|congruence]. Qed.
Lemma rlen pts i i' x y : nth_error pts i = Some (lpt h x) -> nth_error pts i' = Some (lpt h y) -> edge_length pts (i, i') = Ok (dist (lp h x) (lp h y)).
Proof.
  intros A B. rewrite (edge_length_pts pts i i' (fst (lp h x)) (snd (lp h x)) (fst (lp h y)) (snd (lp h y)) A B). apply (f_equal Ok). unfold dist. f_equal; try ring.
Qed.
Lemma rHapp J : forall j m x y p q pts es i i', (j < J)%nat -> rmok j m -> rrep x p -> rrep y q -> short (x, y) -> length es = j ->
  nth_error pts i = Some p -> nth_error pts i' = Some q -> py_in edge_eqb (i, i') es = false -> py_in edge_eqb (i', i) es = false ->
  exists m', append_edge_raw pts (es, m) (i, i') = Ok (es ++ [(i, i')], m') /\ rmok (S j) m'.
Proof.
  intros j m x y p q pts es i i' _ HM -> -> Hsh HL N1 N2 P1 P2. unfold append_edge_raw. unfold flip. cbn [fst snd]. rewrite P1, P2. cbn [negb andb].
  rewrite (rlen pts i i' x y N1 N2). cbn [bind]. pose proof (short_dist h (x, y) Hh Hsh) as [D1 D2]. cbn [fst snd] in D1, D2. set (d := dist (lp h x) (lp h y)) in *. unfold rmok in *.
  destruct m as [m|].
  - cbn [nofZ RNum]. assert (Hnz : IZR (Z.of_nat (length es) + 1) <> 0) by (apply IZR_neq; lia).
    rewrite !ndiv_R by exact Hnz. cbn [bind]. eexists. split; [reflexivity|].
    cbn [mok] in *. cbn [nadd nmul RNum]. rewrite plus_IZR in *. assert (Hk : 0 <= IZR (Z.of_nat (length es))) by (apply IZR_le; lia).
    set (k := IZR (Z.of_nat (length es))) in *.
    replace (m * k / (k + 1) + d / (k + 1)) with ((m * k + d) * / (k + 1)) by (field; exact Hnz).
    assert (Hi : 0 < / (k + 1)) by (apply Rinv_0_lt_compat; lra). split; [apply Rmult_lt_0_compat; [nra|exact Hi]|].
    apply Rmult_le_reg_r with (k + 1); [lra|]. rewrite Rmult_assoc, Rinv_l by exact Hnz. nra.
  - cbn [bind]. eexists. split; [reflexivity|]. exact (conj D1 D2).
Qed.
Lemma rHcomb : forall (X : ltri) p1 p2 p3 k l, oriented X -> rrep0 (c1 X) p1 -> rrep0 (c2 X) p2 -> rrep0 (c3 X) p3 -> (k + l <= n)%nat ->
  exists p, combine_points (Bary_assert_bounds n0 n1 (kl_b n k l)) (p1, p2, p3) = Ok p /\ rrep (node n X k l) p.
Proof.
  intros X p1 p2 p3 k l _ -> -> -> Hkl. exists (lpt h (node n X k l)). split; [|reflexivity].
  cbn [n0 n1 RNum]. rewrite (kl_b_bounds n Hn) by exact Hkl. apply (combine_ok n h Hn X k l).
Qed.
Lemma rHrep x p : rrep0 x p -> rrep (scale n x) p.
Proof. intros ->. unfold rrep, lpt, lp, scale. cbn [fst snd]. rewrite !mult_IZR, <- !INR_IZR_INZ. f_equal. f_equal; ring. Qed.
Lemma rHassert : forall (X : ltri) p1 p2 p3, rrep0 (c1 X) p1 -> rrep0 (c2 X) p2 -> rrep0 (c3 X) p3 ->
  exists y1 y2 x2 x3, Vector_get p1 1 = Ok y1 /\ Vector_get p2 1 = Ok y2 /\ Vector_get p2 0 = Ok x2 /\ Vector_get p3 0 = Ok x3 /\
    nltb (nabs (nsub y1 y2)) assert_eps = true /\ nltb (nabs (nsub x2 x3)) assert_eps = true.
Proof.
  intros X p1 p2 p3 -> -> ->. eexists _, _, _, _. split; [reflexivity|]. split; [reflexivity|]. split; [reflexivity|]. split; [reflexivity|].
  change (snd (c2 X)) with (snd (c1 X)). change (fst (c3 X)) with (fst (c2 X)). cbn [nltb nabs nsub RNum]. rewrite !Rminus_diag_eq, Rabs_R0 by reflexivity.
  assert (0 < @assert_eps R RNum). { unfold assert_eps. cbn [ndec RNum]. unfold Rdiv. rewrite Rmult_1_l. apply Rinv_0_lt_compat, pow_lt. lra. }
  unfold Rltb. destruct (Rlt_dec 0 assert_eps); [auto|contradiction].
Qed.
Lemma rHfin : forall L P E, Forall2 rrep L P -> (forall e, In e E -> ein L e /\ short e) -> E <> [] -> 
  exists lens m, mapM (edge_length P) (map (eidx L) E) = Ok lens /\ ndiv (nsum lens) (nofZ (Z.of_nat (length E))) = Ok m /\ True.
Proof.
  intros L P E F HE HN. assert (HM : exists lens, mapM (edge_length P) (map (eidx L) E) = Ok lens).
  { clear HN. induction E as [|e E IH]; [exists []; reflexivity|]. destruct IH as (ls & Q); [intros e' He'; apply HE; right; exact He'|].
    destruct (HE e (or_introl eq_refl)) as [[A B] _]. destruct (F2_nth _ _ _ _ _ F (idx_nth L _ A)) as (p & Np & ->). destruct (F2_nth _ _ _ _ _ F (idx_nth L _ B)) as (q & Nq & ->).
    cbn [map mapM]. change (eidx L e) with (idx L (fst e), idx L (snd e)). rewrite (rlen P _ _ _ _ Np Nq). cbn [bind]. rewrite Q. cbn [bind]. eauto. }
  destruct HM as (lens & Q). exists lens. rewrite Q. rewrite ndiv_R; [eauto|]. cbn [nofZ RNum]. rewrite <- INR_IZR_INZ. apply not_0_INR. destruct E; [contradiction|discriminate].
Qed.

Lemma real_refine (cg : grid R) C Ts : g_points cg = map (lpt (INR n * h)) C -> g_vertices cg = range (length C) -> g_triangles cg = map (tidx C) Ts ->
  (forall X, In X Ts -> oriented X /\ tin C X) ->
  exists m P, P = map (lpt h) (LL n C Ts) /\ refine cg (Z.of_nat n) = Ok (mkRefined (gG n cg C Ts P m) cg (gCT n C (LL n C Ts) Ts) (gCB n (kl_b n) (LL n C Ts) Ts)
    (gCE n (fun k => INR k / INR n) cg C (LL n C Ts) Ts) (gCC n (fun k => INR k / INR n) cg C (LL n C Ts) Ts)).
Proof.
  intros HP HV HT HTs.
  destruct (grefine n Hn (kl_b n) (fun k l _ _ => kl_bary_ok n Hn k l) (fun k => INR k / INR n) (fun k _ => frac_ok n Hn k) rrep rrep0 rmok
    (3 * length (kl_lower n) * length Ts) I rHfalse rHtrue (rHapp _) rHcomb cg cg C Ts) with (mfin := fun _ : R => True) as (m & P & F & _ & _ & E).
  - rewrite HP. clear. induction C; constructor; [reflexivity|assumption].
  - exact HV.
  - exact HT.
  - auto.
  - exact HTs.
  - exact rHrep.
  - intros X p1 p2 p3 _. apply rHassert.
  - intros L P E F HE HN _. apply (rHfin L P E F HE HN).
  - apply le_n.
  - exists m, P. split; [|exact E]. clear - F. induction F as [|x p L P Hx F IH]; [reflexivity|]. rewrite Hx, IH. reflexivity.
Qed.
End RRef.
