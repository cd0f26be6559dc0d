(** * Every coarse triangle of a refined mesh contains a fine one, for C123. *)
From Coq Require Import Reals Lra Lia List ZArith Psatz.
From Coquelicot Require Import Coquelicot.
From Verif.Model Require Import Py Num Tensors Domain Refine.
From Verif.Spec Require Import GridSpec RefineSpec BellSpec InterpSpec.
From Verif.Proofs Require Import Lib Lattice RefineP RefineTri RefineAll MeshLat MeshP RefineMesh RefineSetup RefineEdge ConvP BernQ.
From Verif.Props Require Import RefineProps.
Local Open Scope R_scope.
Import ListNotations.

Lemma lattice_shape s T : Lattice.oriented T -> shape s (lp s (c1 T)) (lp s (c2 T)) (lp s (c3 T)).
Proof.
  destruct T as [[x y] e]. unfold Lattice.oriented, lp, c1, c2, c3. cbn [fst snd]. intros [-> | ->].
  - rewrite !plus_IZR. replace ((IZR x + 1) * s) with (IZR x * s + s) by ring. replace ((IZR y + 1) * s) with (IZR y * s + s) by ring. constructor.
  - rewrite !plus_IZR. replace ((IZR x + -1) * s) with (IZR x * s - s) by ring. replace ((IZR y + -1) * s) with (IZR y * s - s) by ring.
    replace (IZR x * s, IZR y * s) with (IZR x * s - s + s, IZR y * s - s + s) by (f_equal; ring). replace (IZR x * s - s, IZR y * s) with (IZR x * s - s, IZR y * s - s + s) by (f_equal; ring). constructor.
Qed.
Lemma subs_some N T : (1 <= N)%nat -> exists X, In X (subs N T).
Proof.
  intros HN. assert (I : In (0%nat, 0%nat) (kl_lower N)) by (apply in_kl_lower; lia). exists (lsub N T (0%nat, 0%nat)). unfold subs. apply in_or_app. left. apply in_map, I.
Qed.
Lemma fine_in_coarse g s m n N r C Ts E T : 0 < s -> (1 <= m)%nat -> (1 <= n)%nat -> (1 <= N)%nat -> / 10 ^ 15 <= s / INR N -> mesh g s m n -> refine g (Z.of_nat N) = Ok r ->
  setup g N (s / INR N) m n r C Ts E -> In T Ts ->
  exists t p q q', triangle_at (r_grid r) t p q q' /\ shape (s / INR N) p q q' /\
    forall b x, bary_of p q q' b x -> exists b', to_coarse_barycentric_point r (t, b) = Ok (tidx C T, b') /\ bary_of (lp s (c1 T)) (lp s (c2 T)) (lp s (c3 T)) b' x.
Proof.
  intros Hs Hm Hn HN He M Rf SU HT. pose proof (su_f _ _ _ _ _ _ _ _ _ SU) as FM. pose proof (su_lm _ _ _ _ _ _ _ _ _ SU) as LM.
  destruct (setup_of g s m n N r Hs Hm Hn HN He M Rf) as (Hh & QQ & _).
  destruct (subs_some N T HN) as [X HX]. destruct (subs_subq N T X HX) as [[[q1 q2] q3] Hq].
  assert (IX : In X (flat_map (subs N) Ts)) by (apply in_flat_map; eauto). pose proof (corner_at _ _ _ _ _ _ _ FM X IX) as TA.
  exists (tidx (LL N C Ts) X), (lp (s / INR N) (c1 X)), (lp (s / INR N) (c2 X)), (lp (s / INR N) (c3 X)). split; [exact TA|]. split; [apply lattice_shape; exact (proj1 (proj1 (lm_tin _ _ _ _ _ _ _ FM X) IX))|].
  intros b x HB. destruct (C29_same_point g s m n N r _ _ _ _ b x Hs Hm Hn HN He M Rf TA HB) as (T' & P & Q & Q' & b' & EC & TP & HB' & _).
  pose proof (to_coarse_ok g N _ m n r C Ts E SU T X _ b HT Hq) as TC. cbn beta iota in TC. rewrite EC in TC. assert (ET : T' = tidx C T) by exact (f_equal (fun e : res (triangle * bary R) => match e with Ok z => fst z | Err _ => T' end) TC). 
  rewrite (su_c _ _ _ _ _ _ _ _ _ SU), ET in TP. destruct (corner_points _ _ _ _ _ _ _ LM T P Q Q' (proj1 (lm_tin _ _ _ _ _ _ _ LM T) HT) TP) as (-> & -> & ->). rewrite QQ in HB'. rewrite ET in EC. eauto.
Qed.
