(** Evaluation of interpolations at lattice points; the steps of a simulation. *)
From Coq Require Import Reals Lra Lia List ZArith Permutation.
From Verif.Model Require Import Py Num Tensors Domain Refine Bell Interp.
From Verif.Spec Require Import GridSpec RefineSpec BellSpec InterpSpec.
From Verif.Model Require Import Steps Simulation Plot.
From Verif.Spec Require Import SimSpec LiveSpec PlotSpec.
From Verif.Proofs Require Import Lib GridP LocateP HatP InterpP MeshLoc SimP SimQ SimH.
From Verif.Props Require Import BellProps RefineProps InterpProps.
Local Open Scope R_scope.
Import ListNotations.

Section EV.
Context (g : grid R) (s : R) (m n : nat) (Hs : 0 < s) (Hm : (1 <= m)%nat) (Hn : (1 <= n)%nat) (M : mesh g s m n).

Lemma mesh_point_lattice v p : point_at g v p -> exists i j, (i <= m)%nat /\ (j <= n)%nat /\ vertex_at g s v i j /\ p = (INR i * s, INR j * s).
Proof.
  clear Hm Hn. intros P. assert (I : In v (g_vertices g)). { rewrite (mesh_numbers _ _ _ _ M). apply in_seq. split; [lia|]. cbn. apply nth_error_Some. unfold point_at in P. congruence. }
  destruct (mesh_inside _ _ _ _ M v I) as (i & j & Hi & Hj & V). exists i, j. split; [exact Hi|]. split; [exact Hj|]. split; [exact V|]. apply (at_point _ _ _ _ _ _ V P).
Qed.
Lemma lattice_in_rectangle (k a b : nat) : (1 <= k)%nat -> (a <= m * k)%nat -> (b <= n * k)%nat ->
  0 <= INR a * (s / INR k) <= INR m * s /\ 0 <= INR b * (s / INR k) <= INR n * s.
Proof.
  clear Hm Hn M. intros Hk Ha Hb. assert (K : 0 < INR k) by (apply lt_0_INR; lia). apply le_INR in Ha, Hb. rewrite mult_INR in Ha, Hb. pose proof (pos_INR a). pose proof (pos_INR b).
  assert (D : 0 < s / INR k) by (apply Rdiv_lt_0_compat; lra).
  assert (Em : INR m * s = INR m * INR k * (s / INR k)) by (field; lra). assert (En : INR n * s = INR n * INR k * (s / INR k)) by (field; lra). rewrite Em, En.
  repeat split; first [apply Rmult_le_pos; lra|apply Rmult_le_compat_r; lra].
Qed.
(** Where a lattice point is found. *)
Lemma lattice_found (k a b : nat) : (1 <= k)%nat -> (a <= m * k)%nat -> (b <= n * k)%nat -> let x := (INR a * (s / INR k), INR b * (s / INR k)) in
  exists t p q r L, to_barycentric_point g (vec x) = Ok (Some (t, L)) /\ triangle_at g t p q r /\ bary_of p q r L x /\ (eps10 * INR k < s * s -> non_negative L).
Proof.
  intros Hk Ha Hb x. destruct (lattice_in_rectangle k a b Hk Ha Hb) as [Bx By]. destruct (mesh_found g s m n Hs M x Hm Hn Bx By) as (t & p & q & r & L & E & T & B).
  exists t, p, q, r, L. split; [exact E|]. split; [exact T|]. split; [exact B|]. intros Hb'. exact (lattice_contained g s m n Hs M k a b t L Hk Hb' E).
Qed.
Lemma inputs_at i x t L : i_grid i = g -> to_barycentric_point g (vec x) = Ok (Some (t, L)) ->
  euclid_call i (fst x) (snd x) = i_call i t L /\ euclid_gradient i (fst x) (snd x) = i_gradient i t L /\ euclid_hessian i (fst x) (snd x) = i_hessian i t L.
Proof. intros Hi E. unfold euclid_call, euclid_gradient, euclid_hessian, to_barycentric_inputs. rewrite Hi. unfold vec in E. rewrite E. cbn [bind]. auto. Qed.
(** P1: total on the rectangle, between the smallest and the largest value at lattice points, exact at vertices. *)
Lemma P1_total params i x : P1Interpolation_ g params = Ok i -> 0 <= fst x <= INR m * s -> 0 <= snd x <= INR n * s -> exists v, euclid_call i (fst x) (snd x) = Ok v.
Proof.
  intros I Hx Hy. destruct (mesh_found g s m n Hs M x Hm Hn Hx Hy) as (t & p & q & r & L & E & T & B). pose proof (P1_ok _ _ _ I) as [Ei _].
  destruct (inputs_at i x t L ltac:(rewrite Ei; reflexivity) E) as [-> _]. destruct (C40_total g s m n params i t L Hs M I ltac:(destruct t as [[? ?] ?]; apply T)) as (v & _ & V & _). eauto.
Qed.
Lemma C1_total params i x : C1Interpolation_ g params = Ok i -> 0 <= fst x <= INR m * s -> 0 <= snd x <= INR n * s -> exists v, euclid_call i (fst x) (snd x) = Ok v.
Proof.
  intros I Hx Hy. destruct (mesh_found g s m n Hs M x Hm Hn Hx Hy) as (t & p & q & r & L & E & T & B). pose proof (C1_ok _ _ _ I) as [Ei _].
  destruct (inputs_at i x t L ltac:(rewrite Ei; reflexivity) E) as [-> _]. destruct (C44_total g s m n params i t p q r L x Hs M I T B) as (v & _ & _ & V & _). eauto.
Qed.
Lemma P1_between params i (k a b : nat) lo hi : P1Interpolation_ g params = Ok i -> (1 <= k)%nat -> (a <= m * k)%nat -> (b <= n * k)%nat -> eps10 * INR k < s * s ->
  (forall v, In v params -> lo <= v <= hi) -> exists v, euclid_call i (INR a * (s / INR k)) (INR b * (s / INR k)) = Ok v /\ lo <= v <= hi.
Proof.
  intros I Hk Ha Hb He Q. destruct (lattice_found k a b Hk Ha Hb) as (t & p & q & r & L & E & T & B & NN). specialize (NN He). pose proof (P1_ok _ _ _ I) as [Ei El].
  destruct (inputs_at i _ t L ltac:(rewrite Ei; reflexivity) E) as [V _]. cbn [fst snd] in V. rewrite V. destruct t as [[t1 t2] t3].
  destruct (mesh_params g s m n params _ p q r M El T) as (u1 & u2 & u3 & U1 & U2 & U3). destruct (P1_calls g params t1 t2 t3 p q r u1 u2 u3 L T U1 U2 U3) as [W _]. rewrite Ei, W. eexists. split; [reflexivity|].
  apply nth_error_In in U1, U2, U3. apply Q in U1, U2, U3. destruct NN as (N1 & N2 & N3). destruct B as [S _]. assert (l1 L = 1 - l2 L - l3 L) as E1 by lra. split.
  - replace lo with (l1 L * lo + l2 L * lo + l3 L * lo) by (rewrite E1; ring). repeat apply Rplus_le_compat; apply Rmult_le_compat_l; lra.
  - replace hi with (l1 L * hi + l2 L * hi + l3 L * hi) by (rewrite E1; ring). repeat apply Rplus_le_compat; apply Rmult_le_compat_l; lra.
Qed.
Lemma one_lattice (a : nat) : INR a * (s / INR 1) = INR a * s. Proof. cbn [INR]. field. Qed.
(** The weight of a vertex at its own point. *)
Lemma vertex_found v p : eps10 < s * s -> point_at g v p -> exists t q1 q2 q3 L, to_barycentric_point g (vec p) = Ok (Some (t, L)) /\ triangle_at g t q1 q2 q3 /\
  let '(a, b, c) := t in (v = a /\ L = (1, 0, 0) \/ v = b /\ L = (0, 1, 0) \/ v = c /\ L = (0, 0, 1)).
Proof.
  intros He P. destruct (mesh_point_lattice v p P) as (i & j & Hi & Hj & V & ->).
  destruct (lattice_found 1 i j ltac:(lia) ltac:(lia) ltac:(lia)) as (t & q1 & q2 & q3 & L & E & T & B & NN). rewrite !one_lattice in *. specialize (NN ltac:(cbn [INR]; lra)).
  exists t, q1, q2, q3, L. split; [exact E|]. split; [exact T|]. pose proof (vertex_weight g s m n Hs M v (i, j) t L q1 q2 q3 V T B NN Hi Hj) as W.
  destruct t as [[a b] c], L as [[L1 L2] L3], NN as (N1 & N2 & N3), B as [S _]. cbn [weights In l1 l2 l3 fst snd] in *.
  assert (Q : forall z, z = 1 -> True) by auto. destruct W as [W|[W|[W|[]]]]; injection W as <- W; [left|right; left|right; right]; (split; [reflexivity|]); repeat apply (f_equal2 pair); lra.
Qed.
Lemma P1_vertex params i v p u : eps10 < s * s -> P1Interpolation_ g params = Ok i -> point_at g v p -> nth_error params v = Some u -> euclid_call i (fst p) (snd p) = Ok u.
Proof.
  intros He I P U. destruct (vertex_found v p He P) as (t & q1 & q2 & q3 & L & E & T & W). pose proof (P1_ok _ _ _ I) as [Ei El]. destruct (inputs_at i p t L ltac:(rewrite Ei; reflexivity) E) as [-> _].
  destruct t as [[a b] c]. destruct (mesh_params g s m n params _ q1 q2 q3 M El T) as (u1 & u2 & u3 & U1 & U2 & U3). destruct (P1_calls g params a b c q1 q2 q3 u1 u2 u3 L T U1 U2 U3) as [Wc _]. rewrite Ei, Wc.
  destruct W as [[-> ->]|[[-> ->]|[-> ->]]]; unfold l1, l2, l3; cbn [fst snd]; apply (f_equal Ok); [rewrite U1 in U|rewrite U2 in U|rewrite U3 in U]; injection U as <-; ring.
Qed.
Lemma C1_vertex params i v p u ux uy uxx uxy uyy : eps10 < s * s -> C1Interpolation_ g params = Ok i -> point_at g v p -> nth_error params v = Some [u; ux; uy; uxx; uxy; uyy] ->
  euclid_call i (fst p) (snd p) = Ok u /\ euclid_gradient i (fst p) (snd p) = Ok (gradient_value ux uy) /\ euclid_hessian i (fst p) (snd p) = Ok (hessian_value uxx uxy uyy).
Proof.
  intros He I P U. destruct (vertex_found v p He P) as (t & q1 & q2 & q3 & L & E & T & W). pose proof (C1_ok _ _ _ I) as (Ei & El & Six). destruct (inputs_at i p t L ltac:(rewrite Ei; reflexivity) E) as (-> & -> & ->).
  destruct t as [[a b] c]. destruct (mesh_params g s m n params _ q1 q2 q3 M El T) as (u1 & u2 & u3 & U1 & U2 & U3). destruct (C1_calls g params a b c q1 q2 q3 u1 u2 u3 L T U1 U2 U3) as (Wc & Wg & Wh). rewrite Ei, Wc, Wg, Wh.
  pose proof (mesh_cross g s m n M _ _ _ _ T) as CR. assert (CR0 : cross q1 q2 q3 <> 0) by (rewrite CR; nra).
  pose proof (Six _ (nth_error_In _ _ U1)) as S1. pose proof (Six _ (nth_error_In _ _ U2)) as S2. pose proof (Six _ (nth_error_In _ _ U3)) as S3.
  set (n1 := {| pos := q1; BellSpec.dofs := u1 |}). set (n2 := {| pos := q2; BellSpec.dofs := u2 |}). set (n3 := {| pos := q3; BellSpec.dofs := u3 |}).
  assert (CC : cross q2 q1 q3 = - cross q1 q2 q3) by (unfold cross; ring). assert (CD : cross q3 q1 q2 = cross q1 q2 q3) by (unfold cross; ring).
  destruct W as [[-> ->]|[[-> ->]|[-> ->]]].
  - rewrite U1 in U. injection U as ->. apply (C41_vertex n1 n2 n3); try assumption; try reflexivity. 
  - rewrite U2 in U. injection U as ->. apply (C41_vertex n2 n1 n3); try assumption; try reflexivity; [change (cross q2 q1 q3 <> 0); rewrite CC; lra|]. change (Permutation [(n2, 1); (n1, 0); (n3, 0)] [(n1, 0); (n2, 1); (n3, 0)]). apply perm_swap.
  - rewrite U3 in U. injection U as ->. apply (C41_vertex n3 n1 n2); try assumption; try reflexivity; [change (cross q3 q1 q2 <> 0); rewrite CD; exact CR0|]. change (Permutation [(n3, 1); (n1, 0); (n2, 0)] [(n1, 0); (n2, 0); (n3, 1)]). eapply perm_trans; [apply perm_swap|]. apply perm_skip, perm_swap.
Qed.
End EV.
