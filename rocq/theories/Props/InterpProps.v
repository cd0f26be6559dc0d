(** * Theorems about the interpolation classes (C40, C44 on grids, C47-C49) *)
From Coq Require Import Reals Lra Lia List Permutation String.
From Coquelicot Require Import Coquelicot.
From Verif.Model Require Import Py Num Tensors Domain Refine Bell Interp.
From Verif.Spec Require Import GridSpec RefineSpec QuadSpec BellSpec InterpSpec.
From Verif.Proofs Require Import Lib GridP FindP BellV BellDer BellQ BellG BellE HatP InterpP RectMesh StdOrder RefineSetup.
From Verif.Props Require Import GridProps LocateProps RefineProps CoarseProps BellProps.
Local Open Scope list_scope.
Local Open Scope R_scope.
Import ListNotations.

(** ** C40: P1Interpolation *)
(** The nodal value at each corner. *)
Theorem C40_vertex_values : forall g params i a b c u1 u2 u3, P1Interpolation_ g params = Ok i -> 
  nth_error params a = Some u1 -> nth_error params b = Some u2 -> nth_error params c = Some u3 ->
  i_call i (a, b, c) (1, 0, 0) = Ok u1 /\ i_call i (a, b, c) (0, 1, 0) = Ok u2 /\ i_call i (a, b, c) (0, 0, 1) = Ok u3.
Proof.
  intros g params i a b c u1 u2 u3 H A B C. apply P1_ok in H as [-> _]. cbn [i_call]. rewrite (nth_py _ _ _ A), (nth_py _ _ _ B), (nth_py _ _ _ C).
  unfold l1, l2, l3. cbn [bind fst snd]. repeat split; apply (f_equal Ok); ring.
Qed.
Print Assumptions C40_vertex_values.
(** Affine functions and their gradient are reproduced on every triangle of non-zero area. *)
Theorem C40_affine : forall g params i t p q r al be ga L x, P1Interpolation_ g params = Ok i -> triangle_at g t p q r -> cross p q r <> 0 ->
  samples g (affine al be ga) params -> bary_of p q r L x ->
  i_call i t L = Ok (affine al be ga x) /\ i_gradient i t L = Ok (gradient_value al be).
Proof.
  intros g params i [[a b] c] p q r al be ga L x H T Hc S [S1 [X Y]]. apply P1_ok in H as [-> _]. pose proof T as [_ [A [B C]]].
  destruct (P1_calls g params a b c p q r _ _ _ L T (S _ _ A) (S _ _ B) (S _ _ C)) as [V G]. rewrite V, (G Hc). unfold affine, gradient_value. split; apply (f_equal Ok).
  - rewrite X, Y. replace (l1 L) with (1 - l2 L - l3 L) by lra. ring.
  - apply (f_equal2 (@cons R)); [|apply (f_equal2 (@cons R)); [|reflexivity]]; unfold cross in *; field; exact Hc.
Qed.
Print Assumptions C40_affine.
(** The gradient is the derivative of the function the values define. *)
Theorem C40_derivative : forall g params i t p q r, P1Interpolation_ g params = Ok i -> triangle_at g t p q r -> cross p q r <> 0 ->
  (forall v x, point_at g v x -> exists u, nth_error params v = Some u) ->
  exists f fx fy, partials f fx fy /\ forall L x, bary_of p q r L x ->
    i_call i t L = Ok (f (fst x) (snd x)) /\ i_gradient i t L = Ok (gradient_value (fx (fst x) (snd x)) (fy (fst x) (snd x))).
Proof.
  intros g params i [[a b] c] p q r H T Hc K. apply P1_ok in H as [-> _]. pose proof T as [_ [A [B C]]].
  destruct (K _ _ A) as [u1 U1]. destruct (K _ _ B) as [u2 U2]. destruct (K _ _ C) as [u3 U3].
  set (al := ((snd q - snd r) * u1 + (snd r - snd p) * u2 + (snd p - snd q) * u3) / cross p q r).
  set (be := ((fst r - fst q) * u1 + (fst p - fst r) * u2 + (fst q - fst p) * u3) / cross p q r).
  exists (fun x y => u1 + al * (x - fst p) + be * (y - snd p)), (fun _ _ => al), (fun _ _ => be). split.
  - intros x y. split; auto_derive; trivial; ring.
  - intros L x [S1 [X Y]]. destruct (P1_calls g params a b c p q r _ _ _ L T U1 U2 U3) as [V G]. rewrite V, (G Hc). split; [|reflexivity]. apply (f_equal Ok).
    rewrite X, Y. unfold al, be. replace (l1 L) with (1 - l2 L - l3 L) by lra. unfold cross in *. field. exact Hc.
Qed.
Print Assumptions C40_derivative.
(** Along an edge both neighbouring triangles and on_edge (in both directions) give the same value. *)
Theorem C40_shared_edge : forall g params i a b c c' u v t L t' L' lam, P1Interpolation_ g params = Ok i ->
  nth_error params a = Some u -> nth_error params b = Some v -> (c < List.length params)%nat -> (c' < List.length params)%nat ->
  Permutation [(a, lam); (b, 1 - lam); (c, 0)] (weights t L) -> Permutation [(a, lam); (b, 1 - lam); (c', 0)] (weights t' L') ->
  i_call i t L = i_on_edge i (a, b) lam /\ i_call i t' L' = i_on_edge i (a, b) lam /\ i_on_edge i (b, a) (1 - lam) = i_on_edge i (a, b) lam.
Proof.
  intros g params i a b c c' u v t L t' L' lam H A B C C' P P'. apply P1_ok in H as [-> _].
  assert (K : forall c t L, (c < List.length params)%nat -> Permutation [(a, lam); (b, 1 - lam); (c, 0)] (weights t L) -> i_call (P1I g params) t L = i_on_edge (P1I g params) (a, b) lam).
  { clear - A B. intros c [[x y] z] L C P. destruct (nth_error params c) as [w|] eqn:W; [|apply nth_error_None in W; lia].
    cbn [i_call i_on_edge fst snd]. rewrite (nth_py _ _ _ A), (nth_py _ _ _ B). cbn [bind]. unfold weights in P.
    apply (@perm3 (nat * R)) in P as [E | [E | [E | [E | [E | E]]]]]; injection E as -> E1 -> E2 -> E3; rewrite (nth_py _ _ _ A), (nth_py _ _ _ B), (nth_py _ _ _ W); cbn [bind]; rewrite E1, E2, E3; apply (f_equal Ok); ring. }
  split; [apply (K c); assumption|]. split; [apply (K c'); assumption|].
  cbn [i_on_edge fst snd]. rewrite (nth_py _ _ _ A), (nth_py _ _ _ B). cbn [bind]. apply (f_equal Ok). ring.
Qed.
Print Assumptions C40_shared_edge.
(** On a mesh of the rectangle: every evaluation succeeds, and the value at a point is the same from every triangle containing it. *)
Lemma mesh_params {A} g s m n (params : list A) t p q r : mesh g s m n -> List.length params = List.length (g_vertices g) -> triangle_at g t p q r ->
  let '(a, b, c) := t in exists u1 u2 u3, nth_error params a = Some u1 /\ nth_error params b = Some u2 /\ nth_error params c = Some u3.
Proof.
  intros M E T. destruct t as [[a b] c]. destruct T as [_ [X [Y Z]]]. rewrite (mesh_length g s m n M) in E.
  assert (K : forall v x, point_at g v x -> exists u, nth_error params v = Some u).
  { intros v x P. assert (v < List.length params)%nat by (rewrite E; apply nth_error_Some; unfold point_at in P; congruence). destruct (nth_error params v) as [u|] eqn:Q; [eauto|apply nth_error_None in Q; lia]. }
  destruct (K _ _ X) as [u1 U1], (K _ _ Y) as [u2 U2], (K _ _ Z) as [u3 U3]. exists u1, u2, u3. auto.
Qed.
Theorem C40_continuous : forall g s m n params i t p q r L t' p' q' r' L' x, 0 < s -> mesh g s m n -> P1Interpolation_ g params = Ok i ->
  triangle_at g t p q r -> bary_of p q r L x -> non_negative L -> triangle_at g t' p' q' r' -> bary_of p' q' r' L' x -> non_negative L' ->
  exists v, i_call i t L = Ok v /\ i_call i t' L' = Ok v.
Proof.
  intros g s m n params i t p q r L t' p' q' r' L' x Hs M H T B N T' B' N'. apply P1_ok in H as [-> E].
  pose proof (mesh_params g s m n params t p q r M E T) as U. pose proof (mesh_params g s m n params t' p' q' r' M E T') as U'.
  pose proof (conforming g s m n Hs M _ _ _ _ _ _ _ _ _ _ _ T B N T' B' N') as K. pose proof (conforming g s m n Hs M _ _ _ _ _ _ _ _ _ _ _ T' B' N' T B N) as K'.
  destruct t as [[a b] c], t' as [[a' b'] c']. destruct U as [u1 [u2 [u3 [U1 [U2 U3]]]]]. destruct U' as [u1' [u2' [u3' [U1' [U2' U3']]]]].
  destruct (P1_calls g params a b c p q r _ _ _ L T U1 U2 U3) as [V _]. destruct (P1_calls g params a' b' c' p' q' r' _ _ _ L' T' U1' U2' U3') as [V' _].
  rewrite V, V'. eexists. split; [reflexivity|]. apply (f_equal Ok). clear V V'.
  (* both are the sum over the positive weights *)
  set (val := fun v => match nth_error params v with Some u => u | None => 0 end).
  assert (RR : u1 = val a /\ u2 = val b /\ u3 = val c /\ u1' = val a' /\ u2' = val b' /\ u3' = val c') by (unfold val; rewrite U1, U2, U3, U1', U2', U3'; repeat split).
  destruct RR as [-> [-> [-> [-> [-> ->]]]]]. cbn [weights] in K, K'.
  pose proof (mesh_cross g s m n M _ _ _ _ T) as C. pose proof (mesh_cross g s m n M _ _ _ _ T') as C'.
  assert (D : forall a b c p q r, triangle_at g (a, b, c) p q r -> a <> b /\ b <> c /\ a <> c).
  { clear - Hs M. intros a b c p q r T. pose proof (mesh_cross g s m n M _ _ _ _ T) as C. destruct T as [_ [X [Y Z]]]. unfold point_at in *.
    assert (0 < s * s) by nra. unfold cross in C. repeat split; intros ->.
    - rewrite X in Y. injection Y as E1 E2. rewrite E1, E2 in C. lra.
    - rewrite Y in Z. injection Z as E1 E2. rewrite E1, E2 in C. lra.
    - rewrite X in Z. injection Z as E1 E2. rewrite E1, E2 in C. lra. }
  pose proof (D _ _ _ _ _ _ T) as D1. pose proof (D _ _ _ _ _ _ T') as D2. clear D.
  set (pos_sum := fun l : list (nat * R) => fold_right (fun vw acc => snd vw * val (fst vw) + acc) 0 l).
  set (P := filter (fun vw : nat * R => if Rlt_dec 0 (snd vw) then true else false)).
  assert (F : forall l, (forall v w, In (v, w) l -> 0 <= w) -> pos_sum (P l) = pos_sum l).
  { clear. intros l H. induction l as [|[v w] l IH]; [reflexivity|]. unfold P. cbn [filter snd]. fold P. destruct (Rlt_dec 0 w) as [W|W]; cbn [pos_sum fold_right]; fold (pos_sum (P l)); fold (pos_sum l); unfold pos_sum in *; cbn [fold_right fst snd].
    - rewrite IH; [reflexivity|]. intros v' w' I. apply (H v' w'). right. exact I.
    - assert (w = 0) by (pose proof (H v w (or_introl eq_refl)); lra). subst w. rewrite IH; [ring|]. intros v' w' I. apply (H v' w'). right. exact I. }
  assert (NN : forall (a b c : nat) L, non_negative L -> forall v w, In (v, w) [(a, l1 L); (b, l2 L); (c, l3 L)] -> 0 <= w).
  { clear. intros a b c L [H1 [H2 H3]] v w I. cbn in I. destruct I as [I | [I | [I | []]]]; injection I as <- <-; assumption. }
  assert (PP : Permutation (P [(a, l1 L); (b, l2 L); (c, l3 L)]) (P [(a', l1 L'); (b', l2 L'); (c', l3 L')])).
  { assert (NDl : forall (a b c : nat) (x y z : R), a <> b /\ b <> c /\ a <> c -> NoDup (P [(a, x); (b, y); (c, z)])).
    { clear. intros a b c x y z [? [? ?]]. apply NoDup_filter. repeat constructor; cbn; intuition congruence. }
    apply NoDup_Permutation; [apply NDl, D1|apply NDl, D2|]. intros [v w]. unfold P. rewrite !filter_In. cbn [snd]. destruct (Rlt_dec 0 w) as [W|W]; [|intuition discriminate].
    split; intros [I _]; split; trivial; [apply K|apply K']; assumption. }
  assert (Q : forall l l', Permutation l l' -> pos_sum l = pos_sum l').
  { clear. intros l l' H. unfold pos_sum. induction H; cbn [fold_right]; lra. }
  pose proof (F _ (NN a b c L N)) as F1. pose proof (F _ (NN a' b' c' L' N')) as F2. pose proof (Q _ _ PP) as F3. unfold pos_sum in F1, F2, F3. cbn [fold_right fst snd] in F1, F2. lra.
Qed.
Print Assumptions C40_continuous.
Theorem C40_total : forall g s m n params i t L, 0 < s -> mesh g s m n -> P1Interpolation_ g params = Ok i -> In t (g_triangles g) ->
  exists v gr, i_call i t L = Ok v /\ i_gradient i t L = Ok gr.
Proof.
  intros g s m n params i t L Hs M H I. apply P1_ok in H as [-> E]. destruct (mesh_triangle_at g s m n M t I) as [p [q [r T]]].
  pose proof (mesh_params g s m n params t p q r M E T) as U. pose proof (mesh_cross g s m n M _ _ _ _ T) as C. destruct t as [[a b] c]. destruct U as [u1 [u2 [u3 [U1 [U2 U3]]]]].
  destruct (P1_calls g params a b c p q r _ _ _ L T U1 U2 U3) as [V G]. eexists _, _. split; [exact V|]. apply G. rewrite C. nra.
Qed.
Print Assumptions C40_total.

(** A concrete mesh, with non-affine nodal values: all hypotheses of the theorems above are met. *)
Lemma ex_mesh : exists g, domain_grid std_order 1 1 FixNone (1/2) = Ok g /\ mesh g (1/2) 2 2.
Proof.
  destruct (C11_grid_succeeds std_order 1 1 FixNone (1/2)) as [m1 [n1 [g [_ [_ Hg]]]]]; try lra.
  assert (F : fits 1 (1/2) 2) by (unfold fits; simpl; lra). exists g. split; [exact Hg|].
  exact (rect_mesh std_order 1 1 FixNone (1/2) 2 2 g ex_pos F F Hg ltac:(lia) ltac:(lia)).
Qed.
Example C40_nontrivial : exists g i, domain_grid std_order 1 1 FixNone (1/2) = Ok g /\ P1Interpolation_ g (map INR (g_vertices g)) = Ok i /\
  exists t p q r, triangle_at g t p q r /\ cross p q r <> 0 /\ exists v, i_call i t (1/2, 1/3, 1/6) = Ok v.
Proof.
  destruct ex_mesh as [g [Hg M]]. exists g, (P1I g (map INR (g_vertices g))). split; [exact Hg|]. assert (I : P1Interpolation_ g (map INR (g_vertices g)) = Ok (P1I g (map INR (g_vertices g)))) by (unfold P1Interpolation_; rewrite map_length, Nat.eqb_refl; reflexivity).
  split; [exact I|]. destruct (mesh_points _ _ _ _ M 0%nat 0%nat ltac:(lia) ltac:(lia)) as [a [Va _]]. destruct (mesh_points _ _ _ _ M (0 + 1)%nat 0%nat ltac:(lia) ltac:(lia)) as [b [Vb _]]. destruct (mesh_points _ _ _ _ M (0 + 1)%nat (0 + 1)%nat ltac:(lia) ltac:(lia)) as [c [Vc _]].
  assert (It : In (a, b, c) (g_triangles g)). { apply (mesh_triangles _ _ _ _ M). exists 0%nat, 0%nat. split; [lia|]. split; [lia|]. left. repeat split; assumption || apply Va || apply Vb || apply Vc. }
  destruct (mesh_triangle_at _ _ _ _ M _ It) as [p [q [r T]]]. exists (a, b, c), p, q, r. split; [exact T|]. split; [rewrite (mesh_cross _ _ _ _ M _ _ _ _ T); lra|].
  destruct (C40_total g (1/2) 2 2 _ _ (a, b, c) (1/2, 1/3, 1/6) ex_pos M I It) as [v [_ [E _]]]. exists v. exact E.
Qed.

(** ** C44 on a grid: the C1 interpolation of a mesh has one value and one gradient at every point, whichever triangle is used. *)
Theorem C44_single_function : forall g s m n params i t p q r L t' p' q' r' L' x, 0 < s -> mesh g s m n -> C1Interpolation_ g params = Ok i ->
  triangle_at g t p q r -> bary_of p q r L x -> non_negative L -> triangle_at g t' p' q' r' -> bary_of p' q' r' L' x -> non_negative L' ->
  exists v gr, i_call i t L = Ok v /\ i_call i t' L' = Ok v /\ i_gradient i t L = Ok gr /\ i_gradient i t' L' = Ok gr.
Proof.
  intros g s m n params i t p q r L t' p' q' r' L' x Hs M H T B N T' B' N'. apply C1_ok in H as [-> [E Six]].
  pose proof (mesh_params g s m n params t p q r M E T) as U. pose proof (mesh_params g s m n params t' p' q' r' M E T') as U'.
  pose proof (conforming g s m n Hs M _ _ _ _ _ _ _ _ _ _ _ T B N T' B' N') as K.
  pose proof (mesh_cross g s m n M _ _ _ _ T) as C. pose proof (mesh_cross g s m n M _ _ _ _ T') as C'.
  destruct t as [[a b] c], t' as [[a' b'] c']. destruct U as [u1 [u2 [u3 [U1 [U2 U3]]]]]. destruct U' as [u1' [u2' [u3' [U1' [U2' U3']]]]].
  destruct (C1_calls g params a b c p q r _ _ _ L T U1 U2 U3) as [V [G _]]. destruct (C1_calls g params a' b' c' p' q' r' _ _ _ L' T' U1' U2' U3') as [V' [G' _]].
  assert (SS : forall v u, nth_error params v = Some u -> List.length u = 6%nat) by (intros v u Q; apply Six; apply (nth_error_In _ _ Q)).
  assert (Hss : 0 < s * s) by nra.
  assert (W : proper (nodes_of p q r u1 u2 u3 L)) by (unfold proper, nodes_of, non_degenerate, six_dofs; cbn [pos dofs]; rewrite C, (SS _ _ U1), (SS _ _ U2), (SS _ _ U3); repeat split; try lra; apply B).
  assert (W' : proper (nodes_of p' q' r' u1' u2' u3' L')) by (unfold proper, nodes_of, non_degenerate, six_dofs; cbn [pos dofs]; rewrite C', (SS _ _ U1'), (SS _ _ U2'), (SS _ _ U3'); repeat split; try lra; apply B').
  assert (NN : forall p q r u1 u2 u3 L, non_negative L -> forall y, In y (listed (nodes_of p q r u1 u2 u3 L)) -> 0 <= snd y).
  { clear. intros p q r u1 u2 u3 L [H1 [H2 H3]] y I. cbn in I. destruct I as [<- | [<- | [<- | []]]]; assumption. }
  (* nodes are determined by the vertex *)
  assert (ND : forall v p p' u u', point_at g v p -> point_at g v p' -> nth_error params v = Some u -> nth_error params v = Some u' -> {| pos := p; dofs := u |} = {| pos := p'; dofs := u' |}).
  { clear. intros v p p' u u' A A' B B'. unfold point_at in *. rewrite A in A'. injection A' as X Y. rewrite B in B'. injection B' as ->. destruct p, p'. cbn in *. congruence. }
  destruct T as [_ [A1 [A2 A3]]]. destruct T' as [_ [A1' [A2' A3']]]. cbn [weights] in K.
  assert (Sub : forall y, 0 < snd y -> In y (listed (nodes_of p q r u1 u2 u3 L)) -> In y (listed (nodes_of p' q' r' u1' u2' u3' L'))).
  { intros y Hy I. assert (Z : exists v u pt, In (v, snd y) [(a, l1 L); (b, l2 L); (c, l3 L)] /\ point_at g v pt /\ nth_error params v = Some u /\ y = ({| pos := pt; dofs := u |}, snd y)).
    { cbn in I. destruct I as [<- | [<- | [<- | []]]]; cbn [snd]; [exists a, u1, p|exists b, u2, q|exists c, u3, r]; cbn; auto 10. }
    destruct Z as [v [u [pt [I1 [I2 [I3 ->]]]]]]. cbn [snd] in *. apply (K _ _ Hy) in I1. cbn. destruct I1 as [Q | [Q | [Q | []]]]; injection Q as -> ->; [left|right; left|right; right; left]; f_equal; eauto. }
  destruct (agree_all _ _ W W' (NN _ _ _ _ _ _ _ N) (NN _ _ _ _ _ _ _ N') Sub) as [v [gr [X1 [X2 [X3 X4]]]]]. exists v, gr. rewrite V, V', G, G'. auto.
Qed.
Print Assumptions C44_single_function.
Theorem C44_total : forall g s m n params i t p q r L x, 0 < s -> mesh g s m n -> C1Interpolation_ g params = Ok i -> triangle_at g t p q r -> bary_of p q r L x ->
  exists v gr h, i_call i t L = Ok v /\ i_gradient i t L = Ok gr /\ i_hessian i t L = Ok h.
Proof.
  intros g s m n params i t p q r L x Hs M H T B. apply C1_ok in H as [-> [E Six]].
  pose proof (mesh_params g s m n params t p q r M E T) as U. pose proof (mesh_cross g s m n M _ _ _ _ T) as C.
  destruct t as [[a b] c]. destruct U as [u1 [u2 [u3 [U1 [U2 U3]]]]]. destruct (C1_calls g params a b c p q r _ _ _ L T U1 U2 U3) as [V [G Hh]].
  assert (SS : forall v u, nth_error params v = Some u -> List.length u = 6%nat) by (intros v u Q; apply Six; apply (nth_error_In _ _ Q)).
  assert (Hss : 0 < s * s) by nra.
  assert (W : proper (nodes_of p q r u1 u2 u3 L)) by (unfold proper, nodes_of, non_degenerate, six_dofs; cbn [pos dofs]; rewrite C, (SS _ _ U1), (SS _ _ U2), (SS _ _ U3); repeat split; try lra; apply B).
  destruct (call_all _ W) as [X1 [X2 X3]]. rewrite V, G, Hh. eauto 10.
Qed.
Print Assumptions C44_total.
(** The two triangles of the first cell, at the middle of the diagonal, with arbitrary parameters. *)
Example C44_grid_nontrivial : exists g params i, domain_grid std_order 1 1 FixNone (1/2) = Ok g /\ C1Interpolation_ g params = Ok i /\
  exists t t' v gr, t <> t' /\ In t (g_triangles g) /\ In t' (g_triangles g) /\
   i_call i t (1/2, 0, 1/2) = Ok v /\ i_call i t' (1/2, 0, 1/2) = Ok v /\ i_gradient i t (1/2, 0, 1/2) = Ok gr /\ i_gradient i t' (1/2, 0, 1/2) = Ok gr.
Proof.
  destruct ex_mesh as [g [Hg M]]. set (params := map (fun v => let a := INR v in [a * a; 3 - a; 1; a; a * a * a; 2]) (g_vertices g)).
  assert (I : C1Interpolation_ g params = Ok (C1I g params)). { unfold C1Interpolation_. replace (existsb _ params) with false; [unfold params; rewrite map_length, Nat.eqb_refl; reflexivity|]. unfold params. induction (g_vertices g); [reflexivity|exact IHl]. }
  exists g, params, (C1I g params). split; [exact Hg|]. split; [exact I|].
  destruct (mesh_points _ _ _ _ M 0%nat 0%nat ltac:(lia) ltac:(lia)) as [a [Va _]]. destruct (mesh_points _ _ _ _ M (0 + 1)%nat 0%nat ltac:(lia) ltac:(lia)) as [b [Vb _]]. destruct (mesh_points _ _ _ _ M (0 + 1)%nat (0 + 1)%nat ltac:(lia) ltac:(lia)) as [c [Vc _]]. destruct (mesh_points _ _ _ _ M 0%nat (0 + 1)%nat ltac:(lia) ltac:(lia)) as [d [Vd _]].
  assert (I1 : In (a, b, c) (g_triangles g)). { apply (mesh_triangles _ _ _ _ M). exists 0%nat, 0%nat. split; [lia|]. split; [lia|]. left. exact (conj Va (conj Vb Vc)). }
  assert (I2 : In (c, d, a) (g_triangles g)). { apply (mesh_triangles _ _ _ _ M). exists 0%nat, 0%nat. split; [lia|]. split; [lia|]. right. exact (conj Vc (conj Vd Va)). }
  assert (T1 : triangle_at g (a, b, c) (INR 0 * (1/2), INR 0 * (1/2)) (INR (0 + 1) * (1/2), INR 0 * (1/2)) (INR (0 + 1) * (1/2), INR (0 + 1) * (1/2))) by exact (conj I1 (conj (proj2 Va) (conj (proj2 Vb) (proj2 Vc)))).
  assert (T2 : triangle_at g (c, d, a) (INR (0 + 1) * (1/2), INR (0 + 1) * (1/2)) (INR 0 * (1/2), INR (0 + 1) * (1/2)) (INR 0 * (1/2), INR 0 * (1/2))) by exact (conj I2 (conj (proj2 Vc) (conj (proj2 Vd) (proj2 Va)))).
  assert (B1 : bary_of (INR 0 * (1/2), INR 0 * (1/2)) (INR (0 + 1) * (1/2), INR 0 * (1/2)) (INR (0 + 1) * (1/2), INR (0 + 1) * (1/2)) (1/2, 0, 1/2) (1/4, 1/4)) by (unfold bary_of, l1, l2, l3; simpl; repeat split; lra).
  assert (B2 : bary_of (INR (0 + 1) * (1/2), INR (0 + 1) * (1/2)) (INR 0 * (1/2), INR (0 + 1) * (1/2)) (INR 0 * (1/2), INR 0 * (1/2)) (1/2, 0, 1/2) (1/4, 1/4)) by (unfold bary_of, l1, l2, l3; simpl; repeat split; lra).
  assert (N : non_negative (1/2, 0, 1/2)) by (unfold non_negative, l1, l2, l3; simpl; repeat split; lra).
  destruct (C44_single_function g (1/2) 2 2 params _ _ _ _ _ _ _ _ _ _ _ _ ex_pos M I T1 B1 N T2 B2 N) as [v [gr K]].
  exists (a, b, c), (c, d, a), v, gr. split; [|auto]. intros Q. injection Q as -> -> _. destruct Va as [_ Va]. destruct Vb as [_ Vb]. destruct Vc as [_ Vc]. rewrite Va in Vc. injection Vc as Z. simpl in Z. lra.
Qed.

(** ** C45 on a grid: C1Interpolation.on_edge is the interpolation in any triangle having that edge, in both orientations. *)
Theorem C45_C1_on_edge : forall g s m n params i a b c lam t p q r L, 0 < s -> mesh g s m n -> C1Interpolation_ g params = Ok i ->
  triangle_at g t p q r -> Permutation [(a, lam); (b, 1 - lam); (c, 0)] (weights t L) ->
  exists v, i_call i t L = Ok v /\ i_on_edge i (a, b) lam = Ok v /\ i_on_edge i (b, a) (1 - lam) = Ok v.
Proof.
  intros g s m n params i a b c lam t p q r L Hs M H T P. apply C1_ok in H as [-> [E Six]].
  pose proof (mesh_params g s m n params t p q r M E T) as U. pose proof (mesh_cross g s m n M _ _ _ _ T) as C. assert (Hss : 0 < s * s) by nra.
  set (pt := fun v => match nth_error (g_points g) v with Some [x; y] => (x, y) | _ => (0, 0) end). set (par := fun v => match nth_error params v with Some u => u | None => [] end).
  set (nd := fun v => {| pos := pt v; dofs := par v |}).
  assert (SS : forall v u, nth_error params v = Some u -> List.length u = 6%nat) by (intros v u Q; apply Six; apply (nth_error_In _ _ Q)).
  destruct t as [[x y] z]. destruct U as [u1 [u2 [u3 [U1 [U2 U3]]]]]. destruct (C1_calls g params x y z p q r _ _ _ L T U1 U2 U3) as [V _]. pose proof T as [_ [A1 [A2 A3]]].
  assert (K : forall v w u, point_at g v w -> nth_error params v = Some u -> nth_error (g_points g) v = Some (vec (pt v)) /\ nth_error params v = Some (par v) /\ six_dofs (nd v) /\ {| pos := w; dofs := u |} = nd v).
  { intros v w u Hw Hu. unfold point_at in Hw. unfold nd, pt, par, six_dofs, vec. cbn [dofs]. rewrite Hw, Hu. cbn [fst snd]. rewrite <- surjective_pairing. repeat split. apply (SS _ _ Hu). }
  destruct (K _ _ _ A1 U1) as [K1 [K2 [K3 K4]]]. destruct (K _ _ _ A2 U2) as [K5 [K6 [K7 K8]]]. destruct (K _ _ _ A3 U3) as [K9 [K10 [K11 K12]]]. clear K.
  unfold nodes_of in V. rewrite K4, K8, K12 in V.
  assert (All : forall v, In v [x; y; z] -> nth_error (g_points g) v = Some (vec (pt v)) /\ nth_error params v = Some (par v) /\ six_dofs (nd v)) by (intros v [<- | [<- | [<- | []]]]; auto).
  assert (P' : Permutation [(nd a, lam); (nd b, 1 - lam); (nd c, 0)] (listed ((nd x, l1 L), (nd y, l2 L), (nd z, l3 L)))) by (apply (Permutation_map (fun vw => (nd (fst vw), snd vw))) in P; exact P).
  assert (Pv : Permutation [a; b; c] [x; y; z]) by (apply (Permutation_map fst) in P; exact P).
  destruct (All a) as [Pa [Qa Sa]]; [apply (Permutation_in a Pv); cbn; auto|]. destruct (All b) as [Pb [Qb Sb]]; [apply (Permutation_in b Pv); cbn; auto|]. destruct (All c) as [Pc [Qc Sc]]; [apply (Permutation_in c Pv); cbn; auto|].
  set (w0 := ((nd a, lam), (nd b, 1 - lam), (nd c, 0)) : listing). set (w := ((nd x, l1 L), (nd y, l2 L), (nd z, l3 L)) : listing) in *.
  assert (W : proper w). { unfold w, proper. repeat split; try assumption.
    - unfold non_degenerate. cbn [pos]. rewrite <- K4, <- K8, <- K12. cbn [pos]. rewrite C. lra.
    - pose proof (total_perm _ _ P') as Z. unfold w in Z. cbn in Z. lra. }
  assert (W0 : proper w0) by (apply (proper_of_perm w w0 W); apply Permutation_sym, P'). destruct W0 as [Hnd _].
  destruct (C45_on_edge (nd a) (nd b) (nd c) lam w Hnd Sa Sb Sc P') as [O1 O2]. destruct (call_all w W) as [Cw _].
  exists (wf_call w Bf). rewrite V. split; [exact Cw|]. rewrite <- Cw. clear Cw V.
  cbn [i_on_edge fst snd]. rewrite (nth_py _ _ _ Pa), (nth_py _ _ _ Pb), (nth_py _ _ _ Qa), (nth_py _ _ _ Qb). cbn [bind]. split; [exact O1|exact O2].
Qed.
Print Assumptions C45_C1_on_edge.

(** ** C47: RefinedInterpolation *)
(** On the refinement of a mesh, value, gradient and Hessian at a point of a fine triangle are those of the coarse
    interpolation at the same Euclidean point, in a coarse triangle containing the fine point whenever the fine one does. *)
Theorem C47_same_point : forall g s m n N r c t p q q' b x, 0 < s -> (1 <= m)%nat -> (1 <= n)%nat -> (1 <= N)%nat -> / 10 ^ 15 <= s / INR N -> mesh g s m n ->
  refine g (Z.of_nat N) = Ok r -> triangle_at (r_grid r) t p q q' -> bary_of p q q' b x ->
  exists T P Q Q' b', triangle_at g T P Q Q' /\ bary_of P Q Q' b' x /\ (non_negative b -> non_negative b') /\
    i_call (RefI c r) t b = i_call c T b' /\ i_gradient (RefI c r) t b = i_gradient c T b' /\ i_hessian (RefI c r) t b = i_hessian c T b'.
Proof.
  intros g s m n N r c t p q q' b x Hs Hm Hn HN He M Rf HT HB.
  destruct (C29_same_point g s m n N r t p q q' b x Hs Hm Hn HN He M Rf HT HB) as [T [P [Q [Q' [b' [E [HT' [HB' NN]]]]]]]].
  destruct (setup_of g s m n N r Hs Hm Hn HN He M Rf) as [_ [_ [C [Ts [Es SU]]]]]. rewrite (su_c _ _ _ _ _ _ _ _ _ SU) in HT'.
  exists T, P, Q, Q', b'. split; [exact HT'|]. split; [exact HB'|]. split.
  - intros [H1 [H2 H3]]. destruct HB as [Sb _]. unfold non_negative. destruct NN as [N1 [N2 N3]]; lra.
  - cbn [i_call i_gradient i_hessian]. rewrite E. auto.
Qed.
Print Assumptions C47_same_point.
(** For the C1 interpolation this determines value and gradient: every coarse triangle containing the point gives the same ones. *)
Theorem C47_value_and_gradient : forall g s m n N r params c t p q q' b x T P Q Q' B, 0 < s -> (1 <= m)%nat -> (1 <= n)%nat -> (1 <= N)%nat -> / 10 ^ 15 <= s / INR N -> mesh g s m n ->
  refine g (Z.of_nat N) = Ok r -> C1Interpolation_ g params = Ok c ->
  triangle_at (r_grid r) t p q q' -> bary_of p q q' b x -> non_negative b -> triangle_at g T P Q Q' -> bary_of P Q Q' B x -> non_negative B ->
  exists v gr, i_call (RefI c r) t b = Ok v /\ i_call c T B = Ok v /\ i_gradient (RefI c r) t b = Ok gr /\ i_gradient c T B = Ok gr.
Proof.
  intros g s m n N r params c t p q q' b x T P Q Q' B Hs Hm Hn HN He M Rf Hc HT HB Nb HT0 HB0 N0.
  destruct (C47_same_point g s m n N r c t p q q' b x Hs Hm Hn HN He M Rf HT HB) as [T1 [P1 [Q1 [Q1' [b' [HT1 [HB1 [NN [-> [-> _]]]]]]]]]].
  apply (C44_single_function g s m n params c T1 P1 Q1 Q1' b' T P Q Q' B x Hs M Hc HT1 HB1 (NN Nb) HT0 HB0 N0).
Qed.
Print Assumptions C47_value_and_gradient.
(** The same for the values of the P1 interpolation. *)
Theorem C47_P1_value : forall g s m n N r params c t p q q' b x T P Q Q' B, 0 < s -> (1 <= m)%nat -> (1 <= n)%nat -> (1 <= N)%nat -> / 10 ^ 15 <= s / INR N -> mesh g s m n ->
  refine g (Z.of_nat N) = Ok r -> P1Interpolation_ g params = Ok c ->
  triangle_at (r_grid r) t p q q' -> bary_of p q q' b x -> non_negative b -> triangle_at g T P Q Q' -> bary_of P Q Q' B x -> non_negative B ->
  exists v, i_call (RefI c r) t b = Ok v /\ i_call c T B = Ok v.
Proof.
  intros g s m n N r params c t p q q' b x T P Q Q' B Hs Hm Hn HN He M Rf Hc HT HB Nb HT0 HB0 N0.
  destruct (C47_same_point g s m n N r c t p q q' b x Hs Hm Hn HN He M Rf HT HB) as [T1 [P1 [Q1 [Q1' [b' [HT1 [HB1 [NN [-> _]]]]]]]]].
  apply (C40_continuous g s m n params c T1 P1 Q1 Q1' b' T P Q Q' B x Hs M Hc HT1 HB1 (NN Nb) HT0 HB0 N0).
Qed.
Print Assumptions C47_P1_value.
(** On the axis-parallel edges (in particular on the boundary). *)
Theorem C47_on_edge : forall g s m n N r c e e' t, 0 < s -> (1 <= m)%nat -> (1 <= n)%nat -> (1 <= N)%nat -> / 10 ^ 15 <= s / INR N -> mesh g s m n ->
  refine g (Z.of_nat N) = Ok r -> In e (g_edges g) -> axis_parallel g e -> In e' (g_edges (r_grid r)) -> lies_on (r_grid r) e' g e ->
  exists t', i_on_edge (RefI c r) e' t = i_on_edge c e t' /\ forall z, edge_point (r_grid r) e' t z -> edge_point g e t' z.
Proof.
  intros g s m n N r c e e' t Hs Hm Hn HN He M Rf Ie Ax Ie' Lo.
  destruct (C30_same_edge_point g s m n N r e e' t Hs Hm Hn HN He M Rf Ie Ax Ie' Lo) as [t' [E [_ K]]]. exists t'. cbn [i_on_edge]. rewrite E. auto.
Qed.
Print Assumptions C47_on_edge.
Example C47_nontrivial : exists g r params c t p q q' x v, domain_grid std_order 1 1 (FixOne "left"%string) (1/2) = Ok g /\ refine g 3 = Ok r /\ C1Interpolation_ g params = Ok c /\
  triangle_at (r_grid r) t p q q' /\ bary_of p q q' (1/3, 1/3, 1/3) x /\ i_call (RefI c r) t (1/3, 1/3, 1/3) = Ok v.
Proof.
  destruct ex_refined as [g [r [Hg [Rf [M [M' [_ He]]]]]]]. set (params := map (fun v => let a := INR v in [a * a; 3 - a; 1; a; a * a * a; 2]) (g_vertices g)).
  assert (I : C1Interpolation_ g params = Ok (C1I g params)). { unfold C1Interpolation_. replace (existsb _ params) with false; [unfold params; rewrite map_length, Nat.eqb_refl; reflexivity|]. unfold params. induction (g_vertices g); [reflexivity|exact IHl]. }
  destruct C29_example as [g0 [r0 [t [p [q [q' [x [Hg0 [R0 [HT [HB _]]]]]]]]]]]. rewrite Hg in Hg0. injection Hg0 as <-. rewrite Rf in R0. injection R0 as <-.
  destruct (C47_same_point g (1/2) 2 2 3 r (C1I g params) t p q q' _ x ex_pos ltac:(lia) ltac:(lia) ltac:(lia) He M Rf HT HB) as [T [P [Q [Q' [b' [HT' [HB' [_ [E _]]]]]]]]].
  destruct (C44_total g (1/2) 2 2 params _ _ _ _ _ _ _ ex_pos M I HT' HB') as [v [_ [_ [E' _]]]].
  exists g, r, params, (C1I g params), t, p, q, q', x, v. rewrite E. auto 10.
Qed.

(** ** C48: EuclideanInterpolation and EuclideanDeformation *)
(** Every evaluation is the evaluation in a grid triangle at coordinates of the given point; ValueError if there is none. *)
Theorem C48_same_point : forall so w h f s m n g i x, 0 < s -> fits w s m -> fits h s n -> domain_grid so w h f s = Ok g -> i_grid i = g ->
  (exists t p q r L, triangle_at g t p q r /\ bary_of p q r L x /\ to_barycentric_point g (vec x) = Ok (Some (t, L)) /\ euclid_call i (fst x) (snd x) = i_call i t L /\
     euclid_gradient i (fst x) (snd x) = i_gradient i t L /\ euclid_hessian i (fst x) (snd x) = i_hessian i t L) \/
  (to_barycentric_point g (vec x) = Ok None /\ euclid_call i (fst x) (snd x) = Err ValueError /\ euclid_gradient i (fst x) (snd x) = Err ValueError /\ euclid_hessian i (fst x) (snd x) = Err ValueError).
Proof.
  intros so w h f s m n g i x Hs Hm Hn Hg Hi. destruct (C20_never_raises _ _ _ _ _ _ _ _ x Hs Hm Hn Hg) as [[[t L]|] E].
  - left. destruct (C20_coordinates_reproduce_point _ _ _ _ _ _ _ _ _ _ _ Hs Hm Hn Hg E) as [p [q [r [T B]]]]. exists t, p, q, r, L.
    unfold euclid_call, euclid_gradient, euclid_hessian, to_barycentric_inputs. rewrite Hi. unfold vec in *. rewrite E. cbn [bind]. auto 10.
  - right. unfold euclid_call, euclid_gradient, euclid_hessian, to_barycentric_inputs. rewrite Hi. unfold vec in *. rewrite E. cbn [bind]. auto.
Qed.
Print Assumptions C48_same_point.
(** Total on the closed rectangle. *)
Theorem C48_total : forall so w h f s m n g x, 0 < s -> fits w s m -> fits h s n -> domain_grid so w h f s = Ok g -> (1 <= m)%nat -> (1 <= n)%nat ->
  0 <= fst x <= INR m * s -> 0 <= snd x <= INR n * s ->
  (forall params i, P1Interpolation_ g params = Ok i -> exists v gr, euclid_call i (fst x) (snd x) = Ok v /\ euclid_gradient i (fst x) (snd x) = Ok gr) /\
  (forall params i, C1Interpolation_ g params = Ok i -> exists v gr h, euclid_call i (fst x) (snd x) = Ok v /\ euclid_gradient i (fst x) (snd x) = Ok gr /\ euclid_hessian i (fst x) (snd x) = Ok h).
Proof.
  intros so w h f s m n g x Hs Hm Hn Hg Hm1 Hn1 Hx Hy. pose proof (rect_mesh so w h f s m n g Hs Hm Hn Hg Hm1 Hn1) as M.
  destruct (C20_inside_is_found _ _ _ _ _ _ _ _ x Hs Hm Hn Hg Hm1 Hn1 Hx Hy) as [t0 [L0 E0]]. split; intros params i I.
  - assert (Gi : i_grid i = g) by (destruct (P1_ok _ _ _ I) as [-> _]; reflexivity).
    destruct (C48_same_point so w h f s m n g i x Hs Hm Hn Hg Gi) as [[t [p [q [r [L [T [B [_ [-> [-> _]]]]]]]]]] | [E _]]; [|rewrite E0 in E; discriminate].
    apply (C40_total g s m n params i t L Hs M I). destruct t as [[? ?] ?]. apply T.
  - assert (Gi : i_grid i = g) by (destruct (C1_ok _ _ _ I) as [-> _]; reflexivity).
    destruct (C48_same_point so w h f s m n g i x Hs Hm Hn Hg Gi) as [[t [p [q [r [L [T [B [_ [-> [-> ->]]]]]]]]]] | [E _]]; [|rewrite E0 in E; discriminate].
    apply (C44_total g s m n params i t p q r L x Hs M I T B).
Qed.
Print Assumptions C48_total.
(** Affine functions are reproduced wherever the evaluation succeeds, with their gradient. *)
Theorem C48_affine : forall so w h f s m n g params i al be ga x, 0 < s -> fits w s m -> fits h s n -> domain_grid so w h f s = Ok g -> (1 <= m)%nat -> (1 <= n)%nat ->
  P1Interpolation_ g params = Ok i -> samples g (affine al be ga) params ->
  0 <= fst x <= INR m * s -> 0 <= snd x <= INR n * s ->
  euclid_call i (fst x) (snd x) = Ok (affine al be ga x) /\ euclid_gradient i (fst x) (snd x) = Ok (gradient_value al be).
Proof.
  intros so w h f s m n g params i al be ga x Hs Hm Hn Hg Hm1 Hn1 I Sa Hx Hy. pose proof (rect_mesh so w h f s m n g Hs Hm Hn Hg Hm1 Hn1) as M.
  destruct (C20_inside_is_found _ _ _ _ _ _ _ _ x Hs Hm Hn Hg Hm1 Hn1 Hx Hy) as [t0 [L0 E0]]. assert (Gi : i_grid i = g) by (destruct (P1_ok _ _ _ I) as [-> _]; reflexivity).
  destruct (C48_same_point so w h f s m n g i x Hs Hm Hn Hg Gi) as [[t [p [q [r [L [T [B [_ [-> [-> _]]]]]]]]]] | [E _]]; [|rewrite E0 in E; discriminate].
  apply (C40_affine g params i t p q r al be ga L x I T); try assumption. rewrite (mesh_cross g s m n M _ _ _ _ T). nra.
Qed.
Print Assumptions C48_affine.
(** Quartic polynomials are reproduced by the C1 interpolation, with gradient and Hessian. *)
Theorem C48_quartic : forall so w h f s m n g params i P x, 0 < s -> fits w s m -> fits h s n -> domain_grid so w h f s = Ok g -> (1 <= m)%nat -> (1 <= n)%nat ->
  C1Interpolation_ g params = Ok i -> degree_le 4 P -> samples g (jet (peval P)) params ->
  0 <= fst x <= INR m * s -> 0 <= snd x <= INR n * s ->
  let at_x (F : R -> R -> R) := F (fst x) (snd x) in
  euclid_call i (fst x) (snd x) = Ok (at_x (peval P)) /\
  euclid_gradient i (fst x) (snd x) = Ok (gradient_value (at_x (d_x (peval P))) (at_x (d_y (peval P)))) /\
  euclid_hessian i (fst x) (snd x) = Ok (hessian_value (at_x (d_x (d_x (peval P)))) (at_x (d_y (d_x (peval P)))) (at_x (d_y (d_y (peval P))))).
Proof.
  intros so w h f s m n g params i P x Hs Hm Hn Hg Hm1 Hn1 I D Sa Hx Hy. cbv zeta. pose proof (rect_mesh so w h f s m n g Hs Hm Hn Hg Hm1 Hn1) as M.
  destruct (C20_inside_is_found _ _ _ _ _ _ _ _ x Hs Hm Hn Hg Hm1 Hn1 Hx Hy) as [t0 [L0 E0]]. assert (Gi : i_grid i = g) by (destruct (C1_ok _ _ _ I) as [-> _]; reflexivity).
  destruct (C48_same_point so w h f s m n g i x Hs Hm Hn Hg Gi) as [[t [p [q [r [L [T [B [_ [-> [-> ->]]]]]]]]]] | [E _]]; [|rewrite E0 in E; discriminate].
  apply C1_ok in I as [-> _]. assert (Hc : cross p q r <> 0) by (rewrite (mesh_cross g s m n M _ _ _ _ T); nra).
  destruct t as [[a b] c]. pose proof T as [_ [A1 [A2 A3]]]. destruct (C1_calls g params a b c p q r _ _ _ L T (Sa _ _ A1) (Sa _ _ A2) (Sa _ _ A3)) as [-> [-> ->]].
  destruct (C42_quartic P p q r L x D Hc B) as [V [G Hh]]. destruct L as [[L1 L2] L3]. exact (conj V (conj G Hh)).
Qed.
Print Assumptions C48_quartic.
(** Points further outside than the tolerance are rejected. *)
Theorem C48_outside : forall so w h f s m n g i x, 0 < s -> fits w s m -> fits h s n -> domain_grid so w h f s = Ok g -> i_grid i = g -> / 10 ^ 10 <= s * s ->
  let d := 2 * / 10 ^ 10 / s in
  fst x < - d \/ INR m * s + d < fst x \/ snd x < - d \/ INR n * s + d < snd x ->
  euclid_call i (fst x) (snd x) = Err ValueError /\ euclid_gradient i (fst x) (snd x) = Err ValueError /\ euclid_hessian i (fst x) (snd x) = Err ValueError.
Proof.
  intros so w h f s m n g i x Hs Hm Hn Hg Gi Hb d Hx. pose proof (C20_outside_is_none so w h f s m n g x Hs Hm Hn Hg Hb Hx) as E.
  destruct (C48_same_point so w h f s m n g i x Hs Hm Hn Hg Gi) as [[t [p [q [r [L [_ [_ [E' _]]]]]]]] | [_ K]]; [rewrite E in E'; discriminate|exact K].
Qed.
Print Assumptions C48_outside.
(** EuclideanDeformation: point, strain and hyper strain are assembled from the two components. *)
Theorem C48_deformation : forall y1 y2 x y v1 v2 g1 g1' g2 g2' a b c a' b' c',
  euclid_call y1 x y = Ok v1 -> euclid_call y2 x y = Ok v2 ->
  euclid_gradient y1 x y = Ok (gradient_value g1 g1') -> euclid_gradient y2 x y = Ok (gradient_value g2 g2') ->
  edeform_call y1 y2 x y = Ok [v1; v2] /\ edeform_strain y1 y2 x y = Ok (mkMatrix 2 2 [[g1; g1']; [g2; g2']]) /\
  (euclid_hessian y1 x y = Ok (hessian_value a b c) -> euclid_hessian y2 x y = Ok (hessian_value a' b' c') ->
   exists T, edeform_hyper_strain y1 y2 x y = Ok T /\ t_data T = [[[a; b]; [b; c]]; [[a'; b']; [b'; c']]]).
Proof.
  intros y1 y2 x y v1 v2 g1 g1' g2 g2' a b c a' b' c' V1 V2 G1 G2. unfold edeform_call, edeform_strain, edeform_hyper_strain. rewrite V1, V2, G1, G2. cbn [bind].
  split; [reflexivity|]. split; [reflexivity|]. intros H1 H2. rewrite H1, H2. eexists. split; reflexivity.
Qed.
Print Assumptions C48_deformation.
Theorem C48_identity_strain : forall so w h f s m n g p1 p2 y1 y2 x, 0 < s -> fits w s m -> fits h s n -> domain_grid so w h f s = Ok g -> (1 <= m)%nat -> (1 <= n)%nat ->
  P1Interpolation_ g p1 = Ok y1 -> P1Interpolation_ g p2 = Ok y2 -> samples g fst p1 -> samples g snd p2 -> 0 <= fst x <= INR m * s -> 0 <= snd x <= INR n * s ->
  edeform_call y1 y2 (fst x) (snd x) = Ok (vec x) /\ edeform_strain y1 y2 (fst x) (snd x) = Ok (mkMatrix 2 2 [[1; 0]; [0; 1]]).
Proof.
  intros so w h f s m n g p1 p2 y1 y2 x Hs Hm Hn Hg Hm1 Hn1 I1 I2 S1 S2 Hx Hy.
  assert (S1' : samples g (affine 1 0 0) p1) by (intros v p A; rewrite (S1 v p A); apply (f_equal Some); unfold affine; ring).
  assert (S2' : samples g (affine 0 1 0) p2) by (intros v p A; rewrite (S2 v p A); apply (f_equal Some); unfold affine; ring).
  destruct (C48_affine so w h f s m n g p1 y1 1 0 0 x Hs Hm Hn Hg Hm1 Hn1 I1 S1' Hx Hy) as [V1 G1]. destruct (C48_affine so w h f s m n g p2 y2 0 1 0 x Hs Hm Hn Hg Hm1 Hn1 I2 S2' Hx Hy) as [V2 G2].
  destruct (C48_deformation y1 y2 _ _ _ _ _ _ _ _ 0 0 0 0 0 0 V1 V2 G1 G2) as [E1 [E2 _]]. rewrite E1, E2. split; [|reflexivity]. apply (f_equal Ok). unfold vec, affine. apply (f_equal2 (@cons R)); [ring|apply (f_equal2 (@cons R)); [ring|reflexivity]].
Qed.
Print Assumptions C48_identity_strain.
Example C48_nontrivial : exists g params i, domain_grid std_order 1 1 FixNone (1/2) = Ok g /\ P1Interpolation_ g params = Ok i /\ samples g (affine 2 (-3) 5) params /\
  euclid_call i (1/3) (4/5) = Ok (affine 2 (-3) 5 (1/3, 4/5)) /\ euclid_call i 2 0 = Err ValueError.
Proof.
  destruct ex_mesh as [g [Hg M]]. assert (F : fits 1 (1/2) 2) by (unfold fits; simpl; lra).
  set (params := map (fun p : vector R => affine 2 (-3) 5 (nth 0 p 0, nth 1 p 0)) (g_points g)).
  assert (I : P1Interpolation_ g params = Ok (P1I g params)) by (unfold P1Interpolation_, params; rewrite map_length, (mesh_length _ _ _ _ M), Nat.eqb_refl; reflexivity).
  assert (Sa : samples g (affine 2 (-3) 5) params). { intros v p A. unfold params. unfold point_at in A. rewrite nth_error_map, A. reflexivity. }
  exists g, params, (P1I g params). split; [exact Hg|]. split; [exact I|]. split; [exact Sa|]. split.
  - apply (C48_affine std_order 1 1 FixNone (1/2) 2 2 g params _ 2 (-3) 5 (1/3, 4/5) ex_pos F F Hg); try assumption; try lia; simpl; lra.
  - apply (C48_outside std_order 1 1 FixNone (1/2) 2 2 g (P1I g params) (2, 0) ex_pos F F Hg eq_refl); simpl; lra.
Qed.

(** ** C49: parameter counts *)
Theorem C49_P1 : forall g params,
  (List.length params = List.length (g_vertices g) -> exists i, P1Interpolation_ g params = Ok i) /\
  (List.length params <> List.length (g_vertices g) -> P1Interpolation_ g params = Err ValueError).
Proof.
  intros g params. unfold P1Interpolation_. split; intros H.
  - rewrite H, Nat.eqb_refl. exists (P1I g params). reflexivity.
  - apply Nat.eqb_neq in H. rewrite H. reflexivity.
Qed.
Print Assumptions C49_P1.
Theorem C49_C1 : forall g params,
  (List.length params = List.length (g_vertices g) /\ (forall u, In u params -> List.length u = 6%nat) -> exists i, C1Interpolation_ g params = Ok i) /\
  (List.length params <> List.length (g_vertices g) \/ (exists u, In u params /\ List.length u <> 6%nat) -> C1Interpolation_ g params = Err ValueError).
Proof.
  intros g params. unfold C1Interpolation_. split.
  - intros [H K]. replace (existsb _ params) with false. { rewrite H, Nat.eqb_refl. exists (C1I g params). reflexivity. }
    symmetry. apply Bool.not_true_iff_false. intros E. apply existsb_exists in E as [u [Iu E]]. rewrite (K u Iu) in E. discriminate.
  - intros H. destruct (existsb _ params) eqn:E; [reflexivity|]. destruct H as [H | [u [Iu H]]].
    + apply Nat.eqb_neq in H. rewrite H. reflexivity.
    + exfalso. assert (existsb (fun p => negb (Nat.eqb (List.length p) 6)) params = true); [|congruence]. apply existsb_exists. exists u. apply Nat.eqb_neq in H. rewrite H. auto.
Qed.
Print Assumptions C49_C1.
Theorem C49_boundary : forall b params,
  (List.length params = List.length (b_vertices b) -> exists d, P1BoundaryInterpolation_ b params = Ok d) /\
  (List.length params <> List.length (b_vertices b) -> P1BoundaryInterpolation_ b params = Err ValueError).
Proof.
  intros b params. unfold P1BoundaryInterpolation_. split; intros H.
  - rewrite H, Nat.eqb_refl. exists params. reflexivity.
  - apply Nat.eqb_neq in H. rewrite H. reflexivity.
Qed.
Print Assumptions C49_boundary.
(** The boundary interpolation at an edge: linear between the two values; an edge with an end that has no parameter raises KeyError. *)
Theorem C49_boundary_values : forall b params d e t, P1BoundaryInterpolation_ b params = Ok d ->
  (forall u v, dget Nat.eqb (fst e) params = Ok u -> dget Nat.eqb (snd e) params = Ok v -> p1b_call d e t = Ok (t * u + (1 - t) * v)) /\
  ((~ In (fst e) (map fst params) \/ ~ In (snd e) (map fst params)) -> p1b_call d e t = Err KeyError).
Proof.
  intros b params d e t H. unfold P1BoundaryInterpolation_ in H. destruct (negb _); [discriminate|]. injection H as <-. unfold p1b_call. split.
  - intros u v -> ->. reflexivity.
  - assert (K : forall k, ~ In k (map fst params) -> dget Nat.eqb k params = Err KeyError).
    { clear. intros k. induction params as [|[k' v] l IH]; cbn; [reflexivity|]. intros H. unfold dget in *. cbn. destruct (Nat.eqb k k') eqn:E; [apply Nat.eqb_eq in E; subst; exfalso; auto|]. apply IH. auto. }
    intros [N|N]; rewrite (K _ N); [reflexivity|]. assert (Y : exists x, dget Nat.eqb (fst e) params = x) by eauto. destruct Y as [[x|er] Y]; rewrite Y; [reflexivity|]. cbn [bind].
    assert (er = KeyError); [|congruence]. clear - Y. revert Y. generalize (fst e). intros k. unfold dget. destruct (dfind Nat.eqb k params); congruence.
Qed.
Print Assumptions C49_boundary_values.
(** Second derivatives of P1 interpolations are never available; the Bell functions insist on 18 parameters. *)
Theorem C49_P1_hessian : forall g params i t L, P1Interpolation_ g params = Ok i -> i_hessian i t L = Err NotImplementedError.
Proof. intros g params i t L H. apply P1_ok in H as [-> _]. reflexivity. Qed.
Print Assumptions C49_P1_hessian.
Theorem C49_bell_sizes : forall tv L (ps : vector R), List.length ps <> 18%nat ->
  bell_interpolation tv L ps = Err ValueError /\ bell_interpolation_gradient tv L ps = Err ValueError /\ bell_interpolation_hessian tv L ps = Err ValueError.
Proof.
  intros tv L ps H. apply Nat.eqb_neq in H. unfold bell_interpolation, bell_interpolation_gradient, bell_interpolation_hessian. rewrite H. cbn [negb]. auto.
Qed.
Print Assumptions C49_bell_sizes.
(** Triangles that do not belong to the grid are rejected by the C1 interpolation (and by the P1 gradient). *)
Theorem C49_foreign_triangle : forall g t L, ~ In t (g_triangles g) ->
  (forall params i, C1Interpolation_ g params = Ok i -> i_call i t L = Err ValueError /\ i_gradient i t L = Err ValueError /\ i_hessian i t L = Err ValueError) /\
  (forall params i gr, P1Interpolation_ g params = Ok i -> i_gradient i t L <> Ok gr).
Proof.
  intros g t L N. assert (E : triangle_vertices g t = Err ValueError).
  { unfold triangle_vertices. destruct (py_in triangle_eqb t (g_triangles g)) eqn:E; [|reflexivity]. apply py_in_triple in E. contradiction. }
  split; intros params i.
  - intros I. apply C1_ok in I as [-> _]. cbn [i_call i_gradient i_hessian]. rewrite E. auto.
  - intros gr I. apply P1_ok in I as [-> _]. destruct t as [[a b] c]. cbn [i_gradient]. rewrite E. intros H.
    apply bind_ok in H as [? [_ H]]. apply bind_ok in H as [? [_ H]]. apply bind_ok in H as [? [_ H]]. discriminate H.
Qed.
Print Assumptions C49_foreign_triangle.
Example C49_nontrivial : exists g, domain_grid std_order 1 1 FixNone (1/2) = Ok g /\ P1Interpolation_ g [1; 2] = Err ValueError /\
  C1Interpolation_ g (map (fun _ => [0; 0; 0; 0; 0; 0]) (g_vertices g)) <> Err ValueError /\ C1Interpolation_ g (map (fun _ => [0; 0; 0; 0; 0]) (g_vertices g)) = Err ValueError.
Proof.
  destruct ex_mesh as [g [Hg M]]. assert (F : fits 1 (1/2) 2) by (unfold fits; simpl; lra). destruct (C11_vertices_numbered _ _ _ _ _ _ _ _ ex_pos F F Hg) as [V _].
  exists g. split; [exact Hg|]. split; [apply (proj2 (C49_P1 g [1; 2])); rewrite V, seq_length; cbn; lia|]. split.
  - destruct (proj1 (C49_C1 g (map (fun _ => [0; 0; 0; 0; 0; 0]) (g_vertices g)))) as [i E]; [|rewrite E; discriminate]. split; [apply map_length|]. intros u Iu. apply in_map_iff in Iu as [? [<- _]]. reflexivity.
  - apply (proj2 (C49_C1 g _)). right. exists [0; 0; 0; 0; 0]. split; [|cbn; lia]. rewrite V. cbn. auto.
Qed.
