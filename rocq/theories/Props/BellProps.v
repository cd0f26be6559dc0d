(** * Theorems about the Bell element (C41-C46) *)
From Coq Require Import Reals Lra Lia List Permutation.
From Coquelicot Require Import Coquelicot.
From Verif.Model Require Import Py Num Tensors Bell.
From Verif.Spec Require Import GridSpec QuadSpec BellSpec.
From Verif.Proofs Require Import Lib BellP BellV BellDer BellQ BellE BellG.
Local Open Scope R_scope.
Import ListNotations.

(** A non-degenerate triangle used in the examples below. *)
Definition exA : R * R := (1, 2). Definition exB : R * R := (4, 3). Definition exC : R * R := (2, 5). Definition exD : R * R := (5, -1).
Lemma ex_nd : cross exA exB exC <> 0. Proof. unfold cross, exA, exB, exC. cbn [fst snd]. lra. Qed.
Lemma ex_nd' : cross exA exB exD <> 0. Proof. unfold cross, exA, exB, exD. cbn [fst snd]. lra. Qed.
Definition exn (p : R * R) (a : R) : node := {| pos := p; dofs := [a; a + 1; 2 * a; 3 - a; a * a; 7] |}.

(** ** C41: at a vertex, listed at any position, the six parameters of that vertex are returned. *)
Theorem C41_vertex : forall n n' n'' u u_x u_y u_xx u_xy u_yy w,
  non_degenerate n n' n'' -> six_dofs n' -> six_dofs n'' -> dofs n = [u; u_x; u_y; u_xx; u_xy; u_yy] ->
  Permutation [(n, 1); (n', 0); (n'', 0)] (listed w) ->
  call bell_interpolation w = Ok u /\
  call bell_interpolation_gradient w = Ok (gradient_value u_x u_y) /\
  call bell_interpolation_hessian w = Ok (hessian_value u_xx u_xy u_yy).
Proof.
  intros n n' n'' u ux uy uxx uxy uyy w H E2 E3 E1 P.
  set (w0 := ((n, 1), (n', 0), (n'', 0)) : listing).
  assert (E1' : six_dofs n) by (unfold six_dofs; rewrite E1; reflexivity).
  assert (W : proper w0) by (unfold w0, proper; repeat split; try assumption; lra).
  destruct (numbering_all w0 w W P) as [_ [-> ->]]. rewrite (numbering w0 w); [|intros x Hx; cbn in Hx; intuition (subst; assumption)|exact P].
  destruct (call_all w0 W) as [-> [-> ->]].
  assert (X : place w0 = pos n) by (unfold w0, place; destruct (pos n); cbn [fst snd]; f_equal; ring).
  unfold wf_call, w0. fold w0. rewrite X, E1. destruct (vertex_all (pos n) (pos n') (pos n'') u ux uy uxx uxy uyy (dofs n') (dofs n'') H E2 E3) as [A0 [A1 [A2 [A3 [A4 A5]]]]].
  rewrite A0, A1, A2, A3, A4, A5. auto.
Qed.
Print Assumptions C41_vertex.
Example C41_nontrivial : non_degenerate (exn exA 5) (exn exB 7) (exn exC 0) /\ six_dofs (exn exB 7) /\
  call bell_interpolation_hessian ((exn exC 0, 0), (exn exA 5, 1), (exn exB 7, 0)) = Ok (hessian_value (3 - 5) (5 * 5) 7).
Proof.
  split; [exact ex_nd|]. split; [reflexivity|].
  apply (C41_vertex (exn exA 5) (exn exB 7) (exn exC 0) 5 (5 + 1) (2 * 5) (3 - 5) (5 * 5) 7); try reflexivity; [exact ex_nd|].
  cbn. apply Permutation_sym, perm_trans with [(exn exA 5, 1); (exn exC 0, 0); (exn exB 7, 0)]; [apply perm_swap|apply perm_skip, perm_swap].
Qed.

(** ** C42: quartic polynomials are reproduced, with gradient and Hessian. *)
Theorem C42_quartic : forall P p q r L x, degree_le 4 P -> cross p q r <> 0 -> bary_of p q r L x ->
  let ps := jet (peval P) p ++ jet (peval P) q ++ jet (peval P) r in
  let at_x (g : R -> R -> R) := g (fst x) (snd x) in
  let T := (vec p, vec q, vec r) in
  bell_interpolation T L ps = Ok (at_x (peval P)) /\
  bell_interpolation_gradient T L ps = Ok (gradient_value (at_x (d_x (peval P))) (at_x (d_y (peval P)))) /\
  bell_interpolation_hessian T L ps =
    Ok (hessian_value (at_x (d_x (d_x (peval P)))) (at_x (d_y (d_x (peval P)))) (at_x (d_y (d_y (peval P))))).
Proof.
  intros P p q r L x D H B. cbv zeta. change (vec p, vec q, vec r) with (tri p q r).
  destruct (quartic_first p q r P H D (fst x) (snd x)) as [F1 F2]. destruct (quartic_second p q r P H D (fst x) (snd x)) as [S1 [S2 S3]].
  assert (E : length (jet (peval P) p ++ jet (peval P) q ++ jet (peval P) r) = 18%nat) by reflexivity.
  rewrite (value_B p q r _ H E L x B), (gradient_B p q r _ H E L x B), (hessian_B p q r _ H E L x B).
  rewrite (quartic_Bf p q r P H D), F1, F2, S1, S2, S3. auto.
Qed.
Print Assumptions C42_quartic.
(** Example: x^3 y + 2 y^2 on the example triangle at (11/4, 13/4), inside. *)
Definition exP : poly2 := [(1, (3%nat, 1%nat)); (2, (0%nat, 2%nat))].
Example C42_nontrivial : degree_le 4 exP /\ bary_of exA exB exC (1/4, 1/2, 1/4) (11/4, 13/4) /\
  bell_interpolation (vec exA, vec exB, vec exC) (1/4, 1/2, 1/4) (jet (peval exP) exA ++ jet (peval exP) exB ++ jet (peval exP) exC) =
    Ok ((11/4) ^ 3 * (13/4) + 2 * (13/4) ^ 2).
Proof.
  assert (D : degree_le 4 exP) by (intros c i j [E | [E | []]]; injection E as _ <- <-; lia).
  assert (B : bary_of exA exB exC (1/4, 1/2, 1/4) (11/4, 13/4)) by (unfold bary_of, l1, l2, l3, exA, exB, exC; cbn [fst snd]; repeat split; lra).
  split; [exact D|split; [exact B|]]. destruct (C42_quartic exP exA exB exC _ _ D ex_nd B) as [-> _]. apply (f_equal Ok). unfold peval, exP. cbn [fold_right fst snd]. field.
Qed.

(** ** C43: the code's gradient and Hessian are the partial derivatives of the function the code's values define. *)
Theorem C43_derivatives : forall p q r ps, cross p q r <> 0 -> length ps = 18%nat ->
  exists f fx fy fxx fxy fyy : R -> R -> R,
    partials f fx fy /\ partials fx fxx fxy /\ partials fy fxy fyy /\
    forall L x, bary_of p q r L x -> let T := (vec p, vec q, vec r) in let at_x (g : R -> R -> R) := g (fst x) (snd x) in
      bell_interpolation T L ps = Ok (at_x f) /\
      bell_interpolation_gradient T L ps = Ok (gradient_value (at_x fx) (at_x fy)) /\
      bell_interpolation_hessian T L ps = Ok (hessian_value (at_x fxx) (at_x fxy) (at_x fyy)).
Proof.
  intros p q r ps H E. exists (Bf p q r ps), (Bx p q r ps), (By p q r ps), (Bxx p q r ps), (Bxy p q r ps), (Byy p q r ps).
  split; [apply partials_B, H|split; [apply partials_Bx, H|split; [apply partials_By, H|]]].
  intros L x B. cbv zeta. change (vec p, vec q, vec r) with (tri p q r).
  split; [apply value_B; assumption|split; [apply gradient_B; assumption|apply hessian_B; assumption]].
Qed.
Print Assumptions C43_derivatives.
(** The point of the plane determines the coordinates and conversely, so the functions are unique: *)
Theorem C43_everywhere : forall p q r, cross p q r <> 0 -> forall x, exists! L, bary_of p q r L x.
Proof. intros p q r H [x y]. exists (bcoords p q r x y). split; [exact (bary_bcoords p q r H x y)|]. intros L B. symmetry. apply (bcoords_of p q r H L (x, y) B). Qed.
Print Assumptions C43_everywhere.
Example C43_nontrivial : exists ps : list R, cross exA exB exC <> 0 /\ length ps = 18%nat /\ bary_of exA exB exC (1/4, 1/2, 1/4) (11/4, 13/4).
Proof.
  exists (dofs (exn exA 1) ++ dofs (exn exB 2) ++ dofs (exn exC 3)). split; [exact ex_nd|]. split; [reflexivity|].
  unfold bary_of, l1, l2, l3, exA, exB, exC; cbn [fst snd]; repeat split; lra.
Qed.

(** ** C45: on an edge only its endpoints matter; bell_interpolation_on_edge gives the same value, for every edge of the triangle. *)
Theorem C45_on_edge : forall n1 n2 n3 t w, non_degenerate n1 n2 n3 -> six_dofs n1 -> six_dofs n2 -> six_dofs n3 ->
  Permutation [(n1, t); (n2, 1 - t); (n3, 0)] (listed w) ->
  bell_interpolation_on_edge (vec (pos n1), vec (pos n2)) t (dofs n1 ++ dofs n2) = call bell_interpolation w /\
  bell_interpolation_on_edge (vec (pos n2), vec (pos n1)) (1 - t) (dofs n2 ++ dofs n1) = call bell_interpolation w.
Proof.
  assert (K : forall n1 n2 n3 t w, non_degenerate n1 n2 n3 -> six_dofs n1 -> six_dofs n2 -> six_dofs n3 -> Permutation [(n1, t); (n2, 1 - t); (n3, 0)] (listed w) ->
    bell_interpolation_on_edge (vec (pos n1), vec (pos n2)) t (dofs n1 ++ dofs n2) = call bell_interpolation w).
  { intros n1 n2 n3 t w H E1 E2 E3 P. rewrite (numbering ((n1, t), (n2, 1 - t), (n3, 0)) w); [|intros x Hx; cbn in Hx; intuition (subst; assumption)|exact P].
    rewrite on_edge_value, call_value by assumption. destruct (regular_dec _ _) as [Hr|Hr].
    - apply (f_equal Ok). unfold bb, cc. rewrite Nval_edge by assumption. reflexivity.
    - exfalso. apply Hr, cross_regular, H. }
  intros n1 n2 n3 t w H E1 E2 E3 P. split; [apply (K n1 n2 n3); assumption|]. apply (K n2 n1 n3); try assumption.
  - intros H'. apply H. unfold cross in *. lra.
  - replace (1 - (1 - t)) with t by ring. apply perm_trans with (2 := P). apply perm_swap.
Qed.
Print Assumptions C45_on_edge.
(** The edge evaluation itself never fails and involves the two endpoints only (no third vertex is passed). *)
Theorem C45_total : forall p q t u, exists v, bell_interpolation_on_edge (vec p, vec q) t u = Ok v.
Proof. intros. rewrite on_edge_value. eexists. reflexivity. Qed.
Print Assumptions C45_total.
Example C45_nontrivial : exists w, Permutation [(exn exA 1, 1/3); (exn exC 3, 1 - 1/3); (exn exB 2, 0)] (listed w) /\
  call bell_interpolation w = bell_interpolation_on_edge (vec exA, vec exC) (1/3) (dofs (exn exA 1) ++ dofs (exn exC 3)).
Proof.
  assert (P : Permutation [(exn exA 1, 1/3); (exn exC 3, 1 - 1/3); (exn exB 2, 0)] (listed ((exn exA 1, 1/3), (exn exB 2, 0), (exn exC 3, 1 - 1/3)))) by (apply perm_skip, perm_swap).
  exists ((exn exA 1, 1/3), (exn exB 2, 0), (exn exC 3, 1 - 1/3)). split; [exact P|].
  assert (H : non_degenerate (exn exA 1) (exn exC 3) (exn exB 2)) by (unfold non_degenerate, cross, exn, exA, exB, exC; cbn [pos fst snd]; lra).
  symmetry. exact (proj1 (C45_on_edge (exn exA 1) (exn exC 3) (exn exB 2) (1/3) _ H eq_refl eq_refl eq_refl P)).
Qed.

(** ** C44: value and gradient agree across the edge (n1, n2), whatever the opposite vertices and their parameters,
    and whatever the order in which either triangle lists its vertices. *)
Theorem C44_across_edge : forall n1 n2 n3 n3' t w w',
  non_degenerate n1 n2 n3 -> non_degenerate n1 n2 n3' -> six_dofs n1 -> six_dofs n2 -> six_dofs n3 -> six_dofs n3' ->
  Permutation [(n1, t); (n2, 1 - t); (n3, 0)] (listed w) -> Permutation [(n1, t); (n2, 1 - t); (n3', 0)] (listed w') ->
  exists v g, call bell_interpolation w = Ok v /\ call bell_interpolation w' = Ok v /\
              call bell_interpolation_gradient w = Ok g /\ call bell_interpolation_gradient w' = Ok g.
Proof.
  assert (K : forall n1 n2 n3 t w, non_degenerate n1 n2 n3 -> six_dofs n1 -> six_dofs n2 -> six_dofs n3 -> Permutation [(n1, t); (n2, 1 - t); (n3, 0)] (listed w) ->
    let b := snd (pos n1) - snd (pos n2) in let c := fst (pos n2) - fst (pos n1) in
    call bell_interpolation w = bell_interpolation_on_edge (vec (pos n1), vec (pos n2)) t (dofs n1 ++ dofs n2) /\
    call bell_interpolation_gradient w = Ok (gradient_value (edge_x t b c (dofs n1 ++ dofs n2)) (edge_y t b c (dofs n1 ++ dofs n2)))).
  { intros n1 n2 n3 t w H E1 E2 E3 P. cbv zeta. split; [symmetry; exact (proj1 (C45_on_edge n1 n2 n3 t w H E1 E2 E3 P))|].
    set (w0 := ((n1, t), (n2, 1 - t), (n3, 0)) : listing). assert (W : proper w0) by (unfold w0, proper; repeat split; try assumption; lra).
    destruct (numbering_all w0 w W P) as [_ [-> _]]. destruct (call_all w0 W) as [_ [-> _]].
    assert (S : t + (1 - t) + 0 = 1) by ring. pose proof (place_bary n1 n2 n3 t (1 - t) 0 S) as B. apply (bcoords_of _ _ _ H) in B. symmetry in B.
    destruct (edge_gradient _ _ _ t _ _ (dofs n1) (dofs n2) (dofs n3) H B E1 E2) as [X Y].
    unfold wf_call, w0. rewrite X, Y. reflexivity. }
  intros n1 n2 n3 n3' t w w' H H' E1 E2 E3 E3' P P'.
  destruct (K _ _ _ _ _ H E1 E2 E3 P) as [V G]. destruct (K _ _ _ _ _ H' E1 E2 E3' P') as [V' G'].
  destruct (C45_total (pos n1) (pos n2) t (dofs n1 ++ dofs n2)) as [v Ev]. exists v. eexists. rewrite V, V', G, G', Ev. auto.
Qed.
Print Assumptions C44_across_edge.
Example C44_nontrivial : exists v g,
  call bell_interpolation ((exn exA 1, 1/3), (exn exB 2, 1 - 1/3), (exn exC 3, 0)) = Ok v /\
  call bell_interpolation ((exn exA 1, 1/3), (exn exB 2, 1 - 1/3), (exn exD 8, 0)) = Ok v /\
  call bell_interpolation_gradient ((exn exA 1, 1/3), (exn exB 2, 1 - 1/3), (exn exC 3, 0)) = Ok g /\
  call bell_interpolation_gradient ((exn exA 1, 1/3), (exn exB 2, 1 - 1/3), (exn exD 8, 0)) = Ok g.
Proof. apply (C44_across_edge (exn exA 1) (exn exB 2) (exn exC 3) (exn exD 8) (1/3)); try reflexivity; [exact ex_nd|exact ex_nd']. Qed.

(** ** C46: all six orders give the same value; so do gradient and Hessian on non-degenerate triangles. *)
Theorem C46_value : forall w w', (forall x, In x (listed w) -> six_dofs (fst x)) -> Permutation (listed w) (listed w') ->
  call bell_interpolation w' = call bell_interpolation w.
Proof. exact numbering. Qed.
Print Assumptions C46_value.
Theorem C46_derivatives : forall n1 n2 n3 L1 L2 L3 w', non_degenerate n1 n2 n3 -> six_dofs n1 -> six_dofs n2 -> six_dofs n3 -> L1 + L2 + L3 = 1 ->
  let w := ((n1, L1), (n2, L2), (n3, L3)) in Permutation (listed w) (listed w') ->
  call bell_interpolation_gradient w' = call bell_interpolation_gradient w /\
  call bell_interpolation_hessian w' = call bell_interpolation_hessian w.
Proof. intros n1 n2 n3 L1 L2 L3 w' H E1 E2 E3 S w P. apply (numbering_all w w'); [repeat split; assumption|exact P]. Qed.
Print Assumptions C46_derivatives.
Example C46_nontrivial :
  let w := ((exn exA 1, 1/2), (exn exB 2, 1/3), (exn exC 3, 1/6)) in let w' := ((exn exC 3, 1/6), (exn exB 2, 1/3), (exn exA 1, 1/2)) in
  Permutation (listed w) (listed w') /\ (exists v, call bell_interpolation w = Ok v) /\ call bell_interpolation w' = call bell_interpolation w.
Proof.
  cbv zeta. assert (P : Permutation (listed ((exn exA 1, 1/2), (exn exB 2, 1/3), (exn exC 3, 1/6))) (listed ((exn exC 3, 1/6), (exn exB 2, 1/3), (exn exA 1, 1/2)))) by apply (Permutation_rev [_; _; _]).
  split; [exact P|]. split; [|apply C46_value; [intros x Hx; cbn in Hx; intuition (subst; reflexivity)|exact P]].
  eexists. apply call_all. repeat split; try reflexivity; [exact ex_nd|lra].
Qed.
