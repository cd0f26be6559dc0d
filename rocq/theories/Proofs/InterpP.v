(** Interpolation classes on arbitrary grids and on meshes. *)
From Coq Require Import Reals Lra Lia List Permutation.
From Verif.Model Require Import Py Num Tensors Domain Refine Bell Interp.
From Verif.Spec Require Import GridSpec RefineSpec BellSpec InterpSpec.
From Verif.Proofs Require Import Lib GridP FindP BellV BellG BellE HatP.
From Verif.Props Require Import BellProps.
Local Open Scope R_scope.
Import ListNotations.

Lemma nth_py {A} (l : list A) i x : nth_error l i = Some x -> py_nth l i = Ok x.
Proof. unfold py_nth. intros ->. reflexivity. Qed.
Lemma tv_at g t p q r : triangle_at g t p q r -> triangle_vertices g t = Ok (tri p q r).
Proof.
  destruct t as [[a b] c]. intros [I [A [B C]]]. unfold triangle_vertices. assert (E : py_in triangle_eqb (a, b, c) (g_triangles g) = true) by (apply py_in_triple; exact I).
  rewrite E. unfold points_of, point_at in *. rewrite (nth_py _ _ _ A), (nth_py _ _ _ B), (nth_py _ _ _ C). reflexivity.
Qed.
Lemma P1_ok g params i : P1Interpolation_ g params = Ok i -> i = P1I g params /\ length params = length (g_vertices g).
Proof. unfold P1Interpolation_. destruct (Nat.eqb _ _) eqn:E; cbn [negb]; intros H; [|discriminate]. injection H as <-. split; [reflexivity|]. apply Nat.eqb_eq, E. Qed.
Lemma C1_ok g params i : C1Interpolation_ g params = Ok i -> i = C1I g params /\ length params = length (g_vertices g) /\ (forall u, In u params -> length u = 6%nat).
Proof.
  unfold C1Interpolation_. destruct (existsb _ _) eqn:F; [discriminate|]. destruct (Nat.eqb _ _) eqn:E; cbn [negb]; intros H; [|discriminate]. injection H as <-. split; [reflexivity|]. split; [apply Nat.eqb_eq, E|].
  intros u Hu. destruct (Nat.eq_dec (length u) 6) as [D|D]; [exact D|]. exfalso. assert (K : existsb (fun p => negb (Nat.eqb (length p) 6)) params = true).
  { apply existsb_exists. exists u. split; [exact Hu|]. apply Nat.eqb_neq in D. rewrite D. reflexivity. } congruence.
Qed.
(** Evaluations in terms of the Bell functions. *)
Definition nodes_of (p q r : R * R) (u1 u2 u3 : list R) (b : bary R) : listing :=
  (({| pos := p; dofs := u1 |}, l1 b), ({| pos := q; dofs := u2 |}, l2 b), ({| pos := r; dofs := u3 |}, l3 b)).
Lemma C1_calls g params a b c p q r u1 u2 u3 L : triangle_at g (a, b, c) p q r -> nth_error params a = Some u1 -> nth_error params b = Some u2 -> nth_error params c = Some u3 ->
  i_call (C1I g params) (a, b, c) L = call bell_interpolation (nodes_of p q r u1 u2 u3 L) /\
  i_gradient (C1I g params) (a, b, c) L = call bell_interpolation_gradient (nodes_of p q r u1 u2 u3 L) /\
  i_hessian (C1I g params) (a, b, c) L = call bell_interpolation_hessian (nodes_of p q r u1 u2 u3 L).
Proof.
  intros T A B C. cbn [i_call i_gradient i_hessian]. rewrite (tv_at _ _ _ _ _ T). unfold triangle_params.
  rewrite (nth_py _ _ _ A), (nth_py _ _ _ B), (nth_py _ _ _ C). cbn [bind]. unfold Vector_extend. rewrite <- !app_assoc.
  destruct L as [[L1 L2] L3]. split; [reflexivity|split; reflexivity].
Qed.
Lemma P1_calls g params a b c p q r u1 u2 u3 L : triangle_at g (a, b, c) p q r -> nth_error params a = Some u1 -> nth_error params b = Some u2 -> nth_error params c = Some u3 ->
  i_call (P1I g params) (a, b, c) L = Ok (l1 L * u1 + l2 L * u2 + l3 L * u3) /\
  (cross p q r <> 0 -> i_gradient (P1I g params) (a, b, c) L = Ok (gradient_value
     (((snd q - snd r) * u1 + (snd r - snd p) * u2 + (snd p - snd q) * u3) / cross p q r)
     (((fst r - fst q) * u1 + (fst p - fst r) * u2 + (fst q - fst p) * u3) / cross p q r))).
Proof.
  intros T A B C. cbn [i_call i_gradient]. rewrite (nth_py _ _ _ A), (nth_py _ _ _ B), (nth_py _ _ _ C). cbn [bind]. split; [reflexivity|].
  intros H. rewrite (tv_at _ _ _ _ _ T). cbn [bind]. pose proof (transform_gradient_tri p q r H u1 u2 u3) as E. unfold bb, cc in E. rewrite E. reflexivity.
Qed.
(** Lists of three. *)
Lemma perm_one {A} (x a b c : A) : In x [a; b; c] -> exists y z, Permutation [x; y; z] [a; b; c].
Proof.
  intros [-> | [-> | [-> | []]]]; [exists b, c; reflexivity|exists a, c; apply perm_swap|].
  exists a, b. apply perm_trans with [a; x; b]; [apply perm_swap|apply perm_skip, perm_swap].
Qed.
Lemma perm_two {A} (x y a b c : A) : x <> y -> In x [a; b; c] -> In y [a; b; c] -> exists z, Permutation [x; y; z] [a; b; c].
Proof.
  intros D Ix Iy. destruct (perm_one _ _ _ _ Ix) as [u [v P]]. apply (Permutation_in y (Permutation_sym P)) in Iy. destruct Iy as [E | [E | [E | []]]]; [contradiction| |]; subst.
  - exists v. exact P.
  - exists u. apply perm_trans with (2 := P). apply perm_skip, perm_swap.
Qed.
Lemma perm_three {A} (x y z a b c : A) : x <> y -> y <> z -> x <> z -> In x [a; b; c] -> In y [a; b; c] -> In z [a; b; c] -> Permutation [x; y; z] [a; b; c].
Proof.
  intros D1 D2 D3 Ix Iy Iz. destruct (perm_two _ _ _ _ _ D1 Ix Iy) as [w P]. apply (Permutation_in z (Permutation_sym P)) in Iz. destruct Iz as [E | [E | [E | []]]]; [contradiction|contradiction|subst; exact P].
Qed.
Definition total_weight (l : list (node * R)) : R := fold_right (fun x acc => snd x + acc) 0 l.
Lemma total_perm l l' : Permutation l l' -> total_weight l = total_weight l'.
Proof. induction 1; unfold total_weight in *; cbn [fold_right] in *; lra. Qed.
Lemma nonneg_perm l l' : Permutation l l' -> (forall x : node * R, In x l -> 0 <= snd x) -> forall x, In x l' -> 0 <= snd x.
Proof. intros P H x I. apply H. apply (Permutation_in x (Permutation_sym P) I). Qed.
Lemma proper_of_perm w w' : proper w -> Permutation (listed w) (listed w') -> proper w'.
Proof. intros W P. apply (numbering_all w w' W P). Qed.
Definition list3 {A} (a b c : A) : A * A * A := (a, b, c).
Lemma listed3 (w : listing) : exists a b c, w = (a, b, c).
Proof. destruct w as [[a b] c]. exists a, b, c. reflexivity. Qed.
(** Two proper listings agreeing on their positive weights give the same value and gradient. *)
Section Agree.
Context (w w' : listing).
Hypothesis W : proper w. Hypothesis W' : proper w'.
Hypothesis Nn : forall x, In x (listed w) -> 0 <= snd x.
Hypothesis Nn' : forall x, In x (listed w') -> 0 <= snd x.
Hypothesis Sub : forall x, 0 < snd x -> In x (listed w) -> In x (listed w').
Definition agree := exists v g, call bell_interpolation w = Ok v /\ call bell_interpolation w' = Ok v /\ call bell_interpolation_gradient w = Ok g /\ call bell_interpolation_gradient w' = Ok g.
Lemma agree_perm : Permutation (listed w) (listed w') -> agree.
Proof.
  intros P. destruct (call_all w W) as [A [B _]]. destruct (numbering_all w w' W P) as [_ [C _]]. pose proof (numbering w w') as D.
  eexists _, _. rewrite D; [|destruct w as [[[? ?] [? ?]] [? ?]]; intros x Hx; cbn in Hx; destruct W as [_ [E1 [E2 [E3 _]]]]; intuition (subst; assumption)|exact P]. rewrite C. split; [exact A|split; [exact A|split; [exact B|exact B]]].
Qed.
Lemma agree_two x y z : Permutation [x; y; z] (listed w) -> 0 < snd x -> 0 < snd y -> snd z = 0 -> agree.
Proof.
  intros P Hx Hy Hz. destruct (listed3 w') as [a [b [c E']]].
  assert (W0 : proper (x, y, z)) by (apply (proper_of_perm w); [exact W|apply Permutation_sym, P]).
  assert (D : x <> y). { intros ->. destruct y as [ny ly], z as [nz lz]. destruct W0 as [H _]. apply H. unfold cross. ring. }
  assert (Ix : In x (listed w')) by (apply Sub; [exact Hx|apply (Permutation_in x P); left; reflexivity]).
  assert (Iy : In y (listed w')) by (apply Sub; [exact Hy|apply (Permutation_in y P); right; left; reflexivity]).
  rewrite E' in Ix, Iy. destruct (perm_two _ _ _ _ _ D Ix Iy) as [z' P']. 
  assert (P'' : Permutation [x; y; z'] (listed w')) by (rewrite E'; exact P').
  assert (W0' : proper (x, y, z')) by (apply (proper_of_perm w'); [exact W'|apply Permutation_sym, P'']).
  destruct x as [n1 t], y as [n2 u], z as [n3 zz], z' as [n3' z']. cbn [snd] in *.
  destruct W0 as [H [E1 [E2 [E3 S]]]]. destruct W0' as [H' [_ [_ [E3' S']]]]. assert (z' = 0) by lra. assert (u = 1 - t) by lra. subst z' zz u.
  exact (C44_across_edge n1 n2 n3 n3' t w w' H H' E1 E2 E3 E3' P P'').
Qed.
Lemma agree_one x y z : Permutation [x; y; z] (listed w) -> 0 < snd x -> snd y = 0 -> snd z = 0 -> agree.
Proof.
  intros P Hx Hy Hz. destruct (listed3 w') as [a [b [c E']]].
  assert (W0 : proper (x, y, z)) by (apply (proper_of_perm w); [exact W|apply Permutation_sym, P]).
  assert (Ix : In x (listed w')) by (apply Sub; [exact Hx|apply (Permutation_in x P); left; reflexivity]).
  rewrite E' in Ix. destruct (perm_one _ _ _ _ Ix) as [y' [z' P']].
  assert (P'' : Permutation [x; y'; z'] (listed w')) by (rewrite E'; exact P').
  assert (W0' : proper (x, y', z')) by (apply (proper_of_perm w'); [exact W'|apply Permutation_sym, P'']).
  pose proof (nonneg_perm _ _ (Permutation_sym P'') Nn') as Q. pose proof (Q y' ltac:(right; left; reflexivity)) as Qy. pose proof (Q z' ltac:(right; right; left; reflexivity)) as Qz.
  destruct x as [n1 t], y as [n2 u], z as [n3 zz], y' as [n2' u'], z' as [n3' z']. cbn [snd] in *.
  destruct W0 as [H [E1 [E2 [E3 S]]]]. destruct W0' as [H' [_ [E2' [E3' S']]]]. assert (t = 1) by lra. assert (z' = 0) by lra. assert (u' = 0) by lra. subst.
  destruct (six _ E1) as [u0 [u1 [u2 [u3 [u4 [u5 D]]]]]].
  destruct (C41_vertex n1 n2 n3 u0 u1 u2 u3 u4 u5 w H E2 E3 D P) as [A1 [A2 _]]. destruct (C41_vertex n1 n2' n3' u0 u1 u2 u3 u4 u5 w' H' E2' E3' D P'') as [A3 [A4 _]].
  eexists _, _. split; [exact A1|split; [exact A3|split; [exact A2|exact A4]]].
Qed.
Lemma agree_three x y z : Permutation [x; y; z] (listed w) -> 0 < snd x -> 0 < snd y -> 0 < snd z -> agree.
Proof.
  intros P Hx Hy Hz. destruct (listed3 w') as [a [b [c E']]].
  assert (W0 : proper (x, y, z)) by (apply (proper_of_perm w); [exact W|apply Permutation_sym, P]).
  assert (D : x <> y /\ y <> z /\ x <> z). { destruct x as [nx lx], y as [ny ly], z as [nz lz]. destruct W0 as [H _]. repeat split; intros E; injection E as -> _; apply H; unfold cross; ring. }
  apply agree_perm. apply perm_trans with [x; y; z]; [apply Permutation_sym, P|]. assert (EL : listed w' = [a; b; c]) by (rewrite E'; reflexivity). rewrite EL. destruct D as [D1 [D2 D3]]. apply perm_three; try assumption; rewrite <- EL.
  - apply Sub; [exact Hx|apply (Permutation_in x P); left; reflexivity].
  - apply Sub; [exact Hy|apply (Permutation_in y P); right; left; reflexivity].
  - apply Sub; [exact Hz|apply (Permutation_in z P); right; right; left; reflexivity].
Qed.
Theorem agree_all : agree.
Proof.
  destruct (listed3 w) as [x [y [z E]]]. assert (P : Permutation [x; y; z] (listed w)) by (rewrite E; reflexivity).
  assert (N : forall a, In a [x; y; z] -> 0 <= snd a) by (apply (nonneg_perm _ _ (Permutation_sym P) Nn)).
  assert (P2 : Permutation [y; x; z] (listed w)) by (apply perm_trans with (2 := P); apply perm_swap).
  assert (P3 : Permutation [x; z; y] (listed w)) by (apply perm_trans with (2 := P); apply perm_skip, perm_swap).
  assert (P4 : Permutation [y; z; x] (listed w)). { apply perm_trans with (2 := P2). apply perm_skip, perm_swap. }
  assert (P5 : Permutation [z; x; y] (listed w)) by (apply perm_trans with (2 := P3); apply perm_swap).
  destruct (N x ltac:(cbn; auto)) as [X|X]; destruct (N y ltac:(cbn; auto)) as [Y|Y]; destruct (N z ltac:(cbn; auto)) as [Z|Z].
  - apply (agree_three x y z); auto.
  - apply (agree_two x y z); auto.
  - apply (agree_two x z y); auto.
  - apply (agree_one x y z); auto.
  - apply (agree_two y z x); auto.
  - apply (agree_one y x z); auto.
  - apply (agree_one z x y); auto.
  - exfalso. pose proof (total_perm _ _ P) as T. assert (K : total_weight (listed w) = 1) by (destruct w as [[[? ?] [? ?]] [? ?]]; destruct W as [_ [_ [_ [_ S]]]]; cbn; lra). cbn in T. lra.
Qed.
End Agree.
