(** Gradient and Hessian of the Bell element at vertices, on edges and under renumbering. *)
From Coq Require Import Reals QArith Qreals Lra Lia List Permutation.
From Coquelicot Require Import Coquelicot.
From Verif.Model Require Import Py Num Tensors Domain Expr Bell.
From Verif.Spec Require Import GridSpec BellSpec.
From Verif.Proofs Require Import Lib TensorsP ExprP BellP BellD BellV BellDer BellQ BellE.
Local Open Scope R_scope.
Import ListNotations.
Opaque N_all D1_ D2_ D3_ D11_ D12_ D13_ D22_ D23_ D33_.

(** ** Renumbering *)
Lemma cross_rot p q r : cross q r p = cross p q r. Proof. unfold cross. ring. Qed.
Lemma cross_swap p q r : cross p r q = - cross p q r. Proof. unfold cross. ring. Qed.
Lemma bary_rot p q r L1 L2 L3 x : bary_of p q r (L1, L2, L3) x -> bary_of q r p (L2, L3, L1) x.
Proof. unfold bary_of, l1, l2, l3. cbn [fst snd]. intros [A [B C]]. repeat split; lra. Qed.
Lemma bary_swap p q r L1 L2 L3 x : bary_of p q r (L1, L2, L3) x -> bary_of p r q (L1, L3, L2) x.
Proof. unfold bary_of, l1, l2, l3. cbn [fst snd]. intros [A [B C]]. repeat split; lra. Qed.
Lemma Bf_Nval p q r u1 u2 u3 x y : Bf p q r (u1 ++ u2 ++ u3) x y = Nval (bcoords p q r x y) (bb p q r) (cc p q r) u1 u2 u3.
Proof. unfold Bf, Fv, rhoxy, rho3. rewrite N_all_value. reflexivity. Qed.
Section Renumber.
Context (p q r : R * R) (u1 u2 u3 : list R).
Hypothesis H : cross p q r <> 0.
Hypothesis E1 : length u1 = 6%nat. Hypothesis E2 : length u2 = 6%nat. Hypothesis E3 : length u3 = 6%nat.
Lemma Bf_rot x y : Bf q r p (u2 ++ u3 ++ u1) x y = Bf p q r (u1 ++ u2 ++ u3) x y.
Proof.
  rewrite !Bf_Nval. pose proof (bary_bcoords p q r H x y) as K. destruct (bcoords p q r x y) as [[L1 L2] L3]. apply bary_rot in K. apply bcoords_of in K; [|rewrite cross_rot; exact H]. cbn [fst snd] in K. rewrite <- K. apply Nval_rot; assumption.
Qed.
Lemma Bf_swap x y : Bf p r q (u1 ++ u3 ++ u2) x y = Bf p q r (u1 ++ u2 ++ u3) x y.
Proof.
  rewrite !Bf_Nval. pose proof (bary_bcoords p q r H x y) as K. destruct (bcoords p q r x y) as [[L1 L2] L3]. apply bary_swap in K. apply bcoords_of in K; [|rewrite cross_swap; lra]. cbn [fst snd] in K. rewrite <- K. apply Nval_swap; assumption.
Qed.
End Renumber.
Lemma B_same p q r ps p' q' r' ps' : cross p q r <> 0 -> cross p' q' r' <> 0 -> (forall x y, Bf p' q' r' ps' x y = Bf p q r ps x y) ->
  forall x y, Bx p' q' r' ps' x y = Bx p q r ps x y /\ By p' q' r' ps' x y = By p q r ps x y /\
    Bxx p' q' r' ps' x y = Bxx p q r ps x y /\ Bxy p' q' r' ps' x y = Bxy p q r ps x y /\ Byy p' q' r' ps' x y = Byy p q r ps x y.
Proof.
  intros H H' E. pose proof (derive_unique2 _ _ _ _ _ _ E (partials_B _ _ _ ps' H') (partials_B _ _ _ ps H)) as K.
  assert (X : forall x y, Bx p' q' r' ps' x y = Bx p q r ps x y) by (intros; apply K). assert (Y : forall x y, By p' q' r' ps' x y = By p q r ps x y) by (intros; apply K).
  pose proof (derive_unique2 _ _ _ _ _ _ X (partials_Bx _ _ _ ps' H') (partials_Bx _ _ _ ps H)) as K1. pose proof (derive_unique2 _ _ _ _ _ _ Y (partials_By _ _ _ ps' H') (partials_By _ _ _ ps H)) as K2.
  intros x y. specialize (K1 x y). specialize (K2 x y). specialize (X x y). specialize (Y x y). tauto.
Qed.
(** A call on a proper listing. *)
Definition proper (w : listing) : Prop :=
  let '((n1, L1), (n2, L2), (n3, L3)) := w in non_degenerate n1 n2 n3 /\ six_dofs n1 /\ six_dofs n2 /\ six_dofs n3 /\ L1 + L2 + L3 = 1.
Definition place (w : listing) : R * R :=
  let '((n1, L1), (n2, L2), (n3, L3)) := w in
  (L1 * fst (pos n1) + L2 * fst (pos n2) + L3 * fst (pos n3), L1 * snd (pos n1) + L2 * snd (pos n2) + L3 * snd (pos n3)).
Lemma place_bary n1 n2 n3 L1 L2 L3 : L1 + L2 + L3 = 1 -> bary_of (pos n1) (pos n2) (pos n3) (L1, L2, L3) (place ((n1, L1), (n2, L2), (n3, L3))).
Proof. intros E. unfold bary_of, l1, l2, l3, place. cbn [fst snd]. repeat split; lra. Qed.
Definition wf_call (w : listing) (f : (R * R) -> (R * R) -> (R * R) -> vector R -> R -> R -> R) : R :=
  let '((n1, L1), (n2, L2), (n3, L3)) := w in f (pos n1) (pos n2) (pos n3) (dofs n1 ++ dofs n2 ++ dofs n3) (fst (place w)) (snd (place w)).
Lemma call_all w : proper w ->
  call bell_interpolation w = Ok (wf_call w Bf) /\ call bell_interpolation_gradient w = Ok (gradient_value (wf_call w Bx) (wf_call w By)) /\
  call bell_interpolation_hessian w = Ok (hessian_value (wf_call w Bxx) (wf_call w Bxy) (wf_call w Byy)).
Proof.
  destruct w as [[[n1 L1] [n2 L2]] [n3 L3]]. intros [H [E1 [E2 [E3 S]]]]. pose proof (place_bary n1 n2 n3 L1 L2 L3 S) as K.
  assert (EL : length (dofs n1 ++ dofs n2 ++ dofs n3) = 18%nat) by (rewrite !app_length, E1, E2, E3; reflexivity).
  unfold call, wf_call. change (vec (pos n1), vec (pos n2), vec (pos n3)) with (tri (pos n1) (pos n2) (pos n3)).
  split; [apply value_B; assumption|split; [apply gradient_B; assumption|apply hessian_B; assumption]].
Qed.
Definition proper_dec (w : listing) : {proper w} + {~ proper w}.
Proof.
  destruct w as [[[n1 L1] [n2 L2]] [n3 L3]]. unfold proper, non_degenerate, six_dofs.
  destruct (Req_EM_T (cross (pos n1) (pos n2) (pos n3)) 0); [right; tauto|]. destruct (Nat.eq_dec (length (dofs n1)) 6); [|right; tauto]. destruct (Nat.eq_dec (length (dofs n2)) 6); [|right; tauto]. destruct (Nat.eq_dec (length (dofs n3)) 6); [|right; tauto].
  destruct (Req_EM_T (L1 + L2 + L3) 1); [left; tauto|right; tauto].
Defined.
Lemma proper_rot a b c : proper (b, c, a) <-> proper (a, b, c).
Proof.
  destruct a as [n1 L1], b as [n2 L2], c as [n3 L3]. unfold proper, non_degenerate. rewrite (cross_rot (pos n1)). assert (L2 + L3 + L1 = 1 <-> L1 + L2 + L3 = 1) by (split; intros; lra). tauto.
Qed.
Lemma proper_swap a b c : proper (a, c, b) <-> proper (a, b, c).
Proof.
  destruct a as [n1 L1], b as [n2 L2], c as [n3 L3]. unfold proper, non_degenerate. rewrite (cross_swap (pos n1)). assert (L1 + L3 + L2 = 1 <-> L1 + L2 + L3 = 1) by (split; intros; lra).
  assert (- cross (pos n1) (pos n2) (pos n3) <> 0 <-> cross (pos n1) (pos n2) (pos n3) <> 0) by (split; intros ? ?; lra). tauto.
Qed.
Lemma calls_rot a b c : proper (a, b, c) -> call bell_interpolation_gradient (b, c, a) = call bell_interpolation_gradient (a, b, c) /\ call bell_interpolation_hessian (b, c, a) = call bell_interpolation_hessian (a, b, c).
Proof.
  intros P. destruct (call_all _ P) as [_ [-> ->]]. destruct (call_all _ (proj2 (proper_rot a b c) P)) as [_ [-> ->]]. destruct a as [n1 L1], b as [n2 L2], c as [n3 L3]. destruct P as [H [E1 [E2 [E3 S]]]]. unfold wf_call.
  replace (place (n2, L2, (n3, L3), (n1, L1))) with (place (n1, L1, (n2, L2), (n3, L3))) by (unfold place; f_equal; ring).
  destruct (B_same (pos n1) (pos n2) (pos n3) (dofs n1 ++ dofs n2 ++ dofs n3) (pos n2) (pos n3) (pos n1) (dofs n2 ++ dofs n3 ++ dofs n1) H) with (x := fst (place (n1, L1, (n2, L2), (n3, L3)))) (y := snd (place (n1, L1, (n2, L2), (n3, L3)))) as [-> [-> [-> [-> ->]]]];
  [rewrite cross_rot; exact H|intros; apply Bf_rot; assumption|split; reflexivity].
Qed.
Lemma calls_swap a b c : proper (a, b, c) -> call bell_interpolation_gradient (a, c, b) = call bell_interpolation_gradient (a, b, c) /\ call bell_interpolation_hessian (a, c, b) = call bell_interpolation_hessian (a, b, c).
Proof.
  intros P. destruct (call_all _ P) as [_ [-> ->]]. destruct (call_all _ (proj2 (proper_swap a b c) P)) as [_ [-> ->]]. destruct a as [n1 L1], b as [n2 L2], c as [n3 L3]. destruct P as [H [E1 [E2 [E3 S]]]]. unfold wf_call.
  replace (place (n1, L1, (n3, L3), (n2, L2))) with (place (n1, L1, (n2, L2), (n3, L3))) by (unfold place; f_equal; ring).
  destruct (B_same (pos n1) (pos n2) (pos n3) (dofs n1 ++ dofs n2 ++ dofs n3) (pos n1) (pos n3) (pos n2) (dofs n1 ++ dofs n3 ++ dofs n2) H) with (x := fst (place (n1, L1, (n2, L2), (n3, L3)))) (y := snd (place (n1, L1, (n2, L2), (n3, L3)))) as [-> [-> [-> [-> ->]]]];
  [rewrite cross_swap; intros Z; apply H; lra|intros; apply Bf_swap; assumption|split; reflexivity].
Qed.
Theorem numbering_all w w' : proper w -> Permutation (listed w) (listed w') ->
  proper w' /\ call bell_interpolation_gradient w' = call bell_interpolation_gradient w /\ call bell_interpolation_hessian w' = call bell_interpolation_hessian w.
Proof.
  intros P Q.
  pose (f := fun w => if proper_dec w then Some (call bell_interpolation_gradient w, call bell_interpolation_hessian w) else None).
  assert (K : f w' = f w).
  { apply (perm_closed f (fun _ => True)); [| |auto|exact Q].
    - intros a b c _ _ _. unfold f. pose proof (proper_rot a b c) as X. destruct (proper_dec (b, c, a)), (proper_dec (a, b, c)); try tauto. destruct (calls_rot a b c) as [-> ->]; auto.
    - intros a b c _ _ _. unfold f. pose proof (proper_swap a b c) as X. destruct (proper_dec (a, c, b)), (proper_dec (a, b, c)); try tauto. destruct (calls_swap a b c) as [-> ->]; auto. }
  unfold f in K. destruct (proper_dec w) as [_|N]; [|contradiction]. destruct (proper_dec w') as [P'|]; [|discriminate]. injection K as -> ->. auto.
Qed.
(** ** Closed form of the barycentric derivatives *)
Definition nd := R -> R -> R -> R -> R -> R -> R -> R -> R -> R -> R -> list R.
Definition Rval (n1 n2 n3 : nd) (L b c : R * R * R) (u1 u2 u3 : list R) : R := Vector_dot (rotated n1 n2 n3 L b c) (u1 ++ u2 ++ u3).
Definition six_out (n : nd) : Prop := forall a b c d e f g h i j k, length (n a b c d e f g h i j k) = 6%nat.
Lemma Rval_split n1 n2 n3 L1 L2 L3 b1 b2 b3 c1 c2 c3 u1 u2 u3 : six_out n1 -> six_out n2 -> length u1 = 6%nat -> length u2 = 6%nat ->
  Rval n1 n2 n3 (L1, L2, L3) (b1, b2, b3) (c1, c2, c3) u1 u2 u3 =
  Vector_dot (n1 L1 L2 L3 b1 b2 b3 c1 c2 c3 (rr b2 b1 c2 c1) (rr b3 b1 c3 c1)) u1 +
  Vector_dot (n2 L2 L3 L1 b2 b3 b1 c2 c3 c1 (rr b3 b2 c3 c2) (rr b1 b2 c1 c2)) u2 +
  Vector_dot (n3 L3 L1 L2 b3 b1 b2 c3 c1 c2 (rr b1 b3 c1 c3) (rr b2 b3 c2 c3)) u3.
Proof. intros S1 S2 E1 E2. unfold Rval, rotated. rewrite dot_app by (rewrite S1, E1; reflexivity). rewrite dot_app by (rewrite S2, E2; reflexivity). ring. Qed.
Section At.
Context (p q r : R * R) (L : bary R) (x y : R) (u1 u2 u3 : list R).
Hypothesis K : bcoords p q r x y = L.
Let b := bb p q r. Let c := cc p q r. Let ps := u1 ++ u2 ++ u3.
Lemma A1 : Fv p q r ps D1_ x y = Rval Nd1 Nd3 Nd2 L b c u1 u2 u3. Proof. unfold Fv, rhoxy, rho3. rewrite K. destruct L as [[? ?] ?]. unfold bb, cc. rewrite v1. reflexivity. Qed.
Lemma A2 : Fv p q r ps D2_ x y = Rval Nd2 Nd1 Nd3 L b c u1 u2 u3. Proof. unfold Fv, rhoxy, rho3. rewrite K. destruct L as [[? ?] ?]. unfold bb, cc. rewrite v2. reflexivity. Qed.
Lemma A3 : Fv p q r ps D3_ x y = Rval Nd3 Nd2 Nd1 L b c u1 u2 u3. Proof. unfold Fv, rhoxy, rho3. rewrite K. destruct L as [[? ?] ?]. unfold bb, cc. rewrite v3. reflexivity. Qed.
Lemma A11 : Fv p q r ps D11_ x y = Rval Nd11 Nd33 Nd22 L b c u1 u2 u3. Proof. unfold Fv, rhoxy, rho3. rewrite K. destruct L as [[? ?] ?]. unfold bb, cc. rewrite v11. reflexivity. Qed.
Lemma A22 : Fv p q r ps D22_ x y = Rval Nd22 Nd11 Nd33 L b c u1 u2 u3. Proof. unfold Fv, rhoxy, rho3. rewrite K. destruct L as [[? ?] ?]. unfold bb, cc. rewrite v22. reflexivity. Qed.
Lemma A33 : Fv p q r ps D33_ x y = Rval Nd33 Nd22 Nd11 L b c u1 u2 u3. Proof. unfold Fv, rhoxy, rho3. rewrite K. destruct L as [[? ?] ?]. unfold bb, cc. rewrite v33. reflexivity. Qed.
Lemma A12 : Fv p q r ps D12_ x y = Rval Nd12 Nd13 Nd23 L b c u1 u2 u3. Proof. unfold Fv, rhoxy, rho3. rewrite K. destruct L as [[? ?] ?]. unfold bb, cc. rewrite v12. reflexivity. Qed.
Lemma A13 : Fv p q r ps D13_ x y = Rval Nd13 Nd23 Nd12 L b c u1 u2 u3. Proof. unfold Fv, rhoxy, rho3. rewrite K. destruct L as [[? ?] ?]. unfold bb, cc. rewrite v13. reflexivity. Qed.
Lemma A23 : Fv p q r ps D23_ x y = Rval Nd23 Nd12 Nd13 L b c u1 u2 u3. Proof. unfold Fv, rhoxy, rho3. rewrite K. destruct L as [[? ?] ?]. unfold bb, cc. rewrite v23. reflexivity. Qed.
End At.
(** ** At the first vertex *)
Ltac zero_list := repeat (apply (f_equal2 (@cons R)); [field|]); reflexivity.
Section Vertex.
Context (p q r : R * R) (a0 a1 a2 a3 a4 a5 : R) (u2 u3 : list R).
Hypothesis H : cross p q r <> 0.
Hypothesis E2 : length u2 = 6%nat. Hypothesis E3 : length u3 = 6%nat.
Let u1 := [a0; a1; a2; a3; a4; a5].
Lemma at_p : bcoords p q r (fst p) (snd p) = (1, 0, 0).
Proof. symmetry. apply (bcoords_of p q r H (1, 0, 0) p). unfold bary_of, l1, l2, l3. cbn [fst snd]. repeat split; lra. Qed.
Lemma dot_zero (u : list R) : Vector_dot [0; 0; 0; 0; 0; 0] u = 0.
Proof. do 6 (destruct u as [|? u]; [rewrite ?dot_cons, dot_nil_r; ring|]). rewrite !dot_cons, dot_nil. ring. Qed.
Lemma vertex_Nval : Nval (1, 0, 0) (bb p q r) (cc p q r) u1 u2 u3 = a0.
Proof.
  unfold bb, cc. rewrite Nval_split by (assumption || reflexivity). repeat match goal with |- context [rr ?a ?b ?c ?d] => generalize (rr a b c d); intro end.
  repeat match goal with |- context [Vector_dot ?l u2] => replace l with [0; 0; 0; 0; 0; 0] by (unfold Nf; zero_list) end.
  repeat match goal with |- context [Vector_dot ?l u3] => replace l with [0; 0; 0; 0; 0; 0] by (unfold Nf; zero_list) end.
  rewrite !dot_zero. unfold Nf, u1. rewrite !dot_cons, dot_nil. field.
Qed.
Ltac vertex_tac := unfold bb, cc; rewrite Rval_split by (reflexivity || (intros ? ? ? ? ? ? ? ? ? ? ?; reflexivity) || assumption); repeat match goal with |- context [rr ?a ?b ?c ?d] => generalize (rr a b c d); intro end;
  repeat match goal with |- context [Vector_dot (?f ?a ?b ?c ?d ?e ?ff ?g ?h ?i ?j ?k) u2] => replace (f a b c d e ff g h i j k) with [0; 0; 0; 0; 0; 0] by (unfold f; zero_list) end;
  repeat match goal with |- context [Vector_dot (?f ?a ?b ?c ?d ?e ?ff ?g ?h ?i ?j ?k) u3] => replace (f a b c d e ff g h i j k) with [0; 0; 0; 0; 0; 0] by (unfold f; zero_list) end;
  rewrite !dot_zero; unfold u1;
  match goal with |- context [Vector_dot (?f ?a ?b ?c ?d ?e ?ff ?g ?h ?i ?j ?k) _] => unfold f end; rewrite !dot_cons, dot_nil; field.
Let b2 := snd r - snd p. Let b3 := snd p - snd q. Let c2 := fst p - fst r. Let c3 := fst q - fst p.
Let b := bb p q r. Let c := cc p q r.
Lemma V1 : Rval Nd1 Nd3 Nd2 (1, 0, 0) b c u1 u2 u3 = 5 * a0. Proof. unfold b, c, b2, b3, c2, c3. vertex_tac. Qed.
Lemma V2 : Rval Nd2 Nd1 Nd3 (1, 0, 0) b c u1 u2 u3 = 5 * a0 + c3 * a1 - b3 * a2. Proof. unfold b, c, b2, b3, c2, c3. vertex_tac. Qed.
Lemma V3 : Rval Nd3 Nd2 Nd1 (1, 0, 0) b c u1 u2 u3 = 5 * a0 - c2 * a1 + b2 * a2. Proof. unfold b, c, b2, b3, c2, c3. vertex_tac. Qed.
Lemma V11 : Rval Nd11 Nd33 Nd22 (1, 0, 0) b c u1 u2 u3 = 20 * a0. Proof. unfold b, c, b2, b3, c2, c3. vertex_tac. Qed.
Lemma V12 : Rval Nd12 Nd13 Nd23 (1, 0, 0) b c u1 u2 u3 = 20 * a0 + 4 * c3 * a1 - 4 * b3 * a2. Proof. unfold b, c, b2, b3, c2, c3. vertex_tac. Qed.
Lemma V13 : Rval Nd13 Nd23 Nd12 (1, 0, 0) b c u1 u2 u3 = 20 * a0 - 4 * c2 * a1 + 4 * b2 * a2. Proof. unfold b, c, b2, b3, c2, c3. vertex_tac. Qed.
Lemma V22 : Rval Nd22 Nd11 Nd33 (1, 0, 0) b c u1 u2 u3 = 20 * a0 + 8 * c3 * a1 - 8 * b3 * a2 + c3 ^ 2 * a3 - 2 * b3 * c3 * a4 + b3 ^ 2 * a5. Proof. unfold b, c, b2, b3, c2, c3. vertex_tac. Qed.
Lemma V33 : Rval Nd33 Nd22 Nd11 (1, 0, 0) b c u1 u2 u3 = 20 * a0 - 8 * c2 * a1 + 8 * b2 * a2 + c2 ^ 2 * a3 - 2 * b2 * c2 * a4 + b2 ^ 2 * a5. Proof. unfold b, c, b2, b3, c2, c3. vertex_tac. Qed.
Lemma V23 : Rval Nd23 Nd12 Nd13 (1, 0, 0) b c u1 u2 u3 = 20 * a0 + 4 * (c3 - c2) * a1 + 4 * (b2 - b3) * a2 - c2 * c3 * a3 + (b2 * c3 + b3 * c2) * a4 - b2 * b3 * a5. Proof. unfold b, c, b2, b3, c2, c3. vertex_tac. Qed.
Lemma divC u v n : v * cross p q r ^ n = u -> u / cross p q r ^ n = v.
Proof. intros <-. unfold Rdiv. rewrite Rmult_assoc, Rinv_r, Rmult_1_r; [reflexivity|]. apply pow_nonzero, H. Qed.
Lemma divC1 u v : v * cross p q r = u -> u / cross p q r = v.
Proof. intros <-. unfold Rdiv. rewrite Rmult_assoc, Rinv_r, Rmult_1_r; [reflexivity|exact H]. Qed.
Lemma vertex_all : let ps := u1 ++ u2 ++ u3 in let f g := g p q r ps (fst p) (snd p) in f Bf = a0 /\ f Bx = a1 /\ f By = a2 /\ f Bxx = a3 /\ f Bxy = a4 /\ f Byy = a5.
Proof.
  cbv zeta. split; [rewrite Bf_Nval, at_p; apply vertex_Nval|].
  unfold Bx, By, Bxx, Bxy, Byy. rewrite (A1 _ _ _ _ _ _ _ _ _ at_p), (A2 _ _ _ _ _ _ _ _ _ at_p), (A3 _ _ _ _ _ _ _ _ _ at_p), (A11 _ _ _ _ _ _ _ _ _ at_p), (A22 _ _ _ _ _ _ _ _ _ at_p), (A33 _ _ _ _ _ _ _ _ _ at_p), (A12 _ _ _ _ _ _ _ _ _ at_p), (A13 _ _ _ _ _ _ _ _ _ at_p), (A23 _ _ _ _ _ _ _ _ _ at_p).
  fold b c. rewrite V1, V2, V3, V11, V12, V13, V22, V23, V33. unfold b2, b3, c2, c3.
  repeat split; (apply divC1 || apply divC); unfold cross; ring.
Qed.
End Vertex.
(** ** On the edge between the first two vertices *)
(** Tangential and normal part of the barycentric derivatives: only the data of the edge appear. *)
Definition Tl (t b3 c3 : R) : list R :=
  let s := 1 - t in
  [ - 30*t^2*s^2; c3*(t^4 + 4*t^3*s - 12*t^2*s^2); - b3*(t^4 + 4*t^3*s - 12*t^2*s^2); c3^2*(t^3*s - 3/2*t^2*s^2); - b3*c3*(2*t^3*s - 3*t^2*s^2); b3^2*(t^3*s - 3/2*t^2*s^2);
    30*s^2*t^2; c3*(s^4 + 4*s^3*t - 12*s^2*t^2); - b3*(s^4 + 4*s^3*t - 12*s^2*t^2); - c3^2*(s^3*t - 3/2*s^2*t^2); b3*c3*(2*s^3*t - 3*s^2*t^2); - b3^2*(s^3*t - 3/2*s^2*t^2) ].
Definition El (t b3 c3 : R) : list R :=
  let s := 1 - t in
  [ 0; b3*t^2*(t + 3*s); c3*t^2*(t + 3*s); b3*c3*t^2*s; (c3^2 - b3^2)*t^2*s; - b3*c3*t^2*s;
    0; b3*s^2*(s + 3*t); c3*s^2*(s + 3*t); - b3*c3*s^2*t; - (c3^2 - b3^2)*s^2*t; b3*c3*s^2*t ].
Fixpoint vmap2 (f : R -> R -> R) (u v : list R) : list R := match u, v with x :: u, y :: v => f x y :: vmap2 f u v | _, _ => [] end.
Lemma dot_vmap2 al be u v w : length u = length v -> al * Vector_dot u w + be * Vector_dot v w = Vector_dot (vmap2 (fun x y => al * x + be * y) u v) w.
Proof.
  revert v w. induction u as [|x u IH]; intros [|y v] w E; try discriminate; [cbn [vmap2]; rewrite !dot_nil; ring|]. destruct w as [|z w]; [rewrite !dot_nil_r; ring|]. cbn [vmap2]. rewrite !dot_cons, <- IH by (cbn in E; lia). ring.
Qed.
Section Edge.
Context (t b3 c3 k r31 : R) (r21 r12 : R) (u1 u2 u3 : list R).
Let r32 := 1 - r31.
Let b2 := c3 * k - r32 * b3. Let c2 := - b3 * k - r32 * c3. Let b1 := - c3 * k - r31 * b3. Let c1 := b3 * k - r31 * c3.
Hypothesis E1 : length u1 = 6%nat. Hypothesis E2 : length u2 = 6%nat.
Definition sp (n1 n2 n3 : nd) : R := let s := 1 - t in
  Vector_dot (n1 t s 0 b1 b2 b3 c1 c2 c3 r21 r31) u1 + Vector_dot (n2 s 0 t b2 b3 b1 c2 c3 c1 r32 r12) u2 + Vector_dot (n3 0 t s b3 b1 b2 c3 c1 c2 (1 - r12) (1 - r21)) u3.
Ltac zero3 := match goal with |- context [Vector_dot (?f ?a ?b ?c ?d ?e ?ff ?g ?h ?i ?j ?k) u3] => replace (f a b c d e ff g h i j k) with [0; 0; 0; 0; 0; 0] by (unfold f; zero_list) end.
Lemma sp_T : sp Nd2 Nd1 Nd3 - sp Nd1 Nd3 Nd2 = Vector_dot (Tl t b3 c3) (u1 ++ u2).
Proof.
  unfold sp. cbv zeta. do 2 zero3. rewrite !dot_zero. change (Tl t b3 c3) with (firstn 6 (Tl t b3 c3) ++ skipn 6 (Tl t b3 c3)). rewrite dot_app by (rewrite E1; reflexivity).
  match goal with |- ?x + ?y + 0 - (?x' + ?y' + 0) = _ => replace (x + y + 0 - (x' + y' + 0)) with ((1 * x + -1 * x') + (1 * y + -1 * y')) by ring end. rewrite !dot_vmap2 by reflexivity.
  f_equal; f_equal; unfold Nd1, Nd2, Nd3, Tl; cbn [vmap2 firstn skipn]; cbv zeta; zero_list.
Qed.
Lemma sp_E : sp Nd3 Nd2 Nd1 - r31 * sp Nd1 Nd3 Nd2 - r32 * sp Nd2 Nd1 Nd3 = k * Vector_dot (El t b3 c3) (u1 ++ u2).
Proof.
  unfold sp. cbv zeta. do 3 zero3. rewrite !dot_zero. change (El t b3 c3) with (firstn 6 (El t b3 c3) ++ skipn 6 (El t b3 c3)). rewrite dot_app by (rewrite E1; reflexivity).
  match goal with |- ?x + ?y + 0 - _ * (?x' + ?y' + 0) - _ * (?x'' + ?y'' + 0) = k * (?z + ?z') =>
    replace (x + y + 0 - r31 * (x' + y' + 0) - r32 * (x'' + y'' + 0)) with ((1 * x + -1 * (r31 * x' + r32 * x'')) + (1 * y + -1 * (r31 * y' + r32 * y''))) by ring;
    replace (k * (z + z')) with ((k * z + 0 * z) + (k * z' + 0 * z')) by ring end.
  rewrite !dot_vmap2 by reflexivity.
  f_equal; f_equal; unfold Nd1, Nd2, Nd3, El; cbn [vmap2 firstn skipn]; cbv zeta; unfold b1, b2, c1, c2, r32; zero_list.
Qed.
End Edge.
Definition edge_x (t b3 c3 : R) (u : list R) : R := (c3 * Vector_dot (Tl t b3 c3) u + b3 * Vector_dot (El t b3 c3) u) / (b3 ^ 2 + c3 ^ 2).
Definition edge_y (t b3 c3 : R) (u : list R) : R := (- b3 * Vector_dot (Tl t b3 c3) u + c3 * Vector_dot (El t b3 c3) u) / (b3 ^ 2 + c3 ^ 2).
Lemma edge_gradient p q r t x y u1 u2 u3 : cross p q r <> 0 -> bcoords p q r x y = (t, 1 - t, 0) -> length u1 = 6%nat -> length u2 = 6%nat ->
  Bx p q r (u1 ++ u2 ++ u3) x y = edge_x t (snd p - snd q) (fst q - fst p) (u1 ++ u2) /\ By p q r (u1 ++ u2 ++ u3) x y = edge_y t (snd p - snd q) (fst q - fst p) (u1 ++ u2).
Proof.
  intros H K E1 E2. unfold Bx, By. rewrite (A1 _ _ _ _ _ _ _ _ _ K), (A2 _ _ _ _ _ _ _ _ _ K), (A3 _ _ _ _ _ _ _ _ _ K). clear K.
  destruct (cross_regular p q r H) as [R1 [R2 R3]]. unfold bb, cc in *.
  assert (CC : cross p q r = (snd r - snd p) * (fst q - fst p) - (fst p - fst r) * (snd p - snd q)) by (unfold cross; ring).
  rewrite !Rval_split by (assumption || (intros ? ? ? ? ? ? ? ? ? ? ?; reflexivity)).
  assert (B : (snd q - snd r) + (snd r - snd p) + (snd p - snd q) = 0) by ring. assert (C : (fst r - fst q) + (fst p - fst r) + (fst q - fst p) = 0) by ring.
  revert H R1 R2 R3 CC B C. generalize (cross p q r) (snd q - snd r) (snd r - snd p) (snd p - snd q) (fst r - fst q) (fst p - fst r) (fst q - fst p). intros D b1 b2 b3 c1 c2 c3 H R1 R2 R3 CC B C.
  rewrite (rr_sum b1 b2 b3 c1 c2 c3 B C R2). rewrite (rr_sum b1 b3 b2 c1 c3 c2) by (assumption || lra). rewrite (rr_sum b2 b1 b3 c2 c1 c3) by (assumption || lra).
  set (k := D / (b3 ^ 2 + c3 ^ 2)). set (r31 := rr b3 b1 c3 c1). generalize (rr b2 b1 c2 c1) (rr b1 b2 c1 c2). intros r21 r12.
  assert (X1 : b2 = c3 * k - (1 - r31) * b3) by (unfold k, r31, rr; rewrite CC; replace b1 with (- b2 - b3) by lra; replace c1 with (- c2 - c3) by lra; field; exact R3).
  assert (X2 : c2 = - b3 * k - (1 - r31) * c3) by (unfold k, r31, rr; rewrite CC; replace b1 with (- b2 - b3) by lra; replace c1 with (- c2 - c3) by lra; field; exact R3).
  assert (X3 : b1 = - c3 * k - r31 * b3) by lra. assert (X4 : c1 = b3 * k - r31 * c3) by lra.
  assert (DK : D = k * (b3 ^ 2 + c3 ^ 2)) by (unfold k; field; exact R3).
  pose proof (sp_T t b3 c3 k r31 r21 r12 u1 u2 u3 E1) as T. pose proof (sp_E t b3 c3 k r31 r21 r12 u1 u2 u3 E1) as E. unfold sp in T, E. cbv zeta in T, E. rewrite <- X1, <- X2, <- X3, <- X4 in T, E.
  unfold edge_x, edge_y. set (S1 := Vector_dot (Nd1 _ _ _ _ _ _ _ _ _ _ _) u1 + _ + _) in *. set (S2 := Vector_dot (Nd2 _ _ _ _ _ _ _ _ _ _ _) u1 + _ + _) in *. set (S3 := Vector_dot (Nd3 _ _ _ _ _ _ _ _ _ _ _) u1 + _ + _) in *.
  assert (Kn : k <> 0) by (intros Z; apply H; rewrite DK, Z; ring). clearbody S1 S2 S3 k r31. rewrite <- T. clear T.
  assert (E' : Vector_dot (El t b3 c3) (u1 ++ u2) = (S3 - r31 * S1 - (1 - r31) * S2) / k) by (rewrite E; field; exact Kn). rewrite E', X1, X2, X3, X4, DK. split; field; auto.
Qed.
