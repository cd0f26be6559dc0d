(** Nodal values, edges and numbering of the Bell element. *)
From Coq Require Import Reals QArith Qreals Lra Lia List Permutation.
From Coquelicot Require Import Coquelicot.
From Verif.Model Require Import Py Num Tensors Domain Expr Bell.
From Verif.Spec Require Import GridSpec BellSpec.
From Verif.Proofs Require Import Lib TensorsP ExprP BellP BellD BellV BellDer BellQ.
Local Open Scope R_scope.
Import ListNotations.

Lemma six (u : list R) : length u = 6%nat -> exists a b c d e f, u = [a; b; c; d; e; f].
Proof. intros H. do 7 (destruct u as [|? u]; try discriminate). repeat eexists. Qed.
(** ** Numbering *)
Lemma Nf_swap L1 L2 L3 b1 b2 b3 c1 c2 c3 r s : Nf L1 L3 L2 (- b1) (- b3) (- b2) (- c1) (- c3) (- c2) s r = Nf L1 L2 L3 b1 b2 b3 c1 c2 c3 r s.
Proof. unfold Nf. repeat (apply (f_equal2 (@cons R)); [field|]). reflexivity. Qed.
Lemma rr_neg a b c d : rr (- a) (- b) (- c) (- d) = rr a b c d.
Proof. unfold rr. f_equal; [ring|f_equal; ring]. Qed.
Lemma dot_app (a b u v : vector R) : length a = length u -> Vector_dot (a ++ b) (u ++ v) = Vector_dot a u + Vector_dot b v.
Proof.
  revert u. induction a as [|x a IH]; intros [|y u] E; try discriminate; [cbn [app]; rewrite dot_nil; ring|]. cbn [app]. rewrite !dot_cons, IH by (cbn in E; lia). ring.
Qed.
Lemma dot_app_r (a u v : vector R) : length a = length u -> Vector_dot a (u ++ v) = Vector_dot a u.
Proof. intros E. rewrite <- (app_nil_r a) at 1. rewrite dot_app by exact E. rewrite dot_nil. ring. Qed.
Definition Nval (L b c : R * R * R) (u1 u2 u3 : list R) : R := Vector_dot (Nf_all L b c) (u1 ++ u2 ++ u3).
Lemma Nval_split L1 L2 L3 b1 b2 b3 c1 c2 c3 u1 u2 u3 : length u1 = 6%nat -> length u2 = 6%nat -> length u3 = 6%nat ->
  Nval (L1, L2, L3) (b1, b2, b3) (c1, c2, c3) u1 u2 u3 =
  Vector_dot (Nf L1 L2 L3 b1 b2 b3 c1 c2 c3 (rr b2 b1 c2 c1) (rr b3 b1 c3 c1)) u1 +
  Vector_dot (Nf L2 L3 L1 b2 b3 b1 c2 c3 c1 (rr b3 b2 c3 c2) (rr b1 b2 c1 c2)) u2 +
  Vector_dot (Nf L3 L1 L2 b3 b1 b2 c3 c1 c2 (rr b1 b3 c1 c3) (rr b2 b3 c2 c3)) u3.
Proof. intros E1 E2 E3. unfold Nval, Nf_all. rewrite !dot_app by (rewrite ?E1, ?E2; reflexivity). ring. Qed.
Lemma Nval_rot p q r L1 L2 L3 u1 u2 u3 : length u1 = 6%nat -> length u2 = 6%nat -> length u3 = 6%nat ->
  Nval (L2, L3, L1) (bb q r p) (cc q r p) u2 u3 u1 = Nval (L1, L2, L3) (bb p q r) (cc p q r) u1 u2 u3.
Proof. intros E1 E2 E3. unfold bb, cc. rewrite !Nval_split by assumption. ring. Qed.
Lemma Nval_swap p q r L1 L2 L3 u1 u2 u3 : length u1 = 6%nat -> length u2 = 6%nat -> length u3 = 6%nat ->
  Nval (L1, L3, L2) (bb p r q) (cc p r q) u1 u3 u2 = Nval (L1, L2, L3) (bb p q r) (cc p q r) u1 u2 u3.
Proof.
  intros E1 E2 E3. unfold bb, cc. rewrite !Nval_split by assumption.
  replace (snd r - snd q) with (- (snd q - snd r)) by ring. replace (snd q - snd p) with (- (snd p - snd q)) by ring. replace (snd p - snd r) with (- (snd r - snd p)) by ring.
  replace (fst q - fst r) with (- (fst r - fst q)) by ring. replace (fst r - fst p) with (- (fst p - fst r)) by ring. replace (fst p - fst q) with (- (fst q - fst p)) by ring.
  rewrite !rr_neg, !Nf_swap. ring.
Qed.
(** Evaluation of the 18 functions either succeeds with the closed form or divides by zero. *)
Lemma no_log_err rho e : (fix nolog e := match e with ELog _ => False | EAdd a b | EMul a b | EDiv a b => nolog a /\ nolog b | EPow a _ | EExp a => nolog a | _ => True end) e ->
  forall x, eval rho e = Err x -> x = ZeroDivisionError.
Proof.
  induction e; cbn [eval]; intros K x0 E; try discriminate; try contradiction.
  - destruct K as [K1 K2]. destruct (eval rho e1) eqn:E1; [|injection E as <-; eauto]. destruct (eval rho e2) eqn:E2; [discriminate|injection E as <-; eauto].
  - destruct K as [K1 K2]. destruct (eval rho e1) eqn:E1; [|injection E as <-; eauto]. destruct (eval rho e2) eqn:E2; [discriminate|injection E as <-; eauto].
  - destruct K as [K1 K2]. destruct (eval rho e1) eqn:E1; [|injection E as <-; eauto]. destruct (eval rho e2) eqn:E2; [|injection E as <-; eauto].
    cbn [bind] in E. destruct (Req_dec a0 0) as [Z|Z]; [rewrite Z, ndiv_R0 in E; injection E as <-; reflexivity|]. rewrite ndiv_R in E by exact Z. discriminate.
  - destruct (eval rho e) eqn:E1; [discriminate|injection E as <-; eauto].
  - destruct (eval rho e) eqn:E1; [discriminate|injection E as <-; eauto].
Qed.
Lemma regular_dec b c : {regular b c} + {~ regular b c}.
Proof.
  destruct b as [[b1 b2] b3], c as [[c1 c2] c3]. unfold regular.
  destruct (Req_EM_T (b1 ^ 2 + c1 ^ 2) 0); [right; tauto|]. destruct (Req_EM_T (b2 ^ 2 + c2 ^ 2) 0); [right; tauto|]. destruct (Req_EM_T (b3 ^ 2 + c3 ^ 2) 0); [right; tauto|]. left. tauto.
Qed.
Lemma eval_irregular rho L b c : rho = bell_env L b c -> ~ regular b c -> mapM (eval rho) N_all = Err ZeroDivisionError.
Proof.
  intros -> N. destruct (mapM (eval (bell_env L b c)) N_all) as [vs|x] eqn:E.
  - exfalso. apply N. assert (D : Forall (defined (bell_env L b c)) N_all).
    { rewrite Forall_forall. intros e He. destruct (mapM_ok_in _ _ _ _ E He) as [v [Hv _]]. apply eval_inv in Hv. tauto. }
    rewrite N_all_eq in D. destruct L as [[L1 L2] L3], b as [[b1 b2] b3], c as [[c1 c2] c3]. unfold N_all_ in D.
    pose proof (Forall_inv D) as D1. apply Forall_inv_tail in D. do 5 apply Forall_inv_tail in D. pose proof (Forall_inv D) as D2. cbn [defined teval bell_env fst snd] in D1, D2. unfold regular. intuition.
  - apply mapM_err_exists in E as [e [He E]]. f_equal. revert E. apply no_log_err. rewrite N_all_eq in He. unfold N_all_ in He.
    repeat (destruct He as [<-|He]; [cbv; tauto|]). destruct He.
Qed.
Opaque N_all.
Lemma eval_at_gen p q r L es : eval_at (tri p q r) L es = mapM (eval (bell_env L (bb p q r) (cc p q r))) es. Proof. reflexivity. Qed.
Lemma shape_tri p q r L : shape_function (tri p q r) L = if regular_dec (bb p q r) (cc p q r) then Ok (Nf_all L (bb p q r) (cc p q r)) else Err ZeroDivisionError.
Proof.
  unfold shape_function. rewrite eval_at_gen. destruct (regular_dec _ _) as [G|G].
  - rewrite eval_list by (apply N_all_defined, G). rewrite N_all_value. reflexivity.
  - apply (eval_irregular _ _ _ _ eq_refl G).
Qed.
Lemma call_value n1 n2 n3 L1 L2 L3 : six_dofs n1 -> six_dofs n2 -> six_dofs n3 ->
  call bell_interpolation ((n1, L1), (n2, L2), (n3, L3)) =
  if regular_dec (bb (pos n1) (pos n2) (pos n3)) (cc (pos n1) (pos n2) (pos n3))
  then Ok (Nval (L1, L2, L3) (bb (pos n1) (pos n2) (pos n3)) (cc (pos n1) (pos n2) (pos n3)) (dofs n1) (dofs n2) (dofs n3)) else Err ZeroDivisionError.
Proof.
  intros E1 E2 E3. unfold call. unfold bell_interpolation.
  assert (EL : length (dofs n1 ++ dofs n2 ++ dofs n3) = 18%nat) by (rewrite !app_length, E1, E2, E3; reflexivity). rewrite EL. change (negb (18 =? 18)%nat) with false. cbv iota.
  change (vec (pos n1), vec (pos n2), vec (pos n3)) with (tri (pos n1) (pos n2) (pos n3)). rewrite shape_tri.
  destruct (regular_dec _ _) as [G|G]; reflexivity.
Qed.
Lemma regular_rot p q r : regular (bb q r p) (cc q r p) <-> regular (bb p q r) (cc p q r).
Proof. unfold regular, bb, cc. tauto. Qed.
Lemma regular_swap p q r : regular (bb p r q) (cc p r q) <-> regular (bb p q r) (cc p q r).
Proof.
  unfold regular, bb, cc. assert (E : forall a b c d, (a - b) ^ 2 + (c - d) ^ 2 = (b - a) ^ 2 + (d - c) ^ 2) by (intros; ring).
  rewrite (E (snd r) (snd q)), (E (snd q) (snd p)), (E (snd p) (snd r)). tauto.
Qed.
Lemma call_rot n1 n2 n3 L1 L2 L3 : six_dofs n1 -> six_dofs n2 -> six_dofs n3 ->
  call bell_interpolation ((n2, L2), (n3, L3), (n1, L1)) = call bell_interpolation ((n1, L1), (n2, L2), (n3, L3)).
Proof.
  intros E1 E2 E3. rewrite !call_value by assumption. pose proof (regular_rot (pos n1) (pos n2) (pos n3)) as K.
  destruct (regular_dec (bb (pos n2) _ _) _), (regular_dec _ _); try tauto. rewrite Nval_rot by assumption. reflexivity.
Qed.
Lemma call_swap n1 n2 n3 L1 L2 L3 : six_dofs n1 -> six_dofs n2 -> six_dofs n3 ->
  call bell_interpolation ((n1, L1), (n3, L3), (n2, L2)) = call bell_interpolation ((n1, L1), (n2, L2), (n3, L3)).
Proof.
  intros E1 E2 E3. rewrite !call_value by assumption. pose proof (regular_swap (pos n1) (pos n2) (pos n3)) as K.
  destruct (regular_dec (bb _ (pos n3) _) _), (regular_dec _ _); try tauto. rewrite Nval_swap by assumption. reflexivity.
Qed.
(** The six orders of three things. *)
Lemma perm3 {A} (a b c x y z : A) : Permutation [a; b; c] [x; y; z] ->
  (x, y, z) = (a, b, c) \/ (x, y, z) = (b, c, a) \/ (x, y, z) = (c, a, b) \/ (x, y, z) = (a, c, b) \/ (x, y, z) = (c, b, a) \/ (x, y, z) = (b, a, c).
Proof.
  intros H. apply Permutation_sym in H. assert (I : In x [a; b; c]) by (apply (Permutation_in _ H); left; reflexivity).
  destruct I as [<- | [<- | [<- | []]]].
  - apply Permutation_cons_inv in H. apply Permutation_length_2 in H as [[-> ->]|[-> ->]]; auto 8.
  - assert (H' : Permutation [b; y; z] [b; a; c]) by (rewrite H; constructor). apply Permutation_cons_inv in H'. apply Permutation_length_2 in H' as [[-> ->]|[-> ->]]; auto 8.
  - assert (H' : Permutation [c; y; z] [c; a; b]) by (rewrite H; apply (Permutation_app_comm [a; b] [c])). apply Permutation_cons_inv in H'. apply Permutation_length_2 in H' as [[-> ->]|[-> ->]]; auto 8.
Qed.
(** A property of listings that is invariant under rotating and swapping is invariant under all orders. *)
Lemma perm_closed {A} (f : listing -> A) (ok : node * R -> Prop) :
  (forall a b c, ok a -> ok b -> ok c -> f (b, c, a) = f (a, b, c)) -> (forall a b c, ok a -> ok b -> ok c -> f (a, c, b) = f (a, b, c)) ->
  forall w w', (forall x, In x (listed w) -> ok x) -> Permutation (listed w) (listed w') -> f w' = f w.
Proof.
  intros Rt Sw [[a b] c] [[x y] z] O H. unfold listed in *.
  assert (Oa : ok a) by (apply O; cbn; auto). assert (Ob : ok b) by (apply O; cbn; auto). assert (Oc : ok c) by (apply O; cbn; auto).
  destruct (perm3 _ _ _ _ _ _ H) as [E|[E|[E|[E|[E|E]]]]]; injection E as -> -> ->.
  - reflexivity.
  - apply Rt; assumption.
  - rewrite <- (Rt c a b) by assumption. reflexivity.
  - apply Sw; assumption.
  - rewrite <- (Rt c b a) by assumption. rewrite Sw by assumption. apply Rt; assumption.
  - rewrite Sw by assumption. apply Rt; assumption.
Qed.
Theorem numbering w w' : (forall x, In x (listed w) -> six_dofs (fst x)) -> Permutation (listed w) (listed w') ->
  call bell_interpolation w' = call bell_interpolation w.
Proof.
  apply (perm_closed (call bell_interpolation) (fun x => six_dofs (fst x))); intros [n1 L1] [n2 L2] [n3 L3] E1 E2 E3; [apply call_rot|apply call_swap]; assumption.
Qed.
(** ** Edges *)
Definition Ne (t b3 c3 : R) : list R :=
  let s := 1 - t in
  [ t^5 + 5*t^4*s + 10*t^3*s^2; c3*t^4*s + 4*c3*t^3*s^2; - (b3*t^4*s) - 4*b3*t^3*s^2; c3^2/2*t^3*s^2; - (b3*c3*t^3*s^2); b3^2/2*t^3*s^2;
    s^5 + 5*s^4*t + 10*s^3*t^2; - (c3*s^4*t) - 4*c3*s^3*t^2; b3*s^4*t + 4*b3*s^3*t^2; c3^2/2*s^3*t^2; - (b3*c3*s^3*t^2); b3^2/2*s^3*t^2 ].
Definition N_on_edge_ := Eval vm_compute in N_on_edge.
Lemma N_on_edge_eq : N_on_edge = N_on_edge_. Proof. vm_compute. reflexivity. Qed.
Lemma on_edge_value p q t u : bell_interpolation_on_edge (vec p, vec q) t u = Ok (Vector_dot (Ne t (snd p - snd q) (fst q - fst p)) u).
Proof.
  unfold bell_interpolation_on_edge, shape_function_on_edge. unfold xy, vec. cbn [Vector_get bind length Z.of_nat]. change (Vector_get [fst p; snd p] 0) with (Ok (fst p)). change (Vector_get [fst p; snd p] 1) with (Ok (snd p)).
  change (Vector_get [fst q; snd q] 0) with (Ok (fst q)). change (Vector_get [fst q; snd q] 1) with (Ok (snd q)). cbn [bind].
  rewrite eval_list. 2:{ rewrite N_on_edge_eq. unfold N_on_edge_. repeat constructor; unfold Q2R; cbn; lra. }
  cbn [bind]. apply (f_equal Ok). f_equal. rewrite N_on_edge_eq. unfold N_on_edge_, Ne. cbn [map teval edge_env]. unfold Q2R. cbn [Qnum Qden].
  repeat (apply (f_equal2 (@cons R)); [field|]). reflexivity.
Qed.
Lemma Nval_edge t b1 b2 b3 c1 c2 c3 u1 u2 u3 : length u1 = 6%nat -> length u2 = 6%nat -> length u3 = 6%nat ->
  Nval (t, 1 - t, 0) (b1, b2, b3) (c1, c2, c3) u1 u2 u3 = Vector_dot (Ne t b3 c3) (u1 ++ u2).
Proof.
  intros E1 E2 E3. rewrite Nval_split by assumption. generalize (rr b2 b1 c2 c1) (rr b3 b1 c3 c1) (rr b3 b2 c3 c2) (rr b1 b2 c1 c2) (rr b1 b3 c1 c3) (rr b2 b3 c2 c3). intros r1 r2 r3 r4 r5 r6.
  change (Ne t b3 c3) with (firstn 6 (Ne t b3 c3) ++ skipn 6 (Ne t b3 c3)). rewrite dot_app by (rewrite E1; reflexivity).
  replace (Nf t (1 - t) 0 b1 b2 b3 c1 c2 c3 r1 r2) with (firstn 6 (Ne t b3 c3)) by (unfold Ne, Nf; cbn [firstn]; repeat (apply (f_equal2 (@cons R)); [field|]); reflexivity).
  replace (Nf (1 - t) 0 t b2 b3 b1 c2 c3 c1 r3 r4) with (skipn 6 (Ne t b3 c3)) by (unfold Ne, Nf; cbn [skipn]; repeat (apply (f_equal2 (@cons R)); [field|]); reflexivity).
  replace (Nf 0 t (1 - t) b3 b1 b2 c3 c1 c2 r5 r6) with [0; 0; 0; 0; 0; 0] by (unfold Nf; repeat (apply (f_equal2 (@cons R)); [field|]); reflexivity).
  apply six in E3 as [e0 [e1 [e2 [e3 [e4 [e5 ->]]]]]]. rewrite !dot_cons, !dot_nil. ring.
Qed.
