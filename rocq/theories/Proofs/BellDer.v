(** The Bell gradient and Hessian are the derivatives of the Bell interpolation in Euclidean coordinates. *)
From Coq Require Import Reals QArith Qreals Lra Lia List.
From Coquelicot Require Import Coquelicot.
From Verif.Model Require Import Py Num Tensors Domain Expr Bell.
From Verif.Spec Require Import GridSpec TensorSpec BellSpec.
From Verif.Proofs Require Import Lib TensorsP ExprP BellP BellD BellV.
Local Open Scope R_scope.
Import ListNotations.

Ltac toR0 := unfold zero, plus; cbn -[pow Vector_dot]; match goal with |- ?a = ?b => change (@eq R a b) end.
Section Der.
Context (p q r : R * R) (ps : vector R).
Hypothesis H : cross p q r <> 0.
Let C := cross p q r.
Let b1 := snd q - snd r. Let b2 := snd r - snd p. Let b3 := snd p - snd q.
Let c1 := fst r - fst q. Let c2 := fst p - fst r. Let c3 := fst q - fst p.
Let a1 := fst q * snd r - fst r * snd q.
Let a2 := fst r * snd p - fst p * snd r.
Let a3 := fst p * snd q - fst q * snd p.
(** The barycentric coordinates of (x, y). *)
Definition bcoords (x y : R) : bary R := ((a1 + b1 * x + c1 * y) / C, (a2 + b2 * x + c2 * y) / C, (a3 + b3 * x + c3 * y) / C).
Lemma bcoords_of L x : bary_of p q r L x -> L = bcoords (fst x) (snd x).
Proof.
  destruct L as [[L1 L2] L3]. unfold bary_of, l1, l2, l3. cbn [fst snd]. intros [E1 [-> ->]]. unfold bcoords. fold C in H.
  assert (X : forall u u' v v' w w' : R, u = u' -> v = v' -> w = w' -> (u, v, w) = (u', v', w')) by (intros; congruence).
  replace L1 with (1 - L2 - L3) by lra. apply X; apply (Rmult_eq_reg_r C); try exact H;
  unfold Rdiv; rewrite ?Rmult_assoc, ?Rinv_l, ?Rmult_1_r by exact H; unfold C, cross, a1, a2, a3, b1, b2, b3, c1, c2, c3; ring.
Qed.
Lemma bary_bcoords x y : bary_of p q r (bcoords x y) (x, y).
Proof. unfold bary_of, bcoords, l1, l2, l3. cbn [fst snd]. fold C in H. repeat split; apply (Rmult_eq_reg_r C); try exact H; unfold a1, a2, a3, b1, b2, b3, c1, c2, c3; [replace 1 with (C / C) by (field; exact H)| |]; field_simplify; try exact H; unfold C, cross; ring. Qed.
Definition rhoxy (x y : R) : env := rho3 p q r (bcoords x y).
Definition ok (e : expr) : Prop := forall x y, defined (rhoxy x y) e.
Lemma ok_N : Forall ok N_all.
Proof. rewrite Forall_forall. intros e He x y. pose proof (all_defined p q r (bcoords x y) H) as D. rewrite Forall_forall in D. apply D, He. Qed.
Lemma ok_diff s es : Forall ok es -> Forall ok (map (diff s) es).
Proof. rewrite !Forall_forall. intros K e He x y. apply in_map_iff in He as [e' [<- He]]. apply def_diff, K, He. Qed.
Definition Fv (es : list expr) (x y : R) : R := Vector_dot (map (teval (rhoxy x y)) es) ps.
Lemma der1 e x y : ok e -> is_derive (fun s => teval (rhoxy s y) e) x ((b1 * teval (rhoxy x y) (diff sL1 e) + b2 * teval (rhoxy x y) (diff sL2 e) + b3 * teval (rhoxy x y) (diff sL3 e)) / C).
Proof.
  intros D. set (d := fun z => match z with sL1 => b1 / C | sL2 => b2 / C | sL3 => b3 / C | _ => 0 end).
  pose proof (along_correct (fun s => rhoxy s y) d x e) as K. evar_last; [apply K|].
  - intros z. fold C in H. destruct z; unfold rhoxy, rho3, bell_env, bcoords, d; cbn [fst snd]; try (auto_derive; [exact I|field; exact H]).
  - apply D.
  - unfold along, all_syms, d. cbn [map Rsum fold_right]. fold C in H. field. exact H.
Qed.
Lemma der2 e x y : ok e -> is_derive (fun s => teval (rhoxy x s) e) y ((c1 * teval (rhoxy x y) (diff sL1 e) + c2 * teval (rhoxy x y) (diff sL2 e) + c3 * teval (rhoxy x y) (diff sL3 e)) / C).
Proof.
  intros D. set (d := fun z => match z with sL1 => c1 / C | sL2 => c2 / C | sL3 => c3 / C | _ => 0 end).
  pose proof (along_correct (fun s => rhoxy x s) d y e) as K. evar_last; [apply K|].
  - intros z. fold C in H. destruct z; unfold rhoxy, rho3, bell_env, bcoords, d; cbn [fst snd]; try (auto_derive; [exact I|field; exact H]).
  - apply D.
  - unfold along, all_syms, d. cbn [map Rsum fold_right]. fold C in H. field. exact H.
Qed.
Lemma dot_nil (v : vector R) : Vector_dot [] v = 0. Proof. reflexivity. Qed.
Lemma dot_cons x y (v w : vector R) : Vector_dot (x :: v) (y :: w) = x * y + Vector_dot v w.
Proof. unfold Vector_dot. cbn [zip combine map]. rewrite !nsum_Rsum. reflexivity. Qed.
Lemma dot_nil_r (v : vector R) : Vector_dot v [] = 0. Proof. destruct v; reflexivity. Qed.
Lemma Fv_der1 es x y : Forall ok es -> is_derive (fun s => Fv es s y) x ((b1 * Fv (map (diff sL1) es) x y + b2 * Fv (map (diff sL2) es) x y + b3 * Fv (map (diff sL3) es) x y) / C).
Proof.
  unfold Fv. clear -H. generalize ps. intros w D. revert w. induction D as [|e es De D IH]; intros w.
  - cbn [map]. evar_last; [exact (is_derive_const (K := R_AbsRing) (V := R_NormedModule) 0 x)|]. rewrite !dot_nil. toR0. unfold Rdiv. ring.
  - destruct w as [|u w].
    + apply (is_derive_ext (fun _ => 0)); [intros; symmetry; apply dot_nil_r|]. evar_last; [exact (is_derive_const (K := R_AbsRing) (V := R_NormedModule) 0 x)|]. rewrite !dot_nil_r. toR0. unfold Rdiv. ring.
    + cbn [map]. apply (is_derive_ext (fun s => u * teval (rhoxy s y) e + Vector_dot (map (teval (rhoxy s y)) es) w)); [intros; rewrite dot_cons; toR0; ring|].
      evar_last; [apply (is_derive_plus (K := R_AbsRing) (V := R_NormedModule)); [apply is_derive_scal, der1, De|apply IH]|].
      rewrite !dot_cons. toR0. fold C in H. field. exact H.
Qed.
Lemma Fv_der2 es x y : Forall ok es -> is_derive (fun s => Fv es x s) y ((c1 * Fv (map (diff sL1) es) x y + c2 * Fv (map (diff sL2) es) x y + c3 * Fv (map (diff sL3) es) x y) / C).
Proof.
  unfold Fv. clear -H. generalize ps. intros w D. revert w. induction D as [|e es De D IH]; intros w.
  - cbn [map]. evar_last; [exact (is_derive_const (K := R_AbsRing) (V := R_NormedModule) 0 y)|]. rewrite !dot_nil. toR0. unfold Rdiv. ring.
  - destruct w as [|u w].
    + apply (is_derive_ext (fun _ => 0)); [intros; symmetry; apply dot_nil_r|]. evar_last; [exact (is_derive_const (K := R_AbsRing) (V := R_NormedModule) 0 y)|]. rewrite !dot_nil_r. toR0. unfold Rdiv. ring.
    + cbn [map]. apply (is_derive_ext (fun s => u * teval (rhoxy x s) e + Vector_dot (map (teval (rhoxy x s)) es) w)); [intros; rewrite dot_cons; toR0; ring|].
      evar_last; [apply (is_derive_plus (K := R_AbsRing) (V := R_NormedModule)); [apply is_derive_scal, der2, De|apply IH]|].
      rewrite !dot_cons. toR0. fold C in H. field. exact H.
Qed.
(** The function the interpolation defines and its derivatives. *)
Definition Bf (x y : R) : R := Fv N_all x y.
Definition Bx (x y : R) : R := (b1 * Fv D1_ x y + b2 * Fv D2_ x y + b3 * Fv D3_ x y) / C.
Definition By (x y : R) : R := (c1 * Fv D1_ x y + c2 * Fv D2_ x y + c3 * Fv D3_ x y) / C.
Definition Bxx (x y : R) : R := (b1 ^ 2 * Fv D11_ x y + b2 ^ 2 * Fv D22_ x y + b3 ^ 2 * Fv D33_ x y + 2 * b1 * b2 * Fv D12_ x y + 2 * b1 * b3 * Fv D13_ x y + 2 * b2 * b3 * Fv D23_ x y) / C ^ 2.
Definition Byy (x y : R) : R := (c1 ^ 2 * Fv D11_ x y + c2 ^ 2 * Fv D22_ x y + c3 ^ 2 * Fv D33_ x y + 2 * c1 * c2 * Fv D12_ x y + 2 * c1 * c3 * Fv D13_ x y + 2 * c2 * c3 * Fv D23_ x y) / C ^ 2.
Definition Bxy (x y : R) : R := (b1 * c1 * Fv D11_ x y + b2 * c2 * Fv D22_ x y + b3 * c3 * Fv D33_ x y + (b1 * c2 + b2 * c1) * Fv D12_ x y + (b1 * c3 + b3 * c1) * Fv D13_ x y + (b2 * c3 + b3 * c2) * Fv D23_ x y) / C ^ 2.
Lemma Fv_diff2 s t es : map (fun e => diff t (diff s e)) N_all = es -> forall x y, Fv (map (diff t) (map (diff s) N_all)) x y = Fv es x y.
Proof. intros <- x y. rewrite map_map. reflexivity. Qed.
Lemma Fv_comm s t x y : Fv (map (diff t) (map (diff s) N_all)) x y = Fv (map (diff s) (map (diff t) N_all)) x y.
Proof. unfold Fv. f_equal. rewrite !map_map. apply map_ext_in. intros e He. apply diff_comm. pose proof ok_N as K. rewrite Forall_forall in K. apply K, He. Qed.
Lemma F11 x y : Fv (map (diff sL1) D1_) x y = Fv D11_ x y. Proof. rewrite <- D1_eq. apply Fv_diff2, D11_eq. Qed.
Lemma F12 x y : Fv (map (diff sL2) D1_) x y = Fv D12_ x y. Proof. rewrite <- D1_eq. apply Fv_diff2, D12_eq. Qed.
Lemma F13 x y : Fv (map (diff sL3) D1_) x y = Fv D13_ x y. Proof. rewrite <- D1_eq. apply Fv_diff2, D13_eq. Qed.
Lemma F22 x y : Fv (map (diff sL2) D2_) x y = Fv D22_ x y. Proof. rewrite <- D2_eq. apply Fv_diff2, D22_eq. Qed.
Lemma F23 x y : Fv (map (diff sL3) D2_) x y = Fv D23_ x y. Proof. rewrite <- D2_eq. apply Fv_diff2, D23_eq. Qed.
Lemma F33 x y : Fv (map (diff sL3) D3_) x y = Fv D33_ x y. Proof. rewrite <- D3_eq. apply Fv_diff2, D33_eq. Qed.
Lemma F21 x y : Fv (map (diff sL1) D2_) x y = Fv D12_ x y. Proof. rewrite <- D2_eq, Fv_comm, D1_eq. apply F12. Qed.
Lemma F31 x y : Fv (map (diff sL1) D3_) x y = Fv D13_ x y. Proof. rewrite <- D3_eq, Fv_comm, D1_eq. apply F13. Qed.
Lemma F32 x y : Fv (map (diff sL2) D3_) x y = Fv D23_ x y. Proof. rewrite <- D3_eq, Fv_comm, D2_eq. apply F23. Qed.
Lemma ok1 : Forall ok D1_. Proof. rewrite <- D1_eq. apply ok_diff, ok_N. Qed.
Lemma ok2 : Forall ok D2_. Proof. rewrite <- D2_eq. apply ok_diff, ok_N. Qed.
Lemma ok3 : Forall ok D3_. Proof. rewrite <- D3_eq. apply ok_diff, ok_N. Qed.
Lemma partials_B : partials Bf Bx By.
Proof. intros x y. unfold Bf, Bx, By. rewrite <- D1_eq, <- D2_eq, <- D3_eq. split; [apply Fv_der1, ok_N|apply Fv_der2, ok_N]. Qed.
Lemma der_comb (f g h : R -> R) u v w x f' g' h' : is_derive f x f' -> is_derive g x g' -> is_derive h x h' ->
  is_derive (fun s => (u * f s + v * g s + w * h s) / C) x ((u * f' + v * g' + w * h') / C).
Proof.
  intros F G K. apply (is_derive_ext (fun s => / C * (u * f s + v * g s + w * h s))); [intros; toR0; unfold Rdiv; ring|].
  evar_last; [apply is_derive_scal; apply (is_derive_plus (K := R_AbsRing) (V := R_NormedModule)); [apply (is_derive_plus (K := R_AbsRing) (V := R_NormedModule))|]; apply is_derive_scal; eassumption|].
  toR0. unfold Rdiv. ring.
Qed.
Opaque Fv D1_ D2_ D3_ D11_ D12_ D13_ D22_ D23_ D33_.
Lemma partials_Bx : partials Bx Bxx Bxy.
Proof.
  intros x y. unfold Bx. split.
  1: evar_last; [exact (der_comb _ _ _ _ _ _ _ _ _ _ (Fv_der1 D1_ x y ok1) (Fv_der1 D2_ x y ok2) (Fv_der1 D3_ x y ok3))|].
  2: evar_last; [exact (der_comb _ _ _ _ _ _ _ _ _ _ (Fv_der2 D1_ x y ok1) (Fv_der2 D2_ x y ok2) (Fv_der2 D3_ x y ok3))|].
  all: unfold Bxx, Byy, Bxy; generalize (F11 x y) (F12 x y) (F13 x y) (F21 x y) (F22 x y) (F23 x y) (F31 x y) (F32 x y) (F33 x y); generalize (Fv (map (diff sL1) D1_) x y) (Fv (map (diff sL2) D1_) x y) (Fv (map (diff sL3) D1_) x y); generalize (Fv (map (diff sL1) D2_) x y) (Fv (map (diff sL2) D2_) x y) (Fv (map (diff sL3) D2_) x y); generalize (Fv (map (diff sL1) D3_) x y) (Fv (map (diff sL2) D3_) x y) (Fv (map (diff sL3) D3_) x y); intros ? ? ? ? ? ? ? ? ? -> -> -> -> -> -> -> -> ->; fold C in H; generalize (Fv D11_ x y) (Fv D12_ x y) (Fv D13_ x y) (Fv D22_ x y) (Fv D23_ x y) (Fv D33_ x y); intros; toR0; field; exact H.
Qed.
Lemma partials_By : partials By Bxy Byy.
Proof.
  intros x y. unfold By. split.
  1: evar_last; [exact (der_comb _ _ _ _ _ _ _ _ _ _ (Fv_der1 D1_ x y ok1) (Fv_der1 D2_ x y ok2) (Fv_der1 D3_ x y ok3))|].
  2: evar_last; [exact (der_comb _ _ _ _ _ _ _ _ _ _ (Fv_der2 D1_ x y ok1) (Fv_der2 D2_ x y ok2) (Fv_der2 D3_ x y ok3))|].
  all: unfold Bxx, Byy, Bxy; generalize (F11 x y) (F12 x y) (F13 x y) (F21 x y) (F22 x y) (F23 x y) (F31 x y) (F32 x y) (F33 x y); generalize (Fv (map (diff sL1) D1_) x y) (Fv (map (diff sL2) D1_) x y) (Fv (map (diff sL3) D1_) x y); generalize (Fv (map (diff sL1) D2_) x y) (Fv (map (diff sL2) D2_) x y) (Fv (map (diff sL3) D2_) x y); generalize (Fv (map (diff sL1) D3_) x y) (Fv (map (diff sL2) D3_) x y) (Fv (map (diff sL3) D3_) x y); intros ? ? ? ? ? ? ? ? ? -> -> -> -> -> -> -> -> ->; fold C in H; generalize (Fv D11_ x y) (Fv D12_ x y) (Fv D13_ x y) (Fv D22_ x y) (Fv D23_ x y) (Fv D33_ x y); intros; toR0; field; exact H.
Qed.
Transparent Fv.
Hypothesis Hps : length ps = 18%nat.
Lemma value_B L x : bary_of p q r L x -> bell_interpolation (tri p q r) L ps = Ok (Bf (fst x) (snd x)).
Proof. intros K. apply bcoords_of in K. rewrite K, bell_value by assumption. unfold Bf, Fv, rhoxy, rho3. rewrite N_all_value. reflexivity. Qed.
Lemma gradient_B L x : bary_of p q r L x -> bell_interpolation_gradient (tri p q r) L ps = Ok (gradient_value (Bx (fst x) (snd x)) (By (fst x) (snd x))).
Proof. intros K. apply bcoords_of in K. rewrite K. apply gradient_value_tri; assumption. Qed.
Lemma hessian_B L x : bary_of p q r L x -> bell_interpolation_hessian (tri p q r) L ps = Ok (hessian_value (Bxx (fst x) (snd x)) (Bxy (fst x) (snd x)) (Byy (fst x) (snd x))).
Proof. intros K. apply bcoords_of in K. rewrite K. apply hessian_value_tri; assumption. Qed.
End Der.
