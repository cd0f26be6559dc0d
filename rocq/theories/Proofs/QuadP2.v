(** Polynomials under affine maps, and iterated integrals over cells and triangles. *)
From Coq Require Import Reals Lra Lia List.
From Coquelicot Require Import Coquelicot.
From Verif.Model Require Import Py Num Tensors Quadrature.
From Verif.Spec Require Import QuadSpec.
From Verif.Proofs Require Import QuadP.
Local Open Scope R_scope.
Import ListNotations.

Lemma peval_app p q x y : peval (p ++ q) x y = peval p x y + peval q x y.
Proof. induction p as [|[c [i j]] p IH]; cbn [app]; [change (peval [] x y) with 0; ring|]. cbn [peval fold_right]. fold (peval p x y) (peval (p ++ q) x y). rewrite IH. ring. Qed.
Lemma degree_app d p q : degree_le d p -> degree_le d q -> degree_le d (p ++ q).
Proof. intros H K c i j I. apply in_app_or in I as [I|I]; [apply (H c)|apply (K c)]; exact I. Qed.
Definition pterm (c : R) (i j : nat) (q : poly2) : poly2 := map (fun '(c', (i', j')) => (c * c', (i + i', j + j')%nat)) q.
Definition pmul (p q : poly2) : poly2 := flat_map (fun '(c, (i, j)) => pterm c i j q) p.
Lemma peval_pterm c i j q x y : peval (pterm c i j q) x y = c * x ^ i * y ^ j * peval q x y.
Proof. induction q as [|[c' [i' j']] q IH]; [change (0 = c * x ^ i * y ^ j * 0); ring|]. cbn [pterm map peval fold_right]. fold (pterm c i j q) (peval q x y) (peval (pterm c i j q) x y). rewrite IH, !pow_add. ring. Qed.
Lemma peval_pmul p q x y : peval (pmul p q) x y = peval p x y * peval q x y.
Proof. induction p as [|[c [i j]] p IH]; [change (0 = 0 * peval q x y); ring|]. cbn [pmul flat_map]. fold (pmul p q). rewrite peval_app, IH, peval_pterm. cbn [peval fold_right]. fold (peval p x y). ring. Qed.
Lemma degree_pterm c i j q d : degree_le d q -> degree_le (i + j + d) (pterm c i j q).
Proof. intros H e k l I. apply in_map_iff in I as [[c' [i' j']] [E I]]. injection E as <- <- <-. specialize (H c' i' j' I). lia. Qed.
Lemma degree_weaken d d' p : (d <= d')%nat -> degree_le d p -> degree_le d' p.
Proof. intros L H c i j I. specialize (H c i j I). lia. Qed.
Lemma degree_pmul p q d e : degree_le d p -> degree_le e q -> degree_le (d + e) (pmul p q).
Proof.
  intros H K. induction p as [|[c [i j]] p IH]; [intros ? ? ? []|]. cbn [pmul flat_map]. apply degree_app.
  - apply (degree_weaken (i + j + e)); [|apply degree_pterm, K]. specialize (H c i j (or_introl eq_refl)). lia.
  - apply IH. intros c' i' j' I. apply (H c'). right. exact I.
Qed.
Definition is_poly (d : nat) (f : R -> R -> R) : Prop := exists p, degree_le d p /\ forall x y, f x y = peval p x y.
Lemma is_poly_mult d e f g : is_poly d f -> is_poly e g -> is_poly (d + e) (fun x y => f x y * g x y).
Proof. intros [p [Hp Ep]] [q [Hq Eq]]. exists (pmul p q). split; [apply degree_pmul; assumption|]. intros. rewrite peval_pmul, Ep, Eq. reflexivity. Qed.
Lemma is_poly_plus d f g : is_poly d f -> is_poly d g -> is_poly d (fun x y => f x y + g x y).
Proof. intros [p [Hp Ep]] [q [Hq Eq]]. exists (p ++ q). split; [apply degree_app; assumption|]. intros. rewrite peval_app, Ep, Eq. reflexivity. Qed.
Lemma is_poly_weaken d d' f : (d <= d')%nat -> is_poly d f -> is_poly d' f.
Proof. intros L [p [H E]]. exists p. split; [apply (degree_weaken d); assumption|exact E]. Qed.
Lemma is_poly_const d c : is_poly d (fun _ _ => c).
Proof. exists [(c, (0, 0)%nat)]. split; [intros ? ? ? [E|[]]; injection E as <- <- <-; lia|]. intros; cbn; ring. Qed.
Lemma is_poly_affine a0 a1 a2 : is_poly 1 (fun x y => a0 + a1 * x + a2 * y).
Proof. exists [(a0, (0, 0)%nat); (a1, (1, 0)%nat); (a2, (0, 1)%nat)]. split; [intros ? ? ? [E|[E|[E|[]]]]; injection E as <- <- <-; lia|]. intros; cbn; ring. Qed.
Lemma is_poly_pow f n : is_poly 1 f -> is_poly n (fun x y => f x y ^ n).
Proof. intros H. induction n as [|n IH]; [apply (is_poly_const 0 1)|]. apply (is_poly_mult 1 n f (fun x y => f x y ^ n) H IH). Qed.
Lemma is_poly_ext d f g : (forall x y, f x y = g x y) -> is_poly d f -> is_poly d g.
Proof. intros E [p [H K]]. exists p. split; [exact H|]. intros x y. rewrite <- E. apply K. Qed.
Lemma is_poly_comp d f A B : is_poly d f -> is_poly 1 A -> is_poly 1 B -> is_poly d (fun x y => f (A x y) (B x y)).
Proof.
  intros [p [H E]] HA HB. apply (is_poly_ext d (fun x y => peval p (A x y) (B x y))); [intros; symmetry; apply E|]. clear E.
  induction p as [|[c [i j]] p IH]; [apply (is_poly_const d 0)|].
  apply (is_poly_ext d (fun x y => c * (A x y ^ i * B x y ^ j) + peval p (A x y) (B x y))); [intros; cbn [peval fold_right]; fold (peval p (A x y) (B x y)); ring|].
  apply is_poly_plus; [|apply IH; intros c' i' j' I; apply (H c'); right; exact I].
  specialize (H c i j (or_introl eq_refl)). apply (is_poly_weaken (0 + (i + j))); [lia|].
  apply is_poly_mult; [apply is_poly_const|]. apply is_poly_mult; apply is_poly_pow; assumption.
Qed.
Lemma reference_ext f g : (forall x y, f x y = g x y) -> reference_integral f = reference_integral g.
Proof. intros E. unfold reference_integral. apply RInt_ext. intros x _. apply RInt_ext. intros y _. apply E. Qed.
Lemma exact_is_poly r d f : exact_to r d -> is_poly d f -> rule_value r f = 2 * reference_integral f.
Proof. intros H [p [D E]]. rewrite (reference_ext f (peval p)) by exact E. rewrite <- H by exact D. apply weighted_sum_ext. intros; apply E. Qed.

(** Swapping the two coordinates. *)
Lemma mono_int_sym i j : mono_int i j = mono_int j i.
Proof. unfold mono_int. replace (j + i + 2)%nat with (i + j + 2)%nat by lia. unfold Rdiv. ring. Qed.
Lemma reference_swap d f : is_poly d f -> reference_integral (fun x y => f y x) = reference_integral f.
Proof.
  intros [p [_ E]]. set (q := map (fun '(c, (i, j)) => (c, (j, i))) p : poly2).
  rewrite (reference_ext f (peval p)) by exact E. rewrite (reference_ext (fun x y => f y x) (peval q)).
  - rewrite !reference_poly. unfold q. clear E. induction p as [|[c [i j]] p IH]; [reflexivity|]. cbn [map fold_right]. rewrite IH, mono_int_sym. reflexivity.
  - intros x y. rewrite E. unfold q. clear E q. induction p as [|[c [i j]] p IH]; [reflexivity|].
    change (c * y ^ i * x ^ j + peval p y x = c * x ^ j * y ^ i + peval (map (fun '(c, (i, j)) => (c, (j, i))) p) x y). rewrite <- IH. ring.
Qed.
(** Inner integrals of polynomials with bounds depending smoothly on the outer variable. *)
Lemma ex_poly1 p x a b : ex_RInt (fun y => peval p x y) a b.
Proof. induction p as [|[c [i j]] p IH]; [apply (ex_RInt_const (V := R_NormedModule) _ _ 0)|]. cbn [peval fold_right]. apply (ex_RInt_plus (V := R_NormedModule)); [|exact IH]. apply ex_RInt_cont. intros y. auto_derive. exact I. Qed.
Lemma ex_is_poly1 d f x a b : is_poly d f -> ex_RInt (fun y => f x y) a b.
Proof. intros [p [_ E]]. apply (ex_RInt_ext (fun y => peval p x y)); [intros; symmetry; apply E|apply ex_poly1]. Qed.
Lemma RInt_from0 p x b : RInt (fun y => peval p x y) 0 b = fold_right (fun '(c, (i, j)) acc => c * (x ^ i * b ^ (S j) / INR (S j)) + acc) 0 p.
Proof.
  induction p as [|[c [i j]] p IH]; [apply RInt_zero|].
  cbn [fold_right]. rewrite <- IH. cbn [peval fold_right].
  assert (E1 : ex_RInt (fun y => c * x ^ i * y ^ j) 0 b) by (apply ex_RInt_cont; intros y; auto_derive; exact I).
  rewrite (RInt_plus_R (fun y => c * x ^ i * y ^ j) (fun y => peval p x y)) by (try exact E1; apply ex_poly1).
  f_equal. assert (E2 : ex_RInt (fun y => y ^ j) 0 b) by (apply ex_RInt_cont; intros y; auto_derive; exact I).
  rewrite (RInt_scal_R (fun y => y ^ j) 0 b (c * x ^ i) E2), RInt_pow_. unfold Rdiv. toR. ring.
Qed.
Lemma RInt_chasles_R (f : R -> R) a b c : ex_RInt f a b -> ex_RInt f b c -> RInt f a c = RInt f a b + RInt f b c.
Proof. intros H K. symmetry. exact (RInt_Chasles (V := R_CompleteNormedModule) f a b c H K). Qed.

Lemma RInt_swap_R (f : R -> R) a b : ex_RInt f a b -> RInt f b a = - RInt f a b.
Proof. intros H. symmetry. exact (opp_RInt_swap (V := R_CompleteNormedModule) f a b H). Qed.
Lemma RInt_lin_R (f : R -> R) u v a b : ex_RInt f (u * a + v) (u * b + v) -> ex_RInt (fun y => f (u * y + v)) a b ->
  u * RInt (fun y => f (u * y + v)) a b = RInt f (u * a + v) (u * b + v).
Proof. intros H K. rewrite <- RInt_scal_R by exact K. exact (RInt_comp_lin (V := R_CompleteNormedModule) f u v a b H). Qed.
Lemma ex_inner p al be a b : (forall x, ex_derive al x) -> (forall x, ex_derive be x) ->
  ex_RInt (fun x => RInt (fun y => peval p x y) (al x) (be x)) a b.
Proof.
  intros Ha Hb. assert (F : forall be, (forall x, ex_derive be x) -> ex_RInt (fun x => RInt (fun y => peval p x y) 0 (be x)) a b).
  { intros ga Hg. apply (ex_RInt_ext (fun x => fold_right (fun '(c, (i, j)) acc => c * (x ^ i * ga x ^ (S j) / INR (S j)) + acc) 0 p)); [intros; symmetry; apply RInt_from0|].
    induction p as [|[c [i j]] q IH]; [apply (ex_RInt_const (V := R_NormedModule) _ _ 0)|]. cbn [fold_right]. apply (ex_RInt_plus (V := R_NormedModule)); [|exact IH].
    apply ex_RInt_cont. intros x. auto_derive. apply Hg. }
  apply (ex_RInt_ext (fun x => RInt (fun y => peval p x y) 0 (be x) + - RInt (fun y => peval p x y) 0 (al x))).
  - intros x _. rewrite (RInt_chasles_R _ 0 (al x) (be x)) by apply ex_poly1. toR. ring.
  - apply (ex_RInt_plus (V := R_NormedModule)); [apply F, Hb|]. apply (ex_RInt_opp (V := R_NormedModule)). apply F, Ha.
Qed.
Lemma ex_is_poly d f u v x a b : is_poly d f -> ex_RInt (fun y => f x (u * y + v)) a b.
Proof. intros H. apply (ex_is_poly1 d (fun x y => f x (u * y + v))). apply is_poly_comp; [exact H| |].
  - apply (is_poly_ext 1 (fun x y => 0 + 1 * x + 0 * y)); [intros; ring|apply is_poly_affine].
  - apply (is_poly_ext 1 (fun x y => v + 0 * x + u * y)); [intros; ring|apply is_poly_affine]. Qed.
(** The two halves of a square cell: the images of the reference triangle used by the grid. *)
Lemma cell_halves d f s a b : is_poly d f ->
  s * s * reference_integral (fun u v => f (a + s * (1 - u)) (b + s * (1 - u - v))) +
  s * s * reference_integral (fun u v => f (a + s * u) (b + s * (u + v)))
  = RInt (fun x => RInt (fun y => f x y) b (b + s)) a (a + s).
Proof.
  intros HP. destruct HP as [p [Hd E]]. set (HP := ex_intro (fun p => degree_le d p /\ forall x y, f x y = peval p x y) p (conj Hd E) : is_poly d f).
  assert (X : forall al be c e, (forall x, ex_derive al x) -> (forall x, ex_derive be x) -> ex_RInt (fun x => RInt (fun y => f x y) (al x) (be x)) c e).
  { intros al be c e H1 H2. apply (ex_RInt_ext (fun x => RInt (fun y => peval p x y) (al x) (be x))); [|apply ex_inner; assumption]. intros x _. apply RInt_ext. intros; symmetry; apply E. }
  set (G := fun x => RInt (fun y => f x y) b (b + (x - a))). set (H := fun x => RInt (fun y => f x y) (b + (x - a)) (b + s)).
  assert (XG : forall c e, ex_RInt G c e) by (intros; apply X; intros; auto_derive; exact I).
  assert (XH : forall c e, ex_RInt H c e) by (intros; apply X; intros; auto_derive; exact I).
  assert (LG : s * s * reference_integral (fun u v => f (a + s * (1 - u)) (b + s * (1 - u - v))) = RInt G a (a + s)).
  { unfold reference_integral.
    assert (Y : forall u, s * RInt (fun v => f (a + s * (1 - u)) (b + s * (1 - u - v))) 0 (1 - u) = G (- s * u + (a + s))).
    { intros u. rewrite (RInt_ext _ (fun v => f (a + s * (1 - u)) (- s * v + (b + s * (1 - u))))) by (intros; f_equal; ring).
      pose proof (RInt_lin_R (fun y => f (a + s * (1 - u)) y) (- s) (b + s * (1 - u)) 0 (1 - u) (ex_is_poly1 d f _ _ _ HP) (ex_is_poly d f _ _ _ _ _ HP)) as L.
      replace (- s * 0 + (b + s * (1 - u))) with (b + s * (1 - u)) in L by ring. replace (- s * (1 - u) + (b + s * (1 - u))) with b in L by ring.
      rewrite (RInt_swap_R (fun y => f (a + s * (1 - u)) y) b (b + s * (1 - u))) in L by apply (ex_is_poly1 d f _ _ _ HP).
      unfold G. replace (- s * u + (a + s)) with (a + s * (1 - u)) by ring. replace (b + (a + s * (1 - u) - a)) with (b + s * (1 - u)) by ring. lra. }
    assert (XX : ex_RInt (fun u => G (- s * u + (a + s))) 0 1).
    { unfold G. destruct (is_poly_comp d f (fun x y => (a + s) + - s * x + 0 * y) (fun x y => 0 + 0 * x + 1 * y) HP (is_poly_affine _ _ _) (is_poly_affine _ _ _)) as [q [_ Eq]].
      apply (ex_RInt_ext (fun x => RInt (fun y => peval q x y) b (b + (- s * x + (a + s) - a)))).
      - intros x _. apply RInt_ext. intros y _. rewrite <- Eq. f_equal; ring.
      - apply (ex_inner q (fun _ => b) (fun x => b + (- s * x + (a + s) - a))); intros; auto_derive; exact I. }
    destruct (Req_dec s 0) as [Z|NZ].
    { rewrite Z. replace (a + 0) with a by ring. rewrite (RInt_point (V := R_CompleteNormedModule)). unfold zero. cbn. ring. }
    rewrite (RInt_ext _ (fun u => / s * G (- s * u + (a + s)))) by (intros u _; apply (Rmult_eq_reg_l s); [|exact NZ]; rewrite Y; rewrite <- Rmult_assoc, Rinv_r, Rmult_1_l by exact NZ; reflexivity).
    rewrite RInt_scal_R by exact XX.
    pose proof (RInt_lin_R G (- s) (a + s) 0 1 (XG _ _) XX) as L. replace (- s * 0 + (a + s)) with (a + s) in L by ring. replace (- s * 1 + (a + s)) with a in L by ring.
    rewrite (RInt_swap_R G a (a + s)) in L by apply XG. set (J := RInt (fun u => G (- s * u + (a + s))) 0 1) in *. replace (s * s * (/ s * J)) with (s * J) by (field; exact NZ). lra. }
  assert (LH : s * s * reference_integral (fun u v => f (a + s * u) (b + s * (u + v))) = RInt H a (a + s)).
  { unfold reference_integral.
    assert (Y : forall u, s * RInt (fun v => f (a + s * u) (b + s * (u + v))) 0 (1 - u) = H (s * u + a)).
    { intros u. rewrite (RInt_ext _ (fun v => f (a + s * u) (s * v + (b + s * u)))) by (intros; f_equal; ring).
      pose proof (RInt_lin_R (fun y => f (a + s * u) y) s (b + s * u) 0 (1 - u) (ex_is_poly1 d f _ _ _ HP) (ex_is_poly d f _ _ _ _ _ HP)) as L.
      replace (s * 0 + (b + s * u)) with (b + s * u) in L by ring. replace (s * (1 - u) + (b + s * u)) with (b + s) in L by ring.
      unfold H. replace (s * u + a) with (a + s * u) by ring. replace (b + (a + s * u - a)) with (b + s * u) by ring. exact L. }
    assert (XX : ex_RInt (fun u => H (s * u + a)) 0 1).
    { unfold H. destruct (is_poly_comp d f (fun x y => a + s * x + 0 * y) (fun x y => 0 + 0 * x + 1 * y) HP (is_poly_affine _ _ _) (is_poly_affine _ _ _)) as [q [_ Eq]].
      apply (ex_RInt_ext (fun x => RInt (fun y => peval q x y) (b + (s * x + a - a)) (b + s))).
      - intros x _. apply RInt_ext. intros y _. rewrite <- Eq. f_equal; ring.
      - apply (ex_inner q (fun x => b + (s * x + a - a)) (fun _ => b + s)); intros; auto_derive; exact I. }
    destruct (Req_dec s 0) as [Z|NZ].
    { rewrite Z. replace (a + 0) with a by ring. rewrite (RInt_point (V := R_CompleteNormedModule)). unfold zero. cbn. ring. }
    rewrite (RInt_ext _ (fun u => / s * H (s * u + a))) by (intros u _; apply (Rmult_eq_reg_l s); [|exact NZ]; rewrite Y; rewrite <- Rmult_assoc, Rinv_r, Rmult_1_l by exact NZ; reflexivity).
    rewrite RInt_scal_R by exact XX.
    pose proof (RInt_lin_R H s a 0 1 (XH _ _) XX) as L. replace (s * 0 + a) with a in L by ring. replace (s * 1 + a) with (a + s) in L by ring.
    set (J := RInt (fun u => H (s * u + a)) 0 1) in *. replace (s * s * (/ s * J)) with (s * J) by (field; exact NZ). exact L. }
  rewrite LG, LH, <- RInt_plus_R by (apply XG || apply XH). apply RInt_ext. intros x _. unfold G, H. symmetry. apply RInt_chasles_R; apply (ex_is_poly1 d f _ _ _ HP).
Qed.
