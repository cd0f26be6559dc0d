(** Symbolic expressions: evaluation as a total function, correctness of the symbolic derivative. *)
From Coq Require Import Reals QArith Qreals Lra Lia List.
From Coquelicot Require Import Coquelicot.
From Verif.Model Require Import Py Num Expr.
From Verif.Proofs Require Import Lib.
Local Open Scope R_scope.
Import ListNotations.

Fixpoint teval (rho : env) (e : expr) : R :=
  match e with
  | EConst q => Q2R q
  | EVar x => rho x
  | EAdd a b => teval rho a + teval rho b
  | EMul a b => teval rho a * teval rho b
  | EDiv a b => teval rho a / teval rho b
  | EPow a n => teval rho a ^ n
  | EExp a => exp (teval rho a)
  | ELog a => ln (teval rho a)
  end.
Fixpoint defined (rho : env) (e : expr) : Prop :=
  match e with
  | EConst _ | EVar _ => True
  | EAdd a b | EMul a b => defined rho a /\ defined rho b
  | EDiv a b => defined rho a /\ defined rho b /\ teval rho b <> 0
  | EPow a _ | EExp a => defined rho a
  | ELog a => defined rho a /\ 0 < teval rho a
  end.
Lemma eval_teval rho e : defined rho e -> eval rho e = Ok (teval rho e).
Proof.
  induction e; cbn [defined eval teval]; intros D; try reflexivity.
  - destruct D as [D1 D2]. rewrite IHe1, IHe2 by assumption. reflexivity.
  - destruct D as [D1 D2]. rewrite IHe1, IHe2 by assumption. reflexivity.
  - destruct D as [D1 [D2 D3]]. rewrite IHe1, IHe2 by assumption. cbn [bind]. apply ndiv_R, D3.
  - rewrite IHe by assumption. reflexivity.
  - rewrite IHe by assumption. reflexivity.
  - destruct D as [D1 D2]. rewrite IHe by assumption. cbn [bind]. rewrite (proj2 (Rltb_true _ _) D2). reflexivity.
Qed.
Lemma eval_inv rho e v : eval rho e = Ok v -> defined rho e /\ v = teval rho e.
Proof.
  revert v. induction e; cbn [defined eval teval]; intros v H.
  - injection H as <-. auto.
  - injection H as <-. auto.
  - apply bind_ok in H as [x [H1 H]]. apply bind_ok in H as [y [H2 H]]. injection H as <-. destruct (IHe1 _ H1) as [? ->], (IHe2 _ H2) as [? ->]. auto.
  - apply bind_ok in H as [x [H1 H]]. apply bind_ok in H as [y [H2 H]]. injection H as <-. destruct (IHe1 _ H1) as [? ->], (IHe2 _ H2) as [? ->]. auto.
  - apply bind_ok in H as [x [H1 H]]. apply bind_ok in H as [y [H2 H]]. destruct (IHe1 _ H1) as [? ->], (IHe2 _ H2) as [? ->].
    destruct (Req_dec (teval rho e2) 0) as [Z|Z]; [rewrite Z, ndiv_R0 in H; discriminate H|]. rewrite ndiv_R in H by exact Z. injection H as <-. auto.
  - apply bind_ok in H as [x [H1 H]]. injection H as <-. destruct (IHe _ H1) as [? ->]. auto.
  - apply bind_ok in H as [x [H1 H]]. injection H as <-. destruct (IHe _ H1) as [? ->]. auto.
  - apply bind_ok in H as [x [H1 H]]. destruct (IHe _ H1) as [? ->]. destruct (Rltb 0 (teval rho e)) eqn:E; [|discriminate H]. injection H as <-. apply Rltb_true in E. auto.
Qed.
Lemma is_zero_eval rho e : is_zero e = true -> teval rho e = 0 /\ forall x, teval rho (diff x e) = 0.
Proof. destruct e; cbn; try discriminate. intros H. apply Qeq_bool_iff in H. split; [|intros; unfold Q2R; cbn; lra]. rewrite (Qeq_eqR _ _ H). unfold Q2R. cbn. lra. Qed.
Lemma Q0R : Q2R 0 = 0. Proof. unfold Q2R. cbn. lra. Qed.
Lemma Q1R : Q2R 1 = 1. Proof. unfold Q2R. cbn. lra. Qed.
Lemma QmR : Q2R (-1) = -1. Proof. unfold Q2R. cbn. lra. Qed.
Lemma QnR n : Q2R (inject_Z (Z.of_nat n)) = INR n.
Proof. unfold Q2R, inject_Z. cbn. rewrite <- INR_IZR_INZ. field. Qed.
Lemma teval_mkAdd rho a b : teval rho (mkAdd a b) = teval rho a + teval rho b.
Proof. unfold mkAdd. destruct (is_zero a) eqn:A; [rewrite (proj1 (is_zero_eval rho a A)); ring|]. destruct (is_zero b) eqn:B; [rewrite (proj1 (is_zero_eval rho b B)); ring|reflexivity]. Qed.
Lemma teval_mkMul rho a b : teval rho (mkMul a b) = teval rho a * teval rho b.
Proof. unfold mkMul. destruct (is_zero a) eqn:A; [rewrite (proj1 (is_zero_eval rho a A)); cbn; rewrite Q0R; ring|]. destruct (is_zero b) eqn:B; [rewrite (proj1 (is_zero_eval rho b B)); cbn; rewrite Q0R; ring|reflexivity]. Qed.
Lemma teval_mkDiv rho a b : teval rho (mkDiv a b) = teval rho a / teval rho b.
Proof. unfold mkDiv. destruct (is_zero a) eqn:A; [rewrite (proj1 (is_zero_eval rho a A)); cbn; rewrite Q0R; unfold Rdiv; ring|reflexivity]. Qed.
Lemma teval_mkPow rho a n : teval rho (mkPow a n) = teval rho a ^ n.
Proof. destruct n as [|[|n]]; cbn [mkPow]; [cbn; apply Q1R|cbn; ring|]. destruct (is_zero a) eqn:A; [rewrite (proj1 (is_zero_eval rho a A)); cbn; rewrite Q0R; ring|reflexivity]. Qed.
Lemma def_mkAdd rho a b : defined rho a -> defined rho b -> defined rho (mkAdd a b).
Proof. unfold mkAdd. intros. destruct (is_zero a); [assumption|]. destruct (is_zero b); [assumption|cbn; auto]. Qed.
Lemma def_mkMul rho a b : defined rho a -> defined rho b -> defined rho (mkMul a b).
Proof. unfold mkMul. intros. destruct (is_zero a || is_zero b); cbn; auto. Qed.
Lemma def_mkDiv rho a b : defined rho a -> defined rho b -> teval rho b <> 0 -> defined rho (mkDiv a b).
Proof. unfold mkDiv. intros. destruct (is_zero a); cbn; auto. Qed.
Lemma def_mkPow rho a n : defined rho a -> defined rho (mkPow a n).
Proof. intros. destruct n as [|[|n]]; cbn [mkPow]; [exact I|assumption|]. destruct (is_zero a); cbn; auto. Qed.
Lemma def_diff rho x e : defined rho e -> defined rho (diff x e).
Proof.
  induction e; cbn [defined diff]; intros D; try exact I.
  - destruct (sym_eqb x x0); exact I.
  - destruct D. apply def_mkAdd; auto.
  - destruct D. apply def_mkAdd; apply def_mkMul; auto.
  - destruct D as [D1 [D2 D3]]. apply def_mkAdd; [apply def_mkDiv; auto|]. apply def_mkMul; [exact I|]. apply def_mkDiv; [apply def_mkMul; auto|apply def_mkPow; auto|]. rewrite teval_mkPow. apply pow_nonzero, D3.
  - apply def_mkMul; [apply def_mkMul; [exact I|apply def_mkPow; exact D]|auto].
  - apply def_mkMul; auto.
  - destruct D. apply def_mkDiv; auto. lra.
Qed.
(** The derivative of each form, in values. *)
Lemma td_add rho x a b : teval rho (diff x (EAdd a b)) = teval rho (diff x a) + teval rho (diff x b).
Proof. cbn [diff]. apply teval_mkAdd. Qed.
Lemma td_mul rho x a b : teval rho (diff x (EMul a b)) = teval rho (diff x a) * teval rho b + teval rho a * teval rho (diff x b).
Proof. cbn [diff]. rewrite teval_mkAdd, !teval_mkMul. reflexivity. Qed.
Lemma td_div rho x a b : teval rho b <> 0 -> teval rho (diff x (EDiv a b)) = (teval rho (diff x a) * teval rho b - teval rho a * teval rho (diff x b)) / teval rho b ^ 2.
Proof. intros N. cbn [diff]. rewrite teval_mkAdd, teval_mkMul, !teval_mkDiv, teval_mkMul, teval_mkPow. cbn [teval]. rewrite QmR. field. exact N. Qed.
Lemma td_pow rho x a n : teval rho (diff x (EPow a n)) = INR n * teval rho a ^ (pred n) * teval rho (diff x a).
Proof. cbn [diff]. rewrite !teval_mkMul, teval_mkPow. cbn [teval]. rewrite QnR. reflexivity. Qed.
Lemma td_exp rho x a : teval rho (diff x (EExp a)) = exp (teval rho a) * teval rho (diff x a).
Proof. cbn [diff]. rewrite teval_mkMul. reflexivity. Qed.
Lemma td_log rho x a : teval rho (diff x (ELog a)) = teval rho (diff x a) / teval rho a.
Proof. cbn [diff]. apply teval_mkDiv. Qed.
(** The symbols that may occur. *)
Definition all_syms : list sym := [sL1; sL2; sL3; sb1; sb2; sb3; sc1; sc2; sc3; s_s; s_t; s_theta; s_theta_lim; s_F11; s_F12; s_F21; s_F22; s_u].
(** Derivative along a curve of assignments: the chain rule. *)
Definition along (d : sym -> R) (rho : env) (e : expr) : R := Rsum (map (fun x => d x * teval rho (diff x e)) all_syms).
Lemma along_lin d (rho : env) (h f g : sym -> R) al be : (forall x, h x = al * f x + be * g x) ->
  Rsum (map (fun x => d x * h x) all_syms) = al * Rsum (map (fun x => d x * f x) all_syms) + be * Rsum (map (fun x => d x * g x) all_syms).
Proof.
  clear rho. intros H. rewrite <- !Rsum_map_scal, <- Rsum_map_plus. apply Rsum_map_ext. intros x _. rewrite H. ring.
Qed.
Theorem along_correct (rho : R -> env) (d : sym -> R) s e : (forall x, is_derive (fun t => rho t x) s (d x)) -> defined (rho s) e ->
  is_derive (fun t => teval (rho t) e) s (along d (rho s) e).
Proof.
  intros Hd. induction e; cbn [defined teval]; intros D; unfold along in *.
  - rewrite (Rsum_map_ext _ (fun _ => 0)), Rsum_map_zero by (intros; cbn [diff teval]; rewrite Q0R; ring). exact (is_derive_const (K := R_AbsRing) (V := R_NormedModule) (Q2R q) s).
  - replace (Rsum _) with (d x); [apply Hd|]. destruct x; cbn; rewrite ?Q0R, ?Q1R; ring.
  - destruct D as [D1 D2]. rewrite (along_lin d (rho s) _ (fun x => teval (rho s) (diff x e1)) (fun x => teval (rho s) (diff x e2)) 1 1) by (intros; rewrite td_add; ring).
    rewrite !Rmult_1_l. apply (is_derive_plus (V := R_NormedModule) (fun t => teval (rho t) e1) (fun t => teval (rho t) e2)); auto.
  - destruct D as [D1 D2]. rewrite (along_lin d (rho s) _ (fun x => teval (rho s) (diff x e1)) (fun x => teval (rho s) (diff x e2)) (teval (rho s) e2) (teval (rho s) e1)) by (intros; rewrite td_mul; ring).
    evar_last; [apply (is_derive_mult (fun t => teval (rho t) e1) (fun t => teval (rho t) e2)); [apply IHe1, D1|apply IHe2, D2|intros; apply Rmult_comm]|].
    unfold plus, mult. cbn. ring.
  - destruct D as [D1 [D2 D3]]. rewrite (along_lin d (rho s) _ (fun x => teval (rho s) (diff x e1)) (fun x => teval (rho s) (diff x e2)) (/ teval (rho s) e2) (- teval (rho s) e1 / teval (rho s) e2 ^ 2)) by (intros; rewrite td_div by exact D3; field; exact D3).
    evar_last; [apply (is_derive_div (fun t => teval (rho t) e1) (fun t => teval (rho t) e2)); [apply IHe1, D1|apply IHe2, D2|exact D3]|].
    field. exact D3.
  - rewrite (along_lin d (rho s) _ (fun x => teval (rho s) (diff x e)) (fun _ => 0) (INR n * teval (rho s) e ^ (pred n)) 0) by (intros; rewrite td_pow; ring).
    evar_last; [apply (is_derive_pow (fun t => teval (rho t) e) n s); apply IHe, D|]. ring.
  - rewrite (along_lin d (rho s) _ (fun x => teval (rho s) (diff x e)) (fun _ => 0) (exp (teval (rho s) e)) 0) by (intros; rewrite td_exp; ring).
    evar_last; [apply (is_derive_comp exp (fun t => teval (rho t) e)); [apply is_derive_exp|apply IHe, D]|]. unfold scal. cbn. unfold mult. cbn. ring.
  - destruct D as [D1 D2]. rewrite (along_lin d (rho s) _ (fun x => teval (rho s) (diff x e)) (fun _ => 0) (/ teval (rho s) e) 0) by (intros; rewrite td_log; unfold Rdiv; ring).
    evar_last; [apply (is_derive_comp ln (fun t => teval (rho t) e)); [apply is_derive_ln, D2|apply IHe, D1]|]. unfold scal. cbn. unfold mult. cbn. ring.
Qed.
(** Second derivatives commute. *)
Lemma tdd_zero rho x y e : is_zero e = true -> teval rho (diff x (diff y e)) = 0.
Proof. destruct e; cbn; try discriminate. intros _. apply Q0R. Qed.
Lemma td_mkAdd rho x a b : teval rho (diff x (mkAdd a b)) = teval rho (diff x a) + teval rho (diff x b).
Proof. unfold mkAdd. destruct (is_zero a) eqn:A; [rewrite (proj2 (is_zero_eval rho a A)); ring|]. destruct (is_zero b) eqn:B; [rewrite (proj2 (is_zero_eval rho b B)); ring|apply td_add]. Qed.
Lemma td_mkMul rho x a b : teval rho (diff x (mkMul a b)) = teval rho (diff x a) * teval rho b + teval rho a * teval rho (diff x b).
Proof.
  unfold mkMul. destruct (is_zero a) eqn:A; [destruct (is_zero_eval rho a A) as [-> ->]; cbn; rewrite Q0R; ring|]. destruct (is_zero b) eqn:B; [destruct (is_zero_eval rho b B) as [-> ->]; cbn; rewrite Q0R; ring|apply td_mul].
Qed.
Lemma td_mkDiv rho x a b : teval rho b <> 0 -> teval rho (diff x (mkDiv a b)) = (teval rho (diff x a) * teval rho b - teval rho a * teval rho (diff x b)) / teval rho b ^ 2.
Proof. intros N. unfold mkDiv. destruct (is_zero a) eqn:A; [destruct (is_zero_eval rho a A) as [-> ->]; cbn; rewrite Q0R; field; exact N|apply td_div, N]. Qed.
Lemma td_mkPow rho x a n : teval rho (diff x (mkPow a n)) = INR n * teval rho a ^ (pred n) * teval rho (diff x a).
Proof.
  destruct n as [|[|n]]; cbn [mkPow]; [cbn; rewrite Q0R; ring|cbn; ring|]. destruct (is_zero a) eqn:A; [destruct (is_zero_eval rho a A) as [-> ->]; cbn; rewrite Q0R; ring|apply td_pow].
Qed.
Theorem diff_comm rho x y e : defined rho e -> teval rho (diff x (diff y e)) = teval rho (diff y (diff x e)).
Proof.
  induction e; cbn [defined]; intros D.
  - reflexivity.
  - cbn [diff]. destruct (sym_eqb y x0), (sym_eqb x x0); reflexivity.
  - destruct D. cbn [diff]. rewrite !td_mkAdd, IHe1, IHe2 by assumption. reflexivity.
  - destruct D. cbn [diff]. rewrite !td_mkAdd, !td_mkMul, IHe1, IHe2 by assumption. ring.
  - destruct D as [D1 [D2 D3]]. cbn [diff]. rewrite !td_mkAdd, !td_mkMul, !td_mkDiv, !td_mkMul, !teval_mkDiv, !td_mkPow, !teval_mkMul, !teval_mkPow, IHe1, IHe2 by (assumption || (rewrite teval_mkPow; apply pow_nonzero; assumption)).
    cbn [diff teval pred]. rewrite !QmR, !Q0R. cbn [INR]. field. exact D3.
  - cbn [diff]. rewrite !td_mkMul, !td_mkPow, !teval_mkMul, !teval_mkPow, IHe by assumption. cbn [diff teval]. rewrite Q0R. ring.
  - cbn [diff]. rewrite !td_mkMul, !td_exp, IHe by assumption. cbn [teval]. ring.
  - destruct D as [D1 D2]. cbn [diff]. rewrite !td_mkDiv, IHe by (assumption || lra). field. lra.
Qed.
