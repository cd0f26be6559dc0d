(** Closed forms of the material functions. *)
From Coq Require Import Reals QArith Qreals Lra Lia List Psatz.
From Coquelicot Require Import Coquelicot.
From Verif.Model Require Import Py Num Tensors Expr Helpers.
From Verif.Spec Require Import PotentialSpec.
From Verif.Proofs Require Import Lib ExprP.
Local Open Scope R_scope.
Import ListNotations.

Definition Fenv (F : strain2) : env := F_env (f11 F) (f12 F) (f21 F) (f22 F).
Lemma eval_strain_mat F e : eval_strain (mat F) e = eval (Fenv F) e. Proof. reflexivity. Qed.
Lemma eval_strain_matrix_mat F es : eval_strain_matrix (mat F) es = let* rows := mapM (mapM (eval (Fenv F))) es in Matrix_ rows. Proof. reflexivity. Qed.
Ltac q2r := unfold Q2R, inject_Z; cbn [Qnum Qden].
Lemma J_value F : teval (Fenv F) s_J = det2 F.
Proof. unfold s_J, det2, ESub, ENeg. cbn [teval]. unfold Fenv. cbn [F_env]. q2r. field. Qed.
Lemma I1_value F : teval (Fenv F) s_I1 = norm2 F.
Proof. unfold s_I1, norm2. cbn [teval]. unfold Fenv. cbn [F_env]. ring. Qed.
Lemma J_def F : defined (Fenv F) s_J. Proof. cbn. auto. Qed.
Lemma I1_def F : defined (Fenv F) s_I1. Proof. cbn. auto. Qed.
Lemma aus_teval F : teval (Fenv F) s_austenite_potential = norm2 F - 2 - 2 * ln (det2 F) + (det2 F - 1) ^ 2.
Proof. unfold s_austenite_potential, ESub, ENeg. cbn [teval]. rewrite J_value, I1_value. q2r. field. Qed.
Lemma aus_def F : 0 < det2 F -> defined (Fenv F) s_austenite_potential.
Proof. intros H. unfold s_austenite_potential, ESub, ENeg. cbn [defined]. rewrite J_value. pose proof (J_def F). pose proof (I1_def F). tauto. Qed.
Lemma aus_value F : 0 < det2 F -> austenite_potential (mat F) = Ok (norm2 F - 2 - 2 * ln (det2 F) + (det2 F - 1) ^ 2).
Proof. intros H. unfold austenite_potential. rewrite eval_strain_mat, eval_teval, aus_teval by (apply aus_def, H). reflexivity. Qed.
Lemma aus_fail F : det2 F <= 0 -> austenite_potential (mat F) = Err ValueError.
Proof.
  intros H. unfold austenite_potential. rewrite eval_strain_mat. unfold s_austenite_potential, ESub, ENeg. cbn [eval bind].
  rewrite (eval_teval _ _ (I1_def F)), (eval_teval _ _ (J_def F)). cbn [bind]. rewrite J_value.
  assert (E : Rltb 0 (det2 F) = false) by (apply Rltb_false; lra). rewrite E. reflexivity.
Qed.
(** Martensite: [s_u ^ 2] with the substitution carried out. *)
Lemma mar_expr : s_martensite_potential = EAdd (EPow (EAdd (EAdd (EDiv s_I1 s_J) (EMul (EConst (-1)) (EConst (inject_Z 2)))) (EMul (EConst (-1)) (EConst (1#4)))) 2)
   (EPow (EAdd (EAdd (EPow s_J 2) (EDiv (EConst (inject_Z 1)) (EPow s_J 2))) (EMul (EConst (-1)) (EConst (inject_Z 2)))) 2).
Proof. reflexivity. Qed.
Definition WM (F : strain2) : R := (norm2 F / det2 F - 9 / 4) ^ 2 + (det2 F ^ 2 + / det2 F ^ 2 - 2) ^ 2.
Lemma mar_teval F : det2 F <> 0 -> teval (Fenv F) s_martensite_potential = WM F.
Proof. intros H. rewrite mar_expr. cbn [teval]. rewrite J_value, I1_value. unfold WM. q2r. field. exact H. Qed.
Lemma mar_def F : det2 F <> 0 -> defined (Fenv F) s_martensite_potential.
Proof.
  intros H. rewrite mar_expr. cbn [defined teval]. rewrite J_value. pose proof (J_def F). pose proof (I1_def F). assert (det2 F ^ 2 <> 0) by (apply pow_nonzero, H). tauto.
Qed.
Lemma mar_value F : det2 F <> 0 -> martensite_potential (mat F) = Ok (WM F).
Proof. intros H. unfold martensite_potential. rewrite eval_strain_mat, eval_teval, mar_teval by (try apply mar_def; exact H). reflexivity. Qed.
Lemma mar_fail F : det2 F = 0 -> martensite_potential (mat F) = Err ZeroDivisionError.
Proof.
  intros H. unfold martensite_potential. rewrite eval_strain_mat, mar_expr. cbn [eval bind]. rewrite (eval_teval _ _ (I1_def F)), (eval_teval _ _ (J_def F)). cbn [bind]. rewrite J_value, H, ndiv_R0. reflexivity.
Qed.
(** Austenite fraction. *)
Lemma frac_value t : austenite_percentage t = Ok (1 - exp (-5 * t)).
Proof.
  unfold austenite_percentage. rewrite eval_teval by (cbn; tauto). apply (f_equal Ok). unfold s_austenite_percentage, ESub, ENeg. cbn [teval theta_env]. q2r.
  replace (-5 * / 1 * t) with (-5 * t) by field. field.
Qed.
Definition ww (t : R) : R := 1 - exp (-5 * t) - 5 * t * exp (-5 * t).
Lemma weight_ok t : internal_energy_weight t = Ok (ww t).
Proof.
  unfold internal_energy_weight. rewrite eval_teval by (cbn; tauto). apply (f_equal Ok). unfold s_internal_energy_weight, s_austenite_percentage, ESub, ENeg, ww.
  cbn -[Q2R inject_Z exp]. assert (Q5 : forall n, Q2R (inject_Z n) = IZR n) by (intros; unfold Q2R, inject_Z; cbn; field).
  change (-5)%Q with (inject_Z (-5)). change (-1)%Q with (inject_Z (-1)). change 1%Q with (inject_Z 1). rewrite !teval_mkMul. cbn [teval theta_env]. rewrite !Q5. field.
Qed.
Lemma weight_val t : weight_value t = ww t. Proof. unfold weight_value. rewrite weight_ok. reflexivity. Qed.
Lemma ww_derive t : is_derive ww t (25 * t * exp (-5 * t)).
Proof. unfold ww. auto_derive; trivial. ring. Qed.
Definition AW (t : R) : R := t - 2 / 5 + (t + 2 / 5) * exp (-5 * t).
Lemma AW_derive t : is_derive AW t (ww t).
Proof. unfold AW, ww. auto_derive; trivial. field. Qed.
Lemma ww_cont t : continuous ww t.
Proof. apply (ex_derive_continuous (K := R_AbsRing) (V := R_NormedModule)). exists (25 * t * exp (-5 * t)). apply ww_derive. Qed.
Lemma antider_value t : antider_internal_energy_weight t = Ok (AW t).
Proof.
  unfold antider_internal_energy_weight. apply (f_equal Ok). rewrite (RInt_ext _ ww) by (intros; apply weight_val).
  assert (K : is_RInt ww 0 t (minus (AW t) (AW 0))). { apply (is_RInt_derive (V := R_CompleteNormedModule) AW ww); intros; [apply AW_derive|apply ww_cont]. }
  apply (is_RInt_unique (V := R_CompleteNormedModule)) in K. rewrite K. unfold minus, plus, opp. cbn -[AW]. unfold AW at 2. rewrite Rmult_0_r, exp_0. field.
Qed.
(** ln J <= J - 1, equality only at 1. *)
Lemma ln_below x : 0 < x -> ln x <= x - 1.
Proof. intros H. pose proof (exp_ineq1_le (ln x)) as K. rewrite exp_ln in K by exact H. lra. Qed.
Lemma ln_strict x : 0 < x -> x <> 1 -> ln x < x - 1.
Proof.
  intros H N. assert (L : ln x <> 0). { intros E. apply N. rewrite <- (exp_ln x H), E. apply exp_0. }
  pose proof (exp_ineq1 (ln x) L) as K. rewrite exp_ln in K by exact H. lra.
Qed.
(** The derivative matrices. *)
Definition grad_of (F : strain2) (e : expr) : strain2 := st (teval (Fenv F) (diff s_F11 e)) (teval (Fenv F) (diff s_F12 e)) (teval (Fenv F) (diff s_F21 e)) (teval (Fenv F) (diff s_F22 e)).
Lemma grad_ok F e : defined (Fenv F) e -> eval_strain_matrix (mat F) (map (map (fun x => diff x e)) F_syms) = Ok (mat (grad_of F e)).
Proof.
  intros D. rewrite eval_strain_matrix_mat. cbn [F_syms map mapM]. rewrite !eval_teval by (apply def_diff, D). reflexivity.
Qed.
Lemma line_derive F G e : defined (Fenv F) e -> is_derive (fun h => teval (Fenv (add2 F (scal2 h G))) e) 0 (frob (grad_of F e) G).
Proof.
  intros D. set (d := fun x => match x with s_F11 => f11 G | s_F12 => f12 G | s_F21 => f21 G | s_F22 => f22 G | _ => 0 end).
  assert (E0 : add2 F (scal2 0 G) = F) by (destruct F; unfold add2, scal2, st; cbn; f_equal; ring).
  pose proof (along_correct (fun h => Fenv (add2 F (scal2 h G))) d 0 e) as K. cbv beta in K. rewrite E0 in K.
  assert (L : along d (Fenv F) e = frob (grad_of F e) G). { unfold along, frob, grad_of, d. cbn -[teval diff]. ring. }
  rewrite <- L. apply K; [|exact D]. intros x. destruct x; unfold Fenv, d; cbn;
    solve [exact (is_derive_const (K := R_AbsRing) (V := R_NormedModule) 0 0)|auto_derive; trivial; ring].
Qed.
Lemma line_open F G (P : R -> Prop) : (exists eps, 0 < eps /\ forall y, Rabs (y - det2 F) < eps -> P y) -> locally 0 (fun h => P (det2 (add2 F (scal2 h G)))).
Proof.
  intros [eps [He H]]. assert (C : continuous (fun h => det2 (add2 F (scal2 h G))) 0).
  { apply (ex_derive_continuous (K := R_AbsRing) (V := R_NormedModule)). unfold det2, add2, scal2, st. cbn. auto_derive. trivial. }
  assert (E0 : det2 (add2 F (scal2 0 G)) = det2 F) by (unfold det2, add2, scal2, st; cbn; ring).
  pose proof (C (fun y => Rabs (y - det2 F) < eps)) as K. 
  assert (Q : locally (det2 (add2 F (scal2 0 G))) (fun y => Rabs (y - det2 F) < eps)). { rewrite E0. exists (mkposreal eps He). intros y By. apply By. }
  specialize (K Q). unfold filtermap in K. apply (filter_imp (F := locally 0)) with (2 := K). intros h Hh. apply H, Hh.
Qed.
(** 2x2 matrix operations of the code on [mat]. *)
Lemma det_mat F : Matrix_det (mat F) = Ok (det2 F).
Proof. unfold Matrix_det. cbn -[Rmult Rplus Ropp]. apply (f_equal Ok). unfold det2. ring. Qed.
Lemma get_mat F : Matrix_get (mat F) 0 0 = Ok (f11 F) /\ Matrix_get (mat F) 0 1 = Ok (f12 F) /\ Matrix_get (mat F) 1 0 = Ok (f21 F) /\ Matrix_get (mat F) 1 1 = Ok (f22 F).
Proof. repeat split; reflexivity. Qed.
Lemma inverse_step F : inverse_2x2 (mat F) = Matrix_div (mat (st (f22 F) (- f12 F) (- f21 F) (f11 F))) (det2 F).
Proof. unfold inverse_2x2. cbn [mat m_rows m_cols Nat.eqb andb]. fold (mat F). destruct (get_mat F) as [A [B [C D]]]. rewrite A, B, C, D, det_mat. reflexivity. Qed.
Lemma inverse_mat F : det2 F <> 0 -> inverse_2x2 (mat F) = Ok (mat (scal2 (/ det2 F) (st (f22 F) (- f12 F) (- f21 F) (f11 F)))).
Proof.
  intros H. rewrite inverse_step. unfold Matrix_div. cbn [mat m_data mapM]. rewrite !ndiv_R by exact H. unfold mat, scal2, st. cbn -[det2 Rinv Rmult]. unfold Rdiv. rewrite !(Rmult_comm (/ det2 F)). reflexivity.
Qed.
Lemma inverse_mat_fail F : det2 F = 0 -> inverse_2x2 (mat F) = Err ZeroDivisionError.
Proof. intros H. rewrite inverse_step, H. unfold Matrix_div. cbn [mat m_data mapM]. rewrite ndiv_R0. reflexivity. Qed.
Lemma mul_mat F s : Matrix_mul (mat F) s = Ok (mat (scal2 s F)).
Proof. unfold Matrix_mul, mat, scal2, st. cbn -[Rmult]. rewrite !(Rmult_comm s). reflexivity. Qed.
Lemma transpose_mat F : Matrix_transpose (mat F) = Ok (mat (tr2 F)). Proof. reflexivity. Qed.
Lemma matmul_mat F G : Matrix_matmul (mat F) (mat G) = Ok (mat (mul2 F G)).
Proof. unfold Matrix_matmul. cbn -[Rmult Rplus]. unfold mat, mul2, st. cbn -[Rmult Rplus]. rewrite !Rplus_0_l. reflexivity. Qed.
Lemma add_mat F G : Matrix_add (mat F) (mat G) = Ok (mat (add2 F G)). Proof. reflexivity. Qed.
Lemma sub_mat F G : Matrix_sub (mat F) (mat G) = Ok (mat (add2 F (scal2 (-1) G))).
Proof.
  assert (E : forall x y : R, x - y = x + -1 * y) by (intros; ring). unfold Matrix_sub. cbn -[Rminus Rmult Rplus]. unfold mat, add2, scal2, st. cbn -[Rmult Rplus Rminus]. rewrite !E. reflexivity.
Qed.
Lemma normsqr_mat F : Matrix_normsqr (mat F) = norm2 F.
Proof. unfold Matrix_normsqr, norm2. cbn. ring. Qed.
Lemma dot_mat F a b : Matrix_dot (mat F) [a; b] = Ok [f11 F * a + f12 F * b; f21 F * a + f22 F * b].
Proof.
  unfold Matrix_dot. cbn [mat m_cols m_rows m_data Nat.eqb List.length range mapM seq map]. assert (A : Vector_get [a; b] (Z.of_nat 0) = Ok a) by reflexivity. assert (B : Vector_get [a; b] (Z.of_nat 1) = Ok b) by reflexivity.
  cbn. apply (f_equal Ok). unfold nsum. cbn. f_equal; [|f_equal]; ring.
Qed.
Lemma vdot2 a b c d : Vector_dot [a; b] [c; d] = a * c + b * d.
Proof. unfold Vector_dot. cbn. ring. Qed.
(** Heat conductivity. *)
Definition Kref (F : strain2) : strain2 := let J := det2 F in
  st ((f22 F * f22 F + f12 F * f12 F) / J) (- (f22 F * f21 F + f12 F * f11 F) / J) (- (f21 F * f22 F + f11 F * f12 F) / J) ((f21 F * f21 F + f11 F * f11 F) / J).
Lemma heat_value F : det2 F <> 0 -> heat_conductivity_reference (mat F) = Ok (mat (Kref F)).
Proof.
  intros H. unfold heat_conductivity_reference. rewrite inverse_mat, det_mat by exact H. cbn [bind]. rewrite mul_mat. cbn [bind].
  assert (E : HEAT_CONDUCTIVITY = Ok (mat id2)) by reflexivity. rewrite E. cbn [bind]. rewrite matmul_mat. cbn [bind]. rewrite transpose_mat. cbn [bind]. rewrite matmul_mat.
  apply (f_equal Ok), (f_equal mat). unfold Kref, mul2, scal2, tr2, id2, st. cbn [f11 f12 f21 f22]. f_equal; field; exact H.
Qed.
Lemma heat_fail F : det2 F = 0 -> heat_conductivity_reference (mat F) = Err ZeroDivisionError.
Proof. intros H. unfold heat_conductivity_reference. rewrite (inverse_mat_fail F H). reflexivity. Qed.
(** Dissipation. *)
Definition sym_delta (F G : strain2) : strain2 := let D := add2 G (scal2 (-1) F) in add2 (mul2 (tr2 D) F) (mul2 (tr2 F) D).
Lemma sym_value F G : symmetrized_strain_delta (mat F) (mat G) = Ok (mat (sym_delta F G)).
Proof.
  unfold symmetrized_strain_delta. rewrite sub_mat. cbn [bind]. rewrite transpose_mat. cbn [bind]. rewrite matmul_mat. cbn [bind]. rewrite transpose_mat. cbn [bind]. rewrite matmul_mat. cbn [bind]. rewrite add_mat. reflexivity.
Qed.
Lemma dis_value F G : dissipation_potential (mat F) (mat G) = Ok (norm2 (sym_delta F G) / 2).
Proof. unfold dissipation_potential. rewrite sym_value. cbn [bind]. rewrite normsqr_mat. reflexivity. Qed.
