(** What the Bell interpolation functions compute, in closed form. *)
From Coq Require Import Reals QArith Qreals Lra Lia List.
From Verif.Model Require Import Py Num Tensors Domain Expr Bell.
From Verif.Spec Require Import GridSpec TensorSpec BellSpec.
From Verif.Proofs Require Import Lib TensorsP ExprP BellP BellD.
Local Open Scope R_scope.
Import ListNotations.

Definition bb (p q r : R * R) : R * R * R := (snd q - snd r, snd r - snd p, snd p - snd q).
Definition cc (p q r : R * R) : R * R * R := (fst r - fst q, fst p - fst r, fst q - fst p).
Definition tri (p q r : R * R) : tri_points R := (vec p, vec q, vec r).
Definition rho3 (p q r : R * R) (L : bary R) : env := bell_env L (bb p q r) (cc p q r).
Lemma get_a_tri p q r : get_a (tri p q r) = Ok (fst q * snd r - fst r * snd q, fst r * snd p - fst p * snd r, fst p * snd q - fst q * snd p).
Proof. reflexivity. Qed.
Lemma get_b_tri p q r : get_b (tri p q r) = Ok (bb p q r). Proof. reflexivity. Qed.
Lemma get_c_tri p q r : get_c (tri p q r) = Ok (cc p q r). Proof. reflexivity. Qed.
Lemma get_delta_tri p q r : get_delta (tri p q r) = Ok (cross p q r / 2).
Proof. unfold get_delta. rewrite get_a_tri. cbn [bind]. apply (f_equal Ok). unfold cross. field. Qed.
Lemma sq2 x y : x ^ 2 + y ^ 2 = 0 -> x = 0 /\ y = 0.
Proof. intros H. split; nra. Qed.
Lemma cross_regular p q r : cross p q r <> 0 -> regular (bb p q r) (cc p q r).
Proof.
  unfold cross, regular, bb, cc. intros H. repeat split; intros E; apply H; apply sq2 in E as [E1 E2].
  - replace (fst r) with (fst q) by lra. replace (snd q) with (snd r) by lra. ring.
  - replace (fst r) with (fst p) by lra. replace (snd r) with (snd p) by lra. ring.
  - replace (fst q) with (fst p) by lra. replace (snd q) with (snd p) by lra. ring.
Qed.
(** Evaluation of lists of defined expressions. *)
Lemma eval_list rho es : Forall (defined rho) es -> mapM (eval rho) es = Ok (map (teval rho) es).
Proof. intros H. apply mapM_map. intros e He. apply eval_teval. rewrite Forall_forall in H. auto. Qed.
Lemma eval_at_tri p q r L es : Forall (defined (rho3 p q r L)) es -> eval_at (tri p q r) L es = Ok (map (teval (rho3 p q r L)) es).
Proof. intros H. unfold eval_at. rewrite get_b_tri. cbn [bind]. rewrite get_c_tri. cbn [bind]. apply eval_list, H. Qed.
(** [M^T v] for a matrix given by rows. *)
Lemma columns {A X} (F : X -> A -> R) (es : list A) (xs : list X) (ps : vector R) : es <> [] -> xs <> [] -> length ps = length es ->
  (let* m := Matrix_ (map (fun e => map (fun x => F x e) xs) es) in let* mt := Matrix_transpose m in Matrix_dot mt ps) =
  Ok (map (fun x => Vector_dot (map (F x) es) ps) xs).
Proof.
  intros He Hx Hl. destruct es as [|e0 es0] eqn:Ee; [contradiction|]. rewrite <- Ee in *. destruct xs as [|x0 xs0] eqn:Ex; [contradiction|]. rewrite <- Ex in *.
  assert (E : map (fun e => map (fun x => F x e) xs) es = tab (length es) (length xs) (fun i j => F (nth j xs x0) (nth i es e0))).
  { unfold tab. apply nth_ext with (d := []) (d' := []); [rewrite !map_length, range_length; reflexivity|]. intros i Hi. rewrite map_length in Hi.
    rewrite nth_map_range by exact Hi. rewrite (nth_indep _ [] (map (fun x => F x e0) xs)) by (rewrite map_length; exact Hi). rewrite (map_nth (fun e => map (fun x => F x e) xs)).
    apply nth_ext with (d := 0) (d' := 0); [rewrite !map_length, range_length; reflexivity|]. intros j Hj. rewrite map_length in Hj. rewrite nth_map_range by exact Hj.
    rewrite (nth_indep _ 0 (F x0 (nth i es e0))) by (rewrite map_length; exact Hj). rewrite (map_nth (fun x => F x (nth i es e0))). reflexivity. }
  assert (0 < length es)%nat by (rewrite Ee; cbn; lia). assert (0 < length xs)%nat by (rewrite Ex; cbn; lia).
  rewrite E, Matrix_tab by assumption. cbn [bind]. rewrite transpose_of by assumption. cbn [bind]. rewrite dot_of by exact Hl. apply (f_equal Ok).
  apply nth_ext with (d := 0) (d' := 0); [rewrite !map_length, range_length; reflexivity|]. intros j Hj. rewrite map_length, range_length in Hj. rewrite nth_map_range by exact Hj.
  rewrite (nth_indep _ 0 (Vector_dot (map (F x0) es) ps)) by (rewrite map_length; exact Hj). rewrite (map_nth (fun x => Vector_dot (map (F x) es) ps)).
  rewrite Vector_dot_ok by (rewrite map_length; lia). rewrite map_length. apply sum_below_ext. intros i Hi.
  rewrite (nth_indep (map (F (nth j xs x0)) es) 0 (F (nth j xs x0) e0)) by (rewrite map_length; exact Hi). rewrite (map_nth (F (nth j xs x0))). reflexivity.
Qed.
Lemma columns_k {A X Y} (F : X -> A -> R) (es : list A) (xs : list X) (ps : vector R) (k : vector R -> res Y) : es <> [] -> xs <> [] -> length ps = length es ->
  (let* m := Matrix_ (map (fun e => map (fun x => F x e) xs) es) in let* mt := Matrix_transpose m in let* g := Matrix_dot mt ps in k g) =
  k (map (fun x => Vector_dot (map (F x) es) ps) xs).
Proof.
  intros H1 H2 H3. pose proof (columns F es xs ps H1 H2 H3) as K. apply bind_ok in K as [m [-> K]]. cbn [bind]. apply bind_ok in K as [mt [-> K]]. cbn [bind]. rewrite K. reflexivity.
Qed.
Lemma N_all_length : length N_all = 18%nat. Proof. reflexivity. Qed.
Lemma dot23 (a b c d e f x y z : R) : Matrix_dot (mkMatrix 2 3 [[a; b; c]; [d; e; f]]) [x; y; z] = Ok [0 + a * x + b * y + c * z; 0 + d * x + e * y + f * z].
Proof. reflexivity. Qed.
Lemma dot36 (a1 a2 a3 a4 a5 a6 b1 b2 b3 b4 b5 b6 c1 c2 c3 c4 c5 c6 x1 x2 x3 x4 x5 x6 : R) :
  Matrix_dot (mkMatrix 3 6 [[a1; a2; a3; a4; a5; a6]; [b1; b2; b3; b4; b5; b6]; [c1; c2; c3; c4; c5; c6]]) [x1; x2; x3; x4; x5; x6] =
  Ok [0 + a1 * x1 + a2 * x2 + a3 * x3 + a4 * x4 + a5 * x5 + a6 * x6; 0 + b1 * x1 + b2 * x2 + b3 * x3 + b4 * x4 + b5 * x5 + b6 * x6; 0 + c1 * x1 + c2 * x2 + c3 * x3 + c4 * x4 + c5 * x5 + c6 * x6].
Proof. reflexivity. Qed.
Lemma get3_0 (x y z : R) : Vector_get [x; y; z] 0 = Ok x. Proof. reflexivity. Qed.
Lemma get3_1 (x y z : R) : Vector_get [x; y; z] 1 = Ok y. Proof. reflexivity. Qed.
Lemma get3_2 (x y z : R) : Vector_get [x; y; z] 2 = Ok z. Proof. reflexivity. Qed.
Section Values.
Context (p q r : R * R) (L : bary R) (ps : vector R).
Hypothesis H : cross p q r <> 0.
Hypothesis Hps : length ps = 18%nat.
Let rho := rho3 p q r L.
Let C := cross p q r.
Let b := bb p q r.
Let c := cc p q r.
Lemma all_defined : Forall (defined rho) N_all.
Proof. apply N_all_defined, cross_regular, H. Qed.
Definition Dv (es : list expr) : R := Vector_dot (map (teval rho) es) ps.
Lemma bell_value : bell_interpolation (tri p q r) L ps = Ok (Vector_dot (Nf_all L b c) ps).
Proof.
  unfold bell_interpolation. rewrite Hps. cbn [Nat.eqb negb]. unfold shape_function. rewrite eval_at_tri by apply all_defined. cbn [bind].
  unfold rho3. rewrite N_all_value. reflexivity.
Qed.
Lemma mat_shape {X} (F : X -> expr -> expr) (xs : list X) : (forall x e, In e N_all -> In x xs -> defined rho (F x e)) ->
  mapM (eval_at (tri p q r) L) (map (fun e => map (fun x => F x e) xs) N_all) = Ok (map (fun e => map (fun x => teval rho (F x e)) xs) N_all).
Proof.
  intros D. rewrite mapM_map_compose. apply mapM_map. intros e He. rewrite eval_at_tri.
  - rewrite map_map. reflexivity.
  - rewrite Forall_forall. intros e' He'. apply in_map_iff in He' as [x [<- Hx]]. apply D; assumption.
Qed.
Lemma transform_gradient_tri g1 g2 g3 : let '(b1, b2, b3) := b in let '(c1, c2, c3) := c in
  transform_gradient (tri p q r) [g1; g2; g3] = Ok [(b1 * g1 + b2 * g2 + b3 * g3) / C; (c1 * g1 + c2 * g2 + c3 * g3) / C].
Proof.
  unfold b, c, bb, cc. unfold transform_gradient. rewrite get_delta_tri. cbn [bind]. rewrite get_b_tri. cbn [bind]. unfold bb. rewrite get_c_tri. cbn [bind]. unfold cc.
  fold C in H |- *. cbn [Matrix_ forallb length Nat.eqb andb bind]. unfold Matrix_div. cbn [m_data mapM bind].
  rewrite !ndiv_R by (unfold C in *; lra). cbn [bind Matrix_ forallb length Nat.eqb andb]. rewrite dot23. apply (f_equal Ok).
  apply (f_equal2 (@cons R)); [field; exact H|]. apply (f_equal2 (@cons R)); [field; exact H|reflexivity].
Qed.
Lemma D1_eq : map (diff sL1) N_all = D1_. Proof. vm_compute. reflexivity. Qed.
Lemma D2_eq : map (diff sL2) N_all = D2_. Proof. vm_compute. reflexivity. Qed.
Lemma D3_eq : map (diff sL3) N_all = D3_. Proof. vm_compute. reflexivity. Qed.
Lemma Dv_diff (F : expr -> expr) es : map F N_all = es -> Vector_dot (map (fun e => teval rho (F e)) N_all) ps = Dv es.
Proof. intros <-. unfold Dv. rewrite map_map. reflexivity. Qed.
Lemma gradient_value_tri : let '(b1, b2, b3) := b in let '(c1, c2, c3) := c in
  bell_interpolation_gradient (tri p q r) L ps = Ok [(b1 * Dv D1_ + b2 * Dv D2_ + b3 * Dv D3_) / C; (c1 * Dv D1_ + c2 * Dv D2_ + c3 * Dv D3_) / C].
Proof.
  unfold bell_interpolation_gradient. rewrite Hps. cbn [Nat.eqb negb]. unfold shape_function_gradient.
  unfold N_gradient. rewrite (mat_shape (fun x e => diff x e) bary_syms). 2:{ intros x e He _. apply def_diff. pose proof all_defined as D. rewrite Forall_forall in D. auto. }
  cbn [bind]. rewrite (columns_k (fun x e => teval rho (diff x e)) N_all bary_syms ps); [|discriminate|discriminate|rewrite Hps; reflexivity].
  cbn [map bary_syms]. rewrite !(Dv_diff _ _ D1_eq), !(Dv_diff _ _ D2_eq), !(Dv_diff _ _ D3_eq). apply transform_gradient_tri.
Qed.
Lemma transform_hessian_tri g11 g22 g33 g12 g13 g23 : let '(b1, b2, b3) := b in let '(c1, c2, c3) := c in
  transform_hessian (tri p q r) [g11; g22; g33; g12; g13; g23] =
  Ok (hessian_value ((b1 ^ 2 * g11 + b2 ^ 2 * g22 + b3 ^ 2 * g33 + 2 * b1 * b2 * g12 + 2 * b1 * b3 * g13 + 2 * b2 * b3 * g23) / C ^ 2)
    ((b1 * c1 * g11 + b2 * c2 * g22 + b3 * c3 * g33 + (b1 * c2 + b2 * c1) * g12 + (b1 * c3 + b3 * c1) * g13 + (b2 * c3 + b3 * c2) * g23) / C ^ 2)
    ((c1 ^ 2 * g11 + c2 ^ 2 * g22 + c3 ^ 2 * g33 + 2 * c1 * c2 * g12 + 2 * c1 * c3 * g13 + 2 * c2 * c3 * g23) / C ^ 2)).
Proof.
  unfold b, c, bb, cc. unfold transform_hessian. rewrite get_delta_tri. cbn [bind]. rewrite get_b_tri. cbn [bind]. unfold bb. rewrite get_c_tri. cbn [bind]. unfold cc.
  fold C in H |- *. cbn [Matrix_ forallb length Nat.eqb andb bind]. unfold Matrix_div. cbn [m_data mapM bind].
  assert (N : 4 * (C / 2) ^ 2 <> 0). { replace (4 * (C / 2) ^ 2) with (C ^ 2) by field. apply pow_nonzero, H. }
  rewrite !ndiv_R by exact N. cbn [bind Matrix_ forallb length Nat.eqb andb]. rewrite dot36. cbn [bind]. rewrite !get3_0, !get3_1, !get3_2. cbn [bind Matrix_ forallb length Nat.eqb andb]. unfold hessian_value. apply (f_equal Ok), (f_equal (mkMatrix 2 2)).
  assert (E : forall x, x / (4 * (C / 2) ^ 2) = x / C ^ 2) by (intros; replace (4 * (C / 2) ^ 2) with (C ^ 2) by field; reflexivity). rewrite !E. clear N E.
  assert (X : forall u u' v v' : R, u = u' -> v = v' -> [u; v] = [u'; v']) by (intros; congruence).
  apply (f_equal2 (@cons (list R))); [apply X; field; exact H|]. apply (f_equal2 (@cons (list R))); [apply X; field; exact H|reflexivity].
Qed.
Lemma D11_eq : map (fun e => diff sL1 (diff sL1 e)) N_all = D11_. Proof. vm_compute. reflexivity. Qed.
Lemma D22_eq : map (fun e => diff sL2 (diff sL2 e)) N_all = D22_. Proof. vm_compute. reflexivity. Qed.
Lemma D33_eq : map (fun e => diff sL3 (diff sL3 e)) N_all = D33_. Proof. vm_compute. reflexivity. Qed.
Lemma D12_eq : map (fun e => diff sL2 (diff sL1 e)) N_all = D12_. Proof. vm_compute. reflexivity. Qed.
Lemma D13_eq : map (fun e => diff sL3 (diff sL1 e)) N_all = D13_. Proof. vm_compute. reflexivity. Qed.
Lemma D23_eq : map (fun e => diff sL3 (diff sL2 e)) N_all = D23_. Proof. vm_compute. reflexivity. Qed.
Lemma hessian_value_tri : let '(b1, b2, b3) := b in let '(c1, c2, c3) := c in
  bell_interpolation_hessian (tri p q r) L ps =
  Ok (hessian_value ((b1 ^ 2 * Dv D11_ + b2 ^ 2 * Dv D22_ + b3 ^ 2 * Dv D33_ + 2 * b1 * b2 * Dv D12_ + 2 * b1 * b3 * Dv D13_ + 2 * b2 * b3 * Dv D23_) / C ^ 2)
    ((b1 * c1 * Dv D11_ + b2 * c2 * Dv D22_ + b3 * c3 * Dv D33_ + (b1 * c2 + b2 * c1) * Dv D12_ + (b1 * c3 + b3 * c1) * Dv D13_ + (b2 * c3 + b3 * c2) * Dv D23_) / C ^ 2)
    ((c1 ^ 2 * Dv D11_ + c2 ^ 2 * Dv D22_ + c3 ^ 2 * Dv D33_ + 2 * c1 * c2 * Dv D12_ + 2 * c1 * c3 * Dv D13_ + 2 * c2 * c3 * Dv D23_) / C ^ 2)).
Proof.
  unfold bell_interpolation_hessian. rewrite Hps. cbn [Nat.eqb negb]. unfold shape_function_hessian_vectorized.
  change N_hessian_vectorized with (map (fun e => map (fun x => diff (snd x) (diff (fst x) e)) hessian_pairs) N_all).
  rewrite (mat_shape (fun x e => diff (snd x) (diff (fst x) e)) hessian_pairs). 2:{ intros x e He _. apply def_diff, def_diff. pose proof all_defined as D. rewrite Forall_forall in D. auto. }
  cbn [bind]. rewrite (columns_k (fun x e => teval rho (diff (snd x) (diff (fst x) e))) N_all hessian_pairs ps); [|discriminate|discriminate|rewrite Hps; reflexivity].
  cbn [map hessian_pairs fst snd].
  rewrite (Dv_diff _ _ D11_eq), (Dv_diff _ _ D22_eq), (Dv_diff _ _ D33_eq), (Dv_diff _ _ D12_eq), (Dv_diff _ _ D13_eq), (Dv_diff _ _ D23_eq). apply transform_hessian_tri.
Qed.
End Values.
