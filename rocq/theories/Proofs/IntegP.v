(** The integrators as sums of weighted sums; sums of cell integrals; one-variable polynomials. *)
From Coq Require Import Reals Lra Lia List.
From Coquelicot Require Import Coquelicot.
From Verif.Model Require Import Py Num Tensors Domain Quadrature Integrators.
From Verif.Spec Require Import GridSpec QuadSpec.
From Verif.Proofs Require Import Lib QuadP QuadP2 GridP.
Local Open Scope R_scope.
Import ListNotations.

Lemma triangle_area_pts pts t p q r : corners pts t p q r -> triangle_area pts t = Ok (area p q r).
Proof.
  destruct t as [[a b] c]. intros [A [B C]]. unfold triangle_area, py_nth. rewrite A, B, C. unfold vec. cbn -[Rabs Reqb].
  unfold ndiv, RNum. rewrite (proj2 (Reqb_false 2 0)) by lra. cbn -[Rabs]. apply (f_equal Ok). unfold area, signed_area, cross. f_equal. field.
Qed.
Lemma quad_sum_ws {A} (ps : list A) ws (F : A -> res R) f : (forall p, In p ps -> F p = Ok (f p)) -> quad_sum (zip ps ws) F = Ok (weighted_sum ps ws f).
Proof.
  intros H. unfold quad_sum. assert (E : exists l, mapM (fun '(p, w) => let* v := F p in Ok (nmul w v)) (zip ps ws) = Ok l /\ Rsum l = weighted_sum ps ws f).
  { revert ws. induction ps as [|p ps IH]; intros [|w ws]; try (exists []; split; reflexivity).
    cbn [zip combine mapM weighted_sum]. rewrite (H p) by (left; reflexivity). destruct (IH (fun q Hq => H q (or_intror Hq)) ws) as [l [E1 E2]].
    cbn [bind]. unfold zip in E1. rewrite E1. cbn [bind]. exists (w * f p :: l). split; [reflexivity|]. cbn. rewrite E2. reflexivity. }
  destruct E as [l [E1 E2]]. rewrite E1. cbn [bind]. rewrite nsum_Rsum, E2. reflexivity.
Qed.
(** The common shape of the two integrators. *)
Lemma outer_sum {A} (ts : list A) sizes (S : A -> res R) (s : A -> R) : length sizes = length ts -> (forall t, In t ts -> S t = Ok (s t)) ->
  (let* terms := mapM (fun '(a, t) => let* v := S t in Ok (nmul a v)) (zip sizes ts) in Ok (nsum terms)) = Ok (weighted_sum ts sizes s).
Proof.
  intros L H. assert (E : exists l, mapM (fun '(a, t) => let* v := S t in Ok (nmul a v)) (zip sizes ts) = Ok l /\ Rsum l = weighted_sum ts sizes s).
  { revert ts L H. induction sizes as [|a sizes IH]; intros [|t ts] L H; try discriminate L; [exists []; split; reflexivity|].
    cbn [zip combine mapM weighted_sum]. rewrite (H t) by (left; reflexivity). destruct (IH ts ltac:(simpl in L; lia) (fun q Hq => H q (or_intror Hq))) as [l [E1 E2]].
    cbn [bind]. unfold zip in E1. rewrite E1. cbn [bind]. exists (a * s t :: l). split; [reflexivity|]. cbn. rewrite E2. reflexivity. }
  destruct E as [l [E1 E2]]. rewrite E1. cbn [bind]. rewrite nsum_Rsum, E2. reflexivity.
Qed.
Lemma integrate_ws (I : integrator R) F f : length (i_areas I) = length (i_triangles I) ->
  (forall t b, In t (i_triangles I) -> In b (q_points (i_quad I)) -> F t b = Ok (f t b)) ->
  integrate I F = Ok (weighted_sum (i_triangles I) (i_areas I) (fun t => weighted_sum (q_points (i_quad I)) (q_weights (i_quad I)) (f t))).
Proof. intros L H. unfold integrate. apply (outer_sum (i_triangles I) (i_areas I) (fun t => quad_sum (zip (q_points (i_quad I)) (q_weights (i_quad I))) (F t))); [exact L|]. intros t Ht. apply quad_sum_ws. intros b Hb. apply H; assumption. Qed.
Lemma boundary_integrate_ws (I : boundary_integrator R) F f : length (bi_lengths I) = length (bi_edges I) ->
  (forall e t, In e (bi_edges I) -> In t (bi_points I) -> F e t = Ok (f e t)) ->
  boundary_integrate I F = Ok (weighted_sum (bi_edges I) (bi_lengths I) (fun e => weighted_sum (bi_points I) (bi_weights I) (f e))).
Proof. intros L H. unfold boundary_integrate. apply (outer_sum (bi_edges I) (bi_lengths I) (fun t => quad_sum (zip (bi_points I) (bi_weights I)) (F t))); [exact L|]. intros t Ht. apply quad_sum_ws. intros b Hb. apply H; assumption. Qed.
(** Reference integral under the exchange of the last two barycentric coordinates. *)
Lemma reference_flip d f : is_poly d f -> reference_integral (fun u v => f u (1 - u - v)) = reference_integral f.
Proof.
  intros HP. unfold reference_integral. apply RInt_ext. intros u _.
  rewrite (RInt_ext _ (fun v => f u (- (1) * v + (1 - u)))) by (intros; f_equal; ring).
  pose proof (RInt_lin_R (fun y => f u y) (- (1)) (1 - u) 0 (1 - u) (ex_is_poly1 d f _ _ _ HP) (ex_is_poly d f _ _ _ _ _ HP)) as L.
  replace (- (1) * 0 + (1 - u)) with (1 - u) in L by ring. replace (- (1) * (1 - u) + (1 - u)) with 0 in L by ring.
  rewrite (RInt_swap_R (fun y => f u y) 0 (1 - u)) in L by apply (ex_is_poly1 d f _ _ _ HP).
  apply (Rmult_eq_reg_l (- (1))); [|lra]. rewrite L. toR. ring.
Qed.

(** Chains of intervals. *)
Lemma chain (K : R -> R) s m : (forall a b, ex_RInt K a b) ->
  Rsum (map (fun i => RInt K (INR i * s) (INR i * s + s)) (range m)) = RInt K 0 (INR m * s).
Proof.
  intros X. induction m as [|m IH]; [cbn; rewrite Rmult_0_l; symmetry; exact (RInt_point (V := R_CompleteNormedModule) 0 K)|].
  rewrite range_S, map_app, Rsum_app, IH. cbn [map Rsum fold_right]. rewrite S_INR. replace ((INR m + 1) * s) with (INR m * s + s) by ring.
  rewrite (RInt_chasles_R K 0 (INR m * s) (INR m * s + s)) by apply X. cbn [Rsum fold_right]. rewrite Rplus_0_r. reflexivity.
Qed.
Lemma RInt_sum {A} (l : list A) (h : A -> R -> R) a b : (forall k, In k l -> ex_RInt (h k) a b) ->
  ex_RInt (fun x => Rsum (map (fun k => h k x) l)) a b /\ RInt (fun x => Rsum (map (fun k => h k x) l)) a b = Rsum (map (fun k => RInt (h k) a b) l).
Proof.
  induction l as [|k l IH]; intros H.
  - split; [apply (ex_RInt_const (V := R_NormedModule) _ _ 0)|apply RInt_zero].
  - destruct IH as [E1 E2]; [intros; apply H; right; assumption|]. specialize (H k (or_introl eq_refl)). split.
    + apply (ex_RInt_plus (V := R_NormedModule)); [exact H|exact E1].
    + cbn [map Rsum fold_right]. change (fold_right Rplus 0 (map (fun k => RInt (h k) a b) l)) with (Rsum (map (fun k => RInt (h k) a b) l)). rewrite <- E2. apply RInt_plus_R; assumption.
Qed.
Lemma cells_sum d f s m n : is_poly d f ->
  Rsum (map (fun i => Rsum (map (fun j => RInt (fun x => RInt (fun y => f x y) (INR j * s) (INR j * s + s)) (INR i * s) (INR i * s + s)) (range n))) (range m))
  = rectangle_integral (INR m * s) (INR n * s) f.
Proof.
  intros [p [Hd E]]. assert (HP : is_poly d f) by (exists p; split; assumption).
  assert (X : forall c e a b, ex_RInt (fun x => RInt (fun y => f x y) c e) a b).
  { intros c e a b. apply (ex_RInt_ext (fun x => RInt (fun y => peval p x y) c e)); [intros x _; apply RInt_ext; intros; symmetry; apply E|]. apply (ex_inner p (fun _ => c) (fun _ => e)); intros; auto_derive; exact I. }
  unfold rectangle_integral. rewrite <- (chain (fun x => RInt (fun y => f x y) 0 (INR n * s)) s m) by (intros; apply X).
  apply Rsum_map_ext. intros i _.
  destruct (RInt_sum (range n) (fun j x => RInt (fun y => f x y) (INR j * s) (INR j * s + s)) (INR i * s) (INR i * s + s)) as [_ S2]; [intros; apply X|].
  rewrite <- S2. apply RInt_ext. intros x _. apply (chain (fun y => f x y)). intros. apply (ex_is_poly1 d f _ _ _ HP).
Qed.

(** One variable. *)
Fixpoint padd1 (p q : list R) : list R := match p, q with [], q => q | p, [] => p | a :: p, b :: q => (a + b) :: padd1 p q end.
Lemma padd1_eval p q x : peval1 (padd1 p q) x = peval1 p x + peval1 q x.
Proof. revert q. induction p as [|a p IH]; intros [|b q]; cbn; try ring. fold (peval1 (padd1 p q) x) (peval1 p x) (peval1 q x). rewrite IH. ring. Qed.
Lemma padd1_length p q : length (padd1 p q) = Nat.max (length p) (length q).
Proof. revert q. induction p as [|a p IH]; intros [|b q]; cbn; try reflexivity. rewrite IH. reflexivity. Qed.
Lemma pscal1 k p x : peval1 (map (Rmult k) p) x = k * peval1 p x.
Proof. induction p as [|a p IH]; cbn; [ring|]. fold (peval1 p x) (peval1 (map (Rmult k) p) x). rewrite IH. ring. Qed.
Lemma pcomp1 a b p : exists q, (length q <= length p)%nat /\ forall x, peval1 q x = peval1 p (a + b * x).
Proof.
  induction p as [|c p [q [L E]]]; [exists []; split; [lia|reflexivity]|].
  exists (padd1 [c] (padd1 (map (Rmult a) q) (0 :: map (Rmult b) q))). split; [rewrite !padd1_length; cbn [length]; rewrite !map_length; lia|].
  intros x. rewrite !padd1_eval, pscal1. cbn [peval1 fold_right]. fold (peval1 (map (Rmult b) q) x) (peval1 p (a + b * x)). rewrite pscal1, E. ring.
Qed.
Lemma ex_peval1 p a b : ex_RInt (peval1 p) a b.
Proof. apply ex_RInt_cont. induction p as [|c p IH]; intros x; [apply ex_derive_const|]. apply (ex_derive_plus (V := R_NormedModule) (fun _ => c) (fun x => x * peval1 p x)); [apply ex_derive_const|]. apply (ex_derive_mult (fun x => x) (peval1 p)); [apply ex_derive_id|apply IH]. Qed.
