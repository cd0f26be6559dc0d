(** * Theorems about the quadrature rules (C34-C37) *)
From Coq Require Import Reals Lra Lia List QArith Qreals.
From Coquelicot Require Import Coquelicot.
From Verif.Model Require Import Py Num Tensors Domain Quadrature Integrators.
From Verif.Spec Require Import GridSpec QuadSpec.
From Verif.Proofs Require Import Lib QuadP QuadP2 QuadQ IntegP.
Local Open Scope R_scope.
Import ListNotations.

(** ** C36: what the constructor accepts *)
Lemma isclose_iff x : isclose x 1 = true <-> Rabs (x - 1) <= 1 / 10 ^ 9 * Rmax (Rabs x) 1.
Proof.
  assert (M : forall a b, @nmax R RNum a b = Rmax a b).
  { intros a b. unfold nmax. cbn -[Rltb]. destruct (Rltb a b) eqn:E; [apply Rltb_true in E; rewrite Rmax_right; lra|apply Rltb_false in E; rewrite Rmax_left; lra]. }
  unfold isclose. rewrite M. cbn -[Rltb Reqb pow]. rewrite Rabs_R1.
  assert (P : 0 <= 1 / 10 ^ 9 * Rmax (Rabs x) 1) by (apply Rmult_le_pos; [lra|apply (Rle_trans _ 1); [lra|apply Rmax_r]]).
  rewrite Bool.orb_true_iff, Bool.negb_true_iff, Reqb_true, Rltb_false. split; [|auto].
  intros [->|H]; [|exact H]. replace (1 - 1) with 0 by ring. rewrite Rabs_R0. exact P.
Qed.
Lemma outside_iff (p : R * R) : outside_reference p = false <-> 0 <= fst p /\ 0 <= snd p /\ fst p + snd p <= 1.
Proof. unfold outside_reference. cbn -[Rltb]. rewrite !Bool.orb_false_iff, !Rltb_false. tauto. Qed.
Definition reference_points (points : list (R * R)) : Prop := forall p, In p points -> 0 <= fst p /\ 0 <= snd p /\ fst p + snd p <= 1.
Lemma outside_all points : existsb outside_reference points = false <-> reference_points points.
Proof.
  unfold reference_points. induction points as [|p ps IH]; cbn [existsb]; [split; [intros _ ? []|reflexivity]|].
  rewrite Bool.orb_false_iff, IH, outside_iff. split; [intros [A B] q [<-|Q]; auto|]. intros H. split; [apply H; left; reflexivity|intros q Q; apply H; right; exact Q].
Qed.
(** A rule is accepted exactly if every point lies in the closed reference triangle and the weights add up to 1
    with relative tolerance 1e-9; it then has the given weights and the given points. *)
Theorem C36_accepted_iff : forall (weights : list R) (points : list (R * R)) r,
  TriangleQuadratureRule_ weights points = Ok r <->
  (forall p, In p points -> 0 <= fst p /\ 0 <= snd p /\ fst p + snd p <= 1) /\
  Rabs (sum_over (fun w => w) weights - 1) <= 1 / 10 ^ 9 * Rmax (Rabs (sum_over (fun w => w) weights)) 1 /\
  q_weights r = weights /\ map (fun b => (l1 b, l2 b)) (q_points r) = points /\
  (forall b, In b (q_points r) -> l1 b + l2 b + l3 b = 1).
Proof.
  intros weights points r. assert (S : nsum weights = sum_over (fun w => w) weights) by (rewrite nsum_Rsum; induction weights as [|w ws IH]; cbn; [reflexivity|rewrite IH; reflexivity]).
  unfold TriangleQuadratureRule_. rewrite S. split.
  - destruct (existsb outside_reference points) eqn:E; [discriminate|]. destruct (isclose _ n1) eqn:E2; [|discriminate]. cbn [negb]. intros H. injection H as <-. cbn [q_weights q_points].
    apply outside_all in E. apply isclose_iff in E2. split; [exact E|]. split; [exact E2|]. split; [reflexivity|]. split.
    + rewrite map_map. rewrite <- (map_id points) at 2. apply map_ext. intros [x y]. reflexivity.
    + intros b Hb. apply in_map_iff in Hb as [p [<- _]]. unfold Bary, l1, l2, l3. cbn. ring.
  - intros [H1 [H2 [H3 [H4 H5]]]]. rewrite (proj2 (outside_all points) H1). change n1 with 1. rewrite (proj2 (isclose_iff _) H2). cbn [negb]. apply (f_equal Ok).
    destruct r as [ws qs]. cbn [q_weights q_points] in *. subst ws. f_equal. subst points. rewrite map_map. rewrite <- (map_id qs) at 2. apply map_ext_in.
    intros b Hb. specialize (H5 b Hb). destruct b as [[x y] z]. unfold Bary, l1, l2, l3 in *. cbn in *. f_equal. lra.
Qed.
Print Assumptions C36_accepted_iff.
Theorem C36_rejected_with_value_error : forall (weights : list R) (points : list (R * R)),
  (exists r, TriangleQuadratureRule_ weights points = Ok r) \/ TriangleQuadratureRule_ weights points = Err ValueError.
Proof. intros. unfold TriangleQuadratureRule_. destruct (existsb _ _); [right; reflexivity|]. destruct (isclose _ _); [left; eexists; reflexivity|right; reflexivity]. Qed.
Print Assumptions C36_rejected_with_value_error.
Lemma ws_one {A} (ps : list A) ws : length ws = length ps -> weighted_sum ps ws (fun _ => 1) = sum_over (fun w => w) ws.
Proof. revert ws. induction ps as [|p ps IH]; intros [|w ws] L; try discriminate L; cbn; [reflexivity|]. rewrite IH by (cbn in L; lia). ring. Qed.
(** With as many weights as points (which the constructor does not check) a constant is integrated up to relative 1e-9.
    Missing from C36: the hypothesis [length weights = length points]. *)
Theorem C36_constants_partial : forall (weights : list R) (points : list (R * R)) r c,
  TriangleQuadratureRule_ weights points = Ok r -> length weights = length points ->
  let s := sum_over (fun w => w) weights in
  rule_value r (fun _ _ => c) = c * s /\ Rabs (rule_value r (fun _ _ => c) - c) <= Rabs c * (1 / 10 ^ 9 * Rmax (Rabs s) 1).
Proof.
  intros weights points r c H L s. apply C36_accepted_iff in H as [_ [H2 [H3 [H4 _]]]].
  assert (E : rule_value r (fun _ _ => c) = c * s).
  { unfold rule_value. rewrite weighted_sum_const, ws_one, H3; [reflexivity|]. rewrite H3, L, <- H4, map_length. reflexivity. }
  split; [exact E|]. rewrite E. replace (c * s - c) with (c * (s - 1)) by ring. rewrite Rabs_mult. apply Rmult_le_compat_l; [apply Rabs_pos|exact H2].
Qed.
Print Assumptions C36_constants_partial.
(** One weight and no point: accepted, and the constant 1 gets the value 0. *)
Theorem C36_length_mismatch_accepted_refuted : exists (weights : list R) (points : list (R * R)) r,
  TriangleQuadratureRule_ weights points = Ok r /\ rule_value r (fun _ _ => 1) = 0 /\ 2 * reference_integral (fun _ _ => 1) = 1.
Proof.
  exists [1], [], (mkRule [1] []). split; [|split; [reflexivity|]].
  - apply C36_accepted_iff. cbn [sum_over q_weights q_points map]. split; [intros p []|]. split; [|split; [reflexivity|split; [reflexivity|intros b []]]].
    replace (1 + 0 - 1) with 0 by ring. rewrite Rabs_R0. apply Rmult_le_pos; [lra|apply (Rle_trans _ 1); [lra|apply Rmax_r]].
  - rewrite (reference_ext _ (peval [(1, (0, 0)%nat)])) by (intros; cbn; ring). rewrite reference_poly. cbn. unfold mono_int. cbn. field.
Qed.
Print Assumptions C36_length_mismatch_accepted_refuted.
Example C36_example : exists r, TriangleQuadratureRule_ [1/4; 3/4] [(0, 1); (1/2, 1/2)] = Ok r /\ rule_value r (fun _ _ => 8) = 8.
Proof.
  exists (mkRule [1/4; 3/4] [Bary 0 1; Bary (1/2) (1/2)]). split; [|unfold rule_value; cbn; lra].
  apply C36_accepted_iff. cbn [sum_over q_weights q_points map]. split; [intros p [<-|[<-|[]]]; cbn; lra|]. split; [|split; [reflexivity|split; [reflexivity|]]].
  - replace (1 / 4 + (3 / 4 + 0) - 1) with 0 by field. rewrite Rabs_R0. apply Rmult_le_pos; [lra|apply (Rle_trans _ 1); [lra|apply Rmax_r]].
  - intros b [<-|[<-|[]]]; unfold Bary, l1, l2, l3; cbn; ring.
Qed.

(** ** C34, C35 *)
(** Acceptance of a rule whose weights add up to a number close to 1. *)
Lemma accept ws ps : reference_points ps -> Rabs (sum_over (fun w => w) ws - 1) <= 1 / 10 ^ 9 ->
  TriangleQuadratureRule_ ws ps = Ok (mkRule ws (map (fun p => Bary (fst p) (snd p)) ps)).
Proof.
  intros H1 H2. apply C36_accepted_iff. split; [exact H1|]. split; [|split; [reflexivity|split]].
  - eapply Rle_trans; [exact H2|]. rewrite <- (Rmult_1_r (1 / 10 ^ 9)) at 1. apply Rmult_le_compat_l; [lra|apply Rmax_r].
  - cbn [q_points]. rewrite map_map. rewrite <- (map_id ps) at 2. apply map_ext. intros [x y]. reflexivity.
  - intros b Hb. apply in_map_iff in Hb as [p [<- _]]. unfold Bary, l1, l2, l3. cbn. ring.
Qed.
Ltac third := change (@n1 R RNum) with 1; change (@nofZ R RNum) with IZR; rewrite ?ndiv_R by lra; cbn [bind].
Ltac accepted := third; rewrite accept; [reflexivity|intros p Hp; cbn in Hp; intuition (subst; cbn; lra)|cbn; apply Rabs_le; lra].
Lemma all_monomials d (P : nat -> nat -> Prop) : Forall (fun ij => P (fst ij) (snd ij)) (flat_map (fun i => map (fun j => (i, j)) (range (d + 1 - i))) (range (d + 1))) ->
  forall i j, (i + j <= d)%nat -> P i j.
Proof.
  intros H i j L. rewrite Forall_forall in H. apply (H (i, j)). apply in_flat_map. exists i. split; [apply in_range; lia|]. apply in_map_iff. exists j. split; [reflexivity|apply in_range; lia].
Qed.
Ltac num := unfold mono_val, rule_value, mono_int, l1, l2, Bary; cbn [q_points q_weights weighted_sum map fst snd fact INR Nat.mul Nat.add pow]; cbn -[Rplus Rmult Rminus Rdiv IZR].
Ltac monos := apply all_monomials; cbn [flat_map range seq map app Nat.add Nat.sub]; repeat constructor; cbn [fst snd]; num; try field.
Theorem C34_centroid : exists r, CENTROID = Ok r /\ exact_to r 1.
Proof. eexists. split; [unfold CENTROID; accepted|]. apply exact_monomials. monos. Qed.
Print Assumptions C34_centroid.
Theorem C34_vertex : exists r, VERTEX = Ok r /\ exact_to r 1.
Proof. eexists. split; [unfold VERTEX; accepted|]. apply exact_monomials. monos. Qed.
Print Assumptions C34_vertex.
Theorem C34_dunavant2 : exists r, DUNAVANT2 = Ok r /\ exact_to r 2.
Proof. eexists. split; [unfold DUNAVANT2; accepted|]. apply exact_monomials. monos. Qed.
Print Assumptions C34_dunavant2.
Theorem C34_dunavant3 : exists r, DUNAVANT3 = Ok r /\ exact_to r 3.
Proof. eexists. split; [unfold DUNAVANT3; accepted|]. apply exact_monomials. monos. Qed.
Print Assumptions C34_dunavant3.
Example C34_example : degree_le 3 [(2, (2, 1)%nat); (-5, (0, 3)%nat); (7, (0, 0)%nat)] /\
  2 * reference_integral (peval [(2, (2, 1)%nat); (-5, (0, 3)%nat); (7, (0, 0)%nat)]) = 197 / 30.
Proof.
  split; [intros c i j [E|[E|[E|[]]]]; injection E as <- <- <-; lia|]. rewrite reference_poly. cbn [fold_right]. unfold mono_int. cbn. field.
Qed.
(** The rule as rational data, checked by computation in Q. *)
Definition q4w : list Q := [223381589678011 # p10 15; 223381589678011 # p10 15; 223381589678011 # p10 15; 109951743655322 # p10 15; 109951743655322 # p10 15; 109951743655322 # p10 15]%Q.
Definition q4p : list (Q * Q) := let a := (108103018168070 # p10 15)%Q in let b := (445948490915965 # p10 15)%Q in let c := (816847572980459 # p10 15)%Q in let d := (91576213509771 # p10 15)%Q in
  [(a, b); (b, a); (b, b); (c, d); (d, c); (d, d)].
Definition q5w : list Q := [225 # p10 3; 132394152788506 # p10 15; 132394152788506 # p10 15; 132394152788506 # p10 15; 125939180544827 # p10 15; 125939180544827 # p10 15; 125939180544827 # p10 15]%Q.
Definition q5p : list (Q * Q) := let a := (59715871789770 # p10 15)%Q in let b := (470142064105115 # p10 15)%Q in let c := (797426985353087 # p10 15)%Q in let d := (101286507323456 # p10 15)%Q in
  [(1 # 3, 1 # 3)%Q; (a, b); (b, a); (b, b); (c, d); (d, c); (d, d)].
Theorem C35_dunavant4 : exists r, DUNAVANT4 = Ok r /\ forall p, degree_le 4 p ->
  Rabs (rule_value r (peval p) - 2 * reference_integral (peval p)) <= 1 / 10 ^ 14 * abs_coefficients p.
Proof.
  exists (mkRule (map Q2R q4w) (map (fun p => Bary (Q2R (fst p)) (Q2R (snd p))) q4p)). split.
  - unfold DUNAVANT4. rewrite accept; [apply (f_equal Ok)|intros p Hp; cbn in Hp; intuition (subst; cbn; lra)|cbn; apply Rabs_le; lra].
    unfold q4w, q4p. cbn [map fst snd]. rewrite <- !dec_Q. reflexivity.
  - intros p Hp. change (1 / 10 ^ 14) with (@ndec R RNum 1 14); rewrite dec_Q. apply (approx_monomials _ 4); [rewrite <- dec_Q; cbn [ndec RNum]; lra| |exact Hp]. apply qcheck_R. vm_compute. reflexivity.
Qed.
Print Assumptions C35_dunavant4.
Theorem C35_dunavant5 : exists r, DUNAVANT5 = Ok r /\ forall p, degree_le 5 p ->
  Rabs (rule_value r (peval p) - 2 * reference_integral (peval p)) <= 1 / 10 ^ 14 * abs_coefficients p.
Proof.
  exists (mkRule (map Q2R q5w) (map (fun p => Bary (Q2R (fst p)) (Q2R (snd p))) q5p)). split.
  - unfold DUNAVANT5. third. cbv zeta. rewrite accept; [apply (f_equal Ok)|intros p Hp; cbn in Hp; intuition (subst; cbn; lra)|cbn; apply Rabs_le; lra].
    unfold q5w, q5p. cbn [map fst snd]. rewrite <- !dec_Q, <- third_Q. reflexivity.
  - intros p Hp. change (1 / 10 ^ 14) with (@ndec R RNum 1 14); rewrite dec_Q. apply (approx_monomials _ 5); [rewrite <- dec_Q; cbn [ndec RNum]; lra| |exact Hp]. apply qcheck_R. vm_compute. reflexivity.
Qed.
Print Assumptions C35_dunavant5.

(** ** C37 *)
(** [leggauss] stands for numpy's Gauss-Legendre rule on [[-1, 1]]. *)
Theorem C37_transplanted : forall (leggauss : Z -> res (list R * list R)) degree points weights d,
  leggauss degree = Ok (points, weights) -> exact1 points weights (-1) 1 d -> (forall x, In x points -> -1 <= x <= 1) -> length points = length weights ->
  exists points' weights', GaussQuadratureRule_ leggauss degree = Ok (points', weights') /\
    exact1 points' weights' 0 1 d /\ (forall x, In x points' -> 0 <= x <= 1) /\ sum_over (fun w => w) weights' = 1 /\
    length points' = length points /\ length weights' = length weights.
Proof.
  intros lg degree points weights d E H HP L. exists (map (fun x => (1 + x) / 2) points), (map (fun w => w / 2) weights). split.
  { unfold GaussQuadratureRule_. rewrite E. cbn [bind]. change (@n1 R RNum) with 1. change (@nofZ R RNum) with IZR.
    rewrite (mapM_map _ (fun x => (1 + x) / 2)) by (intros; apply ndiv_R; lra). cbn [bind]. rewrite (mapM_map _ (fun w => w / 2)) by (intros; apply ndiv_R; lra). reflexivity. }
  assert (X : exact1 (map (fun x => (1 + x) / 2) points) (map (fun w => w / 2) weights) 0 1 d).
  { intros p Hp. destruct (pcomp1 (1/2) (1/2) p) as [q [Lq Eq]].
    assert (S : forall ps ws, weighted_sum (map (fun x => (1 + x) / 2) ps) (map (fun w => w / 2) ws) (peval1 p) = / 2 * weighted_sum ps ws (peval1 q)).
    { induction ps as [|a ps IH]; intros [|w ws]; cbn [map weighted_sum]; try ring. rewrite IH, Eq. replace (1 / 2 + 1 / 2 * a) with ((1 + a) / 2) by field. field. }
    rewrite S, (H q) by lia.
    pose proof (RInt_lin_R (peval1 p) (1/2) (1/2) (-1) 1 (ex_peval1 _ _ _)) as K.
    replace (1 / 2 * -1 + 1 / 2) with 0 in K by field. replace (1 / 2 * 1 + 1 / 2) with 1 in K by field.
    rewrite <- K by (apply (ex_RInt_ext (peval1 q)); [intros x _; rewrite Eq; f_equal; ring|apply ex_peval1]).
    rewrite (RInt_ext (peval1 q) (fun y => peval1 p (1 / 2 * y + 1 / 2))) by (intros x _; rewrite Eq; f_equal; ring). toR. lra. }
  split; [exact X|]. split; [|split; [|split; apply map_length]].
  - intros x Hx. apply in_map_iff in Hx as [y [<- Hy]]. specialize (HP y Hy). lra.
  - specialize (X [1] ltac:(cbn; lia)). rewrite (weighted_sum_ext _ _ (peval1 [1]) (fun _ => 1)) in X by (intros; cbn; ring).
    rewrite ws_one in X by (rewrite !map_length; congruence). rewrite X. rewrite (RInt_ext _ (fun _ => 1)) by (intros; cbn; ring). rewrite RInt_const. unfold scal. cbn. unfold mult. cbn. ring.
Qed.
Print Assumptions C37_transplanted.
(** Failures of [leggauss] (numpy raises for degree < 1) are passed on. *)
Theorem C37_failure_passed_on : forall (leggauss : Z -> res (list R * list R)) degree e,
  leggauss degree = Err e -> GaussQuadratureRule_ leggauss degree = Err e.
Proof. intros lg d e E. unfold GaussQuadratureRule_. rewrite E. reflexivity. Qed.
Print Assumptions C37_failure_passed_on.
(** The two rules used below: one point, two points. *)
Lemma RInt_lin1 a b c : RInt (peval1 [c]) a b = c * (b - a).
Proof. rewrite (RInt_ext _ (fun _ => c)) by (intros; cbn; ring). rewrite RInt_const. unfold scal. cbn. unfold mult. cbn. ring. Qed.
Lemma RInt_peval1 p a b : RInt (peval1 p) a b = fold_right (fun ck acc => snd ck * (b ^ (fst ck + 1) - a ^ (fst ck + 1)) / INR (fst ck + 1) + acc) 0 (combine (range (length p)) p).
Proof.
  assert (G : forall p k, RInt (fun x => x ^ k * peval1 p x) a b = fold_right (fun ck acc => snd ck * (b ^ (fst ck + 1) - a ^ (fst ck + 1)) / INR (fst ck + 1) + acc) 0 (combine (seq k (length p)) p)).
  { clear p. induction p as [|c p IH]; intros k.
    - cbn [length seq combine fold_right]. rewrite (RInt_ext _ (fun _ => 0)) by (intros; cbn [peval1 fold_right]; toR; ring). apply RInt_zero.
    - cbn [length seq combine fold_right fst snd]. rewrite <- IH.
      assert (E1 : ex_RInt (fun x => x ^ k) 0 a /\ ex_RInt (fun x => x ^ k) a b /\ ex_RInt (fun x => x ^ S k * peval1 p x) a b).
      { split; [|split]; apply ex_RInt_cont; intros x; [auto_derive; exact I|auto_derive; exact I|].
        apply (ex_derive_mult (fun x => x ^ S k) (peval1 p)); [auto_derive; exact I|]. clear. induction p as [|c p IH]; [apply ex_derive_const|].
        apply (ex_derive_plus (V := R_NormedModule) (fun _ => c) (fun x => x * peval1 p x)); [apply ex_derive_const|]. apply (ex_derive_mult (fun x => x) (peval1 p)); [apply ex_derive_id|apply IH]. }
      destruct E1 as [E0 [E1 E2]].
      rewrite (RInt_ext _ (fun x => c * x ^ k + x ^ S k * peval1 p x)) by (intros; cbn [peval1 fold_right pow]; fold (peval1 p x); toR; ring).
      rewrite RInt_plus_R; [|apply (ex_RInt_scal (V := R_NormedModule)); exact E1|exact E2]. rewrite RInt_scal_R by exact E1. f_equal.
      pose proof (RInt_chasles_R _ _ _ _ E0 E1) as C. rewrite !RInt_pow_ in C. rewrite Nat.add_1_r.
      assert (N : INR (S k) <> 0) by (apply not_0_INR; lia). unfold Rdiv in *. set (J := RInt _ a b) in *. replace J with (b ^ S k * / INR (S k) - a ^ S k * / INR (S k)) by lra. ring. }
  change (range (length p)) with (seq 0 (length p)). rewrite <- (G p 0%nat). apply RInt_ext. intros; cbn [pow]. toR. ring.
Qed.
Lemma gauss1 : exact1 [0] [2] (-1) 1 1.
Proof. intros p Hp. rewrite RInt_peval1. destruct p as [|c0 [|c1 [|c2 p]]]; cbn in Hp; try (exfalso; lia); cbn; field. Qed.
Lemma gauss2 : exact1 [- / sqrt 3; / sqrt 3] [1; 1] (-1) 1 3.
Proof.
  assert (S : / sqrt 3 * / sqrt 3 = / 3) by (rewrite <- Rinv_mult, sqrt_sqrt by lra; reflexivity). set (r := / sqrt 3) in *.
  intros p Hp. rewrite RInt_peval1. destruct p as [|c0 [|c1 [|c2 [|c3 [|c4 p]]]]]; cbn in Hp; try (exfalso; lia); cbn; [field| | | |].
  - transitivity (2 * c0); [ring|field].
  - transitivity (2 * c0); [ring|field].
  - transitivity (2 * c0 + 2 * (r * r) * c2); [ring|rewrite S; field].
  - transitivity (2 * c0 + 2 * (r * r) * c2); [ring|rewrite S; field].
Qed.
Example C37_example : exists points weights, GaussQuadratureRule_ (fun _ => Ok ([- / sqrt 3; / sqrt 3], [1; 1])) 2 = Ok (points, weights) /\ exact1 points weights 0 1 3.
Proof.
  assert (S : 0 < / sqrt 3 <= 1) by (split; [apply Rinv_0_lt_compat, sqrt_lt_R0; lra|]; rewrite <- Rinv_1; apply Rinv_le_contravar; [lra|]; rewrite <- sqrt_1; apply sqrt_le_1; lra).
  destruct (C37_transplanted (fun _ => Ok ([- / sqrt 3; / sqrt 3], [1; 1])) 2 _ _ 3 eq_refl gauss2) as [ps [ws [E [X _]]]]; [intros x [<-|[<-|[]]]; lra|reflexivity|]. exists ps, ws. split; assumption.
Qed.
