(** * Theorems about the material functions of helpers.py (C50-C56, C74) *)
From Coq Require Import Reals Lra Lia List Psatz.
From Coquelicot Require Import Coquelicot.
From Verif.Model Require Import Py Num Tensors Expr Helpers.
From Verif.Spec Require Import PotentialSpec.
From Verif.Proofs Require Import Lib ExprP PotP.
Local Open Scope R_scope.
Import ListNotations.

Lemma det_mul F G : det2 (mul2 F G) = det2 F * det2 G. Proof. unfold det2, mul2, st. cbn. ring. Qed.
Lemma det_rot Q : rotation Q -> det2 Q = 1. Proof. intros [c [s [H ->]]]. unfold det2, st. cbn. lra. Qed.
Lemma norm_rot_l Q F : rotation Q -> norm2 (mul2 Q F) = norm2 F.
Proof. intros [c [s [H ->]]]. unfold norm2, mul2, st. cbn. transitivity ((c * c + s * s) * norm2 F); [unfold norm2; ring|rewrite H; unfold norm2; ring]. Qed.
Lemma norm_rot_r Q F : rotation Q -> norm2 (mul2 F Q) = norm2 F.
Proof. intros [c [s [H ->]]]. unfold norm2, mul2, st. cbn. transitivity ((c * c + s * s) * norm2 F); [unfold norm2; ring|rewrite H; unfold norm2; ring]. Qed.
Lemma norm_det F : norm2 F - 2 * det2 F = (f11 F - f22 F) ^ 2 + (f12 F + f21 F) ^ 2. Proof. unfold norm2, det2. ring. Qed.
Lemma sq0 x y : x ^ 2 + y ^ 2 = 0 -> x = 0 /\ y = 0. Proof. intros H. assert (0 <= x ^ 2) by nra. assert (0 <= y ^ 2) by nra. split; nra. Qed.

(** ** C50: austenite potential *)
Theorem C50_single_well : forall F, 0 < det2 F -> exists w, austenite_potential (mat F) = Ok w /\ 0 <= w /\ (w = 0 <-> rotation F).
Proof.
  intros F H. eexists. split; [apply aus_value, H|]. pose proof (ln_below _ H) as L. pose proof (norm_det F) as N.
  pose proof (pow2_ge_0 (f11 F - f22 F)) as P1. pose proof (pow2_ge_0 (f12 F + f21 F)) as P2. pose proof (pow2_ge_0 (det2 F - 1)) as P3. split; [lra|]. split.
  - intros E. assert (D : det2 F = 1). { destruct (Req_dec (det2 F) 1) as [D|D]; [exact D|]. pose proof (ln_strict _ H D). lra. }
    rewrite D, ln_1 in *. destruct (sq0 (f11 F - f22 F) (f12 F + f21 F)) as [E1 E2]; [lra|]. exists (f11 F), (f21 F). unfold det2 in D. split; [nra|]. destruct F as [a b c d]. cbn in *. unfold st. f_equal; lra.
  - intros [c [s [E ->]]]. unfold norm2, det2, st. cbn [f11 f12 f21 f22]. replace (c * c - - s * s) with 1 by lra. rewrite ln_1. lra.
Qed.
Print Assumptions C50_single_well.
Theorem C50_frame_indifference : forall Q F, rotation Q -> austenite_potential (mat (mul2 Q F)) = austenite_potential (mat F).
Proof.
  intros Q F HQ. assert (D : det2 (mul2 Q F) = det2 F) by (rewrite det_mul, (det_rot Q HQ); ring). destruct (Rlt_le_dec 0 (det2 F)) as [H|H].
  - rewrite !aus_value by (rewrite ?D; exact H). rewrite D, (norm_rot_l Q F HQ). reflexivity.
  - rewrite !aus_fail by (rewrite ?D; exact H). reflexivity.
Qed.
Print Assumptions C50_frame_indifference.
Theorem C50_fails_without_orientation : forall F, det2 F <= 0 -> austenite_potential (mat F) = Err ValueError.
Proof. exact aus_fail. Qed.
Print Assumptions C50_fails_without_orientation.
(** Compression to zero area costs arbitrarily much energy. *)
Theorem C50_blow_up : forall M, exists delta, 0 < delta /\ forall F w, 0 < det2 F < delta -> austenite_potential (mat F) = Ok w -> M < w.
Proof.
  intros M. exists (Rmin (/ 2) (exp (- (M + 2) / 2))). split; [apply Rmin_pos; [lra|apply exp_pos]|]. intros F w [H1 H2] E. rewrite (aus_value F H1) in E. injection E as <-.
  assert (L : ln (det2 F) < - (M + 2) / 2). { rewrite <- (ln_exp (- (M + 2) / 2)). apply ln_increasing; [exact H1|]. apply Rlt_le_trans with (1 := H2), Rmin_r. }
  pose proof (norm_det F). pose proof (pow2_ge_0 (f11 F - f22 F)). pose proof (pow2_ge_0 (f12 F + f21 F)). pose proof (pow2_ge_0 (det2 F - 1)). lra.
Qed.
Print Assumptions C50_blow_up.
Example C50_nontrivial : rotation (st (3/5) (- (4/5)) (4/5) (3/5)) /\ 0 < det2 (st 2 1 (-1) 3) /\ ~ rotation (st 2 1 (-1) 3).
Proof.
  split; [exists (3/5), (4/5); split; [lra|reflexivity]|]. split; [unfold det2, st; cbn; lra|]. intros [c [s [H E]]]. injection E as E0 E1 E2 E3. lra.
Qed.

(** ** C51: martensite potential *)
Definition well (sh : R) : strain2 := st 1 sh 0 1.
Theorem C51_non_negative_partial : forall F, 0 < det2 F -> exists w, martensite_potential (mat F) = Ok w /\ 0 <= w.
Proof. intros F H. exists (WM F). split; [apply mar_value; lra|]. unfold WM. apply Rplus_le_le_0_compat; apply pow2_ge_0. Qed.
Print Assumptions C51_non_negative_partial.
Theorem C51_frame_indifference_partial : forall Q F, rotation Q -> martensite_potential (mat (mul2 Q F)) = martensite_potential (mat F).
Proof.
  intros Q F HQ. assert (D : det2 (mul2 Q F) = det2 F) by (rewrite det_mul, (det_rot Q HQ); ring). destruct (Req_dec (det2 F) 0) as [H|H].
  - rewrite !mar_fail by (rewrite ?D; exact H). reflexivity.
  - rewrite !mar_value by (rewrite ?D; exact H). unfold WM. rewrite D, (norm_rot_l Q F HQ). reflexivity.
Qed.
Print Assumptions C51_frame_indifference_partial.
Theorem C51_wells_partial : forall Q, rotation Q -> martensite_potential (mat (mul2 Q (well (1/2)))) = Ok 0 /\ martensite_potential (mat (mul2 Q (well (- (1/2))))) = Ok 0.
Proof.
  intros Q HQ. rewrite !C51_frame_indifference_partial by exact HQ. assert (D : forall sh, det2 (well sh) = 1) by (intros; unfold det2, well, st; cbn; ring).
  split; (rewrite mar_value by (rewrite D; lra)); apply (f_equal Ok); unfold WM; rewrite D; unfold norm2, well, st; cbn [f11 f12 f21 f22]; field.
Qed.
Print Assumptions C51_wells_partial.
(** The README names these two wells; the potential also vanishes at the shear along the other axis, which is no rotation of either. *)
Theorem C51_only_wells_refuted : exists F, 0 < det2 F /\ martensite_potential (mat F) = Ok 0 /\
  forall Q, rotation Q -> F <> mul2 Q (well (1/2)) /\ F <> mul2 Q (well (- (1/2))).
Proof.
  exists (st 1 0 (1/2) 1). assert (D : det2 (st 1 0 (1/2) 1) = 1) by (unfold det2, st; cbn; ring). split; [lra|]. split.
  - rewrite mar_value by lra. apply (f_equal Ok). unfold WM. rewrite D. unfold norm2, st. cbn [f11 f12 f21 f22]. field.
  - intros Q [c [s [H ->]]]. split; intros E; injection E as E1 E2 E3 E4; cbn in *; lra.
Qed.
Print Assumptions C51_only_wells_refuted.

(** ** C74: the exact zero set of the martensite potential among orientation preserving strains *)
Theorem C74_zero_set : forall F, 0 < det2 F -> (martensite_potential (mat F) = Ok 0 <-> det2 F = 1 /\ norm2 F = 9 / 4).
Proof.
  intros F H. rewrite mar_value by lra. split.
  - intros E. injection E as E. unfold WM in E. apply sq0 in E as [E1 E2].
    assert (D : det2 F = 1). { assert (K : (det2 F ^ 2 - 1) ^ 2 = 0). { replace ((det2 F ^ 2 - 1) ^ 2) with ((det2 F ^ 2 + / det2 F ^ 2 - 2) * det2 F ^ 2) by (field; lra). rewrite E2. ring. } assert (det2 F ^ 2 = 1) by nra. nra. }
    split; [exact D|]. rewrite D in E1. lra.
  - intros [D N]. apply (f_equal Ok). unfold WM. rewrite D, N. field.
Qed.
Print Assumptions C74_zero_set.
(** Square roots of rotations. *)
Lemma half_angle x y : x * x + y * y = 1 -> exists c s, c * c + s * s = 1 /\ c * c - s * s = x /\ 2 * (c * s) = y.
Proof.
  intros H. destruct (Req_dec x (-1)) as [->|N].
  - exists 0, 1. assert (y = 0) by nra. repeat split; lra.
  - assert (B : 0 < (1 + x) / 2) by (assert (-1 <= x) by nra; lra). set (c := sqrt ((1 + x) / 2)). assert (Hc : 0 < c) by (apply sqrt_lt_R0, B). assert (C2 : c * c = (1 + x) / 2) by (apply sqrt_sqrt; lra).
    exists c, (y / (2 * c)). assert (S2 : y / (2 * c) * (y / (2 * c)) = (1 - x) / 2). { replace (y / (2 * c) * (y / (2 * c))) with (y * y / (4 * (c * c))) by (field; lra). rewrite C2. replace (y * y) with ((1 - x) * (1 + x)) by lra. field. lra. }
    rewrite S2, C2. repeat split; [lra|lra|]. field. lra.
Qed.
Theorem C74_two_sided_rotations : forall F, 0 < det2 F ->
  (martensite_potential (mat F) = Ok 0 <-> exists Q S, rotation Q /\ rotation S /\ F = mul2 (mul2 Q (well (1/2))) S).
Proof.
  intros F H. rewrite (C74_zero_set F H). split.
  - intros [D N]. destruct F as [a b c d]. unfold det2, norm2 in D, N. cbn in D, N.
    set (E := (a + d) / 2). set (I := (c - b) / 2). set (X := (a - d) / 2). set (Y := (c + b) / 2).
    assert (A : E * E + I * I = 17 / 16) by (unfold E, I; nra). assert (B : X * X + Y * Y = 1 / 16) by (unfold X, Y; nra).
    (* u = (E + iI) / (1 - i/4), v = (X + iY) / (i/4) *)
    set (u1 := (E - I / 4) * (16 / 17)). set (u2 := (I + E / 4) * (16 / 17)). set (v1 := 4 * Y). set (v2 := - 4 * X).
    assert (U : u1 * u1 + u2 * u2 = 1) by (unfold u1, u2; nra). assert (V : v1 * v1 + v2 * v2 = 1) by (unfold v1, v2; nra).
    destruct (half_angle (u1 * v1 - u2 * v2) (u1 * v2 + u2 * v1)) as [cq [sq [Q1 [Q2 Q3]]]]. { transitivity ((u1 * u1 + u2 * u2) * (v1 * v1 + v2 * v2)); [ring|rewrite U, V; ring]. }
    (* psi = u / phi *)
    set (cs := u1 * cq + u2 * sq). set (ss := u2 * cq - u1 * sq).
    exists (st cq (- sq) sq cq), (st cs (- ss) ss cs). split; [exists cq, sq; auto|]. split; [exists cs, ss; split; [|reflexivity]; transitivity ((u1 * u1 + u2 * u2) * (cq * cq + sq * sq)); [unfold cs, ss; ring|rewrite U, Q1; ring]|].
    (* products of the angles *)
    assert (S1 : cq * cs - sq * ss = u1). { transitivity (u1 * (cq * cq + sq * sq)); [unfold cs, ss; ring|rewrite Q1; ring]. }
    assert (S2 : sq * cs + cq * ss = u2). { transitivity (u2 * (cq * cq + sq * sq)); [unfold cs, ss; ring|rewrite Q1; ring]. }
    assert (S3 : cq * cs + sq * ss = v1). { transitivity (u1 * (cq * cq - sq * sq) + u2 * (2 * (cq * sq))); [unfold cs, ss; ring|]. rewrite Q2, Q3. transitivity (v1 * (u1 * u1 + u2 * u2)); [ring|rewrite U; ring]. }
    assert (S4 : sq * cs - cq * ss = v2). { transitivity (u1 * (2 * (cq * sq)) - u2 * (cq * cq - sq * sq)); [unfold cs, ss; ring|]. rewrite Q2, Q3. transitivity (v2 * (u1 * u1 + u2 * u2)); [ring|rewrite U; ring]. }
    assert (P1 : cq * cs = (u1 + v1) / 2) by lra. assert (P2 : sq * ss = (v1 - u1) / 2) by lra. assert (P3 : sq * cs = (u2 + v2) / 2) by lra. assert (P4 : cq * ss = (u2 - v2) / 2) by lra.
    unfold mul2, well, st. cbn [f11 f12 f21 f22]. f_equal.
    + transitivity (cq * cs + cq * ss / 2 - sq * ss); [|unfold Rdiv; cbn; field]. rewrite P1, P2, P4. unfold u1, u2, v1, v2, E, I, X, Y. field.
    + transitivity (- (cq * ss) + cq * cs / 2 - sq * cs); [|unfold Rdiv; cbn; field]. rewrite P1, P3, P4. unfold u1, u2, v1, v2, E, I, X, Y. field.
    + transitivity (sq * cs + sq * ss / 2 + cq * ss); [|unfold Rdiv; cbn; field]. rewrite P2, P3, P4. unfold u1, u2, v1, v2, E, I, X, Y. field.
    + transitivity (- (sq * ss) + sq * cs / 2 + cq * cs); [|unfold Rdiv; cbn; field]. rewrite P1, P2, P3. unfold u1, u2, v1, v2, E, I, X, Y. field.
  - intros [Q [S [HQ [HS ->]]]]. split.
    + rewrite !det_mul, (det_rot Q HQ), (det_rot S HS). unfold det2, well, st. cbn. ring.
    + rewrite (norm_rot_r S _ HS), (norm_rot_l Q _ HQ). unfold norm2, well, st. cbn. field.
Qed.
Print Assumptions C74_two_sided_rotations.
Theorem C74_singular_raises : forall F, det2 F = 0 -> martensite_potential (mat F) = Err ZeroDivisionError.
Proof. exact mar_fail. Qed.
Print Assumptions C74_singular_raises.

(** ** C52: austenite fraction and total elastic potential *)
Theorem C52_fraction : exists a : R -> R, (forall t, austenite_percentage t = Ok (a t)) /\ a 0 = 0 /\ (forall t, 0 <= t -> 0 <= a t < 1) /\ (forall t t', t < t' -> a t < a t').
Proof.
  exists (fun t => 1 - exp (-5 * t)). split; [exact frac_value|]. split; [rewrite Rmult_0_r, exp_0; ring|]. split.
  - intros t Ht. pose proof (exp_pos (-5 * t)). assert (exp (-5 * t) <= 1); [|lra]. rewrite <- exp_0. destruct (Req_dec t 0) as [->|N]; [rewrite Rmult_0_r; lra|]. apply Rlt_le, exp_increasing. lra.
  - intros t t' H. assert (exp (-5 * t') < exp (-5 * t)) by (apply exp_increasing; lra). lra.
Qed.
Print Assumptions C52_fraction.
Theorem C52_convex_combination : forall F t, 0 <= t -> 0 < det2 F -> exists a wa wm w,
  austenite_percentage t = Ok a /\ austenite_potential (mat F) = Ok wa /\ martensite_potential (mat F) = Ok wm /\ total_elastic_potential (mat F) t = Ok w /\
  0 <= a < 1 /\ w = a * wa + (1 - a) * wm /\ 0 <= w.
Proof.
  intros F t Ht HF. destruct C52_fraction as [a [A1 [_ [A2 _]]]]. destruct (C50_single_well F HF) as [wa [E1 [P1 _]]]. destruct (C51_non_negative_partial F HF) as [wm [E2 P2]].
  exists (a t), wa, wm, (a t * wa + (1 - a t) * wm). unfold total_elastic_potential. rewrite A1, E1, E2. pose proof (A2 t Ht). repeat split; try tauto; try lra. nra.
Qed.
Print Assumptions C52_convex_combination.
Theorem C52_frame_indifference : forall Q F t, rotation Q -> total_elastic_potential (mat (mul2 Q F)) t = total_elastic_potential (mat F) t.
Proof. intros Q F t HQ. unfold total_elastic_potential. rewrite C50_frame_indifference, C51_frame_indifference_partial by exact HQ. reflexivity. Qed.
Print Assumptions C52_frame_indifference.
Example C52_nontrivial : exists w, total_elastic_potential (mat (st 2 1 (-1) 3)) 2 = Ok w /\ 0 <= w.
Proof. destruct (C52_convex_combination (st 2 1 (-1) 3) 2) as [_ [_ [_ [w [_ [_ [_ [E [_ [_ P]]]]]]]]]]; [lra|unfold det2, st; cbn; lra|eauto]. Qed.

(** ** C53: stresses are derivatives: along every direction [G], at every strain where the potential is defined. *)
Lemma pos_open x : 0 < x -> exists eps, 0 < eps /\ forall y, Rabs (y - x) < eps -> 0 < y.
Proof. intros H. exists x. split; [exact H|]. intros y Hy. apply Rabs_def2 in Hy. lra. Qed.
Lemma nz_open x : x <> 0 -> exists eps, 0 < eps /\ forall y, Rabs (y - x) < eps -> y <> 0.
Proof. intros H. exists (Rabs x). split; [apply Rabs_pos_lt, H|]. intros y Hy ->. rewrite Rminus_0_l, Rabs_Ropp in Hy. lra. Qed.
Theorem C53_austenite : forall F, 0 < det2 F -> exists D, derivative_austenite_potential (mat F) = Ok (mat D) /\
  forall G, is_derive (fun h => value (austenite_potential (mat (add2 F (scal2 h G))))) 0 (frob D G).
Proof.
  intros F H. exists (grad_of F s_austenite_potential). split; [apply grad_ok, aus_def, H|]. intros G.
  apply (is_derive_ext_loc (fun h => teval (Fenv (add2 F (scal2 h G))) s_austenite_potential)); [|apply line_derive, aus_def, H].
  apply (filter_imp (F := locally 0)) with (2 := line_open F G _ (pos_open _ H)). intros h Hh. cbv beta in Hh. rewrite aus_value, aus_teval by exact Hh. reflexivity.
Qed.
Print Assumptions C53_austenite.
Theorem C53_martensite : forall F, det2 F <> 0 -> exists D, derivative_martensite_potential (mat F) = Ok (mat D) /\
  forall G, is_derive (fun h => value (martensite_potential (mat (add2 F (scal2 h G))))) 0 (frob D G).
Proof.
  intros F H. exists (grad_of F s_martensite_potential). split; [apply grad_ok, mar_def, H|]. intros G.
  apply (is_derive_ext_loc (fun h => teval (Fenv (add2 F (scal2 h G))) s_martensite_potential)); [|apply line_derive, mar_def, H].
  apply (filter_imp (F := locally 0)) with (2 := line_open F G _ (nz_open _ H)). intros h Hh. cbv beta in Hh. rewrite mar_value, mar_teval by exact Hh. reflexivity.
Qed.
Print Assumptions C53_martensite.
Theorem C53_coupling : forall F t, 0 < det2 F -> exists D, strain_derivative_coupling_potential (mat F) t = Ok (mat D) /\
  forall G, is_derive (fun h => let M := mat (add2 F (scal2 h G)) in value (austenite_percentage t) * (value (austenite_potential M) - value (martensite_potential M))) 0 (frob D G).
Proof.
  intros F t H. destruct (C53_austenite F H) as [DA [EA KA]]. destruct (C53_martensite F) as [DM [EM KM]]; [lra|]. set (a := 1 - exp (-5 * t)).
  exists (st ((f11 DA - f11 DM) * a) ((f12 DA - f12 DM) * a) ((f21 DA - f21 DM) * a) ((f22 DA - f22 DM) * a)). split.
  - unfold strain_derivative_coupling_potential. rewrite frac_value, EA, EM. reflexivity.
  - intros G. cbv zeta. rewrite frac_value. cbn [value]. fold a. specialize (KA G). specialize (KM G).
    evar_last; [apply (is_derive_scal (fun h => value (austenite_potential (mat (add2 F (scal2 h G)))) - value (martensite_potential (mat (add2 F (scal2 h G))))) 0 a); apply (is_derive_minus (V := R_NormedModule) _ _ _ _ _ KA KM)|].
    unfold minus, plus, opp, scal. cbn -[a]. unfold mult, frob, st. cbn -[a]. ring.
Qed.
Print Assumptions C53_coupling.
Example C53_nontrivial : 0 < det2 (st 2 1 (-1) 3) /\ exists D, derivative_austenite_potential (mat (st 2 1 (-1) 3)) = Ok (mat D).
Proof. assert (H : 0 < det2 (st 2 1 (-1) 3)) by (unfold det2, st; cbn; lra). split; [exact H|]. destruct (C53_austenite _ H) as [D [E _]]. eauto. Qed.

(** ** C54: internal energy *)
(** With the coupling potential [phi(t) = a(t) (W_A - W_M)], the internal energy is [phi - t phi'], and the code's antiderivative in [t] is one. *)
Theorem C54_internal_energy : forall F, 0 < det2 F ->
  let phi t := value (austenite_percentage t) * (value (austenite_potential (mat F)) - value (martensite_potential (mat F))) in
  (forall t, exists phi' e, is_derive phi t phi' /\ internal_energy_no_entropy (mat F) t = Ok e /\ e = phi t - t * phi') /\
  (forall t, exists A, temp_antrider_internal_energy_no_entropy (mat F) t = Ok A) /\
  temp_antrider_internal_energy_no_entropy (mat F) 0 = Ok 0 /\
  (forall t, is_derive (fun s => value (temp_antrider_internal_energy_no_entropy (mat F) s)) t (value (internal_energy_no_entropy (mat F) t))) /\
  (forall t e, internal_energy_no_entropy (mat F) t = Ok e -> internal_energy (mat F) t = Ok (e + 10 * t)).
Proof.
  intros F H phi. assert (EA := aus_value F H). assert (EM := mar_value F ltac:(lra)). set (W := norm2 F - 2 - 2 * ln (det2 F) + (det2 F - 1) ^ 2 - WM F).
  assert (P : forall t, phi t = (1 - exp (-5 * t)) * W) by (intros t; unfold phi; rewrite frac_value, EA, EM; reflexivity).
  assert (I : forall t, internal_energy_no_entropy (mat F) t = Ok (ww t * W)) by (intros t; unfold internal_energy_no_entropy; rewrite weight_ok, EA, EM; reflexivity).
  assert (A : forall t, temp_antrider_internal_energy_no_entropy (mat F) t = Ok (AW t * W)) by (intros t; unfold temp_antrider_internal_energy_no_entropy; rewrite antider_value, EA, EM; reflexivity).
  split; [|split; [|split; [|split]]].
  - intros t. exists (5 * exp (-5 * t) * W), (ww t * W). split; [|split; [apply I|rewrite P; unfold ww; ring]].
    apply (is_derive_ext (fun t => (1 - exp (-5 * t)) * W)); [intros; symmetry; apply P|]. auto_derive; trivial. ring.
  - intros t. eexists. apply A.
  - rewrite A. apply (f_equal Ok). unfold AW. rewrite Rmult_0_r, exp_0. field.
  - intros t. rewrite I. cbn [value]. apply (is_derive_ext (fun s => AW s * W)); [intros; rewrite A; reflexivity|].
    evar_last; [apply (is_derive_mult AW (fun _ => W) t (ww t) 0); [apply AW_derive|exact (is_derive_const (K := R_AbsRing) (V := R_NormedModule) W t)|intros; apply Rmult_comm]|]. unfold plus, mult. cbn -[ww AW]. ring.
  - intros t e E. unfold internal_energy. rewrite E. reflexivity.
Qed.
Print Assumptions C54_internal_energy.
(** The weight. *)
Theorem C54_weight : exists w : R -> R, (forall t, internal_energy_weight t = Ok (w t)) /\ w 0 = 0 /\ (forall t, 0 <= t -> 0 <= w t < 1) /\ (forall t t', 0 <= t -> t < t' -> w t < w t').
Proof.
  exists ww. split; [exact weight_ok|]. assert (W0 : ww 0 = 0) by (unfold ww; rewrite Rmult_0_r, exp_0; ring). split; [exact W0|].
  assert (M : forall t t', 0 <= t -> t < t' -> ww t < ww t').
  { intros t t' Ht Hl. destruct (MVT_cor2 ww (fun x => 25 * x * exp (-5 * x)) t t' Hl) as [c [E [H1 H2]]]; [intros c _; apply is_derive_Reals, ww_derive|].
    assert (0 < 25 * c * exp (-5 * c) * (t' - t)); [|lra]. pose proof (exp_pos (-5 * c)). repeat apply Rmult_lt_0_compat; lra. }
  split; [|exact M]. intros t Ht. split; [destruct Ht as [Ht|<-]; [rewrite <- W0; apply Rlt_le, M; lra|lra]|]. unfold ww. pose proof (exp_pos (-5 * t)). nra.
Qed.
Print Assumptions C54_weight.

Example C54_nontrivial : exists A, temp_antrider_internal_energy_no_entropy (mat (st 2 1 (-1) 3)) 4 = Ok A.
Proof. apply (C54_internal_energy (st 2 1 (-1) 3)). unfold det2, st. cbn. lra. Qed.

(** ** C55: pulled back heat conductivity *)
(** Symmetric, [F K F^T = det F Id], and the diffusion energy [g . K g] the thermal step forms is positive for every non-zero gradient. *)
Theorem C55_positive_definite : forall F, 0 < det2 F -> exists K, heat_conductivity_reference (mat F) = Ok (mat K) /\
  f12 K = f21 K /\ mul2 (mul2 F K) (tr2 F) = scal2 (det2 F) id2 /\
  forall g1 g2, exists Kg, Matrix_dot (mat K) [g1; g2] = Ok Kg /\ 0 <= Vector_dot [g1; g2] Kg /\ (Vector_dot [g1; g2] Kg = 0 <-> g1 = 0 /\ g2 = 0).
Proof.
  intros F H. assert (H0 : det2 F <> 0) by lra. exists (Kref F). split; [apply heat_value, H0|]. split; [unfold Kref, st; cbn; field; exact H0|]. split.
  - unfold Kref, mul2, tr2, scal2, id2, st. cbn [f11 f12 f21 f22]. unfold det2 in *. f_equal; field; exact H0.
  - intros g1 g2. eexists. split; [apply dot_mat|]. rewrite vdot2.
    assert (E : g1 * (f11 (Kref F) * g1 + f12 (Kref F) * g2) + g2 * (f21 (Kref F) * g1 + f22 (Kref F) * g2) = ((f22 F * g1 - f21 F * g2) ^ 2 + (f12 F * g1 - f11 F * g2) ^ 2) / det2 F) by (unfold Kref, st; cbn [f11 f12 f21 f22]; field; exact H0).
    rewrite E. pose proof (pow2_ge_0 (f22 F * g1 - f21 F * g2)) as A. pose proof (pow2_ge_0 (f12 F * g1 - f11 F * g2)) as B.
    split; [apply Rdiv_le_0_compat; [lra|exact H]|]. split.
    + intros Z. assert (Z' : (f22 F * g1 - f21 F * g2) ^ 2 + (f12 F * g1 - f11 F * g2) ^ 2 = 0). { apply (Rmult_eq_reg_r (/ det2 F)); [|apply Rinv_neq_0_compat, H0]. rewrite Rmult_0_l. exact Z. }
      apply sq0 in Z' as [Z1 Z2]. split; apply (Rmult_eq_reg_r (det2 F)); try exact H0; rewrite Rmult_0_l; unfold det2.
      * transitivity (f11 F * (f22 F * g1 - f21 F * g2) - f21 F * (f12 F * g1 - f11 F * g2)); [ring|rewrite Z1, Z2; ring].
      * transitivity (f12 F * (f22 F * g1 - f21 F * g2) - f22 F * (f12 F * g1 - f11 F * g2)); [ring|rewrite Z1, Z2; ring].
    + intros [-> ->]. unfold Rdiv. ring.
Qed.
Print Assumptions C55_positive_definite.
Theorem C55_singular_raises : forall F, det2 F = 0 -> heat_conductivity_reference (mat F) = Err ZeroDivisionError.
Proof. exact heat_fail. Qed.
Print Assumptions C55_singular_raises.
Theorem C55_frame_indifference : forall Q F, rotation Q -> heat_conductivity_reference (mat (mul2 Q F)) = heat_conductivity_reference (mat F).
Proof.
  intros Q F HQ. assert (D : det2 (mul2 Q F) = det2 F) by (rewrite det_mul, (det_rot Q HQ); ring). destruct (Req_dec (det2 F) 0) as [H|H].
  - rewrite !heat_fail by (rewrite ?D; exact H). reflexivity.
  - rewrite !heat_value by (rewrite ?D; exact H). apply (f_equal Ok), (f_equal mat). unfold Kref. rewrite D. destruct HQ as [c [s [E ->]]]. unfold mul2, st. cbn [f11 f12 f21 f22].
    assert (E' : c * c = 1 - s * s) by lra. f_equal; f_equal; ring_simplify; replace (c ^ 2) with (1 - s ^ 2) by lra; ring.
Qed.
Print Assumptions C55_frame_indifference.

(** ** C56: dissipation *)
Theorem C56_value : forall F G, exists S d, symmetrized_strain_delta (mat F) (mat G) = Ok (mat S) /\ dissipation_potential (mat F) (mat G) = Ok d /\
  let D := add2 G (scal2 (-1) F) in S = add2 (mul2 (tr2 D) F) (mul2 (tr2 F) D) /\ f12 S = f21 S /\ d = norm2 S / 2 /\ 0 <= d /\ (d = 0 <-> S = st 0 0 0 0).
Proof.
  intros F G. exists (sym_delta F G), (norm2 (sym_delta F G) / 2). split; [apply sym_value|]. split; [apply dis_value|]. split; [reflexivity|]. split; [unfold sym_delta, add2, mul2, tr2, scal2, st; cbn; ring|]. split; [reflexivity|].
  destruct (sym_delta F G) as [a b c d]. unfold norm2. cbn [f11 f12 f21 f22]. pose proof (Rle_0_sqr a). pose proof (Rle_0_sqr b). pose proof (Rle_0_sqr c). pose proof (Rle_0_sqr d). unfold Rsqr in *. split; [lra|]. split.
  - intros Z. unfold st. f_equal; nra.
  - intros E. injection E as -> -> -> ->. field.
Qed.
Print Assumptions C56_value.
Theorem C56_no_change : forall F, dissipation_potential (mat F) (mat F) = Ok 0.
Proof. intros F. rewrite dis_value. apply (f_equal Ok). unfold norm2, sym_delta, add2, mul2, tr2, scal2, st. cbn. field. Qed.
Print Assumptions C56_no_change.
Theorem C56_common_rotation : forall Q F G, rotation Q -> dissipation_potential (mat (mul2 Q F)) (mat (mul2 Q G)) = dissipation_potential (mat F) (mat G).
Proof.
  intros Q F G [c [s [E ->]]]. rewrite !dis_value. assert (K : sym_delta (mul2 (st c (- s) s c) F) (mul2 (st c (- s) s c) G) = scal2 (c * c + s * s) (sym_delta F G)).
  { unfold sym_delta, add2, mul2, tr2, scal2, st. cbn [f11 f12 f21 f22]. f_equal; ring. }
  rewrite K, E. unfold scal2, norm2, st. cbn [f11 f12 f21 f22]. rewrite !Rmult_1_l. reflexivity.
Qed.
Print Assumptions C56_common_rotation.
(** The rate is [2 fps^2] times the potential. *)
Theorem C56_rate : forall F G fps, exists d, dissipation_potential (mat F) (mat G) = Ok d /\ dissipation_rate (mat F) (mat G) fps = Ok (2 * fps ^ 2 * d) /\ 0 <= 2 * fps ^ 2 * d.
Proof.
  intros F G fps. eexists. split; [apply dis_value|]. split.
  - unfold dissipation_rate. rewrite dis_value. cbn [bind]. apply (f_equal Ok). cbn. field.
  - destruct (C56_value F G) as [S [d [_ [E [_ [_ [Ed [P _]]]]]]]]. rewrite dis_value in E. injection E as ->. pose proof (pow2_ge_0 fps). nra.
Qed.
Print Assumptions C56_rate.
Example C56_nontrivial : exists d, dissipation_potential (mat (st 1 0 0 1)) (mat (st 1 (1/2) 0 1)) = Ok d /\ 0 < d.
Proof. eexists. split; [apply dis_value|]. unfold norm2, sym_delta, add2, mul2, tr2, scal2, st. cbn. lra. Qed.

(** ** C75: hyper elastic potential *)
Theorem C75_hyper_elastic : forall t, hyper_elastic_potential t = Tensor3D_norm t * Tensor3D_norm t * Tensor3D_norm t /\ 0 <= hyper_elastic_potential t /\ (hyper_elastic_potential t = 0 <-> Tensor3D_normsqr t = 0).
Proof.
  intros t. unfold hyper_elastic_potential, HYPER_ELASTIC_POWER. assert (P : 0 <= Tensor3D_norm t) by apply sqrt_pos.
  assert (N : 0 <= Tensor3D_normsqr t). { unfold Tensor3D_normsqr. rewrite nsum_Rsum. apply Rsum_nonneg. intros x Hx. apply in_map_iff in Hx as [y [<- _]]. cbn. pose proof (Rle_0_sqr y). unfold Rsqr in *. lra. }
  assert (Q : Tensor3D_norm t * Tensor3D_norm t = Tensor3D_normsqr t) by (apply sqrt_sqrt, N). split; [ring|]. split; [apply pow_le, P|]. rewrite <- Q. cbn [pow]. split; intros H; [|rewrite Rmult_1_r, H; ring].
  destruct (Rmult_integral _ _ H) as [K|K]; [rewrite K; ring|]. destruct (Rmult_integral _ _ K) as [K'|K']; rewrite ?Rmult_1_r in K'; rewrite K'; ring.
Qed.
Print Assumptions C75_hyper_elastic.
Example C75_nontrivial : exists t, Tensor3D_ [[[1; 0]; [0; 0]]; [[0; 0]; [0; 2]]] = Ok t /\ 0 < hyper_elastic_potential t.
Proof.
  eexists. split; [reflexivity|]. match goal with |- 0 < hyper_elastic_potential ?t => destruct (C75_hyper_elastic t) as [_ [P Z]] end. destruct P as [P|P]; [exact P|]. symmetry in P. apply Z in P. exfalso. revert P. unfold Tensor3D_normsqr. cbn. lra.
Qed.
