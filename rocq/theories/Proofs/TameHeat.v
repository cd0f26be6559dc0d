(** * The densities of the thermal problem are tame (for C116-C119). *)
From Coq Require Import Reals QArith Qreals Lra Lia List Psatz.
From Coquelicot Require Import Coquelicot.
From Verif.Model Require Import Py Num Tensors Expr Domain Refine Quadrature Integrators Interp Helpers Steps.
From Verif.Spec Require Import GridSpec QuadSpec BellSpec RefineSpec InterpSpec PotentialSpec ConvSpec ConsistSpec.
From Verif.Proofs Require Import Lib PotP MechV MechP ThermV ConvP TameP ConsistP.
Local Open Scope R_scope.
Import ListNotations.

(** ** Closed forms of the stresses *)
Definition aterm (F : strain2) (f c : R) : R := 2 * f - 2 * (c * / det2 F) + 2 * (det2 F - 1) * c.
Definition mterm (F : strain2) (f c : R) : R :=
  2 * (norm2 F * / det2 F - 9 / 4) * (2 * f * / det2 F - norm2 F * c * (/ det2 F) ^ 2) + 2 * (det2 F ^ 2 + (/ det2 F) ^ 2 - 2) * (2 * det2 F - 2 * (/ det2 F) ^ 3) * c.
Lemma grad_aus F : det2 F <> 0 -> grad_of F s_austenite_potential = PotentialSpec.st (aterm F (f11 F) (f22 F)) (aterm F (f12 F) (- f21 F)) (aterm F (f21 F) (- f12 F)) (aterm F (f22 F) (f11 F)).
Proof. intros H. unfold grad_of. f_equal; unfold aterm; cbn; q2r; unfold det2 in *; field; exact H. Qed.
Lemma grad_mar F : det2 F <> 0 -> grad_of F s_martensite_potential = PotentialSpec.st (mterm F (f11 F) (f22 F)) (mterm F (f12 F) (- f21 F)) (mterm F (f21 F) (- f12 F)) (mterm F (f22 F) (f11 F)).
Proof. intros H. unfold grad_of. f_equal; unfold mterm, norm2; cbn; q2r; unfold det2 in *; field; exact H. Qed.

(** ** The data of the densities at a point *)
Record spot := { sF0 : strain2; sF : strain2; sT0 : R; sT : R; sX : R; sY : R }.
Definition gapS (p q : spot) : R := gapF (sF0 p) (sF0 q) + gapF (sF p) (sF q) + Rabs (sT0 p - sT0 q) + Rabs (sT p - sT q) + Rabs (sX p - sX q) + Rabs (sY p - sY q).
Lemma gapS_parts p q : 0 <= gapF (sF0 p) (sF0 q) /\ 0 <= gapF (sF p) (sF q) /\ 0 <= Rabs (sT0 p - sT0 q) /\ 0 <= Rabs (sT p - sT q) /\ 0 <= Rabs (sX p - sX q) /\ 0 <= Rabs (sY p - sY q).
Proof. repeat (split; [first [apply gapF_pos|apply Rabs_pos]|]). apply Rabs_pos. Qed.
Lemma gapS_pos p q : 0 <= gapS p q. Proof. pose proof (gapS_parts p q). unfold gapS. lra. Qed.
Definition spot_set (k d : R) (p : spot) : Prop :=
  (bounded k (sF0 p) /\ bounded k (sF p)) /\ (d <= det2 (sF0 p) /\ d <= det2 (sF p)) /\ (0 <= sT0 p <= k /\ 0 <= sT p <= k) /\ (Rabs (sX p) <= k /\ Rabs (sY p) <= k).

Section Dens.
Context (k d : R) (Hd : 0 < d).
Let K := spot_set k d. Let G := gapS.
Let GP : forall x y, 0 <= G x y := gapS_pos.
Lemma tS_const c : tame G K (fun _ => c). Proof. apply tame_const, GP. Qed.
Lemma entry0 (f : strain2 -> R) : f = f11 \/ f = f12 \/ f = f21 \/ f = f22 -> tame G K (fun p => f (sF0 p)).
Proof. intros Hf. apply (tame_entry G GP K sF0 k); [intros x Hx; apply Hx| |exact Hf]. intros x y. pose proof (gapS_parts x y). unfold G, gapS. lra. Qed.
Lemma entry1 (f : strain2 -> R) : f = f11 \/ f = f12 \/ f = f21 \/ f = f22 -> tame G K (fun p => f (sF p)).
Proof. intros Hf. apply (tame_entry G GP K sF k); [intros x Hx; apply Hx| |exact Hf]. intros x y. pose proof (gapS_parts x y). unfold G, gapS. lra. Qed.
Lemma num_tame (f : spot -> R) : (forall x, K x -> Rabs (f x) <= k) -> (forall x y, Rabs (f x - f y) <= G x y) -> tame G K f.
Proof. intros H1 H2. apply (tame_intro G K GP f k 1); [exact H1|]. intros x y _ _. rewrite Rmult_1_l. apply H2. Qed.
Lemma tT0 : tame G K sT0.
Proof. apply num_tame; [intros x (_ & _ & (B & _) & _); rewrite Rabs_right; lra|]. intros x y. pose proof (gapS_parts x y). unfold G, gapS. lra. Qed.
Lemma tT : tame G K sT.
Proof. apply num_tame; [intros x (_ & _ & (_ & B) & _); rewrite Rabs_right; lra|]. intros x y. pose proof (gapS_parts x y). unfold G, gapS. lra. Qed.
Lemma tX : tame G K sX.
Proof. apply num_tame; [intros x Hx; apply Hx|]. intros x y. pose proof (gapS_parts x y). unfold G, gapS. lra. Qed.
Lemma tY : tame G K sY.
Proof. apply num_tame; [intros x Hx; apply Hx|]. intros x y. pose proof (gapS_parts x y). unfold G, gapS. lra. Qed.
Lemma tE (f : spot -> R) : (forall x, K x -> 0 <= f x) -> tame G K f -> tame G K (fun p => exp (-5 * f p)).
Proof. intros Hf T. apply (tame_exp G K GP (fun p => -5 * f p)); [intros x Hx; specialize (Hf x Hx); lra|apply (tame_scal G K GP (-5)), T]. Qed.
Section One.
Context (S : spot -> strain2) (HS : S = sF0 \/ S = sF).
Lemma S_bounded x : K x -> bounded k (S x). Proof. intros Hx. destruct HS as [->| ->]; apply Hx. Qed.
Lemma S_det x : K x -> d <= det2 (S x). Proof. intros Hx. destruct HS as [->| ->]; apply Hx. Qed.
Lemma S_gap x y : gapF (S x) (S y) <= G x y. Proof. pose proof (gapS_parts x y). unfold G, gapS. destruct HS as [->| ->]; lra. Qed.
Lemma tN : tame G K (fun p => norm2 (S p)). Proof. apply (tame_norm2 G GP K S k); [apply S_bounded|apply S_gap]. Qed.
Lemma tD : tame G K (fun p => det2 (S p)). Proof. apply (tame_det2 G GP K S k); [apply S_bounded|apply S_gap]. Qed.
Lemma tI : tame G K (fun p => / det2 (S p)). Proof. apply (tame_inv G K GP _ d Hd); [apply S_det|apply tD]. Qed.
Lemma tL : tame G K (fun p => ln (det2 (S p))). Proof. apply (tame_ln G K GP _ d Hd); [apply S_det|apply tD]. Qed.
Lemma tEn f : f = f11 \/ f = f12 \/ f = f21 \/ f = f22 -> tame G K (fun p => f (S p)).
Proof. destruct HS as [->| ->]; [apply entry0|apply entry1]. Qed.
Ltac go := repeat first [exact GP|assumption|exact tN|exact tD|exact tI|exact tL|apply tS_const|apply (tame_minus G K GP)|apply (tame_plus G K)|apply (tame_opp G K GP)|apply (tame_mult G K)|apply (tame_pow G K GP)].
Lemma tA (f c : spot -> R) : tame G K f -> tame G K c -> tame G K (fun p => aterm (S p) (f p) (c p)).
Proof. intros Tf Tc. unfold aterm. go. Qed.
Lemma tM (f c : spot -> R) : tame G K f -> tame G K c -> tame G K (fun p => mterm (S p) (f p) (c p)).
Proof.
  intros Tf Tc. unfold mterm. pose proof (tame_pow G K GP _ 2 tI) as I2. pose proof (tame_pow G K GP _ 3 tI) as I3. pose proof (tame_pow G K GP _ 2 tD) as D2.
  pose proof tN. pose proof tD. pose proof tI.
  repeat first [exact GP|assumption|apply tS_const|apply (tame_minus G K GP)|apply (tame_plus G K)|apply (tame_opp G K GP)|apply (tame_mult G K)].
Qed.
Lemma tdW : tame G K (fun p => dW (S p)).
Proof.
  apply (tame_ext G K (fun p => (norm2 (S p) - 2 - 2 * ln (det2 (S p)) + (det2 (S p) - 1) ^ 2) - ((norm2 (S p) * / det2 (S p) - 9 / 4) ^ 2 + (det2 (S p) ^ 2 + (/ det2 (S p)) ^ 2 - 2) ^ 2))).
  - intros x Hx. pose proof (S_det x Hx). unfold dW, WA, WM. field. lra.
  - pose proof (tame_pow G K GP _ 2 tI) as I2. pose proof (tame_pow G K GP _ 2 tD) as D2. pose proof tN as N. pose proof tD as D. pose proof tI as I. pose proof tL as L.
    assert (Q1 : tame G K (fun p => (det2 (S p) - 1) ^ 2)) by (apply (tame_pow G K GP (fun p => det2 (S p) - 1)); apply (tame_minus G K GP); [exact D|apply tS_const]).
    assert (Q2 : tame G K (fun p => (norm2 (S p) * / det2 (S p) - 9 / 4) ^ 2)).
    { apply (tame_pow G K GP (fun p => norm2 (S p) * / det2 (S p) - 9 / 4)). apply (tame_minus G K GP); [apply (tame_mult G K); assumption|apply tS_const]. }
    assert (Q3 : tame G K (fun p => (det2 (S p) ^ 2 + (/ det2 (S p)) ^ 2 - 2) ^ 2)).
    { apply (tame_pow G K GP (fun p => det2 (S p) ^ 2 + (/ det2 (S p)) ^ 2 - 2)). apply (tame_minus G K GP); [apply (tame_plus G K); assumption|apply tS_const]. }
    repeat first [exact GP|assumption|apply tS_const|apply (tame_minus G K GP)|apply (tame_plus G K)|apply (tame_opp G K GP)|apply (tame_mult G K)].
Qed.
End One.
Lemma tCond : tame G K (fun p => qf (Kref (sF0 p)) (sX p) (sY p) (sX p) (sY p)).
Proof.
  pose proof (tI sF0 (or_introl eq_refl)) as I. unfold qf, Kref, PotentialSpec.st. cbn [f11 f12 f21 f22]. unfold Rdiv.
  pose proof tX as X. pose proof tY as Y.
  repeat first [exact GP|assumption|apply tS_const|apply entry0; tauto|apply (tame_minus G K GP)|apply (tame_plus G K)|apply (tame_opp G K GP)|apply (tame_mult G K)].
Qed.
Lemma tRate : tame G K (fun p => norm2 (sym_delta (sF0 p) (sF p)) / 2 * 2 * sT p).
Proof.
  unfold norm2, sym_delta, mul2, tr2, add2, scal2, PotentialSpec.st. cbn [f11 f12 f21 f22]. unfold Rdiv. pose proof tT as T.
  repeat first [exact GP|assumption|apply tS_const|apply entry0; tauto|apply entry1; tauto|apply (tame_minus G K GP)|apply (tame_plus G K)|apply (tame_opp G K GP)|apply (tame_mult G K)].
Qed.
Lemma tCoupl : tame G K (fun p => frob (coupl (sF0 p) (sT0 p)) (add2 (sF p) (scal2 (-1) (sF0 p))) * sT p).
Proof.
  assert (E0 : forall x, K x -> det2 (sF0 x) <> 0) by (intros x Hx; destruct Hx as (_ & (D & _) & _); lra).
  apply (tame_ext G K (fun p => frob (scal2 (1 - exp (-5 * sT0 p)) (add2 (PotentialSpec.st (aterm (sF0 p) (f11 (sF0 p)) (f22 (sF0 p))) (aterm (sF0 p) (f12 (sF0 p)) (- f21 (sF0 p))) (aterm (sF0 p) (f21 (sF0 p)) (- f12 (sF0 p))) (aterm (sF0 p) (f22 (sF0 p)) (f11 (sF0 p))))
    (scal2 (-1) (PotentialSpec.st (mterm (sF0 p) (f11 (sF0 p)) (f22 (sF0 p))) (mterm (sF0 p) (f12 (sF0 p)) (- f21 (sF0 p))) (mterm (sF0 p) (f21 (sF0 p)) (- f12 (sF0 p))) (mterm (sF0 p) (f22 (sF0 p)) (f11 (sF0 p))))))) (add2 (sF p) (scal2 (-1) (sF0 p))) * sT p)).
  { intros x Hx. unfold coupl. rewrite (grad_aus _ (E0 x Hx)), (grad_mar _ (E0 x Hx)). reflexivity. }
  unfold frob, scal2, add2, PotentialSpec.st. cbn [f11 f12 f21 f22]. pose proof tT as T.
  pose proof (tE sT0 (fun x Hx => proj1 (proj1 (proj1 (proj2 (proj2 Hx))))) tT0) as E.
  repeat first [exact GP|assumption|apply tS_const|apply entry0; tauto|apply entry1; tauto|apply (tA sF0 (or_introl eq_refl))|apply (tM sF0 (or_introl eq_refl))|apply (tame_minus G K GP)|apply (tame_plus G K)|apply (tame_opp G K GP)|apply (tame_mult G K)].
Qed.
Lemma heat_lip : exists L, 0 <= L /\ forall fps x y, 0 <= fps -> K x -> K y ->
  Rabs (value (energy_potential fps (mat (sF0 x)) (mat (sF x)) (sT0 x) (sT x) [sX x; sY x]) - value (energy_potential fps (mat (sF0 y)) (mat (sF y)) (sT0 y) (sT y) [sX y; sY y])) <= L * (1 + fps) ^ 2 * G x y.
Proof.
  destruct tCond as (_ & L1 & _ & P1 & _ & H1). destruct tRate as (_ & L2 & _ & P2 & _ & H2). destruct tCoupl as (_ & L3 & _ & P3 & _ & H3).
  exists (L1 + L2 + L3). split; [lra|]. intros fps x y Hf Hx Hy.
  assert (D0 : forall z, K z -> 0 < det2 (sF0 z)) by (intros z Hz; destruct Hz as (_ & (D & _) & _); lra).
  rewrite (energy_value fps (sF0 x) (sF x)) by (apply D0, Hx). rewrite (energy_value fps (sF0 y) (sF y)) by (apply D0, Hy). cbn [value].
  assert (SE : forall z, source fps (sF0 z) (sF z) (sT0 z) * sT z = fps ^ 2 * (norm2 (sym_delta (sF0 z) (sF z)) / 2 * 2 * sT z) + fps * (frob (coupl (sF0 z) (sT0 z)) (add2 (sF z) (scal2 (-1) (sF0 z))) * sT z)).
  { intros z. unfold source, frob, scal2, PotentialSpec.st. cbn [f11 f12 f21 f22]. ring. }
  rewrite <- !Ropp_mult_distr_l, !SE. specialize (H1 x y Hx Hy). specialize (H2 x y Hx Hy). specialize (H3 x y Hx Hy). cbv beta in H1, H2, H3. pose proof (GP x y) as G0. set (g := G x y) in *.
  set (Q := fun p => qf (Kref (sF0 p)) (sX p) (sY p) (sX p) (sY p)) in *. set (Rt := fun p => norm2 (sym_delta (sF0 p) (sF p)) / 2 * 2 * sT p) in *. set (Cp := fun p => frob (coupl (sF0 p) (sT0 p)) (add2 (sF p) (scal2 (-1) (sF0 p))) * sT p) in *.
  change (Rabs (Q x - Q y) <= L1 * g) in H1. change (Rabs (Rt x - Rt y) <= L2 * g) in H2. change (Rabs (Cp x - Cp y) <= L3 * g) in H3.
  change (Rabs (Q x + - (fps ^ 2 * Rt x + fps * Cp x) - (Q y + - (fps ^ 2 * Rt y + fps * Cp y))) <= (L1 + L2 + L3) * (1 + fps) ^ 2 * g).
  generalize dependent (Q x). intros qx. generalize dependent (Q y). intros qy. generalize dependent (Rt x). intros rx. generalize dependent (Rt y). intros ry. generalize dependent (Cp x). intros cx. generalize dependent (Cp y). intros cy. intros H3 H2 H1.
  clearbody g. clear - Hf H1 H2 H3 P1 P2 P3 G0.
  replace (qx + - (fps ^ 2 * rx + fps * cx) - (qy + - (fps ^ 2 * ry + fps * cy))) with ((qx - qy) + (- (fps ^ 2 * (rx - ry)) + - (fps * (cx - cy)))) by ring.
  eapply Rle_trans; [apply Rabs_triang|]. eapply Rle_trans; [apply Rplus_le_compat_l, Rabs_triang|]. rewrite !Rabs_Ropp.
  assert (E1 : Rabs (fps ^ 2 * (rx - ry)) <= fps ^ 2 * (L2 * g)) by (rewrite Rabs_mult, (Rabs_right (fps ^ 2)) by (apply Rle_ge, pow_le, Hf); apply Rmult_le_compat_l; [apply pow_le, Hf|exact H2]).
  assert (E2 : Rabs (fps * (cx - cy)) <= fps * (L3 * g)) by (rewrite Rabs_mult, (Rabs_right fps) by lra; apply Rmult_le_compat_l; assumption).
  assert (A1 : 0 <= L1 * g) by (apply Rmult_le_pos; assumption). assert (A2 : 0 <= L2 * g) by (apply Rmult_le_pos; assumption). assert (A3 : 0 <= L3 * g) by (apply Rmult_le_pos; assumption).
  set (a1 := L1 * g) in *. set (a2 := L2 * g) in *. set (a3 := L3 * g) in *. replace ((L1 + L2 + L3) * (1 + fps) ^ 2 * g) with ((a1 + a2 + a3) * (1 + 2 * fps + fps ^ 2)) by (unfold a1, a2, a3; ring).
  assert (F2 : 0 <= fps ^ 2) by (apply pow_le, Hf). pose proof (Rmult_le_pos _ _ Hf A1). pose proof (Rmult_le_pos _ _ Hf A2). pose proof (Rmult_le_pos _ _ Hf A3). pose proof (Rmult_le_pos _ _ F2 A1). pose proof (Rmult_le_pos _ _ F2 A2). pose proof (Rmult_le_pos _ _ F2 A3). lra.
Qed.
Lemma storage_lip : exists L, 0 <= L /\ forall x y, K x -> K y ->
  Rabs (value (thermal_dissipation_potential (mat (sF0 x)) (mat (sF x)) (sT0 x) (sT x)) - value (thermal_dissipation_potential (mat (sF0 y)) (mat (sF y)) (sT0 y) (sT y))) <= L * G x y.
Proof.
  assert (T : tame G K (fun p => value (thermal_dissipation_potential (mat (sF0 p)) (mat (sF p)) (sT0 p) (sT p)))).
  { apply (tame_ext G K (fun p => psi (sF0 p) (sF p) (sT0 p) (sT p))); [intros x Hx; destruct Hx as (_ & (D & D') & _); rewrite psi_value by lra; reflexivity|].
    unfold psi, AW, ww, Rdiv. pose proof tT as T. pose proof tT0 as T0. pose proof (tdW sF0 (or_introl eq_refl)) as W0. pose proof (tdW sF (or_intror eq_refl)) as W.
    pose proof (tE sT0 (fun x Hx => proj1 (proj1 (proj1 (proj2 (proj2 Hx))))) tT0) as E0. pose proof (tE sT (fun x Hx => proj1 (proj2 (proj1 (proj2 (proj2 Hx))))) tT) as E.
    assert (Q : tame G K (fun p => (sT p - sT0 p) ^ 2)) by (apply (tame_pow G K GP (fun p => sT p - sT0 p)), (tame_minus G K GP); assumption).
    repeat first [exact GP|assumption|apply tS_const|apply (tame_minus G K GP)|apply (tame_plus G K)|apply (tame_opp G K GP)|apply (tame_mult G K)]. }
  destruct T as (_ & L & _ & L0 & _ & H). exists L. split; [exact L0|exact H].
Qed.
End Dens.
