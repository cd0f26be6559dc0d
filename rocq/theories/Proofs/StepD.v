(** Integrals of non-negative integrands and the dissipation of a mechanical step. *)
From Coq Require Import Reals Lra Lia List.
From Verif.Model Require Import Py Num Tensors Domain Refine Quadrature Integrators Bell Interp Helpers Steps.
From Verif.Proofs Require Import Lib SimP.
Local Open Scope R_scope.
Import ListNotations.

Lemma Rsum_nonneg l : (forall x, In x l -> 0 <= x) -> 0 <= Rsum l.
Proof. induction l as [|x l IH]; intros H; cbn; [lra|]. pose proof (H x (or_introl eq_refl)). pose proof (IH (fun y Hy => H y (or_intror Hy))). lra. Qed.
Lemma Rsum_zero l : (forall x, In x l -> x = 0) -> Rsum l = 0.
Proof. induction l as [|x l IH]; intros H; cbn; [lra|]. rewrite (H x (or_introl eq_refl)), (IH (fun y Hy => H y (or_intror Hy))). lra. Qed.
Lemma in_mapM {A B} (f : A -> res B) l r y : mapM f l = Ok r -> In y r -> exists x, In x l /\ f x = Ok y.
Proof.
  intros H. apply mapM_ok_iff in H. induction H as [|a b l r Hab H IH]; intros I; [destruct I|]. destruct I as [<- |I]; [exists a; split; [left; reflexivity|exact Hab]|]. destruct (IH I) as [x [X1 X2]]. exists x. split; [right; exact X1|exact X2].
Qed.
Lemma integrate_nonneg (I : integrator R) F v : (forall w, In w (q_weights (i_quad I)) -> 0 <= w) -> (forall a, In a (i_areas I) -> 0 <= a) ->
  (forall t b x, F t b = Ok x -> 0 <= x) -> integrate I F = Ok v -> 0 <= v.
Proof.
  intros HW HA HF H. unfold integrate in H. apply bind_ok' in H as [terms [E H]]. injection H as <-. rewrite nsum_Rsum. apply Rsum_nonneg. intros x Hx.
  destruct (in_mapM _ _ _ _ E Hx) as [[a t] [Hat Q]]. apply bind_ok' in Q as [s [Q1 Q2]]. injection Q2 as <-. cbn. apply Rmult_le_pos; [apply HA, (in_combine_l _ _ _ _ Hat)|].
  unfold quad_sum in Q1. apply bind_ok' in Q1 as [ts [E1 Q1]]. injection Q1 as <-. rewrite nsum_Rsum. apply Rsum_nonneg. intros y Hy. destruct (in_mapM _ _ _ _ E1 Hy) as [[p w] [Hp Q]]. apply bind_ok' in Q as [z [Q1 Q2]]. injection Q2 as <-. cbn. apply Rmult_le_pos; [apply HW, (in_combine_r _ _ _ _ Hp)|exact (HF _ _ _ Q1)].
Qed.
Lemma integrate_zero (I : integrator R) F v : (forall t b x, F t b = Ok x -> x = 0) -> integrate I F = Ok v -> v = 0.
Proof.
  intros HF H. unfold integrate in H. apply bind_ok' in H as [terms [E H]]. injection H as <-. rewrite nsum_Rsum. apply Rsum_zero. intros x Hx.
  destruct (in_mapM _ _ _ _ E Hx) as [[a t] [Hat Q]]. apply bind_ok' in Q as [s [Q1 Q2]]. injection Q2 as <-. cbn.
  unfold quad_sum in Q1. apply bind_ok' in Q1 as [ts [E1 Q1]]. injection Q1 as <-. rewrite nsum_Rsum, Rsum_zero; [apply Rmult_0_r|]. intros y Hy. destruct (in_mapM _ _ _ _ E1 Hy) as [[p w] [Hp Q]]. apply bind_ok' in Q as [z [Q1 Q2]]. injection Q2 as <-. cbn. rewrite (HF _ _ _ Q1). apply Rmult_0_r.
Qed.
Lemma areas_nonneg (q : rule R) ts pts I : Integrator_ q ts pts = Ok I -> forall a, In a (i_areas I) -> 0 <= a.
Proof.
  intros H a Ha. unfold Integrator_ in H. apply bind_ok' in H as [l [E H]]. injection H as <-. cbn in Ha. destruct (in_mapM _ _ _ _ E Ha) as [[[i j] k] [_ Q]]. unfold triangle_area in Q.
  apply bind_ok' in Q as [pj [_ Q]]. apply bind_ok' in Q as [pi [_ Q]]. apply bind_ok' in Q as [f [_ Q]]. apply bind_ok' in Q as [pk [_ Q]]. apply bind_ok' in Q as [sd [_ Q]]. apply bind_ok' in Q as [m [_ Q]]. apply bind_ok' in Q as [d [_ Q]]. apply bind_ok' in Q as [h [_ Q]]. injection Q as <-. cbn. apply Rabs_pos.
Qed.

(** Matrices with only zeros. *)
Definition zeros (d : list (list R)) : Prop := forall row x, In row d -> In x row -> x = 0.
Lemma zeros_entry d i j : zeros d -> entry d i j = 0.
Proof.
  intros Z. unfold entry. destruct (Nat.lt_ge_cases i (length d)) as [Hi|Hi].
  - destruct (Nat.lt_ge_cases j (length (nth i d []))) as [Hj|Hj]; [|apply nth_overflow, Hj]. apply (Z (nth i d [])); apply nth_In; assumption.
  - rewrite (nth_overflow d) by exact Hi. destruct j; reflexivity.
Qed.
Lemma Matrix_data (d : list (list R)) m : Matrix_ d = Ok m -> m_data m = d.
Proof. unfold Matrix_. destruct d as [|r rs]; [discriminate|]. destruct (forallb _ rs); [|discriminate]. intros H. injection H as <-. reflexivity. Qed.
Lemma sub_self_zeros (d : list (list R)) : zeros (zip_rows nsub d d).
Proof.
  intros row x Hr Hx. unfold zip_rows in Hr. apply in_map_iff in Hr as [[r r'] [<- Hr]]. assert (E : r = r') by (clear - Hr; induction d as [|a d IH]; cbn in Hr; [destruct Hr|]; destruct Hr as [Hr|Hr]; [injection Hr as <- <-; reflexivity|exact (IH Hr)]). subst r'.
  apply in_map_iff in Hx as [[y y'] [<- Hy]]. assert (E : y = y') by (clear - Hy; induction r as [|a r IH]; cbn in Hy; [destruct Hy|]; destruct Hy as [Hy|Hy]; [injection Hy as <- <-; reflexivity|exact (IH Hy)]). subst y'. cbn. lra.
Qed.
Lemma dissipation_nonneg (F G : matrix R) x : dissipation_potential F G = Ok x -> 0 <= x.
Proof.
  unfold dissipation_potential. intros H. apply bind_ok' in H as [s [_ H]]. injection H as <-. unfold Matrix_normsqr. rewrite nsum_Rsum. assert (0 <= Rsum (map (fun x => x * x) (concat (m_data s)))); [|cbn in *; lra].
  apply Rsum_nonneg. intros y Hy. apply in_map_iff in Hy as [z [<- _]]. apply Rle_0_sqr.
Qed.
Lemma dissipation_self (F : matrix R) x : dissipation_potential F F = Ok x -> x = 0.
Proof.
  unfold dissipation_potential. intros H. apply bind_ok' in H as [s [S H]]. injection H as <-. unfold symmetrized_strain_delta in S.
  apply bind_ok' in S as [d [D S]]. apply bind_ok' in S as [dt [DT S]]. apply bind_ok' in S as [a [A S]]. apply bind_ok' in S as [pt [PT S]]. apply bind_ok' in S as [b [B S]].
  assert (ZD : zeros (m_data d)). { unfold Matrix_sub in D. destruct (shape_eqb F F); [|discriminate]. rewrite (Matrix_data _ _ D). apply sub_self_zeros. }
  assert (ZT : zeros (m_data dt)). { unfold Matrix_transpose in DT. rewrite (Matrix_data _ _ DT). intros row y Hr Hy. apply in_map_iff in Hr as [j [<- _]]. apply in_map_iff in Hy as [i [<- _]]. apply zeros_entry, ZD. }
  assert (ZA : zeros (m_data a)). { unfold Matrix_matmul in A. destruct (Nat.eqb _ _); [|discriminate]. rewrite (Matrix_data _ _ A). intros row y Hr Hy. apply in_map_iff in Hr as [i [<- _]]. apply in_map_iff in Hy as [j [<- _]]. rewrite nsum_Rsum. apply Rsum_zero. intros z Hz. apply in_map_iff in Hz as [k [<- _]]. rewrite (zeros_entry _ _ _ ZT). apply Rmult_0_l. }
  assert (ZB : zeros (m_data b)). { unfold Matrix_matmul in B. destruct (Nat.eqb _ _); [|discriminate]. rewrite (Matrix_data _ _ B). intros row y Hr Hy. apply in_map_iff in Hr as [i [<- _]]. apply in_map_iff in Hy as [j [<- _]]. rewrite nsum_Rsum. apply Rsum_zero. intros z Hz. apply in_map_iff in Hz as [k [<- _]]. rewrite (zeros_entry _ _ _ ZD). apply Rmult_0_r. }
  assert (ZS : zeros (m_data s)). { unfold Matrix_add in S. destruct (shape_eqb a b); [|discriminate]. rewrite (Matrix_data _ _ S). intros row y Hr Hy. unfold zip_rows in Hr. apply in_map_iff in Hr as [[r r'] [<- Hr]]. apply in_map_iff in Hy as [[z z'] [<- Hz]]. rewrite (ZA r z (in_combine_l _ _ _ _ Hr) (in_combine_l _ _ _ _ Hz)), (ZB r' z' (in_combine_r _ _ _ _ Hr) (in_combine_r _ _ _ _ Hz)). apply Rplus_0_l. }
  unfold Matrix_normsqr. rewrite nsum_Rsum, Rsum_zero; [lra|]. intros y Hy. apply in_map_iff in Hy as [z [<- Hz]]. apply in_concat in Hz as [row [Hr Hz]]. rewrite (ZS row z Hr Hz). apply Rmult_0_l.
Qed.

Lemma dissipation_rule (rg : option (refined_grid R)) q : (match rg with None => CENTROID | Some _ => DUNAVANT5 end) = Ok q -> forall w, In w (q_weights q) -> 0 <= w.
Proof.
  destruct rg as [r|]; intros H w Hw.
  - unfold DUNAVANT5 in H. apply bind_ok' in H as [third [_ H]]. unfold TriangleQuadratureRule_ in H. destruct (existsb _ _); [discriminate|]. destruct (isclose _ _); [|discriminate]. injection H as <-. cbn [q_weights] in Hw.
    cbn [In] in Hw. intuition (subst; cbn; lra).
  - unfold CENTROID in H. apply bind_ok' in H as [third [_ H]]. unfold TriangleQuadratureRule_ in H. destruct (existsb _ _); [discriminate|]. destruct (isclose _ _); [|discriminate]. injection H as <-. cbn in Hw. destruct Hw as [<- |[]]. lra.
Qed.
Lemma mech_dissipation_nonneg m y1 y2 D : mech_dissipation m y1 y2 = Ok D -> 0 <= D.
Proof.
  unfold mech_dissipation. intros H. apply bind_ok' in H as [q [Q H]]. apply bind_ok' in H as [I [EI H]]. assert (IQ : i_quad I = q) by (unfold Integrator_ in EI; apply bind_ok' in EI as [l [_ EI]]; injection EI as <-; reflexivity).
  eapply integrate_nonneg; [| | |exact H].
  - rewrite IQ. exact (dissipation_rule _ _ Q).
  - exact (areas_nonneg _ _ _ _ EI).
  - intros t b x E. apply bind_ok' in E as [F0 [_ E]]. apply bind_ok' in E as [F [_ E]]. exact (dissipation_nonneg _ _ _ E).
Qed.
Lemma mech_dissipation_rest m D : mech_dissipation m (ms_prev_y1 m) (ms_prev_y2 m) = Ok D -> D = 0.
Proof.
  unfold mech_dissipation. intros H. apply bind_ok' in H as [q [Q H]]. apply bind_ok' in H as [I [EI H]]. eapply integrate_zero; [|exact H].
  intros t b x E. apply bind_ok' in E as [F0 [E0 E]]. apply bind_ok' in E as [F [E1 E]]. rewrite E0 in E1. injection E1 as <-. exact (dissipation_self _ _ E).
Qed.
