(** Point location: orientation tests and barycentric coordinates. *)
From Coq Require Import Reals Lra Lia String Psatz.
From Verif.Model Require Import Py Num Tensors Domain.
From Verif.Spec Require Import GridSpec.
From Verif.Proofs Require Import Lib GridP GridTopo GridFix GridCover.
Local Open Scope R_scope.

Definition eps10 : R := / 10 ^ 10.
Lemma eps10_pos : 0 < eps10. Proof. unfold eps10. apply Rinv_0_lt_compat, pow_lt. lra. Qed.
Lemma contains_eps_R : @contains_eps R RNum = eps10.
Proof. unfold contains_eps, ndec, eps10. cbn. try lra; field. Qed.

Lemma sign_vec p q r : sign_ (vec p, vec q, vec r) = Ok (cross p q r).
Proof. destruct p, q, r. unfold sign_, vec, cross. cbn. apply (f_equal Ok). ring. Qed.

Definition holds_tri (p q r x : R * R) : Prop :=
  let d1 := cross x p q in let d2 := cross x q r in let d3 := cross x r p in
  ~ ((d1 < - eps10 \/ d2 < - eps10 \/ d3 < - eps10) /\ (eps10 < d1 \/ eps10 < d2 \/ eps10 < d3)).
Lemma contains_vec p q r x : exists b, triangle_contains_point (vec p, vec q, vec r) (vec x) = Ok b /\ (b = true <-> holds_tri p q r x).
Proof.
  unfold triangle_contains_point. rewrite !sign_vec. cbn [bind]. rewrite contains_eps_R. eexists. split; [reflexivity|].
  unfold holds_tri. cbn [nltb nopp RNum]. rewrite negb_true_iff.
  rewrite (bool_false_iff _ ((cross x p q < - eps10 \/ cross x q r < - eps10 \/ cross x r p < - eps10) /\ (eps10 < cross x p q \/ eps10 < cross x q r \/ eps10 < cross x r p))); [tauto|].
  rewrite andb_true_iff, !orb_true_iff, !Rltb_true. tauto.
Qed.

Definition bary3 (p q r x : R * R) : bary R :=
  let D := cross p q r in (cross x q r / D, cross x r p / D, cross x p q / D).
Lemma bary_vec p q r x : cross p q r <> 0 ->
  to_barycentric_coordinates (vec p, vec q, vec r) (vec x) = Ok (bary3 p q r x).
Proof.
  intros HD. destruct p as [px py], q as [qx qy], r as [rx ry], x as [xx xy].
  unfold to_barycentric_coordinates, vec. cbn [fst snd].
  unfold Vector_sub. cbn [length Nat.eqb bind zip combine map]. unfold Vector_dot. cbn [zip combine map].
  unfold nsum. cbn [fold_left nadd nmul nsub n0 n1 nofZ RNum].
  unfold cross in HD. cbn [fst snd] in HD.
  match goal with |- context [ndiv ?a ?b] => assert (HN : b <> 0) end.
  { intros E. apply HD. apply Rsqr_0_uniq. unfold Rsqr. rewrite <- E. ring. }
  rewrite !ndiv_R by exact HN. cbn [bind]. unfold Bary, bary3, cross. cbn [fst snd n1 nsub nofZ RNum].
  apply (f_equal Ok). apply f_equal2; [apply f_equal2|]; field; split; try exact HD; try (intros E; apply HN; rewrite <- E; ring);
   try (intros E; apply HN; lra).
Qed.

Lemma locate_list pts ts x :
  (forall t, In t ts -> exists p q r, points_of pts t = Ok (vec p, vec q, vec r) /\ cross p q r <> 0) ->
  (exists t p q r, In t ts /\ points_of pts t = Ok (vec p, vec q, vec r) /\ holds_tri p q r x /\
     locate pts ts (vec x) = Ok (Some (t, bary3 p q r x))) \/
  (locate pts ts (vec x) = Ok None /\
   forall t p q r, In t ts -> points_of pts t = Ok (vec p, vec q, vec r) -> ~ holds_tri p q r x).
Proof.
  induction ts as [|t ts IH]; intros H.
  - right. split; [reflexivity|]. intros t p q r [].
  - destruct (H t (or_introl eq_refl)) as [p [q [r [E HD]]]]. destruct (contains_vec p q r x) as [b [Eb Hb]].
    cbn [locate]. rewrite E. cbn [bind]. rewrite Eb. cbn [bind]. destruct b.
    + left. exists t, p, q, r. rewrite bary_vec by exact HD. cbn [bind]. split; [left; reflexivity|]. split; [exact E|].
      split; [apply Hb; reflexivity|reflexivity].
    + destruct (IH (fun t' Ht' => H t' (or_intror Ht'))) as [[t' [p' [q' [r' [I [E' [C L]]]]]]]|[L N]].
      * left. exists t', p', q', r'. split; [right; exact I|]. auto.
      * right. split; [exact L|]. intros t' p' q' r' [<-|I] E'; [|apply (N t' p' q' r' I E')].
        rewrite E in E'. intros C. assert (HH : p = p' /\ q = q' /\ r = r').
        { destruct p, q, r, p', q', r'. unfold vec in E'. cbn [fst snd] in E'. injection E' as -> -> -> -> -> ->. auto. }
        destruct HH as [<- [<- <-]]. apply Hb in C. discriminate.
Qed.
Lemma bary3_of p q r x : cross p q r <> 0 -> bary_of p q r (bary3 p q r x) x.
Proof.
  intros HD. unfold bary_of, bary3, l1, l2, l3. destruct p as [px py], q as [qx qy], r as [rx ry], x as [xx xy].
  unfold cross in *. cbn [fst snd] in *. repeat split; field; exact HD.
Qed.
Lemma cross_sum p q r x : cross x q r + cross x r p + cross x p q = cross p q r.
Proof. unfold cross. ring. Qed.
(** With [D = cross p q r >= eps], the test is: no coordinate below [-eps / D]. *)
Lemma holds_tri_iff p q r x : eps10 <= cross p q r ->
  (holds_tri p q r x <-> - eps10 <= cross x q r /\ - eps10 <= cross x r p /\ - eps10 <= cross x p q).
Proof.
  intros HD. pose proof (cross_sum p q r x). pose proof eps10_pos. unfold holds_tri. split.
  - intros H1. repeat split; apply Rnot_lt_le; intros C; apply H1; (split; [tauto|]).
    + destruct (Rlt_dec eps10 (cross x r p)); [tauto|]. destruct (Rlt_dec eps10 (cross x p q)); [tauto|]. exfalso; lra.
    + destruct (Rlt_dec eps10 (cross x q r)); [tauto|]. destruct (Rlt_dec eps10 (cross x p q)); [tauto|]. exfalso; lra.
    + destruct (Rlt_dec eps10 (cross x r p)); [tauto|]. destruct (Rlt_dec eps10 (cross x q r)); [tauto|]. exfalso; lra.
  - intros [H1 [H2 H3]] [C _]. lra.
Qed.
Lemma inside_holds p q r x : 0 <= cross p q r -> in_triangle p q r x -> holds_tri p q r x.
Proof.
  intros HD [u [v [w [Hu [Hv [Hw [E [Ex Ey]]]]]]]]. pose proof eps10_pos as He. unfold holds_tri. intros [C _].
  assert (cross x p q = w * cross p q r /\ cross x q r = u * cross p q r /\ cross x r p = v * cross p q r) as [E1 [E2 E3]].
  { unfold cross. rewrite Ex, Ey. assert (u = 1 - v - w) as -> by lra. repeat split; ring. }
  rewrite E1, E2, E3 in C. assert (0 <= u * cross p q r /\ 0 <= v * cross p q r /\ 0 <= w * cross p q r) by (repeat split; apply Rmult_le_pos; assumption).
  lra.
Qed.

Section G.
Context (g : grid R) (so : SetOrder) (m n : nat) (f : fixopt) (s : R) (Hs : 0 < s) (HG : rect_spec g so m n f s).
Lemma vec_inj p q : vec p = vec q -> p = q.
Proof. destruct p, q. unfold vec. cbn [fst snd]. intros H. injection H as -> ->. reflexivity. Qed.
Lemma points_of_iff t p q r : In t (g_triangles g) ->
  (points_of (g_points g) t = Ok (vec p, vec q, vec r) <-> triangle_at g t p q r).
Proof.
  destruct t as [[a b] c]. intros Ht. unfold points_of, triangle_at, point_at, py_nth. split.
  - destruct (nth_error (g_points g) a) as [pa|]; [|discriminate]. destruct (nth_error (g_points g) b) as [pb|]; [|discriminate].
    destruct (nth_error (g_points g) c) as [pc|]; [|discriminate]. cbn [bind]. intros H. injection H as -> -> ->. auto.
  - intros [_ [-> [-> ->]]]. reflexivity.
Qed.
Lemma cross_at t p q r : triangle_at g t p q r -> cross p q r = s * s.
Proof.
  intros H. apply (triangle_at_iff g so m n f s HG) in H as [i [j [_ [_ C]]]].
  destruct C as [[_ [-> [-> ->]]]|[_ [-> [-> ->]]]]; unfold P, cross; cbn [fst snd]; rewrite !plus_INR; simpl INR; ring.
Qed.
Lemma locate_grid x :
  (exists t p q r, triangle_at g t p q r /\ holds_tri p q r x /\
     to_barycentric_point g (vec x) = Ok (Some (t, bary3 p q r x))) \/
  (to_barycentric_point g (vec x) = Ok None /\ forall t p q r, triangle_at g t p q r -> ~ holds_tri p q r x).
Proof.
  unfold to_barycentric_point.
  destruct (locate_list (g_points g) (g_triangles g) x) as [[t [p [q [r [I [E [C L]]]]]]]|[L N]].
  - intros t Ht. destruct (triangle_at_ex g so m n f s HG t Ht) as [p [q [r HT]]]. exists p, q, r.
    split; [apply points_of_iff; assumption|]. rewrite (cross_at _ _ _ _ HT). nra.
  - left. exists t, p, q, r. split; [apply points_of_iff; assumption|]. auto.
  - right. split; [exact L|]. intros t p q r HT. pose proof (triangle_at_in g t p q r HT) as I. apply (N t p q r I). apply points_of_iff; assumption.
Qed.
End G.
