(** * Gradients and Hessians of the deformations of the time steps as linear functionals of the parameters. *)
From Coq Require Import Reals Lra Lia List ZArith.
From Verif.Spec Require Import GridSpec QuadSpec BellSpec InterpSpec RefineSpec PotentialSpec.
From Verif.Model Require Import Py Num Tensors Domain Refine Quadrature Integrators Expr Bell Interp Helpers Steps.
From Verif.Spec Require Import StepSpec EnergySpec.
From Verif.Proofs Require Import Lib InterpP BellP BellD BellV BellDer BellE BellQ BellG RefineSetup PotP StepP StepD SimP SimQ SimL HatP StepU StepE.
From Verif.Props Require Import BellProps InterpProps RefineProps.
Local Open Scope R_scope.
Import ListNotations.

Lemma lincomb_length al y be z : length y = length z -> length (lincomb al y be z) = length y.
Proof. intros E. unfold lincomb. rewrite map_length, combine_length, E. lia. Qed.
Lemma lincomb_nth al y be z i u v : nth_error y i = Some u -> nth_error z i = Some v -> nth_error (lincomb al y be z) i = Some (al * u + be * v).
Proof.
  unfold lincomb. revert z i. induction y as [|a y IH]; intros [|b z] [|i] A B; try discriminate; cbn in *; [congruence|]. exact (IH z i A B).
Qed.
Lemma skipn_combine {A B} n (l : list A) (l' : list B) : skipn n (combine l l') = combine (skipn n l) (skipn n l').
Proof. revert l l'. induction n as [|n IH]; intros l l'; [reflexivity|]. destruct l as [|a l]; [reflexivity|]. destruct l' as [|b l']; [cbn; destruct (skipn n l); reflexivity|]. cbn. apply IH. Qed.
Lemma firstn_combine {A B} n (l : list A) (l' : list B) : firstn n (combine l l') = combine (firstn n l) (firstn n l').
Proof. revert l l'. induction n as [|n IH]; intros l l'; [reflexivity|]. destruct l as [|a l]; [reflexivity|]. destruct l' as [|b l']; [reflexivity|]. cbn. rewrite IH. reflexivity. Qed.
Lemma slice_lincomb o k al y be z : slice o k (lincomb al y be z) = lincomb al (slice o k y) be (slice o k z).
Proof. unfold slice, lincomb. rewrite skipn_map, firstn_map, skipn_combine, firstn_combine. reflexivity. Qed.
Lemma dot_lincomb (N u v : vector R) al be : length u = length v -> Vector_dot N (lincomb al u be v) = al * Vector_dot N u + be * Vector_dot N v.
Proof.
  unfold lincomb. revert u v. induction N as [|n N IH]; intros u v E; [cbn [combine]; rewrite !dot_nil; ring|]. destruct u as [|x u], v as [|y v]; try discriminate; cbn [combine map]; [rewrite !dot_nil_r; ring|].
  rewrite !dot_cons, IH by (cbn in E; lia). ring.
Qed.
Lemma lincomb_app al be a b a' b' : length a = length b -> lincomb al a be b ++ lincomb al a' be b' = lincomb al (a ++ a') be (b ++ b').
Proof. unfold lincomb. revert b. induction a as [|x a IH]; intros [|y b] E; try discriminate; [reflexivity|]. cbn. f_equal. apply IH. cbn in E. lia. Qed.

Definition linear (n : nat) (X : list R -> R) : Prop := forall al y be z, length y = n -> length z = n -> X (lincomb al y be z) = al * X y + be * X z.

Section Bell.
Context (p q r : R * R) (x y : R).
Lemma Fv_lin es u v al be : length u = length v -> Fv p q r (lincomb al u be v) es x y = al * Fv p q r u es x y + be * Fv p q r v es x y.
Proof. intros E. unfold Fv. apply dot_lincomb, E. Qed.
Opaque Fv.
Lemma B_lin u v al be : length u = length v -> let W := lincomb al u be v in
  Bx p q r W x y = al * Bx p q r u x y + be * Bx p q r v x y /\ By p q r W x y = al * By p q r u x y + be * By p q r v x y /\
  Bxx p q r W x y = al * Bxx p q r u x y + be * Bxx p q r v x y /\ Bxy p q r W x y = al * Bxy p q r u x y + be * Bxy p q r v x y /\ Byy p q r W x y = al * Byy p q r u x y + be * Byy p q r v x y.
Proof. intros E W. unfold W, Bx, By, Bxx, Bxy, Byy. rewrite !Fv_lin by exact E. unfold Rdiv. repeat split; ring. Qed.
End Bell.

(** The grids of a time step. *)
Definition good_grids (g : grid R) (rg : option (refined_grid R)) (s : R) (a b : nat) : Prop :=
  0 < s /\ (1 <= a)%nat /\ (1 <= b)%nat /\ mesh g s a b /\
  match rg with None => True | Some r => exists N, (1 <= N)%nat /\ / 10 ^ 15 <= s / INR N /\ refine g (Z.of_nat N) = Ok r end.

Section Fields.
Context (g : grid R) (rg : option (refined_grid R)) (s : R) (a b : nat) (GG : good_grids g rg s a b).
Let NK := (length (g_vertices g) * Steps.dofs rg)%nat.

Lemma fine_mesh : exists s' a' b', 0 < s' /\ mesh (theta_grid g rg) s' a' b'.
Proof.
  destruct GG as (Hs & Ha & Hb & M & RR). destruct rg as [r|]; [|exists s, a, b; split; assumption].
  destruct RR as (N & HN & He & Rf). destruct (C27_refinement_is_fine_mesh g s a b N Hs Ha Hb HN He M) as (r' & Rf' & _ & M' & _). rewrite Rf in Rf'. injection Rf' as <-.
  exists (s / INR N), (a * N)%nat, (b * N)%nat. split; [|exact M']. apply Rdiv_lt_0_compat; [exact Hs|]. apply lt_0_INR. lia.
Qed.
Record functionals (t : triangle) (L : bary R) (X Y : list R -> R) : Prop := {
  fu_grad : forall y, length y = NK -> i_gradient (comp_interp g rg y) t L = Ok [X y; Y y];
  fu_linx : linear NK X; fu_liny : linear NK Y;
  fu_affx : forall al be ga y, affine_field g rg al be ga y -> X y = al;
  fu_affy : forall al be ga y, affine_field g rg al be ga y -> Y y = be
}.
Record functionals2 (t : triangle) (L : bary R) (XX XY YY : list R -> R) : Prop := {
  fu_hess : forall y, length y = NK -> i_hessian (comp_interp g rg y) t L = Ok (hessian_value (XX y) (XY y) (YY y));
  fu_linxx : linear NK XX; fu_linxy : linear NK XY; fu_linyy : linear NK YY;
  fu_affxx : forall al be ga y, affine_field g rg al be ga y -> XX y = 0;
  fu_affxy : forall al be ga y, affine_field g rg al be ga y -> XY y = 0;
  fu_affyy : forall al be ga y, affine_field g rg al be ga y -> YY y = 0
}.
End Fields.

Lemma plain_functionals g s a b t L : good_grids g None s a b -> In t (g_triangles g) -> exists X Y, functionals g None t L X Y.
Proof.
  intros (Hs & Ha & Hb & M & _) Ht. destruct (mesh_triangle_at g s a b M t Ht) as (p & q & r & T). destruct t as [[i j] k].
  pose proof (mesh_cross g s a b M _ _ _ _ T) as C. assert (C0 : cross p q r <> 0) by (rewrite C; nra).
  assert (V : forall y, length y = (length (g_vertices g) * 1)%nat -> nth_error y i = Some (nth i y 0) /\ nth_error y j = Some (nth j y 0) /\ nth_error y k = Some (nth k y 0)).
  { intros y Ly. rewrite Nat.mul_1_r in Ly. destruct (mesh_params g s a b y (i, j, k) p q r M Ly T) as (u & v & w & A & B & D). rewrite (nth_error_nth _ _ 0 A), (nth_error_nth _ _ 0 B), (nth_error_nth _ _ 0 D). auto. }
  exists (fun y => ((snd q - snd r) * nth i y 0 + (snd r - snd p) * nth j y 0 + (snd p - snd q) * nth k y 0) / cross p q r), (fun y => ((fst r - fst q) * nth i y 0 + (fst p - fst r) * nth j y 0 + (fst q - fst p) * nth k y 0) / cross p q r).
  assert (LIN : forall al y be z, length y = (length (g_vertices g) * 1)%nat -> length z = (length (g_vertices g) * 1)%nat -> nth i (lincomb al y be z) 0 = al * nth i y 0 + be * nth i z 0 /\ nth j (lincomb al y be z) 0 = al * nth j y 0 + be * nth j z 0 /\ nth k (lincomb al y be z) 0 = al * nth k y 0 + be * nth k z 0).
  { intros al y be z Ly Lz. destruct (V y Ly) as (A & B & D). destruct (V z Lz) as (A' & B' & D'). rewrite (nth_error_nth _ _ 0 (lincomb_nth al _ be _ _ _ _ A A')), (nth_error_nth _ _ 0 (lincomb_nth al _ be _ _ _ _ B B')), (nth_error_nth _ _ 0 (lincomb_nth al _ be _ _ _ _ D D')). auto. }
  assert (AFF : forall al be ga y, affine_field g None al be ga y -> nth i y 0 = al * fst p + be * snd p + ga /\ nth j y 0 = al * fst q + be * snd q + ga /\ nth k y 0 = al * fst r + be * snd r + ga).
  { intros al be ga y [_ A]. destruct T as (_ & P1 & P2 & P3). assert (K : forall v z, point_at g v z -> nth v y 0 = al * fst z + be * snd z + ga). { intros v z P. specialize (A v z P 0%nat ltac:(cbn; lia)). cbn in A. rewrite Nat.mul_1_r, Nat.add_0_r in A. exact (nth_error_nth _ _ 0 A). } auto. }
  split.
  - intros y Ly. destruct (V y Ly) as (A & B & D). cbn [comp_interp]. exact (proj2 (P1_calls g y i j k p q r _ _ _ L T A B D) C0).
  - intros al y be z Ly Lz. destruct (LIN al y be z Ly Lz) as (-> & -> & ->). unfold Rdiv. ring.
  - intros al y be z Ly Lz. destruct (LIN al y be z Ly Lz) as (-> & -> & ->). unfold Rdiv. ring.
  - intros al be ga y A. destruct (AFF al be ga y A) as (-> & -> & ->). apply (Rmult_eq_reg_r (cross p q r)); [|exact C0]. unfold Rdiv. rewrite Rmult_assoc, Rinv_l by exact C0. unfold cross. ring.
  - intros al be ga y A. destruct (AFF al be ga y A) as (-> & -> & ->). apply (Rmult_eq_reg_r (cross p q r)); [|exact C0]. unfold Rdiv. rewrite Rmult_assoc, Rinv_l by exact C0. unfold cross. ring.
Qed.

Lemma affine_jet al be ga p : jet (peval [(al, (1%nat, 0%nat)); (be, (0%nat, 1%nat)); (ga, (0%nat, 0%nat))]) p = [al * fst p + be * snd p + ga; al; be; 0; 0; 0].
Proof. rewrite jet_peval. unfold jm. cbn -[Rmult Rplus]. repeat (apply (f_equal2 (@cons R)); [ring|]). reflexivity. Qed.
Lemma affine_derivatives al be ga x y : let P := [(al, (1%nat, 0%nat)); (be, (0%nat, 1%nat)); (ga, (0%nat, 0%nat))] in
  d_x (peval P) x y = al /\ d_y (peval P) x y = be /\ d_x (d_x (peval P)) x y = 0 /\ d_y (d_x (peval P)) x y = 0 /\ d_y (d_y (peval P)) x y = 0.
Proof. intros P. pose proof (affine_jet al be ga (x, y)) as J. fold P in J. unfold jet in J. cbn [fst snd] in J. injection J as _ J1 J2 J3 J4 J5. auto. Qed.

Lemma reg_functionals g r s a b t L : good_grids g (Some r) s a b -> In t (g_triangles (r_grid r)) -> l1 L + l2 L + l3 L = 1 ->
  exists X Y XX XY YY, functionals g (Some r) t L X Y /\ functionals2 g (Some r) t L XX XY YY.
Proof.
  intros GG Ht SL. destruct (fine_mesh g (Some r) s a b GG) as (s' & a' & b' & Hs' & M'). destruct GG as (Hs & Ha & Hb & M & (N & HN & He & Rf)).
  destruct (mesh_triangle_at (r_grid r) s' a' b' M' t Ht) as (p' & q' & r' & T').
  set (x := (l1 L * fst p' + l2 L * fst q' + l3 L * fst r', l1 L * snd p' + l2 L * snd q' + l3 L * snd r')).
  assert (BO : bary_of p' q' r' L x) by (split; [exact SL|split; reflexivity]).
  destruct (C29_same_point g s a b N r t p' q' r' L x Hs Ha Hb HN He M Rf T' BO) as (T & P & Q & Z & B & E & HT & HB & _).
  destruct (setup_of g s a b N r Hs Ha Hb HN He M Rf) as (_ & _ & C & Ts & Es & SU). rewrite (su_c _ _ _ _ _ _ _ _ _ SU) in HT. clear C Ts Es SU.
  destruct T as [[i j] k]. pose proof (mesh_cross g s a b M _ _ _ _ HT) as CR. assert (C0 : cross P Q Z <> 0) by (rewrite CR; nra).
  set (n := length (g_vertices g)). set (row := fun v (y : list R) => slice (v * 6) 6 y).
  assert (VB : (i < n /\ j < n /\ k < n)%nat). { pose proof (mesh_params g s a b (seq 0 n) (i, j, k) P Q Z M (seq_length _ _) HT) as (u & v & w & A1 & A2 & A3). assert (A1' : (i < length (seq 0 n))%nat) by (apply nth_error_Some; congruence). assert (A2' : (j < length (seq 0 n))%nat) by (apply nth_error_Some; congruence). assert (A3' : (k < length (seq 0 n))%nat) by (apply nth_error_Some; congruence). rewrite seq_length in *. auto. }
  assert (ROW : forall v (y : list R), (v < n)%nat -> length y = (n * 6)%nat -> length (row v y) = 6%nat /\ nth_error (chunks n 6 y) v = Some (row v y)).
  { intros v y Hv Ly. split; [apply slice_length; lia|]. unfold chunks. rewrite nth_error_map. unfold range. rewrite nth_error_nth' with (d := 0%nat) by (rewrite seq_length; exact Hv). rewrite seq_nth by exact Hv. reflexivity. }
  set (wl := fun y => nodes_of P Q Z (row i y) (row j y) (row k y) B).
  assert (PR : forall y, length y = (n * 6)%nat -> proper (wl y)).
  { intros y Ly. unfold wl, nodes_of, proper, non_degenerate, six_dofs. cbn [pos BellSpec.dofs]. split; [exact C0|]. split; [apply ROW; tauto|]. split; [apply ROW; tauto|]. split; [apply ROW; tauto|]. exact (proj1 HB). }
  set (f := fun F y => wf_call (wl y) F).
  assert (FX : forall F y, f F y = F P Q Z (row i y ++ row j y ++ row k y) (l1 B * fst P + l2 B * fst Q + l3 B * fst Z) (l1 B * snd P + l2 B * snd Q + l3 B * snd Z)) by reflexivity.
  assert (CALL : forall y, length y = (n * 6)%nat -> i_gradient (comp_interp g (Some r) y) t L = Ok [f Bx y; f By y] /\ i_hessian (comp_interp g (Some r) y) t L = Ok (hessian_value (f Bxx y) (f Bxy y) (f Byy y))).
  { intros y Ly. destruct (call_all _ (PR y Ly)) as (_ & K1 & K2). destruct (C1_calls g (chunks n 6 y) i j k P Q Z _ _ _ B HT (proj2 (ROW i y ltac:(tauto) Ly)) (proj2 (ROW j y ltac:(tauto) Ly)) (proj2 (ROW k y ltac:(tauto) Ly))) as (_ & G1 & G2).
    unfold comp_interp, num_vertices. fold n. cbn [i_gradient i_hessian]. rewrite E. cbn [bind]. split; [exact (eq_trans G1 K1)|exact (eq_trans G2 K2)]. }
  assert (LIN : forall al y be z, length y = (n * 6)%nat -> length z = (n * 6)%nat -> let W := row i y ++ row j y ++ row k y in let W' := row i z ++ row j z ++ row k z in length W = length W' /\
     row i (lincomb al y be z) ++ row j (lincomb al y be z) ++ row k (lincomb al y be z) = lincomb al W be W').
  { intros al y be z Ly Lz W W'. destruct VB as (V1 & V2 & V3). pose proof (ROW i y V1 Ly) as [A1 _]. pose proof (ROW j y V2 Ly) as [A2 _]. pose proof (ROW k y V3 Ly) as [A3 _]. pose proof (ROW i z V1 Lz) as [A4 _]. pose proof (ROW j z V2 Lz) as [A5 _]. pose proof (ROW k z V3 Lz) as [A6 _].
    split; [unfold W, W'; rewrite !app_length; congruence|]. unfold row. rewrite !slice_lincomb. rewrite !lincomb_app by (try congruence; unfold row in *; congruence). reflexivity. }
  assert (AFF : forall al be ga y, affine_field g (Some r) al be ga y -> f Bx y = al /\ f By y = be /\ f Bxx y = 0 /\ f Bxy y = 0 /\ f Byy y = 0).
  { intros al be ga y A. destruct A as [Ly A]. cbn [Steps.dofs] in Ly, A. fold n in Ly. set (Po := [(al, (1%nat, 0%nat)); (be, (0%nat, 1%nat)); (ga, (0%nat, 0%nat))]).
    assert (RJ : forall v z, (v < n)%nat -> point_at g v z -> row v y = jet (peval Po) z).
    { intros v z Hv Pz. unfold Po. rewrite affine_jet. apply nth_error_ext; [rewrite (proj1 (ROW v y Hv Ly)); reflexivity|]. intros o Ho. rewrite (proj1 (ROW v y Hv Ly)) in Ho. unfold row. rewrite slice_nth by exact Ho. exact (A v z Pz o Ho). }
    pose proof HT as (_ & A1 & A2 & A3). assert (RR : row i y ++ row j y ++ row k y = jet (peval Po) P ++ jet (peval Po) Q ++ jet (peval Po) Z) by (rewrite (RJ i P), (RJ j Q), (RJ k Z) by tauto; reflexivity).
    assert (DEG : degree_le 4 Po) by (intros c i0 j0 Hc; cbn in Hc; destruct Hc as [Hc|[Hc|[Hc|[]]]]; injection Hc as _ <- <-; lia).
    destruct (C42_quartic Po P Q Z B x DEG C0 HB) as (_ & G & Hh). cbv zeta in G, Hh. destruct (affine_derivatives al be ga (fst x) (snd x)) as (D1 & D2 & D3 & D4 & D5). fold Po in D1, D2, D3, D4, D5. rewrite D1, D2 in G. rewrite D3, D4, D5 in Hh.
    destruct (call_all _ (PR y Ly)) as (_ & K1 & K2). unfold wl, nodes_of, call in K1, K2. cbn [pos BellSpec.dofs] in K1, K2. rewrite RR in K1, K2. destruct B as [[B1 B2] B3]. cbn [l1 l2 l3 fst snd] in K1, K2. change (l1 (B1, B2, B3)) with B1 in K1, K2. change (l2 (B1, B2, B3)) with B2 in K1, K2. change (l3 (B1, B2, B3)) with B3 in K1, K2.
    pose proof (eq_trans (eq_sym K1) G) as X1. pose proof (eq_trans (eq_sym K2) Hh) as X2. unfold f, wl, nodes_of. unfold gradient_value in X1. unfold hessian_value in X2. injection X1 as X1 X1'. injection X2 as X2 X3 _ X4. split; [exact X1|]. split; [exact X1'|]. split; [exact X2|]. split; [exact X3|exact X4]. }
  exists (f Bx), (f By), (f Bxx), (f Bxy), (f Byy).
  split; split; cbn [Steps.dofs]; fold n; try (intros y Ly; apply CALL, Ly); try (intros al be ga y A; apply (AFF al be ga y A));
    intros al y be z Ly Lz; destruct (LIN al y be z Ly Lz) as [EL LC]; rewrite !FX, LC; apply B_lin, EL.
Qed.
