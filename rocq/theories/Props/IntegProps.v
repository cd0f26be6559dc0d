(** * Theorems about the integrators (C38, C39) *)
From Coq Require Import Reals Lra Lia List Permutation.
From Coquelicot Require Import Coquelicot.
From Verif.Model Require Import Py Num Tensors Domain Quadrature Integrators.
From Verif.Spec Require Import GridSpec QuadSpec.
From Verif.Proofs Require Import Lib QuadP QuadP2 QuadQ IntegP GridP GridTopo GridCover StdOrder.
From Verif.Props Require Import QuadProps GridProps.
Local Open Scope R_scope.
Import ListNotations.

(** ** C38 *)
Lemma Forall2_fun {A B} (f : A -> B) l : Forall2 (fun x y => y = f x) l (map f l).
Proof. induction l; constructor; auto. Qed.
(** The integrator stores, for every triangle in the plane, its area. *)
Theorem C38_areas : forall (q : rule R) ts points, (forall t, In t ts -> exists a b c, corners points t a b c) ->
  exists I, Integrator_ q ts points = Ok I /\ i_quad I = q /\ i_triangles I = ts /\
    Forall2 (fun t A => exists a b c, corners points t a b c /\ A = area a b c) ts (i_areas I).
Proof.
  intros q ts points H.
  assert (E : exists As, mapM (triangle_area points) ts = Ok As /\ Forall2 (fun t A => exists a b c, corners points t a b c /\ A = area a b c) ts As).
  { induction ts as [|t ts IH]; [exists []; split; constructor|]. destruct (H t (or_introl eq_refl)) as [a [b [c K]]]. destruct IH as [As [E1 E2]]; [intros; apply H; right; assumption|].
    exists (area a b c :: As). split; [cbn [mapM]; rewrite (triangle_area_pts _ _ _ _ _ K), E1; reflexivity|]. constructor; [exists a, b, c; auto|exact E2]. }
  destruct E as [As [E1 E2]]. exists (mkIntegrator q As ts). unfold Integrator_. rewrite E1. auto.
Qed.
Print Assumptions C38_areas.
(** Conversely, the integrator can only be built if all triangles refer to points of the plane. *)
Lemma two_dim (a b : vector R) m x : Vector_stack a b = Ok m -> Matrix_det m = Ok x -> exists p q, a = vec p /\ b = vec q.
Proof.
  unfold Vector_stack. intros H D. destruct a as [|x1 [|y1 [|z1 a]]], b as [|x2 [|y2 [|z2 b]]]; try discriminate H.
  all: try (cbn in H; injection H as <-; cbn in D; discriminate D).
  - exists (x1, y1), (x2, y2). auto.
  - cbn in H. destruct (Nat.eqb (length a) (length b)); [|discriminate H]. cbn in H. repeat match type of H with (if ?c then _ else _) = _ => destruct c; [|discriminate H] end. injection H as <-. cbn in D. discriminate D.
Qed.
Lemma triangle_area_inv points t A : triangle_area points t = Ok A -> exists a b c, corners points t a b c.
Proof.
  destruct t as [[i j] k]. unfold triangle_area. intros H.
  apply bind_ok in H as [pj [Ej H]]. apply bind_ok in H as [pi [Ei H]]. apply bind_ok in H as [f [Ef H]]. apply bind_ok in H as [pk [Ek H]]. apply bind_ok in H as [g [Eg H]].
  apply bind_ok in H as [m [Em H]]. apply bind_ok in H as [x [Ex H]]. destruct (two_dim _ _ _ _ Em Ex) as [u [v [-> ->]]].
  apply py_nth_ok in Ej. apply py_nth_ok in Ei. apply py_nth_ok in Ek.
  unfold Vector_sub in Ef, Eg. destruct (Nat.eqb (length pj) (length pi)) eqn:L1; [|discriminate Ef]. destruct (Nat.eqb (length pk) (length pi)) eqn:L2; [|discriminate Eg].
  apply Nat.eqb_eq in L1. apply Nat.eqb_eq in L2. injection Ef as Ef. injection Eg as Eg.
  assert (D : length pi = 2%nat) by (apply (f_equal (@length R)) in Ef; unfold vec in Ef; cbn in Ef; rewrite ?map_length, ?combine_length in Ef; lia).
  destruct pi as [|a0 [|a1 [|]]]; try discriminate D. destruct pj as [|b0 [|b1 [|]]]; try discriminate L1. destruct pk as [|c0 [|c1 [|]]]; try discriminate L2.
  exists (a0, a1), (b0, b1), (c0, c1). unfold corners, vec. cbn [fst snd]. auto.
Qed.
Theorem C38_only_plane_triangles : forall (q : rule R) ts points I t, Integrator_ q ts points = Ok I -> In t ts -> exists a b c, corners points t a b c.
Proof.
  intros q ts points I t H Ht. unfold Integrator_ in H. apply bind_ok in H as [As [E _]].
  apply mapM_ok_iff in E. clear I. induction E as [|t' A ts As E1 E2 IH]; [destruct Ht|]. destruct Ht as [->|Ht]; [apply (triangle_area_inv _ _ _ E1)|apply IH, Ht].
Qed.
Print Assumptions C38_only_plane_triangles.
Lemma lin_sum {A} (f g h : A -> res R) al be (l : list A) a b :
  (forall x y z, f x = Ok y -> g x = Ok z -> h x = Ok (al * y + be * z)) ->
  (let* r := mapM f l in Ok (nsum r)) = Ok a -> (let* r := mapM g l in Ok (nsum r)) = Ok b ->
  (let* r := mapM h l in Ok (nsum r)) = Ok (al * a + be * b).
Proof.
  intros H Fa Gb. apply bind_ok in Fa as [r [Er Fa]]. apply bind_ok in Gb as [r' [Er' Gb]]. injection Fa as <-. injection Gb as <-. rewrite !nsum_Rsum.
  assert (K : exists r'', mapM h l = Ok r'' /\ Rsum r'' = al * Rsum r + be * Rsum r').
  { revert r r' Er Er'. induction l as [|x l IH]; intros r r' Er Er'.
    - cbn in Er, Er'. injection Er as <-. injection Er' as <-. exists []. split; [reflexivity|cbn; ring].
    - cbn [mapM] in *. apply bind_ok in Er as [y [Ey Er]]. apply bind_ok in Er as [ys [Eys Er]]. injection Er as <-.
      apply bind_ok in Er' as [z [Ez Er]]. apply bind_ok in Er as [zs [Ezs Er]]. injection Er as <-.
      destruct (IH ys zs Eys Ezs) as [ws [W1 W2]]. rewrite (H x y z Ey Ez), W1. cbn [bind]. eexists. split; [reflexivity|]. cbn [Rsum]. rewrite W2. ring. }
  destruct K as [r'' [K1 K2]]. rewrite K1. cbn [bind]. rewrite nsum_Rsum, K2. reflexivity.
Qed.
(** Linear combination of two integrands that may raise. *)
Definition combine_integrands {A B} (al be : R) (F G : A -> B -> res R) : A -> B -> res R :=
  fun t b => let* x := F t b in let* y := G t b in Ok (al * x + be * y).
Lemma quad_sum_lin {A} pw (F G : A -> res R) al be a b : quad_sum pw F = Ok a -> quad_sum pw G = Ok b ->
  quad_sum pw (fun p => let* x := F p in let* y := G p in Ok (al * x + be * y)) = Ok (al * a + be * b).
Proof.
  unfold quad_sum. apply lin_sum. intros [p w] y z Hy Hz. apply bind_ok in Hy as [v [-> Hy]]. apply bind_ok in Hz as [v' [-> Hz]]. injection Hy as <-. injection Hz as <-. cbn. apply (f_equal Ok). ring.
Qed.
Theorem C38_linear : forall (I : integrator R) F G al be a b, integrate I F = Ok a -> integrate I G = Ok b ->
  integrate I (combine_integrands al be F G) = Ok (al * a + be * b).
Proof.
  intros I F G al be a b. unfold integrate. apply lin_sum. intros [ar t] y z Hy Hz. apply bind_ok in Hy as [v [Ev Hy]]. apply bind_ok in Hz as [v' [Ev' Hz]]. injection Hy as <-. injection Hz as <-.
  unfold combine_integrands. rewrite (quad_sum_lin _ _ _ al be _ _ Ev Ev'). cbn. apply (f_equal Ok). ring.
Qed.
Print Assumptions C38_linear.
(** The same value at every quadrature point: the integral is that value times the total area (times the sum of the weights). *)
Theorem C38_constant : forall weights rpoints (q : rule R) ts points I c,
  TriangleQuadratureRule_ weights rpoints = Ok q -> length weights = length rpoints -> Integrator_ q ts points = Ok I ->
  integrate I (fun _ _ => Ok c) = Ok (c * sum_over (fun w => w) weights * sum_over (fun A => A) (i_areas I)).
Proof.
  intros weights rpoints q ts points I c Hq L H. pose proof H as H'. unfold Integrator_ in H. apply bind_ok in H as [As [E H]]. injection H as <-. cbn [i_areas].
  apply C36_accepted_iff in Hq as [_ [_ [W [P _]]]].
  rewrite (integrate_ws _ _ (fun _ _ => c)) by (cbn; (apply (mapM_length _ _ _ E) || reflexivity)). cbn [i_triangles i_areas i_quad]. apply (f_equal Ok).
  rewrite (weighted_sum_const ts As), (weighted_sum_const (q_points q) (q_weights q) c), (ws_one ts As) by apply (mapM_length _ _ _ E).
  rewrite (ws_one (q_points q)) by (rewrite W, L, <- P, map_length; reflexivity). rewrite W. ring.
Qed.
Print Assumptions C38_constant.
(** Renumbering the corners of the triangles does not change the areas. *)
Definition same_corners (t t' : triangle) : Prop := let '(a, b, c) := t in let '(a', b', c') := t' in Permutation [a; b; c] [a'; b'; c'].
Lemma perm3 {A} (a b c a' b' c' : A) : Permutation [a; b; c] [a'; b'; c'] ->
  (a', b', c') = (a, b, c) \/ (a', b', c') = (a, c, b) \/ (a', b', c') = (b, a, c) \/ (a', b', c') = (b, c, a) \/ (a', b', c') = (c, a, b) \/ (a', b', c') = (c, b, a).
Proof.
  intros H. assert (K : forall x y u v : A, Permutation [x; y] [u; v] -> (u, v) = (x, y) \/ (u, v) = (y, x)).
  { intros x y u v P. apply Permutation_length_2_inv in P as [P|P]; injection P as -> ->; auto. }
  assert (I : In a' [a; b; c]) by (apply (Permutation_in _ (Permutation_sym H)); left; reflexivity).
  destruct I as [<-|[<-|[<-|[]]]].
  - apply Permutation_cons_inv, K in H as [E|E]; injection E as -> ->; auto.
  - assert (P : Permutation [b; a; c] [b; b'; c']) by (eapply Permutation_trans; [apply perm_swap|exact H]). apply Permutation_cons_inv, K in P as [E|E]; injection E as -> ->; auto.
  - assert (P : Permutation [c; a; b] [c; b'; c']) by (eapply Permutation_trans; [|exact H]; apply (Permutation_cons_append [a; b] c)). apply Permutation_cons_inv, K in P as [E|E]; injection E as -> ->; tauto.
Qed.
Theorem C38_areas_independent_of_vertex_order : forall (q : rule R) ts ts' points I I', Forall2 same_corners ts ts' ->
  Integrator_ q ts points = Ok I -> Integrator_ q ts' points = Ok I' -> i_areas I = i_areas I'.
Proof.
  intros q ts ts' points I I' HP H H'. unfold Integrator_ in H, H'. apply bind_ok in H as [As [E H]]. injection H as <-. apply bind_ok in H' as [As' [E' H]]. injection H as <-. cbn [i_areas].
  revert As As' E E'. induction HP as [|t t' ts ts' P HP IH]; intros As As' E E'; [cbn in *; congruence|].
  cbn [mapM] in *. apply bind_ok in E as [y [Ey E]]. apply bind_ok in E as [ys [Eys E]]. injection E as <-. apply bind_ok in E' as [z [Ez E']]. apply bind_ok in E' as [zs [Ezs E']]. injection E' as <-.
  f_equal; [|apply IH; assumption]. destruct (triangle_area_inv _ _ _ Ey) as [u [v [w K]]]. destruct t as [[a b] c], t' as [[a' b'] c'].
  assert (G : forall x1 x2 x3 u1 u2 u3, (a', b', c') = (x1, x2, x3) -> corners points (x1, x2, x3) u1 u2 u3 -> area u1 u2 u3 = area u v w -> y = z).
  { intros x1 x2 x3 u1 u2 u3 Eq C A. rewrite Eq, (triangle_area_pts _ _ _ _ _ C) in Ez. rewrite (triangle_area_pts _ _ _ _ _ K) in Ey. congruence. }
  destruct K as [A [B C]]. assert (AR : forall x, Rabs (- x) = Rabs x) by apply Rabs_Ropp.
  apply perm3 in P as [P|[P|[P|[P|[P|P]]]]]; (eapply (G _ _ _ _ _ _ P); [repeat split; eassumption|]); unfold area, signed_area, cross; (f_equal; field) || (rewrite <- AR; f_equal; field).
Qed.
Print Assumptions C38_areas_independent_of_vertex_order.
(** The specification itself: the triangle integral of a polynomial does not depend on the order of the corners. *)
Lemma is_poly_peval d p : degree_le d p -> is_poly d (peval p).
Proof. intros H. exists p. split; [exact H|reflexivity]. Qed.
Lemma tri_poly d (f : R -> R -> R) p q r : is_poly d f ->
  is_poly d (fun u v => f (u * fst p + v * fst q + (1 - u - v) * fst r) (u * snd p + v * snd q + (1 - u - v) * snd r)).
Proof.
  intros H. apply (is_poly_comp d f (fun u v => u * fst p + v * fst q + (1 - u - v) * fst r) (fun u v => u * snd p + v * snd q + (1 - u - v) * snd r) H).
  - apply (is_poly_ext 1 (fun u v => fst r + (fst p - fst r) * u + (fst q - fst r) * v)); [intros; ring|apply is_poly_affine].
  - apply (is_poly_ext 1 (fun u v => snd r + (snd p - snd r) * u + (snd q - snd r) * v)); [intros; ring|apply is_poly_affine].
Qed.
Theorem C38_triangle_integral_corner_order : forall P p q r,
  triangle_integral p q r (peval P) = triangle_integral q p r (peval P) /\ triangle_integral p q r (peval P) = triangle_integral p r q (peval P).
Proof.
  intros P p q r. assert (D : exists d, is_poly d (peval P)).
  { exists (fold_right (fun t acc => fst (snd t) + snd (snd t) + acc)%nat O P). apply is_poly_peval. intros c i j H. induction P as [|[c' [i' j']] P IH]; [destruct H|]. cbn [fold_right fst snd]. destruct H as [E|H]; [injection E as -> -> ->; lia|specialize (IH H); lia]. }
  destruct D as [d D]. unfold triangle_integral. split.
  - f_equal; [rewrite <- Rabs_Ropp; f_equal; unfold cross; ring|]. rewrite <- (reference_swap d) by apply tri_poly, D. apply reference_ext. intros. f_equal; ring.
  - f_equal; [rewrite <- Rabs_Ropp; f_equal; unfold cross; ring|]. rewrite <- (reference_flip d) by apply tri_poly, D. apply reference_ext. intros. f_equal; ring.
Qed.
Print Assumptions C38_triangle_integral_corner_order.
(** Exact integration of functions that are polynomials of degree [d] on every triangle (a different one on each, if wanted). *)
Theorem C38_exact : forall weights rpoints (q : rule R) d ts points I (P : triangle -> poly2) F,
  TriangleQuadratureRule_ weights rpoints = Ok q -> exact_to q d -> Integrator_ q ts points = Ok I ->
  (forall t, In t ts -> degree_le d (P t)) ->
  (forall t a b c l x, In t ts -> corners points t a b c -> bary_of a b c l x -> F t l = Ok (peval (P t) (fst x) (snd x))) ->
  exists values, Forall2 (fun t v => exists a b c, corners points t a b c /\ v = triangle_integral a b c (peval (P t))) ts values /\
    integrate I F = Ok (sum_over (fun v => v) values).
Proof.
  intros weights rpoints q d ts points I P F Hq HE HI HD HF.
  pose proof (fun t => C38_only_plane_triangles q ts points I t HI) as HC. unfold Integrator_ in HI. apply bind_ok in HI as [As [E HI]]. injection HI as <-.
  apply C36_accepted_iff in Hq as [_ [_ [_ [_ HB]]]].
  unfold integrate. cbn [i_areas i_triangles i_quad].
  assert (K : exists values, Forall2 (fun t v => exists a b c, corners points t a b c /\ v = triangle_integral a b c (peval (P t))) ts values /\
    mapM (fun '(a, t) => let* s := quad_sum (zip (q_points q) (q_weights q)) (F t) in Ok (nmul a s)) (zip As ts) = Ok values).
  { revert As E. induction ts as [|t ts IH]; intros As E.
    - cbn in E. injection E as <-. exists []. split; [constructor|reflexivity].
    - cbn [mapM] in E. apply bind_ok in E as [y [Ey E]]. apply bind_ok in E as [ys [Eys E]]. injection E as <-.
      destruct (IH (fun t Ht => HD t (or_intror Ht)) (fun t a b c l x Ht => HF t a b c l x (or_intror Ht)) (fun t Ht => HC t (or_intror Ht)) ys Eys) as [vs [V1 V2]].
      destruct (HC t (or_introl eq_refl)) as [a [b [c K]]]. rewrite (triangle_area_pts _ _ _ _ _ K) in Ey. injection Ey as <-.
      exists (triangle_integral a b c (peval (P t)) :: vs). split; [constructor; [exists a, b, c; auto|exact V1]|].
      unfold zip in *. cbn [combine mapM]. set (f := fun u v => peval (P t) (u * fst a + v * fst b + (1 - u - v) * fst c) (u * snd a + v * snd b + (1 - u - v) * snd c)).
      rewrite (quad_sum_ws _ _ _ (fun l => f (l1 l) (l2 l))).
      2:{ intros l Hl. specialize (HB l Hl). rewrite (HF t a b c l (l1 l * fst a + l2 l * fst b + l3 l * fst c, l1 l * snd a + l2 l * snd b + l3 l * snd c)); [|left; reflexivity|exact K|unfold bary_of; cbn [fst snd]; auto].
          apply (f_equal Ok). unfold f. cbn [fst snd]. replace (l3 l) with (1 - l1 l - l2 l) by lra. reflexivity. }
      cbn [bind]. rewrite V2. cbn [bind]. apply (f_equal Ok). f_equal.
      change (weighted_sum (q_points q) (q_weights q) (fun l => f (l1 l) (l2 l))) with (rule_value q f).
      rewrite (exact_is_poly q d f HE) by (apply tri_poly, is_poly_peval, HD; left; reflexivity).
      unfold triangle_integral, area, signed_area. fold f. cbn [nmul RNum]. unfold Rdiv. rewrite Rabs_mult, (Rabs_right (/ 2)) by lra. field. }
  destruct K as [values [K1 K2]]. exists values. split; [exact K1|]. rewrite K2. cbn [bind]. rewrite nsum_Rsum. apply (f_equal Ok). clear. induction values as [|v vs IH]; cbn; [reflexivity|rewrite IH; reflexivity].
Qed.
Print Assumptions C38_exact.
Lemma Forall2_app_ {A B} (R : A -> B -> Prop) l1 l2 r1 r2 : Forall2 R l1 r1 -> Forall2 R l2 r2 -> Forall2 R (l1 ++ l2) (r1 ++ r2).
Proof. intros H K. induction H; [exact K|constructor; assumption]. Qed.
Lemma Forall2_maps {A B C} (R : B -> C -> Prop) (f : A -> B) (g : A -> C) l : (forall x, In x l -> R (f x) (g x)) -> Forall2 R (map f l) (map g l).
Proof. induction l as [|x l IH]; intros H; constructor; [apply H; left; reflexivity|apply IH; intros; apply H; right; assumption]. Qed.
Lemma Forall2_flat_maps {A B C} (R : B -> C -> Prop) (f : A -> list B) (g : A -> list C) l : (forall x, In x l -> Forall2 R (f x) (g x)) -> Forall2 R (flat_map f l) (flat_map g l).
Proof. induction l as [|x l IH]; intros H; [constructor|]. cbn. apply Forall2_app_; [apply H; left; reflexivity|apply IH; intros; apply H; right; assumption]. Qed.
Lemma Forall2_det {A B} (R : A -> B -> Prop) l r r' : (forall x y y', R x y -> R x y' -> y = y') -> Forall2 R l r -> Forall2 R l r' -> r = r'.
Proof. intros D H. revert r'. induction H; intros r' H'; inversion H'; subst; [reflexivity|]. f_equal; eauto. Qed.
Lemma sum_over_Rsum l : sum_over (fun v => v) l = Rsum l.
Proof. induction l as [|v vs IH]; cbn; [reflexivity|rewrite IH; reflexivity]. Qed.
Lemma corners_det points t a b c a' b' c' : corners points t a b c -> corners points t a' b' c' -> a = a' /\ b = b' /\ c = c'.
Proof. destruct t as [[i j] k], a, b, c, a', b', c'. unfold corners, vec. cbn [fst snd]. intros [A [B C]] [A' [B' C']]. rewrite A in A'. rewrite B in B'. rewrite C in C'. injection A' as -> ->. injection B' as -> ->. injection C' as -> ->. auto. Qed.
Lemma corners_at g t a b c : corners (g_points g) t a b c -> In t (g_triangles g) -> triangle_at g t a b c.
Proof. destruct t as [[i j] k]. unfold corners, triangle_at, point_at, vec. tauto. Qed.
Lemma at_corners g t a b c : triangle_at g t a b c -> corners (g_points g) t a b c.
Proof. destruct t as [[i j] k]. unfold corners, triangle_at, point_at, vec. tauto. Qed.
(** On the grid of a rectangle: the integrator applied to a polynomial of degree [d] returns its integral over the rectangle. *)
Theorem C38_rectangle : forall so w h f s m n g weights rpoints (q : rule R) d I (P : poly2) F,
  0 < s -> fits w s m -> fits h s n -> domain_grid so w h f s = Ok g ->
  TriangleQuadratureRule_ weights rpoints = Ok q -> exact_to q d -> Integrator_ q (g_triangles g) (g_points g) = Ok I ->
  degree_le d P ->
  (forall t a b c l x, triangle_at g t a b c -> bary_of a b c l x -> F t l = Ok (peval P (fst x) (snd x))) ->
  integrate I F = Ok (rectangle_integral (INR m * s) (INR n * s) (peval P)).
Proof.
  intros so w h f s m n g weights rpoints q d I P F Hs Hm Hn H Hq HE HI HD HF. pose proof (grid_spec _ _ _ _ _ _ _ _ Hs Hm Hn H) as G.
  destruct (C38_exact weights rpoints q d (g_triangles g) (g_points g) I (fun _ => P) F Hq HE HI (fun _ _ => HD)) as [values [V ->]].
  { intros t a b c l x Ht K B. apply (HF t a b c l x (corners_at _ _ _ _ _ K Ht) B). }
  apply (f_equal Ok). rewrite sum_over_Rsum.
  set (A := GridCover.P s).
  set (lo := fun i j => triangle_integral (A i j) (A (i + 1)%nat j) (A (i + 1)%nat (j + 1)%nat) (peval P)).
  set (up := fun i j => triangle_integral (A (i + 1)%nat (j + 1)%nat) (A i (j + 1)%nat) (A i j) (peval P)).
  assert (E : values = flat_map (fun i => map (fun j => lo i j) (range n)) (range m) ++ flat_map (fun i => map (fun j => up i j) (range n)) (range m)).
  { apply (Forall2_det (fun t v => exists a b c, corners (g_points g) t a b c /\ v = triangle_integral a b c (peval P)) (g_triangles g)).
    - intros t v v' [a [b [c [K ->]]]] [a' [b' [c' [K' ->]]]]. destruct (corners_det _ _ _ _ _ _ _ _ K K') as [-> [-> ->]]. reflexivity.
    - exact V.
    - rewrite (rs_t _ _ _ _ _ _ G). unfold rg_triangles, lower_triangles, upper_triangles. replace (S m - 1)%nat with m by lia. replace (S n - 1)%nat with n by lia.
      apply Forall2_app_; apply Forall2_flat_maps; intros i Hi; apply Forall2_maps; intros j Hj; apply in_range in Hi, Hj; do 3 eexists; (split; [apply at_corners, (triangle_at_iff g so m n f s G); exists i, j; split; [exact Hi|]; split; [exact Hj|]|]).
      + left. unfold lower_tri. auto.
      + reflexivity.
      + right. unfold upper_tri. auto.
      + reflexivity. }
  assert (HP : is_poly d (peval P)) by (apply is_poly_peval, HD).
  rewrite E, Rsum_app, !Rsum_flat_map, <- Rsum_map_plus, <- (cells_sum d) by exact HP. apply Rsum_map_ext. intros i _. rewrite <- Rsum_map_plus. apply Rsum_map_ext. intros j _.
  rewrite <- (cell_halves d) by exact HP. unfold lo, up, triangle_integral, A, GridCover.P. cbn [fst snd].
  replace (Rabs _) with (s * s). replace (Rabs _) with (s * s).
  - f_equal; f_equal; apply reference_ext; intros u v; rewrite !plus_INR; cbn [INR]; f_equal; ring.
  - unfold cross. cbn [fst snd]. rewrite !plus_INR. cbn [INR]. rewrite <- (Rabs_right (s * s)) by nra. f_equal. ring.
  - unfold cross. cbn [fst snd]. rewrite !plus_INR. cbn [INR]. rewrite <- (Rabs_right (s * s)) by nra. f_equal. ring.
Qed.
Print Assumptions C38_rectangle.
(** DUNAVANT2 on a grid of 2 x 1 cells of size 1/2 and the integrand x y. *)
Example C38_example : exists g q I F, domain_grid std_order (12/10) (9/10) FixNone (1/2) = Ok g /\ DUNAVANT2 = Ok q /\
  Integrator_ q (g_triangles g) (g_points g) = Ok I /\ integrate I F = Ok (1 / 16).
Proof.
  destruct (C11_grid_succeeds std_order (12/10) (9/10) FixNone (1/2)) as [m [n [g [_ [_ Hg]]]]]; try lra.
  pose proof (grid_spec _ _ _ _ _ _ _ _ ex_pos ex_fits_w ex_fits_h Hg) as G.
  destruct C34_dunavant2 as [q [Hq Eq]].
  destruct (C38_areas q (g_triangles g) (g_points g)) as [I [HI _]].
  { intros t Ht. destruct (triangle_at_ex g std_order 2 1 FixNone (1/2) G t Ht) as [a [b [c K]]]. exists a, b, c. apply at_corners, K. }
  set (pt := fun v => match nth_error (g_points g) v with Some p => (nth 0 p 0, nth 1 p 0) | None => (0, 0) end).
  set (F := fun (t : triangle) (l : bary R) => let '(i, j, k) := t in
     Ok (peval [(1, (1, 1)%nat)] (l1 l * fst (pt i) + l2 l * fst (pt j) + l3 l * fst (pt k)) (l1 l * snd (pt i) + l2 l * snd (pt j) + l3 l * snd (pt k)))).
  exists g, q, I, F. split; [exact Hg|]. split; [exact Hq|]. split; [exact HI|].
  unfold DUNAVANT2 in Hq. revert Hq. third. intros Hq.
  rewrite (C38_rectangle _ _ _ _ _ _ _ _ _ _ q 2 I [(1, (1, 1)%nat)] F ex_pos ex_fits_w ex_fits_h Hg Hq Eq HI).
  - apply (f_equal Ok). unfold rectangle_integral. rewrite (RInt_ext _ (fun x => 1/8 * x ^ 1)).
    + rewrite RInt_scal_R by (apply ex_RInt_cont; intros; auto_derive; exact Logic.I). rewrite RInt_pow_. cbn. field.
    + intros x _. rewrite RInt_from0. cbn. field.
  - intros c i j [E|[]]. injection E as <- <- <-. lia.
  - intros [[i j] k] a b c l x [_ [A [B C]]] [_ [X Y]]. unfold F, pt. rewrite A, B, C. cbn [nth fst snd]. rewrite X, Y. reflexivity.
Qed.

(** ** C39 *)
Lemma edge_length_dist points e p q : ends points e p q -> edge_length points e = Ok (dist p q).
Proof. destruct e as [a b], p as [x y], q as [x' y']. intros [A B]. apply edge_length_pts; assumption. Qed.
Lemma boundary_integrator_inv leggauss degree edges points I : BoundaryIntegrator_ leggauss degree edges points = Ok I ->
  exists ps ws lens, GaussQuadratureRule_ leggauss degree = Ok (ps, ws) /\ mapM (edge_length points) edges = Ok lens /\ I = mkBoundaryIntegrator ps ws lens edges.
Proof. unfold BoundaryIntegrator_. intros H. apply bind_ok in H as [[ps ws] [E H]]. apply bind_ok in H as [lens [E2 H]]. injection H as <-. exists ps, ws, lens. auto. Qed.
(** The boundary integrator can be built whenever the edges refer to points of the plane and numpy delivers the rule;
    it stores the length of every edge. *)
Theorem C39_lengths : forall leggauss degree ps ws edges points, GaussQuadratureRule_ leggauss degree = Ok (ps, ws) ->
  (forall e, In e edges -> exists p q, ends points e p q) ->
  exists I, BoundaryIntegrator_ leggauss degree edges points = Ok I /\ bi_edges I = edges /\ bi_points I = ps /\ bi_weights I = ws /\
    Forall2 (fun e l => exists p q, ends points e p q /\ l = dist p q) edges (bi_lengths I).
Proof.
  intros lg degree ps ws edges points HG H. unfold BoundaryIntegrator_. rewrite HG. cbn [bind].
  assert (E : exists ls, mapM (edge_length points) edges = Ok ls /\ Forall2 (fun e l => exists p q, ends points e p q /\ l = dist p q) edges ls).
  { clear HG. induction edges as [|e es IH]; [exists []; split; constructor|]. destruct (H e (or_introl eq_refl)) as [p [q K]]. destruct IH as [ls [E1 E2]]; [intros; apply H; right; assumption|].
    exists (dist p q :: ls). split; [cbn [mapM]; rewrite (edge_length_dist _ _ _ _ K), E1; reflexivity|]. constructor; [exists p, q; auto|exact E2]. }
  destruct E as [ls [E1 E2]]. rewrite E1. eexists. split; [reflexivity|]. auto.
Qed.
Print Assumptions C39_lengths.
Theorem C39_linear : forall (I : boundary_integrator R) F G al be a b, boundary_integrate I F = Ok a -> boundary_integrate I G = Ok b ->
  boundary_integrate I (combine_integrands al be F G) = Ok (al * a + be * b).
Proof.
  intros I F G al be a b. unfold boundary_integrate. apply lin_sum. intros [ar t] y z Hy Hz. apply bind_ok in Hy as [v [Ev Hy]]. apply bind_ok in Hz as [v' [Ev' Hz]]. injection Hy as <-. injection Hz as <-.
  unfold combine_integrands. rewrite (quad_sum_lin _ _ _ al be _ _ Ev Ev'). cbn. apply (f_equal Ok). ring.
Qed.
Print Assumptions C39_linear.
(** With a rule exact to degree [d], functions that are polynomials of degree [d] in the edge parameter are integrated exactly. *)
Theorem C39_exact : forall leggauss degree ps ws d edges points I (P : edge -> list R) F,
  leggauss degree = Ok (ps, ws) -> exact1 ps ws (-1) 1 d -> (forall x, In x ps -> -1 <= x <= 1) -> length ps = length ws ->
  (forall e, In e edges -> exists p q, ends points e p q) ->
  BoundaryIntegrator_ leggauss degree edges points = Ok I ->
  (forall e, In e edges -> (length (P e) <= d + 1)%nat) ->
  (forall e t, In e edges -> 0 <= t <= 1 -> F e t = Ok (peval1 (P e) t)) ->
  exists values, Forall2 (fun e v => exists p q, ends points e p q /\ v = segment_integral p q (peval1 (P e))) edges values /\
    boundary_integrate I F = Ok (sum_over (fun v => v) values).
Proof.
  intros lg degree ps ws d edges points I P F HL HX HP L HE HI HD HF.
  destruct (C37_transplanted lg degree ps ws d HL HX HP L) as [ps' [ws' [G [X [B _]]]]].
  apply boundary_integrator_inv in HI as [ps'' [ws'' [lens [G' [E ->]]]]]. rewrite G in G'. injection G' as <- <-.
  unfold boundary_integrate. cbn [bi_points bi_weights bi_lengths bi_edges].
  assert (K : exists values, Forall2 (fun e v => exists p q, ends points e p q /\ v = segment_integral p q (peval1 (P e))) edges values /\
    mapM (fun '(len, e) => let* s := quad_sum (zip ps' ws') (F e) in Ok (nmul len s)) (zip lens edges) = Ok values).
  { revert lens E. induction edges as [|e es IH]; intros lens E.
    - cbn in E. injection E as <-. exists []. split; [constructor|reflexivity].
    - cbn [mapM] in E. apply bind_ok in E as [y [Ey E]]. apply bind_ok in E as [ys [Eys E]]. injection E as <-.
      destruct (IH (fun t Ht => HE t (or_intror Ht)) (fun t Ht => HD t (or_intror Ht)) (fun e t Ht => HF e t (or_intror Ht)) ys Eys) as [vs [V1 V2]].
      destruct (HE e (or_introl eq_refl)) as [p [q K]]. rewrite (edge_length_dist _ _ _ _ K) in Ey. injection Ey as <-.
      exists (segment_integral p q (peval1 (P e)) :: vs). split; [constructor; [exists p, q; auto|exact V1]|].
      unfold zip in *. cbn [combine mapM]. rewrite (quad_sum_ws _ _ _ (peval1 (P e))) by (intros t Ht; apply HF; [left; reflexivity|apply B, Ht]).
      cbn [bind]. rewrite V2. cbn [bind]. rewrite X by (apply HD; left; reflexivity). reflexivity. }
  destruct K as [values [K1 K2]]. exists values. split; [exact K1|]. rewrite K2. cbn [bind]. rewrite nsum_Rsum, sum_over_Rsum. reflexivity.
Qed.
Print Assumptions C39_exact.
(** The degree used by the simulation is 1: numpy's one-point rule is the midpoint 0 with weight 2. *)
Theorem C39_degree_one_affine : forall leggauss edges points I (al be : edge -> R) F,
  leggauss 1%Z = Ok ([0], [2]) -> (forall e, In e edges -> exists p q, ends points e p q) ->
  BoundaryIntegrator_ leggauss 1 edges points = Ok I ->
  (forall e t, In e edges -> 0 <= t <= 1 -> F e t = Ok (al e + be e * t)) ->
  exists values, Forall2 (fun e v => exists p q, ends points e p q /\ v = dist p q * (al e + be e / 2) /\ v = segment_integral p q (fun t => al e + be e * t)) edges values /\
    boundary_integrate I F = Ok (sum_over (fun v => v) values).
Proof.
  intros lg edges points I al be F HL HE HI HF.
  destruct (C39_exact lg 1 [0] [2] 1 edges points I (fun e => [al e; be e]) F HL gauss1) as [values [V E]]; try assumption; try reflexivity.
  - intros x [<-|[]]; lra.
  - intros e t He Ht. rewrite HF by assumption. apply (f_equal Ok). cbn. ring.
  - exists values. split; [|exact E]. clear - V. induction V as [|e v es vs [p [q [K ->]]] V IH]; constructor; [|exact IH].
    exists p, q. split; [exact K|]. assert (Q : segment_integral p q (peval1 [al e; be e]) = segment_integral p q (fun t => al e + be e * t)).
    { unfold segment_integral. f_equal. apply RInt_ext. intros. cbn. ring. }
    split; [|exact Q]. unfold segment_integral. rewrite RInt_peval1. cbn. field.
Qed.
Print Assumptions C39_degree_one_affine.
(** Constants: the total length times the constant, for every rule exact for constants. *)
Theorem C39_constant : forall leggauss degree ps ws edges points I c,
  leggauss degree = Ok (ps, ws) -> exact1 ps ws (-1) 1 0 -> (forall x, In x ps -> -1 <= x <= 1) -> length ps = length ws ->
  BoundaryIntegrator_ leggauss degree edges points = Ok I ->
  boundary_integrate I (fun _ _ => Ok c) = Ok (c * sum_over (fun l => l) (bi_lengths I)).
Proof.
  intros lg degree ps ws edges points I c HL HX HP L HI.
  destruct (C37_transplanted lg degree ps ws 0 HL HX HP L) as [ps' [ws' [G [X [B [W [L1 L2]]]]]]].
  apply boundary_integrator_inv in HI as [ps'' [ws'' [lens [G' [E ->]]]]]. rewrite G in G'. injection G' as <- <-.
  rewrite (boundary_integrate_ws _ _ (fun _ _ => c)) by (cbn; (apply (mapM_length _ _ _ E) || reflexivity)). cbn [bi_points bi_weights bi_lengths bi_edges]. apply (f_equal Ok).
  rewrite (weighted_sum_const edges lens), (weighted_sum_const ps' ws' c), (ws_one edges lens) by apply (mapM_length _ _ _ E).
  rewrite (ws_one ps') by congruence. rewrite W. ring.
Qed.
Print Assumptions C39_constant.
(** The one-point rule is not exact for squares: one edge of length 1, integrand t^2. *)
Theorem C39_degree_one_not_exact_for_squares : forall leggauss, leggauss 1%Z = Ok ([0], [2]) ->
  exists I, BoundaryIntegrator_ leggauss 1 [(0, 1)%nat] [[0; 0]; [1; 0]] = Ok I /\
    boundary_integrate I (fun _ t => Ok (t * t)) = Ok (1 / 4) /\ segment_integral (0, 0) (1, 0) (fun t => t * t) = 1 / 3.
Proof.
  intros lg HL. assert (G : GaussQuadratureRule_ lg 1 = Ok ([(1 + 0) / 2], [2 / 2])).
  { unfold GaussQuadratureRule_. rewrite HL. cbn [bind mapM]. change (@n1 R RNum) with 1. change (@nofZ R RNum) with IZR. rewrite !ndiv_R by lra. reflexivity. }
  assert (K : ends [[0; 0]; [1; 0]] (0, 1)%nat (0, 0) (1, 0)) by (split; reflexivity).
  assert (D : dist (0, 0) (1, 0) = 1) by (unfold dist; cbn [fst snd]; replace ((0 - 1) * (0 - 1) + (0 - 0) * (0 - 0)) with 1 by ring; apply sqrt_1).
  eexists. split; [|split].
  - unfold BoundaryIntegrator_. rewrite G. cbn [bind mapM]. rewrite (edge_length_dist _ _ _ _ K), D. reflexivity.
  - rewrite (boundary_integrate_ws _ _ (fun _ t => t * t)) by reflexivity. cbn [bi_points bi_weights bi_lengths bi_edges weighted_sum]. apply (f_equal Ok). field.
  - unfold segment_integral. rewrite D, (RInt_ext _ (fun t => t ^ 2)) by (intros; cbn; ring). rewrite RInt_pow_. cbn. field.
Qed.
Print Assumptions C39_degree_one_not_exact_for_squares.
Example C39_example : exists I, BoundaryIntegrator_ (fun _ => Ok ([0], [2])) 1 [(0, 1)%nat; (1, 2)%nat] [[0; 0]; [3; 4]; [3; 5]] = Ok I /\
  boundary_integrate I (fun e t => Ok (2 + INR (fst e) * t)) = Ok (10 + 5 / 2).
Proof.
  assert (H : forall e, In e [(0, 1)%nat; (1, 2)%nat] -> exists p q, ends [[0; 0]; [3; 4]; [3; 5]] e p q).
  { intros e [<-|[<-|[]]]; [exists (0, 0), (3, 4)|exists (3, 4), (3, 5)]; split; reflexivity. }
  destruct (C37_transplanted (fun _ => Ok ([0], [2])) 1 [0] [2] 1 eq_refl gauss1) as [ps [ws [G _]]]; [intros x [<-|[]]; lra|reflexivity|].
  destruct (C39_lengths (fun _ => Ok ([0], [2])) 1 ps ws _ _ G H) as [I [HI _]]. exists I. split; [exact HI|].
  destruct (C39_degree_one_affine (fun _ => Ok ([0], [2])) _ _ I (fun _ => 2) (fun e => INR (fst e)) _ eq_refl H HI (fun _ _ _ _ => eq_refl)) as [vs [V ->]].
  apply (f_equal Ok). inversion V as [|e1 v1 es1 vs1 [p [q [K [E _]]]] V1 Q1 Q2]; subst. inversion V1 as [|e2 v2 es2 vs2 [p' [q' [K' [E' _]]]] V2 Q1 Q2]; subst. inversion V2; subst. cbn [sum_over fst snd INR].
  destruct K as [K1 K2], K' as [K1' K2']. cbn in K1, K2, K1', K2'. unfold vec in *. destruct p, q, p', q'. cbn [fst snd] in *.
  injection K1 as <- <-. injection K2 as <- <-. injection K1' as <- <-. injection K2' as <- <-.
  unfold dist. cbn [fst snd]. replace ((0 - 3) * (0 - 3) + (0 - 4) * (0 - 4)) with (5 * 5) by ring. replace ((3 - 3) * (3 - 3) + (4 - 5) * (4 - 5)) with (1 * 1) by ring. rewrite !sqrt_square by lra. field.
Qed.
