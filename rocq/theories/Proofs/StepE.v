(** * Energies: definedness of integrals, strains of P1 deformations. *)
From Coq Require Import Reals Lra Lia List ZArith Classical_Prop.
From Verif.Spec Require Import GridSpec QuadSpec RefineSpec PotentialSpec.
From Verif.Model Require Import Py Num Tensors Domain Refine Quadrature Integrators Bell Interp Helpers Steps.
From Verif.Spec Require Import EnergySpec StepSpec.
From Verif.Proofs Require Import Lib InterpP PotP StepP StepD SimP SimL HatP StepU.
From Verif.Props Require Import InterpProps QuadProps IntegProps.
Local Open Scope R_scope.
Import ListNotations.

Lemma mapM_err {A B} (f : A -> res B) l e : (forall a, In a l -> (exists b, f a = Ok b) \/ f a = Err e) -> (exists r, mapM f l = Ok r) \/ mapM f l = Err e.
Proof.
  induction l as [|a l IH]; intros H; [left; exists []; reflexivity|]. cbn [mapM]. destruct (H a (or_introl eq_refl)) as [[b ->]| ->]; [|right; reflexivity]. cbn [bind].
  destruct (IH (fun x Hx => H x (or_intror Hx))) as [[r ->]| ->]; [left; eexists; reflexivity|right; reflexivity].
Qed.
Lemma in_zip_l {A B} (l : list A) (l' : list B) : length l = length l' -> forall a, In a l -> exists b, In (a, b) (zip l l').
Proof. revert l'. induction l as [|x l IH]; intros [|y l'] L a H; try discriminate; [destruct H|]. destruct H as [<- |H]; [exists y; left; reflexivity|]. injection L as L. destruct (IH l' L a H) as [b Hb]. exists b. right. exact Hb. Qed.
Lemma in_zip_r {A B} (l : list A) (l' : list B) : length l = length l' -> forall b, In b l' -> exists a, In (a, b) (zip l l').
Proof. revert l'. induction l as [|x l IH]; intros [|y l'] L b H; try discriminate; [destruct H|]. destruct H as [<- |H]; [exists x; left; reflexivity|]. injection L as L. destruct (IH l' L b H) as [a Ha]. exists a. right. exact Ha. Qed.
Lemma mapM_all {A B} (f : A -> res B) l r : mapM f l = Ok r -> forall a, In a l -> exists b, f a = Ok b.
Proof. revert r. induction l as [|x l IH]; intros r H a Ha; [destruct Ha|]. cbn [mapM] in H. apply bind_ok in H as [b [Hb H]]. apply bind_ok in H as [bs [Bs _]]. destruct Ha as [<- |Ha]; [exists b; exact Hb|exact (IH bs Bs a Ha)]. Qed.

Section I.
Context (q : rule R) (ts : list triangle) (pts : list (vector R)) (I : integrator R) (HI : Integrator_ q ts pts = Ok I) (LQ : length (q_points q) = length (q_weights q)).
Lemma integ_fields : i_quad I = q /\ i_triangles I = ts /\ length (i_areas I) = length ts.
Proof. unfold Integrator_ in HI. pose proof HI as H. apply bind_ok in H as [l [E H]]. injection H as <-. cbn. rewrite (mapM_length _ _ _ E). auto. Qed.
Lemma integrate_def F e : (forall t p, In t ts -> In p (q_points q) -> (exists v, F t p = Ok v) \/ F t p = Err e) -> (exists v, integrate I F = Ok v) \/ integrate I F = Err e.
Proof.
  intros H. destruct integ_fields as (E1 & E2 & E3). unfold integrate. rewrite E1, E2.
  match goal with |- context [mapM ?f ?l] => destruct (mapM_err f l e) as [[r ->]| ->] end; [|left; eexists; reflexivity|right; reflexivity].
  intros [ar t] Ht. pose proof (in_combine_r _ _ _ _ Ht) as Ht'. unfold quad_sum.
  match goal with |- context [mapM ?f ?l] => destruct (mapM_err f l e) as [[r ->]| ->] end; [|left; eexists; reflexivity|right; reflexivity].
  intros [p w] Hp. pose proof (in_combine_l _ _ _ _ Hp) as Hp'. destruct (H t p Ht' Hp') as [[v ->]| ->]; [left; eexists; reflexivity|right; reflexivity].
Qed.
Lemma integrate_total F : (forall t p, In t ts -> In p (q_points q) -> exists v, F t p = Ok v) -> exists v, integrate I F = Ok v.
Proof.
  intros H. destruct (integrate_def F ValueError) as [D|D]; [intros; left; auto|exact D|]. destruct (integrate_def F KeyError) as [D'|D']; [intros; left; auto|exact D'|]. congruence.
Qed.
Lemma integrate_all F v : integrate I F = Ok v -> forall t p, In t ts -> In p (q_points q) -> exists x, F t p = Ok x.
Proof.
  destruct integ_fields as (E1 & E2 & E3). intros H t p Ht Hp. unfold integrate in H. rewrite E1, E2 in H. apply bind_ok in H as [terms [H _]]. destruct (in_zip_r (i_areas I) ts E3 t Ht) as [ar Ha]. destruct (mapM_all _ _ _ H _ Ha) as [b B]. cbn beta iota in B.
  apply bind_ok in B as [s [B _]]. unfold quad_sum in B. apply bind_ok in B as [tt [B _]]. destruct (in_zip_l (q_points q) (q_weights q) LQ p Hp) as [w Hw]. destruct (mapM_all _ _ _ B _ Hw) as [z Z]. cbn beta iota in Z. apply bind_ok in Z as [x [X _]]. exists x. exact X.
Qed.
End I.

(** Strain of a P1 deformation. *)
Section P1.
Context (g : grid R) (s : R) (m n : nat) (Hs : 0 < s) (M : mesh g s m n).
Context (y1 y2 : list R) (L1 : length y1 = length (g_vertices g)) (L2 : length y2 = length (g_vertices g)).
Lemma triangle_values t p q r : triangle_at g t p q r -> let '(a, b, c) := t in exists P Q Z, nth_error y1 a = Some (fst P) /\ nth_error y2 a = Some (snd P) /\
    nth_error y1 b = Some (fst Q) /\ nth_error y2 b = Some (snd Q) /\ nth_error y1 c = Some (fst Z) /\ nth_error y2 c = Some (snd Z).
Proof.
  intros T. pose proof (mesh_params g s m n y1 t p q r M L1 T) as U. pose proof (mesh_params g s m n y2 t p q r M L2 T) as V. destruct t as [[a b] c].
  destruct U as (u1 & u2 & u3 & U1 & U2 & U3). destruct V as (v1 & v2 & v3 & V1 & V2 & V3). exists (u1, v1), (u2, v2), (u3, v3). auto 10.
Qed.
Lemma strain_value a b c p q r P Q Z : triangle_at g (a, b, c) p q r -> nth_error y1 a = Some (fst P) -> nth_error y2 a = Some (snd P) ->
    nth_error y1 b = Some (fst Q) -> nth_error y2 b = Some (snd Q) -> nth_error y1 c = Some (fst Z) -> nth_error y2 c = Some (snd Z) ->
  exists F, (forall L, deform_strain (P1I g y1) (P1I g y2) (a, b, c) L = Ok (mat F)) /\ det2 F = cross P Q Z / (s * s) /\
    (forall A11 A12 A21 A22 b1 b2, P = (A11 * fst p + A12 * snd p + b1, A21 * fst p + A22 * snd p + b2) -> Q = (A11 * fst q + A12 * snd q + b1, A21 * fst q + A22 * snd q + b2) -> Z = (A11 * fst r + A12 * snd r + b1, A21 * fst r + A22 * snd r + b2) -> F = PotentialSpec.st A11 A12 A21 A22).
Proof.
  intros T A1 A2 B1 B2 C1 C2. pose proof (mesh_cross g s m n M _ _ _ _ T) as C. assert (C0 : cross p q r <> 0) by (rewrite C; nra).
  eexists (PotentialSpec.st _ _ _ _). split.
  - intros L. unfold deform_strain. destruct (P1_calls g y1 a b c p q r _ _ _ L T A1 B1 C1) as [_ G1]. destruct (P1_calls g y2 a b c p q r _ _ _ L T A2 B2 C2) as [_ G2]. rewrite (G1 C0), (G2 C0). cbn [bind]. reflexivity.
  - assert (K2 : forall x y z w v d, d <> 0 -> x * y - z * w = v * d -> x / d * (y / d) - z / d * (w / d) = v / d) by (intros x y z w v d D E; apply (Rmult_eq_reg_r (d * d)); [|nra]; transitivity (x * y - z * w); [field; exact D|rewrite E; field; exact D]).
    split.
    + unfold det2, PotentialSpec.st. cbn [f11 f12 f21 f22]. rewrite <- C. apply K2; [exact C0|]. unfold cross. ring.
    + intros A11 A12 A21 A22 b1 b2 -> -> ->. cbn [fst snd]. unfold PotentialSpec.st. assert (K : forall x y, x = y * cross p q r -> x / cross p q r = y) by (intros x y ->; field; exact C0). f_equal; apply K; unfold cross; ring.
Qed.
End P1.

(** The quadrature rules of the unregularized problems. *)
Lemma rule_inv weights points (r : rule R) : TriangleQuadratureRule_ weights points = Ok r -> r = mkRule weights (map (fun p => Bary (fst p) (snd p)) points).
Proof. unfold TriangleQuadratureRule_. destruct (existsb _ _); [discriminate|]. destruct (isclose _ _); cbn [negb]; [|discriminate]. intros H. injection H as <-. reflexivity. Qed.
Definition good_rule (q : rule R) : Prop := length (q_points q) = length (q_weights q) /\ q_points q <> [] /\ forall p, In p (q_points q) -> l1 p + l2 p + l3 p = 1.
Lemma rule_good weights points (r : rule R) : TriangleQuadratureRule_ weights points = Ok r -> length points = length weights -> points <> [] -> good_rule r.
Proof.
  intros H L NE. rewrite (rule_inv _ _ _ H). split; [cbn; rewrite map_length; exact L|]. split; [cbn; destruct points; [congruence|discriminate]|]. intros p Hp. cbn in Hp. apply in_map_iff in Hp as [z [<- _]]. unfold Bary, l1, l2, l3. cbn. ring.
Qed.
Lemma dun2_good : exists q : rule R, DUNAVANT2 = Ok q /\ exact_to q 2 /\ good_rule q.
Proof.
  destruct QuadProps.C34_dunavant2 as [q [E X]]. exists q. split; [exact E|]. split; [exact X|]. unfold DUNAVANT2 in E. apply bind_ok in E as [a [_ E]]. apply bind_ok in E as [b [_ E]]. apply bind_ok in E as [c [_ E]]. eapply rule_good; [exact E|reflexivity|discriminate].
Qed.
Lemma cent_good : exists q : rule R, CENTROID = Ok q /\ exact_to q 1 /\ good_rule q.
Proof.
  destruct QuadProps.C34_centroid as [q [E X]]. exists q. split; [exact E|]. split; [exact X|]. unfold CENTROID in E. apply bind_ok in E as [a [_ E]]. eapply rule_good; [exact E|reflexivity|discriminate].
Qed.

(** Definedness of the parts of the objective. *)
Section Plain.
Context (m : mech) (s : R) (a b : nat) (Hs : 0 < s) (M : mesh (ms_grid m) s a b) (PL : ms_refined m = None).
Let g := ms_grid m.
Let N := length (g_vertices g).
Context (LT : length (ms_prev_theta m) = N) (LP1 : length (ms_prev_y1 m) = N) (LP2 : length (ms_prev_y2 m) = N).
Lemma mesh_integrator (q : rule R) : exists I, Integrator_ q (g_triangles g) (g_points g) = Ok I.
Proof.
  destruct (IntegProps.C38_areas q (g_triangles g) (g_points g)) as [I [E _]]; [|exists I; exact E]. intros t Ht. destruct (mesh_triangle_at g s a b M t Ht) as (p & q0 & r & T). exists p, q0, r. destruct t as [[x y] z]. exact (proj2 T).
Qed.
Context (y1 y2 : list R) (L1 : length y1 = N) (L2 : length y2 = N).
Lemma elastic_defined : (keeps_orientation g y1 y2 -> exists E, mech_elastic_energy m y1 y2 = Ok E) /\ (~ keeps_orientation g y1 y2 -> mech_elastic_energy m y1 y2 = Err ValueError).
Proof.
  unfold mech_elastic_energy. rewrite PL. destruct dun2_good as (q & -> & _ & LQ & NE & _). cbn [bind theta_grid]. fold g. destruct (mesh_integrator q) as [I EI]. rewrite EI. cbn [bind].
  assert (K : forall t p, In t (g_triangles g) -> (positive_triangle y1 y2 t -> exists v, (let* F := deform_strain (comp_interp g None y1) (comp_interp g None y2) t p in let* th := i_call (temp_interp g None (ms_prev_theta m)) t p in total_elastic_potential F th) = Ok v) /\
     (~ positive_triangle y1 y2 t -> (let* F := deform_strain (comp_interp g None y1) (comp_interp g None y2) t p in let* th := i_call (temp_interp g None (ms_prev_theta m)) t p in total_elastic_potential F th) = Err ValueError)).
  { intros t p Ht. destruct (mesh_triangle_at g s a b M t Ht) as (x & y & z & T). pose proof (triangle_values g s a b M y1 y2 L1 L2 t x y z T) as V. destruct t as [[i j] k]. destruct V as (P & Q & Z & A1 & A2 & B1 & B2 & C1 & C2).
    destruct (strain_value g s a b Hs M y1 y2 i j k x y z P Q Z T A1 A2 B1 B2 C1 C2) as (F & EF & DF & _). change (temp_interp g None (ms_prev_theta m)) with (P1I g (ms_prev_theta m)). cbn [comp_interp]. rewrite EF. cbn [bind].
    pose proof (mesh_params g s a b (ms_prev_theta m) (i, j, k) x y z M LT T) as (u1 & u2 & u3 & U1 & U2 & U3). destruct (P1_calls g (ms_prev_theta m) i j k x y z _ _ _ p T U1 U2 U3) as [-> _]. cbn [bind].
    assert (SS : 0 < s * s) by nra. assert (DET : 0 < det2 F <-> 0 < cross P Q Z). { rewrite DF. split; intros D; [apply (Rmult_lt_compat_r (s * s)) in D; [|exact SS]; rewrite Rmult_0_l in D; replace (cross P Q Z / (s * s) * (s * s)) with (cross P Q Z) in D by (field; lra); exact D|apply Rdiv_lt_0_compat; assumption]. }
    assert (PP : positive_triangle y1 y2 (i, j, k) <-> 0 < cross P Q Z).
    { split; [intros (P' & Q' & Z' & X1 & X2 & X3 & X4 & X5 & X6 & D)|intros D; exists P, Q, Z; auto 10]. assert (P' = P) as <- by (destruct P', P; cbn in *; congruence). assert (Q' = Q) as <- by (destruct Q', Q; cbn in *; congruence). assert (Z' = Z) as <- by (destruct Z', Z; cbn in *; congruence). exact D. }
    rewrite PP, <- DET. unfold total_elastic_potential. rewrite frac_value. cbn [bind]. split; intros D.
    - rewrite (aus_value F D), (mar_value F) by lra. cbn [bind]. eexists. reflexivity.
    - rewrite (aus_fail F) by lra. reflexivity. }
  split; intros KO.
  - apply (integrate_total _ _ _ _ EI). intros t p Ht Hp. apply K; [exact Ht|apply KO, Ht].
  - destruct (integrate_def _ _ _ _ EI (fun t b0 => let* F := deform_strain (comp_interp g None y1) (comp_interp g None y2) t b0 in let* th := i_call (temp_interp g None (ms_prev_theta m)) t b0 in total_elastic_potential F th) ValueError) as [[v D]|D]; [| |exact D].
    + intros t p Ht Hp. destruct (Classical_Prop.classic (positive_triangle y1 y2 t)) as [Y|Y]; [left|right]; apply K; assumption.
    + exfalso. apply KO. intros t Ht. destruct (Classical_Prop.classic (positive_triangle y1 y2 t)) as [Y|Y]; [exact Y|]. exfalso. destruct (q_points q) as [|p ps] eqn:EQ; [congruence|].
      assert (Hp : In p (q_points q)) by (rewrite EQ; left; reflexivity). rewrite <- EQ in LQ. destruct (integrate_all _ _ _ _ EI LQ _ _ D t p Ht Hp) as [x X]. pose proof (proj2 (K t p Ht) Y) as X'. cbv beta in X. congruence.
Qed.
Lemma dissipation_defined : exists D, mech_dissipation m y1 y2 = Ok D.
Proof.
  unfold mech_dissipation. rewrite PL. destruct cent_good as (q & -> & _). cbn [bind theta_grid]. fold g. destruct (mesh_integrator q) as [I EI]. rewrite EI. cbn [bind]. apply (integrate_total _ _ _ _ EI). intros t p Ht _. cbn [comp_interp].
  destruct (mesh_triangle_at g s a b M t Ht) as (x & y & z & T). pose proof (triangle_values g s a b M y1 y2 L1 L2 t x y z T) as V. pose proof (triangle_values g s a b M _ _ LP1 LP2 t x y z T) as W. destruct t as [[i j] k]. destruct V as (P & Q & Z & A1 & A2 & B1 & B2 & C1 & C2). destruct W as (P' & Q' & Z' & A1' & A2' & B1' & B2' & C1' & C2').
  destruct (strain_value g s a b Hs M y1 y2 i j k x y z P Q Z T A1 A2 B1 B2 C1 C2) as (F & EF & _). destruct (strain_value g s a b Hs M _ _ i j k x y z P' Q' Z' T A1' A2' B1' B2' C1' C2') as (F' & EF' & _).
  rewrite EF, EF'. cbn [bind]. rewrite dis_value. eexists. reflexivity.
Qed.
Context (G1 : map fst (ms_g1 m) = b_vertices (g_neumann g)) (G2 : map fst (ms_g2 m) = b_vertices (g_neumann g)).
Context (NE : forall e, In e (b_edges (g_neumann g)) -> In (fst e) (b_vertices (g_neumann g)) /\ In (snd e) (b_vertices (g_neumann g))) (NV : forall v, In v (b_vertices (g_neumann g)) -> In v (g_vertices g)).
Lemma dget_key (d : dict nat R) v : In v (map fst d) -> exists x, dget Nat.eqb v d = Ok x.
Proof.
  unfold dget. induction d as [|[k x] d IH]; intros H; [destruct H|]. cbn [dfind]. destruct (Nat.eqb v k) eqn:E; [exists x; reflexivity|]. destruct H as [H|H]; [cbn in H; subst; rewrite Nat.eqb_refl in E; discriminate|exact (IH H)].
Qed.
Lemma traction_defined lg pts ws : lg 1%Z = Ok (pts, ws) -> exists W, mech_traction_energy lg m y1 y2 = Ok W.
Proof.
  intros LG. unfold mech_traction_energy. fold g. unfold P1BoundaryInterpolation_. rewrite <- (map_length fst (ms_g1 m)), G1, Nat.eqb_refl, <- (map_length fst (ms_g2 m)), G2, Nat.eqb_refl. cbn [negb bind].
  assert (ENDS : forall v, In v (g_vertices g) -> exists p, nth_error (g_points g) v = Some (vec p) /\ exists u1 u2, nth_error y1 v = Some u1 /\ nth_error y2 v = Some u2).
  { intros v Hv. destruct (mesh_inside _ _ _ _ M v Hv) as (i & j & _ & _ & _ & E). exists (INR i * s, INR j * s). split; [exact E|]. assert (v < N)%nat. { unfold N. pose proof (mesh_numbers _ _ _ _ M) as Q. fold g in Q. rewrite Q in Hv |- *. rewrite seq_length. apply in_seq in Hv. lia. }
    destruct (nth_error y1 v) eqn:Y1; [|apply nth_error_None in Y1; lia]. destruct (nth_error y2 v) eqn:Y2; [|apply nth_error_None in Y2; lia]. eauto. }
  assert (GR : exists ps' ws', GaussQuadratureRule_ lg 1 = Ok (ps', ws')).
  { unfold GaussQuadratureRule_. rewrite LG. cbn [bind]. assert (N2 : forall x, @ndiv R _ x (nofZ 2) = Ok (x / 2)) by (intros x; change (nofZ 2) with (IZR 2); apply ndiv_R; lra).
    match goal with |- context [mapM ?f pts] => destruct (mapM_total f pts) as [l E1]; [intros x _; rewrite N2; eauto|]; rewrite E1 end. cbn [bind].
    match goal with |- context [mapM ?f ws] => destruct (mapM_total f ws) as [l' E2]; [intros x _; rewrite N2; eauto|]; rewrite E2 end. cbn [bind]. eauto. }
  destruct GR as (ps' & ws' & GR). destruct (IntegProps.C39_lengths lg 1 ps' ws' (b_edges (g_neumann g)) (g_points g) GR) as (I & EI & IE & _).
  { intros e He. destruct (NE e He) as [A B]. destruct (ENDS _ (NV _ A)) as (p & Ep & _). destruct (ENDS _ (NV _ B)) as (q & Eq & _). exists p, q. split; assumption. }
  rewrite EI. cbn [bind]. unfold boundary_integrate. rewrite IE.
  match goal with |- context [mapM ?f ?l] => destruct (mapM_total f l) as [r ->] end; [|eexists; reflexivity].
  intros [len e] He. apply in_combine_r in He. unfold quad_sum. match goal with |- context [mapM ?f ?l] => destruct (mapM_total f l) as [r ->] end; [|eexists; reflexivity].
  intros [p w] _. destruct (NE e He) as [A B]. unfold p1b_call, deform_on_edge. cbn [i_on_edge].
  destruct (dget_key (ms_g1 m) (fst e)) as [x1 X1]; [rewrite G1; exact A|]. destruct (dget_key (ms_g1 m) (snd e)) as [x2 X2]; [rewrite G1; exact B|]. destruct (dget_key (ms_g2 m) (fst e)) as [x3 X3]; [rewrite G2; exact A|]. destruct (dget_key (ms_g2 m) (snd e)) as [x4 X4]; [rewrite G2; exact B|].
  rewrite X1, X2, X3, X4. cbn [bind]. destruct (ENDS _ (NV _ A)) as (_ & _ & u1 & u2 & U1 & U2). destruct (ENDS _ (NV _ B)) as (_ & _ & v1 & v2 & V1 & V2). rewrite (nth_py _ _ _ U1), (nth_py _ _ _ U2), (nth_py _ _ _ V1), (nth_py _ _ _ V2). cbn [bind]. eexists. reflexivity.
Qed.
Lemma objective_defined lg pts ws : lg 1%Z = Ok (pts, ws) -> (keeps_orientation g y1 y2 -> exists J, mech_objective lg m y1 y2 = Ok J) /\ (~ keeps_orientation g y1 y2 -> mech_objective lg m y1 y2 = Err ValueError).
Proof.
  intros LG. destruct elastic_defined as [A B]. destruct dissipation_defined as [D ED]. destruct (traction_defined lg pts ws LG) as [W EW]. unfold mech_objective. rewrite PL. split; intros K.
  - destruct (A K) as [E ->]. cbn [bind]. rewrite ED. cbn [bind]. rewrite EW. cbn [bind]. eexists. reflexivity.
  - rewrite (B K). reflexivity.
Qed.
End Plain.

Lemma init_keys g f g1 g2 : init_traction g f = Ok (g1, g2) -> map fst g1 = b_vertices (g_neumann g) /\ map fst g2 = b_vertices (g_neumann g).
Proof.
  intros H. unfold init_traction in H. apply bind_ok in H as [rows [E H]]. injection H as <- <-. set (vs := b_vertices (g_neumann g)) in *.
  assert (FST : map fst rows = vs). { revert rows E. induction vs as [|v vs IH]; intros rows E; cbn in E; [injection E as <-; reflexivity|].
    apply bind_ok in E as [row [E1 E]]. apply bind_ok in E as [rest [E2 E]]. injection E as <-. cbn. rewrite (IH rest E2). f_equal. apply bind_ok in E1 as [q [_ E1]]. apply bind_ok in E1 as [[x y] [_ E1]]. apply bind_ok in E1 as [l [_ E1]]. apply bind_ok in E1 as [a [_ E1]]. apply bind_ok in E1 as [b [_ E1]]. injection E1 as <-. reflexivity. }
  split; rewrite map_map, <- FST; apply map_ext; intros [v [a b]]; reflexivity.
Qed.
Lemma traction_loop_keys t vs : forall m, let m' := fst (traction_loop m t vs) in map fst (ms_g1 m') = map fst (ms_g1 m) /\ map fst (ms_g2 m') = map fst (ms_g2 m).
Proof.
  induction vs as [|v vs IH]; intros m; [cbn; split; reflexivity|]. cbn [traction_loop]. destruct (traction_at m t v) as [[a b]|e]; [|cbn; split; reflexivity]. specialize (IH (mech_set_g m (dreplace v a (ms_g1 m)) (dreplace v b (ms_g2 m)))). cbv zeta in IH |- *. destruct IH as [-> ->]. cbn. split; apply dreplace_fst.
Qed.
Lemma mech_history_keys m : mech_history m -> ms_refined m = None -> map fst (ms_g1 m) = b_vertices (g_neumann (ms_grid m)) /\ map fst (ms_g2 m) = b_vertices (g_neumann (ms_grid m)).
Proof.
  induction 1 as [g theta0 radius fps reg rg f m LP H|m a m' r HM IH W H|m a m' r HM IH W H|m t m' r HM IH H|m x m' r HM IH H]; intros PL.
  - unfold mechanical_step in H. destruct reg as [e|]; [destruct rg as [rg|]; [|discriminate]; unfold mech_init_reg in H; apply bind_ok in H as [ps [_ H]]; destruct (Rltb theta0 0); [discriminate|]; injection H as <-; discriminate|].
    unfold mech_init_plain in H. apply bind_ok in H as [ps [P H]]. destruct (Rltb theta0 0); [discriminate|]. apply bind_ok in H as [[g1 g2] [I H]]. injection H as <-. exact (init_keys _ _ _ _ I).
  - unfold mech_update_prev_y in H. destruct (shape_is a _); cbn [negb] in H; injection H as <- _; exact (IH PL).
  - unfold mech_update_prev_theta in H. destruct (shape_is a _); cbn [negb] in H; [|injection H as <- _; exact (IH PL)]. destruct (set_nonneg _ _) as [l e]. injection H as <- _. exact (IH PL).
  - unfold mech_update_boundary_traction in H. destruct (ms_refined m) eqn:Er; [injection H as <- _; congruence|]. specialize (IH eq_refl).
    pose proof (traction_loop_keys t (b_vertices (g_neumann (ms_grid m))) m) as [K1 K2]. pose proof (traction_loop_same t (b_vertices (g_neumann (ms_grid m))) m) as T. cbv zeta in T. rewrite H in K1, K2, T. cbn [fst] in K1, K2, T. destruct T as (-> & _). rewrite K1, K2. exact IH.
  - unfold mech_solve in H. injection H as <- _. exact (IH PL).
Qed.
