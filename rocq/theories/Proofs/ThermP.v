(** * The thermal objective as a weighted sum. *)
From Coq Require Import Reals Lra Lia List ZArith.
From Verif.Spec Require Import GridSpec QuadSpec BellSpec InterpSpec RefineSpec PotentialSpec.
From Verif.Model Require Import Py Num Tensors Domain Refine Quadrature Integrators Expr Bell Interp Helpers Steps.
From Verif.Spec Require Import StepSpec EnergySpec MotionSpec TractionSpec ThermSpec.
From Verif.Proofs Require Import Lib InterpP PotP Lattice MeshLat MeshP StepP StepD SimP SimL HatP QuadP IntegP StepU StepE StepF StepG StepH ThermV.
From Verif.Props Require Import GridProps QuadProps IntegProps InterpProps RefineProps MeshIntegProps PotentialProps.
Local Open Scope R_scope.
Import ListNotations.

(** ** Weighted sums *)
Section WS.
Context {A : Type}.
Lemma ws_le (ps : list A) ws f h : (forall w, In w ws -> 0 < w) -> length ps = length ws -> (forall p, In p ps -> f p <= h p) ->
  weighted_sum ps ws f <= weighted_sum ps ws h /\ (weighted_sum ps ws f = weighted_sum ps ws h -> forall p, In p ps -> f p = h p).
Proof.
  revert ws. induction ps as [|p ps IH]; intros [|w ws] W L H; try discriminate; cbn [weighted_sum]; [split; [lra|intros _ p []]|].
  destruct (IH ws) as [I1 I2]; [intros; apply W; right; assumption|cbn in L; lia|intros; apply H; right; assumption|]. pose proof (W w (or_introl eq_refl)) as Hw. pose proof (H p (or_introl eq_refl)) as Hp.
  assert (w * f p <= w * h p) by (apply Rmult_le_compat_l; lra). split; [lra|]. intros E x [<-|Hx]; [|apply I2; [lra|exact Hx]]. assert (E' : w * f p = w * h p) by lra. apply Rmult_eq_reg_l in E'; lra.
Qed.
Lemma ws_comb (ps : list A) ws f h al be : weighted_sum ps ws (fun p => al * f p + be * h p) = al * weighted_sum ps ws f + be * weighted_sum ps ws h.
Proof. revert ws. induction ps as [|p ps IH]; intros [|w ws]; cbn [weighted_sum]; try ring. rewrite IH. ring. Qed.
End WS.

Definition pos_rule (q : rule R) : Prop := (forall w, In w (q_weights q) -> 0 < w) /\ forall p, In p (q_points q) -> 0 <= l1 p /\ 0 <= l2 p /\ 0 <= l3 p.
Lemma therm_rule_good s : exists q, therm_rule s = Ok q /\ good_rule q /\ pos_rule q /\ sum_over (fun w => w) (q_weights q) = mass (ts_refined s).
Proof.
  unfold therm_rule. destruct (ts_refined s) as [r|].
  - destruct dun5_good as (q & E & GQ). exists q. split; [exact E|]. split; [exact GQ|]. unfold DUNAVANT5 in E. revert E. third. intros E. rewrite (rule_inv _ _ _ E). unfold pos_rule. cbn [q_weights q_points]. split; [|cbn; lra]. split.
    + intros w Hw. cbn in Hw. repeat (destruct Hw as [<-|Hw]; [lra|]). destruct Hw.
    + intros p Hp. cbn in Hp. repeat (destruct Hp as [<-|Hp]; [unfold Bary, l1, l2, l3; cbn; lra|]). destruct Hp.
  - destruct dun2_good as (q & E & _ & GQ). exists q. split; [exact E|]. split; [exact GQ|]. unfold DUNAVANT2 in E. revert E. third. intros E. rewrite (rule_inv _ _ _ E). unfold pos_rule. cbn [q_weights q_points]. split; [|cbn; lra]. split.
    + intros w Hw. cbn in Hw. repeat (destruct Hw as [<-|Hw]; [lra|]). destruct Hw.
    + intros p Hp. cbn in Hp. repeat (destruct Hp as [<-|Hp]; [unfold Bary, l1, l2, l3; cbn; lra|]). destruct Hp.
Qed.

Lemma mesh_vertex_in_triangle g s m n v : 0 < s -> (1 <= m)%nat -> (1 <= n)%nat -> mesh g s m n -> In v (g_vertices g) -> exists a b c, In (a, b, c) (g_triangles g) /\ (v = a \/ v = b \/ v = c).
Proof.
  intros Hs Hm Hn M Hv. destruct (lmesh_of_mesh g s m n Hs Hm Hn M) as (C & Ts & E & LM). rewrite (lm_v _ _ _ _ _ _ _ LM), in_range in Hv.
  destruct (nth_error C v) as [x|] eqn:Ev; [|apply nth_error_None in Ev; lia]. pose proof (nth_error_In _ _ Ev) as HI. apply (lm_box _ _ _ _ _ _ _ LM) in HI. destruct (box_corner m n x Hm Hn HI) as (T & HT & K).
  assert (EV : v = idx C x) by (symmetry; apply idx_unique; [apply (lm_nd _ _ _ _ _ _ _ LM)|exact Ev]).
  exists (idx C (c1 T)), (idx C (c2 T)), (idx C (c3 T)). split; [rewrite (lm_t _ _ _ _ _ _ _ LM); apply in_map_iff; exists T; split; [destruct T; reflexivity|apply (lm_tin _ _ _ _ _ _ _ LM), HT]|].
  rewrite EV. destruct K as [-> |[-> | ->]]; auto.
Qed.

Section T.
Context (s : therm) (h : R) (a b : nat) (GG : good_grids (ts_grid s) (ts_refined s) h a b) (TL : tlen s).
Let g := ts_grid s. Let rg := ts_refined s. Let tg := theta_grid g rg. Let NV := length (g_vertices tg).
Context (q : rule R) (Eq : therm_rule s = Ok q) (GQ : good_rule q) (PQ : pos_rule q).

(** Strain, temperature and its gradient at a point. *)
Definition sat (y1 y2 : list R) (t : triangle) (p : bary R) : strain2 :=
  match deform_strain (comp_interp g rg y1) (comp_interp g rg y2) t p with
  | Ok m => match m_data m with [[x; y]; [z; w]] => PotentialSpec.st x y z w | _ => id2 end
  | Err _ => id2
  end.
Definition vat (th : list R) (t : triangle) (p : bary R) : R := let '(i, j, k) := t in l1 p * nth i th 0 + l2 p * nth j th 0 + l3 p * nth k th 0.
Definition gat (th : list R) (t : triangle) (p : bary R) : R * R := match i_gradient (temp_interp g rg th) t p with Ok [x; y] => (x, y) | _ => (0, 0) end.

Lemma fine : exists s' a' b', 0 < s' /\ (1 <= a')%nat /\ (1 <= b')%nat /\ mesh tg s' a' b'.
Proof.
  destruct GG as (Hs & Ha & Hb & M & RR). unfold tg, rg, g in *. destruct (ts_refined s) as [r|]; [|exists h, a, b; auto].
  destruct RR as (N & HN & He & Rf). destruct (C27_refinement_is_fine_mesh _ h a b N Hs Ha Hb HN He M) as (r' & Rf' & _ & M' & _). rewrite Rf in Rf'. injection Rf' as <-.
  exists (h / INR N), (a * N)%nat, (b * N)%nat. split; [apply Rdiv_lt_0_compat; [exact Hs|apply lt_0_INR; lia]|]. split; [nia|]. split; [nia|exact M'].
Qed.
Lemma sat_ok y1 y2 t p : length y1 = (length (g_vertices g) * dofs rg)%nat -> length y2 = (length (g_vertices g) * dofs rg)%nat -> In t (g_triangles tg) -> In p (q_points q) ->
  deform_strain (comp_interp g rg y1) (comp_interp g rg y2) t p = Ok (mat (sat y1 y2 t p)).
Proof.
  intros L1 L2 Ht Hp. destruct (field g rg h a b GG t p Ht (proj2 (proj2 GQ) p Hp)) as (X & Y & FU). unfold sat. rewrite (field_strain g rg t p X Y y1 y2 FU L1 L2). reflexivity.
Qed.
(** Temperature values and gradients are linear; a constant has no gradient; value and gradient determine the corners. *)
Lemma temp_ok t p : In t (g_triangles tg) -> exists c1 c2 c3 d1 d2 d3, let '(i, j, k) := t in
  (i < NV)%nat /\ (j < NV)%nat /\ (k < NV)%nat /\
  (forall th, length th = NV -> i_call (temp_interp g rg th) t p = Ok (vat th t p) /\ i_gradient (temp_interp g rg th) t p = Ok [fst (gat th t p); snd (gat th t p)] /\
     fst (gat th t p) = c1 * nth i th 0 + c2 * nth j th 0 + c3 * nth k th 0 /\ snd (gat th t p) = d1 * nth i th 0 + d2 * nth j th 0 + d3 * nth k th 0) /\
  c1 + c2 + c3 = 0 /\ d1 + d2 + d3 = 0 /\ c2 * d3 - c3 * d2 <> 0.
Proof.
  intros Ht. destruct fine as (s' & a' & b' & Hs' & _ & _ & M'). destruct (mesh_triangle_at _ s' a' b' M' t Ht) as (P & Q & Z & T). destruct t as [[i j] k]. pose proof (mesh_cross _ s' a' b' M' _ _ _ _ T) as C. assert (C0 : cross P Q Z <> 0) by (rewrite C; nra).
  assert (B : (i < NV)%nat /\ (j < NV)%nat /\ (k < NV)%nat). { pose proof (mesh_params _ s' a' b' (seq 0 NV) (i, j, k) P Q Z M' (seq_length _ _) T) as (u & v & w & A1 & A2 & A3). rewrite <- (seq_length NV 0). split; [|split]; apply nth_error_Some; congruence. }
  exists ((snd Q - snd Z) / cross P Q Z), ((snd Z - snd P) / cross P Q Z), ((snd P - snd Q) / cross P Q Z), ((fst Z - fst Q) / cross P Q Z), ((fst P - fst Z) / cross P Q Z), ((fst Q - fst P) / cross P Q Z).
  destruct B as (B1 & B2 & B3). split; [exact B1|]. split; [exact B2|]. split; [exact B3|]. split; [|split; [field; exact C0|split; [field; exact C0|]]].
  - intros th L. assert (V : forall v, (v < NV)%nat -> nth_error th v = Some (nth v th 0)) by (intros v Hv; apply nth_error_nth'; lia).
    destruct (P1_calls tg th i j k P Q Z _ _ _ p T (V i B1) (V j B2) (V k B3)) as [E1 E2]. specialize (E2 C0). unfold gradient_value in E2.
    split; [exact E1|]. unfold gat. change (temp_interp g rg th) with (P1I tg th). rewrite E2. cbn [fst snd]. split; [reflexivity|]. split; field; exact C0.
  - assert (E : (snd Z - snd P) / cross P Q Z * ((fst Q - fst P) / cross P Q Z) - (snd P - snd Q) / cross P Q Z * ((fst P - fst Z) / cross P Q Z) = / cross P Q Z).
    { unfold cross in *. field. exact C0. }
    rewrite E. apply Rinv_neq_0_compat, C0.
Qed.
Definition fields (th : list R) (t : triangle) (p : bary R) : R * (R * R) := (vat th t p, gat th t p).

Lemma nth_lincomb al y be z i : (i < NV)%nat -> length y = NV -> length z = NV -> nth i (lincomb al y be z) 0 = al * nth i y 0 + be * nth i z 0.
Proof. intros Hi Ly Lz. apply nth_error_nth, lincomb_nth; apply nth_error_nth'; lia. Qed.
Lemma vat_lin al y be z t p : In t (g_triangles tg) -> length y = NV -> length z = NV -> vat (lincomb al y be z) t p = al * vat y t p + be * vat z t p.
Proof.
  intros Ht Ly Lz. destruct (temp_ok t p Ht) as (c1 & c2 & c3 & d1 & d2 & d3 & K). destruct t as [[i j] k]. destruct K as (B1 & B2 & B3 & _). unfold vat. rewrite !nth_lincomb by assumption. ring.
Qed.
Lemma gat_lin al y be z t p : In t (g_triangles tg) -> length y = NV -> length z = NV ->
  fst (gat (lincomb al y be z) t p) = al * fst (gat y t p) + be * fst (gat z t p) /\ snd (gat (lincomb al y be z) t p) = al * snd (gat y t p) + be * snd (gat z t p).
Proof.
  intros Ht Ly Lz. destruct (temp_ok t p Ht) as (c1 & c2 & c3 & d1 & d2 & d3 & K). destruct t as [[i j] k]. destruct K as (B1 & B2 & B3 & F & _). assert (LL : length (lincomb al y be z) = NV) by (rewrite lincomb_length; congruence).
  destruct (F _ LL) as (_ & _ & -> & ->). destruct (F _ Ly) as (_ & _ & -> & ->). destruct (F _ Lz) as (_ & _ & -> & ->). rewrite !nth_lincomb by assumption. split; ring.
Qed.
Lemma vat_const th c t p : In t (g_triangles tg) -> length th = NV -> (forall x, In x th -> x = c) -> In p (q_points q) -> vat th t p = c /\ gat th t p = (0, 0).
Proof.
  intros Ht L H Hp. destruct (temp_ok t p Ht) as (c1 & c2 & c3 & d1 & d2 & d3 & K). destruct t as [[i j] k]. destruct K as (B1 & B2 & B3 & F & S1 & S2 & _). destruct (F th L) as (_ & _ & G1 & G2).
  assert (V : forall v, (v < NV)%nat -> nth v th 0 = c) by (intros v Hv; apply H, nth_In; lia). unfold vat. rewrite !V in * by assumption. split.
  - replace (l1 p * c + l2 p * c + l3 p * c) with ((l1 p + l2 p + l3 p) * c) by ring. rewrite (proj2 (proj2 GQ) p Hp). ring.
  - destruct (gat th (i, j, k) p) as [x y]. cbn [fst snd] in G1, G2. f_equal; [replace 0 with ((c1 + c2 + c3) * c) by (rewrite S1; ring)|replace 0 with ((d1 + d2 + d3) * c) by (rewrite S2; ring)]; lra.
Qed.
Lemma vat_nonneg th t p : non_negative_values th -> In p (q_points q) -> 0 <= vat th t p.
Proof.
  intros H Hp. destruct (proj2 PQ p Hp) as (A & B & C). assert (V : forall v, 0 <= nth v th 0). { intros v. destruct (Nat.lt_ge_cases v (length th)) as [L|L]; [apply H, nth_In, L|rewrite nth_overflow by exact L; lra]. }
  destruct t as [[i j] k]. unfold vat. pose proof (Rmult_le_pos _ _ A (V i)). pose proof (Rmult_le_pos _ _ B (V j)). pose proof (Rmult_le_pos _ _ C (V k)). lra.
Qed.
Lemma fields_determine th th' : length th = NV -> length th' = NV -> (forall t p, In t (g_triangles tg) -> In p (q_points q) -> vat th t p = vat th' t p /\ gat th t p = gat th' t p) -> th = th'.
Proof.
  intros L L' H. destruct fine as (s' & a' & b' & Hs' & Ha' & Hb' & M'). destruct GQ as (LQ & NE & SQ). destruct (q_points q) as [|p ps] eqn:EP; [congruence|]. specialize (SQ p (or_introl eq_refl)).
  assert (EV : forall v, (v < NV)%nat -> nth v th 0 = nth v th' 0).
  { intros v Hv. assert (IV : In v (g_vertices tg)). { rewrite (mesh_numbers _ _ _ _ M'). apply in_seq. unfold NV in Hv. rewrite (mesh_length tg s' a' b' M') in Hv. lia. }
    destruct (mesh_vertex_in_triangle tg s' a' b' v Hs' Ha' Hb' M' IV) as (i & j & k & Ht & K). destruct (temp_ok (i, j, k) p Ht) as (c1 & c2 & c3 & d1 & d2 & d3 & B1 & B2 & B3 & F & S1 & S2 & ND).
    destruct (H (i, j, k) p Ht (or_introl eq_refl)) as [E1 E2]. destruct (F th L) as (_ & _ & G1 & G2). destruct (F th' L') as (_ & _ & G1' & G2'). rewrite E2 in G1, G2. rewrite G1' in G1. rewrite G2' in G2. unfold vat in E1.
    set (x := nth i th 0 - nth i th' 0). set (y := nth j th 0 - nth j th' 0). set (z := nth k th 0 - nth k th' 0).
    assert (X1 : c2 * (y - x) + c3 * (z - x) = 0). { replace (c2 * (y - x) + c3 * (z - x)) with (c1 * x + c2 * y + c3 * z - (c1 + c2 + c3) * x) by ring. rewrite S1. unfold x, y, z. lra. }
    assert (X2 : d2 * (y - x) + d3 * (z - x) = 0). { replace (d2 * (y - x) + d3 * (z - x)) with (d1 * x + d2 * y + d3 * z - (d1 + d2 + d3) * x) by ring. rewrite S2. unfold x, y, z. lra. }
    assert (Y0 : y - x = 0). { apply (Rmult_eq_reg_l (c2 * d3 - c3 * d2)); [|exact ND]. rewrite Rmult_0_r. replace ((c2 * d3 - c3 * d2) * (y - x)) with (d3 * (c2 * (y - x) + c3 * (z - x)) - c3 * (d2 * (y - x) + d3 * (z - x))) by ring. rewrite X1, X2. ring. }
    assert (Z0 : z - x = 0). { apply (Rmult_eq_reg_l (c2 * d3 - c3 * d2)); [|exact ND]. rewrite Rmult_0_r. replace ((c2 * d3 - c3 * d2) * (z - x)) with (c2 * (d2 * (y - x) + d3 * (z - x)) - d2 * (c2 * (y - x) + c3 * (z - x))) by ring. rewrite X1, X2. ring. }
    assert (X0 : x = 0). { replace x with ((l1 p + l2 p + l3 p) * x) by (rewrite SQ; ring). assert (l1 p * x + l2 p * y + l3 p * z = 0) by (unfold x, y, z; lra). replace y with x in H0 by lra. replace z with x in H0 by lra. lra. }
    unfold x, y, z in *. destruct K as [-> |[-> | ->]]; lra. }
  apply nth_ext with (d := 0) (d' := 0); [congruence|]. intros v Hv. apply EV. lia.
Qed.

(** The density of the objective at a point. *)
Let F0 := sat (ts_prev_y1 s) (ts_prev_y2 s). Let F := sat (ts_y1 s) (ts_y2 s). Let t0 := vat (ts_prev_theta s).
Definition dens (th : list R) (t : triangle) (p : bary R) : R :=
  qf (Kref (F0 t p)) (fst (gat th t p)) (snd (gat th t p)) (fst (gat th t p)) (snd (gat th t p)) - source (ts_fps s) (F0 t p) (F t p) (t0 t p) * vat th t p
  + ts_fps s * psi (F0 t p) (F t p) (t0 t p) (vat th t p).
Definition WSum (I : integrator R) (f : triangle -> bary R -> R) : R := weighted_sum (g_triangles tg) (i_areas I) (fun t => weighted_sum (q_points q) (q_weights q) (f t)).
Lemma therm_integ : exists I, therm_integrator s = Ok I /\ Integrator_ q (g_triangles tg) (g_points tg) = Ok I.
Proof. unfold therm_integrator. fold g rg tg. unfold therm_rule in Eq. fold rg in Eq. rewrite Eq. cbn [bind]. destruct (grid_integrator g rg h a b GG q) as [I EI]. exists I. split; exact EI. Qed.
Lemma areas_pos I : Integrator_ q (g_triangles tg) (g_points tg) = Ok I -> forall A, In A (i_areas I) -> 0 < A.
Proof.
  intros EI A HA. destruct fine as (s' & a' & b' & Hs' & _ & _ & M'). unfold Integrator_ in EI. apply bind_ok' in EI as [As [EA EI]]. injection EI as <-. cbn in HA. destruct (in_mapM _ _ _ _ EA HA) as (t & Ht & ET).
  destruct (mesh_triangle_at _ s' a' b' M' t Ht) as (P & Q & Z & T). pose proof (mesh_cross _ s' a' b' M' _ _ _ _ T) as C. rewrite (triangle_area_pts _ t P Q Z) in ET by (destruct t as [[i j] k]; exact (proj2 T)). injection ET as <-.
  unfold area, signed_area. rewrite C. apply Rabs_pos_lt. nra.
Qed.
Lemma WSum_le I f k : Integrator_ q (g_triangles tg) (g_points tg) = Ok I -> (forall t p, In t (g_triangles tg) -> In p (q_points q) -> f t p <= k t p) ->
  WSum I f <= WSum I k /\ (WSum I f = WSum I k -> forall t p, In t (g_triangles tg) -> In p (q_points q) -> f t p = k t p).
Proof.
  intros EI H. assert (IN : forall t, In t (g_triangles tg) -> weighted_sum (q_points q) (q_weights q) (f t) <= weighted_sum (q_points q) (q_weights q) (k t) /\ (weighted_sum (q_points q) (q_weights q) (f t) = weighted_sum (q_points q) (q_weights q) (k t) -> forall p, In p (q_points q) -> f t p = k t p)).
  { intros t Ht. apply ws_le; [apply PQ|apply GQ|intros p Hp; apply H; assumption]. }
  destruct (integrator_parts _ _ _ _ EI) as (_ & _ & LA). destruct (ws_le (g_triangles tg) (i_areas I) (fun t => weighted_sum (q_points q) (q_weights q) (f t)) (fun t => weighted_sum (q_points q) (q_weights q) (k t))) as [O1 O2]; [apply areas_pos, EI|symmetry; exact LA|intros t Ht; apply IN, Ht|].
  split; [exact O1|]. intros E t p Ht Hp. apply (proj2 (IN t Ht)); [exact (O2 E t Ht)|exact Hp].
Qed.
Lemma WSum_comb I f k al be : WSum I (fun t p => al * f t p + be * k t p) = al * WSum I f + be * WSum I k.
Proof.
  unfold WSum. rewrite <- ws_comb. apply weighted_sum_ext. intros t _. apply ws_comb.
Qed.
Lemma WSum_ext I f k : (forall t p, In t (g_triangles tg) -> In p (q_points q) -> f t p = k t p) -> WSum I f = WSum I k.
Proof. intros H. unfold WSum. apply weighted_sum_ext. intros t Ht. apply weighted_sum_ext. intros p Hp. apply H; assumption. Qed.
Lemma integ_ok I X f : Integrator_ q (g_triangles tg) (g_points tg) = Ok I -> (forall t p, In t (g_triangles tg) -> In p (q_points q) -> X t p = Ok (f t p)) -> integrate I X = Ok (WSum I f).
Proof. intros EI H. destruct (integrator_parts _ _ _ _ EI) as (Q & T & LA). rewrite (integrate_ws I X f) by (rewrite ?Q, ?T; assumption). rewrite Q, T. reflexivity. Qed.
End T.
