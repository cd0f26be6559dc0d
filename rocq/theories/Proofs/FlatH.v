(** * Fields without second derivatives at the points of the degree 5 rule are affine, for C123. *)
From Coq Require Import Reals Lra Lia List ZArith Psatz.
From Coquelicot Require Import Coquelicot.
From Verif.Spec Require Import GridSpec QuadSpec BellSpec InterpSpec RefineSpec PotentialSpec.
From Verif.Model Require Import Py Num Tensors Domain Refine Quadrature Integrators Expr Bell Interp Helpers Steps.
From Verif.Spec Require Import StepSpec EnergySpec.
From Verif.Proofs Require Import Lib Lattice RefineP RefineTri RefineAll MeshLat MeshP RefineMesh RefineSetup RefineEdge RefineOut HatP InterpP BellP BellV BellDer BellE BellQ BellG ConvP BernQ PotP StepP StepF ThermQ FlatG FlatF.
From Verif.Props Require Import BellProps InterpProps RefineProps.
Local Open Scope R_scope.
Import ListNotations.
Local Notation length := List.length.

Lemma flat_affine g r s m n y rl : good_grids g (Some r) s m n -> length y = (length (g_vertices g) * 6)%nat -> DUNAVANT5 = Ok rl ->
  (forall t L, In t (g_triangles (r_grid r)) -> In L (q_points rl) -> i_hessian (comp_interp g (Some r) y) t L = Ok (hessian_value 0 0 0)) ->
  exists al be ga, affine_field g (Some r) al be ga y.
Proof.
  intros GG Ly RL H. destruct GG as (Hs & Hm & Hn & M & (N & HN & He & Rf)).
  destruct (setup_of g s m n N r Hs Hm Hn HN He M Rf) as (Hh & QQ & C & Ts & E & SU). pose proof (su_lm _ _ _ _ _ _ _ _ _ SU) as LM. rewrite QQ in LM.
  assert (LC : length (g_vertices g) = length C) by (rewrite (lm_v _ _ _ _ _ _ _ LM); unfold range; apply seq_length).
  set (nv := length (g_vertices g)) in *. set (row := fun v => slice (v * 6) 6 y).
  assert (ROW : forall v, (v < nv)%nat -> length (row v) = 6%nat /\ nth_error (chunks nv 6 y) v = Some (row v)).
  { intros v Hv. split; [apply slice_length; lia|]. unfold chunks. rewrite nth_error_map. unfold range. rewrite nth_error_nth' with (d := 0%nat) by (rewrite seq_length; exact Hv). rewrite seq_nth by exact Hv. reflexivity. }
  assert (VB : forall x, box m n x -> (idx C x < nv)%nat).
  { intros x Bx. pose proof (at_lp _ _ _ _ _ _ _ LM x Bx) as P. unfold point_at in P. rewrite (lm_p _ _ _ _ _ _ _ LM), nth_error_map in P. rewrite LC. apply nth_error_Some. destruct (nth_error C (idx C x)); [discriminate|discriminate P]. }
  assert (TRI : forall T, ltri_in m n T -> exists al be ga, row (idx C (c1 T)) = affine_jet_at al be ga (lp s (c1 T)) /\ row (idx C (c2 T)) = affine_jet_at al be ga (lp s (c2 T)) /\ row (idx C (c3 T)) = affine_jet_at al be ga (lp s (c3 T))).
  { intros T TI. pose proof (proj2 (lm_tin _ _ _ _ _ _ _ LM T) TI) as HT. destruct (ltri_in_corners m n T TI) as (B1 & B2 & B3). pose proof (ROW _ (VB _ B1)) as [A1 K1]. pose proof (ROW _ (VB _ B2)) as [A2 K2]. pose proof (ROW _ (VB _ B3)) as [A3 K3].
    destruct (fine_in_coarse g s m n N r C Ts E T Hs Hm Hn HN He M Rf SU HT) as (t & p & q & q' & TA & Sh & FC). pose proof (corner_at _ _ _ _ _ _ _ LM T HT) as CA.
    pose proof (lattice_shape s T (proj1 TI)) as ShT. destruct (shape_oriented _ _ _ _ Hh Sh) as (z' & _ & Hz' & Or).
    pose proof (mesh_cross g s m n M _ _ _ _ CA) as CR. assert (C0 : cross (lp s (c1 T)) (lp s (c2 T)) (lp s (c3 T)) <> 0) by (rewrite CR; nra).
    apply (bell_flat s _ _ _ _ _ _ z' p q q' rl Hs ShT A1 A2 A3 Hz' Or RL). intros L x IL BO. destruct (FC L x BO) as (b' & EC & BO').
    assert (IT : In t (g_triangles (r_grid r))) by (destruct t as [[? ?] ?]; apply TA). pose proof (H t L IT IL) as HH.
    set (P := lp s (c1 T)) in *. set (Q := lp s (c2 T)) in *. set (Z := lp s (c3 T)) in *. set (wl := nodes_of P Q Z (row (idx C (c1 T))) (row (idx C (c2 T))) (row (idx C (c3 T))) b').
    assert (PR : proper wl).
    { unfold wl, nodes_of, proper, non_degenerate, six_dofs. cbn [pos BellSpec.dofs]. split; [exact C0|]. split; [exact A1|]. split; [exact A2|]. split; [exact A3|]. exact (proj1 BO'). }
    destruct (call_all _ PR) as (_ & _ & X2). destruct (C1_calls g (chunks nv 6 y) _ _ _ P Q Z _ _ _ b' CA K1 K2 K3) as (_ & _ & G2). pose proof (eq_trans G2 X2) as XX.
    unfold comp_interp, num_vertices in HH. fold nv in HH. cbn [i_hessian] in HH. rewrite EC in HH. cbn [bind] in HH.
    assert (EQ := eq_trans (eq_sym XX) HH). unfold hessian_value in EQ. injection EQ as E1 E2 _ E3.
    destruct BO' as (_ & Bx' & By'). rewrite Bx', By'. repeat split; [exact E1|exact E2|exact E3]. }
  set (f := fun j (x : Z2) => nth j (row (idx C x)) 0). set (f0 := fun x => f 0%nat x - f 1%nat x * fst (lp s x) - f 2%nat x * snd (lp s x)).
  assert (KF : forall j, (1 <= j)%nat -> (j < 6)%nat -> forall x, box m n x -> f j x = f j (0, 0)%Z).
  { intros j J1 J6. apply box_connected; [exact Hm|exact Hn|]. intros T TI. destruct (TRI T TI) as (al & be & ga & E1 & E2 & E3). unfold f. rewrite E1, E2, E3. destruct j as [|[|[|[|[|[|]]]]]]; try lia; split; reflexivity. }
  assert (KG : forall x, box m n x -> f0 x = f0 (0, 0)%Z).
  { apply box_connected; [exact Hm|exact Hn|]. intros T TI. destruct (TRI T TI) as (al & be & ga & E1 & E2 & E3). unfold f0, f. rewrite E1, E2, E3. unfold affine_jet_at. cbn [nth]. split; ring. }
  assert (K0 : f 3%nat (0, 0)%Z = 0 /\ f 4%nat (0, 0)%Z = 0 /\ f 5%nat (0, 0)%Z = 0).
  { assert (TI : ltri_in m n (low 0 0)) by (apply low_in; unfold cbox; cbn [fst snd]; lia). destruct (TRI _ TI) as (al & be & ga & E1 & _). unfold low, c1 in E1. cbn [fst] in E1. unfold f. rewrite E1. repeat split; reflexivity. }
  exists (f 1%nat (0, 0)%Z), (f 2%nat (0, 0)%Z), (f0 (0, 0)%Z). split; [exact Ly|]. intros v p Pv. cbn [Steps.dofs]. intros j Hj.
  apply (point_at_l _ _ _ _ _ _ _ LM) in Pv as (x & Bx & -> & ->). pose proof (ROW _ (VB _ Bx)) as [A _].
  rewrite <- (slice_nth (idx C x * 6) 6 y j Hj). change (slice (idx C x * 6) 6 y) with (row (idx C x)).
  assert (RX : row (idx C x) = [f 0%nat x; f 1%nat x; f 2%nat x; f 3%nat x; f 4%nat x; f 5%nat x]) by (unfold f; destruct (row (idx C x)) as [|? [|? [|? [|? [|? [|? [|]]]]]]]; try discriminate A; reflexivity).
  rewrite RX. pose proof (KG x Bx) as G. unfold f0 in G at 1. rewrite (KF 1%nat ltac:(lia) ltac:(lia) x Bx), (KF 2%nat ltac:(lia) ltac:(lia) x Bx) in *. rewrite (KF 3%nat ltac:(lia) ltac:(lia) x Bx), (KF 4%nat ltac:(lia) ltac:(lia) x Bx), (KF 5%nat ltac:(lia) ltac:(lia) x Bx).
  destruct K0 as (-> & -> & ->). replace (f 0%nat x) with (f 1%nat (0, 0)%Z * fst (lp s x) + f 2%nat (0, 0)%Z * snd (lp s x) + f0 (0, 0)%Z) by lra. reflexivity.
Qed.
