(** Drawing a step succeeds and shows it. *)
From Coq Require Import Reals Lra Lia List ZArith.
From Verif.Model Require Import Py Num Tensors Domain Refine Interp.
From Verif.Spec Require Import GridSpec RefineSpec InterpSpec.
From Verif.Model Require Import Steps Simulation Plot.
From Verif.Spec Require Import SimSpec LiveSpec PlotSpec.
From Verif.Proofs Require Import Lib GridP LocateP HatP InterpP MeshLoc SimP SimQ SimA SimH StepF PlotP PlotS SimR.
From Verif.Props Require Import RefineProps EnergyProps.
Local Open Scope R_scope.
Import ListNotations.

Lemma mapM_exists {A B} (f : A -> res B) l : (forall x, In x l -> exists y, f x = Ok y) -> exists r, mapM f l = Ok r.
Proof. induction l as [|x l IH]; intros H; [exists []; reflexivity|]. cbn [mapM]. destruct (H x (or_introl eq_refl)) as [y ->]. destruct IH as [r ->]; [intros; apply H; right; assumption|]. cbn [bind]. eauto. Qed.
Lemma nth_error_mapped {A B} (R1 : A -> B -> Prop) l r : Forall2 R1 l r -> forall i x, nth_error l i = Some x -> exists y, nth_error r i = Some y /\ R1 x y.
Proof. induction 1 as [|a b l r H F IH]; intros [|i] x E; try discriminate; cbn in *; [injection E as <-; eauto|auto]. Qed.

Section D.
Context (st : Simulation.step) (s : R) (m n : nat) (Hm : (1 <= m)%nat) (Hn : (1 <= n)%nat) (M : mesh (st_grid st) s m n).
Context (HY : forall v p, point_at (st_grid st) v p -> exists X Y, edeform_call (st_y1 st) (st_y2 st) (fst p) (snd p) = Ok [X; Y]).
Context (HT : forall v p, point_at (st_grid st) v p -> exists c, euclid_call (st_theta st) (fst p) (snd p) = Ok c).
Lemma planar_points q : In q (g_points (st_grid st)) -> exists v p, point_at (st_grid st) v p /\ q = vec p.
Proof.
  intros I. apply In_nth_error in I as [v Hv]. assert (Iv : In v (g_vertices (st_grid st))). { rewrite (mesh_numbers _ _ _ _ M). apply in_seq. split; [lia|]. cbn. apply nth_error_Some. congruence. }
  destruct (mesh_inside _ _ _ _ M v Iv) as (i & j & _ & _ & _ & E). exists v, (INR i * s, INR j * s). unfold point_at, vec. cbn [fst snd]. split; [exact E|]. congruence.
Qed.
Lemma draws ax top : exists a, step_plot st ax top = Ok (draw ax a) /\ shows st top a.
Proof.
  unfold step_plot, plot_temperature. set (ps := g_points (st_grid st)).
  destruct (mapM_exists (call_at (edeform_call (st_y1 st) (st_y2 st))) ps) as [ds Ed]. { intros q Iq. destruct (planar_points q Iq) as (v & p & P & ->). unfold call_at, vec. destruct (HY v p P) as (X & Y & E). eauto. }
  destruct (mapM_exists (call_at (euclid_call (st_theta st))) ps) as [cs Ec]. { intros q Iq. destruct (planar_points q Iq) as (v & p & P & ->). unfold call_at, vec. exact (HT v p P). }
  pose proof (proj1 (mapM_ok_iff _ _ _) Ed) as Fd. pose proof (proj1 (mapM_ok_iff _ _ _) Ec) as Fc.
  assert (D2 : forall d, In d ds -> exists X Y, d = [X; Y]).
  { intros d Id. apply In_nth_error in Id as [v Hv]. assert (Lv : (v < length ps)%nat) by (rewrite <- (mapM_length _ _ _ Ed); apply nth_error_Some; congruence). destruct (nth_error ps v) as [q|] eqn:Eq; [|apply nth_error_None in Eq; lia].
    destruct (nth_error_mapped _ _ _ Fd v q Eq) as (d' & Ed' & E). rewrite Hv in Ed'. injection Ed' as <-. destruct (planar_points q (nth_error_In _ _ Eq)) as (v' & p & P & ->). destruct (HY v' p P) as (X & Y & E').
    unfold call_at, vec in E. rewrite E' in E. injection E as <-. eauto. }
  destruct (mapM_exists (fun p => py_nth p 0) ds) as [xs Ex]. { intros d Id. destruct (D2 d Id) as (X & Y & ->). exists X. reflexivity. }
  destruct (mapM_exists (fun p => py_nth p 1) ds) as [ys Ey]. { intros d Id. destruct (D2 d Id) as (X & Y & ->). exists Y. reflexivity. }
  rewrite Ed. unfold coordinate. cbn [bind]. rewrite Ex. cbn [bind]. rewrite Ey. cbn [bind]. rewrite Ec. cbn [bind].
  pose proof (mapM_length _ _ _ Ed) as Ld. pose proof (mapM_length _ _ _ Ec) as Lc. pose proof (mapM_length _ _ _ Ex) as Lx. pose proof (mapM_length _ _ _ Ey) as Ly. fold ps in Ld, Lc.
  assert (Lx' : length xs = length ps) by exact (eq_trans Lx Ld). assert (Ly' : length ys = length ps) by exact (eq_trans Ly Ld). clear Lx Ly Ld. assert (Z1 : length ys = length xs) by congruence. assert (Z2 : length cs = length xs) by congruence. unfold tripcolor. rewrite Z1, Z2, Nat.eqb_refl. cbn [andb negb].
  assert (NE : g_triangles (st_grid st) <> []).
  { destruct (mesh_points _ _ _ _ M 0%nat 0%nat ltac:(lia) ltac:(lia)) as [a [Va _]]. destruct (mesh_points _ _ _ _ M (0 + 1)%nat 0%nat ltac:(lia) ltac:(lia)) as [b [Vb _]]. destruct (mesh_points _ _ _ _ M (0 + 1)%nat (0 + 1)%nat ltac:(lia) ltac:(lia)) as [c [Vc _]].
    assert (I : In (a, b, c) (g_triangles (st_grid st))) by (apply (mesh_triangles _ _ _ _ M); exists 0%nat, 0%nat; split; [lia|]; split; [lia|]; left; exact (conj Va (conj Vb Vc))). intros E. rewrite E in I. destruct I. }
  assert (FI : forallb (fun t => let '(i, j, k) := t in ((i <? length xs) && (j <? length xs) && (k <? length xs))%nat) (g_triangles (st_grid st)) = true).
  { apply forallb_forall. intros [[a b] c] I. destruct (mesh_triangle_at _ _ _ _ M _ I) as (p & q & r & _ & A & B & C). assert (K : forall v z, point_at (st_grid st) v z -> (Nat.ltb v (length xs)) = true).
    { intros v z P. apply Nat.ltb_lt. rewrite Lx'. apply nth_error_Some. unfold point_at in P. fold ps in P. congruence. } rewrite (K _ _ A), (K _ _ B), (K _ _ C). reflexivity. }
  exists (Coloured xs ys cs (g_triangles (st_grid st)) 0 top). split; [destruct (g_triangles (st_grid st)) as [|t ts]; [congruence|]; rewrite FI; reflexivity|].
  exists xs, ys, cs. split; [reflexivity|]. fold ps. split; [lia|]. split; [lia|]. split; [lia|]. intros v p P. unfold point_at in P. fold ps in P.
  destruct (nth_error_mapped _ _ _ Fd v _ P) as (d & Hd & E). destruct (HY v p P) as (X & Y & EY). unfold call_at in E. rewrite EY in E. injection E as <-.
  destruct (nth_error_mapped _ _ _ Fc v _ P) as (c & Hc & E). unfold call_at in E.
  destruct (nth_error_mapped _ _ _ (proj1 (mapM_ok_iff _ _ _) Ex) v _ Hd) as (X' & HX & E1). destruct (nth_error_mapped _ _ _ (proj1 (mapM_ok_iff _ _ _) Ey) v _ Hd) as (Y' & HY' & E2). cbn in E1, E2. injection E1 as <-. injection E2 as <-.
  exists X, Y, c. auto.
Qed.
End D.

(** The grids and data behind a recorded step. *)
Record scene (u : setting) (s : sim) (st : Simulation.step) (m n k : nat) : Prop := {
  sc_pos : 0 < p_scale (se_params u);
  sc_m : (1 <= m)%nat; sc_n : (1 <= n)%nat; sc_k : (1 <= k)%nat;
  sc_w : fits (se_width u) (p_scale (se_params u)) m; sc_h : fits (se_height u) (p_scale (se_params u)) n;
  sc_grid : mesh (s_grid s) (p_scale (se_params u)) m n;
  sc_reg : (s_refined s = None <-> p_regularization (se_params u) = None);
  sc_temp : mesh (theta_grid (s_grid s) (s_refined s)) (p_scale (se_params u) / INR k) (m * k) (n * k);
  sc_factor : match s_refined s with None => k = 1%nat /\ st_grid st = s_grid s
              | Some _ => p_refinement_factor (se_params u) = Some (Z.of_nat k) /\ mesh (st_grid st) (p_scale (se_params u) / INR k / INR 5) (m * k * 5) (n * k * 5) end;
  sc_data : exists a1 a2 th, holds (s_grid s) (s_refined s) st a1 a2 th /\ length a1 = (num_vertices (s_grid s) * dofs (s_refined s))%nat /\ length a2 = (num_vertices (s_grid s) * dofs (s_refined s))%nat /\
    length th = num_vertices (theta_grid (s_grid s) (s_refined s))
}.
Lemma scene_of u s st : reachable u s -> has_cells u -> fine_enough u -> In st (s_steps s) -> exists m n k, scene u s st m n k.
Proof.
  intros HR [Hw Hh] FE Ist. destruct (reachable_hist u s HR) as (g & rg & ps & G & HI). destruct (hist_grid _ _ _ _ _ HI) as (Eg & Er & Ep).
  destruct (ground_grids u FE Hw Hh g rg ps G) as (m & n & GG & Fm & Fn). destruct GG as (PS & M1 & N1 & M & RR).
  destruct (gs_holds _ _ _ _ _ (hi_good _ _ _ _ _ HI st Ist)) as (a1 & a2 & th & HO & L1 & L2 & L3 & _).
  destruct (reachable_made u s HR st Ist) as (yd & td & NS). apply made_grid in NS. rewrite Eg, Er, Ep in NS.
  destruct (gr_ref _ _ _ _ G) as [[RN ->]|(e & k & r & E1 & E2 & E3 & ->)].
  - rewrite RN in NS. exists m, n, 1%nat. split; rewrite ?Eg, ?Er; try assumption; try lia.
    + rewrite RN. tauto.
    + cbn [theta_grid INR]. rewrite !Nat.mul_1_r. replace (p_scale (se_params u) / 1) with (p_scale (se_params u)) by field. exact M.
    + auto.
    + exists a1, a2, th. auto.
  - rewrite E1 in NS. destruct NS as (r' & pg & Q1 & Q2 & Q3). injection Q1 as <-. clear RR.
    pose proof (params_ok u (gr_valid _ _ _ _ G)) as (_ & _ & _ & _ & PK). rewrite E1 in PK. destruct PK as (_ & k' & E4 & Hk). rewrite E2 in E4. injection E4 as <-.
    unfold fine_enough in FE. rewrite E1, E2 in FE. destruct FE as (_ & _ & F).
    set (N := Z.to_nat k). exists m, n, N. assert (KN : k = Z.of_nat N) by (unfold N; lia). assert (HN : (1 <= N)%nat) by (unfold N; lia). pose proof E3 as RN. rewrite KN in RN.
    assert (K1 : 0 < INR N) by (apply lt_0_INR; lia). rewrite KN, <- INR_IZR_INZ in F.
    assert (F15 : / 10 ^ 15 <= p_scale (se_params u) / INR N) by (apply (Rle_trans _ _ _ F); apply Rmult_le_compat_l; [lra|]; apply Rinv_le_contravar; lra).
    destruct (C27_refinement_is_fine_mesh g _ m n N PS M1 N1 HN F15 M) as (r0 & R0 & _ & MR & _). rewrite RN in R0. injection R0 as <-.
    assert (S1 : 0 < p_scale (se_params u) / INR N) by (apply Rdiv_lt_0_compat; lra).
    destruct (C27_refinement_is_fine_mesh (r_grid r) _ (m * N) (n * N) 5 S1 ltac:(nia) ltac:(nia) ltac:(lia)) as (p0 & P0 & _ & MP & _); [|exact MR|].
    { replace (INR 5) with 5 by (cbn; lra). replace (p_scale (se_params u) / INR N / 5) with (p_scale (se_params u) / (5 * INR N)) by (field; lra). exact F. }
    unfold PLOTTING_REFINEMENT_FACTOR in Q2. change 5%Z with (Z.of_nat 5) in Q2. rewrite Q2 in P0. injection P0 as <-. rewrite <- Q3 in MP.
    split; rewrite ?Eg, ?Er; try assumption.
    + rewrite E1. split; discriminate.
    + rewrite E2, KN. auto.
    + exists a1, a2, th. auto.
Qed.
