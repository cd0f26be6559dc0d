(** * Concrete cases that meet the hypotheses of C98, C99 and C100. *)
From Flocq Require Import Core.
From Coq Require Import ZArith Reals Floats Lra Lia Psatz List.
From Verif.Model Require Import Py Num NumFloat Tensors Domain Refine.
From Verif.Spec Require Import FloatSpec FloatGridSpec.
From Verif.Proofs Require Import FloatR FloatN FloatE StdOrder RealRef FloatRef FloatTop.
From Verif.Props Require Import FloatProps.
Local Open Scope R_scope.
Import ListNotations.

(** 1.7 by 1.0 with mesh width 0.1: eighteen and eleven vertices; 1.7 is not seventeen times 0.1 in binary64. *)
Example C98_example : exists a b k, num_vertices_along 1.7%float 0.1%float = Ok 18%Z /\ num_vertices_along 1%float 0.1%float = Ok 11%Z /\ is_num 1.7%float /\ is_num 0.1%float /\ real_of 1.7 = a /\ real_of 0.1 = b /\
  IZR k <= a / b < IZR k + 1 /\ a <> 17 * b.
Proof.
  assert (E1 : real_of 0.1 = 3602879701896397 / 36028797018963968) by (unfold real_of; let v := eval vm_compute in (Prim2SF 0.1) in change (Prim2SF 0.1) with v; cbv iota beta; unfold powerRZ; simpl; lra).
  assert (E2 : real_of 1.7 = 7656119366529843 / 4503599627370496) by (unfold real_of; let v := eval vm_compute in (Prim2SF 1.7) in change (Prim2SF 1.7) with v; cbv iota beta; unfold powerRZ; simpl; lra).
  exists (7656119366529843 / 4503599627370496), (3602879701896397 / 36028797018963968), 16%Z. split; [vm_compute; reflexivity|]. split; [vm_compute; reflexivity|]. split; [exact I|]. split; [exact I|]. split; [exact E2|]. split; [exact E1|]. split; [|lra].
  split.
  - apply Rmult_le_reg_r with (3602879701896397 / 36028797018963968); [lra|]. unfold Rdiv at 2. rewrite Rmult_assoc, Rinv_l by lra. lra.
  - apply Rmult_lt_reg_r with (3602879701896397 / 36028797018963968); [lra|]. unfold Rdiv at 1. rewrite Rmult_assoc, Rinv_l by lra. lra.
Qed.
(** The body of 1.7 by 1.0 at 0.1 again: the float grid stays within three rounding errors of the body, and its vertices are found; refined seven times it still
    has the indices of the exact refinement. *)
Lemma moderate_less w h s M N : moderate w h s M -> (1 <= N <= M)%nat -> moderate w h s N.
Proof.
  intros (Nw & Nh & Ns & HM & Lo & Hi & Ww & Wh & Uw & Uh) [N1 N2]. assert (A : 1 <= INR N) by (apply (le_INR 1), N1). assert (B : INR N <= INR M) by (apply le_INR, N2). assert (P0 : 0 < / 10 ^ 14) by (apply Rinv_0_lt_compat, pow_lt; lra).
  assert (S0 : 0 < real_of s). { apply Rmult_lt_reg_r with (/ INR M); [apply Rinv_0_lt_compat; lra|]. rewrite Rmult_0_l. unfold Rdiv in Lo. lra. }
  assert (L : real_of s / INR M <= real_of s / INR N) by (apply Rmult_le_compat_l; [lra|apply Rinv_le_contravar; lra]).
  repeat split; try assumption; try lra; (eapply Rle_trans; [apply Rmult_le_compat_r; [lra|exact B]|assumption]).
Qed.
Example C99_example : forall so f, exists gF, @domain_grid float FNum so 1.7%float 1%float f 0.1%float = Ok gF /\ finds_vertices gF /\ (forall p, In p (g_points gF) -> exists x y, p = [x; y] /\ 0 <= real_of x <= (1 + 3 * ulp1) * real_of 1.7 /\ 0 <= real_of y <= (1 + 3 * ulp1) * 1).
Proof.
  intros so f. pose proof (moderate_less _ _ _ _ 1 moderate_example ltac:(lia)) as M. destruct (C99_float_grid _ _ _ M) as (m & n & _ & _ & HG). destruct (HG so f) as (gF & gR & E & _ & _ & _ & FV). exists gF. split; [exact E|]. split; [exact FV|].
  intros p Hp. destruct (C99_nearly_inside _ _ _ _ _ _ M E p Hp) as (x & y & -> & _ & _ & X & Y). rewrite (proj2 num_1) in Y. exists x, y. auto.
Qed.
Example C100_example : forall so f, exists gF rF, @domain_grid float FNum so 1.7%float 1%float f 0.1%float = Ok gF /\ @refine float FNum gF 7 = Ok rF /\ finds_vertices (r_grid rF) /\ r_coarse rF = gF.
Proof.
  intros so f. pose proof (moderate_less _ _ _ _ 7 moderate_example ltac:(lia)) as M. destruct (C100_float_refine _ _ _ _ M) as (m & n & _ & _ & HG). destruct (HG so f) as (gF & gR & rF & rR & E & _ & R & _ & _ & C & _ & _ & _ & _ & _ & FV & _). exists gF, rF. auto.
Qed.
