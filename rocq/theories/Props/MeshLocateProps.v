(** * C20 for every triangulated rectangle, in particular for every refinement of a domain grid (C27). *)
From Coq Require Import Reals Lra Lia List ZArith.
From Verif.Model Require Import Py Num Tensors Domain Refine.
From Verif.Spec Require Import GridSpec RefineSpec InterpSpec.
From Verif.Proofs Require Import Lib GridP LocateP MeshLoc.
From Verif.Props Require Import GridProps RefineProps.
Local Open Scope R_scope.
Import ListNotations.

(** Location never raises; a result belongs to a triangle of the grid and its coordinates reproduce the point. *)
Theorem C20_meshes : forall g s m n x, 0 < s -> mesh g s m n ->
  (exists r, to_barycentric_point g (vec x) = Ok r) /\
  forall t b, to_barycentric_point g (vec x) = Ok (Some (t, b)) -> exists p q r, triangle_at g t p q r /\ bary_of p q r b x.
Proof. intros g s m n x Hs M. split; [apply (mesh_never_raises g s m n Hs M)|intros t b; apply (mesh_reproduce g s m n Hs M)]. Qed.
Print Assumptions C20_meshes.
(** Every point of the rectangle is located. *)
Theorem C20_meshes_inside : forall g s m n x, 0 < s -> mesh g s m n -> (1 <= m)%nat -> (1 <= n)%nat -> 0 <= fst x <= INR m * s -> 0 <= snd x <= INR n * s ->
  exists t b, to_barycentric_point g (vec x) = Ok (Some (t, b)) /\ (/ 10 ^ 10 <= s * s -> - / 10 ^ 10 / (s * s) <= l1 b /\ - / 10 ^ 10 / (s * s) <= l2 b /\ - / 10 ^ 10 / (s * s) <= l3 b).
Proof.
  intros g s m n x Hs M Hm Hn Hx Hy. destruct (mesh_found g s m n Hs M x Hm Hn Hx Hy) as (t & p & q & r & b & E & _). exists t, b. split; [exact E|]. intros Hb. exact (mesh_bounded_below g s m n Hs M x t b Hb E).
Qed.
Print Assumptions C20_meshes_inside.
(** The hypotheses are met by the third refinement of a grid. *)
Example C20_meshes_example : exists g r t b, domain_grid StdOrder.std_order (12/10) (9/10) FixNone (1/2) = Ok g /\ refine g 3 = Ok r /\ to_barycentric_point (r_grid r) (vec (7/10, 2/10)) = Ok (Some (t, b)).
Proof.
  destruct (C11_grid_succeeds StdOrder.std_order (12/10) (9/10) FixNone (1/2)) as (m & n & g & Fm & Fn & Hg); try lra. assert (m = 2%nat) as -> by (apply (fits_unique (12/10) (1/2)); [lra|exact Fm|exact ex_fits_w]). assert (n = 1%nat) as -> by (apply (fits_unique (9/10) (1/2)); [lra|exact Fn|exact ex_fits_h]).
  destruct (C27_rectangle_grid_is_mesh _ _ _ _ _ _ _ _ ex_pos Fm Fn Hg ltac:(lia) ltac:(lia)) as [M _]. destruct (C27_refinement_is_fine_mesh g (1/2) 2 1 3 ltac:(lra) ltac:(lia) ltac:(lia) ltac:(lia) ltac:(cbn; lra) M) as (r & Er & _ & MR & _).
  destruct (C20_meshes_inside (r_grid r) (1/2 / INR 3) (2 * 3) (1 * 3) (7/10, 2/10) ltac:(cbn; lra) MR ltac:(lia) ltac:(lia) ltac:(cbn; lra) ltac:(cbn; lra)) as (t & b & E & _). exists g, r, t, b. auto.
Qed.
