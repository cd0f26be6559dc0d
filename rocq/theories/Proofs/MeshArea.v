(** The triangles of a mesh, listed cell by cell. *)
From Coq Require Import Reals Lra Lia List ZArith Permutation.
From Verif.Model Require Import Py Num Tensors Domain Refine.
From Verif.Spec Require Import GridSpec RefineSpec.
From Verif.Proofs Require Import Lib Lattice MeshLat MeshP HatP.
Local Open Scope R_scope.
Import ListNotations.

Lemma Rsum_perm l l' : Permutation l l' -> Rsum l = Rsum l'.
Proof. induction 1; cbn; lra. Qed.
Lemma NoDup_map_in {A B} (f : A -> B) l : (forall x y, In x l -> In y l -> f x = f y -> x = y) -> NoDup l -> NoDup (map f l).
Proof.
  intros H N. induction N as [|x l Hx N IH]; [constructor|]. cbn. constructor; [|apply IH; intros; apply H; try right; assumption].
  intros I. apply in_map_iff in I as [y [E Hy]]. apply Hx. rewrite <- (H y x); [exact Hy|right; exact Hy|left; reflexivity|exact E].
Qed.
Lemma range_nodup n : NoDup (range n). Proof. apply seq_NoDup. Qed.
Lemma prod_nodup {A B} (l : list A) (l' : list B) : NoDup l -> NoDup l' -> NoDup (list_prod l l').
Proof.
  intros N N'. induction N as [|x l Hx N IH]; [constructor|]. cbn. apply NoDup_app_; [apply NoDup_map_in; [intros a b _ _ E; congruence|exact N']|exact IH|].
  intros [a b] I1 I2. apply in_map_iff in I1 as [y [E _]]. injection E as <- _. apply in_prod_iff in I2 as [I2 _]. contradiction.
Qed.
Definition cells (m n : nat) := list_prod (range m) (range n).
Lemma in_cells m n i j : In (i, j) (cells m n) <-> (i < m)%nat /\ (j < n)%nat.
Proof. unfold cells. rewrite in_prod_iff, !in_range. reflexivity. Qed.
Lemma cells_length m n : length (cells m n) = (m * n)%nat.
Proof. unfold cells. rewrite prod_length, !range_length. reflexivity. Qed.

Section M.
Context (g : grid R) (s : R) (m n : nat) (Hs : 0 < s) (Hm : (1 <= m)%nat) (Hn : (1 <= n)%nat) (M : mesh g s m n).
Lemma at_inj v i j i' j' : vertex_at g s v i j -> vertex_at g s v i' j' -> i = i' /\ j = j'.
Proof. intros [_ A] [_ B]. rewrite A in B. injection B as X Y. split; apply INR_eq; nra. Qed.
Lemma mesh_cells : exists lo up : nat * nat -> triangle,
  (forall i j, In (i, j) (cells m n) -> lower_at g s (lo (i, j)) i j /\ upper_at g s (up (i, j)) i j) /\
  Permutation (g_triangles g) (map lo (cells m n) ++ map up (cells m n)).
Proof.
  destruct (lmesh_of_mesh g s m n Hs Hm Hn M) as (C & Ts & E & LM).
  exists (fun c => tidx C (low (Z.of_nat (fst c)) (Z.of_nat (snd c)))), (fun c => tidx C (upp (Z.of_nat (fst c)) (Z.of_nat (snd c)))).
  assert (LO : forall i j, In (i, j) (cells m n) -> lower_at g s (tidx C (low (Z.of_nat i) (Z.of_nat j))) i j /\ upper_at g s (tidx C (upp (Z.of_nat i) (Z.of_nat j))) i j).
  { intros i j I. apply in_cells in I as [I J]. split; [apply (lower_at_l g s m n C Ts E Hs LM)|apply (upper_at_l g s m n C Ts E Hs LM)]; repeat split; lia. }
  split; [exact LO|]. apply NoDup_Permutation; [exact (mesh_triangles_once _ _ _ _ M)| |].
  - apply NoDup_app_.
    + apply NoDup_map_in; [|apply prod_nodup; apply range_nodup]. intros [i j] [i' j'] I I' Eq. cbn [fst snd] in Eq. destruct (LO i j I) as [A _]. destruct (LO i' j' I') as [B _]. rewrite Eq in A. destruct (tidx C _) as [[x y] z]. destruct A as [A _], B as [B _]. destruct (at_inj _ _ _ _ _ A B) as [-> ->]. reflexivity.
    + apply NoDup_map_in; [|apply prod_nodup; apply range_nodup]. intros [i j] [i' j'] I I' Eq. cbn [fst snd] in Eq. destruct (LO i j I) as [_ A]. destruct (LO i' j' I') as [_ B]. rewrite Eq in A. destruct (tidx C _) as [[x y] z]. destruct A as (_ & _ & A), B as (_ & _ & B). destruct (at_inj _ _ _ _ _ A B) as [-> ->]. reflexivity.
    + intros t I1 I2. apply in_map_iff in I1 as [[i j] [E1 I1]]. apply in_map_iff in I2 as [[i' j'] [E2 I2]]. destruct (LO i j I1) as [A _]. destruct (LO i' j' I2) as [_ B]. cbn [fst snd] in E1, E2. rewrite E1 in A. rewrite E2 in B. destruct t as [[x y] z]. destruct A as (A1 & A2 & _), B as (B1 & B2 & _). destruct (at_inj _ _ _ _ _ A1 B1). destruct (at_inj _ _ _ _ _ A2 B2). lia.
  - intros t. rewrite (mesh_triangles _ _ _ _ M), in_app_iff, !in_map_iff. split.
    + intros (i & j & Hi & Hj & [L|U]); [left|right]; exists (i, j); (split; [|apply in_cells; auto]); cbn [fst snd]; [apply (lower_at_l g s m n C Ts E Hs LM) in L|apply (upper_at_l g s m n C Ts E Hs LM) in U]; symmetry; tauto.
    + intros [[[i j] [<- I]]|[[i j] [<- I]]]; exists i, j; pose proof I as I'; apply in_cells in I as [I J]; (split; [exact I|]); (split; [exact J|]); [left|right]; apply (LO i j I').
Qed.
Lemma mesh_count : length (g_triangles g) = (2 * (m * n))%nat.
Proof. destruct mesh_cells as (lo & up & _ & P). rewrite (Permutation_length P), app_length, !map_length, cells_length. lia. Qed.
End M.
