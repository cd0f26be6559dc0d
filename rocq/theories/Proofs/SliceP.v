(** Slices. *)
From Coq Require Import Lia ZArith.
From Verif.Model Require Import Py Num Tensors TensorsX.
From Verif.Spec Require Import SeqSpec.
From Verif.Proofs Require Import Lib.
Local Open Scope Z_scope.

Section Slice.
Context {A : Type} (l : list A).
Let len := Z.of_nat (length l).
Lemma index_in i : 0 <= i < len -> exists x, py_index l i = Ok x /\ nth_error l (Z.to_nat i) = Some x.
Proof.
  intros H. unfold py_index. destruct (Z.ltb_spec i 0); [lia|]. destruct (Z.ltb_spec i 0); [lia|].
  destruct (nth_error l (Z.to_nat i)) as [x|] eqn:E; [eauto|]. apply nth_error_None in E. unfold len in H. lia.
Qed.
Lemma slice_run start step : forall k, (forall j, (j < k)%nat -> 0 <= start + Z.of_nat j * step < len) ->
  exists w, mapM (fun j => py_index l (start + Z.of_nat j * step)) (range k) = Ok w /\ length w = k /\
    forall j, (j < k)%nat -> nth_error w j = nth_error l (Z.to_nat (start + Z.of_nat j * step)).
Proof.
  intros k. induction k as [|k IH]; intros H; [exists []; repeat split; intros; lia|].
  destruct IH as (w & E & L & N); [intros; apply H; lia|]. destruct (index_in (start + Z.of_nat k * step)) as (x & Ex & Nx); [apply H; lia|].
  exists (w ++ [x]). unfold range in *. rewrite seq_S. cbn [Nat.add]. rewrite mapM_app, E. cbn [bind mapM]. rewrite Ex. cbn [bind]. split; [reflexivity|].
  split; [rewrite app_length, L; cbn; lia|]. intros j Hj. destruct (Nat.eq_dec j k) as [->|Hne].
  - rewrite nth_error_app2, L, Nat.sub_diag by lia. cbn [nth_error]. symmetry. exact Nx.
  - rewrite nth_error_app1 by lia. apply N. lia.
Qed.
(** Bounds after adjustment. *)
Lemma adjust_fwd step d b : 0 < step -> 0 <= d <= len -> 0 <= adjust len step d b <= len.
Proof.
  intros Hs Hd. unfold adjust. destruct (Z.ltb_spec step 0); [lia|]. destruct b as [b|]; [|exact Hd]. unfold len.
  repeat (match goal with |- context [Z.ltb ?a ?b] => destruct (Z.ltb_spec a b) end; try lia).
Qed.
Lemma adjust_bwd step d b : step < 0 -> -1 <= d <= len - 1 -> -1 <= adjust len step d b <= len - 1.
Proof.
  intros Hs Hd. unfold adjust. destruct (Z.ltb_spec step 0); [|lia]. destruct b as [b|]; [|exact Hd]. unfold len in *.
  repeat (match goal with |- context [Z.ltb ?a ?b] => destruct (Z.ltb_spec a b) end; try lia).
Qed.
Lemma adjust_bound b d : adjust len 1 d (Some b) = Z.of_nat (bound_at (length l) b).
Proof.
  unfold adjust, bound_at. change (1 <? 0) with false. cbn iota. fold len. assert (0 <= len) by (unfold len; lia).
  destruct (Z.ltb_spec b 0); match goal with |- context [Z.ltb ?a 0] => destruct (Z.ltb_spec a 0) end; try destruct (Z.ltb_spec len (b + len)); try destruct (Z.ltb_spec len b); lia.
Qed.
Lemma range_len_in start stop step k : step <> 0 -> (k < range_len start stop step)%nat ->
  (0 < step /\ start <= start + Z.of_nat k * step < stop) \/ (step < 0 /\ stop < start + Z.of_nat k * step <= start).
Proof.
  intros Hs H. unfold range_len in H. destruct (Z.ltb_spec 0 step).
  - left. split; [lia|]. destruct (Z.ltb_spec start stop); [|lia]. assert (Q : Z.of_nat k <= (stop - start - 1) / step) by (pose proof (Z.div_pos (stop - start - 1) step); lia).
    pose proof (Z.mul_div_le (stop - start - 1) step ltac:(lia)). nia.
  - right. split; [lia|]. destruct (Z.ltb_spec stop start); [|lia]. assert (Q : Z.of_nat k <= (start - stop - 1) / (- step)) by (pose proof (Z.div_pos (start - stop - 1) (- step)); lia).
    pose proof (Z.mul_div_le (start - stop - 1) (- step) ltac:(lia)). nia.
Qed.
Lemma slice_ok s start stop step : slice_indices len s = Ok (start, stop, step) -> step <> 0 /\
  (forall k, (k < range_len start stop step)%nat -> 0 <= start + Z.of_nat k * step < len) /\
  exists w, py_slice l s = Ok w /\ length w = range_len start stop step /\ forall j, (j < length w)%nat -> nth_error w j = nth_error l (Z.to_nat (start + Z.of_nat j * step)).
Proof.
  intros E. pose proof E as E'. unfold slice_indices in E. set (st := match sl_step s with None => 1 | Some c => c end) in *.
  destruct (Z.eqb_spec st 0) as [|Hst]; [discriminate|]. injection E as E1 E2 E3. assert (L0 : 0 <= len) by (unfold len; lia).
  assert (B : forall k, (k < range_len start stop step)%nat -> 0 <= start + Z.of_nat k * step < len).
  { intros k Hk. destruct (range_len_in start stop step k ltac:(lia) Hk) as [[P Q]|[P Q]].
    - destruct (Z.ltb_spec st 0); [lia|]. pose proof (adjust_fwd st 0 (sl_start s) ltac:(lia) ltac:(lia)). pose proof (adjust_fwd st len (sl_stop s) ltac:(lia) ltac:(lia)). lia.
    - destruct (Z.ltb_spec st 0); [|lia]. pose proof (adjust_bwd st (len - 1) (sl_start s) ltac:(lia) ltac:(lia)). pose proof (adjust_bwd st (-1) (sl_stop s) ltac:(lia) ltac:(lia)). lia. }
  split; [lia|]. split; [exact B|]. unfold py_slice. fold len. rewrite E'. cbn [bind]. destruct (slice_run start step _ B) as (w & Q1 & Q2 & Q3). exists w. rewrite Q2. auto.
Qed.
End Slice.

Lemma nth_ext_error {A} (l l' : list A) : length l = length l' -> (forall j, (j < length l)%nat -> nth_error l j = nth_error l' j) -> l = l'.
Proof.
  revert l'. induction l as [|x l IH]; intros [|y l'] HL H; try discriminate; [reflexivity|]. pose proof (H O ltac:(cbn; lia)) as H0. cbn in H0. injection H0 as ->. f_equal. apply IH; [cbn in HL; lia|].
  intros j Hj. apply (H (S j)). cbn. lia.
Qed.
Lemma nth_error_firstn_skipn {A} (l : list A) a k j : (j < k)%nat -> nth_error (firstn k (skipn a l)) j = nth_error l (a + j).
Proof.
  intros Hj. transitivity (nth_error (skipn a l) j).
  - revert j k Hj. generalize (skipn a l) as m. induction m as [|x m IH]; intros [|j] [|k] Hj; cbn; try lia; try reflexivity. apply IH. lia.
  - clear Hj. revert a. induction l as [|x l IH]; intros [|a]; cbn; try reflexivity; [destruct j; reflexivity|apply IH].
Qed.
