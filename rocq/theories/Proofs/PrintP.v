(** Printed tensors can be read back. *)
From Coq Require Import String Ascii Lia.
From Verif.Model Require Import Py Num Tensors TensorsX.
From Verif.Spec Require Import SeqSpec.
From Verif.Proofs Require Import Lib.
Local Open Scope list_scope.
Local Open Scope string_scope.
Local Notation length := List.length.

Lemma sapp_assoc (a b c : string) : (a ++ b) ++ c = a ++ (b ++ c).
Proof. induction a as [|x a IH]; [reflexivity|]. cbn. rewrite IH. reflexivity. Qed.
Lemma sapp_inj (a b c : string) : a ++ b = a ++ c -> b = c.
Proof. induction a as [|x a IH]; cbn; [auto|]. intros E. injection E as E. auto. Qed.

(** ** Lists of code words *)
Section Code.
Context (code : string -> Prop) (stop : ascii -> Prop).
Context (Hcode : forall s s' c c' a b, code s -> code s' -> stop c -> stop c' -> s ++ String c a = s' ++ String c' b -> s = s' /\ String c a = String c' b).
Context (Hne : forall s, code s -> exists c r, s = String c r /\ ~ stop c).
Context (c0 c1 : ascii) (sp cl : string) (H0 : stop c0) (H1 : stop c1) (H01 : c0 <> c1).
Lemma join_inj : forall l l', (forall s, In s l -> code s) -> (forall s, In s l' -> code s) ->
  join (String c0 sp) l ++ String c1 cl = join (String c0 sp) l' ++ String c1 cl -> l = l'.
Proof.
  assert (Z : forall x l, code x -> String c1 cl <> join (String c0 sp) (x :: l) ++ String c1 cl).
  { intros x l Hx E. destruct (Hne x Hx) as (c & r & -> & Hc). destruct l; cbn in E; injection E as E _; subst; contradiction. }
  induction l as [|x l IH]; intros [|x' l'] Hl Hl' E.
  - reflexivity.
  - exfalso. apply (Z x' l' (Hl' x' (or_introl eq_refl))). exact E.
  - exfalso. apply (Z x l (Hl x (or_introl eq_refl))). symmetry. exact E.
  - assert (Hx : code x) by (apply Hl; left; reflexivity). assert (Hx' : code x') by (apply Hl'; left; reflexivity).
    assert (F : forall y k, exists c z, stop c /\ join (String c0 sp) (y :: k) ++ String c1 cl = y ++ String c z /\ (k = [] -> String c z = String c1 cl) /\
      (forall y' k', k = y' :: k' -> String c z = String c0 (sp ++ (join (String c0 sp) k ++ String c1 cl)))).
    { intros y [|y' k]; [exists c1, cl|exists c0, (sp ++ (join (String c0 sp) (y' :: k) ++ String c1 cl))]; (split; [assumption|]).
      - split; [reflexivity|]. split; [reflexivity|intros; discriminate].
      - split; [|split; [intros; discriminate|reflexivity]]. change (join (String c0 sp) (y :: y' :: k)) with (y ++ (String c0 sp ++ join (String c0 sp) (y' :: k))).
        rewrite !sapp_assoc. reflexivity. }
    destruct (F x l) as (c & z & Sc & E1 & A1 & B1). destruct (F x' l') as (c' & z' & Sc' & E2 & A2 & B2). rewrite E1, E2 in E.
    destruct (Hcode _ _ _ _ _ _ Hx Hx' Sc Sc' E) as [-> Q]. f_equal.
    destruct l as [|y l], l' as [|y' l'].
    + reflexivity.
    + rewrite (A1 eq_refl), (B2 y' l' eq_refl) in Q. injection Q as Q _. subst. contradiction.
    + rewrite (A2 eq_refl), (B1 y l eq_refl) in Q. injection Q as Q _. subst. contradiction.
    + rewrite (B1 y l eq_refl), (B2 y' l' eq_refl) in Q. apply IH; [intros; apply Hl; right; assumption|intros; apply Hl'; right; assumption|]. injection Q as Q. apply sapp_inj in Q. exact Q.
Qed.
End Code.

(** ** Entries *)
Definition pstop (c : ascii) : Prop := In c punctuation.
Lemma plain_code s s' c c' a b : plain s -> plain s' -> pstop c -> pstop c' -> s ++ String c a = s' ++ String c' b -> s = s' /\ String c a = String c' b.
Proof.
  intros [_ P] [_ P'] Hc Hc'. revert s' P'. induction s as [|x s IH]; intros [|x' s'] P' E; cbn [append] in E.
  - split; [reflexivity|exact E].
  - injection E as -> _. exfalso. apply (P' x'); [left; reflexivity|exact Hc].
  - injection E as -> _. exfalso. apply (P c'); [left; reflexivity|exact Hc'].
  - injection E as -> E. destruct (IH (fun d Hd => P d (or_intror Hd)) s' (fun d Hd => P' d (or_intror Hd)) E) as [-> Q]. auto.
Qed.
Lemma plain_ne s : plain s -> exists c r, s = String c r /\ ~ pstop c.
Proof. intros [N P]. destruct s as [|c r]; [contradiction|]. exists c, r. split; [reflexivity|]. apply P. left. reflexivity. Qed.

(** ** Bracketed texts *)
Fixpoint closes (d : nat) (s : string) : Prop :=
  match s with
  | EmptyString => False
  | String c r => if Ascii.eqb c "[" then closes (S d) r
                  else if Ascii.eqb c "]" then (match d with 0 => False | 1 => r = EmptyString | S k => closes k r end)
                  else closes d r
  end.
Definition balanced (s : string) : Prop := forall d r, (1 <= d)%nat -> closes d r -> closes d (s ++ r).
Lemma closes_code : forall s s' d a b, closes d s -> closes d s' -> s ++ a = s' ++ b -> s = s' /\ a = b.
Proof.
  induction s as [|x s IH]; intros [|x' s'] d a b C C' E; cbn [closes append] in *; try contradiction. injection E as -> E.
  destruct (Ascii.eqb x' "["); [destruct (IH s' _ a b C C' E) as [-> ->]; auto|]. destruct (Ascii.eqb x' "]").
  - destruct d as [|[|d]]; [contradiction|subst; auto|]. destruct (IH s' _ a b C C' E) as [-> ->]. auto.
  - destruct (IH s' _ a b C C' E) as [-> ->]. auto.
Qed.
Definition bcode (s : string) : Prop := exists t, s = String "[" t /\ closes 1 t.
Lemma bcode_code s s' c c' a b : bcode s -> bcode s' -> c <> "["%char -> c' <> "["%char -> s ++ String c a = s' ++ String c' b -> s = s' /\ String c a = String c' b.
Proof. intros (t & -> & C) (t' & -> & C') _ _ E. cbn [append] in E. injection E as E. destruct (closes_code _ _ _ _ _ C C' E) as [-> ->]. auto. Qed.
Lemma bcode_ne s : bcode s -> exists c r, s = String c r /\ ~ c <> "["%char.
Proof. intros (t & -> & _). eexists _, _. split; [reflexivity|]. intros H. apply H. reflexivity. Qed.
Definition nobr (s : string) : Prop := forall c, In c (chars s) -> c <> "["%char /\ c <> "]"%char.
Lemma nobr_balanced s : nobr s -> balanced s.
Proof.
  intros H d r Hd C. induction s as [|c s IH]; [exact C|]. cbn [append closes]. destruct (H c (or_introl eq_refl)) as [A B].
  apply Ascii.eqb_neq in A, B. rewrite A, B. apply IH. intros c' Hc'. apply H. right. exact Hc'.
Qed.
Lemma balanced_app s s' : balanced s -> balanced s' -> balanced (s ++ s').
Proof. intros A B d r Hd C. rewrite sapp_assoc. apply A; [exact Hd|]. apply B; assumption. Qed.
Lemma balanced_nil : balanced "". Proof. intros d r _ C. exact C. Qed.
Lemma balanced_join sep l : balanced sep -> (forall s, In s l -> balanced s) -> balanced (join sep l).
Proof.
  intros Hs. induction l as [|x l IH]; intros H; [apply balanced_nil|]. assert (Hx : balanced x) by (apply H; left; reflexivity).
  assert (Hl : balanced (join sep l)) by (apply IH; intros; apply H; right; assumption). cbn [join]. destruct l as [|y l]; [exact Hx|]. apply balanced_app; [exact Hx|]. apply balanced_app; assumption.
Qed.
Lemma balanced_bcode s : balanced s -> bcode ("[" ++ (s ++ "]")).
Proof. intros H. exists (s ++ "]"). split; [reflexivity|]. apply H; [lia|]. cbn. reflexivity. Qed.
Lemma balanced_wrap s : balanced s -> balanced ("[" ++ (s ++ "]")).
Proof.
  intros H d r Hd C. cbn [append closes]. rewrite Ascii.eqb_refl. rewrite sapp_assoc. apply H; [lia|]. cbn [append closes]. change (Ascii.eqb "]" "[") with false. rewrite Ascii.eqb_refl. cbn iota. destruct d as [|d]; [lia|]. exact C.
Qed.
Lemma plain_nobr s : plain s -> nobr s.
Proof. intros [_ P] c Hc. split; intros ->; apply (P _ Hc); unfold punctuation; cbn; tauto. Qed.

Lemma map_ext_inj {A B} (f : A -> B) l l' : (forall a b, In a l -> In b l' -> f a = f b -> a = b) -> map f l = map f l' -> l = l'.
Proof.
  revert l'. induction l as [|x l IH]; intros [|y l'] H E; try discriminate; [reflexivity|]. cbn [map] in E. injection E as E1 E2.
  rewrite (H x y (or_introl eq_refl) (or_introl eq_refl) E1), (IH l'); [reflexivity| |exact E2]. intros; apply H; [right|right|]; assumption.
Qed.

(** ** Tensors *)
Section Show.
Context {T : Type} (show : T -> string) (Hplain : forall x, plain (show x)).
Lemma entries_inj (c : ascii) sp c1 cl (l l' : list T) : pstop c -> pstop c1 -> c <> c1 -> join (String c sp) (map show l) ++ String c1 cl = join (String c sp) (map show l') ++ String c1 cl -> map show l = map show l'.
Proof.
  intros A B D E. apply (join_inj plain pstop plain_code plain_ne c c1 sp cl A B D) in E; [exact E| |]; intros s Hs; apply in_map_iff in Hs as (x & <- & _); apply Hplain.
Qed.
Lemma row_items_ok (row : list T) : row_items row (length row) = Ok row.
Proof.
  unfold row_items. assert (G : forall pre post : list T, mapM (fun j => py_nth (pre ++ post)%list j) (seq (length pre) (length post)) = Ok post).
  { intros pre post. revert pre. induction post as [|x post IH]; intros pre; [reflexivity|]. cbn [length seq mapM]. unfold py_nth at 1. rewrite nth_error_app2, Nat.sub_diag by lia. cbn [nth_error bind].
    specialize (IH (pre ++ [x])%list). rewrite <- app_assoc in IH. cbn [app] in IH. rewrite app_length, Nat.add_1_r in IH. rewrite IH. reflexivity. }
  apply (G [] row).
Qed.
Definition rowtext (sep : string) (row : list T) : string := "[" ++ (join sep (map show row) ++ "]").
Lemma mapM_range_list {A B} (F : A -> res B) (G : A -> B) (l : list A) : (forall a, In a l -> F a = Ok (G a)) -> mapM (fun i => bind (py_nth l i) F) (range (length l)) = Ok (map G l).
Proof.
  intros H. assert (K : forall pre post : list A, (forall a, In a post -> F a = Ok (G a)) -> mapM (fun j => bind (py_nth (pre ++ post)%list j) F) (seq (length pre) (length post)) = Ok (map G post)).
  { intros pre post. revert pre. induction post as [|x post IH]; intros pre HP; [reflexivity|]. cbn [length seq mapM map]. unfold py_nth at 1. rewrite nth_error_app2, Nat.sub_diag by lia. cbn [nth_error bind].
    rewrite (HP x (or_introl eq_refl)). cbn [bind].
    specialize (IH (pre ++ [x])%list (fun a Ha => HP a (or_intror Ha))). rewrite <- app_assoc in IH. cbn [app] in IH. rewrite app_length, Nat.add_1_r in IH. rewrite IH. reflexivity. }
  apply (K [] l H).
Qed.
Lemma show_rows_ok sep (data : list (list T)) cols : (forall row, In row data -> length row = cols) -> show_rows show sep data (length data) cols = Ok (map (rowtext sep) data).
Proof.
  intros H. unfold show_rows. apply mapM_range_list. intros row Hr. unfold show_row. rewrite <- (H row Hr), row_items_ok. reflexivity.
Qed.
Lemma rowtext_inj (c : ascii) sp row row' : pstop c -> c <> "]"%char -> rowtext (String c sp) row = rowtext (String c sp) row' -> map show row = map show row'.
Proof. intros A B E. unfold rowtext in E. injection E as E. apply (entries_inj c sp "]" "" row row' A); [unfold pstop, punctuation; cbn; tauto|exact B|exact E]. Qed.
Lemma join_balanced sep row : balanced sep -> balanced (join sep (map show row)).
Proof. intros H. apply balanced_join; [exact H|]. intros s Hs. apply in_map_iff in Hs as (x & <- & _). apply nobr_balanced, plain_nobr, Hplain. Qed.
Lemma rowtext_bcode sep row : balanced sep -> bcode (rowtext sep row) /\ balanced (rowtext sep row).
Proof. intros H. split; [apply balanced_bcode|apply balanced_wrap]; apply join_balanced, H. Qed.
(** Rows are read back from their texts. *)
Lemma rows_inj (c c0 : ascii) sp sp0 cl (data data' : list (list T)) : pstop c -> c <> "]"%char -> balanced (String c sp) -> c0 <> "["%char -> c0 <> "]"%char ->
  join (String c0 sp0) (map (rowtext (String c sp)) data) ++ String "]" cl = join (String c0 sp0) (map (rowtext (String c sp)) data') ++ String "]" cl -> map (map show) data = map (map show) data'.
Proof.
  intros A B D E0 E1 E. apply (join_inj bcode (fun x => x <> "["%char) bcode_code bcode_ne c0 "]"%char sp0 cl E0 ltac:(discriminate) E1) in E;
    [|intros s Hs; apply in_map_iff in Hs as (x & <- & _); apply rowtext_bcode, D|intros s Hs; apply in_map_iff in Hs as (x & <- & _); apply rowtext_bcode, D].
  revert data' E. induction data as [|r data IH]; intros [|r' data'] E; try discriminate; [reflexivity|]. cbn [map] in E |- *.
  pose proof (f_equal (hd "") E) as F1. pose proof (f_equal (@tl _) E) as F2. cbn [hd tl] in F1, F2. f_equal; [apply (rowtext_inj c sp r r' A B F1)|apply IH, F2].
Qed.
Definition mattext (sep0 sep : string) (mat : list (list T)) : string := "[" ++ (join sep0 (map (rowtext sep) mat) ++ "]").
Lemma mattext_bcode sep0 sep mat : balanced sep0 -> balanced sep -> bcode (mattext sep0 sep mat) /\ balanced (mattext sep0 sep mat).
Proof.
  intros H0 H. assert (B : balanced (join sep0 (map (rowtext sep) mat))) by (apply balanced_join; [exact H0|]; intros s Hs; apply in_map_iff in Hs as (x & <- & _); apply rowtext_bcode, H).
  split; [apply balanced_bcode|apply balanced_wrap]; exact B.
Qed.
Lemma mats_inj (c c0 c1 : ascii) sp sp0 sp1 cl (data data' : list (list (list T))) : pstop c -> c <> "]"%char -> balanced (String c sp) -> c0 <> "["%char -> c0 <> "]"%char -> balanced (String c0 sp0) -> c1 <> "["%char -> c1 <> "]"%char ->
  join (String c1 sp1) (map (mattext (String c0 sp0) (String c sp)) data) ++ String "]" cl = join (String c1 sp1) (map (mattext (String c0 sp0) (String c sp)) data') ++ String "]" cl ->
  map (map (map show)) data = map (map (map show)) data'.
Proof.
  intros A B D E0 E1 D0 F0 F1 E. apply (join_inj bcode (fun x => x <> "["%char) bcode_code bcode_ne c1 "]"%char sp1 cl F0 ltac:(discriminate) F1) in E;
    [|intros s Hs; apply in_map_iff in Hs as (x & <- & _); apply mattext_bcode; assumption|intros s Hs; apply in_map_iff in Hs as (x & <- & _); apply mattext_bcode; assumption].
  revert data' E. induction data as [|r data IH]; intros [|r' data'] E; try discriminate; [reflexivity|]. cbn [map] in E |- *.
  pose proof (f_equal (hd "") E) as G1. pose proof (f_equal (@tl _) E) as G2. cbn [hd tl] in G1, G2. f_equal; [|apply IH, G2].
  unfold mattext in G1. injection G1 as G1. apply (rows_inj c c0 sp sp0 "" r r' A B D E0 E1 G1).
Qed.
End Show.
