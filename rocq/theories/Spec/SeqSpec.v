(** * Vectors as sequences; printed numbers. *)
From Coq Require Import String Ascii ZArith List.
Import ListNotations.
Local Open Scope Z_scope.

(** Where a slice bound lies in a sequence of [len] entries: negative bounds count from the end, bounds outside are moved to the nearest end. *)
Definition bound_at (len : nat) (b : Z) : nat :=
  Z.to_nat (Z.max 0 (Z.min (Z.of_nat len) (if b <? 0 then b + Z.of_nat len else b))).

(** Characters that do not occur in printed numbers: blank, line break, comma, brackets. *)
Definition punctuation : list ascii := [" "; ascii_of_nat 10; ","; "["; "]"; "("; ")"]%char.
Fixpoint chars (s : string) : list ascii := match s with EmptyString => [] | String c r => c :: chars r end.
(** A printed number: not empty, without punctuation. *)
Definition plain (s : string) : Prop := s <> EmptyString /\ forall c, In c (chars s) -> ~ In c punctuation.

(** A bound of a slice with step [c]: counted from the end if negative; clipped to [0..len], or [-1..len-1] if the slice runs backwards;
    [None] is the end the slice comes from ([first]) or runs to. *)
Definition slice_bound (len : nat) (c : Z) (first : bool) (b : option Z) : Z :=
  let n := Z.of_nat len in
  let lo := if c <? 0 then -1 else 0 in
  let hi := if c <? 0 then n - 1 else n in
  match b with
  | Some b => Z.max lo (Z.min hi (if b <? 0 then n + b else b))
  | None => if Bool.eqb first (c <? 0) then hi else lo
  end.
(** [p] comes before [q] when walking with step [c]. *)
Definition before (c p q : Z) : Prop := if c <? 0 then q < p else p < q.
