(** A concrete set order (first occurrence order reversed by [nodup]); used only to exhibit concrete cases. *)
From Coq Require Import String.
From Verif.Model Require Import Py Num Tensors Domain.
Lemma edge_dec : forall a b : edge, {a = b} + {a <> b}.
Proof. decide equality; apply Nat.eq_dec. Defined.
Definition std_order : SetOrder.
Proof.
  refine {| so_nat := nodup Nat.eq_dec; so_edge := nodup edge_dec; so_str := nodup string_dec |};
    intros l; (split; [apply NoDup_nodup | intros x; apply nodup_In]).
Defined.
