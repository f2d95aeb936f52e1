(** Specification of where blocks lie in the document (C34, C36). *)
From Verif Require Import Text Span_Model Span_Spec Header_Spec Block_Model.

Definition start (b : block) : nat := sp_off (block_span b).
Definition stop (b : block) : nat := sp_off (block_span b) + blen (sp_data (block_span b)).
(** From the byte [i] to the byte [j] of the document [d] there is only white space. *)
Definition white (d : text) (i j : nat) : Prop := exists a w b, d = a ++ w ++ b /\ blank w /\ i = blen a /\ j = blen a + blen w.
(** [tree d a bs z]: the blocks [bs] lie in this order between the bytes [a] and [z] of [d]; none begins
    before the one before it ends.  The blocks in a block lie, in the same way, inside its span, or go
    over its end by white space at most; and they end before the next block begins. *)
Inductive tree (d : text) : nat -> list block -> nat -> Prop :=
| tr_nil a z : a <= z -> tree d a [] z
| tr_cons a b bs e m z : located d (block_span b) -> a <= start b -> white d (stop b) e ->
    tree d (start b) (nested_blocks b) e -> e <= m -> tree d m bs z -> tree d a (b :: bs) z.
(** The number of blocks in a list of blocks, with all the blocks in them. *)
Fixpoint count (b : block) : nat :=
  S (match b with
     | BSection _ _ l _ _ _ _ _ | BCompound l _ _ _ | BPreamble l _ => fold_right (fun x n => count x + n) 0 l
     | _ => 0
     end).
Definition count_all (l : list block) : nat := fold_right (fun x n => count x + n) 0 l.
