(** Specification of a text that begins with a compound block (C131). *)
From Verif Require Import Text Span_Model Parser_Model Header_Model Block_Spec Block_Model Round_Spec Shift_Spec.

(** The text [t] begins with the line [l] that reads [d], two hyphens or four or more of the same mark; [c] is what comes before the next
    line that reads [d], and [rest] what comes after that. *)
Definition wrapped (l d c t rest : text) : Prop := exists r, a_line t l r d /\ compound_delimiter d /\ enclosed d r c (Some rest).
(** The loop over the blocks of a document or of a compound block; or that of a section, where a delimiter of more than six equals signs is
    taken for a title (C106). *)
Definition no_title_here (E : env) (f : stop_fn) (d : text) : Prop := f = never \/ ((exists n, f = section_stop E false n) /\ (length d <= 6 \/ forall y, d <> 61%N :: y)).
(** A compound block with nothing before it, which holds the blocks [bs] further down. *)
Definition a_wrap (d : text) (k o : nat) (bs : list block) (q : block) : Prop := exists src, q = BCompound (map (mv_block k o) bs) (box_meaning d) src no_common.
(** Such a block made of the results [b], and then the results [b2]. *)
Definition wrap_then (d : text) (k o k2 o2 : nat) (b b2 r : bres) : Prop :=
  (exists q, a_wrap d k o (br_blocks b) q /\ br_blocks r = q :: map (mv_block k2 o2) (br_blocks b2)) /\ br_warnings r = map (mv_w k o) (br_warnings b) ++ map (mv_w k2 o2) (br_warnings b2) /\
  br_level r = br_level b2 /\ br_stop_warnings r = map (mv_w k2 o2) (br_stop_warnings b2) /\ br_parser r = br_parser b2.
(** Lines in compound blocks, one in the other. *)
Fixpoint deep (ds ls : list text) : list text := match ds with [] => ls | d :: ds => d :: deep ds ls ++ [d] end.
(** No delimiter is read inside of the block. *)
Fixpoint deep_fits (ds ls : list text) : Prop :=
  match ds with [] => True | d :: ds' => compound_delimiter d /\ Forall (fun x => ~ In LF x /\ ~ line_reads d x) (deep ds' ls) /\ deep_fits ds' ls end.
(** The blocks [bs] in compound blocks, one in the other. *)
Fixpoint deep_blocks (ds : list text) (bs rs : list block) : Prop :=
  match ds with [] => rs = bs | d :: ds => exists inner q, deep_blocks ds bs inner /\ a_wrap d 1 (S (blen d)) inner q /\ rs = [q] end.
