(** Specification of the text of a section (C132). *)
From Verif Require Import Text Span_Model Parser_Model Header_Model Block_Spec Block_Model.

(** A line begins after this text. *)
Definition line_starts (p : text) : Prop := p = [] \/ exists q, p = q ++ [LF].
(** All titles in the text are of levels below [lv], whatever they stand in. *)
Definition deeper (lv : nat) (t : text) : Prop := forall p q l r n k title, t = p ++ q -> line_starts p -> a_line q l r n -> heading n k title -> lv < k.
(** No line begins with a blank. *)
Definition flush (t : text) : Prop := forall p c q, t = p ++ c :: q -> line_starts p -> ~ sp_tab c.
(** The same blocks, warnings about them and parser. *)
Definition same_blocks (b b' : bres) : Prop := br_blocks b = br_blocks b' /\ br_after b = br_after b' /\ br_warnings b = br_warnings b' /\ br_parser b = br_parser b'.
