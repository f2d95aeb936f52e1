(** Specification of a text that begins with a raw block (C129). *)
From Verif Require Import Text Span_Model Parser_Model Header_Model Block_Spec Block_Model Round_Spec Shift_Spec.

(** The text [t] begins with a line that reads [d], four or more of the same mark; [x] is what comes before the next line that
    reads [d], and [rest] what comes after it. *)
Definition boxed (d x t rest : text) : Prop := exists l r c, a_line t l r d /\ raw_delimiter d /\ enclosed d r c (Some rest) /\ without_eol c x.
(** What is done to the text of such a block has a result. *)
Definition harmless (E : env) (d : text) : Prop := forall P x, exists o, e_sub E P (snd (raw_meaning d)) false x = Ok o.
(** The loops over the blocks of a document or of a compound block, and of a section of level [l]. *)
Definition block_loop_stop (E : env) (f : stop_fn) : Prop := f = never \/ exists l, f = section_stop E false l.
(** A result that is one block, and then [b], [k] lines and [o] bytes further down. *)
Definition then_moved (q : block) (k o : nat) (b : bres) (b' : bres) : Prop :=
  br_blocks b' = q :: map (mv_block k o) (br_blocks b) /\ br_warnings b' = map (mv_w k o) (br_warnings b) /\ br_level b' = br_level b /\
  br_stop_warnings b' = map (mv_w k o) (br_stop_warnings b) /\ br_parser b' = br_parser b.
(** A raw block with nothing before it. *)
Definition a_box (d x o : text) (q : block) : Prop :=
  exists c model src, q = BRaw c model (fst (raw_meaning d)) src no_common (snd (raw_meaning d)) /\ sp_data (ct_original c) = x /\ ct_rendered c = o.
