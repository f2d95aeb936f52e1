(** Specification of what it is for a text to go on after an empty line (C124). *)
From Verif Require Import Text Span_Model Span_Pure Parser_Model Header_Model Block_Spec Block_Model Shift_Spec.

(** The text ends with a line feed, and the last line neither in white space nor in a backslash. *)
Definition well_ended (t : text) : Prop := t = [] \/ t = [LF] \/ exists u c, t = u ++ [c; LF] /\ c <> SP /\ c <> CR /\ c <> BSL.
(** The first line has something in it. *)
Definition shown (z : text) : Prop := exists l r n c, a_line z l r n /\ In c n /\ ~ sp_tab c.
Section extended.
(** The text that comes next, after an empty line. *)
Variable z : text.
Definition ext (s : span) : span := with_data s (sp_data s ++ LF :: z).
(** At the end: the empty line left out. *)
Definition ext_over (s : span) : span := skip s [LF] z.
(** Places that correspond: the same, or the end and where the next text begins. *)
Definition near (a a' : span) : Prop := a' = ext a \/ (sp_data a = [] /\ a' = ext_over a).
(** The same warnings, but that a warning about all the text from a place on is about the text that comes next as well. *)
Definition relw (ws ws' : list warning) : Prop := Forall2 (fun w w' => w_type w' = w_type w /\ (w_source w' = w_source w \/ w_source w' = ext (w_source w))) ws ws'.
End extended.
(** All delimited blocks are closed. *)
Definition terminated (ws : list warning) : Prop := forall w, In w ws -> w_type w <> WUnterminatedDelimitedBlock.
(** The text begins with a section of the first level (with metadata or without). *)
Definition chapter (E : env) (z : text) : Prop := exists m ws mi, metadata_parse E (span_new z) parser_default = Ok (m, ws) /\ is_discrete m = Ok false /\ parse_title_line (md_start m) = Ok (Some mi, []) /\ fst (mi_item mi) = 1.

(** No section. *)
Definition no_section (b : block) : Prop := forall l t bs s m ty id n, b <> BSection l t bs s m ty id n.
(** Texts with an empty line after each but the last. *)
Fixpoint in_turn (ts : list text) : text := match ts with [] => [] | [t] => t | t :: r => t ++ LF :: in_turn r end.
(** The text is a chapter: it ends well, and its first line is a title of the first level. *)
Definition a_chapter (t : text) : Prop := well_ended t /\ exists l r n title, a_line t l r n /\ heading n 1 title.
(** The blocks of the texts, each parsed as a text of its own with the attributes, ids and numbers that the ones before have left,
    and then put in its place. *)
Inductive read_each (E : env) (n : nat) : parser -> list text -> list block -> parser -> Prop :=
| re_last P t fuel b : parse_blocks_until E fuel never n (span_new t) P = Ok b -> read_each E n P [t] (br_blocks b) (br_parser b)
| re_more P t ts fuel b bs P' : parse_blocks_until E fuel never n (span_new t) P = Ok b -> terminated (br_warnings b) -> read_each E n (br_parser b) ts bs P' ->
    read_each E n P (t :: ts) (br_blocks b ++ map (mv_block (S (count_occ N.eq_dec t LF)) (blen t + 1)) bs) P'.
