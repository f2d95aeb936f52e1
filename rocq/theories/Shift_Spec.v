(** Specification of what it is for the same text to stand further down in a document (C123). *)
From Verif Require Import Text Span_Model Parser_Model Attrlist_Model Header_Model Block_Model Doc_Model.

(** A function on results. *)
Definition on_ok {A B} (f : A -> B) (r : res A) : res B := match r with Ok a => Ok (f a) | Panic => Panic | OutOfFuel => OutOfFuel end.

Section moved.
(** [k] lines and [o] bytes further down. *)
Variables k o : nat.
Definition mv (s : span) : span := mkspan (sp_data s) (sp_line s + k) (sp_col s) (sp_off s + o).
(** The same for everything that has spans in it. *)
Definition mv_mi {A} (f : A -> A) (m : mitem A) : mitem A := mkmi (f (mi_item m)) (mv (mi_after m)).
Definition mv_al (a : attrlist) : attrlist := mkal (al_attrs a) (al_anchor a) (mv (al_source a)).
Definition mv_w (w : warning) : warning := mkwarn (mv (w_source w)) (w_type w).
Definition mv_ct (c : content) : content := mkct (mv (ct_original c)) (ct_rendered c).
Definition mv_at (a : attribute) : attribute := mkattr (mv (at_name a)) (option_map mv (at_value_source a)) (at_value a) (mv (at_source a)).
Definition mv_md (m : metadata) : metadata :=
  mkmd (option_map mv (md_title_source m)) (md_title m) (option_map mv (md_anchor m)) (option_map mv (md_reftext m)) (option_map mv_al (md_attrlist m)) (mv (md_source m)) (mv (md_start m)).
Definition mv_cm (m : common) : common :=
  mkcm (option_map mv (cm_title_source m)) (cm_title m) (option_map mv (cm_anchor m)) (option_map mv (cm_reftext m)) (option_map mv_al (cm_attrlist m)).
Fixpoint mv_block (b : block) : block :=
  match b with
  | BSimple c s st m => BSimple (mv_ct c) (mv s) st (mv_cm m)
  | BMedia ty t a s m => BMedia ty (mv t) (mv_al a) (mv s) (mv_cm m)
  | BSection l t bs s m ty id n => BSection l (mv_ct t) (map mv_block bs) (mv s) (mv_cm m) ty id n
  | BRaw c md cx s m g => BRaw (mv_ct c) md cx (mv s) (mv_cm m) g
  | BCompound bs cx s m => BCompound (map mv_block bs) cx (mv s) (mv_cm m)
  | BPreamble bs s => BPreamble (map mv_block bs) (mv s)
  | BBreak ty s m => BBreak ty (mv s) (mv_cm m)
  | BAttribute a => BAttribute (mv_at a)
  end.
Definition mv_rev (r : revision_line) : revision_line := mkrev (rv_number r) (rv_date r) (rv_remark r) (mv (rv_source r)).
Definition mv_aul (a : author_line) : author_line := mkal_line (aul_authors a) (mv (aul_source a)).
Definition mv_header (h : header) : header :=
  mkheader (option_map mv (h_title_source h)) (h_title h) (map mv_at (h_attrs h)) (option_map mv_aul (h_author h)) (option_map mv_rev (h_revision h)) (map mv (h_comments h)) (mv (h_source h)).
Definition mv_bres (b : bres) : bres :=
  mkbr (map mv_block (br_blocks b)) (mv (br_after b)) (map mv_w (br_warnings b)) (br_level b) (map mv_w (br_stop_warnings b)) (br_parser b).
Definition mv_pres (r : pres) : pres := mkpr (option_map (mv_mi mv_block) (pr_item r)) (map mv_w (pr_warnings r)) (pr_parser r).
End moved.

(** Blank lines: spaces, and perhaps a carriage return, before each line feed; and how many there are. *)
Inductive blank_lines : text -> nat -> Prop :=
| bl_nil : blank_lines [] 0
| bl_line n e x m : e = [] \/ e = [CR] -> blank_lines x m -> blank_lines (repeat SP n ++ e ++ LF :: x) (S m).
(** A document [k] lines and [o] bytes further down in [t]: its own span is that of the whole text. *)
Definition mv_doc (k o : nat) (t : text) (d : document) : document :=
  mkdoc (mv_header k o (d_header d)) (map (mv_block k o) (d_blocks d)) (mkspan (trim_end t) 1 1 0) (map (mv_w k o) (d_warnings d)) (d_source_map d) (d_catalog d).
