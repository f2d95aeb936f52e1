(** Specification of what it is for a document to have other line endings (C126). *)
From Verif Require Import Text Span_Model Parser_Model Attrlist_Model Header_Model Block_Model Doc_Model.

(** The text with a carriage return before every line feed. *)
Fixpoint crlf (t : text) : text := match t with [] => [] | c :: r => if (c =? LF)%N then CR :: LF :: crlf r else c :: crlf r end.
(** A span in the text with the other line endings: as many bytes further down as there are lines before it. *)
Definition cr (s : span) : span := mkspan (crlf (sp_data s)) (sp_line s) (sp_col s) (sp_off s + (sp_line s - 1)).
(** The same for everything that has spans in it.  The text of a verbatim block as it is shown is left out (see [hush]). *)
Definition cr_al (a : attrlist) : attrlist := mkal (al_attrs a) (al_anchor a) (cr (al_source a)).
Definition cr_w (w : warning) : warning := mkwarn (cr (w_source w)) (w_type w).
Definition cr_ct (c : content) : content := mkct (cr (ct_original c)) (ct_rendered c).
Definition cr_at (a : attribute) : attribute := mkattr (cr (at_name a)) (option_map cr (at_value_source a)) (at_value a) (cr (at_source a)).
Definition cr_cm (m : common) : common :=
  mkcm (option_map cr (cm_title_source m)) (cm_title m) (option_map cr (cm_anchor m)) (option_map cr (cm_reftext m)) (option_map cr_al (cm_attrlist m)).
Fixpoint cr_block (b : block) : block :=
  match b with
  | BSimple c s st m => BSimple (cr_ct c) (cr s) st (cr_cm m)
  | BMedia ty t a s m => BMedia ty (cr t) (cr_al a) (cr s) (cr_cm m)
  | BSection l t bs s m ty id n => BSection l (cr_ct t) (map cr_block bs) (cr s) (cr_cm m) ty id n
  | BRaw c md cx s m g => BRaw (mkct (cr (ct_original c)) []) md cx (cr s) (cr_cm m) g
  | BCompound bs cx s m => BCompound (map cr_block bs) cx (cr s) (cr_cm m)
  | BPreamble bs s => BPreamble (map cr_block bs) (cr s)
  | BBreak ty s m => BBreak ty (cr s) (cr_cm m)
  | BAttribute a => BAttribute (cr_at a)
  end.
Definition cr_rev (r : revision_line) : revision_line := mkrev (rv_number r) (rv_date r) (rv_remark r) (cr (rv_source r)).
Definition cr_aul (a : author_line) : author_line := mkal_line (aul_authors a) (cr (aul_source a)).
Definition cr_header (h : header) : header :=
  mkheader (option_map cr (h_title_source h)) (h_title h) (map cr_at (h_attrs h)) (option_map cr_aul (h_author h)) (option_map cr_rev (h_revision h)) (map cr (h_comments h)) (cr (h_source h)).
Definition cr_doc (d : document) : document :=
  mkdoc (cr_header (d_header d)) (map cr_block (d_blocks d)) (cr (d_source d)) (map cr_w (d_warnings d)) (d_source_map d) (d_catalog d).
(** A block without the shown texts of verbatim blocks. *)
Fixpoint hush (b : block) : block :=
  match b with
  | BRaw c md cx s m g => BRaw (mkct (ct_original c) []) md cx s m g
  | BSection l t bs s m ty id n => BSection l t (map hush bs) s m ty id n
  | BCompound bs cx s m => BCompound (map hush bs) cx s m
  | BPreamble bs s => BPreamble (map hush bs) s
  | _ => b
  end.
Definition hush_doc (d : document) : document := mkdoc (d_header d) (map hush (d_blocks d)) (d_source d) (d_warnings d) (d_source_map d) (d_catalog d).
(** The inline layer goes the same way over a text with the other line endings: it has an answer, panics or takes
    too long for the one as for the other. *)
Definition same_way {A B} (x : res A) (y : res B) : Prop := match x, y with Ok _, Ok _ | Panic, Panic | OutOfFuel, OutOfFuel => True | _, _ => False end.
Definition bears_crlf (E : env) : Prop := forall P g hb x, same_way (e_sub E P g hb (crlf x)) (e_sub E P g hb x).
(** The name [author], in letters of either case. *)
Definition author_name (n : text) : Prop := Forall2 (fun x c => x = c \/ (x + 32)%N = c) n (lit "author").
(** An attribute entry that does not give the author over more than one line. *)
Definition author_on_line (a : attribute) : Prop := author_name (sp_data (at_name a)) -> forall v, at_value_source a = Some v -> ~ In LF (sp_data v).
