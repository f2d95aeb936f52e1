(** Specification of what a parser keeps from one document to the next, and of documents without their section numbers (C128). *)
From Verif Require Import Text Maps Span_Model Catalog_Model Parser_Model Attrlist_Model Pre_Model Header_Model Block_Model Doc_Model Shift_Spec.

(** The same attributes. *)
Definition same_attrs (P Q : parser) : Prop := p_attrs P = p_attrs Q /\ p_defaults P = p_defaults Q.
(** Functions that do not look at anything else of the parser. *)
Definition sub_reads_attrs (E : env) : Prop := forall P Q g h t, same_attrs P Q -> e_sub E P g h t = e_sub E Q g h t.
Definition ifh_reads_attrs (ifh : include_handler) : Prop := forall f t a P Q, same_attrs P Q -> ifh f t a P = ifh f t a Q.
(** A parser without what it knows about the numbers of sections. *)
Definition unnum (P : parser) : parser :=
  mkparser (p_attrs P) (p_defaults P) (p_primary P) (p_sep P) (p_catalog P) (mksn SNormal []) (mksn SAppendix []) 0 SNormal.
(** A block and a document without the numbers and types of sections. *)
Fixpoint unnum_block (b : block) : block :=
  match b with
  | BSection l t bs s m ty id n => BSection l t (map unnum_block bs) s m SNormal id None
  | BCompound bs cx s m => BCompound (map unnum_block bs) cx s m
  | BPreamble bs s => BPreamble (map unnum_block bs) s
  | _ => b
  end.
Definition unnum_doc (d : document) : document :=
  mkdoc (d_header d) (map unnum_block (d_blocks d)) (d_source d) (d_warnings d) (d_source_map d) (d_catalog d).
(** A new parser with these attributes (and the same defaults, file name and separator) that has counted so many appendices. *)
Definition as_new (P : parser) : parser :=
  mkparser (p_attrs P) (p_defaults P) (p_primary P) (p_sep P) (Some catalog_new) (mksn SNormal []) (p_last_app P) 3 SNormal.
