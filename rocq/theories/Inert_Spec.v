(** Specification of the tags in a whole document (C117): what its texts have to be like, and what tags the rendered texts
    have then.  Source: docs/modules/subs/pages/special-characters.adoc, docs/modules/document/pages/author-line.adoc. *)
From Verif Require Import Text Maps Span_Model Parser_Model Subs_Model Attrlist_Model Entry_Model Group_Model Header_Model Header_Spec Block_Model Doc_Model
  Safe_Spec Tags_Spec BlockSubs_Spec Attrs_Spec.

(** The classes of C114, each with the characters that must not come in with a value. *)
Inductive text_class : text -> (text -> Prop) -> Prop :=
| tc_unbracketed : text_class (lit "[") unbracketed
| tc_worded : text_class (lit ":") worded.
(** A value that brings in nothing: no [<] and none of the characters [x]. *)
Definition inert (x v : text) : Prop := ~ In 60%N v /\ without x v.
Definition inert_parser (x : text) (P : parser) : Prop :=
  (forall n v, attribute_value P n = VValue v -> inert x v) /\ (forall n v, mget n (p_defaults P) = Some v -> inert x v).
(** An author whose only [<] is that of the address at the end. *)
Definition signed (x s : text) : Prop :=
  without x s /\ (~ In 60%N s \/ exists a m, s = a ++ lit "<" ++ m ++ lit ">" /\ ~ In 60%N (a ++ m)).
Definition signed_line (x l : text) : Prop := forall ts t s, pieces_of l ts -> In t ts -> bare t s -> signed x s.
(** The lines of a header: title and entries are of the class [C]; authors are as above; a revision line has no [<]. *)
Definition inert_header (x : text) (C : text -> Prop) (h : header) : Prop :=
  (forall s, h_title_source h = Some s -> C (sp_data s)) /\
  (forall a raw, In a (h_attrs h) -> at_value_source a = Some raw -> C (sp_data raw) /\ (author_entry a -> forall s, bare (sp_data raw) s -> signed x s)) /\
  (forall l, h_author h = Some l -> signed_line x (sp_data (aul_source l))) /\
  (forall r, h_revision h = Some r -> inert x (sp_data (rv_source r))).
(** The texts of a block: its title, the lines of a paragraph, the title of a section, the value of an entry are of the class
    [C]; and a paragraph has its usual substitutions. *)
Definition usual (cm : common) : Prop :=
  forall style g, list_style (cm_attrlist cm) style -> chosen GNormal style (list_subs (cm_attrlist cm)) g -> In g [GNormal; GTitle; GHeader].
Definition inert_block (C : text -> Prop) (b : block) : Prop :=
  (forall s, cm_title_source (block_common b) = Some s -> C (sp_data s)) /\
  match b with
  | BSimple c _ _ cm => C (sp_data (ct_original c)) /\ usual cm
  | BSection _ title _ _ _ _ _ _ => C (sp_data (ct_original title))
  | BAttribute a => forall raw, at_value_source a = Some raw -> C (sp_data raw)
  | _ => True
  end.
(** What is rendered then: paragraphs and titles have the tags of the substitutions only; values and verbatim blocks have
    none at all, if all delimited blocks are closed. *)
Definition own_tags_only (ws : list warning) (b : block) : Prop :=
  (forall t, cm_title (block_common b) = Some t -> made_of own_tags t) /\
  match b with
  | BSimple c _ _ _ => made_of own_tags (ct_rendered c)
  | BSection _ title _ _ _ _ _ _ => made_of own_tags (ct_rendered title)
  | BRaw c _ _ _ _ g => g = GVerbatim -> (forall s, ~ In (mkwarn s WUnterminatedDelimitedBlock) ws) -> ~ In 60%N (ct_rendered c)
  | BAttribute a => forall v, at_value a = VValue v -> ~ In 60%N v
  | _ => True
  end.
