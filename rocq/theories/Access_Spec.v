(** Specification of contexts and content models (docs/modules/blocks/pages/index.adoc, delimited.adoc, masquerading.adoc). *)
From Verif Require Import Text Span_Model Subs_Model Attrlist_Model Render_Model Block_Model.

(** The contexts of the kinds of block that are parsed, with their content models. *)
Definition context_models : list (text * content_model) :=
  [(lit "section", CmCompound); (lit "preamble", CmCompound); (lit "example", CmCompound); (lit "open", CmCompound); (lit "sidebar", CmCompound); (lit "quote", CmCompound);
   (lit "paragraph", CmSimple);
   (lit "listing", CmVerbatim); (lit "literal", CmVerbatim);
   (lit "pass", CmRaw); (lit "comment", CmRaw);
   (lit "image", CmEmpty); (lit "audio", CmEmpty); (lit "video", CmEmpty); (lit "thematic_break", CmEmpty); (lit "page_break", CmEmpty); (lit "attribute", CmEmpty)].
(** The table of built-in contexts of index.adoc, in its order. *)
Definition built_in_contexts : list text :=
  [lit "admonition"; lit "audio"; lit "colist"; lit "dlist"; lit "document"; lit "example"; lit "floating_title"; lit "image"; lit "list_item"; lit "listing"; lit "literal";
   lit "olist"; lit "open"; lit "page_break"; lit "paragraph"; lit "pass"; lit "preamble"; lit "quote"; lit "section"; lit "sidebar"; lit "table"; lit "table_cell"; lit "thematic_break"; lit "toc"; lit "ulist";
   lit "verse"; lit "video"].
(** The context of a block: its style, if that is the name of a context, else what its syntax implies. *)
Definition context_is (style : option text) (implied cx : text) : Prop :=
  (style = Some cx /\ In cx built_in_contexts) \/ ((forall x, style = Some x -> ~ In x built_in_contexts) /\ cx = implied).
(** The id given to a block: in its anchor, else in its attribute list. *)
Definition given_id (b : block) (o : option text) : Prop :=
  match cm_anchor (block_common b) with
  | Some a => o = Some (sp_data a)
  | None => match cm_attrlist (block_common b) with Some a => al_id a = Ok o | None => o = None end
  end.
(** A content model with text of its own. *)
Definition has_text (m : content_model) : Prop := m = CmSimple \/ m = CmVerbatim \/ m = CmRaw.
