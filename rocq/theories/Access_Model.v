(** Model of what a parsed block reports: parser/src/blocks/is_block.rs, context.rs, the [impl IsBlock] of
    each kind of block, and blocks/block.rs:366-494, which passes the questions on. *)
From Verif Require Import Text Span_Model Subs_Model Attrlist_Model Entry_Model Header_Model Parser_Model Group_Model Block_Model Doc_Model.

(** blocks/context.rs:1-32 [is_built_in_context]. *)
Definition is_built_in_context (context : text) : bool :=
  existsb (text_eqb context)
    [lit "admonition"; lit "audio"; lit "colist"; lit "dlist"; lit "document"; lit "example"; lit "floating_title"; lit "image";
     lit "list_item"; lit "listing"; lit "literal"; lit "olist"; lit "open"; lit "page_break"; lit "paragraph"; lit "pass";
     lit "preamble"; lit "quote"; lit "section"; lit "sidebar"; lit "table"; lit "table_cell"; lit "thematic_break"; lit "toc";
     lit "ulist"; lit "verse"; lit "video"].

(** blocks/block.rs:366-377 [content_model] and what it calls: media.rs:167-169, raw_delimited.rs:168-170,
    compound_delimited.rs:143-145, preamble.rs:39-41, break.rs:78-80, document/attribute.rs:111-113. *)
Definition block_content_model (b : block) : content_model :=
  match b with
  | BSimple _ _ _ _ => CmSimple
  | BMedia _ _ _ _ _ => CmEmpty
  | BSection _ _ _ _ _ _ _ _ => CmCompound
  | BRaw _ model _ _ _ _ => model
  | BCompound _ _ _ _ => CmCompound
  | BPreamble _ _ => CmCompound
  | BBreak _ _ _ => CmEmpty
  | BAttribute _ => CmEmpty
  end.
(** blocks/block.rs:379-390 [rendered_content]: simple.rs:238-240, raw_delimited.rs:172-174; is_block.rs:35-37 for
    the others. *)
Definition rendered_content (b : block) : option text :=
  match b with
  | BSimple c _ _ _ | BRaw c _ _ _ _ _ => Some (ct_rendered c)
  | _ => None
  end.
(** blocks/block.rs:392-403 [raw_context]: simple.rs:242-244, media.rs:171-178, section.rs:211-213,
    raw_delimited.rs:176-178, compound_delimited.rs:147-149, preamble.rs:43-45, break.rs:82-88,
    document/attribute.rs:115-117. *)
Definition raw_context (b : block) : text :=
  match b with
  | BSimple _ _ _ _ => lit "paragraph"
  | BMedia MAudio _ _ _ _ => lit "audio"
  | BMedia MImage _ _ _ _ => lit "image"
  | BMedia MVideo _ _ _ _ => lit "video"
  | BSection _ _ _ _ _ _ _ _ => lit "section"
  | BRaw _ _ context _ _ _ => context
  | BCompound _ context _ _ => context
  | BPreamble _ _ => lit "preamble"
  | BBreak BThematic _ _ => lit "thematic_break"
  | BBreak BPage _ _ => lit "page_break"
  | BAttribute _ => lit "attribute"
  end.
(** blocks/block.rs:431-468 [title], [anchor], [anchor_reftext], [attrlist]; a break has no field for the anchor
    text (break.rs:102-104) and a media block never fills it (media.rs:136), preambles and entries have none. *)
Definition block_title (b : block) : option text := cm_title (block_common b).
Definition block_anchor (b : block) : option span := cm_anchor (block_common b).
Definition block_anchor_reftext (b : block) : option span := match b with BBreak _ _ _ => None | _ => cm_reftext (block_common b) end.
Definition block_attrlist (b : block) : option attrlist := cm_attrlist (block_common b).
(** blocks/is_block.rs:100-104 [declared_style]. *)
Definition declared_style (b : block) : res (option text) :=
  match block_attrlist b with
  | None => Ok None
  | Some a => match nth_attribute a 1 with None => Ok None | Some e => ea_block_style e end
  end.
(** blocks/is_block.rs:58-66 [resolved_context]. *)
Definition resolved_context (b : block) : res text :=
  o <- declared_style b ;;
  Ok (match o with
      | Some style => if is_built_in_context style then style else raw_context b
      | None => raw_context b
      end).
(** blocks/is_block.rs:146-150 [id] for [Block], which blocks/block.rs:366-494 does not override. *)
Definition enum_id (b : block) : res (option text) :=
  match block_anchor b with
  | Some a => Ok (Some (sp_data a))
  | None => match block_attrlist b with Some a => al_id a | None => Ok None end
  end.
(** blocks/is_block.rs:173-178 [roles], 244-249 [options], 256-259 [has_option]. *)
Definition block_roles (b : block) : res (list text) := match block_attrlist b with Some a => al_roles a | None => Ok [] end.
Definition block_options (b : block) : res (list text) := match block_attrlist b with Some a => al_options a | None => Ok [] end.
Definition block_has_option (b : block) (name : text) : res bool :=
  match block_attrlist b with Some a => al_has_option a name | None => Ok false end.
(** blocks/block.rs:483-494 [substitution_group]: raw_delimited.rs:200-202; is_block.rs:278-280 for the others. *)
Definition substitution_group (b : block) : group := match b with BRaw _ _ _ _ _ g => g | _ => GNormal end.
(** document/document.rs:153-188: the document as a block. *)
Definition document_content_model (d : document) : content_model := CmCompound.
Definition document_raw_context (d : document) : text := lit "document".
Definition document_nested_blocks (d : document) : list block := d_blocks d.
