(** Specification of the kinds of blocks (docs/modules/blocks/pages/breaks.adoc, paragraphs.adoc, delimited.adoc,
    docs/modules/sections/pages/titles-and-levels.adoc, docs/modules/macros/pages/image-macro.adoc). *)
From Verif Require Import Text Span_Model Header_Spec Subs_Model Block_Model Block_Spec Meta_Spec.

(** * The forms of a line that begins a block other than a paragraph *)
(** The containers of delimited.adoc: the character of the delimiter line, the context, the content model. *)
Definition raw_containers : list (char * (text * content_model)) :=
  [(47%N, (lit "comment", CmRaw)); (45%N, (lit "listing", CmVerbatim)); (46%N, (lit "literal", CmVerbatim)); (43%N, (lit "pass", CmRaw))].
Definition compound_containers : list (char * text) := [(61%N, lit "example"); (42%N, lit "sidebar"); (95%N, lit "quote")].
Inductive form :=
| FRaw (context : text) (model : content_model) | FCompound (context : text)
| FMedia (ty : media_type) (target : text)
| FHeading (level : nat) (title : text)
| FThematic | FPage.
Definition thematic_lines : list text := [lit "'''"; lit "---"; lit "- - -"; lit "***"; lit "* * *"].
Definition has_form (n : text) (f : form) : Prop :=
  match f with
  | FRaw cx mo => exists c, In (c, (cx, mo)) raw_containers /\ repeated c n
  | FCompound cx => (n = lit "--" /\ cx = lit "open") \/ exists c, In (c, cx) compound_containers /\ repeated c n
  | FMedia ty target => target <> [] /\ ~ In 91%N target /\ exists name attrs, In (ty, name) [(MImage, lit "image"); (MVideo, lit "video")] /\
      n = name ++ lit "::" ++ target ++ lit "[" ++ attrs ++ lit "]"
  | FHeading level title => heading n level title
  | FThematic => In n thematic_lines
  | FPage => n = lit "<<<"
  end.
(** The form of the line with which a block begins; [None] for a paragraph. *)
Definition block_form (b : block) : option form :=
  match b with
  | BRaw _ mo cx _ _ _ => Some (FRaw cx mo)
  | BCompound _ cx _ _ => Some (FCompound cx)
  | BMedia ty target _ _ _ => Some (FMedia ty (sp_data target))
  | BSection level title _ _ _ _ _ _ => Some (FHeading level (sp_data (ct_original title)))
  | BBreak BThematic _ _ => Some FThematic
  | BBreak BPage _ _ => Some FPage
  | _ => None
  end.
Definition is_paragraph (b : block) : Prop := exists c src st cm, b = BSimple c src st cm.

(** * The style of a paragraph *)
(** The declared style when it is one of four, else literal when the paragraph is indented. *)
Inductive para_style (style : option text) (k : nat) : simple_style -> Prop :=
| ps_normal : style = Some (lit "normal") -> para_style style k StParagraph
| ps_literal : style = Some (lit "literal") -> para_style style k StLiteral
| ps_listing : style = Some (lit "listing") -> para_style style k StListing
| ps_source : style = Some (lit "source") -> para_style style k StSource
| ps_indented : (forall x, style = Some x -> ~ In x [lit "normal"; lit "literal"; lit "listing"; lit "source"]) -> k <> 0 -> para_style style k StLiteral
| ps_plain : (forall x, style = Some x -> ~ In x [lit "normal"; lit "literal"; lit "listing"; lit "source"]) -> k = 0 -> para_style style k StParagraph.

(** * The kind of a block *)
(** [kind_fits style t n b]: [b] is the block that begins with the line [n] at the text [t] and has the
    declared style [style]. *)
Definition kind_fits (style : option text) (t n : text) (b : block) : Prop :=
  match block_form b with
  | Some f => style <> Some (lit "literal") /\ has_form n f
  | None => (exists c src st cm k, b = BSimple c src st cm /\ indented t k /\ para_style style k st) /\
      (style = Some (lit "literal") \/ forall f, ~ has_form n f)
  end.
