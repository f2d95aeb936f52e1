(** Model of the [Debug] of places, warnings with their places, strings, attribute values, section numbers and source maps. Only the form
    without line breaks ([{:?}]), except for strings. *)
From Verif Require Import Text Maps Catalog_Model Span_Model Parser_Model Block_Model SourceMap_Model Strings_Model Show_Model.

(** [Debug] of a list in the standard library, and internal/debug.rs:6-13 [DebugSliceReference]. *)
Definition show_list {A} (show : A -> text) (l : list A) : text := lit "[" ++ join (lit ", ") (map show l) ++ lit "]".
Definition show_slice {A} (show : A -> text) (l : list A) : text := lit "&" ++ show_list show l.
(** span/mod.rs:52-58 derived [Debug] of [Span]. *)
Definition show_span (pc : char -> bool) (s : span) : text :=
  lit "Span { data: " ++ quoted pc (sp_data s) ++ lit ", line: " ++ show_nat (sp_line s) ++ lit ", col: " ++ show_nat (sp_col s) ++ lit ", offset: " ++ show_nat (sp_off s) ++ lit " }".
(** warnings.rs:9-16 derived [Debug] of [Warning]. *)
Definition show_warning (pc : char -> bool) (w : warning) : text :=
  lit "Warning { source: " ++ show_span pc (w_source w) ++ lit ", warning: " ++ debug_warning pc (w_type w) ++ lit " }".
(** strings.rs:42-46 derived [Debug] of [InlineStr]. *)
Definition show_inline (i : inline_str) : text :=
  lit "InlineStr { inner: " ++ show_list (fun b => show_nat (N.to_nat b)) (in_inner i) ++ lit ", len: " ++ show_nat (N.to_nat (in_len i)) ++ lit " }".
(** strings.rs:245-257 [Debug] of [CowStr], without and with [#]. *)
Definition show_cow (pc : char -> bool) (c : cowstr) : text :=
  match c with
  | Boxed s => lit "CowStr::Boxed(" ++ quoted pc s ++ lit ")"
  | Borrowed s => lit "CowStr::Borrowed(" ++ quoted pc s ++ lit ")"
  | Inlined i => lit "CowStr::Inlined(" ++ show_inline i ++ lit ")"
  end.
Definition pretty_cow (pc : char -> bool) (c : cowstr) : res text := s <- cow_deref c ;; Ok (quoted pc s).
(** document/attribute.rs:158-170 [Debug] of [InterpretedValue]. *)
Definition show_value (pc : char -> bool) (v : ivalue) : text :=
  match v with VValue t => lit "InterpretedValue::Value(" ++ quoted pc t ++ lit ")" | VSet => lit "InterpretedValue::Set" | VUnset => lit "InterpretedValue::Unset" end.
(** blocks/section.rs:440-448 [Debug] of [SectionType]; 506-513 [Debug] of [SectionNumber]. *)
Definition show_section_type (t : section_type) : text :=
  match t with SNormal => lit "SectionType::Normal" | SAppendix => lit "SectionType::Appendix" | SDiscrete => lit "SectionType::Discrete" end.
Definition debug_section_number (n : section_number) : text :=
  lit "SectionNumber { section_type: " ++ show_section_type (sn_type n) ++ lit ", components: " ++ show_slice show_nat (sn_comps n) ++ lit " }".
(** parser/source_map.rs:21-22 derived [Debug] of [SourceLine]; 46-54 [Debug] of [SourceMap]. *)
Definition show_line (pc : char -> bool) (l : source_line) : text := lit "SourceLine(" ++ show_opt pc (sl_file l) ++ lit ", " ++ show_nat (sl_line l) ++ lit ")".
Definition show_source_map (pc : char -> bool) (m : source_map) : text :=
  lit "SourceMap(&" ++ show_list (fun e => lit "(" ++ show_nat (fst e) ++ lit ", " ++ show_line pc (snd e) ++ lit ")") m ++ lit ")".
(** blocks/simple.rs:36-45 [Debug] of [SimpleBlockStyle]; break.rs:30-37 of [BreakType]; media.rs:37-45 of [MediaType];
    is_block.rs:310-321 of [ContentModel], for the variants that occur. *)
Definition show_style (s : simple_style) : text :=
  match s with StParagraph => lit "SimpleBlockStyle::Paragraph" | StLiteral => lit "SimpleBlockStyle::Literal" | StListing => lit "SimpleBlockStyle::Listing" | StSource => lit "SimpleBlockStyle::Source" end.
Definition show_break (b : break_type) : text := match b with BThematic => lit "BreakType::Thematic" | BPage => lit "BreakType::Page" end.
Definition show_media (m : media_type) : text := match m with MImage => lit "MediaType::Image" | MVideo => lit "MediaType::Video" | MAudio => lit "MediaType::Audio" end.
Definition show_model (m : content_model) : text :=
  match m with CmCompound => lit "ContentModel::Compound" | CmSimple => lit "ContentModel::Simple" | CmVerbatim => lit "ContentModel::Verbatim" | CmRaw => lit "ContentModel::Raw" | CmEmpty => lit "ContentModel::Empty" end.
