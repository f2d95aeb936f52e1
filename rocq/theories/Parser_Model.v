(** Model of the parser state: parser/src/parser/parser.rs, attribute_value.rs,
    built_in_attrs.rs, and the value types it uses. *)
From Verif Require Import Text Maps Span_Model Catalog_Model.

(** document/attribute.rs:137-149 [InterpretedValue]. *)
Inductive ivalue := VValue (t : text) | VSet | VUnset.
(** document/attribute.rs:207-212 [as_maybe_str]. *)
Definition as_maybe_str (v : ivalue) : option text := match v with VValue t => Some t | _ => None end.
Definition unwrap_or_default (o : option text) : text := match o with Some t => t | None => [] end.

(** parser/attribute_value.rs:47-68 [ModificationContext]. *)
Inductive mod_ctx := ApiOnly | ApiOrHeader | ApiOrDocumentBody | Anywhere.
(** parser/attribute_value.rs:26-45 [AllowableValue]; only the variants that occur. The field is
    never read by the code. *)
Inductive allowable := AnyValue | EmptyValue.
(** parser/attribute_value.rs:13-22 [AttributeValue]. *)
Record attr_value := mkav { av_allow : allowable; av_ctx : mod_ctx; av_value : ivalue }.

(** blocks/section.rs:424-438 [SectionType]. *)
Inductive section_type := SNormal | SAppendix | SDiscrete.
(** blocks/section.rs:457-461 [SectionNumber]. *)
Record section_number := mksn { sn_type : section_type; sn_comps : list nat }.

(** warnings.rs [WarningType] and [Warning]. *)
Inductive warning_type :=
| WAttributeValueMissingTerminatingQuote | WDocumentHeaderNotTerminated | WEmptyAttributeValue
| WEmptyShorthandItem | WInvalidMacroName | WMediaMacroMissingTarget | WMacroMissingAttributeList
| WMacroMissingDoubleColon | WMissingCommaAfterQuotedAttributeValue | WUnterminatedDelimitedBlock
| WMissingBlockAfterTitleOrAttributeList | WEmptyBlockAnchorName | WInvalidBlockAnchorName
| WAttributeValueIsLocked (name : text) | WDuplicateId (id : text)
| WLevel0SectionHeadingNotSupported | WSectionHeadingLevelSkipped (expected found : nat)
| WSectionHeadingLevelExceedsMaximum (found : nat).
Record warning := mkwarn { w_source : span; w_type : warning_type }.

(** document/attribute.rs:32-37 [Attribute]. *)
Record attribute := mkattr {
  at_name : span; at_value_source : option span; at_value : ivalue; at_source : span }.

(** parser/parser.rs:18-60 [Parser].  Not modelled as state: the renderer (the HTML renderer is
    modelled separately) and the include handler (an argument of the preprocessor model). *)
Record parser := mkparser {
  p_attrs : tmap attr_value;        (* attribute_values *)
  p_defaults : tmap text;           (* default_attribute_values *)
  p_primary : option text;          (* primary_file_name *)
  p_sep : char;                     (* path_resolver.file_separator *)
  p_catalog : option catalog;
  p_last : section_number;          (* last_section_number *)
  p_last_app : section_number;      (* last_appendix_section_number *)
  p_levels : nat;                   (* sectnumlevels *)
  p_topmost : section_type          (* topmost_section_type *)
}.
Definition with_attrs (p : parser) (a : tmap attr_value) : parser :=
  mkparser a (p_defaults p) (p_primary p) (p_sep p) (p_catalog p) (p_last p) (p_last_app p) (p_levels p) (p_topmost p).
Definition with_catalog (p : parser) (c : option catalog) : parser :=
  mkparser (p_attrs p) (p_defaults p) (p_primary p) (p_sep p) c (p_last p) (p_last_app p) (p_levels p) (p_topmost p).
Definition with_last (p : parser) (n : section_number) : parser :=
  mkparser (p_attrs p) (p_defaults p) (p_primary p) (p_sep p) (p_catalog p) n (p_last_app p) (p_levels p) (p_topmost p).
Definition with_last_app (p : parser) (n : section_number) : parser :=
  mkparser (p_attrs p) (p_defaults p) (p_primary p) (p_sep p) (p_catalog p) (p_last p) n (p_levels p) (p_topmost p).
Definition with_levels (p : parser) (n : nat) : parser :=
  mkparser (p_attrs p) (p_defaults p) (p_primary p) (p_sep p) (p_catalog p) (p_last p) (p_last_app p) n (p_topmost p).
Definition with_topmost (p : parser) (t : section_type) : parser :=
  mkparser (p_attrs p) (p_defaults p) (p_primary p) (p_sep p) (p_catalog p) (p_last p) (p_last_app p) (p_levels p) t.
(** parser/parser.rs:331-334 [with_primary_file_name]. *)
Definition with_primary_file_name (p : parser) (n : text) : parser :=
  mkparser (p_attrs p) (p_defaults p) (Some n) (p_sep p) (p_catalog p) (p_last p) (p_last_app p) (p_levels p) (p_topmost p).

(** parser/built_in_attrs.rs:8-126 [built_in_attrs]. *)
Definition built_in_attrs : tmap attr_value :=
  [ (lit "empty", mkav AnyValue ApiOnly (VValue []));
    (lit "sp", mkav AnyValue ApiOnly (VValue (lit " ")));
    (lit "deg", mkav AnyValue ApiOnly (VValue (lit "&#176;")));
    (lit "plus", mkav AnyValue ApiOnly (VValue (lit "&#43;")));
    (lit "toc", mkav AnyValue ApiOrHeader VUnset);
    (lit "sectids", mkav EmptyValue Anywhere VSet);
    (lit "sectnums", mkav EmptyValue Anywhere VUnset);
    (lit "sectnumlevels", mkav AnyValue ApiOrHeader (VValue (lit "3")));
    (lit "idprefix", mkav AnyValue Anywhere (VValue (lit "_")));
    (lit "idseparator", mkav AnyValue Anywhere (VValue (lit "_")));
    (lit "example-caption", mkav AnyValue Anywhere VSet);
    (lit "iconsdir", mkav AnyValue Anywhere VSet) ].
(** parser/built_in_attrs.rs:128-137 [built_in_default_values]. *)
Definition built_in_default_values : tmap text :=
  [ (lit "example-caption", lit "Example"); (lit "iconsdir", lit "./images/icons");
    (lit "sectnums", lit "all"); (lit "toc", lit "auto") ].

(** parser/parser.rs:62-81 [Parser::default], on a platform whose separator is '/'. *)
Definition parser_default : parser :=
  mkparser built_in_attrs built_in_default_values None 47%N (Some catalog_new)
    (mksn SNormal []) (mksn SAppendix []) 3 SNormal.

(** parser/parser.rs:154-168 [attribute_value]. *)
Definition attribute_value (p : parser) (name : text) : ivalue :=
  match mget name (p_attrs p) with
  | Some av =>
      match av_value av with
      | VSet => match mget name (p_defaults p) with Some d => VValue d | None => VSet end
      | v => v
      end
  | None => VUnset
  end.
(** parser/parser.rs:173-175 [has_attribute]. *)
Definition has_attribute (p : parser) (name : text) : bool := mhas name (p_attrs p).
(** parser/parser.rs:182-187 [is_attribute_set]. *)
Definition is_attribute_set (p : parser) (name : text) : bool :=
  match mget name (p_attrs p) with
  | Some av => match av_value av with VUnset => false | _ => true end
  | None => false
  end.

(** parser/parser.rs:207-224 [with_intrinsic_attribute]. *)
Definition with_intrinsic_attribute (U : unicode) (p : parser) (name value : text) (ctx : mod_ctx) : parser :=
  with_attrs p (mput (to_lowercase U name) (mkav AnyValue ctx (VValue value)) (p_attrs p)).
(** parser/parser.rs:298-320 [with_intrinsic_attribute_bool]. *)
Definition with_intrinsic_attribute_bool (U : unicode) (p : parser) (name : text) (value : bool) (ctx : mod_ctx) : parser :=
  with_attrs p (mput (to_lowercase U name) (mkav AnyValue ctx (if value then VSet else VUnset)) (p_attrs p)).

(** parser/parser.rs:477-485 [remap_attr_name]. *)
Definition remap_attr_name (U : unicode) (raw : text) : text :=
  let n := to_lowercase U raw in
  if text_eqb n (lit "hardbreaks") then lit "hardbreaks-option" else n.

(** parser/parser.rs:368-403 [set_attribute_from_header]; the list is the warnings pushed. *)
Definition set_attribute_from_header (U : unicode) (p : parser) (attr : attribute) : parser * list warning :=
  let attr_name := remap_attr_name U (sp_data (at_name attr)) in
  let locked := match mget attr_name (p_attrs p) with
                | Some av => match av_ctx av with ApiOnly | ApiOrDocumentBody => true | _ => false end
                | None => false
                end in
  if locked then (p, [mkwarn (at_source attr) (WAttributeValueIsLocked attr_name)])
  else
    let value := match at_value attr with
                 | VSet => match mget attr_name (p_defaults p) with Some d => VValue d | None => VSet end
                 | v => v
                 end in
    (with_attrs p (mput attr_name (mkav AnyValue Anywhere value) (p_attrs p)), []).

(** parser/parser.rs:410-424 [set_attribute_by_value_from_header]. *)
Definition set_attribute_by_value_from_header (U : unicode) (p : parser) (name value : text) : parser :=
  with_attrs p (mput (remap_attr_name U name) (mkav AnyValue Anywhere (VValue value)) (p_attrs p)).

(** parser/parser.rs:430-456 [set_attribute_from_body]. *)
Definition set_attribute_from_body (U : unicode) (p : parser) (attr : attribute) : parser * list warning :=
  let attr_name := remap_attr_name U (sp_data (at_name attr)) in
  let locked := match mget attr_name (p_attrs p) with
                | Some av => match av_ctx av with Anywhere | ApiOrDocumentBody => false | _ => true end
                | None => false
                end in
  if locked then (p, [mkwarn (at_source attr) (WAttributeValueIsLocked attr_name)])
  else (with_attrs p (mput attr_name (mkav AnyValue Anywhere (at_value attr)) (p_attrs p)), []).

(** [Vec::truncate] then blocks/section.rs:468-477 [assign_next_number]. The index
    [components[level - 1]] is in range there. *)
Fixpoint incr_at (i : nat) (l : list nat) : list nat :=
  match l, i with
  | [], _ => []
  | x :: r, 0 => S x :: r
  | x :: r, S i' => x :: incr_at i' r
  end.
Definition assign_next_number (n : section_number) (level : nat) : section_number :=
  let c := firstn level (sn_comps n) in
  mksn (sn_type n)
    (if length c <? level then c ++ repeat 1 (level - length c)
     else if 0 <? level then incr_at (level - 1) c
     else c).

(** blocks/section.rs:485-504 [Display for SectionNumber].  [x - 1] is a [usize] subtraction.
    [char::from_u32] fails on surrogates and above U+10FFFF, giving '?'. *)
Definition from_u32 (x : N) : option char :=
  if ((x <? 55296) || ((57344 <=? x) && (x <=? 1114111)))%N then Some x else None.
Definition show_component (ty : section_type) (index x : nat) : res text :=
  match index, ty with
  | 0, SAppendix =>
      y <- checked_sub x 1 ;;
      Ok [match from_u32 ((65 + N.of_nat y) mod 4294967296)%N with Some c => c | None => 63%N end]
  | _, _ => Ok (show_nat x)
  end.
Fixpoint show_components (ty : section_type) (index : nat) (l : list nat) : res (list text) :=
  match l with
  | [] => Ok []
  | x :: r => t <- show_component ty index x ;; ts <- show_components ty (S index) r ;; Ok (t :: ts)
  end.
Definition show_section_number (n : section_number) : res text :=
  ts <- show_components (sn_type n) 0 (sn_comps n) ;; Ok (join (lit ".") ts).

(** parser/parser.rs:459-474 [assign_section_number]. *)
Definition assign_section_number (p : parser) (level : nat) : section_number * parser :=
  match p_topmost p with
  | SNormal => let n := assign_next_number (p_last p) level in (n, with_last p n)
  | SAppendix => let n := assign_next_number (p_last_app p) level in (n, with_last_app p n)
  | SDiscrete => (p_last p, p)
  end.

(** The state reset of parser/parser.rs:115-128 [parse] before the document is parsed. *)
Definition begin_parse (p : parser) : parser :=
  with_last (match p_catalog p with None => with_catalog p (Some catalog_new) | Some _ => p end) (mksn SNormal []).
