(** Model of what is written about warnings and catalogs: parser/src/warnings.rs, parser/src/internal/debug.rs and the [Debug] of
    parser/src/document/catalog.rs. Only the form without line breaks ([{:?}], not [{:#?}]). *)
From Verif Require Import Text Maps Catalog_Model Span_Model Parser_Model.

(** [Debug] of [str] and [String] in the standard library: which characters are written as they are is a table of that library, and so
    an argument ([pc]: printable, and no combining mark). *)
Definition hexd (n : N) : char := if (n <? 10)%N then (48 + n)%N else (87 + n)%N.
Fixpoint hex_go (fuel : nat) (n : N) : text :=
  match fuel with 0 => [] | S f => if (n <? 16)%N then [hexd n] else hex_go f (n / 16)%N ++ [hexd (n mod 16)%N] end.
Definition hex (n : N) : text := hex_go (S (N.to_nat (N.size n))) n.
Definition esc_char (pc : char -> bool) (c : char) : text :=
  if (c =? 0)%N then lit "\0" else if (c =? 9)%N then lit "\t" else if (c =? 13)%N then lit "\r" else if (c =? 10)%N then lit "\n"
  else if (c =? 34)%N then [92; 34]%N else if (c =? 92)%N then [92; 92]%N
  else if pc c then [c] else lit "\u{" ++ hex c ++ lit "}".
Definition quoted (pc : char -> bool) (t : text) : text := 34%N :: flat_map (esc_char pc) t ++ [34%N].

(** warnings.rs:19-77 [Display] of [WarningType], by the attributes [#[error]]. *)
Definition message (pc : char -> bool) (w : warning_type) : text :=
  match w with
  | WAttributeValueMissingTerminatingQuote => lit "An attribute value is missing its terminating quote"
  | WDocumentHeaderNotTerminated => lit "Document header wasn't terminated by a blank line (this line can't be parsed as part of a document header)"
  | WEmptyAttributeValue => lit "An empty attribute value was detected"
  | WEmptyShorthandItem => lit "A shorthand element attribute marker ('.', '#', or '%') was found with no subsequent text"
  | WInvalidMacroName => lit "Macro name is not a valid identifier"
  | WMediaMacroMissingTarget => lit "Media macro missing target"
  | WMacroMissingAttributeList => lit "Macro missing attribute list"
  | WMacroMissingDoubleColon => lit "Macro missing :: separator"
  | WMissingCommaAfterQuotedAttributeValue => lit "Missing comma after quoted attribute value"
  | WUnterminatedDelimitedBlock => lit "Closing marker for delimited block not found"
  | WMissingBlockAfterTitleOrAttributeList => lit "A block title or attribute list was found without a subsequent block"
  | WEmptyBlockAnchorName => lit "Block anchor name is empty"
  | WInvalidBlockAnchorName => lit "Block anchor name contains invalid name characters"
  | WAttributeValueIsLocked name => lit "Attribute " ++ quoted pc name ++ lit " can not be modified by document"
  | WDuplicateId id => lit "Duplicate ID: " ++ quoted pc id ++ lit " is already registered"
  | WLevel0SectionHeadingNotSupported => lit "Level 0 section headings not supported"
  | WSectionHeadingLevelSkipped expected found => lit "Section heading level skipped (expected " ++ show_nat expected ++ lit ", found " ++ show_nat found ++ lit ")"
  | WSectionHeadingLevelExceedsMaximum found => lit "Section heading level exceeds maximum (maximum 5, found " ++ show_nat found ++ lit ")"
  end.
(** warnings.rs:79-149 [Debug] of [WarningType]. *)
Definition debug_warning (pc : char -> bool) (w : warning_type) : text :=
  lit "WarningType::" ++
  match w with
  | WAttributeValueMissingTerminatingQuote => lit "AttributeValueMissingTerminatingQuote"
  | WDocumentHeaderNotTerminated => lit "DocumentHeaderNotTerminated"
  | WEmptyAttributeValue => lit "EmptyAttributeValue"
  | WEmptyShorthandItem => lit "EmptyShorthandItem"
  | WInvalidMacroName => lit "InvalidMacroName"
  | WMediaMacroMissingTarget => lit "MediaMacroMissingTarget"
  | WMacroMissingAttributeList => lit "MacroMissingAttributeList"
  | WMacroMissingDoubleColon => lit "MacroMissingDoubleColon"
  | WMissingCommaAfterQuotedAttributeValue => lit "MissingCommaAfterQuotedAttributeValue"
  | WUnterminatedDelimitedBlock => lit "UnterminatedDelimitedBlock"
  | WMissingBlockAfterTitleOrAttributeList => lit "MissingBlockAfterTitleOrAttributeList"
  | WEmptyBlockAnchorName => lit "EmptyBlockAnchorName"
  | WInvalidBlockAnchorName => lit "InvalidBlockAnchorName"
  | WAttributeValueIsLocked name => lit "AttributeValueIsLocked(" ++ quoted pc name ++ lit ")"
  | WDuplicateId id => lit "DuplicateId(" ++ quoted pc id ++ lit ")"
  | WLevel0SectionHeadingNotSupported => lit "Level0SectionHeadingNotSupported"
  | WSectionHeadingLevelSkipped expected found => lit "SectionHeadingLevelSkipped(" ++ show_nat expected ++ lit ", " ++ show_nat found ++ lit ")"
  | WSectionHeadingLevelExceedsMaximum found => lit "SectionHeadingLevelExceedsMaximum(" ++ show_nat found ++ lit ")"
  end.

(** The order of [String]s: that of their bytes, which for UTF-8 is that of the characters. *)
Fixpoint text_leb (a b : text) : bool :=
  match a, b with
  | [], _ => true
  | _ :: _, [] => false
  | x :: a', y :: b' => if (x <? y)%N then true else if (y <? x)%N then false else text_leb a' b'
  end.
(** internal/debug.rs:21 [sort_by_key]: a stable sort by the written keys. The crate uses the sort of the standard library; this is insertion. *)
Section sorting.
Context {V : Type} (pc : char -> bool).
Fixpoint sort_in (x : text * V) (l : list (text * V)) : list (text * V) :=
  match l with [] => [x] | y :: r => if text_leb (quoted pc (fst x)) (quoted pc (fst y)) then x :: l else y :: sort_in x r end.
Definition sort_keys (m : list (text * V)) : list (text * V) := fold_right sort_in [] m.
(** internal/debug.rs:16-30 [DebugHashMapFrom]; the list [m] has the entries in the order in which the map gives them. *)
Definition show_entry (sv : V -> text) (e : text * V) : text := lit "(" ++ quoted pc (fst e) ++ lit ", " ++ sv (snd e) ++ lit ")".
Definition show_map (sv : V -> text) (m : list (text * V)) : text := lit "HashMap::from([" ++ join (lit ", ") (map (show_entry sv) (sort_keys m)) ++ lit "])".
End sorting.
(** catalog.rs:175-183 [Debug] of [RefType]. *)
Definition show_reftype (r : reftype) : text :=
  match r with RAnchor => lit "RefType::Anchor" | RSection => lit "RefType::Section" | RBibliography => lit "RefType::Bibliography" end.
(** catalog.rs:186-196 derived [Debug] of [RefEntry]. *)
Definition show_opt (pc : char -> bool) (o : option text) : text := match o with Some t => lit "Some(" ++ quoted pc t ++ lit ")" | None => lit "None" end.
Definition show_ref (pc : char -> bool) (r : refentry) : text :=
  lit "RefEntry { id: " ++ quoted pc (re_id r) ++ lit ", reftext: " ++ show_opt pc (re_reftext r) ++ lit ", ref_type: " ++ show_reftype (re_type r) ++ lit " }".
(** catalog.rs:154-161 [Debug] of [Catalog]. *)
Definition show_catalog (pc : char -> bool) (c : catalog) : text :=
  lit "Catalog { refs: " ++ show_map pc (show_ref pc) (cat_refs c) ++ lit ", reftext_to_id: " ++ show_map pc (quoted pc) (cat_reftexts c) ++ lit " }".
