(** Specification of the warnings of a document (C106, C107): where each kind points, and what is there. *)
From Verif Require Import Text Span_Model Span_Spec Parser_Model Parser_Spec Entry_Spec Block_Model Block_Spec Meta_Spec Walk_Spec.

(** The span [s] is in [D] between the texts [x] and [y]. *)
Definition framed (D x y : text) (s : span) : Prop :=
  exists a b, D = a ++ x ++ sp_data s ++ y ++ b /\ sp_off s = blen (a ++ x).
(** A line that begins with exactly [n] marks of headings. *)
Definition marks (t : text) (n : nat) : Prop :=
  exists c q, In c (lit "=#") /\ t = repeat c n ++ q /\ forall y, q <> c :: y.
(** What is at the place of a warning of each kind.  Four kinds do not occur: what is wrong with a block
    macro is not reported. *)
Definition what (U : unicode) (D : text) (s : span) (w : warning_type) : Prop :=
  let x := sp_data s in
  match w with
  | WAttributeValueMissingTerminatingQuote | WEmptyAttributeValue | WEmptyShorthandItem | WMissingCommaAfterQuotedAttributeValue =>
      framed D (lit "[") (lit "]") s /\ ~ In LF x
  | WDocumentHeaderNotTerminated => x <> [] /\ ~ In LF x
  | WInvalidMacroName | WMediaMacroMissingTarget | WMacroMissingAttributeList | WMacroMissingDoubleColon => False
  | WUnterminatedDelimitedBlock => raw_delimiter x \/ compound_delimiter x
  | WMissingBlockAfterTitleOrAttributeList => exists c y, x = c :: y /\ In c (lit ".[")
  | WEmptyBlockAnchorName => x = [] /\ framed D (lit "[[") (lit "]]") s
  | WInvalidBlockAnchorName => ~ id_name U x /\ (framed D (lit "[[") (lit "]]") s \/ framed D (lit "[[") (lit ",") s)
  | WAttributeValueIsLocked n => exists name y, n = remap_attr_name U name /\ user_name name /\ (x = lit ":" ++ name ++ y \/ x = lit ":!" ++ name ++ y)
  | WDuplicateId _ => True
  | WLevel0SectionHeadingNotSupported => marks x 1
  | WSectionHeadingLevelSkipped expected found => expected + 1 < found <= 5 /\ ~ In LF x
  | WSectionHeadingLevelExceedsMaximum n => 6 <= n /\ marks x (n + 1)
  end.
Definition tells (U : unicode) (D : text) (w : warning) : Prop := located D (w_source w) /\ what U D (w_source w) (w_type w).

(** The ids under which the blocks are registered, in the order in which the blocks end, each with the
    place where the block starts. *)
Fixpoint placed (b : block) : list (text * nat) :=
  match b with BSection _ _ bs _ _ _ _ _ | BCompound bs _ _ _ | BPreamble bs _ => flat_map placed bs | _ => [] end ++
  match registered b with Some i => [(i, sp_off (block_span b))] | None => [] end.
(** Those that come again. *)
Fixpoint repeats (seen : list text) (l : list (text * nat)) : list (text * nat) :=
  match l with
  | [] => []
  | (i, o) :: r => (if in_dec (list_eq_dec N.eq_dec) i seen then [(i, o)] else []) ++ repeats (i :: seen) r
  end.
(** The ids that are reported as duplicates, each with the place of the warning. *)
Definition reported (ws : list warning) : list (text * nat) :=
  flat_map (fun w => match w_type w with WDuplicateId i => [(i, sp_off (w_source w))] | _ => [] end) ws.
