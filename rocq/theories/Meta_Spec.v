(** Specification of the metadata lines above a block (docs/modules/blocks/pages/index.adoc, add-title.adoc,
    docs/modules/attributes/pages/element-attributes.adoc, id.adoc). *)
From Verif Require Import Text Span_Model Span_Spec Span_Prop Block_Spec Parser_Model.

(** A metadata line: a title; an anchor with an id and maybe a text; an attribute list. *)
Inductive item := ITitle (x : text) | IAnchor (id : text) (rt : option text) | IList (x : text).
(** A name that can be an id: the characters of C08. *)
Definition id_name (U : unicode) (t : text) : Prop := exists c a, t = c :: a /\ xml_first U c /\ Forall (xml_more U) a.
Definition item_line (U : unicode) (n : text) (i : item) : Prop :=
  match i with
  | ITitle x => n = lit "." ++ x /\ forall c y, x = c :: y -> c <> 46%N /\ ~ sp_tab c
  | IAnchor id None => id_name U id /\ n = lit "[[" ++ id ++ lit "]]"
  | IAnchor id (Some rt) => id_name U id /\ rt <> [] /\ n = lit "[[" ++ id ++ lit "," ++ rt ++ lit "]]"
  | IList x => n = lit "[" ++ x ++ lit "]" /\ (forall c y, x = c :: y -> ~ sp_tab c) /\ forall y, x <> lit "[" ++ y ++ lit "]"
  end.
Definition same_kind (i j : item) : bool :=
  match i, j with ITitle _, ITitle _ | IAnchor _ _, IAnchor _ _ | IList _, IList _ => true | _, _ => false end.
(** [meta_lines U seen t is r]: the metadata lines at [t] are [is], of each kind one at most where [seen]
    counts as well, and [r] is the text after them. *)
Inductive meta_lines (U : unicode) : list item -> text -> list item -> text -> Prop :=
| me_line seen t l r n i is_ rest : a_line t l r n -> item_line U n i -> existsb (same_kind i) seen = false ->
    meta_lines U (i :: seen) r is_ rest -> meta_lines U seen t (i :: is_) rest
| me_end seen t l r n : a_line t l r n -> (forall i, item_line U n i -> existsb (same_kind i) seen = true) -> meta_lines U seen t [] t.
Definition the_title (l : list item) : option text := hd_error (flat_map (fun i => match i with ITitle x => [x] | _ => [] end) l).
Definition the_anchor (l : list item) : option text := hd_error (flat_map (fun i => match i with IAnchor x _ => [x] | _ => [] end) l).
Definition the_reftext (l : list item) : option text := hd_error (flat_map (fun i => match i with IAnchor _ (Some x) => [x] | _ => [] end) l).
Definition the_list (l : list item) : option text := hd_error (flat_map (fun i => match i with IList x => [x] | _ => [] end) l).
(** The warnings about a line in double brackets that is no anchor. *)
Definition bad_anchor (U : unicode) (n : text) (w : warning_type) : Prop :=
  (n = lit "[[" ++ lit "]]" /\ w = WEmptyBlockAnchorName) \/
  (exists x, x <> [] /\ n = lit "[[" ++ x ++ lit "]]" /\ w = WInvalidBlockAnchorName /\ forall id rt, ~ item_line U n (IAnchor id rt)).
