(** Specification of the tags in a substituted text (C114): which there may be, and of which texts and attribute values.
    Source: docs/modules/subs/pages/special-characters.adoc, docs/modules/pass/pages/index.adoc. *)
From Verif Require Import Text Maps Parser_Model Subs_Proof Safe_Spec.

(** The tags that the substitutions write themselves: those of the formatting marks, links, anchors and line breaks. *)
Definition mark_tags : list text :=
  flat_map (fun n => [lit "<" ++ n ++ lit ">"; lit "</" ++ n ++ lit ">"]) [lit "strong"; lit "em"; lit "code"; lit "sup"; lit "sub"; lit "mark"].
Definition own_tags : list text := mark_tags ++ [lit "<a href=" ++ [34%N]; lit "<a id=" ++ [34%N]; lit "</a>"; lit "<br>"].
(** A text in which every [<] is the beginning of a tag of [T]. *)
Inductive made_of (T : list text) : text -> Prop :=
| mo_nil : made_of T []
| mo_char c t : c <> 60%N -> made_of T t -> made_of T (c :: t)
| mo_tag w t : In w T -> made_of T t -> made_of T (w ++ t).
(** Texts without brackets; and texts without colons, in which no bracket is followed by a mark: nothing else is asked of
    the characters but that there is no inline passthrough and that backticks stand alone. *)
Definition unbracketed (t : text) : Prop := without (lit "[+$") t /\ lone_backticks t.
Definition worded (t : text) : Prop := without (lit ":+$") t /\ lone_backticks t /\ lone_brackets t.
(** The values of attributes that can be referred to have no tags but such, and none of the characters [x]. *)
Definition clean_values (x : text) (P : parser) : Prop := forall n v, value_of P n = Some v -> made_of own_tags v /\ without x v.
(** So have the values that an attribute gets when it is set without one. *)
Definition clean_defaults (x : text) (P : parser) : Prop := forall n v, mget n (p_defaults P) = Some v -> made_of own_tags v /\ without x v.
(** The parsers that come of a parser [P] when attributes are set in the header and in the body, to nothing or to a text
    [t] of the class [C] with the substitutions of the header [sub] in it. *)
Section Entered.
  Context (U : unicode) (C : text -> Prop) (sub : parser -> text -> text -> Prop).
  Definition entry_value (P : parser) (v : ivalue) : Prop := match v with VValue o => exists t, C t /\ sub P t o | _ => True end.
  Inductive entered : parser -> parser -> Prop :=
  | en_none P : entered P P
  | en_header P Q a : entered P Q -> entry_value Q (at_value a) -> entered P (fst (set_attribute_from_header U Q a))
  | en_body P Q a : entered P Q -> entry_value Q (at_value a) -> entered P (fst (set_attribute_from_body U Q a)).
End Entered.
