(** Specification of the order of the substitutions (C108). *)
From Verif Require Import Text Parser_Model Regex Regex_Lang Subs_Proof Subs_Chars Subs_Spec Group_Spec Attrlist_Model Subs_Model Quote_Model Quote_Spec Macro_Model Macro_Spec Auto_Spec Inline_Spec Inline_Proof Url_Proof Image_Spec Image_Proof Group_Model.

(** A step that is taken when [g] holds, and else changes nothing. *)
Definition if_marked (g : Prop) (R : text -> text -> Prop) (t o : text) : Prop := (g /\ R t o) \/ (~ g /\ o = t).
(** The inline macros of a text, kind after kind: images and icons, URLs, link and mailto macros, e-mail
    addresses, anchors.  Each kind is looked for in what the kinds before it have written; whether it is
    looked for at all is decided by the marks in the text at the beginning. *)
Definition macros_in_order (U : unicode) (fs : char) (P : parser) (t o : text) : Prop := exists t1 t2 t3 t4,
  if_marked (In 91%N t /\ (occurs (lit "image:") t \/ occurs (lit "icon:") t))
    (replaced picture_at (picture_out (reads U P) (image_place U fs P) (icon_place U fs P) (mode_of P)) None) t t1 /\
  if_marked (occurs (lit "://") t) (replaced url_at (url_out U (reads U P) (hides P)) None) t1 t2 /\
  if_marked (In 91%N t /\ (occurs (lit "link:") t \/ occurs (lit "ilto:") t))
    (replaced link_macro_at (link_macro_out U (reads U P) encode_uri_component (hides P)) None) t2 t3 /\
  if_marked (In 64%N t) (rewritten (r_email U) None) t3 t4 /\
  if_marked (occurs (lit "[[") t \/ In 91%N t /\ occurs (lit "or:") t) (replaced (anchor_at U) (anchor_out U) None) t4 o.

(** What one step makes of a text, in documents without hard breaks by option. *)
Definition step_made (U : unicode) (fs : char) (P : parser) (s : step) (t o : text) : Prop :=
  match s with
  | SSpecialCharacters => o = flat_map escape_char t
  | SQuotes => formatted U P marks t o
  | SAttributeReferences => expands (value_of P) t o
  | SCharacterReplacements => passes (replacement_rules U) t o
  | SMacros => macros_in_order U fs P t o
  | SPostReplacement => (~ In LF t /\ o = t) \/ In LF t /\ exists ls ls', lines_are t ls /\ lines_are o ls' /\ Forall2 plus_broken ls ls'
  | SCallouts => False
  end.
Inductive in_order (U : unicode) (fs : char) (P : parser) : list step -> text -> text -> Prop :=
| io_nil t : in_order U fs P [] t t
| io_cons s l t t1 o : step_made U fs P s t t1 -> in_order U fs P l t1 o -> in_order U fs P (s :: l) t o.
(** The documented order (subs/pages/index.adoc) and the steps of each group (the table there). *)
Definition documented : list step := [SSpecialCharacters; SQuotes; SAttributeReferences; SCharacterReplacements; SMacros; SPostReplacement].
Definition group_table : list (group * list step) :=
  [(GNormal, documented); (GTitle, documented); (GHeader, [SSpecialCharacters; SAttributeReferences]); (GVerbatim, [SSpecialCharacters]); (GPass, []); (GNone, [])].
