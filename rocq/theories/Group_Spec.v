(** Specification of substitution lists ([subs=...] and [pass:...[]]), read from the AsciiDoc
    documentation of custom substitutions, independent of the parsing loop. *)
From Verif Require Import Text Span_Model Attrlist_Model Group_Model.

(** The names of the substitutions, long and short. *)
Definition names : list (text * step) :=
  [(lit "specialchars", SSpecialCharacters); (lit "specialcharacters", SSpecialCharacters); (lit "c", SSpecialCharacters);
   (lit "quotes", SQuotes); (lit "q", SQuotes);
   (lit "attributes", SAttributeReferences); (lit "a", SAttributeReferences);
   (lit "replacements", SCharacterReplacements); (lit "r", SCharacterReplacements);
   (lit "macros", SMacros); (lit "m", SMacros);
   (lit "post_replacements", SPostReplacement); (lit "p", SPostReplacement)].
Definition all_substitutions : list step :=
  [SSpecialCharacters; SQuotes; SAttributeReferences; SCharacterReplacements; SMacros; SPostReplacement].

(** One item of a list: a group, which starts again from that group, a substitution, or a change
    ([+x] at the end, [x+] at the start, [-x] taken away). *)
Inductive item := Group (l : list step) | Plain (s : step) | Append (s : step) | Prepend (s : step) | Remove (s : step).
Inductive reads : text -> item -> Prop :=
| rd_n : reads (lit "n") (Group all_substitutions)
| rd_normal : reads (lit "normal") (Group all_substitutions)
| rd_v : reads (lit "v") (Group [SSpecialCharacters])
| rd_verbatim : reads (lit "verbatim") (Group [SSpecialCharacters])
| rd_plain n s : In (n, s) names -> reads n (Plain s)
| rd_append n s : In (n, s) names -> reads (lit "+" ++ n) (Append s)
| rd_prepend n s : In (n, s) names -> reads (n ++ lit "+") (Prepend s)
| rd_remove n s : In (n, s) names -> reads (lit "-" ++ n) (Remove s).

Definition effect (l : list step) (i : item) : list step :=
  match i with
  | Group g => g
  | Plain s | Append s => l ++ [s]
  | Prepend s => s :: l
  | Remove s => filter (fun x => negb (step_eqb x s)) l
  end.
(** A list that begins with a change starts from the defaults of the block, any other from nothing. *)
Definition initial (defaults : list step) (l : list item) : list step :=
  match l with
  | (Append _ | Prepend _ | Remove _) :: _ => defaults
  | _ => []
  end.
Definition meaning (defaults : list step) (l : list item) : list step := fold_left effect l (initial defaults l).
Definition defaults_of (start_from : option group) : list step :=
  match start_from with Some g => steps_of g | None => [] end.
(** A text as the list of its comma-separated items, blanks around each left out. *)
Definition itemised (t : text) (l : list item) : Prop :=
  exists raws, raws <> [] /\ Forall (fun r => ~ In COMMA r) raws /\ t = join (lit ",") raws /\
    Forall2 (fun r i => reads (trim r) i) raws l.
(** The words that name a whole group. *)
Definition group_words : list (text * group) :=
  [(lit "none", GNone); (lit "n", GNormal); (lit "normal", GNormal); (lit "v", GVerbatim); (lit "verbatim", GVerbatim)].
Definition word_group (t : text) (g : group) : Prop := In (t, g) group_words.
Definition is_word_group (t : text) : Prop := In t (map fst group_words).

(** Text without any character that has a meaning in running text. *)
Definition meaningful : text := lit "+$[]\:@<>&*_`#^~{'(" ++ [LF; PASS_START].
Definition inert (t : text) : Prop :=
  (forall c, In c t -> ~ In c meaningful) /\ (forall a b, t <> a ++ lit "--" ++ b) /\ (forall a b, t <> a ++ lit "..." ++ b).
(** The marks of a passthrough; the first leaves its content as it is, the others escape it. *)
Definition pass_marks : list text := [lit "+++"; lit "++"; lit "$$"].
Definition escape_char (c : char) : text :=
  if (c =? 60)%N then lit "&lt;" else if (c =? 62)%N then lit "&gt;" else if (c =? 38)%N then lit "&amp;" else [c].
Definition passed (mark w : text) : text := if text_eqb mark (lit "+++") then w else flat_map escape_char w.
