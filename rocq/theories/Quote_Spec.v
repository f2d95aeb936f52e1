(** Formatting marks, stated without patterns: where a mark stands, which of the possible marks is
    taken, and what it becomes. *)
From Verif Require Import Text Maps Span_Model Parser_Model Regex_Lang Attrlist_Model Render_Model Quote_Model.

(** A constrained mark [op body cl] must not touch a word; [extra] are further characters that may not
    stand before it.  An unconstrained mark may stand anywhere; [blanks] says whether its text may
    contain blanks. *)
Inductive form := FConstrained (extra op cl : text) | FUnconstrained (blanks : bool) (mark : text).
Definition op_of (f : form) : text := match f with FConstrained _ o _ => o | FUnconstrained _ m => m end.
Definition cl_of (f : form) : text := match f with FConstrained _ _ c => c | FUnconstrained _ m => m end.

(** The attribute list written before a mark. *)
Definition attrs_src (o : option text) : text := match o with Some a => lit "[" ++ a ++ lit "]" | None => [] end.
Definition attrs_ok (o : option text) : Prop :=
  match o with Some a => a <> [] /\ (forall c, In c a -> c <> 91%N /\ c <> 93%N) | None => True end.
Definition mark_src (f : form) (lead : text) (attrs : option text) (body : text) : text :=
  lead ++ attrs_src attrs ++ op_of f ++ body ++ cl_of f.
(** What stands before: for a constrained mark the start of the text or one character that is not part
    of a word; for an unconstrained mark nothing or a backslash. *)
Definition lead_ok (U : unicode) (f : form) (prev : option char) (lead : text) : Prop :=
  match f with
  | FConstrained extra _ _ =>
      (lead = [] /\ prev = None) \/ exists c, lead = [c] /\ is_word U c = false /\ ~ In c (lit "&;:}" ++ extra)
  | FUnconstrained _ _ => lead = [] \/ lead = [92%N]
  end.
Definition body_ok (f : form) (body : text) : Prop :=
  match f with
  | FConstrained _ _ _ =>
      exists c, is_ws c = false /\ (body = [c] \/ exists m d, body = c :: m ++ [d] /\ is_ws d = false)
  | FUnconstrained blanks _ => body <> [] /\ (blanks = true \/ forall c, In c body -> is_ws c = false)
  end.
Definition after_ok (U : unicode) (f : form) (rest : text) : Prop :=
  match f with FConstrained _ _ _ => forall c r, rest = c :: r -> is_word U c = false | FUnconstrained _ _ => True end.
Definition mark_at (U : unicode) (f : form) (prev : option char) (t lead : text) (attrs : option text) (body rest : text) : Prop :=
  t = mark_src f lead attrs body ++ rest /\ lead_ok U f prev lead /\ attrs_ok attrs /\ body_ok f body /\ after_ok U f rest.
(** Of all marks at one place, the one with the shortest text counts. *)
Definition chosen (U : unicode) (f : form) (prev : option char) (t lead : text) (attrs : option text) (body rest : text) : Prop :=
  mark_at U f prev t lead attrs body rest /\
  forall lead' attrs' body' rest', mark_at U f prev t lead' attrs' body' rest' ->
    length lead < length lead' \/ length lead = length lead' /\ length body <= length body'.

(** The HTML written for a mark. *)
Definition attr_text (name value : text) : text := lit " " ++ name ++ [61%N; 34%N] ++ value ++ [34%N].
Definition tagged (tag : text) (id : option text) (roles : list text) (body : text) : text :=
  lit "<" ++ tag ++ match id with Some i => attr_text (lit "id") i | None => [] end
  ++ match roles with [] => [] | _ => attr_text (lit "class") (join (lit " ") roles) end ++ lit ">" ++ body ++ lit "</" ++ tag ++ lit ">".
Definition element (ty : quote_type) (id : option text) (roles : list text) (body : text) : text :=
  match ty with
  | QStrong => tagged (lit "strong") id roles body
  | QEmphasis => tagged (lit "em") id roles body
  | QMonospaced => tagged (lit "code") id roles body
  | QSuperscript => tagged (lit "sup") id roles body
  | QSubscript => tagged (lit "sub") id roles body
  | QDoubleQuote => lit "&#8220;" ++ body ++ lit "&#8221;"
  | QSingleQuote => lit "&#8216;" ++ body ++ lit "&#8217;"
  | QMark => match id, roles with None, [] => tagged (lit "mark") None [] body | _, _ => tagged (lit "span") id roles body end
  | QUnquoted => match id, roles with None, [] => body | _, _ => tagged (lit "span") id roles body end
  end.
(** What a mark becomes.  A backslash before it is dropped and the mark kept; before a constrained mark
    with an attribute list it is only the list that is kept.  With an attribute list a [#] mark is no
    longer a highlight. *)
Definition replaced (U : unicode) (P : parser) (ty : quote_type) (f : form) (lead : text) (attrs : option text) (body x : text) : Prop :=
  (lead = [92%N] /\
   match f, attrs with
   | FConstrained _ _ _, Some a => x = lit "[" ++ a ++ lit "]" ++ element ty None [] body
   | _, _ => x = attrs_src attrs ++ op_of f ++ body ++ cl_of f
   end) \/
  (lead <> [92%N] /\
   match attrs with
   | None => x = lead ++ element ty None [] body
   | Some a => exists al id roles style, inline_attrlist U P a = Ok al /\ al_id al = Ok id /\ al_roles al = Ok roles /\ al_block_style al = Ok style /\
       x = lead ++ element (match ty with QMark => QUnquoted | _ => ty end) id (match style with Some s => [s] | None => [] end ++ roles) body
   end).
Definition mark_rule (U : unicode) (P : parser) (ty : quote_type) (f : form) (prev : option char) (w rest x : text) : Prop :=
  exists lead attrs body, chosen U f prev (w ++ rest) lead attrs body rest /\ w = mark_src f lead attrs body /\ replaced U P ty f lead attrs body x.

(** The marks, in the order in which they are looked for. *)
Definition marks : list (quote_type * form) :=
  [(QStrong, FUnconstrained true (lit "**")); (QStrong, FConstrained [] (lit "*") (lit "*"));
   (QDoubleQuote, FConstrained [] [34%N; 96%N] [96%N; 34%N]); (QSingleQuote, FConstrained [] [39%N; 96%N] [96%N; 39%N]);
   (QMonospaced, FUnconstrained true (lit "``")); (QMonospaced, FConstrained [34%N; 39%N; 96%N] (lit "`") (lit "`"));
   (QEmphasis, FUnconstrained true (lit "__")); (QEmphasis, FConstrained [] (lit "_") (lit "_"));
   (QMark, FUnconstrained true (lit "##")); (QMark, FConstrained [] (lit "#") (lit "#"));
   (QSuperscript, FUnconstrained false (lit "^")); (QSubscript, FUnconstrained false (lit "~"))].

(** Texts without mark characters, brackets, backslashes and quotes. *)
Definition plain (t : text) : Prop := forall c, In c t -> ~ In c (lit "*_`#^~[]\'" ++ [34%N]).
(** [body] may be marked with [f] between [a] and [b]. *)
Definition fits (U : unicode) (f : form) (a body b : text) : Prop :=
  body_ok f body /\ after_ok U f b /\
  match f with
  | FConstrained _ _ _ => a = [] \/ exists a' c, a = a' ++ [c] /\ is_word U c = false /\ ~ In c (lit "&;:}")
  | FUnconstrained _ _ => True
  end.

(** The mark whose candidates are rejected when a quote or a backtick follows, and the texts in which
    that cannot happen. *)
Definition mono : quote_type * form := (QMonospaced, FConstrained [34%N; 39%N; 96%N] (lit "`") (lit "`")).
Definition quiet (t : text) : Prop := forall a c b, t = a ++ 96%N :: c :: b -> c <> 34%N /\ c <> 39%N /\ c <> 96%N.
(** The marks of [l] are replaced one kind after the other. *)
Inductive formatted (U : unicode) (P : parser) : list (quote_type * form) -> text -> text -> Prop :=
| fm_nil t : formatted U P [] t t
| fm_cons tf l t t' o : (tf = mono -> quiet t) -> rewritten (mark_rule U P (fst tf) (snd tf)) None t t' -> formatted U P l t' o -> formatted U P (tf :: l) t o.
