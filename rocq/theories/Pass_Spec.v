(** Specification of the inline passthroughs (docs/modules/pass/pages/pass-macro.adoc): where they are in a text, and what
    is taken out of the text for each. *)
From Verif Require Import Text Span_Model Regex Regex_Proof Attrlist_Model Render_Model Group_Model Group_Spec Inline_Spec.

(** * What becomes of a form *)
(** It is kept as text, or it is taken out, with some text left in front of its placeholder. *)
Inductive outcome := Keep (x : text) | Take (x : text) (pt : passthrough).
(** Reading from left to right, from the [n]-th passthrough on: [F prev w rest] tells where the forms are and [G] what
    becomes of them; the result are the passthroughs in order and the text with a placeholder for each. *)
Section Taken.
  Context (F : option char -> text -> text -> Prop) (G : option char -> text -> text -> outcome -> Prop).
  Inductive taken : nat -> option char -> text -> list passthrough -> text -> Prop :=
  | tk_nil n prev : taken n prev [] [] []
  | tk_keep n prev w r x l o : F prev w r -> G prev w r (Keep x) -> taken n (prev_of prev w) r l o -> taken n prev (w ++ r) l (x ++ o)
  | tk_take n prev w r x pt l o : F prev w r -> G prev w r (Take x pt) -> taken (S n) (prev_of prev w) r l o ->
      taken n prev (w ++ r) (pt :: l) (x ++ placeholder n ++ o)
  | tk_char n prev c t l o : (forall w r, c :: t = w ++ r -> ~ F prev w r) -> taken n (Some c) t l o -> taken n prev (c :: t) l (c :: o).
End Taken.

(** * Attribute lists and backslashes in front of a mark *)
Definition no_brackets (a : text) : Prop := a <> [] /\ forall c, In c a -> ~ In c (lit "[]").
Definition backslashes (e : text) : Prop := e = [] \/ e = [BSL] \/ e = [BSL; BSL].
(** The list of a mark in the old style: it ends in the word [x-]; [l] is what is before that. *)
Definition old_style (a l : text) : Prop := (a = lit "x-" /\ l = []) \/ a = l ++ lit " x-".
(** The passthrough of a mark with an attribute list; [old]: whether the mark knows the old style. *)
Definition attributed (old : bool) (subs : group) (a body : text) (pt : passthrough) : Prop :=
  (old = true /\ exists l, old_style a l /\ pt = mkpt body GNormal (Some QMonospaced) (Some l)) \/
  ((old = false \/ forall l, ~ old_style a l) /\ pt = mkpt body subs (Some QUnquoted) (Some a)).

(** * The first pass: [+++], [++], [$$] and [pass:] *)
(** [body] ends at the first closing mark. *)
Definition closes (mark body rest : text) : Prop := forall x y, body ++ mark ++ rest = x ++ mark ++ y -> length body <= length x.
(** An attribute list, perhaps with a backslash of its own. *)
Definition list_src (a : option (text * text)) : text := match a with Some (b, a) => b ++ lit "[" ++ a ++ lit "]" | None => [] end.
Definition list_ok (a : option (text * text)) : Prop := match a with Some (b, a) => escape b /\ no_brackets a | None => True end.
(** Two pluses count only where there are not three that are closed by three. *)
Definition quoted_form (a : option (text * text)) (e mark body w rest : text) : Prop :=
  w = list_src a ++ e ++ mark ++ body ++ mark /\ list_ok a /\ backslashes e /\ In mark pass_marks /\ closes mark body rest /\
  (mark = lit "++" -> forall x y, mark ++ body ++ mark ++ rest <> lit "+++" ++ x ++ lit "+++" ++ y).
Definition lower (c : char) : Prop := (97 <= c /\ c <= 122)%N.
Definition sub_list (s : text) : Prop :=
  s = [] \/ exists n ns, (n <> [] /\ Forall lower n) /\ Forall (fun x => x <> [] /\ Forall (fun c => lower c \/ c = 45%N) x) ns /\
    s = n ++ concat (map (fun x => lit "," ++ x) ns).
Definition macro_form (e s l w : text) : Prop :=
  w = e ++ lit "pass:" ++ s ++ lit "[" ++ l ++ lit "]" /\ escape e /\ sub_list s /\ label any_char l.
Definition pass_at (prev : option char) (w rest : text) : Prop :=
  (exists a e mark body, quoted_form a e mark body w rest) \/ exists e s l, macro_form e s l w.
Definition mark_subs (mark : text) : group := if text_eqb mark (lit "+++") then GNone else GVerbatim.
(** A backslash before the mark is dropped and the mark kept as text, with its list. *)
Inductive quoted_becomes : option (text * text) -> text -> text -> text -> outcome -> Prop :=
| qb_kept a e mark body : quoted_becomes a (BSL :: e) mark body (Keep (list_src a ++ e ++ mark ++ body ++ mark))
| qb_plain mark body : quoted_becomes None [] mark body (Take [] (mkpt body (mark_subs mark) None None))
| qb_list_kept a mark body : quoted_becomes (Some ([BSL], a)) [] mark body (Take (lit "[" ++ a ++ lit "]") (mkpt body (mark_subs mark) None None))
| qb_list a mark body pt : attributed (text_eqb mark (lit "++")) (mark_subs mark) a body pt -> quoted_becomes (Some ([], a)) [] mark body (Take [] pt).
(** The substitutions [pass:] names; none for a list that is not understood. *)
Definition names_subs (s : text) (g : group) : Prop :=
  word_group s g \/ (~ is_word_group s /\ exists l, itemised s l /\ g = GCustom (meaning [] l)).
Definition macro_subs (s : text) (g : group) : Prop := names_subs s g \/ ((forall g', ~ names_subs s g') /\ g = GNone).
Inductive macro_becomes : text -> text -> text -> outcome -> Prop :=
| mb_kept s l : macro_becomes [BSL] s l (Keep (lit "pass:" ++ s ++ lit "[" ++ l ++ lit "]"))
| mb_taken s l g : macro_subs s g -> macro_becomes [] s l (Take [] (mkpt (unescape 93%N l) g None None)).
Definition pass_out (prev : option char) (w rest : text) (x : outcome) : Prop :=
  (exists a e mark body, quoted_form a e mark body w rest /\ quoted_becomes a e mark body x) \/
  (exists e s l, macro_form e s l w /\ macro_becomes e s l x).

(** * The second pass: [+] and, in the old style, backticks *)
Definition tight (body : text) : Prop :=
  exists c, is_ws c = false /\ (body = [c] \/ exists m d, body = c :: m ++ [d] /\ is_ws d = false).
Definition not_word (U : unicode) (o : option char) : Prop := forall c, o = Some c -> is_word U c = false.
(** The shortest text without blanks at its ends before a closing mark that no word follows. *)
Definition tight_at (U : unicode) (mark : char) (body rest : text) : Prop :=
  (tight body /\ not_word U (hd_error rest)) /\
  forall b r, body ++ mark :: rest = b ++ mark :: r -> tight b -> not_word U (hd_error r) -> length body <= length b.
Definition old_list (a : text) : Prop := a = lit "x-" \/ exists p, no_brackets p /\ a = p ++ lit " x-".
Inductive inline_form := FBacktick (a body : text) | FPlus (a : option text) (e body : text).
Definition plus_list (a : option text) : text := match a with Some a => lit "[" ++ a ++ lit "]" | None => [] end.
Definition form_src (f : inline_form) : text :=
  match f with
  | FBacktick a body => lit "[" ++ a ++ lit "]" ++ lit "`" ++ body ++ lit "`"
  | FPlus a e body => plus_list a ++ e ++ lit "+" ++ body ++ lit "+"
  end.
Definition form_ok (U : unicode) (f : inline_form) (rest : text) : Prop :=
  match f with
  | FBacktick a body => old_list a /\ tight_at U 96%N body rest
  | FPlus (Some a) e body => no_brackets a /\ backslashes e /\ tight_at U 43%N body rest
  | FPlus None e body => escape e /\ tight_at U 43%N body rest
  end.
Definition inline_at (U : unicode) (f : inline_form) (prev : option char) (w rest : text) : Prop :=
  not_word U prev /\ w = form_src f /\ form_ok U f rest.
Inductive form_becomes : inline_form -> outcome -> Prop :=
| fb_backtick a body l : old_style a l -> form_becomes (FBacktick a body) (Take [] (mkpt body GVerbatim (Some QMonospaced) (Some l)))
| fb_kept a e body : form_becomes (FPlus a (BSL :: e) body) (Keep (plus_list a ++ e ++ lit "+" ++ body ++ lit "+"))
| fb_plain body : form_becomes (FPlus None [] body) (Take [] (mkpt body GVerbatim None None))
| fb_list a body pt : attributed true GVerbatim a body pt -> form_becomes (FPlus (Some a) [] body) (Take [] pt).
(** After a backslash, a colon or a semicolon in the text written so far ([last] is its last character) a form does not
    count: its first character is kept and the rest of it is read again, by itself. *)
Definition held (last : option char) : Prop := exists c, last = Some c /\ In c (lit "\:;").
Inductive inline_taken (U : unicode) : nat -> option char -> option char -> text -> list passthrough -> text -> Prop :=
| it_nil n last prev : inline_taken U n last prev [] [] []
| it_char n last prev c t l o : (forall f w r, c :: t = w ++ r -> ~ inline_at U f prev w r) -> inline_taken U n (Some c) (Some c) t l o ->
    inline_taken U n last prev (c :: t) l (c :: o)
| it_keep n last prev f w r x l o : inline_at U f prev w r -> ~ held last -> form_becomes f (Keep x) ->
    inline_taken U n (prev_of last x) (prev_of prev w) r l o -> inline_taken U n last prev (w ++ r) l (x ++ o)
| it_take n last prev f w r x pt l o : inline_at U f prev w r -> ~ held last -> form_becomes f (Take x pt) ->
    inline_taken U (S n) (prev_of last (x ++ placeholder n)) (prev_of prev w) r l o -> inline_taken U n last prev (w ++ r) (pt :: l) (x ++ placeholder n ++ o)
| it_again n last prev f c v r l1 y l2 o : inline_at U f prev (c :: v) r -> held last -> inline_taken U n None None v l1 y ->
    inline_taken U (n + length l1) (prev_of last (c :: y)) (prev_of prev (c :: v)) r l2 o ->
    inline_taken U n last prev ((c :: v) ++ r) (l1 ++ l2) (c :: y ++ o).

(** * Both *)
Definition passthroughs_of (U : unicode) (t : text) (pts : list passthrough) (o : text) : Prop :=
  exists l1 t1 l2, taken pass_at pass_out 0 None t l1 t1 /\ inline_taken U (length l1) None None t1 l2 o /\ pts = l1 ++ l2.
