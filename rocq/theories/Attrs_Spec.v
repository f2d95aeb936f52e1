(** Specification of the attributes of a whole document (C110, C111): the predefined ones
    (docs/modules/attributes/pages/character-replacement-ref.adoc, document-attributes-ref.adoc) and what
    becomes of an attribute while a document is read (assignment-precedence.adoc, document/pages/author-*.adoc). *)
From Verif Require Import Text Span_Model Parser_Model Parser_Spec Entry_Model Group_Model Header_Model Header_Spec Header_Prop.

(** * What happens to attributes *)
(** An attribute entry, or a value that the header implies without an entry. *)
Inductive deed := DEntry (e : entry) | DImplied (n v : text).
(** The attribute [n] after one deed and after several: who may change it, and its value.  [read] is how a
    value is read: an attribute that is merely set may have a default. *)
Definition after (U : unicode) (read : ivalue -> ivalue) (n : text) (s : option mod_ctx * ivalue) (d : deed) : option mod_ctx * ivalue :=
  match d with
  | DImplied m v => if text_eqb n m then (Some Anywhere, VValue v) else s
  | DEntry e => if text_eqb n (entry_name U e) && allowed (fst s) (en_place e) then (Some Anywhere, read (at_value (en_attr e))) else s
  end.
Definition fate (U : unicode) (read : ivalue -> ivalue) (n : text) (s : option mod_ctx * ivalue) (l : list deed) : option mod_ctx * ivalue :=
  fold_left (after U read n) l s.
(** The attribute as a parser has it. *)
Definition now (P : parser) (n : text) : option mod_ctx * ivalue := (ctx_of P n, attribute_value P n).

(** * The parts of a header *)
(** A title, the authors of an author line, the parts of a revision line, an attribute entry with the author it names. *)
Inductive part := PTitle (t : text) | PAuthors (l : list author) | PRevision (n : option text) (d : text) (r : option text) | PEntry (a : attribute) (who : option author).
Definition maybe (n : text) (o : option text) : list deed := match o with Some v => [DImplied n v] | None => [] end.
Definition letter_of (o : option text) : text := match o with Some (c :: _) => [c] | _ => [] end.
Definition initials_of (a : author) : text := letter_of (Some (au_first a)) ++ letter_of (au_middle a) ++ letter_of (au_last a).
(** What the [i]-th author of an author line implies. *)
Definition authored (i : nat) (a : author) : list deed :=
  [DImplied (nth_name (lit "author") i) (au_name a); DImplied (nth_name (lit "authorinitials") i) (initials_of a); DImplied (nth_name (lit "firstname") i) (au_first a)] ++
  maybe (nth_name (lit "middlename") i) (au_middle a) ++ maybe (nth_name (lit "lastname") i) (au_last a) ++ maybe (nth_name (lit "email") i) (au_email a).
Fixpoint all_authored (i : nat) (l : list author) : list deed := match l with [] => [] | a :: r => authored i a ++ all_authored (S i) r end.
(** What an author entry implies. *)
Definition named (a : author) : list deed :=
  [DImplied (lit "firstname") (au_first a)] ++ maybe (lit "middlename") (au_middle a) ++ maybe (lit "lastname") (au_last a) ++
  [DImplied (lit "authorinitials") (initials_of a)] ++ maybe (lit "email") (au_email a).
Definition deeds (p : part) : list deed :=
  match p with
  | PTitle t => [DImplied (lit "doctitle") t]
  | PAuthors l => all_authored 0 l
  | PRevision n d r => maybe (lit "revnumber") n ++ [DImplied (lit "revdate") d] ++ maybe (lit "revremark") r
  | PEntry a who => match who with Some x => named x | None => [] end ++ [DEntry (mkentry InHeader a)]
  end.
(** The parts of one kind. *)
Definition entries_in (l : list part) : list attribute := flat_map (fun p => match p with PEntry a _ => [a] | _ => [] end) l.
Definition titles_in (l : list part) : list text := flat_map (fun p => match p with PTitle t => [t] | _ => [] end) l.
Definition authors_in (l : list part) : list (list author) := flat_map (fun p => match p with PAuthors x => [x] | _ => [] end) l.
Definition revisions_in (l : list part) : list (option text * (text * option text)) := flat_map (fun p => match p with PRevision n d r => [(n, (d, r))] | _ => [] end) l.
Definition olist {A} (o : option A) : list A := match o with Some x => [x] | None => [] end.

(** [Q] is [P] after the deeds [l]. *)
Definition led (U : unicode) (P : parser) (l : list deed) (Q : parser) : Prop :=
  p_defaults Q = p_defaults P /\ forall n, now Q n = fate U (read_as P n) n (now P n) l.
(** Whom an entry names: only an author entry names someone. *)
Definition author_entry (a : attribute) : Prop := map (fun c => if (65 <=? c)%N && (c <=? 90)%N then (c + 32)%N else c) (sp_data (at_name a)) = lit "author".
Definition names (U : unicode) (Q : parser) (a : attribute) (who : option author) : Prop :=
  (author_entry a -> match at_value_source a with Some raw => author_parse U (sp_data raw) Q = Ok who | None => who = None end) /\
  (~ author_entry a -> who = None).
(** The value of an entry is its text, with the lines of a wrapped value joined, after the substitutions of the header. *)
Definition entry_read (E : env) (Q : parser) (a : attribute) : Prop :=
  match at_value a with VValue v => exists raw t, at_value_source a = Some raw /\ fold_value (sp_data raw) = Ok t /\ apply_header_subs E Q t = Ok v | _ => True end.
(** A part as it is read with the parser [Q], the header being [hd]. *)
Definition part_read (E : env) (title : option span) (al : option author_line) (rv : option revision_line) (Q : parser) (p : part) : Prop :=
  match p with
  | PTitle t => exists sp, title = Some sp /\ apply_header_subs E Q (sp_data sp) = Ok t
  | PAuthors l => exists a ts, al = Some a /\ aul_authors a = l /\ pieces_of (sp_data (aul_source a)) ts /\ authors_of (e_u E) Q ts l
  | PRevision n d r => exists v, rv = Some v /\ revision (e_u E) (sp_data (rv_source v)) n d r
  | PEntry a who => names (e_u E) Q a who /\ entry_read E Q a
  end.
Definition parts_read (E : env) (title : option span) (al : option author_line) (rv : option revision_line) (P : parser) (l : list part) : Prop :=
  forall pre p post, l = pre ++ p :: post -> exists Q, led (e_u E) P (flat_map deeds pre) Q /\ part_read E title al rv Q p.
(** The parts of a header, with what they were read from. *)
Definition header_parts (E : env) (P : parser) (hd : header) (l : list part) : Prop :=
  entries_in l = h_attrs hd /\ titles_in l = olist (h_title hd) /\ authors_in l = olist (option_map aul_authors (h_author hd)) /\ length (revisions_in l) = length (olist (h_revision hd)) /\
  parts_read E (h_title_source hd) (h_author hd) (h_revision hd) P l.
(** Names of attributes that the header implies. *)
Definition author_names : list text := [lit "author"; lit "authorinitials"; lit "firstname"; lit "middlename"; lit "lastname"; lit "email"].
Definition implied_name (n : text) : Prop :=
  In n [lit "doctitle"; lit "revnumber"; lit "revdate"; lit "revremark"] \/ exists b i, In b author_names /\ n = nth_name b i.

(** * Predefined attributes *)
(** "Built-in document attributes for character replacement" (character-replacement-ref.adoc:17-140). *)
Definition replacement_table : list (text * text) :=
  [(lit "blank", []); (lit "empty", []); (lit "sp", lit " "); (lit "nbsp", lit "&#160;"); (lit "zwsp", lit "&#8203;"); (lit "wj", lit "&#8288;");
   (lit "apos", lit "&#39;"); (lit "quot", lit "&#34;"); (lit "lsquo", lit "&#8216;"); (lit "rsquo", lit "&#8217;"); (lit "ldquo", lit "&#8220;"); (lit "rdquo", lit "&#8221;");
   (lit "deg", lit "&#176;"); (lit "plus", lit "&#43;"); (lit "brvbar", lit "&#166;"); (lit "vbar", lit "|"); (lit "amp", lit "&"); (lit "lt", lit "<"); (lit "gt", lit ">");
   (lit "startsb", lit "["); (lit "endsb", lit "]"); (lit "caret", lit "^"); (lit "asterisk", lit "*"); (lit "tilde", lit "~"); (lit "backslash", lit "\"); (lit "backtick", lit "`");
   (lit "two-colons", lit "::"); (lit "two-semicolons", lit ";;"); (lit "cpp", lit "C++"); (lit "cxx", lit "C++"); (lit "pp", lit "&#43;&#43;")].
(** Rows of document-attributes-ref.adoc: the value that is set by default and whether the attribute is for the header only. *)
Definition settings_table : list (text * (option text * bool)) :=
  [(lit "example-caption", (Some (lit "Example"), false)); (lit "idprefix", (Some (lit "_"), false)); (lit "idseparator", (Some (lit "_"), false));
   (lit "sectids", (Some [], false)); (lit "sectnums", (None, false)); (lit "sectnumlevels", (None, false)); (lit "toc", (None, true)); (lit "iconsdir", (Some (lit "./images/icons"), false))].
