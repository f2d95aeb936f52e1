(** Classes of texts on which the inline substitutions cannot panic (C109).  They mention characters and
    pairs of neighbouring characters alone. *)
From Verif Require Import Text Header_Spec Total_Spec.

Definition without (x t : text) : Prop := forall c, In c x -> ~ In c t.
(** No character of [x] stands directly before a character of [y]. *)
Definition no_pair (x y t : text) : Prop := forall c d, In c x -> In d y -> ~ infix [c; d] t.
(** No backtick is followed by a quote, a backtick or a backslash. *)
Definition lone_backticks (t : text) : Prop := no_pair (lit "`") (lit "'`\" ++ [34%N]) t.
(** No closing bracket is followed by a formatting mark, a quote or a backslash. *)
Definition lone_brackets (t : text) : Prop := no_pair (lit "]") (lit "*_`#^~'\" ++ [34%N]) t.
(** Opening brackets stand at the start of a line or after another one. *)
Definition line_brackets (t : text) : Prop := forall c, infix [c; 91%N] t -> c = LF \/ c = 91%N.
(** No line ends in a character of [x], blanks at the end of the text not counted. *)
Definition no_line_ends (x t : text) : Prop :=
  (forall c, In c x -> ~ infix [c; LF] t) /\ forall a c z, t = a ++ c :: z -> In c x -> ~ blank z.

(** Any text without colons, passthroughs and references. *)
Definition safe_words (t : text) : Prop := without (lit "{+$:") t /\ lone_backticks t /\ lone_brackets t.
(** Any text without brackets, and without [>] and [&]; addresses may be written. *)
Definition safe_links (t : text) : Prop := without (lit "[{+$>&") t /\ lone_backticks t.
(** Brackets at the start of a line, colons, but no addresses. *)
Definition safe_prose (t : text) : Prop :=
  without (lit "{+$") t /\ lone_backticks t /\ lone_brackets t /\ line_brackets t /\ no_pair (lit ":") (lit "/") t /\ no_line_ends (lit "-:") t.
(** Brackets at the start of a line, addresses, but no [>] and [&], and nothing that looks like the end of
    the name of a link macro. *)
Definition safe_lines (t : text) : Prop :=
  without (lit "{+$>&") t /\ lone_backticks t /\ lone_brackets t /\ line_brackets t /\ no_pair (lit "ko") (lit ":") t /\ no_line_ends (lit "-") t.
(** The lines of the header: no brackets, no passthroughs. *)
Definition safe_header (c : char) : Prop := ~ In c (lit "[+$").
