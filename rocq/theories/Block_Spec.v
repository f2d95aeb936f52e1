(** Specification of blocks (docs/modules/blocks/pages/delimited.adoc, paragraphs.adoc,
    docs/modules/sections/pages/titles-and-levels.adoc, docs/modules/macros/pages/image-macro.adoc). *)
From Verif Require Import Text Span_Model Span_Spec Span_Laws Header_Spec.

(** * Delimiter lines *)
Definition repeated (c : char) (t : text) : Prop := exists n, 4 <= n /\ t = repeat c n.
Definition raw_delimiter (t : text) : Prop := exists c, In c (lit "/-.+") /\ repeated c t.
Definition compound_delimiter (t : text) : Prop := t = lit "--" \/ exists c, In c (lit "=*_") /\ repeated c t.

(** [a_line t l r n]: [l] is the first line of [t] with the end of line, [r] is what comes after it, and
    [n] is the line without its end and without the spaces there. *)
Definition a_line (t l r n : text) : Prop := exists x e, t = l ++ r /\ l = x ++ e /\ ~ In LF x /\ eol e r /\ trimmed_line x n.
(** [enclosed d t c o]: the lines [c] of [t] come before the first line that reads [d]; [o] is the text
    after that line, or [None] when there is no such line. *)
Inductive enclosed (d : text) : text -> text -> option text -> Prop :=
| en_none : enclosed d [] [] None
| en_here t l r : t <> [] -> a_line t l r d -> enclosed d t [] (Some r)
| en_more t l r n c o : t <> [] -> a_line t l r n -> n <> d -> enclosed d r c o -> enclosed d t (l ++ c) o.
(** [x] is [c] without the end of line at its end. *)
Definition without_eol (c x : text) : Prop :=
  (exists y, c = y ++ [LF] /\ minus_cr y x) \/ (c = x /\ forall y, c <> y ++ [LF]).

(** * Paragraphs *)
Definition sp_tab (c : char) : Prop := c = SP \/ c = TAB.
(** The indentation of a text. *)
Definition indented (t : text) (k : nat) : Prop :=
  exists w x, t = w ++ x /\ Forall sp_tab w /\ length w = k /\ forall c y, x = c :: y -> ~ sp_tab c.
(** A line that ends a paragraph: a list continuation, a line in brackets, a delimiter. *)
Definition boundary_line (n : text) : Prop :=
  n = lit "+" \/ (exists x, n = lit "[" ++ x ++ lit "]") \/ raw_delimiter n \/ compound_delimiter n.
(** [y] is the line [n] without up to [k] characters of indentation and without the white space at its end. *)
Definition unindented (k : nat) (n y : text) : Prop :=
  exists w z, n = w ++ y ++ z /\ Forall sp_tab w /\ (length w = k \/ length w < k /\ forall c r, y = c :: r -> ~ sp_tab c) /\
    blank z /\ forall r c, y = r ++ [c] -> is_ws c = false.
(** [paragraph k b t ls r]: the lines of the paragraph at [t] are [ls] and [r] is what comes after it;
    [b] says that it has a line already. *)
Inductive paragraph (k : nat) : bool -> text -> list text -> text -> Prop :=
| pg_end b t : t = [] \/ (exists l r, a_line t l r []) -> paragraph k b t [] t
| pg_boundary t l r n : a_line t l r n -> boundary_line n -> paragraph k true t [] t
| pg_comment b t l r n ls rest : a_line t l r n -> a_comment n -> paragraph k b r ls rest -> paragraph k b t ls rest
| pg_line b t l r n y ls rest : t <> [] -> a_line t l r n -> n <> [] -> ~ a_comment n -> (b = true -> ~ boundary_line n) ->
    unindented k n y -> paragraph k true r ls rest -> paragraph k b t (y :: ls) rest.

(** * Headings *)
(** [heading n level title]: two to six marks, then blanks, then the title. *)
Definition heading (n : text) (level : nat) (title : text) : Prop :=
  exists c ws, In c (lit "=#") /\ 1 <= level <= 5 /\ n = repeat c (S level) ++ ws ++ title /\
    ws <> [] /\ Forall sp_tab ws /\ forall x y, title = x :: y -> ~ sp_tab x.
