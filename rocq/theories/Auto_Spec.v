(** Specification of what the inline macros make of a text (docs/modules/macros/pages/autolinks.adoc,
    mailto-macro.adoc, links.adoc): e-mail addresses. *)
From Verif Require Import Text.

(** * E-mail addresses *)
(** The part before the [@]: letters, digits, underscores, the symbols [-.%+], and ampersands, which are
    written [&amp;] at this point. *)
Inductive local_rest (U : unicode) : text -> Prop :=
| lr_nil : local_rest U []
| lr_char c t : is_word U c = true \/ In c (lit "-.%+") -> local_rest U t -> local_rest U (c :: t)
| lr_amp t : local_rest U t -> local_rest U (lit "&amp;" ++ t).
Definition letter_or_digit (U : unicode) (c : char) : bool :=
  if (c <? 128)%N then is_ascii_alnum c else u_letter U c || u_nd U c.
(** [address U t]: name, [@], domain, dot, and a suffix of two to five letters. *)
Definition address (U : unicode) (t : text) : Prop :=
  exists c l h d s, t = [c] ++ l ++ lit "@" ++ [h] ++ d ++ lit "." ++ s /\
    is_word U c = true /\ local_rest U l /\ letter_or_digit U h = true /\
    Forall (fun x => letter_or_digit U x = true \/ In x (lit "_-.")) d /\
    Forall (fun x => is_ascii_alpha x = true) s /\ 2 <= length s <= 5.
(** No letter, digit or underscore comes next. *)
Definition word_end (U : unicode) (rest : text) : Prop := forall c r, rest = c :: r -> is_word U c = false.
(** The address at the beginning of [t ++ rest] is [t]: the longest one at the end of a word. *)
Definition address_at (U : unicode) (t rest : text) : Prop :=
  address U t /\ word_end U rest /\
  forall t' rest', t' ++ rest' = t ++ rest -> address U t' -> word_end U rest' -> length t' <= length t.
Definition mail_link (m : text) : text := lit "<a href=" ++ [34%N] ++ lit "mailto:" ++ m ++ [34%N] ++ lit ">" ++ m ++ lit "</a>".
(** An address becomes a link; after a backslash, which goes away, and after one of [>], [:] and [/] it is
    left alone. *)
Definition r_email (U : unicode) (prev : option char) (w rest x : text) : Prop :=
  exists m, address_at U m rest /\
    ((w = m /\ x = mail_link m) \/ (w = BSL :: m /\ x = m) \/ (exists c, In c (lit ">:/") /\ w = c :: m /\ x = w)).

(** * Whole markup *)
(** Where a reader of HTML is: between tags, inside a tag, inside a quoted value of a tag. *)
Inductive place := Between | InTag | InValue.
(** The next place; [None] when the character cannot be there. *)
Definition place_after (p : place) (c : char) : option place :=
  match p with
  | Between => if (c =? 60)%N then Some InTag else Some Between
  | InTag => if (c =? 62)%N then Some Between else if (c =? 34)%N then Some InValue else if (c =? 60)%N then None else Some InTag
  | InValue => if (c =? 34)%N then Some InTag else if (c =? 60)%N then None else Some InValue
  end.
Fixpoint read_markup (p : place) (t : text) : option place :=
  match t with [] => Some p | c :: r => match place_after p c with Some q => read_markup q r | None => None end end.
(** Every tag is closed and no tag is inside another one. *)
Definition whole_markup (t : text) : Prop := read_markup Between t = Some Between.
(** Text without markup characters, as the special characters step leaves it, and without double quotes. *)
Definition no_markup (t : text) : Prop := forall c, In c t -> c <> 60%N /\ c <> 62%N /\ c <> 34%N.
