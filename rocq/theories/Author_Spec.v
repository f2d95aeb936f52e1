(** Specification of an author whose text may have attribute references (docs/modules/document/pages/author-line.adoc). *)
From Verif Require Import Text Span_Model Regex Subs_Spec Header_Model Header_Spec.

(** The whole text is one reference, or at least looks like one. *)
Definition lone_ref (s : text) : Prop := exists m, s = lit "{" ++ m ++ lit "}" /\ ~ In 123%N m.
(** References are replaced by their values.  Where there are several of them, special characters are replaced
    afterwards, if there are angle brackets or bare ampersands. *)
Definition several (s : text) : Prop := exists a b c, s = a ++ lit "{" ++ b ++ lit "{" ++ c.
Definition bracketed (x : text) : Prop := In 60%N x /\ In 62%N x.
Definition risky (x : text) : Prop := bracketed x \/ (In 38%N x /\ forall a b, x <> a ++ lit "&amp;" ++ b).
Definition filled (V : text -> option text) (s y : text) : Prop :=
  exists x, expands V s x /\ ((several s /\ risky x /\ y = flat_map entity x) \/ (~ (several s /\ risky x) /\ y = x)).
Definition filled_opt (V : text -> option text) (s y : option text) : Prop :=
  match s, y with Some s, Some y => filled V s y | None, None => True | _, _ => False end.
Definition whole (n : text) : author := mkauthor (spaced n) (spaced n) None None None.
Definition parted (full f : text) (m l e : option text) : author := mkauthor (spaced full) (spaced f) (option_map spaced m) (option_map spaced l) e.
Definition no_parts (U : unicode) (s : text) : Prop := forall full f m l e, ~ author_text U s full f m l e.
(** A text is used whole; angle brackets are replaced then. *)
Definition used_whole (x : text) (a : author) : Prop :=
  (bracketed x /\ a = whole (flat_map entity x)) \/ (~ bracketed x /\ a = whole x).
Inductive author_in (U : unicode) (V : text -> option text) : text -> option author -> Prop :=
| ai_none t : bare t [] -> author_in U V t None
(** One reference: its value is used whole, as it is. *)
| ai_ref t s x : bare t s -> lone_ref s -> expands V s x -> author_in U V t (Some (whole x))
(** Text of the documented form; references can be only in the address. *)
| ai_parts t s full f m l e e' : bare t s -> ~ lone_ref s -> author_text U s full f m l e -> filled_opt V e e' -> author_in U V t (Some (parted full f m l e'))
(** Other text with references: when it has the form with the values filled in, it is taken apart then. *)
| ai_filled t s x full f m l e : bare t s -> ~ lone_ref s -> no_parts U s -> In 123%N s -> filled V s x -> author_text U x full f m l e ->
    author_in U V t (Some (parted full f m l e))
| ai_other t s x a : bare t s -> ~ lone_ref s -> no_parts U s -> In 123%N s -> filled V s x -> no_parts U x -> used_whole x a -> author_in U V t (Some a)
| ai_whole t s a : bare t s -> s <> [] -> no_parts U s -> ~ In 123%N s -> used_whole s a -> author_in U V t (Some a).
