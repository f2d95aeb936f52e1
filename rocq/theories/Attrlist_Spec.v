(** Specification of attribute lists (docs/modules/attributes/pages/positional-and-named-attributes.adoc),
    independent of the code: how a list of entries is written, and what unescaping is. *)
From Verif Require Import Text.

(** [unescaped q raw v]: [v] is [raw] with every backslash that stands before a quote [q] dropped,
    reading from left to right. *)
Inductive unescaped (q : N) : text -> text -> Prop :=
| un_nil : unescaped q [] []
| un_esc r v : unescaped q r v -> unescaped q (BSL :: q :: r) (q :: v)
| un_char c r v : (forall r', c :: r <> BSL :: q :: r') -> unescaped q r v -> unescaped q (c :: r) (c :: v).

(** How an entry is written. *)
Inductive entry :=
| Bare (name : option text) (v : text)
| Quoted (name : option text) (q : N) (v : text).
Definition entry_name (e : entry) : option text := match e with Bare n _ | Quoted n _ _ => n end.
Definition escape (q : N) (v : text) : text := flat_map (fun c => if (c =? q)%N then [BSL; q] else [c]) v.
Definition print_entry (e : entry) : text :=
  let name n := match n with Some n => n ++ [61%N] | None => [] end in
  match e with
  | Bare n v => name n ++ v
  | Quoted n q v => name n ++ q :: escape q v ++ [q]
  end.

Definition letter_or_digit (c : N) : Prop :=
  (48 <= c /\ c <= 57)%N \/ (65 <= c /\ c <= 90)%N \/ (97 <= c /\ c <= 122)%N.
(** An attribute name: a letter or digit, then letters, digits and hyphens. *)
Definition name_ok (n : text) : Prop :=
  exists c r, n = c :: r /\ letter_or_digit c /\ Forall (fun d => letter_or_digit d \/ d = 45%N) r.
Definition blank_char (c : N) : Prop := c = SP \/ c = TAB \/ c = LF.
Definition quote_char (c : N) : Prop := c = 39%N \/ c = 34%N.
(** An entry written as the documentation asks: a value written without quotes has no comma, does
    not begin with a blank or a quote and does not end in a space; without a name it has no equals
    sign either.  A quoted value may contain anything, but must not end in a backslash. *)
Definition entry_ok (e : entry) : Prop :=
  match e with
  | Bare n v =>
      (match n with Some n => name_ok n | None => ~ In 61%N v end) /\
      (exists c r, v = c :: r /\ ~ blank_char c /\ ~ quote_char c) /\ ~ In 44%N v /\ (forall x, v <> x ++ [SP])
  | Quoted n q v =>
      (match n with Some n => name_ok n | None => v <> [] end) /\ quote_char q /\ (forall x, v <> x ++ [BSL])
  end.

(** Shorthand: an optional style, then items that begin with a marker. *)
Inductive item := IId (t : text) | IRole (t : text) | IOption (t : text).
Definition print_item (i : item) : text :=
  match i with IId t => 35%N :: t | IRole t => 46%N :: t | IOption t => 37%N :: t end.
Definition item_text (i : item) : text := match i with IId t | IRole t | IOption t => t end.
Definition item_id (i : item) : list text := match i with IId t => [t] | _ => [] end.
Definition item_role (i : item) : list text := match i with IRole t => [t] | _ => [] end.
Definition item_option (i : item) : list text := match i with IOption t => [t] | _ => [] end.
(** Not a delimiter, and nothing that has a meaning of its own in an attribute list. *)
Definition plain (c : N) : Prop :=
  ~ In c (lit "#.%,=""'{}[]") /\ is_ws c = false.

(** [words sep t ws]: [t] is the words [ws], none of them empty or containing [sep], with one or
    more [sep] between them and any number at both ends. *)
Inductive words (sep : N) : text -> list text -> Prop :=
| words_nil : words sep [] []
| words_sep t ws : words sep t ws -> words sep (sep :: t) ws
| words_last w : w <> [] -> ~ In sep w -> words sep w [w]
| words_word w t ws : w <> [] -> ~ In sep w -> words sep t ws -> words sep (w ++ sep :: t) (w :: ws).
