(** Specification of the preprocessor: lines of texts and where they come from. *)
From Verif Require Import Text Span_Spec Attrlist_Model Parser_Model.

Definition newlines (t : text) : nat := count_occ N.eq_dec t LF.
(** A line may start after [x]. *)
Definition starts_line (x : text) : Prop := x = [] \/ exists y, x = y ++ [LF].
(** [l] is line number [n] of [t] (from 1); an empty text after the last newline is not a line. *)
Definition line_at (t : text) (n : nat) (l : text) : Prop := exists x y,
  t = x ++ l ++ y /\ starts_line x /\ n = S (newlines x) /\ ~ In LF l /\ ((exists y', y = LF :: y') \/ (y = [] /\ l <> [])).
(** A file's text: the document itself under its own name, or something the handler gave. *)
Inductive supplied (ifh : option text -> text -> attrlist -> parser -> option text) (primary : option text) (source : text) : option text -> text -> Prop :=
| sup_root : supplied ifh primary source primary source
| sup_include from target al P t : ifh from target al P = Some t -> supplied ifh primary source (Some target) t.
(** A line that ends in a continuation mark, and then a line of whitespace. *)
Definition blank_continuation (t : text) : Prop := exists x l w y,
  t = x ++ l ++ [LF] ++ w ++ [LF] ++ y /\ continued l /\ Forall (fun c => is_ws c = true) w.
(** The message put in the place of a directive that the handler does not resolve. *)
Definition unresolved_line (l : text) : Prop := exists file d,
  l = lit "Unresolved directive in " ++ file ++ lit " - include::" ++ d.
(** A line that starts with one of the words the preprocessor looks at. *)
Definition directive_line (l : text) : Prop := exists d, l = lit "include::" ++ d \/ l = lit "if" ++ d.
(** An include directive on a line of its own, as the documentation has it, whose attribute list is
    empty or has at least two characters. *)
Definition include_line (l : text) : Prop := exists target attrs,
  l = lit "include::" ++ target ++ lit "[" ++ attrs ++ lit "]" /\
  target <> [] /\ ~ In 91%N target /\ trim target = target /\ length attrs <> 1 /\ hd_error attrs <> Some 93%N.
(** No line goes on on the next one. *)
Definition no_continuation (t : text) : Prop := ~ exists x l y, t = x ++ l ++ LF :: y /\ continued l.
