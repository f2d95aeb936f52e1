(** Specification of attribute entries (docs/modules/attributes/pages/attribute-entries.adoc,
    names-and-values.adoc, wrap-values.adoc). *)
From Verif Require Import Text Span_Spec.

Definition word_first (c : N) : Prop :=
  ((48 <= c /\ c <= 57) \/ (65 <= c /\ c <= 90) \/ (97 <= c /\ c <= 122) \/ c = 95)%N.
(** A user-defined attribute name. *)
Definition user_name (n : text) : Prop :=
  exists c r, n = c :: r /\ word_first c /\ Forall (fun d => word_first d \/ d = 45%N) r.
(** [entry_line d n unset rest]: the logical line [d] is an entry for [n]; what follows the closing
    colon is [rest]; [unset] says that the name has an exclamation mark before or after it. *)
Inductive entry_line : text -> text -> bool -> text -> Prop :=
| el_set n rest : user_name n -> entry_line (lit ":" ++ n ++ lit ":" ++ rest) n false rest
| el_before n rest : user_name n -> entry_line (lit ":!" ++ n ++ lit ":" ++ rest) n true rest
| el_after n rest : user_name n -> entry_line (lit ":" ++ n ++ lit "!:" ++ rest) n true rest.

(** A value wrapped over several lines: segments, each with a flag that says whether the wrap after
    it is hard, and the last segment. *)
Definition wrap_mark (hard : bool) : text := if hard then lit " + \" else lit " \".
Fixpoint print_wrapped (segs : list (text * (bool * text))) (lst : text) : text :=
  match segs with
  | [] => lst
  | (v, (hard, indent)) :: r => v ++ wrap_mark hard ++ [LF] ++ indent ++ print_wrapped r lst
  end.
(** What the parser makes of it: a soft wrap becomes a space, a hard wrap a newline. *)
Fixpoint unwrapped (segs : list (text * (bool * text))) (lst : text) : text :=
  match segs with
  | [] => lst
  | (v, (hard, _)) :: r => v ++ (if hard then [LF] else [SP]) ++ unwrapped r lst
  end.
Definition segment_ok (v : text) : Prop :=
  ~ In LF v /\ (forall r, v <> SP :: r) /\ (forall r, v <> CR :: r) /\
  (forall x c, v = x ++ [c] -> c <> SP /\ c <> BSL /\ c <> 43%N).
