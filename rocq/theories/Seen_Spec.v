(** Specification of what the preprocessor knows when it comes to a directive (C127). *)
From Verif Require Import Text Span_Model Parser_Model Entry_Model Entry_Spec.

(** A line with nothing in it that makes it go on on the next one, and which is no directive. *)
Definition plain_line (l : text) : Prop := ~ In LF l /\ ~ In CR l /\ ~ In BSL l /\ forall d, l <> lit "include::" ++ d.
(** Lines with their line ends. *)
Fixpoint on_lines (ls : list text) : text := match ls with [] => [] | l :: r => l ++ LF :: on_lines r end.
(** The line without the spaces at its end. *)
Definition cut_off (l d : text) : Prop := exists k, l = d ++ repeat SP k /\ forall x, d <> x ++ [SP].
(** A colon at the end of the line, or one with a space after it: the sign of an entry. *)
Definition announced (l : text) : Prop := (exists x, l = x ++ lit ":") \/ exists x y, l = x ++ lit ": " ++ y.
Definition an_entry_line (l n : text) (unset : bool) (rest : text) : Prop := announced l /\ exists d, cut_off l d /\ entry_line d n unset rest.
(** The value of an entry, [rest] being what comes after the name. *)
Definition blank_or_tab (c : N) : Prop := c = SP \/ c = TAB.
Definition value_read (hdr : parser -> text -> res text) (P : parser) (unset : bool) (rest : text) (v : ivalue) : Prop :=
  if unset then v = VUnset
  else match rest with
       | [] => v = VSet
       | _ => exists w x o, rest = w ++ x /\ Forall blank_or_tab w /\ (forall c y, x = c :: y -> ~ blank_or_tab c) /\ hdr P x = Ok o /\ v = VValue o
       end.
(** The parser with an attribute set by an entry in the body of a document. *)
Definition with_entry (U : unicode) (P : parser) (n : text) (v : ivalue) : parser :=
  fst (set_attribute_from_body U P (mkattr (span_new n) None v (span_new []))).
(** [sees U hdr first free P ls outs P']: the lines [ls] are read with the parser [P] and leave the parser [P'] and the lines [outs].
    [first] says that there was no empty line yet, [free] that an entry may come here: in the first lines, and after an empty line
    up to the first line which is no entry. *)
Inductive sees (U : unicode) (hdr : parser -> text -> res text) : bool -> bool -> parser -> list text -> list text -> parser -> Prop :=
| sees_end first free P : sees U hdr first free P [] [] P
| sees_empty first free P ls outs P' : sees U hdr false true P ls outs P' -> sees U hdr first free P ([] :: ls) ([] :: outs) P'
| sees_entry first P l n unset rest v ls outs P' : an_entry_line l n unset rest -> value_read hdr P unset rest v ->
    sees U hdr first true (with_entry U P n v) ls outs P' -> sees U hdr first true P (l :: ls) (trim_end l :: outs) P'
| sees_line first free P l ls outs P' : l <> [] -> (free = true -> forall n unset rest, ~ an_entry_line l n unset rest) ->
    sees U hdr first (first && free) P ls outs P' -> sees U hdr first free P (l :: ls) (l :: outs) P'.
