(** Specification of the outline of a document (docs/modules/sections/pages/titles-and-levels.adoc, discrete-titles.adoc):
    a section holds what follows its title up to the next title of its level or of a level above. *)
From Verif Require Import Text Span_Model Block_Model Walk_Spec.

(** The level of a section; [None] for discrete headings and for all other blocks. *)
Definition heading_of (b : block) : option nat :=
  match b with BSection level _ _ _ _ _ _ _ => if discrete_style b then None else Some level | _ => None end.
(** A paragraph with the style [literal]. *)
Definition literal_paragraph (b : block) : Prop :=
  (exists c src st m, b = BSimple c src st m) /\ block_style b = Some (lit "literal").
(** What may come after a section of level [n] that has ended. *)
Definition follows (n : nat) (bs : list block) : Prop :=
  match bs with [] => True | c :: _ => (exists m, heading_of c = Some m /\ m <= n) \/ literal_paragraph c end.
(** [outline lo bs]: [bs] are blocks in a section of level [lo], or in none if [lo] is 0.  Sections are of
    deeper levels than the one they are in, and a section is followed by one that is not deeper. *)
Inductive outline : nat -> list block -> Prop :=
| ol_nil lo : outline lo []
| ol_other lo b bs : heading_of b = None -> outline 0 (nested_blocks b) -> outline lo bs -> outline lo (b :: bs)
| ol_section lo n b bs : heading_of b = Some n -> lo < n -> outline n (nested_blocks b) -> follows n bs -> outline lo bs -> outline lo (b :: bs).

(** No attribute list of the text has an attribute reference or a single quote. *)
Definition plain_lists (t : text) : Prop :=
  forall a x b, t = a ++ lit "[" ++ x ++ lit "]" ++ b -> ~ In LF x -> ~ In 123%N x /\ ~ In 39%N x.
(** The level of the last section among [l]; [n] if there is none. *)
Definition last_level (n : nat) (l : list block) : nat :=
  fold_left (fun a b => match heading_of b with Some k => k | None => a end) l n.
