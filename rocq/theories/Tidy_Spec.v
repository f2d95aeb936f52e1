(** Specification of the lines of a document and of tidy documents (C122). *)
From Verif Require Import Text Span_Spec Pre_Spec Header_Spec Block_Spec.

(** [a_line_of t x l r n]: after the lines [x] of the document [t] comes the line [l], which reads [n]; [r] is the text after it. *)
Definition a_line_of (t x l r n : text) : Prop := t = x ++ l ++ r /\ starts_line x /\ l <> [] /\ a_line (l ++ r) l r n.
(** An empty line that is the last one of the document, or of a block between delimiters. *)
Definition trailing (r : text) : Prop := r = [] \/ exists l' r' n', a_line r l' r' n' /\ compound_delimiter n'.
(** A document is tidy if every line that is not empty begins with a character that is neither white space nor an opening
    bracket, and if no empty line is the last one, of the document or before a delimiter of a compound block. *)
Definition tidy (t : text) : Prop :=
  (forall x l r c y, a_line_of t x l r (c :: y) -> is_ws c = false /\ c <> 91%N) /\ (forall x l r, a_line_of t x l r [] -> ~ trailing r).
