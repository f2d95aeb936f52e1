(** Specification of where lines and blocks begin (C121). *)
From Verif Require Import Text Span_Model Span_Spec Pre_Spec.

(** [line_begins d s]: the place [s] is the beginning of a line of [d]. *)
Definition line_begins (d : text) (s : span) : Prop :=
  exists x y, d = x ++ sp_data s ++ y /\ starts_line x /\ sp_off s = blen x /\ sp_col s = 1.
(** A place with text after it is at the beginning of a line. *)
Definition begins (s : span) : Prop := sp_data s <> [] -> sp_col s = 1.
