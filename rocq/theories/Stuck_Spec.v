(** Specification of the places at which there is no block (C119). *)
From Verif Require Import Text Span_Model Header_Spec Block_Spec Parser_Model Header_Model Meta_Spec Kind_Proof.

(** [hollow b t]: the lines at [t] up to an empty line, the end or (after a line, [b]) a line that ends a paragraph
    are all white space. *)
Inductive hollow : bool -> text -> Prop :=
| ho_end b t : t = [] \/ (exists l r, a_line t l r []) -> hollow b t
| ho_boundary t l r n : a_line t l r n -> boundary_line n -> hollow true t
| ho_line b t l r n : t <> [] -> a_line t l r n -> n <> [] -> blank n -> hollow true r -> hollow b t.
(** [nowhere E P t]: after the metadata lines at [t] there is no text, and these are an anchor at most, or declare the
    style [literal]. *)
Definition nowhere (E : env) (P : parser) (t : text) : Prop :=
  exists is_ rest style, meta_lines (e_u E) [] t is_ rest /\ declared E P is_ style /\ hollow false rest /\
    (style = Some (lit "literal") \/ (the_title is_ = None /\ the_list is_ = None)).
