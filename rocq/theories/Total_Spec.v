(** A class of documents that can be parsed (C33): texts in which no block is followed directly by blank
    lines that the parser does not skip. *)
From Verif Require Import Text Span_Model Span_Spec Header_Spec Block_Spec.

(** The text begins with something that is not white space. *)
Definition solid (t : text) : Prop := exists c y, t = c :: y /\ is_ws c = false.
Definition infix (a t : text) : Prop := exists x y, t = x ++ a ++ y.
(** A line that can be the title of a block. *)
Definition title_line (n : text) : Prop := exists y, n = lit "." ++ y /\ forall c z, y = c :: z -> c <> 46%N /\ ~ sp_tab c.
(** A line that can be an attribute list or an anchor; its style is not [literal]. *)
Definition bracket_line (n : text) : Prop :=
  (exists y, n = lit "[" ++ y) /\ ~ In 123%N n /\ ~ In 39%N n /\ ~ infix (lit "literal") n.
(** A line that can be an attribute entry, on one line. *)
Definition colon_line (n : text) : Prop := (exists y, n = lit ":" ++ y) /\ forall y, n <> y ++ [BSL].
Definition break_line (n : text) : Prop := In n [lit "'''"; lit "---"; lit "- - -"; lit "***"; lit "* * *"; lit "<<<"].
(** A line of text: none of the above, and no delimiter and no comment. *)
Definition text_line (n : text) : Prop :=
  solid n /\ ~ title_line n /\ (forall y, n <> lit "[" ++ y) /\ (forall y, n <> lit ":" ++ y) /\
  ~ raw_delimiter n /\ ~ compound_delimiter n /\ ~ a_comment n.
(** After which the next line can begin a new block. *)
Definition ends_block (n : text) : Prop :=
  (exists y, n = lit "=" ++ y) \/ (exists y, n = lit "#" ++ y) \/ infix (lit "::") n \/ break_line n.
(** Classes of texts, of the contents of raw blocks and of the lines of metadata.  What is substituted is cut
    out of lines of the document, and lines are joined, so the class of texts has to be closed under that. *)
Record classes := mkclasses {
  c_text : text -> Prop; c_raw : text -> Prop; c_meta : text -> Prop;
  c_nil : c_text [];
  c_suffix : forall a b, c_text (a ++ b) -> c_text b;
  c_trim : forall a z, blank z -> c_text (a ++ z) -> c_text a;
  c_lines : forall a b, c_text a -> c_text b -> c_text (a ++ [LF] ++ b);
  c_prefix : forall a b, c_raw (a ++ b) -> c_raw a }.
Definition any_class : classes :=
  mkclasses (fun _ => True) (fun _ => True) (fun _ => True) I (fun _ _ _ => I) (fun _ _ _ _ => I) (fun _ _ _ _ => I) (fun _ _ _ => I).
(** [tame A p t]: [p] says that the line before [t] is in a paragraph for certain; what is substituted is of
    the classes [A]. *)
Inductive tame (A : classes) : bool -> text -> Prop :=
| tm_nil p : tame A p []
| tm_blank p t l r : t <> [] -> a_line t l r [] -> tame A false r -> tame A p t
| tm_text p t l r n : a_line t l r n -> text_line n -> c_text A n -> tame A false r -> tame A p t
| tm_paragraph p t l r n : a_line t l r n -> text_line n -> ~ ends_block n -> c_text A n -> tame A true r -> tame A p t
| tm_indented t l r c y : a_line t l r (c :: y) -> sp_tab c -> (exists x, In x y /\ is_ws x = false) -> c_text A (c :: y) -> tame A true r -> tame A true t
| tm_comment p t l r n : a_line t l r n -> a_comment n -> (forall l' r' n', a_line r l' r' n' -> ~ raw_delimiter n' /\ ~ compound_delimiter n') ->
    tame A true r -> tame A p t
| tm_colon p t l r n : a_line t l r n -> colon_line n -> c_text A n -> r = [] \/ solid r -> tame A false r -> tame A p t
| tm_meta p t l r n : a_line t l r n -> title_line n \/ (bracket_line n /\ c_meta A n) -> c_text A n -> solid r -> tame A false r -> tame A p t
| tm_raw p t l r d c r' : a_line t l r d -> raw_delimiter d -> enclosed d r c (Some r') -> c_raw A c -> r' = [] \/ solid r' -> tame A false r' -> tame A p t
| tm_raw_open p t l r d c : a_line t l r d -> raw_delimiter d -> enclosed d r c None -> tame A p t
| tm_compound p t l r d c r' : a_line t l r d -> compound_delimiter d -> enclosed d r c (Some r') -> tame A false c -> r' = [] \/ solid r' -> tame A false r' -> tame A p t
| tm_compound_open p t l r d : a_line t l r d -> compound_delimiter d -> enclosed d r r None -> tame A false r -> tame A p t.
