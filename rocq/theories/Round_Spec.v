(** Specification of how documents are written (C112): a small language of documents, the text of each, and
    what a reader should find in it.  Source: docs/modules/blocks/pages/index.adoc, delimited.adoc, breaks.adoc,
    paragraphs.adoc, add-title.adoc, docs/modules/sections/pages/titles-and-levels.adoc. *)
From Verif Require Import Text Span_Model Span_Spec Span_Laws Subs_Model Group_Model Header_Spec Block_Model Block_Spec Meta_Spec Kind_Spec Total_Spec Group_Spec.

(** * Documents as they are meant to be written *)
(** The title and the id above a block. *)
Record top := mktop { t_title : option text; t_id : option text }.
Inductive node :=
| NText (m : top) (ls : list text)
| NRaw (m : top) (d : text) (ls : list text)
| NBox (m : top) (d : text) (ns : list node)
| NBreak (m : top) (line : text)
| NMedia (m : top) (ty : media_type) (target attrs : text)
| NSection (m : top) (mark : char) (level : nat) (title : text) (ns : list node).
(** The text.  A paragraph, a break and a heading are followed by an empty line; a delimited block is not. *)
Definition top_lines (m : top) : list text :=
  match t_title m with Some x => [lit "." ++ x] | None => [] end ++ match t_id m with Some x => [lit "[[" ++ x ++ lit "]]"] | None => [] end.
Definition media_word (ty : media_type) : text := match ty with MImage => lit "image" | MVideo => lit "video" | MAudio => lit "audio" end.
Definition heading_line (mark : char) (level : nat) (title : text) : text := repeat mark (S level) ++ lit " " ++ title.
Fixpoint write (n : node) : list text :=
  match n with
  | NText m ls => top_lines m ++ ls ++ [[]]
  | NRaw m d ls => top_lines m ++ [d] ++ ls ++ [d]
  | NBox m d ns => top_lines m ++ [d] ++ flat_map write ns ++ [d]
  | NBreak m line => top_lines m ++ [line; []]
  | NMedia m ty target attrs => top_lines m ++ [media_word ty ++ lit "::" ++ target ++ lit "[" ++ attrs ++ lit "]"; []]
  | NSection m mark level title ns => top_lines m ++ [heading_line mark level title; []] ++ flat_map write ns
  end.
Definition body (ns : list node) : text := unlines (flat_map write ns).

(** * What may be written *)
(** A line with no white space at its end. *)
Definition tidy (x : text) : Prop := x <> [] /\ ~ In LF x /\ forall y c, x = y ++ [c] -> is_ws c = false.
(** The line [x] reads [d]: there may be spaces after it. *)
Definition line_reads (d x : text) : Prop := trimmed_line x d.
Definition top_fits (U : unicode) (m : top) : Prop :=
  (forall x, t_title m = Some x -> tidy x /\ forall c y, x = c :: y -> c <> 46%N /\ ~ sp_tab c) /\
  (forall x, t_id m = Some x -> id_name U x /\ ~ In LF x).
(** The lines of a paragraph. *)
Definition first_line_fits (U : unicode) (x : text) : Prop :=
  tidy x /\ solid x /\ ~ a_comment x /\ (forall y, x <> lit ":" ++ y) /\ (forall i, ~ item_line U x i) /\ (forall f, ~ has_form x f) /\ forall y, x <> lit "= " ++ y.
Definition next_line_fits (x : text) : Prop := tidy x /\ ~ a_comment x /\ ~ boundary_line x.
Definition node_level (n : node) : option nat := match n with NSection _ _ level _ _ => Some level | _ => None end.
(** Sections are deeper than the one they are in, and nothing but a section that is not deeper comes after one. *)
Fixpoint in_order (lo : nat) (ns : list node) : Prop :=
  match ns with
  | [] => True
  | n :: r =>
      match node_level n with
      | Some k => lo < k /\ match r with [] => True | n' :: _ => exists j, node_level n' = Some j /\ j <= k end
      | None => True
      end /\ in_order lo r
  end.
Fixpoint fits (U : unicode) (n : node) : Prop :=
  match n with
  | NText m ls => top_fits U m /\ match ls with [] => False | x :: r => first_line_fits U x /\ Forall next_line_fits r end
  | NRaw m d ls => top_fits U m /\ raw_delimiter d /\ Forall (fun x => ~ In LF x /\ ~ In CR x /\ ~ line_reads d x) ls
  | NBox m d ns => top_fits U m /\ compound_delimiter d /\ Forall (fun x => ~ line_reads d x) (flat_map write ns) /\
      in_order 0 ns /\ fold_right (fun x p => fits U x /\ p) True ns
  | NBreak m line => top_fits U m /\ break_line line
  | NMedia m ty target attrs => top_fits U m /\ In ty [MImage; MVideo] /\ target <> [] /\ ~ In LF target /\ ~ In 91%N target /\ ~ In LF attrs
  | NSection m mark level title ns => top_fits U m /\ In mark (lit "=#") /\ 1 <= level <= 5 /\ tidy title /\ (forall c y, title = c :: y -> ~ sp_tab c) /\
      in_order level ns /\ fold_right (fun x p => fits U x /\ p) True ns
  end.

(** A document with an optional title. *)
Definition document_text (title : option text) (ns : list node) : text :=
  match title with Some t => lit "= " ++ t ++ [LF; LF] | None => [] end ++ body ns.
Definition document_fits (U : unicode) (title : option text) (ns : list node) : Prop :=
  (forall t, title = Some t -> tidy t /\ forall c y, t = c :: y -> ~ sp_tab c) /\ in_order 0 ns /\ Forall (fits U) ns.

(** * What is read *)
Inductive piece :=
| PText (title id : option text) (t : text)
| PRaw (title id : option text) (context t : text)
| PBox (title id : option text) (context : text) (ps : list piece)
| PBreak (title id : option text) (ty : break_type)
| PMedia (title id : option text) (ty : media_type) (target : text)
| PSection (title id : option text) (level : nat) (heading : text) (ps : list piece)
| PPreamble (ps : list piece)
| POther.
(** The pieces that a writer means; [f] is what the substitutions of a group make of a text. *)
Definition raw_meaning (d : text) : text * group :=
  match d with
  | c :: _ => if (c =? 47)%N then (lit "comment", GNone) else if (c =? 45)%N then (lit "listing", GVerbatim)
              else if (c =? 46)%N then (lit "literal", GVerbatim) else (lit "pass", GPass)
  | [] => (lit "pass", GPass)
  end.
Definition box_meaning (d : text) : text :=
  match d with
  | c :: _ => if (c =? 61)%N then lit "example" else if (c =? 42)%N then lit "sidebar" else if (c =? 95)%N then lit "quote" else lit "open"
  | [] => lit "open"
  end.
Fixpoint meant (f : group -> text -> text) (n : node) : piece :=
  match n with
  | NText m ls => PText (option_map (f GNormal) (t_title m)) (t_id m) (f GNormal (join [LF] ls))
  | NRaw m d ls => PRaw (option_map (f GNormal) (t_title m)) (t_id m) (fst (raw_meaning d)) (f (snd (raw_meaning d)) (join [LF] ls))
  | NBox m d ns => PBox (option_map (f GNormal) (t_title m)) (t_id m) (box_meaning d) (map (meant f) ns)
  | NBreak m line => PBreak (option_map (f GNormal) (t_title m)) (t_id m) (if text_eqb line (lit "<<<") then BPage else BThematic)
  | NMedia m ty target _ => PMedia (option_map (f GNormal) (t_title m)) (t_id m) ty target
  | NSection m _ level title ns => PSection (option_map (f GNormal) (t_title m)) (t_id m) level (f GTitle title) (map (meant f) ns)
  end.
(** What comes before the first section is the preamble. *)
Fixpoint before_section (ns : list node) : list node :=
  match ns with n :: r => match node_level n with Some _ => [] | None => n :: before_section r end | [] => [] end.
Definition meant_document (f : group -> text -> text) (ns : list node) : list piece :=
  let pre := before_section ns in
  if (length pre =? 0) || (length pre =? length ns) then map (meant f) ns
  else PPreamble (map (meant f) pre) :: map (meant f) (skipn (length pre) ns).
(** The texts that are substituted, each with its group. *)
Definition top_texts (m : top) : list (group * text) := match t_title m with Some x => [(GNormal, x)] | None => [] end.
Fixpoint texts (n : node) : list (group * text) :=
  match n with
  | NText m ls => top_texts m ++ [(GNormal, join [LF] ls)]
  | NRaw m d ls => top_texts m ++ [(snd (raw_meaning d), join [LF] ls)]
  | NBox m _ ns => top_texts m ++ flat_map texts ns
  | NBreak m _ | NMedia m _ _ _ => top_texts m
  | NSection m _ _ title ns => top_texts m ++ [(GTitle, title)] ++ flat_map texts ns
  end.
Definition document_texts (title : option text) (ns : list node) : list (group * text) :=
  match title with Some t => [(GHeader, t)] | None => [] end ++ flat_map texts ns.
(** The pieces that the blocks of a document are. *)
Definition the_id (b : block) : option text := option_map sp_data (cm_anchor (block_common b)).
Fixpoint piece_of (b : block) : piece :=
  let title := cm_title (block_common b) in
  match b with
  | BSimple c _ StParagraph _ => PText title (the_id b) (ct_rendered c)
  | BRaw c _ context _ _ _ => PRaw title (the_id b) context (ct_rendered c)
  | BCompound bs context _ _ => PBox title (the_id b) context (map piece_of bs)
  | BBreak ty _ _ => PBreak title (the_id b) ty
  | BMedia ty target _ _ _ => PMedia title (the_id b) ty (sp_data target)
  | BSection level h bs _ _ _ _ _ => PSection title (the_id b) level (ct_rendered h) (map piece_of bs)
  | BPreamble bs _ => PPreamble (map piece_of bs)
  | _ => POther
  end.

(** * Documents that are read for certain *)
(** What is substituted is of the classes [A] (C33): then no substitution fails, and neither does parsing. *)
Definition top_harmless (A : classes) (m : top) : Prop :=
  (forall x, t_title m = Some x -> c_text A (lit "." ++ x)) /\
  (forall x, t_id m = Some x -> let l := lit "[[" ++ x ++ lit "]]" in bracket_line l /\ c_text A l /\ c_meta A l).
Fixpoint harmless (A : classes) (n : node) : Prop :=
  match n with
  | NText m ls => top_harmless A m /\ Forall (fun x => text_line x /\ c_text A x) ls
  | NRaw m _ ls => top_harmless A m /\ c_raw A (unlines ls)
  | NBox m _ ns => top_harmless A m /\ fold_right (fun x p => harmless A x /\ p) True ns
  | NBreak m line => top_harmless A m /\ c_text A line
  | NMedia m ty target attrs => top_harmless A m /\ c_text A (media_word ty ++ lit "::" ++ target ++ lit "[" ++ attrs ++ lit "]")
  | NSection m mark level title ns => top_harmless A m /\ c_text A (heading_line mark level title) /\ fold_right (fun x p => harmless A x /\ p) True ns
  end.

(** * Plain documents *)
(** A text in which nothing has a meaning: no marks, no dashes, no ellipses.  It can have several lines. *)
Definition plain (t : text) : Prop :=
  (forall c, In c t -> ~ In c (lit "+$[]\:@<>&*_`#^~{'(" ++ [PASS_START])) /\ (forall a b, t <> a ++ lit "--" ++ b) /\ (forall a b, t <> a ++ lit "..." ++ b).
Definition top_plain (m : top) : Prop :=
  (forall x, t_title m = Some x -> plain x) /\ (forall x, t_id m = Some x -> (forall c, In c x -> ~ In c (lit "{+$:`']")) /\ ~ infix (lit "literal") x /\ ~ infix (lit "subs") x).
Fixpoint plain_node (n : node) : Prop :=
  match n with
  | NText m ls => top_plain m /\ plain (join [LF] ls) /\ Forall text_line ls
  | NRaw m _ _ => top_plain m
  | NBox m _ ns => top_plain m /\ fold_right (fun x p => plain_node x /\ p) True ns
  | NBreak m line => top_plain m
  | NMedia m ty target attrs => False
  | NSection m mark level title ns => top_plain m /\ plain title /\ fold_right (fun x p => plain_node x /\ p) True ns
  end.
(** Such a text stays as it is; in listings and literal blocks the special characters are escaped. *)
Definition shown (g : group) (t : text) : text := match g with GVerbatim => flat_map escape_char t | _ => t end.
