(** Specification of what it is to write the text of a file where it is included (C130). *)
From Verif Require Import Text Span_Model Parser_Model Attrlist_Model SourceMap_Model Pre_Model Block_Model Doc_Model Seen_Spec.

(** A line that is the directive for a target, whatever the attributes are. *)
Definition directs (U : unicode) (norm : parser -> text -> res text) (d target : text) (al : attrlist) : Prop :=
  ~ In LF d /\ ~ In CR d /\ forall s, try_include U norm s d = Ok (Some (target, al)).
(** The file has these lines, whatever the attributes are. *)
Definition file_has (ifh : include_handler) (from : option text) (target : text) (al : attrlist) (ls : list text) : Prop := forall P, ifh from target al P = Some (on_lines ls).
(** What the preprocessor makes of a text. *)
Definition expands (U : unicode) (hdr norm : parser -> text -> res text) (ifh : include_handler) (P : parser) (source out : text) : Prop :=
  exists fuel m, preprocess U hdr norm ifh fuel source P = Ok (out, m).
(** The preprocessor is not left out for this text. *)
Definition looked_at (P : parser) (source : text) : Prop := p_primary P <> None \/ no_directive source = false.
(** The same document but for the source map. *)
Definition same_but_map (d d' : document) : Prop := exists m, d' = mkdoc (d_header d) (d_blocks d) (d_source d) (d_warnings d) m (d_catalog d).
(** A text in parts: lines of its own, and directives with the lines of their files. *)
Inductive part := Own (ls : list text) | File (d target : text) (al : attrlist) (ls : list text).
(** As it is written. *)
Fixpoint written (ps : list part) (rest : text) : text :=
  match ps with [] => rest | Own ls :: ps => on_lines ls ++ written ps rest | File d _ _ _ :: ps => d ++ LF :: written ps rest end.
(** With the text of each file in the place of its directive. *)
Fixpoint pasted (ps : list part) (rest : text) : text :=
  match ps with [] => rest | Own ls :: ps => on_lines ls ++ pasted ps rest | File _ _ _ ls :: ps => on_lines ls ++ pasted ps rest end.
(** The lines are neither directives nor go on, and the files are there. *)
Definition part_meant (U : unicode) (norm : parser -> text -> res text) (ifh : include_handler) (from : option text) (p : part) : Prop :=
  match p with
  | Own ls => Forall plain_line ls
  | File d target al ls => directs U norm d target al /\ file_has ifh from target al ls /\ Forall plain_line ls
  end.
