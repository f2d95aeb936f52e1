(** Including a file is the same as writing its text there (C130). *)
From Verif Require Import Text TextFacts Maps Span_Model Span_Pure Span_Spec Span_Proof Span_Laws Parser_Model Subs_Model Attrlist_Model SourceMap_Model Entry_Model Entry_Spec Entry_Proof Regex Pre_Model Pre_Proof
  Header_Model Block_Model Doc_Model Header_Prop Block_Prop Seen_Spec Seen_Proof Shift_Spec Paste_Spec Paste_Proof.

(** What the preprocessor puts out is what it puts out for the text with the files in the places of their directives.  The text after the
    last of the parts is any text, with other directives and entries. *)
Theorem C130_output : forall U hdr norm ifh P ps rest out, Forall (part_meant U norm ifh (p_primary P)) ps -> looked_at P (pasted ps rest) ->
  expands U hdr norm ifh P (written ps rest) out <-> expands U hdr norm ifh P (pasted ps rest) out.
Proof. intros U hdr norm ifh P ps rest out F L. exact (book_expands U hdr norm ifh P ps rest out F [] (Forall_nil _) L). Qed.
(** So the documents are the same but for the source map, and so is what the parser keeps. *)
Lemma same_document E ifh fuel P t1 t2 : (forall out, expands (e_u E) (apply_header_subs E) (norm_of E) ifh P t1 out -> expands (e_u E) (apply_header_subs E) (norm_of E) ifh P t2 out) ->
  forall pf d P', parser_parse E ifh pf fuel t1 P = Ok (d, P') -> exists pf' d', parser_parse E ifh pf' fuel t2 P = Ok (d', P') /\ same_but_map d d'.
Proof.
  intros H pf d P' K. unfold parser_parse in *. apply bind_ok in K. destruct K as ([o m] & K1 & K2). destruct (H o) as (pf' & m' & H'); [exists pf, m; exact K1|]. destruct (document_map E fuel o m m' _ d P' K2) as (d' & D1 & D2). exists pf', d'. rewrite H'. auto.
Qed.
Theorem C130_document : forall E ifh P ps rest fuel, Forall (part_meant (e_u E) (norm_of E) ifh (p_primary P)) ps -> looked_at P (pasted ps rest) ->
  (forall pf d P', parser_parse E ifh pf fuel (written ps rest) P = Ok (d, P') -> exists pf' d', parser_parse E ifh pf' fuel (pasted ps rest) P = Ok (d', P') /\ same_but_map d d') /\
  (forall pf d P', parser_parse E ifh pf fuel (pasted ps rest) P = Ok (d, P') -> exists pf' d', parser_parse E ifh pf' fuel (written ps rest) P = Ok (d', P') /\ same_but_map d d').
Proof. intros E ifh P ps rest fuel F L. split; apply same_document; intros out; apply C130_output; assumption. Qed.
(** * Cases *)
Local Ltac plain_lines := repeat (apply Forall_cons; [split; [cbn; intuition discriminate|split; [cbn; intuition discriminate|split; [cbn; intuition discriminate|intros d K; cbn in K; discriminate K]]]|]); apply Forall_nil.
Definition chapters : include_handler := fun _ t _ _ =>
  if text_eqb t (lit "f") then Some (on_lines [lit "== F"; []; lit ":dir: g  "; []; lit "x"; []]) else if text_eqb t (lit "p") then Some (on_lines [lit "x"; []]) else if text_eqb t (lit "last") then Some (lit ":dir: g \" ++ [LF]) else Some t.
Definition book : list part := [Own [lit "= B"; lit ":dir: h"; []]; File (lit "include::f[]") (lit "f") attrlist_default [lit "== F"; []; lit ":dir: g  "; []; lit "x"; []]; Own [lit "== O"; []; lit ":more: y"; []]; File (lit "include::f[]") (lit "f") attrlist_default [lit "== F"; []; lit ":dir: g  "; []; lit "x"; []]].
Lemma f_directs : directs ascii_only (norm_of E0) (lit "include::f[]") (lit "f") attrlist_default.
Proof. split; [cbn; intuition discriminate|]. split; [cbn; intuition discriminate|]. intros s. unfold try_include. vm_compute. reflexivity. Qed.
Lemma p_directs : directs ascii_only (norm_of E0) (lit "include::p[]") (lit "p") attrlist_default.
Proof. split; [cbn; intuition discriminate|]. split; [cbn; intuition discriminate|]. intros s. unfold try_include. vm_compute. reflexivity. Qed.
Example book_meets : Forall (part_meant ascii_only (norm_of E0) chapters None) book /\ looked_at parser_default (pasted book (lit "include::{dir}[]")) /\
  match parser_parse E0 chapters 50 50 (written book (lit "include::{dir}[]")) parser_default, parser_parse E0 chapters 50 50 (pasted book (lit "include::{dir}[]")) parser_default with
  | Ok (d, _), Ok (d', _) => text_eqb (sp_data (d_source d)) (sp_data (d_source d')) && Nat.eqb (length (d_blocks d)) 3 && ends_with (lit "g") (sp_data (d_source d)) | _, _ => false end = true.
Proof.
  split; [|split; [right; vm_compute; reflexivity|vm_compute; reflexivity]]. unfold book.
  assert (Pf : Forall plain_line [lit "== F"; []; lit ":dir: g  "; []; lit "x"; []]) by plain_lines.
  apply Forall_cons; [cbn [part_meant]; plain_lines|]. apply Forall_cons; [split; [exact f_directs|split; [intros P; reflexivity|exact Pf]]|]. apply Forall_cons; [cbn [part_meant]; plain_lines|]. apply Forall_cons; [split; [exact f_directs|split; [intros P; reflexivity|exact Pf]]|]. apply Forall_nil.
Qed.
(** * Where it is not the same *)
Definition put_out (t : text) : text := match preprocess (e_u E0) (apply_header_subs E0) (norm_of E0) chapters 30 t (begin_parse parser_default) with Ok (o, _) => o | _ => [] end.
(** An entry on the last line of a file does not go on in the line after the directive. *)
Theorem C130_last_entry_refuted : exists rest, chapters None (lit "last") attrlist_default parser_default = Some (lit ":dir: g \" ++ [LF]) /\
  put_out (lit "include::last[]" ++ LF :: rest) <> put_out ((lit ":dir: g \" ++ [LF]) ++ rest) /\
  (exists x, put_out (lit "include::last[]" ++ LF :: rest) = x ++ LF :: lit "g \" ++ [LF]) /\ (exists x, put_out ((lit ":dir: g \" ++ [LF]) ++ rest) = x ++ LF :: lit "g h" ++ [LF]).
Proof.
  exists (lines [lit "h"; []; lit "include::{dir}[]"]). split; [reflexivity|]. split; [vm_compute; intros K; discriminate K|]. split; [exists (lines [lit ":dir: g \"; lit "h"; []])|exists (lines [lit ":dir: g \"; lit "h"; []])]; vm_compute; reflexivity.
Qed.
(** If the text with the file in it has no other directive then it is not looked at, and a listing has other text. *)
Definition listing_shown (t : text) : list (option text) := match parser_parse E0 chapters 50 50 t parser_default with Ok (d, _) => map rendered (d_blocks d) | _ => [] end.
Theorem C130_short_cut_refuted : exists ps rest, Forall (part_meant ascii_only (norm_of E0) chapters None) ps /\ listing_shown (written ps rest) <> listing_shown (pasted ps rest).
Proof.
  exists [File (lit "include::p[]") (lit "p") attrlist_default [lit "x"; []]], (lit "----" ++ [CR; LF] ++ lit "a" ++ [CR; LF] ++ lit "b" ++ [CR; LF] ++ lit "----" ++ [CR; LF]).
  split; [apply Forall_cons; [split; [exact p_directs|split; [intros P; reflexivity|plain_lines]]|apply Forall_nil]|vm_compute; intros K; discriminate K].
Qed.
Print Assumptions C130_output.
Print Assumptions C130_document.
Print Assumptions C130_last_entry_refuted.
Print Assumptions C130_short_cut_refuted.
