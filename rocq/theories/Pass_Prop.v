(** C115: what is taken out of a text as a passthrough, where, and with which substitutions. *)
From Verif Require Import Text TextFacts Maps Span_Model Span_Laws Regex Regex_Proof Parser_Model Attrlist_Model Render_Model Group_Model Group_Spec Group_Proof Inline_Spec Macro_Spec Pass_Spec Pass_Proof.

(** The first pass takes out [+++], [++], [$$] and [pass:]. *)
Theorem C115_first_pass : forall U t pts o, replace_all U INLINE_PASS_MACRO pass_macro_replacer [] t = Ok (pts, o) <-> taken pass_at pass_out 0 None t pts o.
Proof. exact first_iff. Qed.
(** The second takes out [+] and the old style, after the ones that were taken out before. *)
Theorem C115_second_pass : forall U pts t pts' o, replace_all U INLINE_PASS (inline_pass_replacer U (length t)) pts t = Ok (pts', o) <->
  exists l, pts' = pts ++ l /\ inline_taken U (length pts) None None t l o.
Proof. exact second_iff. Qed.
(** So the passthroughs of a text, and what is left of it, are the ones of the specification, and every text has exactly
    one reading. *)
Theorem C115_extraction : forall U t pts o, extract_from U t = Ok (pts, o) <-> passthroughs_of U t pts o.
Proof. exact extract_iff. Qed.
Theorem C115_one_reading : forall U t, exists pts o, passthroughs_of U t pts o /\ forall pts' o', passthroughs_of U t pts' o' -> pts' = pts /\ o' = o.
Proof.
  intros U t. destruct (extract_ok U t) as (p1 & p2 & t1 & o & E & _). exists (p1 ++ p2), o. split; [apply extract_iff; exact E|]. intros pts' o' H. apply extract_iff in H. rewrite E in H. apply Ok_inj in H. injection H as <- <-. auto.
Qed.
(** Two readings of one place are the same. *)
Theorem C115_forms_are_unambiguous : forall U f f' prev w r w' r', inline_at U f prev w r -> inline_at U f' prev w' r' -> w ++ r = w' ++ r' -> f = f' /\ w = w'.
Proof. intros U f f' prev w r w' r' H H' E. destruct (inline_unique _ _ _ _ _ _ _ _ H H' E) as (-> & -> & _). auto. Qed.
(** A text without a form is left as it is. *)
Theorem C115_no_form : forall U t, (forall a w r prev, t = a ++ w ++ r -> ~ pass_at prev w r) -> (forall f a w r prev, t = a ++ w ++ r -> ~ inline_at U f prev w r) ->
  extract_from U t = Ok ([], t).
Proof.
  intros U t H1 H2. apply extract_iff. exists [], t, []. split; [|split; [|reflexivity]].
  - apply taken_id. intros pv a w r E. exact (H1 a w r pv E).
  - apply inline_taken_id. intros pv f a w r E. exact (H2 f a w r pv E).
Qed.

Definition held_text : text := lit "a +++<u>+++ \++b++ [x-]++c++ [.r]$$d$$ \[.s]+++e+++ pass:q,a[f\]g] \pass:[h] pass:zz[i] [y x-]`j` [k]+l+ [m x-]+n+ \+o+ [p]\\+q+ :+r+ ;[s]+t+ u+v+ +w x+ y".
Example C115_example : passthroughs_of ascii_only held_text
  [mkpt (lit "<u>") GNone None None; mkpt (lit "c") GNormal (Some QMonospaced) (Some []); mkpt (lit "d") GVerbatim (Some QUnquoted) (Some (lit ".r"));
   mkpt (lit "e") GNone None None; mkpt (lit "f]g") (GCustom [SQuotes; SAttributeReferences]) None None; mkpt (lit "i") GNone None None;
   mkpt (lit "+b") GVerbatim None None; mkpt (lit "j") GVerbatim (Some QMonospaced) (Some (lit "y")); mkpt (lit "l") GVerbatim (Some QUnquoted) (Some (lit "k"));
   mkpt (lit "n") GNormal (Some QMonospaced) (Some (lit "m")); mkpt (lit "t") GVerbatim None None; mkpt (lit "w x") GVerbatim None None]
  (lit "a " ++ placeholder 0 ++ lit " " ++ placeholder 6 ++ lit "+ " ++ placeholder 1 ++ lit " " ++ placeholder 2 ++ lit " [.s]" ++ placeholder 3 ++ lit " " ++ placeholder 4 ++
   lit " pass:[h] " ++ placeholder 5 ++ lit " " ++ placeholder 7 ++ lit " " ++ placeholder 8 ++ lit " " ++ placeholder 9 ++ lit " +o+ [p]\+q+ :+r+ ;[s]" ++ placeholder 10 ++
   lit " u+v+ " ++ placeholder 11 ++ lit " y").
Proof. apply C115_extraction. vm_compute. reflexivity. Qed.
(** Two backslashes keep two pluses as text (docs/modules/subs/pages/prevent.adoc); with one the inner pair is still
    a passthrough. *)
Example C115_two_backslashes : passthroughs_of ascii_only (lit "\\++b++") [] (lit "++b++") /\ passthroughs_of ascii_only (lit "\++b++") [mkpt (lit "+b") GVerbatim None None] (placeholder 0 ++ lit "+").
Proof. split; apply C115_extraction; vm_compute; reflexivity. Qed.

(** Expected: a name that is not understood does not take away the substitutions that are named beside it.  But with
    [pass:c,junk] the special characters are not replaced, so that the text gets into the output as it is. *)
Theorem C115_known_names_apply_refuted : exists w, apply_group ascii_only 47%N parser_default 6 GNormal false (lit "pass:c[" ++ w ++ lit "]") = Ok (flat_map escape_char w) /\
  apply_group ascii_only 47%N parser_default 6 GNormal false (lit "pass:c,junk[" ++ w ++ lit "]") = Ok w /\ w <> flat_map escape_char w.
Proof. exists (lit "<script>"). split; [vm_compute; reflexivity|]. split; [vm_compute; reflexivity|]. vm_compute. discriminate. Qed.

Print Assumptions C115_extraction.
Print Assumptions C115_known_names_apply_refuted.
