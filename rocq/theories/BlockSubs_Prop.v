(** C102: the substitutions of blocks. *)
From Verif Require Import Text TextFacts Maps Span_Model Span_Laws Parser_Model Subs_Model Attrlist_Model Render_Model
  Group_Model Group_Spec Group_Proof Header_Model Header_Prop Block_Model Block_Spec Block_Prop Doc_Model Tree_Prop BlockSubs_Spec BlockSubs_Proof.

(** In a document, the text of each paragraph, each delimited block and each title comes from its source by the
    substitutions of its group; a delimited block that is not closed gets none, and a warning. *)
Theorem C102_texts : forall E fuel t sm P d P' b, document_parse E fuel t sm P = Ok (d, P') -> below (d_blocks d) b -> block_text E (d_warnings d) b.
Proof. exact document_texts. Qed.
(** The group of a block is the one of the specification, for any default. *)
Theorem C102_group : forall default a style g, style_of a = Ok style -> override_via_attrlist default a = Ok g <-> chosen default style (list_subs a) g.
Proof. exact override_chosen. Qed.
(** There is always exactly one. *)
Theorem C102_group_is_determined : forall default style subs, exists g, chosen default style subs g /\ forall g', chosen default style subs g' -> g' = g.
Proof.
  intros default style subs. set (r := match style with Some s => if text_eqb s (lit "pass") then GNone else default | None => default end).
  assert (Hr : forall g, (style = Some (lit "pass") /\ g = GNone) \/ (style <> Some (lit "pass") /\ g = default) <-> g = r).
  { intros g. unfold r. destruct style as [s|]; [destruct (text_eqb_spec s (lit "pass")) as [->|N]|]; split.
    - intros [(_ & ->)|(K & _)]; [reflexivity|contradiction K; reflexivity].
    - intros ->. auto.
    - intros [(K & _)|(_ & ->)]; [injection K as K; contradiction|reflexivity].
    - intros ->. right. split; [intros K; injection K as K; contradiction|reflexivity].
    - intros [(K & _)|(_ & ->)]; [discriminate K|reflexivity].
    - intros ->. right. split; [discriminate|reflexivity]. }
  destruct subs as [s|].
  - assert (D : (exists g, understood default s g) \/ forall g, ~ understood default s g).
    { pose proof (from_custom_string_eq (Some default) s) as K. match type of K with _ = Ok ?o => destruct o as [g|] end; [left; exists g; apply understood_iff, K|]. right. intros g Hg. apply understood_iff in Hg. rewrite Hg in K. discriminate K. }
    destruct D as [(g & Hg)|N].
    + exists g. split; [left; exists s; auto|]. intros g' [(s' & K & Hg')|(K & _)]; [|destruct (K s g eq_refl Hg)]. injection K as <-. apply understood_iff in Hg, Hg'. rewrite Hg in Hg'. injection Hg' as ->. reflexivity.
    + exists r. split; [right; split; [intros s' g' K; injection K as <-; apply N|apply Hr; reflexivity]|]. intros g' [(s' & K & Hg')|(_ & K)]; [injection K as <-; destruct (N _ Hg')|apply Hr, K].
  - exists r. split; [right; split; [discriminate|apply Hr; reflexivity]|]. intros g' [(s' & K & _)|(_ & K)]; [discriminate K|apply Hr, K].
Qed.
(** A list replaces the default unless its first item has a sign. *)
Theorem C102_plain_lists_replace : forall d1 d2 s g1 g2 l, itemised (trim s) l -> (match l with (Append _ | Prepend _ | Remove _) :: _ => False | _ => True end) -> understood d1 s g1 -> understood d2 s g2 -> g1 = g2.
Proof.
  intros d1 d2 s g1 g2 l Hl Hf [H1|(N1 & l1 & I1 & ->)] [H2|(N2 & l2 & I2 & ->)].
  - unfold word_group, group_words in H1, H2. cbn [In] in H1, H2. repeat (destruct H1 as [H1|H1]; [injection H1 as E <-; rewrite <- E in H2; repeat (destruct H2 as [H2|H2]; [discriminate H2 || (injection H2 as <-; reflexivity)|]); contradiction|]). contradiction.
  - destruct N2. exact (in_map fst _ _ H1).
  - destruct N1. exact (in_map fst _ _ H2).
  - apply itemised_iff in Hl, I1, I2. rewrite Hl in I1, I2. injection I1 as <-. injection I2 as <-. f_equal. unfold meaning. destruct l as [|[] l]; try contradiction; reflexivity.
Qed.

(** * Refuted *)
(** A literal paragraph gets the substitutions of text, not those of verbatim text. *)
Theorem C102_literal_paragraph_refuted : exists t c src cm, t = lit " *a*" /\ blocks_of (parse_with E0 30 t) = Ok [BSimple c src StLiteral cm] /\ ct_rendered c = lit "<strong>a</strong>".
Proof. exists (lit " *a*"). do 3 eexists. split; [reflexivity|]. split; [vm_compute; reflexivity|]. vm_compute. reflexivity. Qed.
Theorem C102_listing_style_refuted : exists t c src cm, t = lines [lit "[listing]"; lit "*a*"] /\ blocks_of (parse_with E0 30 t) = Ok [BSimple c src StListing cm] /\ ct_rendered c = lit "<strong>a</strong>".
Proof. exists (lines [lit "[listing]"; lit "*a*"]). do 3 eexists. split; [reflexivity|]. split; [vm_compute; reflexivity|]. vm_compute. reflexivity. Qed.
(** A list with the documented step [callouts] is ignored as a whole: the example of apply-subs-to-blocks.adoc. *)
Theorem C102_callouts_refuted : exists t c m cx src cm, t = lines [lit "[source,xml,subs=""attributes+,+replacements,-callouts""]"; lit "----"; lit "{empty}(C)"; lit "----"] /\
  blocks_of (parse_with E0 30 t) = Ok [BRaw c m cx src cm GVerbatim] /\ ct_rendered c = lit "{empty}(C)".
Proof. exists (lines [lit "[source,xml,subs=""attributes+,+replacements,-callouts""]"; lit "----"; lit "{empty}(C)"; lit "----"]). do 5 eexists. split; [reflexivity|]. split; [vm_compute; reflexivity|]. vm_compute. reflexivity. Qed.
(** A listing that is not closed is not escaped. *)
Theorem C102_unclosed_refuted : exists t c m cx src cm, t = lines [lit "----"; lit "a <b>"] /\ blocks_of (parse_with E0 30 t) = Ok [BRaw c m cx src cm GVerbatim] /\ ct_rendered c = lit "a <b>".
Proof. exists (lines [lit "----"; lit "a <b>"]). do 5 eexists. split; [reflexivity|]. split; [vm_compute; reflexivity|]. vm_compute. reflexivity. Qed.
(** In a list with signs, the default of the style [pass] is that of text. *)
Theorem C102_pass_with_list_refuted : exists t c src st cm, t = lines [lit "[pass,subs=""+q""]"; lit "*a* &"] /\ blocks_of (parse_with E0 30 t) = Ok [BSimple c src st cm] /\ ct_rendered c = lit "<strong>a</strong> &amp;".
Proof. exists (lines [lit "[pass,subs=""+q""]"; lit "*a* &"]). do 4 eexists. split; [reflexivity|]. split; [vm_compute; reflexivity|]. vm_compute. reflexivity. Qed.
(** The style [pass] has no effect on an open block. *)
Theorem C102_pass_open_refuted : exists t c src st cm cx s2 cm2, t = lines [lit "[pass]"; lit "--"; lit "*a* &"; lit "--"] /\ blocks_of (parse_with E0 30 t) = Ok [BCompound [BSimple c src st cm] cx s2 cm2] /\ ct_rendered c = lit "<strong>a</strong> &amp;".
Proof. exists (lines [lit "[pass]"; lit "--"; lit "*a* &"; lit "--"]). do 7 eexists. split; [reflexivity|]. split; [vm_compute; reflexivity|]. vm_compute. reflexivity. Qed.

Example C102_example : exists c1 m1 x1 s1 cm1 g1 c2 s2 st2 cm2 c3 m3 x3 s3 cm3 g3,
  blocks_of (parse_with E0 30 (lines [lit "[subs=""attributes+,-c""]"; lit "----"; lit "{empty}<b>"; lit "----"; []; lit "[pass]"; lit "*a* &"; []; lit "[subs=q]"; lit "++++"; lit "*<*"; lit "++++"])) =
    Ok [BRaw c1 m1 x1 s1 cm1 g1; BSimple c2 s2 st2 cm2; BRaw c3 m3 x3 s3 cm3 g3] /\
  ct_rendered c1 = lit "<b>" /\ ct_rendered c2 = lit "*a* &" /\ ct_rendered c3 = lit "<strong><</strong>".
Proof. do 16 eexists. split; [vm_compute; reflexivity|]. vm_compute. auto. Qed.
Example C102_hypotheses : exists d P b, parse_with E0 30 (lines [lit "----"; lit "x"]) = Ok (d, P) /\ below (d_blocks d) b /\ block_text E0 (d_warnings d) b /\ d_warnings d <> [] /\
  itemised (lit "q,+a") [Plain SQuotes; Append SAttributeReferences].
Proof.
  do 3 eexists. split; [vm_compute; reflexivity|]. cbn [d_blocks d_warnings]. split; [apply bl_here; left; reflexivity|]. split; [|split; [discriminate|apply itemised_iff; vm_compute; reflexivity]].
  eexists. split; [apply rd_listing|]. right. split; [reflexivity|]. split; [vm_compute; reflexivity|]. eexists. left. reflexivity.
Qed.
Print Assumptions C102_texts.
Print Assumptions C102_group.
Print Assumptions C102_group_is_determined.
Print Assumptions C102_plain_lists_replace.
