(** The short cut for paragraphs makes no difference (C125). *)
From Verif Require Import Text TextFacts Span_Model Span_Pure Span_Proof Span_Laws Span_Spec Parser_Model Header_Model Header_Spec Block_Model Block_Spec Block_Proof Doc_Model Header_Prop Block_Prop Fast_Spec Fast_Proof.

(** A block is parsed as it would be without the short cut, at every place but those where a line of white space comes first that is
    not all spaces. *)
Theorem C125_shortcut : forall E un s s0 P, 1 <= sp_col s -> discard_empty_lines s = Ok s0 -> s0 = s \/ (exists l r, a_line (sp_data s) l r []) -> block_parse_with E un s P = long_way E un s P.
Proof. intros E un s s0 P Hc H Hs. rewrite discard_empty_lines_ok in H. apply Ok_inj in H. subst s0. exact (shortcut E un s P Hc Hs). Qed.
(** And so are all the blocks of a text in which spaces and line feeds are the only white space, with the blocks inside of them, the
    warnings, the catalog, or the way it goes wrong. *)
Theorem C125_all_blocks : forall E D fuel f n s P, located D s -> (forall c, In c (sp_data s) -> is_ws c = true -> c = SP \/ c = LF) -> blocks_loop E fuel f n s P = long_loop E fuel f n s P.
Proof. exact loop_long. Qed.
(** From the beginning of a text: *)
Theorem C125_a_text : forall E fuel f n t P, (forall c, In c t -> is_ws c = true -> c = SP \/ c = LF) -> 
  parse_blocks_until E fuel f n (span_new t) P = (src <- discard_empty_lines (span_new t) ;; long_loop E fuel f n src P).
Proof.
  intros E fuel f n t P H. unfold parse_blocks_until. rewrite discard_empty_lines_ok. cbn [bind]. pose proof (Header_Proof.discard_empty_Suffix (span_new t)) as S. apply (loop_long E t); [exact (Tree_Proof.located_Suffix _ _ _ (located_new t) S)|]. intros c Hc. apply H. exact (sub_in _ _ (Suffix_Sub _ _ S) _ Hc).
Qed.
(** Blocks of all kinds, with metadata and without. *)
Definition fast_sample : text := lines [lit "a {b}"; lit "c"; []; lit "  d"; []; lit "== E"; []; lit ".F"; lit "[quote]"; lit "g::h"; []; lit "===="; lit "i"; lit "===="; lit ":j: k"; []; lit "image::l[]"; []; lit "'''"].
Example C125_example : parse_blocks_until E0 40 never 0 (span_new fast_sample) parser_default = (src <- discard_empty_lines (span_new fast_sample) ;; long_loop E0 40 never 0 src parser_default).
Proof. apply C125_a_text. intros c H. unfold fast_sample, lines in H. vm_compute in H. repeat (destruct H as [<-|H]; [vm_compute; intuition discriminate|]). destruct H. Qed.
Example C125_example_blocks : match parse_blocks_until E0 40 never 0 (span_new fast_sample) parser_default with Ok b => length (br_blocks b) | _ => 0 end = 3.
Proof. vm_compute. reflexivity. Qed.
Print Assumptions C125_shortcut.
Print Assumptions C125_all_blocks.
Print Assumptions C125_a_text.
(** Expected: the same at every place.  With a tab in the line before it, a section is a paragraph, and is none without the short cut. *)
Definition fast_tab : text := [TAB; LF] ++ lit "== A".
Theorem C125_shortcut_everywhere_refuted : exists E t, let s := span_new t in
  (exists r mi c src st cm, block_parse E 20 s parser_default = Ok r /\ pr_item r = Some mi /\ mi_item mi = BSimple c src st cm /\ sp_data (ct_original c) = t) /\
  (exists r mi l ti bs src cm ty id n, long_way E (parse_blocks_until E 20) s parser_default = Ok r /\ pr_item r = Some mi /\ mi_item mi = BSection l ti bs src cm ty id n).
Proof.
  exists E0, fast_tab. split; [eexists _, _, _, _, _, _; split; [vm_compute; reflexivity|]; split; [reflexivity|]; split; [reflexivity|vm_compute; reflexivity]|].
  eexists _, _, _, _, _, _, _, _, _, _. split; [vm_compute; reflexivity|]. split; reflexivity.
Qed.
Print Assumptions C125_shortcut_everywhere_refuted.
