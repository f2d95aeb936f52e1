(** What is in a comment, or in another block between delimiters that is not read as blocks, stays in it (C129). *)
From Verif Require Import Text TextFacts Maps Span_Model Span_Pure Span_Proof Span_Laws Span_Spec Parser_Model Group_Model Group_Prop Header_Model Header_Proof Header_Prop Block_Model Block_Spec Block_Proof Doc_Model Pre_Model Block_Prop
  Round_Spec Shift_Spec Shift_Proof Extend_Spec Extend_Prop Boxed_Spec Boxed_Proof.

(** Such a block, with nothing before it, has between its delimiters what stands there.  It gives no warning and leaves the
    attributes, ids and numbers as they are, whatever is in it: titles, ids, attribute entries, delimiters of other blocks. *)
Theorem C129_block : forall E fuel s P d x rest o, boxed d x (sp_data s) rest -> e_sub E P (snd (raw_meaning d)) false x = Ok o ->
  exists q after, block_parse E fuel s P = Ok (mkpr (Some (mkmi q after)) [] P) /\ a_box d x o q /\ sp_data after = rest.
Proof.
  intros E fuel s P d x rest o Hb Ho. destruct (box_block E (parse_blocks_until E fuel) s P d x rest o Hb Ho) as (q & pre & Hq & _ & Er). exists q, (skip s pre rest). split; [exact Er|]. split; [exact Hq|apply sp_data_skip].
Qed.
(** What comes after it is read as if it stood alone. *)
Theorem C129_rest : forall E D fuel f n s P d x rest o, block_loop_stop E f -> located D s -> sp_col s = 1 -> boxed d x (sp_data s) rest -> e_sub E P (snd (raw_meaning d)) false x = Ok o ->
  exists q k m, a_box d x o q /\ (forall b, blocks_loop E fuel f n (span_new rest) P = Ok b -> exists b', blocks_loop E (S fuel) f n s P = Ok b' /\ then_moved q k m b b') /\
    (forall b', blocks_loop E (S fuel) f n s P = Ok b' -> exists b, blocks_loop E fuel f n (span_new rest) P = Ok b /\ then_moved q k m b b').
Proof. exact box_loop. Qed.
Lemma located_new t : located t (span_new t).
Proof. exists [], []. split; [symmetry; apply app_nil_r|]. split; [reflexivity|]. split; [|reflexivity]. exists [], []. repeat split; auto. Qed.
(** So two texts that differ in what is in the block, or in the delimiter, have the same blocks after it, but for their places,
    and the same attributes, ids and numbers at the end. *)
Theorem C129_same : forall E fuel f n t1 t2 d1 d2 x1 x2 rest P b1, block_loop_stop E f -> boxed d1 x1 t1 rest -> boxed d2 x2 t2 rest -> harmless E d1 -> harmless E d2 ->
  blocks_loop E fuel f n (span_new t1) P = Ok b1 ->
  exists b2 b q1 q2 o1 o2 k1 m1 k2 m2, blocks_loop E fuel f n (span_new t2) P = Ok b2 /\ a_box d1 x1 o1 q1 /\ a_box d2 x2 o2 q2 /\ then_moved q1 k1 m1 b b1 /\ then_moved q2 k2 m2 b b2.
Proof.
  intros E fuel f n t1 t2 d1 d2 x1 x2 rest P b1 Hf B1 B2 H1 H2 H. destruct (H1 P x1) as (o1 & Ho1). destruct (H2 P x2) as (o2 & Ho2).
  destruct fuel as [|fuel]. { exfalso. cbn [blocks_loop sp_data span_new] in H. destruct t1; [exact (box_nonempty _ _ _ _ B1 eq_refl)|discriminate H]. }
  destruct (C129_rest E t1 fuel f n (span_new t1) P d1 x1 rest o1 Hf (located_new t1) eq_refl B1 Ho1) as (q1 & k1 & m1 & A1 & _ & R1).
  destruct (C129_rest E t2 fuel f n (span_new t2) P d2 x2 rest o2 Hf (located_new t2) eq_refl B2 Ho2) as (q2 & k2 & m2 & A2 & R2 & _).
  destruct (R1 _ H) as (b & Hb & M1). destruct (R2 _ Hb) as (b2 & K2 & M2). exists b2, b, q1, q2, o1, o2, k1, m1, k2, m2. auto.
Qed.
Lemma box_shown d x z rest : boxed d x z rest -> shown z /\ exists c y, z = c :: y /\ c <> 58%N.
Proof.
  intros (l & r & k & Hl & Hd & _). destruct (raw_first _ Hd) as (c & y & -> & Hc). split.
  - exists l, r, (c :: y), c. split; [exact Hl|]. split; [left; reflexivity|]. intros [->| ->]; cbn in Hc; intuition discriminate.
  - destruct (a_line_head _ _ _ _ _ Hl) as (w & ->). exists c, w. split; [reflexivity|]. intros ->. cbn in Hc. intuition discriminate.
Qed.
Lemma box_discard d x z rest : boxed d x z rest -> p_discard_empty_lines (span_new z) = span_new z.
Proof. intros (l & r & k & Hl & Hd & _). exact (raw_nonempty_lines (span_new z) _ _ _ Hl Hd). Qed.
(** The same with blocks before it: they stay as they are, and what comes after the block is read with what they have left. *)
Theorem C129_between : forall E fuel F n t z d x rest P b br, boxed d x z rest -> harmless E d -> well_ended t ->
  parse_blocks_until E fuel never n (span_new t) P = Ok b -> terminated (br_warnings b) -> Forall no_section (br_blocks b) -> blocks_loop E F never n (span_new rest) (br_parser b) = Ok br ->
  exists b' q o k m k' m', parse_blocks_until E (fuel + S F) never n (span_new (t ++ LF :: z)) P = Ok b' /\ a_box d x o q /\
    br_blocks b' = br_blocks b ++ q :: map (mv_block k m) (map (mv_block k' m') (br_blocks br)) /\ br_parser b' = br_parser br /\
    exists w, relw z (br_warnings b) w /\ br_warnings b' = w ++ map (mv_w k m) (map (mv_w k' m') (br_warnings br)).
Proof.
  intros E fuel F n t z d x rest P b br Hb Hh Ht H T Hn Hr. destruct (Hh (br_parser b) x) as (o & Ho).
  destruct (C129_rest E z F never n (span_new z) (br_parser b) d x rest o (or_introl eq_refl) (located_new z) eq_refl Hb Ho) as (q & k' & m' & A & R & _). destruct (R _ Hr) as (bz & Hz & M1 & M2 & M3 & M4 & M5).
  destruct (box_shown _ _ _ _ Hb) as (Sz & c & y & Ez & Nc). assert (Hz' : parse_blocks_until E (S F) never n (span_new z) (br_parser b) = Ok bz) by (unfold parse_blocks_until; rewrite discard_empty_lines_ok, (box_discard _ _ _ _ Hb); exact Hz).
  destruct (C124_texts_in_turn E fuel (S F) n t z c y P b bz Sz Ez Nc Ht H T (or_intror Hn) Hz') as (b' & Hb' & B1 & B2 & w & W1 & W2). rewrite M1 in B1. rewrite M2 in W2. rewrite M5 in B2. cbn [map] in B1.
  eexists b', (mv_block _ _ q), o, _, _, k', m'. split; [exact Hb'|]. split; [|split; [exact B1|split; [exact B2|exists w; split; [exact W1|exact W2]]]].
  destruct A as (cc & mo & sr & -> & A1 & A2). eexists _, _, _. split; [reflexivity|]. split; [exact A1|exact A2].
Qed.
(** The substitutions of the crate always have a result in such a block, with any unicode tables. *)
Theorem C129_always : forall U fs fuel d, raw_delimiter d -> harmless (env_of U fs (S fuel)) d.
Proof.
  intros U fs fuel d Hd P x. unfold env_of. cbn [e_sub]. destruct (raw_first _ Hd) as (c & y & -> & Hc). cbn in Hc. destruct Hc as [<-|[<-|[<-|[<-|[]]]]]; cbn [raw_meaning snd N.eqb Pos.eqb].
  - exists x. exact (proj2 (C41_pass_and_none U fs P fuel false x)).
  - destruct (C41_verbatim U fs P fuel false x) as (o & K & _). eauto.
  - destruct (C41_verbatim U fs P fuel false x) as (o & K & _). eauto.
  - exists x. exact (proj1 (C41_pass_and_none U fs P fuel false x)).
Qed.
Definition box_text (x : list text) : text := lines ([lit "////"] ++ x ++ [lit "////"; lit ":b: c"; lit "a{b}"; []; lit "== D"]).
Lemma line_of_box x r : ~ In LF x -> (forall y, x <> y ++ [SP]) -> (forall y, x <> y ++ [CR]) -> a_line (x ++ LF :: r) (x ++ [LF]) r x.
Proof.
  intros H1 H2 H3. exists x, [LF]. split; [rewrite <- app_assoc; reflexivity|]. split; [reflexivity|]. split; [exact H1|]. split; [left; reflexivity|].
  exists x, []. split; [right; auto|]. split; [symmetry; apply app_nil_r|]. split; [intros ? []|exact H2].
Qed.
Ltac box_line x := apply (line_of_box x); [vm_compute; intuition discriminate| |]; intros y K; apply (f_equal (@rev N)) in K; rewrite rev_app_distr in K; discriminate K.
(** A comment with a title, an id, an attribute entry and a delimiter in it. *)
Definition box_hidden : list text := [lit "== A"; lit "[#x]"; lit ":b: no"; lit "----"].
Example C129_boxed : exists rest, boxed (lit "////") (lines box_hidden) (box_text box_hidden) rest /\ boxed (lit "////") (lit "e") (box_text [lit "e"]) rest /\ rest = lines [lit ":b: c"; lit "a{b}"; []; lit "== D"].
Proof.
  eexists. split; [|split; [|reflexivity]].
  - exists (lit "////" ++ [LF]). eexists _, (lines (box_hidden ++ [[]])). split; [box_line (lit "////")|]. split; [exists 47%N; split; [cbn; auto|exists 4; split; [lia|reflexivity]]|]. split.
    + change (lines (box_hidden ++ [[]])) with ((lit "== A" ++ [LF]) ++ (lit "[#x]" ++ [LF]) ++ (lit ":b: no" ++ [LF]) ++ (lit "----" ++ [LF]) ++ []).
      eapply (en_more (lit "////") _ (lit "== A" ++ [LF]) _ (lit "== A")); [discriminate|box_line (lit "== A")|discriminate|].
      eapply (en_more (lit "////") _ (lit "[#x]" ++ [LF]) _ (lit "[#x]")); [discriminate|box_line (lit "[#x]")|discriminate|].
      eapply (en_more (lit "////") _ (lit ":b: no" ++ [LF]) _ (lit ":b: no")); [discriminate|box_line (lit ":b: no")|discriminate|].
      eapply (en_more (lit "////") _ (lit "----" ++ [LF]) _ (lit "----")); [discriminate|box_line (lit "----")|discriminate|].
      eapply (en_here (lit "////") _ (lit "////" ++ [LF])); [discriminate|box_line (lit "////")].
    + left. exists (lines box_hidden). split; [reflexivity|]. right. split; [reflexivity|]. intros y K. apply (f_equal (@rev N)) in K. rewrite rev_app_distr in K. discriminate K.
  - exists (lit "////" ++ [LF]). eexists _, (lit "e" ++ [LF]). split; [box_line (lit "////")|]. split; [exists 47%N; split; [cbn; auto|exists 4; split; [lia|reflexivity]]|]. split.
    + change (lit "e" ++ [LF]) with ((lit "e" ++ [LF]) ++ []).
      eapply (en_more (lit "////") _ (lit "e" ++ [LF]) _ (lit "e")); [discriminate|box_line (lit "e")|discriminate|].
      eapply (en_here (lit "////") _ (lit "////" ++ [LF])); [discriminate|box_line (lit "////")].
    + left. exists (lit "e"). split; [reflexivity|]. right. split; [reflexivity|]. intros y K. apply (f_equal (@rev N)) in K. rewrite rev_app_distr in K. discriminate K.
Qed.
Definition box_before : text := lit "a *b*" ++ [LF].
Example C129_between_example : well_ended box_before /\ exists b, parse_blocks_until E0 20 never 0 (span_new box_before) parser_default = Ok b /\ terminated (br_warnings b) /\ Forall no_section (br_blocks b) /\ length (br_blocks b) = 1 /\ harmless E0 (lit "////").
Proof.
  split; [right; right; exists (lit "a *b"), 42%N; repeat split; discriminate|]. eexists. split; [vm_compute; reflexivity|]. split; [intros w []|]. split; [constructor; [intros ? ? ? ? ? ? ? ? K; discriminate K|constructor]|]. split; [reflexivity|].
  apply C129_always. exists 47%N. split; [left; reflexivity|exists 4; split; [lia|reflexivity]].
Qed.
(** What is after it, as texts and titles, and the attribute. *)
Definition box_seen (t : text) : list (option text) * option text :=
  match blocks_loop E0 40 never 0 (span_new t) parser_default with Ok b => (map rendered (br_blocks b), as_maybe_str (attribute_value (br_parser b) (lit "b"))) | _ => ([], None) end.
Example C129_example : box_seen (box_text box_hidden) = ([Some (lines box_hidden); None; Some (lit "ac"); None], Some (lit "c")) /\ box_seen (box_text [lit "e"]) = ([Some (lit "e"); None; Some (lit "ac"); None], Some (lit "c")).
Proof. split; vm_compute; reflexivity. Qed.
(** A comment may come before the title of a document, the language says.  After a comment block there is no header. *)
Definition header_title (t : text) : option (option text) := match document_parse E0 40 t [] parser_default with Ok (d, _) => Some (h_title (d_header d)) | _ => None end.
Theorem C129_before_title_refuted : exists x t, x = lines [lit "////"; lit "a"; lit "////"; []] /\ header_title t = Some (Some (lit "T")) /\ header_title (x ++ t) = Some None /\ header_title (lit "// a" ++ [LF] ++ t) = Some (Some (lit "T")).
Proof. exists (lines [lit "////"; lit "a"; lit "////"; []]), (lines [lit "= T"; []; lit "b"]). split; [reflexivity|]. split; [vm_compute; reflexivity|]. split; vm_compute; reflexivity. Qed.
(** An include directive in a comment is carried out.  What it brings in may end the comment. *)
Definition shown_blocks (ifh : include_handler) (t : text) : list (option text) := match parser_parse E0 ifh 40 40 t parser_default with Ok (d, _) => map rendered (d_blocks d) | _ => [] end.
Theorem C129_include_refuted : exists ifh t1 t2 x1 x2, t1 = lines [lit "////"; x1; lit "////"] /\ t2 = lines [lit "////"; x2; lit "////"] /\
  shown_blocks ifh t1 = [Some x1] /\ shown_blocks ifh t2 = [Some (lit "a"); Some (lit "b"); Some []].
Proof. exists (fun _ _ _ _ => Some (lines [lit "a"; lit "////"; lit "b"])). eexists _, _, (lit "x"), (lit "include::f[]"). do 2 (split; [reflexivity|]). split; vm_compute; reflexivity. Qed.
Print Assumptions C129_block.
Print Assumptions C129_rest.
Print Assumptions C129_same.
Print Assumptions C129_between.
Print Assumptions C129_always.
Print Assumptions C129_before_title_refuted.
Print Assumptions C129_include_refuted.
