(** Blocks begin where lines begin (C121). *)
From Verif Require Import Text TextFacts Maps Span_Model Span_Pure Span_Proof Span_Laws Span_Spec Catalog_Model Parser_Model Subs_Model Attrlist_Model
  Render_Model Entry_Spec Entry_Model Entry_Proof Group_Model SecId_Model Header_Model Header_Spec Header_Proof Block_Model Block_Spec Block_Proof SourceMap_Model Doc_Model Tree_Spec Tree_Proof Tree_Prop Walk_Proof Shape_Proof Meta_Spec Spans_Spec BlockSubs_Proof Inert_Proof Spans_Proof Pre_Spec Round_Proof Block_Prop Begin_Spec.

(** * Lines *)
(** The text [p] is whole lines: after it comes the beginning of a line, or nothing. *)
Definition wholes (p r : text) : Prop := r = [] \/ p = [] \/ exists q, p = q ++ [LF].
Lemma wholes_app p q r : wholes p (q ++ r) -> wholes q r -> wholes (p ++ q) r.
Proof.
  intros A [B|[B|(x & B)]]; [left; exact B|subst q; rewrite app_nil_r; exact A|]. right. right. exists (p ++ x). rewrite B, app_assoc. reflexivity.
Qed.
Lemma wholes_line t l r n : a_line t l r n -> wholes l r.
Proof. intros (x & e & _ & -> & _ & [->|(-> & ->)] & _); [right; right; eauto|left; reflexivity]. Qed.
Lemma after_lf s q r : begins (skip s (q ++ [LF]) r).
Proof. exact (skip_begins (fun _ x => x) s q r). Qed.
Lemma skip_wholes s p r : begins s -> sp_data s = p ++ r -> wholes p r -> begins (skip s p r).
Proof.
  intros B D [->|[->|(q & ->)]]; [intros H; rewrite sp_data_skip in H; contradiction| |apply after_lf]. cbn [app] in D. rewrite skip_nil, <- D, with_data_self. exact B.
Qed.
Lemma line_begins_after s l r n : a_line (sp_data s) l r n -> begins (skip s l r).
Proof. intros (x & e & _ & -> & _ & [->|(-> & ->)] & _); [apply after_lf|intros H; rewrite sp_data_skip in H; contradiction]. Qed.
Lemma line_begins_part s l r n c : a_line (sp_data s) l (c ++ r) n -> begins (skip s l c).
Proof. intros (x & e & _ & -> & _ & [->|(-> & Hr)] & _); [apply after_lf|]. apply app_eq_nil in Hr. destruct Hr as (-> & _). intros H; rewrite sp_data_skip in H; contradiction. Qed.
Lemma discard_begins s : begins s -> begins (p_discard_empty_lines s).
Proof.
  unfold p_discard_empty_lines. generalize (length (sp_data s)). intros f. revert s. induction f as [|f IH]; intros s B; cbn [p_discard_empty_lines_go]; [destruct (sp_data s); exact B|].
  destruct (sp_data s) as [|c t] eqn:D; [exact B|]. destruct (p_take_empty_line s) as [line|] eqn:El; [|exact B]. apply IH. unfold p_take_empty_line in El. destruct (forallb _ _); [|discriminate El]. injection El as <-.
  destruct (first_line (sp_data s)) as (l & e & r & D2 & Hl & He). rewrite (p_take_line_eq _ _ _ _ Hl He D2). cbn [mi_after].
  destruct He as [->|(-> & ->)]; [apply after_lf|]. intros K. rewrite sp_data_skip in K. contradiction.
Qed.
Lemma norm_begins s mi : take_normalized_line s = Ok mi -> begins (mi_after mi).
Proof. intros H. apply take_norm_inv in H. destruct H as (l & r & n & Hl & ->). exact (line_begins_after _ _ _ _ Hl). Qed.
Lemma logical_wholes t c r : logical t c r -> wholes c r.
Proof.
  induction 1 as [l e rest Hl He Hc|l e rest consumed rest' Hl He Hc Hr IH].
  - destruct He as [->|(-> & ->)]; [right; right; eauto|left; reflexivity].
  - destruct IH as [->|[->|(q & ->)]]; [left; reflexivity| |right; right; exists (l ++ e ++ q); rewrite <- !app_assoc; reflexivity]. rewrite app_nil_r.
    apply logical_app in Hr. cbn [app] in Hr. subst rest. destruct He as [->|(-> & ->)]; [right; right; eauto|left; reflexivity].
Qed.
Lemma paragraph_wholes k b t ls rest : paragraph k b t ls rest -> forall pre, t = pre ++ rest -> wholes pre rest.
Proof.
  induction 1 as [b t _|t l r n _ _|b t l r n ls rest Hl _ Hp IH|b t l r n y ls rest _ Hl _ _ _ _ Hp IH]; intros pre D.
  - right. left. apply (app_inv_tail t). symmetry. exact D.
  - right. left. apply (app_inv_tail t). symmetry. exact D.
  - destruct (paragraph_app _ _ _ _ _ Hp) as (q & Dq). pose proof (a_line_app _ _ _ _ Hl) as Da. rewrite Da, Dq, app_assoc in D. apply app_inv_tail in D. subst pre. apply wholes_app; [rewrite <- Dq; exact (wholes_line _ _ _ _ Hl)|exact (IH _ Dq)].
  - destruct (paragraph_app _ _ _ _ _ Hp) as (q & Dq). pose proof (a_line_app _ _ _ _ Hl) as Da. rewrite Da, Dq, app_assoc in D. apply app_inv_tail in D. subst pre. apply wholes_app; [rewrite <- Dq; exact (wholes_line _ _ _ _ Hl)|exact (IH _ Dq)].
Qed.

(** * Metadata *)
Lemma title_step_begins m m' : md_title_step m = Ok (Some m') -> begins (ms_start m').
Proof.
  unfold md_title_step. destruct (ms_title m); [discriminate|]. intros H. apply bind_ok in H. destruct H as (mt & Et & H). destruct (_ && _); [|discriminate H].
  apply bind_ok in H. destruct H as (t & _ & H). apply bind_ok in H. destruct H as (ws & _ & H). destruct (is_nil _); [|discriminate H]. apply Ok_inj in H. injection H as <-. cbn [ms_start]. exact (norm_begins _ _ Et).
Qed.
Lemma block_anchor_begins s mi ws : parse_maybe_block_anchor s = Ok (Some mi, ws) -> begins (mi_after mi).
Proof.
  unfold parse_maybe_block_anchor. destruct (starts_with _ _); [|discriminate]. intros H. apply bind_ok in H. destruct H as (mt & Et & H). destruct (ends_with _ _); [|discriminate H].
  apply bind_ok in H. destruct H as (e & _ & H). apply bind_ok in H. destruct H as (a & _ & H). destruct (is_nil _); [discriminate H|]. apply Ok_inj in H. injection H as <- _. exact (norm_begins _ _ Et).
Qed.
Lemma anchor_step_begins U m r : begins (ms_start m) -> md_anchor_step U m = Ok r -> begins (ms_start (fst r)).
Proof.
  intros B. unfold md_anchor_step. destruct (ms_anchor m); [intros H; apply Ok_inj in H; subst r; exact B|]. intros H. apply bind_ok in H. destruct H as ([o w] & Ea & H). cbn [fst snd] in H.
  destruct o as [mi|]; [|apply Ok_inj in H; subst r; exact B]. pose proof (block_anchor_begins _ _ _ Ea) as S. apply bind_ok in H. destruct H as (m' & Em & H). apply Ok_inj in H. subst r. cbn [fst].
  destruct (position _ _).
  - apply bind_ok in Em. destruct Em as (last & _ & Em). destruct (_ <? _).
    + apply bind_ok in Em. destruct Em as (a1 & _ & Em). apply bind_ok in Em. destruct Em as (a2 & _ & Em). apply Ok_inj in Em. subst m'. destruct (is_xml_name _ _); cbn [ms_start]; [exact S|exact B].
    + apply Ok_inj in Em. subst m'. destruct (is_xml_name _ _); cbn [ms_start]; [exact S|exact B].
  - apply Ok_inj in Em. subst m'. destruct (is_xml_name _ _); cbn [ms_start]; [exact S|exact B].
Qed.
Lemma attrlist_step_begins E P m r : begins (ms_start m) -> md_attrlist_step E P m = Ok r -> begins (ms_start (fst r)).
Proof.
  intros B. unfold md_attrlist_step. destruct (ms_attrlist m); [intros H; apply Ok_inj in H; subst r; exact B|]. intros H. apply bind_ok in H. destruct H as (o & Ea & H). apply Ok_inj in H. subst r.
  destruct o as [aw|]; [|exact B]. cbn [fst ms_start]. unfold parse_maybe_attrlist_line in Ea. destruct (starts_with _ _); [|discriminate Ea]. apply bind_ok in Ea. destruct Ea as (mt & Et & Ea).
  destruct (ends_with _ _); [|discriminate Ea]. apply bind_ok in Ea. destruct Ea as (e & _ & Ea). apply bind_ok in Ea. destruct Ea as (a & _ & Ea). destruct (_ || _); [discriminate Ea|].
  apply bind_ok in Ea. destruct Ea as (q & _ & Ea). apply Ok_inj in Ea. injection Ea as <-. cbn [fst mi_after]. exact (norm_begins _ _ Et).
Qed.
Lemma md_loop_begins E P : forall fuel m m', begins (ms_start m) -> md_loop E P fuel m = Ok m' -> begins (ms_start m').
Proof.
  induction fuel as [|fuel IH]; intros m m' B H; cbn [md_loop] in H; [discriminate H|]. apply bind_ok in H. destruct H as (o & Eo & H). destruct o as [m1|].
  - exact (IH _ _ (title_step_begins _ _ Eo) H).
  - apply bind_ok in H. destruct H as (a & Ea & H). pose proof (anchor_step_begins _ _ _ B Ea) as S1. destruct (snd a); [exact (IH _ _ S1 H)|].
    apply bind_ok in H. destruct H as (l & El & H). pose proof (attrlist_step_begins _ _ _ _ S1 El) as S2. destruct (snd l); [exact (IH _ _ S2 H)|].
    apply Ok_inj in H. subst m'. exact S2.
Qed.
Lemma metadata_begins E s P m ws : begins s -> metadata_parse E s P = Ok (m, ws) -> begins (md_source m) /\ begins (md_start m).
Proof.
  intros B. apply discard_begins in B. unfold metadata_parse. rewrite discard_empty_lines_ok. cbn [bind]. intros H. apply bind_ok in H. destruct H as (x & Ex & H). apply bind_ok in H. destruct H as (t & _ & H). apply Ok_inj in H. injection H as <- _.
  cbn [md_source md_start]. split; [exact B|]. refine (md_loop_begins _ _ _ _ _ _ Ex). exact B.
Qed.

(** * The blocks *)
Lemma lines_begins E s a P mi : begins s -> parse_lines E s a P = Ok (Some mi) -> begins (mi_after mi).
Proof.
  unfold parse_lines. intros B H. apply bind_ok in H. destruct H as (saw & _ & H). apply bind_ok in H. destruct H as (k & _ & H). apply bind_ok in H. destruct H as (bs & _ & H).
  destruct (simple_lines_spec k (length (sp_data s)) s [] (le_n _)) as (ls & pre & rest & Hp & D & Es). rewrite Es in H. cbn [bind fst snd] in H.
  rewrite (trim_to s pre rest) in H by (rewrite ?sp_off_skip; auto). cbn [bind] in H. rewrite trim_trailing_whitespace_ok in H. cbn [bind] in H.
  destruct (is_nil _); [discriminate H|].
  apply bind_ok in H. destruct H as (g & _ & H). apply bind_ok in H. destruct H as (t & _ & H). rewrite discard_empty_lines_ok in H. cbn [bind] in H. apply Ok_inj in H. injection H as <-.
  cbn [mi_after]. apply discard_begins, (skip_wholes _ _ _ B D). exact (paragraph_wholes _ _ _ _ _ Hp _ D).
Qed.
Lemma fast_begins E s P mi : begins s -> simple_parse_fast E s P = Ok (Some mi) -> begins (mi_after mi).
Proof.
  intros B H. unfold simple_parse_fast in H. apply bind_ok in H. destruct H as (o & Ho & H). destruct o as [x|]; [|discriminate H]. rewrite discard_empty_lines_ok in H. cbn [bind] in H. apply Ok_inj in H. injection H as <-.
  apply discard_begins. exact (lines_begins _ _ _ _ _ B Ho).
Qed.
Lemma simple_begins E m P mi : begins (md_start m) -> simple_parse E m P = Ok (Some mi) -> begins (mi_after mi).
Proof.
  intros B H. unfold simple_parse in H. apply bind_ok in H. destruct H as (o & Ho & H). destruct o as [x|]; [|discriminate H]. apply bind_ok in H. destruct H as (q & _ & H). apply bind_ok in H. destruct H as (q' & _ & H). rewrite discard_empty_lines_ok in H. cbn [bind] in H. apply Ok_inj in H. injection H as <-.
  apply discard_begins. exact (lines_begins _ _ _ _ _ B Ho).
Qed.
Lemma delimiter_begins d s f o line : find_delimiter (length (sp_data s)) d s = Ok (f, o) -> o = Some line -> begins (mi_after line).
Proof.
  intros H Ho. destruct (find_delimiter_spec d (length (sp_data s)) s (le_n _)) as (c & o' & _ & K). destruct o' as [r|].
  - destruct K as (l & D & Hl & _ & Ef). rewrite Ef in H. apply Ok_inj in H. injection H as _ <-. injection Ho as <-. cbn [mi_after].
    rewrite <- (skip_skip s c (l ++ r) l r). apply (line_begins_after (skip s c (l ++ r)) l r d). rewrite sp_data_skip. exact Hl.
  - destruct K as (_ & Ef). rewrite Ef in H. apply Ok_inj in H. injection H as _ <-. discriminate Ho.
Qed.
Lemma delimiter_none d s f : find_delimiter (length (sp_data s)) d s = Ok (f, None) -> sp_data f = [].
Proof.
  intros H. destruct (find_delimiter_spec d (length (sp_data s)) s (le_n _)) as (c & o' & _ & K). destruct o' as [r|].
  - destruct K as (l & D & Hl & _ & Ef). rewrite Ef in H. discriminate H.
  - destruct K as (_ & Ef). rewrite Ef in H. apply Ok_inj in H. injection H as <-. apply sp_data_skip.
Qed.
Lemma raw_begins E m P mi w : raw_parse E m P = Ok (Some (mi, w)) -> begins (mi_after mi).
Proof.
  intros H. unfold raw_parse in H. apply bind_ok in H. destruct H as (de & El & H). cbv zeta in H. destruct (_ <? _); [discriminate H|].
  destruct (raw_kind _) as [[model [context g]]|]; [|discriminate H]. apply bind_ok in H. destruct H as (v & _ & H). destruct (negb v); [discriminate H|]. apply bind_ok in H. destruct H as ([f o] & Ef & H). cbn [fst snd] in H.
  apply bind_ok in H. destruct H as (c & Ec & H). apply bind_ok in H. destruct H as (c' & Ec' & H). destruct o as [line|].
  - apply bind_ok in H. destruct H as (g' & _ & H). apply bind_ok in H. destruct H as (t & _ & H). apply bind_ok in H. destruct H as (s1 & E1 & H). apply bind_ok in H. destruct H as (s2 & E2 & H). apply Ok_inj in H. injection H as <- _. cbn [mi_after].
    exact (delimiter_begins _ _ _ _ _ Ef eq_refl).
  - apply bind_ok in H. destruct H as (s1 & E1 & H). apply bind_ok in H. destruct H as (s2 & E2 & H). apply Ok_inj in H. injection H as <- _. cbn [mi_after]. intros K. apply delimiter_none in Ef. contradiction.
Qed.
Definition begins_until (d : text) (un : stop_fn -> nat -> span -> parser -> res bres) : Prop :=
  forall f n s P b, located d s -> begins s -> un f n s P = Ok b -> begins (br_after b) /\ forall c, below (br_blocks b) c -> begins (block_span c).
Lemma compound_begins d un m P mi w P1 : begins_until d un -> located d (md_start m) -> compound_parse (un never 0) m P = Ok (Some (mi, (w, P1))) -> begins (mi_after mi) /\ forall c, below (nested_blocks (mi_item mi)) c -> begins (block_span c).
Proof.
  intros G L H. unfold compound_parse in H. apply bind_ok in H. destruct H as (de & El & H). apply take_norm_inv in El. destruct El as (l & r & n & Hl & ->). cbv zeta in H. cbn [mi_item mi_after] in H.
  destruct (compound_context _) as [cx|]; [|discriminate H]. apply bind_ok in H. destruct H as (v & _ & H). destruct (negb v); [discriminate H|]. apply bind_ok in H. destruct H as ([f o] & Ef & H). cbn [fst snd] in H.
  apply bind_ok in H. destruct H as (ins & Ei & H). apply bind_ok in H. destruct H as (b & Eb & H). rewrite discard_all_ok in H. cbn [bind] in H. apply bind_ok in H. destruct H as (src0 & E1 & H). rewrite trim_trailing_whitespace_ok in H. cbn [bind] in H.
  apply Ok_inj in H. injection H as <- _ _. cbn [mi_item mi_after nested_blocks]. split.
  - destruct o as [line|]; [exact (delimiter_begins _ _ _ _ _ Ef eq_refl)|]. intros K. apply delimiter_none in Ef. cbn [mi_after] in K. contradiction.
  - refine (proj2 (G _ _ _ _ _ _ _ Eb)); [exact (located_Sub _ _ _ L (Sub_trans _ _ _ (Suffix_Sub _ _ (suffix_line _ _ _ _ Hl)) (trim_remainder_Sub _ _ _ Ei)))|]. destruct (remainder_inv _ _ _ Ei) as (q & q' & Dq & -> & _). rewrite with_data_skip. rewrite sp_data_skip in Dq. rewrite Dq in Hl. exact (line_begins_part _ _ _ _ _ Hl).
Qed.
Lemma section_begins d E un m P mi ws P1 : begins_until d un -> located d (md_start m) -> section_parse E un m P = Ok (Some mi, (ws, P1)) -> begins (mi_after mi) /\ forall c, below (nested_blocks (mi_item mi)) c -> begins (block_span c).
Proof.
  intros G L H. apply section_parse_inv in H.
  destruct H as (discrete & source & lt & w & sid & b & src0 & src & title & base & manual & reg & tp & np & bs & _ & Esrc & Hlt & _ & _ & _ & Hu & Ht & Es & _ & _ & _ & _ & _ & -> & _ & _).
  apply title_line_some in Hlt. destruct Hlt as (l & r & n & t & Hl & Hn & _ & _ & Ea & _). cbn [mi_item mi_after nested_blocks].
  refine (G _ _ _ _ _ _ _ Hu); rewrite Ea; [apply (located_Suffix _ _ _ L); eapply Suffix_trans; [|exact (suffix_line _ _ _ _ Hl)]; rewrite Esrc; apply discard_empty_Suffix|]. exact (line_begins_after _ _ _ _ Hl).
Qed.
Lemma media_begins E m P mi w : media_parse E m P = Ok (Some mi, w) -> begins (mi_after mi).
Proof.
  intros H. unfold media_parse in H. apply bind_ok in H. destruct H as (line & El & H). destruct (negb _); [discriminate H|]. apply bind_ok in H. destruct H as (o & E1 & H). destruct o as [name|]; [|discriminate H]. destruct (media_type_of _) as [ty|]; [|discriminate H].
  apply bind_ok in H. destruct H as (o & E2 & H). destruct o as [colons|]; [|discriminate H]. apply bind_ok in H. destruct H as (target & E3 & H). destruct (is_nil _); [discriminate H|].
  apply bind_ok in H. destruct H as (o & E4 & H). destruct o as [ob|]; [|discriminate H]. apply bind_ok in H. destruct H as (e & Ec & H). apply bind_ok in H. destruct H as (al & Eal & H).
  apply bind_ok in H. destruct H as ([a aw] & Ea & H). apply bind_ok in H. destruct H as (src & Esrc & H). rewrite discard_empty_lines_ok in H. cbn [bind snd fst] in H. apply Ok_inj in H. injection H as <- _. apply discard_begins. exact (norm_begins _ _ El).
Qed.
Lemma break_begins m mi : break_parse m = Ok (Some mi) -> begins (mi_after mi).
Proof.
  intros H. unfold break_parse in H. apply bind_ok in H. destruct H as (line & El & H). destruct (break_type_of _) as [ty|]; [|discriminate H]. apply bind_ok in H. destruct H as (src & Esrc & H). rewrite discard_empty_lines_ok in H. cbn [bind] in H. apply Ok_inj in H. injection H as <-.
  apply discard_begins. exact (norm_begins _ _ El).
Qed.
Lemma entry_begins hdr s P m : begins s -> attribute_parse hdr s P = Ok (Some m) -> begins (mi_after m).
Proof.
  intros B H. destruct (logical_total (sp_data s)) as (c & r & Hc). destruct (attribute_parse_eq hdr s P c r Hc) as (pre & vs & E & Ev). cbv zeta in E. rewrite H in E.
  destruct (e_parse _) as [[n [u rest]]|]; [|discriminate E]. destruct (e_value hdr P u rest) as [v| |]; cbn [bind] in E; try discriminate E. apply Ok_inj in E. injection E as ->. cbn [mi_after].
  exact (skip_wholes _ _ _ B (logical_app _ _ _ Hc) (logical_wholes _ _ _ Hc)).
Qed.
Lemma shaped_begins src st b : begins src -> shaped src st b -> begins (block_span b).
Proof. intros B (pre & rest & y & w & D & Ep & _ & Hb & _). rewrite Hb. intros K. cbn [sp_data sp_col with_data] in *. apply B. rewrite D, Ep. destruct y; [contradiction|discriminate]. Qed.

(** * Any block *)
Lemma only b : nested_blocks b = [] -> begins (block_span b) -> forall c, below [b] c -> begins (block_span c).
Proof. intros Hn F c Hc. apply below_one in Hc. rewrite Hn in Hc. destruct Hc as [->|Hc]; [exact F|destruct (below_nil _ Hc)]. Qed.
Lemma last_begins E m ws P r mi : Suffix (md_source m) (md_start m) -> begins (md_source m) -> begins (md_start m) -> last_resort E m ws P = Ok r -> pr_item r = Some mi ->
  begins (mi_after mi) /\ forall c, below [mi_item mi] c -> begins (block_span c).
Proof.
  intros S B1 B2 H Hi. unfold last_resort in H. apply bind_ok in H. destruct H as (o & Eo & H). destruct o as [x|]; [|apply Ok_inj in H; subst r; discriminate Hi].
  rewrite (finish_item _ _ _ _ H) in Hi. injection Hi as <-. split; [exact (simple_begins _ _ _ _ B2 Eo)|]. destruct (simple_shaped _ _ _ _ S Eo) as (Sh & Hc & Hb). apply only; [destruct Hb as (? & ? & ? & ? & ->); reflexivity|exact (shaped_begins _ _ _ B1 Sh)].
Qed.
Lemma block_begins d E un s P r mi : good_until d un -> begins_until d un -> located d s -> begins s -> block_parse_with E un s P = Ok r -> pr_item r = Some mi -> begins (mi_after mi) /\ forall c, below [mi_item mi] c -> begins (block_span c).
Proof.
  intros G GN L B H Hi. unfold block_parse_with in H. apply bind_ok in H. destruct H as (fl & _ & H). apply bind_ok in H. destruct H as (fast & Ef & H). destruct fast as [x|].
  { rewrite (finish_item _ _ _ _ H) in Hi. injection Hi as <-. destruct (try_fast _ _); [|discriminate Ef]. split; [exact (fast_begins _ _ _ _ B Ef)|]. destruct (fast_shaped _ _ _ _ Ef) as (Sh & Ha). apply only.
    - unfold simple_parse_fast in Ef. apply bind_ok in Ef. destruct Ef as (o & _ & Ef). destruct o; [|discriminate Ef]. apply bind_ok in Ef. destruct Ef as (? & _ & Ef). apply Ok_inj in Ef. injection Ef as <-. reflexivity.
    - exact (shaped_begins _ _ _ B Sh). }
  apply bind_ok in H. destruct H as (entry & Ee & H). destruct entry as [attr|].
  { apply Ok_inj in H. subst r. cbn [pr_item] in Hi. injection Hi as <-. destruct (try_entry _); [|discriminate Ee]. cbn [mi_item mi_after]. split; [exact (entry_begins _ _ _ _ B Ee)|]. apply only; [reflexivity|]. exact (shaped_begins _ _ _ B (proj1 (entry_shaped _ _ _ _ Ee))). }
  apply bind_ok in H. destruct H as ([m ws] & Em & H). cbn [fst snd] in H. destruct (metadata_Suffix _ _ _ _ _ Em) as (E1 & S). pose proof (metadata_head _ _ _ _ _ Em) as Hh. destruct (metadata_begins _ _ _ _ _ B Em) as (B1 & B2).
  assert (L1 : located d (md_source m)) by (rewrite E1; exact (located_Suffix _ _ _ L (discard_empty_Suffix s))). clear E1 Em Ef Ee L B. unfold with_metadata in H. apply bind_ok in H. destruct H as (bs & _ & H).
  destruct (style_is _ _); [exact (last_begins E m _ P r mi S B1 B2 H Hi)|]. apply bind_ok in H. destruct H as (o & Eo & H). destruct o as [x|].
  { rewrite (finish_item _ _ _ _ H) in Hi. injection Hi as <-. destruct x as [x w]. cbn [fst]. split; [exact (raw_begins _ _ _ _ _ Eo)|]. destruct (raw_shaped _ _ _ _ _ S Eo) as (Sh & Hc). apply only; [|exact (shaped_begins _ _ _ B1 Sh)].
    destruct (Shape_Proof.raw_inv _ _ _ _ _ Eo) as (? & ? & ? & ? & ? & ->). reflexivity. }
  apply bind_ok in H. destruct H as (o & Eo2 & H). destruct o as [x|].
  { rewrite (finish_item _ _ _ _ H) in Hi. injection Hi as <-. destruct x as [x [w P1]]. cbn [fst]. destruct (compound_shaped _ _ _ _ _ _ S Eo2) as (Sh & _). destruct (compound_begins d _ _ _ _ _ _ GN (located_Suffix _ _ _ L1 S) Eo2) as (A1 & A2). split; [exact A1|]. intros c Hb. apply below_one in Hb. destruct Hb as [->|Hb]; [exact (shaped_begins _ _ _ B1 Sh)|exact (A2 c Hb)]. }
  apply bind_ok in H. destruct H as (line & El & H). apply take_norm_inv in El. destruct El as (l & q & n & Hl & ->). cbn [mi_item sp_data with_data] in H.
  unfold try_media in H. apply bind_ok in H. destruct H as ([o w] & Eo3 & H). cbn [fst snd] in H. destruct o as [x|].
  { rewrite (finish_item _ _ _ _ H) in Hi. injection Hi as <-. destruct (starts_with (lit "image::") n || starts_with (lit "video::") n || starts_with (lit "video::") n) eqn:Es; [|discriminate Eo3].
    assert (Hn : exists c0 y, n = c0 :: y /\ is_ws c0 = false).
    { apply orb_true_iff in Es. destruct Es as [Es|Es]; [apply orb_true_iff in Es; destruct Es as [Es|Es]|]; apply starts_with_spec in Es; destruct Es as (z & ->); do 2 eexists; split; reflexivity. }
    destruct Hn as (c0 & y & En & Hw). split; [exact (media_begins _ _ _ _ _ Eo3)|]. destruct (media_shaped _ _ _ _ _ _ _ _ _ _ S Hh Hl En Hw Eo3) as (Sh & Hc & Hnb). apply only; [exact Hnb|exact (shaped_begins _ _ _ B1 Sh)]. }
  unfold try_section in H. apply bind_ok in H. destruct H as ([o [w' P1]] & Eo4 & H). cbn [fst snd] in H. destruct o as [x|].
  { apply Ok_inj in H. subst r. cbn [pr_item] in Hi. injection Hi as <-. destruct (starts_with_any _ _); [|discriminate Eo4]. destruct (section_shaped d _ _ _ _ _ _ _ G L1 S Eo4) as (Sh & _). destruct (section_begins d _ _ _ _ _ _ _ GN (located_Suffix _ _ _ L1 S) Eo4) as (A1 & A2).
    split; [exact A1|]. intros c Hb. apply below_one in Hb. destruct Hb as [->|Hb]; [exact (shaped_begins _ _ _ B1 Sh)|exact (A2 c Hb)]. }
  unfold try_break in H. apply bind_ok in H. destruct H as (o & Eo5 & H). destruct o as [x|].
  { apply Ok_inj in H. subst r. cbn [pr_item] in Hi. injection Hi as <-. destruct (starts_with_any (lit "'-*<") n); [|discriminate Eo5]. split; [exact (break_begins _ _ Eo5)|]. destruct (break_shaped _ _ S Hh Eo5) as (Sh & Hc & Hnb). apply only; [exact Hnb|exact (shaped_begins _ _ _ B1 Sh)]. }
  unfold no_block in H. apply bind_ok in H. destruct H as (o & _ & H). destruct (_ && _); [exact (last_begins E (orphan_metadata m) _ _ r mi (Suffix_refl _) B1 B1 H Hi)|exact (last_begins E m _ _ r mi S B1 B2 H Hi)].
Qed.
Lemma loop_begins d E : forall fuel f n s P b, located d s -> begins s -> blocks_loop E fuel f n s P = Ok b -> begins (br_after b) /\ forall c, below (br_blocks b) c -> begins (block_span c).
Proof.
  induction fuel as [|fuel IH]; intros f n s P b L B H; cbn [blocks_loop] in H.
  - destruct (sp_data s); [|discriminate H]. apply Ok_inj in H. subst b. split; [exact B|]. intros c Hc. destruct (below_nil _ Hc).
  - destruct (sp_data s) eqn:D. { apply Ok_inj in H. subst b. split; [exact B|]. intros c Hc. destruct (below_nil _ Hc). }
    apply bind_ok in H. destruct H as (st & _ & H). destruct (fst st). { apply Ok_inj in H. subst b. split; [exact B|]. intros c Hc. destruct (below_nil _ Hc). }
    apply bind_ok in H. destruct H as (r & Er & H). apply bind_ok in H. destruct H as (rest & Hr & H). apply Ok_inj in H. subst b. cbn [br_blocks br_after].
    destruct (pr_item r) as [mi|] eqn:Ei; [|exact (IH _ _ _ _ _ L B Hr)].
    assert (GN : begins_until d (fun stop level source P => src <- discard_empty_lines source ;; blocks_loop E fuel stop level src P)).
    { intros f' n' s' P' b' L' B' Hb. rewrite discard_empty_lines_ok in Hb. cbn [bind] in Hb. exact (IH _ _ _ _ _ (located_Suffix _ _ _ L' (discard_empty_Suffix s')) (discard_begins _ B') Hb). }
    destruct (block_ok d E _ s P r mi (until_ok d E fuel) L Er Ei) as (A1 & _). destruct (block_begins d E _ s P r mi (until_ok d E fuel) GN L B Er Ei) as (B1 & B2).
    destruct (IH _ _ _ _ _ (located_Suffix _ _ _ L A1) B1 Hr) as (B3 & B4). split; [exact B3|]. intros c Hc. change (mi_item mi :: br_blocks rest) with ([mi_item mi] ++ br_blocks rest) in Hc. apply below_app in Hc. destruct Hc as [Hc|Hc]; auto.
Qed.
Lemma until_begins d E fuel : begins_until d (parse_blocks_until E fuel).
Proof. intros f n s P b L B H. unfold parse_blocks_until in H. rewrite discard_empty_lines_ok in H. cbn [bind] in H. exact (loop_begins d E _ _ _ _ _ _ (located_Suffix _ _ _ L (discard_empty_Suffix s)) (discard_begins _ B) H). Qed.

(** * The header *)
Lemma header_step_begins E s h r : begins s -> header_step E s h = Ok r -> match snd r with Some s' => begins s' | None => True end.
Proof.
  intros B. unfold header_step. cbv zeta. intros H. apply bind_ok in H. destruct H as (li & El & H). apply norm_begins in El.
  destruct (is_nil _). { apply Ok_inj in H. subst r. cbn [snd]. destruct (is_some _); [exact I|exact El]. }
  destruct (_ && negb (starts_with (lit "///") _)). { apply Ok_inj in H. subst r. exact El. }
  apply bind_ok in H. destruct H as (oa & Eo & H). destruct oa as [a|].
  { apply bind_ok in H. destruct H as (P & _ & H). apply Ok_inj in H. subst r. cbn [snd]. unfold header_attr in Eo. destruct (starts_with _ _); [|discriminate Eo]. exact (entry_begins _ _ _ _ B Eo). }
  destruct (negb (is_some (s_title h)) && _).
  { apply bind_ok in H. destruct H as (d & _ & H). apply bind_ok in H. destruct H as (t & _ & H). apply bind_ok in H. destruct H as (t' & _ & H). apply Ok_inj in H. subst r. exact El. }
  destruct (is_some (s_title h) && negb (is_some (s_author h))). { apply bind_ok in H. destruct H as (ap & _ & H). apply Ok_inj in H. subst r. exact El. }
  destruct (is_some (s_title h) && is_some (s_author h) && _). { apply bind_ok in H. destruct H as (ap & _ & H). apply Ok_inj in H. subst r. exact El. }
  apply Ok_inj in H. subst r. exact I.
Qed.
Lemma header_loop_begins E : forall fuel s h r, begins s -> header_loop E fuel s h = Ok r -> begins (snd r).
Proof.
  induction fuel as [|fuel IH]; intros s h r B H; cbn [header_loop] in H.
  - destruct (sp_data s); [|discriminate H]. apply Ok_inj in H. subst r. exact B.
  - destruct (sp_data s). { apply Ok_inj in H. subst r. exact B. } apply bind_ok in H. destruct H as (x & Ex & H). pose proof (header_step_begins E s h x B Ex) as K.
    destruct (snd x); [exact (IH _ _ _ K H)|]. apply Ok_inj in H. subst r. exact B.
Qed.
Lemma header_begins E t P h : header_parse E (span_new t) P = Ok h -> begins (mi_after (fst h)) /\ begins (h_source (mi_item (fst h))).
Proof.
  intros H. unfold header_parse in H. rewrite discard_empty_lines_ok in H. cbn [bind] in H. apply bind_ok in H. destruct H as (r & Er & H). cbv zeta in H. apply bind_ok in H. destruct H as (af & Ef & H). apply bind_ok in H. destruct H as (src0 & E1 & H).
  rewrite trim_trailing_whitespace_ok in H. cbn [bind] in H. apply Ok_inj in H. subst h. cbn [fst mi_item mi_after h_source].
  assert (B0 : begins (span_new t)) by (intros _; reflexivity). split.
  - rewrite discard_empty_lines_ok in Ef. apply Ok_inj in Ef. subst af. apply discard_begins. exact (header_loop_begins E _ _ _ _ B0 Er).
  - destruct (remainder_inv _ _ _ E1) as (pre & rest & D & -> & _). unfold p_trim_trailing_whitespace. cbn [sp_data with_data]. destruct (trim_end_spec pre) as (z & Ez & Bz & _). intros K. cbn [sp_data sp_col with_data] in *. apply (discard_begins _ B0). rewrite D, Ez. destruct (trim_end pre); [contradiction|discriminate].
Qed.

(** * Documents *)
Lemma preamble_begins bs ah bs' : begins ah -> make_preamble bs ah = Ok bs' -> (forall c, below bs c -> begins (block_span c)) -> forall c, below bs' c -> begins (block_span c).
Proof.
  intros B H F. unfold make_preamble in H. destruct (preamble_split 0 false bs) as [i|]; [|apply Ok_inj in H; subst bs'; exact F]. apply bind_ok in H. destruct H as (p & Ep & H). apply Ok_inj in H. subst bs'.
  unfold preamble_from_blocks in Ep. apply bind_ok in Ep. destruct Ep as (src & Es & Ep). apply Ok_inj in Ep. subst p. rewrite <- (firstn_skipn i bs) in F. intros c Hc.
  change (BPreamble (firstn i bs) src :: skipn i bs) with ([BPreamble (firstn i bs) src] ++ skipn i bs) in Hc. apply below_app in Hc. destruct Hc as [Hc|Hc]; [|apply F, below_app; right; exact Hc].
  apply below_one in Hc. destruct Hc as [->|Hc]; [|apply F, below_app; left; exact Hc]. cbn [block_span].
  assert (K : exists a, trim_remainder ah a = Ok src). { destruct (rev (firstn i bs)); [eauto|]. apply bind_ok in Es. destruct Es as (a & _ & Es). eauto. } destruct K as (a & K).
  destruct (remainder_inv _ _ _ K) as (pre & rest & D & -> & _). intros Hp. cbn [sp_data sp_col with_data] in *. apply B. rewrite D. destruct pre; [contradiction|discriminate].
Qed.
Lemma place_line d s : located d s -> begins s -> sp_data s <> [] -> line_begins d s.
Proof.
  intros (x & y & D & _ & Hc & Ho) B Hn. exists x, y. split; [exact D|]. specialize (B Hn). split; [|split; [unfold spec_offset in Ho; rewrite blen_utf8 in Ho; exact Ho|exact B]].
  destruct Hc as (full & cur & -> & _ & Hf & Hc). destruct cur; [|cbn in Hc; lia]. rewrite app_nil_r. exact Hf.
Qed.
Theorem document_begins E fuel t sm P d P' : document_parse E fuel t sm P = Ok (d, P') -> forall b, below (d_blocks d) b -> sp_data (block_span b) <> [] -> line_begins t (block_span b).
Proof.
  intros H b Hb Hn. assert (L : located t (block_span b)).
  { pose proof (document_ok _ _ _ _ _ _ _ H) as T. revert T. generalize 0 (blen t). clear - Hb. induction Hb as [l b Hin|l b c Hin _ IH]; intros a z T; destruct (tree_in _ _ _ _ _ T Hin) as (e & K1 & K2 & K3); [exact K3|exact (IH _ _ K1)]. }
  apply place_line; [exact L| |exact Hn]. destruct (document_inv _ _ _ _ _ _ _ H) as (h & r & Hh & Hr & Hm & _). destruct (header_begins _ _ _ _ Hh) as (B & _).
  assert (La : located t (mi_after (fst h))).
  { destruct h as [[hd after] [ws Ph]]. destruct (header_parse_spec _ _ _ _ _ _ _ Hh) as (x & src & _ & _ & _ & _ & _ & S1 & _ & _ & _ & _ & _ & _ & _ & _ & Ea & _). cbn [fst mi_after]. rewrite Ea. apply (located_Suffix _ _ _ (located_new t)). eapply Suffix_trans; [exact S1|apply discard_empty_Suffix]. }
  apply (preamble_begins _ _ _ B Hm) with (2 := Hb). exact (proj2 (until_begins t E fuel _ _ _ _ _ La B Hr)).
Qed.
