(** Proofs about what blocks report. *)
From Verif Require Import Text TextFacts Maps Span_Model Span_Pure Span_Proof Span_Laws Span_Spec Parser_Model Subs_Model Attrlist_Model Attrlist_Proof Attrlist_Spec Attrlist_Laws
  Render_Model Render_Proof Group_Model Entry_Model Header_Model Header_Proof Block_Model Block_Spec Block_Proof Shape_Proof Doc_Model Tree_Prop BlockSubs_Proof Access_Model Access_Spec.

(** Every block of a document, apart from the preamble, was made by one of the parsers of kinds of block. *)
Inductive made (E : env) : block -> Prop :=
| made_entry a : made E (BAttribute a)
| made_fast s P mi : simple_parse_fast E s P = Ok (Some mi) -> made E (mi_item mi)
| made_simple s P m ws m' mi : metadata_parse E s P = Ok (m, ws) -> m' = m \/ m' = orphan_metadata m -> simple_parse E m' P = Ok (Some mi) -> made E (mi_item mi)
| made_raw s P m ws mi w : metadata_parse E s P = Ok (m, ws) -> raw_parse E m P = Ok (Some (mi, w)) -> made E (mi_item mi)
| made_compound s P m ws un mi w P1 : metadata_parse E s P = Ok (m, ws) -> compound_parse un m P = Ok (Some (mi, (w, P1))) -> made E (mi_item mi)
| made_media s P m ws mi w : metadata_parse E s P = Ok (m, ws) -> media_parse E m P = Ok (Some mi, w) -> made E (mi_item mi)
| made_section s P m ws un mi w P1 : metadata_parse E s P = Ok (m, ws) -> section_parse E un m P = Ok (Some mi, (w, P1)) -> made E (mi_item mi)
| made_break s P m ws mi : metadata_parse E s P = Ok (m, ws) -> break_parse m = Ok (Some mi) -> made E (mi_item mi).

Definition all_made (E : env) (l : list block) : Prop := forall b, below l b -> made E b.
Lemma all_made_nil E : all_made E [].
Proof. intros b H. inversion H; subst; contradiction. Qed.
Lemma all_made_one E x : made E x -> all_made E (nested_blocks x) -> all_made E [x].
Proof. intros H1 H2 b H. inversion H as [? ? Hi|? c ? Hi Hb]; subst; destruct Hi as [<-|[]]; [exact H1|exact (H2 _ Hb)]. Qed.
Lemma all_made_app E l1 l2 : all_made E l1 -> all_made E l2 -> all_made E (l1 ++ l2).
Proof.
  intros H1 H2 b H. inversion H as [? ? Hb|? c ? Hc Hb]; subst.
  - apply in_app_iff in Hb. destruct Hb as [Hb|Hb]; [apply H1|apply H2]; apply bl_here; exact Hb.
  - apply in_app_iff in Hc. destruct Hc as [Hc|Hc]; [apply H1|apply H2]; exact (bl_in _ _ _ Hc Hb).
Qed.
Lemma parsed_made E : step_good E (fun _ l _ _ => all_made E l).
Proof.
  intros un s P r _ G Sh. assert (Z : forall x, made E x -> nested_blocks x = [] -> all_made E [x]) by (intros x Hx Hy; apply all_made_one; [exact Hx|rewrite Hy; apply all_made_nil]).
  destruct Sh as [a af Q|mj r0 Q Hf|m ws r0 Em Sh].
  - apply Z; [constructor|reflexivity].
  - destruct (finish_inv _ _ _ _ Hf) as (i & _ & ->). cbn [pr_item]. apply Z; [eapply made_fast; eauto|]. destruct (simple_fast_inv _ _ _ _ Q) as (c & st & src & cm & -> & _). reflexivity.
  - destruct Sh as [w _|m' mj w r0 Hm _ Es Hf|mj w r0 Es Hf|mj w P1 r0 Es Hf|mj w r0 Es Hf|mj w P1 Es|mj w _ Es]; try (destruct (finish_inv _ _ _ _ Hf) as (i & _ & ->)); cbn [pr_item].
    + apply all_made_nil.
    + apply Z; [eapply made_simple; eauto|]. destruct (simple_inv _ _ _ _ Es) as (c & st & src & ->). reflexivity.
    + apply Z; [eapply made_raw; eauto|]. destruct (raw_inv _ _ _ _ _ Es) as (c & mo & cx & sr & g & ->). reflexivity.
    + apply all_made_one; [eapply made_compound; eauto|]. destruct (compound_inv _ _ _ _ _ _ Es) as (ins & b & cx & src & dl & Eu & -> & _). exact (G _ _ _ _ _ Eu).
    + apply Z; [eapply made_media; eauto|]. destruct (media_inv _ _ _ _ _ Es) as (t & tg & a & sr & ->). reflexivity.
    + apply all_made_one; [eapply made_section; eauto|]. destruct (section_inv _ _ _ _ _ _ _ Es) as [(dd & lv & ti & rest & lw & bs' & b & sr & t & base & mn & reg & s2 & _ & _ & _ & Eu & _ & _ & _ & _ & _ & _ & -> & _)]. exact (G _ _ _ _ _ Eu).
    + apply Z; [eapply made_break; eauto|]. destruct (break_inv _ _ Es) as (t & sr & ->). reflexivity.
Qed.
Theorem document_made E fuel t sm P d P' b : document_parse E fuel t sm P = Ok (d, P') -> below (d_blocks d) b -> made E b \/ exists l src, b = BPreamble l src.
Proof.
  intros H Hb. unfold document_parse in H. apply bind_ok in H. destruct H as (h & _ & H). apply bind_ok in H. destruct H as (br & Eb & H). apply bind_ok in H. destruct H as (bs & Em & H). apply bind_ok in H. destruct H as (s & _ & H). apply Ok_inj in H. injection H as <- _. cbn [d_blocks] in *.
  assert (NP : all_made E (br_blocks br)).
  { refine (until_induction E (fun _ l _ _ => all_made E l) _ _ (parsed_made E) _ _ _ _ _ _ Eb); [intros _; apply all_made_nil|]. intros _ l1 w1 _ l2 w2 _ H1 H2. apply all_made_app; assumption. }
  destruct (preamble_below _ _ _ _ Em Hb) as [K|K]; [left; exact (NP b K)|right; exact K].
Qed.

(** ** Attribute lists are well formed, whatever the substitutions do *)
Lemma t_parse_wf norm ctx psh t r : t_parse norm ctx psh t = Ok r -> wf_ea (mkea (ta_name r) (ta_value r) (ta_idx r)).
Proof.
  unfold t_parse. set (x := dw is_sp_tab_lf (snd (t_name t))). intros H. apply bind_ok in H. destruct H as (v & _ & H). apply bind_ok in H. destruct H as ([idx ws] & Ei & H). apply Ok_inj in H. subst r. cbn [ta_name ta_value ta_idx fst].
  destruct (fst (t_name t)); [apply Ok_inj in Ei; injection Ei as <- _; left; reflexivity|]. destruct (fst (snd (t_value x psh))); [right; exists ws; exact Ei|apply Ok_inj in Ei; injection Ei as <- _; left; reflexivity].
Qed.
Lemma t_loop_wf norm ctx : forall fuel t attrs psh ws r, Forall wf_ea attrs -> t_loop norm fuel ctx attrs psh ws t = Ok r -> Forall wf_ea (fst r).
Proof.
  induction fuel as [|f IH]; intros t attrs psh ws r Ha H; [discriminate H|]. cbn [t_loop] in H. apply bind_ok in H. destruct H as (p & Ep & H). apply t_parse_wf in Ep. set (attr := mkea (ta_name p) (ta_value p) (ta_idx p)) in *.
  destruct (unnamed attr && is_nil (ea_value attr) && is_nil (ta_rest p) && is_nil attrs); [apply Ok_inj in H; subst r; exact Ha|].
  assert (Ha' : Forall wf_ea (if unnamed attr || negb (text_eqb (ea_value attr) (lit "None")) then attrs ++ [attr] else attrs)) by (destruct (unnamed attr || negb (text_eqb (ea_value attr) (lit "None"))); [apply Forall_app; auto|exact Ha]).
  destruct (dw is_sp_tab (ta_rest p)) as [|c t1]; [apply Ok_inj in H; subst r; exact Ha'|]. destruct (c =? COMMA)%N; [|apply Ok_inj in H; subst r; exact Ha'].
  destruct (dw is_sp_tab t1) as [|e t2]; [exact (IH _ _ _ _ _ Ha' H)|]. destruct (e =? COMMA)%N; exact (IH _ _ _ _ _ Ha' H).
Qed.
Lemma parsed_wf U norm P source ctx r : attrlist_parse U norm P source ctx = Ok r -> wf_al (mi_item (fst r)).
Proof.
  intros H. unfold wf_al. rewrite attrlist_parse_eq in H. apply bind_ok in H. destruct H as (src & _ & H).
  destruct (starts_with (lit "[") src && ends_with (lit "]") src).
  - apply bind_ok in H. destruct H as (a & _ & H). apply Ok_inj in H. subst r. constructor.
  - apply bind_ok in H. destruct H as (x & E & H). apply Ok_inj in H. subst r. cbn [fst mi_item al_attrs]. exact (t_loop_wf _ _ _ _ _ _ _ _ (Forall_nil _) E).
Qed.
Definition wf_o (o : option attrlist) : Prop := forall a, o = Some a -> wf_al a.
Lemma wf_none : wf_o None.
Proof. intros a H. discriminate H. Qed.
Lemma md_loop_wf E P : forall fuel m m', wf_o (ms_attrlist m) -> md_loop E P fuel m = Ok m' -> wf_o (ms_attrlist m').
Proof.
  induction fuel as [|fuel IH]; intros m m' W H; cbn [md_loop] in H; [discriminate H|]. apply bind_ok in H. destruct H as (o & Eo & H). destruct o as [m1|].
  { apply (IH m1); [|exact H]. unfold md_title_step in Eo. destruct (ms_title m); [discriminate Eo|]. apply bind_ok in Eo. destruct Eo as (mt & _ & Eo). destruct (_ && _); [|discriminate Eo]. apply bind_ok in Eo. destruct Eo as (ti & _ & Eo). apply bind_ok in Eo. destruct Eo as (w & _ & Eo). destruct (is_nil _); [|discriminate Eo]. apply Ok_inj in Eo. injection Eo as <-. exact W. }
  apply bind_ok in H. destruct H as (a & Ea & H).
  assert (Wa : wf_o (ms_attrlist (fst a))).
  { unfold md_anchor_step in Ea. destruct (ms_anchor m); [apply Ok_inj in Ea; subst a; exact W|]. apply bind_ok in Ea. destruct Ea as (aw & _ & Ea). destruct (fst aw) as [mi|]; [|apply Ok_inj in Ea; subst a; exact W].
    apply bind_ok in Ea. destruct Ea as (m2 & E2 & Ea). apply Ok_inj in Ea. subst a. cbn [fst]. destruct (position _ _) as [cp|].
    - apply bind_ok in E2. destruct E2 as (la & _ & E2). destruct (_ <? _).
      + apply bind_ok in E2. destruct E2 as (x & _ & E2). apply bind_ok in E2. destruct E2 as (y & _ & E2). apply Ok_inj in E2. subst m2. destruct (is_xml_name _ _); exact W.
      + apply Ok_inj in E2. subst m2. destruct (is_xml_name _ _); exact W.
    - apply Ok_inj in E2. subst m2. destruct (is_xml_name _ _); exact W. }
  destruct (snd a); [exact (IH _ _ Wa H)|]. apply bind_ok in H. destruct H as (l & El & H).
  assert (Wl : wf_o (ms_attrlist (fst l))).
  { unfold md_attrlist_step in El. destruct (ms_attrlist (fst a)) eqn:Q; [apply Ok_inj in El; subst l; cbn [fst]; rewrite Q; exact Wa|]. apply bind_ok in El. destruct El as (o & Eo2 & El). apply Ok_inj in El. subst l. destruct o as [aw|]; cbn [fst ms_attrlist]; [|rewrite Q; exact Wa].
    unfold parse_maybe_attrlist_line in Eo2. destruct (starts_with (lit "[") _); [|discriminate Eo2]. apply bind_ok in Eo2. destruct Eo2 as (li & _ & Eo2). destruct (ends_with _ _); [|discriminate Eo2]. apply bind_ok in Eo2. destruct Eo2 as (e & _ & Eo2). apply bind_ok in Eo2. destruct Eo2 as (sr & _ & Eo2).
    match type of Eo2 with (if ?b then _ else _) = _ => destruct b end; [discriminate Eo2|]. apply bind_ok in Eo2. destruct Eo2 as (r & Er & Eo2). apply Ok_inj in Eo2. injection Eo2 as <-. cbn [fst mi_item]. intros al K. injection K as <-. exact (parsed_wf _ _ _ _ _ _ Er). }
  destruct (snd l); [exact (IH _ _ Wl H)|]. apply Ok_inj in H. subst m'. exact Wl.
Qed.
Lemma metadata_wf E s P m ws : metadata_parse E s P = Ok (m, ws) -> wf_o (md_attrlist m).
Proof.
  unfold metadata_parse. intros H. apply bind_ok in H. destruct H as (s0 & _ & H). apply bind_ok in H. destruct H as (x & Ex & H). apply bind_ok in H. destruct H as (t & _ & H). apply Ok_inj in H. injection H as <- _. cbn [md_attrlist]. refine (md_loop_wf _ _ _ _ _ _ Ex). exact wf_none.
Qed.
Lemma media_list E m P mi w ty t a src cm : media_parse E m P = Ok (Some mi, w) -> mi_item mi = BMedia ty t a src cm -> wf_al a.
Proof.
  unfold media_parse. intros H K. apply bind_ok in H. destruct H as (l & _ & H). destruct (negb _); [discriminate H|]. apply bind_ok in H. destruct H as (o & _ & H). destruct o as [nm|]; [|discriminate H]. destruct (media_type_of _) as [ty'|]; [|discriminate H].
  apply bind_ok in H. destruct H as (o & _ & H). destruct o as [co|]; [|discriminate H]. apply bind_ok in H. destruct H as (tg & _ & H). destruct (is_nil _); [discriminate H|]. apply bind_ok in H. destruct H as (o & _ & H). destruct o as [ob|]; [|discriminate H].
  apply bind_ok in H. destruct H as (e & _ & H). apply bind_ok in H. destruct H as (al & _ & H). apply bind_ok in H. destruct H as (a' & Ea & H). apply bind_ok in H. destruct H as (src' & _ & H). apply bind_ok in H. destruct H as (af & _ & H).
  apply Ok_inj in H. injection H as <- _. cbn [mi_item] in K. injection K as _ _ <- _ _. exact (parsed_wf _ _ _ _ _ _ Ea).
Qed.
Lemma orphan_wf m : wf_o (md_attrlist m) -> wf_o (md_attrlist (orphan_metadata m)).
Proof. intros _. exact wf_none. Qed.
Lemma made_wf E b : made E b -> wf_o (block_attrlist b) /\ (forall ty t a src cm, b = BMedia ty t a src cm -> wf_al a).
Proof.
  unfold block_attrlist. intros H. destruct H as [a|s P mi H|s P m ws m' mi Em Hm H|s P m ws mi w Em H|s P m ws un mi w P1 Em H|s P m ws mi w Em H|s P m ws un mi w P1 Em H|s P m ws mi Em H]; try (pose proof (metadata_wf _ _ _ _ _ Em) as W).
  - split; [exact wf_none|discriminate].
  - destruct (simple_fast_inv _ _ _ _ H) as (c & st & src & cm & -> & ->). split; [exact wf_none|discriminate].
  - destruct (simple_inv _ _ _ _ H) as (c & st & src & ->). split; [destruct Hm as [->| ->]; [exact W|exact wf_none]|discriminate].
  - destruct (raw_inv _ _ _ _ _ H) as (c & mo & cx & sr & g & ->). split; [exact W|discriminate].
  - destruct (compound_inv _ _ _ _ _ _ H) as (ins & b & cx & src & dl & Eu & -> & _). split; [exact W|discriminate].
  - split; [|intros ty t a src cm K; exact (media_list _ _ _ _ _ _ _ _ _ _ H K)]. destruct (media_inv _ _ _ _ _ H) as (t & tg & a & sr & ->). exact W.
  - destruct (section_inv _ _ _ _ _ _ _ H) as [(dd & lv & ti & rest & lw & bs' & b & sr & t & base & mn & reg & s2 & _ & _ & _ & Eu & _ & _ & _ & _ & _ & _ & -> & _)]. split; [exact W|discriminate].
  - destruct (break_inv _ _ H) as (t & sr & ->). split; [exact W|discriminate].
Qed.
Lemma document_wf E fuel t sm P d P' b : document_parse E fuel t sm P = Ok (d, P') -> below (d_blocks d) b -> wf_o (block_attrlist b) /\ (forall ty t a src cm, b = BMedia ty t a src cm -> wf_al a).
Proof. intros H Hb. destruct (document_made _ _ _ _ _ _ _ _ H Hb) as [K|(l & src & ->)]; [exact (made_wf _ _ K)|split; [exact wf_none|discriminate]]. Qed.

(** ** The accessors *)
Lemma declared_style_eq b : declared_style b = style_of (block_attrlist b).
Proof. unfold declared_style, style_of, al_block_style. destruct (block_attrlist b) as [a|]; [|reflexivity]. destruct (nth_attribute a 1); reflexivity. Qed.
Lemma built_in_iff x : is_built_in_context x = true <-> In x built_in_contexts.
Proof.
  unfold is_built_in_context. rewrite existsb_exists. split.
  - intros (y & Hy & K). destruct (text_eqb_spec x y) as [->|]; [exact Hy|discriminate K].
  - intros H. exists x. split; [exact H|]. destruct (text_eqb_spec x x); [reflexivity|contradiction].
Qed.
Lemma resolved_iff b style cx : declared_style b = Ok style -> resolved_context b = Ok cx <-> context_is style (raw_context b) cx.
Proof.
  intros H. unfold resolved_context, context_is. rewrite H. cbn [bind]. destruct style as [s|].
  - destruct (is_built_in_context s) eqn:B.
    + apply built_in_iff in B. split; [intros K; apply Ok_inj in K; subst cx; left; auto|]. intros [(K & _)|(K & _)]; [injection K as ->; reflexivity|contradiction (K s eq_refl B)].
    + assert (N : ~ In s built_in_contexts) by (intros K; apply built_in_iff in K; rewrite K in B; discriminate B).
      split; [intros K; apply Ok_inj in K; subst cx; right; split; [intros x Hx; injection Hx as <-; exact N|reflexivity]|]. intros [(K & Hi)|(_ & ->)]; [injection K as ->; contradiction|reflexivity].
  - split; [intros K; apply Ok_inj in K; subst cx; right; split; [discriminate|reflexivity]|]. intros [(K & _)|(_ & ->)]; [discriminate K|reflexivity].
Qed.
Lemma made_context E b : made E b -> In (raw_context b, block_content_model b) context_models.
Proof.
  intros H. destruct H as [a|s P mi H|s P m ws m' mi Em Hm H|s P m ws mi w Em H|s P m ws un mi w P1 Em H|s P m ws mi w Em H|s P m ws un mi w P1 Em H|s P m ws mi Em H].
  - cbn. tauto.
  - destruct (simple_fast_inv _ _ _ _ H) as (c & st & src & cm & -> & ->). cbn. tauto.
  - destruct (simple_inv _ _ _ _ H) as (c & st & src & ->). cbn. tauto.
  - unfold raw_parse in H. apply bind_ok in H. destruct H as (d & _ & H). destruct (_ <? 4); [discriminate H|]. destruct (raw_kind _) as [[mo [cx g]]|] eqn:Ek; [|discriminate H]. apply bind_ok in H. destruct H as (v & _ & H).
    assert (Hd : In (cx, mo) context_models). { unfold raw_kind in Ek. repeat (match type of Ek with (if ?b then _ else _) = _ => destruct b; [injection Ek as <- <- _; cbn; tauto|] end). discriminate Ek. }
    destruct (negb v); [discriminate H|]. apply bind_ok in H. destruct H as (r & _ & H). apply bind_ok in H. destruct H as (c0 & _ & H). apply bind_ok in H. destruct H as (c & _ & H). destruct (snd r) as [line|].
    + apply bind_ok in H. destruct H as (g' & _ & H). apply bind_ok in H. destruct H as (t & _ & H). apply bind_ok in H. destruct H as (s1 & _ & H). apply bind_ok in H. destruct H as (s2 & _ & H). apply Ok_inj in H. injection H as <- _. exact Hd.
    + apply bind_ok in H. destruct H as (s1 & _ & H). apply bind_ok in H. destruct H as (s2 & _ & H). apply Ok_inj in H. injection H as <- _. exact Hd.
  - unfold compound_parse in H. apply bind_ok in H. destruct H as (d & Ed & H). destruct (compound_context _) as [cx|] eqn:Ek; [|discriminate H]. apply bind_ok in H. destruct H as (v & _ & H). destruct (negb v); [discriminate H|].
    apply bind_ok in H. destruct H as (r & _ & H). apply bind_ok in H. destruct H as (ins & _ & H). apply bind_ok in H. destruct H as (b & Eb & H). apply bind_ok in H. destruct H as (ca & _ & H). apply bind_ok in H. destruct H as (s1 & _ & H).
    apply bind_ok in H. destruct H as (s2 & _ & H). apply Ok_inj in H. injection H as <- _ _. cbn [mi_item raw_context block_content_model].
    unfold compound_context in Ek. destruct (bsplit _ _) as [[q1 q2]|]; [|discriminate Ek]. repeat (match type of Ek with (if ?b then _ else _) = _ => destruct b; [injection Ek as <-; cbn; tauto|] end). discriminate Ek.
  - destruct (media_inv _ _ _ _ _ H) as (t & tg & a & sr & ->). destruct t; cbn; tauto.
  - destruct (section_inv _ _ _ _ _ _ _ H) as [(dd & lv & ti & rest & lw & bs' & b & sr & t & base & mn & reg & s2 & _ & _ & _ & Eu & _ & _ & _ & _ & _ & _ & -> & _)]. cbn. tauto.
  - destruct (break_inv _ _ H) as (t & sr & ->). destruct t; cbn; tauto.
Qed.
