(** Proofs about the substitutions of blocks. *)
From Verif Require Import Text TextFacts Maps Span_Model Span_Pure Span_Proof Span_Laws Span_Spec Parser_Model Subs_Model Attrlist_Model Render_Model
  Group_Model Group_Spec Group_Proof Header_Model Header_Proof Block_Model Block_Spec Block_Proof Shape_Proof Doc_Model Tree_Prop Walk_Prop BlockSubs_Spec.

Lemma understood_iff d s g : understood d s g <-> from_custom_string (Some d) s = Ok (Some g).
Proof. rewrite from_custom_string_iff. reflexivity. Qed.
Lemma override_chosen d a style g : style_of a = Ok style -> override_via_attrlist d a = Ok g <-> chosen d style (list_subs a) g.
Proof.
  intros Hs. unfold override_via_attrlist, chosen, list_subs. destruct a as [a|].
  - unfold style_of, al_block_style in Hs. assert (E : opt_bind (nth_attribute a 1) ea_block_style = Ok style) by (destruct (nth_attribute a 1); exact Hs). rewrite E. cbn [bind].
    assert (Hdef : forall r, r = match style with Some s => if text_eqb s (lit "pass") then GNone else d | None => d end -> (r = g <-> (style = Some (lit "pass") /\ g = GNone) \/ (style <> Some (lit "pass") /\ g = d))).
    { intros r ->. destruct style as [s|]; [destruct (text_eqb_spec s (lit "pass")) as [->|N]|]; split; intros K; try subst g.
      - left. auto.
      - destruct K as [(_ & ->)|(K & _)]; [reflexivity|contradiction K; reflexivity].
      - right. split; [intros K; injection K as K; contradiction|reflexivity].
      - destruct K as [(K & _)|(_ & ->)]; [injection K as K; contradiction|reflexivity].
      - right. split; [discriminate|reflexivity].
      - destruct K as [(K & _)|(_ & ->)]; [discriminate K|reflexivity]. }
    specialize (Hdef _ eq_refl). destruct (named_value a (lit "subs")) as [t|]; cbn [opt_bind].
    + rewrite from_custom_string_eq. cbn [bind]. rewrite <- Hdef. clear Hdef.
      assert (Hu : forall g', understood d t g' <-> from_custom_string (Some d) t = Ok (Some g')) by (intros g'; apply understood_iff). rewrite from_custom_string_eq in Hu.
      match type of Hu with forall _, _ <-> Ok ?o = _ => destruct o as [g0|] end.
      * split; [intros K; apply Ok_inj in K; subst g0; left; exists t; split; [reflexivity|]; apply Hu; reflexivity|]. intros [(s & K & Ku)|(K & _)]; [injection K as <-; apply Hu in Ku; injection Ku as ->; reflexivity|]. destruct (K t g0 eq_refl). apply Hu. reflexivity.
      * split; [intros K; apply Ok_inj in K; right; split; [|exact K]; intros s g' Es Ku; injection Es as <-; apply Hu in Ku; discriminate Ku|]. intros [(s & K & Ku)|(_ & ->)]; [injection K as <-; apply Hu in Ku; discriminate Ku|reflexivity].
    + cbn [bind]. rewrite <- Hdef. split; [intros K; apply Ok_inj in K; right; split; [discriminate|exact K]|]. intros [(s & K & _)|(_ & ->)]; [discriminate K|reflexivity].
  - injection Hs as <-. split; [intros K; apply Ok_inj in K; subst g; right; split; [discriminate|right; split; [discriminate|reflexivity]]|]. intros [(s & K & _)|(_ & [(K & _)|(_ & ->)])]; [discriminate K|discriminate K|reflexivity].
Qed.

Lemma parse_lines_text E s a P x : parse_lines E s a P = Ok (Some x) -> exists k ls pre rest g style, paragraph k false (pre ++ rest) ls rest /\ sp_data (ct_original (fst (mi_item x))) = trim_end pre /\
  style_of a = Ok style /\ chosen GNormal style (list_subs a) g /\ apply_subs E P g a (join [LF] ls) = Ok (ct_rendered (fst (mi_item x))).
Proof.
  unfold parse_lines. intros H. apply bind_ok in H. destruct H as (saw & _ & H). apply bind_ok in H. destruct H as (k & _ & H). apply bind_ok in H. destruct H as (bs & Es & H).
  destruct (simple_lines_spec k (length (sp_data s)) s [] (le_n _)) as (ls & pre & rest & Hp & D & Er). rewrite Er in H. cbn [bind fst snd started app] in *.
  rewrite (trim_to s pre rest) in H by (rewrite ?sp_off_skip; auto). cbn [bind] in H. rewrite trim_trailing_whitespace_ok in H. cbn [bind] in H. destruct (is_nil _); [discriminate H|].
  apply bind_ok in H. destruct H as (g & Eg & H). apply bind_ok in H. destruct H as (t & Et & H). apply bind_ok in H. destruct H as (af & _ & H). apply Ok_inj in H. injection H as <-. cbn [mi_item fst ct_original ct_rendered].
  exists k, ls, pre, rest, g, bs. split; [rewrite <- D; exact Hp|]. split; [reflexivity|]. split; [exact Es|]. split; [apply (override_chosen _ _ _ _ Es), Eg|exact Et].
Qed.
Lemma raw_text E m P mi w style : style_of (md_attrlist m) = Ok style -> raw_parse E m P = Ok (Some (mi, w)) -> block_text E w (mi_item mi).
Proof.
  intros Hs H. unfold raw_parse in H. apply bind_ok in H. destruct H as (d & _ & H). destruct (_ <? 4); [discriminate H|]. destruct (raw_kind _) as [[mo [cx g]]|] eqn:Ek; [|discriminate H]. apply bind_ok in H. destruct H as (v & _ & H).
  assert (Hd : raw_default cx g). { unfold raw_kind in Ek. repeat (match type of Ek with (if ?b then _ else _) = _ => destruct b; [injection Ek as _ <- <-; constructor|] end). discriminate Ek. }
  destruct (negb v); [discriminate H|]. apply bind_ok in H. destruct H as (r & _ & H). apply bind_ok in H. destruct H as (c0 & _ & H). apply bind_ok in H. destruct H as (c & _ & H). destruct (snd r) as [line|].
  - apply bind_ok in H. destruct H as (g' & Eg & H). apply bind_ok in H. destruct H as (t & Et & H). apply bind_ok in H. destruct H as (s1 & _ & H). apply bind_ok in H. destruct H as (s2 & _ & H). apply Ok_inj in H. injection H as <- _. cbn [mi_item block_text ct_original ct_rendered].
    exists g. split; [exact Hd|]. left. exists P, style. cbn [cm_attrlist common_of]. split; [exact Hs|]. split; [apply (override_chosen _ _ _ _ Hs), Eg|exact Et].
  - apply bind_ok in H. destruct H as (s1 & _ & H). apply bind_ok in H. destruct H as (s2 & _ & H). apply Ok_inj in H. injection H as <- <-. cbn [mi_item block_text ct_original ct_rendered].
    exists g. split; [exact Hd|]. right. split; [reflexivity|]. split; [reflexivity|]. exists (mi_item d). left. reflexivity.
Qed.
Lemma raw_style E m P x : raw_parse E m P = Ok (Some x) -> snd x = [] -> exists style, style_of (md_attrlist m) = Ok style.
Proof.
  intros H Hx. unfold raw_parse in H. apply bind_ok in H. destruct H as (d & _ & H). destruct (_ <? 4); [discriminate H|]. destruct (raw_kind _) as [[mo [cx g]]|] eqn:Ek; [|discriminate H]. apply bind_ok in H. destruct H as (v & _ & H).
  destruct (negb v); [discriminate H|]. apply bind_ok in H. destruct H as (r & _ & H). apply bind_ok in H. destruct H as (c0 & _ & H). apply bind_ok in H. destruct H as (c & _ & H). destruct (snd r) as [line|].
  - apply bind_ok in H. destruct H as (g' & Eg & H). unfold override_via_attrlist in Eg. unfold style_of, al_block_style. destruct (md_attrlist m) as [a|]; [|eauto]. apply bind_ok in Eg. destruct Eg as (st & Est & _). exists st. destruct (nth_attribute a 1); exact Est.
  - apply bind_ok in H. destruct H as (s1 & _ & H). apply bind_ok in H. destruct H as (s2 & _ & H). apply Ok_inj in H. injection H as <-. discriminate Hx.
Qed.
Lemma raw_text_all E m P mi w : raw_parse E m P = Ok (Some (mi, w)) -> block_text E w (mi_item mi).
Proof.
  intros H. destruct (style_of (md_attrlist m)) as [style| |] eqn:Es; [exact (raw_text E m P mi w style Es H)| |].
  all: destruct w as [|w0 w]; [destruct (raw_style _ _ _ _ H eq_refl) as (st & K); rewrite K in Es; discriminate Es|].
  all: pose proof H as H0; unfold raw_parse in H; apply bind_ok in H; destruct H as (d & _ & H); destruct (_ <? 4); [discriminate H|]; destruct (raw_kind _) as [[mo [cx g]]|] eqn:Ek; [|discriminate H]; apply bind_ok in H; destruct H as (v & _ & H);
    destruct (negb v); [discriminate H|]; apply bind_ok in H; destruct H as (r & _ & H); apply bind_ok in H; destruct H as (c0 & _ & H); apply bind_ok in H; destruct H as (c & _ & H); destruct (snd r) as [line|];
    [apply bind_ok in H; destruct H as (g' & Eg & H); apply bind_ok in H; destruct H as (t & Et & H); apply bind_ok in H; destruct H as (s1 & _ & H); apply bind_ok in H; destruct H as (s2 & _ & H); apply Ok_inj in H; discriminate H|].
  all: apply bind_ok in H; destruct H as (s1 & _ & H); apply bind_ok in H; destruct H as (s2 & _ & H); apply Ok_inj in H; injection H as <- <- <-; cbn [mi_item block_text ct_original ct_rendered];
    exists g; (split; [unfold raw_kind in Ek; repeat (match type of Ek with (if ?b then _ else _) = _ => destruct b; [injection Ek as _ <- <-; constructor|] end); discriminate Ek|]); right; split; [reflexivity|]; split; [reflexivity|]; exists (mi_item d); left; reflexivity.
Qed.
Lemma block_text_more E w w' b : incl w w' -> block_text E w b -> block_text E w' b.
Proof. intros Hi. destruct b; cbn [block_text]; auto. intros (d & Hd & [H|(A & B & s & Hs)]); exists d; split; auto. right. split; [exact A|]. split; [exact B|]. exists s. apply Hi, Hs. Qed.

Definition all_texts (E : env) (w : list warning) (l : list block) : Prop := forall b, below l b -> block_text E w b.
Lemma all_texts_more E w w' l : incl w w' -> all_texts E w l -> all_texts E w' l.
Proof. intros Hi H b Hb. exact (block_text_more _ _ _ _ Hi (H b Hb)). Qed.
Lemma all_texts_app E w l1 l2 : all_texts E w l1 -> all_texts E w l2 -> all_texts E w (l1 ++ l2).
Proof.
  intros H1 H2 b H. inversion H as [? ? Hb|? c ? Hc Hb]; subst.
  - apply in_app_iff in Hb. destruct Hb as [Hb|Hb]; [apply H1|apply H2]; apply bl_here; exact Hb.
  - apply in_app_iff in Hc. destruct Hc as [Hc|Hc]; [apply H1|apply H2]; exact (bl_in _ _ _ Hc Hb).
Qed.
Lemma all_texts_nil E w : all_texts E w [].
Proof. intros b H. inversion H; subst; contradiction. Qed.
Lemma all_texts_one E w x : block_text E w x -> all_texts E w (nested_blocks x) -> all_texts E w [x].
Proof. intros H1 H2 b H. inversion H as [? ? Hi|? c ? Hi Hb]; subst; destruct Hi as [<-|[]]; [exact H1|exact (H2 _ Hb)]. Qed.
Lemma parsed_texts E : step_good E (fun _ l w _ => all_texts E w l).
Proof.
  intros un s P r _ G Sh. assert (Z : forall w x, nested_blocks x = [] -> block_text E w x -> all_texts E w [x]) by (intros w x Hx Hy; apply all_texts_one; [exact Hy|rewrite Hx; apply all_texts_nil]).
  destruct Sh as [a af Q|mj r0 Q Hf|m ws r0 Em Sh].
  - apply Z; [reflexivity|exact I].
  - destruct (finish_inv _ _ _ _ Hf) as (i & _ & ->). cbn [pr_item pr_warnings]. unfold simple_parse_fast in Q. apply bind_ok in Q. destruct Q as (o & Eo & Q). destruct o as [x|]; [|discriminate Q]. apply bind_ok in Q. destruct Q as (af & _ & Q). apply Ok_inj in Q. injection Q as <-. cbn [mi_item].
    apply Z; [reflexivity|]. apply parse_lines_text in Eo. destruct Eo as (k & ls & pre & rest & g & st & A & B & C & D & F). exists k, ls, pre, rest, g. split; [exact A|]. split; [exact B|]. exists P, st. cbn [cm_attrlist no_common]. auto.
  - destruct Sh as [w _|m' mj w r0 _ _ Es Hf|mj w r0 Es Hf|mj w P1 r0 Es Hf|mj w r0 Es Hf|mj w P1 Es|mj w _ Es]; try (destruct (finish_inv _ _ _ _ Hf) as (i & _ & ->)); cbn [pr_item pr_warnings].
    + apply all_texts_nil.
    + unfold simple_parse in Es. apply bind_ok in Es. destruct Es as (o & Eo & Es). destruct o as [x|]; [|discriminate Es]. apply bind_ok in Es. destruct Es as (s1 & _ & Es). apply bind_ok in Es. destruct Es as (s2 & _ & Es). apply bind_ok in Es. destruct Es as (af & _ & Es). apply Ok_inj in Es. injection Es as <-. cbn [mi_item].
      apply Z; [reflexivity|]. apply parse_lines_text in Eo. destruct Eo as (k & ls & pre & rest & g & st & A & B & C & D & F). exists k, ls, pre, rest, g. split; [exact A|]. split; [exact B|]. exists P, st. cbn [cm_attrlist common_of]. auto.
    + apply (all_texts_more _ w); [intros y Hy; rewrite !in_app_iff; auto|]. apply Z; [destruct (raw_inv _ _ _ _ _ Es) as (c & mo & cx & sr & g & ->); reflexivity|]. exact (raw_text_all _ _ _ _ _ Es).
    + destruct (compound_inv _ _ _ _ _ _ Es) as (ins & b & cx & src & dl & Eu & -> & _ & _ & Hw). apply (all_texts_more _ (br_warnings b)); [intros y Hy; rewrite !in_app_iff; left; right; destruct Hw as [->| ->]; [exact Hy|right; exact Hy]|]. apply all_texts_one; [exact I|exact (G _ _ _ _ _ Eu)].
    + destruct (media_inv _ _ _ _ _ Es) as (t & tg & a & sr & ->). apply Z; [reflexivity|exact I].
    + destruct (section_inv _ _ _ _ _ _ _ Es) as [(dd & lv & ti & rest & lw & bs' & b & sr & t & base & mn & reg & s2 & _ & _ & _ & Eu & _ & Et & _ & _ & _ & _ & -> & ->)]. apply (all_texts_more _ (br_warnings b)); [intros y Hy; rewrite !in_app_iff; auto|]. cbn [mi_item]. apply all_texts_one; [exists (br_parser b); exact Et|exact (G _ _ _ _ _ Eu)].
    + destruct (break_inv _ _ Es) as (t & sr & ->). apply Z; [reflexivity|exact I].
Qed.
Lemma preamble_below bs ah bs' b : make_preamble bs ah = Ok bs' -> below bs' b -> below bs b \/ exists l src, b = BPreamble l src.
Proof.
  intros Em Hb. destruct (C87_preamble _ _ _ Em) as (C1 & C2). destruct (forallb (fun x => negb (is_section x)) bs) eqn:F; [rewrite (C2 eq_refl) in Hb; auto|].
  assert (G : exists l1 x l2, bs = l1 ++ x :: l2 /\ is_section x = true /\ forallb (fun x => negb (is_section x)) l1 = true).
  { clear - F. induction bs as [|y l IH]; [discriminate F|]. cbn [forallb] in F. destruct (is_section y) eqn:Ey; cbn [negb andb] in F; [exists [], y, l; auto|]. destruct (IH F) as (l1 & x & l2 & -> & A & B). exists (y :: l1), x, l2. cbn [forallb]. rewrite Ey. auto. }
  destruct G as (l1 & x & l2 & -> & Hx & H1). specialize (C1 _ _ _ eq_refl Hx H1). destruct (forallb is_entry l1); [subst bs'; auto|]. destruct C1 as (src & ->).
  inversion Hb as [? ? Hi|? z ? Hz Hi]; subst.
  - destruct Hi as [<-|Hi]; [right; eauto|left; apply bl_here, in_app_iff; auto].
  - left. destruct Hz as [<-|Hz]; [|apply (bl_in _ z); [apply in_app_iff; auto|exact Hi]]. cbn [nested_blocks] in Hi. inversion Hi as [? ? K|? y ? Ky K]; subst; [apply bl_here, in_app_iff; auto|apply (bl_in _ y); [apply in_app_iff; auto|exact K]].
Qed.
Lemma document_texts E fuel t sm P d P' b : document_parse E fuel t sm P = Ok (d, P') -> below (d_blocks d) b -> block_text E (d_warnings d) b.
Proof.
  intros H Hb. unfold document_parse in H. apply bind_ok in H. destruct H as (h & _ & H). apply bind_ok in H. destruct H as (br & Eb & H). apply bind_ok in H. destruct H as (bs & Em & H). apply bind_ok in H. destruct H as (s & _ & H). apply Ok_inj in H. injection H as <- _. cbn [d_blocks d_warnings] in *.
  assert (NP : all_texts E (br_warnings br) (br_blocks br)).
  { refine (until_induction E (fun _ l w _ => all_texts E w l) _ _ (parsed_texts E) _ _ _ _ _ _ Eb); [intros _; apply all_texts_nil|]. intros _ l1 w1 _ l2 w2 _ H1 H2. apply all_texts_app; [apply (all_texts_more _ w1); [intros y Hy; apply in_app_iff; auto|exact H1]|apply (all_texts_more _ w2); [intros y Hy; apply in_app_iff; auto|exact H2]]. }
  destruct (preamble_below _ _ _ _ Em Hb) as [K|(l & src & ->)]; [|exact I]. apply (block_text_more _ (br_warnings br)); [intros y Hy; apply in_app_iff; auto|]. exact (NP b K).
Qed.
