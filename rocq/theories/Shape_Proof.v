(** What a block parsed from a place can be: the cases of [block_parse_with], once for all. *)
From Verif Require Import Text TextFacts Maps Span_Model Span_Pure Span_Proof Span_Laws Span_Spec Catalog_Model Parser_Model Subs_Model Attrlist_Model
  Entry_Model Group_Model SecId_Model Header_Model Header_Proof Block_Model Block_Spec Block_Proof.

(** The warnings that were given before the block was found: by the metadata, by a line that looked like
    a heading, and for metadata without a block. *)
Definition extra (E : env) (un : stop_fn -> nat -> span -> parser -> res bres) (m : metadata) (P : parser) (w : list warning) : Prop :=
  exists sw ow, w = sw ++ ow /\ (sw = [] \/ section_parse E un m P = Ok (None, (sw, P))) /\
    (ow = [] \/ md_is_empty m = false /\ ow = [mkwarn (md_source m) WMissingBlockAfterTitleOrAttributeList]).
Inductive shape_md (E : env) (un : stop_fn -> nat -> span -> parser -> res bres) (m : metadata) (ws : list warning) (P : parser) : pres -> Prop :=
| sm_none w : extra E un m P w -> shape_md E un m ws P (mkpr None (ws ++ w) P)
| sm_simple m' mi w r : m' = m \/ m' = orphan_metadata m -> extra E un m P w -> simple_parse E m' P = Ok (Some mi) -> finish mi (ws ++ w) P = Ok r -> shape_md E un m ws P r
| sm_raw mi w r : raw_parse E m P = Ok (Some (mi, w)) -> finish mi (ws ++ w) P = Ok r -> shape_md E un m ws P r
| sm_compound mi w P1 r : compound_parse (un never 0) m P = Ok (Some (mi, (w, P1))) -> finish mi (ws ++ w) P1 = Ok r -> shape_md E un m ws P r
| sm_media mi w r : media_parse E m P = Ok (Some mi, w) -> finish mi (ws ++ w) P = Ok r -> shape_md E un m ws P r
| sm_section mi w P1 : section_parse E un m P = Ok (Some mi, (w, P1)) -> shape_md E un m ws P (mkpr (Some mi) (ws ++ w) P1)
| sm_break mi w : extra E un m P w -> break_parse m = Ok (Some mi) -> shape_md E un m ws P (mkpr (Some mi) (ws ++ w) P).
Inductive shape (E : env) (un : stop_fn -> nat -> span -> parser -> res bres) (s : span) (P : parser) : pres -> Prop :=
| sh_entry a af : attribute_parse (apply_header_subs E) s P = Ok (Some (mkmi a af)) ->
    shape E un s P (mkpr (Some (mkmi (BAttribute a) af)) (snd (set_attribute_from_body (e_u E) P a)) (fst (set_attribute_from_body (e_u E) P a)))
| sh_fast mi r : simple_parse_fast E s P = Ok (Some mi) -> finish mi [] P = Ok r -> shape E un s P r
| sh_md m ws r : metadata_parse E s P = Ok (m, ws) -> shape_md E un m ws P r -> shape E un s P r.

Lemma section_none E un m P w P1 : section_parse E un m P = Ok (None, (w, P1)) -> P1 = P.
Proof.
  unfold section_parse. intros H. apply bind_ok in H. destruct H as (dd & _ & H). apply bind_ok in H. destruct H as (src & _ & H). apply bind_ok in H. destruct H as (lt & _ & H).
  destruct (fst lt) as [lv|]; [|apply Ok_inj in H; injection H as _ <-; reflexivity]. apply bind_ok in H. destruct H as (bs & _ & H). apply bind_ok in H. destruct H as (b & _ & H). apply bind_ok in H. destruct H as (s1 & _ & H).
  apply bind_ok in H. destruct H as (t & _ & H). apply bind_ok in H. destruct H as (ba & _ & H). apply bind_ok in H. destruct H as (mn & _ & H). apply bind_ok in H. destruct H as (rg & _ & H). apply bind_ok in H. destruct H as (s2 & _ & H).
  apply Ok_inj in H. discriminate H.
Qed.
Lemma last_resort_shape E un m m' ws w P r : m' = m \/ m' = orphan_metadata m -> extra E un m P w -> last_resort E m' (ws ++ w) P = Ok r -> shape_md E un m ws P r.
Proof.
  intros Hm Hw H. unfold last_resort in H. apply bind_ok in H. destruct H as (o & Eo & H). destruct o as [mi|]; [eapply sm_simple; eauto|]. apply Ok_inj in H. subst r. constructor. exact Hw.
Qed.
Lemma md_shape E un m ws P r : with_metadata E un m ws P = Ok r -> shape_md E un m ws P r.
Proof.
  unfold with_metadata. intros H. apply bind_ok in H. destruct H as (bs & _ & H).
  assert (X0 : extra E un m P []) by (exists [], []; auto).
  destruct (style_is bs (lit "literal")).
  { rewrite <- (app_nil_r ws) in H. exact (last_resort_shape E un m m ws [] P r (or_introl eq_refl) X0 H). }
  apply bind_ok in H. destruct H as (o & Eo & H). destruct o as [[mi w]|]; [eapply sm_raw; eauto|]. apply bind_ok in H. destruct H as (o2 & Eo2 & H). destruct o2 as [[mi [w P1]]|]; [eapply sm_compound; eauto|].
  apply bind_ok in H. destruct H as (line & _ & H). unfold try_media in H. apply bind_ok in H. destruct H as ([o3 w3] & Eo3 & H). cbn [fst snd] in H. destruct o3 as [mi|].
  { match type of Eo3 with (if ?b then _ else _) = _ => destruct b end; [|discriminate Eo3]. eapply sm_media; eauto. }
  unfold try_section in H. apply bind_ok in H. destruct H as ([o4 [w4 P4]] & Eo4 & H). cbn [fst snd] in H.
  assert (Hs : (o4 = None /\ P4 = P /\ extra E un m P w4) \/ exists mi, o4 = Some mi /\ section_parse E un m P = Ok (Some mi, (w4, P4))).
  { destruct (starts_with_any _ _); [|injection Eo4 as <- <- <-; auto]. destruct o4 as [mi|]; [right; eauto|left]. pose proof (section_none _ _ _ _ _ _ Eo4). subst P4. split; [reflexivity|]. split; [reflexivity|]. exists w4, []. rewrite app_nil_r. auto. }
  destruct Hs as [(-> & -> & Hw)|(mi & -> & Es)]; [|apply Ok_inj in H; subst r; eapply sm_section; eauto].
  unfold try_break in H. apply bind_ok in H. destruct H as (o5 & Eo5 & H). destruct o5 as [mi|].
  { match type of Eo5 with (if ?b then _ else _) = _ => destruct b end; [|discriminate Eo5]. apply Ok_inj in H. subst r. constructor; assumption. }
  unfold no_block in H. apply bind_ok in H. destruct H as (so & _ & H). destruct (negb (is_some so) && negb (md_is_empty m)) eqn:Emp; [|exact (last_resort_shape E un m m ws w4 P r (or_introl eq_refl) Hw H)].
  rewrite <- app_assoc in H. apply (last_resort_shape E un m (orphan_metadata m) ws _ P r (or_intror eq_refl)) in H; [exact H|].
  exists w4, [mkwarn (md_source m) WMissingBlockAfterTitleOrAttributeList]. split; [reflexivity|]. split; [|right; apply andb_true_iff in Emp; destruct Emp as (_ & Emp); apply negb_true_iff in Emp; auto]. match type of Eo4 with (if ?b then _ else _) = _ => destruct b end; [auto|injection Eo4 as <-; auto].
Qed.
Theorem block_shape E un s P r : block_parse_with E un s P = Ok r -> shape E un s P r.
Proof.
  unfold block_parse_with. intros H. apply bind_ok in H. destruct H as (fl & _ & H). apply bind_ok in H. destruct H as (fast & Ef & H). destruct fast as [mi|].
  { destruct (try_fast _ _); [|discriminate Ef]. eapply sh_fast; eauto. }
  apply bind_ok in H. destruct H as (en & Ee & H). destruct en as [at_|].
  { destruct (try_entry _); [|discriminate Ee]. apply Ok_inj in H. subst r. destruct at_ as [a af]. constructor. exact Ee. }
  apply bind_ok in H. destruct H as ([m ws] & Em & H). cbn [fst snd] in H. eapply sh_md; [exact Em|]. exact (md_shape _ _ _ _ _ _ H).
Qed.

(** ** The parts *)
Lemma finish_inv mi ws P r : finish mi ws P = Ok r -> exists id, block_id (mi_item mi) = Ok id /\
  r = mkpr (Some mi) (ws ++ snd (register_block_id id (cm_title (block_common (mi_item mi))) (block_span (mi_item mi)) P)) (fst (register_block_id id (cm_title (block_common (mi_item mi))) (block_span (mi_item mi)) P)).
Proof. unfold finish. intros H. apply bind_ok in H. destruct H as (id & Ei & H). apply Ok_inj in H. subst r. eauto. Qed.
Lemma simple_fast_inv E s P mi : simple_parse_fast E s P = Ok (Some mi) -> exists c st src cm, mi_item mi = BSimple c src st cm /\ cm = no_common.
Proof. unfold simple_parse_fast. intros H. apply bind_ok in H. destruct H as (o & _ & H). destruct o as [x|]; [|discriminate H]. apply bind_ok in H. destruct H as (af & _ & H). apply Ok_inj in H. injection H as <-. cbn [mi_item]. eauto 10. Qed.
Lemma simple_inv E m P mi : simple_parse E m P = Ok (Some mi) -> exists c st src, mi_item mi = BSimple c src st (common_of m).
Proof.
  unfold simple_parse. intros H. apply bind_ok in H. destruct H as (o & _ & H). destruct o as [x|]; [|discriminate H]. apply bind_ok in H. destruct H as (s1 & _ & H). apply bind_ok in H. destruct H as (s2 & _ & H). apply bind_ok in H. destruct H as (af & _ & H).
  apply Ok_inj in H. injection H as <-. cbn [mi_item]. eauto.
Qed.
Lemma raw_inv E m P mi w : raw_parse E m P = Ok (Some (mi, w)) -> exists c mo cx src g, mi_item mi = BRaw c mo cx src (common_of m) g.
Proof.
  unfold raw_parse. intros H. apply bind_ok in H. destruct H as (d & _ & H). destruct (_ <? 4); [discriminate H|]. destruct (raw_kind _) as [[mo [cx g]]|]; [|discriminate H]. apply bind_ok in H. destruct H as (v & _ & H).
  destruct (negb v); [discriminate H|]. apply bind_ok in H. destruct H as (r & _ & H). apply bind_ok in H. destruct H as (c0 & _ & H). apply bind_ok in H. destruct H as (c & _ & H). destruct (snd r) as [line|].
  - apply bind_ok in H. destruct H as (g' & _ & H). apply bind_ok in H. destruct H as (t & _ & H). apply bind_ok in H. destruct H as (s1 & _ & H). apply bind_ok in H. destruct H as (s2 & _ & H). apply Ok_inj in H. injection H as <- _. cbn [mi_item]. eauto 10.
  - apply bind_ok in H. destruct H as (s1 & _ & H). apply bind_ok in H. destruct H as (s2 & _ & H). apply Ok_inj in H. injection H as <- _. cbn [mi_item]. eauto 10.
Qed.
Lemma compound_inv un m P mi w P1 : compound_parse un m P = Ok (Some (mi, (w, P1))) -> exists inside b cx src dl, un inside P = Ok b /\ mi_item mi = BCompound (br_blocks b) cx src (common_of m) /\ P1 = br_parser b /\
  take_normalized_line (md_start m) = Ok dl /\ (w = br_warnings b \/ w = mkwarn (mi_item dl) WUnterminatedDelimitedBlock :: br_warnings b).
Proof.
  unfold compound_parse. intros H. apply bind_ok in H. destruct H as (d & Ed & H). destruct (compound_context _) as [cx|]; [|discriminate H]. apply bind_ok in H. destruct H as (v & _ & H). destruct (negb v); [discriminate H|].
  apply bind_ok in H. destruct H as (r & _ & H). apply bind_ok in H. destruct H as (ins & _ & H). apply bind_ok in H. destruct H as (b & Eb & H). apply bind_ok in H. destruct H as (ca & _ & H). apply bind_ok in H. destruct H as (s1 & _ & H).
  apply bind_ok in H. destruct H as (s2 & _ & H). apply Ok_inj in H. injection H as <- <- <-. exists ins, b, cx, s2, d. cbn [mi_item]. split; [exact Eb|]. split; [reflexivity|]. split; [reflexivity|]. split; [exact Ed|]. destruct (is_nil _); auto.
Qed.
Lemma media_inv E m P mi w : media_parse E m P = Ok (Some mi, w) -> exists ty t a src, mi_item mi = BMedia ty t a src (mkcm (md_title_source m) (md_title m) (md_anchor m) None (md_attrlist m)).
Proof.
  unfold media_parse. intros H. apply bind_ok in H. destruct H as (l & _ & H). destruct (negb _); [discriminate H|]. apply bind_ok in H. destruct H as (o & _ & H). destruct o as [nm|]; [|discriminate H]. destruct (media_type_of _) as [ty|]; [|discriminate H].
  apply bind_ok in H. destruct H as (o & _ & H). destruct o as [co|]; [|discriminate H]. apply bind_ok in H. destruct H as (tg & _ & H). destruct (is_nil _); [discriminate H|]. apply bind_ok in H. destruct H as (o & _ & H). destruct o as [ob|]; [|discriminate H].
  apply bind_ok in H. destruct H as (e & _ & H). apply bind_ok in H. destruct H as (al & _ & H). apply bind_ok in H. destruct H as (a & _ & H). apply bind_ok in H. destruct H as (src & _ & H). apply bind_ok in H. destruct H as (af & _ & H).
  apply Ok_inj in H. injection H as <- _. cbn [mi_item]. eauto 10.
Qed.
Lemma break_inv m mi : break_parse m = Ok (Some mi) -> exists ty src, mi_item mi = BBreak ty src (mkcm (md_title_source m) (md_title m) (md_anchor m) None (md_attrlist m)).
Proof.
  unfold break_parse. intros H. apply bind_ok in H. destruct H as (l & _ & H). destruct (break_type_of _) as [ty|]; [|discriminate H]. apply bind_ok in H. destruct H as (src & _ & H). apply bind_ok in H. destruct H as (af & _ & H).
  apply Ok_inj in H. injection H as <-. cbn [mi_item]. eauto.
Qed.
(** A section, in the order in which things are done. *)
Record section_facts (E : env) (un : stop_fn -> nat -> span -> parser -> res bres) (m : metadata) (P : parser) (mi : mitem block) (w : list warning) (P1 : parser) : Prop := mksf {
  sf_all : exists discrete level title rest lw bs b src t base manual reg src2,
    let tp := section_type_of discrete level bs P in
    let np := if is_attribute_set (snd tp) (lit "sectnums") && (level <=? p_levels (snd tp)) && negb discrete
              then let r := assign_section_number (snd tp) level in (Some (fst r), snd r) else (None, snd tp) in
    is_discrete m = Ok discrete /\ parse_title_line (p_discard_empty_lines (md_start m)) = Ok (Some (mkmi (level, title) rest), lw) /\
    style_of (md_attrlist m) = Ok bs /\ un (section_stop E discrete level) level rest (snd np) = Ok b /\
    trim_remainder (md_source m) (br_after b) = Ok src /\ apply_subs E (br_parser b) GTitle (md_attrlist m) (sp_data title) = Ok t /\
    generate_section_id (e_u E) t (br_parser b) = Ok base /\ manual_id m = Ok manual /\
    section_register (is_attribute_set P (lit "sectids")) manual base (section_reftext m t) (trim_remainder (md_source m) rest) (br_parser b) = Ok reg /\
    P1 = (if (level =? 1) && negb discrete then with_topmost (fst (snd reg)) SNormal else fst (snd reg)) /\
    mi = mkmi (BSection level (mkct title t) (br_blocks b) src2 (common_of m) (fst tp) (fst reg) (fst np)) (br_after b) /\
    w = lw ++ br_stop_warnings b ++ snd (snd reg) ++ br_warnings b }.
Lemma section_inv E un m P mi w P1 : section_parse E un m P = Ok (Some mi, (w, P1)) -> section_facts E un m P mi w P1.
Proof.
  unfold section_parse. intros H. apply bind_ok in H. destruct H as (dd & Ed & H). rewrite discard_empty_lines_ok in H. cbn [bind] in H. apply bind_ok in H. destruct H as ([o lw] & El & H). cbn [fst snd] in H.
  destruct o as [[[level title] rest]|]; [|discriminate H]. cbn [mi_item mi_after fst snd] in H. apply bind_ok in H. destruct H as (bs & Es & H). apply bind_ok in H. destruct H as (b & Eb & H). apply bind_ok in H. destruct H as (src & Esrc & H).
  apply bind_ok in H. destruct H as (t & Et & H). apply bind_ok in H. destruct H as (base & Eba & H). apply bind_ok in H. destruct H as (mn & Em & H). apply bind_ok in H. destruct H as (reg & Er & H). apply bind_ok in H. destruct H as (s2 & Es2 & H).
  apply Ok_inj in H. injection H as <- <- <-. constructor. exists dd, level, title, rest, lw, bs, b, src, t, base, mn, reg, s2. cbv zeta. auto 15.
Qed.

(** * Induction over all the blocks of a document *)
Section Blocks.
Context (E : env) (R : parser -> list block -> list warning -> parser -> Prop).
Definition until_good (un : stop_fn -> nat -> span -> parser -> res bres) : Prop :=
  forall f n s P b, un f n s P = Ok b -> R P (br_blocks b) (br_warnings b) (br_parser b).
(** [un] is a call of the loop. *)
Definition real (un : stop_fn -> nat -> span -> parser -> res bres) : Prop :=
  exists fuel, forall f n s P, un f n s P = (src <- discard_empty_lines s ;; blocks_loop E fuel f n src P).
Definition step_good : Prop := forall un s P r, real un -> until_good un -> shape E un s P r ->
  R P (match pr_item r with Some mi => [mi_item mi] | None => [] end) (pr_warnings r) (pr_parser r).
Lemma blocks_induction : (forall P, R P [] [] P) -> (forall P l1 w1 P1 l2 w2 P2, R P l1 w1 P1 -> R P1 l2 w2 P2 -> R P (l1 ++ l2) (w1 ++ w2) P2) -> step_good ->
  forall fuel, until_good (fun f n s P => blocks_loop E fuel f n s P).
Proof.
  intros Hn Ha Hs. induction fuel as [|fuel IH]; intros f n s P b H; cbn [blocks_loop] in H.
  - destruct (sp_data s); [|discriminate H]. apply Ok_inj in H. subst b. apply Hn.
  - destruct (sp_data s) eqn:D. { apply Ok_inj in H. subst b. apply Hn. }
    apply bind_ok in H. destruct H as (st & _ & H). destruct (fst st). { apply Ok_inj in H. subst b. apply Hn. }
    apply bind_ok in H. destruct H as (r & Er & H). apply bind_ok in H. destruct H as (rest & Hr & H). apply Ok_inj in H. subst b. cbn [br_after br_blocks br_warnings br_parser].
    assert (G : until_good (fun stop level source P => src <- discard_empty_lines source ;; blocks_loop E fuel stop level src P)).
    { intros f' n' s' P' b' Hb. rewrite discard_empty_lines_ok in Hb. cbn [bind] in Hb. exact (IH _ _ _ _ _ Hb). }
    assert (Rl : real (fun stop level source P => src <- discard_empty_lines source ;; blocks_loop E fuel stop level src P)) by (exists fuel; reflexivity).
    pose proof (Hs _ s P r Rl G (block_shape _ _ _ _ _ Er)) as K. pose proof (IH _ _ _ _ _ Hr) as K2.
    destruct (pr_item r) as [mi|]; exact (Ha _ _ _ _ _ _ _ K K2).
Qed.
Lemma until_induction : (forall P, R P [] [] P) -> (forall P l1 w1 P1 l2 w2 P2, R P l1 w1 P1 -> R P1 l2 w2 P2 -> R P (l1 ++ l2) (w1 ++ w2) P2) -> step_good ->
  forall fuel, until_good (parse_blocks_until E fuel).
Proof. intros Hn Ha Hs fuel f n s P b H. unfold parse_blocks_until in H. rewrite discard_empty_lines_ok in H. cbn [bind] in H. exact (blocks_induction Hn Ha Hs fuel _ _ _ _ _ H). Qed.
(** The step, from the cases that matter: nothing, a block without blocks whose id is registered, an
    entry, a break, a block of blocks, a section. *)
Definition no_blocks (b : block) : Prop := match b with BSimple _ _ _ _ | BMedia _ _ _ _ _ | BRaw _ _ _ _ _ _ => True | _ => False end.
Lemma step_cases :
  (forall P w, R P [] w P) ->
  (forall P mi w r, no_blocks (mi_item mi) -> finish mi w P = Ok r -> R P [mi_item mi] (pr_warnings r) (pr_parser r)) ->
  (forall P a, R P [BAttribute a] (snd (set_attribute_from_body (e_u E) P a)) (fst (set_attribute_from_body (e_u E) P a))) ->
  (forall P ty src cm w, R P [BBreak ty src cm] w P) ->
  (forall P bs cx src cm w0 w w1 P1 af r, R P bs w0 P1 -> (w = w0 \/ exists x, w = mkwarn x WUnterminatedDelimitedBlock :: w0) -> finish (mkmi (BCompound bs cx src cm) af) (w1 ++ w) P1 = Ok r -> R P [BCompound bs cx src cm] (pr_warnings r) (pr_parser r)) ->
  (forall un m ws P mi w P1, real un -> until_good un -> section_parse E un m P = Ok (Some mi, (w, P1)) -> R P [mi_item mi] (ws ++ w) P1) ->
  step_good.
Proof.
  intros Hn Hl Ha Hb Hc Hs un s P r Rl G H. destruct H as [a af Ee|mi r Ef Hf|m ws r Em H].
  - cbn [pr_item mi_item pr_warnings pr_parser]. apply Ha.
  - destruct (finish_inv _ _ _ _ Hf) as (id & _ & Er). rewrite Er at 1. cbn [pr_item]. apply (Hl P mi [] r); [|exact Hf]. destruct (simple_fast_inv _ _ _ _ Ef) as (c & st & src & cm & -> & _). exact I.
  - destruct H as [w Hw|m' mi w r Hm Hw Es Hf|mi w r Er Hf|mi w P1 r Ec Hf|mi w r Ed Hf|mi w P1 Es|mi w Hw Eb].
    + apply Hn.
    + destruct (finish_inv _ _ _ _ Hf) as (id & _ & Ef). rewrite Ef at 1. cbn [pr_item]. apply (Hl P mi (ws ++ w) r); [|exact Hf]. destruct (simple_inv _ _ _ _ Es) as (c & st & src & ->). exact I.
    + destruct (finish_inv _ _ _ _ Hf) as (id & _ & Ef). rewrite Ef at 1. cbn [pr_item]. apply (Hl P mi (ws ++ w) r); [|exact Hf]. destruct (raw_inv _ _ _ _ _ Er) as (c & mo & cx & src & g & ->). exact I.
    + destruct (finish_inv _ _ _ _ Hf) as (id & _ & Ef). rewrite Ef at 1. cbn [pr_item]. destruct (compound_inv _ _ _ _ _ _ Ec) as (ins & b & cx & src & dl & Eb & Emi & -> & _ & Hw). destruct mi as [it af]. cbn [mi_item] in *. subst it.
      apply (Hc P (br_blocks b) cx src (common_of m) (br_warnings b) w ws (br_parser b) af r); [exact (G _ _ _ _ _ Eb)| |exact Hf]. destruct Hw as [-> | ->]; eauto.
    + destruct (finish_inv _ _ _ _ Hf) as (id & _ & Ef). rewrite Ef at 1. cbn [pr_item]. apply (Hl P mi (ws ++ w) r); [|exact Hf]. destruct (media_inv _ _ _ _ _ Ed) as (ty & t & a & src & ->). exact I.
    + cbn [pr_item pr_warnings pr_parser]. exact (Hs un m ws P mi w P1 Rl G Es).
    + cbn [pr_item pr_warnings pr_parser]. destruct (break_inv _ _ Eb) as (ty & src & ->). apply Hb.
Qed.
End Blocks.
