(** Proofs about the text of a section (C132). *)
From Verif Require Import Text TextFacts Maps Span_Model Span_Pure Span_Proof Span_Laws Span_Spec Parser_Model Subs_Model Attrlist_Model Group_Model Header_Model Header_Proof Block_Model Block_Spec Block_Proof
  Tree_Proof Shape_Proof Kind_Spec Kind_Proof Begin_Spec Begin_Proof Outline_Proof Fate_Spec Fate_Proof Shift_Spec Shift_Proof Again_Spec Again_Proof Chapter_Spec.

(** A place in the text from which all of the rest is seen. *)
Definition tail_of (t : text) (s : span) : Prop := located t s /\ begins s /\ Suffix (span_new t) s.
Lemma tail_split t s : tail_of t s -> sp_data s <> [] -> exists p, t = p ++ sp_data s /\ line_starts p.
Proof.
  intros (L & B & (pre & D & Es)) Hn. cbn [sp_data span_new] in D. exists pre. split; [exact D|]. destruct L as (x & y & D2 & _ & (full & cur & Ec & _ & Hf & Hc) & Ho).
  rewrite (B Hn) in Hc. destruct cur; [|discriminate Hc]. rewrite app_nil_r in Ec. subst full. assert (pre = x) as ->; [|exact Hf].
  assert (So : sp_off s = blen pre) by (rewrite Es, sp_off_skip; reflexivity). unfold spec_offset in Ho. rewrite blen_utf8 in Ho. rewrite D in D2. assert (K : blen pre = blen x) by congruence. clear -D2 K Hn.
  revert x D2 K. induction pre as [|c pre IH]; intros [|c' x] D2 K; [reflexivity| | |].
  - exfalso. pose proof (blen_cons_pos c' x). change (blen []) with 0 in K. lia.
  - exfalso. pose proof (blen_cons_pos c pre). change (blen []) with 0 in K. lia.
  - injection D2 as <- D2. f_equal. apply IH; [exact D2|]. change (c :: pre) with ([c] ++ pre) in K. change (c :: x) with ([c] ++ x) in K. rewrite !blen_app in K. lia.
Qed.

(** No title that ends the section. *)
Lemma never_stops E t lv s n st : deeper lv t -> tail_of t s -> sp_data s <> [] -> section_stop E false lv s n = Ok st -> fst st = false.
Proof.
  intros Hd (L & B & Sx) Hn H. unfold section_stop in H. destruct (peer_spec E lv s n st H) as (m & ws & o & l & r & x & Em & _ & Hl & Hs). destruct (fst st) eqn:K; [|reflexivity]. exfalso. destruct (proj1 Hs eq_refl) as (_ & k & title & Hh & Hk).
  destruct (metadata_Suffix _ _ _ _ _ Em) as (E1 & S2). destruct (metadata_begins _ _ _ _ _ B Em) as (_ & B2).
  assert (S3 : Suffix s (md_start m)) by (eapply Suffix_trans; [|exact S2]; rewrite E1; apply discard_empty_Suffix).
  assert (T : tail_of t (md_start m)) by (split; [exact (located_Suffix _ _ _ L S3)|split; [exact B2|exact (Suffix_trans _ _ _ Sx S3)]]).
  assert (N : sp_data (md_start m) <> []). { intros K2. rewrite K2 in Hl. apply a_line_nil in Hl. subst x. destruct Hh as (c & w & _ & _ & K3 & _). discriminate K3. }
  destruct (tail_split _ _ T N) as (p & Dp & Hp). pose proof (Hd p _ l r x k title Dp Hp Hl Hh). lia.
Qed.
Lemma tail_next E t un s P r mi : good_until t un -> begins_until t un -> tail_of t s -> block_parse_with E un s P = Ok r -> pr_item r = Some mi -> tail_of t (mi_after mi).
Proof.
  intros G GB (L & B & Sx) H Hi. destruct (block_ok t E un s P r mi G L H Hi) as (S1 & _). destruct (block_begins t E un s P r mi G GB L B H Hi) as (B1 & _). split; [exact (located_Suffix _ _ _ L S1)|]. split; [exact B1|exact (Suffix_trans _ _ _ Sx S1)].
Qed.
(** The loop of a section does what that of a document does. *)
Lemma section_free E t lv : deeper lv t -> forall fuel n n' s P b, tail_of t s -> blocks_loop E fuel (section_stop E false lv) n s P = Ok b -> exists b', blocks_loop E fuel never n' s P = Ok b' /\ same_blocks b b'.
Proof.
  intros Hd. induction fuel as [|fuel IH]; intros n n' s P b T H; cbn [blocks_loop] in *; destruct (sp_data s) as [|c0 t0] eqn:Ds.
  - apply Ok_inj in H. subst b. eexists. split; [reflexivity|repeat split].
  - discriminate H.
  - apply Ok_inj in H. subst b. eexists. split; [reflexivity|repeat split].
  - apply bind_ok in H. destruct H as (st & Est & H). rewrite (never_stops E t lv s n st Hd T ltac:(rewrite Ds; discriminate) Est) in H. apply bind_ok in H. destruct H as (r & Er & H). apply bind_ok in H. destruct H as (x & Ex & H). apply Ok_inj in H. subst b.
    unfold never at 1. cbn [bind fst snd]. rewrite Er. cbn [bind].
    assert (T2 : tail_of t (match pr_item r with Some mi => mi_after mi | None => s end)) by (destruct (pr_item r) as [mi|] eqn:Ei; [exact (tail_next E t _ s P r mi (Fate_Proof.until_good E t fuel) (until_begins t E fuel) T Er Ei)|exact T]).
    destruct (IH _ n' _ _ _ T2 Ex) as (x' & Ex' & X1 & X2 & X3 & X4). rewrite Ex'. cbn [bind]. eexists. split; [reflexivity|]. unfold same_blocks. cbn [br_blocks br_after br_warnings br_parser]. rewrite X1, X2, X3, X4. repeat split.
Qed.
Lemma free_section E t lv : total_env E -> flush t -> deeper lv t -> forall fuel n n' s P b, tail_of t s -> blocks_loop E fuel never n s P = Ok b -> exists b', blocks_loop E fuel (section_stop E false lv) n' s P = Ok b' /\ same_blocks b b'.
Proof.
  intros He Hf Hd. induction fuel as [|fuel IH]; intros n n' s P b T H; cbn [blocks_loop] in *; destruct (sp_data s) as [|c0 t0] eqn:Ds.
  - apply Ok_inj in H. subst b. eexists. split; [reflexivity|repeat split].
  - discriminate H.
  - apply Ok_inj in H. subst b. eexists. split; [reflexivity|repeat split].
  - unfold never at 1 in H. cbn [bind fst snd] in H. apply bind_ok in H. destruct H as (r & Er & H). apply bind_ok in H. destruct H as (x & Ex & H). apply Ok_inj in H. subst b.
    assert (St : exists st, section_stop E false lv s n' = Ok st).
    { unfold section_stop, peer_or_ancestor_section. destruct T as (L & B & Sx). destruct (metadata_any E s parser_default He) as (m & ws & Em & E1 & S2 & Wf). rewrite Em. cbn [bind fst]. destruct (discrete_any m Wf) as (dd & ->). cbn [bind]. destruct dd; [eauto|].
      destruct (metadata_begins _ _ _ _ _ B Em) as (_ & B2). assert (S3 : Suffix s (md_start m)) by (eapply Suffix_trans; [|exact S2]; rewrite E1; apply discard_empty_Suffix).
      destruct (title_line_total (md_start m)) as (o & w & Et).
      { intros l r0 c y Hl Hs. destruct (a_line_head _ _ _ _ _ Hl) as (z & Dz). destruct (tail_split t (md_start m)) as (p & Dp & Hp); [split; [exact (located_Suffix _ _ _ L S3)|split; [exact B2|exact (Suffix_trans _ _ _ Sx S3)]]|rewrite Dz; discriminate|]. rewrite Dz in Dp. exact (Hf p c z Dp Hp Hs). }
      rewrite Et. cbn [bind fst snd]. destruct o as [mi|]; [|eauto]. destruct (_ <? _); [|cbn [bind]; eauto]. rewrite take_normalized_line_ok. cbn [bind]. eauto. }
    destruct St as (st & Est). rewrite Est. cbn [bind]. rewrite (never_stops E t lv s n' st Hd T ltac:(rewrite Ds; discriminate) Est). rewrite Er. cbn [bind].
    assert (T2 : tail_of t (match pr_item r with Some mi => mi_after mi | None => s end)) by (destruct (pr_item r) as [mi|] eqn:Ei; [exact (tail_next E t _ s P r mi (Fate_Proof.until_good E t fuel) (until_begins t E fuel) T Er Ei)|exact T]).
    destruct (IH _ (fst (snd st)) _ _ _ T2 Ex) as (x' & Ex' & X1 & X2 & X3 & X4). rewrite Ex'. cbn [bind]. eexists. split; [reflexivity|]. unfold same_blocks. cbn [br_blocks br_after br_warnings br_parser]. rewrite X1, X2, X3, X4. repeat split.
Qed.
(** The loop of a document ends at the end. *)
Lemma never_end E : forall fuel n s P b, blocks_loop E fuel never n s P = Ok b -> sp_data (br_after b) = [].
Proof.
  induction fuel as [|fuel IH]; intros n s P b H; cbn [blocks_loop] in H; destruct (sp_data s) as [|c0 t0] eqn:Ds; [apply Ok_inj in H; subst b; exact Ds|discriminate H|apply Ok_inj in H; subst b; exact Ds|].
  unfold never at 1 in H. cbn [bind fst snd] in H. apply bind_ok in H. destruct H as (r & _ & H). apply bind_ok in H. destruct H as (x & Ex & H). apply Ok_inj in H. subst b. cbn [br_after]. exact (IH _ _ _ _ Ex).
Qed.
Lemma heading_first n lv title : heading n lv title -> exists c y, n = c :: y /\ (c = 61%N \/ c = 35%N).
Proof. intros (c & ws & Hc & _ & -> & _). cbn [repeat app]. exists c. eexists. split; [reflexivity|]. cbn in Hc. intuition. Qed.
(** A line with a title begins a section. *)
Lemma heading_section_parse E un s P r l rest n lv title : a_line (sp_data s) l rest n -> heading n lv title -> block_parse_with E un s P = Ok r ->
  exists mi, section_parse E un (md_plain s) P = Ok (Some mi, (pr_warnings r, pr_parser r)) /\ pr_item r = Some mi.
Proof.
  intros Hl Hh H. destruct (heading_first _ _ _ Hh) as (c & y & En & Hc). unfold block_parse_with in H. destruct (first_line_of _ _ _ _ Hl) as (fl & z & Efl & Ez). rewrite Efl in H. cbn [bind] in H.
  assert (F : try_fast s (mi_item fl) = false). { unfold try_fast. rewrite En in Hl. destruct (a_line_head _ _ _ _ _ Hl) as (w & ->). destruct Hc as [->| ->]; reflexivity. }
  assert (F2 : try_entry (mi_item fl) = false). { unfold try_entry. rewrite Ez, En. destruct Hc as [->| ->]; reflexivity. }
  rewrite F, F2 in H. cbn [bind] in H. rewrite (metadata_plain E s P l rest c y) in H by (first [rewrite <- En; exact Hl|destruct Hc as [->| ->]; (discriminate || (intros [K|K]; discriminate K))]).
  cbn [bind fst snd] in H. unfold with_metadata in H. cbn [md_attrlist md_start] in H. unfold style_of at 1 in H. cbn [bind style_is] in H. change (mkmd None None None None None s s) with (md_plain s) in H.
  rewrite (raw_parse_none E (md_plain s) P l rest n Hl (proj1 (heading_not _ _ _ Hh))) in H. cbn [bind] in H. rewrite (compound_parse_none _ (md_plain s) P l rest n Hl (proj2 (heading_not _ _ _ Hh))) in H. cbn [bind] in H. rewrite (take_norm_eq s l rest n Hl) in H. cbn [bind mi_item sp_data with_data] in H.
  unfold try_media in H. replace (starts_with (lit "image::") n || starts_with (lit "video::") n || starts_with (lit "video::") n) with false in H by (rewrite En; destruct Hc as [->| ->]; reflexivity). cbn [bind fst] in H. unfold try_section in H. replace (starts_with_any (lit "=#") n) with true in H by (rewrite En; destruct Hc as [->| ->]; reflexivity).
  apply bind_ok in H. destruct H as ([o [w P1]] & Eo & H). cbn [fst snd app] in H. destruct o as [mi|].
  - apply Ok_inj in H. subst r. exists mi. cbn [pr_warnings pr_parser pr_item]. auto.
  - exfalso. unfold section_parse in Eo. cbn [md_start md_attrlist md_plain] in Eo. apply bind_ok in Eo. destruct Eo as (dd & _ & Eo). rewrite discard_empty_lines_ok in Eo. cbn [bind] in Eo.
    rewrite (discard_none s l rest n c Hl ltac:(rewrite En; left; reflexivity) ltac:(destruct Hc as [->| ->]; intros [K|K]; discriminate K)) in Eo. destruct (title_line_heading s l rest n lv title Hl Hh) as (t & Et & _). rewrite Et in Eo. cbn [bind fst snd] in Eo.
    repeat (apply bind_ok in Eo; destruct Eo as (? & _ & Eo)). apply Ok_inj in Eo. discriminate Eo.
Qed.
Lemma reg_attrs sectids manual base rt at_ P reg : section_register sectids manual base rt at_ P = Ok reg -> p_attrs (fst (snd reg)) = p_attrs P /\ p_defaults (fst (snd reg)) = p_defaults P.
Proof.
  unfold section_register. destruct (p_catalog P); [|intros H; apply Ok_inj in H; subst reg; auto]. destruct manual as [i|].
  - cbv zeta. match goal with |- (if ?c then _ else _) = _ -> _ => destruct c end; [intros H; apply Ok_inj in H; subst reg; auto|]. intros H. apply bind_ok in H. destruct H as (? & _ & H). apply Ok_inj in H. subst reg. auto.
  - destruct sectids; [|intros H; apply Ok_inj in H; subst reg; auto]. intros H. apply bind_ok in H. destruct H as (? & _ & H). apply Ok_inj in H. subst reg. auto.
Qed.
Lemma number_alike P lv ty : let tp := section_type_of false lv None P in unnum (snd (if (ty : bool) then let r := assign_section_number (snd tp) lv in (Some (fst r), snd r) else (None, snd tp))) = unnum P.
Proof. cbv zeta. unfold section_type_of. destruct (lv =? 1), ty; cbn [snd fst]; unfold assign_section_number; try (destruct (p_topmost _)); reflexivity. Qed.
Lemma new_line_count x : ~ In LF x -> count_lf (x ++ [LF]) = 1.
Proof. induction x as [|c x IH]; intros H; [reflexivity|]. cbn [app count_lf]. destruct (N.eqb_spec c LF) as [->|_]; [exfalso; apply H; left; reflexivity|]. apply IH. intros K. apply H. right. exact K. Qed.
Lemma after_line h body : ~ In LF h -> skip (span_new (h ++ LF :: body)) (h ++ [LF]) body = mv 1 (S (blen h)) (span_new body).
Proof.
  intros Hx. assert (E2 : sp_col (skip (span_new (h ++ LF :: body)) (h ++ [LF]) [LF]) = 1) by (apply (after_lf (span_new (h ++ LF :: body)) h [LF]); rewrite sp_data_skip; discriminate).
  unfold skip, slice_internal in *. destruct (Nat.eqb_spec (blen (h ++ [LF])) 0) as [K|_]; [rewrite blen_app in K; change (blen [LF]) with 1 in K; lia|]. cbn [sp_col] in E2. rewrite E2, (new_line_count h Hx), blen_app. change (blen [LF]) with 1. unfold mv. cbn [sp_data sp_line sp_col sp_off span_new]. f_equal; lia.
Qed.
Lemma section_of_text E fuel h n lv title body P r : sub_reads_attrs E -> ~ In LF h -> trimmed_line h n -> heading n lv title -> deeper lv body -> block_parse E fuel (span_new (h ++ LF :: body)) P = Ok r ->
  exists b bs x src ty id num after, parse_blocks_until E fuel never 0 (span_new body) P = Ok b /\ pr_item r = Some (mkmi (BSection lv x (map (mv_block 1 (S (blen h))) bs) src no_common ty id num) after) /\
    map unnum_block bs = map unnum_block (br_blocks b) /\ sp_data after = [] /\ same_attrs (pr_parser r) (br_parser b) /\ sp_data (ct_original x) = title /\ e_sub E (br_parser b) GTitle false title = Ok (ct_rendered x).
Proof.
  intros BE H1 H2 Hh Hd H. set (s := span_new (h ++ LF :: body)) in *. assert (Hl : a_line (sp_data s) (h ++ [LF]) body n). { exists h, [LF]. split; [cbn; rewrite <- app_assoc; reflexivity|]. split; [reflexivity|]. split; [exact H1|]. split; [left; reflexivity|exact H2]. }
  destruct (heading_first _ _ _ Hh) as (c & y & En & Hc). destruct (heading_section_parse E _ s P r _ _ n lv title Hl Hh H) as (mi & Hs & Hi).
  apply section_parse_inv in Hs. destruct Hs as (dd & source & lt & w & sid & b & src0 & src & tt & base & manual & reg & tp & np & st & X1 & X2 & X3 & X4 & X5 & X6 & X7 & X8 & X9 & X10 & X11 & X12 & X13 & X14 & X15 & X16 & X17).
  cbn [md_start md_attrlist md_plain md_source] in *. assert (dd = false) as -> by (unfold is_discrete in X1; cbn [md_attrlist md_plain] in X1; unfold style_of in X1; cbn [bind style_is orb] in X1; apply Ok_inj in X1; auto).
  assert (st = None) as -> by (unfold style_of in X4; cbn [bind] in X4; apply Ok_inj in X4; auto).
  rewrite (discard_none s _ body n c Hl ltac:(rewrite En; left; reflexivity) ltac:(destruct Hc as [->| ->]; intros [K|K]; discriminate K)) in X2. subst source. destruct (title_line_heading s _ body n lv title Hl Hh) as (t & Et & Dt & _). rewrite Et in X3. apply Ok_inj in X3. injection X3 as <- <-. cbn [mi_item mi_after fst snd] in *.
  unfold s in X7. rewrite (after_line h body H1) in X7. rewrite (mv_blocks 1 (S (blen h)) E fuel) in X7 by apply mv_section_stop. destruct (parse_blocks_until E fuel (section_stop E false lv) lv (span_new body) (snd np)) as [b0| |] eqn:E0; cbn [on_ok] in X7; try discriminate X7. apply Ok_inj in X7.
  assert (A : unnum (snd np) = unnum P) by (rewrite X6, X5; apply number_alike).
  assert (T : tail_of body (p_discard_empty_lines (span_new body))). { assert (L : located body (span_new body)) by (exists [], []; split; [symmetry; apply app_nil_r|]; split; [reflexivity|]; split; [|reflexivity]; exists [], []; repeat split; auto). split; [exact (located_Suffix _ _ _ L (discard_empty_Suffix _))|]. split; [apply discard_begins; intros _; reflexivity|apply discard_empty_Suffix]. }
  unfold parse_blocks_until in E0. rewrite discard_empty_lines_ok in E0. cbn [bind] in E0. destruct (section_free E body lv Hd fuel lv 0 _ _ b0 T E0) as (b1 & E1 & S1 & S2 & S3 & S4).
  pose proof (r_loop E BE fuel never 0 (p_discard_empty_lines (span_new body)) (snd np) P A) as RL. rewrite E1 in RL. destruct (blocks_loop E fuel never 0 (p_discard_empty_lines (span_new body)) P) as [b2| |] eqn:E2; cbn [on_ok] in RL; try discriminate RL. apply Ok_inj in RL. pose proof (f_equal br_blocks RL) as R1. pose proof (f_equal br_parser RL) as R6. unfold mu_b in R1, R6. cbn [br_blocks br_parser] in R1, R6.
  assert (SA : same_attrs (br_parser b) (br_parser b2)). { rewrite <- X7. cbn [mv_bres br_parser]. rewrite S4. split; [exact (f_equal p_attrs R6)|exact (f_equal p_defaults R6)]. }
  exists b2, (br_blocks b0), (mkct t tt), src, (fst tp), sid, (fst np), (br_after b). split; [unfold parse_blocks_until; rewrite discard_empty_lines_ok; cbn [bind]; exact E2|]. split; [rewrite Hi, X15, <- X7; reflexivity|]. split; [rewrite S1; exact R1|].
  split; [rewrite <- X7; cbn [mv_bres br_after]; rewrite S2; exact (never_end _ _ _ _ _ _ E1)|].
  split; [|split; [exact Dt|]].
  - destruct (reg_attrs _ _ _ _ _ _ _ X13) as (K1 & K2). rewrite X17. destruct SA as (SA1 & SA2). assert (G : forall (c : bool) Z, p_attrs (if c then with_topmost Z SNormal else Z) = p_attrs Z /\ p_defaults (if c then with_topmost Z SNormal else Z) = p_defaults Z) by (intros [] Z; split; reflexivity). split; [rewrite (proj1 (G _ _)), K1; exact SA1|rewrite (proj2 (G _ _)), K2; exact SA2].
  - cbn [ct_rendered]. rewrite Dt in X10. unfold apply_subs in X10. cbn [hardbreaks bind] in X10. rewrite <- (BE _ _ GTitle false title SA). exact X10.
Qed.
