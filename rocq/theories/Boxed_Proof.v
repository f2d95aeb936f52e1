(** Proofs about texts that begin with a raw block (C129). *)
From Verif Require Import Text TextFacts Maps Span_Model Span_Pure Span_Proof Span_Laws Span_Spec Parser_Model Subs_Model Attrlist_Model Group_Model Header_Model Header_Proof Block_Model Block_Spec Block_Proof
  Tree_Proof Shape_Proof Kind_Spec Kind_Proof Begin_Proof Fast_Proof Round_Spec Round_Proof Notice_Spec Notice_Proof Fate_Spec Fate_Proof Shift_Spec Shift_Proof Boxed_Spec.

Lemma raw_first d : raw_delimiter d -> exists c y, d = c :: y /\ In c (lit "/-.+").
Proof. intros (c & Hc & H). destruct (repeated_hd _ _ H) as (y & ->). eauto. Qed.
Lemma raw_nonempty_lines s l r d : a_line (sp_data s) l r d -> raw_delimiter d -> p_discard_empty_lines s = s.
Proof.
  intros H Hd. destruct (raw_first _ Hd) as (c & y & -> & Hc). apply (discard_none s l r (c :: y) c H (or_introl eq_refl)). intros [->| ->]; cbn in Hc; intuition discriminate.
Qed.
(** There is no metadata on such a line. *)
Lemma raw_metadata E s P l r d : a_line (sp_data s) l r d -> raw_delimiter d -> metadata_parse E s P = Ok (md_plain s, []).
Proof.
  intros H Hr. pose proof (raw_nonempty_lines _ _ _ _ H Hr) as Hd. destruct (raw_first _ Hr) as (c & y & Ed & Hc).
  assert (N2 : forall k, sp_data s <> 91%N :: k). { intros k K. rewrite Ed in H. destruct (a_line_head _ _ _ _ _ H) as (z & Dz). rewrite Dz in K. injection K as -> _. cbn in Hc. intuition discriminate. }
  unfold metadata_parse. rewrite discard_empty_lines_ok. cbn [bind]. rewrite Hd. cbn [md_loop]. unfold md_title_step at 1. cbn [ms_title ms_start]. rewrite (take_norm_eq _ _ _ _ H). cbn [bind mi_item with_data sp_data].
  assert (E3 : starts_with (lit ".") d && negb (starts_with (lit "..") d) = false). { destruct Hr as (k & Hk & K). apply repeated_eq in K. destruct K as (j & ->). cbn in Hk. destruct Hk as [<-|[<-|[<-|[<-|[]]]]]; reflexivity. }
  rewrite E3. cbn [bind]. unfold md_anchor_step. cbn [ms_anchor ms_start]. unfold parse_maybe_block_anchor.
  assert (E4 : starts_with (lit "[[") (sp_data s) = false). { destruct (starts_with (lit "[[") (sp_data s)) eqn:K; [|reflexivity]. apply starts_with_spec in K. destruct K as (k & K). exfalso. exact (N2 _ K). }
  rewrite E4. cbn [bind fst snd ms_warnings app ms_title ms_reftext ms_attrlist ms_start]. unfold md_attrlist_step. cbn [ms_attrlist ms_start]. unfold parse_maybe_attrlist_line.
  assert (E5 : starts_with (lit "[") (sp_data s) = false). { destruct (starts_with (lit "[") (sp_data s)) eqn:K; [|reflexivity]. apply starts_with_spec in K. destruct K as (k & K). exfalso. exact (N2 _ K). }
  rewrite E5. reflexivity.
Qed.
(** The block. *)
Lemma box_block E un s P d x rest o : boxed d x (sp_data s) rest -> e_sub E P (snd (raw_meaning d)) false x = Ok o ->
  exists q pre, a_box d x o q /\ sp_data s = pre ++ rest /\ block_parse_with E un s P = Ok (mkpr (Some (mkmi q (skip s pre rest))) [] P).
Proof.
  intros (l & r & c & Hl & Hd & He & Hx) Ho. destruct (raw_kinds d Hd) as (K1 & K2). rewrite <- K2 in Ho.
  assert (Hg : override_via_attrlist (snd (snd (kind_of d))) (md_attrlist (md_plain s)) = Ok (snd (snd (kind_of d)))) by reflexivity.
  destruct (raw_parse_found E (md_plain s) P l r d c rest x _ o Hl Hd He Hx Hg Ho (Suffix_refl s)) as (src & k & Dk & _ & _ & _ & Er). cbn [md_start md_plain] in Dk, Er.
  eexists _, (l ++ c ++ k). split; [|split; [rewrite Dk, <- !app_assoc; reflexivity|]].
  2: { unfold block_parse_with. destruct (first_line_of _ _ _ _ Hl) as (fl & z & -> & Ez). cbn [bind]. destruct (raw_first _ Hd) as (c0 & y & Ed & Hc).
    assert (F : try_fast s (mi_item fl) = false). { unfold try_fast. rewrite Ed in Hl. destruct (a_line_head _ _ _ _ _ Hl) as (w & ->). replace (is_marker c0) with true; [reflexivity|]. cbn in Hc. destruct Hc as [<-|[<-|[<-|[<-|[]]]]]; reflexivity. }
    rewrite F. cbn [bind]. assert (F2 : try_entry (mi_item fl) = false). { unfold try_entry. rewrite Ez, Ed. cbn in Hc. destruct Hc as [<-|[<-|[<-|[<-|[]]]]]; reflexivity. }
    rewrite F2. cbn [bind]. rewrite (raw_metadata E s P l r d Hl Hd). cbn [bind fst snd]. unfold with_metadata. cbn [md_attrlist md_plain]. unfold style_of at 1. cbn [bind]. cbn [style_is].
    change (mkmd None None None None None s s) with (md_plain s). rewrite Er. cbn [bind fst snd app]. unfold finish. cbn [mi_item]. reflexivity. }
  unfold a_box. rewrite <- K1, <- K2. eexists _, _, _. split; [reflexivity|]. cbn [ct_original ct_rendered]. rewrite sp_data_skip. auto.
Qed.
(** No title stands on such a line. *)
Lemma box_goes_on E f n s d x rest : block_loop_stop E f -> boxed d x (sp_data s) rest -> f s n = Ok (false, (n, [])).
Proof.
  intros [->|(lv & ->)] (l & r & c & Hl & Hd & _); [reflexivity|]. unfold section_stop, peer_or_ancestor_section. rewrite (raw_metadata E s _ l r d Hl Hd). cbn [bind fst]. unfold is_discrete. cbn [md_attrlist md_plain]. unfold style_of. cbn [bind].
  cbn [style_is orb md_start md_plain].
  destruct (raw_first _ Hd) as (c0 & y & Ed & Hc). destruct (title_line_total s) as (o & w & Et).
  { intros l1 r1 c1 y1 H1 Hs. destruct (a_line_unique _ _ _ _ _ _ _ Hl H1) as (_ & _ & E1). rewrite Ed in E1. injection E1 as <- _. destruct Hs as [->| ->]; cbn in Hc; intuition discriminate. }
  rewrite Et. cbn [bind fst snd]. destruct o as [mi|].
  - exfalso. destruct (title_line_some _ _ _ Et) as (l1 & r1 & n1 & ti & H1 & Hh & _). destruct (a_line_unique _ _ _ _ _ _ _ Hl H1) as (_ & _ & <-). exact (proj1 (heading_not _ _ _ Hh) Hd).
  - assert (map w_type w = []) as Ew. { rewrite (title_line_notes s l r d None w Hl ltac:(rewrite Ed; discriminate) Et), Ed. cbn in Hc. destruct Hc as [<-|[<-|[<-|[<-|[]]]]]; reflexivity. }
    destruct w; [reflexivity|discriminate Ew].
Qed.
Lemma mv_loop_stop k o E f : block_loop_stop E f -> mv_stop k o f.
Proof. intros [->|(l & ->)]; [apply mv_never|apply mv_section_stop]. Qed.
Lemma box_nonempty d x t rest : boxed d x t rest -> t <> [].
Proof. intros (l & r & c & Hl & Hd & _) ->. destruct (raw_first _ Hd) as (c0 & y & -> & _). destruct (a_line_head _ _ _ _ _ Hl) as (w & K). discriminate K. Qed.
(** The loop. *)
Lemma box_loop E D fuel f n s P d x rest o : block_loop_stop E f -> located D s -> sp_col s = 1 -> boxed d x (sp_data s) rest -> e_sub E P (snd (raw_meaning d)) false x = Ok o ->
  exists q k m, a_box d x o q /\ (forall b, blocks_loop E fuel f n (span_new rest) P = Ok b -> exists b', blocks_loop E (S fuel) f n s P = Ok b' /\ then_moved q k m b b') /\
    (forall b', blocks_loop E (S fuel) f n s P = Ok b' -> exists b, blocks_loop E fuel f n (span_new rest) P = Ok b /\ then_moved q k m b b').
Proof.
  intros Hf L C Hb Ho. set (un := fun stop level source P => src <- discard_empty_lines source ;; blocks_loop E fuel stop level src P).
  destruct (box_block E un s P d x rest o Hb Ho) as (q & pre & Hq & Dp & Er). set (a := skip s pre rest) in *.
  assert (La : located D a) by exact (located_Suffix _ _ _ L (Suffix_intro _ _ _ Dp)).
  assert (Ea : blocks_loop E (S fuel) f n s P = (rest0 <- blocks_loop E fuel f n a P ;; Ok (mkbr (q :: br_blocks rest0) (br_after rest0) (br_warnings rest0) (br_level rest0) (br_stop_warnings rest0) (br_parser rest0)))).
  { cbn [blocks_loop]. destruct (sp_data s) as [|c0 t0] eqn:Ds; [exfalso; exact (box_nonempty _ _ _ _ Hb eq_refl)|]. rewrite <- Ds in Hb. rewrite (box_goes_on E f n s d x rest Hf Hb). cbn [bind fst snd]. change (fun stop level source P => src <- discard_empty_lines source ;; blocks_loop E fuel stop level src P) with un. rewrite Er. cbn [bind pr_item pr_parser pr_warnings mi_after mi_item app]. reflexivity. }
  assert (Em : exists k m, forall r, blocks_loop E fuel f n a P = Ok r <-> exists b, blocks_loop E fuel f n (span_new rest) P = Ok b /\ br_blocks r = map (mv_block k m) (br_blocks b) /\ br_warnings r = map (mv_w k m) (br_warnings b) /\ br_level r = br_level b /\ br_stop_warnings r = map (mv_w k m) (br_stop_warnings b) /\ br_parser r = br_parser b /\ br_after r = (if is_nil rest then a else mv k m (br_after b))).
  { assert (Da : sp_data a = rest) by apply sp_data_skip. destruct rest as [|c1 t1].
    - exists 0, 0. intros r. assert (G : blocks_loop E fuel f n a P = Ok (mkbr [] a [] n [] P)) by (destruct fuel; cbn [blocks_loop]; rewrite Da; reflexivity). assert (G2 : blocks_loop E fuel f n (span_new []) P = Ok (mkbr [] (span_new []) [] n [] P)) by (destruct fuel; reflexivity). rewrite G, G2. split.
      + intros K. apply Ok_inj in K. subst r. eexists. split; [reflexivity|]. repeat split.
      + intros (b & K & B1 & B2 & B3 & B4 & B5 & B6). apply Ok_inj in K. subst b. destruct r. cbn in *. subst. reflexivity.
    - assert (Ca : sp_col a = 1). { destruct (block_begins D E (parse_blocks_until E fuel) s P _ (mkmi q a) (Fate_Proof.until_good E D fuel) (until_begins D E fuel) L ltac:(intros _; exact C) Er eq_refl) as (B & _). apply B. cbn [mi_after]. rewrite Da. discriminate. }
      exists (sp_line a - 1), (sp_off a). intros r. rewrite (place_moved D a La Ca) at 1. rewrite mv_loop by (apply (mv_loop_stop _ _ E), Hf). rewrite Da. split.
      + intros K. destruct (blocks_loop E fuel f n (span_new (c1 :: t1)) P) as [b| |] eqn:Eb; cbn [on_ok] in K; try discriminate K. apply Ok_inj in K. subst r. exists b. repeat split.
      + intros (b & K & B1 & B2 & B3 & B4 & B5 & B6). rewrite K. cbn [on_ok]. unfold mv_bres. destruct r. cbn in *. subst. reflexivity. }
  destruct Em as (k & m & Em). exists q, k, m. split; [exact Hq|]. rewrite Ea. split.
  - intros b Hbq. assert (K : exists r, blocks_loop E fuel f n a P = Ok r /\ br_blocks r = map (mv_block k m) (br_blocks b) /\ br_warnings r = map (mv_w k m) (br_warnings b) /\ br_level r = br_level b /\ br_stop_warnings r = map (mv_w k m) (br_stop_warnings b) /\ br_parser r = br_parser b).
    { exists (mkbr (map (mv_block k m) (br_blocks b)) (if is_nil rest then a else mv k m (br_after b)) (map (mv_w k m) (br_warnings b)) (br_level b) (map (mv_w k m) (br_stop_warnings b)) (br_parser b)). split; [apply Em; exists b; split; [exact Hbq|repeat split]|repeat split]. }
    destruct K as (r & -> & B1 & B2 & B3 & B4 & B5). cbn [bind]. eexists. split; [reflexivity|]. unfold then_moved. cbn [br_blocks br_warnings br_level br_stop_warnings br_parser]. rewrite B1. auto.
  - intros b' K. apply bind_ok in K. destruct K as (r & Kr & K). apply Ok_inj in K. subst b'. apply Em in Kr. destruct Kr as (b & Kb & B1 & B2 & B3 & B4 & B5 & _). exists b. split; [exact Kb|]. unfold then_moved. cbn [br_blocks br_warnings br_level br_stop_warnings br_parser]. rewrite B1. auto.
Qed.
