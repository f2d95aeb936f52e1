(** Proofs about texts that begin with a compound block (C131). *)
From Verif Require Import Text TextFacts Maps Span_Model Span_Pure Span_Proof Span_Laws Span_Spec Parser_Model Subs_Model Attrlist_Model Group_Model Header_Model Header_Proof Block_Model Block_Spec Block_Proof
  Tree_Proof Shape_Proof Kind_Spec Kind_Proof Begin_Spec Begin_Proof Fast_Proof Round_Spec Round_Proof Notice_Spec Notice_Proof Fate_Spec Fate_Proof Shift_Spec Shift_Proof Boxed_Spec Boxed_Proof Wrap_Spec.

Lemma compound_first d : compound_delimiter d -> exists c y, d = c :: y /\ In c (lit "-=*_").
Proof. intros [->|(c & Hc & H)]; [exists 45%N, (lit "-"); split; [reflexivity|left; reflexivity]|]. destruct (repeated_hd _ _ H) as (y & ->). exists c, y. split; [reflexivity|]. cbn in *. intuition. Qed.
Lemma compound_not_raw d : compound_delimiter d -> ~ raw_delimiter d.
Proof.
  intros [->|(c & Hc & H)] (c' & Hc' & H').
  - destruct H' as (n & Hn & E). apply (f_equal (@length N)) in E. rewrite repeat_length in E. cbn in E. lia.
  - destruct (repeated_hd _ _ H) as (y & E1), (repeated_hd _ _ H') as (y' & E2). rewrite E1 in E2. injection E2 as <- _. cbn in Hc, Hc'. destruct Hc as [<-|[<-|[<-|[]]]]; intuition discriminate.
Qed.
Lemma wrap_metadata E s P l r d : a_line (sp_data s) l r d -> compound_delimiter d -> metadata_parse E s P = Ok (md_plain s, []).
Proof.
  intros H Hd. destruct (compound_first _ Hd) as (c & y & -> & Hc). apply (metadata_plain E s P l r c y H); [intros [->| ->]|intros ->|intros ->]; cbn in Hc; intuition discriminate.
Qed.
(** The block. *)
Lemma wrap_block E un s P l r d c rest : a_line (sp_data s) l r d -> compound_delimiter d -> enclosed d r c (Some rest) ->
  exists k, sp_data s = l ++ c ++ k ++ rest /\
  block_parse_with E un s P = (b <- un never 0 (skip s l c) P ;; Ok (mkpr (Some (mkmi (BCompound (br_blocks b) (box_meaning d) (with_data s (l ++ c ++ d)) no_common) (skip s (l ++ c ++ k) rest))) (br_warnings b) (br_parser b))).
Proof.
  intros Hl Hd He. destruct (find_delimiter_spec d (length r) (skip s l r) ltac:(rewrite sp_data_skip; apply le_n)) as (c' & o' & He' & Ho). rewrite sp_data_skip in He'. destruct (enclosed_unique _ _ _ _ He _ _ He') as (<- & <-). destruct Ho as (k & Dk & _). rewrite sp_data_skip in Dk.
  pose proof (a_line_app _ _ _ _ Hl) as Ha. exists k. split; [rewrite Ha, Dk; reflexivity|].
  unfold block_parse_with. destruct (first_line_of _ _ _ _ Hl) as (fl & z & -> & Ez). cbn [bind]. destruct (compound_first _ Hd) as (c0 & y & Ed & Hc).
  assert (F : try_fast s (mi_item fl) = false). { unfold try_fast. rewrite Ed in Hl. destruct (a_line_head _ _ _ _ _ Hl) as (w & ->). replace (is_marker c0) with true; [reflexivity|]. cbn in Hc. destruct Hc as [<-|[<-|[<-|[<-|[]]]]]; reflexivity. }
  rewrite F. cbn [bind]. assert (F2 : try_entry (mi_item fl) = false). { unfold try_entry. rewrite Ez, Ed. cbn in Hc. destruct Hc as [<-|[<-|[<-|[<-|[]]]]]; reflexivity. }
  rewrite F2. cbn [bind]. rewrite (wrap_metadata E s P l r d Hl Hd). cbn [bind fst snd]. unfold with_metadata. cbn [md_attrlist md_plain]. unfold style_of at 1. cbn [bind]. cbn [style_is].
  change (mkmd None None None None None s s) with (md_plain s). rewrite (raw_parse_none E (md_plain s) P l r d Hl (compound_not_raw _ Hd)). cbn [bind].
  destruct (un never 0 (skip s l c) P) as [b| |] eqn:Eu; cbn [bind].
  - destruct (compound_parse_found (un never 0) (md_plain s) P l r d c rest b Hl Hd He (Suffix_refl s) Eu) as (k' & w & pre & D1 & _ & D2 & ->). cbn [bind fst snd app md_start md_source md_plain] in *.
    assert (k' = k) as ->. { rewrite Ha, Dk in D1. apply app_inv_head, app_inv_head, app_inv_tail in D1. auto. }
    assert (pre = []) as ->. { rewrite D1 in D2. apply (f_equal (@length N)) in D2. rewrite !app_length in D2. destruct pre; [reflexivity|cbn in D2; lia]. }
    cbn [app]. unfold finish. cbn [mi_item]. rewrite (box_kinds d Hd). cbn [block_id block_common cm_anchor bind]. change (common_of (md_plain s)) with no_common. cbn. rewrite app_nil_r. reflexivity.
  - assert (K : compound_parse (un never 0) (md_plain s) P = Panic); [|rewrite K; reflexivity]. unfold compound_parse. cbn [md_start md_plain]. rewrite (take_norm_eq _ _ _ _ Hl). cbn [bind mi_item mi_after sp_data with_data]. destruct (compound_delimiter_b d) as (v & Eb & Hb). assert (v = true) as -> by (apply Hb; exact Hd). rewrite (compound_context_delim d Hd), Eb. cbn [bind negb].
    destruct (find_delimiter_spec d (length (sp_data (skip s l r))) (skip s l r) (le_n _)) as (c2 & o2 & He2 & Ho). rewrite sp_data_skip in He2. destruct (enclosed_unique _ _ _ _ He _ _ He2) as (<- & <-). destruct Ho as (k2 & Dk2 & _ & _ & ->). rewrite sp_data_skip in Dk2. cbn [bind fst snd mi_item mi_after]. rewrite (trim_to (skip s l r) c (k2 ++ rest)) by (rewrite ?sp_data_skip, ?sp_off_skip; auto). cbn [bind]. rewrite with_data_skip, Eu. reflexivity.
  - assert (K : compound_parse (un never 0) (md_plain s) P = OutOfFuel); [|rewrite K; reflexivity]. unfold compound_parse. cbn [md_start md_plain]. rewrite (take_norm_eq _ _ _ _ Hl). cbn [bind mi_item mi_after sp_data with_data]. destruct (compound_delimiter_b d) as (v & Eb & Hb). assert (v = true) as -> by (apply Hb; exact Hd). rewrite (compound_context_delim d Hd), Eb. cbn [bind negb].
    destruct (find_delimiter_spec d (length (sp_data (skip s l r))) (skip s l r) (le_n _)) as (c2 & o2 & He2 & Ho). rewrite sp_data_skip in He2. destruct (enclosed_unique _ _ _ _ He _ _ He2) as (<- & <-). destruct Ho as (k2 & Dk2 & _ & _ & ->). rewrite sp_data_skip in Dk2. cbn [bind fst snd mi_item mi_after]. rewrite (trim_to (skip s l r) c (k2 ++ rest)) by (rewrite ?sp_data_skip, ?sp_off_skip; auto). cbn [bind]. rewrite with_data_skip, Eu. reflexivity.
Qed.
(** The place inside. *)
Lemma enclosed_nonempty d r c rest : enclosed d r c (Some rest) -> r <> [].
Proof. intros H. inversion H; assumption. Qed.
Lemma one_line x : ~ In LF x -> count_lf (x ++ [LF]) = 1.
Proof. induction x as [|c x IH]; intros H; [reflexivity|]. cbn [app count_lf]. destruct (N.eqb_spec c LF) as [->|_]; [exfalso; apply H; left; reflexivity|]. apply IH. intros K. apply H. right. exact K. Qed.
Lemma inside_place s l r d c : a_line (sp_data s) l r d -> r <> [] -> sp_line (skip s l c) = S (sp_line s) /\ sp_col (skip s l c) = 1 /\ sp_off (skip s l c) = sp_off s + blen l.
Proof.
  intros (x & e & _ & -> & Hx & He & _) Hr. destruct He as [->|(_ & K)]; [|contradiction]. rewrite sp_off_skip. split; [|split; [|reflexivity]].
  - unfold skip, slice_internal. destruct (Nat.eqb_spec (blen (x ++ [LF])) 0) as [K|_]; [rewrite blen_app in K; change (blen [LF]) with 1 in K; lia|]. cbn [sp_line]. rewrite (one_line x Hx). lia.
  - replace (sp_col (skip s (x ++ [LF]) c)) with (sp_col (skip s (x ++ [LF]) [LF])); [apply (after_lf s x [LF]); rewrite sp_data_skip; discriminate|]. unfold skip, slice_internal. destruct (_ =? 0); reflexivity.
Qed.
Lemma wrap_nonempty l d c t rest : wrapped l d c t rest -> t <> [].
Proof. intros (r & Hl & Hd & _) ->. destruct (compound_first _ Hd) as (c0 & y & -> & _). destruct (a_line_head _ _ _ _ _ Hl) as (w & K). discriminate K. Qed.
(** What is inside is read as it would be alone. *)
Lemma wrap_inside E D fuel s P l r d c rest : located D s -> a_line (sp_data s) l r d -> enclosed d r c (Some rest) ->
  parse_blocks_until E fuel never 0 (skip s l c) P = on_ok (mv_bres (sp_line s) (sp_off s + blen l)) (parse_blocks_until E fuel never 0 (span_new c) P).
Proof.
  intros L Hl He. destruct (inside_place s l r d c Hl (enclosed_nonempty _ _ _ _ He)) as (E1 & E2 & E3).
  assert (Li : located D (skip s l c)). { destruct (find_delimiter_spec d (length r) (span_new r) (le_n _)) as (c' & o' & He' & Ho). cbn [sp_data span_new] in *. destruct (enclosed_unique _ _ _ _ He _ _ He') as (<- & <-). destruct Ho as (k & Dk & _). apply (located_Sub _ _ _ L). apply Sub_intro with (post := k ++ rest). rewrite (a_line_app _ _ _ _ Hl), Dk. reflexivity. }
  rewrite (place_moved D _ Li E2) at 1. rewrite E1, E3, sp_data_skip, Nat.sub_succ, Nat.sub_0_r. apply mv_blocks, mv_never.
Qed.
Lemma wrap_goes_on E f n s l r d : no_title_here E f d -> a_line (sp_data s) l r d -> compound_delimiter d -> f s n = Ok (false, (n, [])).
Proof.
  intros [->|((lv & ->) & Hs)] Hl Hd; [reflexivity|]. unfold section_stop, peer_or_ancestor_section. rewrite (wrap_metadata E s _ l r d Hl Hd). cbn [bind fst]. unfold is_discrete. cbn [md_attrlist md_plain]. unfold style_of. cbn [bind].
  cbn [style_is orb md_start md_plain]. destruct (compound_first _ Hd) as (c0 & y & Ed & Hc). destruct (title_line_total s) as (o & w & Et).
  { intros l1 r1 c1 y1 H1 Hs1. destruct (a_line_unique _ _ _ _ _ _ _ Hl H1) as (_ & _ & E1). rewrite Ed in E1. injection E1 as <- _. destruct Hs1 as [->| ->]; cbn in Hc; intuition discriminate. }
  rewrite Et. cbn [bind fst snd]. destruct o as [mi|].
  - exfalso. destruct (title_line_some _ _ _ Et) as (l1 & r1 & n1 & ti & H1 & Hh & _). destruct (a_line_unique _ _ _ _ _ _ _ Hl H1) as (_ & _ & <-). exact (proj2 (heading_not _ _ _ Hh) Hd).
  - assert (map w_type w = []) as Ew.
    { rewrite (title_line_notes s l r d None w Hl ltac:(rewrite Ed; discriminate) Et). destruct (N.eq_dec c0 61) as [->|Nc].
      - destruct Hd as [->|(c' & _ & (j & Hj & Ej))]; [discriminate Ed|]. rewrite Ed in Ej. destruct j as [|j]; [lia|]. cbn [repeat] in Ej. injection Ej as <- Ej. destruct Hs as [Hs|Hs]; [|exfalso; exact (Hs y Ed)].
        unfold heading_notes, mark_count. rewrite Ed. cbn [N.eqb Pos.eqb orb]. cbv zeta. assert (Sm : forall q, same_marks 61 (repeat 61%N q) = q) by (induction q as [|q IHq]; [reflexivity|]; cbn [repeat same_marks N.eqb Pos.eqb]; rewrite IHq; reflexivity).
        rewrite Ej. change (61%N :: repeat 61%N j) with (repeat 61%N (S j)). rewrite Sm. rewrite Ed, Ej in Hs. cbn [length] in Hs. rewrite repeat_length in Hs. destruct (Nat.eqb_spec (S j) 1); [lia|]. destruct (Nat.ltb_spec 6 (S j)); [lia|reflexivity].
      - rewrite Ed. cbn in Hc. destruct Hc as [<-|[<-|[<-|[<-|[]]]]]; try reflexivity. contradiction. }
    destruct w; [reflexivity|discriminate Ew].
Qed.
Lemma no_title_moves k o E f d : no_title_here E f d -> mv_stop k o f.
Proof. intros [->|((l & ->) & _)]; [apply mv_never|apply mv_section_stop]. Qed.
(** The text that is left. *)
Lemma rest_moved E D fuel f n a rest : (forall k o, mv_stop k o f) -> located D a -> begins a -> sp_data a = rest -> exists k m, forall P,
  (forall r, blocks_loop E fuel f n a P = Ok r -> exists b, blocks_loop E fuel f n (span_new rest) P = Ok b /\ br_blocks r = map (mv_block k m) (br_blocks b) /\ br_warnings r = map (mv_w k m) (br_warnings b) /\ br_level r = br_level b /\ br_stop_warnings r = map (mv_w k m) (br_stop_warnings b) /\ br_parser r = br_parser b) /\
  (forall b, blocks_loop E fuel f n (span_new rest) P = Ok b -> exists r, blocks_loop E fuel f n a P = Ok r).
Proof.
  intros Hf La Ba Da. destruct rest as [|c1 t1].
  - exists 0, 0. intros P. assert (G : blocks_loop E fuel f n a P = Ok (mkbr [] a [] n [] P)) by (destruct fuel; cbn [blocks_loop]; rewrite Da; reflexivity). assert (G2 : blocks_loop E fuel f n (span_new []) P = Ok (mkbr [] (span_new []) [] n [] P)) by (destruct fuel; reflexivity). rewrite G, G2. split; [|eauto].
    intros r K. apply Ok_inj in K. subst r. eexists. split; [reflexivity|]. repeat split.
  - exists (sp_line a - 1), (sp_off a). intros P. assert (Ca : sp_col a = 1) by (apply Ba; rewrite Da; discriminate). assert (Em : blocks_loop E fuel f n a P = on_ok (mv_bres (sp_line a - 1) (sp_off a)) (blocks_loop E fuel f n (span_new (c1 :: t1)) P)) by (rewrite (place_moved D a La Ca) at 1; rewrite mv_loop by apply Hf; rewrite Da; reflexivity).
    rewrite Em. destruct (blocks_loop E fuel f n (span_new (c1 :: t1)) P) as [b| |]; cbn [on_ok]; (split; [|intros x K; try discriminate K; eauto]); intros r K; try discriminate K. apply Ok_inj in K. subst r. exists b. repeat split.
Qed.
Lemma wrap_loop E D fuel f n s P l d c rest : no_title_here E f d -> located D s -> sp_col s = 1 -> wrapped l d c (sp_data s) rest -> exists k2 o2,
  (forall b b2, parse_blocks_until E fuel never 0 (span_new c) P = Ok b -> blocks_loop E fuel f n (span_new rest) (br_parser b) = Ok b2 -> exists r, blocks_loop E (S fuel) f n s P = Ok r /\ wrap_then d (sp_line s) (sp_off s + blen l) k2 o2 b b2 r) /\
  (forall r, blocks_loop E (S fuel) f n s P = Ok r -> exists b b2, parse_blocks_until E fuel never 0 (span_new c) P = Ok b /\ blocks_loop E fuel f n (span_new rest) (br_parser b) = Ok b2 /\ wrap_then d (sp_line s) (sp_off s + blen l) k2 o2 b b2 r).
Proof.
  intros Hf L C W. pose proof (wrap_nonempty _ _ _ _ _ W) as Ne. destruct W as (r0 & Hl & Hd & He). set (un := fun stop level source P => src <- discard_empty_lines source ;; blocks_loop E fuel stop level src P).
  destruct (wrap_block E un s P l r0 d c rest Hl Hd He) as (k & Dk & Eb). change (un never 0 (skip s l c) P) with (parse_blocks_until E fuel never 0 (skip s l c) P) in Eb. rewrite (wrap_inside E D fuel s P l r0 d c rest L Hl He) in Eb.
  set (a := skip s (l ++ c ++ k) rest) in *. assert (Da : sp_data a = rest) by apply sp_data_skip.
  assert (Sa : Suffix s a) by (apply Suffix_intro; rewrite Dk, <- !app_assoc; reflexivity).
  assert (La : located D a) by exact (located_Suffix _ _ _ L Sa).
  assert (Ba : begins a).
  { destruct (find_delimiter_spec d (length r0) (skip s l r0) ltac:(rewrite sp_data_skip; apply le_n)) as (c' & o' & He' & Ho). rewrite sp_data_skip in He'. destruct (enclosed_unique _ _ _ _ He _ _ He') as (<- & <-). destruct Ho as (k' & Dk' & Hk & _). rewrite sp_data_skip in Dk'. assert (k' = k) as ->. { rewrite (a_line_app _ _ _ _ Hl), Dk' in Dk. apply app_inv_head, app_inv_head, app_inv_tail in Dk. auto. }
    unfold a. replace (skip s (l ++ c ++ k) rest) with (skip (skip s (l ++ c) (k ++ rest)) k rest) by (rewrite skip_skip, <- app_assoc; reflexivity). apply (line_begins_after _ k rest d). rewrite sp_data_skip. exact Hk. }
  destruct (rest_moved E D fuel f n a rest (fun k o => no_title_moves k o E f d Hf) La Ba Da) as (k2 & o2 & Em). exists k2, o2.
  assert (Ea : blocks_loop E (S fuel) f n s P = (b <- parse_blocks_until E fuel never 0 (span_new c) P ;; r <- blocks_loop E fuel f n a (br_parser b) ;;
    Ok (mkbr (BCompound (map (mv_block (sp_line s) (sp_off s + blen l)) (br_blocks b)) (box_meaning d) (with_data s (l ++ c ++ d)) no_common :: br_blocks r) (br_after r) (map (mv_w (sp_line s) (sp_off s + blen l)) (br_warnings b) ++ br_warnings r) (br_level r) (br_stop_warnings r) (br_parser r)))).
  { cbn [blocks_loop]. destruct (sp_data s) as [|c0 t0] eqn:Ds; [contradiction|]. rewrite <- Ds in Hl. rewrite (wrap_goes_on E f n s l r0 d Hf Hl Hd). cbn [bind fst snd]. change (fun stop level source P => src <- discard_empty_lines source ;; blocks_loop E fuel stop level src P) with un. rewrite Eb. destruct (parse_blocks_until E fuel never 0 (span_new c) P) as [b| |]; cbn [on_ok bind]; try reflexivity. }
  rewrite Ea. split.
  - intros b b2 Hb Hb2. rewrite Hb. cbn [bind]. destruct (Em (br_parser b)) as (M1 & M2). destruct (M2 b2 Hb2) as (r & Hr). rewrite Hr. cbn [bind]. eexists. split; [reflexivity|]. destruct (M1 r Hr) as (b3 & H3 & B1 & B2 & B3 & B4 & B5). rewrite Hb2 in H3. apply Ok_inj in H3. subst b3.
    unfold wrap_then. cbn [br_blocks br_warnings br_level br_stop_warnings br_parser]. rewrite B1, B2. split; [eexists; split; [eexists; reflexivity|reflexivity]|auto].
  - intros r K. apply bind_ok in K. destruct K as (b & Hb & K). apply bind_ok in K. destruct K as (r1 & Hr & K). apply Ok_inj in K. subst r. destruct (Em (br_parser b)) as (M1 & _). destruct (M1 r1 Hr) as (b2 & H2 & B1 & B2 & B3 & B4 & B5). exists b, b2. split; [exact Hb|]. split; [exact H2|].
    unfold wrap_then. cbn [br_blocks br_warnings br_level br_stop_warnings br_parser]. rewrite B1, B2. split; [eexists; split; [eexists; reflexivity|reflexivity]|auto].
Qed.
