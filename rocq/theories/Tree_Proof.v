(** Blocks lie in order and parsing makes progress. *)
From Verif Require Import Text TextFacts Maps Span_Model Span_Pure Span_Proof Span_Laws Span_Spec Catalog_Model Catalog_Proof Parser_Model Subs_Model Attrlist_Model
  Attrlist_Laws Attrlist_Prop Entry_Spec Entry_Model Entry_Proof Group_Model SecId_Model Header_Model Header_Spec Header_Proof Block_Model Block_Spec Block_Proof SourceMap_Model Doc_Model Tree_Spec.

(** * Suffixes *)
Lemma suffix_cut s a : Suffix s a -> exists pre, sp_data s = pre ++ sp_data a /\ sp_off a = sp_off s + blen pre /\ trim_remainder s a = Ok (with_data s pre).
Proof.
  intros (pre & D & E). exists pre. assert (Ho : sp_off a = sp_off s + blen pre) by (rewrite E, sp_off_skip; reflexivity). split; [exact D|]. split; [exact Ho|]. exact (trim_to s pre (sp_data a) a D Ho).
Qed.
Lemma suffix_len s a : Suffix s a -> length (sp_data a) <= length (sp_data s).
Proof. intros (pre & D & _). rewrite D, app_length. lia. Qed.
Lemma suffix_line s l r n : a_line (sp_data s) l r n -> Suffix s (skip s l r).
Proof. intros H. apply Suffix_intro. exact (a_line_app _ _ _ _ H). Qed.
Lemma strict_line s l r n : a_line (sp_data s) l r n -> n <> [] -> length r < length (sp_data s).
Proof.
  intros H Hn. apply (a_line_shorter _ _ _ _ H). intros D. rewrite D in H. apply a_line_nil in H. contradiction.
Qed.
Lemma located_Suffix d s a : located d s -> Suffix s a -> located d a.
Proof. intros H S. exact (located_Sub _ _ _ H (Suffix_Sub _ _ S)). Qed.
Lemma located_prefix d s x w : located d s -> sp_data s = x ++ w -> located d (with_data s x).
Proof. intros H D. apply (located_Sub _ _ _ H). exists [], w. cbn [app sp_data with_data]. rewrite skip_nil. auto. Qed.
Lemma without_eol_blank c x : without_eol c x -> exists w, c = x ++ w /\ blank w.
Proof.
  intros [(a & -> & Ha)|[-> _]]; [|exists []; rewrite app_nil_r; split; [reflexivity|constructor]].
  destruct Ha as [->|[-> _]]; [exists [CR; LF]; rewrite <- app_assoc; split; [reflexivity|repeat constructor]|exists [LF]; split; [reflexivity|repeat constructor]].
Qed.

(** * Trees *)
Lemma tree_le d a bs z : tree d a bs z -> a <= z.
Proof.
  induction 1 as [a z H|a b bs e m z _ Hab (p & w & q & _ & _ & E1 & E2) _ _ Hm _ IH]; [exact H|]. unfold stop, start in *. lia.
Qed.
Lemma tree_weaken d a bs z a' z' : tree d a bs z -> a' <= a -> z <= z' -> tree d a' bs z'.
Proof.
  intros H. revert a' z'. induction H as [a z H|a b bs e m z L Hab W N _ Hm _ IH]; intros a' z' H1 H2; [constructor; lia|].
  eapply tr_cons; [exact L|lia|exact W|exact N|exact Hm|]. apply IH; [lia|exact H2].
Qed.
Lemma tree_join d a b m bs z : tree d a [b] m -> tree d m bs z -> tree d a (b :: bs) z.
Proof.
  intros H H'. inversion H as [|? ? ? e m' ? L Hab W N Hm T]; subst. eapply tr_cons; [exact L|exact Hab|exact W|exact N| |exact H']. apply tree_le in T. lia.
Qed.
Lemma white_none d s : located d s -> white d (sp_off s + blen (sp_data s)) (sp_off s + blen (sp_data s)).
Proof.
  intros (a & b & D & _ & _ & Ho). exists (a ++ sp_data s), [], b. rewrite <- app_assoc. split; [exact D|]. split; [constructor|]. unfold spec_offset in Ho. rewrite blen_utf8 in Ho. rewrite blen_app, Ho. change (blen []) with 0. split; lia.
Qed.
Lemma white_end d s x w : located d s -> sp_data s = x ++ w -> blank w -> white d (sp_off s + blen x) (sp_off s + blen (sp_data s)).
Proof.
  intros (a & b & D & _ & _ & Ho) E Hw. unfold spec_offset in Ho. rewrite blen_utf8 in Ho. exists (a ++ x), w, b. rewrite D, E, <- !app_assoc. split; [reflexivity|]. split; [exact Hw|]. rewrite !blen_app, Ho. lia.
Qed.
(** One block, from the span [s] up to [after]; its span is [src] cut at [after] without some white space. *)
Lemma one_block d s src after pre x w b : located d s -> Suffix s src -> sp_data src = pre ++ sp_data after -> sp_off after = sp_off src + blen pre ->
  pre = x ++ w -> blank w -> block_span b = with_data src x -> tree d (sp_off src) (nested_blocks b) (sp_off after) -> tree d (sp_off s) [b] (sp_off after).
Proof.
  intros L HS D Ho Ex Hw Hb N. pose proof (located_Suffix _ _ _ L HS) as Ls.
  assert (Lp : located d (with_data src pre)) by (eapply located_prefix; [exact Ls|exact D]).
  eapply tr_cons with (e := sp_off after) (m := sp_off after); [| | | |lia|constructor; lia].
  - rewrite Hb. apply located_prefix with (w := w ++ sp_data after); [exact Ls|]. rewrite D, Ex, <- app_assoc. reflexivity.
  - unfold start. rewrite Hb. cbn [sp_off with_data]. destruct (suffix_cut _ _ HS) as (q & _ & E & _). lia.
  - unfold stop. rewrite Hb. cbn [sp_off sp_data with_data]. rewrite Ho. exact (white_end d (with_data src pre) x w Lp Ex Hw).
  - unfold start. rewrite Hb. cbn [sp_off with_data]. exact N.
Qed.
Definition after_ok (d : text) (s : span) (mi : mitem block) : Prop :=
  Suffix s (mi_after mi) /\ length (sp_data (mi_after mi)) < length (sp_data s) /\ tree d (sp_off s) [mi_item mi] (sp_off (mi_after mi)).
Lemma tree_nil_nested d s a : Suffix s a -> tree d (sp_off s) [] (sp_off a).
Proof. intros H. constructor. destruct (suffix_cut _ _ H) as (q & _ & E & _). lia. Qed.

(** * Metadata *)
Lemma take_norm_inv s mi : take_normalized_line s = Ok mi -> exists l r n, a_line (sp_data s) l r n /\ mi = mkmi (with_data s n) (skip s l r).
Proof. intros H. destruct (take_norm s) as (l & r & n & Hl & E). rewrite E in H. apply Ok_inj in H. eauto. Qed.
Lemma take_norm_Suffix s mi : take_normalized_line s = Ok mi -> Suffix s (mi_after mi).
Proof. intros H. apply take_norm_inv in H. destruct H as (l & r & n & Hl & ->). exact (suffix_line _ _ _ _ Hl). Qed.
Lemma title_step_Suffix m m' : md_title_step m = Ok (Some m') -> Suffix (ms_start m) (ms_start m').
Proof.
  unfold md_title_step. destruct (ms_title m); [discriminate|]. intros H. apply bind_ok in H. destruct H as (mt & Et & H). destruct (_ && _); [|discriminate H].
  apply bind_ok in H. destruct H as (t & _ & H). apply bind_ok in H. destruct H as (ws & _ & H). destruct (is_nil _); [|discriminate H]. apply Ok_inj in H. injection H as <-. cbn [ms_start]. exact (take_norm_Suffix _ _ Et).
Qed.
Lemma block_anchor_Suffix s mi ws : parse_maybe_block_anchor s = Ok (Some mi, ws) -> Suffix s (mi_after mi).
Proof.
  unfold parse_maybe_block_anchor. destruct (starts_with _ _); [|discriminate]. intros H. apply bind_ok in H. destruct H as (mt & Et & H). destruct (ends_with _ _); [|discriminate H].
  apply bind_ok in H. destruct H as (e & _ & H). apply bind_ok in H. destruct H as (a & _ & H). destruct (is_nil _); [discriminate H|]. apply Ok_inj in H. injection H as <- _. exact (take_norm_Suffix _ _ Et).
Qed.
Lemma anchor_step_Suffix U m r : md_anchor_step U m = Ok r -> Suffix (ms_start m) (ms_start (fst r)).
Proof.
  unfold md_anchor_step. destruct (ms_anchor m); [intros H; apply Ok_inj in H; subst r; apply Suffix_refl|]. intros H. apply bind_ok in H. destruct H as ([o w] & Ea & H). cbn [fst snd] in H.
  destruct o as [mi|]; [|apply Ok_inj in H; subst r; apply Suffix_refl]. pose proof (block_anchor_Suffix _ _ _ Ea) as S. apply bind_ok in H. destruct H as (m' & Em & H). apply Ok_inj in H. subst r. cbn [fst].
  destruct (position _ _).
  - apply bind_ok in Em. destruct Em as (last & _ & Em). destruct (_ <? _).
    + apply bind_ok in Em. destruct Em as (a1 & _ & Em). apply bind_ok in Em. destruct Em as (a2 & _ & Em). apply Ok_inj in Em. subst m'. destruct (is_xml_name _ _); cbn [ms_start]; [exact S|apply Suffix_refl].
    + apply Ok_inj in Em. subst m'. destruct (is_xml_name _ _); cbn [ms_start]; [exact S|apply Suffix_refl].
  - apply Ok_inj in Em. subst m'. destruct (is_xml_name _ _); cbn [ms_start]; [exact S|apply Suffix_refl].
Qed.
Lemma attrlist_step_Suffix E P m r : md_attrlist_step E P m = Ok r -> Suffix (ms_start m) (ms_start (fst r)).
Proof.
  unfold md_attrlist_step. destruct (ms_attrlist m); [intros H; apply Ok_inj in H; subst r; apply Suffix_refl|]. intros H. apply bind_ok in H. destruct H as (o & Ea & H). apply Ok_inj in H. subst r.
  destruct o as [aw|]; [|apply Suffix_refl]. cbn [fst ms_start]. unfold parse_maybe_attrlist_line in Ea. destruct (starts_with _ _); [|discriminate Ea]. apply bind_ok in Ea. destruct Ea as (mt & Et & Ea).
  destruct (ends_with _ _); [|discriminate Ea]. apply bind_ok in Ea. destruct Ea as (e & _ & Ea). apply bind_ok in Ea. destruct Ea as (a & _ & Ea). destruct (_ || _); [discriminate Ea|].
  apply bind_ok in Ea. destruct Ea as (q & _ & Ea). apply Ok_inj in Ea. injection Ea as <-. cbn [fst mi_after]. exact (take_norm_Suffix _ _ Et).
Qed.
Lemma md_loop_Suffix E P : forall fuel m m', md_loop E P fuel m = Ok m' -> Suffix (ms_start m) (ms_start m').
Proof.
  induction fuel as [|fuel IH]; intros m m' H; cbn [md_loop] in H; [discriminate H|]. apply bind_ok in H. destruct H as (o & Eo & H). destruct o as [m1|].
  - eapply Suffix_trans; [exact (title_step_Suffix _ _ Eo)|exact (IH _ _ H)].
  - apply bind_ok in H. destruct H as (a & Ea & H). pose proof (anchor_step_Suffix _ _ _ Ea) as S1. destruct (snd a); [eapply Suffix_trans; [exact S1|exact (IH _ _ H)]|].
    apply bind_ok in H. destruct H as (l & El & H). pose proof (attrlist_step_Suffix _ _ _ _ El) as S2. destruct (snd l); [eapply Suffix_trans; [exact S1|eapply Suffix_trans; [exact S2|exact (IH _ _ H)]]|].
    apply Ok_inj in H. subst m'. exact (Suffix_trans _ _ _ S1 S2).
Qed.
Lemma metadata_Suffix E s P m ws : metadata_parse E s P = Ok (m, ws) -> md_source m = p_discard_empty_lines s /\ Suffix (md_source m) (md_start m).
Proof.
  unfold metadata_parse. rewrite discard_empty_lines_ok. cbn [bind]. intros H. apply bind_ok in H. destruct H as (x & Ex & H). apply bind_ok in H. destruct H as (t & _ & H). apply Ok_inj in H. injection H as <- _.
  cbn [md_source md_start]. split; [reflexivity|]. exact (md_loop_Suffix _ _ _ _ _ Ex).
Qed.

(** * Paragraphs *)
Lemma parse_lines_inv E s a P mi : parse_lines E s a P = Ok (Some mi) -> exists pre rest, sp_data s = pre ++ rest /\ trim_end pre <> [] /\
  ct_original (fst (mi_item mi)) = with_data s (trim_end pre) /\ mi_after mi = p_discard_empty_lines (skip s pre rest).
Proof.
  unfold parse_lines. intros H. apply bind_ok in H. destruct H as (saw & _ & H). apply bind_ok in H. destruct H as (k & _ & H). apply bind_ok in H. destruct H as (bs & _ & H).
  destruct (simple_lines_spec k (length (sp_data s)) s [] (le_n _)) as (ls & pre & rest & _ & D & Es). rewrite Es in H. cbn [bind fst snd] in H.
  rewrite (trim_to s pre rest) in H by (rewrite ?sp_off_skip; auto). cbn [bind] in H. rewrite trim_trailing_whitespace_ok in H. cbn [bind] in H. unfold p_trim_trailing_whitespace in H.
  cbn [sp_data with_data] in H. rewrite with_data_with_data in H. destruct (trim_end pre) as [|x y] eqn:Et; [discriminate H|]. cbn [is_nil] in H.
  apply bind_ok in H. destruct H as (g & _ & H). apply bind_ok in H. destruct H as (t & _ & H). rewrite discard_empty_lines_ok in H. cbn [bind] in H. apply Ok_inj in H. injection H as <-.
  exists pre, rest. split; [exact D|]. split; [rewrite Et; discriminate|]. split; [rewrite Et; reflexivity|reflexivity].
Qed.
Lemma trim_end_nonempty t : trim_end t <> [] -> t <> [].
Proof. intros H ->. apply H. reflexivity. Qed.
Lemma app_shorter {A} (p r : list A) : p <> [] -> length r < length (p ++ r).
Proof. intros H. rewrite app_length. destruct p; [contradiction|]. cbn. lia. Qed.
Lemma fast_ok d E s P mi : located d s -> simple_parse_fast E s P = Ok (Some mi) -> after_ok d s mi.
Proof.
  intros L H. unfold simple_parse_fast in H. apply bind_ok in H. destruct H as (o & Ho & H). destruct o as [x|]; [|discriminate H]. rewrite discard_empty_lines_ok in H. cbn [bind] in H. apply Ok_inj in H. injection H as <-.
  destruct (parse_lines_inv _ _ _ _ _ Ho) as (pre & rest & D & Hne & Eo & Ea). unfold after_ok. cbn [mi_item mi_after]. rewrite Ea.
  assert (S0 : Suffix s (skip s pre rest)) by (apply Suffix_intro; exact D).
  assert (S1 : Suffix (skip s pre rest) (p_discard_empty_lines (p_discard_empty_lines (skip s pre rest)))) by (eapply Suffix_trans; apply discard_empty_Suffix).
  split; [exact (Suffix_trans _ _ _ S0 S1)|]. split.
  - apply suffix_len in S1. rewrite sp_data_skip in S1. pose proof (app_shorter pre rest (trim_end_nonempty _ Hne)). rewrite D. lia.
  - destruct (trim_end_spec pre) as (z & Ez & Bz & _). eapply tree_weaken; [|apply le_n|destruct (suffix_cut _ _ S1) as (q & _ & Eq & _); rewrite Eq; apply Nat.le_add_r].
    apply one_block with (src := s) (pre := pre) (x := trim_end pre) (w := z); [exact L|apply Suffix_refl|rewrite sp_data_skip; exact D|apply sp_off_skip|exact Ez|exact Bz|exact Eo|].
    apply tree_nil_nested. exact S0.
Qed.
(** A block that begins with metadata: the source of the metadata up to [after], without white space at the end. *)
Lemma md_block d s m after x w pre b : located d s -> Suffix s (md_source m) -> Suffix (md_source m) after -> length (sp_data after) < length (sp_data s) ->
  trim_remainder (md_source m) after = Ok (with_data (md_source m) pre) -> pre = x ++ w -> blank w -> block_span b = with_data (md_source m) x -> nested_blocks b = [] -> after_ok d s (mkmi b after).
Proof.
  intros L S1 S2 Hl Ht Ex Bw Hb Hn. split; [exact (Suffix_trans _ _ _ S1 S2)|]. split; [exact Hl|]. cbn [mi_item mi_after]. destruct (suffix_cut _ _ S2) as (q & D & Eo & Et). rewrite Et in Ht. apply Ok_inj in Ht.
  assert (q = pre) as -> by (apply (f_equal sp_data) in Ht; exact Ht).
  apply one_block with (src := md_source m) (pre := pre) (x := x) (w := w); auto. rewrite Hn. apply tree_nil_nested. exact S2.
Qed.
Lemma simple_ok d E s m P mi : located d s -> Suffix s (md_source m) -> Suffix (md_source m) (md_start m) -> simple_parse E m P = Ok (Some mi) -> after_ok d s mi.
Proof.
  intros L S1 S2 H. unfold simple_parse in H. apply bind_ok in H. destruct H as (o & Ho & H). destruct o as [x|]; [|discriminate H].
  destruct (parse_lines_inv _ _ _ _ _ Ho) as (pre & rest & D & Hne & _ & Ea). rewrite Ea in H.
  assert (S3 : Suffix (md_start m) (skip (md_start m) pre rest)) by (apply Suffix_intro; exact D).
  assert (S4 : Suffix (md_source m) (p_discard_empty_lines (skip (md_start m) pre rest))) by (eapply Suffix_trans; [exact S2|eapply Suffix_trans; [exact S3|apply discard_empty_Suffix]]).
  destruct (suffix_cut _ _ S4) as (q & Dq & Eq & Et). rewrite Et in H. cbn [bind] in H. rewrite trim_trailing_whitespace_ok in H. cbn [bind] in H. rewrite discard_empty_lines_ok in H. cbn [bind] in H.
  apply Ok_inj in H. injection H as <-. unfold p_trim_trailing_whitespace. cbn [sp_data with_data]. rewrite with_data_with_data.
  set (b := BSimple _ _ _ _). destruct (trim_end_spec q) as (z & Ez & Bz & _).
  assert (A : after_ok d s (mkmi b (p_discard_empty_lines (skip (md_start m) pre rest)))).
  { apply md_block with (m := m) (x := trim_end q) (w := z) (pre := q); auto. pose proof (suffix_len _ _ S1). pose proof (suffix_len _ _ S2). pose proof (suffix_len _ _ (discard_empty_Suffix (skip (md_start m) pre rest))) as H2.
    rewrite sp_data_skip in H2. pose proof (app_shorter pre rest (trim_end_nonempty _ Hne)) as H3. rewrite <- D in H3. lia. }
  destruct A as (A1 & A2 & A3). cbn [mi_item mi_after] in *. pose proof (discard_empty_Suffix (p_discard_empty_lines (skip (md_start m) pre rest))) as S5. split; [exact (Suffix_trans _ _ _ A1 S5)|]. split.
  - apply suffix_len in S5. cbn [mi_after]. lia.
  - eapply tree_weaken; [exact A3|apply le_n|]. cbn [mi_after]. destruct (suffix_cut _ _ S5) as (q2 & _ & Eq2 & _). rewrite Eq2. apply Nat.le_add_r.
Qed.

(** * Raw delimited blocks *)
Lemma raw_inv E m P mi w : raw_parse E m P = Ok (Some (mi, w)) -> exists l r d after, a_line (sp_data (md_start m)) l r d /\ raw_delimiter d /\ Suffix (skip (md_start m) l r) after /\
  mi_after mi = after /\ exists src0 src, trim_remainder (md_source m) after = Ok src0 /\ trim_trailing_line_end src0 = Ok src /\ block_span (mi_item mi) = src /\ nested_blocks (mi_item mi) = [].
Proof.
  intros H. destruct (a_line_total (sp_data (md_start m))) as (l & r & d & Hl). destruct (raw_delimiter_b d) as (b & Eb & Hb).
  destruct b. 2:{ rewrite (raw_parse_none E m P l r d Hl) in H; [discriminate H|]. intros K. apply Hb in K. discriminate K. }
  assert (Hd : raw_delimiter d) by (apply Hb; reflexivity). unfold raw_parse in H. rewrite (take_norm_eq _ _ _ _ Hl) in H. cbn [bind mi_item mi_after sp_data with_data] in H.
  destruct (blen d <? 4); [discriminate H|]. rewrite (raw_kind_delim d Hd) in H. destruct (kind_of d) as [model [context g0]]. rewrite Eb in H. cbn [bind negb] in H.
  destruct (find_delimiter_spec d (length (sp_data (skip (md_start m) l r))) (skip (md_start m) l r) (le_n _)) as (c & o & He & Ho).
  destruct o as [r'|].
  - destruct Ho as (k & Dk & Hk & _ & Ef). rewrite sp_data_skip in Dk. rewrite Ef in H. cbn [bind fst snd mi_item mi_after] in H. apply bind_ok in H. destruct H as (c1 & _ & H). apply bind_ok in H. destruct H as (c2 & _ & H).
    apply bind_ok in H. destruct H as (g & _ & H). apply bind_ok in H. destruct H as (t & _ & H). apply bind_ok in H. destruct H as (s1 & E1 & H). apply bind_ok in H. destruct H as (s2 & E2 & H).
    apply Ok_inj in H. injection H as <- <-. exists l, r, d. eexists. split; [exact Hl|]. split; [exact Hd|]. split; [|split; [reflexivity|exists s1, s2; auto]]. apply Suffix_intro. rewrite sp_data_skip, <- app_assoc. exact Dk.
  - destruct Ho as (Ec & Ef). rewrite Ef in H. cbn [bind fst snd mi_item mi_after] in H. apply bind_ok in H. destruct H as (c1 & _ & H). apply bind_ok in H. destruct H as (c2 & _ & H).
    apply bind_ok in H. destruct H as (s1 & E1 & H). apply bind_ok in H. destruct H as (s2 & E2 & H).
    apply Ok_inj in H. injection H as <- <-. exists l, r, d. eexists. split; [exact Hl|]. split; [exact Hd|]. split; [|split; [reflexivity|exists s1, s2; auto]]. apply Suffix_intro. rewrite sp_data_skip, app_nil_r. symmetry. rewrite sp_data_skip in Ec. exact Ec.
Qed.
Lemma raw_delim_nonempty d : raw_delimiter d -> d <> [].
Proof. intros (c & _ & (n & Hn & ->)). destruct n; [lia|discriminate]. Qed.
Lemma compound_delim_nonempty d : compound_delimiter d -> d <> [].
Proof. intros [->|(c & _ & (n & Hn & ->))]; [discriminate|]. destruct n; [lia|discriminate]. Qed.
Lemma raw_ok d E s m P mi w : located d s -> Suffix s (md_source m) -> Suffix (md_source m) (md_start m) -> raw_parse E m P = Ok (Some (mi, w)) -> after_ok d s mi.
Proof.
  intros L S1 S2 H. destruct (raw_inv _ _ _ _ _ H) as (l & r & dl & after & Hl & Hd & S3 & Ea & src0 & src & E1 & E2 & E3 & E4).
  pose proof (suffix_line _ _ _ _ Hl) as S4. assert (S5 : Suffix (md_source m) after) by (eapply Suffix_trans; [exact S2|eapply Suffix_trans; eassumption]).
  destruct (suffix_cut _ _ S5) as (q & _ & _ & Et). rewrite Et in E1. apply Ok_inj in E1. subst src0. destruct (trim_line_end (with_data (md_source m) q)) as (y & Hy & Ey). rewrite Ey in E2. apply Ok_inj in E2. cbn [sp_data with_data] in Hy.
  destruct (without_eol_blank _ _ Hy) as (z & Ez & Bz). destruct mi as [b a]. cbn [mi_item mi_after] in *. subst a.
  apply md_block with (m := m) (x := y) (w := z) (pre := q); auto.
  - pose proof (strict_line _ _ _ _ Hl (raw_delim_nonempty _ Hd)). apply suffix_len in S3. rewrite sp_data_skip in S3. pose proof (suffix_len _ _ S1). pose proof (suffix_len _ _ S2). lia.
  - rewrite E3, <- E2, with_data_with_data. reflexivity.
Qed.

(** * Blocks that hold blocks *)
Definition good_until (d : text) (un : stop_fn -> nat -> span -> parser -> res bres) : Prop :=
  forall f n s P b, located d s -> un f n s P = Ok b -> Suffix s (br_after b) /\ tree d (sp_off s) (br_blocks b) (sp_off (br_after b)).
Lemma compound_ok d un s m P mi w : good_until d un -> located d s -> Suffix s (md_source m) -> Suffix (md_source m) (md_start m) ->
  compound_parse (un never 0) m P = Ok (Some (mi, w)) -> after_ok d s mi.
Proof.
  intros G L S1 S2 H. destruct (a_line_total (sp_data (md_start m))) as (l & r & dl & Hl). destruct (compound_delimiter_b dl) as (v & Eb & Hb).
  destruct v. 2:{ rewrite (compound_parse_none _ m P l r dl Hl) in H; [discriminate H|]. intros K. apply Hb in K. discriminate K. }
  assert (Hd : compound_delimiter dl) by (apply Hb; reflexivity). pose proof H as H0. unfold compound_parse in H. rewrite (take_norm_eq _ _ _ _ Hl) in H. cbn [bind mi_item mi_after sp_data with_data] in H.
  rewrite (compound_context_delim dl Hd), Eb in H. cbn [bind negb] in H.
  destruct (find_delimiter_spec dl (length (sp_data (skip (md_start m) l r))) (skip (md_start m) l r) (le_n _)) as (c & o & He & Ho). rewrite sp_data_skip in He.
  pose proof (a_line_app _ _ _ _ Hl) as Ha. pose proof (located_Suffix _ _ _ L S1) as L1. pose proof (located_Suffix _ _ _ L1 S2) as L2.
  pose proof (strict_line _ _ _ _ Hl (compound_delim_nonempty _ Hd)) as Hlt. pose proof (suffix_len _ _ S1) as Hl1. pose proof (suffix_len _ _ S2) as Hl2.
  destruct o as [r'|].
  - destruct Ho as (k & Dk & Hk & _ & Ef). rewrite Ef in H. cbn [bind fst snd mi_item mi_after] in H. rewrite sp_data_skip in Dk.
    rewrite (trim_to (skip (md_start m) l r) c (k ++ r')) in H by (rewrite ?sp_data_skip, ?sp_off_skip; auto). cbn [bind] in H. rewrite with_data_skip in H.
    apply bind_ok in H. destruct H as (b & Hu & _). destruct (compound_parse_found _ m P l r dl c r' b Hl Hd He S2 Hu) as (k' & w' & pre & D1 & Ek & D2 & E). rewrite H0 in E. apply Ok_inj in E. injection E as -> _.
    assert (Li : located d (skip (md_start m) l c)) by (apply (located_Sub _ _ _ L2); apply Sub_intro with (post := k' ++ r'); exact D1).
    destruct (G _ _ _ _ _ Li Hu) as (Sb & Tb). destruct (suffix_cut _ _ Sb) as (qb & Db & Eob & _). rewrite sp_data_skip in Db. rewrite sp_off_skip in Eob.
    assert (Sa : Suffix (md_start m) (skip (md_start m) (l ++ c ++ k') r')) by (apply Suffix_intro; rewrite D1, <- !app_assoc; reflexivity).
    split; [exact (Suffix_trans _ _ _ S1 (Suffix_trans _ _ _ S2 Sa))|]. cbn [mi_item mi_after]. rewrite sp_data_skip. split.
    { rewrite Ha in D1. apply app_inv_head in D1. rewrite D1, !app_length in Hlt. lia. }
    destruct (suffix_cut _ _ S1) as (q1 & _ & E1 & _). destruct (suffix_cut _ _ S2) as (q2 & Dq2 & E2 & _). 
    assert (q2 = pre) as -> by (rewrite D2, D1 in Dq2; apply app_inv_tail in Dq2; congruence).
    assert (Hblen : blen c = blen qb + blen (sp_data (br_after b))) by (rewrite Db, blen_app; reflexivity).
    eapply tr_cons with (m := sp_off (skip (md_start m) (l ++ c ++ k') r')); [| |apply white_none| | |constructor; lia]; unfold start, stop; cbn [block_span sp_off sp_data with_data].
    + apply located_prefix with (w := w' ++ r'); [exact L1|]. rewrite D2, Ek, <- !app_assoc. reflexivity.
    + lia.
    + apply located_prefix with (w := w' ++ r'); [exact L1|]. rewrite D2, Ek, <- !app_assoc. reflexivity.
    + cbn [nested_blocks]. eapply tree_weaken; [exact Tb|rewrite sp_off_skip, E2; lia|]. rewrite Eob, E2, !blen_app. lia.
    + rewrite sp_off_skip, E2, Ek, !blen_app. lia.
  - destruct Ho as (Ec & Ef). rewrite Ef in H. cbn [bind fst snd mi_item mi_after] in H. rewrite sp_data_skip in Ec. subst c.
    rewrite (trim_to (skip (md_start m) l r) r []) in H by (rewrite ?sp_data_skip, ?sp_off_skip, ?app_nil_r; auto). cbn [bind] in H. rewrite with_data_skip in H.
    apply bind_ok in H. destruct H as (b & Hu & _). destruct (compound_parse_open _ m P l r dl r b Hl Hd He S2 Hu) as (_ & E). rewrite H0 in E. apply Ok_inj in E. injection E as -> _.
    assert (Li : located d (skip (md_start m) l r)) by (apply (located_Suffix _ _ _ L2); exact (suffix_line _ _ _ _ Hl)).
    destruct (G _ _ _ _ _ Li Hu) as (Sb & Tb). destruct (suffix_cut _ _ Sb) as (qb & Db & Eob & _). rewrite sp_data_skip in Db. rewrite sp_off_skip in Eob.
    assert (Sa : Suffix (md_start m) (skip (md_start m) (l ++ r) [])) by (apply Suffix_intro; rewrite app_nil_r; exact Ha).
    split; [exact (Suffix_trans _ _ _ S1 (Suffix_trans _ _ _ S2 Sa))|]. cbn [mi_item mi_after]. rewrite sp_data_skip. split; [cbn [length]; lia|].
    destruct (suffix_cut _ _ S2) as (q2 & Dq2 & E2 & _). destruct (trim_end_spec (sp_data (md_source m))) as (z & Ez & Bz & _).
    apply one_block with (src := md_source m) (pre := sp_data (md_source m)) (x := trim_end (sp_data (md_source m))) (w := z); auto.
    + rewrite sp_data_skip, app_nil_r. reflexivity.
    + rewrite sp_off_skip, E2, Dq2, Ha, !blen_app. lia.
    + cbn [nested_blocks]. eapply tree_weaken; [exact Tb|rewrite sp_off_skip, E2; lia|]. rewrite sp_off_skip, Eob, blen_app. rewrite Db, blen_app. lia.
Qed.

(** * Media blocks and breaks *)
Lemma title_step_head m m' : md_title_step m = Ok (Some m') -> exists y, sp_data (ms_start m) = 46%N :: y.
Proof.
  unfold md_title_step. destruct (ms_title m); [discriminate|]. intros H. apply bind_ok in H. destruct H as (mt & Et & H). destruct (starts_with (lit ".") _) eqn:Es; [|discriminate H].
  apply take_norm_inv in Et. destruct Et as (l & r & n & Hl & ->). cbn [mi_item sp_data with_data] in Es. apply starts_with_spec in Es. destruct Es as (q & ->). exact (a_line_head _ _ _ _ _ Hl).
Qed.
Lemma anchor_step_head U m r : md_anchor_step U m = Ok r -> ms_start (fst r) = ms_start m \/ exists y, sp_data (ms_start m) = 91%N :: y.
Proof.
  intros H. destruct (starts_with (lit "[[") (sp_data (ms_start m))) eqn:Es; [right; apply starts_with_spec in Es; destruct Es as (q & ->); eexists; reflexivity|].
  left. unfold md_anchor_step in H. destruct (ms_anchor m); [apply Ok_inj in H; subst r; reflexivity|]. unfold parse_maybe_block_anchor in H. rewrite Es in H. cbn [bind fst snd] in H. apply Ok_inj in H. subst r. reflexivity.
Qed.
Lemma attrlist_step_head E P m r : md_attrlist_step E P m = Ok r -> ms_start (fst r) = ms_start m \/ exists y, sp_data (ms_start m) = 91%N :: y.
Proof.
  intros H. destruct (starts_with (lit "[") (sp_data (ms_start m))) eqn:Es; [right; apply starts_with_spec in Es; destruct Es as (q & ->); eexists; reflexivity|].
  left. unfold md_attrlist_step in H. destruct (ms_attrlist m); [apply Ok_inj in H; subst r; reflexivity|]. unfold parse_maybe_attrlist_line in H. rewrite Es in H. cbn [bind] in H. apply Ok_inj in H. subst r. reflexivity.
Qed.
Lemma md_loop_head E P : forall fuel m m', md_loop E P fuel m = Ok m' -> ms_start m' = ms_start m \/ exists c y, sp_data (ms_start m) = c :: y /\ (c = 46%N \/ c = 91%N).
Proof.
  induction fuel as [|fuel IH]; intros m m' H; cbn [md_loop] in H; [discriminate H|]. apply bind_ok in H. destruct H as (o & Eo & H). destruct o as [m1|].
  - right. destruct (title_step_head _ _ Eo) as (y & D). eauto.
  - apply bind_ok in H. destruct H as (a & Ea & H). destruct (anchor_step_head _ _ _ Ea) as [S1|(y & D)]; [|right; eauto]. destruct (snd a).
    + destruct (IH _ _ H) as [K|K]; rewrite S1 in K; auto.
    + apply bind_ok in H. destruct H as (l & El & H). destruct (attrlist_step_head _ _ _ _ El) as [S2|(y & D)]; [|right; rewrite S1 in D; eauto]. destruct (snd l).
      * destruct (IH _ _ H) as [K|K]; rewrite S2, S1 in K; auto.
      * apply Ok_inj in H. subst m'. left. congruence.
Qed.
Definition md_head (m : metadata) : Prop := md_start m = md_source m \/ exists c y, sp_data (md_source m) = c :: y /\ (c = 46%N \/ c = 91%N).
Lemma metadata_head E s P m ws : metadata_parse E s P = Ok (m, ws) -> md_head m.
Proof.
  unfold metadata_parse. rewrite discard_empty_lines_ok. cbn [bind]. intros H. apply bind_ok in H. destruct H as (x & Ex & H). apply bind_ok in H. destruct H as (t & _ & H). apply Ok_inj in H. injection H as <- _.
  exact (md_loop_head _ _ _ _ _ Ex).
Qed.
Lemma md_head_ws m c0 y0 : md_head m -> sp_data (md_start m) = c0 :: y0 -> is_ws c0 = false -> forall c y, sp_data (md_source m) = c :: y -> is_ws c = false.
Proof.
  intros [H|(c1 & y1 & D1 & H1)] D0 Hw c y D; [rewrite H, D in D0; injection D0 as -> _; exact Hw|]. rewrite D in D1. injection D1 as -> _. destruct H1 as [-> | ->]; reflexivity.
Qed.
Lemma line_block d s m l r n c0 y b : located d s -> Suffix s (md_source m) -> Suffix (md_source m) (md_start m) -> md_head m ->
  a_line (sp_data (md_start m)) l r n -> n = c0 :: y -> is_ws c0 = false -> nested_blocks b = [] ->
  (forall src, line_block_source m (skip (md_start m) l r) = Ok src -> block_span b = src) ->
  after_ok d s (mkmi b (p_discard_empty_lines (skip (md_start m) l r))).
Proof.
  intros L S1 S2 Hh Hl En Hw Hn Hsrc. subst n. destruct (a_line_head _ _ _ _ _ Hl) as (z & Dz).
  pose proof (suffix_line _ _ _ _ Hl) as S3. pose proof (Suffix_trans _ _ _ S2 S3) as S4. destruct (suffix_cut _ _ S4) as (q & Dq & Eq & Et). rewrite sp_data_skip in Dq.
  specialize (Hsrc _ (line_block_source_ok m q (skip (md_start m) l r) r Dq Eq (fun c y0 E0 => md_head_ws m _ _ Hh Dz Hw c (y0 ++ r) ltac:(rewrite Dq, E0; reflexivity)))).
  destruct (trim_end_spec q) as (w & Ew & Bw & _).
  assert (A : after_ok d s (mkmi b (skip (md_start m) l r))).
  { apply md_block with (m := m) (x := trim_end q) (w := w) (pre := q); auto. rewrite sp_data_skip. pose proof (strict_line _ _ _ _ Hl ltac:(discriminate)). pose proof (suffix_len _ _ S1). pose proof (suffix_len _ _ S2). lia. }
  destruct A as (A1 & A2 & A3). cbn [mi_item mi_after] in *. pose proof (discard_empty_Suffix (skip (md_start m) l r)) as S5. split; [exact (Suffix_trans _ _ _ A1 S5)|]. split.
  - apply suffix_len in S5. cbn [mi_after]. lia.
  - eapply tree_weaken; [exact A3|apply le_n|]. cbn [mi_after]. destruct (suffix_cut _ _ S5) as (q2 & _ & Eq2 & _). rewrite Eq2. apply Nat.le_add_r.
Qed.
Lemma media_ok d E s m P mi w l r n c0 y : located d s -> Suffix s (md_source m) -> Suffix (md_source m) (md_start m) -> md_head m ->
  a_line (sp_data (md_start m)) l r n -> n = c0 :: y -> is_ws c0 = false -> media_parse E m P = Ok (Some mi, w) -> after_ok d s mi.
Proof.
  intros L S1 S2 Hh Hl En Hw H. unfold media_parse in H. rewrite (take_norm_eq _ _ _ _ Hl) in H. cbn [bind mi_item mi_after sp_data with_data] in H.
  destruct (ends_with _ _); [|discriminate H]. cbn [negb] in H. apply bind_ok in H. destruct H as (o & _ & H). destruct o as [name|]; [|discriminate H]. destruct (media_type_of _) as [ty|]; [|discriminate H].
  apply bind_ok in H. destruct H as (o & _ & H). destruct o as [colons|]; [|discriminate H]. apply bind_ok in H. destruct H as (target & _ & H). destruct (is_nil _); [discriminate H|].
  apply bind_ok in H. destruct H as (o & _ & H). destruct o as [ob|]; [|discriminate H]. apply bind_ok in H. destruct H as (e & _ & H). apply bind_ok in H. destruct H as (al & _ & H).
  apply bind_ok in H. destruct H as (a & _ & H). apply bind_ok in H. destruct H as (src & Esrc & H). rewrite discard_empty_lines_ok in H. cbn [bind] in H. apply Ok_inj in H. injection H as <- _.
  eapply line_block; eauto. intros src' Es. rewrite Esrc in Es. apply Ok_inj in Es. exact Es.
Qed.
Lemma break_head n ty : break_type_of n = Some ty -> exists c0 y, n = c0 :: y /\ is_ws c0 = false.
Proof.
  unfold break_type_of. destruct (existsb _ _) eqn:E.
  - intros _. apply existsb_exists in E. destruct E as (x & Hx & Ex). apply text_eqb_eq in Ex. subst x. cbn in Hx. destruct Hx as [<-|[<-|[<-|[<-|[<-|[]]]]]]; do 2 eexists; split; reflexivity.
  - destruct (text_eqb_spec n (lit "<<<")) as [->|_]; [|discriminate]. intros _. do 2 eexists. split; reflexivity.
Qed.
Lemma break_ok d s m mi : located d s -> Suffix s (md_source m) -> Suffix (md_source m) (md_start m) -> md_head m -> break_parse m = Ok (Some mi) -> after_ok d s mi.
Proof.
  intros L S1 S2 Hh H. unfold break_parse in H. apply bind_ok in H. destruct H as (line & El & H). apply take_norm_inv in El. destruct El as (l & r & n & Hl & ->). cbn [mi_item mi_after sp_data with_data] in H.
  destruct (break_type_of n) as [ty|] eqn:Eb; [|discriminate H]. destruct (break_head _ _ Eb) as (c0 & y & En & Hw). apply bind_ok in H. destruct H as (src & Esrc & H). rewrite discard_empty_lines_ok in H. cbn [bind] in H. apply Ok_inj in H. injection H as <-.
  eapply line_block; eauto. intros src' Es. rewrite Esrc in Es. apply Ok_inj in Es. exact Es.
Qed.

(** * Sections *)
Lemma heading_nonempty n k t : heading n k t -> n <> [].
Proof. intros (c & ws & _ & _ & -> & _). discriminate. Qed.
Lemma section_ok d E un s m P mi w : good_until d un -> located d s -> Suffix s (md_source m) -> Suffix (md_source m) (md_start m) ->
  section_parse E un m P = Ok (Some mi, w) -> after_ok d s mi.
Proof.
  intros G L S1 S2 H. destruct w as [ws P']. apply section_parse_inv in H.
  destruct H as (discrete & source & lt & w & sid & b & src0 & src & title & base & manual & reg & tp & np & bs & _ & Esrc & Hlt & _ & _ & _ & Hu & Ht & Es & _ & _ & _ & _ & _ & -> & _ & _).
  apply title_line_some in Hlt. destruct Hlt as (l & r & n & t & Hl & Hn & _ & _ & Ea & _).
  assert (S3 : Suffix (md_source m) source) by (rewrite Esrc; eapply Suffix_trans; [exact S2|apply discard_empty_Suffix]).
  assert (S4 : Suffix (md_source m) (mi_after lt)) by (rewrite Ea; eapply Suffix_trans; [exact S3|exact (suffix_line _ _ _ _ Hl)]).
  pose proof (located_Suffix _ _ _ (located_Suffix _ _ _ L S1) S4) as L4. destruct (G _ _ _ _ _ L4 Hu) as (Sb & Tb). pose proof (Suffix_trans _ _ _ S4 Sb) as S5.
  destruct (suffix_cut _ _ S5) as (q & Dq & Eq & Et). rewrite Et in Ht. apply Ok_inj in Ht. subst src0.
  split; [exact (Suffix_trans _ _ _ S1 S5)|]. cbn [mi_item mi_after]. split.
  - pose proof (strict_line _ _ _ _ Hl (heading_nonempty _ _ _ Hn)) as K1. pose proof (suffix_len _ _ Sb) as K2. rewrite Ea, sp_data_skip in K2. pose proof (suffix_len _ _ S1). pose proof (suffix_len _ _ S3). lia.
  - destruct (trim_end_spec q) as (z & Ez & Bz & _). apply one_block with (src := md_source m) (pre := q) (x := trim_end q) (w := z); auto.
    cbn [nested_blocks]. eapply tree_weaken; [exact Tb| |apply le_n]. destruct (suffix_cut _ _ S4) as (q4 & _ & E4 & _). lia.
Qed.

(** * Attribute entries *)
Lemma entry_ok d hdr s P m : located d s -> attribute_parse hdr s P = Ok (Some m) -> after_ok d s (mkmi (BAttribute (mi_item m)) (mi_after m)).
Proof.
  intros L H. destruct (logical_total (sp_data s)) as (c & r & Hc). destruct (attribute_parse_eq hdr s P c r Hc) as (pre & vs & E & _). cbv zeta in E. rewrite H in E.
  destruct (e_parse _) as [[n [u rest]]|] eqn:Ep; [|discriminate E]. destruct (e_value hdr P u rest) as [v| |]; cbn [bind] in E; try discriminate E. apply Ok_inj in E. injection E as ->. cbn [mi_item mi_after].
  pose proof (logical_app _ _ _ Hc) as D. destruct (trim_end_spec c) as (z & Ez & Bz & _).
  assert (Hne : c <> []) by (intros ->; discriminate Ep).
  split; [apply Suffix_intro; exact D|]. cbn [mi_item mi_after]. rewrite sp_data_skip. split; [rewrite D; apply app_shorter, Hne|].
  apply one_block with (src := s) (pre := c) (x := trim_end c) (w := z); auto; [apply Suffix_refl|rewrite sp_data_skip; exact D|apply sp_off_skip|].
  cbn [nested_blocks]. apply tree_nil_nested, Suffix_intro, D.
Qed.

(** * Any block *)
Lemma last_resort_ok d E s m ws P r mi : located d s -> Suffix s (md_source m) -> Suffix (md_source m) (md_start m) -> last_resort E m ws P = Ok r -> pr_item r = Some mi -> after_ok d s mi.
Proof.
  intros L S1 S2 H Hi. unfold last_resort in H. apply bind_ok in H. destruct H as (o & Eo & H). destruct o as [x|].
  - rewrite (finish_item _ _ _ _ H) in Hi. injection Hi as <-. exact (simple_ok d E s m P x L S1 S2 Eo).
  - apply Ok_inj in H. subst r. discriminate Hi.
Qed.
Lemma no_block_ok d E s m ws P r mi : located d s -> Suffix s (md_source m) -> Suffix (md_source m) (md_start m) -> no_block E m ws P = Ok r -> pr_item r = Some mi -> after_ok d s mi.
Proof.
  intros L S1 S2 H Hi. unfold no_block in H. apply bind_ok in H. destruct H as (o & _ & H). destruct (_ && _).
  - eapply last_resort_ok; [exact L| | |exact H|exact Hi]; cbn [md_source md_start orphan_metadata]; [exact S1|apply Suffix_refl].
  - exact (last_resort_ok d E s m _ P r mi L S1 S2 H Hi).
Qed.
Lemma block_ok d E un s P r mi : good_until d un -> located d s -> block_parse_with E un s P = Ok r -> pr_item r = Some mi -> after_ok d s mi.
Proof.
  intros G L H Hi. unfold block_parse_with in H. apply bind_ok in H. destruct H as (fl & _ & H). apply bind_ok in H. destruct H as (fast & Ef & H). destruct fast as [x|].
  { rewrite (finish_item _ _ _ _ H) in Hi. injection Hi as <-. destruct (try_fast _ _); [|discriminate Ef]. exact (fast_ok d E s P x L Ef). }
  apply bind_ok in H. destruct H as (entry & Ee & H). destruct entry as [attr|].
  { apply Ok_inj in H. subst r. cbn [pr_item] in Hi. injection Hi as <-. destruct (try_entry _); [|discriminate Ee]. exact (entry_ok _ _ _ _ _ L Ee). }
  apply bind_ok in H. destruct H as ([m ws] & Em & H). cbn [fst snd] in H. destruct (metadata_Suffix _ _ _ _ _ Em) as (E1 & S2). pose proof (metadata_head _ _ _ _ _ Em) as Hh.
  assert (S1 : Suffix s (md_source m)) by (rewrite E1; apply discard_empty_Suffix). clear E1 Em Ef Ee. unfold with_metadata in H. apply bind_ok in H. destruct H as (bs & _ & H).
  destruct (style_is _ _); [exact (last_resort_ok d E s m _ P r mi L S1 S2 H Hi)|]. apply bind_ok in H. destruct H as (o & Eo & H). destruct o as [x|].
  { rewrite (finish_item _ _ _ _ H) in Hi. injection Hi as <-. destruct x as [x w]. exact (raw_ok d E s m P x w L S1 S2 Eo). }
  apply bind_ok in H. destruct H as (o & Eo2 & H). destruct o as [x|].
  { rewrite (finish_item _ _ _ _ H) in Hi. injection Hi as <-. destruct x as [x w]. exact (compound_ok d un s m P x w G L S1 S2 Eo2). }
  apply bind_ok in H. destruct H as (line & El & H). apply take_norm_inv in El. destruct El as (l & q & n & Hl & ->). cbn [mi_item sp_data with_data] in H.
  unfold try_media in H. apply bind_ok in H. destruct H as ([o w] & Eo3 & H). cbn [fst snd] in H. destruct o as [x|].
  { rewrite (finish_item _ _ _ _ H) in Hi. injection Hi as <-. destruct (starts_with (lit "image::") n || starts_with (lit "video::") n || starts_with (lit "video::") n) eqn:Es; [|discriminate Eo3].
    assert (Hn : exists c0 y, n = c0 :: y /\ is_ws c0 = false).
    { apply orb_true_iff in Es. destruct Es as [Es|Es]; [apply orb_true_iff in Es; destruct Es as [Es|Es]|]; apply starts_with_spec in Es; destruct Es as (z & ->); do 2 eexists; split; reflexivity. }
    destruct Hn as (c0 & y & En & Hw). exact (media_ok d E s m P x w l q n c0 y L S1 S2 Hh Hl En Hw Eo3). }
  unfold try_section in H. apply bind_ok in H. destruct H as ([o w'] & Eo4 & H). cbn [fst snd] in H. destruct o as [x|].
  { apply Ok_inj in H. subst r. cbn [pr_item] in Hi. injection Hi as <-. destruct (starts_with_any _ _); [|discriminate Eo4]. exact (section_ok d E un s m P x w' G L S1 S2 Eo4). }
  unfold try_break in H. apply bind_ok in H. destruct H as (o & Eo5 & H). destruct o as [x|].
  { apply Ok_inj in H. subst r. cbn [pr_item] in Hi. injection Hi as <-. destruct (starts_with_any (lit "'-*<") n); [|discriminate Eo5]. exact (break_ok d s m x L S1 S2 Hh Eo5). }
  exact (no_block_ok d E s m _ _ r mi L S1 S2 H Hi).
Qed.
Lemma blocks_ok d E : forall fuel f n s P b, located d s -> blocks_loop E fuel f n s P = Ok b -> Suffix s (br_after b) /\ tree d (sp_off s) (br_blocks b) (sp_off (br_after b)).
Proof.
  induction fuel as [|fuel IH]; intros f n s P b L H; cbn [blocks_loop] in H.
  - destruct (sp_data s); [|discriminate H]. apply Ok_inj in H. subst b. split; [apply Suffix_refl|constructor; cbn; lia].
  - destruct (sp_data s) eqn:D. { apply Ok_inj in H. subst b. split; [apply Suffix_refl|constructor; cbn; lia]. }
    apply bind_ok in H. destruct H as (st & _ & H). destruct (fst st). { apply Ok_inj in H. subst b. split; [apply Suffix_refl|constructor; cbn; lia]. }
    apply bind_ok in H. destruct H as (r & Er & H). apply bind_ok in H. destruct H as (rest & Hr & H). apply Ok_inj in H. subst b. cbn [br_after br_blocks].
    destruct (pr_item r) as [mi|] eqn:Ei.
    + assert (G : good_until d (fun stop level source P => src <- discard_empty_lines source ;; blocks_loop E fuel stop level src P)).
      { intros f' n' s' P' b' L' Hb. rewrite discard_empty_lines_ok in Hb. cbn [bind] in Hb. pose proof (discard_empty_Suffix s') as S. destruct (IH _ _ _ _ _ (located_Suffix _ _ _ L' S) Hb) as (K1 & K2).
        split; [exact (Suffix_trans _ _ _ S K1)|]. eapply tree_weaken; [exact K2| |apply le_n]. destruct (suffix_cut _ _ S) as (q & _ & Eq & _). lia. }
      destruct (block_ok d E _ s P r mi G L Er Ei) as (A1 & A2 & A3). destruct (IH _ _ _ _ _ (located_Suffix _ _ _ L A1) Hr) as (K1 & K2).
      split; [exact (Suffix_trans _ _ _ A1 K1)|exact (tree_join _ _ _ _ _ _ A3 K2)].
    + exact (IH _ _ _ _ _ L Hr).
Qed.
Lemma until_ok d E fuel : good_until d (parse_blocks_until E fuel).
Proof.
  intros f' n' s' P' b' L' Hb. unfold parse_blocks_until in Hb. rewrite discard_empty_lines_ok in Hb. cbn [bind] in Hb. pose proof (discard_empty_Suffix s') as S. destruct (blocks_ok d E _ _ _ _ _ _ (located_Suffix _ _ _ L' S) Hb) as (K1 & K2).
  split; [exact (Suffix_trans _ _ _ S K1)|]. eapply tree_weaken; [exact K2| |apply le_n]. destruct (suffix_cut _ _ S) as (q & _ & Eq & _). lia.
Qed.

(** * Documents *)
Lemma tree_split d l2 : forall l1 a z, tree d a (l1 ++ l2) z -> exists m, tree d a l1 m /\ tree d m l2 z.
Proof.
  induction l1 as [|b l1 IH]; intros a z H; cbn [app] in H.
  - exists a. split; [constructor; lia|exact H].
  - inversion H as [|? ? ? e m ? L Hab W N Hm T]; subst. destruct (IH _ _ T) as (m' & T1 & T2). exists m'. split; [|exact T2].
    eapply tr_cons; eassumption.
Qed.
Lemma tree_last d b : forall l a z, tree d a (l ++ [b]) z ->
  exists e, e <= z /\ white d (stop b) e /\ located d (block_span b) /\ a <= start b /\ tree d a (l ++ [b]) e.
Proof.
  induction l as [|c l IH]; intros a z H; cbn [app] in H |- *.
  - inversion H as [|? ? ? e m ? L Hab W N Hm T]; subst. exists e. apply tree_le in T. split; [lia|]. split; [exact W|]. split; [exact L|]. split; [exact Hab|].
    eapply tr_cons with (m := e); try eassumption; [lia|constructor; lia].
  - inversion H as [|? ? ? e m ? L Hab W N Hm T]; subst. destruct (IH _ _ T) as (e' & K1 & K2 & K3 & K4 & K5). exists e'. split; [exact K1|]. split; [exact K2|]. split; [exact K3|].
    split; [destruct W as (p & w & q & _ & _ & E1 & E2); unfold stop, start in *; lia|]. eapply tr_cons; eassumption.
Qed.
Lemma blen_zero t : blen t = 0 -> t = [].
Proof. destruct t as [|c t]; [reflexivity|]. cbn [blen]. pose proof (clen_pos c). lia. Qed.
Lemma prefix_cut (p r q y : text) : p ++ r = q ++ y -> blen p <= blen q -> exists m, q = p ++ m /\ r = m ++ y.
Proof.
  revert q. induction p as [|c p IH]; intros q E H; [exists q; cbn [app] in E |- *; auto|]. destruct q as [|c' q].
  - cbn [blen] in H. pose proof (clen_pos c). lia.
  - cbn [app] in E. injection E as <- E. cbn [blen] in H. destruct (IH q E) as (m & -> & ->); [lia|]. exists m. auto.
Qed.
Lemma make_preamble_ok d ah bs z : Suffix (span_new d) ah -> tree d (sp_off ah) bs z -> exists bs', make_preamble bs ah = Ok bs' /\ tree d (sp_off ah) bs' z.
Proof.
  intros S T. unfold make_preamble. destruct (preamble_split 0 false bs) as [i|]; [|eauto].
  pose proof (located_Suffix _ _ _ (located_new d) S) as La. rewrite <- (firstn_skipn i bs) in T. destruct (tree_split _ _ _ _ _ T) as (m & T1 & T2).
  set (l1 := firstn i bs) in *. set (l2 := skipn i bs) in *. clearbody l1 l2. unfold preamble_from_blocks.
  destruct (rev l1) as [|b q] eqn:Er.
  - apply (f_equal (@rev block)) in Er. rewrite rev_involutive in Er. cbn [rev] in Er. subst l1.
    rewrite (trim_to ah [] (sp_data ah)) by (cbn; auto). cbn [bind]. eexists. split; [reflexivity|].
    assert (L0 : located d (with_data ah [])) by (eapply located_prefix with (w := sp_data ah); [exact La|reflexivity]).
    eapply tr_cons with (e := sp_off ah) (m := m); [exact L0|unfold start; cbn; lia| | |apply tree_le in T1; exact T1|exact T2].
    + pose proof (white_none d _ L0) as W. unfold stop. cbn [block_span sp_off sp_data with_data blen] in *. rewrite Nat.add_0_r in *. exact W.
    + constructor. unfold start. cbn. lia.
  - apply (f_equal (@rev block)) in Er. rewrite rev_involutive in Er. cbn [rev] in Er. subst l1.
    rewrite discard_all_ok. cbn [bind]. destruct (tree_last _ _ _ _ _ T1) as (e & K1 & K2 & (x & y & D & _ & _ & Ho) & K4 & K5).
    unfold spec_offset in Ho. rewrite blen_utf8 in Ho. destruct (suffix_cut _ _ S) as (p & Dp & Eo & _). cbn [sp_data sp_off span_new] in Dp, Eo.
    destruct (prefix_cut p (sp_data ah) (x ++ sp_data (block_span b)) y) as (mid & Em & Dm).
    { rewrite <- app_assoc. congruence. }
    { rewrite blen_app. unfold start in K4. lia. }
    apply (f_equal blen) in Em. rewrite !blen_app in Em.
    rewrite (trim_to ah mid y) by (auto; unfold p_discard_all; rewrite sp_off_skip; lia). cbn [bind]. eexists. split; [reflexivity|].
    assert (Ln : located d (with_data ah mid)) by (eapply located_prefix; [exact La|exact Dm]).
    eapply tr_cons with (e := e) (m := m); [exact Ln|unfold start; cbn; lia| | |exact K1|exact T2].
    + unfold stop in *. cbn [block_span sp_off sp_data with_data]. replace (sp_off ah + blen mid) with (sp_off (block_span b) + blen (sp_data (block_span b))) by lia. exact K2.
    + exact K5.
Qed.
Lemma document_ok E fuel t sm P d P' : document_parse E fuel t sm P = Ok (d, P') -> tree t 0 (d_blocks d) (blen t).
Proof.
  unfold document_parse. intros H. apply bind_ok in H. destruct H as ([[hd after] [ws Ph]] & Eh & H). cbn [fst snd mi_item mi_after] in H.
  destruct (header_parse_spec _ _ _ _ _ _ _ Eh) as (h & src & _ & _ & _ & _ & _ & S1 & _ & _ & _ & _ & _ & _ & _ & _ & Ea & _).
  assert (S : Suffix (span_new t) after) by (rewrite Ea; eapply Suffix_trans; [exact S1|apply discard_empty_Suffix]). clear Eh Ea S1 h src.
  apply bind_ok in H. destruct H as (b & Eb & H). destruct (until_ok t E fuel _ _ _ _ _ (located_Suffix _ _ _ (located_new t) S) Eb) as (Sb & Tb).
  destruct (make_preamble_ok t after (br_blocks b) (sp_off (br_after b)) S Tb) as (bs & Em & Tm). rewrite Em in H. cbn [bind] in H. rewrite trim_trailing_whitespace_ok in H. cbn [bind] in H.
  destruct (take_catalog (br_parser b)) as [c P2]. apply Ok_inj in H. injection H as <- _. cbn [d_blocks].
  eapply tree_weaken; [exact Tm|lia|]. destruct (suffix_cut _ _ (Suffix_trans _ _ _ S Sb)) as (p & Dp & Eo & _). cbn [sp_data sp_off span_new] in Dp, Eo. rewrite Dp, blen_app, Eo. lia.
Qed.
(** * Progress *)
Lemma blocks_count D E : forall fuel f n s P b, located D s -> blocks_loop E fuel f n s P = Ok b -> length (br_blocks b) + length (sp_data (br_after b)) <= length (sp_data s).
Proof.
  induction fuel as [|fuel IH]; intros f n s P b L H; cbn [blocks_loop] in H.
  - destruct (sp_data s) eqn:Ds; [|discriminate H]. apply Ok_inj in H. subst b. cbn. rewrite Ds. cbn. lia.
  - destruct (sp_data s) eqn:Ds. { apply Ok_inj in H. subst b. cbn. rewrite Ds. cbn. lia. }
    apply bind_ok in H. destruct H as (st & _ & H). destruct (fst st). { apply Ok_inj in H. subst b. cbn [br_blocks br_after]. rewrite Ds. cbn [length]. lia. }
    apply bind_ok in H. destruct H as (r & Er & H). apply bind_ok in H. destruct H as (rest & Hr & H). apply Ok_inj in H. subst b. cbn [br_after br_blocks]. rewrite <- Ds.
    destruct (pr_item r) as [mi|] eqn:Ei.
    + assert (G : good_until D (fun stop level source P => src <- discard_empty_lines source ;; blocks_loop E fuel stop level src P)) by (exact (until_ok D E fuel)).
      destruct (block_ok D E _ s P r mi G L Er Ei) as (A1 & A2 & A3). pose proof (IH _ _ _ _ _ (located_Suffix _ _ _ L A1) Hr) as K. cbn [length]. lia.
    + exact (IH _ _ _ _ _ L Hr).
Qed.
(** Which kinds hold blocks. *)
Lemma count_nested b : count b = S (count_all (nested_blocks b)).
Proof. destruct b; reflexivity. Qed.
Lemma simple_nested E m P mi : simple_parse E m P = Ok (Some mi) -> nested_blocks (mi_item mi) = [].
Proof.
  unfold simple_parse. intros H. apply bind_ok in H. destruct H as (o & _ & H). destruct o; [|discriminate H]. apply bind_ok in H. destruct H as (s1 & _ & H). apply bind_ok in H. destruct H as (s2 & _ & H).
  apply bind_ok in H. destruct H as (s3 & _ & H). apply Ok_inj in H. injection H as <-. reflexivity.
Qed.
Lemma last_resort_nested E m ws P r mi : last_resort E m ws P = Ok r -> pr_item r = Some mi -> nested_blocks (mi_item mi) = [].
Proof.
  intros H Hi. unfold last_resort in H. apply bind_ok in H. destruct H as (o & Eo & H). destruct o as [x|].
  - rewrite (finish_item _ _ _ _ H) in Hi. injection Hi as <-. exact (simple_nested _ _ _ _ Eo).
  - apply Ok_inj in H. subst r. discriminate Hi.
Qed.
Lemma block_nested E un s P r mi : block_parse_with E un s P = Ok r -> pr_item r = Some mi -> nested_blocks (mi_item mi) = [] \/
  exists m, Suffix s (md_source m) /\ Suffix (md_source m) (md_start m) /\
    ((exists w, compound_parse (un never 0) m P = Ok (Some (mi, w))) \/ (exists w, section_parse E un m P = Ok (Some mi, w))).
Proof.
  intros H Hi. unfold block_parse_with in H. apply bind_ok in H. destruct H as (fl & _ & H). apply bind_ok in H. destruct H as (fast & Ef & H). destruct fast as [x|].
  { left. rewrite (finish_item _ _ _ _ H) in Hi. injection Hi as <-. destruct (try_fast _ _); [|discriminate Ef]. unfold simple_parse_fast in Ef. apply bind_ok in Ef. destruct Ef as (o & _ & Ef). destruct o; [|discriminate Ef].
    apply bind_ok in Ef. destruct Ef as (s3 & _ & Ef). apply Ok_inj in Ef. injection Ef as <-. reflexivity. }
  apply bind_ok in H. destruct H as (entry & Ee & H). destruct entry as [attr|].
  { left. apply Ok_inj in H. subst r. cbn [pr_item] in Hi. injection Hi as <-. reflexivity. }
  apply bind_ok in H. destruct H as ([m ws] & Em & H). cbn [fst snd] in H. destruct (metadata_Suffix _ _ _ _ _ Em) as (E1 & S2).
  assert (S1 : Suffix s (md_source m)) by (rewrite E1; apply discard_empty_Suffix). clear E1 Em Ef Ee. unfold with_metadata in H. apply bind_ok in H. destruct H as (bs & _ & H).
  destruct (style_is _ _); [left; exact (last_resort_nested E m _ P r mi H Hi)|]. apply bind_ok in H. destruct H as (o & Eo & H). destruct o as [x|].
  { left. rewrite (finish_item _ _ _ _ H) in Hi. injection Hi as <-. destruct x as [x w]. destruct (raw_inv _ _ _ _ _ Eo) as (l & q & dl & after & _ & _ & _ & _ & src0 & src & _ & _ & _ & E4). exact E4. }
  apply bind_ok in H. destruct H as (o & Eo2 & H). destruct o as [x|].
  { rewrite (finish_item _ _ _ _ H) in Hi. injection Hi as <-. destruct x as [x w]. right. exists m. split; [exact S1|]. split; [exact S2|]. left. eauto. }
  apply bind_ok in H. destruct H as (line & El & H). 
  unfold try_media in H. apply bind_ok in H. destruct H as ([o w] & Eo3 & H). cbn [fst snd] in H. destruct o as [x|].
  { left. rewrite (finish_item _ _ _ _ H) in Hi. injection Hi as <-. destruct (_ || _ || _); [|discriminate Eo3]. clear H El. rename Eo3 into H. unfold media_parse in H. apply bind_ok in H. destruct H as (ln & _ & H).
    destruct (negb _); [discriminate H|]. apply bind_ok in H. destruct H as (o & _ & H). destruct o as [name|]; [|discriminate H]. destruct (media_type_of _) as [ty|]; [|discriminate H].
    apply bind_ok in H. destruct H as (o & _ & H). destruct o as [colons|]; [|discriminate H]. apply bind_ok in H. destruct H as (target & _ & H). destruct (is_nil _); [discriminate H|].
    apply bind_ok in H. destruct H as (o & _ & H). destruct o as [ob|]; [|discriminate H]. apply bind_ok in H. destruct H as (e & _ & H). apply bind_ok in H. destruct H as (al & _ & H).
    apply bind_ok in H. destruct H as (a & _ & H). apply bind_ok in H. destruct H as (src & Esrc & H). apply bind_ok in H. destruct H as (af & _ & H). apply Ok_inj in H. injection H as <- _. reflexivity. }
  unfold try_section in H. apply bind_ok in H. destruct H as ([o w'] & Eo4 & H). cbn [fst snd] in H. destruct o as [x|].
  { apply Ok_inj in H. subst r. cbn [pr_item] in Hi. injection Hi as <-. destruct (starts_with_any _ _); [|discriminate Eo4]. right. exists m. split; [exact S1|]. split; [exact S2|]. right. eauto. }
  left. unfold try_break in H. apply bind_ok in H. destruct H as (o & Eo5 & H). destruct o as [x|].
  { apply Ok_inj in H. subst r. cbn [pr_item] in Hi. injection Hi as <-. destruct (starts_with_any (lit "'-*<") _); [|discriminate Eo5]. unfold break_parse in Eo5. apply bind_ok in Eo5. destruct Eo5 as (ln & _ & Eo5).
    destruct (break_type_of _); [|discriminate Eo5]. apply bind_ok in Eo5. destruct Eo5 as (q1 & _ & Eo5). apply bind_ok in Eo5. destruct Eo5 as (q2 & _ & Eo5). apply Ok_inj in Eo5. injection Eo5 as <-. reflexivity. }
  unfold no_block in H. apply bind_ok in H. destruct H as (o & _ & H). destruct (_ && _); exact (last_resort_nested E _ _ _ r mi H Hi).
Qed.
Definition few_until (D : text) (un : stop_fn -> nat -> span -> parser -> res bres) : Prop :=
  forall f n s P b, located D s -> un f n s P = Ok b -> count_all (br_blocks b) + length (sp_data (br_after b)) <= length (sp_data s).
Lemma compound_few D un s m P mi w : few_until D un -> located D s -> Suffix s (md_source m) -> Suffix (md_source m) (md_start m) ->
  compound_parse (un never 0) m P = Ok (Some (mi, w)) -> count (mi_item mi) + length (sp_data (mi_after mi)) <= length (sp_data s).
Proof.
  intros G L S1 S2 H. destruct (a_line_total (sp_data (md_start m))) as (l & r & dl & Hl). destruct (compound_delimiter_b dl) as (v & Eb & Hb).
  destruct v. 2:{ rewrite (compound_parse_none _ m P l r dl Hl) in H; [discriminate H|]. intros K. apply Hb in K. discriminate K. }
  assert (Hd : compound_delimiter dl) by (apply Hb; reflexivity). pose proof H as H0. unfold compound_parse in H. rewrite (take_norm_eq _ _ _ _ Hl) in H. cbn [bind mi_item mi_after sp_data with_data] in H.
  rewrite (compound_context_delim dl Hd), Eb in H. cbn [bind negb] in H.
  destruct (find_delimiter_spec dl (length (sp_data (skip (md_start m) l r))) (skip (md_start m) l r) (le_n _)) as (c & o & He & Ho). rewrite sp_data_skip in He.
  pose proof (a_line_app _ _ _ _ Hl) as Ha. pose proof (located_Suffix _ _ _ L S1) as L1. pose proof (located_Suffix _ _ _ L1 S2) as L2.
  pose proof (strict_line _ _ _ _ Hl (compound_delim_nonempty _ Hd)) as Hlt. pose proof (suffix_len _ _ S1) as Hl1. pose proof (suffix_len _ _ S2) as Hl2. rewrite count_nested.
  destruct o as [r'|].
  - destruct Ho as (k & Dk & Hk & _ & Ef). rewrite Ef in H. cbn [bind fst snd mi_item mi_after] in H. rewrite sp_data_skip in Dk.
    rewrite (trim_to (skip (md_start m) l r) c (k ++ r')) in H by (rewrite ?sp_data_skip, ?sp_off_skip; auto). cbn [bind] in H. rewrite with_data_skip in H.
    apply bind_ok in H. destruct H as (b & Hu & _). destruct (compound_parse_found _ m P l r dl c r' b Hl Hd He S2 Hu) as (k' & w' & pre & D1 & Ek & D2 & E). rewrite H0 in E. apply Ok_inj in E. injection E as -> _.
    assert (Li : located D (skip (md_start m) l c)) by (apply (located_Sub _ _ _ L2); apply Sub_intro with (post := k' ++ r'); exact D1).
    pose proof (G _ _ _ _ _ Li Hu) as K. cbn [mi_item mi_after nested_blocks]. rewrite sp_data_skip in *. rewrite Dk, !app_length in Hlt. lia.
  - destruct Ho as (Ec & Ef). rewrite Ef in H. cbn [bind fst snd mi_item mi_after] in H. rewrite sp_data_skip in Ec. subst c.
    rewrite (trim_to (skip (md_start m) l r) r []) in H by (rewrite ?sp_data_skip, ?sp_off_skip, ?app_nil_r; auto). cbn [bind] in H. rewrite with_data_skip in H.
    apply bind_ok in H. destruct H as (b & Hu & _). destruct (compound_parse_open _ m P l r dl r b Hl Hd He S2 Hu) as (_ & E). rewrite H0 in E. apply Ok_inj in E. injection E as -> _.
    assert (Li : located D (skip (md_start m) l r)) by (apply (located_Suffix _ _ _ L2); exact (suffix_line _ _ _ _ Hl)).
    pose proof (G _ _ _ _ _ Li Hu) as K. cbn [mi_item mi_after nested_blocks]. rewrite sp_data_skip in *. cbn [length]. lia.
Qed.
Lemma section_few D E un s m P mi w : few_until D un -> located D s -> Suffix s (md_source m) -> Suffix (md_source m) (md_start m) ->
  section_parse E un m P = Ok (Some mi, w) -> count (mi_item mi) + length (sp_data (mi_after mi)) <= length (sp_data s).
Proof.
  intros G L S1 S2 H. destruct w as [ws P']. apply section_parse_inv in H.
  destruct H as (discrete & source & lt & w & sid & b & src0 & src & title & base & manual & reg & tp & np & bs & _ & Esrc & Hlt & _ & _ & _ & Hu & Ht & Es & _ & _ & _ & _ & _ & -> & _ & _).
  apply title_line_some in Hlt. destruct Hlt as (l & r & n & t & Hl & Hn & _ & _ & Ea & _).
  assert (S3 : Suffix (md_source m) source) by (rewrite Esrc; eapply Suffix_trans; [exact S2|apply discard_empty_Suffix]).
  assert (S4 : Suffix (md_source m) (mi_after lt)) by (rewrite Ea; eapply Suffix_trans; [exact S3|exact (suffix_line _ _ _ _ Hl)]).
  pose proof (G _ _ _ _ _ (located_Suffix _ _ _ (located_Suffix _ _ _ L S1) S4) Hu) as K. rewrite count_nested. cbn [mi_item mi_after nested_blocks]. rewrite Ea, sp_data_skip in K.
  pose proof (strict_line _ _ _ _ Hl (heading_nonempty _ _ _ Hn)). pose proof (suffix_len _ _ S1). pose proof (suffix_len _ _ S3). lia.
Qed.
Lemma blocks_few D E : forall fuel f n s P b, located D s -> blocks_loop E fuel f n s P = Ok b -> count_all (br_blocks b) + length (sp_data (br_after b)) <= length (sp_data s).
Proof.
  induction fuel as [|fuel IH]; intros f n s P b L H; cbn [blocks_loop] in H.
  - destruct (sp_data s) eqn:Ds; [|discriminate H]. apply Ok_inj in H. subst b. cbn. rewrite Ds. cbn. lia.
  - destruct (sp_data s) eqn:Ds. { apply Ok_inj in H. subst b. cbn. rewrite Ds. cbn. lia. }
    apply bind_ok in H. destruct H as (st & _ & H). destruct (fst st). { apply Ok_inj in H. subst b. cbn [br_blocks br_after]. rewrite Ds. cbn [count_all fold_right length]. lia. }
    apply bind_ok in H. destruct H as (r & Er & H). apply bind_ok in H. destruct H as (rest & Hr & H). apply Ok_inj in H. subst b. cbn [br_after br_blocks]. rewrite <- Ds.
    destruct (pr_item r) as [mi|] eqn:Ei; [|exact (IH _ _ _ _ _ L Hr)].
    assert (G : good_until D (fun stop level source P => src <- discard_empty_lines source ;; blocks_loop E fuel stop level src P)) by (exact (until_ok D E fuel)).
    destruct (block_ok D E _ s P r mi G L Er Ei) as (A1 & A2 & A3). pose proof (IH _ _ _ _ _ (located_Suffix _ _ _ L A1) Hr) as K.
    assert (F : few_until D (fun stop level source P => src <- discard_empty_lines source ;; blocks_loop E fuel stop level src P)).
    { intros f' n' s' P' b' L' Hb. rewrite discard_empty_lines_ok in Hb. cbn [bind] in Hb. pose proof (discard_empty_Suffix s') as S'. pose proof (IH _ _ _ _ _ (located_Suffix _ _ _ L' S') Hb). apply suffix_len in S'. lia. }
    assert (C : count (mi_item mi) + length (sp_data (mi_after mi)) <= length (sp_data s)).
    { destruct (block_nested _ _ _ _ _ _ Er Ei) as [Hn|(m & S1 & S2 & [(w & Hc)|(w & Hc)])]; [rewrite count_nested, Hn; cbn [count_all fold_right]; lia|exact (compound_few D _ s m P mi w F L S1 S2 Hc)|exact (section_few D E _ s m P mi w F L S1 S2 Hc)]. }
    change (count_all (mi_item mi :: br_blocks rest)) with (count (mi_item mi) + count_all (br_blocks rest)). lia.
Qed.
Lemma count_app l1 l2 : count_all (l1 ++ l2) = count_all l1 + count_all l2.
Proof. induction l1 as [|b l IH]; [reflexivity|]. cbn [app]. change (count b + count_all (l ++ l2) = count b + count_all l + count_all l2). lia. Qed.
Lemma document_few E fuel t sm P d P' : document_parse E fuel t sm P = Ok (d, P') -> count_all (d_blocks d) <= S (length t).
Proof.
  unfold document_parse. intros H. apply bind_ok in H. destruct H as ([[hd after] [ws Ph]] & Eh & H). cbn [fst snd mi_item mi_after] in H.
  destruct (header_parse_spec _ _ _ _ _ _ _ Eh) as (h & src & _ & _ & _ & _ & _ & S1 & _ & _ & _ & _ & _ & _ & _ & _ & Ea & _).
  assert (S : Suffix (span_new t) after) by (rewrite Ea; eapply Suffix_trans; [exact S1|apply discard_empty_Suffix]). clear Eh Ea S1 h src.
  apply bind_ok in H. destruct H as (b & Eb & H). unfold parse_blocks_until in Eb. rewrite discard_empty_lines_ok in Eb. cbn [bind] in Eb. pose proof (Suffix_trans _ _ _ S (discard_empty_Suffix after)) as S2.
  pose proof (blocks_few t E fuel _ _ _ _ _ (located_Suffix _ _ _ (located_new t) S2) Eb) as K. pose proof (suffix_len _ _ S2) as K2. cbn [sp_data span_new] in K2.
  apply bind_ok in H. destruct H as (bs & Em & H). rewrite trim_trailing_whitespace_ok in H. cbn [bind] in H.
  destruct (take_catalog (br_parser b)) as [c P2]. apply Ok_inj in H. injection H as <- _. cbn [d_blocks].
  assert (C : count_all bs <= Datatypes.S (count_all (br_blocks b))); [|lia]. clear - Em. unfold make_preamble in Em. destruct (preamble_split _ _ _) as [i|]; [|apply Ok_inj in Em; subst bs; lia].
  apply bind_ok in Em. destruct Em as (p & Ep & Em). apply Ok_inj in Em. subst bs. unfold preamble_from_blocks in Ep. apply bind_ok in Ep. destruct Ep as (q & _ & Ep). apply Ok_inj in Ep. subst p.
  rewrite <- (firstn_skipn i (br_blocks b)) at 3. rewrite count_app. change (Datatypes.S (count_all (firstn i (br_blocks b))) + count_all (skipn i (br_blocks b)) <= Datatypes.S (count_all (firstn i (br_blocks b)) + count_all (skipn i (br_blocks b)))). lia.
Qed.
