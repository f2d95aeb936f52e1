(** The places that a document gives for its parts are places in its text. *)
From Verif Require Import Text TextFacts Maps Span_Model Span_Pure Span_Proof Span_Laws Span_Spec Catalog_Model Catalog_Proof Parser_Model Subs_Model Attrlist_Model
  Attrlist_Laws Attrlist_Prop Entry_Spec Entry_Model Entry_Proof Group_Model SecId_Model Header_Model Header_Spec Header_Proof Block_Model Block_Spec Block_Proof SourceMap_Model Doc_Model
  Tree_Spec Tree_Proof Tree_Prop Shape_Proof Warn_Proof Inert_Proof Walk_Proof Spans_Spec.

(** * Pieces of a span before a place *)
Definition within (s : span) (z : nat) (x : span) : Prop := Sub s x /\ upto x <= z.
Lemma Sub_off s x : Sub s x -> sp_off s <= sp_off x /\ upto x <= upto s.
Proof. intros (p & q & D & E). unfold upto. rewrite D, !blen_app. rewrite E, sp_off_skip, sp_data_skip. lia. Qed.
Lemma Suffix_off s x : Suffix s x -> sp_off s <= sp_off x /\ upto x = upto s.
Proof. intros (p & D & E). unfold upto. rewrite D, !blen_app. rewrite E, sp_off_skip, sp_data_skip. lia. Qed.
Lemma within_le s z z' x : z <= z' -> within s z x -> within s z' x.
Proof. intros H (A & B). split; [exact A|lia]. Qed.
Lemma within_out s s' z x : Sub s s' -> within s' z x -> within s z x.
Proof. intros H (A & B). split; [exact (Sub_trans _ _ _ H A)|exact B]. Qed.
Lemma within_in s z x y : within s z x -> Sub x y -> within s z y.
Proof. intros (A & B) H. split; [exact (Sub_trans _ _ _ A H)|]. apply Sub_off in H. lia. Qed.
Lemma line_within s l r n : a_line (sp_data s) l r n -> within s (sp_off (skip s l r)) (with_data s n).
Proof.
  intros Hl. split; [exact (norm_line_Sub _ _ _ _ Hl)|]. unfold upto. cbn [sp_off sp_data with_data]. rewrite sp_off_skip. destruct (a_line_prefix _ _ _ _ Hl) as (w & ->). rewrite blen_app. lia.
Qed.
Lemma discard_Sub s n x : discard s n = Ok x -> Sub s x.
Proof. unfold discard. intros H. apply bind_ok in H. destruct H as (y & Hy & H). apply Ok_inj in H. subst x. exact (proj2 (ipr_Sub _ _ _ Hy)). Qed.
Lemma attrlist_place U norm P s ctx r : attrlist_parse U norm P s ctx = Ok r -> al_source (mi_item (fst r)) = s.
Proof.
  rewrite attrlist_parse_eq. intros H. apply bind_ok in H. destruct H as (src & _ & H). match type of H with (if ?b then _ else _) = _ => destruct b end.
  - apply bind_ok in H. destruct H as (a & _ & H). apply Ok_inj in H. subst r. reflexivity.
  - apply bind_ok in H. destruct H as (a & _ & H). apply Ok_inj in H. subst r. reflexivity.
Qed.

(** * Metadata *)
Definition ms_spans (m : mdstate) : list span := given (ms_title m) ++ given (ms_anchor m) ++ given (ms_reftext m) ++ map al_source (given (ms_attrlist m)).
Definition ms_in (s : span) (m : mdstate) : Prop := Suffix s (ms_start m) /\ Forall (within s (sp_off (ms_start m))) (ms_spans m).
Lemma Forall_within_le s z z' l : z <= z' -> Forall (within s z) l -> Forall (within s z') l.
Proof. intros H. apply Forall_impl. intros x. apply within_le. exact H. Qed.
Lemma given_forall {A} (Q : A -> Prop) o : Forall Q (given o) <-> forall x, o = Some x -> Q x.
Proof. destruct o as [x|]; cbn; split; intros H; [intros y E; injection E as <-; exact (Forall_inv H)|constructor; [exact (H _ eq_refl)|constructor]|discriminate|constructor]. Qed.
Lemma title_step_in s m m' : ms_in s m -> md_title_step m = Ok (Some m') -> ms_in s m'.
Proof.
  intros (S0 & F) H. pose proof (title_step_Suffix _ _ H) as S1. split; [exact (Suffix_trans _ _ _ S0 S1)|]. apply (Forall_within_le _ _ (sp_off (ms_start m'))) in F; [|exact (proj1 (Suffix_off _ _ S1))].
  unfold md_title_step in H. destruct (ms_title m) eqn:Et; [discriminate H|]. apply bind_ok in H. destruct H as (mt & El & H). apply take_norm_inv in El. destruct El as (l & r & n & Hl & ->). cbn [mi_item mi_after] in H.
  match type of H with (if ?b then _ else _) = _ => destruct b; [|discriminate H] end. apply bind_ok in H. destruct H as (t & Ed & H). apply bind_ok in H. destruct H as (ws & _ & H). match type of H with (if ?b then _ else _) = _ => destruct b; [|discriminate H] end.
  apply Ok_inj in H. injection H as <-. unfold ms_spans in *. rewrite Et in F. cbn [ms_title ms_anchor ms_reftext ms_attrlist given app ms_start] in *. constructor; [|exact F].
  apply within_in with (x := with_data (ms_start m) n); [|exact (discard_Sub _ _ _ Ed)]. exact (within_out _ _ _ _ (Suffix_Sub _ _ S0) (line_within _ _ _ _ Hl)).
Qed.
Lemma block_anchor_in s mi ws : parse_maybe_block_anchor s = Ok (Some mi, ws) -> within s (sp_off (mi_after mi)) (mi_item mi).
Proof.
  unfold parse_maybe_block_anchor. destruct (starts_with _ _); [|discriminate]. intros H. apply bind_ok in H. destruct H as (mt & El & H). apply take_norm_inv in El. destruct El as (l & r & n & Hl & ->). cbn [mi_item mi_after] in H.
  destruct (ends_with _ _); [|discriminate H]. apply bind_ok in H. destruct H as (e & _ & H). apply bind_ok in H. destruct H as (a & Ea & H). destruct (is_nil _); [discriminate H|]. apply Ok_inj in H. injection H as <- _. cbn [mi_item mi_after].
  exact (within_in _ _ _ _ (line_within _ _ _ _ Hl) (slice_Sub _ _ _ _ Ea)).
Qed.
Lemma anchor_step_in U s m r : ms_in s m -> md_anchor_step U m = Ok r -> ms_in s (fst r).
Proof.
  intros (S0 & F) H. pose proof (anchor_step_Suffix _ _ _ H) as S1. split; [exact (Suffix_trans _ _ _ S0 S1)|]. apply (Forall_within_le _ _ (sp_off (ms_start (fst r)))) in F; [|exact (proj1 (Suffix_off _ _ S1))].
  unfold md_anchor_step in H. destruct (ms_anchor m) eqn:Em; [apply Ok_inj in H; subst r; exact F|]. apply bind_ok in H. destruct H as ([o w] & Ea & H). cbn [fst snd] in H.
  unfold ms_spans in F. rewrite Em in F. cbn [given app] in F.
  destruct o as [mi|]; [|apply Ok_inj in H; subst r; exact F]. pose proof (block_anchor_in _ _ _ Ea) as W. apply (within_out _ _ _ _ (Suffix_Sub _ _ S0)) in W.
  apply bind_ok in H. destruct H as (m' & Es & H). apply Ok_inj in H. subst r. cbn [fst] in *. destruct (position _ _).
  - apply bind_ok in Es. destruct Es as (last & _ & Es). destruct (_ <? _).
    + apply bind_ok in Es. destruct Es as (a1 & E1 & Es). apply bind_ok in Es. destruct Es as (a2 & E2 & Es). apply Ok_inj in Es. subst m'. destruct (is_xml_name _ _); unfold ms_spans; cbn [ms_title ms_anchor ms_reftext ms_attrlist given app ms_start fst] in *; [|exact F].
      apply Forall_app in F. destruct F as (F1 & F2). apply Forall_app in F2. destruct F2 as (_ & F3). apply Forall_app. split; [exact F1|]. constructor; [exact (within_in _ _ _ _ W (slice_to_Sub _ _ _ E1))|]. constructor; [exact (within_in _ _ _ _ W (slice_from_Sub _ _ _ E2))|exact F3].
    + apply Ok_inj in Es. subst m'. destruct (is_xml_name _ _); unfold ms_spans; cbn [ms_title ms_anchor ms_reftext ms_attrlist given app ms_start fst] in *; [|exact F].
      apply Forall_app in F. destruct F as (F1 & F2). apply Forall_app. split; [exact F1|]. constructor; [exact W|exact F2].
  - apply Ok_inj in Es. subst m'. destruct (is_xml_name _ _); unfold ms_spans; cbn [ms_title ms_anchor ms_reftext ms_attrlist given app ms_start fst] in *; [|exact F].
    apply Forall_app in F. destruct F as (F1 & F2). apply Forall_app. split; [exact F1|]. constructor; [exact W|exact F2].
Qed.
Lemma attrlist_step_in E P s m r : ms_in s m -> md_attrlist_step E P m = Ok r -> ms_in s (fst r).
Proof.
  intros (S0 & F) H. pose proof (attrlist_step_Suffix _ _ _ _ H) as S1. split; [exact (Suffix_trans _ _ _ S0 S1)|]. apply (Forall_within_le _ _ (sp_off (ms_start (fst r)))) in F; [|exact (proj1 (Suffix_off _ _ S1))].
  unfold md_attrlist_step in H. destruct (ms_attrlist m) eqn:Em; [apply Ok_inj in H; subst r; exact F|]. apply bind_ok in H. destruct H as (o & Ea & H). apply Ok_inj in H. subst r.
  destruct o as [aw|]; [|exact F]. cbn [fst ms_start] in *. unfold parse_maybe_attrlist_line in Ea. destruct (starts_with _ _); [|discriminate Ea]. apply bind_ok in Ea. destruct Ea as (mt & El & Ea). apply take_norm_inv in El. destruct El as (l & q & n & Hl & ->). cbn [mi_item mi_after] in Ea.
  destruct (ends_with _ _); [|discriminate Ea]. apply bind_ok in Ea. destruct Ea as (e & _ & Ea). apply bind_ok in Ea. destruct Ea as (a & Es & Ea). destruct (_ || _); [discriminate Ea|].
  apply bind_ok in Ea. destruct Ea as (x & Ex & Ea). apply Ok_inj in Ea. injection Ea as <-. apply attrlist_place in Ex. cbn [fst mi_item mi_after] in *.
  unfold ms_spans in *. rewrite Em in F. cbn [ms_title ms_anchor ms_reftext ms_attrlist given map] in *. rewrite app_nil_r in F. rewrite !app_assoc in F |- *. rewrite !app_assoc. apply Forall_app. rewrite <- app_assoc. rewrite <- app_assoc in F. split; [exact F|]. constructor; [|constructor].
  rewrite Ex. apply within_in with (x := with_data (ms_start m) n); [|exact (slice_Sub _ _ _ _ Es)]. exact (within_out _ _ _ _ (Suffix_Sub _ _ S0) (line_within _ _ _ _ Hl)).
Qed.
Lemma md_loop_in E P s : forall fuel m m', ms_in s m -> md_loop E P fuel m = Ok m' -> ms_in s m'.
Proof.
  induction fuel as [|fuel IH]; intros m m' F H; cbn [md_loop] in H; [discriminate H|]. apply bind_ok in H. destruct H as (o & Eo & H). destruct o as [m1|].
  - exact (IH _ _ (title_step_in _ _ _ F Eo) H).
  - apply bind_ok in H. destruct H as (a & Ea & H). pose proof (anchor_step_in _ _ _ _ F Ea) as F1. destruct (snd a); [exact (IH _ _ F1 H)|].
    apply bind_ok in H. destruct H as (l & El & H). pose proof (attrlist_step_in _ _ _ _ _ F1 El) as F2. destruct (snd l); [exact (IH _ _ F2 H)|]. apply Ok_inj in H. subst m'. exact F2.
Qed.
Definition cm_spans (m : common) : list span := given (cm_title_source m) ++ given (cm_anchor m) ++ given (cm_reftext m) ++ map al_source (given (cm_attrlist m)).
Lemma metadata_in E s P m ws : metadata_parse E s P = Ok (m, ws) -> Forall (within (md_source m) (sp_off (md_start m))) (cm_spans (common_of m)).
Proof.
  unfold metadata_parse. rewrite discard_empty_lines_ok. cbn [bind]. intros H. apply bind_ok in H. destruct H as (x & Ex & H). apply bind_ok in H. destruct H as (t & _ & H). apply Ok_inj in H. injection H as <- _.
  apply (md_loop_in _ _ (p_discard_empty_lines s)) in Ex; [exact (proj2 Ex)|]. split; [apply Suffix_refl|constructor].
Qed.

(** * The blocks *)
(** The block [b] is the text of [src] up to a place, without white space at the end; what is in it lies
    between [st] and that place. *)
Definition shaped (src st : span) (b : block) : Prop := exists pre rest y w, sp_data src = pre ++ rest /\ pre = y ++ w /\ blank w /\ block_span b = with_data src y /\
  sp_off st <= sp_off src + blen pre /\ Forall (fun x => within src (sp_off src + blen pre) x /\ sp_off st <= sp_off x) (inner b).
Lemma shaped_cut src st a b y w pre : Suffix src st -> Suffix st a -> trim_remainder src a = Ok (with_data src pre) -> pre = y ++ w -> blank w -> block_span b = with_data src y ->
  Forall (fun x => Sub st x /\ upto x <= sp_off a) (inner b) -> shaped src st b.
Proof.
  intros S1 S2 Ht Ep Bw Hb F. pose proof (Suffix_trans _ _ _ S1 S2) as S3. destruct (suffix_cut _ _ S3) as (q & D & Eo & Et). rewrite Et in Ht. apply Ok_inj in Ht. apply (f_equal sp_data) in Ht. cbn [sp_data with_data] in Ht. subst q.
  exists pre, (sp_data a), y, w. split; [exact D|]. split; [exact Ep|]. split; [exact Bw|]. split; [exact Hb|]. rewrite <- Eo. split; [exact (proj1 (Suffix_off _ _ S2))|].
  eapply Forall_impl; [|exact F]. intros x (A & B). split; [split; [exact (Sub_trans _ _ _ (Suffix_Sub _ _ S1) A)|exact B]|exact (proj1 (Sub_off _ _ A))].
Qed.
Lemma lines_place E s a P mi : parse_lines E s a P = Ok (Some mi) -> exists pre rest, sp_data s = pre ++ rest /\ mi_after mi = p_discard_empty_lines (skip s pre rest) /\
  Sub s (ct_original (fst (mi_item mi))) /\ upto (ct_original (fst (mi_item mi))) <= sp_off (skip s pre rest) /\ ct_original (fst (mi_item mi)) = with_data s (trim_end pre).
Proof.
  intros H. destruct (parse_lines_inv _ _ _ _ _ H) as (pre & rest & D & _ & Eo & Ea). exists pre, rest. split; [exact D|]. split; [exact Ea|]. destruct (trim_end_spec pre) as (z & Ez & _). rewrite Eo. split; [|split; [|reflexivity]].
  - rewrite <- (skip_nil s (trim_end pre)). apply Sub_intro with (post := z ++ rest). cbn [app]. rewrite app_assoc, <- Ez. exact D.
  - unfold upto. cbn [sp_off sp_data with_data]. rewrite sp_off_skip. rewrite Ez at 2. rewrite blen_app. lia.
Qed.
Lemma fast_shaped E s P mi : simple_parse_fast E s P = Ok (Some mi) -> shaped s s (mi_item mi) /\ above (mi_item mi) = [].
Proof.
  intros H. unfold simple_parse_fast in H. apply bind_ok in H. destruct H as (o & Ho & H). destruct o as [x|]; [|discriminate H]. rewrite discard_empty_lines_ok in H. cbn [bind] in H. apply Ok_inj in H. injection H as <-. cbn [mi_item].
  destruct (lines_place _ _ _ _ _ Ho) as (pre & rest & D & _ & L1 & L2 & L3). destruct (trim_end_spec pre) as (z & Ez & Bz & _). split; [|reflexivity].
  apply shaped_cut with (a := skip s pre rest) (y := trim_end pre) (w := z) (pre := pre); [apply Suffix_refl|apply Suffix_intro, D| |exact Ez|exact Bz|exact L3|].
  - apply (trim_to s pre rest); [exact D|apply sp_off_skip].
  - constructor; [exact (conj L1 L2)|constructor].
Qed.
Lemma simple_shaped E m P mi : Suffix (md_source m) (md_start m) -> simple_parse E m P = Ok (Some mi) -> shaped (md_source m) (md_start m) (mi_item mi) /\ block_common (mi_item mi) = common_of m /\ exists c s st m', mi_item mi = BSimple c s st m'.
Proof.
  intros S H. unfold simple_parse in H. apply bind_ok in H. destruct H as (o & Ho & H). destruct o as [x|]; [|discriminate H]. destruct (lines_place _ _ _ _ _ Ho) as (pre & rest & D & Ea & L1 & L2 & L3).
  assert (S3 : Suffix (md_start m) (skip (md_start m) pre rest)) by (apply Suffix_intro; exact D).
  assert (S4 : Suffix (md_start m) (mi_after x)) by (rewrite Ea; eapply Suffix_trans; [exact S3|apply discard_empty_Suffix]).
  destruct (suffix_cut _ _ (Suffix_trans _ _ _ S S4)) as (q & Dq & Eq & Et). rewrite Et in H. cbn [bind] in H. rewrite trim_trailing_whitespace_ok in H. cbn [bind] in H. rewrite discard_empty_lines_ok in H. cbn [bind] in H.
  apply Ok_inj in H. injection H as <-. cbn [mi_item block_common]. unfold p_trim_trailing_whitespace. cbn [sp_data with_data]. rewrite with_data_with_data. destruct (trim_end_spec q) as (z & Ez & Bz & _).
  split; [|split; [reflexivity|do 4 eexists; reflexivity]]. apply shaped_cut with (a := mi_after x) (y := trim_end q) (w := z) (pre := q); [exact S|exact S4|exact Et|exact Ez|exact Bz|reflexivity|].
  constructor; [split; [exact L1|]|constructor]. rewrite Ea. pose proof (Suffix_off _ _ (discard_empty_Suffix (skip (md_start m) pre rest))). lia.
Qed.
Lemma line_end_Sub s x : trim_trailing_line_end s = Ok x -> Sub s x.
Proof. unfold trim_trailing_line_end. destruct (ends_with [CR; LF] _); [apply slice_Sub|]. destruct (ends_with [LF] _); [apply slice_Sub|]. intros H. apply Ok_inj in H. subst x. apply Sub_refl. Qed.
Lemma find_delimiter_place d s o f : find_delimiter (length (sp_data s)) d s = Ok (f, o) -> Suffix s f /\ match o with Some line => Suffix f (mi_after line) /\ Sub f (mi_item line) /\ upto (mi_item line) <= sp_off (mi_after line) | None => True end.
Proof.
  intros H. destruct (find_delimiter_spec d (length (sp_data s)) s (le_n _)) as (c & o' & _ & Ho). destruct o' as [r|].
  - destruct Ho as (l & D & Hl & _ & Ef). rewrite Ef in H. apply Ok_inj in H. injection H as <- <-. cbn [mi_after mi_item]. split; [apply Suffix_intro; exact D|]. rewrite <- (skip_skip s c (l ++ r) l r).
    assert (Ds : sp_data (skip s c (l ++ r)) = l ++ r) by apply sp_data_skip. split; [apply Suffix_intro; exact Ds|]. pose proof (line_within (skip s c (l ++ r)) l r d) as W. rewrite Ds in W. rewrite with_data_skip in W. exact (W Hl).
  - destruct Ho as (Ec & Ef). rewrite Ef in H. apply Ok_inj in H. injection H as <- <-. split; [|exact I]. apply Suffix_intro. rewrite app_nil_r. symmetry. exact Ec.
Qed.
Lemma rest_place s a c : Suffix s a -> trim_remainder s a = Ok c -> Sub s c /\ upto c <= sp_off a.
Proof.
  intros S H. split; [exact (trim_remainder_Sub _ _ _ H)|]. destruct (suffix_cut _ _ S) as (q & _ & Eo & Et). rewrite Et in H. apply Ok_inj in H. subst c. unfold upto. cbn [sp_off sp_data with_data]. lia.
Qed.
Lemma raw_shaped E m P mi w : Suffix (md_source m) (md_start m) -> raw_parse E m P = Ok (Some (mi, w)) -> shaped (md_source m) (md_start m) (mi_item mi) /\ block_common (mi_item mi) = common_of m.
Proof.
  intros S H. unfold raw_parse in H. apply bind_ok in H. destruct H as (de & El & H). apply take_norm_inv in El. destruct El as (l & r & n & Hl & ->). cbv zeta in H. cbn [mi_item mi_after] in H. destruct (_ <? _); [discriminate H|].
  destruct (raw_kind _) as [[model [context g]]|]; [|discriminate H]. apply bind_ok in H. destruct H as (v & _ & H). destruct (negb v); [discriminate H|]. apply bind_ok in H. destruct H as ([f o] & Ef & H). cbn [fst snd] in H.
  apply find_delimiter_place in Ef. destruct Ef as (Sf & Hf). pose proof (suffix_line _ _ _ _ Hl) as Sl. apply bind_ok in H. destruct H as (c & Ec & H). destruct (rest_place _ _ _ Sf Ec) as (C1 & C2).
  apply bind_ok in H. destruct H as (c' & Ec' & H). apply line_end_Sub in Ec'. pose proof (Sub_trans _ _ _ C1 Ec') as C3. pose proof (proj2 (Sub_off _ _ Ec')) as C4. clear C1.
  assert (K : forall a src0 src t, Suffix f a -> trim_remainder (md_source m) a = Ok src0 -> trim_trailing_line_end src0 = Ok src -> shaped (md_source m) (md_start m) (BRaw (mkct c' t) model context src (common_of m) g)).
  { intros a src0 src t Sa E1 E2. pose proof (Suffix_trans _ _ _ Sl (Suffix_trans _ _ _ Sf Sa)) as Sm. destruct (suffix_cut _ _ (Suffix_trans _ _ _ S Sm)) as (q & _ & _ & Et). rewrite Et in E1. apply Ok_inj in E1. subst src0.
    destruct (trim_line_end (with_data (md_source m) q)) as (y & Hy & Ey). rewrite Ey in E2. apply Ok_inj in E2. cbn [sp_data with_data] in Hy. rewrite with_data_with_data in E2. destruct (without_eol_blank _ _ Hy) as (z & Ez & Bz).
    apply shaped_cut with (a := a) (y := y) (w := z) (pre := q); auto. constructor; [|constructor]. cbn [ct_original]. split; [exact (Sub_trans _ _ _ (Suffix_Sub _ _ Sl) C3)|]. pose proof (proj1 (Suffix_off _ _ Sa)). lia. }
  destruct o as [line|].
  - apply bind_ok in H. destruct H as (g' & _ & H). apply bind_ok in H. destruct H as (t & _ & H). apply bind_ok in H. destruct H as (s1 & E1 & H). apply bind_ok in H. destruct H as (s2 & E2 & H). apply Ok_inj in H. injection H as <- _. cbn [mi_item block_common].
    split; [|reflexivity]. exact (K _ _ _ t (proj1 Hf) E1 E2).
  - apply bind_ok in H. destruct H as (s1 & E1 & H). apply bind_ok in H. destruct H as (s2 & E2 & H). apply Ok_inj in H. injection H as <- _. cbn [mi_item block_common]. split; [|reflexivity]. exact (K _ _ _ _ (Suffix_refl _) E1 E2).
Qed.
Lemma compound_shaped un m P mi w P1 : Suffix (md_source m) (md_start m) -> compound_parse un m P = Ok (Some (mi, (w, P1))) -> shaped (md_source m) (md_start m) (mi_item mi) /\ block_common (mi_item mi) = common_of m /\
  exists inside b, Sub (md_start m) inside /\ un inside P = Ok b /\ nested_blocks (mi_item mi) = br_blocks b.
Proof.
  intros S H. unfold compound_parse in H. apply bind_ok in H. destruct H as (de & El & H). apply take_norm_inv in El. destruct El as (l & r & n & Hl & ->). cbv zeta in H. cbn [mi_item mi_after] in H.
  destruct (compound_context _) as [cx|]; [|discriminate H]. apply bind_ok in H. destruct H as (v & _ & H). destruct (negb v); [discriminate H|]. apply bind_ok in H. destruct H as ([f o] & Ef & H). cbn [fst snd] in H.
  apply find_delimiter_place in Ef. destruct Ef as (Sf & Hf). pose proof (suffix_line _ _ _ _ Hl) as Sl. set (closing := match o with Some line => mi_item line | None => f end) in *.
  assert (Sc : Sub (md_start m) closing). { apply Sub_trans with (s2 := f); [exact (Suffix_Sub _ _ (Suffix_trans _ _ _ Sl Sf))|]. subst closing. destruct o; [apply Hf|apply Sub_refl]. }
  apply bind_ok in H. destruct H as (ins & Ei & H). apply bind_ok in H. destruct H as (b & Eb & H). rewrite discard_all_ok in H. cbn [bind] in H. apply bind_ok in H. destruct H as (src0 & E1 & H). rewrite trim_trailing_whitespace_ok in H. cbn [bind] in H.
  apply Ok_inj in H. injection H as <- _ _. cbn [mi_item block_common nested_blocks]. split; [|split; [reflexivity|exists ins, b; split; [|auto]; exact (Sub_trans _ _ _ (Suffix_Sub _ _ Sl) (trim_remainder_Sub _ _ _ Ei))]].
  pose proof (Sub_trans _ _ _ (Suffix_Sub _ _ S) Sc) as (p & q & D & Ed).
  assert (Eo : sp_off (p_discard_all closing) = sp_off (md_source m) + blen (p ++ sp_data closing)) by (unfold p_discard_all; rewrite sp_off_skip, Ed at 1; rewrite sp_off_skip, blen_app; lia).
  rewrite app_assoc in D. rewrite (trim_to _ _ _ _ D Eo) in E1. apply Ok_inj in E1. subst src0. set (pre := p ++ sp_data closing) in *. destruct (trim_end_spec pre) as (z & Ez & Bz & _).
  exists pre, q, (trim_end pre), z. split; [exact D|]. split; [exact Ez|]. split; [exact Bz|]. split; [reflexivity|]. split; [|constructor].
  rewrite <- Eo. unfold p_discard_all. rewrite sp_off_skip. pose proof (proj1 (Sub_off _ _ Sc)). lia.
Qed.
Lemma line_shaped m l r n c0 y b : Suffix (md_source m) (md_start m) -> md_head m -> a_line (sp_data (md_start m)) l r n -> n = c0 :: y -> is_ws c0 = false ->
  line_block_source m (skip (md_start m) l r) = Ok (block_span b) -> Forall (fun x => Sub (md_start m) x /\ upto x <= sp_off (skip (md_start m) l r)) (inner b) -> shaped (md_source m) (md_start m) b.
Proof.
  intros S Hh Hl En Hw Hs F. subst n. destruct (a_line_head _ _ _ _ _ Hl) as (z & Dz). pose proof (suffix_line _ _ _ _ Hl) as S3. pose proof (Suffix_trans _ _ _ S S3) as S4. destruct (suffix_cut _ _ S4) as (q & Dq & Eq & Et). rewrite sp_data_skip in Dq.
  rewrite (line_block_source_ok m q (skip (md_start m) l r) r Dq Eq (fun c y0 E0 => md_head_ws m _ _ Hh Dz Hw c (y0 ++ r) ltac:(rewrite Dq, E0; reflexivity))) in Hs. apply Ok_inj in Hs.
  destruct (trim_end_spec q) as (w & Ew & Bw & _). apply shaped_cut with (a := skip (md_start m) l r) (y := trim_end q) (w := w) (pre := q); auto.
Qed.
Lemma ident_Sub s x : take_ident s = Ok (Some x) -> Sub s (mi_after x).
Proof. intros H. unfold take_ident in H. rewrite take_name_ok in H. apply Ok_inj in H. exact (proj2 (p_take_name_Sub _ _ _ _ H)). Qed.
Lemma prefix_Sub s p x : take_prefix s p = Ok (Some x) -> Sub s (mi_after x).
Proof. unfold take_prefix. destruct (starts_with _ _); [|discriminate]. intros H. apply bind_ok in H. destruct H as (y & Hy & H). apply Ok_inj in H. injection H as <-. exact (proj2 (ipr_Sub _ _ _ Hy)). Qed.
Lemma media_shaped E m P mi w l r n c0 y : Suffix (md_source m) (md_start m) -> md_head m -> a_line (sp_data (md_start m)) l r n -> n = c0 :: y -> is_ws c0 = false -> media_parse E m P = Ok (Some mi, w) ->
  shaped (md_source m) (md_start m) (mi_item mi) /\ (exists rt, block_common (mi_item mi) = mkcm (md_title_source m) (md_title m) (md_anchor m) rt (md_attrlist m) /\ rt = None) /\ nested_blocks (mi_item mi) = [].
Proof.
  intros S Hh Hl En Hw H. unfold media_parse in H. rewrite (take_norm_eq _ _ _ _ Hl) in H. cbn [bind mi_item mi_after sp_data with_data] in H.
  destruct (ends_with (lit "]") n) eqn:Ee; [|discriminate H]. cbn [negb] in H. apply bind_ok in H. destruct H as (o & E1 & H). destruct o as [name|]; [|discriminate H]. destruct (media_type_of _) as [ty|]; [|discriminate H].
  apply bind_ok in H. destruct H as (o & E2 & H). destruct o as [colons|]; [|discriminate H]. apply bind_ok in H. destruct H as (target & E3 & H). destruct (is_nil _); [discriminate H|].
  apply bind_ok in H. destruct H as (o & E4 & H). destruct o as [ob|]; [|discriminate H]. apply bind_ok in H. destruct H as (e & Ec & H). apply bind_ok in H. destruct H as (al & Eal & H).
  apply bind_ok in H. destruct H as ([a aw] & Ea & H). apply bind_ok in H. destruct H as (src & Esrc & H). rewrite discard_empty_lines_ok in H. cbn [bind snd fst] in H. apply Ok_inj in H. injection H as <- _. cbn [mi_item block_common].
  split; [|split; [eexists; split; reflexivity|reflexivity]]. apply attrlist_place in Ea. cbn [fst] in Ea. pose proof (line_within _ _ _ _ Hl) as W. rewrite take_while_ok in E3. apply Ok_inj in E3. subst target. destruct (p_take_while_Sub (mi_after colons) (fun c => negb (c =? 91)%N)) as (T1 & T2).
  pose proof (Sub_trans _ _ _ (ident_Sub _ _ E1) (prefix_Sub _ _ _ E2)) as C. eapply line_shaped; eauto. cbn [inner]. rewrite Ea. constructor; [|constructor; [|constructor]].
  - exact (within_in _ _ _ _ W (Sub_trans _ _ _ C T1)).
  - exact (within_in _ _ _ _ W (Sub_trans _ _ _ C (Sub_trans _ _ _ T2 (Sub_trans _ _ _ (prefix_Sub _ _ _ E4) (slice_Sub _ _ _ _ Eal))))).
Qed.
Lemma break_shaped m mi : Suffix (md_source m) (md_start m) -> md_head m -> break_parse m = Ok (Some mi) ->
  shaped (md_source m) (md_start m) (mi_item mi) /\ (exists rt, block_common (mi_item mi) = mkcm (md_title_source m) (md_title m) (md_anchor m) rt (md_attrlist m) /\ rt = None) /\ nested_blocks (mi_item mi) = [].
Proof.
  intros S Hh H. unfold break_parse in H. apply bind_ok in H. destruct H as (line & El & H). apply take_norm_inv in El. destruct El as (l & r & n & Hl & ->). cbn [mi_item mi_after sp_data with_data] in H.
  destruct (break_type_of n) as [ty|] eqn:Eb; [|discriminate H]. destruct (break_head _ _ Eb) as (c0 & y & En & Hw). apply bind_ok in H. destruct H as (src & Esrc & H). rewrite discard_empty_lines_ok in H. cbn [bind] in H. apply Ok_inj in H. injection H as <-. cbn [mi_item block_common].
  split; [|split; [eexists; split; reflexivity|reflexivity]]. eapply line_shaped; eauto. constructor.
Qed.
Lemma title_place s mi w : parse_title_line s = Ok (Some mi, w) -> within s (sp_off (mi_after mi)) (snd (mi_item mi)) /\ Suffix s (mi_after mi).
Proof.
  intros E. destruct (take_non_empty s) as [(l & r & n & H & Hn & Ht & E2)|(H & E2)].
  2:{ exfalso. unfold parse_title_line in E. rewrite E2 in E. discriminate E. }
  destruct (title_line_cases s l r n H Hn Ht) as (j & q & Dj & Hq & Ep). rewrite Ep in E.
  destruct (Nat.eqb_spec j 1) as [->|J1]; [discriminate E|]. destruct (Nat.ltb_spec 6 j) as [J6|J6]; [discriminate E|].
  pose proof (span_while_app is_sp_tab q) as D. destruct (span_while is_sp_tab q) as [ws title] eqn:Es. cbn [fst snd] in *. destruct ws as [|x ws]; [discriminate E|].
  destruct j as [|j]; [discriminate E|]. unfold checked_sub in E. cbn [Nat.leb Nat.sub bind] in E. rewrite Nat.sub_0_r in E. injection E as <- <-. cbn [mi_item mi_after fst snd].
  assert (Dn : n = (repeat (mark_of n) (S j) ++ x :: ws) ++ title) by (rewrite <- app_assoc, <- D in *; exact Dj).
  split; [|exact (suffix_line _ _ _ _ H)]. apply within_in with (x := with_data s n); [exact (line_within _ _ _ _ H)|].
  eexists (repeat (mark_of n) (S j) ++ x :: ws), []. rewrite app_nil_r, sp_data_skip. split; [cbn [sp_data with_data]; exact Dn|]. reflexivity.
Qed.
Lemma section_shaped d E un m P mi ws P1 : good_until d un -> located d (md_source m) -> Suffix (md_source m) (md_start m) -> section_parse E un m P = Ok (Some mi, (ws, P1)) ->
  shaped (md_source m) (md_start m) (mi_item mi) /\ block_common (mi_item mi) = common_of m /\ exists f n s Q b, located d s /\ un f n s Q = Ok b /\ nested_blocks (mi_item mi) = br_blocks b.
Proof.
  intros G L S H. apply section_parse_inv in H.
  destruct H as (discrete & source & lt & w & sid & b & src0 & src & title & base & manual & reg & tp & np & bs & _ & Esrc & Hlt & _ & _ & _ & Hu & Ht & Es & _ & _ & _ & _ & _ & -> & _ & _).
  apply title_place in Hlt. destruct Hlt as (W & Sl). assert (S3 : Suffix (md_start m) source) by (rewrite Esrc; apply discard_empty_Suffix). pose proof (Suffix_trans _ _ _ S3 Sl) as S4.
  pose proof (located_Suffix _ _ _ (located_Suffix _ _ _ L S) S4) as L4. destruct (G _ _ _ _ _ L4 Hu) as (Sb & _). cbn [mi_item block_common nested_blocks].
  split; [|split; [reflexivity|do 5 eexists; split; [exact L4|split; [exact Hu|reflexivity]]]]. pose proof (Suffix_trans _ _ _ S4 Sb) as S5.
  destruct (suffix_cut _ _ (Suffix_trans _ _ _ S S5)) as (q & Dq & Eq & Et). rewrite Et in Ht. apply Ok_inj in Ht. subst src0. destruct (trim_end_spec q) as (z & Ez & Bz & _).
  apply shaped_cut with (a := br_after b) (y := trim_end q) (w := z) (pre := q); auto. cbn [inner ct_original]. constructor; [|constructor].
  destruct W as (W1 & W2). split; [exact (Sub_trans _ _ _ (Suffix_Sub _ _ S3) W1)|]. pose proof (proj1 (Suffix_off _ _ Sb)). lia.
Qed.
Lemma entry_shaped hdr s P m : attribute_parse hdr s P = Ok (Some m) -> shaped s s (BAttribute (mi_item m)) /\ Suffix s (mi_after m) /\ within s (sp_off (mi_after m)) (at_source (mi_item m)) /\
  Forall (within s (sp_off (mi_after m))) (at_name (mi_item m) :: given (at_value_source (mi_item m))).
Proof.
  intros H. destruct (logical_total (sp_data s)) as (c & r & Hc). destruct (attribute_parse_eq hdr s P c r Hc) as (pre & vs & E & Ev). cbv zeta in E, Ev. rewrite H in E.
  destruct (e_parse _) as [[n [u rest]]|] eqn:Ep; [|discriminate E]. destruct (e_value hdr P u rest) as [v| |]; cbn [bind] in E; try discriminate E. apply Ok_inj in E. injection E as ->. cbn [mi_item mi_after at_name at_value_source at_source].
  pose proof (logical_app _ _ _ Hc) as D. destruct (trim_end_spec c) as (z & Ez & Bz & _). destruct (Ev _ _ _ eq_refl) as ((post & Ed & _) & _ & Hv). set (dd := trim_end_by (N.eqb SP) (strip1 CR (strip1 LF c))) in *.
  assert (Hx : exists w, c = dd ++ w).
  { destruct (strip1_opt LF c) as (w1 & E1 & _). destruct (strip1_opt CR (strip1 LF c)) as (w2 & E2 & _). destruct (trim_end_by_app (N.eqb SP) (strip1 CR (strip1 LF c))) as (w3 & E3 & _). exists (w3 ++ w2 ++ w1). unfold dd. rewrite E1 at 1. rewrite E2 at 1. rewrite E3 at 1. rewrite <- !app_assoc. reflexivity. }
  destruct Hx as (w & Ew).
  assert (K : forall p x q, dd = p ++ x ++ q -> within s (sp_off s + blen c) (skip s p x)).
  { intros p x q Ex. split; [apply Sub_intro with (post := q ++ w ++ r); rewrite D, Ew, Ex, <- !app_assoc; reflexivity|]. unfold upto. rewrite sp_off_skip, sp_data_skip, Ew, Ex, !blen_app. lia. }
  assert (F : Forall (within s (sp_off s + blen c)) (skip s pre n :: given vs)).
  { constructor; [exact (K _ _ _ Ed)|]. apply given_forall. intros x Hx. destruct (Hv x Hx) as (_ & p' & Ex & ->). apply (K p' _ []). rewrite app_nil_r. exact Ex. }
  split; [|split; [apply Suffix_intro; exact D|split; [|rewrite sp_off_skip; exact F]]].
  - exists c, r, (trim_end c), z. split; [exact D|]. split; [exact Ez|]. split; [exact Bz|]. split; [reflexivity|]. split; [lia|]. cbn [inner at_name at_value_source]. eapply Forall_impl; [|exact F]. intros x W. split; [exact W|]. destruct W as (W & _). apply Sub_off in W. lia.
  - split; [rewrite <- (skip_nil s (trim_end c)); apply Sub_intro with (post := z ++ r); cbn [app]; rewrite app_assoc, <- Ez; exact D|]. unfold upto. cbn [sp_off sp_data with_data]. rewrite sp_off_skip. rewrite Ez at 2. rewrite blen_app. lia.
Qed.

(** * Held in the block *)
Lemma cut_held d src pre rest y w x : located d src -> sp_data src = pre ++ rest -> pre = y ++ w -> blank w -> within src (sp_off src + blen pre) x -> held d (with_data src y) x.
Proof.
  intros L D Ep Bw (Sx & Ux). pose proof Sx as Sx'. destruct Sx' as (p & q & Dx & Ex). split; [exact (located_Sub _ _ _ L Sx)|]. split; [exact (proj1 (Sub_off _ _ Sx))|].
  assert (Uo : upto x = sp_off src + blen (p ++ sp_data x)) by (unfold upto; rewrite Ex at 1; rewrite sp_off_skip, blen_app; lia). unfold upto at 2 3. cbn [sp_off sp_data with_data].
  destruct (Nat.le_gt_cases (upto x) (sp_off src + blen y)) as [Hle|Hgt]; [left; exact Hle|right]. rewrite app_assoc in Dx. rewrite D in Dx. subst pre.
  destruct (prefix_cut y (w ++ rest) (p ++ sp_data x) q) as (m1 & E1 & _); [rewrite app_assoc; exact Dx|lia|].
  destruct (prefix_cut (p ++ sp_data x) q (y ++ w) rest) as (m2 & E2 & _); [symmetry; exact Dx|lia|].
  rewrite E1, <- app_assoc in E2. apply app_inv_head in E2. subst w. apply Forall_app in Bw. destruct Bw as (Bm & _). rewrite Uo, E1, blen_app.
  rewrite Nat.add_assoc. destruct L as (a & b & Dd & _ & _ & Ho). unfold spec_offset in Ho. rewrite blen_utf8 in Ho. exists (a ++ y), m1, (m2 ++ rest ++ b). rewrite Dd, D, <- !app_assoc. split; [reflexivity|]. split; [exact Bm|]. rewrite !blen_app, Ho. lia.
Qed.
Definition fine (d : text) (b : block) : Prop :=
  (forall x, In x (inner b) -> held d (block_span b) x) /\
  (forall x, In x (above b) -> located d x /\ (held d (block_span b) x \/ stray b x)) /\
  forall x y, In x (above b) -> In y (inner b) -> upto x <= sp_off y \/ stray b x.
Lemma shaped_fine d src st b : located d src -> Suffix src st -> shaped src st b -> (forall x, In x (above b) -> within src (sp_off st) x \/ (located d x /\ stray b x)) -> fine d b.
Proof.
  intros L S (pre & rest & y & w & D & Ep & Bw & Hb & Hst & Hi) Ha. rewrite Forall_forall in Hi. split; [|split].
  - intros x Hx. rewrite Hb. exact (cut_held _ _ _ _ _ _ _ L D Ep Bw (proj1 (Hi x Hx))).
  - intros x Hx. destruct (Ha x Hx) as [W|(A & B)]; [|auto]. apply (within_le _ _ _ _ Hst) in W. pose proof (cut_held _ _ _ _ _ _ _ L D Ep Bw W) as K. rewrite Hb. split; [apply K|left; exact K].
  - intros x z Hx Hz. destruct (Ha x Hx) as [(_ & W)|(A & B)]; [left|right; exact B]. pose proof (proj2 (Hi z Hz)). lia.
Qed.
Lemma common_in m z x : Forall (within (md_source m) z) (cm_spans (common_of m)) -> forall b, block_common b = common_of m -> In x (above b) -> within (md_source m) z x.
Proof. intros F b Hb Hx. rewrite Forall_forall in F. apply F. unfold above in Hx. rewrite Hb in Hx. exact Hx. Qed.
Lemma common_less m z x : Forall (within (md_source m) z) (cm_spans (common_of m)) -> forall b, (exists rt, block_common b = mkcm (md_title_source m) (md_title m) (md_anchor m) rt (md_attrlist m) /\ rt = None) -> In x (above b) -> within (md_source m) z x.
Proof.
  intros F b (rt & Hb & Hr) Hx. subst rt. rewrite Forall_forall in F. apply F. unfold above in Hx. rewrite Hb in Hx. unfold cm_spans, common_of. cbn [cm_title_source cm_anchor cm_reftext cm_attrlist] in *. rewrite !in_app_iff in *. cbn in Hx. tauto.
Qed.

(** * Any block *)
Definition good_nested (d : text) (un : stop_fn -> nat -> span -> parser -> res bres) : Prop := forall f n s P b, located d s -> un f n s P = Ok b -> forall c, below (br_blocks b) c -> fine d c.
Lemma alone d b : nested_blocks b = [] -> fine d b -> forall c, below [b] c -> fine d c.
Proof. intros Hn F c Hc. apply below_one in Hc. rewrite Hn in Hc. destruct Hc as [->|Hc]; [exact F|destruct (below_nil _ Hc)]. Qed.
Lemma last_fine d E m ws P r mi : located d (md_source m) -> Suffix (md_source m) (md_start m) ->
  (forall b x, block_common b = common_of m -> (exists c s st m', b = BSimple c s st m') -> In x (above b) -> within (md_source m) (sp_off (md_start m)) x \/ (located d x /\ stray b x)) ->
  last_resort E m ws P = Ok r -> pr_item r = Some mi -> forall c, below [mi_item mi] c -> fine d c.
Proof.
  intros L S Ha H Hi. unfold last_resort in H. apply bind_ok in H. destruct H as (o & Eo & H). destruct o as [x|].
  - rewrite (finish_item _ _ _ _ H) in Hi. injection Hi as <-. destruct (simple_shaped _ _ _ _ S Eo) as (Sh & Hc & Hb). apply alone; [destruct Hb as (? & ? & ? & ? & ->); reflexivity|].
    apply (shaped_fine d _ _ _ L S Sh). intros y. exact (Ha _ y Hc Hb).
  - apply Ok_inj in H. subst r. discriminate Hi.
Qed.
Lemma no_block_fine d E m ws P r mi : located d (md_source m) -> Suffix (md_source m) (md_start m) -> Forall (within (md_source m) (sp_off (md_start m))) (cm_spans (common_of m)) ->
  no_block E m ws P = Ok r -> pr_item r = Some mi -> forall c, below [mi_item mi] c -> fine d c.
Proof.
  intros L S F H Hi. unfold no_block in H. apply bind_ok in H. destruct H as (o & _ & H). destruct (_ && _).
  - refine (last_fine d E (orphan_metadata m) _ P r mi L (Suffix_refl _) _ H Hi). intros b x Hc Hb Hx. right. unfold above in Hx. rewrite Hc in Hx. cbn in Hx. rewrite app_nil_r in Hx. destruct (md_reftext m) as [y|] eqn:Er; [|destruct Hx]. destruct Hx as [<-|[]].
    split; [|split; [rewrite Hc; exact Er|split; [rewrite Hc; reflexivity|exact Hb]]]. rewrite Forall_forall in F. apply (located_Sub _ _ _ L). apply (F y). unfold cm_spans, common_of. cbn [cm_reftext]. rewrite Er. cbn [given]. rewrite !in_app_iff. right. right. left. left. reflexivity.
  - refine (last_fine d E m _ P r mi L S _ H Hi). intros b x Hc _ Hx. left. exact (common_in _ _ _ F b Hc Hx).
Qed.
Lemma block_fine d E un s P r mi : good_until d un -> good_nested d un -> located d s -> block_parse_with E un s P = Ok r -> pr_item r = Some mi -> forall c, below [mi_item mi] c -> fine d c.
Proof.
  intros G GN L H Hi. unfold block_parse_with in H. apply bind_ok in H. destruct H as (fl & _ & H). apply bind_ok in H. destruct H as (fast & Ef & H). destruct fast as [x|].
  { rewrite (finish_item _ _ _ _ H) in Hi. injection Hi as <-. destruct (try_fast _ _); [|discriminate Ef]. destruct (fast_shaped _ _ _ _ Ef) as (Sh & Ha). apply alone.
    - unfold simple_parse_fast in Ef. apply bind_ok in Ef. destruct Ef as (o & _ & Ef). destruct o; [|discriminate Ef]. apply bind_ok in Ef. destruct Ef as (? & _ & Ef). apply Ok_inj in Ef. injection Ef as <-. reflexivity.
    - apply (shaped_fine d _ _ _ L (Suffix_refl _) Sh). rewrite Ha. intros y []. }
  apply bind_ok in H. destruct H as (entry & Ee & H). destruct entry as [attr|].
  { apply Ok_inj in H. subst r. cbn [pr_item] in Hi. injection Hi as <-. destruct (try_entry _); [|discriminate Ee]. apply alone; [reflexivity|]. cbn [mi_item]. apply (shaped_fine d s s); [exact L|apply Suffix_refl|exact (proj1 (entry_shaped _ _ _ _ Ee))|]. intros y []. }
  apply bind_ok in H. destruct H as ([m ws] & Em & H). cbn [fst snd] in H. destruct (metadata_Suffix _ _ _ _ _ Em) as (E1 & S). pose proof (metadata_head _ _ _ _ _ Em) as Hh. pose proof (metadata_in _ _ _ _ _ Em) as F.
  assert (L1 : located d (md_source m)) by (rewrite E1; exact (located_Suffix _ _ _ L (discard_empty_Suffix s))). clear E1 Em Ef Ee L. unfold with_metadata in H. apply bind_ok in H. destruct H as (bs & _ & H).
  assert (F1 : forall b, block_common b = common_of m -> forall x, In x (above b) -> within (md_source m) (sp_off (md_start m)) x \/ (located d x /\ stray b x)) by (intros b Hb x Hx; left; exact (common_in _ _ _ F b Hb Hx)).
  assert (F2 : forall b, (exists rt, block_common b = mkcm (md_title_source m) (md_title m) (md_anchor m) rt (md_attrlist m) /\ rt = None) -> forall x, In x (above b) -> within (md_source m) (sp_off (md_start m)) x \/ (located d x /\ stray b x)) by (intros b Hb x Hx; left; exact (common_less _ _ _ F b Hb Hx)).
  destruct (style_is _ _); [refine (last_fine d E m _ P r mi L1 S _ H Hi); intros b x Hc _ Hx; left; exact (common_in _ _ _ F b Hc Hx)|]. apply bind_ok in H. destruct H as (o & Eo & H). destruct o as [x|].
  { rewrite (finish_item _ _ _ _ H) in Hi. injection Hi as <-. destruct x as [x w]. cbn [fst]. destruct (raw_shaped _ _ _ _ _ S Eo) as (Sh & Hc). apply alone; [|exact (shaped_fine d _ _ _ L1 S Sh (F1 _ Hc))].
    destruct (Shape_Proof.raw_inv _ _ _ _ _ Eo) as (? & ? & ? & ? & ? & ->). reflexivity. }
  apply bind_ok in H. destruct H as (o & Eo2 & H). destruct o as [x|].
  { rewrite (finish_item _ _ _ _ H) in Hi. injection Hi as <-. destruct x as [x [w P1]]. cbn [fst]. destruct (compound_shaped _ _ _ _ _ _ S Eo2) as (Sh & Hc & ins & b & Si & Eb & En). intros c Hb. apply below_one in Hb. destruct Hb as [->|Hb]; [exact (shaped_fine d _ _ _ L1 S Sh (F1 _ Hc))|].
    rewrite En in Hb. exact (GN _ _ _ _ _ (located_Sub _ _ _ (located_Suffix _ _ _ L1 S) Si) Eb c Hb). }
  apply bind_ok in H. destruct H as (line & El & H). apply take_norm_inv in El. destruct El as (l & q & n & Hl & ->). cbn [mi_item sp_data with_data] in H.
  unfold try_media in H. apply bind_ok in H. destruct H as ([o w] & Eo3 & H). cbn [fst snd] in H. destruct o as [x|].
  { rewrite (finish_item _ _ _ _ H) in Hi. injection Hi as <-. destruct (starts_with (lit "image::") n || starts_with (lit "video::") n || starts_with (lit "video::") n) eqn:Es; [|discriminate Eo3].
    assert (Hn : exists c0 y, n = c0 :: y /\ is_ws c0 = false).
    { apply orb_true_iff in Es. destruct Es as [Es|Es]; [apply orb_true_iff in Es; destruct Es as [Es|Es]|]; apply starts_with_spec in Es; destruct Es as (z & ->); do 2 eexists; split; reflexivity. }
    destruct Hn as (c0 & y & En & Hw). destruct (media_shaped _ _ _ _ _ _ _ _ _ _ S Hh Hl En Hw Eo3) as (Sh & Hc & Hnb). apply alone; [exact Hnb|exact (shaped_fine d _ _ _ L1 S Sh (F2 _ Hc))]. }
  unfold try_section in H. apply bind_ok in H. destruct H as ([o [w' P1]] & Eo4 & H). cbn [fst snd] in H. destruct o as [x|].
  { apply Ok_inj in H. subst r. cbn [pr_item] in Hi. injection Hi as <-. destruct (starts_with_any _ _); [|discriminate Eo4]. destruct (section_shaped d _ _ _ _ _ _ _ G L1 S Eo4) as (Sh & Hc & f & k & s' & Q & b & Ls & Eb & En).
    intros c Hb. apply below_one in Hb. destruct Hb as [->|Hb]; [exact (shaped_fine d _ _ _ L1 S Sh (F1 _ Hc))|]. rewrite En in Hb. exact (GN _ _ _ _ _ Ls Eb c Hb). }
  unfold try_break in H. apply bind_ok in H. destruct H as (o & Eo5 & H). destruct o as [x|].
  { apply Ok_inj in H. subst r. cbn [pr_item] in Hi. injection Hi as <-. destruct (starts_with_any (lit "'-*<") n); [|discriminate Eo5]. destruct (break_shaped _ _ S Hh Eo5) as (Sh & Hc & Hnb). apply alone; [exact Hnb|exact (shaped_fine d _ _ _ L1 S Sh (F2 _ Hc))]. }
  exact (no_block_fine d E m _ _ r mi L1 S F H Hi).
Qed.
Lemma loop_fine d E : forall fuel f n s P b, located d s -> blocks_loop E fuel f n s P = Ok b -> forall c, below (br_blocks b) c -> fine d c.
Proof.
  induction fuel as [|fuel IH]; intros f n s P b L H; cbn [blocks_loop] in H.
  - destruct (sp_data s); [|discriminate H]. apply Ok_inj in H. subst b. intros c Hc. destruct (below_nil _ Hc).
  - destruct (sp_data s) eqn:D. { apply Ok_inj in H. subst b. intros c Hc. destruct (below_nil _ Hc). }
    apply bind_ok in H. destruct H as (st & _ & H). destruct (fst st). { apply Ok_inj in H. subst b. intros c Hc. destruct (below_nil _ Hc). }
    apply bind_ok in H. destruct H as (r & Er & H). apply bind_ok in H. destruct H as (rest & Hr & H). apply Ok_inj in H. subst b. cbn [br_blocks].
    destruct (pr_item r) as [mi|] eqn:Ei; [|exact (IH _ _ _ _ _ L Hr)].
    assert (GN : good_nested d (fun stop level source P => src <- discard_empty_lines source ;; blocks_loop E fuel stop level src P)).
    { intros f' n' s' P' b' L' Hb. rewrite discard_empty_lines_ok in Hb. cbn [bind] in Hb. exact (IH _ _ _ _ _ (located_Suffix _ _ _ L' (discard_empty_Suffix s')) Hb). }
    intros c Hc. change (mi_item mi :: br_blocks rest) with ([mi_item mi] ++ br_blocks rest) in Hc. apply below_app in Hc. destruct Hc as [Hc|Hc].
    + exact (block_fine d E _ s P r mi (until_ok d E fuel) GN L Er Ei c Hc).
    + destruct (block_ok d E _ s P r mi (until_ok d E fuel) L Er Ei) as (A1 & _). exact (IH _ _ _ _ _ (located_Suffix _ _ _ L A1) Hr c Hc).
Qed.
Lemma preamble_fine d bs ah bs' : make_preamble bs ah = Ok bs' -> (forall c, below bs c -> fine d c) -> forall c, below bs' c -> fine d c.
Proof.
  intros H F. unfold make_preamble in H. destruct (preamble_split 0 false bs) as [i|]; [|apply Ok_inj in H; subst bs'; exact F]. apply bind_ok in H. destruct H as (p & Ep & H). apply Ok_inj in H. subst bs'.
  unfold preamble_from_blocks in Ep. apply bind_ok in Ep. destruct Ep as (src & _ & Ep). apply Ok_inj in Ep. subst p. rewrite <- (firstn_skipn i bs) in F. intros c Hc.
  change (BPreamble (firstn i bs) src :: skipn i bs) with ([BPreamble (firstn i bs) src] ++ skipn i bs) in Hc. apply below_app in Hc. destruct Hc as [Hc|Hc]; [|apply F, below_app; right; exact Hc].
  apply below_one in Hc. destruct Hc as [->|Hc]; [|apply F, below_app; left; exact Hc]. split; [intros x []|]. split; [intros x []|intros x y []].
Qed.

(** * Headers *)
Lemma discard_fuel : forall f g s, length (sp_data s) <= f -> length (sp_data s) <= g -> p_discard_empty_lines_go f s = p_discard_empty_lines_go g s.
Proof.
  induction f as [|f IH]; intros g s Hf Hg.
  - destruct (sp_data s) eqn:D; [|cbn in Hf; lia]. destruct g; cbn [p_discard_empty_lines_go]; rewrite D; reflexivity.
  - destruct g as [|g]; cbn [p_discard_empty_lines_go]; destruct (sp_data s) as [|c t] eqn:D; try reflexivity; [cbn in Hg; lia|].
    destruct (p_take_empty_line s) as [line|] eqn:El; [|reflexivity]. unfold p_take_empty_line in El. destruct (forallb _ _); [|discriminate El]. injection El as <-.
    assert (K : length (sp_data (mi_after (p_take_line s))) < length (sp_data s)).
    { destruct (a_line_total (sp_data s)) as (l & r & n & Hl). pose proof (take_norm_eq _ _ _ _ Hl) as E. rewrite take_normalized_line_ok in E. apply Ok_inj in E. unfold p_take_normalized_line in E. injection E as _ E. rewrite E, sp_data_skip. apply (a_line_shorter _ _ _ _ Hl). rewrite D. discriminate. }
    rewrite D in K. apply IH; cbn [length] in *; lia.
Qed.
Lemma discard_blank s l r : a_line (sp_data s) l r [] -> sp_data s <> [] -> p_discard_empty_lines s = p_discard_empty_lines (skip s l r).
Proof.
  intros Hl Hs. pose proof (a_line_shorter _ _ _ _ Hl Hs) as K. pose proof (take_norm_eq _ _ _ _ Hl) as E. rewrite take_normalized_line_ok in E. apply Ok_inj in E. unfold p_take_normalized_line in E. injection E as E0 E.
  unfold p_discard_empty_lines at 1. destruct (sp_data s) as [|c t] eqn:D; [contradiction|]. cbn [length p_discard_empty_lines_go]. rewrite D. unfold p_take_empty_line.
  assert (F : forallb is_sp_tab (sp_data (mi_item (p_take_line s))) = true).
  { destruct (trim_end_by_app (N.eqb SP) (sp_data (mi_item (p_take_line s)))) as (w & Ew & Hw & _). rewrite E0 in Ew. cbn [app] in Ew. rewrite Ew. rewrite forallb_forall. intros x Hx. rewrite Forall_forall in Hw. specialize (Hw x Hx). apply N.eqb_eq in Hw. subst x. reflexivity. }
  rewrite F, E. apply discard_fuel; [rewrite sp_data_skip; cbn [length] in K; lia|apply le_n].
Qed.
Definition hs_spans (h : hstate) : list span :=
  given (s_title_source h) ++ s_comments h ++ flat_map (fun a => [at_source a; at_name a] ++ given (at_value_source a)) (s_attrs h) ++
  map aul_source (given (s_author h)) ++ map rv_source (given (s_revision h)).
Definition hs_in (o s : span) (h : hstate) : Prop := Forall (within o (sp_off s)) (hs_spans h) /\ (Suffix o s \/ p_discard_empty_lines s = o /\ s_title h = None) /\ (s_title h = None -> s_title_source h = None).
Lemma hs_in_parts o z h : Forall (within o z) (hs_spans h) <-> Forall (within o z) (given (s_title_source h)) /\ Forall (within o z) (s_comments h) /\
  Forall (within o z) (flat_map (fun a => [at_source a; at_name a] ++ given (at_value_source a)) (s_attrs h)) /\ Forall (within o z) (map aul_source (given (s_author h))) /\ Forall (within o z) (map rv_source (given (s_revision h))).
Proof. unfold hs_spans. rewrite !Forall_app. tauto. Qed.
Lemma author_place U s P r : author_line_parse U s P = Ok r -> aul_source (fst r) = s.
Proof. unfold author_line_parse. intros H. apply bind_ok in H. destruct H as (l & _ & H). apply Ok_inj in H. subst r. reflexivity. Qed.
Lemma revision_place E s P r : revision_parse E s P = Ok r -> rv_source (fst r) = s.
Proof. unfold revision_parse. cbv zeta. intros H. apply bind_ok in H. destruct H as (l & _ & H). apply bind_ok in H. destruct H as (d & _ & H). apply bind_ok in H. destruct H as (q & _ & H). apply Ok_inj in H. subst r. reflexivity. Qed.
Lemma header_step_in E o s h r : sp_data s <> [] -> hs_in o s h -> header_step E s h = Ok r -> match snd r with Some s' => hs_in o s' (fst r) | None => Forall (within o (sp_off s)) (hs_spans (fst r)) end.
Proof.
  intros Hs (F & So & Ht). unfold header_step. cbv zeta. intros H. apply bind_ok in H. destruct H as (li & El & H). apply take_norm_inv in El. destruct El as (l & q & n & Hl & ->). cbn [mi_item mi_after sp_data with_data] in H.
  pose proof (suffix_line _ _ _ _ Hl) as Sl. pose proof (Forall_within_le _ _ (sp_off (skip s l q)) _ (proj1 (Suffix_off _ _ Sl)) F) as F'.
  destruct n as [|c0 n0].
  { cbn [is_nil] in H. apply Ok_inj in H. subst r. cbn [fst snd]. destruct (is_some (s_title h)); [exact F|]. split; [exact F'|]. split; [|exact Ht]. destruct So as [So|(So & T0)]; [left; exact (Suffix_trans _ _ _ So Sl)|right]. rewrite <- (discard_blank _ _ _ Hl Hs). auto. }
  cbn [is_nil] in H. set (n := c0 :: n0) in *.
  assert (Nb : forall c, In c n -> ~ sp_tab c -> Suffix o s). { intros c Hc Hn. destruct So as [So|(So & _)]; [exact So|]. rewrite (discard_none _ _ _ _ _ Hl Hc Hn) in So. subst o. apply Suffix_refl. }
  assert (Wl : Suffix o s -> within o (sp_off (skip s l q)) (with_data s n)) by (intros K; exact (within_out _ _ _ _ (Suffix_Sub _ _ K) (line_within _ _ _ _ Hl))).
  assert (Slash : ~ sp_tab 47%N) by (intros [K|K]; discriminate K). assert (Colon : ~ sp_tab 58%N) by (intros [K|K]; discriminate K). assert (Eqs : ~ sp_tab 61%N) by (intros [K|K]; discriminate K).
  destruct (starts_with (lit "//") n && negb (starts_with (lit "///") n)) eqn:Ec.
  { apply Ok_inj in H. subst r. cbn [fst snd]. apply andb_true_iff in Ec. destruct Ec as (Ec & _). pose proof (Nb 47%N (starts_in _ _ _ Ec (or_introl eq_refl)) Slash) as K. split; [|split; [left; exact (Suffix_trans _ _ _ K Sl)|exact Ht]].
    apply hs_in_parts in F'. destruct F' as (A1 & A2 & A3 & A4 & A5). apply hs_in_parts. cbn [s_title_source s_comments s_attrs s_author s_revision]. split; [exact A1|]. split; [apply Forall_app; split; [exact A2|constructor; [exact (Wl K)|constructor]]|auto]. }
  apply bind_ok in H. destruct H as (oa & Eo & H). destruct oa as [a|].
  { apply bind_ok in H. destruct H as (P & _ & H). apply Ok_inj in H. subst r. cbn [fst snd]. unfold header_attr in Eo. cbn [sp_data with_data] in Eo. destruct (starts_with (lit ":") n) eqn:Es; [|discriminate Eo]. pose proof (Nb 58%N (starts_in _ _ _ Es (or_introl eq_refl)) Colon) as K.
    destruct (entry_shaped _ _ _ _ Eo) as (_ & B1 & B2 & B3). split; [|split; [left; exact (Suffix_trans _ _ _ K B1)|exact Ht]]. apply (Forall_within_le _ _ (sp_off (mi_after a)) _ (proj1 (Suffix_off _ _ B1))) in F.
    apply hs_in_parts in F. destruct F as (A1 & A2 & A3 & A4 & A5). apply hs_in_parts. cbn [s_title_source s_comments s_attrs s_author s_revision]. split; [exact A1|]. split; [exact A2|]. split; [|auto]. rewrite flat_map_app. apply Forall_app. split; [exact A3|]. cbn [flat_map]. rewrite app_nil_r.
    cbn [app]. pose proof (fun x W => within_out o s (sp_off (mi_after a)) x (Suffix_Sub _ _ K) W) as Up. constructor; [exact (Up _ B2)|]. eapply Forall_impl; [exact Up|exact B3]. }
  destruct (negb (is_some (s_title h)) && starts_with (lit "= ") n) eqn:Et.
  { apply bind_ok in H. destruct H as (d & Ed & H). rewrite discard_whitespace_ok in H. cbn [bind] in H. apply bind_ok in H. destruct H as (t & _ & H). apply Ok_inj in H. subst r. cbn [fst snd]. apply andb_true_iff in Et. destruct Et as (_ & Et). pose proof (Nb 61%N (starts_in _ _ _ Et (or_introl eq_refl)) Eqs) as K.
    split; [|split; [left; exact (Suffix_trans _ _ _ K Sl)|discriminate]]. apply hs_in_parts in F'. destruct F' as (A1 & A2 & A3 & A4 & A5). apply hs_in_parts. cbn [s_title_source s_comments s_attrs s_author s_revision]. split; [|auto]. constructor; [|constructor].
    apply (within_in _ _ _ _ (Wl K)). apply (Sub_trans _ _ _ (discard_Sub _ _ _ Ed)). exact (proj2 (p_take_while_Sub _ _)). }
  assert (Kt : is_some (s_title h) = true -> Suffix o s). { intros K. destruct So as [So|(_ & T0)]; [exact So|]. rewrite T0 in K. discriminate K. }
  destruct (is_some (s_title h) && negb (is_some (s_author h))) eqn:Ea.
  { apply bind_ok in H. destruct H as (ap & Eap & H). apply Ok_inj in H. subst r. cbn [fst snd]. apply andb_true_iff in Ea. destruct Ea as (Ea & _). pose proof (Kt Ea) as K. apply author_place in Eap. split; [|split; [left; exact (Suffix_trans _ _ _ K Sl)|exact Ht]].
    apply hs_in_parts in F'. destruct F' as (A1 & A2 & A3 & A4 & A5). apply hs_in_parts. cbn [s_title_source s_comments s_attrs s_author s_revision]. split; [exact A1|]. split; [exact A2|]. split; [exact A3|]. split; [|exact A5]. cbn [given map]. rewrite Eap. constructor; [exact (Wl K)|constructor]. }
  destruct (is_some (s_title h) && is_some (s_author h) && negb (is_some (s_revision h))) eqn:Er.
  { apply bind_ok in H. destruct H as (rp & Erp & H). apply Ok_inj in H. subst r. cbn [fst snd]. apply andb_true_iff in Er. destruct Er as (Er & _). apply andb_true_iff in Er. destruct Er as (Er & _). pose proof (Kt Er) as K. apply revision_place in Erp. split; [|split; [left; exact (Suffix_trans _ _ _ K Sl)|exact Ht]].
    apply hs_in_parts in F'. destruct F' as (A1 & A2 & A3 & A4 & A5). apply hs_in_parts. cbn [s_title_source s_comments s_attrs s_author s_revision]. split; [exact A1|]. split; [exact A2|]. split; [exact A3|]. split; [exact A4|]. cbn [given map]. rewrite Erp. constructor; [exact (Wl K)|constructor]. }
  apply Ok_inj in H. subst r. cbn [fst snd]. destruct (is_some _); exact F.
Qed.
Lemma header_loop_in E o : forall fuel s h r, hs_in o s h -> header_loop E fuel s h = Ok r -> Forall (within o (sp_off (snd r))) (hs_spans (fst r)).
Proof.
  induction fuel as [|fuel IH]; intros s h r F H; cbn [header_loop] in H.
  - destruct (sp_data s); [|discriminate H]. apply Ok_inj in H. subst r. exact (proj1 F).
  - destruct (sp_data s) eqn:D. { apply Ok_inj in H. subst r. exact (proj1 F). } apply bind_ok in H. destruct H as (x & Ex & H). assert (Hs : sp_data s <> []) by (rewrite D; discriminate). pose proof (header_step_in E o s h x Hs F Ex) as K.
    destruct (snd x); [exact (IH _ _ _ K H)|]. apply Ok_inj in H. subst r. exact K.
Qed.
Lemma slice0_inv s n x : slice s 0 n = Ok x -> exists pre rest, sp_data s = pre ++ rest /\ blen pre = n /\ x = with_data s pre.
Proof.
  unfold slice. destruct (bsplit n (sp_data s)) as [[p q]|] eqn:B; [|discriminate]. destruct (bsplit 0 p) as [[a b]|] eqn:B0; [|discriminate]. intros H. apply Ok_inj in H. subst x.
  apply bsplit_some in B. apply bsplit_some in B0. destruct B as (D & B). destruct B0 as (D0 & B0). symmetry in B, B0. apply blen_0 in B0. subst a. cbn [app] in D0. subst b. exists p, q. split; [exact D|]. split; [exact B|apply slice_internal_nil].
Qed.
Lemma remainder_inv o a x : trim_remainder o a = Ok x -> exists pre rest, sp_data o = pre ++ rest /\ x = with_data o pre /\ forall y, Sub o y -> upto y <= sp_off a -> upto y <= sp_off o + blen pre.
Proof.
  unfold trim_remainder. cbv zeta. fold (upto o). intros H. destruct (Nat.leb_spec (Nat.min (upto o) (sp_off a)) (sp_off o)) as [K|K]; apply slice0_inv in H; destruct H as (pre & rest & D & B & ->); exists pre, rest; (split; [exact D|]; split; [reflexivity|]); intros y Sy Uy; apply Sub_off in Sy; lia.
Qed.
Lemma header_held d E P h : header_parse E (span_new d) P = Ok h -> located d (h_source (mi_item (fst h))) /\ Forall (held d (h_source (mi_item (fst h)))) (header_spans (mi_item (fst h))).
Proof.
  intros H. unfold header_parse in H. rewrite discard_empty_lines_ok in H. cbn [bind] in H. apply bind_ok in H. destruct H as (r & Er & H). cbv zeta in H. apply bind_ok in H. destruct H as (? & _ & H). apply bind_ok in H. destruct H as (src0 & E1 & H).
  rewrite trim_trailing_whitespace_ok in H. cbn [bind] in H. apply Ok_inj in H. subst h. cbn [fst mi_item h_source]. set (o := p_discard_empty_lines (span_new d)) in *.
  assert (Lo : located d o) by exact (located_Suffix _ _ _ (located_new d) (discard_empty_Suffix _)).
  apply (header_loop_in E o) in Er. 2:{ split; [constructor|]. split; [right; split; reflexivity|reflexivity]. }
  destruct (remainder_inv _ _ _ E1) as (pre & rest & D & -> & Hy). unfold p_trim_trailing_whitespace. cbn [sp_data with_data]. destruct (trim_end_spec pre) as (z & Ez & Bz & _).
  split. { apply (located_prefix _ _ _ (z ++ rest) Lo). rewrite D, Ez at 1. rewrite <- app_assoc. reflexivity. }
  change (header_spans _) with (hs_spans (fst r)). eapply Forall_impl; [|exact Er]. intros v (Sx & Ux). exact (cut_held d o pre rest _ z v Lo D Ez Bz (conj Sx (Hy v Sx Ux))).
Qed.

(** * Documents *)
Theorem document_fine E fuel t sm P d P' : document_parse E fuel t sm P = Ok (d, P') ->
  (forall b, below (d_blocks d) b -> fine t b) /\ located t (h_source (d_header d)) /\ Forall (held t (h_source (d_header d))) (header_spans (d_header d)).
Proof.
  intros H. destruct (document_inv _ _ _ _ _ _ _ H) as (h & b & Hh & Hb & Hm & Ed & _). rewrite Ed. split; [|exact (header_held _ _ _ _ Hh)].
  assert (La : located t (mi_after (fst h))).
  { destruct h as [[hd after] [ws Ph]]. destruct (header_parse_spec _ _ _ _ _ _ _ Hh) as (x & src & _ & _ & _ & _ & _ & S1 & _ & _ & _ & _ & _ & _ & _ & _ & Ea & _). cbn [fst mi_after]. rewrite Ea. apply (located_Suffix _ _ _ (located_new t)). eapply Suffix_trans; [exact S1|apply discard_empty_Suffix]. }
  unfold parse_blocks_until in Hb. rewrite discard_empty_lines_ok in Hb. cbn [bind] in Hb. apply (preamble_fine _ _ _ _ Hm). exact (loop_fine _ _ _ _ _ _ _ _ (located_Suffix _ _ _ La (discard_empty_Suffix _)) Hb).
Qed.
