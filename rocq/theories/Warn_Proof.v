(** The places of the warnings, by induction over the document. *)
From Verif Require Import Text TextFacts Maps Span_Model Span_Pure Span_Spec Span_Proof Span_Laws Catalog_Model Parser_Model Subs_Model Attrlist_Model Attrlist_Proof
  Entry_Model Entry_Spec Entry_Proof Pre_Model Group_Model SecId_Model Header_Model Header_Spec Header_Proof Block_Model Block_Spec Block_Proof Doc_Model
  Shape_Proof Walk_Spec Walk_Proof Tree_Spec Tree_Proof Meta_Spec Meta_Proof Outline_Proof Catalog_Spec Catalog_Proof Warn_Spec.
From Coq Require Import Permutation.

(** * Spans *)
Lemma framed_in D s x y s' : located D s -> sp_data s = x ++ sp_data s' ++ y -> s' = skip s x (sp_data s') -> framed D x y s'.
Proof.
  intros (bf & bh & Dd & _ & _ & O) H E. exists bf, bh. split; [rewrite Dd, H, <- !app_assoc; reflexivity|].
  rewrite E, sp_off_skip, blen_app. unfold spec_offset in O. rewrite blen_utf8 in O. lia.
Qed.
Lemma norm_line_Sub s l r n : a_line (sp_data s) l r n -> Sub s (with_data s n).
Proof. intros H. destruct (a_line_prefix _ _ _ _ H) as (e & Ee). rewrite <- (skip_nil s n). apply Sub_intro with (post := e ++ r). rewrite (a_line_app _ _ _ _ H), Ee. cbn [app]. rewrite <- app_assoc. reflexivity. Qed.

(** * Attribute lists *)
Definition list_kind (w : warning_type) : Prop :=
  match w with WAttributeValueMissingTerminatingQuote | WEmptyAttributeValue | WEmptyShorthandItem | WMissingCommaAfterQuotedAttributeValue => True | _ => False end.
Lemma shorthand_loop_kinds : forall fuel s r, shorthand_loop fuel s = Ok r -> Forall list_kind (snd r).
Proof.
  induction fuel as [|fuel IH]; intros s r H; cbn [shorthand_loop] in H.
  { destruct (sp_data s); [|discriminate H]. apply Ok_inj in H. subst r. constructor. }
  destruct (sp_data s). { apply Ok_inj in H. subst r. constructor. }
  apply bind_ok in H. destruct H as (a & _ & H). destruct (position _ _) as [[|i]|].
  - apply bind_ok in H. destruct H as (q & Hq & H). apply Ok_inj in H. subst r. constructor; [exact I|exact (IH _ _ Hq)].
  - apply bind_ok in H. destruct H as (q & _ & H). apply bind_ok in H. destruct H as (q2 & Hq & H). apply Ok_inj in H. subst r. exact (IH _ _ Hq).
  - destruct (sp_data a); apply bind_ok in H; destruct H as (q & Hq & H).
    + apply Ok_inj in H. subst r. constructor; [exact I|exact (IH _ _ Hq)].
    + apply bind_ok in H. destruct H as (q2 & Hq2 & H). apply Ok_inj in H. subst r. exact (IH _ _ Hq2).
Qed.
Lemma shorthand_kinds t r : parse_shorthand_items t = Ok r -> Forall list_kind (snd r).
Proof.
  unfold parse_shorthand_items. intros H. apply bind_ok in H. destruct H as (o & _ & H). destruct o as [b|]; [|exact (shorthand_loop_kinds _ _ _ H)].
  apply bind_ok in H. destruct H as (d & _ & H). apply bind_ok in H. destruct H as (q & Hq & H). apply Ok_inj in H. subst r. exact (shorthand_loop_kinds _ _ _ Hq).
Qed.
Lemma ea_kinds norm src b i psh ctx r : ea_parse norm src b i psh ctx = Ok r -> Forall list_kind (snd (snd r)).
Proof.
  unfold ea_parse. intros H. apply bind_ok in H. destruct H as (s & _ & H). apply bind_ok in H. destruct H as (na & _ & H). apply bind_ok in H. destruct H as (ws & _ & H). apply bind_ok in H. destruct H as (v & Ev & H).
  apply bind_ok in H. destruct H as (v0 & _ & H). apply bind_ok in H. destruct H as (v1 & _ & H). apply bind_ok in H. destruct H as (sh & Esh & H). apply bind_ok in H. destruct H as (nm & _ & H). apply Ok_inj in H. subst r. cbn [fst snd].
  apply Forall_app. split.
  - assert (Un : forall a p, (x <- ea_unquoted a ;; Ok (x, (p, @nil warning_type))) = Ok v -> Forall list_kind (snd (snd v))).
    { intros a p K. apply bind_ok in K. destruct K as (x & _ & K). apply Ok_inj in K. subst v. constructor. }
    unfold ea_parse_value in Ev. destruct (sp_data _); [exact (Un _ _ Ev)|]. destruct (is_quote _); [|exact (Un _ _ Ev)].
    apply bind_ok in Ev. destruct Ev as (o & _ & Ev). destruct o as [x|]; [apply Ok_inj in Ev; subst v; constructor|]. apply bind_ok in Ev. destruct Ev as (x & _ & Ev). apply Ok_inj in Ev. subst v. constructor; [exact I|constructor].
  - destruct (fst na); [apply Ok_inj in Esh; subst sh; constructor|]. destruct (fst (snd v)); [exact (shorthand_kinds _ _ Esh)|apply Ok_inj in Esh; subst sh; constructor].
Qed.
Lemma loop_kinds norm src b ctx : forall fuel attrs psh ws i r, Forall list_kind ws -> attrlist_loop norm fuel src b ctx attrs psh ws i = Ok r -> Forall list_kind (fst (snd r)).
Proof.
  induction fuel as [|fuel IH]; intros attrs psh ws i r Hw H; cbn [attrlist_loop] in H; [discriminate H|].
  apply bind_ok in H. destruct H as (a & Ea & H). pose proof (ea_kinds _ _ _ _ _ _ _ Ea) as Ka. cbv zeta in H.
  assert (Hw2 : Forall list_kind (ws ++ snd (snd a))) by (apply Forall_app; auto).
  apply bind_ok in H. destruct H as (af & _ & H). destruct (_ && _); [apply Ok_inj in H; subst r; exact Hw2|].
  apply bind_ok in H. destruct H as (sp & _ & H). apply bind_ok in H. destruct H as (oc & _ & H). destruct oc as [c|]; [|apply Ok_inj in H; subst r; exact Hw2].
  apply bind_ok in H. destruct H as (sp2 & _ & H). destruct (starts_with _ _); [|exact (IH _ _ _ _ _ Hw2 H)].
  apply bind_ok in H. destruct H as (af2 & _ & H). refine (IH _ _ _ _ _ _ H). apply Forall_app. split; [exact Hw2|constructor; [exact I|constructor]].
Qed.
Lemma attrlist_kinds U norm P s ctx a ws : attrlist_parse U norm P s ctx = Ok (a, ws) -> Forall (fun w => w_source w = s /\ list_kind (w_type w)) ws.
Proof.
  unfold attrlist_parse. intros H. apply bind_ok in H. destruct H as (src & _ & H). apply bind_ok in H. destruct H as (af & _ & H). destruct (_ && _).
  - apply bind_ok in H. destruct H as (an & _ & H). apply Ok_inj in H. injection H as _ <-. constructor.
  - apply bind_ok in H. destruct H as (r & Er & H). apply Ok_inj in H. injection H as _ <-. apply Forall_forall. intros w Hw. apply in_map_iff in Hw. destruct Hw as (k & <- & Hk). split; [reflexivity|]. cbn [w_type].
    apply in_app_iff in Hk. destruct Hk as [Hk|Hk]; [exact (proj1 (Forall_forall _ _) (loop_kinds _ _ _ _ _ _ _ _ _ _ (Forall_nil _) Er) k Hk)|]. destruct (_ <? _); [destruct Hk as [<-|[]]; exact I|destruct Hk].
Qed.
Lemma list_tells U D s w : located D s -> framed D (lit "[") (lit "]") s -> ~ In LF (sp_data s) -> w_source w = s /\ list_kind (w_type w) -> tells U D w.
Proof. intros L F N (<- & K). split; [exact L|]. destruct (w_type w); try contradiction; split; assumption. Qed.

(** * Metadata *)
Lemma slice_cut s x y e s' : starts_with x (sp_data s) = true -> ends_with y (sp_data s) = true -> checked_sub (blen (sp_data s)) (blen y) = Ok e -> slice s (blen x) e = Ok s' ->
  sp_data s = x ++ sp_data s' ++ y /\ s' = skip s x (sp_data s').
Proof.
  intros Hs He Hc Hsl. apply starts_with_spec in Hs. destruct Hs as (q & Eq). apply ends_with_spec in He. destruct He as (p & Ep).
  unfold checked_sub in Hc. destruct (_ <=? _) eqn:El; [|discriminate Hc]. apply Ok_inj in Hc. apply Nat.leb_le in El.
  assert (Hb : blen x <= blen p). { unfold slice in Hsl. destruct (bsplit e (sp_data s)) as [[u v]|] eqn:E1; [|discriminate Hsl]. destruct (bsplit (blen x) u) as [[u1 u2]|] eqn:E2; [|discriminate Hsl].
    apply bsplit_some in E1, E2. destruct E1 as (_ & E1), E2 as (E2 & E3). apply (f_equal blen) in E2. rewrite blen_app in E2. apply (f_equal blen) in Ep. rewrite blen_app in Ep. lia. }
  rewrite Eq in Ep. destruct (prefix_cut x q p y Ep Hb) as (mid & E1 & E2). subst p q.
  assert (He : e = blen (x ++ mid)) by (rewrite Eq, !blen_app in Hc; rewrite blen_app; lia). subst e.
  rewrite He in Hsl. rewrite (slice_ok s x mid y) in Hsl by exact Eq. apply Ok_inj in Hsl. subst s'. rewrite sp_data_skip. auto.
Qed.
Lemma line_starts s l r n x y e : a_line (sp_data s) l r n -> starts_with x (sp_data s) = true -> checked_sub (blen n) (blen y) = Ok e -> blen x = blen y -> starts_with x n = true.
Proof.
  intros Hl Es Hc Hb. apply starts_with_spec in Es. destruct Es as (q & Eq). apply starts_with_spec. destruct (a_line_prefix _ _ _ _ Hl) as (w & Ew). pose proof (a_line_app _ _ _ _ Hl) as Eap. rewrite Eq, Ew, <- app_assoc in Eap.
  assert (Hle : blen x <= blen n). { unfold checked_sub in Hc. destruct (_ <=? _) eqn:K; [|discriminate Hc]. apply Nat.leb_le in K. lia. }
  destruct (prefix_cut _ _ _ _ Eap Hle) as (mm & -> & _). eauto.
Qed.
Section Warn.
Context (U : unicode) (D : text).
Definition quiet (w : warning) : Prop := tells U D w /\ duplicate_warning w = false.
Lemma quiet_one s k : located D s -> what U D s k -> duplicate_warning (mkwarn s k) = false -> Forall quiet [mkwarn s k].
Proof. intros L W N. constructor; [|constructor]. split; [split; assumption|exact N]. Qed.
Lemma list_quiet s w : located D s -> framed D (lit "[") (lit "]") s -> ~ In LF (sp_data s) -> w_source w = s /\ list_kind (w_type w) -> quiet w.
Proof. intros L F N K. split; [exact (list_tells U D s w L F N K)|]. destruct K as (_ & K). unfold duplicate_warning. destruct (w_type w); try contradiction; reflexivity. Qed.
Lemma anchor_quiet s o ws : located D s -> parse_maybe_block_anchor s = Ok (o, ws) -> Forall quiet ws /\
  forall mi, o = Some mi -> located D (mi_item mi) /\ framed D (lit "[[") (lit "]]") (mi_item mi).
Proof.
  intros L H. unfold parse_maybe_block_anchor in H. destruct (starts_with (lit "[[") (sp_data s)) eqn:Es; [|apply Ok_inj in H; injection H as <- <-; split; [constructor|intros mi K; discriminate K]].
  apply bind_ok in H. destruct H as (mt & Et & H). apply take_norm_inv in Et. destruct Et as (l & r & n & Hl & ->). cbn [mi_item mi_after sp_data with_data] in H.
  destruct (ends_with (lit "]]") n) eqn:Ee; [|apply Ok_inj in H; injection H as <- <-; split; [constructor|intros mi K; discriminate K]].
  apply bind_ok in H. destruct H as (e & Hc & H). apply bind_ok in H. destruct H as (a & Ha & H).
  assert (Ln : located D (with_data s n)) by exact (located_Sub _ _ _ L (norm_line_Sub _ _ _ _ Hl)).
  pose proof (line_starts s l r n (lit "[[") (lit "]]") e Hl Es Hc eq_refl) as Hs.
  destruct (slice_cut (with_data s n) (lit "[[") (lit "]]") e a Hs Ee Hc Ha) as (A1 & A2).
  pose proof (located_Sub _ _ _ Ln (slice_Sub _ _ _ _ Ha)) as La. pose proof (framed_in D _ _ _ _ Ln A1 A2) as Fa.
  destruct (sp_data a) as [|c0 t0] eqn:Da; cbn [is_nil] in H; apply Ok_inj in H; injection H as <- <-.
  - split; [apply quiet_one; [exact La|split; [exact Da|exact Fa]|reflexivity]|intros mi K; discriminate K].
  - split; [constructor|]. intros mi K. injection K as <-. cbn [mi_item]. auto.
Qed.
Lemma bad_name t : is_xml_name U t = false -> ~ id_name U t.
Proof. intros H K. apply xml_id in K. congruence. Qed.
Lemma anchor_step_quiet m r : located D (ms_start m) -> Forall quiet (ms_warnings m) -> md_anchor_step U m = Ok r -> Forall quiet (ms_warnings (fst r)).
Proof.
  intros L Hw H. unfold md_anchor_step in H. destruct (ms_anchor m); [apply Ok_inj in H; subst r; exact Hw|]. apply bind_ok in H. destruct H as ([o w] & Ea & H). cbn [fst snd] in H.
  destruct (anchor_quiet _ _ _ L Ea) as (Hq & Hi). pose proof (proj2 (Forall_app _ _ _) (conj Hw Hq)) as Hw2. destruct o as [mi|]; [|apply Ok_inj in H; subst r; exact Hw2].
  destruct (Hi mi eq_refl) as (Li & Fi). apply bind_ok in H. destruct H as (m' & Em & H). apply Ok_inj in H. subst r. cbn [fst].
  assert (Whole : forall x, is_xml_name U (sp_data (mi_item mi)) = x -> Forall quiet (ms_warnings (if x then mkms (ms_title m) (Some (mi_item mi)) (ms_reftext m) (ms_attrlist m) (mi_after mi) (ms_warnings m ++ w)
     else mkms (ms_title m) None (ms_reftext m) (ms_attrlist m) (ms_start m) ((ms_warnings m ++ w) ++ [mkwarn (mi_item mi) WInvalidBlockAnchorName])))).
  { intros x Hx. destruct x; cbn [ms_warnings]; [exact Hw2|]. apply Forall_app. split; [exact Hw2|]. apply quiet_one; [exact Li|split; [exact (bad_name _ Hx)|left; exact Fi]|reflexivity]. }
  destruct (position _ _) as [cp|] eqn:Ep.
  - apply bind_ok in Em. destruct Em as (last & _ & Em). destruct (_ <? _).
    + apply bind_ok in Em. destruct Em as (a1 & E1 & Em). apply bind_ok in Em. destruct Em as (a2 & _ & Em). apply Ok_inj in Em. subst m'. destruct (is_xml_name U (sp_data a1)) eqn:Ex; cbn [ms_warnings]; [exact Hw2|].
      apply Forall_app. split; [exact Hw2|]. apply quiet_one; [exact (located_Sub _ _ _ Li (slice_to_Sub _ _ _ E1))|split; [exact (bad_name _ Ex)|right]|reflexivity].
      rewrite position_spec in Ep. pose proof (span_while_app (fun c => negb (COMMA =? c)%N) (sp_data (mi_item mi))) as Dsp. pose proof (span_while_stop (fun c => negb (COMMA =? c)%N) (sp_data (mi_item mi))) as Dst.
      destruct (span_while _ _) as [u v]. cbn [fst snd] in *. symmetry in Dsp. destruct v as [|c v]; [discriminate Ep|]. injection Ep as <-. specialize (Dst _ _ eq_refl). apply negb_false_iff, N.eqb_eq in Dst. subst c.
      rewrite (slice_to_ok _ _ _ Dsp) in E1. apply Ok_inj in E1. subst a1. destruct Fi as (a & b & Dd & O). exists a, (v ++ lit "]]" ++ b). cbn [sp_data with_data]. split; [rewrite Dd, Dsp, <- !app_assoc; reflexivity|exact O].
    + apply Ok_inj in Em. subst m'. apply Whole. reflexivity.
  - apply Ok_inj in Em. subst m'. apply Whole. reflexivity.
Qed.
Lemma attrlist_line_quiet E P s mi ws : e_u E = U -> located D s -> parse_maybe_attrlist_line E s P = Ok (Some (mi, ws)) -> Forall quiet ws.
Proof.
  intros EU L H. unfold parse_maybe_attrlist_line in H. destruct (starts_with (lit "[") (sp_data s)) eqn:Es; [|discriminate H]. apply bind_ok in H. destruct H as (mt & Et & H). apply take_norm_inv in Et. destruct Et as (l & r & n & Hl & ->). cbn [mi_item mi_after sp_data with_data] in H.
  destruct (ends_with (lit "]") n) eqn:Ee; [|discriminate H]. apply bind_ok in H. destruct H as (e & Hc & H). apply bind_ok in H. destruct H as (a & Ha & H). destruct (_ || _); [discriminate H|].
  apply bind_ok in H. destruct H as ([q w] & Eq & H). apply Ok_inj in H. injection H as _ <-. cbn [snd].
  assert (Ln : located D (with_data s n)) by exact (located_Sub _ _ _ L (norm_line_Sub _ _ _ _ Hl)).
  pose proof (line_starts s l r n (lit "[") (lit "]") e Hl Es Hc eq_refl) as Hs.
  destruct (slice_cut (with_data s n) (lit "[") (lit "]") e a Hs Ee Hc Ha) as (A1 & A2).
  pose proof (located_Sub _ _ _ Ln (slice_Sub _ _ _ _ Ha)) as La. pose proof (framed_in D _ _ _ _ Ln A1 A2) as Fa.
  apply attrlist_kinds in Eq. eapply Forall_impl; [|exact Eq]. intros x. apply list_quiet; [exact La|exact Fa|].
  intros K. apply (a_line_no_lf _ _ _ _ Hl). cbn [sp_data with_data] in A1. rewrite A1. rewrite !in_app_iff. auto.
Qed.
Lemma attrlist_step_quiet E P m r : e_u E = U -> located D (ms_start m) -> Forall quiet (ms_warnings m) -> md_attrlist_step E P m = Ok r -> Forall quiet (ms_warnings (fst r)).
Proof.
  intros EU L Hw H. unfold md_attrlist_step in H. destruct (ms_attrlist m); [apply Ok_inj in H; subst r; exact Hw|]. apply bind_ok in H. destruct H as (o & Ea & H). apply Ok_inj in H. subst r.
  destruct o as [[aw ws]|]; [|exact Hw]. cbn [fst snd ms_warnings]. apply Forall_app. split; [exact Hw|exact (attrlist_line_quiet E P _ _ _ EU L Ea)].
Qed.
Lemma title_step_warnings m m' : md_title_step m = Ok (Some m') -> ms_warnings m' = ms_warnings m.
Proof.
  unfold md_title_step. destruct (ms_title m); [discriminate|]. intros H. apply bind_ok in H. destruct H as (mt & Et & H). destruct (_ && _); [|discriminate H].
  apply bind_ok in H. destruct H as (t & _ & H). apply bind_ok in H. destruct H as (ws & _ & H). destruct (is_nil _); [|discriminate H]. apply Ok_inj in H. injection H as <-. reflexivity.
Qed.
Lemma md_loop_quiet E P : e_u E = U -> forall fuel m m', located D (ms_start m) -> Forall quiet (ms_warnings m) -> md_loop E P fuel m = Ok m' -> Forall quiet (ms_warnings m').
Proof.
  intros EU. induction fuel as [|fuel IH]; intros m m' L Hw H; cbn [md_loop] in H; [discriminate H|]. apply bind_ok in H. destruct H as (o & Eo & H). destruct o as [m1|].
  - apply (IH m1 m'); [exact (located_Suffix _ _ _ L (title_step_Suffix _ _ Eo))|rewrite (title_step_warnings _ _ Eo); exact Hw|exact H].
  - apply bind_ok in H. destruct H as (a & Ea & H). pose proof (located_Suffix _ _ _ L (anchor_step_Suffix _ _ _ Ea)) as L1. rewrite EU in Ea. pose proof (anchor_step_quiet _ _ L Hw Ea) as W1. destruct (snd a); [exact (IH _ _ L1 W1 H)|].
    apply bind_ok in H. destruct H as (l & El & H). pose proof (located_Suffix _ _ _ L1 (attrlist_step_Suffix _ _ _ _ El)) as L2. pose proof (attrlist_step_quiet E P _ _ EU L1 W1 El) as W2. destruct (snd l); [exact (IH _ _ L2 W2 H)|].
    apply Ok_inj in H. subst m'. exact W2.
Qed.
Lemma md_loop_some E P : forall fuel m m', md_loop E P fuel m = Ok m' -> (ms_title m' = ms_title m /\ ms_attrlist m' = ms_attrlist m) \/ exists c y, sp_data (ms_start m) = c :: y /\ (c = 46%N \/ c = 91%N).
Proof.
  induction fuel as [|fuel IH]; intros m m' H; cbn [md_loop] in H; [discriminate H|]. apply bind_ok in H. destruct H as (o & Eo & H). destruct o as [m1|].
  - right. destruct (title_step_head _ _ Eo) as (y & K). eauto.
  - apply bind_ok in H. destruct H as (a & Ea & H).
    assert (Ka : ms_title (fst a) = ms_title m /\ ms_attrlist (fst a) = ms_attrlist m).
    { unfold md_anchor_step in Ea. destruct (ms_anchor m); [apply Ok_inj in Ea; subst a; auto|]. apply bind_ok in Ea. destruct Ea as ([o w] & _ & Ea). cbn [fst snd] in Ea. destruct o as [mi|]; [|apply Ok_inj in Ea; subst a; auto].
      apply bind_ok in Ea. destruct Ea as (m2 & E2 & Ea). apply Ok_inj in Ea. subst a. cbn [fst]. destruct (position _ _).
      - apply bind_ok in E2. destruct E2 as (la & _ & E2). destruct (_ <? _).
        + apply bind_ok in E2. destruct E2 as (x & _ & E2). apply bind_ok in E2. destruct E2 as (x2 & _ & E2). apply Ok_inj in E2. subst m2. destruct (is_xml_name _ _); auto.
        + apply Ok_inj in E2. subst m2. destruct (is_xml_name _ _); auto.
      - apply Ok_inj in E2. subst m2. destruct (is_xml_name _ _); auto. }
    destruct Ka as (K1 & K2). destruct (anchor_step_head _ _ _ Ea) as [S1|(y & K)]; [|right; eauto].
    destruct (snd a); [destruct (IH _ _ H) as [(A & B)|K]; [left; split; congruence|right; rewrite S1 in K; exact K]|].
    apply bind_ok in H. destruct H as (l & El & H). destruct (starts_with (lit "[") (sp_data (ms_start (fst a)))) eqn:Es.
    { right. rewrite S1 in Es. apply starts_with_spec in Es. destruct Es as (q & ->). do 2 eexists. split; [reflexivity|right; reflexivity]. }
    assert (Kl : l = (fst a, false)). { unfold md_attrlist_step in El. destruct (ms_attrlist (fst a)); [apply Ok_inj in El; auto|]. unfold parse_maybe_attrlist_line in El. rewrite Es in El. cbn [bind] in El. apply Ok_inj in El. auto. }
    subst l. cbn [fst snd] in H. apply Ok_inj in H. subst m'. auto.
Qed.
Lemma metadata_quiet E s P m ws : e_u E = U -> located D s -> metadata_parse E s P = Ok (m, ws) -> Forall quiet ws /\ (md_is_empty m = false -> exists c y, sp_data (md_source m) = c :: y /\ In c (lit ".[")).
Proof.
  intros EU L H. unfold metadata_parse in H. rewrite discard_empty_lines_ok in H. cbn [bind] in H. apply bind_ok in H. destruct H as (x & Ex & H). apply bind_ok in H. destruct H as (t & Et & H). apply Ok_inj in H. injection H as <- <-.
  split; [refine (md_loop_quiet E P EU _ _ _ _ _ Ex); [exact (located_Suffix _ _ _ L (discard_empty_Suffix s))|constructor]|]. unfold md_is_empty. cbn [md_title md_attrlist md_source]. intros K.
  destruct (md_loop_some _ _ _ _ _ Ex) as [(A & B)|(c & y & Dc & Hc)]; cbn [ms_title ms_attrlist ms_start] in *.
  - rewrite A in Et. apply Ok_inj in Et. subst t. rewrite B in K. discriminate K.
  - exists c, y. split; [exact Dc|]. destruct Hc as [-> | ->]; cbn; auto.
Qed.

(** * Headings *)
Lemma title_line_quiet s o ws : located D s -> parse_title_line s = Ok (o, ws) -> Forall quiet ws.
Proof.
  intros L H. destruct (a_line_total (sp_data s)) as (l & r & n & Hl).
  destruct n as [|c n0]. { unfold parse_title_line in H. destruct (take_non_empty s) as [(l' & r' & n' & Hl' & Hn & _)|(_ & E)]; [destruct (a_line_unique _ _ _ _ _ _ _ Hl Hl') as (_ & _ & <-); contradiction|]. rewrite E in H. cbn [bind] in H. apply Ok_inj in H. injection H as _ <-. constructor. }
  set (n := c :: n0) in *. assert (Hne : n <> []) by discriminate.
  assert (Hd : sp_data s <> []) by (intros K; rewrite K in Hl; apply Hne; exact (a_line_nil _ _ _ Hl)).
  destruct (title_line_cases s l r n Hl Hne Hd) as (j & q & Dj & Hq & E). rewrite E in H. clear E.
  assert (Hm : j <> 0 -> marks n j). { intros K. exists (mark_of n), q. split; [|split; [exact Dj|exact Hq]]. unfold mark_of, n. destruct (c =? 61)%N; cbn; auto. }
  pose proof (located_Sub _ _ _ L (norm_line_Sub _ _ _ _ Hl)) as Ln.
  destruct (Nat.eqb_spec j 1) as [->|K1]; [apply Ok_inj in H; injection H as _ <-; apply quiet_one; [exact Ln|apply Hm; discriminate|reflexivity]|].
  destruct (6 <? j) eqn:K6.
  - apply Ok_inj in H. injection H as _ <-. apply Nat.ltb_lt in K6. apply quiet_one; [exact Ln| |reflexivity]. split; [lia|]. replace (j - 1 + 1) with j by lia. apply Hm. lia.
  - destruct (fst (span_while is_sp_tab q)); [apply Ok_inj in H; injection H as _ <-; constructor|]. apply bind_ok in H. destruct H as (lv & _ & H). apply Ok_inj in H. injection H as _ <-. constructor.
Qed.
Lemma heading_level n k t : heading n k t -> 1 <= k <= 5.
Proof. intros (c & ws & _ & H & _). lia. Qed.
Lemma stop_quiet E discrete n s k st : e_u E = U -> located D s -> section_stop E discrete n s k = Ok st -> Forall quiet (snd (snd st)).
Proof.
  intros EU L H. unfold section_stop in H. destruct discrete; [apply Ok_inj in H; subst st; constructor|]. unfold peer_or_ancestor_section in H.
  apply bind_ok in H. destruct H as ([m ws] & Em & H). cbn [fst] in H. apply bind_ok in H. destruct H as (d & _ & H). destruct d; [apply Ok_inj in H; subst st; constructor|].
  destruct (metadata_Suffix _ _ _ _ _ Em) as (E1 & S2). assert (S1 : Suffix s (md_source m)) by (rewrite E1; apply discard_empty_Suffix). pose proof (located_Suffix _ _ _ (located_Suffix _ _ _ L S1) S2) as L2.
  apply bind_ok in H. destruct H as ([t w] & Et & H). cbn [fst snd] in H. pose proof (title_line_quiet _ _ _ L2 Et) as Hw. destruct t as [mi|]; [|apply Ok_inj in H; subst st; exact Hw].
  apply bind_ok in H. destruct H as (w2 & Ew & H). apply Ok_inj in H. subst st. cbn [snd]. apply Forall_app. split; [exact Hw|]. destruct (k + 1 <? fst (mi_item mi)) eqn:Ek; [|apply Ok_inj in Ew; subst w2; constructor].
  destruct (a_line_total (sp_data s)) as (l2 & r2 & y & H2). rewrite (take_norm_eq _ _ _ _ H2) in Ew. cbn [bind mi_item] in Ew. apply Ok_inj in Ew. subst w2. apply Nat.ltb_lt in Ek.
  destruct (title_line_some _ _ _ Et) as (l' & r' & x' & ti & _ & Hh & _). apply heading_level in Hh.
  apply quiet_one; [exact (located_Sub _ _ _ L (norm_line_Sub _ _ _ _ H2))|split; [lia|exact (a_line_no_lf _ _ _ _ H2)]|reflexivity].
Qed.

(** * Blocks without blocks *)
Lemma raw_quiet E m P mi w : located D (md_start m) -> raw_parse E m P = Ok (Some (mi, w)) -> Forall quiet w.
Proof.
  intros L H. destruct (a_line_total (sp_data (md_start m))) as (l & r & d & Hl). destruct (raw_delimiter_b d) as (b & Eb & Hb).
  destruct b. 2:{ rewrite (raw_parse_none E m P l r d Hl) in H; [discriminate H|]. intros K. apply Hb in K. discriminate K. }
  assert (Hd : raw_delimiter d) by (apply Hb; reflexivity). unfold raw_parse in H. rewrite (take_norm_eq _ _ _ _ Hl) in H. cbn [bind mi_item mi_after sp_data with_data] in H.
  destruct (blen d <? 4); [discriminate H|]. destruct (raw_kind d) as [[model [context g0]]|]; [|discriminate H]. rewrite Eb in H. cbn [bind negb] in H.
  apply bind_ok in H. destruct H as (f & _ & H). apply bind_ok in H. destruct H as (c1 & _ & H). apply bind_ok in H. destruct H as (c2 & _ & H). destruct (snd f).
  - apply bind_ok in H. destruct H as (g & _ & H). apply bind_ok in H. destruct H as (t & _ & H). apply bind_ok in H. destruct H as (s1 & _ & H). apply bind_ok in H. destruct H as (s2 & _ & H). apply Ok_inj in H. injection H as _ <-. constructor.
  - apply bind_ok in H. destruct H as (s1 & _ & H). apply bind_ok in H. destruct H as (s2 & _ & H). apply Ok_inj in H. injection H as _ <-. apply quiet_one; [exact (located_Sub _ _ _ L (norm_line_Sub _ _ _ _ Hl))|left; exact Hd|reflexivity].
Qed.
Lemma compound_quiet un m P mi w P1 : located D (md_start m) -> compound_parse un m P = Ok (Some (mi, (w, P1))) ->
  exists inside b w0 cx src, located D inside /\ un inside P = Ok b /\ w = w0 ++ br_warnings b /\ Forall quiet w0 /\ P1 = br_parser b /\ mi_item mi = BCompound (br_blocks b) cx src (common_of m).
Proof.
  intros L H. destruct (a_line_total (sp_data (md_start m))) as (l & r & d & Hl). destruct (compound_delimiter_b d) as (v & Eb & Hb).
  destruct v. 2:{ rewrite (compound_parse_none _ m P l r d Hl) in H; [discriminate H|]. intros K. apply Hb in K. discriminate K. }
  assert (Hd : compound_delimiter d) by (apply Hb; reflexivity). unfold compound_parse in H. rewrite (take_norm_eq _ _ _ _ Hl) in H. cbn [bind mi_item mi_after sp_data with_data] in H.
  destruct (compound_context d); [|discriminate H]. rewrite Eb in H. cbn [bind negb] in H. apply bind_ok in H. destruct H as (f & _ & H). apply bind_ok in H. destruct H as (ins & Ei & H). apply bind_ok in H. destruct H as (b & Eu & H).
  apply bind_ok in H. destruct H as (ca & _ & H). apply bind_ok in H. destruct H as (s1 & _ & H). apply bind_ok in H. destruct H as (s2 & _ & H). apply Ok_inj in H.
  pose proof (located_Sub _ _ _ (located_Suffix _ _ _ L (suffix_line _ _ _ _ Hl)) (trim_remainder_Sub _ _ _ Ei)) as Li. exists ins, b. apply Some_inj in H. apply pair_equal_spec in H. destruct H as (<- & H). apply pair_equal_spec in H. destruct H as (<- & <-). destruct (is_nil _).
  - eexists [_], _, _. split; [exact Li|]. split; [exact Eu|]. split; [reflexivity|]. split; [|split; reflexivity]. apply quiet_one; [exact (located_Sub _ _ _ L (norm_line_Sub _ _ _ _ Hl))|right; exact Hd|reflexivity].
  - eexists [], _, _. split; [exact Li|]. split; [exact Eu|]. split; [reflexivity|]. split; [constructor|split; reflexivity].
Qed.
Lemma media_quiet E m P mi w : located D (md_start m) -> media_parse E m P = Ok (Some mi, w) -> Forall quiet w.
Proof.
  intros L H. unfold media_parse in H. apply bind_ok in H. destruct H as (line & Et & H). apply take_norm_inv in Et. destruct Et as (l & r & n & Hl & ->). cbn [mi_item mi_after sp_data with_data] in H.
  destruct (ends_with (lit "]") n) eqn:Ee; [|discriminate H]. cbn [negb] in H. apply bind_ok in H. destruct H as (o & E1 & H). destruct o as [name|]; [|discriminate H]. destruct (media_type_of _) as [ty|]; [|discriminate H].
  apply bind_ok in H. destruct H as (o & E2 & H). destruct o as [colons|]; [|discriminate H]. apply bind_ok in H. destruct H as (target & E3 & H). destruct (is_nil _); [discriminate H|].
  apply bind_ok in H. destruct H as (o & E4 & H). destruct o as [ob|]; [|discriminate H]. apply bind_ok in H. destruct H as (e & Ec & H). apply bind_ok in H. destruct H as (al & Eal & H).
  apply bind_ok in H. destruct H as ([a aw] & Ea & H). apply bind_ok in H. destruct H as (src & _ & H). rewrite discard_empty_lines_ok in H. cbn [bind snd] in H. apply Ok_inj in H. injection H as _ <-.
  pose proof (located_Sub _ _ _ L (norm_line_Sub _ _ _ _ Hl)) as Ln.
  assert (S1 : Suffix (with_data (md_start m) n) (mi_after name)).
  { unfold take_ident in E1. rewrite take_name_ok in E1. apply Ok_inj in E1. unfold p_take_name in E1. destruct (sp_data (with_data (md_start m) n)) as [|c t] eqn:Dn; [discriminate E1|]. match type of E1 with (if ?b then _ else _) = _ => destruct b; [|discriminate E1] end.
    match type of E1 with context [span_while ?f t] => pose proof (span_while_app f t) as K; destruct (span_while f t) as [u v] end. cbn [fst snd] in *. injection E1 as <-. apply Suffix_intro. rewrite Dn, <- K. reflexivity. }
  assert (Pre : forall s p x, take_prefix s p = Ok (Some x) -> mi_after x = skip s p (sp_data (mi_after x)) /\ sp_data s = p ++ sp_data (mi_after x)).
  { intros s p x K. rewrite take_prefix_ok in K. apply Ok_inj in K. unfold p_take_prefix in K. destruct (starts_with p (sp_data s)) eqn:Es; [|discriminate K]. injection K as <-. cbn [psplit mi_after]. rewrite sp_data_skip. split; [reflexivity|]. apply starts_with_spec in Es. destruct Es as (q & ->). rewrite skipn_app, Nat.sub_diag, skipn_all. reflexivity. }
  destruct (Pre _ _ _ E2) as (A2 & D2). assert (S2 : Suffix (mi_after name) (mi_after colons)) by (rewrite A2; apply Suffix_intro; exact D2).
  assert (S3 : Suffix (mi_after colons) (mi_after target)).
  { rewrite take_while_ok in E3. apply Ok_inj in E3. subst target. destruct (pwhile_at (mi_after colons) (fun c => negb (c =? 91)%N)) as (u & v & K1 & K2 & ->). cbn [mi_after]. apply Suffix_intro. exact K2. }
  pose proof (Suffix_trans _ _ _ S1 (Suffix_trans _ _ _ S2 S3)) as S4. pose proof (located_Suffix _ _ _ Ln S4) as Lt.
  destruct (Pre _ _ _ E4) as (A4 & D4). set (rest := sp_data (mi_after ob)) in *.
  assert (Er : exists x, rest = x ++ lit "]").
  { destruct S4 as (p & Dp & _). cbn [sp_data with_data] in Dp. apply ends_with_spec in Ee. destruct Ee as (q & Eq). rewrite Dp, D4 in Eq. unfold checked_sub in Ec. destruct (_ <=? _) eqn:K; [|discriminate Ec]. apply Nat.leb_le in K.
    destruct rest as [|c0 r0] eqn:Dr; [cbn in K; lia|]. destruct (exists_last (l := c0 :: r0)) as (x & z & Ez); [discriminate|]. rewrite Ez in *. exists x. f_equal. rewrite !app_assoc in Eq. apply app_inj_tail in Eq. destruct Eq as (_ & ->). reflexivity. }
  destruct Er as (x & Ex). unfold checked_sub in Ec. destruct (_ <=? _) in Ec; [|discriminate Ec]. apply Ok_inj in Ec. subst e.
  assert (Es0 : slice (mi_after ob) 0 (blen x) = Ok (with_data (mi_after ob) x)) by (apply slice0_ok with (c := lit "]"); exact Ex). fold rest in Eal. rewrite Ex, blen_app in Eal. change (blen (lit "]")) with 1 in Eal. rewrite Nat.add_sub in Eal. rewrite Es0 in Eal. apply Ok_inj in Eal. subst al.
  apply attrlist_kinds in Ea. eapply Forall_impl; [|exact Ea]. intros y. apply list_quiet.
  - rewrite A4, with_data_skip. apply (located_Sub _ _ _ Lt). apply Sub_intro with (post := lit "]"). rewrite D4, Ex. reflexivity.
  - apply (framed_in D (mi_after target)); [exact Lt|cbn [sp_data with_data]; rewrite D4, Ex; reflexivity|]. cbn [sp_data with_data]. rewrite A4 at 1. apply with_data_skip.
  - cbn [sp_data with_data]. intros K. apply (a_line_no_lf _ _ _ _ Hl). destruct S4 as (p & Dp & _). cbn [sp_data with_data] in Dp. rewrite Dp, D4, Ex. rewrite !in_app_iff. auto.
Qed.
Lemma trim_end_keeps p z c r : p = r ++ [c] -> is_ws c = false -> exists y, trim_end (p ++ z) = p ++ y.
Proof.
  intros Ep Hc. destruct (trim_end_spec (p ++ z)) as (w & Ez & Bw & _). destruct (Nat.le_gt_cases (blen p) (blen (trim_end (p ++ z)))) as [Hle|Hgt].
  - destruct (prefix_cut _ _ _ _ Ez Hle) as (y & -> & _). eauto.
  - symmetry in Ez. destruct (prefix_cut _ _ _ _ Ez (Nat.lt_le_incl _ _ Hgt)) as (y & E1 & E2). exfalso. destruct (exists_last (l := y)) as (y0 & c0 & ->).
    { intros ->. rewrite app_nil_r in E1. rewrite <- E1 in Hgt. lia. }
    rewrite Ep, app_assoc in E1. apply app_inj_tail in E1. destruct E1 as (_ & <-). subst w. apply Forall_app in Bw. destruct Bw as (Bw & _). apply Forall_app in Bw. destruct Bw as (_ & Bw). apply Forall_inv in Bw. congruence.
Qed.
Lemma word_not_ws c : word_first c \/ c = 45%N -> is_ws c = false.
Proof. intros H. unfold is_ws. repeat rewrite orb_false_iff. repeat split; try (apply N.eqb_neq; unfold word_first in H; lia); try (apply andb_false_iff; rewrite !N.leb_gt; unfold word_first in H; lia). Qed.
Lemma user_name_last n : user_name n -> exists r c, n = r ++ [c] /\ is_ws c = false.
Proof.
  intros (c & r & -> & Hc & Hr). destruct (exists_last (l := c :: r)) as (x & z & Ez); [discriminate|]. exists x, z. split; [exact Ez|]. apply word_not_ws.
  assert (K : Forall (fun d => word_first d \/ d = 45%N) (c :: r)) by (constructor; auto). rewrite Ez in K. apply Forall_app in K. exact (Forall_inv (proj2 K)).
Qed.
Lemma entry_name hdr s P mi : attribute_parse hdr s P = Ok (Some mi) -> Sub s (at_source (mi_item mi)) /\ Suffix s (mi_after mi) /\ user_name (sp_data (at_name (mi_item mi))) /\
  exists y, sp_data (at_source (mi_item mi)) = lit ":" ++ sp_data (at_name (mi_item mi)) ++ y \/ sp_data (at_source (mi_item mi)) = lit ":!" ++ sp_data (at_name (mi_item mi)) ++ y.
Proof.
  intros H. destruct (logical_total (sp_data s)) as (c & r & Hc). destruct (attribute_parse_eq hdr s P c r Hc) as (pre & vs & E & En). cbv zeta in E, En. rewrite H in E.
  destruct (e_parse _) as [[n [u rest]]|] eqn:Ep; [|discriminate E]. destruct (e_value hdr P u rest) as [v| |]; cbn [bind] in E; try discriminate E. apply Ok_inj in E. injection E as ->. cbn [mi_item mi_after at_source at_name sp_data with_data]. rewrite sp_data_skip.
  destruct (En n u rest eq_refl) as ((post & Ed & Hp) & _). split; [|split; [|split]].
  - destruct (trim_end_spec c) as (z & Ez & _). rewrite <- (skip_nil s). apply Sub_intro with (post := z ++ r). rewrite (logical_app _ _ _ Hc), Ez at 1. rewrite <- app_assoc. reflexivity.
  - apply Suffix_intro. exact (logical_app _ _ _ Hc).
  - apply e_parse_iff in Ep. inversion Ep; assumption.
  - assert (Hu : user_name n) by (apply e_parse_iff in Ep; inversion Ep; assumption). destruct (user_name_last n Hu) as (q & z & Eq & Hz).
    assert (Hx : exists w, c = (pre ++ n) ++ w).
    { destruct (strip1_opt LF c) as (w1 & E1 & _). destruct (strip1_opt CR (strip1 LF c)) as (w2 & E2 & _). destruct (trim_end_by_app (N.eqb SP) (strip1 CR (strip1 LF c))) as (w3 & E3 & _). rewrite Ed in E3. exists (post ++ w3 ++ w2 ++ w1). rewrite E1 at 1. rewrite E2 at 1. rewrite E3 at 1. rewrite <- !app_assoc. reflexivity. }
    destruct Hx as (w & Ew). destruct (trim_end_keeps (pre ++ n) w z (pre ++ q)) as (y & Ey); [rewrite Eq, app_assoc; reflexivity|exact Hz|]. rewrite <- Ew in Ey. exists y. rewrite Ey, <- !app_assoc. destruct Hp as [-> | ->]; auto.
Qed.
Lemma locked_quiet s a ws : located D s -> Sub s (at_source a) -> user_name (sp_data (at_name a)) -> (exists y, sp_data (at_source a) = lit ":" ++ sp_data (at_name a) ++ y \/ sp_data (at_source a) = lit ":!" ++ sp_data (at_name a) ++ y) ->
  ws = [] \/ ws = [mkwarn (at_source a) (WAttributeValueIsLocked (remap_attr_name U (sp_data (at_name a))))] -> Forall quiet ws.
Proof. intros L Hs Hu (y & Hy) [-> | ->]; [constructor|]. apply quiet_one; [exact (located_Sub _ _ _ L Hs)| |reflexivity]. cbn [what]. exists (sp_data (at_name a)), y. auto. Qed.
Lemma body_warnings P a : snd (set_attribute_from_body U P a) = [] \/ snd (set_attribute_from_body U P a) = [mkwarn (at_source a) (WAttributeValueIsLocked (remap_attr_name U (sp_data (at_name a))))].
Proof. unfold set_attribute_from_body. match goal with |- context [if ?b then _ else _] => destruct b end; auto. Qed.
Lemma header_warnings P a : snd (set_attribute_from_header U P a) = [] \/ snd (set_attribute_from_header U P a) = [mkwarn (at_source a) (WAttributeValueIsLocked (remap_attr_name U (sp_data (at_name a))))].
Proof. unfold set_attribute_from_header. match goal with |- context [if ?b then _ else _] => destruct b end; auto. Qed.

(** * Repeated ids *)
Lemma repeats_in l : forall s1 s2, (forall i, In i s1 <-> In i s2) -> repeats s1 l = repeats s2 l.
Proof.
  induction l as [|[i o] l IH]; intros s1 s2 H; [reflexivity|]. cbn [repeats]. rewrite (IH (i :: s1) (i :: s2)) by (intros j; cbn [In]; rewrite H; tauto).
  destruct (in_dec _ i s1) as [K|K], (in_dec _ i s2) as [K2|K2]; try reflexivity; apply H in K || apply H in K2; contradiction.
Qed.
Lemma repeats_app l2 l1 : forall s, repeats s (l1 ++ l2) = repeats s l1 ++ repeats (map fst l1 ++ s) l2.
Proof.
  induction l1 as [|[i o] l1 IH]; intros s; [reflexivity|]. cbn [app repeats map fst]. rewrite IH, <- app_assoc. f_equal. f_equal. apply repeats_in. intros j. cbn [In]. rewrite !in_app_iff. cbn [In]. tauto.
Qed.
Lemma reported_app a b : reported (a ++ b) = reported a ++ reported b.
Proof. apply flat_map_app. Qed.
Lemma reported_quiet ws : Forall quiet ws -> reported ws = [].
Proof. induction 1 as [|w ws (_ & Hw) _ IH]; [reflexivity|]. cbn [reported flat_map]. fold (reported ws). rewrite IH, app_nil_r. unfold duplicate_warning in Hw. destruct (w_type w); try reflexivity. discriminate Hw. Qed.
Lemma quiet_tells ws : Forall quiet ws -> Forall (tells U D) ws.
Proof. apply Forall_impl. intros w (H & _). exact H. Qed.
Lemma reference_ids b : log_ids (reference b) = map fst (match registered b with Some i => [(i, sp_off (block_span b))] | None => [] end).
Proof. unfold reference. destruct (registered b); [destruct b|]; reflexivity. Qed.
Lemma placed_ids : forall b, log_ids (references b) = map fst (placed b).
Proof.
  fix IH 1. intros b. assert (L : forall l, log_ids (flat_map references l) = map fst (flat_map placed l)).
  { induction l as [|x l IHl]; [reflexivity|]. cbn [flat_map]. unfold log_ids in *. rewrite !map_app, IHl. f_equal. apply IH. }
  destruct b; cbn [references placed]; unfold log_ids in *; rewrite !map_app; try rewrite L; f_equal; exact (reference_ids _).
Qed.
Lemma placed_all l : log_ids (flat_map references l) = map fst (flat_map placed l).
Proof. induction l as [|x l IH]; [reflexivity|]. cbn [flat_map]. unfold log_ids in *. rewrite !map_app, IH. f_equal. apply placed_ids. Qed.

(** * All blocks *)
Definition ids_told (P : parser) (bs : list block) (ws : list warning) (P' : parser) : Prop :=
  forall c l, p_catalog P = Some c -> agrees c l -> exists c', p_catalog P' = Some c' /\ agrees c' (keep_first l (flat_map references bs)) /\
    Permutation (reported ws) (repeats (log_ids l) (flat_map placed bs)).
Definition told (P : parser) (bs : list block) (ws : list warning) (P' : parser) : Prop := Forall (tells U D) ws /\ ids_told P bs ws P'.
Lemma told_same P ws P' : Forall quiet ws -> p_catalog P' = p_catalog P -> told P [] ws P'.
Proof. intros H E. split; [exact (quiet_tells _ H)|]. intros c l Hc A. exists c. rewrite E. split; [exact Hc|]. split; [exact A|]. rewrite (reported_quiet _ H). constructor. Qed.
Lemma told_item P b ws P' : registered b = None -> nested_blocks b = [] -> Forall quiet ws -> p_catalog P' = p_catalog P -> told P [b] ws P'.
Proof.
  intros Hr Hn H E. split; [exact (quiet_tells _ H)|]. intros c l Hc A. exists c. rewrite E. split; [exact Hc|].
  assert (R1 : references b = []) by (destruct b; cbn [references nested_blocks] in *; subst; unfold reference; rewrite Hr; reflexivity).
  assert (R2 : placed b = []) by (destruct b; cbn [placed nested_blocks] in *; subst; rewrite Hr; reflexivity).
  cbn [flat_map]. rewrite R1, R2. split; [exact A|]. rewrite (reported_quiet _ H). constructor.
Qed.
Lemma told_app P l1 w1 P1 l2 w2 P2 : told P l1 w1 P1 -> told P1 l2 w2 P2 -> told P (l1 ++ l2) (w1 ++ w2) P2.
Proof.
  intros (T1 & H1) (T2 & H2). split; [apply Forall_app; auto|]. intros c l Hc A. destruct (H1 c l Hc A) as (c1 & Hc1 & A1 & N1). destruct (H2 c1 _ Hc1 A1) as (c2 & Hc2 & A2 & N2). exists c2. split; [exact Hc2|].
  rewrite !flat_map_app, keep_first_app. split; [exact A2|]. rewrite reported_app, repeats_app. apply Permutation_app; [exact N1|].
  rewrite (repeats_in _ (map fst (flat_map placed l1) ++ log_ids l) (log_ids (keep_first l (flat_map references l1)))); [exact N2|]. intros i. rewrite keep_first_ids, in_app_iff, placed_all. tauto.
Qed.
(** The end of a block that is not a section. *)
Lemma finish_told P0 bs mi w wq w1 P r : nested_blocks (mi_item mi) = bs -> no_blocks (mi_item mi) \/ (exists l cx src cm, mi_item mi = BCompound l cx src cm) ->
  w = wq ++ w1 -> Forall quiet wq -> told P0 bs w1 P -> located D (block_span (mi_item mi)) -> finish mi w P = Ok r -> told P0 [mi_item mi] (pr_warnings r) (pr_parser r).
Proof.
  intros Hn Hb -> Q (T & N) L H. destruct (finish_inv _ _ _ _ H) as (id & Ei & ->). cbn [pr_parser pr_warnings]. destruct (registered_leaf _ _ Hb Ei) as (Er & Ef). split.
  - apply Forall_app. split; [apply Forall_app; split; [exact (quiet_tells _ Q)|exact T]|]. unfold register_block_id. destruct id; [|constructor]. destruct (p_catalog P); [|constructor]. cbn [snd]. match goal with |- context [if ?b then _ else _] => destruct b end; repeat constructor. exact L.
  - intros c l Hc A. destruct (N c l Hc A) as (c1 & Hc1 & A1 & N1). cbn [flat_map]. rewrite !app_nil_r.
    assert (R1 : references (mi_item mi) = flat_map references bs ++ reference (mi_item mi)) by (subst bs; destruct (mi_item mi); reflexivity).
    assert (R2 : placed (mi_item mi) = flat_map placed bs ++ match id with Some i => [(i, sp_off (block_span (mi_item mi)))] | None => [] end) by (rewrite <- Er; subst bs; destruct (mi_item mi); reflexivity).
    rewrite R1, R2, keep_first_app, repeats_app, !reported_app, (reported_quiet _ Q). cbn [app].
    assert (K : exists c', p_catalog (fst (register_block_id id (cm_title (block_common (mi_item mi))) (block_span (mi_item mi)) P)) = Some c' /\ agrees c' (keep_first (keep_first l (flat_map references bs)) (reference (mi_item mi))) /\
      reported (snd (register_block_id id (cm_title (block_common (mi_item mi))) (block_span (mi_item mi)) P)) = repeats (log_ids (keep_first l (flat_map references bs))) match id with Some i => [(i, sp_off (block_span (mi_item mi)))] | None => [] end).
    { unfold register_block_id. rewrite Hc1, Ef. destruct id as [i|]; [|cbn [fst snd]; exists c1; auto].
      destruct (register_one c1 _ i (cm_title (block_common (mi_item mi))) RAnchor A1) as (K1 & K2 & K3). cbn [fst snd]. eexists. split; [reflexivity|]. split; [exact K1|]. cbn [keep_first repeats fst] in *.
      destruct (in_dec _ i _) as [I|I]; destruct (fst (register_ref c1 i (cm_title (block_common (mi_item mi))) RAnchor)); try reflexivity; exfalso; [specialize (K2 eq_refl); lia|specialize (K3 eq_refl); apply (f_equal (@length _)) in K3; rewrite app_length in K3; cbn in K3; lia]. }
    destruct K as (c2 & Hc2 & A2 & N2). exists c2. split; [exact Hc2|]. split; [exact A2|]. rewrite N2. apply Permutation_app; [exact N1|]. rewrite (repeats_in _ (map fst (flat_map placed bs) ++ log_ids l) (log_ids (keep_first l (flat_map references bs)))); [reflexivity|].
    intros i. rewrite keep_first_ids, in_app_iff, placed_all. tauto.
Qed.

Lemma slice_off s n s' : slice s 0 n = Ok s' -> sp_off s' = sp_off s.
Proof. unfold slice. destruct (bsplit n (sp_data s)) as [[p q]|]; [|discriminate]. replace (bsplit 0 p) with (Some (@nil N, p)) by (destruct p; reflexivity). intros H. apply Ok_inj in H. subst s'. rewrite slice_internal_nil. reflexivity. Qed.
Definition stop_fine (f : stop_fn) : Prop := forall s k st, located D s -> f s k = Ok st -> Forall quiet (snd (snd st)).
Definition good_un (un : stop_fn -> nat -> span -> parser -> res bres) : Prop := forall f n s P b, stop_fine f -> located D s -> un f n s P = Ok b ->
  told P (br_blocks b) (br_warnings b) (br_parser b) /\ Forall quiet (br_stop_warnings b).
Lemma never_fine : stop_fine never.
Proof. intros s k st _ H. apply Ok_inj in H. subst st. constructor. Qed.
Lemma section_source E un m P mi w : section_parse E un m P = Ok (Some mi, w) -> sp_off (block_span (mi_item mi)) = sp_off (md_source m).
Proof.
  unfold section_parse. intros H. apply bind_ok in H. destruct H as (dd & _ & H). apply bind_ok in H. destruct H as (src & _ & H). apply bind_ok in H. destruct H as (lt & _ & H).
  destruct (fst lt) as [lv|]; [|discriminate H]. cbv zeta in H. apply bind_ok in H. destruct H as (bs & _ & H). apply bind_ok in H. destruct H as (b & _ & H). apply bind_ok in H. destruct H as (s1 & E1 & H).
  apply bind_ok in H. destruct H as (t & _ & H). apply bind_ok in H. destruct H as (ba & _ & H). apply bind_ok in H. destruct H as (mn & _ & H). apply bind_ok in H. destruct H as (rg & _ & H). apply bind_ok in H. destruct H as (s2 & E2 & H).
  apply Ok_inj in H. injection H as <- _. cbn [mi_item block_span]. rewrite trim_trailing_whitespace_ok in E2. apply Ok_inj in E2. subst s2. cbn [sp_off with_data p_trim_trailing_whitespace].
  unfold trim_remainder in E1. match type of E1 with (if ?b then _ else _) = _ => destruct b end; exact (slice_off _ _ _ E1).
Qed.
Lemma section_told E un m P mi w P1 : e_u E = U -> good_un un -> located D (md_source m) -> Suffix (md_source m) (md_start m) -> section_parse E un m P = Ok (Some mi, (w, P1)) -> told P [mi_item mi] w P1.
Proof.
  intros EU G L1 S2 H. pose proof (section_source _ _ _ _ _ _ H) as Off. destruct (section_inv _ _ _ _ _ _ _ H) as [(di & level & title & rest & lw & bs & b & src & t & base & man & reg & src2 & Hd & Hl & Hs & Hu & _ & _ & _ & Hm & Hr & -> & -> & ->)].
  cbn [mi_item block_span] in Off. cbn [mi_item]. set (tp := section_type_of di level bs P) in *. match type of Hu with un _ _ _ (snd ?n) = _ => set (np := n) in * end.
  pose proof (located_Suffix _ _ _ (located_Suffix _ _ _ L1 S2) (discard_empty_Suffix (md_start m))) as L2. pose proof (title_line_quiet _ _ _ L2 Hl) as Ql.
  assert (Lr : located D rest). { destruct (title_line_some _ _ _ Hl) as (l & r & n & title' & Hl' & _ & _ & _ & Ea & _). cbn [mi_after] in Ea. subst rest. exact (located_Suffix _ _ _ L2 (suffix_line _ _ _ _ Hl')). }
  destruct (G _ _ _ _ _ (fun s k st Ls Hf => stop_quiet E di level s k st EU Ls Hf) Lr Hu) as ((Tb & Nb) & Qs).
  assert (Tr : Forall (tells U D) (snd (snd reg))).
  { unfold section_register in Hr. destruct (p_catalog (br_parser b)); [|apply Ok_inj in Hr; subst reg; constructor]. destruct man.
    - cbv zeta in Hr. match type of Hr with (if ?b then _ else _) = _ => destruct b end; [apply Ok_inj in Hr; subst reg; constructor|]. apply bind_ok in Hr. destruct Hr as (s & Es & Hr). apply Ok_inj in Hr. subst reg. cbn [snd]. constructor; [|constructor]. split; [|exact I]. exact (located_Sub _ _ _ L1 (trim_remainder_Sub _ _ _ Es)).
    - destruct (is_attribute_set P (lit "sectids")); [|apply Ok_inj in Hr; subst reg; constructor]. apply bind_ok in Hr. destruct Hr as (x & _ & Hr). apply Ok_inj in Hr. subst reg. constructor. }
  split. { repeat (apply Forall_app; split); auto; apply quiet_tells; assumption. }
  intros c l Hc A.
  assert (Tp : p_catalog (snd tp) = p_catalog P). { unfold tp, section_type_of. destruct di; [|destruct (level =? 1)]; reflexivity. }
  assert (Np : p_catalog (snd np) = Some c). { rewrite <- Hc, <- Tp. unfold np. match goal with |- context [if ?b then _ else _] => destruct b end; [|reflexivity]. cbv zeta. unfold assign_section_number. destruct (p_topmost (snd tp)); reflexivity. }
  destruct (Nb c l Np A) as (c1 & Hc1 & A1 & N1). cbn [flat_map]. rewrite !app_nil_r. cbn [references placed]. rewrite keep_first_app, repeats_app. rewrite (repeats_in _ (map fst (flat_map placed (br_blocks b)) ++ log_ids l) (log_ids (keep_first l (flat_map references (br_blocks b))))) by (intros i; rewrite keep_first_ids, in_app_iff, placed_all; tauto).
  set (l1 := keep_first l (flat_map references (br_blocks b))) in *. set (sb := BSection level (mkct title t) (br_blocks b) src2 (common_of m) (fst tp) (fst reg) (fst np)).
  assert (Mn : man = or_else (attr_id (common_of m)) (option_map sp_data (cm_anchor (common_of m)))).
  { unfold manual_id in Hm. apply bind_ok in Hm. destruct Hm as (o & Eo & Hm). apply Ok_inj in Hm. subst man. unfold attr_id. cbn [common_of cm_attrlist cm_anchor]. destruct (md_attrlist m); [rewrite Eo|apply Ok_inj in Eo; subst o]; [|reflexivity]. destruct o; reflexivity. }
  assert (Rg : registered sb = or_else man (fst reg)) by (unfold registered; cbn [sb block_common]; rewrite <- Mn; reflexivity).
  assert (Rf : reference sb = match or_else man (fst reg) with Some i => [(i, Some (section_reftext m t), RSection)] | None => [] end) by (unfold reference; rewrite Rg; destruct (or_else man (fst reg)); reflexivity).
  assert (Fin : exists c', p_catalog (fst (snd reg)) = Some c' /\ agrees c' (keep_first l1 (reference sb)) /\ reported (snd (snd reg)) = repeats (log_ids l1) (match registered sb with Some i => [(i, sp_off (block_span sb))] | None => [] end)).
  { rewrite Rf, Rg. cbn [sb block_span]. rewrite Off. unfold section_register in Hr. rewrite Hc1 in Hr. destruct man as [i|].
    - cbv zeta in Hr. destruct (register_one c1 l1 i (Some (section_reftext m t)) RSection A1) as (K1 & K2 & K3). cbn [or_else keep_first repeats fst] in *. destruct (fst (register_ref c1 i (Some (section_reftext m t)) RSection)) eqn:Ok1.
      + apply Ok_inj in Hr. subst reg. cbn [fst snd p_catalog with_catalog]. eexists. split; [reflexivity|]. split; [exact K1|]. destruct (in_dec _ i _); [specialize (K2 eq_refl); lia|reflexivity].
      + apply bind_ok in Hr. destruct Hr as (s & Es & Hr). apply Ok_inj in Hr. subst reg. cbn [fst snd]. exists c1. split; [exact Hc1|]. rewrite (K3 eq_refl). split; [exact A1|]. destruct (in_dec _ i _) as [K|K].
        * cbn [reported flat_map w_type w_source app]. replace (sp_off s) with (sp_off (md_source m)); [reflexivity|]. unfold trim_remainder in Es. match type of Es with (if ?b then _ else _) = _ => destruct b end; symmetry; exact (slice_off _ _ _ Es).
        * specialize (K3 eq_refl). apply (f_equal (@length _)) in K3. rewrite app_length in K3. cbn in K3. lia.
    - destruct (is_attribute_set P (lit "sectids")).
      + destruct (generate_spec c1 l1 base (Some (section_reftext m t)) RSection A1) as (id & Eg & Hg). rewrite Eg in Hr. cbn [bind fst snd] in Hr. apply Ok_inj in Hr. subst reg. cbn [fst snd or_else p_catalog with_catalog].
        eexists. split; [reflexivity|]. cbn [keep_first repeats fst]. destruct (in_dec _ id (log_ids l1)) as [K|K]; [destruct Hg as (Hg & _); contradiction|]. split; [exact (insert_agrees _ _ _ _ _ A1 K)|reflexivity].
      + apply Ok_inj in Hr. subst reg. cbn [fst snd or_else]. exists c1. split; [exact Hc1|]. split; [exact A1|reflexivity]. }
  destruct Fin as (c2 & Hc2 & A2 & N2). exists c2. split; [destruct ((level =? 1) && negb di); exact Hc2|]. split; [exact A2|]. rewrite !reported_app, (reported_quiet _ Ql), (reported_quiet _ Qs). cbn [app]. fold sb. rewrite N2.
  eapply Permutation_trans; [apply Permutation_app_comm|]. apply Permutation_app; [exact N1|reflexivity].
Qed.

Lemma no_section E un m P sw P1 : located D (md_start m) -> section_parse E un m P = Ok (None, (sw, P1)) -> Forall quiet sw.
Proof.
  intros L. unfold section_parse. intros H. apply bind_ok in H. destruct H as (dd & _ & H). rewrite discard_empty_lines_ok in H. cbn [bind] in H. apply bind_ok in H. destruct H as ([o lw] & El & H). cbn [fst snd] in H.
  destruct o as [lv|]; [|apply Ok_inj in H; injection H as <- _; exact (title_line_quiet _ _ _ (located_Suffix _ _ _ L (discard_empty_Suffix (md_start m))) El)]. cbv zeta in H. apply bind_ok in H. destruct H as (bs & _ & H). apply bind_ok in H. destruct H as (b & _ & H). apply bind_ok in H. destruct H as (s1 & _ & H).
  apply bind_ok in H. destruct H as (t & _ & H). apply bind_ok in H. destruct H as (ba & _ & H). apply bind_ok in H. destruct H as (mn & _ & H). apply bind_ok in H. destruct H as (rg & _ & H). apply bind_ok in H. destruct H as (s2 & _ & H).
  apply Ok_inj in H. discriminate H.
Qed.
Lemma block_told E un s P r : e_u E = U -> good_un un -> good_until D un -> located D s -> block_parse_with E un s P = Ok r ->
  told P (match pr_item r with Some mi => [mi_item mi] | None => [] end) (pr_warnings r) (pr_parser r).
Proof.
  intros EU G Gu L H. assert (Lb : forall mi, pr_item r = Some mi -> located D (block_span (mi_item mi))).
  { intros mi Hi. destruct (block_ok D E un s P r mi Gu L H Hi) as (_ & _ & T). inversion T; assumption. }
  assert (N0 : told P [] [] P) by (apply told_same; [constructor|reflexivity]).
  assert (Leaf : forall mi w, finish mi w P = Ok r -> Forall quiet w -> no_blocks (mi_item mi) -> told P (match pr_item r with Some mi => [mi_item mi] | None => [] end) (pr_warnings r) (pr_parser r)).
  { intros mi w Hf Q Hn. destruct (finish_inv _ _ _ _ Hf) as (id & _ & Er). assert (Ei : pr_item r = Some mi) by (rewrite Er; reflexivity). rewrite Ei. apply (finish_told P [] mi w w [] P r); auto; [destruct (mi_item mi); try contradiction; reflexivity|rewrite app_nil_r; reflexivity]. }
  destruct (block_shape _ _ _ _ _ H) as [a af Q|mj r Q Hf|m ws r Em Sh].
  - cbn [pr_item pr_warnings pr_parser mi_item]. destruct (entry_name _ _ _ _ Q) as (A1 & _ & A2 & A3). cbn [mi_item] in *. apply told_item; [reflexivity|reflexivity| |].
    + rewrite EU. exact (locked_quiet s a _ L A1 A2 A3 (body_warnings P a)).
    + apply core_body_fields.
  - destruct (simple_fast_inv _ _ _ _ Q) as (c & st & src & cm & Q2 & _). apply (Leaf mj [] Hf); [constructor|rewrite Q2; exact I].
  - destruct (metadata_Suffix _ _ _ _ _ Em) as (E1 & S2). assert (L1 : located D (md_source m)) by (rewrite E1; exact (located_Suffix _ _ _ L (discard_empty_Suffix s))). pose proof (located_Suffix _ _ _ L1 S2) as L2.
    destruct (metadata_quiet E s P m ws EU L Em) as (Qm & Hm).
    assert (X : forall w, extra E un m P w -> Forall quiet (ws ++ w)).
    { intros w (sw & ow & -> & Hs & Ho). apply Forall_app. split; [exact Qm|]. apply Forall_app. split; [destruct Hs as [-> |Hs]; [constructor|exact (no_section E un m P _ _ L2 Hs)]|].
      destruct Ho as [-> |(He & ->)]; [constructor|]. apply quiet_one; [exact L1|exact (Hm He)|reflexivity]. }
    destruct Sh as [w Hw|m' mj w r _ Hw Es Hf|mj w r Es Hf|mj w P1 r Es Hf|mj w r Es Hf|mj w P1 Es|mj w Hw Es].
    + cbn [pr_item pr_warnings pr_parser]. apply told_same; [exact (X _ Hw)|reflexivity].
    + destruct (simple_inv _ _ _ _ Es) as (c & st & sr & K2). apply (Leaf mj _ Hf); [exact (X _ Hw)|rewrite K2; exact I].
    + destruct (Shape_Proof.raw_inv _ _ _ _ _ Es) as (c & mo & cx & sr & g & K2). apply (Leaf mj _ Hf); [apply Forall_app; split; [exact Qm|exact (raw_quiet _ _ _ _ _ L2 Es)]|rewrite K2; exact I].
    + destruct (compound_quiet _ _ _ _ _ _ L2 Es) as (ins & b & w0 & cx & src & Li & Eu & -> & Q0 & -> & Ec). destruct (G _ _ _ _ _ never_fine Li Eu) as (Tb & _).
      destruct (finish_inv _ _ _ _ Hf) as (id & _ & Er). assert (Ei : pr_item r = Some mj) by (rewrite Er; reflexivity). rewrite Ei. rewrite app_assoc in Hf.
      refine (finish_told P (br_blocks b) mj _ (ws ++ w0) (br_warnings b) (br_parser b) r _ _ eq_refl _ Tb (Lb _ Ei) Hf); [rewrite Ec; reflexivity|right; eauto|apply Forall_app; auto].
    + destruct (media_inv _ _ _ _ _ Es) as (t & tg & a & sr & K2). apply (Leaf mj _ Hf); [apply Forall_app; split; [exact Qm|exact (media_quiet _ _ _ _ _ L2 Es)]|rewrite K2; exact I].
    + cbn [pr_item pr_warnings pr_parser]. apply (told_app P [] ws P); [apply told_same; [exact Qm|reflexivity]|]. exact (section_told E un m P mj w P1 EU G L1 S2 Es).
    + cbn [pr_item pr_warnings pr_parser]. destruct (break_inv _ _ Es) as (ty & src & ->). apply told_item; [reflexivity|reflexivity|exact (X _ Hw)|reflexivity].
Qed.
Lemma loop_told E : e_u E = U -> forall fuel f n s P b, stop_fine f -> located D s -> blocks_loop E fuel f n s P = Ok b ->
  told P (br_blocks b) (br_warnings b) (br_parser b) /\ Forall quiet (br_stop_warnings b).
Proof.
  intros EU. assert (N0 : forall P, told P [] [] P) by (intros P; apply told_same; [constructor|reflexivity]).
  induction fuel as [|fuel IH]; intros f n s P b Hf L H; cbn [blocks_loop] in H.
  { destruct (sp_data s); [|discriminate H]. apply Ok_inj in H. subst b. split; [apply N0|constructor]. }
  destruct (sp_data s) as [|c0 t0]. { apply Ok_inj in H. subst b. split; [apply N0|constructor]. }
  apply bind_ok in H. destruct H as (st & Est & H). pose proof (Hf _ _ _ L Est) as Qs. destruct (fst st). { apply Ok_inj in H. subst b. split; [apply N0|exact Qs]. }
  apply bind_ok in H. destruct H as (r & Er & H). apply bind_ok in H. destruct H as (rest & Hr & H). apply Ok_inj in H. subst b. cbn [br_warnings br_blocks br_parser br_stop_warnings].
  assert (G : good_un (fun stop level source P => src <- discard_empty_lines source ;; blocks_loop E fuel stop level src P)).
  { intros f' n' s' P' b' Hf' L' Hb. rewrite discard_empty_lines_ok in Hb. cbn [bind] in Hb. exact (IH _ _ _ _ _ Hf' (located_Suffix _ _ _ L' (discard_empty_Suffix s')) Hb). }
  pose proof (block_told E _ s P r EU G (until_ok D E fuel) L Er) as T.
  assert (La : located D (match pr_item r with Some mi => mi_after mi | None => s end)).
  { destruct (pr_item r) as [mi|] eqn:Ei; [|exact L]. destruct (block_ok D E _ s P r mi (until_ok D E fuel) L Er Ei) as (A1 & _). exact (located_Suffix _ _ _ L A1). }
  destruct (IH _ _ _ _ _ Hf La Hr) as (T2 & Q2). split; [|apply Forall_app; auto]. pose proof (told_app _ _ _ _ _ _ _ T T2) as T3. destruct (pr_item r); exact T3.
Qed.

(** * Headers and documents *)
Lemma header_step_quiet E s h r : e_u E = U -> located D s -> Forall quiet (s_warnings h) -> header_step E s h = Ok r ->
  Forall quiet (s_warnings (fst r)) /\ match snd r with Some s' => located D s' | None => True end.
Proof.
  intros EU L Q. unfold header_step. cbv zeta. intros H. apply bind_ok in H. destruct H as (li & El & H). apply take_norm_inv in El. destruct El as (l & q & n & Hl & ->). cbn [mi_item mi_after sp_data with_data] in H.
  pose proof (located_Suffix _ _ _ L (suffix_line _ _ _ _ Hl)) as La.
  destruct (is_nil n) eqn:En. { apply Ok_inj in H. subst r. cbn [fst snd]. split; [exact Q|]. destruct (is_some _); [exact I|exact La]. }
  match type of H with (if ?b then _ else _) = _ => destruct b end. { apply Ok_inj in H. subst r. cbn [fst snd s_warnings]. auto. }
  apply bind_ok in H. destruct H as (o & Eo & H). destruct o as [a|].
  { apply bind_ok in H. destruct H as (P & _ & H). apply Ok_inj in H. subst r. cbn [fst snd s_warnings]. unfold header_attr in Eo. match type of Eo with (if ?b then _ else _) = _ => destruct b end; [|discriminate Eo]. destruct (entry_name _ _ _ _ Eo) as (A1 & A0 & A2 & A3).
    split; [apply Forall_app; split; [exact Q|]; rewrite EU; exact (locked_quiet s _ _ L A1 A2 A3 (header_warnings P (mi_item a)))|exact (located_Suffix _ _ _ L A0)]. }
  match type of H with (if ?b then _ else _) = _ => destruct b end.
  { apply bind_ok in H. destruct H as (? & _ & H). apply bind_ok in H. destruct H as (? & _ & H). apply bind_ok in H. destruct H as (? & _ & H). apply Ok_inj in H. subst r. cbn [fst snd s_warnings]. auto. }
  match type of H with (if ?b then _ else _) = _ => destruct b end.
  { apply bind_ok in H. destruct H as (? & _ & H). apply Ok_inj in H. subst r. cbn [fst snd s_warnings]. auto. }
  match type of H with (if ?b then _ else _) = _ => destruct b end.
  { apply bind_ok in H. destruct H as (? & _ & H). apply Ok_inj in H. subst r. cbn [fst snd s_warnings]. auto. }
  apply Ok_inj in H. subst r. cbn [fst snd]. split; [|exact I]. destruct (is_some _); [|exact Q]. cbn [s_warnings]. apply Forall_app. split; [exact Q|]. apply quiet_one; [exact (located_Sub _ _ _ L (norm_line_Sub _ _ _ _ Hl))| |reflexivity].
  cbn [what sp_data with_data]. split; [destruct n; [discriminate En|discriminate]|exact (a_line_no_lf _ _ _ _ Hl)].
Qed.
Lemma header_loop_quiet E : e_u E = U -> forall fuel s h r, located D s -> Forall quiet (s_warnings h) -> header_loop E fuel s h = Ok r -> Forall quiet (s_warnings (fst r)).
Proof.
  intros EU. induction fuel as [|fuel IH]; intros s h r L Q H; cbn [header_loop] in H.
  - destruct (sp_data s); [|discriminate H]. apply Ok_inj in H. subst r. exact Q.
  - destruct (sp_data s). { apply Ok_inj in H. subst r. exact Q. } apply bind_ok in H. destruct H as (x & Ex & H). destruct (header_step_quiet E s h x EU L Q Ex) as (Q1 & L1).
    destruct (snd x); [exact (IH _ _ _ L1 Q1 H)|]. apply Ok_inj in H. subst r. exact Q1.
Qed.
Lemma header_quiet E P h : e_u E = U -> header_parse E (span_new D) P = Ok h -> Forall quiet (fst (snd h)).
Proof.
  intros EU. unfold header_parse. intros H. apply bind_ok in H. destruct H as (? & _ & H). apply bind_ok in H. destruct H as (r & Er & H). cbv zeta in H. apply bind_ok in H. destruct H as (? & _ & H). apply bind_ok in H. destruct H as (? & _ & H).
  apply bind_ok in H. destruct H as (? & _ & H). apply Ok_inj in H. subst h. cbn [fst snd]. apply (header_loop_quiet E EU _ _ _ _ (located_new D)) with (2 := Er). constructor.
Qed.
End Warn.
Theorem document_told E fuel t sm P d P' : document_parse E fuel t sm P = Ok (d, P') -> Forall (tells (e_u E) t) (d_warnings d) /\
  forall c, p_catalog P = Some c -> agrees c [] -> Permutation (reported (d_warnings d)) (repeats [] (flat_map placed (d_blocks d))).
Proof.
  intros H. destruct (document_inv _ _ _ _ _ _ _ H) as (h & b & Hh & Hb & Hm & _ & Hw & _ & _). pose proof (header_quiet (e_u E) t E P h eq_refl Hh) as Q. rewrite Hw.
  assert (La : located t (mi_after (fst h))).
  { destruct h as [[hd after] [ws Ph]]. destruct (header_parse_spec _ _ _ _ _ _ _ Hh) as (x & src & _ & _ & _ & _ & _ & S1 & _ & _ & _ & _ & _ & _ & _ & _ & Ea & _). cbn [fst mi_after]. rewrite Ea. apply (located_Suffix _ _ _ (located_new t)). eapply Suffix_trans; [exact S1|apply discard_empty_Suffix]. }
  unfold parse_blocks_until in Hb. rewrite discard_empty_lines_ok in Hb. cbn [bind] in Hb. destruct (loop_told (e_u E) t E eq_refl _ _ _ _ _ _ (never_fine _ _) (located_Suffix _ _ _ La (discard_empty_Suffix _)) Hb) as ((T & N) & _).
  split; [apply Forall_app; split; [exact (quiet_tells _ _ _ Q)|exact T]|]. intros c Hc A. destruct (header_only_attrs _ _ _ _ Hh) as (a & Ea). destruct (N c []) as (_ & _ & _ & K); [rewrite Ea; exact Hc|exact A|].
  rewrite reported_app, (reported_quiet _ _ _ Q). cbn [app]. rewrite (make_preamble_flat placed _ _ _) with (2 := Hm); [exact K|]. intros l s. cbn. rewrite app_nil_r. reflexivity.
Qed.
