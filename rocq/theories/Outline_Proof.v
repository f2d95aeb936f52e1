(** Proofs about the outline. *)
From Verif Require Import Text TextFacts Maps Span_Model Span_Pure Span_Proof Span_Laws Span_Spec Span_Prop Parser_Model Subs_Model Attrlist_Model Attrlist_Proof Attrlist_Laws
  Group_Model Header_Model Header_Spec Header_Proof Doc_Model Block_Model Block_Spec Block_Proof Tree_Spec Tree_Proof Total_Proof Shape_Proof Meta_Spec Meta_Proof Kind_Spec Kind_Proof Walk_Spec Tree_Prop Outline_Spec.

(** * Attribute lists that do not depend on the parser *)
Lemma finish_same norm1 norm2 ctx (t v : text) : ~ In SQUOTE t -> ea_finish_value norm1 ctx (hd_error t) v = ea_finish_value norm2 ctx (hd_error t) v.
Proof.
  intros H. destruct t as [|q t]; [reflexivity|]. cbn [hd_error ea_finish_value]. destruct (is_quote q); [|reflexivity]. destruct ctx; [|reflexivity].
  destruct (N.eqb_spec q SQUOTE) as [->|_]; [destruct (H (or_introl eq_refl))|reflexivity].
Qed.
Lemma t_parse_same norm1 norm2 ctx psh t : ~ In SQUOTE t -> t_parse norm1 ctx psh t = t_parse norm2 ctx psh t.
Proof.
  intros H. unfold t_parse. rewrite (finish_same norm1 norm2); [reflexivity|].
  intros K. apply H. destruct (t_name_suffix t) as (u & Eu). destruct (dw_suffix is_sp_tab_lf (snd (t_name t))) as (w & Ew). rewrite Eu, Ew. apply in_app_iff. right. apply in_app_iff. auto.
Qed.
Lemma t_loop_same norm1 norm2 ctx : forall fuel attrs psh ws t, ~ In SQUOTE t -> t_loop norm1 fuel ctx attrs psh ws t = t_loop norm2 fuel ctx attrs psh ws t.
Proof.
  induction fuel as [|f IH]; intros attrs psh ws t H; [reflexivity|]. cbn [t_loop]. rewrite (t_parse_same norm1 norm2 ctx psh t H). destruct (t_parse norm2 ctx psh t) as [r| |] eqn:E; [|reflexivity|reflexivity]. cbn [bind].
  destruct (t_parse_suffix _ _ _ _ _ E) as (u & Eu). assert (H1 : ~ In SQUOTE (ta_rest r)) by (intros K; apply H; rewrite Eu; apply in_app_iff; auto).
  match goal with |- (if ?b then _ else _) = _ => destruct b end; [reflexivity|]. destruct (dw_suffix is_sp_tab (ta_rest r)) as (w & Ew).
  destruct (dw is_sp_tab (ta_rest r)) as [|c t1]; [reflexivity|]. destruct (c =? COMMA)%N; [|reflexivity]. destruct (dw_suffix is_sp_tab t1) as (w2 & Ew2).
  assert (H2 : ~ In SQUOTE (dw is_sp_tab t1)) by (intros K; apply H1; rewrite Ew; apply in_app_iff; right; right; rewrite Ew2; apply in_app_iff; auto).
  destruct (dw is_sp_tab t1) as [|d t2]; [apply IH; exact H2|]. destruct (d =? COMMA)%N; apply IH; [intros K; apply H2; right; exact K|exact H2].
Qed.
Lemma has_char_no c t : ~ In c t -> has_char c t = false.
Proof. intros H. unfold has_char. destruct (existsb (N.eqb c) t) eqn:E; [|reflexivity]. apply existsb_exists in E. destruct E as (x & Hx & K). apply N.eqb_eq in K. subst x. contradiction. Qed.
Lemma attrlist_same U norm1 P1 norm2 P2 s1 s2 ctx a1 w1 a2 w2 : sp_data s1 = sp_data s2 -> ~ In 123%N (sp_data s1) -> ~ In SQUOTE (sp_data s1) ->
  attrlist_parse U norm1 P1 s1 ctx = Ok (a1, w1) -> attrlist_parse U norm2 P2 s2 ctx = Ok (a2, w2) -> al_attrs (mi_item a1) = al_attrs (mi_item a2).
Proof.
  intros D H1 H2 Q1 Q2. rewrite attrlist_parse_eq in Q1, Q2. unfold src_of in *. rewrite <- D in Q2. rewrite (has_char_no _ _ H1) in Q1, Q2. cbn [andb bind] in Q1, Q2.
  destruct (starts_with (lit "[") (sp_data s1) && ends_with (lit "]") (sp_data s1)).
  - apply bind_ok in Q1. destruct Q1 as (x & _ & Q1). apply bind_ok in Q2. destruct Q2 as (y & _ & Q2). injection Q1 as <- _. injection Q2 as <- _. reflexivity.
  - rewrite (t_loop_same norm2 norm1) in Q2 by exact H2. apply bind_ok in Q1. destruct Q1 as (x & Ex & Q1). apply bind_ok in Q2. destruct Q2 as (y & Ey & Q2). rewrite Ex in Ey. injection Ey as <-. injection Q1 as <- _. injection Q2 as <- _. reflexivity.
Qed.

(** * Metadata that does not depend on the parser *)
Lemma list_line U seen t is_ r : meta_lines U seen t is_ r -> forall x, In (IList x) is_ -> exists a b, t = a ++ lit "[" ++ x ++ lit "]" ++ b /\ ~ In LF x.
Proof.
  induction 1 as [seen t l r n i is_ rest Hl Hi _ _ IH|]; intros x Hx; [|destruct Hx]. pose proof (a_line_app _ _ _ _ Hl) as D. destruct Hx as [->|Hx].
  - destruct Hi as (-> & _ & _). destruct (a_line_prefix _ _ _ _ Hl) as (w & ->). exists [], (w ++ r). split; [rewrite D, <- !app_assoc; reflexivity|].
    intros K. apply (a_line_no_lf _ _ _ _ Hl). apply in_app_iff. right. apply in_app_iff. auto.
  - destruct (IH x Hx) as (a & b & D2 & Hn). exists (l ++ a), b. split; [rewrite D, D2, <- app_assoc; reflexivity|exact Hn].
Qed.
Lemma plain_located D s : plain_lists D -> located D s -> plain_lists (sp_data s).
Proof. intros H (b & a & -> & _) x y z E. rewrite E in H. apply (H (b ++ x) y (z ++ a)). rewrite <- !app_assoc. reflexivity. Qed.
Lemma style_al a1 a2 : al_attrs a1 = al_attrs a2 -> al_block_style a1 = al_block_style a2.
Proof. intros H. unfold al_block_style, nth_attribute. rewrite H. reflexivity. Qed.
Lemma the_list_in is_ x : the_list is_ = Some x -> In (IList x) is_.
Proof.
  unfold the_list. induction is_ as [|i is_ IH]; cbn [flat_map]; [discriminate|]. destruct i as [y|y z|y]; cbn [app]; [intros H; right; auto|intros H; right; auto|intros H; injection H as ->; left; reflexivity].
Qed.
Lemma same_metadata D E s P1 P2 m1 w1 m2 w2 : plain_lists D -> located D s -> metadata_parse E s P1 = Ok (m1, w1) -> metadata_parse E s P2 = Ok (m2, w2) ->
  sp_data (md_start m1) = sp_data (md_start m2) /\ style_of (md_attrlist m1) = style_of (md_attrlist m2).
Proof.
  intros Hp L H1 H2. destruct (metadata_lines _ _ _ _ _ H1) as (i1 & a1 & b1 & D1 & M1 & _ & _ & _ & L1 & _). destruct (metadata_lines _ _ _ _ _ H2) as (i2 & a2 & b2 & D2 & M2 & _ & _ & _ & L2 & _).
  rewrite D1 in D2. injection D2 as D2. rewrite <- D2 in M2, L2. destruct (meta_lines_unique _ _ _ _ _ M1 _ _ M2) as (<- & Er). split; [exact Er|].
  assert (Hq : plain_lists (sp_data (md_source m1))). { apply (plain_located D _ Hp). eapply located_Suffix; [exact L|]. rewrite discard_empty_lines_ok in D1. injection D1 as <-. apply discard_empty_Suffix. }
  destruct (md_attrlist m1) as [x1|], (md_attrlist m2) as [x2|]; cbn [style_of].
  - destruct L1 as (s1 & f1 & T1 & _ & Q1). destruct L2 as (s2 & f2 & T2 & _ & Q2). rewrite T1 in T2. injection T2 as T2. destruct (list_line _ _ _ _ _ M1 _ (the_list_in _ _ T1)) as (a & b & Dx & Nx).
    destruct (Hq _ _ _ Dx Nx) as (N1 & N2). exact (style_al _ _ (attrlist_same _ _ _ _ _ _ _ _ _ _ _ _ T2 N1 N2 Q1 Q2)).
  - destruct L1 as (s1 & f1 & T1 & _). destruct L2 as (T2 & _). rewrite T1 in T2. discriminate T2.
  - destruct L2 as (s1 & f1 & T1 & _). destruct L1 as (T2 & _). rewrite T1 in T2. discriminate T2.
  - reflexivity.
Qed.

(** * The end of a section *)
Definition discrete_of (o : option text) : bool := style_is o (lit "discrete") || style_is o (lit "float").
Lemma peer_spec E n s k st : peer_or_ancestor_section E n s k = Ok st -> exists m ws o l r x, metadata_parse E s parser_default = Ok (m, ws) /\ style_of (md_attrlist m) = Ok o /\ a_line (sp_data (md_start m)) l r x /\
  (fst st = true <-> discrete_of o = false /\ exists lev title, heading x lev title /\ lev <= n).
Proof.
  intros H. unfold peer_or_ancestor_section in H. apply bind_ok in H. destruct H as ([m ws] & Em & H). cbn [fst] in H. apply bind_ok in H. destruct H as (d & Ed & H). unfold is_discrete in Ed. apply bind_ok in Ed. destruct Ed as (o & Eo & Ed). apply Ok_inj in Ed.
  destruct (a_line_total (sp_data (md_start m))) as (l & r & x & Hl). exists m, ws, o, l, r, x. split; [exact Em|]. split; [exact Eo|]. split; [exact Hl|]. fold (discrete_of o) in Ed. rewrite Ed. destruct d.
  { apply Ok_inj in H. subst st. cbn [fst]. split; [discriminate|intros (K & _); discriminate K]. }
  apply bind_ok in H. destruct H as ([t w] & Et & H). cbn [fst snd] in H. destruct t as [mi|].
  - apply bind_ok in H. destruct H as (w2 & _ & H). apply Ok_inj in H. subst st. cbn [fst]. destruct (title_line_some _ _ _ Et) as (l' & r' & x' & ti & Hl' & Hh & _). destruct (a_line_unique _ _ _ _ _ _ _ Hl Hl') as (_ & _ & <-). rewrite Nat.leb_le. split.
    + intros K. split; [reflexivity|]. eauto.
    + intros (_ & lev & title & Hh' & K). destruct (heading_unique _ _ _ _ _ Hh Hh') as (-> & _). exact K.
  - apply Ok_inj in H. subst st. cbn [fst]. split; [discriminate|]. intros (_ & lev & title & Hh & _). destruct (title_line_heading _ _ _ _ _ _ Hl Hh) as (y & Ey & _). rewrite Et in Ey. discriminate Ey.
Qed.
Lemma no_tab_first s s0 : ~ In TAB (sp_data s) -> discard_empty_lines s = Ok s0 -> s0 = s \/ exists l r, a_line (sp_data s) l r [].
Proof.
  intros H E. rewrite discard_empty_lines_ok in E. injection E as <-. destruct (a_line_total (sp_data s)) as (l & r & n & Hl). destruct n as [|c n]; [right; eauto|left].
  assert (G : exists x, In x (c :: n) /\ ~ sp_tab x).
  { destruct Hl as (x & e & D & -> & Hx & He & Ht). clear He.
    assert (Hn : forall y, In y (c :: n) -> y <> TAB). { intros y Hy ->. apply H. rewrite D. apply in_app_iff. left. apply in_app_iff. left. destruct (trimmed_prefix _ _ Ht) as (w & ->). apply in_app_iff. auto. }
    destruct (exists_last (l := c :: n) ltac:(discriminate)) as (y & z & Ez). rewrite Ez in *. exists z. split; [apply in_app_iff; right; left; reflexivity|].
    intros [K|K]; [|apply (Hn z); [apply in_app_iff; right; left; reflexivity|exact K]]. subst z. destruct Ht as (x0 & sps & _ & _ & _ & K). exact (K y eq_refl). }
  destruct G as (x & Hx & Hs). exact (discard_none _ _ _ _ x Hl Hx Hs).
Qed.
Lemma block_path E un s P r mi : block_parse_with E un s P = Ok r -> pr_item r = Some mi ->
  (exists fl, take_line s = Ok fl /\ try_fast s (mi_item fl) = true /\ simple_parse_fast E s P = Ok (Some mi)) \/
  (exists a fl, take_line s = Ok fl /\ try_entry (mi_item fl) = true /\ mi_item mi = BAttribute a) \/
  exists m ws, metadata_parse E s P = Ok (m, ws) /\ with_metadata E un m ws P = Ok r.
Proof.
  intros H Hi. unfold block_parse_with in H. apply bind_ok in H. destruct H as (fl & Ef & H). apply bind_ok in H. destruct H as (fast & Efa & H). destruct fast as [x|].
  { destruct (try_fast s (mi_item fl)) eqn:Et; [|discriminate Efa]. destruct (finish_inv _ _ _ _ H) as (id & _ & ->). cbn [pr_item] in Hi. injection Hi as ->. left. eauto. }
  apply bind_ok in H. destruct H as (en & Ee & H). destruct en as [at_|].
  { destruct (try_entry (mi_item fl)) eqn:Et; [|discriminate Ee]. apply Ok_inj in H. subst r. cbn [pr_item] in Hi. injection Hi as <-. right. left. exists (mi_item at_), fl. auto. }
  apply bind_ok in H. destruct H as ([m ws] & Em & H). cbn [fst snd] in H. right. right. eauto.
Qed.
Definition a_section (b : block) (level : nat) : Prop := exists title bs src m ty id n, b = BSection level title bs src m ty id n.
Lemma heading_section b n : heading_of b = Some n -> a_section b n.
Proof. destruct b; try discriminate. cbn [heading_of]. destruct (discrete_style _); [discriminate|]. intros H. injection H as <-. repeat eexists. Qed.
Lemma md_section E un m ws P r mi level : with_metadata E un m ws P = Ok r -> pr_item r = Some mi -> a_section (mi_item mi) level ->
  exists w l r' x title o, section_parse E un m P = Ok (Some mi, w) /\ a_line (sp_data (md_start m)) l r' x /\ heading x level title /\ style_of (md_attrlist m) = Ok o /\ discrete_style (mi_item mi) = discrete_of o.
Proof.
  intros H Hi (title & bs & src & cm & ty & id & n & Eb). destruct (a_line_total (sp_data (md_start m))) as (l & r' & x & Hl). destruct (md_kind _ _ _ _ _ _ _ _ _ _ Hl H Hi) as (o & Eo & K).
  assert (Hh : heading x level (sp_data (ct_original title))).
  { destruct K as [K|(_ & _ & _ & c & s & st & k & K & _)]; [|rewrite Eb in K; discriminate K]. unfold kind_fits in K. rewrite Eb in K. cbn [block_form] in K. exact (proj2 K). }
  assert (Hs : exists w, section_parse E un m P = Ok (Some mi, w)).
  { pose proof (md_shape _ _ _ _ _ _ H) as Sh. destruct Sh as [w _|m' mj w r0 _ _ Es Hf|mj w r0 Es Hf|mj w P1 r0 Es Hf|mj w r0 Es Hf|mj w P1 Es|mj w _ Es]; cbn [pr_item] in Hi.
    - discriminate Hi.
    - destruct (finish_inv _ _ _ _ Hf) as (i & _ & ->). cbn [pr_item] in Hi. injection Hi as ->. destruct (simple_inv _ _ _ _ Es) as (c & st & s & K2). rewrite K2 in Eb. discriminate Eb.
    - destruct (finish_inv _ _ _ _ Hf) as (i & _ & ->). cbn [pr_item] in Hi. injection Hi as ->. destruct (raw_inv _ _ _ _ _ Es) as (c & mo & cx & s & g & K2). rewrite K2 in Eb. discriminate Eb.
    - destruct (finish_inv _ _ _ _ Hf) as (i & _ & ->). cbn [pr_item] in Hi. injection Hi as ->. destruct (compound_inv _ _ _ _ _ _ Es) as (ins & b & cx & s & dl & _ & K2 & _). rewrite K2 in Eb. discriminate Eb.
    - destruct (finish_inv _ _ _ _ Hf) as (i & _ & ->). cbn [pr_item] in Hi. injection Hi as ->. destruct (media_inv _ _ _ _ _ Es) as (t & tg & a & s & K2). rewrite K2 in Eb. discriminate Eb.
    - injection Hi as ->. eauto.
    - injection Hi as ->. destruct (break_inv _ _ Es) as (t & s & K2). rewrite K2 in Eb. discriminate Eb. }
  destruct Hs as ([w P1] & Hs). exists (w, P1), l, r', x, (sp_data (ct_original title)), o. split; [exact Hs|]. split; [exact Hl|]. split; [exact Hh|]. split; [exact Eo|].
  destruct (section_inv _ _ _ _ _ _ _ Hs) as [(dd & lv & ti & rest & lw & bs' & b & sr & t & base & mn & reg & s2 & _ & _ & _ & _ & _ & _ & _ & _ & _ & _ & E1 & _)]. rewrite E1. unfold discrete_style, block_style, discrete_of. cbn [mi_item block_common common_of cm_attrlist]. rewrite Eo. reflexivity.
Qed.
(** A section that is parsed where its parent does not end is deeper. *)
Lemma section_deeper D E un n s k st P r mi level : plain_lists D -> located D s -> peer_or_ancestor_section E n s k = Ok st -> fst st = false ->
  block_parse_with E un s P = Ok r -> pr_item r = Some mi -> heading_of (mi_item mi) = Some level -> n < level.
Proof.
  intros Hp L Hs Hf H Hi Hh. pose proof (heading_section _ _ Hh) as Hsec. destruct (peer_spec _ _ _ _ _ Hs) as (m1 & w1 & o1 & l1 & r1 & x1 & M1 & O1 & A1 & I).
  destruct (block_path _ _ _ _ _ _ H Hi) as [(fl & _ & _ & K)|[(a & fl & _ & _ & K)|(m & ws & Em & Hm)]].
  - destruct (simple_fast_inv _ _ _ _ K) as (c & st' & src & cm & K2 & _). rewrite K2 in Hh. discriminate Hh.
  - rewrite K in Hh. discriminate Hh.
  - destruct (md_section _ _ _ _ _ _ _ _ Hm Hi Hsec) as (w & l & r' & x & title & o & _ & Hl & Hx & Eo & Ed). destruct (same_metadata _ _ _ _ _ _ _ _ _ Hp L Em M1) as (D1 & S1). rewrite Eo, O1 in S1. injection S1 as <-.
    rewrite D1 in Hl. destruct (a_line_unique _ _ _ _ _ _ _ A1 Hl) as (_ & _ & <-).
    assert (discrete_of o = false). { rewrite <- Ed. destruct Hsec as (t & bs & src & cm & ty & id & num & Eb). rewrite Eb in Hh |- *. cbn [heading_of] in Hh. destruct (discrete_style _); [discriminate Hh|reflexivity]. }
    destruct (Nat.lt_ge_cases n level) as [K|K]; [exact K|]. rewrite (proj2 I) in Hf; [discriminate Hf|]. split; [assumption|]. eauto.
Qed.
Lemma colon_meta U t n l r is_ rest : a_line t l r (58%N :: n) -> meta_lines U [] t is_ rest -> is_ = [] /\ rest = t.
Proof.
  intros Hl H. inversion H as [seen t' l' r' n' i is' rest' Hl' Hi _ _|]; subst; [|auto]. exfalso. destruct (a_line_unique _ _ _ _ _ _ _ Hl Hl') as (_ & _ & <-).
  destruct i as [x|x y|x]; [destruct Hi as (Hi & _); discriminate Hi|apply anchor_brackets in Hi; destruct Hi as (w & Hi); discriminate Hi|destruct Hi as (Hi & _); discriminate Hi].
Qed.
(** Where a section has ended, the next one begins. *)
Lemma section_next D E un n s k st P r mi : plain_lists D -> ~ In TAB D -> located D s -> peer_or_ancestor_section E n s k = Ok st -> fst st = true ->
  block_parse_with E un s P = Ok r -> pr_item r = Some mi -> (exists level, heading_of (mi_item mi) = Some level /\ level <= n) \/ literal_paragraph (mi_item mi).
Proof.
  intros Hp Ht L Hs Hf H Hi. destruct (peer_spec _ _ _ _ _ Hs) as (m1 & w1 & o1 & l1 & r1 & x1 & M1 & O1 & A1 & I). apply I in Hf. destruct Hf as (Hd & lev & title & Hh & Hle). clear I Hs.
  assert (Ts : ~ In TAB (sp_data s)). { destruct L as (b & a & D0 & _). intros K. apply Ht. rewrite D0. apply in_app_iff. right. apply in_app_iff. auto. }
  destruct (metadata_lines _ _ _ _ _ M1) as (is_ & v1 & v2 & D1 & ML & _).
  destruct (block_path _ _ _ _ _ _ H Hi) as [(fl & El & K1 & K)|[(a & fl & El & K1 & K)|(m & ws & Em & Hm)]].
  - exfalso. destruct (no_tab_first _ _ Ts D1) as [E0|(l & r' & He)].
    + destruct (a_line_total (sp_data s)) as (l & r' & n0 & Hl). destruct (first_line_sp _ _ _ _ Hl) as (fl' & z & Ef & Ez & _). rewrite El in Ef. injection Ef as <-. destruct (fast_line (e_u E) s (mi_item fl) K1) as (l2 & r2 & n2 & A & B & C); [eauto 10|].
      rewrite E0 in ML. destruct (meta_lines_unique _ _ _ _ _ ML _ _ B) as (_ & Er). rewrite Er in A1. destruct (a_line_unique _ _ _ _ _ _ _ A1 A) as (_ & _ & <-). exact (C (FHeading lev title) Hh).
    + unfold simple_parse_fast in K. apply bind_ok in K. destruct K as (q & Eq & K). rewrite (parse_lines_empty _ _ _ _ _ _ _ He Eq) in K. discriminate K.
  - exfalso. destruct (a_line_total (sp_data s)) as (l & r' & n0 & Hl). destruct (first_line_sp _ _ _ _ Hl) as (fl' & z & Ef & Ez & Fz). rewrite El in Ef. injection Ef as <-. unfold try_entry in K1. apply andb_true_iff in K1. destruct K1 as (K1 & _). rewrite Ez in K1. apply starts_with_spec in K1. destruct K1 as (y & K1).
    destruct n0 as [|c n0]; [cbn [app] in K1; subst z; inversion Fz as [|? ? K2 _]; discriminate K2|]. injection K1 as -> _.
    rewrite discard_empty_lines_ok, (discard_none _ _ _ _ 58%N Hl) in D1; [|left; reflexivity|intros [K2|K2]; discriminate K2]. injection D1 as E0. rewrite <- E0 in ML.
    destruct (colon_meta _ _ _ _ _ _ _ Hl ML) as (_ & Er). rewrite Er in A1. destruct (a_line_unique _ _ _ _ _ _ _ A1 Hl) as (_ & _ & ->). destruct (form_head _ (FHeading lev title) Hh) as (c & q & E2 & [<-|[<-|[]]]); discriminate E2.
  - destruct (same_metadata _ _ _ _ _ _ _ _ _ Hp L Em M1) as (D2 & S1). rewrite O1 in S1. destruct (a_line_total (sp_data (md_start m))) as (l & r' & x & Hl).
    pose proof Hl as Hl2. rewrite D2 in Hl2. destruct (a_line_unique _ _ _ _ _ _ _ A1 Hl2) as (_ & _ & <-). destruct (md_kind _ _ _ _ _ _ _ _ _ _ Hl Hm Hi) as (o & Eo & K). rewrite S1 in Eo. injection Eo as <-.
    destruct (style_is o1 (lit "literal")) eqn:Elit.
    + right. unfold with_metadata in Hm. rewrite S1 in Hm. cbn [bind] in Hm. rewrite Elit in Hm. unfold last_resort in Hm. apply bind_ok in Hm. destruct Hm as (q & Eq & Hm). destruct q as [y|]; [|apply Ok_inj in Hm; subst r; discriminate Hi].
      destruct (finish_inv _ _ _ _ Hm) as (id & _ & ->). cbn [pr_item] in Hi. injection Hi as ->. destruct (simple_inv _ _ _ _ Eq) as (c & st' & src & Ec). apply style_eq in Elit. subst o1. split; [rewrite Ec; eauto|].
      unfold block_style. rewrite Ec. cbn [block_common common_of cm_attrlist]. rewrite S1. reflexivity.
    + left. destruct K as [K|(K & _)].
      2:{ exfalso. destruct (form_head _ (FHeading lev title) Hh) as (c & q & E2 & Hc). rewrite E2 in K. inversion K as [|? ? K2 _]. destruct Hc as [<-|[<-|[]]]; discriminate K2. }
      unfold kind_fits in K. destruct (block_form (mi_item mi)) as [f|] eqn:Eb.
      2:{ exfalso. destruct K as (_ & [K|K]); [apply style_eq in K; rewrite K in Elit; discriminate Elit|exact (K (FHeading lev title) Hh)]. }
      destruct K as (_ & K). pose proof (forms_exclusive x1 (FHeading lev title) f Hh K) as Ef0. subst f. assert (Hsec : a_section (mi_item mi) lev).
      { destruct (mi_item mi) as [| |lv ti bs src cm ty id num| | | | |]; try discriminate Eb; [injection Eb as -> _; repeat eexists|]. destruct ty; discriminate Eb. }
      destruct (md_section _ _ _ _ _ _ _ _ Hm Hi Hsec) as (w & l2 & r2 & x2 & t2 & o & _ & _ & _ & Eo & Ed). rewrite S1 in Eo. injection Eo as <-. exists lev. split; [|exact Hle].
      destruct Hsec as (t & bs & src & cm & ty & id & num & Eb2). rewrite Eb2 in *. cbn [heading_of]. rewrite Ed, Hd. reflexivity.
Qed.

(** * What is parsed inside a block *)
Lemma compound_inside D un s m P mi w : located D s -> Suffix s (md_source m) -> Suffix (md_source m) (md_start m) -> compound_parse un m P = Ok (Some (mi, w)) ->
  exists inside b cx src, located D inside /\ un inside P = Ok b /\ mi_item mi = BCompound (br_blocks b) cx src (common_of m) /\ incl (br_warnings b) (fst w).
Proof.
  intros L S1 S2 H. destruct (a_line_total (sp_data (md_start m))) as (l & r & dl & Hl). destruct (compound_delimiter_b dl) as (v & Eb & Hb).
  destruct v. 2:{ rewrite (compound_parse_none _ m P l r dl Hl) in H; [discriminate H|]. intros K. apply Hb in K. discriminate K. }
  assert (Hd : compound_delimiter dl) by (apply Hb; reflexivity). unfold compound_parse in H. rewrite (take_norm_eq _ _ _ _ Hl) in H. cbn [bind mi_item mi_after sp_data with_data] in H.
  rewrite (compound_context_delim dl Hd), Eb in H. cbn [bind negb] in H.
  destruct (find_delimiter_spec dl (length (sp_data (skip (md_start m) l r))) (skip (md_start m) l r) (le_n _)) as (c & o & He & Ho). rewrite sp_data_skip in He.
  pose proof (located_Suffix _ _ _ (located_Suffix _ _ _ L S1) S2) as L2. pose proof (located_Suffix _ _ _ L2 (suffix_line _ _ _ _ Hl)) as L3.
  destruct o as [r'|].
  - destruct Ho as (k & Dk & Hk & _ & Ef). rewrite Ef in H. cbn [bind fst snd mi_item mi_after] in H. rewrite sp_data_skip in Dk.
    rewrite (trim_to (skip (md_start m) l r) c (k ++ r')) in H by (rewrite ?sp_data_skip, ?sp_off_skip; auto). cbn [bind] in H.
    apply bind_ok in H. destruct H as (b & Hu & H). apply bind_ok in H. destruct H as (ca & _ & H). apply bind_ok in H. destruct H as (s1 & _ & H). apply bind_ok in H. destruct H as (s2 & _ & H). apply Ok_inj in H. injection H as <- <-.
    eexists _, b, _, s2. split; [|split; [exact Hu|split; [reflexivity|cbn [fst]; intros y Hy; try (match goal with |- In _ (if ?c then _ else _) => destruct c end); try (right; exact Hy); exact Hy]]]. apply (located_Sub _ _ _ L3). rewrite <- skip_nil. apply Sub_intro with (post := k ++ r'). rewrite sp_data_skip. exact Dk.
  - destruct Ho as (Ec & Ef). rewrite Ef in H. cbn [bind fst snd mi_item mi_after] in H. rewrite sp_data_skip in Ec. subst c.
    rewrite (trim_to (skip (md_start m) l r) r []) in H by (rewrite ?sp_data_skip, ?sp_off_skip, ?app_nil_r; auto). cbn [bind] in H. rewrite with_data_skip in H.
    apply bind_ok in H. destruct H as (b & Hu & H). apply bind_ok in H. destruct H as (ca & _ & H). apply bind_ok in H. destruct H as (s1 & _ & H). apply bind_ok in H. destruct H as (s2 & _ & H). apply Ok_inj in H. injection H as <- <-.
    eexists _, b, _, s2. split; [|split; [exact Hu|split; [reflexivity|cbn [fst]; intros y Hy; try (match goal with |- In _ (if ?c then _ else _) => destruct c end); try (right; exact Hy); exact Hy]]]. exact L3.
Qed.
Lemma section_inside D E un s m P mi w : located D s -> Suffix s (md_source m) -> Suffix (md_source m) (md_start m) -> section_parse E un m P = Ok (Some mi, w) ->
  exists o level rest P1 b title src ty id n, located D rest /\ style_of (md_attrlist m) = Ok o /\ un (section_stop E (discrete_of o) level) level rest P1 = Ok b /\ mi_after mi = br_after b /\
    mi_item mi = BSection level title (br_blocks b) src (common_of m) ty id n /\ incl (br_stop_warnings b ++ br_warnings b) (fst w).
Proof.
  intros L S1 S2 H. destruct w as [ws P']. destruct (section_inv _ _ _ _ _ _ _ H) as [(dd & level & ti & rest & lw & bs & b & sr & t & base & mn & reg & s2 & Ed & Et & Eo & Eu & _ & _ & _ & _ & _ & _ & E1 & Ew)].
  unfold is_discrete in Ed. rewrite Eo in Ed. cbn [bind] in Ed. apply Ok_inj in Ed. destruct (title_line_some _ _ _ Et) as (l & r & n & title & Hl & _ & _ & _ & Ea & _). cbn [mi_after] in Ea.
  exists bs, level, rest. eexists _, b, _, s2, _, _, _. split.
  { subst rest. eapply located_Suffix; [|exact (suffix_line _ _ _ _ Hl)]. eapply located_Suffix; [exact (located_Suffix _ _ _ (located_Suffix _ _ _ L S1) S2)|apply discard_empty_Suffix]. }
  split; [exact Eo|]. split; [fold (discrete_of bs) in Ed; rewrite Ed; exact Eu|]. rewrite E1. split; [reflexivity|]. split; [reflexivity|]. cbn [fst]. rewrite Ew. intros y Hy. rewrite !in_app_iff in *. tauto.
Qed.
(** What a block is, with the place of what is inside. *)
Lemma block_inside D E un s P r mi : located D s -> block_parse_with E un s P = Ok r -> pr_item r = Some mi ->
  (nested_blocks (mi_item mi) = [] /\ forall level, ~ a_section (mi_item mi) level) \/
  (exists inside b cx src cm, located D inside /\ un never 0 inside P = Ok b /\ mi_item mi = BCompound (br_blocks b) cx src cm /\ incl (br_warnings b) (pr_warnings r)) \/
  (exists m ws o level rest P1 b title src ty id n, metadata_parse E s P = Ok (m, ws) /\ located D rest /\ style_of (md_attrlist m) = Ok o /\ un (section_stop E (discrete_of o) level) level rest P1 = Ok b /\ mi_after mi = br_after b /\
    mi_item mi = BSection level title (br_blocks b) src (common_of m) ty id n /\ incl (br_stop_warnings b ++ br_warnings b) (pr_warnings r)).
Proof.
  intros L H Hi. pose proof (block_shape _ _ _ _ _ H) as Sh.
  assert (Simple : forall c src st cm, mi_item mi = BSimple c src st cm -> nested_blocks (mi_item mi) = [] /\ forall level, ~ a_section (mi_item mi) level).
  { intros c src st cm Q. rewrite Q. split; [reflexivity|]. intros level (t & bs & sr & m & ty & id & n & K). discriminate K. }
  destruct Sh as [a af Q|mj r0 Q Hf|m ws r0 Em Sh].
  - cbn [pr_item] in Hi. injection Hi as <-. left. split; [reflexivity|]. intros level (t & bs & sr & m & ty & id & n & K). discriminate K.
  - destruct (finish_inv _ _ _ _ Hf) as (i & _ & ->). cbn [pr_item] in Hi. injection Hi as ->. destruct (simple_fast_inv _ _ _ _ Q) as (c & st & src & cm & Q2 & _). left. eapply Simple. exact Q2.
  - destruct (metadata_Suffix _ _ _ _ _ Em) as (E1 & S2). assert (S1 : Suffix s (md_source m)) by (rewrite E1; apply discard_empty_Suffix).
    destruct Sh as [w _|m' mj w r0 _ _ Es Hf|mj w r0 Es Hf|mj w P1 r0 Es Hf|mj w r0 Es Hf|mj w P1 Es|mj w _ Es]; cbn [pr_item] in Hi.
    + discriminate Hi.
    + destruct (finish_inv _ _ _ _ Hf) as (i & _ & ->). cbn [pr_item] in Hi. injection Hi as ->. destruct (simple_inv _ _ _ _ Es) as (c & st & sr & K2). left. eapply Simple. exact K2.
    + destruct (finish_inv _ _ _ _ Hf) as (i & _ & ->). cbn [pr_item] in Hi. injection Hi as ->. destruct (raw_inv _ _ _ _ _ Es) as (c & mo & cx & sr & g & K2). left. rewrite K2. split; [reflexivity|]. intros level (t & bs & s' & m' & ty & id & n & K). discriminate K.
    + destruct (finish_inv _ _ _ _ Hf) as (i & _ & ->). cbn [pr_item] in Hi. injection Hi as ->. right. left. destruct (compound_inside D _ s m P mi (w, P1) L S1 S2 Es) as (ins & b & cx & src & A & B & C & W). exists ins, b, cx, src, (common_of m). split; [exact A|]. split; [exact B|]. split; [exact C|]. cbn [pr_warnings]. intros y Hy. apply W in Hy. cbn [fst] in Hy. rewrite !in_app_iff. auto.
    + destruct (finish_inv _ _ _ _ Hf) as (i & _ & ->). cbn [pr_item] in Hi. injection Hi as ->. destruct (media_inv _ _ _ _ _ Es) as (t & tg & a & sr & K2). left. rewrite K2. split; [reflexivity|]. intros level (t' & bs & s' & m' & ty & id & n & K). discriminate K.
    + injection Hi as ->. right. right. destruct (section_inside D E un s m P mi _ L S1 S2 Es) as (o & level & rest & P2 & b & title & src & ty & id & n & K1 & K2 & K3 & K4 & K5 & K6). exists m, ws, o, level, rest, P2, b, title, src, ty, id, n. repeat (split; [assumption|]). cbn [pr_warnings]. intros y Hy. apply K6 in Hy. cbn [fst] in Hy. rewrite in_app_iff. auto.
    + injection Hi as ->. destruct (break_inv _ _ Es) as (t & sr & K2). left. rewrite K2. split; [reflexivity|]. intros level (t' & bs & s' & m' & ty & id & n & K). discriminate K.
Qed.

(** * All blocks *)
Section Outline.
Context (D : text) (E : env) (Hp : plain_lists D) (Ht : ~ In TAB D).
(** [f] stops at a section that is not deeper than [lo]. *)
Definition stop_low (f : stop_fn) (lo : nat) : Prop := forall un s k st P r mi level, located D s -> f s k = Ok st -> fst st = false ->
  block_parse_with E un s P = Ok r -> pr_item r = Some mi -> heading_of (mi_item mi) = Some level -> lo < level.
Lemma stop_low_0 f : stop_low f 0.
Proof.
  intros un s k st P r mi level L _ _ H Hi Hh. pose proof (heading_section _ _ Hh) as Hsec. destruct (block_path _ _ _ _ _ _ H Hi) as [(fl & _ & _ & K)|[(a & fl & _ & _ & K)|(m & ws & Em & Hm)]].
  - destruct (simple_fast_inv _ _ _ _ K) as (c & st' & src & cm & K2 & _). rewrite K2 in Hh. discriminate Hh.
  - rewrite K in Hh. discriminate Hh.
  - destruct (md_section _ _ _ _ _ _ _ _ Hm Hi Hsec) as (w & l & r' & x & title & o & _ & _ & (c & ws' & _ & Hl & _) & _). lia.
Qed.
Lemma stop_low_section n : stop_low (section_stop E false n) n.
Proof. intros un s k st P r mi level L Hs Hf H Hi Hh. exact (section_deeper D E un n s k st P r mi level Hp L Hs Hf H Hi Hh). Qed.
Definition ends (f : stop_fn) (s : span) : Prop := sp_data s = [] \/ exists k st, f s k = Ok st /\ fst st = true.
Definition good_outline (f : stop_fn) (lo : nat) (s : span) (b : bres) : Prop :=
  outline lo (br_blocks b) /\ ends f (br_after b) /\ forall n, ends (section_stop E false n) s -> follows n (br_blocks b).
Lemma blocks_outline : forall fuel f lo n s P b, stop_low f lo -> located D s -> blocks_loop E fuel f n s P = Ok b -> good_outline f lo s b.
Proof.
  induction fuel as [|fuel IH]; intros f lo n s P b Hlo L H; cbn [blocks_loop] in H.
  - destruct (sp_data s) eqn:Ds; [|discriminate H]. apply Ok_inj in H. subst b. split; [constructor|]. split; [left; exact Ds|]. intros n' _. exact I.
  - destruct (sp_data s) as [|c0 t0] eqn:Ds. { apply Ok_inj in H. subst b. split; [constructor|]. split; [left; exact Ds|]. intros n' _. exact I. }
    apply bind_ok in H. destruct H as (st & Est & H). destruct (fst st) eqn:Ef. { apply Ok_inj in H. subst b. split; [constructor|]. split; [right; eauto|]. intros n' _. exact I. }
    apply bind_ok in H. destruct H as (r & Er & H). apply bind_ok in H. destruct H as (rest & Hr & H). apply Ok_inj in H. subst b. cbn [br_after br_blocks].
    destruct (pr_item r) as [mi|] eqn:Ei; [|destruct (IH _ lo _ _ _ _ Hlo L Hr) as (A & B & C); split; [exact A|]; split; [exact B|exact C]].
    destruct (block_ok D E _ s P r mi (until_ok D E fuel) L Er Ei) as (A1 & _ & _). pose proof (located_Suffix _ _ _ L A1) as La.
    destruct (IH _ lo _ _ _ _ Hlo La Hr) as (O1 & O2 & O3).
    assert (U : forall f' lo' n' s' P' b', stop_low f' lo' -> located D s' -> (src <- discard_empty_lines s' ;; blocks_loop E fuel f' n' src P') = Ok b' -> outline lo' (br_blocks b') /\ ends f' (br_after b')).
    { intros f' lo' n' s' P' b' Hlo' L' Hb. rewrite discard_empty_lines_ok in Hb. cbn [bind] in Hb. destruct (IH _ lo' _ _ _ _ Hlo' (located_Suffix _ _ _ L' (discard_empty_Suffix s')) Hb) as (X & Y & _). auto. }
    split; [|split; [exact O2|]].
    + destruct (block_inside D E _ s P r mi L Er Ei) as [(Hn & Hs)|[(ins & b & cx & src & cm & Li & Eu & Eb & _)|(m & ws & o & level & rs & P1 & b & title & src & ty & id & num & Em & Li & Eo & Eu & Ea & Eb & _)]].
      * apply ol_other; [|rewrite Hn; constructor|exact O1]. destruct (heading_of (mi_item mi)) eqn:Eh; [|reflexivity]. destruct (Hs _ (heading_section _ _ Eh)).
      * apply ol_other; [rewrite Eb; reflexivity| |exact O1]. rewrite Eb. exact (proj1 (U _ 0 _ _ _ _ (stop_low_0 _) Li Eu)).
      * assert (Ed : discrete_style (mi_item mi) = discrete_of o) by (rewrite Eb; unfold discrete_style, block_style; cbn [block_common common_of cm_attrlist]; rewrite Eo; reflexivity).
        destruct (discrete_of o) eqn:Edo.
        -- apply ol_other; [rewrite Eb in *; cbn [heading_of]; rewrite Ed; reflexivity| |exact O1]. rewrite Eb. exact (proj1 (U _ 0 _ _ _ _ (stop_low_0 _) Li Eu)).
        -- assert (Hh : heading_of (mi_item mi) = Some level) by (rewrite Eb in *; cbn [heading_of]; rewrite Ed; reflexivity).
           destruct (U _ level _ _ _ _ (stop_low_section level) Li Eu) as (X & Y). apply (ol_section lo level); [exact Hh|exact (Hlo _ _ _ _ _ _ _ _ L Est Ef Er Ei Hh)|rewrite Eb; exact X| |exact O1].
           apply O3. rewrite Ea. exact Y.
    + intros n' [K|(k & st' & K1 & K2)]; [rewrite Ds in K; discriminate K|]. cbn [section_stop] in K1. exact (section_next D E _ n' s k st' P r mi Hp Ht L K1 K2 Er Ei).
Qed.
End Outline.
Lemma outline_app lo l1 l2 : outline lo (l1 ++ l2) -> outline lo l1 /\ outline lo l2.
Proof.
  revert l2. induction l1 as [|b l1 IH]; intros l2 H; [split; [constructor|exact H]|]. cbn [app] in H. inversion H as [|? ? ? Hh Hn Hr|? n ? ? Hh Hlt Hn Hf Hr]; subst.
  - destruct (IH _ Hr). split; [|assumption]. apply ol_other; assumption.
  - destruct (IH _ Hr). split; [|assumption]. apply (ol_section lo n); try assumption. destruct l1; [exact I|exact Hf].
Qed.
Theorem document_outline E fuel t sm P d P' : plain_lists t -> ~ In TAB t -> document_parse E fuel t sm P = Ok (d, P') -> outline 0 (d_blocks d).
Proof.
  intros Hp Ht H. unfold document_parse in H. apply bind_ok in H. destruct H as ([[hd after] [ws Ph]] & Eh & H). cbn [fst snd mi_item mi_after] in H.
  destruct (header_parse_spec _ _ _ _ _ _ _ Eh) as (h & src & _ & _ & _ & _ & _ & S1 & _ & _ & _ & _ & _ & _ & _ & _ & Ea & _).
  assert (S : Suffix (span_new t) after) by (rewrite Ea; eapply Suffix_trans; [exact S1|apply discard_empty_Suffix]). clear Eh Ea S1 h src.
  apply bind_ok in H. destruct H as (b & Eb & H). unfold parse_blocks_until in Eb. rewrite discard_empty_lines_ok in Eb. cbn [bind] in Eb. pose proof (Suffix_trans _ _ _ S (discard_empty_Suffix after)) as S2.
  destruct (blocks_outline t E Hp Ht fuel _ 0 _ _ _ _ (stop_low_0 t E _) (located_Suffix _ _ _ (located_new t) S2) Eb) as (K & _).
  apply bind_ok in H. destruct H as (bs & Em & H). rewrite trim_trailing_whitespace_ok in H. cbn [bind] in H. destruct (take_catalog (br_parser b)) as [c P2]. apply Ok_inj in H. injection H as <- _. cbn [d_blocks].
  unfold make_preamble in Em. destruct (preamble_split _ _ _) as [i|]; [|apply Ok_inj in Em; subst bs; exact K].
  apply bind_ok in Em. destruct Em as (p & Ep & Em). apply Ok_inj in Em. subst bs. unfold preamble_from_blocks in Ep. apply bind_ok in Ep. destruct Ep as (q & _ & Ep). apply Ok_inj in Ep. subst p.
  rewrite <- (firstn_skipn i (br_blocks b)) in K. apply outline_app in K. destruct K as (K1 & K2). apply ol_other; [reflexivity|exact K1|exact K2].
Qed.

(** * Skipped levels *)
(** What the stop function reports. *)
Lemma peer_level E n s k st : peer_or_ancestor_section E n s k = Ok st ->
  exists m ws o l r x, metadata_parse E s parser_default = Ok (m, ws) /\ style_of (md_attrlist m) = Ok o /\ a_line (sp_data (md_start m)) l r x /\
  ((fst (snd st) = k /\ ~ (discrete_of o = false /\ exists lev title, heading x lev title)) \/
   exists lev title, discrete_of o = false /\ heading x lev title /\ fst (snd st) = lev /\ (k + 1 < lev -> exists l' r' y, a_line (sp_data s) l' r' y /\ In (mkwarn (with_data s y) (WSectionHeadingLevelSkipped k lev)) (snd (snd st)))).
Proof.
  intros H. unfold peer_or_ancestor_section in H. apply bind_ok in H. destruct H as ([m ws] & Em & H). cbn [fst] in H. apply bind_ok in H. destruct H as (d & Ed & H). unfold is_discrete in Ed. apply bind_ok in Ed. destruct Ed as (o & Eo & Ed). apply Ok_inj in Ed.
  destruct (a_line_total (sp_data (md_start m))) as (l & r & x & Hl). exists m, ws, o, l, r, x. split; [exact Em|]. split; [exact Eo|]. split; [exact Hl|]. fold (discrete_of o) in Ed. rewrite Ed. destruct d.
  { apply Ok_inj in H. subst st. left. split; [reflexivity|]. intros (K & _). discriminate K. }
  apply bind_ok in H. destruct H as ([t w] & Et & H). cbn [fst snd] in H. destruct t as [mi|].
  - apply bind_ok in H. destruct H as (w2 & Ew & H). apply Ok_inj in H. subst st. cbn [fst snd]. right. destruct (title_line_some _ _ _ Et) as (l' & r' & x' & ti & Hl' & Hh & _). destruct (a_line_unique _ _ _ _ _ _ _ Hl Hl') as (_ & _ & <-).
    exists (fst (mi_item mi)), ti. split; [reflexivity|]. split; [exact Hh|]. split; [reflexivity|]. intros K. apply Nat.ltb_lt in K. rewrite K in Ew.
    destruct (a_line_total (sp_data s)) as (l2 & r2 & y & H2). rewrite (take_norm_eq _ _ _ _ H2) in Ew. cbn [bind mi_item] in Ew. apply Ok_inj in Ew. subst w2. exists l2, r2, y. split; [exact H2|]. apply in_app_iff. right. left. reflexivity.
  - apply Ok_inj in H. subst st. cbn [fst snd]. left. split; [reflexivity|]. intros (_ & lev & title & Hh). destruct (title_line_heading _ _ _ _ _ _ Hl Hh) as (y & Ey & _). rewrite Et in Ey. discriminate Ey.
Qed.
(** Whether to stop does not change what is read. *)
Lemma peer_other E n n' s k st : peer_or_ancestor_section E n s k = Ok st -> exists st', peer_or_ancestor_section E n' s k = Ok st' /\ snd st' = snd st.
Proof.
  unfold peer_or_ancestor_section. intros H. apply bind_ok in H. destruct H as (md & -> & H). cbn [bind]. apply bind_ok in H. destruct H as (d & -> & H). cbn [bind]. destruct d; [apply Ok_inj in H; subst st; eauto|].
  apply bind_ok in H. destruct H as (r & -> & H). cbn [bind]. destruct (fst r); [|apply Ok_inj in H; subst st; eauto]. apply bind_ok in H. destruct H as (w & -> & H). cbn [bind]. apply Ok_inj in H. subst st. eauto.
Qed.
Lemma md_none E un m ws P r l r' x : a_line (sp_data (md_start m)) l r' x -> with_metadata E un m ws P = Ok r -> pr_item r = None -> blank x.
Proof.
  assert (LR : forall m0 w Q, last_resort E m0 w Q = Ok r -> pr_item r = None -> simple_parse E m0 Q = Ok None).
  { intros m0 w Q H Hi. unfold last_resort in H. apply bind_ok in H. destruct H as (o & Eo & H). destruct o; [|exact Eo]. destruct (finish_inv _ _ _ _ H) as (id & _ & ->). discriminate Hi. }
  assert (F : forall mi w Q, finish mi w Q = Ok r -> pr_item r = None -> False). { intros mi w Q H Hi. destruct (finish_inv _ _ _ _ H) as (id & _ & ->). discriminate Hi. }
  intros Hl H Hi. unfold with_metadata in H. apply bind_ok in H. destruct H as (bs & _ & H). destruct (style_is bs (lit "literal")); [exact (simple_md_none _ _ _ _ _ _ Hl (LR _ _ _ H Hi))|].
  apply bind_ok in H. destruct H as (o & _ & H). destruct o; [destruct (F _ _ _ H Hi)|]. apply bind_ok in H. destruct H as (o & _ & H). destruct o; [destruct (F _ _ _ H Hi)|].
  apply bind_ok in H. destruct H as (li & _ & H). unfold try_media in H. apply bind_ok in H. destruct H as ([o w] & _ & H). cbn [fst snd] in H. destruct o; [destruct (F _ _ _ H Hi)|].
  unfold try_section in H. apply bind_ok in H. destruct H as ([o [w2 Q]] & _ & H). cbn [fst snd] in H. destruct o; [apply Ok_inj in H; subst r; discriminate Hi|].
  unfold try_break in H. apply bind_ok in H. destruct H as (o & _ & H). destruct o; [apply Ok_inj in H; subst r; discriminate Hi|].
  unfold no_block in H. apply bind_ok in H. destruct H as (so & Es & H). destruct so as [y|]; [cbn [is_some negb andb] in H; rewrite (LR _ _ _ H Hi) in Es; discriminate Es|exact (simple_md_none _ _ _ _ _ _ Hl Es)].
Qed.
Lemma block_path_none E un s P r : block_parse_with E un s P = Ok r -> pr_item r = None -> exists m ws, metadata_parse E s P = Ok (m, ws) /\ with_metadata E un m ws P = Ok r.
Proof.
  intros H Hi. unfold block_parse_with in H. apply bind_ok in H. destruct H as (fl & Ef & H). apply bind_ok in H. destruct H as (fast & Efa & H). destruct fast as [x|].
  { destruct (finish_inv _ _ _ _ H) as (id & _ & ->). discriminate Hi. }
  apply bind_ok in H. destruct H as (en & Ee & H). destruct en as [at_|]. { apply Ok_inj in H. subst r. discriminate Hi. }
  apply bind_ok in H. destruct H as ([m ws] & Em & H). cbn [fst snd] in H. eauto.
Qed.
Section Skipped.
Context (D : text) (E : env) (Hp : plain_lists D) (Ht : ~ In TAB D).
(** A warning about the level [k] after [n], at a place in the document. *)
Definition skip_warned (D : text) (n k : nat) (ws : list warning) : Prop := exists s, located D s /\ In (mkwarn s (WSectionHeadingLevelSkipped n k)) ws.
Lemma skipped_loop : forall fuel lv n s P b, located D s -> blocks_loop E fuel (section_stop E false lv) n s P = Ok b ->
  forall l1 c l2 k, br_blocks b = l1 ++ c :: l2 -> heading_of c = Some k -> Forall (fun x => ~ literal_paragraph x) l1 -> last_level n l1 + 1 < k -> skip_warned D (last_level n l1) k (br_stop_warnings b).
Proof.
  induction fuel as [|fuel IH]; intros lv n s P b L H l1 c l2 k El Hc Hl Hk; cbn [blocks_loop] in H.
  { destruct (sp_data s) eqn:Ds; [|discriminate H]. apply Ok_inj in H. subst b. destruct l1; discriminate El. }
  destruct (sp_data s) as [|c0 t0] eqn:Ds. { apply Ok_inj in H. subst b. destruct l1; discriminate El. }
  apply bind_ok in H. destruct H as (st & Est & H). cbn [section_stop] in Est. destruct (fst st) eqn:Ef. { apply Ok_inj in H. subst b. destruct l1; discriminate El. }
  apply bind_ok in H. destruct H as (r & Er & H). apply bind_ok in H. destruct H as (rest & Hr & H). apply Ok_inj in H. subst b. cbn [br_stop_warnings br_blocks] in *.
  assert (More : forall n' l, last_level n' l + 1 < k -> skip_warned D (last_level n' l) k (br_stop_warnings rest) -> skip_warned D (last_level n' l) k (snd (snd st) ++ br_stop_warnings rest)).
  { intros n' l _ (sp & A & B). exists sp. split; [exact A|]. apply in_app_iff. auto. }
  destruct (peer_level _ _ _ _ _ Est) as (m1 & w1 & o1 & a1 & r1 & x1 & M1 & O1 & A1 & I).
  destruct (pr_item r) as [mi|] eqn:Ei.
  2:{ assert (G : fst (snd st) = n).
      { destruct I as [(I & _)|(lev & title & _ & Hh & _)]; [exact I|]. exfalso. destruct (block_path_none _ _ _ _ _ Er Ei) as (m & ws & Em & Hm). destruct (same_metadata _ _ _ _ _ _ _ _ _ Hp L Em M1) as (D1 & _). rewrite <- D1 in A1.
        pose proof (md_none _ _ _ _ _ _ _ _ _ A1 Hm Ei) as B. destruct (form_head _ (FHeading lev title) Hh) as (q & z & E2 & Hq). rewrite E2 in B. inversion B as [|? ? K2 _]. destruct Hq as [<-|[<-|[]]]; discriminate K2. }
      rewrite G in Hr. apply More; [exact Hk|]. exact (IH _ _ _ _ _ L Hr _ _ _ _ El Hc Hl Hk). }
  destruct (block_ok D E _ s P r mi (until_ok D E fuel) L Er Ei) as (A2 & _ & _). pose proof (located_Suffix _ _ _ L A2) as La.
  destruct l1 as [|x l1]; cbn [app] in El; injection El as E1 El.
  - (* the section itself *)
    cbn [last_level fold_left] in *. subst c. pose proof (heading_section _ _ Hc) as Hsec. destruct (block_path _ _ _ _ _ _ Er Ei) as [(fl & _ & _ & K)|[(a & fl & _ & _ & K)|(m & ws & Em & Hm)]].
    + destruct (simple_fast_inv _ _ _ _ K) as (c & st' & src & cm & K2 & _). rewrite K2 in Hc. discriminate Hc.
    + rewrite K in Hc. discriminate Hc.
    + destruct (md_section _ _ _ _ _ _ _ _ Hm Ei Hsec) as (w & l & r' & x & title & o & _ & Hl' & Hx & Eo & Ed). destruct (same_metadata _ _ _ _ _ _ _ _ _ Hp L Em M1) as (D1 & S1). rewrite Eo, O1 in S1. injection S1 as <-.
      rewrite D1 in Hl'. destruct (a_line_unique _ _ _ _ _ _ _ A1 Hl') as (_ & _ & <-).
      assert (Hd : discrete_of o = false). { rewrite <- Ed. destruct Hsec as (t & bs & src & cm & ty & id & num & Eb). rewrite Eb in Hc |- *. cbn [heading_of] in Hc. destruct (discrete_style _); [discriminate Hc|reflexivity]. }
      destruct I as [(_ & I)|(lev & ti & _ & Hh & _ & I)]; [destruct I; split; [exact Hd|]; eauto|]. destruct (heading_unique _ _ _ _ _ Hh Hx) as (-> & _). destruct (I Hk) as (l' & r2 & y & Hy & Hin).
      exists (with_data s y). split; [|apply in_app_iff; auto]. apply (located_Sub _ _ _ L). destruct (a_line_prefix _ _ _ _ Hy) as (e & Ee). rewrite <- skip_nil. apply Sub_intro with (post := e ++ r2). rewrite (a_line_app _ _ _ _ Hy), Ee. cbn [app]. rewrite <- app_assoc. reflexivity.
  - (* a block before it *)
    inversion Hl as [|? ? Hx Hl']; subst x l. assert (G : fst (snd st) = last_level n [mi_item mi]).
    { cbn [last_level fold_left]. destruct I as [(I & N)|(lev & title & Hd & Hh & I & _)].
      - rewrite I. destruct (heading_of (mi_item mi)) as [lev|] eqn:Hm; [|reflexivity]. exfalso. pose proof (heading_section _ _ Hm) as Hsec. destruct (block_path _ _ _ _ _ _ Er Ei) as [(fl & _ & _ & K)|[(a & fl & _ & _ & K)|(m & ws & Em & Hm')]].
        + destruct (simple_fast_inv _ _ _ _ K) as (c' & st' & src & cm & K2 & _). rewrite K2 in Hm. discriminate Hm.
        + rewrite K in Hm. discriminate Hm.
        + destruct (md_section _ _ _ _ _ _ _ _ Hm' Ei Hsec) as (w & l & r' & x & title & o & _ & Hl2 & Hx2 & Eo & Ed). destruct (same_metadata _ _ _ _ _ _ _ _ _ Hp L Em M1) as (D1 & S1). rewrite Eo, O1 in S1. injection S1 as <-.
          rewrite D1 in Hl2. destruct (a_line_unique _ _ _ _ _ _ _ A1 Hl2) as (_ & _ & <-). apply N. split; [|eauto]. rewrite <- Ed. destruct Hsec as (t & bs & src & cm & ty & id & num & Eb). rewrite Eb in Hm |- *. cbn [heading_of] in Hm. destruct (discrete_style _); [discriminate Hm|reflexivity].
      - rewrite I. destruct (peer_other _ _ lev _ _ _ Est) as (st' & E' & _). destruct (peer_spec _ _ _ _ _ E') as (m2 & w2 & o2 & l' & r2 & x2 & M2 & O2 & A3 & I2). rewrite M1 in M2. injection M2 as <- <-. rewrite O1 in O2. injection O2 as <-. destruct (a_line_unique _ _ _ _ _ _ _ A1 A3) as (_ & _ & <-).
        assert (T : fst st' = true) by (apply I2; split; [exact Hd|]; eauto).
        destruct (section_next D E _ lev s n st' P r mi Hp Ht L E' T Er Ei) as [(lev' & Hm & _)|K]; [|destruct (Hx K)]. rewrite Hm. pose proof (heading_section _ _ Hm) as Hsec. destruct (block_path _ _ _ _ _ _ Er Ei) as [(fl & _ & _ & K)|[(a & fl & _ & _ & K)|(m & ws & Em & Hm')]].
        + destruct (simple_fast_inv _ _ _ _ K) as (c' & st2 & src & cm & K2 & _). rewrite K2 in Hm. discriminate Hm.
        + rewrite K in Hm. discriminate Hm.
        + destruct (md_section _ _ _ _ _ _ _ _ Hm' Ei Hsec) as (w & l & r' & x & ti & o & _ & Hl2 & Hx2 & _). destruct (same_metadata _ _ _ _ _ _ _ _ _ Hp L Em M1) as (D1 & _).
          rewrite D1 in Hl2. destruct (a_line_unique _ _ _ _ _ _ _ A1 Hl2) as (_ & _ & <-). destruct (heading_unique _ _ _ _ _ Hh Hx2) as (-> & _). reflexivity. }
    rewrite G in Hr. change (last_level n (mi_item mi :: l1)) with (last_level (last_level n [mi_item mi]) l1) in *. apply More; [exact Hk|]. exact (IH _ _ _ _ _ La Hr _ _ _ _ El Hc Hl' Hk).
Qed.
(** The children of all sections among [bs]. *)
Definition skips_reported (ws : list warning) (bs : list block) : Prop :=
  forall b n l1 c l2 k, below bs b -> heading_of b = Some n -> nested_blocks b = l1 ++ c :: l2 -> heading_of c = Some k -> Forall (fun x => ~ literal_paragraph x) l1 -> last_level n l1 + 1 < k -> skip_warned D (last_level n l1) k ws.
Lemma skip_warned_incl n k w1 w2 : incl w1 w2 -> skip_warned D n k w1 -> skip_warned D n k w2.
Proof. intros H (s & A & B). exists s. auto. Qed.
Lemma skips_incl w1 w2 bs : incl w1 w2 -> skips_reported w1 bs -> skips_reported w2 bs.
Proof. intros H K b n l1 c l2 k A1 A2 A3 A4 A5 A6. exact (skip_warned_incl _ _ _ _ H (K _ _ _ _ _ _ A1 A2 A3 A4 A5 A6)). Qed.
Lemma skips_cons ws x bs : (forall n l1 c l2 k, heading_of x = Some n -> nested_blocks x = l1 ++ c :: l2 -> heading_of c = Some k -> Forall (fun x => ~ literal_paragraph x) l1 -> last_level n l1 + 1 < k -> skip_warned D (last_level n l1) k ws) ->
  skips_reported ws (nested_blocks x) -> skips_reported ws bs -> skips_reported ws (x :: bs).
Proof.
  intros H1 H2 H3 b n l1 c l2 k A1. inversion A1 as [? ? Hi|? y ? Hy Hb]; subst.
  - destruct Hi as [<-|Hi]; [exact (H1 n l1 c l2 k)|exact (H3 b n l1 c l2 k (bl_here _ _ Hi))].
  - destruct Hy as [<-|Hy]; [exact (H2 b n l1 c l2 k Hb)|exact (H3 b n l1 c l2 k (bl_in _ _ _ Hy Hb))].
Qed.
Lemma skips_nil ws : skips_reported ws [].
Proof. intros b n l1 c l2 k A. inversion A; subst; contradiction. Qed.
Lemma skips_loop : forall fuel f n s P b, located D s -> blocks_loop E fuel f n s P = Ok b -> skips_reported (br_warnings b) (br_blocks b).
Proof.
  induction fuel as [|fuel IH]; intros f n s P b L H; cbn [blocks_loop] in H.
  { destruct (sp_data s) eqn:Ds; [|discriminate H]. apply Ok_inj in H. subst b. apply skips_nil. }
  destruct (sp_data s) as [|c0 t0] eqn:Ds. { apply Ok_inj in H. subst b. apply skips_nil. }
  apply bind_ok in H. destruct H as (st & Est & H). destruct (fst st) eqn:Ef. { apply Ok_inj in H. subst b. apply skips_nil. }
  apply bind_ok in H. destruct H as (r & Er & H). apply bind_ok in H. destruct H as (rest & Hr & H). apply Ok_inj in H. subst b. cbn [br_warnings br_blocks].
  destruct (pr_item r) as [mi|] eqn:Ei; [|refine (skips_incl _ _ _ _ (IH _ _ _ _ _ L Hr)); intros y Hy; apply in_app_iff; auto].
  destruct (block_ok D E _ s P r mi (until_ok D E fuel) L Er Ei) as (A1 & _ & _). pose proof (located_Suffix _ _ _ L A1) as La.
  assert (U : forall f' n' s' P' b', located D s' -> (src <- discard_empty_lines s' ;; blocks_loop E fuel f' n' src P') = Ok b' -> skips_reported (br_warnings b') (br_blocks b')).
  { intros f' n' s' P' b' L' Hb. rewrite discard_empty_lines_ok in Hb. cbn [bind] in Hb. exact (IH _ _ _ _ _ (located_Suffix _ _ _ L' (discard_empty_Suffix s')) Hb). }
  apply skips_cons; [| |refine (skips_incl _ _ _ _ (IH _ _ _ _ _ La Hr)); intros y Hy; apply in_app_iff; auto];
  (destruct (block_inside D E _ s P r mi L Er Ei) as [(Hn & Hs)|[(ins & b & cx & src & cm & Li & Eu & Eb & W)|(m & ws & o & level & rs & P1 & b & title & src & ty & id & num & Em & Li & Eo & Eu & Ea & Eb & W)]]).
  - intros k' l1 c l2 k Hh. destruct (Hs _ (heading_section _ _ Hh)).
  - intros k' l1 c l2 k Hh. rewrite Eb in Hh. discriminate Hh.
  - intros k' l1 c l2 k Hh Hc. assert (Ed : discrete_style (mi_item mi) = discrete_of o) by (rewrite Eb; unfold discrete_style, block_style; cbn [block_common common_of cm_attrlist]; rewrite Eo; reflexivity).
    rewrite Eb in *. cbn [heading_of] in Hh. rewrite Ed in Hh. destruct (discrete_of o); [discriminate Hh|]. injection Hh as <-. cbn [nested_blocks] in Hc. intros A2 A3 A4.
    rewrite discard_empty_lines_ok in Eu. cbn [bind] in Eu. refine (skip_warned_incl _ _ _ _ _ (skipped_loop _ _ _ _ _ _ (located_Suffix _ _ _ Li (discard_empty_Suffix rs)) Eu _ _ _ _ Hc A2 A3 A4)).
    intros y Hy. apply in_app_iff. left. apply W. apply in_app_iff. auto.
  - rewrite Hn. apply skips_nil.
  - rewrite Eb. cbn [nested_blocks]. refine (skips_incl _ _ _ _ (U _ _ _ _ _ Li Eu)). intros y Hy. apply in_app_iff. left. apply W. exact Hy.
  - rewrite Eb. cbn [nested_blocks]. refine (skips_incl _ _ _ _ (U _ _ _ _ _ Li Eu)). intros y Hy. apply in_app_iff. left. apply W. apply in_app_iff. auto.
Qed.
End Skipped.
Theorem document_skips E fuel t sm P d P' : plain_lists t -> ~ In TAB t -> document_parse E fuel t sm P = Ok (d, P') -> skips_reported t (d_warnings d) (d_blocks d).
Proof.
  intros Hp Ht H. unfold document_parse in H. apply bind_ok in H. destruct H as ([[hd after] [ws Ph]] & Eh & H). cbn [fst snd mi_item mi_after] in H.
  destruct (header_parse_spec _ _ _ _ _ _ _ Eh) as (h & src & _ & _ & _ & _ & _ & S1 & _ & _ & _ & _ & _ & _ & _ & _ & Ea & _).
  assert (S : Suffix (span_new t) after) by (rewrite Ea; eapply Suffix_trans; [exact S1|apply discard_empty_Suffix]). clear Eh Ea S1 h src.
  apply bind_ok in H. destruct H as (b & Eb & H). unfold parse_blocks_until in Eb. rewrite discard_empty_lines_ok in Eb. cbn [bind] in Eb. pose proof (Suffix_trans _ _ _ S (discard_empty_Suffix after)) as S2.
  pose proof (skips_loop t E Hp Ht fuel _ _ _ _ _ (located_Suffix _ _ _ (located_new t) S2) Eb) as K.
  apply bind_ok in H. destruct H as (bs & Em & H). rewrite trim_trailing_whitespace_ok in H. cbn [bind] in H. destruct (take_catalog (br_parser b)) as [c P2]. apply Ok_inj in H. injection H as <- _. cbn [d_blocks d_warnings].
  apply (skips_incl t (br_warnings b)); [intros y Hy; apply in_app_iff; auto|].
  unfold make_preamble in Em. destruct (preamble_split _ _ _) as [i|]; [|apply Ok_inj in Em; subst bs; exact K].
  apply bind_ok in Em. destruct Em as (p & Ep & Em). apply Ok_inj in Em. subst bs. unfold preamble_from_blocks in Ep. apply bind_ok in Ep. destruct Ep as (q & _ & Ep). apply Ok_inj in Ep. subst p.
  rewrite <- (firstn_skipn i (br_blocks b)) in K.
  assert (K1 : forall l, incl l (firstn i (br_blocks b) ++ skipn i (br_blocks b)) -> skips_reported t (br_warnings b) l).
  { intros l Hl x n l1 c' l2 k A. apply (K x n l1 c' l2 k). inversion A as [? ? Hi|? y ? Hy Hb]; subst; [apply bl_here, Hl, Hi|exact (bl_in _ _ _ (Hl _ Hy) Hb)]. }
  apply skips_cons; [intros n l1 c' l2 k Hh; discriminate Hh|apply K1|apply K1]; intros y Hy; apply in_app_iff; auto.
Qed.
