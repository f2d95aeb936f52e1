(** At some places no block is found. *)
From Verif Require Import Text TextFacts Maps Span_Model Span_Pure Span_Proof Span_Laws Span_Spec Span_Prop Parser_Model Subs_Model Attrlist_Model Attrlist_Proof Attrlist_Laws
  Group_Model Header_Model Header_Spec Block_Model Block_Spec Block_Proof Doc_Model Tree_Proof Total_Proof Shape_Proof Meta_Spec Meta_Proof Kind_Spec Kind_Proof Stuck_Spec.

(** * Paragraphs of white space *)
Lemma line_blank t l r n : a_line t l r n -> (blank l <-> blank n).
Proof.
  intros (x & e & _ & -> & _ & He & (y & sps & Hm & -> & Hs & _)).
  assert (Bs : blank sps) by (apply Forall_forall; intros c Hc; apply Hs in Hc; subst c; reflexivity).
  assert (Be : blank e) by (destruct He as [->|(-> & _)]; repeat constructor).
  assert (Bc : blank [CR]) by repeat constructor.
  unfold blank in *. destruct Hm as [->|(-> & _)]; rewrite !Forall_app; tauto.
Qed.
Lemma comment_not_blank n : a_comment n -> ~ blank n.
Proof. intros (q & -> & _) B. inversion B as [|? ? K _]. vm_compute in K. discriminate K. Qed.
Lemma paragraph_hollow k b t ls rest : paragraph k b t ls rest -> forall pre, t = pre ++ rest -> (blank pre <-> hollow b t).
Proof.
  assert (Nil : forall (a b : text), b = a ++ b -> a = []) by (intros a b' K; apply (f_equal (@length N)) in K; rewrite app_length in K; destruct a; [reflexivity|cbn in K; lia]).
  assert (E0 : forall (t l r n : text), (t = [] \/ exists l r, a_line t l r []) -> a_line t l r n -> n = []).
  { intros t0 l r n [->|(l' & r' & H')] H; [exact (a_line_nil _ _ _ H)|]. destruct (a_line_unique _ _ _ _ _ _ _ H H') as (_ & _ & ->). reflexivity. }
  induction 1 as [b t Ht|t l r n H Hb|b t l r n ls rest H Hc Hp IH|b t l r n y ls rest Ht H Hn Hc Hb Hy Hp IH]; intros pre D.
  - apply Nil in D. subst pre. split; [intros _; constructor; exact Ht|intros _; constructor].
  - apply Nil in D. subst pre. split; [intros _; exact (ho_boundary _ _ _ _ H Hb)|intros _; constructor].
  - destruct (paragraph_app _ _ _ _ _ Hp) as (p2 & D2). assert (pre = l ++ p2) as ->. { rewrite (a_line_app _ _ _ _ H), D2, app_assoc in D. apply app_inv_tail in D. auto. }
    split.
    + intros B. exfalso. apply Forall_app in B. destruct B as (B & _). apply (line_blank _ _ _ _ H) in B. exact (comment_not_blank _ Hc B).
    + intros Ho. exfalso. inversion Ho as [b0 t0 K|t0 l' r' n' Hl' K|b0 t0 l' r' n' K0 Hl' K1 K2 K3]; subst.
      * apply (E0 _ _ _ _ K) in H. subst n. exact (comment_not_nil _ Hc eq_refl).
      * destruct (a_line_unique _ _ _ _ _ _ _ H Hl') as (_ & _ & <-). exact (comment_not_boundary _ Hc K).
      * destruct (a_line_unique _ _ _ _ _ _ _ H Hl') as (_ & _ & <-). exact (comment_not_blank _ Hc K2).
  - destruct (paragraph_app _ _ _ _ _ Hp) as (p2 & D2). assert (pre = l ++ p2) as ->. { rewrite (a_line_app _ _ _ _ H), D2, app_assoc in D. apply app_inv_tail in D. auto. } pose proof (IH _ D2) as IH2. clear IH D D2.
    split.
    + intros B. apply Forall_app in B. destruct B as (B & B2). apply (line_blank _ _ _ _ H) in B. exact (ho_line _ _ _ _ _ Ht H Hn B (proj1 IH2 B2)).
    + intros Ho. inversion Ho as [b0 t0 K|t0 l' r' n' Hl' K|b0 t0 l' r' n' K0 Hl' K1 K2 K3]; subst.
      * apply (E0 _ _ _ _ K) in H. contradiction.
      * destruct (a_line_unique _ _ _ _ _ _ _ H Hl') as (_ & _ & <-). destruct (Hb eq_refl K).
      * destruct (a_line_unique _ _ _ _ _ _ _ H Hl') as (_ & <- & <-). apply Forall_app. split; [exact (proj2 (line_blank _ _ _ _ H) K2)|exact (proj2 IH2 K3)].
Qed.
Lemma parse_lines_hollow E s a P o : parse_lines E s a P = Ok o -> (o = None <-> hollow false (sp_data s)).
Proof.
  intros H. unfold parse_lines in H. apply bind_ok in H. destruct H as (saw & _ & H). apply bind_ok in H. destruct H as (si & _ & H). apply bind_ok in H. destruct H as (bs & _ & H).
  destruct (simple_lines_spec si (length (sp_data s)) s [] (le_n _)) as (ls & pre & rest & Hp & D & E1). rewrite E1 in H. cbn [bind fst snd] in H. rewrite (trim_to s pre rest) in H by (rewrite ?sp_off_skip; auto). cbn [bind] in H.
  rewrite trim_trailing_whitespace_ok in H. cbn [bind] in H. unfold p_trim_trailing_whitespace in H. cbn [sp_data with_data] in H. cbn [started] in Hp. rewrite <- (paragraph_hollow _ _ _ _ _ Hp _ D).
  destruct (trim_end pre) as [|x y] eqn:Et; cbn [is_nil] in H.
  - injection H as <-. apply trim_end_nil_blank in Et. tauto.
  - apply bind_ok in H. destruct H as (g & _ & H). apply bind_ok in H. destruct H as (t & _ & H). apply bind_ok in H. destruct H as (af & _ & H). injection H as <-. split; [discriminate|]. intros B. apply trim_end_blank in B. rewrite Et in B. discriminate B.
Qed.
Lemma simple_hollow E m P o : simple_parse E m P = Ok o -> (o = None <-> hollow false (sp_data (md_start m))).
Proof.
  unfold simple_parse. intros H. apply bind_ok in H. destruct H as (o' & Eo & H). rewrite <- (parse_lines_hollow _ _ _ _ _ Eo). destruct o' as [x|].
  - apply bind_ok in H. destruct H as (s1 & _ & H). apply bind_ok in H. destruct H as (s2 & _ & H). apply bind_ok in H. destruct H as (af & _ & H). injection H as <-. split; discriminate.
  - injection H as <-. tauto.
Qed.
Lemma simple_fast_hollow E s P o : simple_parse_fast E s P = Ok o -> (o = None <-> hollow false (sp_data s)).
Proof.
  unfold simple_parse_fast. intros H. apply bind_ok in H. destruct H as (o' & Eo & H). rewrite <- (parse_lines_hollow _ _ _ _ _ Eo). destruct o' as [x|].
  - apply bind_ok in H. destruct H as (af & _ & H). injection H as <-. split; discriminate.
  - injection H as <-. tauto.
Qed.
Lemma hollow_line b t l r n : hollow b t -> a_line t l r n -> blank n \/ (b = true /\ boundary_line n).
Proof.
  intros Ho H. inversion Ho as [b0 t0 K|t0 l' r' n' Hl' K|b0 t0 l' r' n' K0 Hl' K1 K2 K3]; subst.
  - left. destruct K as [->|(l' & r' & K)]; [apply a_line_nil in H; subst n; constructor|]. destruct (a_line_unique _ _ _ _ _ _ _ H K) as (_ & _ & ->). constructor.
  - right. destruct (a_line_unique _ _ _ _ _ _ _ H Hl') as (_ & _ & <-). auto.
  - left. destruct (a_line_unique _ _ _ _ _ _ _ H Hl') as (_ & _ & <-). exact K2.
Qed.

(** * Blocks *)
Lemma last_none E m ws P r : last_resort E m ws P = Ok r -> (pr_item r = None <-> hollow false (sp_data (md_start m))) /\ (pr_item r = None -> pr_parser r = P).
Proof.
  unfold last_resort. intros H. apply bind_ok in H. destruct H as (o & Eo & H). rewrite <- (simple_hollow _ _ _ _ Eo). destruct o as [x|].
  - destruct (finish_inv _ _ _ _ H) as (id & _ & ->). cbn [pr_item]. split; [split|]; discriminate.
  - injection H as <-. cbn [pr_item pr_parser]. tauto.
Qed.
Lemma finish_some mi ws P r : finish mi ws P = Ok r -> pr_item r <> None.
Proof. intros H. destruct (finish_inv _ _ _ _ H) as (id & _ & ->). discriminate. Qed.
Lemma section_quiet E un m P w P1 : section_parse E un m P = Ok (None, (w, P1)) -> P1 = P.
Proof.
  intros H. unfold section_parse in H. apply bind_ok in H. destruct H as (dd & _ & H). rewrite discard_empty_lines_ok in H. cbn [bind] in H. apply bind_ok in H. destruct H as (lt & _ & H). destruct (fst lt) as [x|]; [|injection H as _ <-; reflexivity]. exfalso.
  apply bind_ok in H. destruct H as (bs & _ & H). apply bind_ok in H. destruct H as (b & _ & H). apply bind_ok in H. destruct H as (s1 & _ & H). apply bind_ok in H. destruct H as (t2 & _ & H). apply bind_ok in H. destruct H as (ba & _ & H).
  apply bind_ok in H. destruct H as (mn & _ & H). apply bind_ok in H. destruct H as (rg & _ & H). apply bind_ok in H. destruct H as (s2 & _ & H). apply Ok_inj in H. discriminate H.
Qed.
(** Metadata and what follows: there is no block exactly when there is no text, and the metadata is not made to text. *)
Lemma md_none E un m ws P r : with_metadata E un m ws P = Ok r -> (md_is_empty m = false -> ~ hollow false (sp_data (md_source m))) ->
  (pr_item r = None <-> hollow false (sp_data (md_start m)) /\ exists style, style_of (md_attrlist m) = Ok style /\ (style = Some (lit "literal") \/ md_is_empty m = true)) /\ (pr_item r = None -> pr_parser r = P).
Proof.
  intros H Hm. destruct (a_line_total (sp_data (md_start m))) as (l & r' & n & Hl). unfold with_metadata in H. apply bind_ok in H. destruct H as (style & Es & H).
  destruct (style_is style (lit "literal")) eqn:El.
  { apply style_eq in El. destruct (last_none _ _ _ _ _ H) as (A & B). split; [|exact B]. rewrite A. split; [intros K; split; [exact K|exists style; auto]|tauto]. }
  assert (Nl : style <> Some (lit "literal")) by (intros K; apply style_eq in K; rewrite K in El; discriminate El). clear El.
  assert (No : (exists c y, n = c :: y /\ is_ws c = false) -> ~ hollow false (sp_data (md_start m))).
  { intros (c & y & En & Hc) Ho. destruct (hollow_line _ _ _ _ _ Ho Hl) as [B|(B & _)]; [|discriminate B]. rewrite En in B. inversion B as [|? ? K _]. congruence. }
  assert (Some_ : pr_item r <> None -> ~ hollow false (sp_data (md_start m)) -> (pr_item r = None <-> hollow false (sp_data (md_start m)) /\ exists style, style_of (md_attrlist m) = Ok style /\ (style = Some (lit "literal") \/ md_is_empty m = true)) /\ (pr_item r = None -> pr_parser r = P)) by tauto.
  assert (Raw : forall c, In c (lit "/-.+=*_'<#iv") -> is_ws c = false) by (intros c Hc; cbn in Hc; repeat (destruct Hc as [<-|Hc]; [reflexivity|]); destruct Hc).
  assert (Form : forall f, has_form n f -> exists c y, n = c :: y /\ is_ws c = false).
  { intros f Hf. destruct (form_head _ _ Hf) as (c & y & En & Hc). exists c, y. split; [exact En|]. apply Raw. destruct f as [? ?|?|[] ?|? ?| |]; cbn in *; tauto. }
  apply bind_ok in H. destruct H as (o & Eo & H). destruct o as [[x w]|].
  { apply Some_; [exact (finish_some _ _ _ _ H)|apply No, (Form _ (raw_delim_form _ (raw_some_form _ _ _ _ _ _ _ _ Hl Eo)))]. }
  clear Eo. apply bind_ok in H. destruct H as (o & Eo & H). destruct o as [[x [w P1]]|].
  { apply Some_; [exact (finish_some _ _ _ _ H)|apply No, (Form _ (compound_delim_form _ (compound_some_form _ _ _ _ _ _ _ Hl Eo)))]. }
  clear Eo. rewrite (take_norm_eq _ _ _ _ Hl) in H. cbn [bind mi_item sp_data with_data] in H. unfold try_media in H. apply bind_ok in H. destruct H as ([o w3] & Eo & H). cbn [fst snd] in H. destruct o as [x|].
  { match type of Eo with (if ?b then _ else _) = _ => destruct b eqn:Eb end; [|discriminate Eo]. apply Some_; [exact (finish_some _ _ _ _ H)|]. destruct (media_some _ _ _ _ _ _ _ _ Hl Eb Eo) as (ty & t & a & src & cm & E1 & Hf). exact (No (Form _ Hf)). }
  clear Eo. unfold try_section in H. apply bind_ok in H. destruct H as ([o [w P1]] & Eo & H). cbn [fst snd] in H. destruct o as [x|].
  { match type of Eo with (if ?b then _ else _) = _ => destruct b eqn:Eb end; [|discriminate Eo]. apply Ok_inj in H. subst r. apply Some_; [discriminate|]. destruct (section_some _ _ _ _ _ _ _ _ _ _ Hl Eb Eo) as (f & _ & Hf). exact (No (Form _ Hf)). }
  assert (P1 = P) as ->. { match type of Eo with (if ?b then _ else _) = _ => destruct b end; [exact (section_quiet _ _ _ _ _ _ Eo)|congruence]. }
  clear Eo. unfold try_break in H. apply bind_ok in H. destruct H as (o & Eo & H). destruct o as [x|].
  { match type of Eo with (if ?b then _ else _) = _ => destruct b eqn:Eb end; [|discriminate Eo]. apply Ok_inj in H. subst r. apply Some_; [discriminate|]. destruct (break_some _ _ _ _ _ Hl Eo) as (f & _ & Hf). exact (No (Form _ Hf)). }
  clear Eo. unfold no_block in H. apply bind_ok in H. destruct H as (so & Eso & H). pose proof (simple_hollow _ _ _ _ Eso) as Hs. destruct (md_is_empty m) eqn:Em.
  - cbn [negb] in H. rewrite andb_false_r in H. destruct (last_none _ _ _ _ _ H) as (A & B). split; [|exact B]. rewrite A. split; [intros K; split; [exact K|exists style; auto]|tauto].
  - destruct so as [x|]; cbn [is_some negb andb] in H.
    + destruct (last_none _ _ _ _ _ H) as (A & B). split; [|exact B]. rewrite A. assert (Nh : ~ hollow false (sp_data (md_start m))) by (intros K; apply Hs in K; discriminate K). tauto.
    + destruct (last_none _ _ _ _ _ H) as (A & B). cbn [orphan_metadata md_start] in A. split; [|exact B]. rewrite A. split; [intros K; destruct (Hm eq_refl K)|]. intros (_ & st & E1 & [K|K]); [|discriminate K]. rewrite Es in E1. injection E1 as <-. contradiction.
Qed.
Lemma declared_unique E P is_ x y : declared E P is_ x -> declared E P is_ y -> x = y.
Proof.
  unfold declared. destruct (the_list is_); [|congruence]. intros (s1 & a1 & w1 & D1 & H1 & S1) (s2 & a2 & w2 & D2 & H2 & S2). rewrite attrlist_parse_eq in H1, H2. rewrite D1 in H1. rewrite D2 in H2.
  assert (K : al_attrs (mi_item a1) = al_attrs (mi_item a2)).
  { destruct (src_of _ _ _) as [src| |]; cbn [bind] in H1, H2; try discriminate H1. destruct (starts_with _ src && ends_with _ src).
    - destruct (str_range _ _ _); cbn [bind] in H1, H2; try discriminate H1. injection H1 as <- _. injection H2 as <- _. reflexivity.
    - destruct (t_loop _ _ _ _ _ _ _); cbn [bind] in H1, H2; try discriminate H1. injection H1 as <- _. injection H2 as <- _. reflexivity. }
  unfold al_block_style, nth_attribute in S1, S2. rewrite K, S2 in S1. congruence.
Qed.
Lemma item_not_blank U n i : item_line U n i -> exists c y, n = c :: y /\ is_ws c = false.
Proof. destruct i as [x|x [y|]|x]; cbn [item_line]; [intros (-> & _)|intros (_ & _ & ->)|intros (_ & ->)|intros (-> & _)]; eexists _, _; split; reflexivity. Qed.
Lemma plain_start U t l r n : a_line t l r n -> (forall c y, n = c :: y -> c <> 46%N /\ c <> 91%N) -> meta_lines U [] t [] t.
Proof.
  intros Hl Hn. eapply me_end; [exact Hl|]. intros i Hi. exfalso. destruct i as [x|x y|x].
  - destruct Hi as (Hi & _). destruct (Hn _ _ Hi) as (K & _). exact (K eq_refl).
  - apply anchor_brackets in Hi. destruct Hi as (w & Hi). destruct (Hn _ _ Hi) as (_ & K). exact (K eq_refl).
  - destruct Hi as (Hi & _). destruct (Hn _ _ Hi) as (_ & K). exact (K eq_refl).
Qed.
Lemma with_md E un s s0 P m ws r : discard_empty_lines s = Ok s0 -> metadata_parse E s P = Ok (m, ws) -> with_metadata E un m ws P = Ok r ->
  (pr_item r = None <-> nowhere E P (sp_data s0)) /\ (pr_item r = None -> pr_parser r = P).
Proof.
  intros Hd Em H.
  destruct (metadata_lines _ _ _ _ _ Em) as (is_ & ws1 & ws2 & D0 & ML & T1 & _ & _ & AL & TI & _). rewrite Hd in D0. injection D0 as D0. rewrite D0.
  assert (Me : md_is_empty m = true <-> the_title is_ = None /\ the_list is_ = None).
  { unfold md_is_empty. destruct (the_title is_); [destruct TI as (t & _ & ->)|rewrite TI]; (destruct (md_attrlist m); [destruct AL as (sp & af & -> & _)|destruct AL as (-> & _)]); cbn; split; try discriminate; try tauto; intros (? & ?); discriminate. }
  assert (Dc : forall style, style_of (md_attrlist m) = Ok style -> declared E P is_ style).
  { intros style Es. unfold declared. destruct (md_attrlist m) as [a|]; cbn [style_of] in Es.
    - destruct AL as (sp & after & -> & _ & Hp). exists sp. eexists _, ws1. split; [reflexivity|]. split; [exact Hp|exact Es].
    - destruct AL as (-> & _). injection Es as <-. reflexivity. }
  assert (Hm : md_is_empty m = false -> ~ hollow false (sp_data (md_source m))).
  { intros K Ho. inversion ML as [seen t0 l' r' n' i is' rest Hl' Hi Hsn ML' |seen t0 l' r' n' Hl' Hi]; subst.
    - destruct (item_not_blank _ _ _ Hi) as (c & y & -> & Hc). destruct (hollow_line _ _ _ _ _ Ho Hl') as [B|(B & _)]; [|discriminate B]. inversion B as [|? ? K' _]. congruence.
    - rewrite (proj2 Me) in K by (split; reflexivity). discriminate K. }
  destruct (md_none _ _ _ _ _ _ H Hm) as (A & B). split; [|exact B]. rewrite A. split.
  - intros (Ho & st & Es & K). exists is_, (sp_data (md_start m)), st. split; [exact ML|]. split; [exact (Dc _ Es)|]. split; [exact Ho|]. rewrite Me in K. exact K.
  - intros (is2 & rest2 & st & ML2 & Hdc & Ho & K). destruct (meta_lines_unique _ _ _ _ _ ML _ _ ML2) as (<- & <-). split; [exact Ho|]. unfold with_metadata in H. apply bind_ok in H. destruct H as (style & Es & _). exists style. split; [exact Es|].
    rewrite (declared_unique _ _ _ _ _ (Dc _ Es) Hdc). rewrite Me. exact K.
Qed.
Theorem block_none E un s s0 P r : discard_empty_lines s = Ok s0 -> s0 = s \/ (exists l r, a_line (sp_data s) l r []) -> block_parse_with E un s P = Ok r ->
  (pr_item r = None <-> nowhere E P (sp_data s0)) /\ (pr_item r = None -> pr_parser r = P).
Proof.
  intros Hd He H. unfold block_parse_with in H. destruct (a_line_total (sp_data s)) as (l & r0 & n & Hl). destruct (first_line_sp _ _ _ _ Hl) as (fl & z & Ef & Ez & Fz). rewrite Ef in H. cbn [bind] in H.
  assert (Nw : pr_item r <> None -> s0 = s -> meta_lines (e_u E) [] (sp_data s) [] (sp_data s) -> ~ hollow false (sp_data s) -> (pr_item r = None <-> nowhere E P (sp_data s0)) /\ (pr_item r = None -> pr_parser r = P)).
  { intros N -> ML Nh. split; [|tauto]. split; [tauto|]. intros (is_ & rest & st & ML2 & _ & Ho & _). destruct (meta_lines_unique _ _ _ _ _ ML _ _ ML2) as (_ & <-). contradiction. }
  apply bind_ok in H. destruct H as (fast & Efa & H). destruct fast as [x|].
  { destruct (try_fast s (mi_item fl)) eqn:Et; [|discriminate Efa]. pose proof (simple_fast_hollow _ _ _ _ Efa) as Hh. assert (Nh : ~ hollow false (sp_data s)) by (intros K; apply Hh in K; discriminate K). destruct He as [->|(l2 & r2 & He)].
    2:{ exfalso. apply Nh. constructor. right. eauto. }
    destruct (fast_line (e_u E) s (mi_item fl) Et) as (l1 & r1 & n1 & A & B & C); [eauto 10|]. apply Nw; auto. exact (finish_some _ _ _ _ H). }
  apply bind_ok in H. destruct H as (en & Ee & H). destruct en as [at_|].
  { apply Ok_inj in H. subst r. destruct (try_entry (mi_item fl)) eqn:Et; [|discriminate Ee]. unfold try_entry in Et. apply andb_true_iff in Et. destruct Et as (Et & _). rewrite Ez in Et. apply starts_with_spec in Et. destruct Et as (y & Et).
    destruct n as [|c n']; [exfalso; cbn [app] in Et; subst z; inversion Fz as [|? ? K _]; discriminate K|]. injection Et as -> _.
    apply Nw; [discriminate| | |].
    - destruct He as [He|(l2 & r2 & He)]; [exact He|]. destruct (a_line_unique _ _ _ _ _ _ _ Hl He) as (_ & _ & K). discriminate K.
    - apply (plain_start _ _ _ _ _ Hl). intros c y' K. injection K as <- _. split; discriminate.
    - intros Ho. destruct (hollow_line _ _ _ _ _ Ho Hl) as [B|(B & _)]; [|discriminate B]. inversion B as [|? ? K _]. vm_compute in K. discriminate K. }
  clear Nw. apply bind_ok in H. destruct H as ([m ws] & Em & H). cbn [fst snd] in H. exact (with_md _ _ _ _ _ _ _ _ Hd Em H).
Qed.
(** So the loop over the blocks never comes to an end at such a place. *)
Lemma loop_stuck E s s0 P : sp_data s <> [] -> discard_empty_lines s = Ok s0 -> s0 = s \/ (exists l r, a_line (sp_data s) l r []) -> nowhere E P (sp_data s0) -> forall fuel n b, blocks_loop E fuel never n s P <> Ok b.
Proof.
  intros Hs Hd He Hn. induction fuel as [|fuel IH]; intros n b H; cbn [blocks_loop] in H; destruct (sp_data s) as [|c t] eqn:D; try contradiction; [discriminate H|]. rewrite <- D in *.
  cbn [never bind fst snd] in H. apply bind_ok in H. destruct H as (r & Er & H). destruct (block_none _ _ _ _ _ _ Hd He Er) as (A & B). apply proj2 in A. specialize (A Hn). rewrite A, (B A) in H.
  apply bind_ok in H. destruct H as (b' & Eb & _). exact (IH _ _ Eb).
Qed.
