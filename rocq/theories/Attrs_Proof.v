(** Proofs about the attributes of a whole document. *)
From Verif Require Import Text TextFacts Maps Span_Model Span_Pure Span_Proof Span_Laws Span_Spec Catalog_Model Parser_Model Parser_Spec Parser_Proof Subs_Model Subs_Spec Subs_Proof Attrlist_Model
  Entry_Spec Entry_Model Group_Model SecId_Model Header_Model Header_Spec Header_Proof Block_Model Block_Spec Block_Proof Doc_Model Shape_Proof Walk_Spec Walk_Proof Header_Prop Attrs_Spec.

Lemma fate_app U rd n s a b : fate U rd n s (a ++ b) = fate U rd n (fate U rd n s a) b.
Proof. apply fold_left_app. Qed.
Lemma now_same P Q n : p_attrs P = p_attrs Q -> p_defaults P = p_defaults Q -> now P n = now Q n.
Proof. intros A D. unfold now, ctx_of, attribute_value. rewrite A, D. reflexivity. Qed.
Lemma led_nil U P Q : p_attrs P = p_attrs Q -> p_defaults P = p_defaults Q -> led U P [] Q.
Proof. intros A D. split; [auto|]. intros n. cbn. apply now_same; auto. Qed.
Lemma led_refl U P : led U P [] P. Proof. apply led_nil; reflexivity. Qed.
Lemma led_app U P l1 Q l2 R : led U P l1 Q -> led U Q l2 R -> led U P (l1 ++ l2) R.
Proof.
  intros (D1 & H1) (D2 & H2). split; [congruence|]. intros n. rewrite fate_app, <- H1, H2.
  assert (X : forall l s, fate U (read_as Q n) n s l = fate U (read_as P n) n s l).
  { induction l as [|d l IH]; intros s; [reflexivity|]. cbn [fate fold_left]. change (fold_left (after ?a ?b ?c) l ?s) with (fate a b c s l). rewrite IH. f_equal. destruct d; cbn; [|reflexivity]. rewrite (read_as_defaults Q P) by exact D1. reflexivity. }
  apply X.
Qed.
Lemma led_value U P m v : remap_attr_name U m = m -> led U P [DImplied m v] (set_attribute_by_value_from_header U P m v).
Proof.
  intros R. split; [reflexivity|]. intros n. cbn [fate fold_left after]. unfold now, ctx_of, attribute_value, set_attribute_by_value_from_header. cbn [p_attrs p_defaults with_attrs]. rewrite R, mget_mput.
  destruct (text_eqb n m); reflexivity.
Qed.
Lemma led_opt U P m o : remap_attr_name U m = m -> led U P (maybe m o) (set_opt U P m o).
Proof. intros R. destruct o; [apply led_value, R|apply led_refl]. Qed.
Lemma led_entry U P e : led U P [DEntry e] (fst (apply_entry U P e)).
Proof.
  split; [apply p_defaults_apply|]. intros n. cbn [fate fold_left after now fst]. pose proof (apply_entry_cases U P e) as C. cbv zeta in C. destruct (text_eqb_spec n (entry_name U e)) as [->|N]; cbn [andb].
  - destruct (allowed _ _).
    + destruct C as (v & -> & Rv & _). unfold now, ctx_of. cbn [fst p_attrs with_attrs]. rewrite attribute_value_read. cbn [p_attrs with_attrs]. rewrite mget_mput_same. cbn [option_map av_ctx av_value]. rewrite (read_as_defaults _ P) by reflexivity. rewrite Rv. reflexivity.
    + rewrite C. reflexivity.
  - assert (M : mget n (p_attrs (fst (apply_entry U P e))) = mget n (p_attrs P)) by (apply apply_entry_other; congruence). unfold now, ctx_of, attribute_value. rewrite M, p_defaults_apply. reflexivity.
Qed.
Lemma led_run U es : forall P, led U P (map DEntry es) (fst (run_entries U P es)).
Proof.
  induction es as [|e es IH]; intros P; [apply led_refl|]. cbn [map run_entries]. pose proof (led_entry U P e) as H. destruct (apply_entry U P e) as [P1 w1]. specialize (IH P1). destruct (run_entries U P1 es) as [P2 w2]. cbn [fst] in *.
  exact (led_app U P [DEntry e] P1 _ P2 H IH).
Qed.
Lemma plain_remap U m : forallb (fun c => (c <? 128)%N && negb (is_ascii_upper c)) m = true -> text_eqb m (lit "hardbreaks") = false -> remap_attr_name U m = m.
Proof.
  intros H N. unfold remap_attr_name. rewrite lower_ascii, N; [reflexivity|]. apply Forall_forall. intros c Hc. rewrite forallb_forall in H. specialize (H _ Hc). rewrite andb_true_iff, negb_true_iff, N.ltb_lt in H. exact H.
Qed.
Ltac plain := apply plain_remap; vm_compute; reflexivity.
Lemma initials_eq a : initials a = initials_of a.
Proof. unfold initials, initials_of. destruct (au_first a), (au_middle a) as [[|]|], (au_last a) as [[|]|]; reflexivity. Qed.
Lemma led_nth U P b i v : In b author_bases -> led U P [DImplied (nth_name b i) v] (set_nth_attribute U P b i v).
Proof. intros H. unfold set_nth_attribute. rewrite nth_name_eq. apply led_value, remap_nth, H. Qed.
Lemma led_nth_opt U P b i o : In b author_bases -> led U P (maybe (nth_name b i) o) (set_nth_opt U P b i o).
Proof. intros H. destruct o; [apply led_nth, H|apply led_refl]. Qed.
Lemma led_author U P i a : led U P (authored i a) (set_author U P i a).
Proof.
  unfold set_author, authored. cbv zeta. rewrite (initials_eq a). cbn [app].
  change (DImplied ?a ?b :: DImplied ?c ?d :: DImplied ?e ?f :: ?l) with ([DImplied a b] ++ [DImplied c d] ++ [DImplied e f] ++ l).
  repeat (eapply led_app; [first [apply led_nth|apply led_nth_opt]; cbn; tauto|]). apply led_nth_opt. cbn; tauto.
Qed.
Lemma led_authors U l : forall P i, led U P (all_authored i l) (set_authors U P i l).
Proof. induction l as [|a l IH]; intros P i; [apply led_refl|]. cbn [all_authored set_authors]. eapply led_app; [apply led_author|apply IH]. Qed.
Lemma led_named U P a : led U P (named a)
  (let P := set_attribute_by_value_from_header U P (lit "firstname") (au_first a) in
   let P := set_opt U P (lit "middlename") (au_middle a) in
   let P := set_opt U P (lit "lastname") (au_last a) in
   let P := set_attribute_by_value_from_header U P (lit "authorinitials") (initials a) in
   set_opt U P (lit "email") (au_email a)).
Proof.
  cbv zeta. unfold named. rewrite (initials_eq a). repeat (eapply led_app; [first [apply led_value|apply led_opt]; plain|]). apply led_opt. plain.
Qed.

(** * The header *)
Lemma flat_snoc {A B} (f : A -> list B) l x : flat_map f (l ++ [x]) = flat_map f l ++ f x.
Proof. rewrite flat_map_app. cbn. rewrite app_nil_r. reflexivity. Qed.
Record told (E : env) (P : parser) (h : hstate) (l : list part) : Prop := {
  to_led : led (e_u E) P (flat_map deeds l) (s_parser h);
  to_entries : entries_in l = s_attrs h;
  to_titles : titles_in l = olist (s_title h);
  to_source : s_title h = None -> s_title_source h = None;
  to_authors : authors_in l = olist (option_map aul_authors (s_author h));
  to_revisions : length (revisions_in l) = length (olist (s_revision h));
  to_read : parts_read E (s_title_source h) (s_author h) (s_revision h) P l }.
Lemma part_read_more E t t' a a' r r' Q p : (forall x, t = Some x -> t' = Some x) -> (forall x, a = Some x -> a' = Some x) -> (forall x, r = Some x -> r' = Some x) ->
  part_read E t a r Q p -> part_read E t' a' r' Q p.
Proof.
  intros Ht Ha Hr H. destruct p; cbn [part_read] in *; [| | |exact H].
  - destruct H as (sp & X & Y). eauto.
  - destruct H as (x & ts & X & Y). exists x, ts. split; [auto|exact Y].
  - destruct H as (v & X & Y). eauto.
Qed.
Lemma parts_snoc E t t' a a' r r' P l p Q : (forall x, t = Some x -> t' = Some x) -> (forall x, a = Some x -> a' = Some x) -> (forall x, r = Some x -> r' = Some x) ->
  parts_read E t a r P l -> led (e_u E) P (flat_map deeds l) Q -> part_read E t' a' r' Q p -> parts_read E t' a' r' P (l ++ [p]).
Proof.
  intros Ht Ha Hr H L Hp pre q post D. destruct post as [|x post _] using rev_ind.
  - apply app_inj_tail in D. destruct D as (<- & <-). eauto.
  - rewrite app_comm_cons, app_assoc in D. apply app_inj_tail in D. destruct D as (D & _). destruct (H _ _ _ D) as (Q1 & L1 & R). exists Q1. split; [exact L1|]. eapply part_read_more; eauto.
Qed.
Lemma told_snoc E P h l h' p : told E P h l -> led (e_u E) (s_parser h) (deeds p) (s_parser h') ->
  s_attrs h' = s_attrs h ++ entries_in [p] -> olist (s_title h') = olist (s_title h) ++ titles_in [p] -> (s_title h' = None -> s_title_source h' = None) ->
  olist (option_map aul_authors (s_author h')) = olist (option_map aul_authors (s_author h)) ++ authors_in [p] ->
  length (olist (s_revision h')) = length (olist (s_revision h)) + length (revisions_in [p]) ->
  (forall x, s_title_source h = Some x -> s_title_source h' = Some x) -> (forall x, s_author h = Some x -> s_author h' = Some x) -> (forall x, s_revision h = Some x -> s_revision h' = Some x) ->
  part_read E (s_title_source h') (s_author h') (s_revision h') (s_parser h) p -> told E P h' (l ++ [p]).
Proof.
  intros [T1 T2 T3 T4 T5 T6 T7] L A B B' C D X Y Z R. split.
  - rewrite flat_snoc. eapply led_app; eassumption.
  - unfold entries_in in *. rewrite flat_map_app. rewrite T2, A. reflexivity.
  - unfold titles_in in *. rewrite flat_map_app, T3, B. reflexivity.
  - exact B'.
  - unfold authors_in in *. rewrite flat_map_app, T5, C. reflexivity.
  - unfold revisions_in in *. rewrite flat_map_app, app_length, T6, D. reflexivity.
  - eapply parts_snoc; eassumption.
Qed.
Lemma lower_spec t : eq_ignore_ascii_case t (lit "author") = true <-> map (fun c => if (65 <=? c)%N && (c <=? 90)%N then (c + 32)%N else c) t = lit "author".
Proof.
  unfold eq_ignore_ascii_case. change (map ascii_lower (lit "author")) with (lit "author"). destruct (text_eqb_spec (map ascii_lower t) (lit "author")) as [X|X]; split; intros Y; try discriminate; auto; destruct (X Y).
Qed.
Lemma author_entry_deeds U a P P1 : set_author_entry U a P = Ok P1 -> exists who, names U P a who /\ led U P (match who with Some x => named x | None => [] end) P1.
Proof.
  unfold set_author_entry. pose proof (lower_spec (sp_data (at_name a))) as L. destruct (eq_ignore_ascii_case _ _).
  - destruct (at_value_source a) as [raw|] eqn:Ev.
    + intros H. apply bind_ok in H. destruct H as (o & Eo & H). apply Ok_inj in H. exists o. split; [split; [rewrite Ev; auto|intros N; destruct N; apply L; reflexivity]|].
      subst P1. destruct o; [apply led_named|apply led_refl].
    + intros H. apply Ok_inj in H. subst P1. exists None. split; [split; [rewrite Ev; auto|auto]|apply led_refl].
  - intros H. apply Ok_inj in H. subst P1. exists None. split; [split; [intros X; apply L in X; discriminate X|auto]|apply led_refl].
Qed.
Lemma entry_is_read E s P m : attribute_parse (apply_header_subs E) s P = Ok (Some m) -> entry_read E P (mi_item m).
Proof.
  intros H. unfold entry_read. destruct (logical_total (sp_data s)) as (c & r & L). destruct (Entry_Proof.attribute_parse_eq (apply_header_subs E) s P c r L) as (pre & vs & Q & Qs). cbv zeta in Q, Qs. rewrite H in Q.
  destruct (Entry_Proof.e_parse _) as [[n [u rest]]|]; [|discriminate Q]. destruct (Qs n u rest eq_refl) as (_ & Q1 & Q2). unfold Entry_Proof.e_value in Q. destruct u; [cbn [bind] in Q; apply Ok_inj, Some_inj in Q; subst m; exact I|].
  destruct rest as [|x rest]; [cbn [bind] in Q; apply Ok_inj, Some_inj in Q; subst m; exact I|]. destruct (fold_value _) as [t| |] eqn:Ef; cbn [bind] in Q; try discriminate Q.
  destruct (apply_header_subs E P t) as [o| |] eqn:Eo; cbn [bind] in Q; try discriminate Q. apply Ok_inj, Some_inj in Q. subst m. cbn [mi_item at_value at_value_source].
  destruct vs as [raw|]; [|destruct (proj1 Q1 eq_refl) as [K|K]; discriminate K]. exists raw, t. split; [reflexivity|]. split; [|exact Eo]. rewrite (proj1 (Q2 raw eq_refl)). exact Ef.
Qed.
Lemma told_step E P s h l r : told E P h l -> header_step E s h = Ok r -> exists l', told E P (fst r) l'.
Proof.
  intros T. unfold header_step. cbv zeta. intros H. apply bind_ok in H. destruct H as (ln & En & H). destruct (is_nil _). { apply Ok_inj in H. subst r. eauto. }
  match type of H with (if ?b then _ else _) = _ => destruct b end. { apply Ok_inj in H. subst r. exists l. destruct T as [T1 T2 T3 T4 T5 T6 T7]. split; assumption. }
  apply bind_ok in H. destruct H as (o & Eo & H). destruct o as [a|].
  { apply bind_ok in H. destruct H as (Q & Eq & H). apply Ok_inj in H. subst r. cbn [fst]. destruct (author_entry_deeds _ _ _ _ Eq) as (who & N & L). exists (l ++ [PEntry (mi_item a) who]).
    eapply told_snoc; [exact T|..]; cbn [s_parser s_attrs s_title s_title_source s_author s_revision deeds entries_in titles_in authors_in revisions_in flat_map app]; rewrite ?app_nil_r; auto.
    - eapply led_app; [exact L|]. exact (led_entry (e_u E) Q (mkentry InHeader (mi_item a))).
    - exact (to_source _ _ _ _ T).
    - split; [exact N|]. unfold header_attr in Eo. destruct (starts_with _ _); [|discriminate Eo]. exact (entry_is_read _ _ _ _ Eo). }
  match type of H with (if ?b then _ else _) = _ => destruct b eqn:Eb end.
  { apply andb_true_iff in Eb. destruct Eb as (Eb & _). apply bind_ok in H. destruct H as (? & _ & H). apply bind_ok in H. destruct H as (sp & _ & H). apply bind_ok in H. destruct H as (ti & Et & H). apply Ok_inj in H. subst r.
    exists (l ++ [PTitle ti]). cbn [fst]. assert (Nt : s_title h = None) by (destruct (s_title h); [discriminate Eb|reflexivity]). pose proof (to_source _ _ _ _ T Nt) as Ns.
    eapply told_snoc; [exact T|..]; cbn [s_parser s_attrs s_title s_title_source s_author s_revision deeds entries_in titles_in authors_in revisions_in flat_map app length]; rewrite ?app_nil_r; auto.
    - apply led_value. plain.
    - rewrite Nt. reflexivity.
    - discriminate.
    - rewrite Ns. discriminate.
    - exists sp. auto. }
  match type of H with (if ?b then _ else _) = _ => destruct b eqn:Ec end.
  { apply andb_true_iff in Ec. destruct Ec as (_ & Ec). assert (Na : s_author h = None) by (destruct (s_author h); [discriminate Ec|reflexivity]).
    apply bind_ok in H. destruct H as (ap & Ea & H). apply Ok_inj in H. subst r. cbn [fst].
    destruct (C73_author_line (e_u E) (mi_item ln) (s_parser h)) as (al & P1 & ts & Ea' & Pc & _ & Au & Es & _). rewrite Ea in Ea'. apply Ok_inj in Ea'. subst ap. cbn [fst snd] in *.
    exists (l ++ [PAuthors (aul_authors al)]). eapply told_snoc; [exact T|..]; cbn [s_parser s_attrs s_title s_title_source s_author s_revision deeds entries_in titles_in authors_in revisions_in flat_map app length]; rewrite ?app_nil_r; auto.
    - unfold author_line_parse in Ea. apply bind_ok in Ea. destruct Ea as (x & _ & Ea). apply Ok_inj in Ea. injection Ea as <- <-. apply led_authors.
    - exact (to_source _ _ _ _ T).
    - rewrite Na. reflexivity.
    - rewrite Na. discriminate.
    - exists al, ts. rewrite Es. auto. }
  match type of H with (if ?b then _ else _) = _ => destruct b eqn:Ed end.
  { apply andb_true_iff in Ed. destruct Ed as (_ & Ed). assert (Nr : s_revision h = None) by (destruct (s_revision h); [discriminate Ed|reflexivity]).
    apply bind_ok in H. destruct H as (rp & Ea & H). apply Ok_inj in H. subst r. cbn [fst].
    assert (Nl : ~ In LF (sp_data (mi_item ln))).
    { rewrite take_normalized_line_ok in En. apply Ok_inj in En. subst ln. destruct (first_line (sp_data s)) as (x & e & y & D & Nx & He). rewrite (norm_line_eq s x e y Nx He D). cbn [mi_item]. unfold with_data. cbn [sp_data].
      intros X. apply Nx. destruct (trim_end_by_app (N.eqb SP) (strip_cr x)) as (w & Ew & _). assert (In LF (strip_cr x)) as X1 by (rewrite Ew; apply in_or_app; left; exact X).
      unfold strip_cr in X1. destruct (strip_suffix_c CR x) as [z|] eqn:Ez; [|exact X1]. apply strip_suffix_spec in Ez. rewrite Ez. apply in_or_app. left. exact X1. }
    unfold revision_parse in Ea. cbv zeta in Ea. destruct (revision_parts (e_u E) (sp_data (mi_item ln))) as [n [d rm]] eqn:Ep. cbn [fst snd] in Ea. apply revision_sound in Ep; [|exact Nl].
    apply bind_ok in Ea. destruct Ea as (? & _ & Ea). apply bind_ok in Ea. destruct Ea as (? & _ & Ea). apply bind_ok in Ea. destruct Ea as (? & _ & Ea). apply Ok_inj in Ea. subst rp. cbn [fst snd].
    exists (l ++ [PRevision n d rm]). eapply told_snoc; [exact T|..]; cbn [s_parser s_attrs s_title s_title_source s_author s_revision deeds entries_in titles_in authors_in revisions_in flat_map app length]; rewrite ?app_nil_r; auto.
    - eapply led_app; [apply led_opt; plain|]. change (DImplied ?a ?b :: ?l) with ([DImplied a b] ++ l). eapply led_app; [apply led_value; plain|]. apply led_opt. plain.
    - exact (to_source _ _ _ _ T).
    - rewrite Nr. reflexivity.
    - rewrite Nr. discriminate.
    - eexists. split; [reflexivity|]. exact Ep. }
  apply Ok_inj in H. subst r. cbn [fst]. exists l. destruct (is_some (s_title h)); [|exact T]. destruct T as [T1 T2 T3 T4 T5 T6 T7]. split; assumption.
Qed.
Lemma told_loop E P : forall fuel s h l r, told E P h l -> header_loop E fuel s h = Ok r -> exists l', told E P (fst r) l'.
Proof.
  induction fuel as [|fuel IH]; intros s h l r T H; cbn [header_loop] in H.
  - destruct (sp_data s); [|discriminate H]. apply Ok_inj in H. subst r. eauto.
  - destruct (sp_data s). { apply Ok_inj in H. subst r. eauto. } apply bind_ok in H. destruct H as (x & Ex & H). destruct (told_step _ _ _ _ _ _ T Ex) as (l1 & T1).
    destruct (snd x); [exact (IH _ _ _ _ T1 H)|]. apply Ok_inj in H. subst r. eauto.
Qed.
Lemma header_led E s P hd af ws P' : header_parse E s P = Ok (mkmi hd af, (ws, P')) -> exists l, header_parts E P hd l /\ led (e_u E) P (flat_map deeds l) P'.
Proof.
  unfold header_parse. intros H. apply bind_ok in H. destruct H as (? & _ & H). apply bind_ok in H. destruct H as (r & Er & H). cbv zeta in H. apply bind_ok in H. destruct H as (? & _ & H). apply bind_ok in H. destruct H as (? & _ & H).
  apply bind_ok in H. destruct H as (? & _ & H). apply Ok_inj in H. injection H as <- <- <- <-.
  assert (T : told E P (hs_new P) []). { split; try reflexivity; [apply led_refl|]. intros pre p post D. destruct pre; discriminate D. }
  destruct (told_loop _ _ _ _ _ _ _ T Er) as (l & [T1 T2 T3 T4 T5 T6 T7]). exists l. split; [|exact T1]. repeat split; assumption.
Qed.
(** * The body *)
Lemma core_led U P Q : core P Q -> led U P [] Q.
Proof. intros (A & B & _). apply led_nil; assumption. Qed.
Lemma walk_led U P l Q : walk U P l Q -> led U P (map DEntry (entries l)) Q.
Proof.
  induction 1 as [P Q H|P a Q1 l Q H K IH|P level ty Q1 l Q Hn H K IH|P level Q1 l Q Hn Hl H K IH|P level Q1 l Q Hn Hl H K IH].
  - apply core_led, H.
  - cbn [entries flat_map app map]. change (flat_map _ l) with (entries l). apply (led_app U P [DEntry (mkentry InBody a)] Q1); [|exact IH].
    change ([DEntry (mkentry InBody a)]) with ([DEntry (mkentry InBody a)] ++ []). eapply led_app; [exact (led_entry U P (mkentry InBody a))|]. apply core_led. exact H.
  - cbn [entries flat_map app map]. change (flat_map _ l) with (entries l). apply (led_app U P [] Q1); [apply core_led, H|exact IH].
  - cbn [entries flat_map app map]. change (flat_map _ l) with (entries l). apply (led_app U P [] Q1); [|exact IH]. destruct H as (A & B & _). apply led_nil; assumption.
  - cbn [entries flat_map app map]. change (flat_map _ l) with (entries l). apply (led_app U P [] Q1); [|exact IH]. destruct H as (A & B & _). apply led_nil; assumption.
Qed.
Theorem document_led E fuel t sm P d P' : p_topmost P <> SDiscrete -> document_parse E fuel t sm P = Ok (d, P') ->
  exists l, header_parts E P (d_header d) l /\ led (e_u E) P (flat_map deeds l ++ map DEntry (entries (flat_map events (d_blocks d)))) P'.
Proof.
  intros S1 H. destruct (document_inv _ _ _ _ _ _ _ H) as (h & b & Hh & Hb & Hm & Hd & _ & _ & ->). destruct h as [[hd af] [ws Ph]]. cbn [fst snd mi_item mi_after] in *. subst hd.
  destruct (header_led _ _ _ _ _ _ _ Hh) as (l & Hp & L). exists l. split; [exact Hp|]. rewrite (make_preamble_flat events _ _ _ (fun _ _ => eq_refl) Hm).
  destruct (header_only_attrs _ _ _ _ Hh) as (a & Ea). cbn [snd] in Ea. destruct (until_numbers E fuel _ _ _ _ _ Hb) as (W & _); [rewrite Ea; exact S1|].
  eapply led_app; [exact L|]. apply walk_led in W. destruct W as (W1 & W2). split; [exact W1|]. intros n. specialize (W2 n). rewrite (now_same _ (br_parser b)) by reflexivity. rewrite W2. f_equal.
Qed.
(** * What the deeds amount to *)
Lemma fate_apart U rd n l : (forall d, In d l -> match d with DImplied m _ => n <> m | DEntry e => n <> entry_name U e end) -> forall s, fate U rd n s l = s.
Proof.
  induction l as [|d l IH]; intros H s; [reflexivity|]. cbn [fate fold_left]. change (fold_left (after ?a ?b ?c) l ?s) with (fate a b c s l). rewrite IH by (intros x Hx; apply H; right; exact Hx).
  specialize (H d (or_introl eq_refl)). destruct d; cbn [after]; apply text_eqb_neq in H; rewrite H; reflexivity.
Qed.
Lemma fate_locked U rd n l v : (forall d, In d l -> match d with DImplied m _ => n <> m | DEntry e => True end) -> fate U rd n (Some ApiOnly, v) l = (Some ApiOnly, v).
Proof.
  induction l as [|d l IH]; intros H; [reflexivity|]. cbn [fate fold_left]. change (fold_left (after ?a ?b ?c) l ?s) with (fate a b c s l).
  replace (after U rd n (Some ApiOnly, v) d) with (Some ApiOnly, v). { apply IH. intros x Hx. apply H. right. exact Hx. }
  specialize (H d (or_introl eq_refl)). destruct d; cbn [after fst allowed]; [rewrite andb_false_r; reflexivity|]. apply text_eqb_neq in H. rewrite H. reflexivity.
Qed.
Lemma maybe_in m o d : In d (maybe m o) -> exists v, d = DImplied m v.
Proof. destruct o; cbn; intuition eauto. Qed.
Lemma implied_part p m v : In (DImplied m v) (deeds p) -> implied_name m.
Proof.
  assert (B : forall b i, In b author_names -> implied_name (nth_name b i)) by (intros b i Hb; right; eauto).
  assert (B0 : forall b, In b author_names -> implied_name b) by (intros b Hb; exact (B b 0 Hb)).
  assert (Mb : forall k o, In (DImplied m v) (maybe k o) -> m = k) by (intros k o H; apply maybe_in in H; destruct H as (x & H); congruence).
  destruct p as [t|l|n d r|a who]; cbn [deeds].
  - cbn [In]. intros [H|[]]. injection H as <- _. left. cbn. auto.
  - generalize 0. induction l as [|a l IH]; intros i; cbn [all_authored]; [intros []|]. rewrite in_app_iff. intros [H|H]; [|eapply IH; exact H]. unfold authored in H. rewrite !in_app_iff in H. cbn [In] in H.
    destruct H as [[H|[H|[H|[]]]]|[H|[H|H]]]; try (injection H as <- _); try (apply Mb in H; subst m); apply B; cbn; tauto.
  - rewrite !in_app_iff. cbn [In]. intros [H|[[H|[]]|H]]; try (injection H as <- _); try (apply Mb in H; subst m); left; cbn; tauto.
  - rewrite in_app_iff. cbn [In]. intros [H|[H|[]]]; [|discriminate H]. destruct who as [x|]; [|destruct H]. unfold named in H. rewrite !in_app_iff in H. cbn [In] in H.
    destruct H as [[H|[]]|[H|[H|[[H|[]]|H]]]]; try (injection H as <- _); try (apply Mb in H; subst m); apply B0; cbn; tauto.
Qed.
Lemma entry_part p e : In (DEntry e) (deeds p) -> exists a who, p = PEntry a who /\ e = mkentry InHeader a.
Proof.
  assert (Mb : forall k o, ~ In (DEntry e) (maybe k o)) by (intros k o H; apply maybe_in in H; destruct H as (x & H); discriminate H).
  destruct p as [t|l|n d r|a who]; cbn [deeds].
  - cbn [In]. intros [H|[]]. discriminate H.
  - generalize 0. induction l as [|a l IH]; intros i; cbn [all_authored]; [intros []|]. rewrite in_app_iff. intros [H|H]; [|destruct (IH _ H) as (? & ? & X & _); discriminate X]. unfold authored in H. rewrite !in_app_iff in H. cbn [In] in H.
    destruct H as [[H|[H|[H|[]]]]|[H|[H|H]]]; try discriminate H; destruct (Mb _ _ H).
  - rewrite !in_app_iff. cbn [In]. intros [H|[[H|[]]|H]]; try discriminate H; destruct (Mb _ _ H).
  - rewrite in_app_iff. cbn [In]. intros [H|[H|[]]]; [|injection H as <-; eauto]. destruct who as [x|]; [|destruct H]. unfold named in H. rewrite !in_app_iff in H. cbn [In] in H.
    destruct H as [[H|[]]|[H|[H|[[H|[]]|H]]]]; try discriminate H; destruct (Mb _ _ H).
Qed.
(** For an attribute that the header does not imply only the entries count. *)
Lemma fate_entries U rd n l : ~ implied_name n -> forall s, fate U rd n s (flat_map deeds l) = fate U rd n s (map DEntry (map (mkentry InHeader) (entries_in l))).
Proof.
  intros N. induction l as [|p l IH]; intros s; [reflexivity|]. cbn [flat_map]. change (entries_in (p :: l)) with (match p with PEntry a _ => [a] | _ => [] end ++ entries_in l). rewrite !map_app, !fate_app, IH. f_equal.
  assert (F : forall x, (forall d, In d x -> exists m v, d = DImplied m v /\ implied_name m) -> forall s, fate U rd n s x = s).
  { intros x Hx. apply fate_apart. intros d Hd. destruct (Hx d Hd) as (m & v & -> & I). intros ->. exact (N I). }
  pose proof (implied_part p) as Ip. pose proof (entry_part p) as Ep. destruct p as [t|al|n0 d r|a who]; cbn [map].
  - apply F. intros d Hd. destruct d as [e|m v]; [destruct (Ep e Hd) as (? & ? & X & _); discriminate X|]. exists m, v. split; [reflexivity|]. eapply Ip; exact Hd.
  - apply F. intros d Hd. destruct d as [e|m v]; [destruct (Ep e Hd) as (? & ? & X & _); discriminate X|]. exists m, v. split; [reflexivity|]. eapply Ip; exact Hd.
  - apply F. intros d' Hd. destruct d' as [e|m v]; [destruct (Ep e Hd) as (? & ? & X & _); discriminate X|]. exists m, v. split; [reflexivity|]. eapply Ip; exact Hd.
  - cbn [deeds]. rewrite fate_app. cbn [app map]. f_equal. apply F. intros d Hd. destruct who as [x|]; [|destruct Hd].
    destruct d as [e|m v]; [|exists m, v; split; [reflexivity|]; apply (Ip m v); cbn [deeds]; apply in_or_app; left; exact Hd].
    exfalso. unfold named in Hd. rewrite !in_app_iff in Hd. cbn [In] in Hd. destruct Hd as [[H|[]]|[H|[H|[[H|[]]|H]]]]; try discriminate H; apply maybe_in in H; destruct H as (? & H); discriminate H.
Qed.
