(** Properties of parsing as a whole: C33. *)
From Verif Require Import Text TextFacts Maps Span_Model Span_Pure Span_Proof Span_Laws Span_Spec Catalog_Model Parser_Model SourceMap_Model Subs_Model Attrlist_Model
  Entry_Model Pre_Model Pre_Spec Pre_Prop Group_Model SecId_Model Header_Model Header_Spec Header_Proof Header_Prop Block_Model Block_Spec Block_Proof Doc_Model Block_Prop Tree_Spec Tree_Proof
  Total_Spec Total_Proof Total_Header.

(** ** C33: parsing gives a result *)
(** It does not: after a raw delimited block, blank lines are not skipped, no block is found in them, and
    the loop over the blocks stays where it is. *)
Lemma stuck E P s : sp_data s <> [] -> (forall un, block_parse_with E un s P = Ok (mkpr None [] P)) -> forall fuel n, blocks_loop E fuel never n s P = OutOfFuel.
Proof.
  intros Hs H. induction fuel as [|fuel IH]; intros n; cbn [blocks_loop]; destruct (sp_data s) as [|c t] eqn:D; try contradiction; [reflexivity|].
  cbn [never bind fst snd]. rewrite H. cbn [bind pr_item pr_parser]. rewrite IH. reflexivity.
Qed.
Lemma lf_line k : a_line (repeat LF (S k)) [LF] (repeat LF k) [].
Proof. exists [], [LF]. split; [reflexivity|]. split; [reflexivity|]. split; [intros []|]. split; [left; reflexivity|]. exists [], []. split; [right; split; [reflexivity|no_end]|]. split; [reflexivity|]. split; [intros c []|no_end]. Qed.
Lemma lf_lines_none E s a P : 1 <= sp_col s -> a = None -> (exists k, sp_data s = repeat LF k) -> parse_lines E s a P = Ok None.
Proof.
  intros Hc -> (k & D). assert (Hk : indented (sp_data s) 0).
  { exists [], (sp_data s). split; [reflexivity|]. split; [constructor|]. split; [reflexivity|]. intros c y K. rewrite D in K. destruct k; [discriminate K|]. injection K as <- _. intros [X|X]; discriminate X. }
  unfold parse_lines. destruct (discard_ws_col s 0 Hk) as (saw & -> & Ecol). cbn [bind]. rewrite Ecol, Nat.add_0_r.
  assert (Ec : checked_sub (sp_col s) 1 = Ok (sp_col s - 1)) by (unfold checked_sub; rewrite (proj2 (Nat.leb_le 1 (sp_col s)) Hc); reflexivity). rewrite Ec. cbn [bind style_of].
  assert (Es : forall fuel, simple_lines fuel (sp_col s - 1) s [] = Ok ([], s)).
  { intros fuel. destruct (take_non_empty s) as [(l & r & n & H & Hn & Ht & _)|(_ & E2)].
    - exfalso. destruct k; [contradiction|]. rewrite D in H. destruct (a_line_unique _ _ _ _ _ _ _ H (lf_line k)) as (_ & _ & ->). contradiction.
    - destruct fuel; cbn [simple_lines]; rewrite E2; reflexivity. }
  rewrite Es. cbn [bind fst snd]. rewrite (trim_to s [] (sp_data s) s eq_refl) by (cbn; lia). cbn [bind]. rewrite trim_trailing_whitespace_ok. reflexivity.
Qed.
Lemma lf_discard s k : sp_data s = repeat LF k -> sp_data (p_discard_empty_lines s) = [].
Proof.
  intros D. destruct (discard_go_spec (length (sp_data s)) s (le_n _)) as (ls & tail & D1 & Hls & [(Ht & l & e & r & -> & Hl & He & Hb)|Ht]).
  - exfalso. apply Hb. destruct l as [|c l]; [exists [], []; split; [reflexivity|]; split; [intros c []|left; reflexivity]|]. exfalso. apply Hl. left. apply repeat_spec with (n := k). rewrite <- D, D1. apply in_app_iff. right. left. reflexivity.
  - apply Ht.
Qed.
Lemma empty_metadata E s P : sp_data s = [] -> md_loop E P 4 (mkms None None None None s []) = Ok (mkms None None None None s []).
Proof. destruct s as [d l c o]. cbn. intros ->. reflexivity. Qed.
Lemma no_line : a_line [] [] [] [].
Proof. exists [], []. split; [reflexivity|]. split; [reflexivity|]. split; [intros []|]. split; [right; split; reflexivity|]. exists [], []. split; [right; split; [reflexivity|no_end]|]. split; [reflexivity|]. split; [intros c []|no_end]. Qed.
Lemma nothing_here E un s P : sp_data s = [] -> 1 <= sp_col s -> with_metadata E un (mkmd None None None None None s s) [] P = Ok (mkpr None [] P).
Proof.
  intros D Hc. unfold with_metadata. cbn [md_attrlist style_of bind style_is].
  assert (N1 : ~ raw_delimiter []) by (intros X; destruct (raw_delimiter_b []) as (b & Eb & Hb); apply Hb in X; subst b; discriminate Eb).
  assert (N2 : ~ compound_delimiter []) by (intros X; destruct (compound_delimiter_b []) as (b & Eb & Hb); apply Hb in X; subst b; discriminate Eb).
  assert (L : a_line (sp_data (md_start (mkmd None None None None None s s))) [] [] []) by (cbn [md_start]; rewrite D; exact no_line).
  rewrite (raw_parse_none E _ P _ _ _ L N1). cbn [bind]. rewrite (compound_parse_none (un never 0) _ P _ _ _ L N2). cbn [bind md_start].
  replace (take_normalized_line s) with (Ok (mkmi s s)) by (destruct s as [d l c o]; cbn in D; subst d; cbn; rewrite ?Nat.add_0_r; reflexivity).
  cbn [bind mi_item]. rewrite D. cbn. unfold no_block, last_resort, simple_parse. cbn [md_start md_attrlist].
  rewrite (lf_lines_none E s None P Hc eq_refl (ex_intro _ 0 D)). reflexivity.
Qed.
(** Blank lines alone are no block, and nothing is taken. *)
Lemma blank_block E un d s P k : located d s -> sp_data s = repeat LF (S k) -> block_parse_with E un s P = Ok (mkpr None [] P).
Proof.
  intros L D. pose proof (located_col _ _ L) as Hc. unfold block_parse_with.
  assert (H : a_line (sp_data s) [LF] (repeat LF k) []) by (rewrite D; apply lf_line).
  rewrite take_line_ok, (p_take_line_eq s [] [LF] (repeat LF k)) by (auto; try (left; reflexivity); intros []). cbn [bind mi_item].
  assert (Ef : (if try_fast s (with_data s (strip_cr [])) then simple_parse_fast E s P else Ok None) = Ok None).
  { destruct (try_fast _ _); [|reflexivity]. unfold simple_parse_fast. rewrite (lf_lines_none E s None P Hc eq_refl (ex_intro _ (S k) D)). reflexivity. }
  rewrite Ef. cbn [bind]. change (try_entry (with_data s (strip_cr []))) with false. cbv iota. cbn [bind]. unfold metadata_parse. rewrite discard_empty_lines_ok. cbn [bind].
  pose proof (lf_discard s (S k) D) as D1. pose proof (located_col _ _ (located_Suffix _ _ _ L (discard_empty_Suffix s))) as Hc1. rewrite (empty_metadata E _ P D1). cbn [bind fst snd ms_title ms_anchor ms_reftext ms_attrlist ms_start ms_warnings].
  exact (nothing_here E un _ P D1 Hc1).
Qed.
(** A raw delimited block with no metadata, closed: what is left begins at the line after the closing delimiter. *)
Lemma raw_alone E un s P l r n c r' : (forall g x, In g [GNone; GVerbatim; GPass] -> without_eol c x -> exists o, e_sub E P g false x = Ok o) -> a_line (sp_data s) l r n -> raw_delimiter n -> enclosed n r c (Some r') ->
  exists mi w P' pre, block_parse_with E un s P = Ok (mkpr (Some mi) w P') /\ mi_after mi = skip s pre r' /\ sp_data s = pre ++ r'.
Proof.
  intros He H Hd Hc. destruct Hd as (ch & Hin & k & Hk & En). assert (Hd : raw_delimiter n) by (exists ch; split; [exact Hin|exists k; auto]).
  destruct k as [|[|k]]; try lia. cbn [repeat] in En. set (y := repeat ch k) in En. assert (Hw : is_ws ch = false) by (cbn in Hin; destruct Hin as [<-|[<-|[<-|[<-|[]]]]]; reflexivity).
  rewrite En in H. destruct (a_line_head _ _ _ _ _ H) as (t0 & D0). assert (Hsol : solid (sp_data s)) by (apply (solid_line _ _ _ _ H); exists ch, (ch :: y); auto).
  unfold block_parse_with. destruct (first_line_of _ _ _ _ H) as (fl & z & Efl & Dfl). rewrite Efl. cbn [bind].
  assert (E1 : try_fast s (mi_item fl) = false) by (unfold try_fast; rewrite D0; cbn in Hin; destruct Hin as [<-|[<-|[<-|[<-|[]]]]]; reflexivity). rewrite E1. cbv iota. cbn [bind].
  assert (E2 : try_entry (mi_item fl) = false) by (unfold try_entry; rewrite Dfl; cbn in Hin; destruct Hin as [<-|[<-|[<-|[<-|[]]]]]; reflexivity). rewrite E2. cbv iota. cbn [bind].
  assert (Em : metadata_parse E s P = Ok (mkmd None None None None None s s, [])).
  { unfold metadata_parse. rewrite discard_empty_lines_ok. cbn [bind]. rewrite (discard_solid s Hsol). cbn [md_loop]. unfold md_title_step at 1. cbn [ms_title ms_start].
    rewrite (take_norm_eq _ _ _ _ H). cbn [bind mi_item with_data sp_data].
    assert (E3 : starts_with (lit ".") (ch :: ch :: y) && negb (starts_with (lit "..") (ch :: ch :: y)) = false) by (cbn in Hin; destruct Hin as [<-|[<-|[<-|[<-|[]]]]]; reflexivity).
    rewrite E3. cbn [bind]. unfold md_anchor_step. cbn [ms_anchor ms_start]. unfold parse_maybe_block_anchor.
    assert (E4 : starts_with (lit "[[") (sp_data s) = false) by (rewrite D0; cbn in Hin; destruct Hin as [<-|[<-|[<-|[<-|[]]]]]; reflexivity).
    rewrite E4. cbn [bind fst snd ms_warnings app ms_title ms_reftext ms_attrlist ms_start]. unfold md_attrlist_step. cbn [ms_attrlist ms_start]. unfold parse_maybe_attrlist_line.
    assert (E5 : starts_with (lit "[") (sp_data s) = false) by (rewrite D0; cbn in Hin; destruct Hin as [<-|[<-|[<-|[<-|[]]]]]; reflexivity).
    rewrite E5. reflexivity. }
  rewrite Em. cbn [bind fst snd]. unfold with_metadata. cbn [md_attrlist style_of bind style_is]. rewrite <- En in *.
  set (m := mkmd None None None None None s s). destruct (trim_line_end (with_data s c)) as (x & Hx & _). cbn [sp_data with_data] in Hx.
  assert (Eg : override_via_attrlist (snd (snd (kind_of n))) (md_attrlist m) = Ok (snd (snd (kind_of n)))) by reflexivity.
  assert (Hg : In (snd (snd (kind_of n))) [GNone; GVerbatim; GPass]) by (rewrite En; cbn in Hin; destruct Hin as [<-|[<-|[<-|[<-|[]]]]]; cbn; auto). set (g := snd (snd (kind_of n))) in *. destruct (He g x Hg Hx) as (tt & Ett). change (apply_subs E P g (md_attrlist m) x = Ok tt) in Ett.
  destruct (raw_parse_found E m P l r n c r' x g tt H Hd Hc Hx Eg Ett (Suffix_refl _)) as (src & kk & Dk & _ & _ & _ & ->). cbn [bind fst snd].
  match goal with |- context [finish ?mi0 ?w0 ?p0] => destruct (finish_total any_class mi0 w0 p0 (good_none any_class)) as (rr & -> & Er) end.
  destruct rr as [it w P']. cbn [pr_item] in Er. subst it. do 4 eexists. split; [reflexivity|]. cbn [mi_after]. split; [reflexivity|]. rewrite <- !app_assoc. exact Dk.
Qed.
(** Whatever the number of rounds, the loop over the blocks does not end on a raw delimited block that has
    only empty lines after it. *)
Theorem C33_blank_lines_after_a_raw_block : forall E D s P l r n c k, (forall g x, In g [GNone; GVerbatim; GPass] -> without_eol c x -> exists o, e_sub E P g false x = Ok o) -> located D s ->
  a_line (sp_data s) l r n -> raw_delimiter n -> enclosed n r c (Some (repeat LF (S k))) ->
  forall fuel, parse_blocks_until E fuel never 0 s P = OutOfFuel.
Proof.
  intros E D s P l r n c k He L H Hd Hc fuel. unfold parse_blocks_until. rewrite discard_empty_lines_ok. cbn [bind].
  assert (Hsol : solid (sp_data s)) by (apply (solid_line _ _ _ _ H), raw_solid, Hd). rewrite (discard_solid _ Hsol).
  destruct fuel as [|fuel]; cbn [blocks_loop]; destruct (sp_data s) as [|c0 t0] eqn:D0; try (destruct Hsol as (? & ? & K & _); discriminate K); [reflexivity|]. rewrite <- D0 in *.
  cbn [never bind fst snd]. match goal with |- context [block_parse_with E ?u s P] => destruct (raw_alone E u s P l r n c _ He H Hd Hc) as (mi & w & P' & pre & -> & Ea & Dp) end.
  cbn [bind pr_item pr_parser]. rewrite Ea.
  assert (L' : located D (skip s pre (repeat LF (S k)))) by (apply (located_Suffix _ _ _ L); exists pre; rewrite sp_data_skip; split; [exact Dp|reflexivity]).
  rewrite (stuck E P' (skip s pre (repeat LF (S k)))); [reflexivity|rewrite sp_data_skip; discriminate|]. intros un. apply (blank_block E un D _ P' k L'). apply sp_data_skip.
Qed.
Lemma empty_body x : without_eol [] x -> x = [].
Proof. intros [(y & E & _)|(E & _)]; [destruct y; discriminate E|auto]. Qed.
Definition empty_listing : text := lines [lit "----"; lit "----"; []; []].
Lemma hang_lines : a_line empty_listing (lit "----" ++ [LF]) (lit "----" ++ [LF; LF]) (lit "----") /\ a_line (lit "----" ++ [LF; LF]) (lit "----" ++ [LF]) [LF] (lit "----").
Proof. split; apply (a_line_intro (lit "----")); [line_ok|no_end|no_end|line_ok|no_end|no_end]. Qed.
(** An empty listing and an empty line: no number of rounds is enough. *)
Lemma empty_listing_hangs : forall fuel, parse_with E0 fuel empty_listing = OutOfFuel.
Proof.
  intros fuel. unfold parse_with, parser_parse.
  match goal with |- bind ?e _ = _ => let v := eval vm_compute in e in assert (Ep : e = v) by (vm_compute; reflexivity); rewrite Ep; clear Ep end. cbn [bind fst snd]. unfold document_parse.
  match goal with |- context [header_parse ?E ?s ?P] => let v := eval vm_compute in (header_parse E s P) in assert (Ep : header_parse E s P = v) by (vm_compute; reflexivity); rewrite Ep; clear Ep end. cbn [bind fst snd mi_after].
  match goal with |- context [parse_blocks_until ?E fuel never 0 ?s ?P] => rewrite (C33_blank_lines_after_a_raw_block E empty_listing s P (lit "----" ++ [LF]) (lit "----" ++ [LF; LF]) (lit "----") [] 0) end; [reflexivity| | | | |].
  - intros g x Hg Hx. apply empty_body in Hx. subst x. destruct Hg as [<-|[<-|[<-|[]]]]; eexists; vm_compute; reflexivity.
  - exists [], []. split; [reflexivity|]. cbn. split; [reflexivity|]. split; [|reflexivity]. exists [], []. split; [reflexivity|]. split; [intros []|]. auto.
  - apply hang_lines.
  - exists 45%N. split; [cbn; auto|]. exists 4. split; [lia|reflexivity].
  - eapply en_here; [discriminate|]. apply hang_lines.
Qed.
Theorem C33_parsing_gives_a_result_refuted : exists t, (forall c, In c t -> (c < 128)%N) /\ forall fuel, parse_with E0 fuel t = OutOfFuel.
Proof. exists empty_listing. split; [intros c Hc; cbn in Hc; repeat (destruct Hc as [<-|Hc]; [reflexivity|]); destruct Hc|exact empty_listing_hangs]. Qed.
(** Away from such places there is a result.  The blocks of a text of the class [tame], read at any place of
    a document; one round for each character is enough.  [A] says on which texts the inline
    substitutions give a result. *)
Theorem C33_blocks_are_parsed : forall A E D s P, esub_on A E -> located D s -> tame A false (sp_data s) ->
  exists b, parse_blocks_until E (length (sp_data s)) never 0 s P = Ok b.
Proof. intros A E D s P He L T. destruct (until_total A D E (length (sp_data s)) never 0 s P He (never_good A) L T (le_n _)) as (b & -> & _). eauto. Qed.
(** The document: what is left after the header is of the class; the header asks for the header
    substitutions alone, which may give a result on a larger class [H], to which only the header has to
    belong. *)
Theorem C33_document_is_parsed : forall A (H : char -> Prop) E t sm P, esub_on A E -> H SP -> H LF -> (forall P t, Forall H t -> exists o, e_sub E P GHeader false t = Ok o) ->
  (forall ks ts rest w, header_run [] t ks ts rest w -> tame A false rest /\ exists c, t = c ++ rest /\ Forall H c) ->
  exists r, document_parse E (length t) t sm P = Ok r.
Proof.
  intros A H E t sm P He H1 H2 Hh Ht. unfold document_parse. destruct (header_parse_in E H H1 H2 Hh (span_new t) P) as (r & Eh).
  - intros ks ts rest w R. exact (proj2 (Ht _ _ _ _ R)).
  - rewrite Eh. destruct r as [[hd after] [ws P']]. destruct (header_parse_spec E _ P hd after ws P' Eh) as (h & src & ks & ts & w & R & _ & S1 & _ & _ & _ & _ & _ & _ & _ & _ & Ea & _).
    cbn [bind fst snd mi_after mi_item]. apply Ht in R. destruct R as (R & _). assert (S2 : Suffix (span_new t) after) by (rewrite Ea; exact (Suffix_trans _ _ _ S1 (discard_empty_Suffix src))).
    destruct (discard_ready A src R) as (_ & T). rewrite <- Ea in T. pose proof (suffix_len _ _ S2) as Hlen.
    destruct (until_total A t E (length t) never 0 after (with_levels P' (sectnumlevels P')) He (never_good A) (located_Suffix _ _ _ (located_new t) S2) T Hlen) as (b & -> & Sb & Tb). cbn [bind].
    destruct (make_preamble_ok t after (br_blocks b) _ S2 Tb) as (bs & -> & _). cbn [bind]. rewrite trim_trailing_whitespace_ok. cbn [bind]. eauto.
Qed.
(** And the whole: without directive lines the preprocessor changes nothing. *)
Theorem C33_parsing_gives_a_result_on_tame_documents : forall A (H : char -> Prop) E ifh t P, esub_on A E -> H SP -> H LF -> (forall P t, Forall H t -> exists o, e_sub E P GHeader false t = Ok o) ->
  p_primary P = None -> (forall n l, line_at t n l -> ~ directive_line l) ->
  (forall ks ts rest w, header_run [] t ks ts rest w -> tame A false rest /\ exists c, t = c ++ rest /\ Forall H c) ->
  exists r, parser_parse E ifh (S (length t)) (length t) t P = Ok r.
Proof.
  intros A H E ifh t P He H1 H2 Hh Hp Hd Ht. unfold parser_parse. rewrite (C24_identity_without_directive_lines _ _ _ ifh _ t P Hd Hp). cbn [bind fst snd]. apply (C33_document_is_parsed A H); assumption.
Qed.
(** A document with a title, a paragraph, a listing, a section and an example block in it. *)
Definition sample_body : text := lines [lit "a *b*"; lit "c"; []; lit ".t"; lit "----"; lit "[x"; lit "----"; lit "== S"; []; lit "===="; lit "d"; lit "===="; []].
Definition sample : text := lines [lit "= T"; []; sample_body].
Definition plain_env : env := mkenv ascii_only (fun _ _ _ t => Ok t).
Ltac not_raw := let X := fresh in let b := fresh in let Eb := fresh in let Hb := fresh in intros X; match type of X with raw_delimiter ?n => destruct (raw_delimiter_b n) as (b & Eb & Hb) end; apply Hb in X; subst b; vm_compute in Eb; discriminate Eb.
Ltac not_compound := let X := fresh in let b := fresh in let Eb := fresh in let Hb := fresh in intros X; match type of X with compound_delimiter ?n => destruct (compound_delimiter_b n) as (b & Eb & Hb) end; apply Hb in X; subst b; vm_compute in Eb; discriminate Eb.
Ltac a_text := split; [do 2 eexists; split; [reflexivity|]; reflexivity|]; split; [intros (y & K & _); discriminate K|]; split; [intros y K; discriminate K|]; split; [intros y K; discriminate K|]; split; [not_raw|]; split; [not_compound|intros (y & K & _); discriminate K].
Ltac this_line x := apply (a_line_intro x); [line_ok|no_end|no_end].
Ltac of_class := exact I.
Lemma sample_is_tame : tame any_class false sample_body.
Proof.
  eapply tm_text; [this_line (lit "a *b*")|a_text|of_class|]. eapply tm_text; [this_line (lit "c")|a_text|of_class|]. eapply tm_blank; [discriminate|this_line (@nil N)|].
  eapply tm_meta; [this_line (lit ".t")|left; eexists; split; [reflexivity|intros c z K; injection K as <- _; split; [discriminate|intros [X|X]; discriminate X]]|of_class|do 2 eexists; split; [reflexivity|]; reflexivity|].
  eapply tm_raw; [this_line (lit "----")|exists 45%N; split; [cbn; auto|exists 4; split; [lia|reflexivity]]| | | |]; cycle 2.
  { right. apply solid_cons with (c := 61%N) (y := lines [lit "= S"; []; lit "===="; lit "d"; lit "===="; []]). reflexivity. } 2:{ eapply en_more; [discriminate|this_line (lit "[x")|discriminate|]. eapply en_here; [discriminate|this_line (lit "----")]. } 2: of_class.
  eapply tm_text; [this_line (lit "== S")|a_text|of_class|]. eapply tm_blank; [discriminate|this_line (@nil N)|].
  eapply tm_compound; [this_line (lit "====")|right; exists 61%N; split; [cbn; auto|exists 4; split; [lia|reflexivity]]| | |left; reflexivity|constructor].
  { eapply en_more; [discriminate|this_line (lit "d")|discriminate|]. eapply en_here; [discriminate|this_line (lit "====")]. }
  eapply tm_text; [this_line (lit "d")|a_text|of_class|constructor].
Qed.
Lemma sample_header : header_run [] sample [HText (lit "= T")] [lit "= T"] ([LF] ++ sample_body) false.
Proof.
  assert (Tl : forall x, (forall y, x <> y ++ [SP]) -> (forall y, x <> y ++ [CR]) -> trimmed_line x x).
  { intros x H1 H2. exists x, []. split; [right; auto|]. split; [rewrite app_nil_r; reflexivity|]. split; [intros c []|exact H1]. }
  eapply hr_title; [|exists (lit "T"); reflexivity|].
  - apply (hl_text (lit "= T") [LF] ([LF] ++ sample_body)); [line_ok|left; reflexivity|apply Tl; no_end|discriminate|intros (y & K & _); discriminate K|].
    intros m q X0. destruct (entry_starts _ _ _ (lit "= T") [LF] ([LF] ++ sample_body) X0 eq_refl) as (z & X); [line_ok|left; reflexivity|discriminate X].
  - eapply hr_blank with (r := sample_body); [discriminate|discriminate|]. apply (hl_blank [] [LF] sample_body); [intros []|left; reflexivity|apply Tl; no_end].
Qed.
Example C33_example : exists r, parser_parse plain_env (fun _ _ _ _ => None) (S (length sample)) (length sample) sample parser_default = Ok r.
Proof.
  apply (C33_parsing_gives_a_result_on_tame_documents any_class (fun _ => True)); [split; intros P g hb t _ _; exists t; reflexivity|exact I|exact I|intros P t _; exists t; reflexivity|reflexivity| |].
  - intros n l (x & y & Dx & _) (d & Hd). assert (Hin : In 105%N sample) by (rewrite Dx; apply in_app_iff; right; apply in_app_iff; left; destruct Hd as [-> | ->]; left; reflexivity).
    vm_compute in Hin. repeat (destruct Hin as [Hin|Hin]; [discriminate Hin|]). exact Hin.
  - intros ks ts rest w R. destruct (header_run_unique _ _ _ _ _ _ sample_header _ _ _ _ R) as (_ & _ & <- & _). split; [eapply tm_blank; [discriminate|this_line (@nil N)|exact sample_is_tame]|]. exists (lit "= T" ++ [LF]). split; [reflexivity|]. apply Forall_forall. auto.
Qed.
Print Assumptions C33_blank_lines_after_a_raw_block.
Print Assumptions C33_parsing_gives_a_result_refuted.
Print Assumptions C33_blocks_are_parsed.
Print Assumptions C33_document_is_parsed.
Print Assumptions C33_parsing_gives_a_result_on_tame_documents.
