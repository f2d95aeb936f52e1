(** Properties of blocks: C31, C32, C35, C37, C49, C50, C52. *)
From Verif Require Import Text TextFacts Maps Span_Model Span_Pure Span_Proof Span_Laws Span_Spec Catalog_Model Parser_Model SourceMap_Model Subs_Model Attrlist_Model
  Attrlist_Laws Entry_Spec Entry_Model Pre_Model Group_Model SecId_Model Header_Model Header_Spec Header_Proof Header_Prop Block_Model Block_Spec Block_Proof Doc_Model.

(** Parsing a whole document with no files to include. *)
Definition parse_with (E : env) (fuel : nat) (t : text) : res (document * parser) :=
  parser_parse E (fun _ _ _ _ => None) (S (length t)) fuel t parser_default.
Definition blocks_of (r : res (document * parser)) : res (list block) := x <- r ;; Ok (d_blocks (fst x)).
Definition lines (l : list text) : text := join [LF] l.

(** ** C31: delimiter lines *)
Theorem C31_raw_delimiters : forall t, exists b, raw_is_valid_delimiter t = Ok b /\ (b = true <-> raw_delimiter t).
Proof. exact raw_delimiter_b. Qed.
Theorem C31_compound_delimiters : forall t, exists b, compound_is_valid_delimiter t = Ok b /\ (b = true <-> compound_delimiter t).
Proof. exact compound_delimiter_b. Qed.
Theorem C31_never_both : forall t, raw_delimiter t -> compound_delimiter t -> False.
Proof. exact raw_not_compound. Qed.
Example C31_example : raw_delimiter (lit "-----") /\ compound_delimiter (lit "--") /\ compound_delimiter (lit "****") /\ ~ raw_delimiter (lit "----x").
Proof.
  split; [exists 45%N; split; [cbn; auto|exists 5; split; [lia|reflexivity]]|]. split; [left; reflexivity|]. split; [right; exists 42%N; split; [cbn; auto|exists 4; split; [lia|reflexivity]]|].
  intros H. destruct (raw_delimiter_b (lit "----x")) as (b & E & Hb). apply Hb in H. subst b. vm_compute in E. discriminate E.
Qed.

(** ** C32: the content of delimited blocks *)
(** There is always exactly one way to cut a text at a closing delimiter. *)
Theorem C32_cut_is_determined : forall d t, exists c o, enclosed d t c o /\ forall c' o', enclosed d t c' o' -> c' = c /\ o' = o.
Proof.
  intros d t. destruct (find_delimiter_spec d (length t) (doc t) (le_n _)) as (c & o & H & _). exists c, o. split; [exact H|]. intros c' o' H'.
  destruct (enclosed_unique _ _ _ _ H _ _ H') as (-> & ->). auto.
Qed.
(** A raw block with a closing delimiter: the content is what lies between, without the last line end. *)
Theorem C32_raw_block_closed : forall E m P l r d c r' x g t,
  a_line (sp_data (md_start m)) l r d -> raw_delimiter d -> enclosed d r c (Some r') -> without_eol c x -> Suffix (md_source m) (md_start m) ->
  override_via_attrlist (snd (snd (kind_of d))) (md_attrlist m) = Ok g -> apply_subs E P g (md_attrlist m) x = Ok t ->
  exists content model context src after, raw_parse E m P = Ok (Some (mkmi (BRaw content model context src (common_of m) g) after, [])) /\
    sp_data (ct_original content) = x /\ ct_rendered content = t /\ sp_data after = r' /\ (model, (context, snd (snd (kind_of d)))) = kind_of d /\
    (forall D, located D (md_start m) -> located D (ct_original content) /\ located D after) /\
    sp_off (ct_original content) = sp_off (md_start m) + blen l.
Proof.
  intros E m P l r d c r' x g t H Hd He Hx HS Hg Ht. destruct (raw_parse_found E m P l r d c r' x g t H Hd He Hx Hg Ht HS) as (src & k & D & _ & _ & _ & ->).
  do 5 eexists. split; [reflexivity|]. cbn [ct_original ct_rendered]. rewrite !sp_data_skip, sp_off_skip. split; [reflexivity|]. split; [reflexivity|]. split; [reflexivity|].
  split; [destruct (kind_of d) as [? [? ?]]; reflexivity|]. split; [|reflexivity]. destruct (without_eol_prefix _ _ Hx) as (w & Ew). intros D0 HD.
  split; apply (located_Sub _ _ _ HD).
  - apply Sub_intro with (post := w ++ k ++ r'). rewrite D, Ew, <- !app_assoc. reflexivity.
  - apply Sub_intro with (post := []). rewrite D, app_nil_r, <- !app_assoc. reflexivity.
Qed.
(** Without one: a warning, and the content goes to the end. *)
Theorem C32_raw_block_open : forall E m P l r d c x,
  a_line (sp_data (md_start m)) l r d -> raw_delimiter d -> enclosed d r c None -> without_eol c x -> Suffix (md_source m) (md_start m) ->
  exists content model context src after, c = r /\ raw_parse E m P = Ok (Some (mkmi (BRaw content model context src (common_of m) (snd (snd (kind_of d)))) after,
      [mkwarn (with_data (md_start m) d) WUnterminatedDelimitedBlock])) /\
    sp_data (ct_original content) = x /\ sp_data after = [] /\ (model, (context, snd (snd (kind_of d)))) = kind_of d /\
    sp_off (ct_original content) = sp_off (md_start m) + blen l.
Proof.
  intros E m P l r d c x H Hd He Hx HS. destruct (raw_parse_open E m P l r d c x H Hd He Hx HS) as (src & -> & _ & _ & _ & ->).
  do 5 eexists. split; [reflexivity|]. split; [reflexivity|]. cbn [ct_original ct_rendered]. rewrite !sp_data_skip, sp_off_skip. split; [reflexivity|]. split; [reflexivity|].
  split; [destruct (kind_of d) as [? [? ?]]; reflexivity|reflexivity].
Qed.
Theorem C32_no_delimiter_no_block : forall E until m P l r d, a_line (sp_data (md_start m)) l r d ->
  (~ raw_delimiter d -> raw_parse E m P = Ok None) /\ (~ compound_delimiter d -> compound_parse until m P = Ok None).
Proof. intros E un m P l r d H. split; intros Hd; [exact (raw_parse_none E m P l r d H Hd)|exact (compound_parse_none un m P l r d H Hd)]. Qed.
(** A compound block: the blocks in it are those of the text between the delimiters, read at its place. *)
Theorem C32_compound_block_closed : forall until m P l r d c r',
  a_line (sp_data (md_start m)) l r d -> compound_delimiter d -> enclosed d r c (Some r') -> Suffix (md_source m) (md_start m) ->
  exists inside, sp_data inside = c /\ sp_off inside = sp_off (md_start m) + blen l /\ (forall D, located D (md_start m) -> located D inside) /\
  forall b, until inside P = Ok b -> exists src after,
    compound_parse until m P = Ok (Some (mkmi (BCompound (br_blocks b) (context_of d) src (common_of m)) after, (br_warnings b, br_parser b))) /\ sp_data after = r'.
Proof.
  intros un m P l r d c r' H Hd He HS.
  exists (skip (md_start m) l c). rewrite sp_data_skip, sp_off_skip. split; [reflexivity|]. split; [reflexivity|].
  destruct (find_delimiter_spec d (length r) (doc r) (le_n _)) as (c' & o' & He' & Ho). cbn [sp_data doc] in *. destruct (enclosed_unique _ _ _ _ He _ _ He') as (<- & <-).
  destruct Ho as (k & Dk & _). split.
  - intros D HD. apply (located_Sub _ _ _ HD). apply Sub_intro with (post := k ++ r'). rewrite (a_line_app _ _ _ _ H), Dk. reflexivity.
  - intros b Hb. destruct (compound_parse_found un m P l r d c r' b H Hd He HS Hb) as (k' & w & pre & _ & _ & _ & ->). do 2 eexists. split; [reflexivity|]. apply sp_data_skip.
Qed.
Theorem C32_compound_block_open : forall until m P l r d c,
  a_line (sp_data (md_start m)) l r d -> compound_delimiter d -> enclosed d r c None -> Suffix (md_source m) (md_start m) ->
  exists inside, sp_data inside = r /\ sp_off inside = sp_off (md_start m) + blen l /\ (forall D, located D (md_start m) -> located D inside) /\
  forall b, until inside P = Ok b -> exists src after,
    compound_parse until m P = Ok (Some (mkmi (BCompound (br_blocks b) (context_of d) src (common_of m)) after,
      (mkwarn (with_data (md_start m) d) WUnterminatedDelimitedBlock :: br_warnings b, br_parser b))) /\ sp_data after = [].
Proof.
  intros un m P l r d c H Hd He HS.
  exists (skip (md_start m) l r). rewrite sp_data_skip, sp_off_skip. split; [reflexivity|]. split; [reflexivity|]. split.
  - intros D HD. apply (located_Sub _ _ _ HD). apply Sub_intro with (post := []). rewrite app_nil_r. exact (a_line_app _ _ _ _ H).
  - intros b Hb. destruct (compound_parse_open un m P l r d c b H Hd He HS Hb) as (_ & ->). do 2 eexists. split; [reflexivity|]. apply sp_data_skip.
Qed.
(** The first lines of a listing with a longer and a shorter delimiter inside. *)
Lemma a_line_intro x r : ~ In LF x -> (forall y, x <> y ++ [SP]) -> (forall y, x <> y ++ [CR]) -> a_line (x ++ LF :: r) (x ++ [LF]) r x.
Proof.
  intros H H1 H2. exists x, [LF]. split; [rewrite <- app_assoc; reflexivity|]. split; [reflexivity|]. split; [exact H|]. split; [left; reflexivity|].
  exists x, []. split; [right; auto|]. split; [rewrite app_nil_r; reflexivity|]. split; [intros c []|exact H1].
Qed.
Ltac line_ok := intros K; repeat (destruct K as [K|K]; [discriminate K|]); exact K.
Ltac no_end := let y := fresh in let K := fresh in intros y K; apply (f_equal (@rev N)) in K; rewrite rev_app_distr in K; discriminate K.
Example C32_example : exists c, enclosed (lit "----") (lines [lit "a"; lit "-----"; lit "---"; lit "----"; lit "b"]) c (Some (lit "b")) /\ without_eol c (lines [lit "a"; lit "-----"; lit "---"]).
Proof.
  eexists. split.
  - eapply en_more; [discriminate|apply (a_line_intro (lit "a")); [line_ok|no_end|no_end]|discriminate|].
    eapply en_more; [discriminate|apply (a_line_intro (lit "-----")); [line_ok|no_end|no_end]|discriminate|].
    eapply en_more; [discriminate|apply (a_line_intro (lit "---")); [line_ok|no_end|no_end]|discriminate|].
    eapply en_here; [discriminate|apply (a_line_intro (lit "----")); [line_ok|no_end|no_end]].
  - left. eexists. split; [instantiate (1 := lines [lit "a"; lit "-----"; lit "---"]); reflexivity|]. right. split; [reflexivity|no_end].
Qed.

(** ** C50: unterminated raw blocks *)
(** The content of a listing is encoded when it has a closing delimiter and not when it lacks one. *)
Definition rendered (b : block) : option text := match b with BSimple c _ _ _ | BRaw c _ _ _ _ _ => Some (ct_rendered c) | _ => None end.
Theorem C50_unterminated_raw_blocks_are_substituted_refuted : exists body t1 t2,
  (bs <- blocks_of (parse_with E0 30 (lines [lit "----"; body; lit "----"])) ;; Ok (map rendered bs)) = Ok [Some t1] /\
  (bs <- blocks_of (parse_with E0 30 (lines [lit "----"; body])) ;; Ok (map rendered bs)) = Ok [Some t2] /\ t1 <> t2 /\ In 60%N t2 /\ ~ In 60%N t1.
Proof.
  exists (lit "a < b"), (lit "a &lt; b"), (lit "a < b"). split; [vm_compute; reflexivity|]. split; [vm_compute; reflexivity|]. split; [discriminate|]. split; [cbn; auto|line_ok].
Qed.
(** What happens instead: such a block shows its text as it stands, whatever its group and its attribute list. *)
Theorem C50_unterminated_raw_blocks_show_their_source : forall E m P mi w, raw_parse E m P = Ok (Some (mi, [w])) ->
  exists c model context src cm g, mi_item mi = BRaw c model context src cm g /\ ct_rendered c = sp_data (ct_original c) /\ w_type w = WUnterminatedDelimitedBlock.
Proof.
  intros E m P mi w H. unfold raw_parse in H. apply bind_ok in H. destruct H as (delimiter & _ & H). destruct (blen _ <? 4); [discriminate H|].
  destruct (raw_kind _) as [[model [context g]]|]; [|discriminate H]. apply bind_ok in H. destruct H as (valid & _ & H). destruct (negb valid); [discriminate H|].
  apply bind_ok in H. destruct H as (r & _ & H). apply bind_ok in H. destruct H as (c1 & _ & H). apply bind_ok in H. destruct H as (c & _ & H). destruct (snd r) as [line|].
  - apply bind_ok in H. destruct H as (g' & _ & H). apply bind_ok in H. destruct H as (t & _ & H). apply bind_ok in H. destruct H as (s1 & _ & H). apply bind_ok in H. destruct H as (s2 & _ & H).
    apply Ok_inj in H. discriminate H.
  - apply bind_ok in H. destruct H as (s1 & _ & H). apply bind_ok in H. destruct H as (s2 & _ & H). apply Ok_inj in H. injection H as <- <-. repeat eexists.
Qed.

(** ** C35: heading levels *)
(** The subtraction goes below zero exactly on a line that begins with a blank. *)
Theorem C35_underflow_iff_indented : forall s, parse_title_line s = Panic <-> exists l r c y, a_line (sp_data s) l r (c :: y) /\ sp_tab c.
Proof. exact title_line_panic. Qed.
(** Such a line need only stand in a section. *)
Theorem C35_no_underflow_refuted : exists t, parse_with E0 30 t = Panic.
Proof. exists (lines [lit "== S"; []; lit " x"]). vm_compute. reflexivity. Qed.
(** On every other line there is a result, and it is a heading exactly when the line is one by the
    grammar: two to six marks, blanks, the title; the level is one less than the number of marks. *)
Theorem C35_no_underflow_otherwise : forall s, (forall l r c y, a_line (sp_data s) l r (c :: y) -> ~ sp_tab c) -> exists o w, parse_title_line s = Ok (o, w).
Proof. exact title_line_total. Qed.
Theorem C35_headings : forall s l r n, a_line (sp_data s) l r n ->
  (forall level title, heading n level title -> exists t, parse_title_line s = Ok (Some (mkmi (level, t) (skip s l r)), []) /\ sp_data t = title /\ Sub s t) /\
  (forall mi w, parse_title_line s = Ok (Some mi, w) -> heading n (fst (mi_item mi)) (sp_data (snd (mi_item mi))) /\ 1 <= fst (mi_item mi) <= 5 /\ mi_after mi = skip s l r).
Proof.
  intros s l r n H. split.
  - intros level title Hh. exact (title_line_heading s l r n level title H Hh).
  - intros mi w E. destruct (title_line_some s mi w E) as (l' & r' & n' & title & H' & Hh & _ & <- & Ha & _). destruct (a_line_unique _ _ _ _ _ _ _ H H') as (-> & -> & ->).
    split; [exact Hh|]. split; [|exact Ha]. destruct Hh as (c & ws & _ & Hl & _). exact Hl.
Qed.
Example C35_example : heading (lit "=== A title") 2 (lit "A title") /\ ~ (exists level title, heading (lit "==x") level title) /\ ~ (exists level title, heading (lit "======= x") level title).
Proof.
  split; [exists 61%N, [SP]; split; [cbn; auto|]; split; [lia|]; split; [reflexivity|]; split; [discriminate|]; split; [repeat constructor|intros x y K; injection K as <- _; intros [K|K]; discriminate K]|].
  split.
  - intros (level & title & H). assert (A : a_line (sp_data (doc (lit "==x"))) (lit "==x") [] (lit "==x")).
    { exists (lit "==x"), []. split; [reflexivity|]. split; [reflexivity|]. split; [line_ok|]. split; [right; auto|]. exists (lit "==x"), []. split; [right; split; [reflexivity|no_end]|]. split; [reflexivity|]. split; [intros c []|no_end]. }
    destruct (title_line_heading _ _ _ _ _ _ A H) as (t & K & _). vm_compute in K. discriminate K.
  - intros (level & title & H). assert (A : a_line (sp_data (doc (lit "======= x"))) (lit "======= x") [] (lit "======= x")).
    { exists (lit "======= x"), []. split; [reflexivity|]. split; [reflexivity|]. split; [line_ok|]. split; [right; auto|]. exists (lit "======= x"), []. split; [right; split; [reflexivity|no_end]|]. split; [reflexivity|]. split; [intros c []|no_end]. }
    destruct (title_line_heading _ _ _ _ _ _ A H) as (t & K & _). vm_compute in K. discriminate K.
Qed.

(** ** C37: media blocks *)
Definition media_line (ty : media_type) (target attrs : text) : text := media_name ty ++ lit "::" ++ target ++ lit "[" ++ attrs ++ lit "]".
(** A line that names an image or a video is that block, with the target and the attribute list of the line. *)
Theorem C37_image_and_video_lines : forall E fuel s P ty target attrs l r, ty = MImage \/ ty = MVideo -> total (norm_of E P) ->
  a_line (sp_data s) l r (media_line ty target attrs) -> target <> [] -> ~ In 91%N target ->
  exists al m src ws t after, attrlist_parse (e_u E) (norm_of E P) P al CtxInline = Ok (m, ws) /\ sp_data al = attrs /\ sp_data t = target /\ Sub s t /\
  sp_off src = sp_off s /\ Sub s src /\ after = p_discard_empty_lines (skip s l r) /\
  block_parse E fuel s P = Ok (mkpr (Some (mkmi (BMedia ty t (mi_item m) src no_common) after)) ws P).
Proof.
  intros E fuel s P ty target attrs l r Hty Hn H Ht Hb.
  destruct (media_parse_ok E (md_plain s) P ty target attrs l r Hn) as (al & [mi src] & ws & Ea & Dal & Ho & HS & Em); try assumption.
  { exists []. split; [reflexivity|]. rewrite skip_nil. symmetry. apply with_data_self. }
  { intros c y Ec. cbn [md_source md_plain] in Ec. destruct (a_line_prefix _ _ _ _ H) as (w & Ew). rewrite (a_line_app _ _ _ _ H), Ew in Ec. unfold media_line in Ec.
    destruct Hty as [-> | ->]; injection Ec as <- _; reflexivity. }
  cbn [fst snd md_start md_source md_plain] in *. exists al, mi, src, ws. do 2 eexists. split; [exact Ea|]. split; [exact Dal|]. split; [|split; [|split; [exact Ho|split; [exact HS|split; [reflexivity|]]]]].
  3:{ unfold block_parse. destruct (media_line ty target attrs) as [|c y] eqn:El; [destruct ty; discriminate El|].
    assert (Hc : c = 105%N \/ c = 118%N) by (unfold media_line in El; destruct Hty as [-> | ->]; injection El as <- _; auto).
    rewrite (dispatch_plain E _ s P l r c y H).
    - unfold try_media. assert (Es : starts_with (lit "image::") (c :: y) || starts_with (lit "video::") (c :: y) || starts_with (lit "video::") (c :: y) = true)
        by (rewrite <- El; destruct Hty as [-> | ->]; reflexivity).
      rewrite Es, Em. cbn [bind fst snd app md_title_source md_title md_anchor md_attrlist md_plain]. unfold finish. cbn [mi_item block_id block_common common_id cm_anchor cm_attrlist bind].
      cbn [register_block_id fst snd]. rewrite app_nil_r. reflexivity.
    - destruct Hc as [-> | ->]; intros [K|K]; discriminate K.
    - destruct Hc as [-> | ->]; line_ok.
    - exists (media_name ty), (target ++ lit "[" ++ attrs ++ lit "]"). symmetry. exact El. }
  - apply sp_data_skip.
  - destruct (a_line_prefix _ _ _ _ H) as (w & Ew). apply Sub_intro with (post := lit "[" ++ attrs ++ lit "]" ++ w ++ r). rewrite (a_line_app _ _ _ _ H), Ew. unfold media_line. rewrite <- !app_assoc. reflexivity.
Qed.
(** A line that names an audio file is never such a block. *)
Theorem C37_audio_lines_are_paragraphs : forall E fuel s P x l r res, a_line (sp_data s) l r (lit "audio::" ++ x) ->
  block_parse E fuel s P = Ok res -> forall mi, pr_item res = Some mi -> exists c src st cm, mi_item mi = BSimple c src st cm.
Proof.
  intros E fuel s P x l r res H Hp. unfold block_parse in Hp. change (lit "audio::" ++ x) with (97%N :: lit "udio::" ++ x) in H. rewrite (dispatch_plain E _ s P l r 97%N (lit "udio::" ++ x) H) in Hp.
  - unfold try_media in Hp. assert (E1 : starts_with (lit "image::") (97%N :: lit "udio::" ++ x) || starts_with (lit "video::") (97%N :: lit "udio::" ++ x) || starts_with (lit "video::") (97%N :: lit "udio::" ++ x) = false) by reflexivity.
    rewrite E1 in Hp. cbn [bind fst snd] in Hp. unfold try_section in Hp. assert (E2 : starts_with_any (lit "=#") (97%N :: lit "udio::" ++ x) = false) by reflexivity. rewrite E2 in Hp. cbn [bind fst snd app] in Hp.
    unfold try_break in Hp. assert (E3 : starts_with_any (lit "'-*<") (97%N :: lit "udio::" ++ x) = false) by reflexivity. rewrite E3 in Hp. cbn [bind] in Hp. exact (no_block_simple _ _ _ _ _ Hp).
  - intros [K|K]; discriminate K.
  - line_ok.
  - exists (lit "audio"), x. reflexivity.
Qed.
Theorem C37_audio_lines_are_media_refuted : exists target attrs, target <> [] /\ ~ In 91%N target /\
  exists c src st cm, blocks_of (parse_with E0 30 (media_line MAudio target attrs)) = Ok [BSimple c src st cm].
Proof. exists (lit "a.mp3"), []. split; [discriminate|]. split; [line_ok|]. do 4 eexists. vm_compute. reflexivity. Qed.
Example C37_example : exists t a src cm, blocks_of (parse_with E0 30 (media_line MImage (lit "a.png") (lit "Alt"))) = Ok [BMedia MImage t a src cm] /\ sp_data t = lit "a.png".
Proof. do 4 eexists. split; [vm_compute; reflexivity|]. reflexivity. Qed.

(** ** C49: the id of a section *)
Theorem C49_ids_are_registered_refuted : exists t d P b i, parse_with E0 30 t = Ok (d, P) /\ d_blocks d = [b] /\ block_id b = Ok (Some i) /\ contains_id (d_catalog d) i = false.
Proof. exists (lines [lit "[[anchor]]"; lit "[#id]"; lit "== S"]). do 4 eexists. split; [vm_compute; reflexivity|]. split; [reflexivity|]. split; vm_compute; reflexivity. Qed.
(** The id of a section is in the catalog unless the section has both an anchor and an attribute id and these differ. *)
Theorem C49_ids_are_registered_unless_two_differ : forall E un m P mi ws P' c i, section_parse E un m P = Ok (Some mi, (ws, P')) -> p_catalog P' = Some c ->
  (forall a al j, md_anchor m = Some a -> md_attrlist m = Some al -> al_id al = Ok (Some j) -> j = sp_data a) ->
  block_id (mi_item mi) = Ok (Some i) -> contains_id c i = true.
Proof.
  intros E un m P mi ws P' c i H Hc Hsame Hid. apply section_parse_inv in H. destruct H as (discrete & source & lt & w & sid & b & src0 & src & title & base & manual & reg & tp & np & bs &
    _ & _ & _ & _ & _ & _ & _ & _ & _ & _ & _ & Hm & Hr & -> & -> & _ & ->).
  apply section_register_spec in Hr. cbn [mi_item] in Hid.
  assert (Hc' : p_catalog (fst (snd reg)) = Some c) by (destruct (_ && _) in Hc; exact Hc). clear Hc.
  destruct (p_catalog (br_parser b)) as [c0|]; [|destruct Hr as [_ Hr]; rewrite Hc' in Hr; discriminate Hr].
  destruct Hr as (c' & Ec & Hr). rewrite Hc' in Ec. injection Ec as <-.
  unfold block_id in Hid. cbn [block_common] in Hid. apply bind_ok in Hid. destruct Hid as (o & Ho & Hid). apply Ok_inj in Hid.
  unfold common_id, common_of in Ho. cbn [cm_anchor cm_attrlist] in Ho. unfold manual_id in Hm. apply bind_ok in Hm. destruct Hm as (om & Eom & Hm). apply Ok_inj in Hm.
  assert (Hget : forall x, get_ref c i = Some x -> contains_id c i = true).
  { intros x Hx. unfold get_ref in Hx. unfold contains_id, mhas. rewrite Hx. reflexivity. }
  destruct (md_anchor m) as [a|] eqn:Ea.
  - apply Ok_inj in Ho. subst o. injection Hid as <-. destruct om as [j|].
    + subst manual. destruct Hr as (_ & Hr & _). destruct (md_attrlist m) as [al|] eqn:El; [|discriminate Eom]. rewrite (Hsame a al j eq_refl eq_refl Eom) in Hr. exact Hr.
    + cbn [option_map] in Hm. subst manual. exact (proj1 (proj2 Hr)).
  - destruct (md_attrlist m) as [al|] eqn:El.
    + rewrite Eom in Ho. apply Ok_inj in Ho. subst o. destruct om as [j|].
      * injection Hid as <-. subst manual. exact (proj1 (proj2 Hr)).
      * cbn [option_map] in Hm. subst manual. destruct (is_attribute_set P (lit "sectids")); [|rewrite Hr in Hid; discriminate Hid]. destruct Hr as (i' & Ei & _ & Hr). rewrite Ei in Hid. injection Hid as ->. exact (Hget _ Hr).
    + apply Ok_inj in Ho. subst o. apply Ok_inj in Eom. subst om. cbn [option_map] in Hm. subst manual. destruct (is_attribute_set P (lit "sectids")); [|rewrite Hr in Hid; discriminate Hid].
      destruct Hr as (i' & Ei & _ & Hr). rewrite Ei in Hid. injection Hid as ->. exact (Hget _ Hr).
Qed.
Example C49_example : exists d P b, parse_with E0 30 (lit "== Some title") = Ok (d, P) /\ d_blocks d = [b] /\ block_id b = Ok (Some (lit "_some_title")) /\ contains_id (d_catalog d) (lit "_some_title") = true.
Proof. do 3 eexists. split; [vm_compute; reflexivity|]. split; [reflexivity|]. split; vm_compute; reflexivity. Qed.

(** ** C52: the text of a paragraph *)
Theorem C52_paragraphs_are_determined : forall k t, exists ls pre rest, paragraph k false t ls rest /\ t = pre ++ rest /\
  forall ls' rest', paragraph k false t ls' rest' -> ls' = ls /\ rest' = rest.
Proof.
  intros k t. destruct (paragraph_total k t) as (ls & pre & rest & H & D). exists ls, pre, rest. split; [exact H|]. split; [exact D|]. intros ls' rest' H'.
  destruct (paragraph_unique _ _ _ _ _ H _ _ H') as (-> & ->). auto.
Qed.
(** The lines of the paragraph, without comments, without the indentation of the first line, joined by line
    feeds, are what the substitutions are given. *)
Theorem C52_paragraph_text : forall E s a P k bs ls pre rest, sp_col s = 1 -> indented (sp_data s) k -> paragraph k false (sp_data s) ls rest -> sp_data s = pre ++ rest -> style_of a = Ok bs ->
  (trim_end pre = [] -> parse_lines E s a P = Ok None) /\
  (trim_end pre <> [] -> forall g t, override_via_attrlist GNormal a = Ok g -> apply_subs E P g a (join [LF] ls) = Ok t ->
    exists c after, parse_lines E s a P = Ok (Some (mkmi (c, simple_style_of (negb (k =? 0)) bs) after)) /\ ct_rendered c = t /\ sp_data (ct_original c) = trim_end pre /\
      Sub s (ct_original c) /\ Suffix (skip s pre rest) after).
Proof.
  intros E s a P k bs ls pre rest Hc Hk Hp D Hbs. split.
  - intros Ht. exact (parse_lines_none E s a P k bs ls pre rest Hc Hk Hp D Ht Hbs).
  - intros Ht g t Hg Hs. rewrite (parse_lines_some E s a P k bs ls pre rest g t Hc Hk Hp D Ht Hbs Hg Hs). do 2 eexists. split; [reflexivity|]. split; [reflexivity|]. split; [reflexivity|].
    split; [|apply discard_empty_Suffix]. destruct (trim_end_spec pre) as (z & Ez & _). exists [], (z ++ rest). split; [cbn [app ct_original sp_data with_data]; rewrite D, Ez, <- !app_assoc; f_equal; rewrite <- Ez; reflexivity|].
    cbn [ct_original sp_data with_data]. rewrite skip_nil. reflexivity.
Qed.
(** A line of tabs alone is blank but does not end a paragraph. *)
Theorem C52_blank_lines_end_paragraphs_refuted : exists x y z c src st cm, x <> [] /\ z <> [] /\ Forall sp_tab y /\
  blocks_of (parse_with E0 30 (lines [x; y; z])) = Ok [BSimple c src st cm] /\ ct_rendered c = lines [x; []; z].
Proof. exists (lit "a"), [TAB], (lit "b"). do 4 eexists. split; [discriminate|]. split; [discriminate|]. split; [repeat constructor; right; reflexivity|]. split; vm_compute; reflexivity. Qed.
(** What the white space at the end of a line is: the characters with the property White_Space of Unicode (PropList.txt). *)
Definition white_space : list char :=
  [9; 10; 11; 12; 13; 32; 133; 160; 5760; 8192; 8193; 8194; 8195; 8196; 8197; 8198; 8199; 8200; 8201; 8202; 8232; 8233; 8239; 8287; 12288]%N.
Theorem C52_white_space : forall c, is_ws c = true <-> In c white_space.
Proof.
  intros c. split.
  - unfold is_ws. intros H. assert (K : (9 <= c <= 13 \/ c = 32 \/ c = 133 \/ c = 160 \/ c = 5760 \/ 8192 <= c <= 8202 \/ c = 8232 \/ c = 8233 \/ c = 8239 \/ c = 8287 \/ c = 12288)%N).
    { repeat (rewrite orb_true_iff in H || rewrite andb_true_iff in H || rewrite N.leb_le in H || rewrite N.eqb_eq in H). lia. }
    assert (X : forall a n, (a <= c)%N -> (c <= a + N.of_nat n)%N -> exists k, k <= n /\ c = (a + N.of_nat k)%N). { intros a n H1 H2. exists (N.to_nat (c - a)). split; lia. }
    unfold white_space. repeat (destruct K as [K|K]; [first [subst c; cbn; tauto|idtac]|]); [| |subst c; cbn; tauto].
    + destruct (X 9%N 4) as (k & Hk & ->); [lia|cbn; lia|]. do 5 (destruct k as [|k]; [cbn; tauto|]). lia.
    + destruct (X 8192%N 10) as (k & Hk & ->); [lia|cbn; lia|]. do 11 (destruct k as [|k]; [cbn; tauto|]). lia.
  - intros H. cbn [In white_space] in H. repeat (destruct H as [<-|H]; [reflexivity|]). destruct H.
Qed.
Example C52_wide_space : exists d P c src st m, parse_with E0 30 ([120; 8195; 10; 121; 12288; 160; 32]%N) = Ok (d, P) /\ d_blocks d = [BSimple c src st m] /\ ct_rendered c = [120; 10; 121]%N.
Proof. do 6 eexists. split; [vm_compute; reflexivity|]. split; reflexivity. Qed.
Example C52_example : indented (lines [lit "  a"; lit "   b"; lit "// c"; lit "d"]) 2 /\
  paragraph 2 false (lines [lit "  a"; lit "   b"; lit "// c"; lit "d"; lit "----"]) [lit "a"; lit " b"; lit "d"] (lit "----").
Proof.
  split.
  - exists (lit "  "), (lines [lit "a"; lit "   b"; lit "// c"; lit "d"]). split; [reflexivity|]. split; [repeat constructor|]. split; [reflexivity|]. intros c y K. injection K as <- _. intros [K|K]; discriminate K.
  - assert (U : forall n w y, n = w ++ y -> Forall sp_tab w -> (length w = 2 \/ length w < 2 /\ forall c r, y = c :: r -> ~ sp_tab c) -> (forall r c, y = r ++ [c] -> is_ws c = false) -> unindented 2 n y).
    { intros n w y E1 H1 H2 H3. exists w, []. split; [rewrite app_nil_r; exact E1|]. split; [exact H1|]. split; [exact H2|]. split; [constructor|exact H3]. }
    assert (NB : forall n, is_stop_line n = Ok false -> ~ boundary_line n).
    { intros n K Hb. destruct (boundary_b n) as (v & Ev & Hv). rewrite K in Ev. injection Ev as <-. apply Hv in Hb. discriminate Hb. }
    assert (L : forall (y : text) q, (match rev y with c :: _ => c | [] => 0%N end) = q -> is_ws q = false -> forall r c, y = r ++ [c] -> is_ws c = false).
    { intros y q Hq Hw r c ->. rewrite rev_app_distr in Hq. cbn in Hq. subst q. exact Hw. }
    eapply pg_line; [discriminate|apply (a_line_intro (lit "  a")); [line_ok|no_end|no_end]|discriminate| |discriminate| |].
    { intros K. apply comment_b in K. discriminate K. }
    { apply (U _ (lit "  ") (lit "a")); [reflexivity|repeat constructor|left; reflexivity|apply (L _ 97%N); reflexivity]. }
    eapply pg_line; [discriminate|apply (a_line_intro (lit "   b")); [line_ok|no_end|no_end]|discriminate| |intros _; apply NB; reflexivity| |].
    { intros K. apply comment_b in K. discriminate K. }
    { apply (U _ (lit "  ") (lit " b")); [reflexivity|repeat constructor|left; reflexivity|apply (L _ 98%N); reflexivity]. }
    eapply pg_comment; [apply (a_line_intro (lit "// c")); [line_ok|no_end|no_end]|apply comment_b; reflexivity|].
    eapply pg_line; [discriminate|apply (a_line_intro (lit "d")); [line_ok|no_end|no_end]|discriminate| |intros _; apply NB; reflexivity| |].
    { intros K. apply comment_b in K. discriminate K. }
    { apply (U _ [] (lit "d")); [reflexivity|repeat constructor|right; split; [cbn; lia|intros c r K; injection K as <- _; intros [K|K]; discriminate K]|apply (L _ 100%N); reflexivity]. }
    apply (pg_boundary _ _ (lit "----") [] (lit "----")); [|right; right; left; exists 45%N; split; [cbn; auto|exists 4; split; [lia|reflexivity]]].
    exists (lit "----"), []. split; [reflexivity|]. split; [reflexivity|]. split; [line_ok|]. split; [right; auto|]. exists (lit "----"), []. split; [right; split; [reflexivity|no_end]|]. split; [reflexivity|]. split; [intros c []|no_end].
Qed.

Print Assumptions C31_raw_delimiters.
Print Assumptions C31_compound_delimiters.
Print Assumptions C31_never_both.
Print Assumptions C32_cut_is_determined.
Print Assumptions C32_raw_block_closed.
Print Assumptions C32_raw_block_open.
Print Assumptions C32_no_delimiter_no_block.
Print Assumptions C32_compound_block_closed.
Print Assumptions C32_compound_block_open.
Print Assumptions C50_unterminated_raw_blocks_are_substituted_refuted.
Print Assumptions C50_unterminated_raw_blocks_show_their_source.
Print Assumptions C35_underflow_iff_indented.
Print Assumptions C35_no_underflow_refuted.
Print Assumptions C35_no_underflow_otherwise.
Print Assumptions C35_headings.
Print Assumptions C37_image_and_video_lines.
Print Assumptions C37_audio_lines_are_paragraphs.
Print Assumptions C37_audio_lines_are_media_refuted.
Print Assumptions C49_ids_are_registered_refuted.
Print Assumptions C49_ids_are_registered_unless_two_differ.
Print Assumptions C52_paragraphs_are_determined.
Print Assumptions C52_paragraph_text.
Print Assumptions C52_white_space.
Print Assumptions C52_blank_lines_end_paragraphs_refuted.
