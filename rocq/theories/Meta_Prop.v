(** Properties of block metadata and of the kinds of blocks (C88-C91). *)
From Verif Require Import Text TextFacts Maps Span_Model Span_Pure Span_Proof Span_Laws Span_Spec Parser_Model Subs_Model Attrlist_Model
  Entry_Model Group_Model Header_Model Header_Spec Header_Prop Block_Model Block_Spec Block_Proof Doc_Model Block_Prop Shape_Proof Meta_Spec Meta_Proof Kind_Spec Kind_Proof.

(** ** C88: metadata lines *)
(** The metadata of a block is what its metadata lines say: the first lines, each a title, an anchor or an
    attribute list, of each kind one at most.  The block begins after them.  The warnings are those of the
    attribute list, and one for a line in double brackets that is no anchor. *)
Theorem C88_metadata : forall E s P md ws, metadata_parse E s P = Ok (md, ws) ->
  exists is_ ws1 ws2, discard_empty_lines s = Ok (md_source md) /\ meta_lines (e_u E) [] (sp_data (md_source md)) is_ (sp_data (md_start md)) /\
    option_map sp_data (md_title_source md) = the_title is_ /\ option_map sp_data (md_anchor md) = the_anchor is_ /\ option_map sp_data (md_reftext md) = the_reftext is_ /\
    match md_attrlist md with
    | Some a => exists sp after, the_list is_ = Some (sp_data sp) /\ Sub (md_source md) sp /\ attrlist_parse (e_u E) (norm_of E P) P sp CtxBlock = Ok (mkmi a after, ws1)
    | None => the_list is_ = None /\ ws1 = []
    end /\
    match the_title is_ with Some x => exists t, e_sub E P GNormal false x = Ok t /\ md_title md = Some t | None => md_title md = None end /\
    ws = ws1 ++ ws2 /\ end_warnings (e_u E) (md_start md) is_ ws2 /\
    forall x, md_title_source md = Some x \/ md_anchor md = Some x \/ md_reftext md = Some x -> Sub (md_source md) x.
Proof. exact metadata_lines. Qed.
(** The lines are determined by the text, and no two are of the same kind. *)
Theorem C88_lines_are_determined : forall U t is1 r1 is2 r2, meta_lines U [] t is1 r1 -> meta_lines U [] t is2 r2 -> is1 = is2 /\ r1 = r2.
Proof. intros U t is1 r1 is2 r2 H1 H2. exact (meta_lines_unique _ _ _ _ _ H1 _ _ H2). Qed.
Theorem C88_one_of_each_kind : forall U t is_ r i j, meta_lines U [] t is_ r -> In i is_ -> In j is_ -> same_kind i j = true -> i = j.
Proof.
  intros U t is_ r i j H Hi Hj Hk. destruct i as [x|x y|x], j as [x'|x' y'|x']; try discriminate Hk.
  - pose proof (ml_title _ _ _ _ _ H _ Hi) as E1. rewrite (ml_title _ _ _ _ _ H _ Hj) in E1. congruence.
  - destruct (ml_anchor _ _ _ _ _ H _ _ Hi) as (E1 & E2), (ml_anchor _ _ _ _ _ H _ _ Hj) as (E3 & E4). congruence.
  - pose proof (ml_list _ _ _ _ _ H _ Hi) as E1. rewrite (ml_list _ _ _ _ _ H _ Hj) in E1. congruence.
Qed.
Example C88_example : exists md, metadata_parse E0 (span_new (lines [lit ".Title"; lit "[[id,text]]"; lit "[.role]"; lit "para"])) parser_default = Ok (md, []) /\
  option_map sp_data (md_title_source md) = Some (lit "Title") /\ option_map sp_data (md_anchor md) = Some (lit "id") /\ option_map sp_data (md_reftext md) = Some (lit "text") /\
  sp_data (md_start md) = lit "para".
Proof. eexists. split; [vm_compute; reflexivity|]. repeat split; vm_compute; reflexivity. Qed.
(** A block may have several lines of attributes by the documentation (blocks/pages/index.adoc:262-271); here
    the second one is text of the paragraph. *)
Theorem C88_several_attribute_lines_refuted : exists x y c src st cm, item_line (e_u E0) x (IList (lit ".a")) /\ item_line (e_u E0) y (IList (lit ".b")) /\
  blocks_of (parse_with E0 30 (lines [x; y; lit "text"])) = Ok [BSimple c src st cm] /\ ct_rendered c = lines [y; lit "text"].
Proof.
  exists (lit "[.a]"), (lit "[.b]"). do 4 eexists. assert (G : forall a, item_line (e_u E0) (lit "[." ++ [a] ++ lit "]") (IList (lit "." ++ [a]))).
  { intros a. split; [reflexivity|]. split; [intros c y K; injection K as <- _; intros [K|K]; discriminate K|]. intros y K. discriminate K. }
  split; [exact (G 97%N)|]. split; [exact (G 98%N)|]. split; vm_compute; reflexivity.
Qed.
(** By the documentation it does not matter what the brackets contain; here a blank after the bracket makes
    the line text. *)
Theorem C88_any_bracket_line_refuted : exists x c src st cm, blocks_of (parse_with E0 30 (lines [lit "[" ++ x ++ lit "]"; lit "text"])) = Ok [BSimple c src st cm] /\
  ct_rendered c = lines [lit "[" ++ x ++ lit "]"; lit "text"] /\ cm_attrlist cm = None.
Proof. exists (lit " .a"). do 4 eexists. split; [vm_compute; reflexivity|]. split; vm_compute; reflexivity. Qed.
(** A title needs text after the dot by the documentation (blocks/pages/add-title.adoc); here a dot alone
    is a title with no text. *)
Theorem C88_titles_have_text_refuted : exists c src st cm, blocks_of (parse_with E0 30 (lines [lit "."; lit "text"])) = Ok [BSimple c src st cm] /\ cm_title cm = Some [] /\ ct_rendered c = lit "text".
Proof. do 4 eexists. split; [vm_compute; reflexivity|]. split; vm_compute; reflexivity. Qed.

(** ** C89: the kind of a block *)
(** The line after the metadata decides: a delimiter, an image or video macro, a heading with its level and
    title, a thematic break, a page break, else a paragraph; the style [literal] makes any of them a paragraph.
    Metadata that no block follows is a paragraph itself, and there is a warning.  [un] stands for the parser of
    the blocks inside. *)
Theorem C89_kind : forall E un s s0 P r mi, discard_empty_lines s = Ok s0 -> s0 = s \/ (exists l r, a_line (sp_data s) l r []) -> block_parse_with E un s P = Ok r -> pr_item r = Some mi ->
  (exists a y, mi_item mi = BAttribute a /\ s0 = s /\ sp_data s = lit ":" ++ y) \/
  exists is_ rest l r' n style, meta_lines (e_u E) [] (sp_data s0) is_ rest /\ a_line rest l r' n /\ declared E P is_ style /\
    (kind_fits style rest n (mi_item mi) \/
     (blank n /\ (the_title is_ <> None \/ the_list is_ <> None) /\ In (mkwarn s0 WMissingBlockAfterTitleOrAttributeList) (pr_warnings r) /\
      exists c src st cm k, mi_item mi = BSimple c src st cm /\ indented (sp_data s0) k /\ para_style None k st)).
Proof. exact block_kind. Qed.
(** A line has one form at most. *)
Theorem C89_one_form : forall n f g, has_form n f -> has_form n g -> f = g.
Proof. exact forms_exclusive. Qed.
(** So with no style [literal], a line of a form gives a block of that form. *)
Theorem C89_forms_are_recognized : forall style t n b f, kind_fits style t n b -> style <> Some (lit "literal") -> has_form n f -> block_form b = Some f.
Proof.
  intros style t n b f H Hs Hf. unfold kind_fits in H. destruct (block_form b) as [g|]; [destruct H as (_ & Hg); rewrite (forms_exclusive _ _ _ Hf Hg); reflexivity|].
  destruct H as (_ & [K|K]); [contradiction|destruct (K f Hf)].
Qed.
Example C89_example : exists t i b1 d1 b2 d2 a1 a2 a3 a4 a5 a6 ps ti x,
  blocks_of (parse_with E0 30 (lines [lit "'''"; []; lit "<<<"; []; lit "image::a.png[]"; []; lit "----"; lit "x"; lit "----"; []; lit "== S"; []; lit "text"])) =
    Ok [BPreamble [BBreak BThematic b1 d1; BBreak BPage b2 d2; BMedia MImage t i a1 a2; BRaw a3 CmVerbatim (lit "listing") a4 a5 a6] ps; x] /\
  has_form (lit "'''") FThematic /\ has_form (lit "<<<") FPage /\ has_form (lit "image::a.png[]") (FMedia MImage (sp_data t)) /\ has_form (lit "----") (FRaw (lit "listing") CmVerbatim) /\ has_form (lit "== S") (FHeading 1 ti) /\ block_form x = Some (FHeading 1 ti).
Proof.
  do 15 eexists. split; [vm_compute; reflexivity|]. split; [cbn; auto|]. split; [reflexivity|]. split.
  { split; [discriminate|]. split; [line_ok|]. exists (lit "image"), []. split; [left; reflexivity|reflexivity]. }
  split; [exists 45%N; split; [right; left; reflexivity|exists 4; split; [lia|reflexivity]]|]. split; [|reflexivity].
  exists 61%N, [SP]. split; [cbn; auto|]. split; [lia|]. split; [reflexivity|]. split; [discriminate|]. split; [repeat constructor|]. intros x y K. vm_compute in K. injection K as <- _. intros [K|K]; discriminate K.
Qed.
(** By the documentation spaces between the characters of a thematic break are optional
    (blocks/partials/thematic-breaks.adoc); here two spaces make it a paragraph. *)
Theorem C89_spaces_in_breaks_refuted : exists c src st cm, blocks_of (parse_with E0 30 (lit "-  -  -")) = Ok [BSimple c src st cm].
Proof. do 4 eexists. vm_compute. reflexivity. Qed.

(** ** C90: the style of a paragraph *)
Theorem C90_styles : forall E s a P x, parse_lines E s a P = Ok (Some x) -> exists k bs, indented (sp_data s) k /\ style_of a = Ok bs /\ para_style bs k (snd (mi_item x)).
Proof. exact parse_lines_style. Qed.
Theorem C90_styles_are_determined : forall style t k1 k2 s1 s2, indented t k1 -> indented t k2 -> para_style style k1 s1 -> para_style style k2 s2 -> s1 = s2.
Proof.
  intros style t k1 k2 s1 s2 I1 I2 H1 H2. assert (k1 = k2) as <-.
  { destruct I1 as (w1 & x1 & D1 & F1 & <- & N1), I2 as (w2 & x2 & D2 & F2 & <- & N2). rewrite D1 in D2. apply blank_cut in D2; auto. destruct D2 as (-> & _). reflexivity. }
  assert (X : forall x, In x [lit "normal"; lit "literal"; lit "listing"; lit "source"] -> style = Some x -> (forall x, style = Some x -> ~ In x [lit "normal"; lit "literal"; lit "listing"; lit "source"]) -> False) by (intros x Hx Ex K; exact (K x Ex Hx)).
  destruct H1 as [H1|H1|H1|H1|H1 L1|H1 L1], H2 as [H2|H2|H2|H2|H2 L2|H2 L2]; try reflexivity; try (rewrite H1 in H2; discriminate H2); try contradiction; exfalso; first [refine (X _ _ H1 H2)|refine (X _ _ H2 H1)]; cbn; tauto.
Qed.
Example C90_example : exists c src cm, blocks_of (parse_with E0 30 (lines [lit " indented"])) = Ok [BSimple c src StLiteral cm] /\ ct_rendered c = lit "indented".
Proof. do 3 eexists. split; vm_compute; reflexivity. Qed.

(** ** C91: attribute entries between blocks *)
(** Attribute entries may stand between blocks (attributes/pages/attribute-entries.adoc:59-70).  After a
    delimited block and an empty line, an entry is a paragraph, and sets nothing. *)
Theorem C91_entries_between_blocks_refuted : exists c m cx src cm g p1 p2 p3 p4 q1 q2 q3 q4, 
  blocks_of (parse_with E0 30 (lines [lit "----"; lit "x"; lit "----"; []; lit ":foo: bar"; []; lit "{foo}"])) = Ok [BRaw c m cx src cm g; BSimple p1 p2 p3 p4; BSimple q1 q2 q3 q4] /\
  ct_rendered p1 = lit ":foo: bar" /\ ct_rendered q1 = lit "{foo}".
Proof. do 14 eexists. split; [vm_compute; reflexivity|]. split; vm_compute; reflexivity. Qed.
(** The reason: no entry is found where an empty line comes first, and after a delimited block the empty
    lines stay. *)
Theorem C91_no_entry_after_an_empty_line : forall E un s P r mi l r', a_line (sp_data s) l r' [] -> block_parse_with E un s P = Ok r -> pr_item r = Some mi -> forall a, mi_item mi <> BAttribute a.
Proof.
  intros E un s P r mi l r' Hl H Hi a Ha. destruct (block_kind E un s (p_discard_empty_lines s) P r mi (discard_empty_lines_ok s)) as [(a' & y & _ & _ & K)|(is_ & rest & l1 & r1 & n & style & _ & _ & _ & [K|(_ & _ & _ & c & src & st & cm & k & K & _)])]; eauto.
  - destruct Hl as (x & e & D & -> & Hx & He & (y0 & sps & Hm & Ht & Hs & _)). cbn in Ht. rewrite K in D. destruct y0 as [|c y0]; [destruct x as [|c x]|].
    + destruct He as [->|(-> & ->)]; discriminate D.
    + destruct Hm as [Hm|(Hm & _)]; [|discriminate Hm]. injection Hm as -> ->. discriminate D.
    + assert (c = SP) by (apply Hs; rewrite <- Ht; left; reflexivity). subst c. destruct Hm as [->|(-> & _)]; discriminate D.
  - unfold kind_fits in K. rewrite Ha in K. cbn in K. destruct K as ((c & src & st & cm & k & K & _) & _). discriminate K.
  - rewrite Ha in K. discriminate K.
Qed.
Example C91_example : exists c1 c2 c3 c4 a d1 d2 d3 d4, blocks_of (parse_with E0 30 (lines [lit "x"; []; lit ":foo: bar"; []; lit "{foo}"])) = Ok [BSimple c1 c2 c3 c4; BAttribute a; BSimple d1 d2 d3 d4] /\ ct_rendered d1 = lit "bar".
Proof. do 9 eexists. split; vm_compute; reflexivity. Qed.

Print Assumptions C88_metadata.
Print Assumptions C88_lines_are_determined.
Print Assumptions C88_one_of_each_kind.
Print Assumptions C88_several_attribute_lines_refuted.
Print Assumptions C88_any_bracket_line_refuted.
Print Assumptions C88_titles_have_text_refuted.
Print Assumptions C89_kind.
Print Assumptions C89_one_form.
Print Assumptions C89_forms_are_recognized.
Print Assumptions C89_spaces_in_breaks_refuted.
Print Assumptions C90_styles.
Print Assumptions C90_styles_are_determined.
Print Assumptions C91_entries_between_blocks_refuted.
Print Assumptions C91_no_entry_after_an_empty_line.
