(** C117: the tags in a whole document are those of the substitutions. *)
From Verif Require Import Text TextFacts Maps Span_Model Span_Proof Span_Laws Parser_Model Subs_Model Subs_Proof Attrlist_Model Entry_Model SourceMap_Model Group_Model Header_Model Header_Spec Header_Prop Block_Model Doc_Model Pre_Model
  Block_Prop Tree_Prop Safe_Spec Safe_Class Tags_Spec Tags_Proof Tags_Prop BlockSubs_Spec Author_Spec Author_Prop Attrs_Spec Inert_Spec Inert_Proof.

(** If the lines of the header and the texts of the blocks are of one of the classes of C114, then the titles, the paragraphs
    and the section titles have no tags but those of the substitutions; the values of the attributes, the title of the
    document and the closed verbatim blocks have no [<] at all. *)
Theorem C117_document : forall x C U fs f fuel t sm P d P', text_class x C -> spaces_apart U -> inert_parser x P -> document_parse (env_of U fs (S f)) fuel t sm P = Ok (d, P') ->
  inert_header x C (d_header d) -> (forall b, below (d_blocks d) b -> inert_block C b) ->
  inert_parser x P' /\ (forall v, h_title (d_header d) = Some v -> inert x v) /\ (forall a v, In a (h_attrs (d_header d)) -> at_value a = VValue v -> inert x v) /\
  forall b, below (d_blocks d) b -> own_tags_only (d_warnings d) b.
Proof. exact document_inert. Qed.
(** The same for the parser as it is called, with the preprocessor in front; its attributes serve for the next document. *)
Theorem C117_parse : forall x C U fs f ifh f1 f2 t P d P', text_class x C -> spaces_apart U -> inert_parser x P -> parser_parse (env_of U fs (S f)) ifh f1 f2 t P = Ok (d, P') ->
  inert_header x C (d_header d) -> (forall b, below (d_blocks d) b -> inert_block C b) ->
  inert_parser x P' /\ (forall v, h_title (d_header d) = Some v -> inert x v) /\ (forall a v, In a (h_attrs (d_header d)) -> at_value a = VValue v -> inert x v) /\
  forall b, below (d_blocks d) b -> own_tags_only (d_warnings d) b.
Proof.
  intros x C U fs f ifh f1 f2 t P d P' X Sp V H Hh Hb. unfold parser_parse in H. apply bind_ok in H. destruct H as (p & _ & H). refine (document_inert x C U fs f _ _ _ _ d P' X Sp _ H Hh Hb).
  apply (inert_same x P _ V); unfold begin_parse; destruct (p_catalog P); reflexivity.
Qed.
(** The parser that nobody has changed has such attributes. *)
Theorem C117_default : forall x C, text_class x C -> inert_parser x parser_default.
Proof. exact default_inert. Qed.

(** ** An example *)
Definition letter_doc : text := lines [lit "= Title <b> *a*"; lit "Doc Writer <doc@x.org>"; lit "v1, 2020-01-01"; lit ":d: <i>"; []; lit ".On <b> `x`"; lit "a <b> *c* {d} {author} {revdate}"; lit "{email}"; []; lit "== S _e_ {d} <b>"; [];
  lit ":e: {d}<u>"; []; lit "----"; lit "<b> *x*"; lit "----"; lit "{e}"].
Lemma below_cons y l b : below (y :: l) b -> b = y \/ below (nested_blocks y) b \/ below l b.
Proof. intros H. change (y :: l) with ([y] ++ l) in H. apply below_app in H. rewrite below_one in H. tauto. Qed.
Lemma usual_plain cm : cm_attrlist cm = None -> usual cm.
Proof. intros E style g Hs Hc. rewrite E in *. injection Hs as <-. destruct Hc as [(s & K & _)|(_ & [(K & _)|(_ & ->)])]; [discriminate K|discriminate K|left; reflexivity]. Qed.
Lemma one_piece l ts : ~ In 59%N l -> pieces_of l ts -> ts = [l].
Proof. intros N H. destruct H as [t|a b l]; [reflexivity|]. destruct N. rewrite !in_app_iff. right. left. left. reflexivity. Qed.
Example C117_example : exists d P', parse_with E0 60 letter_doc = Ok (d, P') /\ inert_header (lit "[") unbracketed (d_header d) /\ (forall b, below (d_blocks d) b -> inert_block unbracketed b) /\
  h_title (d_header d) = Some (lit "Title &lt;b&gt; *a*") /\
  match d_blocks d with
  | [BPreamble [BSimple c _ _ cm] _; BSection _ title [BAttribute _; BRaw r _ _ _ _ _; BSimple c2 _ _ _] _ _ _ _ _] =>
      ct_rendered c = lit "a &lt;b&gt; <strong>c</strong> &lt;i&gt; Doc Writer 2020-01-01" ++ [LF] ++ lit "<a href=""mailto:doc@x.org"">doc@x.org</a>" /\ cm_title cm = Some (lit "On &lt;b&gt; <code>x</code>") /\
      ct_rendered title = lit "S <em>e</em> &lt;i&gt; &lt;b&gt;" /\ ct_rendered r = lit "&lt;b&gt; *x*" /\ ct_rendered c2 = lit "&lt;i&gt;&lt;u&gt;"
  | _ => False
  end.
Proof.
  eexists. eexists. split; [vm_compute; reflexivity|]. split; [|split; [|split; [reflexivity|repeat split]]].
  - split; [intros s E; injection E as <-; cbn [sp_data]; class_ok|]. split; [|split].
    + intros a raw [<-|[]] E. injection E as <-. cbn [sp_data]. split; [class_ok|]. intros K. discriminate K.
    + intros l E. injection E as <-. cbn [sp_data aul_source]. intros ts t s Hp Ht Hb. apply one_piece in Hp; [|vm_compute; intuition discriminate]. subst ts. destruct Ht as [<-|[]]. apply Header_Proof.bare_trim in Hb. subst s. split; [class_ok|]. right. exists (lit "Doc Writer "), (lit "doc@x.org"). split; [vm_compute; reflexivity|vm_compute; intuition discriminate].
    + intros r E. injection E as <-. cbn [sp_data rv_source]. split; [vm_compute; intuition discriminate|class_ok].
  - intros b Hb. cbn [d_blocks] in Hb. repeat (apply below_cons in Hb; cbn [nested_blocks] in Hb; destruct Hb as [->|[Hb|Hb]]; [|try (destruct (below_nil _ Hb))|try (destruct (below_nil _ Hb))]).
    all: split; [intros s E; cbn in E; first [discriminate E|injection E as <-; cbn [sp_data]; class_ok]|]; cbn [sp_data ct_original]; try exact I.
    all: try (split; [class_ok|apply usual_plain; reflexivity]); try (intros raw E; injection E as <-; cbn [sp_data]); try class_ok.
Qed.

(** ** What the hypotheses are for *)
(** The parts of a revision line are stored as they stand: with them a tag of the author gets into a paragraph. *)
Theorem C117_revision_refuted : exists t d P' b src st cm, t = lines [lit "= T"; lit "A B"; lit "v1.0, <b>: <i>"; []; lit "{revdate} {revremark}"] /\
  parse_with E0 30 t = Ok (d, P') /\ d_blocks d = [BSimple b src st cm] /\ ct_rendered b = lit "<b> <i>".
Proof. do 7 eexists. split; [reflexivity|]. split; [vm_compute; reflexivity|]. split; [cbn [d_blocks]; reflexivity|reflexivity]. Qed.
(** So is an address with a second [<]. *)
Theorem C117_address_refuted : exists t d P' b src st cm, t = lines [lit "= T"; lit "A B <<b>"; []; lit "{email}"] /\
  parse_with E0 30 t = Ok (d, P') /\ d_blocks d = [BSimple b src st cm] /\ ct_rendered b = lit "<b".
Proof. do 7 eexists. split; [reflexivity|]. split; [vm_compute; reflexivity|]. split; [cbn [d_blocks]; reflexivity|reflexivity]. Qed.

Print Assumptions C117_document.
Print Assumptions C117_parse.
Print Assumptions C117_default.
Print Assumptions C117_revision_refuted.
Print Assumptions C117_address_refuted.
