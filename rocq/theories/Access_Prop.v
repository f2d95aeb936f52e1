(** C103-C105: what the blocks of a parsed document report. *)
From Verif Require Import Text TextFacts Maps Span_Model Span_Pure Span_Proof Span_Laws Span_Spec Catalog_Model Catalog_Spec Catalog_Proof Parser_Model Subs_Model Attrlist_Model Attrlist_Proof Attrlist_Spec Attrlist_Laws
  Render_Model Render_Proof Group_Model Entry_Model Header_Model Header_Proof Header_Prop Block_Model Block_Spec Block_Proof Block_Prop Shape_Proof Doc_Model Tree_Prop Walk_Spec Walk_Prop BlockSubs_Proof Access_Model Access_Spec Access_Proof.

(** ** C103: contexts and content models *)
(** The context implied by the syntax of a block comes with the content model of the documentation. *)
Theorem C103_contexts_and_content_models : forall E fuel t sm P d P' b, document_parse E fuel t sm P = Ok (d, P') -> below (d_blocks d) b ->
  In (raw_context b, block_content_model b) context_models.
Proof. intros E fuel t sm P d P' b H Hb. destruct (document_made _ _ _ _ _ _ _ _ H Hb) as [K|(l & src & ->)]; [exact (made_context _ _ K)|cbn; tauto]. Qed.
(** The document is a block of its own, above all others. *)
Theorem C103_document : forall d, In (document_raw_context d, document_content_model d) [(lit "document", CmCompound)] /\ In (document_raw_context d) built_in_contexts /\
  forall b, In b (document_nested_blocks d) -> below (d_blocks d) b.
Proof. intros d. split; [left; reflexivity|]. split; [apply built_in_iff; vm_compute; reflexivity|]. intros b Hb. apply bl_here, Hb. Qed.
(** ... which it determines. *)
Theorem C103_context_determines_the_model : forall cx m1 m2, In (cx, m1) context_models -> In (cx, m2) context_models -> m1 = m2.
Proof.
  intros cx m1 m2 H1 H2. unfold context_models in *. cbn [In] in *.
  repeat match goal with H : _ \/ _ |- _ => destruct H as [H|H] end; try contradiction;
    pose proof (eq_trans (f_equal fst H1) (eq_sym (f_equal fst H2))) as E; apply (f_equal snd) in H1, H2; cbn [fst snd] in *; subst m1 m2; first [reflexivity|vm_compute in E; discriminate E].
Qed.
(** Blocks are found only in compound blocks, text only in simple, verbatim and raw ones. *)
Theorem C103_contents : forall E fuel t sm P d P' b, document_parse E fuel t sm P = Ok (d, P') -> below (d_blocks d) b ->
  (nested_blocks b <> [] -> block_content_model b = CmCompound) /\ (rendered_content b <> None <-> has_text (block_content_model b)).
Proof.
  intros E fuel t sm P d P' b H Hb. pose proof (C103_contexts_and_content_models _ _ _ _ _ _ _ _ H Hb) as K. unfold has_text. destruct b as [c s st m|ty tg al s m|lv ti bs s m ty id n|c mo cx s m g|bs cx s m|bs s|ty s m|a]; cbn [nested_blocks block_content_model rendered_content] in *.
  1, 2, 3, 5, 6, 7, 8: (split; [intros Hn; first [reflexivity|destruct (Hn eq_refl)]|split; [intros Hn; first [left; reflexivity|destruct (Hn eq_refl)]|intros [Hn|[Hn|Hn]]; discriminate]]).
  split; [intros Hn; destruct (Hn eq_refl)|]. split; [intros _|discriminate]. destruct (document_made _ _ _ _ _ _ _ _ H Hb) as [Md|(l & src & Md)]; [|discriminate Md].
  inversion Md as [? Q|? ? ? Q1 Q|? ? ? ? ? ? ? ? Q1 Q|? ? ? ? ? ? ? Q1 Q|? ? ? ? ? ? ? ? ? Q1 Q|? ? ? ? ? ? ? Q1 Q|? ? ? ? ? ? ? ? ? Q1 Q|? ? ? ? ? ? Q1 Q].
  - destruct (simple_fast_inv _ _ _ _ Q1) as (? & ? & ? & ? & R & _). rewrite R in Q. discriminate Q.
  - destruct (simple_inv _ _ _ _ Q1) as (? & ? & ? & R). rewrite R in Q. discriminate Q.
  - clear Md K Hb H. unfold raw_parse in Q1. apply bind_ok in Q1. destruct Q1 as (dl & _ & Q1). destruct (_ <? 4); [discriminate Q1|]. destruct (raw_kind _) as [[mo' [cx' g']]|] eqn:Ek; [|discriminate Q1]. apply bind_ok in Q1. destruct Q1 as (v & _ & Q1).
    assert (Hd : mo' = CmVerbatim \/ mo' = CmRaw). { unfold raw_kind in Ek. repeat (match type of Ek with (if ?b then _ else _) = _ => destruct b; [injection Ek as <- <- _; tauto|] end). discriminate Ek. }
    destruct (negb v); [discriminate Q1|]. apply bind_ok in Q1. destruct Q1 as (r & _ & Q1). apply bind_ok in Q1. destruct Q1 as (c0 & _ & Q1). apply bind_ok in Q1. destruct Q1 as (c1 & _ & Q1). destruct (snd r) as [line|].
    + apply bind_ok in Q1. destruct Q1 as (g1 & _ & Q1). apply bind_ok in Q1. destruct Q1 as (t1 & _ & Q1). apply bind_ok in Q1. destruct Q1 as (s1 & _ & Q1). apply bind_ok in Q1. destruct Q1 as (s2 & _ & Q1). apply Ok_inj in Q1. injection Q1 as <- _. cbn [mi_item] in Q. injection Q as _ -> _ _ _ _. tauto.
    + apply bind_ok in Q1. destruct Q1 as (s1 & _ & Q1). apply bind_ok in Q1. destruct Q1 as (s2 & _ & Q1). apply Ok_inj in Q1. injection Q1 as <- _. cbn [mi_item] in Q. injection Q as _ -> _ _ _ _. tauto.
  - destruct (compound_inv _ _ _ _ _ _ Q1) as (? & ? & ? & ? & ? & _ & R & _). rewrite R in Q. discriminate Q.
  - destruct (media_inv _ _ _ _ _ Q1) as (? & ? & ? & ? & R). rewrite R in Q. discriminate Q.
  - destruct (section_inv _ _ _ _ _ _ _ Q1) as [(dd & lv & ti & rest & lw & bs' & b & sr & t0 & base & mn & reg & s2 & _ & _ & _ & Eu & _ & _ & _ & _ & _ & _ & R & _)]. rewrite R in Q. discriminate Q.
  - destruct (break_inv _ _ Q1) as (? & ? & R). rewrite R in Q. discriminate Q.
Qed.
(** The context of a block is always found, and it is the declared style if that is the name of a context,
    else what the syntax implies. *)
Theorem C103_resolved_context : forall E fuel t sm P d P' b, document_parse E fuel t sm P = Ok (d, P') -> below (d_blocks d) b ->
  exists style, declared_style b = Ok style /\ exists cx, resolved_context b = Ok cx /\ forall cx', context_is style (raw_context b) cx' <-> cx' = cx.
Proof.
  intros E fuel t sm P d P' b H Hb. destruct (document_wf _ _ _ _ _ _ _ _ H Hb) as (W & _).
  assert (Hs : exists style, declared_style b = Ok style). { rewrite declared_style_eq. unfold style_of. destruct (block_attrlist b) as [a|]; [|eauto]. destruct (accessors_total a (W a eq_refl)) as (_ & _ & _ & o & K). eauto. }
  destruct Hs as (style & Es). exists style. split; [exact Es|]. unfold resolved_context at 1. rewrite Es. cbn [bind]. eexists. split; [reflexivity|].
  intros cx'. rewrite <- (resolved_iff b style cx' Es). unfold resolved_context. rewrite Es. cbn [bind]. split; [intros K; apply Ok_inj in K; symmetry; exact K|intros ->; reflexivity].
Qed.
Definition report (b : block) : res (text * (text * content_model)) := cx <- resolved_context b ;; Ok (raw_context b, (cx, block_content_model b)).
Fixpoint reports (l : list block) : res (list (text * (text * content_model))) :=
  match l with [] => Ok [] | b :: r => x <- report b ;; y <- reports r ;; Ok (x :: y) end.
Definition document_reports (t : text) : res (list (text * (text * content_model))) := l <- blocks_of (parse_with E0 60 t) ;; reports l.
Example C103_example : document_reports (lines [lit "[listing]"; lit "...."; lit "a > b"; lit "...."; []; lit "[sidebar]"; lit "Short."; []; lit "[source]"; lit "----"; lit "x"; lit "----"; []; lit "image::a.png[]"; []; lit "<<<"]) =
  Ok [(lit "literal", (lit "listing", CmVerbatim)); (lit "paragraph", (lit "sidebar", CmSimple)); (lit "listing", (lit "listing", CmVerbatim)); (lit "image", (lit "image", CmEmpty)); (lit "page_break", (lit "page_break", CmEmpty))].
Proof. vm_compute. reflexivity. Qed.

(** The documentation (masquerading.adoc): "Declaring the NOTE block style on an example structural container
    transforms it to an admonition block"; the same for a paragraph. *)
Theorem C103_admonition_refuted : exists t, t = lines [lit "[NOTE]"; lit "===="; lit "Remember the milk."; lit "===="; []; lit "[NOTE]"; lit "Remember the milk."] /\
  document_reports t = Ok [(lit "example", (lit "example", CmCompound)); (lit "paragraph", (lit "paragraph", CmSimple))] /\ In (lit "admonition") built_in_contexts.
Proof. eexists. split; [reflexivity|]. split; [vm_compute; reflexivity|]. vm_compute. tauto. Qed.
(** "listing (can be designated using the source style)": not for literal blocks, open blocks or paragraphs. *)
Theorem C103_source_style_refuted : exists t, t = lines [lit "[source]"; lit "...."; lit "x"; lit "...."; []; lit "[source]"; lit "x"; []; lit "[source]"; lit "--"; lit "x"; lit "--"] /\
  document_reports t = Ok [(lit "literal", (lit "literal", CmVerbatim)); (lit "paragraph", (lit "paragraph", CmSimple)); (lit "open", (lit "open", CmCompound))].
Proof. eexists. split; [reflexivity|]. vm_compute. reflexivity. Qed.
(** "only contexts that preserve the expected content model are permitted": any context is taken over. *)
Theorem C103_permitted_contexts_refuted : exists t, t = lines [lit "[sidebar]"; lit "----"; lit "x"; lit "----"; []; lit "[image]"; lit "===="; lit "x"; lit "===="; []; lit "[document]"; lit "x"; []; lit "[quote]"; lit "image::a.png[]"] /\
  document_reports t = Ok [(lit "listing", (lit "sidebar", CmVerbatim)); (lit "example", (lit "image", CmCompound)); (lit "paragraph", (lit "document", CmSimple)); (lit "image", (lit "quote", CmEmpty))].
Proof. eexists. split; [reflexivity|]. vm_compute. reflexivity. Qed.
(** "it's the context of the block that determines the content model": a listing made of an open block
    has blocks in it instead of verbatim text. *)
Theorem C103_content_model_refuted : exists t l b, t = lines [lit "[listing]"; lit "--"; lit "x"; lit "--"] /\ blocks_of (parse_with E0 60 t) = Ok l /\ l = [b] /\
  resolved_context b = Ok (lit "listing") /\ block_content_model b = CmCompound /\ rendered_content b = None /\ length (nested_blocks b) = 1.
Proof. eexists. eexists. eexists. split; [reflexivity|]. split; [vm_compute; reflexivity|]. split; [reflexivity|]. vm_compute. auto. Qed.
(** "a comment block is not preserved in the parsed document and therefore doesn't have a context or content model". *)
Theorem C103_comment_block_refuted : exists t l b, t = lines [lit "////"; lit "x"; lit "////"] /\ blocks_of (parse_with E0 60 t) = Ok l /\ l = [b] /\
  raw_context b = lit "comment" /\ block_content_model b = CmRaw /\ rendered_content b = Some (lit "x").
Proof. eexists. eexists. eexists. split; [reflexivity|]. split; [vm_compute; reflexivity|]. split; [reflexivity|]. vm_compute. auto. Qed.
(** A discrete heading has the context of a section, not "floating_title". *)
Theorem C103_discrete_heading_refuted : exists t, t = lines [lit "[discrete]"; lit "== A"] /\ document_reports t = Ok [(lit "section", (lit "section", CmCompound))] /\ In (lit "floating_title") built_in_contexts.
Proof. eexists. split; [reflexivity|]. split; [vm_compute; reflexivity|]. vm_compute. tauto. Qed.
Print Assumptions C103_contexts_and_content_models.
Print Assumptions C103_context_determines_the_model.
Print Assumptions C103_contents.
Print Assumptions C103_resolved_context.

(** ** C104: ids *)
Theorem C104_reported_id : forall E fuel t sm P d P' b, document_parse E fuel t sm P = Ok (d, P') -> below (d_blocks d) b ->
  exists o, enum_id b = Ok o /\ forall o', given_id b o' <-> o' = o.
Proof.
  intros E fuel t sm P d P' b H Hb. destruct (document_wf _ _ _ _ _ _ _ _ H Hb) as (W & _). unfold enum_id, given_id, block_anchor, block_attrlist in *. destruct (cm_anchor (block_common b)) as [a|]; [eexists; split; [reflexivity|]; tauto|].
  destruct (cm_attrlist (block_common b)) as [a|]; [|eexists; split; [reflexivity|]; tauto]. destruct (accessors_total a (W a eq_refl)) as ((o & K) & _). exists o. split; [exact K|]. intros o'. rewrite K. split; [intros Q; apply Ok_inj in Q; symmetry; exact Q|intros ->; reflexivity].
Qed.
Lemma reference_below l b : below l b -> incl (reference b) (flat_map references l).
Proof.
  intros H. induction H as [l b Hi|l c b Hc Hb IH]; intros x Hx; apply in_flat_map.
  - exists b. split; [exact Hi|]. destruct b; cbn [references]; try exact Hx; apply in_app_iff; right; exact Hx.
  - exists c. split; [exact Hc|]. specialize (IH x Hx). destruct c; cbn [nested_blocks] in IH; try contradiction; cbn [references]; apply in_app_iff; left; exact IH.
Qed.
(** An id that a block reports leads to the document's catalog; breaks and sections with two ids excepted (C84, C49). *)
Theorem C104_reported_ids_are_registered : forall E fuel t sm P d P' c b i, p_catalog P = Some c -> agrees c [] -> document_parse E fuel t sm P = Ok (d, P') -> below (d_blocks d) b ->
  enum_id b = Ok (Some i) -> (forall ty s m, b <> BBreak ty s m) ->
  (forall lv ti bs s m ty id n j, b = BSection lv ti bs s m ty id n -> cm_anchor m <> None -> attr_id m = Some j -> j = i) ->
  contains_id (d_catalog d) i = true.
Proof.
  intros E fuel t sm P d P' c b i Hc A H Hb Hi Hbr Hs. destruct (C84_catalog_ids _ _ _ _ _ _ _ _ Hc A H) as (C & _). apply C. clear C.
  assert (R : registered b = Some i).
  { unfold enum_id, block_anchor, block_attrlist in Hi. destruct b as [c0 s st m|ty tg al s m|lv ti bs s m ty id n|c0 mo cx s m g|bs cx s m|bs s|ty s m|a]; cbn [block_common registered] in *; try discriminate Hi; try (destruct (Hbr _ _ _ eq_refl)).
    all: unfold attr_id in *; destruct (cm_anchor m) as [an|] eqn:Ea; cbn [option_map or_else]; try (apply Ok_inj in Hi; injection Hi as <-; try reflexivity).
    all: try (destruct (cm_attrlist m) as [al0|]; [rewrite Hi; reflexivity|discriminate Hi]).
    destruct (cm_attrlist m) as [al0|] eqn:El; [|reflexivity]. destruct (al_id al0) as [[j|]| |] eqn:Ej; try reflexivity. cbn [or_else]. rewrite (Hs _ _ _ _ _ _ _ _ j eq_refl); [reflexivity|rewrite Ea; discriminate|rewrite El, Ej; reflexivity]. }
  assert (In i (log_ids (reference b))) as Q.
  { unfold reference. rewrite R. destruct b; left; reflexivity. }
  unfold log_ids in *. apply in_map_iff in Q. destruct Q as (x & Ex & Q). apply in_map_iff. exists x. split; [exact Ex|exact (reference_below _ _ Hb _ Q)].
Qed.
(** What a section itself reports: the given id, else the generated one. *)
Theorem C104_ids_of_sections : forall b o, enum_id b = Ok o ->
  block_id b = Ok (match o, b with Some i, _ => Some i | None, BSection _ _ _ _ _ _ id _ => id | None, _ => None end).
Proof. intros b o H. unfold block_id, common_id. unfold enum_id, block_anchor, block_attrlist in H. rewrite H. reflexivity. Qed.
Definition first_ids (t : text) : res (list (option text * option text)) :=
  l <- blocks_of (parse_with E0 60 t) ;;
  fold_right (fun b r => i <- enum_id b ;; j <- block_id b ;; k <- r ;; Ok ((i, j) :: k)) (Ok []) l.
Example C104_example : first_ids (lines [lit "[[a]]"; lit "p"; []; lit "[#b]"; lit "q"; []; lit "[id=c]"; lit "== S"]) = Ok [(None, None); (Some (lit "c"), Some (lit "c"))] /\
  first_ids (lines [lit "[[a]]"; lit "p"; []; lit "[#b]"; lit "q"]) = Ok [(Some (lit "a"), Some (lit "a")); (Some (lit "b"), Some (lit "b"))].
Proof. vm_compute. auto. Qed.
(** blocks/section.rs:191-194: [id()] gives "the effective ID ... including the auto-generated ID"; asked of the
    [Block], it does not, although the id is in the catalog. *)
Theorem C104_generated_ids_refuted : exists t d P b, t = lit "== A" /\ parse_with E0 60 t = Ok (d, P) /\ d_blocks d = [b] /\
  enum_id b = Ok None /\ block_id b = Ok (Some (lit "_a")) /\ contains_id (d_catalog d) (lit "_a") = true.
Proof. eexists. eexists. eexists. eexists. split; [reflexivity|]. split; [vm_compute; reflexivity|]. split; [reflexivity|]. vm_compute. auto. Qed.
(** image-ref.adoc: an image's id, title and role can be given in the macro's attribute list; they are not
    reported, and the id is not known to the document. *)
Theorem C104_macro_attributes_refuted : exists t d P ty tg a s m, t = lit "image::a.png[id=x,title=Hills,role=thumb]" /\ parse_with E0 60 t = Ok (d, P) /\ d_blocks d = [BMedia ty tg a s m] /\
  al_id a = Ok (Some (lit "x")) /\ al_roles a = Ok [lit "thumb"] /\
  enum_id (BMedia ty tg a s m) = Ok None /\ block_roles (BMedia ty tg a s m) = Ok [] /\ block_title (BMedia ty tg a s m) = None /\ contains_id (d_catalog d) (lit "x") = false.
Proof. do 8 eexists. split; [reflexivity|]. split; [vm_compute; reflexivity|]. split; [reflexivity|]. vm_compute. auto 10. Qed.
Print Assumptions C104_reported_id.
Print Assumptions C104_reported_ids_are_registered.
Print Assumptions C104_ids_of_sections.

(** ** C105: asking never panics *)
Theorem C105_accessors_are_total : forall E fuel t sm P d P' b, document_parse E fuel t sm P = Ok (d, P') -> below (d_blocks d) b ->
  (exists x, declared_style b = Ok x) /\ (exists x, resolved_context b = Ok x) /\ (exists x, enum_id b = Ok x) /\ (exists x, block_id b = Ok x) /\
  (exists x, block_roles b = Ok x) /\ (exists x, block_options b = Ok x) /\ (forall n, exists x, block_has_option b n = Ok x).
Proof.
  intros E fuel t sm P d P' b H Hb. destruct (C103_resolved_context _ _ _ _ _ _ _ _ H Hb) as (st & Es & cx & Ex & _). destruct (C104_reported_id _ _ _ _ _ _ _ _ H Hb) as (o & Ei & _). destruct (document_wf _ _ _ _ _ _ _ _ H Hb) as (W & _).
  split; [eauto|]. split; [eauto|]. split; [eauto|]. split; [rewrite (C104_ids_of_sections _ _ Ei); eauto|]. unfold block_roles, block_options, block_has_option. destruct (block_attrlist b) as [a|]; [|eauto 10]. specialize (W a eq_refl).
  split; [exact (roles_ok a W)|]. split; [exact (options_ok a W)|]. intros n. exact (has_option_ok a W n).
Qed.
(** The same for the attribute list in a block macro. *)
Theorem C105_macro_lists_are_total : forall E fuel t sm P d P' ty tg a s m, document_parse E fuel t sm P = Ok (d, P') -> below (d_blocks d) (BMedia ty tg a s m) ->
  (exists x, al_id a = Ok x) /\ (exists x, al_roles a = Ok x) /\ (exists x, al_options a = Ok x) /\ (exists x, al_block_style a = Ok x).
Proof. intros E fuel t sm P d P' ty tg a s m H Hb. destruct (document_wf _ _ _ _ _ _ _ _ H Hb) as (_ & W). exact (accessors_total a (W _ _ _ _ _ eq_refl)). Qed.
(** An attribute list whose shorthand items would not be at character boundaries does panic: [wf_ea] is needed. *)
Example C105_example : exists t l b, t = lines [lit "[quote#roads.a.b%c,opts=""d,e""]"; lit "p"] /\ blocks_of (parse_with E0 60 t) = Ok l /\ l = [b] /\
  resolved_context b = Ok (lit "quote") /\ enum_id b = Ok (Some (lit "roads")) /\ block_roles b = Ok [lit "a"; lit "b"] /\ block_options b = Ok [lit "c"; lit "d"; lit "e"] /\ block_has_option b (lit "d") = Ok true.
Proof. eexists. eexists. eexists. split; [reflexivity|]. split; [vm_compute; reflexivity|]. split; [reflexivity|]. vm_compute. auto 10. Qed.
Example C105_panics : al_id (mkal [mkea None (lit "a") [1; 7]] None (span_new (lit "a"))) = Panic.
Proof. vm_compute. reflexivity. Qed.
Print Assumptions C105_accessors_are_total.
Print Assumptions C105_macro_lists_are_total.

(** ** C102 again: the group that a block reports *)
(** [substitution_group] is documented (is_block.rs:276-277) as "the default substitution group that is applied
    unless you customize the substitutions": it is for paragraphs, but verbatim blocks report the customized one. *)
Theorem C102_reported_group_refuted : exists t l b1 b2, t = lines [lit "[subs=none]"; lit "*a*"; []; lit "[subs=none]"; lit "----"; lit "<a>"; lit "----"] /\ blocks_of (parse_with E0 60 t) = Ok l /\ l = [b1; b2] /\
  substitution_group b1 = GNormal /\ rendered_content b1 = Some (lit "*a*") /\ substitution_group b2 = GNone /\ rendered_content b2 = Some (lit "<a>").
Proof. do 4 eexists. split; [reflexivity|]. split; [vm_compute; reflexivity|]. split; [reflexivity|]. vm_compute. auto. Qed.
