(** C112: documents are read back as they were meant. *)
From Verif Require Import Text TextFacts Maps Span_Model Span_Pure Span_Proof Span_Laws Span_Spec Span_Prop Catalog_Model Parser_Model SourceMap_Model Subs_Model Subs_Proof Attrlist_Model
  Entry_Model Pre_Model Pre_Spec Pre_Prop Group_Model Group_Spec Group_Proof Group_Prop Quote_Spec Quote_Proof Subs_Prop SecId_Model Header_Model Header_Spec Header_Proof Header_Prop Block_Model Block_Spec Block_Proof Doc_Model Block_Prop
  Tree_Spec Tree_Proof Meta_Spec Kind_Spec Kind_Proof Attrs_Spec Total_Spec Total_Proof Total_Header Total_Prop Safe_Spec Safe_Proof Safe_Class Safe_Prop Order_Spec Order_Prop Round_Spec Round_Proof Round_Total.

(** What is read: with any substitutions [f] that the inline layer [E] makes of the texts of the document
    when [Q] holds of the parser; [Q] may depend on attributes that are not set by the title of a document. *)
Theorem C112_documents_are_read_back : forall E (f : group -> text -> text) (Q : parser -> Prop) fuel title ns sm P d P',
  (forall P P', (forall n, ~ implied_name n -> is_attribute_set P' n = is_attribute_set P n) -> Q P -> Q P') -> Q parser_default -> Q P ->
  document_fits (e_u E) title ns -> (forall g x, In (g, x) (document_texts title ns) -> forall P t, Q P -> e_sub E P g false x = Ok t -> t = f g x) ->
  document_parse E fuel (document_text title ns) sm P = Ok (d, P') ->
  h_title (d_header d) = option_map (f GHeader) title /\ map piece_of (d_blocks d) = meant_document f ns.
Proof. intros E f Q fuel title ns sm P d P' H1 H2 H3 H4 H5 H6. exact (document_reads E f Q H1 H2 fuel title ns sm P d P' H4 H3 H5 H6). Qed.
(** Whether they are read: when no substitution fails on the texts of the classes [A]. *)
Theorem C112_written_documents_are_parsed : forall A (H : char -> Prop) E title ns sm P, esub_on A E -> H SP -> H LF -> (forall P t, Forall H t -> exists o, e_sub E P GHeader false t = Ok o) ->
  document_fits (e_u E) title ns -> Forall (harmless A) ns -> (forall t, title = Some t -> Forall H (lit "= " ++ t)) ->
  exists r, document_parse E (length (document_text title ns)) (document_text title ns) sm P = Ok r.
Proof. exact written_parsed. Qed.
(** Both, with the substitutions of the parser: plain documents. *)
Theorem C112_plain_documents_are_read_back : forall U fs n title ns sm P, is_attribute_set P (lit "hardbreaks-option") = false ->
  document_fits U title ns -> (forall t, title = Some t -> plain t) -> Forall plain_node ns ->
  exists d P', document_parse (env_of U fs (S n)) (length (document_text title ns)) (document_text title ns) sm P = Ok (d, P') /\
    h_title (d_header d) = title /\ map piece_of (d_blocks d) = meant_document shown ns.
Proof. exact plain_document. Qed.
(** From the source text, when no line of it is a directive. *)
Theorem C112_plain_sources_are_read_back : forall U fs n ifh title ns P, is_attribute_set P (lit "hardbreaks-option") = false -> p_primary P = None ->
  document_fits U title ns -> (forall t, title = Some t -> plain t) -> Forall plain_node ns -> let t := document_text title ns in
  (forall k l, line_at t k l -> ~ directive_line l) ->
  exists d P', parser_parse (env_of U fs (S n)) ifh (S (length t)) (length t) t P = Ok (d, P') /\ h_title (d_header d) = title /\ map piece_of (d_blocks d) = meant_document shown ns.
Proof.
  intros U fs n ifh title ns P Hb Hp Hf Ht F t Hd. unfold parser_parse. rewrite (C24_identity_without_directive_lines _ _ _ ifh _ t P Hd Hp). cbn [bind fst snd]. apply plain_document; auto.
  unfold begin_parse. destruct (p_catalog P); exact Hb.
Qed.

(** * An example *)
Lemma easy_first U c y : ~ In c (lit "/-.+=*_iv#'<[:") -> is_ws c = false -> tidy (c :: y) -> first_line_fits U (c :: y).
Proof.
  intros N Hw Ht. assert (K : forall d, In d (lit "/-.+=*_iv#'<[:") -> c <> d) by (intros d Hd ->; exact (N Hd)).
  assert (Kt : forall d x, c :: y = d :: x -> In d (lit "/-.+=*_iv#'<[:") -> False) by (intros d x E Hd; injection E as <- _; exact (N Hd)).
  split; [exact Ht|]. split; [exists c, y; auto|]. split; [intros (x & E & _); apply (Kt _ _ E); cbn; tauto|]. split; [intros x E; apply (Kt _ _ E); cbn; tauto|]. split; [|split].
  - intros [x|id [rt|]|x] Hi; cbn [item_line] in Hi; [destruct Hi as (E & _)|destruct Hi as (_ & _ & E)|destruct Hi as (_ & E)|destruct Hi as (E & _)]; apply (Kt _ _ E); cbn; tauto.
  - intros f Hf. destruct (form_head _ _ Hf) as (d & z & E & Hd). apply (Kt _ _ E). destruct f as [cx mo|cx|[| |] tg|lv tt| |]; cbn in Hd |- *; tauto.
  - intros x E. apply (Kt _ _ E). cbn. tauto.
Qed.
Lemma easy_text c y : ~ In c (lit "/-.+=*_iv#'<[:") -> is_ws c = false -> text_line (c :: y).
Proof.
  intros N Hw. assert (Kt : forall d x, c :: y = d :: x -> In d (lit "/-.+=*_iv#'<[:") -> False) by (intros d x E Hd; injection E as <- _; exact (N Hd)).
  split; [exists c, y; auto|]. split; [intros (x & E & _); apply (Kt _ _ E); cbn; tauto|]. split; [intros x E; apply (Kt _ _ E); cbn; tauto|]. split; [intros x E; apply (Kt _ _ E); cbn; tauto|].
  split; [|split; [|intros (x & E & _); apply (Kt _ _ E); cbn; tauto]].
  - intros D. apply raw_delim_form, form_head in D. destruct D as (d & z & E & Hd). apply (Kt _ _ E). cbn in Hd |- *. tauto.
  - intros D. apply compound_delim_form, form_head in D. destruct D as (d & z & E & Hd). apply (Kt _ _ E). cbn in Hd |- *. tauto.
Qed.
Lemma easy_next c y : ~ In c (lit "/-.+=*_iv#'<[:") -> is_ws c = false -> tidy (c :: y) -> next_line_fits (c :: y).
Proof.
  intros N Hw Ht. destruct (easy_text c y N Hw) as (_ & _ & K1 & _ & K2 & K3 & K4). split; [exact Ht|]. split; [exact K4|]. intros [E|[(x & E)|[E|E]]]; [injection E as -> _; apply N; cbn; tauto|exact (K1 _ E)|exact (K2 E)|exact (K3 E)].
Qed.
Definition none : top := mktop None None.
Definition guide : list node :=
  [NText (mktop (Some (lit "Note")) (Some (lit "a1"))) [lit "Some words,"; lit "more words."];
   NRaw none (lit "----") [lit "a < *b*"; []; lit "== c"; lit "===="];
   NSection none 61%N 1 (lit "First part") [NText none [lit "Text"]; NBox (mktop (Some (lit "Box")) None) (lit "====") [NText none [lit "Inside"]; NBox none (lit "****") [NBreak none (lit "'''")]]; NSection none 61%N 3 (lit "Details") []];
   NSection (mktop None (Some (lit "end"))) 35%N 1 (lit "Last part") [NRaw none (lit "////") [lit "x"]; NBreak none (lit "<<<")]].
Ltac neq := let K := fresh in intros K; vm_compute in K; intuition discriminate.
Ltac a_tidy := split; [discriminate|]; split; [neq|]; let E := fresh in intros y c E; apply (f_equal (@rev char)) in E; rewrite rev_app_distr in E; vm_compute in E; injection E as <- _; reflexivity.
Ltac no_top := split; intros x K; discriminate K.
Ltac not_sp := let E := fresh in let X := fresh in intros ? ? E; injection E as <- _; intros [X|X]; discriminate X.
Ltac a_plain := let X := fresh in let E := fresh in let a := fresh in let b := fresh in split; [intros c K L; vm_compute in K; repeat (destruct K as [<-|K]; [vm_compute in L; intuition discriminate|]); destruct K|split; intros a b E;
  match type of E with ?t = a ++ ?w ++ b => assert (X : contains w t = true) by (apply contains_spec; exists a, b; exact E) end; vm_compute in X; discriminate X].
Ltac not_reading := let X := fresh in let K := fresh in intros K; pose proof (trimmed_unique _ _ _ K (norm_trimmed _)) as X; vm_compute in X; discriminate X.
Ltac a_first := apply easy_first; [neq|reflexivity|a_tidy].
Ltac a_next := apply easy_next; [neq|reflexivity|a_tidy].
Ltac an_id := split; [apply C08_xml_name; vm_compute; reflexivity|neq].
Ltac repeats ch := exists ch; split; [cbn; tauto|exists 4; split; [lia|reflexivity]].
Lemma guide_fits : document_fits ascii_only (Some (lit "Guide")) guide.
Proof.
  assert (T0 : top_fits ascii_only none) by no_top.
  split; [intros t E; injection E as <-; split; [a_tidy|not_sp]|]. split; [cbn; repeat split; try lia; exists 1; split; [reflexivity|lia]|].
  unfold guide. repeat apply Forall_cons; [| | | |apply Forall_nil].
  - split; [split; intros x K; injection K as <-; [split; [a_tidy|]; intros c y E; injection E as <- _; split; [discriminate|intros [X|X]; discriminate X]|an_id]|]. split; [a_first|]. constructor; [a_next|constructor].
  - split; [exact T0|]. split; [repeats 45%N|]. repeat constructor; try neq; not_reading.
  - split; [exact T0|]. split; [left; reflexivity|]. split; [lia|]. split; [a_tidy|]. split; [not_sp|]. split; [cbn; repeat split; lia|]. cbn [fold_right]. split; [|split; [|split; [|exact I]]].
    + split; [exact T0|]. split; [a_first|constructor].
    + split; [split; intros x K; [injection K as <-; split; [a_tidy|]; intros c y E; injection E as <- _; split; [discriminate|intros [X|X]; discriminate X]|discriminate K]|]. split; [right; repeats 61%N|].
      split; [cbn [flat_map write app none top_lines t_title t_id]; repeat constructor; not_reading|]. split; [repeat split|]. cbn [fold_right]. split; [|split; [|exact I]].
      * split; [exact T0|]. split; [a_first|constructor].
      * split; [exact T0|]. split; [right; repeats 42%N|]. split; [cbn [flat_map write app none top_lines t_title t_id]; repeat constructor; not_reading|]. split; [repeat split|]. cbn [fold_right]. split; [|exact I]. split; [exact T0|]. left. reflexivity.
    + split; [exact T0|]. split; [left; reflexivity|]. split; [lia|]. split; [a_tidy|]. split; [not_sp|]. repeat split.
  - split; [split; intros x K; [discriminate K|injection K as <-; an_id]|]. split; [right; left; reflexivity|]. split; [lia|]. split; [a_tidy|]. split; [not_sp|]. split; [repeat split|]. cbn [fold_right]. split; [|split; [|exact I]].
    + split; [exact T0|]. split; [repeats 47%N|]. repeat constructor; try neq; not_reading.
    + split; [exact T0|]. right. right. right. right. right. left. reflexivity.
Qed.
(** * An example, continued *)
Lemma guide_plain : Forall plain_node guide.
Proof.
  assert (T0 : top_plain none) by no_top.
  unfold guide. repeat apply Forall_cons; [| | | |apply Forall_nil]; cbn [plain_node fold_right].
  - split; [split; intros x K; injection K as <-; [a_plain|split; [intros c K L; vm_compute in K; repeat (destruct K as [<-|K]; [vm_compute in L; intuition discriminate|]); destruct K|split; no_word]]|]. split; [a_plain|]. repeat constructor; apply easy_text; (neq || reflexivity).
  - exact T0.
  - split; [exact T0|]. split; [a_plain|]. split; [split; [exact T0|]; split; [a_plain|]; repeat constructor; apply easy_text; (neq || reflexivity)|]. split; [|split; [|exact I]].
    + split; [split; intros x K; [injection K as <-; a_plain|discriminate K]|]. split; [split; [exact T0|]; split; [a_plain|]; repeat constructor; apply easy_text; (neq || reflexivity)|]. split; [|exact I]. split; [exact T0|]. split; [exact T0|exact I].
    + split; [exact T0|]. split; [a_plain|exact I].
  - split; [split; intros x K; [discriminate K|injection K as <-; split; [intros c K L; vm_compute in K; repeat (destruct K as [<-|K]; [vm_compute in L; intuition discriminate|]); destruct K|split; no_word]]|]. split; [a_plain|]. split; [exact T0|]. split; [exact T0|exact I].
Qed.
Definition guide_text : text := lines [lit "= Guide"; []; lit ".Note"; lit "[[a1]]"; lit "Some words,"; lit "more words."; []; lit "----"; lit "a < *b*"; []; lit "== c"; lit "===="; lit "----"; lit "== First part"; []; lit "Text"; [];
  lit ".Box"; lit "===="; lit "Inside"; []; lit "****"; lit "'''"; []; lit "****"; lit "===="; lit "==== Details"; []; lit "[[end]]"; lit "## Last part"; []; lit "////"; lit "x"; lit "////"; lit "<<<"; []; []].
Example C112_example : document_text (Some (lit "Guide")) guide = guide_text /\
  exists d P', parser_parse (env_of ascii_only 47%N 1) (fun _ _ _ _ => None) (S (length guide_text)) (length guide_text) guide_text parser_default = Ok (d, P') /\
  h_title (d_header d) = Some (lit "Guide") /\ map piece_of (d_blocks d) =
    [PPreamble [PText (Some (lit "Note")) (Some (lit "a1")) (lines [lit "Some words,"; lit "more words."]); PRaw None None (lit "listing") (lines [lit "a &lt; *b*"; []; lit "== c"; lit "===="])];
     PSection None None 1 (lit "First part") [PText None None (lit "Text"); PBox (Some (lit "Box")) None (lit "example") [PText None None (lit "Inside"); PBox None None (lit "sidebar") [PBreak None None BThematic]]; PSection None None 3 (lit "Details") []];
     PSection None (Some (lit "end")) 1 (lit "Last part") [PRaw None None (lit "comment") (lit "x"); PBreak None None BPage]].
Proof.
  split; [reflexivity|]. change guide_text with (document_text (Some (lit "Guide")) guide).
  destruct (C112_plain_sources_are_read_back ascii_only 47%N 0 (fun _ _ _ _ => None) (Some (lit "Guide")) guide parser_default) as (d & P' & E & H1 & H2).
  - reflexivity.
  - reflexivity.
  - exact guide_fits.
  - intros t E. injection E as <-. a_plain.
  - exact guide_plain.
  - intros k l (x & y & Dx & _) (e & Hd). assert (K : forall p, infix p (document_text (Some (lit "Guide")) guide) -> contains p (document_text (Some (lit "Guide")) guide) = true) by (intros p Hp; apply contains_spec; exact Hp).
    destruct Hd as [-> | ->]; [assert (Hc : contains (lit "include::") (document_text (Some (lit "Guide")) guide) = true)|assert (Hc : contains (lit "if") (document_text (Some (lit "Guide")) guide) = true)];
      try (apply K; exists x, (e ++ y); rewrite Dx, <- ?app_assoc; reflexivity); vm_compute in Hc; discriminate Hc.
  - exists d, P'. split; [exact E|]. split; [exact H1|]. rewrite H2. reflexivity.
Qed.
(** Texts with markup: what is read is what the order of the substitutions says (C108). *)
Theorem C112_formatted_documents_are_read_back : forall U fs n A title ns sm P f, In A safe_classes -> is_attribute_set P (lit "hardbreaks-option") = false ->
  document_fits U title ns -> (forall t, title = Some t -> Forall safe_header t) -> Forall (harmless A) ns ->
  (forall g x, In (g, x) (document_texts title ns) -> In g [GVerbatim; GPass; GNone] /\ f g x = shown g x \/
     (forall w, In w [lit "+"; lit "$$"; lit "ss:"; lit "-]"] -> ~ Macro_Spec.occurs w x) /\ forall P, is_attribute_set P (lit "hardbreaks-option") = false -> Order_Spec.in_order U fs P (steps_of g) x (f g x)) ->
  exists d P', document_parse (env_of U fs (S n)) (length (document_text title ns)) (document_text title ns) sm P = Ok (d, P') /\
    h_title (d_header d) = option_map (f GHeader) title /\ map piece_of (d_blocks d) = meant_document f ns.
Proof.
  intros U fs n A title ns sm P f HA Hb Hf Ht Hh Ha. destruct (written_parsed A safe_header (env_of U fs (S n)) title ns sm P) as ((d & P') & E).
  - apply safe_esub, HA.
  - intros K. vm_compute in K. intuition discriminate.
  - intros K. vm_compute in K. intuition discriminate.
  - intros P0 t Hs. apply C109_header_lines, Hs.
  - exact Hf.
  - exact Hh.
  - intros t E. apply Forall_app. split; [repeat constructor; intros K; vm_compute in K; intuition discriminate|apply Ht, E].
  - exists d, P'. split; [exact E|]. refine (document_reads (env_of U fs (S n)) f unbroken unbroken_kept eq_refl _ title ns sm P d P' Hf Hb _ E).
    intros g x Hx P0 t Q0 E0. cbn [env_of e_sub] in E0. destruct (Ha g x Hx) as [(Hg & ->)|(Hw & Ho)].
    + cbn in Hg. destruct Hg as [<-|[<-|[<-|[]]]]; cbn [shown].
      * destruct (C41_verbatim U fs P0 n false x) as (o & Eo & ->). rewrite Eo in E0. apply Ok_inj in E0. symmetry. exact E0.
      * rewrite (proj1 (C41_pass_and_none U fs P0 n false x)) in E0. apply Ok_inj in E0. symmetry. exact E0.
      * rewrite (proj2 (C41_pass_and_none U fs P0 n false x)) in E0. apply Ok_inj in E0. symmetry. exact E0.
    + rewrite (C108_groups U fs P0 n g x (f g x)) in E0; [apply Ok_inj in E0; symmetry; exact E0|exact Q0| | | | |apply Ho, Q0]; apply Hw; cbn; tauto.
Qed.
(** One empty line more, after the last block, and there is no result at all: the parser does not stop (C33). *)
Theorem C112_an_empty_line_at_the_end_refuted : exists ns, document_fits ascii_only None ns /\ Forall plain_node ns /\ forall fuel, parse_with E0 fuel (document_text None ns ++ [LF]) = OutOfFuel.
Proof.
  exists [NRaw none (lit "----") []]. split; [|split; [|exact empty_listing_hangs]].
  - split; [intros t K; discriminate K|]. split; [repeat split|]. constructor; [|constructor]. split; [no_top|]. split; [repeats 45%N|constructor].
  - constructor; [|constructor]. no_top.
Qed.
(** A media macro for audio is a paragraph (C37): the conditions on media are needed. *)
Theorem C112_audio_refuted : exists m target, let n := NMedia m MAudio target [] in target <> [] /\ ~ In LF target /\ ~ In 91%N target /\
  exists d P', document_parse E0 30 (document_text None [n]) [] parser_default = Ok (d, P') /\ map piece_of (d_blocks d) <> meant_document shown [n].
Proof.
  exists none, (lit "a.mp3"). cbv zeta. split; [discriminate|]. split; [neq|]. split; [neq|]. set (t := document_text None [NMedia none MAudio (lit "a.mp3") []]). vm_compute in t. subst t.
  eexists _, _. split; [vm_compute; reflexivity|]. vm_compute. discriminate.
Qed.
Print Assumptions C112_documents_are_read_back.
Print Assumptions C112_written_documents_are_parsed.
Print Assumptions C112_plain_documents_are_read_back.
Print Assumptions C112_plain_sources_are_read_back.
Print Assumptions C112_formatted_documents_are_read_back.
Print Assumptions C112_an_empty_line_at_the_end_refuted.
Print Assumptions C112_audio_refuted.
(** A paragraph with markup, with any attributes. *)
Definition marked_text : text := lit "Some *b* (C) & c".
Definition marked_out : text := lit "Some <strong>b</strong> &#169; &amp; c".
Example C112_formatted_example : forall P, is_attribute_set P (lit "hardbreaks-option") = false -> exists d P',
  document_parse (env_of ascii_only 47%N 1) 18 (document_text None [NText none [marked_text]]) [] P = Ok (d, P') /\ map piece_of (d_blocks d) = [PText None None marked_out].
Proof.
  intros P Hb. destruct (C112_formatted_documents_are_read_back ascii_only 47%N 0 words_class None [NText none [marked_text]] [] P (fun _ _ => marked_out)) as (d & P' & E & _ & H).
  - left. reflexivity.
  - exact Hb.
  - split; [intros t K; discriminate K|]. split; [repeat split|]. constructor; [|constructor]. split; [no_top|]. split; [apply easy_first; [neq|reflexivity|a_tidy]|constructor].
  - intros t K. discriminate K.
  - constructor; [|constructor]. split; [apply plain_top; no_top|]. constructor; [|constructor]. split; [apply easy_text; [neq|reflexivity]|]. change (safe_words marked_text). computed.
  - intros g x [K|[]]. injection K as <- <-. right. split; [intros w Hw (a & b & K); assert (Kc : contains w marked_text = true) by (apply contains_spec; exists a, b; exact K); cbn [In] in Hw; repeat (destruct Hw as [<-|Hw]; [vm_compute in Kc; discriminate Kc|]); destruct Hw|].
    clear P Hb. intros P Hb. cbn [steps_of]. change (join [LF] [marked_text]) with marked_text. eapply io_cons; [reflexivity|]. eapply io_cons.
    { cbn [step_made]. unfold Quote_Spec.marks.
      do 5 (eapply Quote_Spec.fm_cons; [intros E; discriminate E|apply Quote_Proof.apply_mark_iff; [apply Quote_Proof.marks_wf; unfold Quote_Spec.marks; cbn [In]; tauto|reflexivity|vm_compute; reflexivity]|]).
      eapply Quote_Spec.fm_cons; [intros _|apply Quote_Proof.mono_iff; [|vm_compute; reflexivity]|].
      1,2: intros a c b E; do 50 (try (destruct a as [|? a]; [cbn in E; try discriminate E; injection E as <- _; repeat split; discriminate|cbn in E; try discriminate E; injection E as _ E])); destruct a; discriminate E.
      do 6 (eapply Quote_Spec.fm_cons; [intros E; discriminate E|apply Quote_Proof.apply_mark_iff; [apply Quote_Proof.marks_wf; unfold Quote_Spec.marks; cbn [In]; tauto|reflexivity|vm_compute; reflexivity]|]). apply Quote_Spec.fm_nil. }
    eapply io_cons; [apply C39_references_are_expanded_exactly with (U := ascii_only); vm_compute; reflexivity|].
    eapply io_cons; [apply C57_replacements_are_the_passes_in_order; vm_compute; reflexivity|].
    eapply io_cons; [apply C108_macros; vm_compute; reflexivity|].
    eapply io_cons; [left; split; [apply not_in_b; reflexivity|reflexivity]|]. apply io_nil.
  - exists d, P'. split; [exact E|]. exact H.
Qed.
