(** C113: the warnings about a written document are known before it is read. *)
From Verif Require Import Text TextFacts Maps Span_Model Span_Pure Span_Proof Span_Laws Span_Spec Span_Prop Catalog_Model Parser_Model SourceMap_Model Subs_Model Subs_Proof Attrlist_Model
  Entry_Model Group_Model Group_Spec Header_Model Header_Spec Header_Proof Header_Prop Block_Model Block_Spec Block_Proof Doc_Model Block_Prop
  Meta_Spec Kind_Spec Kind_Proof Attrs_Spec Total_Spec Safe_Spec Round_Spec Round_Proof Round_Total Round_Prop Notice_Spec Notice_Proof.

(** All warnings but those about duplicate ids are the ones of [notes], in that order; and those name ids that are written. *)
Theorem C113_warnings : forall E (f : group -> text -> text) (Q : parser -> Prop) fuel title ns sm P d P',
  (forall P P', (forall n, ~ implied_name n -> is_attribute_set P' n = is_attribute_set P n) -> Q P -> Q P') -> Q parser_default -> Q P ->
  document_fits (e_u E) title ns -> Forall bare ns -> (forall g x, In (g, x) (document_texts title ns) -> forall P t, Q P -> e_sub E P g false x = Ok t -> t = f g x) ->
  document_parse E fuel (document_text title ns) sm P = Ok (d, P') ->
  filter other_than_ids (map w_type (d_warnings d)) = flat_map notes ns /\ forall i, In (WDuplicateId i) (map w_type (d_warnings d)) -> In i (flat_map ids ns).
Proof. intros E f Q fuel title ns sm P d P' H1 H2 H3 H4 H5 H6 H7. exact (document_notes E f Q H1 H2 fuel title ns sm P d P' H4 H5 H3 H6 H7). Qed.
(** With the substitutions of the parser. *)
Theorem C113_plain_documents : forall U fs n title ns sm P, is_attribute_set P (lit "hardbreaks-option") = false ->
  document_fits U title ns -> (forall t, title = Some t -> plain t) -> Forall plain_node ns -> Forall bare ns ->
  exists d P', document_parse (env_of U fs (S n)) (length (document_text title ns)) (document_text title ns) sm P = Ok (d, P') /\ map piece_of (d_blocks d) = meant_document shown ns /\
    filter other_than_ids (map w_type (d_warnings d)) = flat_map notes ns /\ forall i, In (WDuplicateId i) (map w_type (d_warnings d)) -> In i (flat_map ids ns).
Proof.
  intros U fs n title ns sm P Hb Hf Ht F Fb. destruct (plain_document U fs n title ns sm P Hb Hf Ht F) as (d & P' & E & _ & H). exists d, P'. split; [exact E|]. split; [exact H|].
  exact (document_notes (env_of U fs (S n)) shown unbroken unbroken_kept eq_refl _ title ns sm P d P' Hf Fb Hb (plain_agree U fs n title ns Ht F) E).
Qed.
(** When there is nothing to say, there is no warning. *)
Lemma unmarked x : (forall c y, x = c :: y -> ~ In c (lit "=#[")) -> mark_count x = 0 /\ starts_with (lit "[[") x = false /\ x <> lit "[[]]".
Proof.
  intros H. destruct x as [|c y]; [repeat split; discriminate|]. specialize (H c y eq_refl). assert (K : c <> 61%N /\ c <> 35%N /\ c <> 91%N) by (repeat split; intros ->; apply H; cbn; tauto). destruct K as (K1 & K2 & K3). apply N.eqb_neq in K1, K2. cbn [mark_count]. rewrite K1, K2. split; [reflexivity|]. split.
  - destruct (starts_with (lit "[[") (c :: y)) eqn:Es; [|reflexivity]. apply starts_with_spec in Es. destruct Es as (z & Es). injection Es as -> _. contradiction K3. reflexivity.
  - intros Ez. injection Ez as -> _. contradiction K3. reflexivity.
Qed.
Lemma unmarked_notes m x : (forall c y, x = c :: y -> ~ In c (lit "=#[")) -> heading_notes x = [] /\ anchor_notes m x = [].
Proof.
  intros H. destruct (unmarked x H) as (K1 & K2 & K3). unfold heading_notes, anchor_notes. rewrite K1, K2, andb_false_r. split; [reflexivity|]. destruct (t_id m); [reflexivity|]. apply text_eqb_neq in K3. rewrite K3. reflexivity.
Qed.
Lemma looking_quiet : forall ns k, levels_step k ns -> Forall unremarkable ns -> Forall (fun n => forall m d l, n = NBox m d l -> heading_notes d = []) ns -> looking k ns = [].
Proof.
  induction ns as [|n ns IH]; intros k Hl F B; [reflexivity|]. pose proof (Forall_inv F) as Hn. apply Forall_inv_tail in F. pose proof (Forall_inv B) as Bn. apply Forall_inv_tail in B.
  destruct n; cbn [levels_step node_level looking] in *; try exact (IH _ Hl F B).
  - rewrite (proj1 (unmarked_notes none _ Hn)). exact (IH _ Hl F B).
  - rewrite (Bn _ _ _ eq_refl). exact (IH _ Hl F B).
  - destruct Hl as (Hl & Hr). rewrite (proj2 (Nat.ltb_ge _ _) Hl). exact (IH _ Hr F B).
Qed.
Lemma all_of (Z : node -> Prop) ns : fold_right (fun x p => Z x /\ p) True ns -> Forall Z ns.
Proof. induction ns as [|n ns IH]; cbn [fold_right]; [constructor|]. intros (A & B). constructor; auto. Qed.
Lemma delimiter_quiet d : compound_delimiter d -> (length d <= 6 \/ forall y, d <> 61%N :: y) -> heading_notes d = [].
Proof.
  intros [->|(c & Hc & n & Hn & ->)] H; [reflexivity|]. unfold heading_notes. rewrite repeat_length in H. destruct n as [|n]; [lia|]. cbn [repeat mark_count] in *. cbn in Hc. destruct Hc as [<-|[<-|[<-|[]]]]; [|reflexivity|reflexivity].
  cbn [N.eqb Pos.eqb orb]. change (61%N :: repeat 61%N n) with (repeat 61%N (S n)).
  assert (Em : same_marks 61%N (repeat 61%N (S n)) = S n). { rewrite <- (app_nil_r (repeat 61%N (S n))). apply same_marks_repeat. discriminate. }
  rewrite Em. destruct H as [H|H]; [|exfalso; exact (H _ eq_refl)]. replace (S n =? 1) with false by (symmetry; apply Nat.eqb_neq; lia). replace (6 <? S n) with false by (symmetry; apply Nat.ltb_ge; lia). reflexivity.
Qed.
Lemma no_notes U n : fits U n -> unremarkable n -> notes n = [].
Proof.
  assert (Box : forall ns, Forall (fits U) ns -> Forall unremarkable ns -> Forall (fun n => forall m d l, n = NBox m d l -> heading_notes d = []) ns).
  { intros ns F H. rewrite Forall_forall in *. intros x Hx m d l ->. specialize (F _ Hx). specialize (H _ Hx). apply delimiter_quiet; [apply F|apply H]. }
  induction n as [m ls|m d ls|m d ns IH|m l|m ty t a|m c k t ns IH] using node_ind'; intros F H; try reflexivity; cbn [notes].
  - cbn [unremarkable] in H. destruct (unmarked_notes m _ H) as (-> & ->). reflexivity.
  - destruct F as (_ & _ & _ & _ & F). destruct H as (_ & H). apply all_of in F. apply all_of in H. induction ns as [|n ns IHn]; [reflexivity|]. cbn [flat_map]. rewrite (Forall_inv IH (Forall_inv F) (Forall_inv H)). exact (IHn (Forall_inv_tail IH) (Forall_inv_tail F) (Forall_inv_tail H)).
  - destruct F as (_ & _ & _ & _ & _ & _ & F). destruct H as (Hl & H). apply all_of in F. apply all_of in H. rewrite (looking_quiet _ _ Hl H (Box _ F H)). cbn [app]. clear Hl. induction ns as [|n ns IHn]; [reflexivity|]. cbn [flat_map]. rewrite (Forall_inv IH (Forall_inv F) (Forall_inv H)). exact (IHn (Forall_inv_tail IH) (Forall_inv_tail F) (Forall_inv_tail H)).
Qed.
Theorem C113_nothing_to_say : forall U fs n title ns sm P, is_attribute_set P (lit "hardbreaks-option") = false ->
  document_fits U title ns -> (forall t, title = Some t -> plain t) -> Forall plain_node ns -> Forall bare ns -> Forall unremarkable ns -> flat_map ids ns = [] ->
  exists d P', document_parse (env_of U fs (S n)) (length (document_text title ns)) (document_text title ns) sm P = Ok (d, P') /\ map piece_of (d_blocks d) = meant_document shown ns /\ d_warnings d = [].
Proof.
  intros U fs n title ns sm P Hb Hf Ht F Fb Hu Hi. destruct (C113_plain_documents U fs n title ns sm P Hb Hf Ht F Fb) as (d & P' & E & H1 & H2 & H3). exists d, P'. split; [exact E|]. split; [exact H1|].
  assert (En : flat_map notes ns = []). { destruct Hf as (_ & _ & Hf). clear - Hf Hu. induction ns as [|x ns IH]; [reflexivity|]. cbn [flat_map]. rewrite (no_notes U x (Forall_inv Hf) (Forall_inv Hu)). exact (IH (Forall_inv_tail Hf) (Forall_inv_tail Hu)). }
  rewrite En in H2. rewrite Hi in H3. destruct (d_warnings d) as [|w ws]; [reflexivity|]. exfalso. cbn [map filter] in H2. destruct (w_type w) eqn:Ew; cbn [other_than_ids] in H2; try discriminate H2. match type of Ew with _ = WDuplicateId ?i => apply (H3 i) end. left. exact Ew.
Qed.
(** * Examples *)
Lemma guide_bare : Forall bare guide. Proof. repeat constructor. Qed.
Example C113_example : flat_map notes guide = [WSectionHeadingLevelSkipped 1 3] /\ flat_map ids guide = [lit "a1"; lit "end"] /\
  exists d P', document_parse (env_of ascii_only 47%N 1) (length guide_text) guide_text [] parser_default = Ok (d, P') /\ filter other_than_ids (map w_type (d_warnings d)) = [WSectionHeadingLevelSkipped 1 3].
Proof.
  split; [reflexivity|]. split; [reflexivity|]. change guide_text with (document_text (Some (lit "Guide")) guide).
  destruct (C113_plain_documents ascii_only 47%N 0 (Some (lit "Guide")) guide [] parser_default) as (d & P' & E & _ & H & _).
  - reflexivity.
  - exact guide_fits.
  - intros t E. injection E as <-. a_plain.
  - exact guide_plain.
  - exact guide_bare.
  - exists d, P'. split; [exact E|]. exact H.
Qed.
Definition small : list node := [NSection none 61%N 1 (lit "Part") [NText none [lit "Words"]; NSection none 61%N 2 (lit "Detail") [NText none [lit "More"]]]; NSection none 61%N 1 (lit "End") []].
Lemma small_fits : document_fits ascii_only None small.
Proof.
  assert (T0 : top_fits ascii_only none) by no_top. split; [intros t E; discriminate E|]. split; [cbn; repeat split; try lia; exists 1; split; [reflexivity|lia]|]. unfold small. repeat apply Forall_cons; [| |apply Forall_nil].
  - split; [exact T0|]. split; [left; reflexivity|]. split; [lia|]. split; [a_tidy|]. split; [not_sp|]. split; [cbn; repeat split; lia|]. cbn [fold_right]. split; [|split; [|exact I]].
    + split; [exact T0|]. split; [a_first|constructor].
    + split; [exact T0|]. split; [left; reflexivity|]. split; [lia|]. split; [a_tidy|]. split; [not_sp|]. split; [cbn; repeat split; lia|]. cbn [fold_right]. split; [|exact I]. split; [exact T0|]. split; [a_first|constructor].
  - split; [exact T0|]. split; [left; reflexivity|]. split; [lia|]. split; [a_tidy|]. split; [not_sp|]. repeat split.
Qed.
Lemma small_plain : Forall plain_node small.
Proof.
  assert (T0 : top_plain none) by no_top. unfold small. repeat apply Forall_cons; [| |apply Forall_nil]; cbn [plain_node fold_right].
  - split; [exact T0|]. split; [a_plain|]. split; [split; [exact T0|]; split; [a_plain|]; repeat constructor; apply easy_text; (neq || reflexivity)|]. split; [|exact I]. split; [exact T0|]. split; [a_plain|]. split; [|exact I]. split; [exact T0|]; split; [a_plain|]; repeat constructor; apply easy_text; (neq || reflexivity).
  - split; [exact T0|]. split; [a_plain|exact I].
Qed.
Example C113_quiet_example : exists d P', document_parse (env_of ascii_only 47%N 1) (length (document_text None small)) (document_text None small) [] parser_default = Ok (d, P') /\ length (d_blocks d) = 2 /\ d_warnings d = [].
Proof.
  destruct (C113_nothing_to_say ascii_only 47%N 0 None small [] parser_default) as (d & P' & E & H & W).
  - reflexivity.
  - exact small_fits.
  - intros t E. discriminate E.
  - exact small_plain.
  - repeat constructor.
  - unfold small. repeat constructor; cbn [unremarkable hd fold_right]; repeat split; try (intros c y K; injection K as <- _; neq); cbn; try lia.
  - reflexivity.
  - exists d, P'. split; [exact E|]. split; [|exact W]. apply (f_equal (@length piece)) in H. rewrite map_length in H. exact H.
Qed.
(** A section that is too deep at the beginning of a document is not noticed, while the same inside a section is: the level of the
    document itself is never compared. *)
Theorem C113_first_level_refuted : exists ns, document_fits ascii_only None ns /\ Forall plain_node ns /\ Forall bare ns /\ ~ levels_step 0 ns /\
  exists d P', document_parse E0 (length (document_text None ns)) (document_text None ns) [] parser_default = Ok (d, P') /\ length (d_blocks d) = 1 /\ d_warnings d = [].
Proof.
  exists [NSection none 61%N 5 (lit "Deep") []]. split; [|split; [|split; [|split]]].
  - split; [intros t E; discriminate E|]. split; [cbn; repeat split; lia|]. constructor; [|constructor]. split; [no_top|]. split; [left; reflexivity|]. split; [lia|]. split; [a_tidy|]. split; [not_sp|]. repeat split.
  - constructor; [|constructor]. split; [no_top|]. split; [a_plain|exact I].
  - repeat constructor.
  - cbn. lia.
  - set (t := document_text None [NSection none 61%N 5 (lit "Deep") []]). vm_compute in t. subst t. eexists _, _. split; [vm_compute; reflexivity|]. split; vm_compute; reflexivity.
Qed.
(** A highlighted word at the beginning of a paragraph in a section is noticed twice, as a title of level 0; the delimiter of an
    example block, when it is long, as a title that is too deep. *)
Theorem C113_not_headings_refuted : exists ns, (forall n, In n ns -> node_level n = None) /\
  exists d P', document_parse E0 (length (document_text None [NSection none 61%N 1 (lit "S") ns])) (document_text None [NSection none 61%N 1 (lit "S") ns]) [] parser_default = Ok (d, P') /\
    map piece_of (d_blocks d) = [PSection None None 1 (lit "S") [PText None None (lit "<mark>a</mark> b"); PBox None None (lit "example") []]] /\
    map w_type (d_warnings d) = [WLevel0SectionHeadingNotSupported; WSectionHeadingLevelExceedsMaximum 6; WLevel0SectionHeadingNotSupported].
Proof.
  exists [NText none [lit "#a# b"]; NBox none (lit "=======") []]. split; [intros n [<-|[<-|[]]]; reflexivity|].
  set (t := document_text None [NSection none 61%N 1 (lit "S") [NText none [lit "#a# b"]; NBox none (lit "=======") []]]). vm_compute in t. subst t. eexists _, _. split; [vm_compute; reflexivity|]. split; vm_compute; reflexivity.
Qed.
Print Assumptions C113_warnings.
Print Assumptions C113_plain_documents.
Print Assumptions C113_nothing_to_say.
Print Assumptions C113_first_level_refuted.
Print Assumptions C113_not_headings_refuted.
