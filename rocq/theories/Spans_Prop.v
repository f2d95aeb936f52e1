(** C118: the places that a document gives for its parts. *)
From Verif Require Import Text TextFacts Maps Span_Model Span_Pure Span_Proof Span_Laws Span_Spec Catalog_Model Parser_Model Subs_Model Attrlist_Model Header_Model Header_Spec Header_Proof
  Header_Prop Block_Model Block_Spec Block_Proof Block_Prop SourceMap_Model Pre_Model Doc_Model Tree_Spec Tree_Proof Tree_Prop Inert_Proof Inert_Prop Spans_Spec Spans_Proof.

(** What a block says of itself lies in the block; so does what is said in the lines above it, but for the text of an
    anchor that a paragraph has without the anchor. *)
Theorem C118_blocks : forall E fuel t sm P d P' b, document_parse E fuel t sm P = Ok (d, P') -> below (d_blocks d) b ->
  (forall x, In x (inner b) -> held t (block_span b) x) /\ forall x, In x (above b) -> located t x /\ (held t (block_span b) x \/ stray b x).
Proof. intros E fuel t sm P d P' b H Hb. destruct (document_fine _ _ _ _ _ _ _ H) as (F & _). destruct (F b Hb) as (A & B & _). split; [exact A|exact B]. Qed.
(** The lines above come before the block itself. *)
Theorem C118_order : forall E fuel t sm P d P' b x y, document_parse E fuel t sm P = Ok (d, P') -> below (d_blocks d) b -> In x (above b) -> In y (inner b) -> upto x <= sp_off y \/ stray b x.
Proof. intros E fuel t sm P d P' b x y H Hb. destruct (document_fine _ _ _ _ _ _ _ H) as (F & _). exact (proj2 (proj2 (F b Hb)) x y). Qed.
(** What is in a header lies in the header. *)
Theorem C118_header : forall E fuel t sm P d P', document_parse E fuel t sm P = Ok (d, P') ->
  located t (h_source (d_header d)) /\ forall x, In x (header_spans (d_header d)) -> held t (h_source (d_header d)) x.
Proof. intros E fuel t sm P d P' H. destruct (document_fine _ _ _ _ _ _ _ H) as (_ & L & F). split; [exact L|]. rewrite Forall_forall in F. exact F. Qed.
(** The document is its whole text but for white space at the end, and whatever has a place in the text is in it. *)
Theorem C118_source : forall E fuel t sm P d P', document_parse E fuel t sm P = Ok (d, P') ->
  located t (d_source d) /\ sp_off (d_source d) = 0 /\ (exists w, t = sp_data (d_source d) ++ w /\ blank w) /\ forall x, located t x -> held t (d_source d) x.
Proof.
  intros E fuel t sm P d P' H. unfold document_parse in H. cbv zeta in H. apply bind_ok in H. destruct H as (h & _ & H). apply bind_ok in H. destruct H as (b & _ & H). apply bind_ok in H. destruct H as (bs & _ & H).
  rewrite trim_trailing_whitespace_ok in H. cbn [bind] in H. apply Ok_inj in H. injection H as <- <-. cbn [d_source]. unfold p_trim_trailing_whitespace. cbn [sp_data span_new]. destruct (trim_end_spec t) as (w & Ew & Bw & _).
  split; [exact (located_prefix _ _ _ _ (located_new t) Ew)|]. split; [reflexivity|]. split; [exists w; auto|]. intros x Lx.
  pose proof Lx as (bf & bh & D & _ & _ & O). set (y := skip (span_new t) bf (sp_data x)). assert (Dy : sp_data y = sp_data x) by apply sp_data_skip. assert (Sy : Sub (span_new t) y) by (exists bf, bh; rewrite Dy; split; [exact D|reflexivity]).
  assert (Oy : sp_off y = sp_off x) by (unfold y; rewrite sp_off_skip; unfold spec_offset in O; rewrite blen_utf8 in O; cbn [sp_off span_new]; lia).
  assert (Uy : upto y = upto x) by (unfold upto; rewrite Oy, Dy; reflexivity).
  destruct (cut_held t (span_new t) t [] _ w y (located_new t) (eq_sym (app_nil_r t)) Ew Bw) as (_ & _ & K); [split; [exact Sy|exact (proj2 (Sub_off _ _ Sy))]|].
  split; [exact Lx|]. split; [apply Nat.le_0_l|]. rewrite <- Uy. exact K.
Qed.
(** So too for a document of several files: its text is the text with the files in it. *)
Theorem C118_parse : forall E ifh f1 f2 t P d P', parser_parse E ifh f1 f2 t P = Ok (d, P') -> exists t' sm, preprocess (e_u E) (apply_header_subs E) (norm_of E) ifh f1 t P = Ok (t', sm) /\
  (forall x, In x (header_spans (d_header d)) -> held t' (h_source (d_header d)) x) /\
  forall b, below (d_blocks d) b -> (forall x, In x (inner b) -> held t' (block_span b) x) /\ forall x, In x (above b) -> located t' x /\ (held t' (block_span b) x \/ stray b x).
Proof.
  intros E ifh f1 f2 t P d P' H. unfold parser_parse in H. apply bind_ok in H. destruct H as ((t' & sm) & Ep & H). cbn [fst snd] in H. exists t', sm. split; [exact Ep|]. split; [exact (proj2 (C118_header _ _ _ _ _ _ _ H))|].
  intros b Hb. exact (C118_blocks _ _ _ _ _ _ _ _ H Hb).
Qed.

Definition placed_text : text := lines [lit "= T"; lit "// c"; lit "A B"; lit ":x: y"; []; lit ".t"; lit "[[i,r]]"; lit "[q]"; lit "p"; []; lit "image::u[v]"; []; lit "== S"; []; lit ":n: w"].
Example C118_example : exists d P, parse_with E0 30 placed_text = Ok (d, P) /\
  map (fun s => (sp_off s, sp_data s)) (header_spans (d_header d)) = [(2, lit "T"); (4, lit "// c"); (13, lit ":x: y"); (14, lit "x"); (17, lit "y"); (9, lit "A B")] /\
  map (fun b => map (fun s => (sp_off s, sp_data s)) (above b ++ inner b)) (flat_map nested_blocks (firstn 1 (d_blocks d))) =
    [[(21, lit "t"); (25, lit "i"); (27, lit "r"); (32, lit "q"); (35, lit "p")]; [(45, lit "u"); (47, lit "v")]].
Proof.
  destruct (parse_with E0 30 placed_text) as [[d P]| |] eqn:Ep; [|vm_compute in Ep; discriminate Ep|vm_compute in Ep; discriminate Ep]. vm_compute in Ep. injection Ep as <- <-.
  do 2 eexists. split; [reflexivity|]. split; vm_compute; reflexivity.
Qed.

(** Expected: what is said of a block is in the block.  But the lines above a block that is not there become a paragraph
    of the first of them, with the text of an anchor that is in a later line (blocks/block.rs:288-312). *)
Definition stray_text : text := lines [lit ".T"; lit "[[i,r]]"; lit "[a]"; []].
Theorem C118_inside_refuted : exists d P b x, parse_with E0 30 stray_text = Ok (d, P) /\ In b (d_blocks d) /\ In x (above b) /\ stop b < sp_off x /\ ~ held stray_text (block_span b) x.
Proof.
  destruct (parse_with E0 30 stray_text) as [[d P]| |] eqn:Ep; [|vm_compute in Ep; discriminate Ep|vm_compute in Ep; discriminate Ep]. vm_compute in Ep. injection Ep as <- <-.
  do 4 eexists. split; [reflexivity|]. cbn [d_blocks]. split; [left; reflexivity|]. split; [left; reflexivity|]. split; [vm_compute; lia|]. intros (_ & _ & K). destruct K as [K|(p & w & q & Et & Bw & E1 & E2)].
  - vm_compute in K. lia.
  - assert (Hp : blen p = 2) by (rewrite <- E1; vm_compute; reflexivity). rewrite Hp in E2. match type of E2 with ?e = _ => assert (X : e = 8) by (vm_compute; reflexivity) end. assert (Hw : blen w = 6) by lia. clear E1 E2.
    pose proof (bsplit_app p (w ++ q)) as B1. pose proof (bsplit_app w q) as B2. rewrite <- Et, Hp in B1. assert (X1 : bsplit 2 stray_text = Some (firstn 2 stray_text, skipn 2 stray_text)) by (vm_compute; reflexivity).
    assert (B3 : w ++ q = skipn 2 stray_text) by congruence. rewrite B3, Hw in B2. assert (X2 : bsplit 6 (skipn 2 stray_text) = Some (firstn 6 (skipn 2 stray_text), skipn 8 stray_text)) by (vm_compute; reflexivity).
    assert (Kw : w = firstn 6 (skipn 2 stray_text)) by congruence. rewrite Kw in Bw. clear - Bw. unfold blank in Bw. rewrite Forall_forall in Bw. assert (Kc : is_ws 105%N = true) by (apply Bw; vm_compute; auto 10). vm_compute in Kc. discriminate Kc.
Qed.

Print Assumptions C118_blocks.
Print Assumptions C118_order.
Print Assumptions C118_header.
Print Assumptions C118_source.
Print Assumptions C118_parse.
Print Assumptions C118_inside_refuted.
