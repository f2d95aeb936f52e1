(** What a parser keeps from one document to the next, and what section numbers have an influence on (C128). *)
From Verif Require Import Text TextFacts Maps Span_Model Span_Spec Span_Proof Span_Laws Catalog_Model Parser_Model SourceMap_Model Attrlist_Model Pre_Model Group_Model Header_Model Block_Model Doc_Model
  Walk_Spec Shift_Spec Shift_Proof Header_Prop Block_Prop Again_Spec Again_Proof.

(** The inline layer does not look at anything of a parser but its attributes. *)
Theorem C128_inline : forall U fs fuel, sub_reads_attrs (env_of U fs fuel).
Proof. exact env_reads_attrs. Qed.
(** What numbers were given to sections, and up to what level, has no influence on anything but numbers: two parsers that differ in
    these counters only yield the same document, apart from the numbers, and the same parser, apart from its counters. *)
Theorem C128_numbers : forall E ifh pre_fuel fuel t P Q, sub_reads_attrs E -> ifh_reads_attrs ifh -> unnum P = unnum Q ->
  on_ok (fun r => (unnum_doc (fst r), unnum (snd r))) (parser_parse E ifh pre_fuel fuel t P) = on_ok (fun r => (unnum_doc (fst r), unnum (snd r))) (parser_parse E ifh pre_fuel fuel t Q).
Proof.
  intros E ifh pf f t P Q BE BI H. unfold parser_parse. rewrite (preprocess_same E BE ifh BI pf t P Q (alike_same _ _ H) (f_equal p_primary H)). apply one. intros p. apply document_unnum; [exact BE|].
  unfold alike, begin_parse. rewrite (alike_catalog _ _ H). unfold unnum in *. injection H as A B C D F. destruct (p_catalog Q) eqn:Eq; cbn; rewrite ?Eq, A, B, C, D, ?F; reflexivity.
Qed.
(** After a document, the parser has what it had before but for its attributes and its counters; the count of appendices is the same if
    no appendix got a number. *)
Theorem C128_kept : forall E ifh pre_fuel fuel t P d P', p_topmost P = SNormal -> parser_parse E ifh pre_fuel fuel t P = Ok (d, P') ->
  p_defaults P' = p_defaults P /\ p_primary P' = p_primary P /\ p_sep P' = p_sep P /\ p_catalog P' = None /\ p_topmost P' = SNormal /\
  ((forall level n, ~ In (ESection level SAppendix (Some n)) (flat_map events (d_blocks d))) -> p_last_app P' = p_last_app P).
Proof.
  intros E ifh pf f t P d P' Ht H. unfold parser_parse in H. apply bind_ok in H. destruct H as (p & _ & H).
  assert (B : p_topmost (begin_parse P) = SNormal /\ p_defaults (begin_parse P) = p_defaults P /\ p_primary (begin_parse P) = p_primary P /\ p_sep (begin_parse P) = p_sep P /\ p_last_app (begin_parse P) = p_last_app P) by (unfold begin_parse; destruct (p_catalog P); cbn; auto).
  destruct B as (B1 & B2 & B3 & B4 & B5). destruct (document_kept _ _ _ _ _ _ _ B1 H) as (K1 & K2 & K3 & K4 & K5 & K6). rewrite B2 in K1. rewrite B3 in K2. rewrite B4 in K3. rewrite B5 in K6. auto 10.
Qed.
(** So parsing again with the same parser is parsing with a new one that has the attributes and the count of appendices of the old. *)
Theorem C128_again : forall E ifh f1 f2 t P d P' g1 g2 t2, sub_reads_attrs E -> ifh_reads_attrs ifh -> p_topmost P = SNormal -> parser_parse E ifh f1 f2 t P = Ok (d, P') ->
  parser_parse E ifh g1 g2 t2 P' = parser_parse E ifh g1 g2 t2 (as_new P').
Proof.
  intros E ifh f1 f2 t P d P' g1 g2 t2 BE BI Ht H. destruct (C128_kept _ _ _ _ _ _ _ _ Ht H) as (_ & _ & _ & K4 & K5 & _). unfold parser_parse. rewrite (preprocess_same E BE ifh BI g1 t2 P' (as_new P')) by (try split; reflexivity). apply bind_more. intros p.
  assert (B : begin_parse P' = with_levels (begin_parse (as_new P')) (p_levels P')) by (destruct P'; cbn in K4, K5 |- *; subst; reflexivity). rewrite B. apply document_levels. exact BE.
Qed.
(** In particular, the same text yields the same document, if its attributes and appendices change nothing. *)
Theorem C128_same : forall E ifh f1 f2 t P d P', sub_reads_attrs E -> ifh_reads_attrs ifh -> P = as_new P -> parser_parse E ifh f1 f2 t P = Ok (d, P') -> p_attrs P' = p_attrs P ->
  (forall level n, ~ In (ESection level SAppendix (Some n)) (flat_map events (d_blocks d))) -> parser_parse E ifh f1 f2 t P' = Ok (d, P').
Proof.
  intros E ifh f1 f2 t P d P' BE BI HP H Ha N. assert (Ht : p_topmost P = SNormal) by (rewrite HP; reflexivity). rewrite (C128_again _ _ _ _ _ _ _ _ f1 f2 t BE BI Ht H). destruct (C128_kept _ _ _ _ _ _ _ _ Ht H) as (K1 & K2 & K3 & _ & _ & K6).
  assert (X : as_new P' = P) by (rewrite HP; unfold as_new; cbn; rewrite Ha, K1, K2, K3, (K6 N); reflexivity). rewrite X. exact H.
Qed.
(** * A case *)
Definition no_handler : include_handler := fun _ _ _ _ => None.
Definition again_text : text := lines [lit "= T"; lit ":sectnums:"; []; lit "== A"; []; lit "x {sectnums}"; []; lit "== B"].
Example again_meets : sub_reads_attrs E0 /\ ifh_reads_attrs no_handler /\ parser_default = as_new parser_default /\
  (exists d P', parser_parse E0 no_handler 20 20 again_text parser_default = Ok (d, P') /\ (forall level n, ~ In (ESection level SAppendix (Some n)) (flat_map events (d_blocks d)))) /\
  unnum parser_default = unnum (with_last (with_levels parser_default 1) (mksn SNormal [4; 2])).
Proof.
  split; [apply C128_inline|]. split; [intros ? ? ? ? ? ?; reflexivity|]. split; [reflexivity|]. split; [|reflexivity].
  destruct (parser_parse E0 no_handler 20 20 again_text parser_default) as [[d P']| |] eqn:H; [|vm_compute in H; discriminate H|vm_compute in H; discriminate H]. exists d, P'. split; [reflexivity|].
  assert (X : flat_map events (d_blocks d) = match parser_parse E0 no_handler 20 20 again_text parser_default with Ok (d, _) => flat_map events (d_blocks d) | _ => [] end) by (rewrite H; reflexivity). rewrite X. clear. vm_compute. intros level n K. repeat (destruct K as [K|K]; [discriminate K|]). exact K.
Qed.
(** A text without entries and header is parsed to the same document again. *)
Example same_meets : match parser_parse E0 no_handler 20 20 (lines [lit "== A"; []; lit "x"]) parser_default with Ok (d, P') => p_attrs P' = p_attrs parser_default /\ flat_map events (d_blocks d) = [ESection 1 SNormal None] | _ => False end.
Proof. vm_compute. split; reflexivity. Qed.
(** * Appendices do not start afresh *)
Definition numbers_in (t : text) (P : parser) : res (list (option (list nat)) * parser) :=
  r <- parser_parse E0 no_handler 20 20 t P ;; Ok (flat_map (fun e => match e with ESection _ _ n => [option_map sn_comps n] | _ => [] end) (flat_map events (d_blocks (fst r))), snd r).
Definition numbers_twice (t : text) : res (list (option (list nat)) * list (option (list nat))) :=
  a <- numbers_in t parser_default ;; b <- numbers_in t (snd a) ;; Ok (fst a, fst b).
Theorem C128_twice_refuted : exists t, numbers_twice t = Ok ([Some [1]; Some [1]], [Some [1]; Some [2]]).
Proof. exists (lines [lit ":sectnums:"; []; lit "== A"; []; lit "[appendix]"; lit "== B"]). vm_compute. reflexivity. Qed.
Print Assumptions C128_inline.
Print Assumptions C128_numbers.
Print Assumptions C128_kept.
Print Assumptions C128_again.
Print Assumptions C128_same.
Print Assumptions C128_twice_refuted.
