(** C123: what stands at a place does not depend on the place. *)
From Verif Require Import Text TextFacts Maps Span_Model Span_Pure Span_Proof Span_Laws Span_Spec Parser_Model Header_Model Block_Spec Block_Model Block_Proof Doc_Model Header_Proof Header_Prop Block_Prop
  Walk_Proof Tree_Proof Begin_Spec Begin_Proof Fate_Spec Fate_Proof Shift_Spec Shift_Proof.

(** With blank lines before it, a document is the same document, so many lines further down: the same header, blocks, texts, ids, numbers, warnings, attributes;
    and where it has no result, it has none for the same reason. *)
Theorem C123_blank_lines_before_a_document : forall E fuel x m t sm P, blank_lines x m ->
  document_parse E fuel (x ++ t) sm P =
  match document_parse E fuel t sm P with Ok (d, P') => Ok (mv_doc m (length (utf8_bytes x)) (x ++ t) d, P') | Panic => Panic | OutOfFuel => OutOfFuel end.
Proof.
  intros E fuel x m t sm P H. rewrite (document_further E fuel x m t sm P H). rewrite blen_utf8. destruct (document_parse E fuel t sm P) as [[d P']| |]; reflexivity.
Qed.
(** At every place where a line begins, the loop over the blocks does what it does with the text from there on as a document of its own. *)
Theorem C123_blocks_at_any_place : forall E D fuel n s P, located D s -> sp_col s = 1 ->
  parse_blocks_until E fuel never n s P = on_ok (mv_bres (sp_line s - 1) (sp_off s)) (parse_blocks_until E fuel never n (span_new (sp_data s)) P).
Proof. intros E D fuel n s P L C. rewrite (place_moved D s L C) at 1. apply mv_blocks, mv_never. Qed.
(** The same in sections. *)
Theorem C123_sections_at_any_place : forall E D fuel d l n s P, located D s -> sp_col s = 1 ->
  parse_blocks_until E fuel (section_stop E d l) n s P = on_ok (mv_bres (sp_line s - 1) (sp_off s)) (parse_blocks_until E fuel (section_stop E d l) n (span_new (sp_data s)) P).
Proof. intros E D fuel d l n s P L C. rewrite (place_moved D s L C) at 1. apply mv_blocks, mv_section_stop. Qed.
(** And for a single block. *)
Theorem C123_a_block_at_any_place : forall E D fuel s P, located D s -> sp_col s = 1 ->
  block_parse E fuel s P = on_ok (mv_pres (sp_line s - 1) (sp_off s)) (block_parse E fuel (span_new (sp_data s)) P).
Proof. intros E D fuel s P L C. rewrite (place_moved D s L C) at 1. apply mv_block_parse, mv_blocks. Qed.
(** The blocks of a document are those of the text after the header on its own, read with the attributes that the header leaves. *)
Theorem C123_the_text_after_the_header : forall E fuel t sm P h d P', header_parse E (span_new t) P = Ok h -> document_parse E fuel t sm P = Ok (d, P') ->
  let a := mi_after (fst h) in let Q := with_levels (snd (snd h)) (sectnumlevels (snd (snd h))) in let k := sp_line a - 1 in let o := sp_off a in
  exists b bs, parse_blocks_until E fuel never 0 (span_new (sp_data a)) Q = Ok b /\ make_preamble (br_blocks b) (span_new (sp_data a)) = Ok bs /\
    d_blocks d = map (mv_block k o) bs /\ d_warnings d = fst (snd h) ++ map (mv_w k o) (br_warnings b) /\
    (d_catalog d, P') = take_catalog (br_parser b).
Proof.
  intros E fuel t sm P h d P' Hh H a Q k o. destruct (header_begins _ _ _ _ Hh) as [Hb _]. fold a in Hb.
  assert (L : located t a). { apply (located_Suffix t (span_new t)); [apply located_new|]. unfold a. destruct h as [[hd after] [ws Ph]]. destruct (header_parse_spec _ _ _ _ _ _ _ Hh) as (x & src & _ & _ & _ & _ & _ & S1 & _ & _ & _ & _ & _ & _ & _ & _ & Ea & _). cbn [fst mi_after]. rewrite Ea. eapply Suffix_trans; [exact S1|apply discard_empty_Suffix]. }
  unfold document_parse in H. rewrite Hh in H. cbn [bind] in H. fold a in H. fold Q in H. apply bind_ok in H. destruct H as (b & Eb & H). apply bind_ok in H. destruct H as (bs & Ebs & H). apply bind_ok in H. destruct H as (s & _ & H). apply Ok_inj in H. injection H as <- <-. cbn [d_blocks d_warnings d_catalog].
  destruct (sp_data a) as [|c0 d0] eqn:D.
  - exists (mkbr [] (span_new []) [] 0 [] Q), []. assert (Eb' : b = mkbr [] (p_discard_empty_lines a) [] 0 [] Q).
    { unfold parse_blocks_until in Eb. rewrite discard_empty_lines_ok in Eb. cbn [bind] in Eb. assert (Dd : sp_data (p_discard_empty_lines a) = []). { unfold p_discard_empty_lines. rewrite D. cbn [length p_discard_empty_lines_go]. rewrite D. exact D. }
      destruct fuel; cbn [blocks_loop] in Eb; rewrite Dd in Eb; apply Ok_inj in Eb; symmetry; exact Eb. }
    subst b. cbn [br_blocks] in Ebs. apply Ok_inj in Ebs. subst bs. cbn [br_warnings br_parser map]. split; [destruct fuel; reflexivity|]. split; [reflexivity|]. split; [reflexivity|]. split; [reflexivity|]. symmetry; apply surjective_pairing.
  - assert (C : sp_col a = 1) by (apply Hb; rewrite D; discriminate). pose proof (place_moved t a L C) as M. rewrite D in M. rewrite (C123_blocks_at_any_place E t fuel 0 a Q L C), D in Eb. destruct (parse_blocks_until E fuel never 0 (span_new (c0 :: d0)) Q) as [b1| |] eqn:E1; cbn [on_ok] in Eb; try discriminate Eb. apply Ok_inj in Eb. subst b. cbn [mv_bres br_blocks] in Ebs.
    fold k o in M, Ebs. rewrite M in Ebs. rewrite mv_preamble in Ebs. destruct (make_preamble (br_blocks b1) (span_new (c0 :: d0))) as [bs1| |] eqn:E2; cbn [on_ok] in Ebs; try discriminate Ebs. apply Ok_inj in Ebs. subst bs. exists b1, bs1. split; [reflexivity|]. split; [exact E2|]. split; [reflexivity|]. split; [reflexivity|]. symmetry; apply surjective_pairing.
Qed.
(** Where no block is found the loop has no result. *)
Lemma none_no_result E fuel : forall n s P b r un, sp_data s <> [] -> block_parse_with E un s P = Ok r -> pr_item r = None -> blocks_loop E fuel never n s (pr_parser r) <> Ok b.
Proof.
  induction fuel as [|fuel IH]; intros n s P b r un Hs Er Hn H; cbn [blocks_loop] in H; (destruct (sp_data s) as [|c d] eqn:Ds; [contradiction|]); [discriminate H|]. rewrite <- Ds in *.
  assert (Hd : dead E P s) by (apply (proj1 (block_dead _ _ _ _ _ Hs Er)); exact Hn). assert (Ep : pr_parser r = P) by exact (proj2 (block_dead _ _ _ _ _ Hs Er) Hn). rewrite Ep in H.
  cbn [never bind fst snd] in H. apply bind_ok in H. destruct H as (r2 & Er2 & H). apply bind_ok in H. destruct H as (rest & Erest & H).
  assert (Hn2 : pr_item r2 = None) by (apply (proj1 (block_dead _ _ _ _ _ Hs Er2)); exact Hd). rewrite Hn2 in Erest. exact (IH n s P rest r2 _ Hs Er2 Hn2 Erest).
Qed.
(** A text is read block by block: the first block, and then what is left as if nothing had been before it, but for the attributes, the ids and the numbers so far. *)
Theorem C123_one_block_after_another : forall E D fuel n s P b, located D s -> sp_data s <> [] -> sp_col s = 1 -> blocks_loop E (S fuel) never n s P = Ok b ->
  exists r mi alone, block_parse E fuel s P = Ok r /\ pr_item r = Some mi /\
    (exists x, sp_data s = x ++ sp_data (mi_after mi) /\ x <> []) /\
    blocks_loop E fuel never n (span_new (sp_data (mi_after mi))) (pr_parser r) = Ok alone /\
    br_blocks b = mi_item mi :: map (mv_block (sp_line (mi_after mi) - 1) (sp_off (mi_after mi))) (br_blocks alone) /\
    br_warnings b = pr_warnings r ++ map (mv_w (sp_line (mi_after mi) - 1) (sp_off (mi_after mi))) (br_warnings alone) /\
    br_parser b = br_parser alone.
Proof.
  intros E D fuel n s P b L Hs Hc H. cbn [blocks_loop] in H. destruct (sp_data s) as [|c d] eqn:Ds; [contradiction|]. cbn [never bind fst snd] in H. apply bind_ok in H. destruct H as (r & Er & H). apply bind_ok in H. destruct H as (rest & Erest & H). apply Ok_inj in H. subst b.
  destruct (pr_item r) as [mi|] eqn:Ei; [|exfalso; rewrite <- Ds in Hs; exact (none_no_result E fuel n s P rest r _ Hs Er Ei Erest)].
  destruct (block_ok D E _ s P r mi (until_good E D fuel) L Er Ei) as (A1 & A2 & _).
  destruct (block_begins D E (parse_blocks_until E fuel) s P r mi (until_good E D fuel) (until_begins D E fuel) L ltac:(intros _; exact Hc) Er Ei) as (B & _).
  pose proof (located_Suffix _ _ _ L A1) as L'. destruct (sp_data (mi_after mi)) as [|c1 d1] eqn:D1.
  - exists r, mi, (mkbr [] (span_new []) [] n [] (pr_parser r)). split; [exact Er|]. split; [exact Ei|]. rewrite D1. split; [exists (c :: d); split; [rewrite app_nil_r; reflexivity|discriminate]|]. split; [destruct fuel; reflexivity|].
    assert (rest = mkbr [] (mi_after mi) [] n [] (pr_parser r)) as -> by (destruct fuel; cbn [blocks_loop] in Erest; rewrite D1 in Erest; apply Ok_inj in Erest; symmetry; exact Erest). repeat split.
  - assert (C : sp_col (mi_after mi) = 1) by (apply B; rewrite D1; discriminate). rewrite (place_moved D _ L' C) in Erest at 1. rewrite mv_loop in Erest by apply mv_never. rewrite D1 in Erest. destruct (blocks_loop E fuel never n (span_new (c1 :: d1)) (pr_parser r)) as [al| |] eqn:Eal; cbn [on_ok] in Erest; try discriminate Erest. apply Ok_inj in Erest. subst rest.
    exists r, mi, al. split; [exact Er|]. split; [exact Ei|]. rewrite D1. split; [|split; [exact Eal|repeat split]].
    destruct A1 as (x & Hx & _). exists x. rewrite <- D1, <- Ds. split; [exact Hx|]. intros ->. rewrite Hx, D1 in A2. cbn [app] in A2. lia.
Qed.
(** Three blank lines, one of them ended by a carriage return and a line feed, before a document with a header and sections. *)
Definition shift_blank : text := [SP; SP; LF; CR; LF; LF].
Definition shift_doc : text := lines [lit "= A"; lit ":a: b"; []; lit "c"; []; lit "== D"; []; lit "e {a}"; []; lit "===="; lit "f"; lit "===="].
Example C123_blank_example : blank_lines shift_blank 3.
Proof. exact (bl_line 2 [] _ _ (or_introl eq_refl) (bl_line 0 [CR] _ _ (or_intror eq_refl) (bl_line 0 [] _ _ (or_introl eq_refl) bl_nil))). Qed.
Example C123_document_example : exists d P', document_parse E0 60 shift_doc [] parser_default = Ok (d, P') /\ map (fun b => sp_line (block_span b)) (d_blocks d) = [4; 6] /\
  exists d' P2, document_parse E0 60 (shift_blank ++ shift_doc) [] parser_default = Ok (d', P2) /\ map (fun b => sp_line (block_span b)) (d_blocks d') = [7; 9] /\ d' = mv_doc 3 6 (shift_blank ++ shift_doc) d.
Proof. eexists _, _. split; [vm_compute; reflexivity|]. split; [vm_compute; reflexivity|]. eexists _, _. split; [vm_compute; reflexivity|]. split; vm_compute; reflexivity. Qed.
Example C123_place_example : exists s, located shift_doc s /\ sp_col s = 1 /\ sp_line s = 6 /\ sp_data s = lines [lit "== D"; []; lit "e {a}"; []; lit "===="; lit "f"; lit "===="] /\
  exists b, blocks_loop E0 60 never 0 s parser_default = Ok b /\ length (br_blocks b) = 1.
Proof. exists (mkspan (lines [lit "== D"; []; lit "e {a}"; []; lit "===="; lit "f"; lit "===="]) 6 1 14). split; [exists (lines [lit "= A"; lit ":a: b"; []; lit "c"; []; []]), []; split; [vm_compute; reflexivity|]; split; [vm_compute; reflexivity|]; split; [exists (lines [lit "= A"; lit ":a: b"; []; lit "c"; []; []]), []; split; [symmetry; apply app_nil_r|]; split; [intros []|]; split; [right; exists (lines [lit "= A"; lit ":a: b"; []; lit "c"; []]); vm_compute; reflexivity|reflexivity]|vm_compute; reflexivity]|]. repeat split. eexists. split; vm_compute; reflexivity. Qed.
(** Expected of every line that has nothing but white space in it.  With a tab in the line before it, the title is a paragraph. *)
Theorem C123_a_line_with_a_tab_refuted : exists x t, x = [9%N; LF] /\ forall sm,
  (exists d P, document_parse E0 60 t sm parser_default = Ok (d, P) /\ h_title (d_header d) = Some (lit "A")) /\
  (exists d P c m, document_parse E0 60 (x ++ t) sm parser_default = Ok (d, P) /\ h_title (d_header d) = None /\ d_blocks d = [BSimple c (mkspan (lit "= A") 2 1 2) StParagraph m]).
Proof. exists [9%N; LF], (lit "= A"). split; [reflexivity|]. intros sm. split; [eexists _, _; split; vm_compute; reflexivity|]. eexists _, _, _, _. split; [vm_compute; reflexivity|]. split; vm_compute; reflexivity. Qed.
Print Assumptions C123_blank_lines_before_a_document.
Print Assumptions C123_blocks_at_any_place.
Print Assumptions C123_sections_at_any_place.
Print Assumptions C123_a_block_at_any_place.
Print Assumptions C123_the_text_after_the_header.
Print Assumptions C123_one_block_after_another.
Print Assumptions C123_a_line_with_a_tab_refuted.
