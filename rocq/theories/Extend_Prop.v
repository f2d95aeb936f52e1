(** What comes after an empty line does not change the blocks before it (C124). *)
From Verif Require Import Text TextFacts Span_Model Span_Pure Span_Proof Span_Laws Span_Spec Parser_Model Header_Model Header_Spec Block_Model Block_Spec Block_Proof Doc_Model Header_Prop Block_Prop
  Fate_Proof Fate_Prop Shift_Spec Shift_Proof Extend_Spec Extend_Proof.

(** A block that goes to the end of the text, with a text put after it and an empty line in between: the same block, the same ids
    and attributes, the same warnings; and then comes that text.  If the block is a section and ends where the text ended, the one
    put after it is to begin with a title of the first level. *)
Theorem C124_a_block : forall E D fuel z s P r mi, shown z -> located D s -> well_ended (sp_data s) -> block_parse E fuel s P = Ok r -> pr_item r = Some mi -> terminated (pr_warnings r) ->
  chapter E z \/ no_section (mi_item mi) \/ sp_data (mi_after mi) <> [] ->
  exists r' mi', block_parse E (S fuel) (ext z s) P = Ok r' /\ pr_item r' = Some mi' /\ mi_item mi' = mi_item mi /\ near z (mi_after mi) (mi_after mi') /\ pr_parser r' = pr_parser r /\ relw z (pr_warnings r) (pr_warnings r').
Proof.
  intros E D fuel z s P r mi Hz L W H Hi T C. destruct (sp_data s) as [|c0 t0] eqn:Ds.
  - exfalso. destruct (Tree_Proof.block_ok D E _ s P r mi (until_good E D fuel) L H Hi) as (_ & K & _). rewrite Ds in K. cbn in K. lia.
  - rewrite <- Ds in *. assert (Ns : sp_data s <> []) by (rewrite Ds; discriminate).
    assert (Dd : sp_data (p_discard_empty_lines s) <> []). { intros Dd. destruct (block_dead _ _ _ _ _ Ns H) as (A & _). apply proj2 in A. rewrite (A (white_dead E P s Ns Dd)) in Hi. discriminate Hi. }
    assert (Ov : over_with z E r). { destruct C as [C|C]; [left; exact C|right]. intros m K. injection (eq_trans (eq_sym K) Hi) as ->. destruct C as [C|C]; [right; exact C|left; exact C]. }
    destruct (block_ext z Hz D E _ _ s P r (until_ext z Hz D E fuel) (until_suf D E fuel) (until_mono E fuel) L W Dd H T Ov) as (r' & Er & R1 & R2 & R3). rewrite Hi in R3. destruct (pr_item r') as [mi'|] eqn:Ei; [|contradiction]. exists r', mi'. split; [exact Er|]. split; [exact Ei|]. destruct R3 as (R3 & R4). auto.
Qed.
(** The blocks of two texts with an empty line in between are those of the first and those of the second, this one parsed with the
    attributes, ids and numbers that the first has left. *)
Theorem C124_texts_in_turn : forall E fuel F n t z c y P b bz, shown z -> z = c :: y -> c <> 58%N -> well_ended t -> parse_blocks_until E fuel never n (span_new t) P = Ok b -> terminated (br_warnings b) -> chapter E z \/ Forall no_section (br_blocks b) ->
  parse_blocks_until E F never n (span_new z) (br_parser b) = Ok bz ->
  exists b', parse_blocks_until E (fuel + F) never n (span_new (t ++ LF :: z)) P = Ok b' /\
    br_blocks b' = br_blocks b ++ map (mv_block (S (count_occ N.eq_dec t LF)) (blen t + 1)) (br_blocks bz) /\ br_parser b' = br_parser bz /\
    exists w, relw z (br_warnings b) w /\ br_warnings b' = w ++ map (mv_w (S (count_occ N.eq_dec t LF)) (blen t + 1)) (br_warnings bz).
Proof. exact texts_in_turn. Qed.
(** A line that is a title of the first level begins a chapter. *)
Theorem C124_chapter_line : forall E z l r n title, a_line z l r n -> heading n 1 title -> chapter E z.
Proof. intros E z l r n title H1 H2. exact (proj1 (heading_chapter E z l r n title H1 H2)). Qed.
(** Chapters can be parsed one by one. *)
Theorem C124_chapters_one_by_one : forall E n ts P bs P', read_each E n P ts bs P' -> Forall a_chapter ts -> exists fuel b, parse_blocks_until E fuel never n (span_new (in_turn ts)) P = Ok b /\ br_blocks b = bs /\ br_parser b = P'.
Proof.
  intros E n ts P bs P' H. induction H as [P t fuel b H|P t ts fuel b bs P' H T Hr IH]; intros Hc; [exists fuel, b; auto|]. inversion Hc as [|? ? (W & _) Hc2]. subst. destruct (IH Hc2) as (F & bz & Hz & <- & <-).
  assert (Ch : exists l r k title, a_line (in_turn ts) l r k /\ heading k 1 title).
  { assert (Hx : exists t1 v, In t1 ts /\ in_turn ts = t1 ++ v /\ (v = [] \/ exists q, v = LF :: q)) by (destruct ts as [|t1 [|t2 ts']]; [inversion Hr|exists t1, []; split; [left; reflexivity|]; split; [symmetry; apply app_nil_r|auto]|exists t1, (LF :: in_turn (t2 :: ts')); split; [left; reflexivity|]; split; [reflexivity|eauto]]).
    destruct Hx as (t1 & v & Hin & Ev & Hv). rewrite Forall_forall in Hc2. destruct (Hc2 _ Hin) as (W1 & l & r & k & title & Hl & Hh). rewrite Ev.
    destruct Hv as [->|(q & ->)]; [rewrite app_nil_r; exists l, r, k, title; auto|]. exists l, (r ++ LF :: q), k, title. split; [|exact Hh]. apply (line_ext q (span_new t1)); [exact W1| |exact Hl].
    cbn [span_new sp_data]. intros ->. pose proof (a_line_app _ _ _ _ Hl) as D1. symmetry in D1. apply app_eq_nil in D1. destruct D1 as (-> & ->). destruct (a_line_prefix _ _ _ _ Hl) as (w & K). symmetry in K. apply app_eq_nil in K. destruct K as (-> & _).
    destruct Hh as (x & ws & _ & _ & K & _). discriminate K. }
  destruct Ch as (l & r & k & title & Hl & Hh). destruct (heading_chapter E _ _ _ _ _ Hl Hh) as (Hch & Hsh & c & y & Ez & Nc).
  destruct (texts_in_turn E fuel F n t (in_turn ts) c y P b bz Hsh Ez Nc W H T (or_introl Hch) Hz) as (b' & Eb & B1 & B2 & _). exists (fuel + F), b'.
  split; [|auto]. destruct ts as [|t2 ts]; [inversion Hr|exact Eb].
Qed.

(** A text with a section in it, and a chapter; all hypotheses are met, and the conclusion is there to be seen. *)
Definition ex_t : text := lines [lit "== A"; []; lit "a b"; []; lit "=== B"; []; lit "----"; lit "x"; lit "----"] ++ [LF].
Definition ex_z : text := lines [lit "== C"; []; lit "c"] ++ [LF].
(** The parts of the result of parsing a text. *)
Definition parsed (t : text) (P : parser) : list block * list warning * parser := match parse_blocks_until E0 50 never 0 (span_new t) P with Ok b => (br_blocks b, br_warnings b, br_parser b) | _ => ([], [], P) end.
Definition blocks_of t P := fst (fst (parsed t P)).
(** Does the text with [z] after it have the blocks of the two? *)
Definition two_texts (t z : text) : list block := blocks_of t parser_default ++ map (mv_block (S (count_occ N.eq_dec t LF)) (blen t + 1)) (blocks_of z (snd (parsed t parser_default))).
Example C124_example : well_ended ex_t /\ shown ex_z /\ chapter E0 ex_z /\ terminated (snd (fst (parsed ex_t parser_default))) /\
  length (blocks_of ex_t parser_default) = 1 /\ length (blocks_of (ex_t ++ LF :: ex_z) parser_default) = 2 /\ blocks_of (ex_t ++ LF :: ex_z) parser_default = two_texts ex_t ex_z.
Proof.
  assert (Hl : a_line ex_z (lit "== C" ++ [LF]) ([LF] ++ lit "c" ++ [LF]) (lit "== C")) by (apply (a_line_intro (lit "== C")); [vm_compute; intuition discriminate|intros y K; apply (f_equal (@rev N)) in K; rewrite rev_app_distr in K; discriminate K|intros y K; apply (f_equal (@rev N)) in K; rewrite rev_app_distr in K; discriminate K]).
  assert (Hh : heading (lit "== C") 1 (lit "C")) by (exists 61%N, [SP]; split; [vm_compute; auto|]; split; [lia|]; split; [reflexivity|]; split; [discriminate|]; split; [constructor; [left; reflexivity|constructor]|]; intros x y K; injection K as <- <-; intros [K|K]; discriminate K).
  destruct (heading_chapter E0 _ _ _ _ _ Hl Hh) as (H1 & H2 & _).
  split; [right; right; exists (lines [lit "== A"; []; lit "a b"; []; lit "=== B"; []; lit "----"; lit "x"; lit "---"]), 45%N; repeat split; discriminate|]. split; [exact H2|]. split; [exact H1|]. split; [vm_compute; intros w []|]. repeat split; vm_compute; reflexivity.
Qed.
Example C124_chapters_example : Forall a_chapter [ex_z; ex_z] /\ exists bs P', read_each E0 0 parser_default [ex_z; ex_z; ex_z] bs P' /\ length bs = 3.
Proof.
  split.
  - assert (K : a_chapter ex_z); [|constructor; [exact K|constructor; [exact K|constructor]]]. split; [right; right; exists (lines [lit "== C"; []; []]), 99%N; repeat split; discriminate|]. exists (lit "== C" ++ [LF]), ([LF] ++ lit "c" ++ [LF]), (lit "== C"), (lit "C").
    split; [apply (a_line_intro (lit "== C")); [vm_compute; intuition discriminate|intros y K; apply (f_equal (@rev N)) in K; rewrite rev_app_distr in K; discriminate K|intros y K; apply (f_equal (@rev N)) in K; rewrite rev_app_distr in K; discriminate K]|].
    exists 61%N, [SP]. split; [vm_compute; auto|]. split; [lia|]. split; [reflexivity|]. split; [discriminate|]. split; [constructor; [left; reflexivity|constructor]|]. intros x y K; injection K as <- <-; intros [K|K]; discriminate K.
  - eexists _, _. split; [|shelve]. eapply (re_more E0 0 _ ex_z _ 50); [vm_compute; reflexivity|vm_compute; intros w []|]. eapply (re_more E0 0 _ ex_z _ 50); [vm_compute; reflexivity|vm_compute; intros w []|]. eapply (re_last E0 0 _ ex_z 50). vm_compute. reflexivity. Unshelve. vm_compute. reflexivity.
Qed.
(** Expected of any two texts with an empty line in between, and true of none of these. *)
(** A delimited block that is not closed takes the text in. *)
Theorem C124_unterminated_refuted : exists t z, well_ended t /\ blocks_of (t ++ LF :: z) parser_default <> two_texts t z /\ length (blocks_of (t ++ LF :: z) parser_default) = 1 /\ length (two_texts t z) = 2.
Proof. exists (lit "----" ++ [LF]), (lit "b"). split; [right; right; exists (lit "---"), 45%N; repeat split; discriminate|]. split; [intros K; apply (f_equal (@length block)) in K; vm_compute in K; discriminate K|]. split; vm_compute; reflexivity. Qed.
(** A section takes in a text that begins with no title. *)
Theorem C124_section_refuted : exists t z, well_ended t /\ terminated (snd (fst (parsed t parser_default))) /\ blocks_of (t ++ LF :: z) parser_default <> two_texts t z /\ length (blocks_of (t ++ LF :: z) parser_default) = 1 /\ length (two_texts t z) = 2.
Proof. exists (lit "== A" ++ [LF]), (lit "b"). split; [right; right; exists (lit "== "), 65%N; repeat split; discriminate|]. split; [vm_compute; intros w []|]. split; [intros K; apply (f_equal (@length block)) in K; vm_compute in K; discriminate K|]. split; vm_compute; reflexivity. Qed.
(** An attribute entry, which sets an attribute at the beginning of a text, is a paragraph after a delimited block and an empty line. *)
Theorem C124_entry_refuted : exists t z, well_ended t /\ terminated (snd (fst (parsed t parser_default))) /\ Forall no_section (blocks_of t parser_default) /\
  (exists b a, two_texts t z = [b; BAttribute a]) /\ exists b c s st m, blocks_of (t ++ LF :: z) parser_default = [b; BSimple c s st m].
Proof.
  exists (lines [lit "----"; lit "a"; lit "----"] ++ [LF]), (lit ":b: c"). split; [right; right; exists (lines [lit "----"; lit "a"; lit "---"]), 45%N; repeat split; discriminate|]. split; [vm_compute; intros w []|].
  split; [vm_compute; repeat constructor; intros ? ? ? ? ? ? ? ? K; discriminate K|]. split; [eexists _, _; vm_compute; reflexivity|eexists _, _, _, _, _; vm_compute; reflexivity].
Qed.
(** A backslash at the end of an attribute entry is its last character, but when anything comes after it, if only an empty line. *)
Theorem C124_backslash_refuted : exists t z, terminated (snd (fst (parsed t parser_default))) /\ Forall no_section (blocks_of t parser_default) /\
  (exists a, blocks_of t parser_default = [BAttribute a] /\ at_value a = VValue (lit "b \")) /\ exists a b, blocks_of (t ++ LF :: z) parser_default = [BAttribute a; b] /\ at_value a = VValue (lit "b").
Proof.
  exists (lit ":a: b \" ++ [LF]), (lit "c"). split; [vm_compute; intros w []|]. split; [vm_compute; repeat constructor; intros ? ? ? ? ? ? ? ? K; discriminate K|]. split; [eexists; split; vm_compute; reflexivity|eexists _, _; split; vm_compute; reflexivity].
Qed.
(** The warnings are not the same: that a block is missing after a title is said of all the text that comes after the title. *)
Theorem C124_same_warnings_refuted : exists t z, well_ended t /\ shown z /\ (exists s, map w_source (snd (fst (parsed t parser_default))) = [s] /\ sp_data s = t) /\
  exists s, map w_source (snd (fst (parsed (t ++ LF :: z) parser_default))) = [s] /\ sp_data s = t ++ LF :: z.
Proof.
  exists (lit ".b" ++ [LF]), (lit "c" ++ [LF]). split; [right; right; exists (lit "."), 98%N; repeat split; discriminate|]. split.
  - exists (lit "c" ++ [LF]), [], (lit "c"), 99%N. split; [|split; [left; reflexivity|intros [K|K]; discriminate K]]. apply (a_line_intro (lit "c") []); [vm_compute; intuition discriminate| |]; intros y K; apply (f_equal (@rev N)) in K; rewrite rev_app_distr in K; discriminate K.
  - split; eexists; split; vm_compute; reflexivity.
Qed.
Print Assumptions C124_a_block.
Print Assumptions C124_texts_in_turn.
Print Assumptions C124_chapter_line.
Print Assumptions C124_chapters_one_by_one.
Print Assumptions C124_unterminated_refuted.
Print Assumptions C124_section_refuted.
Print Assumptions C124_entry_refuted.
Print Assumptions C124_backslash_refuted.
Print Assumptions C124_same_warnings_refuted.
