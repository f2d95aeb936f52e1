(** What becomes of a document (C120). *)
From Verif Require Import Text TextFacts Span_Model Span_Pure Span_Proof Span_Spec Span_Laws Parser_Model Group_Model Header_Model Header_Spec Block_Model Block_Spec Doc_Model Tree_Spec Tree_Proof
  Block_Proof Header_Proof Header_Prop Block_Prop Pre_Spec Begin_Spec Begin_Proof Stuck_Spec Fate_Spec Fate_Proof.

(** With an inline layer that always answers, a document has one of three fates, whatever the fuel: it gives a result;
    it panics; it is parsed for ever.  Which one is told by the places that the loop over the blocks comes to. *)
Theorem C120_fate : forall E t sm P, total_env E -> exists h s, header_parse E (span_new t) P = Ok h /\ discard_empty_lines (mi_after (fst h)) = Ok s /\
  let Q := with_levels (snd (snd h)) (sectnumlevels (snd (snd h))) in
  ((exists fuel0 d P', forall fuel, fuel0 <= fuel -> document_parse E fuel t sm P = Ok (d, P')) /\ forall k, ~ goes_wrong E t never 0 s Q k) \/
  ((exists fuel0, forall fuel, fuel0 <= fuel -> document_parse E fuel t sm P = Panic) /\ goes_wrong E t never 0 s Q true /\ ~ goes_wrong E t never 0 s Q false) \/
  ((forall fuel, document_parse E fuel t sm P = OutOfFuel) /\ goes_wrong E t never 0 s Q false /\ ~ goes_wrong E t never 0 s Q true).
Proof.
  intros E t sm P He. destruct (header_any E t P He) as (h & Hh). exists h, (p_discard_empty_lines (mi_after (fst h))). split; [exact Hh|]. split; [apply discard_empty_lines_ok|].
  exact (document_fate E t sm P h _ He Hh (discard_empty_lines_ok _)).
Qed.

(** A document panics only over a line with a blank at its beginning, after the metadata lines of a block. *)
Theorem C120_panics_over_indented_text : forall E t sm P fuel, total_env E -> document_parse E fuel t sm P = Panic ->
  exists s m ws l r c y, line_begins t (md_start m) /\ metadata_parse E s parser_default = Ok (m, ws) /\ a_line (sp_data (md_start m)) l r (c :: y) /\ sp_tab c.
Proof.
  intros E t sm P fuel He H. destruct (C120_fate E t sm P He) as (h & s & Hh & Hs & F). rewrite discard_empty_lines_ok in Hs. apply Ok_inj in Hs. subst s.
  pose proof (place_header E t P h Hh) as L.
  destruct F as [((f0 & d & P' & F) & _)|[(_ & G & _)|(F & _)]].
  - exfalso. specialize (F (f0 + fuel) ltac:(lia)). assert (K : document_parse E (f0 + fuel) t sm P = Panic); [|congruence].
    revert H. unfold document_parse. cbv zeta. rewrite Hh. cbn [bind]. intros H. match type of H with bind ?a ?k = _ => apply (bind_mono2 a _ k Panic H) end; [discriminate|]. intros z Hz Nz. eapply until_fuel; [exact Hz|exact Nz|lia].
  - destruct (wrong_why E t _ _ _ _ _ He G (or_introl eq_refl) L eq_refl) as (s & m & ws & l & r & c & y & (A1 & A2 & _) & B & C & D). exists s, m, ws, l, r, c, y. split; [|auto].
    destruct (metadata_begins _ _ _ _ _ A2 B) as (_ & K2). destruct (metadata_Suffix _ _ _ _ _ B) as (K3 & K4). apply place_line; [|exact K2|].
    + apply (located_Suffix _ _ _ A1). eapply Suffix_trans; [|exact K4]. rewrite K3. apply discard_empty_Suffix.
    + intros K. rewrite K in C. apply a_line_nil in C. discriminate C.
  - rewrite F in H. discriminate H.
Qed.
(** So a document in which no line begins with a blank does not panic. *)
Theorem C120_no_panic_without_indented_lines : forall E t sm P fuel, total_env E -> (forall x c y, t = x ++ c :: y -> starts_line x -> ~ sp_tab c) -> document_parse E fuel t sm P <> Panic.
Proof.
  intros E t sm P fuel He Ht H. destruct (C120_panics_over_indented_text E t sm P fuel He H) as (s & m & ws & l & r & c & y & (a & b & D & Ha & _) & _ & Hl & Hc).
  destruct (a_line_head _ _ _ _ _ Hl) as (z & Dz). rewrite Dz in D. exact (Ht a c (z ++ b) D Ha Hc).
Qed.
(** A document is parsed for ever only if the loop comes to a place where there is text but no block. *)
Theorem C120_endless_where_no_block_is : forall E t sm P, total_env E -> (forall fuel, document_parse E fuel t sm P = OutOfFuel) -> exists s P', place t s /\ sp_data s <> [] /\ dead E P' s.
Proof.
  intros E t sm P He H. destruct (C120_fate E t sm P He) as (h & s & Hh & Hs & F). rewrite discard_empty_lines_ok in Hs. apply Ok_inj in Hs. subst s.
  pose proof (place_header E t P h Hh) as L.
  destruct F as [((f0 & d & P' & F) & _)|[((f0 & F) & _)|(_ & G & _)]].
  - specialize (F f0 (le_n _)). rewrite H in F. discriminate F.
  - specialize (F f0 (le_n _)). rewrite H in F. discriminate F.
  - exact (wrong_dead E t _ _ _ _ _ G L eq_refl).
Qed.
(** As much fuel as the text has characters is enough: with it, the loop either has its result, or panics, or never ends. *)
Theorem C120_enough_fuel : forall E t sm P fuel, total_env E -> length t <= fuel -> document_parse E fuel t sm P = OutOfFuel -> forall fuel', document_parse E fuel' t sm P = OutOfFuel.
Proof.
  intros E t sm P fuel He Hl H. destruct (header_any E t P He) as (h & Hh). pose proof (after_header E t P h Hh) as S0. pose proof (suffix_len _ _ S0) as L0. cbn [sp_data span_new] in L0.
  destruct (C120_fate E t sm P He) as (h' & s & Hh' & Hs & F). rewrite Hh in Hh'. apply Ok_inj in Hh'. subst h'. rewrite discard_empty_lines_ok in Hs. apply Ok_inj in Hs. subst s.
  destruct F as [((f0 & d & P' & F) & N)|[(_ & G & N)|(F & _)]]; [| |exact F]; exfalso.
  - destruct (loop_fate E t He fuel never 0 _ (with_levels (snd (snd h)) (sectnumlevels (snd (snd h)))) (or_introl eq_refl) (located_Suffix _ _ _ (located_new t) S0) (ended_suffix _ _ _ (ended_new t) S0) ltac:(lia)) as [(b & Hb)|[(_ & K)|(_ & K)]]; [|exact (N _ K)..].
    specialize (F (f0 + fuel) ltac:(lia)). revert F H. unfold document_parse. cbv zeta. rewrite Hh. cbn [bind]. unfold parse_blocks_until. rewrite discard_empty_lines_ok. cbn [bind]. rewrite Hb, (loop_fuel _ _ (f0 + fuel) _ _ _ _ _ Hb) by (discriminate || lia). congruence.
  - destruct (loop_fate E t He fuel never 0 _ (with_levels (snd (snd h)) (sectnumlevels (snd (snd h)))) (or_introl eq_refl) (located_Suffix _ _ _ (located_new t) S0) (ended_suffix _ _ _ (ended_new t) S0) ltac:(lia)) as [(b & Hb)|[(Hb & _)|(_ & K)]]; [| |exact (N K)].
    + destruct (wrong_panics E t _ _ _ _ _ G eq_refl) as (f0 & K). specialize (K (f0 + fuel) ltac:(lia)). rewrite (loop_fuel _ _ _ _ _ _ _ _ Hb) in K by (discriminate || lia). discriminate K.
    + revert H. unfold document_parse. cbv zeta. rewrite Hh. cbn [bind]. unfold parse_blocks_until. rewrite discard_empty_lines_ok. cbn [bind]. rewrite Hb. discriminate.
Qed.

(** An inline layer that always answers: the one of the model, and the text itself where that has no answer. *)
Definition E1 : env := mkenv ascii_only (fun P g hb t => match e_sub E0 P g hb t with Ok o => Ok o | _ => Ok t end).
Lemma E1_total : total_env E1.
Proof. intros P g hb t. unfold E1. cbn [e_sub]. destruct (e_sub E0 P g hb t); eauto. Qed.
(** Texts without indented lines. *)
Example flush_text : forall x c y, lines [lit "= A"; []; lit "== B"; []; lit "*c*"] = x ++ c :: y -> starts_line x -> ~ sp_tab c.
Proof.
  intros x c y H [->|(q & ->)].
  - injection H as <- _. intros [K|K]; discriminate K.
  - rewrite <- app_assoc in H. assert (K : forallb (fun k => negb ((nth k (lines [lit "= A"; []; lit "== B"; []; lit "*c*"]) 0 =? LF)%N && is_sp_tab (nth (S k) (lines [lit "= A"; []; lit "== B"; []; lit "*c*"]) 0%N))) (seq 0 20) = true) by (vm_compute; reflexivity).
    rewrite forallb_forall in K. assert (Hq : length q < 20). { apply (f_equal (@length _)) in H. rewrite !app_length in H. cbn [length] in H. assert (L : length (lines [lit "= A"; []; lit "== B"; []; lit "*c*"]) <= 20) by (vm_compute; lia). lia. }
    specialize (K (length q) ltac:(apply in_seq; lia)). rewrite H in K. rewrite app_nth2, Nat.sub_diag in K by lia. cbn [app nth] in K. rewrite app_nth2 in K by lia. replace (S (length q) - length q) with 1 in K by lia. cbn [nth] in K.
    rewrite N.eqb_refl in K. intros Hc. apply is_sp_tab_spec in Hc. rewrite Hc in K. discriminate K.
Qed.
(** The three fates. *)
Definition fine_text := lines [lit "= A"; []; lit "== B"; []; lit "*c*"].
Example fine_fate : exists d P', document_parse E1 60 fine_text [] (begin_parse parser_default) = Ok (d, P') /\ length (d_blocks d) = 1.
Proof. eexists _, _. split; [vm_compute; reflexivity|vm_compute; reflexivity]. Qed.
Definition indented_text := lines [lit "== B"; []; lit " c"].
(** Parsing does not always have a result or an error: it panics over an indented line in a section. *)
Theorem C120_parsing_does_not_panic_refuted : exists E t, total_env E /\ forall sm, exists fuel0, forall fuel, fuel0 <= fuel -> document_parse E fuel t sm (begin_parse parser_default) = Panic.
Proof.
  exists E1, indented_text. split; [exact E1_total|]. intros sm.
  assert (K : document_parse E1 20 indented_text sm (begin_parse parser_default) = Panic) by (vm_compute; reflexivity).
  destruct (C120_fate E1 indented_text sm (begin_parse parser_default) E1_total) as (h & s & Hh & Hs & [((f0 & d & P' & F) & _)|[((f0 & F) & _)|(F & _)]]).
  - exfalso. specialize (F (f0 + 20) ltac:(lia)). assert (X : document_parse E1 (f0 + 20) indented_text sm (begin_parse parser_default) = Panic); [|congruence].
    revert K. unfold document_parse. cbv zeta. rewrite Hh. cbn [bind]. intros K. match type of K with bind ?a ?k = _ => apply (bind_mono2 a _ k Panic K) end; [discriminate|]. intros z Hz Nz. eapply until_fuel; [exact Hz|exact Nz|lia].
  - exists f0. exact F.
  - rewrite F in K. discriminate K.
Qed.
Definition anchor_text := lines [lit "a"; []; lit "[[b]]"].
Example anchor_fate : forall sm fuel, document_parse E1 fuel anchor_text sm (begin_parse parser_default) = OutOfFuel.
Proof.
  intros sm fuel. apply (C120_enough_fuel E1 anchor_text sm (begin_parse parser_default) 20 E1_total); [vm_compute; lia|vm_compute; reflexivity].
Qed.

Print Assumptions C120_fate.
Print Assumptions C120_panics_over_indented_text.
Print Assumptions C120_no_panic_without_indented_lines.
Print Assumptions C120_endless_where_no_block_is.
Print Assumptions C120_enough_fuel.
Print Assumptions C120_parsing_does_not_panic_refuted.
