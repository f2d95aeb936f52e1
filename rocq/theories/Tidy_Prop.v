(** The lines over which parsing goes wrong, and documents without such lines (C122). *)
From Verif Require Import Text TextFacts Span_Model Span_Pure Span_Proof Span_Spec Span_Laws Parser_Model Group_Model Header_Model Header_Spec Block_Model Block_Spec Doc_Model Tree_Spec Tree_Proof
  Block_Proof Header_Proof Pre_Model Pre_Spec Pre_Prop Header_Prop Block_Prop Begin_Spec Begin_Proof Stuck_Spec Stuck_Proof Fate_Spec Fate_Proof Fate_Prop Tidy_Spec Tidy_Proof.

(** A document that panics has a line, not all spaces, that begins with a blank. *)
Theorem C122_panics_over_an_indented_line : forall E t sm P fuel, total_env E -> document_parse E fuel t sm P = Panic -> exists x l r c y, a_line_of t x l r (c :: y) /\ sp_tab c.
Proof.
  intros E t sm P fuel He H. destruct (C120_fate E t sm P He) as (h & s & Hh & Hs & F). rewrite discard_empty_lines_ok in Hs. apply Ok_inj in Hs. subst s.
  pose proof (place_header E t P h Hh) as L. destruct F as [((f0 & d & P' & F) & _)|[(_ & G & _)|(F & _)]].
  - exfalso. specialize (F (f0 + fuel) ltac:(lia)). assert (K : document_parse E (f0 + fuel) t sm P = Panic); [|congruence].
    revert H. unfold document_parse. cbv zeta. rewrite Hh. cbn [bind]. intros H. match type of H with bind ?a ?k = _ => apply (bind_mono2 a _ k Panic H) end; [discriminate|]. intros z Hz Nz. eapply until_fuel; [exact Hz|exact Nz|lia].
  - destruct (wrong_why E t _ _ _ _ _ He G (or_introl eq_refl) L eq_refl) as (s & m & ws & l & r & c & y & (A1 & A2 & A3) & B & C & D).
    destruct (metadata_begins _ _ _ _ _ A2 B) as (_ & K2). destruct (metadata_Suffix _ _ _ _ _ B) as (K3 & K4). assert (K5 : Suffix s (md_start m)) by (eapply Suffix_trans; [|exact K4]; rewrite K3; apply discard_empty_Suffix).
    assert (Pl : place t (md_start m)) by (split; [exact (located_Suffix _ _ _ A1 K5)|split; [exact K2|exact (ended_suffix _ _ _ A3 K5)]]).
    assert (Hne : sp_data (md_start m) <> []) by (intros K; rewrite K in C; apply a_line_nil in C; discriminate C).
    destruct (first_of _ _ _ _ C Hne) as (D1 & Hp & Hl & Ha). destruct (lift_line _ _ _ _ _ _ Pl D1 Hp Hl Ha) as (x & y' & K & _). exists x, l, (r ++ y'), c, y. auto.
  - rewrite F in H. discriminate H.
Qed.
(** A document that is parsed for ever has a line that begins with an opening bracket, a line of white space that is not
    all spaces, or an empty line at its end or before a delimiter of a compound block. *)
Theorem C122_endless_over_an_odd_line : forall E t sm P, total_env E -> (forall fuel, document_parse E fuel t sm P = OutOfFuel) ->
  (exists x l r y, a_line_of t x l r (91%N :: y)) \/ (exists x l r n, a_line_of t x l r n /\ n <> [] /\ blank n) \/ (exists x l r, a_line_of t x l r [] /\ trailing r).
Proof. intros E t sm P He H. destruct (C120_endless_where_no_block_is E t sm P He H) as (s & P' & L & Hs & Hd). exact (dead_line E t P' s L Hs Hd). Qed.
(** So a tidy document has a result, with one round of the loop for each character. *)
Theorem C122_tidy_documents_have_a_result : forall E t sm P, total_env E -> tidy t -> exists d P', forall fuel, length t <= fuel -> document_parse E fuel t sm P = Ok (d, P').
Proof.
  intros E t sm P He (T1 & T2). destruct (document_parse E (length t) t sm P) as [[d P']| |] eqn:H.
  - exists d, P'. intros fuel Hl. revert H. unfold document_parse. cbv zeta. destruct (header_any E t P He) as (h & ->). cbn [bind]. intros H. match type of H with bind ?a ?k = _ => apply (bind_mono2 a _ k _ H) end; [discriminate|]. intros z Hz Nz. eapply until_fuel; [exact Hz|exact Nz|exact Hl].
  - exfalso. destruct (C122_panics_over_an_indented_line E t sm P _ He H) as (x & l & r & c & y & K & Hc). destruct (T1 _ _ _ _ _ K) as (Kw & _). destruct Hc as [->| ->]; discriminate Kw.
  - exfalso. destruct (C122_endless_over_an_odd_line E t sm P He (C120_enough_fuel E t sm P _ He (le_n _) H)) as [(x & l & r & y & K)|[(x & l & r & n & K & Hn & Hb)|(x & l & r & K & Hr)]].
    + destruct (T1 _ _ _ _ _ K) as (_ & Kc). exact (Kc eq_refl).
    + destruct n as [|c n]; [exact (Hn eq_refl)|]. destruct (T1 _ _ _ _ _ K) as (Kw & _). inversion Hb as [|? ? K1 _]. congruence.
    + exact (T2 _ _ _ K Hr).
Qed.
(** And so does parsing as a whole, where there are no directive lines. *)
Theorem C122_parsing_gives_a_result : forall E ifh t P, total_env E -> tidy t -> p_primary P = None -> (forall n l, line_at t n l -> ~ directive_line l) ->
  exists r, forall f, length t <= f -> parser_parse E ifh (S (length t)) f t P = Ok r.
Proof.
  intros E ifh t P He Ht Hp Hd. unfold parser_parse. rewrite (C24_identity_without_directive_lines _ _ _ ifh _ t P Hd Hp). cbn [bind fst snd]. match goal with |- exists r, forall f, _ -> document_parse _ _ _ ?sm ?Q = _ => destruct (C122_tidy_documents_have_a_result E t sm Q He Ht) as (d & P' & K) end.
  exists (d, P'). exact K.
Qed.

(** * Documents written line by line *)
Lemma split_lf (k u q v : text) : ~ In LF k -> k ++ LF :: u = q ++ LF :: v -> (q = k /\ v = u) \/ exists q', q = k ++ LF :: q' /\ u = q' ++ LF :: v.
Proof.
  revert q. induction k as [|c k IH]; intros [|d q] Hk H; cbn in H.
  - injection H as <-. auto.
  - injection H as <- H. right. exists q. auto.
  - injection H as -> _. exfalso. apply Hk. left. reflexivity.
  - injection H as <- H. destruct (IH q (fun K => Hk (or_intror K)) H) as [(-> & ->)|(q' & -> & ->)]; [left; auto|right; exists q'; auto].
Qed.
Lemma unlines_line ls : (forall k, In k ls -> ~ In LF k) -> forall x l r n, a_line_of (unlines ls) x l r n -> exists ls1 k ls2, ls = ls1 ++ k :: ls2 /\ r = unlines ls2 /\ trimmed_line k n.
Proof.
  induction ls as [|k ls IH]; intros Hk x l r n (D & Hx & Hl & Ha).
  - exfalso. symmetry in D. apply app_eq_nil in D. destruct D as (_ & D). apply app_eq_nil in D. destruct D as (D & _). exact (Hl D).
  - assert (Hk0 : ~ In LF k) by (apply Hk; left; reflexivity). assert (Eu : unlines (k :: ls) = k ++ LF :: unlines ls) by (unfold unlines; cbn [map concat]; rewrite <- app_assoc; reflexivity). rewrite Eu in D. destruct Hx as [->|(q & ->)].
    + cbn [app] in D. destruct Ha as (z & e & _ & -> & Hz & [->|(-> & ->)] & Hn).
      * rewrite <- app_assoc in D. cbn [app] in D. destruct (split_lf _ _ _ _ Hk0 D) as [(-> & ->)|(q' & -> & _)]; [|exfalso; apply Hz, in_or_app; right; left; reflexivity]. exists [], k, ls. auto.
      * rewrite !app_nil_r in D. exfalso. apply Hz. rewrite <- D. apply in_or_app. right. left. reflexivity.
    + rewrite <- app_assoc in D. cbn [app] in D. assert (K : exists x', unlines ls = x' ++ l ++ r /\ starts_line x').
      { destruct (split_lf _ _ _ _ Hk0 D) as [(_ & K)|(q' & _ & K)]; [exists []; split; [symmetry; exact K|left; reflexivity]|]. exists (q' ++ [LF]). split; [rewrite <- app_assoc; exact K|right; eauto]. }
      destruct K as (x' & D' & Hx'). destruct (IH (fun j Hj => Hk j (or_intror Hj)) x' l r n) as (ls1 & j & ls2 & -> & Hr & Hn); [split; [exact D'|auto]|]. exists (k :: ls1), j, ls2. auto.
Qed.
(** Such a document is tidy if its lines are empty or begin with characters that are neither white space nor an opening
    bracket, and after each empty line comes a line that is neither empty nor, without the spaces at its end, a delimiter
    of a compound block. *)
Theorem C122_tidy_lines : forall ls, (forall k, In k ls -> ~ In LF k) -> (forall c k, In (c :: k) ls -> is_ws c = false /\ c <> 91%N) ->
  (forall ls1 ls2, ls = ls1 ++ [] :: ls2 -> exists k ls3, ls2 = k :: ls3 /\ forall n, trimmed_line k n -> ~ compound_delimiter n) -> tidy (unlines ls).
Proof.
  intros ls H1 H2 H3. split.
  - intros x l r c y H. destruct (unlines_line ls H1 _ _ _ _ H) as (ls1 & k & ls2 & D & _ & Hn). destruct (trimmed_prefix _ _ Hn) as (w & ->). apply (H2 c (y ++ w)). rewrite D. apply in_or_app. right. left. reflexivity.
  - intros x l r H Ht. destruct (unlines_line ls H1 _ _ _ _ H) as (ls1 & k & ls2 & D & -> & Hn).
    assert (k = []) as ->. { destruct k as [|c k]; [reflexivity|exfalso]. destruct (H2 c k) as (Hc & _); [rewrite D; apply in_or_app; right; left; reflexivity|].
      assert (Hb : blank (c :: k)). { apply (proj2 (line_blank (c :: k) (c :: k) [] [] ltac:(exists (c :: k), []; rewrite !app_nil_r; split; [reflexivity|]; split; [reflexivity|]; split; [apply H1; rewrite D; apply in_or_app; right; left; reflexivity|]; split; [right; auto|exact Hn]))). constructor. }
      inversion Hb as [|? ? K _]. congruence. }
    destruct (H3 _ _ D) as (k & ls3 & -> & Hk). assert (Eu : unlines (k :: ls3) = k ++ LF :: unlines ls3) by (unfold unlines; cbn [map concat]; rewrite <- app_assoc; reflexivity). rewrite Eu in Ht. destruct Ht as [K|(l' & r' & n' & Ha & Hd)]; [apply app_eq_nil in K; destruct K as (_ & K); discriminate K|].
    assert (Hk0 : ~ In LF k) by (apply H1; rewrite D; apply in_or_app; right; right; left; reflexivity). destruct Ha as (z & e & Dz & -> & Hz & [->|(-> & ->)] & Hn').
    + rewrite <- app_assoc in Dz. cbn [app] in Dz. destruct (split_lf _ _ _ _ Hk0 Dz) as [(-> & _)|(q' & -> & _)]; [exact (Hk _ Hn' Hd)|apply Hz, in_or_app; right; left; reflexivity].
    + rewrite !app_nil_r in Dz. apply Hz. rewrite <- Dz. apply in_or_app. right. left. reflexivity.
Qed.
Lemma not_compound k n a b : trimmed_line k n -> In a n -> In b n -> a <> b -> ~ compound_delimiter n.
Proof. intros _ Ha Hb Hab [->|(c & _ & m & _ & ->)]; [destruct Ha as [<-|[<-|[]]]; destruct Hb as [<-|[<-|[]]]; congruence|]. apply repeat_spec in Ha. apply repeat_spec in Hb. congruence. Qed.
Lemma trimmed_self k : (forall y, k <> y ++ [SP]) -> (forall y, k <> y ++ [CR]) -> trimmed_line k k.
Proof. intros H1 H2. exists k, []. split; [right; split; [reflexivity|exact H2]|]. split; [symmetry; apply app_nil_r|]. split; [intros c []|exact H1]. Qed.
Definition tidy_sample : list text := [lit "= A"; lit ":a: b"; []; lit "bc"; []; lit "== C"; []; lit "*d*"; lit "----"; lit "e"; lit "----"; []; lit ":x: y"; []; lit "fg"; lit "===="; lit "h"; lit "===="].
Ltac last_char := let y := fresh in let K := fresh in intros y K; apply (f_equal (@rev _)) in K; rewrite rev_app_distr in K; discriminate K.
Example C122_tidy_example : tidy (unlines tidy_sample).
Proof.
  apply C122_tidy_lines.
  - intros k Hk. unfold tidy_sample in Hk. repeat (destruct Hk as [<-|Hk]; [vm_compute; intuition discriminate|]). destruct Hk.
  - intros c k Hk. unfold tidy_sample in Hk. repeat (destruct Hk as [Hk|Hk]; [cbn in Hk; first [discriminate Hk|injection Hk as <- _; split; [reflexivity|discriminate]]|]). destruct Hk.
  - intros ls1 ls2 H. unfold tidy_sample in H.
    assert (F : forall k ls3 a b, In a k -> In b k -> a <> b -> trimmed_line k k -> ls2 = k :: ls3 -> exists k ls3, ls2 = k :: ls3 /\ forall n, trimmed_line k n -> ~ compound_delimiter n).
    { intros k ls3 a b Ha Hb Hab Hk ->. exists k, ls3. split; [reflexivity|]. intros n Hn. rewrite (trimmed_unique _ _ _ Hn Hk). exact (not_compound k k a b Hk Ha Hb Hab). }
    Ltac two a b F H := refine (F _ _ a b _ _ _ _ H); [cbn; tauto|cbn; tauto|discriminate|apply trimmed_self; last_char].
    do 18 (destruct ls1 as [|? ls1]; cbn [app] in H; [solve [discriminate H|injection H as H; symmetry in H; first [two 98%N 99%N F H|two 61%N 67%N F H|two 42%N 100%N F H|two 58%N 120%N F H|two 102%N 103%N F H]]|injection H as _ H]).
    destruct ls1; discriminate H.
Qed.
Print Assumptions C122_panics_over_an_indented_line.
Print Assumptions C122_endless_over_an_odd_line.
Print Assumptions C122_tidy_documents_have_a_result.
Print Assumptions C122_parsing_gives_a_result.
Print Assumptions C122_tidy_lines.
(** Expected: empty lines at the end of a document do not matter.  These documents have a result without, and are parsed
    for ever with them: after an attribute entry in the body, an example block, a listing. *)
Definition with_blank_end : list (list text) := [[lit "a"; []; lit ":b: c"]; [lit "===="; lit "a"; lit "===="]; [lit "----"; lit "a"; lit "----"]; [lit "===="; lit "----"; lit "a"; lit "----"; lit "===="]].
Theorem C122_empty_lines_at_the_end_refuted : exists E, total_env E /\ forall ls, In ls with_blank_end -> forall sm,
  (exists d P, document_parse E 60 (unlines ls) sm (begin_parse parser_default) = Ok (d, P)) /\
  forall fuel, document_parse E fuel (unlines (ls ++ [[]])) sm (begin_parse parser_default) = OutOfFuel.
Proof.
  exists E1. split; [exact E1_total|]. intros ls Hl sm. unfold with_blank_end in Hl.
  repeat (destruct Hl as [<-|Hl]; [split; [eexists _, _; vm_compute; reflexivity|]; intros fuel; match goal with |- document_parse _ _ ?t _ _ = _ => apply (C120_enough_fuel E1 t sm (begin_parse parser_default) 60 E1_total); [vm_compute; lia|vm_compute; reflexivity] end|]). destruct Hl.
Qed.
(** An empty line before the closing delimiter does not matter either, but for the same blocks. *)
Theorem C122_empty_line_before_a_delimiter_refuted : exists E, total_env E /\ forall ls, In ls with_blank_end -> forall sm,
  (exists d P, document_parse E 60 (unlines ([lit "****"] ++ ls ++ [lit "****"])) sm (begin_parse parser_default) = Ok (d, P)) /\
  forall fuel, document_parse E fuel (unlines ([lit "****"] ++ ls ++ [[]; lit "****"])) sm (begin_parse parser_default) = OutOfFuel.
Proof.
  exists E1. split; [exact E1_total|]. intros ls Hl sm. unfold with_blank_end in Hl.
  repeat (destruct Hl as [<-|Hl]; [split; [eexists _, _; vm_compute; reflexivity|]; intros fuel; match goal with |- document_parse _ _ ?t _ _ = _ => apply (C120_enough_fuel E1 t sm (begin_parse parser_default) 60 E1_total); [vm_compute; lia|vm_compute; reflexivity] end|]). destruct Hl.
Qed.
Print Assumptions C122_empty_lines_at_the_end_refuted.
Print Assumptions C122_empty_line_before_a_delimiter_refuted.
