(** C38, C39, C48, C57, C58: special characters, attribute references, character replacements and
    post replacements.  The notions used in the statements are in [Subs_Spec]. *)
From Verif Require Import Text TextFacts Maps Span_Model Catalog_Model Parser_Model Regex Regex_Proof Regex_Lang Subs_Model Subs_Spec Subs_Proof Subs_Chars.

(** C38. *)
Theorem C38_escaping_is_total_safe_and_reversible : forall U t, exists o,
  apply_special_characters U t = Ok o /\
  (forall c, In c o -> c <> 60%N /\ c <> 62%N) /\
  (forall a b, o = a ++ 38%N :: b -> starts_entity (38%N :: b)) /\
  decode o = t.
Proof.
  intros U t. exists (flat_map esc t). split; [apply apply_special_characters_eq|]. split; [apply esc_no_angle|]. split; [apply esc_amp|apply decode_esc].
Qed.
Theorem C38_escaping_is_injective : forall U t1 t2, apply_special_characters U t1 = apply_special_characters U t2 -> t1 = t2.
Proof.
  intros U t1 t2 H. rewrite !apply_special_characters_eq in H. apply Span_Laws.Ok_inj in H. rewrite <- (decode_esc t1), <- (decode_esc t2), H. reflexivity.
Qed.
Theorem C38_escaping_is_compositional : forall U a b oa ob,
  apply_special_characters U a = Ok oa -> apply_special_characters U b = Ok ob -> apply_special_characters U (a ++ b) = Ok (oa ++ ob).
Proof.
  intros U a b oa ob Ha Hb. rewrite apply_special_characters_eq in *. apply Span_Laws.Ok_inj in Ha, Hb. subst. rewrite flat_map_app. reflexivity.
Qed.
Example C38_example : apply_special_characters ascii_only (lit "a<b>&lt;c") = Ok (lit "a&lt;b&gt;&amp;lt;c") /\ decode (lit "a&lt;b&gt;&amp;lt;c") = lit "a<b>&lt;c".
Proof. vm_compute. split; reflexivity. Qed.

(** C39. [value_of P n] is the text of attribute [n], or [None] when there is no such attribute. *)
Theorem C39_references_are_expanded_exactly : forall U P t o, apply_attributes U P t = Ok o <-> expands (value_of P) t o.
Proof. exact apply_attributes_iff. Qed.
Theorem C39_expansion_never_fails : forall U P t, exists o, apply_attributes U P t = Ok o.
Proof. exact apply_attributes_total. Qed.
Theorem C39_expansion_is_deterministic : forall value t o1 o2, expands value t o1 -> expands value t o2 -> o1 = o2.
Proof. intros value t o1 o2 H1 H2. eapply expands_det; eauto. Qed.
(** Text without an opening brace is unchanged. *)
Theorem C39_text_without_references_is_unchanged : forall U P t, ~ In 123%N t -> apply_attributes U P t = Ok t.
Proof. intros U P t H. apply apply_attributes_iff, expands_no_brace, has_char_false, H. Qed.
(** The value is inserted as it is and the scan goes on after the reference. *)
Theorem C39_values_are_not_scanned_again : forall U P n v r o, is_name n -> value_of P n = Some v ->
  apply_attributes U P (ref n ++ r) = Ok o -> exists o', apply_attributes U P r = Ok o' /\ o = v ++ o'.
Proof.
  intros U P n v r o Hn Hv H. apply apply_attributes_iff in H. apply expands_ref in H; [|exact Hn]. destruct H as (o' & H & ->). rewrite Hv. exists o'. rewrite apply_attributes_iff. auto.
Qed.
Theorem C39_unknown_references_stay : forall U P n r o, is_name n -> value_of P n = None ->
  apply_attributes U P (ref n ++ r) = Ok o -> exists o', apply_attributes U P r = Ok o' /\ o = ref n ++ o'.
Proof.
  intros U P n r o Hn Hv H. apply apply_attributes_iff in H. apply expands_ref in H; [|exact Hn]. destruct H as (o' & H & ->). rewrite Hv. exists o'. rewrite apply_attributes_iff. auto.
Qed.
Definition ex_attrs : parser := with_intrinsic_attribute ascii_only (with_intrinsic_attribute ascii_only parser_default (lit "foo") (lit "{bar}<") Anywhere) (lit "bar") (lit "X") Anywhere.
Example C39_example : is_name (lit "foo") /\ value_of ex_attrs (lit "foo") = Some (lit "{bar}<") /\
  apply_attributes ascii_only ex_attrs (lit "a{foo}{bar}\{bar}{none}\{none}{a b}") = Ok (lit "a{bar}<X{bar}{none}\{none}{a b}").
Proof.
  split; [|vm_compute; split; reflexivity]. exists 102%N, (lit "oo"). repeat split; [unfold name_first; lia|]. change (lit "oo") with [111%N; 111%N]. apply Forall_forall. intros c [<-|[<-|[]]]; unfold name_char, name_first; lia.
Qed.

(** C48. *)
Theorem C48_without_option_exactly_the_plus_lines : forall U P t o,
  is_attribute_set P (lit "hardbreaks-option") = false -> In LF t ->
  (apply_post_replacements U P false t = Ok o <-> exists ls ls', lines_are t ls /\ lines_are o ls' /\ Forall2 plus_broken ls ls').
Proof. exact post_plain. Qed.
Theorem C48_single_line_is_unchanged : forall U P hb t, ~ In LF t -> apply_post_replacements U P hb t = Ok t.
Proof. exact post_plain_single. Qed.
Theorem C48_with_option_every_line_but_the_last : forall U P hb t init lst,
  is_attribute_set P (lit "hardbreaks-option") || hb = true -> In LF t -> lines_are t (init ++ [lst]) -> lst <> [] ->
  exists o mid ls', apply_post_replacements U P hb t = Ok o /\ lines_are o (ls' ++ [lst]) /\ Forall2 no_cr init mid /\ Forall2 hard_broken mid ls'.
Proof. exact post_hard. Qed.
Theorem C48_with_option_final_newline_is_lost : forall U P hb t init lst,
  is_attribute_set P (lit "hardbreaks-option") || hb = true -> lines_are t (init ++ [lst]) ->
  exists o mid lst' ls', apply_post_replacements U P hb (t ++ [LF]) = Ok o /\ lines_are o (ls' ++ [lst']) /\ no_cr lst lst' /\ Forall2 no_cr init mid /\ Forall2 hard_broken mid ls'.
Proof. exact post_hard_nl. Qed.
Theorem C48_never_fails : forall U P hb t, exists o, apply_post_replacements U P hb t = Ok o.
Proof. exact post_total. Qed.
Definition nl (l : list text) : text := join [LF] l.
Example C48_example :
  is_attribute_set parser_default (lit "hardbreaks-option") = false /\
  apply_post_replacements ascii_only parser_default false (nl [lit "a +"; lit "b+"; lit " +"; lit "d"]) = Ok (nl [lit "a<br>"; lit "b+"; lit "<br>"; lit "d"]) /\
  apply_post_replacements ascii_only parser_default true (nl [lit "a +"; lit "b"; lit "c +"]) = Ok (nl [lit "a<br>"; lit "b<br>"; lit "c +"]) /\
  lines_are (nl [lit "a +"; lit "b"; lit "c +"]) ([lit "a +"; lit "b"] ++ [lit "c +"]).
Proof.
  split; [reflexivity|]. split; [vm_compute; reflexivity|]. split; [vm_compute; reflexivity|]. apply lines_are_join; [discriminate|]. repeat constructor; apply not_in_b; reflexivity.
Qed.

(** C57. *)
Theorem C57_replacements_are_the_passes_in_order : forall U t o,
  apply_character_replacements U t = Ok o <-> passes (replacement_rules U) t o.
Proof. exact apply_character_replacements_iff. Qed.
Theorem C57_replacements_never_fail : forall U t, exists o, apply_character_replacements U t = Ok o.
Proof. exact apply_character_replacements_total. Qed.
(** At each place of the text at most one replacement of a pass applies. *)
Theorem C57_rules_leave_no_choice : forall U R, In R (replacement_rules U) -> rule_ok R.
Proof.
  intros U R H. unfold replacement_rules in H. cbn [In] in H.
  repeat (destruct H as [<-|H]; [first [apply literal_rule_ok; discriminate | apply dash_spaces_rule_ok | apply dash_word_rule_ok | apply apostrophe_rule_ok | apply entity_rule_ok]|]). destruct H.
Qed.
Theorem C57_plain_text_is_unchanged : forall U t, (forall w, In w [lit "&"; lit "'"; lit "--"; lit "..."; lit "(C)"; lit "(R)"; lit "(TM)"] -> ~ exists a b, t = a ++ w ++ b) ->
  apply_character_replacements U t = Ok t.
Proof.
  intros U t H. apply apply_character_replacements_iff.
  assert (K : forall l, (forall R, In R l -> In R (replacement_rules U)) -> passes l t t); [|apply K; auto].
  induction l as [|R l IH]; intros Hl; [reflexivity|]. exists t. split; [|apply IH; intros R' Hr; apply Hl; right; exact Hr].
  apply rewritten_id. intros pv w rest x HR (a & Et). destruct (rule_sniffed U R pv w rest x (Hl R (or_introl eq_refl)) HR) as (a' & s & b' & -> & Hin).
  apply (H s Hin). exists (a ++ a'), (b' ++ rest). rewrite Et, <- !app_assoc. reflexivity.
Qed.
Example C57_example : apply_character_replacements ascii_only (lit "(C) \(R) a--b, c -- d... it's -&gt; \=&gt; &amp;euro; \&amp;#169;") =
  Ok (lit "&#169; (R) a&#8212;&#8203;b, c&#8201;&#8212;&#8201;d&#8230;&#8203; it&#8217;s &#8594; =&gt; &euro; &amp;#169;").
Proof. vm_compute. reflexivity. Qed.

(** C58. The places where a double hyphen may become an em dash. *)
Definition last_is (p : char -> bool) (a : text) : Prop := exists u c, a = u ++ [c] /\ p c = true.
Definition first_is (p : char -> bool) (b : text) : Prop := exists c u, b = c :: u /\ p c = true.
Definition line_start (a : text) : Prop := a = [] \/ last_is (N.eqb LF) a.
Definition line_end (b : text) : Prop := b = [] \/ first_is (N.eqb LF) b.
Definition dash_place (U : unicode) (a b : text) : Prop :=
  (last_is (is_word U) a /\ (first_is (is_word U) b \/ line_end b)) \/
  (line_start a /\ first_is (is_word U) b) \/
  ((line_start a \/ last_is (N.eqb SP) a) /\ (line_end b \/ first_is (N.eqb SP) b)).
Theorem C58_em_dash_only_at_documented_places_refuted : exists U t o,
  (forall a b, t = a ++ lit "--" ++ b -> ~ dash_place U a b) /\
  apply_character_replacements U t = Ok o /\ o <> t /\ contains (lit "&#8212;") o = true.
Proof.
  exists ascii_only, (lit "foo-- bar"), (lit "foo&#8212;&#8203; bar"). split; [|vm_compute; repeat split; discriminate].
  intros a b E H. cbn in E.
  assert (K : a = lit "foo" /\ b = lit " bar").
  { destruct a as [|a1 [|a2 [|a3 [|a4 a]]]]; cbn in E; try discriminate E.
    - injection E as <- <- <- <-. split; reflexivity.
    - injection E as _ _ _ _ E. do 5 (destruct a as [|? a]; cbn in E; [discriminate E|injection E as _ E]). destruct a; discriminate E. }
  destruct K as [-> ->]. clear E.
  assert (LA : forall p, last_is p (lit "foo") -> p 111%N = true) by (intros p (u & c & E & Hp); change (lit "foo") with (lit "fo" ++ [111%N]) in E; apply app_inj_tail in E; destruct E as [_ <-]; exact Hp).
  assert (FB : forall p, first_is p (lit " bar") -> p 32%N = true) by (intros p (c & u & E & Hp); injection E as <- _; exact Hp).
  assert (LE : ~ line_end (lit " bar")) by (intros [X|X]; [discriminate X|apply FB in X; discriminate X]).
  assert (LS : ~ line_start (lit "foo")) by (intros [X|X]; [discriminate X|apply LA in X; discriminate X]).
  destruct H as [[_ [H|H]]|[[H _]|[[H|H] _]]]; [apply FB in H; discriminate H|contradiction|contradiction|contradiction|apply LA in H; discriminate H].
Qed.

Print Assumptions C38_escaping_is_total_safe_and_reversible.
Print Assumptions C38_escaping_is_injective.
Print Assumptions C38_escaping_is_compositional.
Print Assumptions C39_references_are_expanded_exactly.
Print Assumptions C39_expansion_never_fails.
Print Assumptions C39_expansion_is_deterministic.
Print Assumptions C39_text_without_references_is_unchanged.
Print Assumptions C39_values_are_not_scanned_again.
Print Assumptions C39_unknown_references_stay.
Print Assumptions C48_without_option_exactly_the_plus_lines.
Print Assumptions C48_single_line_is_unchanged.
Print Assumptions C48_with_option_every_line_but_the_last.
Print Assumptions C48_with_option_final_newline_is_lost.
Print Assumptions C48_never_fails.
Print Assumptions C57_replacements_are_the_passes_in_order.
Print Assumptions C57_replacements_never_fail.
Print Assumptions C57_rules_leave_no_choice.
Print Assumptions C57_plain_text_is_unchanged.
Print Assumptions C58_em_dash_only_at_documented_places_refuted.
