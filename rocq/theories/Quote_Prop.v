(** C42 and C71: formatting marks. *)
From Verif Require Import Text TextFacts Maps Span_Model Span_Laws Parser_Model Regex Regex_Proof Regex_Scan Regex_Lang Regex_Lazy Attrlist_Model Look_Model Look_Proof
  Render_Model Quote_Model Quote_Spec Quote_Proof Quote_Plain.

(** Each mark but the one with a look-ahead condition is replaced as [mark_rule] says, from left to right,
    and all other text is copied; there is exactly one such result. *)
Theorem C42_marks_are_replaced_in_place : forall U P i q ty f t, nth_error (QUOTE_SUBS U) i = Some q -> nth_error marks i = Some (ty, f) -> (ty, f) <> mono ->
  (exists o, replace_with_lookahead U (qs_pattern q) (quote_replacer U P (qs_type q) (qs_scope q)) t = Ok o) /\
  forall o, replace_with_lookahead U (qs_pattern q) (quote_replacer U P (qs_type q) (qs_scope q)) t = Ok o <-> rewritten (mark_rule U P ty f) None t o.
Proof.
  intros U P i q ty f t Hq Hm Hn. rewrite table_eq, nth_error_map, Hm in Hq. cbn [option_map] in Hq. apply Some_inj in Hq. subst q.
  change (replace_with_lookahead U _ _ t) with (apply_mark U P (ty, f) t). assert (Hin : In (ty, f) marks) by (eapply nth_error_In, Hm).
  assert (El : looks_ahead (ty, f) = false).
  { clear -Hin Hn. unfold marks in Hin. cbn [In] in Hin. repeat (destruct Hin as [E|Hin]; [rewrite <- E in *; first [reflexivity|destruct (Hn eq_refl)]|]). destruct Hin. }
  split; [apply apply_mark_total|intros o; apply (apply_mark_iff U P (ty, f))]; try exact El; apply (marks_wf (ty, f)), Hin.
Qed.
(** The same for the remaining one in texts where no candidate can be rejected. *)
Theorem C42_monospaced_in_place_when_quiet : forall U P t, quiet t ->
  (exists o, apply_mark U P mono t = Ok o) /\ forall o, apply_mark U P mono t = Ok o <-> rewritten (mark_rule U P (fst mono) (snd mono)) None t o.
Proof. intros U P t Q. split; [apply mono_total, Q|intros o; apply mono_iff, Q]. Qed.
(** The whole step. *)
Theorem C42_whole_step : forall U P t o, formatted U P marks t o -> apply_quotes U P t = Ok o.
Proof.
  intros U P t o H. unfold apply_quotes. rewrite table_eq. destruct (is_match U QUOTED_TEXT_SNIFF t) eqn:E.
  - clear E. assert (G : forall l, (forall tf, In tf l -> In tf marks) -> forall t o, formatted U P l t o -> quotes_loop U P (map (entry U) l) t = Ok o).
    { clear. intros l Hl t o H. induction H as [t|tf l t t' o Hq Hr Hf IH]; rewrite quotes_loop_eq; [reflexivity|].
      assert (Ea : apply_mark U P tf t = Ok t').
      { destruct (looks_ahead tf) eqn:El.
        - assert (tf = mono) as ->. { revert El. specialize (Hl tf (or_introl eq_refl)). clear -Hl. unfold marks in Hl. cbn [In] in Hl. repeat (destruct Hl as [<-|Hl]; [cbn; intros E; try discriminate E; reflexivity|]). destruct Hl. }
          apply mono_iff; auto.
        - apply apply_mark_iff; [apply marks_wf, Hl; left; reflexivity|exact El|exact Hr]. }
      rewrite Ea. cbn [bind]. apply IH. intros x Hx. apply Hl. right. exact Hx. }
    apply (G marks (fun tf H => H) t o H).
  - assert (N : forall c, In c t -> ~ In c (lit "*_`#^~")) by apply (sniff_false U t E). clear E.
    assert (G : forall l, (forall tf, In tf l -> In tf marks) -> formatted U P l t o -> o = t); [|f_equal; symmetry; apply (G marks (fun tf H => H) H)].
    clear H. intros l Hl H. induction H as [t|tf l t t' o Hq Hr Hf IH]; [reflexivity|].
    assert (t' = t) as ->. { eapply rewritten_none; [|exact Hr]. intros a w r y -> HR. apply rule_has_op in HR. destruct HR as (x & z & ->).
      assert (Hc : exists c, In c (op_of (snd tf)) /\ In c (lit "*_`#^~")).
      { specialize (Hl tf (or_introl eq_refl)). clear -Hl. unfold marks in Hl. cbn [In] in Hl. repeat (destruct Hl as [<-|Hl]; [first [exists 42%N; split; inn|exists 95%N; split; inn|exists 96%N; split; inn|exists 35%N; split; inn|exists 94%N; split; inn|exists 126%N; split; inn]|]). destruct Hl. }
      destruct Hc as (c & H1 & H2). apply (N c); [rewrite !in_app_iff; auto|exact H2]. }
    apply IH; [exact N|]. intros x Hx. apply Hl. right. exact Hx.
Qed.
(** The loop with retries always ends. *)
Theorem C42_the_step_ends : forall U P t, apply_quotes U P t <> OutOfFuel.
Proof. exact apply_quotes_ends. Qed.
(** After a rejected candidate that follows an accepted one, the loop slices the shortened text with the
    old position: a panic, or text is lost.  A rejected candidate after a multi-byte character also
    panics. *)
Theorem C42_never_panics_refuted : exists t1 t2, apply_quotes ascii_only parser_default t1 = Panic /\ apply_quotes ascii_only parser_default t2 = Panic /\ t1 = lit "`a` `b`' c" /\ t2 = 8212%N :: lit "`b`'s".
Proof. eexists _, _. split; [|split; [|split; reflexivity]]; vm_compute; reflexivity. Qed.
Theorem C42_text_is_kept_refuted : exists t o, apply_quotes ascii_only parser_default t = Ok o /\ In 98%N t /\ ~ In 98%N o.
Proof. exists (lit "`a` \`b`' c"), (lit "<code>a</code> \` c"). split; [vm_compute; reflexivity|]. split; [cbn; tauto|]. apply not_in_compute. reflexivity. Qed.
Example C42_example : apply_quotes ascii_only parser_default (lit "[#i.r]#b# \*d* [x]_e_ and **f**g") =
    Ok (lit "<span id=" ++ DQ ++ lit "i" ++ DQ ++ lit " class=" ++ DQ ++ lit "r" ++ DQ ++ lit ">b</span> *d* <em class=" ++ DQ ++ lit "x" ++ DQ ++ lit ">e</em> and <strong>f</strong>g")
  /\ nth_error marks 1 = Some (QStrong, FConstrained [] (lit "*") (lit "*")) /\ quiet (lit "a `b` c") /\ apply_mark ascii_only parser_default mono (lit "a `b` c") = Ok (lit "a <code>b</code> c").
Proof.
  split; [vm_compute; reflexivity|]. split; [reflexivity|]. split; [|vm_compute; reflexivity].
  intros a c b E. do 7 (destruct a as [|? a]; [cbn in E; try discriminate E; injection E as <- _; repeat split; discriminate|cbn in E; injection E as _ E]). destruct a; discriminate E.
Qed.

(** C71: a mark around a plain word, in a plain text, becomes its element and nothing else changes. *)
Theorem C71_plain_mark : forall U P tf a w b, In tf marks -> plain a -> plain w -> plain b -> fits U (snd tf) a w b ->
  apply_quotes U P (a ++ op_of (snd tf) ++ w ++ cl_of (snd tf) ++ b) = Ok (a ++ element (fst tf) None [] w ++ b).
Proof. exact plain_mark. Qed.
(** A text without mark characters is not changed. *)
Theorem C71_no_mark_no_change : forall U P t, (forall c, In c t -> ~ In c (lit "*_`#^~")) -> apply_quotes U P t = Ok t.
Proof.
  intros U P t H. unfold apply_quotes. destruct (is_match U QUOTED_TEXT_SNIFF t) eqn:E; [|reflexivity]. exfalso. unfold is_match in E. destruct (search U QUOTED_TEXT_SNIFF None t) as [[p m]|] eqn:Es; [|discriminate].
  apply search_sound in Es. destruct Es as (Ht & Hm & _). apply match_here_lang in Hm. destruct Hm as (_ & _ & L). apply -> lang_chr in L. destruct L as (c & Ew & Hc & _). apply (H c); [|apply c_in_iff, Hc].
  rewrite Ht, Ew, !in_app_iff. right. left. left. reflexivity.
Qed.
Example C71_example : plain (lit "see the ") /\ plain (lit "big word") /\ plain (lit ", then") /\ fits ascii_only (snd (QStrong, FConstrained [] (lit "*") (lit "*"))) (lit "see the ") (lit "big word") (lit ", then") /\
  apply_quotes ascii_only parser_default (lit "see the *big word*, then") = Ok (lit "see the <strong>big word</strong>, then").
Proof.
  assert (Hp : forall t, forallb (fun c => negb (has_char c specials)) t = true -> plain t).
  { intros t H c Hc Hs. rewrite forallb_forall in H. specialize (H c Hc). apply negb_true_iff in H. apply (not_in_compute _ _ H Hs). }
  repeat split; try (apply Hp; reflexivity); try (vm_compute; reflexivity).
  - exists 98%N. split; [reflexivity|]. right. exists (lit "ig wor"), 100%N. split; reflexivity.
  - intros c r E. injection E as <- _. reflexivity.
  - right. exists (lit "see the"), 32%N. split; [reflexivity|]. split; [reflexivity|]. cbn. intuition discriminate.
Qed.
Print Assumptions C42_marks_are_replaced_in_place.
Print Assumptions C42_monospaced_in_place_when_quiet.
Print Assumptions C42_whole_step.
Print Assumptions C42_the_step_ends.
Print Assumptions C42_never_panics_refuted.
Print Assumptions C42_text_is_kept_refuted.
Print Assumptions C71_plain_mark.
Print Assumptions C71_no_mark_no_change.
