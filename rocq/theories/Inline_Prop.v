(** C97, C98: anchors and link macros. *)
From Verif Require Import Text TextFacts Span_Proof Span_Model Span_Laws Maps Parser_Model Regex Regex_Proof Regex_Scan Regex_Lang Subs_Proof Attrlist_Model Render_Model Quote_Model
  Subs_Chars Macro_Model Macro_Spec Macro_Proof Auto_Spec Auto_Proof Inline_Spec Inline_Proof.

(** * C97 *)
(** The anchor step finds the anchors of the specification and no others, and writes an element with the id for each. *)
Theorem C97_anchors : forall U t o, replace_all_pure U (INLINE_ANCHOR U) anchor_replacer t = Ok o <-> replaced (anchor_at U) (anchor_out U) None t o.
Proof. intros U t o. apply anchor_rewritten. Qed.
(** It is all the inline macros do to a text without colons and at signs. *)
Theorem C97_plain_text : forall U fs P t o, ~ In 58%N t -> ~ In 64%N t -> apply_macros U fs P t = Ok o <-> replaced (anchor_at U) (anchor_out U) None t o.
Proof.
  intros U fs P t o Hc Ha. unfold apply_macros. rewrite (proj2 (has_char_false 64%N t) Ha), (proj2 (has_char_false 58%N t) Hc). rewrite !andb_false_r. cbn [andb orb bind]. rewrite orb_false_r.
  destruct (has_char 91%N t && contains (lit "[[") t) eqn:E; [apply C97_anchors|].
  assert (H : replaced (anchor_at U) (anchor_out U) None t t).
  { apply replaced_id. intros prev a w rest Et (e & i & b & _ & -> & _ & Hb). destruct Hb as [->|[(l & -> & _)|(l & -> & _)]].
    1,2: assert (K : has_char 91%N t = true /\ contains (lit "[[") t = true); [|rewrite (proj1 K), (proj2 K) in E; discriminate E]; rewrite Et; split; [apply has_char_spec; rewrite !in_app_iff; right; left; right; left; left; reflexivity|].
    1,2: apply contains_spec; rewrite <- !app_assoc; eexists (a ++ e); eexists; rewrite <- app_assoc; reflexivity.
    apply Hc. rewrite Et, !in_app_iff. right. left. right. left. cbn. tauto. }
  split; [intros K; apply Ok_inj in K; subst o; exact H|]. intros K. apply C97_anchors in H, K. rewrite H in K. exact K.
Qed.
(** Every id makes an anchor, with a reference text or without; and a backslash in front prevents it. *)
Theorem C97_every_id : forall U prev i rest, id_text U i -> anchor_at U prev (lit "[[" ++ i ++ lit "]]") rest /\ anchor_out U prev (lit "[[" ++ i ++ lit "]]") rest (anchor_link i).
Proof.
  intros U prev i rest H. assert (Hf : anchor_form U i (lit "[[" ++ i ++ lit "]]") rest) by (split; [exact H|left; reflexivity]). split; [exists [], i, (lit "[[" ++ i ++ lit "]]"); split; [left; reflexivity|]; auto|].
  exists i, (lit "[[" ++ i ++ lit "]]"). split; [exact Hf|]. left. auto.
Qed.
Theorem C97_escaped : forall U prev i b rest, anchor_form U i b rest -> anchor_at U prev (BSL :: b) rest /\ anchor_out U prev (BSL :: b) rest b.
Proof. intros U prev i b rest H. split; [exists [BSL], i, b; split; [right; reflexivity|]; auto|]. exists i, b. split; [exact H|]. right. auto. Qed.
(** What replaces an anchor is determined, and so is the output. *)
Theorem C97_same_output : forall U t o o', replaced (anchor_at U) (anchor_out U) None t o -> replaced (anchor_at U) (anchor_out U) None t o' -> o = o'.
Proof. intros U t o o' H H'. apply C97_anchors in H, H'. rewrite H in H'. apply Ok_inj in H'. exact H'. Qed.
Example C97_example : apply_macros ascii_only 47%N parser_default (lit "[[one]]One, [[two, the second]]Two and anchor:three[xref \] text]Three but \[[four]] and [[5]] and [[]].") =
  Ok (anchor_link (lit "one") ++ lit "One, " ++ anchor_link (lit "two") ++ lit "Two and " ++ anchor_link (lit "three") ++ lit "Three but [[four]] and [[5]] and [[]].").
Proof. vm_compute. reflexivity. Qed.
Lemma escaped_bracket : forall x y, lit "a \] b" = x ++ 93%N :: y -> exists x', x = x' ++ [BSL].
Proof.
  intros x y E. do 3 (destruct x as [|? x]; [discriminate E|injection E as <- E]).
  destruct x as [|? x]; [exists (lit "a "); reflexivity|]. injection E as _ E. do 2 (destruct x as [|? x]; [discriminate E|injection E as <- E]). destruct x; discriminate E.
Qed.
Example C97_hypotheses : id_text ascii_only (lit "x_1.a-b") /\ reference (lit " see here") (lit ", more]]") /\ label same_line (lit "a \] b").
Proof.
  split; [|split].
  - exists 120%N, (lit "_1.a-b"). split; [reflexivity|]. split; [left; reflexivity|]. repeat constructor; try (left; reflexivity); try (right; left; reflexivity); right; right; cbn; tauto.
  - exists (lit " "), (lit "see here"). split; [reflexivity|]. split; [repeat constructor|]. left. exists 115%N, (lit "ee here"). split; [reflexivity|]. split; [reflexivity|]. split; [cbn; intuition discriminate|].
    intros p p' E Hp. do 8 (destruct p as [|? p]; [try (exfalso; apply Hp; reflexivity); cbn in E; discriminate E|injection E as _ E]). cbn. lia.
  - right. split; [exists (lit "a \] "), 98%N; split; [reflexivity|]; split; [repeat constructor|discriminate]|]. exact escaped_bracket.
Qed.

(** * C98 *)
(** The link macro step finds the link and mailto macros of the specification and no others, and writes the link of the
    specification for each; it has no result where there is a target of one character. [reads]: what the attribute list says. *)
Theorem C98_link_macros : forall U P t o, replace_all_pure U INLINE_LINK_MACRO (link_macro_replacer U P) t = Ok o <->
  replaced link_macro_at (link_macro_out U (reads U P) encode_uri_component (hides P)) None t o.
Proof. intros U P t o. apply link_macros_rewritten. Qed.
(** It is all the inline macros do to a text without the marks of the others. *)
Theorem C98_whole_step : forall U fs P t o, ~ occurs (lit "image:") t -> ~ occurs (lit "icon:") t -> ~ occurs (lit "://") t -> ~ In 64%N t -> ~ occurs (lit "[[") t -> ~ occurs (lit "or:") t ->
  apply_macros U fs P t = Ok o <-> replaced link_macro_at (link_macro_out U (reads U P) encode_uri_component (hides P)) None t o.
Proof.
  intros U fs P t o H1 H2 H3 H4 H5 H6. unfold apply_macros.
  assert (N : forall p, ~ occurs p t -> contains p t = false). { intros p H. destruct (contains p t) eqn:E; [|reflexivity]. apply contains_spec in E. destruct (H E). }
  rewrite (N _ H1), (N _ H2), (N _ H3), (N _ H5), (N _ H6), (proj2 (has_char_false 64%N t) H4). rewrite !andb_false_r. cbn [orb bind].
  destruct (has_char 91%N t && has_char 58%N t && (contains (lit "link:") t || contains (lit "ilto:") t)) eqn:E; cbn [bind].
  { rewrite <- C98_link_macros. destruct (replace_all_pure U INLINE_LINK_MACRO (link_macro_replacer U P) t); cbn [bind]; reflexivity. }
  assert (H : replaced link_macro_at (link_macro_out U (reads U P) encode_uri_component (hides P)) None t t).
  { apply replaced_id. intros prev a w rest Et (e & k & T & L & _ & -> & _). unfold link_macro in Et. enough (K : has_char 91%N t = true /\ has_char 58%N t = true /\ contains (lit "link:") t || contains (lit "ilto:") t = true).
    { destruct K as (K1 & K2 & K3). rewrite K1, K2, K3 in E. discriminate E. }
    split; [apply has_char_spec; rewrite Et, !in_app_iff; cbn; tauto|]. split; [apply has_char_spec; rewrite Et, !in_app_iff; cbn; tauto|]. apply orb_true_iff. destruct k; [left|right]; apply contains_spec; rewrite Et.
    - exists (a ++ e). eexists. rewrite <- !app_assoc. reflexivity.
    - exists (a ++ e ++ lit "ma"). eexists. rewrite <- !app_assoc. reflexivity. }
  split; [intros K; apply Ok_inj in K; subst o; exact H|]. intros K. apply C98_link_macros in H, K. rewrite H in K. exact K.
Qed.
(** The text of a link macro without a separator is all that is between the brackets, without the backslashes before
    closing brackets; there are no other attributes. *)
Theorem C98_plain_label : forall U P T L x, ~ In 61%N L -> L <> [] -> (forall y, unescape 93%N L <> y ++ lit "^") ->
  macro_link U (reads U P) encode_uri_component (hides P) KLink T L x <-> x = lit "<a" ++ attr (lit "href") T ++ lit ">" ++ unescape 93%N L ++ lit "</a>".
Proof.
  intros U P T L x H Hn Hc. assert (Ea : forall txt, link_element T txt [] None (reads U P []) = lit "<a" ++ attr (lit "href") T ++ lit ">" ++ txt ++ lit "</a>").
  { intros txt. unfold reads. rewrite empty_attrlist. reflexivity. }
  assert (Hu : unescape 93%N L <> []). { intros E. destruct L as [|c L]; [contradiction|]. cbn [unescape] in E. destruct ((c =? BSL)%N && match L with d :: _ => (d =? 93)%N | [] => false end) eqn:Eb; [|discriminate E].
    destruct L as [|d L]; [rewrite andb_false_r in Eb; discriminate Eb|]. apply andb_true_iff in Eb. destruct Eb as (_ & Ed). apply N.eqb_eq in Ed. subst d. discriminate E. }
  split.
  - intros (a & raw & txt & w & Hw & [(K & _)|(_ & -> & ->)] & Hx); [contradiction|]. destruct Hw as [(E & _)|(<- & -> & _)]; [destruct (Hc _ E)|]. destruct (unescape 93%N L) eqn:E; [contradiction|]. rewrite <- E in *. rewrite Hx, Ea. reflexivity.
  - intros ->. exists (reads U P []), (unescape 93%N L), (unescape 93%N L), None. split; [right; auto|]. split; [right; auto|]. destruct (unescape 93%N L) eqn:E; [contradiction|]. rewrite <- E in *. rewrite Ea. reflexivity.
Qed.
(** A backslash in front of a macro goes away and prevents it, whatever its target. *)
Theorem C98_escaped : forall U P prev k T L rest, one_or_target T -> label any_char L ->
  link_macro_at prev (BSL :: link_macro k T L) rest /\ link_macro_out U (reads U P) encode_uri_component (hides P) prev (BSL :: link_macro k T L) rest (link_macro k T L).
Proof. intros U P prev k T L rest HT HL. split; [exists [BSL], k, T, L; split; [right; reflexivity|]; auto|]. exists k, T, L. split; [exact HT|]. split; [exact HL|]. left. auto. Qed.
(** The documented title of a link is lost. *)
Theorem C98_title_refuted : exists t o, t = lit "link:a.html[Home,title=Project home page]" /\ apply_macros ascii_only 47%N parser_default t = Ok o /\ o = lit "<a" ++ attr (lit "href") (lit "a.html") ++ lit ">Home</a>".
Proof. eexists. eexists. split; [reflexivity|]. split; vm_compute; reflexivity. Qed.
(** Text with an equals sign after something that is not an attribute name is lost. *)
Theorem C98_equation_refuted : exists t o, t = lit "link:a.html[1=2 posits the problem]" /\ apply_macros ascii_only 47%N parser_default t = Ok o /\ o = lit "<a" ++ attr (lit "href") (lit "a.html") ++ attr (lit "class") (lit "bare") ++ lit ">a.html</a>".
Proof. eexists. eexists. split; [reflexivity|]. split; vm_compute; reflexivity. Qed.
(** With attributes, the backslash before a closing bracket in the text is shown. *)
Theorem C98_bracket_refuted : exists t o, t = lit "link:a.html[b \] c,role=x]" /\ apply_macros ascii_only 47%N parser_default t = Ok o /\ o = lit "<a" ++ attr (lit "href") (lit "a.html") ++ attr (lit "class") (lit "x") ++ lit ">b \] c</a>".
Proof. eexists. eexists. split; [reflexivity|]. split; vm_compute; reflexivity. Qed.
(** Dots and number signs in the text of a link with attributes are read as roles and ids. *)
Theorem C98_roles_in_text_refuted : exists t o, t = lit "link:a.html[C# guide v1.2,role=x]" /\ apply_macros ascii_only 47%N parser_default t = Ok o /\
  o = lit "<a" ++ attr (lit "href") (lit "a.html") ++ attr (lit "id") (lit " guide v1") ++ attr (lit "class") (lit "2 x") ++ lit ">C# guide v1.2</a>".
Proof. eexists. eexists. split; [reflexivity|]. split; vm_compute; reflexivity. Qed.
Example C98_example : exists o, apply_macros ascii_only 47%N parser_default (lit "Get link:report.pdf[the \] report^], link:b.html[role=x], mailto:us[Write,Hi you,A & B] or \link:x[y].") = Ok o /\
  o = lit "Get <a" ++ attr (lit "href") (lit "report.pdf") ++ attr (lit "target") (lit "_blank") ++ attr (lit "rel") (lit "noopener") ++ lit ">the ] report</a>, <a" ++
      attr (lit "href") (lit "b.html") ++ attr (lit "class") (lit "bare x") ++ lit ">b.html</a>, <a" ++ attr (lit "href") (lit "mailto:us?subject=Hi%20you&amp;body=A%20%26%20B") ++ lit ">Write</a> or link:x[y].".
Proof. eexists. split; vm_compute; reflexivity. Qed.
Example C98_hypotheses : macro_target (lit "a/b.html?x=1&amp;y=:") /\ label any_char (lit "a \] b") /\ scheme_text ascii_only (lit "https://") (lit "x.org").
Proof.
  split; [exists 97%N, (lit "/b.html?x=1&amp;y=:"); split; [reflexivity|]; split; [reflexivity|]; split; [cbn; intuition discriminate|repeat constructor; discriminate]|]. split.
  - right. split; [exists (lit "a \] "), 98%N; split; [reflexivity|]; split; [repeat constructor|discriminate]|]. exact escaped_bracket.
  - exists 104%N, (lit "ttps"), (lit "//"). split; [reflexivity|]. split; [reflexivity|]. split; [discriminate|]. split; [repeat constructor|left; reflexivity].
Qed.

Print Assumptions C97_anchors.
Print Assumptions C97_plain_text.
Print Assumptions C98_link_macros.
Print Assumptions C98_whole_step.
