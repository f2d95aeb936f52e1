(** C95, C96: what the inline macros make of a text. *)
From Verif Require Import Text TextFacts Span_Model Span_Laws Maps Parser_Model Regex Regex_Proof Regex_Scan Regex_Lang Subs_Proof Attrlist_Model Render_Model Quote_Model
  Subs_Chars Macro_Model Macro_Spec Macro_Proof Auto_Spec Auto_Proof.

(** * C95 *)
(** The e-mail step finds the addresses of the specification and no others, and links each of them. *)
Theorem C95_addresses_are_linked : forall U P t o, replace_all_pure U (INLINE_EMAIL U) (email_replacer U P) t = Ok o <-> rewritten (r_email U) None t o.
Proof. intros U P t o. apply email_rewritten. Qed.
(** It is all the inline macros do to a text without colons and square brackets. *)
Theorem C95_plain_text : forall U fs P t o, ~ In 58%N t -> ~ In 91%N t -> apply_macros U fs P t = Ok o <-> rewritten (r_email U) None t o.
Proof.
  intros U fs P t o Hc Hb. unfold apply_macros. rewrite (proj2 (has_char_false 91%N t) Hb), (proj2 (has_char_false 58%N t) Hc). cbn [andb orb bind].
  destruct (has_char 64%N t) eqn:Ea; cbn [bind].
  - rewrite <- email_rewritten with (P := P). destruct (replace_all_pure U (INLINE_EMAIL U) (email_replacer U P) t); cbn [bind]; reflexivity.
  - assert (H : rewritten (r_email U) None t t).
    { apply rewritten_id. intros pv w rest x H (a & E). apply has_char_false in Ea. apply Ea. rewrite E. apply r_email_esc in H. destruct H as (e & m & -> & _ & (Hm & _) & _).
      destruct Hm as (c & l & h & d & s & -> & _). apply in_or_app. right. apply in_or_app. left. apply in_or_app. right. apply in_or_app. right. apply in_or_app. right. left. reflexivity. }
    split; [intros E; apply Ok_inj in E; subst o; exact H|]. intros H'. f_equal. exact (rewritten_det _ (r_email_ok U) _ _ _ H _ H').
Qed.
(** An address with a backslash in front is shown without the backslash and is not a link. *)
Theorem C95_escaped : forall U m rest prev, address_at U m rest -> r_email U prev (BSL :: m) rest m.
Proof. intros U m rest prev H. exists m. auto. Qed.
(** The documented restriction of the suffix (two to five characters) is not applied to the whole address: the
    beginning of an address with a longer suffix is made a link to somewhere else. *)
Theorem C95_long_suffix_refuted : exists t o, t = lit "foo@a.com.museum" /\ ~ address ascii_only t /\ apply_macros ascii_only 47%N parser_default t = Ok o /\
  o = mail_link (lit "foo@a.com") ++ lit ".museum".
Proof.
  eexists. eexists. split; [reflexivity|]. split; [|split; [vm_compute; reflexivity|reflexivity]]. intros (c & l & h & d & s & E & _ & _ & _ & _ & Hs & Hn).
  apply (f_equal (@rev char)) in E. rewrite !rev_app_distr in E. rewrite <- !app_assoc in E. assert (Hn' : 2 <= length (rev s) <= 5) by (rewrite rev_length; exact Hn). assert (Hs' : Forall (fun x => is_ascii_alpha x = true) (rev s)) by (apply Forall_rev, Hs).
  change (rev (lit "foo@a.com.museum")) with (lit "muesum.moc.a@oof") in E. destruct (rev s) as [|x1 [|x2 [|x3 [|x4 [|x5 [|x6 q]]]]]]; cbn [length] in Hn'; try lia; cbn in E; discriminate E.
Qed.
Example C95_example : exists o, apply_macros ascii_only 47%N parser_default (lit "ask doc.writer+a@mail.example.org or \me@x.io, not a/b@c.de.") = Ok o /\
  o = lit "ask " ++ mail_link (lit "doc.writer+a@mail.example.org") ++ lit " or me@x.io, not a/b@c.de.".
Proof. eexists. split; vm_compute; reflexivity. Qed.
Example C95_address_example : address_at ascii_only (lit "a@b.org") (lit ", x").
Proof.
  assert (H : forall p, match_here ascii_only (INLINE_EMAIL ascii_only) p (lit "a@b.org, x") = Some (mkm (lit "a@b.org") [(2, lit "a@b.org"); (1, [])] (Some 103%N) (lit ", x"))) by (intros p; vm_compute; reflexivity).
  specialize (H None). destruct (email_realizes ascii_only parser_default) as (K & _). destruct (K _ _ _ H) as (x & Hx & m & Hm & [(Ew & _)|[(Ew & _)|(c & Hc & Ew & _)]]); cbn [m_text m_after] in *.
  - rewrite Ew. exact Hm.
  - discriminate Ew.
  - exfalso. injection Ew as <- _. cbn in Hc. repeat (destruct Hc as [Hc|Hc]; [discriminate Hc|]). exact Hc.
Qed.

(** * C96 *)
(** Linking addresses in a text without markup gives whole markup. *)
Theorem C96_addresses : forall U fs P t o, no_markup t -> ~ In 58%N t -> ~ In 91%N t -> apply_macros U fs P t = Ok o -> whole_markup o.
Proof.
  intros U fs P t o Hn Hc Hb H. apply C95_plain_text in H; [|exact Hc|exact Hb]. revert H Hn. apply rewritten_whole. intros prev w r x (m & _ & [(-> & ->)|[(-> & ->)|(c & _ & -> & ->)]]) Hw.
  - apply mail_link_whole, Hw.
  - apply (read_plain Between). apply (no_markup_app [BSL] m) in Hw. apply Hw.
  - apply (read_plain Between), Hw.
Qed.
(** But an address inside the target of a link or an image is linked too, inside the attribute written for the target. *)
Theorem C96_whole_markup_refuted : exists t o, t = lit "see https://x.org/?q=a@b.org now" /\ no_markup t /\ apply_macros ascii_only 47%N parser_default t = Ok o /\ ~ whole_markup o.
Proof.
  eexists. eexists. split; [reflexivity|]. split; [|split; [vm_compute; reflexivity|intros H; vm_compute in H; discriminate H]].
  intros c Hc. vm_compute in Hc. repeat (destruct Hc as [<-|Hc]; [repeat split; discriminate|]). destruct Hc.
Qed.
Theorem C96_image_refuted : exists t o, t = lit "image:me@home.png[]" /\ no_markup t /\ apply_macros ascii_only 47%N parser_default t = Ok o /\ ~ whole_markup o.
Proof.
  eexists. eexists. split; [reflexivity|]. split; [|split; [vm_compute; reflexivity|intros H; vm_compute in H; discriminate H]].
  intros c Hc. vm_compute in Hc. repeat (destruct Hc as [<-|Hc]; [repeat split; discriminate|]). destruct Hc.
Qed.
Example C96_example : exists o, apply_macros ascii_only 47%N parser_default (lit "ask a@b.org") = Ok o /\ whole_markup o.
Proof. eexists. split; vm_compute; reflexivity. Qed.

Print Assumptions C95_addresses_are_linked.
Print Assumptions C95_plain_text.
Print Assumptions C95_escaped.
Print Assumptions C95_long_suffix_refuted.
Print Assumptions C96_addresses.
Print Assumptions C96_whole_markup_refuted.
Print Assumptions C96_image_refuted.
