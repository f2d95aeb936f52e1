(** C108: the order of the substitutions. *)
From Verif Require Import Text TextFacts Maps Span_Model Span_Laws Span_Proof Look_Proof Render_Model Quote_Proof Parser_Model Regex Regex_Lang Subs_Proof Subs_Chars Subs_Spec Group_Spec Attrlist_Model Subs_Model Subs_Prop Quote_Model Quote_Spec Quote_Prop
  Macro_Model Macro_Spec Macro_Proof Auto_Spec Auto_Proof Auto_Prop Inline_Spec Inline_Proof Inline_Prop Url_Proof Url_Prop Image_Spec Image_Proof Image_Prop Group_Model Group_Proof Group_Prop Order_Spec.

Lemma step_if (b : bool) (g : Prop) (e : res text) (R : text -> text -> Prop) t (k : text -> res text) o : (b = true <-> g) -> (forall x, e = Ok x <-> R t x) ->
  (x <- (if b then e else Ok t) ;; k x) = Ok o <-> exists x, if_marked g R t x /\ k x = Ok o.
Proof.
  intros Hb He. unfold if_marked. destruct b.
  - split.
    + intros H. apply bind_ok in H. destruct H as (x & Ex & H). exists x. split; [left; split; [apply Hb; reflexivity|apply He, Ex]|exact H].
    + intros (x & [(_ & Hx)|(Hn & _)] & H); [|destruct Hn; apply Hb; reflexivity]. apply He in Hx. rewrite Hx. exact H.
  - split.
    + intros H. exists t. split; [right; split; [intros G; apply Hb in G; discriminate G|reflexivity]|exact H].
    + intros (x & [(Hg & _)|(_ & ->)] & H); [apply Hb in Hg; discriminate Hg|exact H].
Qed.
Lemma ex_and {A} (Q X Y : A -> Prop) : (forall x, X x <-> Y x) -> (exists x, Q x /\ X x) <-> (exists x, Q x /\ Y x).
Proof. intros H. split; intros (x & Hq & Hx); exists x; split; auto; apply H, Hx. Qed.
(** The inline macros are replaced kind after kind. *)
Theorem C108_macros : forall U fs P t o, apply_macros U fs P t = Ok o <-> macros_in_order U fs P t o.
Proof.
  intros U fs P t o. unfold apply_macros. cbv zeta.
  assert (Oc : forall w c, In c w -> occurs w t -> In c t) by (intros w c Hc (a & b & ->); rewrite !in_app_iff; auto).
  assert (N : macros_in_order U fs P t o <-> exists t1,
    if_marked (In 91%N t /\ (occurs (lit "image:") t \/ occurs (lit "icon:") t)) (replaced picture_at (picture_out (reads U P) (image_place U fs P) (icon_place U fs P) (mode_of P)) None) t t1 /\ exists t2,
    if_marked (occurs (lit "://") t) (replaced url_at (url_out U (reads U P) (hides P)) None) t1 t2 /\ exists t3,
    if_marked (In 91%N t /\ (occurs (lit "link:") t \/ occurs (lit "ilto:") t)) (replaced link_macro_at (link_macro_out U (reads U P) encode_uri_component (hides P)) None) t2 t3 /\ exists t4,
    if_marked (In 64%N t) (rewritten (r_email U) None) t3 t4 /\
    if_marked (occurs (lit "[[") t \/ In 91%N t /\ occurs (lit "or:") t) (replaced (anchor_at U) (anchor_out U) None) t4 o).
  { unfold macros_in_order. split; [intros (t1 & t2 & t3 & t4 & A & B & C & D & F)|intros (t1 & A & t2 & B & t3 & C & t4 & D & F)].
    - exists t1. split; [exact A|]. exists t2. split; [exact B|]. exists t3. split; [exact C|]. exists t4. auto.
    - exists t1, t2, t3, t4. auto. }
  rewrite N. clear N.
  rewrite (step_if _ (In 91%N t /\ (occurs (lit "image:") t \/ occurs (lit "icon:") t)) _ _ t _ o) with (2 := fun x => C100_pictures U fs P t x).
  2:{ rewrite !andb_true_iff, orb_true_iff, !contains_spec, !has_char_spec. split; [tauto|]. intros (A & B). repeat split; auto. destruct B as [B|B]; eapply Oc; try exact B; cbn; tauto. }
  apply ex_and. intros t1. rewrite (step_if _ (occurs (lit "://") t) _ _ t1 _ o) with (2 := fun x => C99_urls U P t1 x).
  2:{ rewrite andb_true_iff, contains_spec, has_char_spec. split; [tauto|]. intros B. split; [|exact B]. eapply Oc; [|exact B]. cbn. tauto. }
  apply ex_and. intros t2. rewrite (step_if _ (In 91%N t /\ (occurs (lit "link:") t \/ occurs (lit "ilto:") t)) _ _ t2 _ o) with (2 := fun x => C98_link_macros U P t2 x).
  2:{ rewrite !andb_true_iff, orb_true_iff, !contains_spec, !has_char_spec. split; [tauto|]. intros (A & B). repeat split; auto. destruct B as [B|B]; eapply Oc; try exact B; cbn; tauto. }
  apply ex_and. intros t3. rewrite (step_if _ (In 64%N t) _ _ t3 _ o) with (2 := fun x => C95_addresses_are_linked U P t3 x) by apply has_char_spec.
  apply ex_and. intros t4. unfold if_marked.
  assert (Hg : has_char 91%N t && contains (lit "[[") t || has_char 91%N t && has_char 58%N t && contains (lit "or:") t = true <-> occurs (lit "[[") t \/ In 91%N t /\ occurs (lit "or:") t).
  { rewrite orb_true_iff, !andb_true_iff, !contains_spec, !has_char_spec. split; [tauto|]. intros [B|(A & B)]; [left; split; [eapply Oc; [|exact B]; cbn; tauto|exact B]|right; repeat split; auto; eapply Oc; [|exact B]; cbn; tauto]. }
  destruct (_ || _).
  - rewrite C97_anchors. split; [intros H; left; split; [apply Hg; reflexivity|exact H]|]. intros [(_ & H)|(Hn & _)]; [exact H|destruct Hn; apply Hg; reflexivity].
  - split; [intros H; right; apply Ok_inj in H; split; [intros G; apply Hg in G; discriminate G|auto]|]. intros [(G & _)|(_ & ->)]; [apply Hg in G; discriminate G|reflexivity].
Qed.
(** Each step makes what the specification says; so the steps of a group make what they make one after
    the other, in a text that has no passthroughs. *)
Theorem C108_steps : forall U fs P l t o, is_attribute_set P (lit "hardbreaks-option") = false -> in_order U fs P l t o -> apply_steps U fs P false l t = Ok o.
Proof.
  intros U fs P l t o Hb H. induction H as [t|s l t t1 o Hs _ IH]; [reflexivity|]. cbn [apply_steps].
  assert (E : apply_step U fs P false s t = Ok t1); [|rewrite E; exact IH]. destruct s; cbn [step_made apply_step] in *.
  - subst t1. exact (apply_special_characters_eq U t).
  - exact (C42_whole_step U P t t1 Hs).
  - apply C39_references_are_expanded_exactly, Hs.
  - apply C57_replacements_are_the_passes_in_order, Hs.
  - apply C108_macros, Hs.
  - destruct Hs as [(Hl & ->)|(Hl & Hs)]; [apply C48_single_line_is_unchanged, Hl|]. apply C48_without_option_exactly_the_plus_lines; assumption.
  - contradiction.
Qed.
Theorem C108_groups : forall U fs P f g t o, is_attribute_set P (lit "hardbreaks-option") = false -> ~ occurs (lit "+") t -> ~ occurs (lit "$$") t -> ~ occurs (lit "ss:") t -> ~ occurs (lit "-]") t ->
  in_order U fs P (steps_of g) t o -> apply_group U fs P (S f) g false t = Ok o.
Proof. intros U fs P f g t o Hb H1 H2 H3 H4 H. rewrite C43_no_passthrough by assumption. apply C108_steps; assumption. Qed.
(** The steps of the groups are the documented ones, in the documented order. *)
Theorem C108_documented : forall g l, In (g, l) group_table -> steps_of g = l.
Proof. intros g l H. repeat (destruct H as [H|H]; [injection H as <- <-; reflexivity|]). destruct H. Qed.
(** A link in the text of a link is replaced as well, in an attribute of the outer one: the result is no
    longer whole. *)
Theorem C108_a_link_in_a_link_refuted : exists t o, t = lit "link:a.html[see https://x.org now]" /\ apply_macros ascii_only 47%N parser_default t = Ok o /\ occurs (lit "<a href=" ++ DQ ++ lit "a.html" ++ DQ ++ lit " class=" ++ DQ ++ lit "org" ++ DQ ++ lit " class=" ++ DQ ++ lit "bare") o.
Proof. eexists _, _. split; [reflexivity|]. split; [vm_compute; reflexivity|]. apply contains_spec. vm_compute. reflexivity. Qed.
Example C108_example :
  macros_in_order ascii_only 47%N parser_default (lit "image:b.png[] link:a.html[A] m@y.org [[h]]")
    (lit "<span class=" ++ DQ ++ lit "image" ++ DQ ++ lit "><img" ++ attr (lit "src") (lit "b.png") ++ attr (lit "alt") (lit "b") ++ lit "></span> <a" ++ attr (lit "href") (lit "a.html") ++ lit ">A</a> <a" ++
     attr (lit "href") (lit "mailto:m@y.org") ++ lit ">m@y.org</a> <a" ++ attr (lit "id") (lit "h") ++ lit "></a>") /\
  exists P o, P = set_attribute (lit "x") (lit "*(C)*") parser_default /\ is_attribute_set P (lit "hardbreaks-option") = false /\
    in_order ascii_only 47%N P (steps_of GNormal) (lit "a & *b* {x} `c`") o /\ o = lit "a &amp; <strong>b</strong> *&#169;* <code>c</code>" /\ apply_group ascii_only 47%N P 3 GNormal false (lit "a & *b* {x} `c`") = Ok o.
Proof.
  split; [apply C108_macros; vm_compute; reflexivity|]. eexists _, _. split; [reflexivity|]. split; [vm_compute; reflexivity|]. split; [|split; [|vm_compute; reflexivity]]; [|reflexivity].
  cbn [steps_of]. eapply io_cons; [reflexivity|]. eapply io_cons.
  { cbn [step_made]. unfold marks.
    do 5 (eapply fm_cons; [intros E; discriminate E|apply apply_mark_iff; [apply marks_wf; unfold marks; cbn [In]; tauto|reflexivity|vm_compute; reflexivity]|]).
    eapply fm_cons; [intros _|apply mono_iff; [|vm_compute; reflexivity]|].
    1,2: intros a c b E; do 36 (destruct a as [|? a]; [cbn in E; try discriminate E; injection E as <- _; repeat split; discriminate|cbn in E; try discriminate E; injection E as _ E]); destruct a; discriminate E.
    do 6 (eapply fm_cons; [intros E; discriminate E|apply apply_mark_iff; [apply marks_wf; unfold marks; cbn [In]; tauto|reflexivity|vm_compute; reflexivity]|]). apply fm_nil. }
  eapply io_cons; [apply C39_references_are_expanded_exactly with (U := ascii_only); vm_compute; reflexivity|].
  eapply io_cons; [apply C57_replacements_are_the_passes_in_order; vm_compute; reflexivity|].
  eapply io_cons; [apply C108_macros; vm_compute; reflexivity|].
  eapply io_cons; [left; split; [apply not_in_b; reflexivity|reflexivity]|]. apply io_nil.
Qed.
Print Assumptions C108_macros.
Print Assumptions C108_steps.
Print Assumptions C108_groups.
Print Assumptions C108_documented.
Print Assumptions C108_a_link_in_a_link_refuted.
