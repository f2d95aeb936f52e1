(** C44 to C47: inline macros and the HTML they give. *)
From Verif Require Import Text TextFacts Span_Model Span_Laws Maps Parser_Model Regex Regex_Proof Regex_Scan Subs_Proof Attrlist_Model Render_Model Render_Proof Quote_Model Quote_Plain
  Macro_Model Macro_Spec Macro_Proof.

(** * C44 *)
(** When the nofollow option is not given, a link that opens a new window is isolated. *)
Theorem C44_isolated_unless_nofollow : forall a window html w, link_constraint_attrs a window = Ok html ->
  al_has_option a (lit "nofollow") = Ok false ->
  match named_attribute a (lit "window") with Some e => Some (ea_value e) | None => window end = Some w ->
  w = lit "_blank" \/ al_has_option a (lit "noopener") = Ok true ->
  exists v, has_attr html (lit "rel") v /\ has_token (lit "noopener") v.
Proof.
  intros a window html w H Hn Hw Hc. unfold link_constraint_attrs in H. rewrite Hn, Hw in H. cbn [bind] in H.
  assert (E : (if text_eqb w (lit "_blank") then Ok true else al_has_option a (lit "noopener")) = Ok true).
  { destruct (text_eqb w (lit "_blank")) eqn:E; [reflexivity|]. destruct Hc as [->|Hc]; [rewrite text_eqb_refl in E; discriminate E|exact Hc]. }
  rewrite E in H. cbn [bind] in H. apply Ok_inj in H. exists (lit "noopener"). split.
  - split; [apply not_in_compute; reflexivity|]. exists (html_attr (lit "target") w), []. rewrite <- H, app_nil_r. reflexivity.
  - exists [], []. auto.
Qed.
(** Without a window, the option gives the token. *)
Theorem C44_nofollow_without_window : forall a html, link_constraint_attrs a None = Ok html -> named_attribute a (lit "window") = None ->
  al_has_option a (lit "nofollow") = Ok true -> has_attr html (lit "rel") (lit "nofollow").
Proof.
  intros a html H Hw Hn. unfold link_constraint_attrs in H. rewrite Hn, Hw in H. apply Ok_inj in H. split; [apply not_in_compute; reflexivity|]. exists [], []. rewrite <- H, app_nil_r. reflexivity.
Qed.
(** With both, the token is written after the closing quote. *)
Theorem C44_with_nofollow : forall a window html w, link_constraint_attrs a window = Ok html ->
  al_has_option a (lit "nofollow") = Ok true ->
  match named_attribute a (lit "window") with Some e => Some (ea_value e) | None => window end = Some w ->
  w = lit "_blank" \/ al_has_option a (lit "noopener") = Ok true ->
  html = attr (lit "target") w ++ attr (lit "rel") (lit "nofollow") ++ lit " noopener".
Proof.
  intros a window html w H Hn Hw Hc. unfold link_constraint_attrs in H. rewrite Hn, Hw in H. cbn [bind] in H.
  assert (E : (if text_eqb w (lit "_blank") then Ok true else al_has_option a (lit "noopener")) = Ok true).
  { destruct (text_eqb w (lit "_blank")) eqn:E; [reflexivity|]. destruct Hc as [->|Hc]; [rewrite text_eqb_refl in E; discriminate E|exact Hc]. }
  rewrite E in H. cbn [bind] in H. apply Ok_inj in H. symmetry. exact H.
Qed.
Lemma one_place (p h b0 : text) : (forallb (fun n => negb (starts_with p (skipn n h)) || text_eqb (skipn n h) (p ++ b0)) (seq 0 (S (length h)))) = true -> forall a b, h = a ++ p ++ b -> b = b0.
Proof.
  intros H a b E. rewrite forallb_forall in H. specialize (H (length a)). rewrite E in H at 2 3. rewrite E in H. rewrite skipn_app, skipn_all, Nat.sub_diag in H. cbn [skipn app] in H.
  assert (Hi : In (length a) (seq 0 (S (length (a ++ p ++ b))))) by (apply in_seq; rewrite app_length; lia). specialize (H Hi). apply orb_true_iff in H. destruct H as [H|H].
  - exfalso. apply negb_true_iff in H. assert (starts_with p (p ++ b) = true) by (apply starts_with_spec; eauto). congruence.
  - apply text_eqb_eq in H. apply app_inv_head in H. exact H.
Qed.
Theorem C44_links_are_isolated_refuted : exists t html, apply_macros ascii_only 47%N parser_default t = Ok html /\ has_attr html (lit "target") (lit "_blank") /\
  forall v, has_attr html (lit "rel") v -> ~ has_token (lit "noopener") v.
Proof.
  exists (lit "link:xx[b^,opts=nofollow]"). eexists. split; [vm_compute; reflexivity|]. split.
  - split; [apply not_in_compute; reflexivity|]. exists (lit "<a href=" ++ DQ ++ lit "xx" ++ DQ), (lit " rel=" ++ DQ ++ lit "nofollow" ++ DQ ++ lit " noopener>b</a>"). reflexivity.
  - intros v (Hv & a & b & E) (x & y & Ev & _).
    assert (Eb : v ++ [DQC] ++ b = lit "nofollow" ++ [DQC] ++ lit " noopener>b</a>").
    { match type of E with ?h = _ => apply (one_place ([32%N] ++ lit "rel" ++ [61%N; DQC]) h) with (a := a); [vm_compute; reflexivity|] end. rewrite E. unfold attr. rewrite <- !app_assoc. reflexivity. }
    change (v ++ DQC :: b = lit "nofollow" ++ DQC :: lit " noopener>b</a>") in Eb. apply cut_unique in Eb; [|exact Hv|apply not_in_compute; reflexivity]. destruct Eb as [-> _].
    assert (contains (lit "noopener") (lit "nofollow") = true) by (apply contains_spec; eauto). discriminate.
Qed.
Example C44_example : exists a html, inline_attrlist ascii_only parser_default (lit "b,window=_blank,role=x") = Ok a /\ link_constraint_attrs a None = Ok html /\
  al_has_option a (lit "nofollow") = Ok false /\ option_map ea_value (named_attribute a (lit "window")) = Some (lit "_blank").
Proof. eexists. eexists. split; [vm_compute; reflexivity|]. split; [vm_compute; reflexivity|]. split; vm_compute; reflexivity. Qed.

(** * C45 *)
(** When target, directory, sizes and roles contain no quotes, an image is one clean element; quotes in its
    text and title are escaped. *)
Theorem C45_image_is_clean : forall U fs P p html, render_image U fs P p = Ok html -> named_attribute (ip_attrlist p) (lit "link") = None ->
  ~ In DQC (ip_target p) -> (forall d, as_maybe_str (attribute_value P (lit "imagesdir")) = Some d -> ~ In DQC d) ->
  (forall w, ip_width p = Some w \/ ip_height p = Some w \/ option_map ea_value (named_attribute (ip_attrlist p) (lit "float")) = Some w -> ~ In DQC w) ->
  (forall l r, al_roles (ip_attrlist p) = Ok l -> In r l -> ~ In DQC r) ->
  exists class attrs, html = image_element class attrs /\ ~ In DQC class /\ clean_attrs attrs /\ In (lit "alt", flat_map quot (ip_alt p)) attrs /\
    forall e, named_attribute (ip_attrlist p) (lit "title") = Some e -> In (lit "title", flat_map quot (ea_value e)) attrs.
Proof.
  intros U fs P p html H Hl Ht Hd Hw Hr. destruct (render_image_element _ _ _ _ _ H Hl) as (src & roles & Es & Er & ->). eexists _, _. split; [reflexivity|]. split; [|split; [|split]].
  - intros Hi. apply join_in in Hi. destruct Hi as [Hi|(s & Hs & Hi)]; [destruct Hi as [Hi|[]]; discriminate Hi|]. destruct Hs as [<-|Hs]; [revert Hi; apply not_in_compute; reflexivity|].
    apply in_app_iff in Hs. destruct Hs as [Hs|Hs]; [|apply (Hr _ _ Er Hs Hi)]. destruct (option_map ea_value (named_attribute (ip_attrlist p) (lit "float"))) as [f|] eqn:Ef; [|destruct Hs]. destruct Hs as [<-|[]]. apply (Hw f); auto.
  - assert (Hsrc : ~ In DQC src) by (apply (image_uri_clean _ _ _ _ _ _ Es Ht Hd)).
    assert (Hq : forall v, ~ In DQC (flat_map quot v)) by (intros v; apply encode_clean).
    repeat (constructor; [cbn [fst snd]; split; [apply not_in_compute; reflexivity|auto]|]). unfold clean_attrs. rewrite !Forall_app, !Forall_map.
    split; [|split]; apply Forall_forall; intros v Hv; cbn [fst snd]; (split; [apply not_in_compute; reflexivity|]).
    + destruct (ip_width p) as [w|]; [destruct Hv as [<-|[]]|destruct Hv]. apply Hw. auto.
    + destruct (ip_height p) as [w|]; [destruct Hv as [<-|[]]|destruct Hv]. apply Hw. auto.
    + destruct (named_attribute (ip_attrlist p) (lit "title")) as [e|]; [destruct Hv as [<-|[]]|destruct Hv]. apply Hq.
  - right. left. reflexivity.
  - intros e He. rewrite He. right. right. rewrite !in_app_iff. right. right. left. reflexivity.
Qed.
(** Quotes in the width get into the element. *)
Lemma even_quotes class attrs : ~ In DQC class -> clean_attrs attrs -> Nat.even (count_occ N.eq_dec (image_element class attrs) DQC) = true.
Proof.
  intros Hc F. unfold image_element. rewrite !count_occ_app, !Nat.even_add. assert (Z : forall t : text, ~ In DQC t -> count_occ N.eq_dec t DQC = 0) by (intros t; apply count_occ_not_In).
  assert (A : forall n v, ~ In DQC n -> ~ In DQC v -> Nat.even (count_occ N.eq_dec (attr n v) DQC) = true).
  { intros n v Hn Hv. unfold attr. rewrite !count_occ_app, (Z n Hn), (Z v Hv). reflexivity. }
  rewrite A by (assumption || (apply not_in_compute; reflexivity)).
  replace (Nat.even (count_occ N.eq_dec (flat_map (fun nv => attr (fst nv) (snd nv)) attrs) DQC)) with true; [reflexivity|]. symmetry.
  induction F as [|[n v] l [H1 H2] F IH]; [reflexivity|]. cbn [flat_map]. rewrite count_occ_app, Nat.even_add, IH. cbn [fst snd] in *. rewrite A by assumption. reflexivity.
Qed.
Theorem C45_image_is_clean_refuted : exists t html, apply_macros ascii_only 47%N parser_default t = Ok html /\ (exists target attrs, t = lit "image:" ++ target ++ lit "[" ++ attrs ++ lit "]") /\
  forall class attrs, ~ In DQC class -> clean_attrs attrs -> html <> image_element class attrs.
Proof.
  exists (lit "image:a.png[alt,1" ++ DQ ++ lit "2]"). eexists. split; [vm_compute; reflexivity|]. split; [exists (lit "a.png"), (lit "alt,1" ++ DQ ++ lit "2"); reflexivity|].
  intros class attrs Hc F E. pose proof (even_quotes class attrs Hc F) as K. rewrite <- E in K. vm_compute in K. discriminate K.
Qed.
Example C45_example : exists a html, inline_attrlist ascii_only parser_default (lit "a" ++ DQ ++ lit "lt,12,title=a" ++ DQ ++ lit "b") = Ok a /\
  render_image ascii_only 47%N parser_default (mkip (lit "a.png") (lit "a" ++ DQ ++ lit "lt") (Some (lit "12")) None a) = Ok html /\ named_attribute a (lit "link") = None /\ al_roles a = Ok [] /\
  html = image_element (lit "image") [(lit "src", lit "a.png"); (lit "alt", lit "a&quot;lt"); (lit "width", lit "12"); (lit "title", lit "a&quot;b")].
Proof. eexists. eexists. split; [vm_compute; reflexivity|]. split; [vm_compute; reflexivity|]. repeat split; vm_compute; reflexivity. Qed.

(** * C46 *)
Theorem C46_reversible : forall t, Forall scalar t -> exists bs, percent_decode (encode_uri_component t) = Some bs /\ utf8_decode bs = Some t.
Proof. exact encode_round. Qed.
Theorem C46_only_safe_characters : forall t, Forall scalar t -> uri_safe (fun c => unreserved c \/ c = 42%N) (encode_uri_component t).
Proof. exact encode_safe. Qed.
Theorem C46_only_unreserved_refuted : exists t, Forall scalar t /\ ~ uri_safe unreserved (encode_uri_component t).
Proof.
  exists (lit "*"). split; [repeat constructor|]. change (encode_uri_component (lit "*")) with [42%N]. intros H. inversion H as [|c t Hc _|]; subst. unfold unreserved in Hc. lia.
Qed.
Example C46_example : Forall scalar (lit "50% off & more " ++ [8364; 128512]%N) /\ encode_uri_component (lit "50% off " ++ [8364; 128512]%N) = lit "50%25%20off%20%E2%82%AC%F0%9F%98%80".
Proof. split; [repeat constructor|vm_compute; reflexivity]. Qed.

(** * C47 *)
Theorem C47_images : forall U fs P t,
  (forall k target attrs, occurs (k ++ lit ":" ++ target ++ lit "[" ++ attrs ++ lit "]") t -> k = lit "image" \/ k = lit "icon" ->
    target <> [] /\ forall a, inline_attrlist U P attrs = Ok a -> ~ unported target a) ->
  exists o, replace_all_pure U INLINE_IMAGE_MACRO (image_macro_replacer U fs P) t = Ok o.
Proof.
  intros U fs P t H. apply replace_all_pure_ok_in. intros pv a x m E Hm. apply (image_replacer_ok _ _ _ _ _ _ Hm). intros k target attrs Ho Hk. apply (H k); [|exact Hk]. eapply occurs_match; eassumption.
Qed.
Theorem C47_urls : forall U P t, ~ occurs (lit "&gt;") t -> exists o, replace_all_pure U INLINE_LINK (link_replacer U P) t = Ok o.
Proof.
  intros U P t H. apply replace_all_pure_ok_in. intros pv a x m E Hm. apply (link_replacer_ok _ _ _ _ _ Hm). left. intros Ho. apply H. eapply occurs_match; eassumption.
Qed.
Theorem C47_link_macros : forall U P t, (forall c, ~ occurs (lit "link:" ++ [c] ++ lit "[") t /\ ~ occurs (lit "mailto:" ++ [c] ++ lit "[") t) ->
  exists o, replace_all_pure U INLINE_LINK_MACRO (link_macro_replacer U P) t = Ok o.
Proof.
  intros U P t H. apply replace_all_pure_ok_in. intros pv a x m E Hm. apply (link_macro_replacer_ok _ _ _ _ _ Hm). intros k c Ho. destruct (H c) as [H1 H2].
  intros [->| ->]; [apply H1|apply H2]; eapply occurs_match; eassumption.
Qed.
Theorem C47_emails : forall U P t, exists o, replace_all_pure U (INLINE_EMAIL U) (email_replacer U P) t = Ok o.
Proof. intros U P t. apply replace_all_pure_ok. intros pv x m. apply email_replacer_ok. Qed.
Theorem C47_anchors : forall U t, exists o, replace_all_pure U (INLINE_ANCHOR U) anchor_replacer t = Ok o.
Proof. intros U t. apply replace_all_pure_ok. intros pv x m. apply anchor_replacer_ok. Qed.
(** The whole step, on texts without brackets and on texts without colons. *)
Theorem C47_without_brackets : forall U fs P t, ~ In 91%N t -> ~ occurs (lit "&gt;") t -> exists o, apply_macros U fs P t = Ok o.
Proof.
  intros U fs P t H Hg. assert (Hb : has_char 91%N t = false) by (apply has_char_false, H). unfold apply_macros. rewrite Hb. cbn [andb bind orb].
  assert (K : exists t2, (if has_char 58%N t && contains (lit "://") t then replace_all_pure U INLINE_LINK (link_replacer U P) t else Ok t) = Ok t2) by (destruct (_ && _); [apply C47_urls, Hg|eauto]).
  destruct K as [t2 ->]. cbn [bind]. destruct (has_char 64%N t); [|cbn [bind]; eauto]. destruct (C47_emails U P t2) as [o ->]. cbn [bind]. eauto.
Qed.
Theorem C47_without_colons : forall U fs P t, ~ In 58%N t -> exists o, apply_macros U fs P t = Ok o.
Proof.
  intros U fs P t H. assert (Hb : has_char 58%N t = false) by (apply has_char_false, H). unfold apply_macros. rewrite Hb. cbn [andb bind]. rewrite !andb_false_r. cbn [andb bind orb]. rewrite !orb_false_r.
  assert (K : exists t4, (if has_char 64%N t then replace_all_pure U (INLINE_EMAIL U) (email_replacer U P) t else Ok t) = Ok t4) by (destruct (has_char 64%N t); [apply C47_emails|eauto]).
  destruct K as [t4 ->]. cbn [bind]. destruct (_ && _); [apply C47_anchors|eauto].
Qed.
(** The four ways to panic. *)
Theorem C47_never_panics_refuted : exists t1 t2 t3 t4, Forall (fun t => apply_macros ascii_only 47%N parser_default t = Panic) [t1; t2; t3; t4] /\
  t1 = lit "image:[]" /\ t2 = lit "link:a[b]" /\ t3 = lit "https://a.b&gt;" /\ t4 = lit "image:a.svg[opts=inline]".
Proof. eexists _, _, _, _. split; [|repeat split; reflexivity]. repeat constructor; vm_compute; reflexivity. Qed.
Example C47_example : ~ In 91%N (lit "see https://a.b or me@x.org") /\ ~ occurs (lit "&gt;") (lit "see https://a.b or me@x.org") /\
  apply_macros ascii_only 47%N parser_default (lit "see https://a.b or me@x.org") =
    Ok (lit "see <a href=" ++ DQ ++ lit "https://a.b" ++ DQ ++ lit " class=" ++ DQ ++ lit "bare" ++ DQ ++ lit ">https://a.b</a> or <a href=" ++ DQ ++ lit "mailto:me@x.org" ++ DQ ++ lit ">me@x.org</a>").
Proof.
  split; [apply not_in_compute; reflexivity|]. split; [|vm_compute; reflexivity]. intros (a & b & E). assert (contains (lit "&gt;") (lit "see https://a.b or me@x.org") = true) by (apply contains_spec; eauto). discriminate.
Qed.
Print Assumptions C44_isolated_unless_nofollow.
Print Assumptions C44_nofollow_without_window.
Print Assumptions C44_with_nofollow.
Print Assumptions C44_links_are_isolated_refuted.
Print Assumptions C45_image_is_clean.
Print Assumptions C45_image_is_clean_refuted.
Print Assumptions C46_reversible.
Print Assumptions C46_only_safe_characters.
Print Assumptions C46_only_unreserved_refuted.
Print Assumptions C47_images.
Print Assumptions C47_urls.
Print Assumptions C47_link_macros.
Print Assumptions C47_emails.
Print Assumptions C47_anchors.
Print Assumptions C47_without_brackets.
Print Assumptions C47_without_colons.
Print Assumptions C47_never_panics_refuted.
