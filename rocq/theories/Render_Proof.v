(** The inline attribute list and the renderer always give a result, apart from the SVG images that the
    code leaves to [todo!]. *)
From Verif Require Import Text TextFacts Maps Span_Model Span_Pure Span_Proof Span_Laws Parser_Model Regex Path_Model Path_Proof
  Attrlist_Model Attrlist_Proof Attrlist_Spec Attrlist_Laws Render_Model Quote_Model.

Definition wf_al (a : attrlist) : Prop := Forall wf_ea (al_attrs a).

Lemma parse_wf U norm P source ctx m ws : total norm -> attrlist_parse U norm P source ctx = Ok (m, ws) -> wf_al (mi_item m).
Proof.
  intros Hn H. unfold wf_al. rewrite attrlist_parse_eq in H. apply bind_ok in H. destruct H as (src & _ & H).
  destruct (starts_with (lit "[") src && ends_with (lit "]") src).
  - apply bind_ok in H. destruct H as (a & _ & H). apply Ok_inj in H. injection H as <- _. constructor.
  - destruct (t_loop_total norm ctx Hn (S (length src)) src [] true []) as (r & E & _ & new & Hnew & Hg); [lia|]. rewrite E in H. cbn [bind] in H. apply Ok_inj in H. injection H as <- _.
    cbn [mi_item al_attrs]. rewrite Hnew. eapply Forall_impl; [|exact Hg]. intros a (Hw & _). exact Hw.
Qed.
Lemma total_id : total (fun x : text => Ok x).
Proof. intros x. eauto. Qed.
(** In the inline context the substitution group for values is never used. *)
Lemma finish_inline norm norm' f v : ea_finish_value norm CtxInline f v = ea_finish_value norm' CtxInline f v.
Proof. unfold ea_finish_value. destruct f as [q|]; [|reflexivity]. destruct (is_quote q); reflexivity. Qed.
Lemma attrlist_parse_inline U norm norm' P source : attrlist_parse U norm P source CtxInline = attrlist_parse U norm' P source CtxInline.
Proof.
  rewrite !attrlist_parse_eq. destruct (src_of U P (sp_data source)) as [src| |]; [|reflexivity|reflexivity]. cbn [bind].
  destruct (starts_with (lit "[") src && ends_with (lit "]") src); [reflexivity|].
  assert (E : forall fuel attrs psh ws t, t_loop norm fuel CtxInline attrs psh ws t = t_loop norm' fuel CtxInline attrs psh ws t).
  { induction fuel as [|f IH]; intros; [reflexivity|]. cbn [t_loop]. assert (Ep : forall p t, t_parse norm CtxInline p t = t_parse norm' CtxInline p t) by (intros; unfold t_parse; erewrite finish_inline; reflexivity).
    rewrite !Ep. destruct (t_parse norm' CtxInline psh t) as [r| |]; [|reflexivity|reflexivity]. cbn [bind].
    repeat match goal with |- context [match ?x with _ => _ end] => destruct x end; auto; rewrite ?IH; reflexivity. }
  rewrite E. reflexivity.
Qed.

Lemma inline_attrlist_ok U P t : exists a, inline_attrlist U P t = Ok a /\ wf_al a.
Proof.
  unfold inline_attrlist. destruct (src_of_total U P (sp_data (span_new t))) as (src & Es & _).
  assert (H : exists m ws, attrlist_parse U (fun x => Ok x) P (span_new t) CtxInline = Ok (m, ws)).
  { rewrite attrlist_parse_eq, Es. cbn [bind]. destruct (starts_with (lit "[") src && ends_with (lit "]") src) eqn:Ea.
    - destruct (anchor_text src Ea) as (a & _ & ->). cbn [bind]. eauto.
    - destruct (t_loop_total (fun x => Ok x) CtxInline total_id (S (length src)) src [] true []) as (r & -> & _); [lia|]. cbn [bind]. eauto. }
  destruct H as (m & ws & E). rewrite E. cbn [bind fst]. exists (mi_item m). split; [reflexivity|]. eapply parse_wf; [apply total_id|exact E].
Qed.

Section Accessors.
  Variable a : attrlist.
  Hypothesis W : wf_al a.
  Lemma id_ok : exists o, al_id a = Ok o. Proof. apply accessors_total, W. Qed.
  Lemma roles_ok : exists o, al_roles a = Ok o. Proof. apply accessors_total, W. Qed.
  Lemma options_ok : exists o, al_options a = Ok o. Proof. apply accessors_total, W. Qed.
  Lemma has_option_ok n : exists o, al_has_option a n = Ok o.
  Proof. unfold al_has_option. destruct options_ok as [o ->]. cbn. eauto. Qed.
  Lemma style1_ok : exists o, opt_bind (nth_attribute a 1) ea_block_style = Ok o.
  Proof. destruct (accessors_total a W) as (_ & _ & _ & o & H). exists o. exact H. Qed.
  Lemma id1_ok : exists o, opt_bind (nth_attribute a 1) ea_id = Ok o.
  Proof.
    unfold opt_bind. destruct (nth_attribute a 1) as [e|] eqn:E; [|eauto]. apply nth_attribute_in in E. destruct E as [E _].
    destruct (wf_items e) as [l Hl]; [unfold wf_al in W; rewrite Forall_forall in W; auto|].
    unfold ea_id. rewrite Hl. cbn [bind]. rewrite after_marker_eq by reflexivity. cbn. eauto.
  Qed.
  Lemma link_constraint_ok w : exists o, link_constraint_attrs a w = Ok o.
  Proof.
    unfold link_constraint_attrs. destruct (has_option_ok (lit "nofollow")) as [b ->]. cbn [bind].
    destruct (match named_attribute a (lit "window") with Some e => Some (ea_value e) | None => w end) as [x|]; [|eauto].
    destruct (text_eqb x (lit "_blank")); cbn [bind]; [eauto|]. destruct (has_option_ok (lit "noopener")) as [c ->]. cbn. eauto.
  Qed.
  Lemma icon_or_image_ok img src ty : exists o, render_icon_or_image a img src ty = Ok o.
  Proof.
    unfold render_icon_or_image. destruct (link_constraint_ok None) as [lc Hl], roles_ok as [r Hr].
    destruct (named_attribute a (lit "link")) as [e|]; cbn [bind]; rewrite ?Hl; cbn [bind]; rewrite Hr; cbn; eauto.
  Qed.
End Accessors.

Definition wf_opt (o : option attrlist) : Prop := match o with Some a => wf_al a | None => True end.
Lemma render_quoted_ok ty o id body : wf_opt o -> exists x, render_quoted ty o id body = Ok x.
Proof.
  intros W. unfold render_quoted. destruct o as [a|]; cbn [wf_opt opt_bind] in *.
  - destruct (roles_ok a W) as [r ->], (style1_ok a W) as [s ->], (id1_ok a W) as [i Hi]. cbn [bind]. destruct id; [|rewrite Hi]; cbn [bind]; eauto.
  - destruct id; cbn [bind]; eauto.
Qed.
Lemma web_path_total U fs target start : exists o, web_path U fs target start = Ok o.
Proof. destruct (web_path_ok U fs target start) as (pre & root & n & segs & E & _). eauto. Qed.
Lemma image_uri_ok U fs P t k : exists o, image_uri U fs P t k = Ok o.
Proof. unfold image_uri, normalize_web_path. destruct (_ && _); [eauto|apply web_path_total]. Qed.
Lemma render_icon_ok U fs P p : wf_al (icp_attrlist p) -> exists o, render_icon U fs P p = Ok o.
Proof. intros W. unfold render_icon, icon_uri. destruct (image_uri_ok U fs P (icp_target p ++ lit "." ++ match as_maybe_str (attribute_value P (lit "icontype")) with Some t => t | None => lit "png" end) (Some (lit "iconsdir"))) as [s ->]. cbn [bind]. apply icon_or_image_ok, W. Qed.
Lemma render_link_ok p : wf_al (lp_attrlist p) -> exists o, render_link p = Ok o.
Proof.
  intros W. unfold render_link. destruct (id_ok _ W) as [i ->], (roles_ok _ W) as [r ->], (link_constraint_ok _ W (lp_window p)) as [l ->]. cbn. eauto.
Qed.
