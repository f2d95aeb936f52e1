(** C114: the tags in a substituted text are the ones of the substitutions; the text brings in none of its own. *)
From Verif Require Import Text TextFacts Maps Span_Model Parser_Model Subs_Proof Macro_Spec Auto_Spec Group_Model Header_Spec Total_Spec Safe_Spec Safe_Proof Safe_Class Safe_Prop Tags_Spec Tags_Proof.

(** Every [<] of a text made of tags begins one of them. *)
Theorem C114_every_angle : forall o, made_of own_tags o -> forall a b, o = a ++ 60%N :: b -> exists w r, In w own_tags /\ 60%N :: b = w ++ r.
Proof.
  assert (Hd : forall w, In w own_tags -> exists v, w = 60%N :: v /\ ~ In 60%N v).
  { intros w Hw. assert (F : forallb (fun w => match w with c :: v => (c =? 60)%N && negb (has_char 60%N v) | [] => false end) own_tags = true) by (vm_compute; reflexivity).
    rewrite forallb_forall in F. specialize (F w Hw). destruct w as [|c v]; [discriminate F|]. apply andb_true_iff in F. destruct F as (F1 & F2). apply N.eqb_eq in F1. apply negb_true_iff, has_char_false in F2. subst c. eauto. }
  induction 1 as [|c t Hc H IH|w t Hw H IH]; intros a b E.
  - destruct a; discriminate E.
  - destruct a as [|c' a]; injection E as -> E; [contradiction|exact (IH a b E)].
  - destruct (Hd w Hw) as (v & -> & N). destruct a as [|c' a]; [exists (60%N :: v), t; split; [exact Hw|rewrite E; reflexivity]|]. cbn [app] in E. injection E as _ E.
    assert (K : exists a', t = a' ++ 60%N :: b). { clear - E N. revert a E. induction v as [|d v IH]; intros a E; [exists a; exact E|]. destruct a as [|d' a]; injection E as -> E; [destruct N; left; reflexivity|]. apply (IH (fun K => N (or_intror K)) a E). }
    destruct K as (a' & K). exact (IH a' b K).
Qed.
(** Texts without brackets. *)
Theorem C114_unbracketed : forall U fs P f g hb t o, unbracketed t -> clean_values (lit "[") P -> In g [GNormal; GTitle; GHeader] ->
  apply_group U fs P (S f) g hb t = Ok o -> made_of own_tags o.
Proof. exact unbracketed_made. Qed.
(** Texts without colons. *)
Theorem C114_worded : forall U fs P f g hb t o, worded t -> clean_values (lit ":") P -> In g [GNormal; GTitle; GHeader] ->
  apply_group U fs P (S f) g hb t = Ok o -> made_of own_tags o.
Proof. exact worded_made. Qed.
(** Attributes that are set in the document to such texts keep the values clean: so the condition on the values holds of
    every parser that is reached from the default one by such entries. *)
Definition header_sub (U : unicode) (fs : char) (f : nat) (P : parser) (t o : text) : Prop := apply_group U fs P (S f) GHeader false t = Ok o.
Theorem C114_values : forall U fs f x C Q, (x = lit "[" /\ C = unbracketed \/ x = lit ":" /\ C = worded) ->
  entered U C (header_sub U fs f) parser_default Q -> clean_values x Q.
Proof.
  intros U fs f x C Q Hx H. assert (Hs : forall P t o, clean_values x P -> C t -> header_sub U fs f P t o -> clean x o).
  { intros P t o V Ct Hsub. destruct Hx as [(-> & ->)|(-> & ->)]; [exact (unbracketed_value U fs P f t o Ct V Hsub)|exact (worded_value U fs P f t o Ct V Hsub)]. }
  assert (D : x = lit "[" \/ x = lit ":") by (destruct Hx as [(-> & _)|(-> & _)]; auto). destruct (default_clean x D) as (V0 & D0). exact (proj1 (entered_clean x U C _ _ _ Hs H V0 D0)).
Qed.
Theorem C114_with_entries : forall U fs f f' x C Q g hb t o, (x = lit "[" /\ C = unbracketed \/ x = lit ":" /\ C = worded) ->
  entered U C (header_sub U fs f) parser_default Q -> C t -> In g [GNormal; GTitle; GHeader] -> apply_group U fs Q (S f') g hb t = Ok o -> made_of own_tags o.
Proof.
  intros U fs f f' x C Q g hb t o Hx He Ct Hg H. pose proof (C114_values U fs f x C Q Hx He) as V. destruct Hx as [(-> & ->)|(-> & ->)]; [exact (C114_unbracketed U fs Q f' g hb t o Ct V Hg H)|exact (C114_worded U fs Q f' g hb t o Ct V Hg H)].
Qed.

Definition DQ1 : text := [34%N].
Definition letter_a : text := lit "a <b> *c* {d} me@x.org, http://x.org/y.html; (C)".
Definition letter_b : text := lit "[[i]]a <b> *c* {d} (C) [x] me@x.org".
Definition entry_of (n : text) (v : text) : attribute := mkattr (span_new n) (Some (span_new v)) (VValue v) (span_new n).
Definition with_d : parser := fst (set_attribute_from_body ascii_only (fst (set_attribute_from_header ascii_only parser_default (entry_of (lit "e") (lit "&lt;i&gt;")))) (entry_of (lit "d") (lit "&lt;i&gt;!"))).
Ltac class_ok := repeat match goal with
  | |- _ /\ _ => split
  | |- unbracketed _ => unfold unbracketed, lone_backticks
  | |- worded _ => unfold worded, lone_backticks, lone_brackets
  | |- without _ _ => apply without_off, Forall_forall, forallb_forall; vm_compute; reflexivity
  | |- no_pair _ _ _ => apply pair_b; vm_compute; reflexivity
  end.
Lemma with_d_entered (C : text -> Prop) : C (lit "<i>") -> C (lit "{e}!") -> entered ascii_only C (header_sub ascii_only 47%N 1) parser_default with_d.
Proof.
  intros H1 H2. apply en_body; [apply en_header; [apply en_none|]|].
  - exists (lit "<i>"). split; [exact H1|vm_compute; reflexivity].
  - exists (lit "{e}!"). split; [exact H2|vm_compute; reflexivity].
Qed.
Example C114_example :
  unbracketed letter_a /\ entered ascii_only unbracketed (header_sub ascii_only 47%N 1) parser_default with_d /\
  apply_group ascii_only 47%N with_d 2 GNormal false letter_a = Ok (lit "a &lt;b&gt; <strong>c</strong> &lt;i&gt;! <a href=" ++ DQ1 ++ lit "mailto:me@x.org" ++ DQ1 ++ lit ">me@x.org</a>, <a href=" ++ DQ1 ++ lit "http://x.org/y.html" ++ DQ1 ++ lit " class=" ++ DQ1 ++ lit "bare" ++ DQ1 ++ lit ">http://x.org/y.html</a>; &#169;") /\
  worded letter_b /\ entered ascii_only worded (header_sub ascii_only 47%N 1) parser_default with_d /\
  apply_group ascii_only 47%N with_d 2 GNormal false letter_b = Ok (lit "<a id=" ++ DQ1 ++ lit "i" ++ DQ1 ++ lit "></a>a &lt;b&gt; <strong>c</strong> &lt;i&gt;! &#169; [x] <a href=" ++ DQ1 ++ lit "mailto:me@x.org" ++ DQ1 ++ lit ">me@x.org</a>").
Proof.
  repeat match goal with |- _ /\ _ => split end; try (class_ok; fail).
  - apply with_d_entered; class_ok.
  - vm_compute. reflexivity.
  - apply with_d_entered; class_ok.
  - vm_compute. reflexivity.
Qed.

(** The tags are not always one inside the other: each formatting mark is looked for by itself. *)
Theorem C114_nested_refuted : exists t, unbracketed t /\ worded t /\ apply_group ascii_only 47%N parser_default 1 GNormal false t = Ok (lit "<strong>a <em>b</strong> c</em>").
Proof. exists (lit "*a _b* c_"). repeat match goal with |- _ /\ _ => split end; try (class_ok; fail). vm_compute. reflexivity. Qed.
(** They can be inside the value of an attribute of another tag, so that what a reader of HTML sees is broken. *)
Theorem C114_in_values_refuted : exists t o, unbracketed t /\ apply_group ascii_only 47%N parser_default 1 GNormal false t = Ok o /\
  occurs (lit "<a href=" ++ DQ1 ++ lit "https://x.org/<strong>a</strong>" ++ DQ1) o /\ ~ whole_markup o.
Proof.
  exists (lit "<https://x.org/*a*>"). eexists. split; [class_ok|]. split; [vm_compute; reflexivity|]. split; [apply contains_spec; vm_compute; reflexivity|]. vm_compute. discriminate.
Qed.
(** The class is needed: a passthrough brings in any tag. And so is the condition on the values. *)
Definition with_raw : parser := fst (set_attribute_from_body ascii_only parser_default (entry_of (lit "d") (lit "<b>"))).
Theorem C114_conditions_are_needed :
  (exists o, apply_group ascii_only 47%N parser_default 5 GNormal false (lit "+++<b>+++") = Ok o /\ ~ made_of own_tags o) /\
  (unbracketed (lit "{d}") /\ exists o, apply_group ascii_only 47%N with_raw 2 GNormal false (lit "{d}") = Ok o /\ ~ made_of own_tags o).
Proof.
  assert (K : ~ made_of own_tags (lit "<b>")). { intros H. destruct (C114_every_angle _ H [] (lit "b>") eq_refl) as (w & r & Hw & E). vm_compute in Hw. repeat (destruct Hw as [<-|Hw]; [discriminate E|]). destruct Hw. }
  split; [exists (lit "<b>"); split; [vm_compute; reflexivity|exact K]|]. split; [class_ok|]. exists (lit "<b>"). split; [vm_compute; reflexivity|exact K].
Qed.
Print Assumptions C114_every_angle.
Print Assumptions C114_unbracketed.
Print Assumptions C114_worded.
Print Assumptions C114_values.
Print Assumptions C114_with_entries.
Print Assumptions C114_nested_refuted.
Print Assumptions C114_in_values_refuted.
Print Assumptions C114_conditions_are_needed.
