(** C109: documents of harmless texts are parsed. *)
From Verif Require Import Text TextFacts Maps Span_Model Span_Pure Span_Proof Span_Laws Span_Spec Catalog_Model Parser_Model SourceMap_Model Subs_Model Subs_Proof Attrlist_Model
  Entry_Model Pre_Model Pre_Spec Pre_Prop Group_Model Group_Spec Group_Proof Group_Prop SecId_Model Header_Model Header_Spec Header_Proof Header_Prop Block_Model Block_Spec Block_Proof Doc_Model Block_Prop
  Tree_Spec Tree_Proof Total_Spec Total_Proof Total_Header Total_Prop Safe_Spec Safe_Proof Safe_Class.

(** The substitutions of a text of one of the four classes give a result, whatever the attributes are and
    with one round of recursion. *)
Definition safe_text (t : text) : Prop := safe_words t \/ safe_links t \/ safe_prose t \/ safe_lines t.
Theorem C109_texts : forall U fs P f hb t g, safe_text t -> In g [GNormal; GTitle; GHeader; GNone] -> exists o, apply_group U fs P (S f) g hb t = Ok o.
Proof. intros U fs P f hb t g [H|[H|[H|H]]]; [apply words_total|apply links_total|apply prose_total|apply lines_total]; exact H. Qed.
(** The header asks for less. *)
Theorem C109_header_lines : forall U fs P f hb t, Forall safe_header t -> exists o, apply_group U fs P (S f) GHeader hb t = Ok o.
Proof.
  intros U fs P f hb t H. assert (N : forall c, In c (lit "[+$") -> ~ In c t) by (intros c Hc K; rewrite Forall_forall in H; exact (H c K Hc)).
  assert (N1 : ~ In 91%N t) by (apply N; vm_compute; auto). assert (N2 : ~ In 43%N t) by (apply N; vm_compute; auto). assert (N3 : ~ In 36%N t) by (apply N; vm_compute; auto).
  rewrite apply_group_S. change (extracts GHeader) with true. cbv iota. rewrite nothing_extracted; [|exact N2|exact N3| |left; exact N1].
  - cbn [bind fst snd]. change (steps_of GHeader) with [SSpecialCharacters; SAttributeReferences]. cbn [apply_steps apply_step]. rewrite apply_special_characters_eq. cbn [bind]. destruct (apply_attributes_total U P (flat_map esc t)) as (o & ->). cbn [bind]. eauto.
  - right. intros c (x & y & ->). exfalso. apply N1. apply in_app_iff. right. right. left. reflexivity.
Qed.
(** The inline layer of the parser, with any recursion depth but 0. *)
Definition safe_classes : list classes := [words_class; links_class; prose_class; lines_class].
Lemma safe_esub A U fs f : In A safe_classes -> esub_on A (env_of U fs (S f)).
Proof.
  intros HA. assert (Hm : forall l g, asked A l g -> In g l).
  { intros l g [H|(n & Hn & Hs)]; [exact H|]. exfalso. unfold safe_classes in HA. cbn [In] in HA. repeat (destruct HA as [<-|HA]; [exact (Hn Hs)|]). destruct HA. }
  split; intros P g hb t Hg Ht; apply Hm in Hg; cbn [env_of e_sub].
  - apply C109_texts; [|exact Hg]. unfold safe_classes in HA. cbn [In] in HA. unfold safe_text. destruct HA as [<-|[<-|[<-|[<-|[]]]]]; cbn in Ht; auto.
  - destruct Hg as [<-|[<-|[<-|[]]]]; [destruct (C41_verbatim U fs P f hb t) as (o & Ho & _); eauto|exists t; apply C41_pass_and_none|exists t; apply C41_pass_and_none].
Qed.
(** A document without directives, with a harmless header and lines of one of the classes after it, is
    parsed: there is no panic, and one round for each character is enough. *)
Theorem C109_documents_are_parsed : forall U fs f ifh A t P, In A safe_classes -> p_primary P = None -> (forall n l, line_at t n l -> ~ directive_line l) ->
  (forall ks ts rest w, header_run [] t ks ts rest w -> tame A false rest /\ exists c, t = c ++ rest /\ Forall safe_header c) ->
  exists r, parser_parse (env_of U fs (S f)) ifh (S (length t)) (length t) t P = Ok r.
Proof.
  intros U fs f ifh A t P HA Hp Hd Ht. apply (C33_parsing_gives_a_result_on_tame_documents A safe_header); auto.
  - apply safe_esub, HA.
  - intros K. vm_compute in K. intuition discriminate.
  - intros K. vm_compute in K. intuition discriminate.
  - intros P' u Hu. apply C109_header_lines, Hu.
Qed.
(** What happens to texts that fail in one place: a quote after a backtick, an address before [>], a macro,
    a link macro with nothing but the end of the line, and an image that is made by the dash before the end
    of the line; no dash, no panic. *)
Theorem C109_conditions_are_needed : forall t, In t [lit "`a` `b`' c"; lit "https://a.b>"; lit "link:a[b]"; lit "link:" ++ [LF] ++ lit "[x]"; lit "image:x --" ++ [LF] ++ lit "[format=svg,opts=inline]"] ->
  apply_group ascii_only 47%N parser_default 1 GNormal false t = Panic.
Proof. intros t H. cbn [In] in H. repeat (destruct H as [<-|H]; [vm_compute; reflexivity|]). destruct H. Qed.
(** Whether a text is in a class can be computed. *)
Definition ends_b (x t : text) : bool := match drop_while_c is_ws (rev t) with c :: _ => negb (has_char c x) | [] => true end.
Lemma without_b x t : forallb (off x) t = true -> without x t.
Proof. intros H. apply without_off, Forall_forall, forallb_forall, H. Qed.
Lemma pair_b x y t : calmb (pairs x y) t = true -> no_pair x y t.
Proof. intros H c d Hc Hd K. apply calmb_spec in H. assert (pairs x y c d = false) by (revert K; apply calm_infix, H). assert (pairs x y c d = true) by (apply pairs_iff; auto). congruence. Qed.
Lemma line_b t : calmb b_line t = true -> line_brackets t.
Proof. intros H. apply calmb_spec in H. apply (calm_line b_line); [auto|exact H]. Qed.
Lemma drop_blank z c r : blank z -> is_ws c = false -> drop_while_c is_ws (rev z ++ c :: r) = c :: r.
Proof.
  intros H Hc. assert (H' : Forall (fun c => is_ws c = true) (rev z)) by (apply Forall_rev, H). revert H'. generalize (rev z). clear z H. intros z H'. induction H' as [|d y Hd H' IH]; unfold drop_while_c in *; cbn [app span_while]; [rewrite Hc; reflexivity|rewrite Hd; destruct (span_while is_ws (y ++ c :: r)); exact IH].
Qed.
Lemma ends_b_spec x t : forallb (fun c => negb (is_ws c)) x = true -> calmb (pairs x [LF]) t = true -> ends_b x t = true -> no_line_ends x t.
Proof.
  intros Hx H1 H2. split; [intros c Hc; apply (pair_b _ _ _ H1 c LF Hc (or_introl eq_refl))|]. intros a c z -> Hc Hz. rewrite forallb_forall in Hx. specialize (Hx c Hc). apply negb_true_iff in Hx.
  unfold ends_b in H2. rewrite rev_app_distr in H2. cbn [rev] in H2. rewrite <- app_assoc in H2. cbn [app] in H2. rewrite (drop_blank z c (rev a) Hz Hx) in H2. apply negb_true_iff, has_char_false in H2. contradiction.
Qed.
Ltac computed := lazymatch goal with
  | |- _ /\ _ => split; computed
  | |- without _ _ => apply without_b; vm_compute; reflexivity
  | |- no_pair _ _ _ => apply pair_b; vm_compute; reflexivity
  | |- lone_backticks _ => apply pair_b; vm_compute; reflexivity
  | |- lone_brackets _ => apply pair_b; vm_compute; reflexivity
  | |- line_brackets _ => apply line_b; vm_compute; reflexivity
  | |- no_line_ends _ _ => apply ends_b_spec; vm_compute; reflexivity
  | |- safe_words _ => unfold safe_words; computed
  | |- safe_links _ => unfold safe_links; computed
  | |- safe_prose _ => unfold safe_prose; computed
  | |- safe_lines _ => unfold safe_lines; computed
  | |- c_text lines_class ?n => change (safe_lines n); computed
  end.
Example C109_without_the_dash : safe_prose (lit "image:x" ++ [LF] ++ lit "[format=svg,opts=inline]") /\
  apply_group ascii_only 47%N parser_default 1 GNormal false (lit "image:x" ++ [LF] ++ lit "[format=svg,opts=inline]") = Ok (lit "image:x" ++ [LF] ++ lit "[format=svg,opts=inline]").
Proof. split; [computed|vm_compute; reflexivity]. Qed.
(** Some texts of the classes. *)
Example C109_texts_example : safe_words (lit "[[x]] *a* [_b_] `c` <d> & e -- f...") /\ safe_links (lit "see https://a.b/c?d=e#f, or mailto:me@x.org; `c`: *d*") /\
  safe_prose (lit "[[x]] Note: *a* & b -> c -- d" ++ [LF] ++ lit "[e] image:f") /\ safe_lines (lit "[[x]] See: https://a.b -- *c*" ++ [LF] ++ lit "[e] image: f").
Proof. computed. Qed.
(** A document: a header, an attribute entry, a paragraph with an attribute list and addresses, a listing
    with anything in it, a section. *)
Definition letter_body : text := lines [lit ":x: y"; lit "[.lead,a=b]"; lit ".A `title`"; lit "See https://a.b/c -- or *me@x.org*."; lit "So \_d_..."; []; lit "----"; lit "`b`' link:a[b] {c} +++"; lit "----"; lit "== S (C)"; []; lit "===="; lit "it's"; lit "===="; []].
Definition letter : text := lines [lit "= T {a} > b"; []; letter_body].
Ltac no_word := let K := fresh in intros K; apply contains_spec in K; vm_compute in K; discriminate K.
Ltac is_solid := do 2 eexists; split; [reflexivity|]; reflexivity.
Lemma letter_is_tame : tame lines_class false letter_body.
Proof.
  eapply tm_colon; [this_line (lit ":x: y")|split; [eexists; reflexivity|intros y K; apply (f_equal (@rev N)) in K; rewrite rev_app_distr in K; vm_compute in K; discriminate K]|computed|right; is_solid|].
  eapply tm_meta; [this_line (lit "[.lead,a=b]")|right; split; [split; [eexists; reflexivity|]; split; [apply not_in_b; reflexivity|]; split; [apply not_in_b; reflexivity|no_word]|no_word]|computed|is_solid|].
  eapply tm_meta; [this_line (lit ".A `title`")|left; eexists; split; [reflexivity|intros c z K; injection K as <- _; split; [discriminate|intros [X|X]; discriminate X]]|computed|is_solid|].
  eapply tm_text; [this_line (lit "See https://a.b/c -- or *me@x.org*.")|a_text|computed|]. eapply tm_text; [this_line (lit "So \_d_...")|a_text|computed|]. eapply tm_blank; [discriminate|this_line (@nil N)|].
  eapply tm_raw; [this_line (lit "----")|exists 45%N; split; [cbn; auto|exists 4; split; [lia|reflexivity]]| | | |]; cycle 2.
  { right. apply solid_cons with (c := 61%N) (y := lines [lit "= S (C)"; []; lit "===="; lit "it's"; lit "===="; []]). reflexivity. } 2:{ eapply en_more; [discriminate|this_line (lit "`b`' link:a[b] {c} +++")|discriminate|]. eapply en_here; [discriminate|this_line (lit "----")]. } 2: exact I.
  eapply tm_text; [this_line (lit "== S (C)")|a_text|computed|]. eapply tm_blank; [discriminate|this_line (@nil N)|].
  eapply tm_compound; [this_line (lit "====")|right; exists 61%N; split; [cbn; auto|exists 4; split; [lia|reflexivity]]| | |left; reflexivity|constructor].
  { eapply en_more; [discriminate|this_line (lit "it's")|discriminate|]. eapply en_here; [discriminate|this_line (lit "====")]. }
  eapply tm_text; [this_line (lit "it's")|a_text|computed|constructor].
Qed.
Lemma letter_header : header_run [] letter [HText (lit "= T {a} > b")] [lit "= T {a} > b"] ([LF] ++ letter_body) false.
Proof.
  assert (Tl : forall x, (forall y, x <> y ++ [SP]) -> (forall y, x <> y ++ [CR]) -> trimmed_line x x).
  { intros x H1 H2. exists x, []. split; [right; auto|]. split; [rewrite app_nil_r; reflexivity|]. split; [intros c []|exact H1]. }
  eapply hr_title; [|exists (lit "T {a} > b"); reflexivity|].
  - apply (hl_text (lit "= T {a} > b") [LF] ([LF] ++ letter_body)); [line_ok|left; reflexivity|apply Tl; no_end|discriminate|intros (y & K & _); discriminate K|].
    intros m q X0. destruct (entry_starts _ _ _ (lit "= T {a} > b") [LF] ([LF] ++ letter_body) X0 eq_refl) as (z & X); [line_ok|left; reflexivity|discriminate X].
  - eapply hr_blank with (r := letter_body); [discriminate|discriminate|]. apply (hl_blank [] [LF] letter_body); [intros []|left; reflexivity|apply Tl; no_end].
Qed.
Example C109_example : exists r, parser_parse (env_of ascii_only 47%N 1) (fun _ _ _ _ => None) (S (length letter)) (length letter) letter parser_default = Ok r.
Proof.
  apply (C109_documents_are_parsed ascii_only 47%N 0 _ lines_class); [right; right; right; left; reflexivity|reflexivity| |].
  - intros n l (x & y & Dx & _) (d & Hd). assert (K : forall p, infix p letter -> contains p letter = true) by (intros p Hp; apply contains_spec; exact Hp).
    destruct Hd as [-> | ->]; [assert (Hc : contains (lit "include::") letter = true)|assert (Hc : contains (lit "if") letter = true)]; try (apply K; exists x, (d ++ y); rewrite Dx, <- ?app_assoc; reflexivity); vm_compute in Hc; discriminate Hc.
  - intros ks ts rest w R. destruct (header_run_unique _ _ _ _ _ _ letter_header _ _ _ _ R) as (_ & _ & <- & _). split; [eapply tm_blank; [discriminate|this_line (@nil N)|exact letter_is_tame]|]. exists (lit "= T {a} > b" ++ [LF]). split; [reflexivity|].
    apply Forall_forall. intros c Hc K. vm_compute in K. repeat (destruct K as [<-|K]; [vm_compute in Hc; intuition discriminate|]). destruct K.
Qed.
Print Assumptions C109_texts.
Print Assumptions C109_header_lines.
Print Assumptions C109_documents_are_parsed.
Print Assumptions C109_conditions_are_needed.
