(** Documents that are written are parsed (C112). *)
From Verif Require Import Text TextFacts Maps Span_Model Span_Pure Span_Proof Span_Laws Span_Spec Catalog_Model Parser_Model Subs_Model Subs_Proof Attrlist_Model Attrlist_Proof
  Entry_Model Group_Model Group_Spec Group_Proof Group_Prop Quote_Model Render_Model Regex Macro_Spec Subs_Prop Quote_Prop Order_Prop SecId_Model Header_Model Header_Spec Header_Proof Block_Model Block_Spec Block_Proof Shape_Proof Meta_Spec Meta_Proof Kind_Spec Kind_Proof
  Walk_Spec Outline_Spec Tree_Spec Tree_Proof Outline_Proof Total_Spec Total_Proof Doc_Model Walk_Proof Walk_Prop Header_Prop Parser_Spec Attrs_Spec Attrs_Proof Total_Header Total_Prop Safe_Spec Safe_Proof Safe_Class Safe_Prop Round_Spec Round_Proof.

Lemma harmless_all A ns : fold_right (fun x p => harmless A x /\ p) True ns <-> Forall (harmless A) ns.
Proof. apply all_of. Qed.
Lemma text_form x : solid x -> ~ title_line x -> (forall y, x <> lit "[" ++ y) -> (forall y, x <> lit ":" ++ y) -> ~ a_comment x -> ~ raw_delimiter x -> ~ compound_delimiter x -> text_line x.
Proof. intros. repeat split; assumption. Qed.
Lemma head_text_line U n : fits U n -> match n with NBreak _ _ | NMedia _ _ _ _ | NSection _ _ _ _ _ => True | _ => False end -> text_line (head_line n).
Proof.
  intros H K. destruct (head_facts _ n H) as (_ & Hso & _ & _). destruct n as [m ls|m d ls|m d ns|m l|m ty t a|m c k t ns]; try contradiction.
  - destruct H as (_ & H). cbn [head_line] in *. unfold break_line in H. cbn [In] in H.
    assert (R : ~ raw_delimiter l /\ ~ compound_delimiter l).
    { split; intros D; [apply raw_delim_form in D|apply compound_delim_form in D]; (destruct (text_eqb l (lit "<<<")) eqn:El; [apply text_eqb_eq in El; pose proof (forms_exclusive l _ FPage D El) as Z; discriminate Z|]);
        assert (Ht : has_form l FThematic) by (cbn [has_form]; assert (l <> lit "<<<") by (intros ->; discriminate El); unfold thematic_lines; cbn [In]; intuition congruence); pose proof (forms_exclusive l _ _ D Ht) as Z; discriminate Z. }
    apply text_form; try apply R; try exact Hso; repeat (destruct H as [<-|H]; [try (intros (y & E & _); discriminate E); intros y E; discriminate E|]); destruct H.
  - cbn [head_line] in *. assert (Hf : has_form (media_word ty ++ lit "::" ++ t ++ lit "[" ++ a ++ lit "]") (FMedia ty t)).
    { destruct H as (_ & Hty & Hn & _ & Hb & _). cbn [has_form]. split; [exact Hn|]. split; [exact Hb|]. exists (media_word ty), a. split; [|reflexivity]. cbn in Hty. destruct Hty as [<-|[<-|[]]]; cbn; auto. }
    destruct H as (_ & Hty & _). cbn in Hty. destruct Hty as [<-|[<-|[]]]; (apply text_form; [exact Hso|intros (y & E & _); discriminate E|intros y E; discriminate E|intros y E; discriminate E|intros (y & E & _); discriminate E|intros D; apply raw_delim_form in D; pose proof (forms_exclusive _ _ _ D Hf) as Z; discriminate Z|
      intros D; apply compound_delim_form in D; pose proof (forms_exclusive _ _ _ D Hf) as Z; discriminate Z]).
  - pose proof (head_heading _ _ _ _ _ _ H) as Hf. change (has_form (heading_line c k t) (FHeading k t)) in Hf. cbn [head_line] in *. destruct H as (_ & Hc & _). assert (Hd : exists y, heading_line c k t = c :: y) by (eexists; reflexivity). destruct Hd as (y & Ey).
    assert (N : forall d z, heading_line c k t = d :: z -> d = 61%N \/ d = 35%N). { intros d z E. rewrite Ey in E. injection E as <- _. cbn in Hc. destruct Hc as [<-|[<-|[]]]; auto. }
    apply text_form; [exact Hso|intros (z & E & _); destruct (N _ _ E) as [Z|Z]; discriminate Z|intros z E; destruct (N _ _ E) as [Z|Z]; discriminate Z|intros z E; destruct (N _ _ E) as [Z|Z]; discriminate Z|intros (z & E & _); destruct (N _ _ E) as [Z|Z]; discriminate Z|
      intros D; apply raw_delim_form in D; pose proof (forms_exclusive _ _ _ D Hf) as Z; discriminate Z|intros D; apply compound_delim_form in D; pose proof (forms_exclusive _ _ _ D Hf) as Z; discriminate Z].
Qed.
Lemma harmless_top A n : harmless A n -> top_harmless A (top_of n).
Proof. destruct n; cbn [harmless top_of]; tauto. Qed.
(** The title and the id. *)
Lemma top_tame U A n rest : fits U n -> harmless A n -> tame A false (unlines (head_line n :: more_lines n) ++ rest) -> tame A false (unlines (write n) ++ rest).
Proof.
  intros H Hh T. rewrite (write_parts _ n H), unlines_app, <- app_assoc. destruct (fits_top _ n H) as (T1 & T2). destruct (harmless_top A n Hh) as (H1 & H2). destruct (head_facts _ n H) as (_ & Hso & _ & _).
  assert (S0 : solid (unlines (head_line n :: more_lines n) ++ rest)). { rewrite unlines_cons, <- app_assoc. destruct Hso as (c & y & E & Hc). rewrite E. cbn [app]. exact (solid_cons c _ Hc). }
  assert (T0 : forall x, t_id (top_of n) = Some x -> tame A false (unlines [lit "[[" ++ x ++ lit "]]"] ++ unlines (head_line n :: more_lines n) ++ rest)).
  { intros x Ex. destruct (H2 x Ex) as (K1 & K2 & K3). rewrite unlines_cons, <- app_assoc. eapply tm_meta; [apply a_line_tidy, anchor_tidy, T2, Ex|right; split; [exact K1|exact K3]|exact K2|exact S0|exact T]. }
  assert (S1 : forall x r, solid (unlines [lit "[[" ++ x ++ lit "]]"] ++ r)) by (intros; apply solid_cons; reflexivity).
  unfold top_lines. destruct (t_title (top_of n)) as [x|]; cbn [app].
  - destruct (T1 x eq_refl) as (K0 & K1). pose proof (H1 x eq_refl) as K2. rewrite unlines_cons, <- app_assoc. eapply tm_meta; [apply a_line_tidy, title_tidy, K0|left; exists x; split; [reflexivity|exact K1]|exact K2| |].
    + destruct (t_id (top_of n)); [apply S1|exact S0].
    + destruct (t_id (top_of n)); [apply T0; reflexivity|exact T].
  - destruct (t_id (top_of n)); [apply T0; reflexivity|exact T].
Qed.
Lemma empty_tame A r : tame A false r -> tame A false (LF :: r).
Proof. intros H. eapply tm_blank; [discriminate|apply a_line_empty|exact H]. Qed.
Lemma lines_tame A ls rest : Forall tidy ls -> Forall (fun x => text_line x /\ c_text A x) ls -> tame A false rest -> tame A false (unlines ls ++ rest).
Proof.
  induction 1 as [|x ls Hx F IH]; intros G T; [exact T|]. inversion G as [|? ? (K1 & K2) G2]; subst. rewrite unlines_cons, <- app_assoc. cbn [app]. eapply tm_text; [apply a_line_tidy, Hx|exact K1|exact K2|]. exact (IH G2 T).
Qed.
(** A block and what follows. *)
Lemma written_tame U A n : fits U n -> harmless A n -> forall rest, rest = [] \/ solid rest -> tame A false rest -> tame A false (unlines (write n) ++ rest).
Proof.
  induction n as [m ls|m d ls|m d ns IH|m l|m ty t a|m c k t ns IH] using node_ind'; intros H Hh rest Hr T; apply (top_tame U); try assumption; cbn [head_line more_lines].
  - destruct ls as [|x r]; [destruct H as (_ & [])|]. destruct H as (_ & (Hx & _) & Hrs). destruct Hh as (_ & F). cbn [hd tl]. change (x :: r ++ [[]]) with ((x :: r) ++ [[]]). rewrite unlines_app, <- app_assoc. apply lines_tame; [|exact F|apply empty_tame, T].
    constructor; [exact Hx|]. eapply Forall_impl; [|exact Hrs]. intros y (K & _). exact K.
  - destruct H as (_ & Hd & F). destruct Hh as (_ & Hh). rewrite unlines_cons, <- app_assoc. cbn [app]. eapply tm_raw with (c := unlines ls) (r' := rest); [apply a_line_tidy, raw_tidy, Hd|exact Hd| |exact Hh|exact Hr|exact T].
    apply enclosed_lines; [apply raw_tidy, Hd|]. eapply Forall_impl; [|exact F]. intros x (K1 & _ & K2). auto.
  - pose proof H as H0. destruct H as (_ & Hd & Fd & Ho & F). destruct Hh as (_ & Hh). rewrite unlines_cons, <- app_assoc. cbn [app]. eapply tm_compound with (c := body ns) (r' := rest); [apply a_line_tidy, compound_tidy, Hd|exact Hd| | |exact Hr|exact T].
    + apply enclosed_lines; [apply compound_tidy, Hd|]. pose proof (write_no_lf (mkenv U (fun _ _ _ _ => Panic)) _ H0) as W. cbn [write] in W. apply Forall_app in W. destruct W as (_ & W). cbn [app] in W. apply Forall_inv_tail, Forall_app in W. destruct W as (W & _).
      rewrite Forall_forall in Fd, W |- *. intros x Hx. split; [apply W, Hx|apply Fd, Hx].
    + apply fits_all in F. apply harmless_all in Hh. clear Fd Ho H0. induction ns as [|n ns IHn]; [apply tm_nil|]. rewrite body_cons. inversion IH as [|? ? K1 K2]; subst. apply (K1 (Forall_inv F) (Forall_inv Hh)).
      * rewrite <- (app_nil_r (body ns)). apply (body_ready _ _ _ (Forall_inv_tail F)). left. reflexivity.
      * apply (IHn K2 (Forall_inv_tail F) (Forall_inv_tail Hh)).
  - rewrite unlines_cons, <- app_assoc. cbn [app]. eapply tm_text; [apply a_line_tidy; exact (proj1 (head_facts _ _ H))|exact (head_text_line _ _ H I)|apply Hh|]. apply empty_tame, T.
  - rewrite unlines_cons, <- app_assoc. cbn [app]. eapply tm_text; [apply a_line_tidy; exact (proj1 (head_facts _ _ H))|exact (head_text_line _ _ H I)|apply Hh|]. apply empty_tame, T.
  - rewrite unlines_cons, <- app_assoc. cbn [app]. eapply tm_text; [apply a_line_tidy; exact (proj1 (head_facts _ _ H))|exact (head_text_line _ _ H I)|apply Hh|]. rewrite unlines_cons. cbn [app]. apply empty_tame. destruct H as (_ & _ & _ & _ & _ & _ & F).
    destruct Hh as (_ & _ & Hh). apply fits_all in F. apply harmless_all in Hh. change (unlines (flat_map write ns)) with (body ns). induction ns as [|n ns IHn]; [exact T|]. rewrite body_cons, <- app_assoc. inversion IH as [|? ? K1 K2]; subst. apply (K1 (Forall_inv F) (Forall_inv Hh)).
    * apply (body_ready _ _ _ (Forall_inv_tail F)), Hr.
    * apply (IHn K2 (Forall_inv_tail F) (Forall_inv_tail Hh)).
Qed.
Lemma body_tame U A ns : Forall (fits U) ns -> Forall (harmless A) ns -> tame A false (body ns).
Proof.
  induction ns as [|n ns IH]; intros F Hh; [apply tm_nil|]. rewrite body_cons. apply (written_tame U); [exact (Forall_inv F)|exact (Forall_inv Hh)| |apply (IH (Forall_inv_tail F) (Forall_inv_tail Hh))].
  rewrite <- (app_nil_r (body ns)). apply (body_ready _ _ _ (Forall_inv_tail F)). left. reflexivity.
Qed.
(** The document. *)
Theorem written_parsed A (H : char -> Prop) E title ns sm P : esub_on A E -> H SP -> H LF -> (forall P t, Forall H t -> exists o, e_sub E P GHeader false t = Ok o) ->
  document_fits (e_u E) title ns -> Forall (harmless A) ns -> (forall t, title = Some t -> Forall H (lit "= " ++ t)) ->
  exists r, document_parse E (length (document_text title ns)) (document_text title ns) sm P = Ok r.
Proof.
  intros He H1 H2 Hh Hf Ha Ht. apply (C33_document_is_parsed A H); auto. intros ks ts rest w R. destruct (written_header E (fun _ x => x) title ns Hf) as (ks' & _ & R'). destruct (header_run_unique _ _ _ _ _ _ R _ _ _ _ R') as (_ & _ & -> & _).
  destruct Hf as (_ & _ & F). pose proof (body_tame _ A ns F Ha) as T. destruct title as [t|].
  - split; [apply empty_tame, T|]. exists (lit "= " ++ t ++ [LF]). split; [unfold document_text; rewrite <- !app_assoc; reflexivity|]. rewrite app_assoc. apply Forall_app. split; [apply Ht; reflexivity|repeat constructor; exact H2].
  - split; [exact T|]. exists []. split; [reflexivity|constructor].
Qed.

(** * Plain documents *)
Definition plain_marks : text := lit "+$[]\:@<>&*_`#^~{'(" ++ [PASS_START].
Ltac mark := solve [unfold plain_marks; cbn; repeat (first [left; reflexivity|right])].
Lemma plain_no c t : plain t -> In c plain_marks -> ~ In c t.
Proof. intros (H & _) Hc K. exact (H c K Hc). Qed.
Definition unbroken (P : parser) : Prop := is_attribute_set P (lit "hardbreaks-option") = false.
Lemma plain_quotes U P t : plain t -> apply_quotes U P t = Ok t.
Proof. intros H. apply C71_no_mark_no_change. intros c Hc K. apply (plain_no c t H); [|exact Hc]. revert c Hc K. intros c _ K. unfold plain_marks. cbn in K |- *. tauto. Qed.
Lemma plain_special t : plain t -> flat_map esc t = t.
Proof.
  intros N. apply flat_map_esc_id. destruct (existsb _ _) eqn:E; [|reflexivity]. apply existsb_exists in E. destruct E as (c & Hcc & E). rewrite c_in_special, !orb_true_iff, !N.eqb_eq in E. exfalso. revert Hcc. destruct E as [[->| ->]| ->]; (apply plain_no; [exact N|mark]).
Qed.
Lemma plain_replacements U t : plain t -> apply_character_replacements U t = Ok t.
Proof.
  intros N. apply C57_plain_text_is_unchanged. intros w Hw (a & b & E). assert (One : forall c r, w = c :: r -> In c plain_marks -> False) by (intros c r -> Hc; apply (plain_no c t N Hc); rewrite E, in_app_iff; right; left; reflexivity).
  destruct N as (_ & N2 & N3). cbn [In] in Hw. destruct Hw as [Hw|[Hw|[Hw|[Hw|[Hw|[Hw|[Hw|[]]]]]]]]; symmetry in Hw;
    [eapply One; [exact Hw|mark]|eapply One; [exact Hw|mark]|rewrite Hw in E; exact (N2 _ _ E)|rewrite Hw in E; exact (N3 _ _ E)|eapply One; [exact Hw|mark]|eapply One; [exact Hw|mark]|eapply One; [exact Hw|mark]].
Qed.
Lemma plain_steps U fs P t : unbroken P -> plain t -> forall l, Forall (fun s => s <> SCallouts) l -> apply_steps U fs P false l t = Ok t.
Proof.
  intros Hb N. induction 1 as [|s l Hs F IH]; [reflexivity|]. cbn [apply_steps]. assert (K : apply_step U fs P false s t = Ok t); [|rewrite K; exact IH]. destruct s; cbn [apply_step].
  - rewrite apply_special_characters_eq, (plain_special t N). reflexivity.
  - exact (plain_quotes U P t N).
  - apply C39_text_without_references_is_unchanged, plain_no; [exact N|mark].
  - exact (plain_replacements U t N).
  - apply macros_plain; (apply plain_no; [exact N|mark]).
  - unfold apply_post_replacements. rewrite Hb. cbn [orb]. rewrite (not_has 43%N t) by (apply plain_no; [exact N|mark]). reflexivity.
  - destruct (Hs eq_refl).
Qed.
Lemma plain_group U fs P n g t : unbroken P -> plain t -> In g [GNormal; GTitle; GHeader] -> apply_group U fs P (S n) g false t = Ok t.
Proof.
  intros Hb N Hg. assert (Nc : forall c w, In c w -> In c plain_marks -> ~ Macro_Spec.occurs w t). { intros c w Hc Hp (a & b & E). apply (plain_no c t N Hp). rewrite E, !in_app_iff. auto. }
  rewrite C43_no_passthrough; [|apply (Nc 43%N); [left; reflexivity|mark]|apply (Nc 36%N); [left; reflexivity|mark]|apply (Nc 58%N); [cbn; tauto|mark]|apply (Nc 93%N); [cbn; tauto|mark]].
  apply plain_steps; [exact Hb|exact N|]. cbn in Hg. destruct Hg as [<-|[<-|[<-|[]]]]; repeat constructor; discriminate.
Qed.
(** Plain texts are harmless. *)
Lemma words_easy t : (forall c, In c t -> ~ In c (lit "{+$:`]")) -> safe_words t.
Proof.
  intros H. split; [|split].
  - intros c Hc K. apply (H c K). cbn in Hc |- *. tauto.
  - intros c d [<-|[]] _ (a & b & ->). apply (H 96%N); [rewrite in_app_iff; right; left; reflexivity|cbn; tauto].
  - intros c d [<-|[]] _ (a & b & ->). apply (H 93%N); [rewrite in_app_iff; right; left; reflexivity|cbn; tauto].
Qed.
Lemma plain_words p t : (forall c, In c p -> ~ In c (lit "{+$:`]")) -> plain t -> safe_words (p ++ t).
Proof. intros Hp (H & _). apply words_easy. intros c Hc K. apply in_app_iff in Hc. destruct Hc as [Hc|Hc]; [exact (Hp c Hc K)|]. apply (H c Hc). cbn in K |- *. tauto. Qed.
Lemma closing_pair p d : ~ In 93%N p -> forall a b, a ++ 93%N :: d :: b = p ++ lit "]]" -> d = 93%N.
Proof.
  induction p as [|c p IH]; intros N a b E; destruct a as [|x a]; cbn [app] in E.
  - injection E as -> _. reflexivity.
  - injection E as _ E. destruct a as [|y a]; [injection E as E; discriminate E|]. injection E as _ E. destruct a; discriminate E.
  - injection E as E _. exfalso. apply N. left. symmetry. exact E.
  - injection E as _ E. refine (IH _ a b E). intros K. apply N. right. exact K.
Qed.
Lemma id_words x : (forall c, In c x -> ~ In c (lit "{+$:`']")) -> safe_words (lit "[[" ++ x ++ lit "]]").
Proof.
  intros H. assert (In2 : forall c, In c (lit "[[" ++ x ++ lit "]]") -> c = 91%N \/ In c x \/ c = 93%N). { intros c K. rewrite !in_app_iff in K. cbn in K. intuition. }
  split; [|split].
  - intros c Hc K. apply In2 in K. destruct K as [->|[K| ->]]; [cbn in Hc; intuition discriminate| |cbn in Hc; intuition discriminate]. apply (H c K). cbn in Hc |- *. tauto.
  - intros c d [<-|[]] _ (a & b & E). assert (K : In 96%N (lit "[[" ++ x ++ lit "]]")) by (rewrite E, in_app_iff; right; left; reflexivity). apply In2 in K. destruct K as [K|[K|K]]; try discriminate K. apply (H _ K). cbn. tauto.
  - intros c d [<-|[]] Hd (a & b & E). rewrite app_assoc in E. symmetry in E. cbn [app] in E. change (lit "[[" ++ x) with (91%N :: 91%N :: x) in E. apply closing_pair in E; [subst d; cbn in Hd; intuition discriminate|]. intros [K|[K|K]]; try discriminate K. apply (H _ K). cbn. tauto.
Qed.
Lemma infix_inside w x : (forall c, In c w -> c <> 91%N /\ c <> 93%N) -> w <> [] -> infix w (lit "[[" ++ x ++ lit "]]") -> infix w x.
Proof.
  intros N Hw (a & b & E). assert (Ha : exists a', a = lit "[[" ++ a').
  { destruct w as [|c w]; [destruct (Hw eq_refl)|]. destruct (N c (or_introl eq_refl)) as (N1 & _). destruct a as [|y a]; [injection E as E; congruence|]. injection E as <- E. destruct a as [|y a]; [injection E as E; congruence|]. injection E as <- E. exists a. reflexivity. }
  destruct Ha as (a' & ->). rewrite <- app_assoc in E. apply app_inv_head in E. assert (Hb : exists b', b = b' ++ lit "]]").
  { destruct (exists_last Hw) as (w' & c & ->). destruct (N c ltac:(rewrite in_app_iff; right; left; reflexivity)) as (_ & N2). apply (f_equal (@rev char)) in E. rewrite !rev_app_distr, <- !app_assoc in E. cbn [rev app] in E. change (rev (lit "]]")) with [93%N; 93%N] in E. cbn [app] in E.
    exists (rev (skipn 2 (rev b))). destruct (rev b) as [|y r] eqn:Eb; [cbn [app] in E; injection E as E; congruence|]. injection E as <- E. destruct r as [|y r]; [cbn [app] in E; injection E as E; congruence|]. injection E as <- E. rewrite <- (rev_involutive b), Eb. cbn [rev skipn]. rewrite <- app_assoc. reflexivity. }
  destruct Hb as (b' & ->). rewrite !app_assoc in E. apply app_inv_tail in E. exists a', b'. rewrite app_assoc. exact E.
Qed.
Lemma plain_top m : top_plain m -> top_harmless words_class m.
Proof.
  intros (H1 & H2). split.
  - intros x Hx. apply (plain_words (lit ".")); [cbn; intros c [<-|[]]; intuition discriminate|exact (H1 x Hx)].
  - intros x Hx. destruct (H2 x Hx) as (K1 & K2 & K3). cbv zeta. split; [split; [eexists; reflexivity|]; split; [|split]|split].
    + intros K. rewrite !in_app_iff in K. destruct K as [K|[K|K]]; [cbn in K; intuition discriminate| |cbn in K; intuition discriminate]. apply (K1 _ K). cbn. tauto.
    + intros K. rewrite !in_app_iff in K. destruct K as [K|[K|K]]; [cbn in K; intuition discriminate| |cbn in K; intuition discriminate]. apply (K1 _ K). cbn. tauto.
    + intros K. apply K2. apply infix_inside; [|discriminate|exact K]. cbn. intros c Hc. intuition (subst; discriminate).
    + exact (id_words x K1).
    + intros K. apply K3. apply infix_inside; [|discriminate|exact K]. cbn. intros c Hc. intuition (subst; discriminate).
Qed.
Lemma plain_line ls x : plain (join [LF] ls) -> In x ls -> safe_words x.
Proof.
  intros (H & _) Hx. apply words_easy. intros c Hc K. apply (H c); [|cbn in K |- *; tauto]. clear H K. induction ls as [|y ls IH]; [destruct Hx|]. destruct ls as [|z ls]; [destruct Hx as [<-|[]]; exact Hc|]. change (join [LF] (y :: z :: ls)) with (y ++ [LF] ++ join [LF] (z :: ls)).
  rewrite !in_app_iff. destruct Hx as [<-|Hx]; [left; exact Hc|right; right; exact (IH Hx)].
Qed.
Lemma plain_all ns : fold_right (fun x p => plain_node x /\ p) True ns <-> Forall plain_node ns.
Proof. apply all_of. Qed.
Lemma plain_harmless U n : fits U n -> plain_node n -> harmless words_class n.
Proof.
  induction n as [m ls|m d ls|m d ns IH|m l|m ty t a|m c k t ns IH] using node_ind'; intros F H; cbn [plain_node harmless] in *.
  - destruct H as (H1 & H2 & H3). split; [apply plain_top, H1|]. rewrite Forall_forall in H3 |- *. intros x Hx. split; [apply H3, Hx|exact (plain_line ls x H2 Hx)].
  - split; [apply plain_top, H|exact I].
  - destruct H as (H1 & H2). split; [apply plain_top, H1|]. apply harmless_all. apply plain_all in H2. destruct F as (_ & _ & _ & _ & F). apply fits_all in F. rewrite Forall_forall in *. intros x Hx. apply IH; auto.
  - split; [apply plain_top, H|]. destruct F as (_ & F). change (safe_words l). unfold break_line in F. cbn [In] in F. repeat (destruct F as [<-|F]; [computed|]). destruct F.
  - destruct H.
  - destruct H as (H1 & H2 & H3). split; [apply plain_top, H1|]. destruct F as (_ & Hc & _ & _ & _ & _ & F). split.
    + unfold heading_line. rewrite app_assoc. apply plain_words; [|exact H2]. intros x Hx K. apply in_app_iff in Hx. destruct Hx as [Hx|Hx]; [apply repeat_spec in Hx; subst x; cbn in Hc, K; intuition (subst; discriminate)|cbn in Hx, K; intuition (subst; discriminate)].
    + apply harmless_all. apply plain_all in H3. apply fits_all in F. rewrite Forall_forall in *. intros x Hx. apply IH; auto.
Qed.
(** What the substitutions make of them. *)
Lemma plain_texts n g x : plain_node n -> In (g, x) (texts n) -> In g [GVerbatim; GPass; GNone] \/ (In g [GNormal; GTitle; GHeader] /\ plain x).
Proof.
  assert (T : forall m, top_plain m -> In (g, x) (top_texts m) -> g = GNormal /\ plain x). { intros m (H & _) K. unfold top_texts in K. destruct (t_title m) as [y|]; [|destruct K]. destruct K as [K|[]]. injection K as <- <-. auto. }
  assert (N : forall ns, Forall (fun n => plain_node n -> In (g, x) (texts n) -> In g [GVerbatim; GPass; GNone] \/ (In g [GNormal; GTitle; GHeader] /\ plain x)) ns -> Forall plain_node ns -> In (g, x) (flat_map texts ns) -> In g [GVerbatim; GPass; GNone] \/ (In g [GNormal; GTitle; GHeader] /\ plain x)).
  { intros ns IH F K. apply in_flat_map in K. destruct K as (n0 & Hn & K). rewrite Forall_forall in *. exact (IH n0 Hn (F n0 Hn) K). }
  induction n as [m ls|m d ls|m d ns IH|m l|m ty t a|m c k t ns IH] using node_ind'; intros H K; cbn [plain_node texts] in *.
  - apply in_app_iff in K. destruct H as (H1 & H2 & _). destruct K as [K|[K|[]]]; right; [destruct (T m H1 K) as (-> & Hx); cbn; tauto|]. injection K as <- <-. cbn. tauto.
  - apply in_app_iff in K. destruct K as [K|[K|[]]]; [right; destruct (T m H K) as (-> & Hx); cbn; tauto|left]. injection K as <- _. unfold raw_meaning. destruct d as [|c d]; [cbn; tauto|]. destruct (c =? 47)%N; [cbn; tauto|]. destruct (c =? 45)%N; [cbn; tauto|]. destruct (c =? 46)%N; cbn; tauto.
  - destruct H as (H1 & H2). apply plain_all in H2. apply in_app_iff in K. destruct K as [K|K]; [right; destruct (T m H1 K) as (-> & Hx); cbn; tauto|exact (N ns IH H2 K)].
  - right. destruct (T m H K) as (-> & Hx). cbn. tauto.
  - destruct H.
  - destruct H as (H1 & H2 & H3). apply plain_all in H3. apply in_app_iff in K. destruct K as [K|[K|K]]; [right; destruct (T m H1 K) as (-> & Hx); cbn; tauto|right; injection K as <- <-; cbn; tauto|exact (N ns IH H3 K)].
Qed.
Lemma plain_agree U fs n title ns : (forall t, title = Some t -> plain t) -> Forall plain_node ns -> agree (env_of U fs (S n)) shown unbroken (document_texts title ns).
Proof.
  intros Ht F g x K P t Hb E. cbn [env_of e_sub] in E. assert (C : In g [GVerbatim; GPass; GNone] \/ (In g [GNormal; GTitle; GHeader] /\ plain x)).
  { unfold document_texts in K. apply in_app_iff in K. destruct K as [K|K].
    - destruct title as [y|]; [|destruct K]. destruct K as [K|[]]. injection K as <- <-. right. split; [cbn; tauto|apply Ht; reflexivity].
    - apply in_flat_map in K. destruct K as (n0 & Hn & K). rewrite Forall_forall in F. exact (plain_texts n0 g x (F n0 Hn) K). }
  destruct C as [C|(Cg & Cx)].
  - cbn in C. destruct C as [<-|[<-|[<-|[]]]]; cbn [shown].
    + destruct (C41_verbatim U fs P n false x) as (o & Eo & ->). rewrite Eo in E. apply Ok_inj in E. symmetry. exact E.
    + rewrite (proj1 (C41_pass_and_none U fs P n false x)) in E. apply Ok_inj in E. symmetry. exact E.
    + rewrite (proj2 (C41_pass_and_none U fs P n false x)) in E. apply Ok_inj in E. symmetry. exact E.
  - rewrite (plain_group U fs P n g x Hb Cx Cg) in E. apply Ok_inj in E. subst t. cbn in Cg. destruct Cg as [<-|[<-|[<-|[]]]]; reflexivity.
Qed.
Lemma unbroken_kept P P' : (forall n, ~ implied_name n -> is_attribute_set P' n = is_attribute_set P n) -> unbroken P -> unbroken P'.
Proof. intros H K. unfold unbroken in *. rewrite H; [exact K|]. intros [X|(b & i & Hb & X)]; [vm_compute in X; intuition discriminate|]. unfold nth_name in X. unfold author_names in Hb. cbn [In] in Hb. repeat (destruct Hb as [<-|Hb]; [destruct i as [|i]; vm_compute in X; discriminate X|]). destruct Hb. Qed.
(** Plain documents are parsed and read back. *)
Theorem plain_document U fs n title ns sm P : unbroken P -> document_fits U title ns -> (forall t, title = Some t -> plain t) -> Forall plain_node ns ->
  exists d P', document_parse (env_of U fs (S n)) (length (document_text title ns)) (document_text title ns) sm P = Ok (d, P') /\ h_title (d_header d) = title /\ map piece_of (d_blocks d) = meant_document shown ns.
Proof.
  intros Hb Hf Ht F. destruct (written_parsed words_class safe_header (env_of U fs (S n)) title ns sm P) as ((d & P') & E).
  - apply safe_esub. left. reflexivity.
  - intros K. vm_compute in K. intuition discriminate.
  - intros K. vm_compute in K. intuition discriminate.
  - intros P0 t Hh. apply C109_header_lines, Hh.
  - exact Hf.
  - destruct Hf as (_ & _ & Hf). rewrite Forall_forall in *. intros x Hx. exact (plain_harmless U x (Hf x Hx) (F x Hx)).
  - intros t E. specialize (Ht t E). apply Forall_app. split; [repeat constructor; intros K; vm_compute in K; intuition discriminate|]. apply Forall_forall. intros c Hc K. apply (proj1 Ht c Hc). cbn in K |- *. tauto.
  - exists d, P'. split; [exact E|]. destruct (document_reads (env_of U fs (S n)) shown unbroken unbroken_kept eq_refl _ title ns sm P d P' Hf Hb (plain_agree U fs n title ns Ht F) E) as (H1 & H2). split; [|exact H2]. rewrite H1. destruct title; reflexivity.
Qed.
