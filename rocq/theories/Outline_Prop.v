(** Properties of the outline of a document (C92-C94). *)
From Verif Require Import Text TextFacts Maps Span_Model Span_Pure Span_Proof Span_Laws Span_Spec Parser_Model Header_Proof Header_Prop Block_Model Block_Spec Doc_Model Block_Prop Shape_Proof Walk_Spec Walk_Prop Tree_Prop Outline_Spec Outline_Proof.

(** ** C92: a section ends at the next title of its level or of a level above *)
(** For a document with no tab, and no attribute reference or single quote in brackets.  A paragraph of
    the style [literal] that looks like a title ends a section all the same. *)
Theorem C92_outline : forall E fuel t sm P d P', plain_lists t -> ~ In TAB t -> document_parse E fuel t sm P = Ok (d, P') -> outline 0 (d_blocks d).
Proof. exact document_outline. Qed.
Lemma outline_below lo bs b : outline lo bs -> below bs b -> exists lo' l1 l2, outline lo' (l1 ++ b :: l2).
Proof.
  intros H Hb. revert lo H. induction Hb as [l b Hb|l b c Hb Hc IH]; intros lo H.
  - apply in_split in Hb. destruct Hb as (l1 & l2 & ->). eauto.
  - apply in_split in Hb. destruct Hb as (l1 & l2 & ->). apply outline_app in H. destruct H as (_ & H). inversion H as [|? ? ? _ Hn _|? n ? ? _ _ Hn _ _]; subst; exact (IH _ Hn).
Qed.
(** A section directly in another one is of a deeper level. *)
Theorem C92_nested_sections_are_deeper : forall E fuel t sm P d P' b c n k, plain_lists t -> ~ In TAB t -> document_parse E fuel t sm P = Ok (d, P') ->
  below (d_blocks d) b -> heading_of b = Some n -> In c (nested_blocks b) -> heading_of c = Some k -> n < k.
Proof.
  intros E fuel t sm P d P' b c n k Hp Ht H Hb Hn Hc Hk. destruct (outline_below _ _ _ (C92_outline _ _ _ _ _ _ _ Hp Ht H) Hb) as (lo & l1 & l2 & K). apply outline_app in K. destruct K as (_ & K).
  inversion K as [|? ? ? Hh _ _|? n' ? ? Hh _ Hi _ _]; subst; rewrite Hn in Hh; [discriminate Hh|]. injection Hh as <-. apply in_split in Hc. destruct Hc as (m1 & m2 & Em). rewrite Em in Hi. apply outline_app in Hi. destruct Hi as (_ & Hi).
  inversion Hi as [|? ? ? Hq _ _|? n' ? ? Hq Hlt _ _ _]; subst; rewrite Hk in Hq; [discriminate Hq|]. injection Hq as <-. exact Hlt.
Qed.
(** After a section, on the same level, comes a section that is not deeper, or a paragraph of the style [literal]. *)
Theorem C92_sections_in_a_row : forall E fuel t sm P d P' b c n l1 l2 up, plain_lists t -> ~ In TAB t -> document_parse E fuel t sm P = Ok (d, P') ->
  (up = d_blocks d \/ exists a, below (d_blocks d) a /\ up = nested_blocks a) -> up = l1 ++ b :: c :: l2 -> heading_of b = Some n ->
  (exists k, heading_of c = Some k /\ k <= n) \/ literal_paragraph c.
Proof.
  intros E fuel t sm P d P' b c n l1 l2 up Hp Ht H Hu El Hn. pose proof (C92_outline _ _ _ _ _ _ _ Hp Ht H) as O.
  assert (K : exists lo, outline lo up). { destruct Hu as [->|(a & Ha & ->)]; [eauto|]. destruct (outline_below _ _ _ O Ha) as (lo & m1 & m2 & K). apply outline_app in K. destruct K as (_ & K). inversion K; subst; eauto. }
  destruct K as (lo & K). rewrite El in K. apply outline_app in K. destruct K as (_ & K). inversion K as [|? ? ? Hh _ _|? n' ? ? Hh _ _ Hf _]; subst; rewrite Hn in Hh; [discriminate Hh|]. injection Hh as <-. exact Hf.
Qed.
Definition deep_text : text := lines [lit "= T"; []; lit "Preamble."; []; lit "== A"; []; lit "[#x]"; lit "=== B"; []; lit "text"; []; lit "[discrete]"; lit "== C"; []; lit "==== D"; []; lit "=== F"; []; lit "== G"].
Definition shape_of (b : block) : nat * bool := match b with BSection n _ _ _ _ _ _ _ => (n, discrete_style b) | _ => (0, false) end.
Example C92_example : exists d P' p a g b f x c e, document_parse E0 40 deep_text [] parser_default = Ok (d, P') /\ d_blocks d = [p; a; g] /\ nested_blocks a = [b; f] /\ nested_blocks b = [x; c; e] /\
  map shape_of [p; a; g; b; f; x; c; e] = [(0, false); (1, false); (1, false); (2, false); (2, false); (0, false); (1, true); (3, false)].
Proof. do 10 eexists. split; [vm_compute; reflexivity|]. cbn [d_blocks nested_blocks]. do 3 (split; [reflexivity|]). vm_compute. reflexivity. Qed.
Lemma plain_if t : ~ In 123%N t -> ~ In 39%N t -> plain_lists t.
Proof. intros H1 H2 a x b -> _. split; intros K; [apply H1|apply H2]; rewrite !in_app_iff; auto. Qed.
Lemma no_char c t : existsb (N.eqb c) t = false -> ~ In c t.
Proof. intros H K. rewrite (proj2 (existsb_exists _ _)) in H; [discriminate H|]. exists c. split; [exact K|apply N.eqb_refl]. Qed.
Example C92_example_hypotheses : plain_lists deep_text /\ ~ In TAB deep_text.
Proof. split; [apply plain_if|]; apply no_char; vm_compute; reflexivity. Qed.
(** What ends a section is found with a parser that has no attributes of the document.  So a discrete
    heading, which belongs to the section it is in, ends the section when the style is written with an
    attribute reference. *)
Theorem C92_discrete_by_reference_refuted : exists t d P' b c l, ~ In TAB t /\ document_parse E0 30 t [] parser_default = Ok (d, P') /\ d_blocks d = b :: c :: l /\
  shape_of b = (1, false) /\ shape_of c = (1, true).
Proof.
  exists (lines [lit ":x: discrete"; []; lit "== A"; []; lit "[{x}]"; lit "== B"; []; lit "t"]). do 5 eexists. split; [apply no_char; vm_compute; reflexivity|]. split; [vm_compute; reflexivity|]. cbn [d_blocks]. split; [reflexivity|]. split; vm_compute; reflexivity.
Qed.
(** A paragraph of the style [literal] whose first line looks like a title ends the section. *)
Theorem C92_literal_paragraph_refuted : exists t d P' b c l, plain_lists t /\ ~ In TAB t /\ document_parse E0 30 t [] parser_default = Ok (d, P') /\ d_blocks d = b :: c :: l /\
  heading_of b = Some 1 /\ nested_blocks b = [] /\ literal_paragraph c.
Proof.
  exists (lines [lit "== A"; []; lit "[literal]"; lit "== B"; []; lit "t"]). do 5 eexists. split; [apply plain_if; apply no_char; vm_compute; reflexivity|]. split; [apply no_char; vm_compute; reflexivity|].
  split; [vm_compute; reflexivity|]. cbn [d_blocks]. split; [reflexivity|]. split; [vm_compute; reflexivity|]. split; [reflexivity|]. split; [repeat eexists|vm_compute; reflexivity].
Qed.
(** After a delimited block, a line of one tab hides the title below it: the section ends, and the title
    is the text of a paragraph. *)
Theorem C92_tab_line_refuted : exists t d P' b c l x src m, plain_lists t /\ document_parse E0 30 t [] parser_default = Ok (d, P') /\ d_blocks d = b :: c :: l /\
  heading_of b = Some 1 /\ c = BSimple x src StLiteral m /\ sp_data (ct_original x) = [TAB; LF] ++ lit "== B".
Proof.
  exists (lines [lit "== A"; []; lit "----"; lit "x"; lit "----"; [TAB]; lit "== B"; []; lit "t"]). do 8 eexists. split; [apply plain_if; apply no_char; vm_compute; reflexivity|].
  split; [vm_compute; reflexivity|]. cbn [d_blocks]. split; [reflexivity|]. split; [vm_compute; reflexivity|]. split; reflexivity.
Qed.

(** ** C93: a section is in the document or in another section *)
Theorem C93_sections_in_delimited_blocks_refuted : exists t d P' bs cx src m s n, plain_lists t /\ ~ In TAB t /\ document_parse E0 30 t [] parser_default = Ok (d, P') /\
  d_blocks d = [BCompound bs cx src m] /\ bs = [s] /\ heading_of s = Some n /\ d_warnings d = [].
Proof.
  exists (lines [lit "****"; lit "== A"; lit "****"]). do 8 eexists. split; [apply plain_if; apply no_char; vm_compute; reflexivity|]. split; [apply no_char; vm_compute; reflexivity|].
  split; [vm_compute; reflexivity|]. cbn [d_blocks]. split; [reflexivity|]. split; [reflexivity|]. split; [vm_compute; reflexivity|reflexivity].
Qed.

(** There is no other place: a block that has a section in it is a section or a delimited block. *)
Definition no_preamble (bs : list block) : Prop := forall b l src, below bs b -> b <> BPreamble l src.
Lemma no_preamble_app l1 l2 : no_preamble l1 -> no_preamble l2 -> no_preamble (l1 ++ l2).
Proof.
  intros H1 H2 b l src H. inversion H as [? ? Hb|? c ? Hc Hb]; subst.
  - apply in_app_iff in Hb. destruct Hb as [Hb|Hb]; [apply H1|apply H2]; apply bl_here; exact Hb.
  - apply in_app_iff in Hc. destruct Hc as [Hc|Hc]; [apply H1|apply H2]; exact (bl_in _ _ _ Hc Hb).
Qed.
Lemma no_preamble_nil : no_preamble [].
Proof. intros b l src H. inversion H; subst; contradiction. Qed.
Lemma no_preamble_one x : (forall l src, x <> BPreamble l src) -> no_preamble (nested_blocks x) -> no_preamble [x].
Proof. intros H1 H2 b l src H. inversion H as [? ? Hi|? c ? Hi Hb]; subst; destruct Hi as [<-|[]]; [apply H1|exact (H2 _ _ _ Hb)]. Qed.
Lemma parsed_no_preamble E : step_good E (fun _ l _ _ => no_preamble l).
Proof.
  intros un s P r _ G Sh. assert (Z : forall x, nested_blocks x = [] -> (forall l src, x <> BPreamble l src) -> no_preamble [x]) by (intros x Hx Hy; apply no_preamble_one; [exact Hy|rewrite Hx; exact no_preamble_nil]).
  destruct Sh as [a af Q|mj r0 Q Hf|m ws r0 Em Sh].
  - apply Z; [reflexivity|discriminate].
  - destruct (finish_inv _ _ _ _ Hf) as (i & _ & ->). cbn [pr_item]. destruct (simple_fast_inv _ _ _ _ Q) as (c & st & src & cm & -> & _). apply Z; [reflexivity|discriminate].
  - destruct Sh as [w _|m' mj w r0 _ _ Es Hf|mj w r0 Es Hf|mj w P1 r0 Es Hf|mj w r0 Es Hf|mj w P1 Es|mj w _ Es]; try (destruct (finish_inv _ _ _ _ Hf) as (i & _ & ->)); cbn [pr_item].
    + exact no_preamble_nil.
    + destruct (simple_inv _ _ _ _ Es) as (c & st & sr & ->). apply Z; [reflexivity|discriminate].
    + destruct (raw_inv _ _ _ _ _ Es) as (c & mo & cx & sr & g & ->). apply Z; [reflexivity|discriminate].
    + destruct (compound_inv _ _ _ _ _ _ Es) as (ins & b & cx & src & dl & Eu & -> & _). apply no_preamble_one; [discriminate|exact (G _ _ _ _ _ Eu)].
    + destruct (media_inv _ _ _ _ _ Es) as (t & tg & a & sr & ->). apply Z; [reflexivity|discriminate].
    + destruct (section_inv _ _ _ _ _ _ _ Es) as [(dd & lv & ti & rest & lw & bs' & b & sr & t & base & mn & reg & s2 & _ & _ & _ & Eu & _ & _ & _ & _ & _ & _ & -> & _)]. apply no_preamble_one; [discriminate|exact (G _ _ _ _ _ Eu)].
    + destruct (break_inv _ _ Es) as (t & sr & ->). apply Z; [reflexivity|discriminate].
Qed.
Theorem C93_places : forall E fuel t sm P d P' b c n, document_parse E fuel t sm P = Ok (d, P') -> below (d_blocks d) b -> In c (nested_blocks b) -> heading_of c = Some n ->
  (exists l title bs src m ty id k, b = BSection l title bs src m ty id k) \/ (exists bs cx src m, b = BCompound bs cx src m).
Proof.
  intros E fuel t sm P d P' b c n H Hb Hc Hn. unfold document_parse in H. apply bind_ok in H. destruct H as (h & _ & H). apply bind_ok in H. destruct H as (br & Eb & H). apply bind_ok in H. destruct H as (bs & Em & H). apply bind_ok in H. destruct H as (s & _ & H). apply Ok_inj in H. injection H as <- _. cbn [d_blocks] in Hb.
  assert (NP : no_preamble (br_blocks br)). { refine (until_induction E (fun _ l _ _ => no_preamble l) _ _ (parsed_no_preamble E) _ _ _ _ _ _ Eb); [intros _; exact no_preamble_nil|intros _ l1 _ _ l2 _ _; apply no_preamble_app]. }
  assert (K : (forall l src, b <> BPreamble l src) \/ exists l src, b = BPreamble l src /\ forallb (fun x => negb (is_section x)) l = true).
  { destruct (C87_preamble _ _ _ Em) as (C1 & C2). destruct (forallb (fun x => negb (is_section x)) (br_blocks br)) eqn:F.
    - rewrite (C2 eq_refl) in Hb. left. intros l src. exact (NP _ _ _ Hb).
    - assert (G : exists l1 x l2, br_blocks br = l1 ++ x :: l2 /\ is_section x = true /\ forallb (fun x => negb (is_section x)) l1 = true).
      { clear - F. induction (br_blocks br) as [|y l IH]; [discriminate F|]. cbn [forallb] in F. destruct (is_section y) eqn:Ey; cbn [negb andb] in F; [exists [], y, l; auto|]. destruct (IH F) as (l1 & x & l2 & -> & A & B). exists (y :: l1), x, l2. cbn [forallb]. rewrite Ey. auto. }
      destruct G as (l1 & x & l2 & Eq & Hx & H1). specialize (C1 _ _ _ Eq Hx H1). destruct (forallb is_entry l1); [subst bs; left; intros l src; exact (NP _ _ _ Hb)|]. destruct C1 as (src & ->).
      assert (NP1 : no_preamble l1 /\ no_preamble (x :: l2)). { rewrite Eq in NP. split; intros y l s' Hy; apply NP; inversion Hy as [? ? Hi|? z ? Hz Hi]; subst; [apply bl_here|apply (bl_in _ z)|apply bl_here|apply (bl_in _ z)]; try exact Hi; apply in_app_iff; auto. }
      inversion Hb as [? ? Hi|? z ? Hz Hi]; subst.
      + destruct Hi as [<-|Hi]; [right; eauto|left; intros l s'; apply (proj2 NP1), bl_here; exact Hi].
      + destruct Hz as [<-|Hz]; [left; intros l s'; exact (proj1 NP1 _ _ _ Hi)|left; intros l s'; exact (proj2 NP1 _ _ _ (bl_in _ _ _ Hz Hi))]. }
  destruct b as [| |l title bs0 src m ty id k| |bs0 cx src m|l src| |]; cbn [nested_blocks] in Hc; try contradiction; [left; repeat eexists|right; repeat eexists|exfalso].
  destruct K as [K|(l' & s' & K & F)]; [exact (K _ _ eq_refl)|]. injection K as <- _. rewrite forallb_forall in F. apply heading_section in Hn. destruct Hn as (t1 & b1 & s1 & m1 & y1 & i1 & n1 & ->). specialize (F _ Hc). discriminate F.
Qed.

(** ** C94: section levels are not skipped *)
(** A section in a section of level [n] that is more than one level deeper than [n], or than the section
    before it in the same section, gives a warning with both levels. *)
Theorem C94_skipped_levels_reported : forall E fuel t sm P d P' b n l1 c l2 k, plain_lists t -> ~ In TAB t -> document_parse E fuel t sm P = Ok (d, P') ->
  below (d_blocks d) b -> heading_of b = Some n -> nested_blocks b = l1 ++ c :: l2 -> heading_of c = Some k -> Forall (fun x => ~ literal_paragraph x) l1 ->
  last_level n l1 + 1 < k -> exists s, located t s /\ In (mkwarn s (WSectionHeadingLevelSkipped (last_level n l1) k)) (d_warnings d).
Proof. intros E fuel t sm P d P' b n l1 c l2 k Hp Ht H. exact (document_skips E fuel t sm P d P' Hp Ht H b n l1 c l2 k). Qed.
(** In particular the first section in a section. *)
Theorem C94_first_section : forall E fuel t sm P d P' b n l1 c l2 k, plain_lists t -> ~ In TAB t -> document_parse E fuel t sm P = Ok (d, P') ->
  below (d_blocks d) b -> heading_of b = Some n -> nested_blocks b = l1 ++ c :: l2 -> heading_of c = Some k -> Forall (fun x => heading_of x = None /\ ~ literal_paragraph x) l1 ->
  n + 1 < k -> exists s, located t s /\ In (mkwarn s (WSectionHeadingLevelSkipped n k)) (d_warnings d).
Proof.
  intros E fuel t sm P d P' b n l1 c l2 k Hp Ht H Hb Hn Hl Hk Hf Hlt.
  assert (L : last_level n l1 = n). { clear - Hf. induction Hf as [|x l (Hx & _) _ IH]; [reflexivity|]. unfold last_level in *. cbn [fold_left]. rewrite Hx. exact IH. }
  pose proof (C94_skipped_levels_reported E fuel t sm P d P' b n l1 c l2 k Hp Ht H Hb Hn Hl Hk) as K. rewrite L in K. apply K; [|exact Hlt]. eapply Forall_impl; [|exact Hf]. intros x (_ & Kx). exact Kx.
Qed.
Definition skip_text : text := lines [lit "== A"; []; lit "text"; []; lit "==== B"; []; lit "== C"].
Example C94_example : exists d P' b l1 c l2 s, plain_lists skip_text /\ ~ In TAB skip_text /\ document_parse E0 40 skip_text [] parser_default = Ok (d, P') /\ In b (d_blocks d) /\
  heading_of b = Some 1 /\ nested_blocks b = l1 ++ c :: l2 /\ heading_of c = Some 3 /\ Forall (fun x => heading_of x = None /\ block_style x = None) l1 /\ length l1 = 1 /\
  d_warnings d = [mkwarn s (WSectionHeadingLevelSkipped 1 3)] /\ sp_data s = lit "==== B".
Proof.
  do 3 eexists. eexists [_]. do 3 eexists. split; [apply plain_if; apply no_char; vm_compute; reflexivity|]. split; [apply no_char; vm_compute; reflexivity|].
  split; [vm_compute; reflexivity|]. cbn [d_blocks d_warnings]. split; [left; reflexivity|]. split; [vm_compute; reflexivity|]. cbn [nested_blocks app]. split; [reflexivity|]. split; [vm_compute; reflexivity|].
  split; [constructor; [split; vm_compute; reflexivity|constructor]|]. split; [reflexivity|]. split; reflexivity.
Qed.
(** The first section of the document may be of any level. *)
Theorem C94_first_of_document_refuted : exists t d P' b, plain_lists t /\ ~ In TAB t /\ document_parse E0 40 t [] parser_default = Ok (d, P') /\ d_blocks d = [b] /\ heading_of b = Some 2 /\ d_warnings d = [].
Proof.
  exists (lines [lit "= T"; []; lit "=== X"]). do 3 eexists. split; [apply plain_if; apply no_char; vm_compute; reflexivity|]. split; [apply no_char; vm_compute; reflexivity|].
  split; [vm_compute; reflexivity|]. cbn [d_blocks d_warnings]. split; [reflexivity|]. split; [vm_compute; reflexivity|reflexivity].
Qed.
(** Only the first of the sections that skip the level is reported. *)
Theorem C94_second_skip_refuted : exists t d P' b x z s, plain_lists t /\ ~ In TAB t /\ document_parse E0 40 t [] parser_default = Ok (d, P') /\ d_blocks d = [b] /\ heading_of b = Some 1 /\ nested_blocks b = [x; z] /\
  heading_of x = Some 3 /\ heading_of z = Some 3 /\ d_warnings d = [s] /\ sp_data (w_source s) = lit "==== X".
Proof.
  exists (lines [lit "== S"; []; lit "==== X"; []; lit "==== Z"]). do 6 eexists. split; [apply plain_if; apply no_char; vm_compute; reflexivity|]. split; [apply no_char; vm_compute; reflexivity|].
  split; [vm_compute; reflexivity|]. cbn [d_blocks d_warnings]. split; [reflexivity|]. split; [vm_compute; reflexivity|]. cbn [nested_blocks]. split; [reflexivity|]. do 2 (split; [vm_compute; reflexivity|]). split; reflexivity.
Qed.
(** After a delimited block the place of the warning is the empty line above the title. *)
Theorem C94_place_refuted : exists t d P' s, plain_lists t /\ ~ In TAB t /\ document_parse E0 40 t [] parser_default = Ok (d, P') /\ d_warnings d = [mkwarn s (WSectionHeadingLevelSkipped 1 3)] /\ sp_data s = [].
Proof.
  exists (lines [lit "== S"; []; lit "----"; lit "a"; lit "----"; []; lit "==== X"]). do 3 eexists. split; [apply plain_if; apply no_char; vm_compute; reflexivity|]. split; [apply no_char; vm_compute; reflexivity|].
  split; [vm_compute; reflexivity|]. split; reflexivity.
Qed.
(** A second title of level 0 in a section is reported twice. *)
Theorem C94_level_0_reported_twice : exists t d P' w, plain_lists t /\ ~ In TAB t /\ document_parse E0 40 t [] parser_default = Ok (d, P') /\ d_warnings d = [w; w] /\ w_type w = WLevel0SectionHeadingNotSupported.
Proof.
  exists (lines [lit "== S"; []; lit "= X"]). do 3 eexists. split; [apply plain_if; apply no_char; vm_compute; reflexivity|]. split; [apply no_char; vm_compute; reflexivity|].
  split; [vm_compute; reflexivity|]. split; reflexivity.
Qed.

Print Assumptions C92_outline.
Print Assumptions C92_nested_sections_are_deeper.
Print Assumptions C92_sections_in_a_row.
Print Assumptions C92_discrete_by_reference_refuted.
Print Assumptions C92_literal_paragraph_refuted.
Print Assumptions C92_tab_line_refuted.
Print Assumptions C93_sections_in_delimited_blocks_refuted.
Print Assumptions C93_places.
Print Assumptions C94_skipped_levels_reported.
Print Assumptions C94_first_section.
Print Assumptions C94_first_of_document_refuted.
Print Assumptions C94_second_skip_refuted.
Print Assumptions C94_place_refuted.
Print Assumptions C94_level_0_reported_twice.
