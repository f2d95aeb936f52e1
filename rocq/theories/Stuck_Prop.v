(** C119: the places at which no block is found. *)
From Verif Require Import Text TextFacts Maps Span_Model Span_Pure Span_Proof Span_Laws Span_Spec Span_Prop Parser_Model Subs_Model Attrlist_Model Attrlist_Spec Attrlist_Proof Attrlist_Laws Attrlist_Prop
  Group_Model SourceMap_Model Pre_Model Header_Model Header_Spec Header_Proof Header_Prop Block_Model Block_Spec Block_Proof Doc_Model Block_Prop Tree_Proof Shape_Proof Meta_Spec Meta_Proof Kind_Spec Kind_Proof Walk_Proof Stuck_Spec Stuck_Proof.

(** Exactly where no block is found: where there is no text, after an anchor or nothing, or after lines that declare the
    style [literal].  [s0] is the place after the empty lines. *)
Theorem C119_no_block : forall E un s s0 P r, discard_empty_lines s = Ok s0 -> s0 = s \/ (exists l r, a_line (sp_data s) l r []) -> block_parse_with E un s P = Ok r ->
  (pr_item r = None <-> nowhere E P (sp_data s0)).
Proof. intros E un s s0 P r H1 H2 H3. exact (proj1 (block_none E un s s0 P r H1 H2 H3)). Qed.
(** At such a place the loop over the blocks does not move: it has no result, with any number of rounds. *)
Theorem C119_no_result : forall E s s0 P, discard_empty_lines s = Ok s0 -> s0 = s \/ (exists l r, a_line (sp_data s) l r []) -> sp_data s <> [] -> nowhere E P (sp_data s0) ->
  forall fuel n b, blocks_loop E fuel never n s P <> Ok b.
Proof. intros E s s0 P H1 H2 H3 H4. exact (loop_stuck E s s0 P H3 H1 H2 H4). Qed.
Theorem C119_document : forall E t sm P h s0, header_parse E (span_new t) P = Ok h -> discard_empty_lines (mi_after (fst h)) = Ok s0 -> sp_data s0 <> [] ->
  nowhere E (with_levels (snd (snd h)) (sectnumlevels (snd (snd h)))) (sp_data s0) -> forall fuel d P', document_parse E fuel t sm P <> Ok (d, P').
Proof.
  intros E t sm P h s0 Hh Hd Hs Hn fuel d P' H. destruct (document_inv _ _ _ _ _ _ _ H) as (h' & b & Hh' & Hb & _). rewrite Hh in Hh'. injection Hh' as <-.
  unfold parse_blocks_until in Hb. rewrite Hd in Hb. cbn [bind] in Hb. exact (loop_stuck E s0 s0 _ Hs (discard_empty_lines_idem _ _ Hd) (or_introl eq_refl) Hn _ _ _ Hb).
Qed.
(** Such places: an anchor and no text after it; *)
Theorem C119_anchor_alone : forall E P t l r n id rt, a_line t l r n -> item_line (e_u E) n (IAnchor id rt) -> hollow false r -> nowhere E P t.
Proof.
  intros E P t l r n id rt Hl Hi Ho. destruct (a_line_total r) as (l' & r' & n' & Hl'). exists [IAnchor id rt], r, None. split.
  - eapply me_line; [exact Hl|exact Hi|reflexivity|]. eapply me_end; [exact Hl'|]. intros i Hi'. exfalso. destruct (item_not_blank _ _ _ Hi') as (c & y & -> & Hc). destruct (hollow_line _ _ _ _ _ Ho Hl') as [B|(B & _)]; [|discriminate B]. inversion B as [|? ? K _]. congruence.
  - split; [reflexivity|]. split; [exact Ho|]. right. split; reflexivity.
Qed.
(** an attribute list that declares the style [literal] and no text after it (the list may have an id, roles and options); *)
Theorem C119_literal_alone : forall E P t l r n x, a_line t l r n -> item_line (e_u E) n (IList x) -> declared E P [IList x] (Some (lit "literal")) -> hollow false r -> nowhere E P t.
Proof.
  intros E P t l r n x Hl Hi Hx Ho. destruct (a_line_total r) as (l' & r' & n' & Hl'). exists [IList x], r, (Some (lit "literal")). split.
  - eapply me_line; [exact Hl|exact Hi|reflexivity|]. eapply me_end; [exact Hl'|]. intros i Hi'. exfalso. destruct (item_not_blank _ _ _ Hi') as (c & y & -> & Hc). destruct (hollow_line _ _ _ _ _ Ho Hl') as [B|(B & _)]; [|discriminate B]. inversion B as [|? ? K _]. congruence.
  - split; [exact Hx|]. split; [exact Ho|left; reflexivity].
Qed.
Theorem C119_literal_with_items : forall E P t l r n items, total (norm_of E P) -> Forall (fun i => Forall Attrlist_Spec.plain (item_text i) /\ item_text i <> []) items ->
  a_line t l r n -> n = lit "[" ++ (lit "literal" ++ concat (map print_item items)) ++ lit "]" -> hollow false r -> nowhere E P t.
Proof.
  intros E P t l r n items Hn Hi Hl En Ho. set (x := lit "literal" ++ concat (map print_item items)) in *. apply (C119_literal_alone E P t l r n x Hl); [| |exact Ho].
  - split; [exact En|]. split; [intros c y K; injection K as <- _; intros [K|K]; discriminate K|]. intros y K. discriminate K.
  - unfold declared. cbn [the_list flat_map app hd_error].
    destruct (C30_shorthand_round_trip (e_u E) (norm_of E P) P (span_new x) CtxBlock (lit "literal") items Hn) as (m & ws & E1 & _ & E2 & _); [|exact Hi|reflexivity|exists (span_new x), m, ws; auto].
    repeat constructor; cbn; intuition discriminate.
Qed.
(** a line of white space that is not of spaces. *)
Theorem C119_white_line : forall E P t l r n, a_line t l r n -> n <> [] -> hollow false t -> nowhere E P t.
Proof.
  intros E P t l r n Hl Hn Ho. exists [], t, None. split; [|split; [reflexivity|split; [exact Ho|right; split; reflexivity]]]. apply (plain_start _ _ _ _ _ Hl). intros c y ->.
  destruct (hollow_line _ _ _ _ _ Ho Hl) as [B|(B & _)]; [|discriminate B]. inversion B as [|? ? K _]. split; intros ->; discriminate K.
Qed.

(** Expected: parsing always gives a result.  It never does on these documents: an anchor alone, also with text after an
    empty line; [literal] alone; a form feed; a space that is not to be broken. *)
Definition hanging : list text := [lit "[[a]]"; lines [lit "[[a,b]]"; []; lit "text"]; lit "[literal]"; [12%N]; lines [[160%N]; []; lit "text"]].
Lemma hangs t s P0 h : (forall fuel, parse_with E0 fuel t = document_parse E0 fuel t s P0) -> header_parse E0 (span_new t) P0 = Ok h -> sp_data (p_discard_empty_lines (mi_after (fst h))) <> [] ->
  nowhere E0 (with_levels (snd (snd h)) (sectnumlevels (snd (snd h)))) (sp_data (p_discard_empty_lines (mi_after (fst h)))) -> forall fuel d P, parse_with E0 fuel t <> Ok (d, P).
Proof. intros H1 H2 H3 H4 fuel d P. rewrite H1. exact (C119_document E0 t s P0 h _ H2 (discard_empty_lines_ok _) H3 H4 fuel d P). Qed.
Lemma line_end (x : text) : ~ In LF x -> (forall y, x <> y ++ [SP]) -> (forall y, x <> y ++ [CR]) -> a_line x x [] x.
Proof.
  intros H H1 H2. exists x, []. split; [rewrite app_nil_r; reflexivity|]. split; [rewrite app_nil_r; reflexivity|]. split; [exact H|]. split; [right; split; reflexivity|].
  exists x, []. split; [right; auto|]. split; [rewrite app_nil_r; reflexivity|]. split; [intros c []|exact H1].
Qed.
Ltac no_last := intros y K; apply (f_equal (fun z => last z 0%N)) in K; rewrite last_last in K; vm_compute in K; discriminate K.
Ltac no_lf := intros K; vm_compute in K; intuition discriminate.
Lemma empty_hollow b : hollow b [].
Proof. constructor. left. reflexivity. Qed.
Lemma lf_hollow b t : hollow b (LF :: t).
Proof. constructor. right. exists [LF], t. apply (a_line_intro [] t); [intros []|no_last|no_last]. Qed.
Theorem C119_parsing_gives_a_result_refuted : forall t, In t hanging -> forall fuel d P, parse_with E0 fuel t <> Ok (d, P).
Proof.
  assert (Id : id_name (e_u E0) (lit "a")) by (exists 97%N, []; split; [reflexivity|]; split; [right; right; split; [discriminate|reflexivity]|constructor]).
  intros t Ht. unfold hanging in Ht.
  repeat (destruct Ht as [<-|Ht]; [eapply hangs; [intros fuel; unfold parse_with, parser_parse;
    match goal with |- bind ?e _ = _ => let v := eval vm_compute in e in let Ep := fresh in assert (Ep : e = v) by (vm_compute; reflexivity); rewrite Ep; clear Ep end; cbn [bind fst snd]; reflexivity|vm_compute; reflexivity|vm_compute; discriminate|]|]); [..|destruct Ht];
  match goal with |- nowhere _ ?P ?t => let v := eval vm_compute in t in let Et := fresh in assert (Et : t = v) by (vm_compute; reflexivity); rewrite Et; clear Et end.
  - refine (C119_anchor_alone _ _ _ _ _ (lit "[[a]]") (lit "a") None (line_end _ _ _ _) _ (empty_hollow _)); [no_lf|no_last|no_last|split; [exact Id|reflexivity]].
  - refine (C119_anchor_alone _ _ _ _ _ (lit "[[a,b]]") (lit "a") (Some (lit "b")) (a_line_intro _ (LF :: lit "text") _ _ _) _ (lf_hollow _ _)); [no_lf|no_last|no_last|split; [exact Id|split; [discriminate|reflexivity]]].
  - refine (C119_literal_alone _ _ _ _ _ (lit "[literal]") (lit "literal") (line_end _ _ _ _) _ _ (empty_hollow _)); [no_lf|no_last|no_last| |].
    + split; [reflexivity|]. split; [intros c y K; injection K as <- _; intros [K|K]; discriminate K|]. intros y K. discriminate K.
    + unfold declared. cbn [the_list flat_map app hd_error]. exists (span_new (lit "literal")). eexists _, _. split; [reflexivity|]. split; vm_compute; reflexivity.
  - refine (C119_white_line _ _ _ _ _ [12%N] (line_end _ _ _ _) _ _); [no_lf|no_last|no_last|discriminate|].
    refine (ho_line _ _ _ _ [12%N] _ (line_end _ _ _ _) _ _ (empty_hollow _)); [discriminate|no_lf|no_last|no_last|discriminate|repeat constructor].
  - refine (C119_white_line _ _ _ _ _ [160%N] (a_line_intro _ (LF :: lit "text") _ _ _) _ _); [no_lf|no_last|no_last|discriminate|].
    refine (ho_line _ _ _ _ [160%N] _ (a_line_intro _ (LF :: lit "text") _ _ _) _ _ (lf_hollow _ _)); [discriminate|no_lf|no_last|no_last|discriminate|repeat constructor].
Qed.

(** The hypotheses are met: an anchor alone gives no block. *)
Example C119_an_anchor_alone : nowhere E0 parser_default (lit "[[a]]") /\ exists r, block_parse_with E0 (fun _ _ _ _ => OutOfFuel) (span_new (lit "[[a]]")) parser_default = Ok r /\ pr_item r = None.
Proof.
  split; [|eexists; split; vm_compute; reflexivity].
  refine (C119_anchor_alone _ _ _ _ _ (lit "[[a]]") (lit "a") None (line_end _ _ _ _) _ (empty_hollow _)); [no_lf|no_last|no_last|split; [|reflexivity]].
  exists 97%N, []. split; [reflexivity|]. split; [right; right; split; [discriminate|reflexivity]|constructor].
Qed.
(** With text after it it is not such a place. *)
Example C119_an_anchor_with_text : exists r, block_parse_with E0 (fun _ _ _ _ => OutOfFuel) (span_new (lines [lit "[[a]]"; lit "text"])) parser_default = Ok r /\ pr_item r <> None.
Proof. eexists. split; [vm_compute; reflexivity|discriminate]. Qed.

Print Assumptions C119_no_block.
Print Assumptions C119_no_result.
Print Assumptions C119_document.
Print Assumptions C119_anchor_alone.
Print Assumptions C119_literal_alone.
Print Assumptions C119_literal_with_items.
Print Assumptions C119_white_line.
Print Assumptions C119_parsing_gives_a_result_refuted.
