(** Proofs about section numbers, section types and ids over whole documents. *)
From Verif Require Import Text TextFacts Maps Span_Model Span_Pure Span_Proof Span_Laws Span_Spec Catalog_Model Catalog_Spec Catalog_Proof Parser_Model Parser_Spec Parser_Proof Subs_Model Attrlist_Model
  Entry_Model Group_Model SecId_Model Header_Model Header_Proof Block_Model Block_Spec Block_Proof Doc_Model Shape_Proof Walk_Spec.

(** * Section numbers *)
(** The part of the state that numbers depend on. *)
Definition core (P Q : parser) : Prop :=
  p_attrs P = p_attrs Q /\ p_defaults P = p_defaults Q /\ p_levels P = p_levels Q /\ p_last P = p_last Q /\ p_last_app P = p_last_app Q.
Lemma core_refl P : core P P. Proof. repeat split. Qed.
Lemma core_sym P Q : core P Q -> core Q P. Proof. intros (A & B & C & D & F). repeat split; congruence. Qed.
Lemma core_trans P Q R : core P Q -> core Q R -> core P R. Proof. intros (A & B & C & D & F) (A' & B' & C' & D' & F'). repeat split; congruence. Qed.
Lemma core_set P Q n : core P Q -> is_attribute_set P n = is_attribute_set Q n.
Proof. intros (A & _). unfold is_attribute_set. rewrite A. reflexivity. Qed.
Lemma core_body U P Q a : core P Q -> core (fst (set_attribute_from_body U P a)) (fst (set_attribute_from_body U Q a)).
Proof.
  intros C. pose proof C as (A & B & D & F & G). unfold set_attribute_from_body. cbv zeta. rewrite A. match goal with |- context [if ?b then _ else _] => destruct b end; [exact C|]. cbn [fst]. repeat split; cbn; congruence.
Qed.
Lemma core_register id t sp P : core P (fst (register_block_id id t sp P)).
Proof. unfold register_block_id. destruct id; [destruct (p_catalog P)|]; repeat split. Qed.
Lemma core_body_fields U P a : p_levels (fst (set_attribute_from_body U P a)) = p_levels P /\ p_last (fst (set_attribute_from_body U P a)) = p_last P /\ p_last_app (fst (set_attribute_from_body U P a)) = p_last_app P /\
  p_topmost (fst (set_attribute_from_body U P a)) = p_topmost P /\ p_catalog (fst (set_attribute_from_body U P a)) = p_catalog P.
Proof. unfold set_attribute_from_body. cbv zeta. match goal with |- context [if ?b then _ else _] => destruct b end; repeat split. Qed.
Definition numbers_on (P : parser) (level : nat) : bool := is_attribute_set P (lit "sectnums") && (level <=? p_levels P).
Inductive walk (U : unicode) : parser -> list event -> parser -> Prop :=
| wk_nil P Q : core P Q -> walk U P [] Q
| wk_entry P a Q1 l Q : core (fst (set_attribute_from_body U P a)) Q1 -> walk U Q1 l Q -> walk U P (EEntry a :: l) Q
| wk_none P level ty Q1 l Q : ty = SDiscrete \/ numbers_on P level = false -> core P Q1 -> walk U Q1 l Q -> walk U P (ESection level ty None :: l) Q
| wk_normal P level Q1 l Q : numbers_on P level = true -> 1 <= level -> core (with_last P (assign_next_number (p_last P) level)) Q1 -> walk U Q1 l Q ->
    walk U P (ESection level SNormal (Some (assign_next_number (p_last P) level)) :: l) Q
| wk_appendix P level Q1 l Q : numbers_on P level = true -> 1 <= level -> core (with_last_app P (assign_next_number (p_last_app P) level)) Q1 -> walk U Q1 l Q ->
    walk U P (ESection level SAppendix (Some (assign_next_number (p_last_app P) level)) :: l) Q.
Lemma walk_right U P l Q Q' : walk U P l Q -> core Q Q' -> walk U P l Q'.
Proof. intros H C. induction H; econstructor; eauto using core_trans. Qed.
Lemma walk_left U P l Q P' : walk U P l Q -> core P' P -> walk U P' l Q.
Proof.
  intros H C. destruct H as [P Q H|P a Q1 l Q H K|P level ty Q1 l Q Hn H K|P level Q1 l Q Hn Hl H K|P level Q1 l Q Hn Hl H K].
  - constructor. exact (core_trans _ _ _ C H).
  - econstructor; [exact (core_trans _ _ _ (core_body U _ _ a C) H)|exact K].
  - econstructor; [|exact (core_trans _ _ _ C H)|exact K]. destruct Hn as [Hn|Hn]; [auto|right]. unfold numbers_on in *. rewrite (core_set _ _ _ C). destruct C as (_ & _ & -> & _). exact Hn.
  - assert (Hn' : numbers_on P' level = true). { unfold numbers_on in *. rewrite (core_set _ _ _ C). destruct C as (_ & _ & -> & _). exact Hn. }
    pose proof C as (A & B & D & F & G). rewrite <- F in *. econstructor; [exact Hn'|exact Hl| |exact K]. destruct H as (A' & B' & D' & F' & G'). repeat split; cbn in *; congruence.
  - assert (Hn' : numbers_on P' level = true). { unfold numbers_on in *. rewrite (core_set _ _ _ C). destruct C as (_ & _ & -> & _). exact Hn. }
    pose proof C as (A & B & D & F & G). rewrite <- G in *. econstructor; [exact Hn'|exact Hl| |exact K]. destruct H as (A' & B' & D' & F' & G'). repeat split; cbn in *; congruence.
Qed.
Lemma walk_app U P l1 Q : walk U P l1 Q -> forall l2 R, walk U Q l2 R -> walk U P (l1 ++ l2) R.
Proof. intros H. induction H; intros l2 R K; cbn [app]; [exact (walk_left _ _ _ _ _ K H)|econstructor; eauto..]. Qed.

Definition R_numbers (U : unicode) (P : parser) (bs : list block) (ws : list warning) (P' : parser) : Prop :=
  p_topmost P <> SDiscrete -> walk U P (flat_map events bs) P' /\ p_topmost P' <> SDiscrete.
Lemma level_pos s mi w : parse_title_line s = Ok (Some mi, w) -> 1 <= fst (mi_item mi).
Proof. intros H. destruct (title_line_some _ _ _ H) as (l & r & n & t & _ & K & _). destruct K as (c & w' & _ & K & _). lia. Qed.

Lemma section_numbers E un m ws P mi w P1 : until_good (R_numbers (e_u E)) un -> section_parse E un m P = Ok (Some mi, (w, P1)) -> R_numbers (e_u E) P [mi_item mi] (ws ++ w) P1.
Proof.
  intros G H Ht. destruct (section_inv _ _ _ _ _ _ _ H) as [(di & level & title & rest & lw & bs & b & src & t & base & man & reg & src2 & Hd & Hl & Hs & Hu & _ & _ & _ & _ & Hr & -> & -> & _)].
  apply level_pos in Hl. cbn [mi_item fst] in Hl. cbn [mi_item flat_map events]. rewrite app_nil_r.
  set (tp := section_type_of di level bs P) in *. match type of Hu with un _ _ _ (snd ?n) = _ => set (np := n) in * end.
  assert (Tp : core P (snd tp) /\ p_topmost (snd tp) <> SDiscrete /\ (di = true -> fst tp = SDiscrete) /\ (di = false -> fst tp = p_topmost (snd tp))).
  { unfold tp, section_type_of. destruct di; [repeat split; auto; discriminate|]. destruct (level =? 1); cbn [fst snd]; [|repeat split; auto; discriminate]. repeat split; try discriminate; cbn; auto. destruct (style_is _ _); discriminate. }
  destruct Tp as (Tc & Tt & Td & Tn).
  assert (Rc : core (br_parser b) (fst (snd reg)) /\ p_topmost (fst (snd reg)) = p_topmost (br_parser b)).
  { unfold section_register in Hr. destruct (p_catalog (br_parser b)); [|apply Ok_inj in Hr; subst reg; split; repeat split]. destruct man; [cbv zeta in Hr; match type of Hr with (if ?b then _ else _) = _ => destruct b end; [apply Ok_inj in Hr; subst reg; split; repeat split|apply bind_ok in Hr; destruct Hr as (? & _ & Hr); apply Ok_inj in Hr; subst reg; split; repeat split]|].
    destruct (is_attribute_set P _); [apply bind_ok in Hr; destruct Hr as (? & _ & Hr)|]; apply Ok_inj in Hr; subst reg; split; repeat split. }
  destruct Rc as (Rc & Rt).
  assert (Np : p_topmost (snd np) = p_topmost (snd tp)).
  { unfold np. match goal with |- context [if ?b then _ else _] => destruct b end; [|reflexivity]. cbv zeta. unfold assign_section_number. destruct (p_topmost (snd tp)) eqn:X; cbn [snd]; exact X. }
  destruct (G _ _ _ _ _ Hu) as (W & Wt); [rewrite Np; exact Tt|].
  assert (End : core (br_parser b) (if (level =? 1) && negb di then with_topmost (fst (snd reg)) SNormal else fst (snd reg))).
  { destruct ((level =? 1) && negb di); [|exact Rc]. apply (core_trans _ _ _ Rc). repeat split. }
  split; [|destruct ((level =? 1) && negb di); [discriminate|rewrite Rt; exact Wt]].
  apply (walk_right _ _ _ _ _) with (2 := End). unfold np in W |- *. destruct di.
  { rewrite andb_false_r in *. cbn [fst snd] in *. rewrite (Td eq_refl). econstructor; [auto|exact Tc|exact W]. }
  cbn [negb] in *. rewrite andb_true_r in *. change (is_attribute_set (snd tp) (lit "sectnums") && (level <=? p_levels (snd tp))) with (numbers_on (snd tp) level) in *.
  assert (On : numbers_on P level = numbers_on (snd tp) level). { unfold numbers_on. rewrite (core_set _ _ _ Tc). destruct Tc as (_ & _ & -> & _). reflexivity. }
  destruct (numbers_on (snd tp) level) eqn:N; cbn [fst snd] in *; [|econstructor; [right; exact On|exact Tc|exact W]].
  rewrite (Tn eq_refl). unfold assign_section_number in *. destruct (p_topmost (snd tp)) eqn:Top; [| |contradiction]; cbn [fst snd] in *.
  - apply (walk_left _ (snd tp)); [|exact Tc]. econstructor; [exact N|exact Hl|apply core_refl|exact W].
  - apply (walk_left _ (snd tp)); [|exact Tc]. econstructor; [exact N|exact Hl|apply core_refl|exact W].
Qed.
Lemma finish_core mi ws P r : finish mi ws P = Ok r -> core P (pr_parser r) /\ p_topmost (pr_parser r) = p_topmost P.
Proof. intros H. destruct (finish_inv _ _ _ _ H) as (id & _ & ->). cbn [pr_parser]. split; [apply core_register|]. unfold register_block_id. destruct id; [destruct (p_catalog P)|]; reflexivity. Qed.
Lemma until_numbers E fuel : until_good (R_numbers (e_u E)) (parse_blocks_until E fuel).
Proof.
  apply until_induction.
  - intros P Ht. split; [constructor; apply core_refl|exact Ht].
  - intros P l1 w1 P1 l2 w2 P2 H1 H2 Ht. destruct (H1 Ht) as (A & B). destruct (H2 B) as (C & D). split; [|exact D]. rewrite flat_map_app. exact (walk_app _ _ _ _ A _ _ C).
  - apply step_cases.
    + intros P w Ht. split; [constructor; apply core_refl|exact Ht].
    + intros P mi w r Hb Hf Ht. destruct (finish_core _ _ _ _ Hf) as (C & T). split; [|rewrite T; exact Ht]. destruct (mi_item mi); try contradiction; cbn; constructor; exact C.
    + intros P a Ht. destruct (core_body_fields (e_u E) P a) as (_ & _ & _ & T & _). split; [|rewrite T; exact Ht]. cbn. econstructor; [apply core_refl|constructor; apply core_refl].
    + intros P ty src cm w Ht. split; [constructor; apply core_refl|exact Ht].
    + intros P bs cx src cm w0 w w1 P1 af r H _ Hf Ht. destruct (H Ht) as (A & B). destruct (finish_core _ _ _ _ Hf) as (C & T). split; [|rewrite T; exact B]. cbn [flat_map events]. rewrite app_nil_r. exact (walk_right _ _ _ _ _ A C).
    + intros un m ws P mi w P1 _ G H. exact (section_numbers E un m ws P mi w P1 G H).
Qed.
Lemma body_attrs U P Q a : p_attrs P = p_attrs Q -> p_attrs (fst (set_attribute_from_body U P a)) = p_attrs (fst (set_attribute_from_body U Q a)).
Proof. intros A. unfold set_attribute_from_body. cbv zeta. rewrite A. match goal with |- context [if ?b then _ else _] => destruct b end; [exact A|reflexivity]. Qed.
Lemma run_cons U P a es : fst (run_entries U P (mkentry InBody a :: es)) = fst (run_entries U (fst (set_attribute_from_body U P a)) es).
Proof. cbn [run_entries]. unfold apply_entry. cbn [en_place en_attr]. destruct (set_attribute_from_body U P a) as [p1 w1]. cbn [fst]. destruct (run_entries U p1 es). reflexivity. Qed.
Lemma run_attrs U l : forall P Q, p_attrs P = p_attrs Q -> p_attrs (fst (run_entries U P (entries l))) = p_attrs (fst (run_entries U Q (entries l))).
Proof.
  induction l as [|e l IH]; intros P Q A; [exact A|]. destruct e as [a|]; [|exact (IH P Q A)]. cbn [entries flat_map app]. change (flat_map _ l) with (entries l). rewrite !run_cons. apply IH. apply body_attrs. exact A.
Qed.
Lemma set_by_attrs P Q n : p_attrs P = p_attrs Q -> is_attribute_set P n = is_attribute_set Q n.
Proof. intros A. unfold is_attribute_set. rewrite A. reflexivity. Qed.
Definition counters (P : parser) : Prop := sn_type (p_last P) = SNormal /\ sn_type (p_last_app P) = SAppendix.
Lemma core_counters P Q : core P Q -> counters P -> counters Q.
Proof. intros (_ & _ & _ & A & B) (C & D). split; congruence. Qed.
(** One step of the walk and what it does for what comes after. *)
Lemma numbered_step U P e Q1 l :
  p_levels Q1 = p_levels P ->
  (forall pre, is_attribute_set (fst (run_entries U P (entries (e :: pre)))) (lit "sectnums") = is_attribute_set (fst (run_entries U Q1 (entries pre))) (lit "sectnums")) ->
  (forall ty pre, last_number ty (first_number P ty) (e :: pre) = last_number ty (first_number Q1 ty) pre) ->
  (forall level ty n, e = ESection level ty n -> numbered U P [e]) -> numbered U Q1 l -> numbered U P (e :: l).
Proof.
  intros Hl Hs Hn He H pre level ty n post D. destruct pre as [|e' pre]; cbn [app] in D; injection D as -> D.
  - specialize (He _ _ _ eq_refl [] level ty n [] eq_refl). exact He.
  - specialize (H pre level ty n post D). rewrite <- Hl. destruct n; rewrite Hs; [rewrite Hn|]; exact H.
Qed.
Lemma numbered_one U P level ty n : match n with
    | None => ty = SDiscrete \/ p_levels P < level \/ is_attribute_set P (lit "sectnums") = false
    | Some n => ty <> SDiscrete /\ level <= p_levels P /\ is_attribute_set P (lit "sectnums") = true /\
        sn_type n = ty /\ length (sn_comps n) = level /\ next_number (first_number P ty) level (sn_comps n)
    end -> numbered U P [ESection level ty n].
Proof. intros H pre level' ty' n' post D. destruct pre as [|e pre]; [|destruct pre; discriminate D]. cbn [app] in D. injection D as <- <- <- _. exact H. Qed.
Lemma numbers_on_spec P level : numbers_on P level = true <-> level <= p_levels P /\ is_attribute_set P (lit "sectnums") = true.
Proof. unfold numbers_on. rewrite andb_true_iff, Nat.leb_le. tauto. Qed.
Lemma numbers_off P level : numbers_on P level = false -> p_levels P < level \/ is_attribute_set P (lit "sectnums") = false.
Proof. unfold numbers_on. rewrite andb_false_iff, Nat.leb_gt. tauto. Qed.
Lemma walk_numbered U P l Q : walk U P l Q -> counters P -> numbered U P l /\ counters Q /\ p_levels Q = p_levels P.
Proof.
  intros H. induction H as [P Q H|P a Q1 l Q H K IH|P level ty Q1 l Q Hn H K IH|P level Q1 l Q Hn Hl H K IH|P level Q1 l Q Hn Hl H K IH]; intros Hc.
  - split; [intros pre ? ? ? ? D; destruct pre; discriminate D|]. split; [exact (core_counters _ _ H Hc)|]. destruct H as (_ & _ & -> & _). reflexivity.
  - destruct (core_body_fields U P a) as (F1 & F2 & F3 & _). pose proof H as (A & B & C & D & F). destruct IH as (I1 & I2 & I3); [apply (core_counters _ _ H); destruct Hc; split; congruence|].
    split; [|split; [exact I2|congruence]]. apply numbered_step with Q1; [congruence| | |discriminate|exact I1].
    + intros pre. cbn [entries flat_map app]. change (flat_map _ pre) with (entries pre). rewrite run_cons. apply set_by_attrs. apply run_attrs. exact A.
    + intros ty pre. cbn [last_number]. f_equal. unfold first_number. destruct ty; congruence.
  - pose proof H as (A & B & C & D & F). destruct IH as (I1 & I2 & I3); [exact (core_counters _ _ H Hc)|]. split; [|split; [exact I2|congruence]]. apply numbered_step with Q1; [congruence| | | |exact I1].
    + intros pre. apply set_by_attrs. apply (run_attrs U pre). exact A.
    + intros ty' pre. cbn [last_number]. f_equal. unfold first_number. destruct ty'; congruence.
    + intros _ _ _ _. apply numbered_one. destruct Hn as [Hn|Hn]; [auto|right; exact (numbers_off _ _ Hn)].
  - pose proof H as (A & B & C & D & F). cbn in A, B, C, D, F. destruct (assign_next (p_last P) level Hl) as (N1 & N2 & N3). destruct IH as (I1 & I2 & I3); [destruct Hc; split; congruence|]. split; [|split; [exact I2|congruence]].
    apply numbered_step with Q1; [congruence| | | |exact I1].
    + intros pre. apply set_by_attrs. apply (run_attrs U pre). exact A.
    + intros ty' pre. cbn [last_number]. f_equal. unfold first_number. destruct ty'; cbn [same_type]; congruence.
    + intros _ _ _ _. apply numbered_one. apply numbers_on_spec in Hn. destruct Hc as [Hc _]. split; [discriminate|]. split; [apply Hn|]. split; [apply Hn|]. split; [congruence|]. split; [exact N2|exact N1].
  - pose proof H as (A & B & C & D & F). cbn in A, B, C, D, F. destruct (assign_next (p_last_app P) level Hl) as (N1 & N2 & N3). destruct IH as (I1 & I2 & I3); [destruct Hc; split; congruence|]. split; [|split; [exact I2|congruence]].
    apply numbered_step with Q1; [congruence| | | |exact I1].
    + intros pre. apply set_by_attrs. apply (run_attrs U pre). exact A.
    + intros ty' pre. cbn [last_number]. f_equal. unfold first_number. destruct ty'; cbn [same_type]; congruence.
    + intros _ _ _ _. apply numbered_one. apply numbers_on_spec in Hn. destruct Hc as [_ Hc]. split; [discriminate|]. split; [apply Hn|]. split; [apply Hn|]. split; [congruence|]. split; [exact N2|exact N1].
Qed.
(** The preamble changes nothing in the order of the blocks. *)
Lemma make_preamble_flat {A} (f : block -> list A) bs ah bs' : (forall l s, f (BPreamble l s) = flat_map f l) -> make_preamble bs ah = Ok bs' -> flat_map f bs' = flat_map f bs.
Proof.
  intros Hf H. unfold make_preamble in H. destruct (preamble_split 0 false bs) as [i|]; [|apply Ok_inj in H; subst; reflexivity]. apply bind_ok in H. destruct H as (p & Ep & H). apply Ok_inj in H. subst bs'.
  unfold preamble_from_blocks in Ep. apply bind_ok in Ep. destruct Ep as (src & _ & Ep). apply Ok_inj in Ep. subst p. cbn [flat_map]. rewrite Hf, <- flat_map_app, firstn_skipn. reflexivity.
Qed.
(** Documents: the header, then the blocks. *)
Lemma document_inv E fuel t sm P d P' : document_parse E fuel t sm P = Ok (d, P') -> exists h b, header_parse E (span_new t) P = Ok h /\
  parse_blocks_until E fuel never 0 (mi_after (fst h)) (with_levels (snd (snd h)) (sectnumlevels (snd (snd h)))) = Ok b /\ make_preamble (br_blocks b) (mi_after (fst h)) = Ok (d_blocks d) /\
  d_header d = mi_item (fst h) /\ d_warnings d = fst (snd h) ++ br_warnings b /\ d_catalog d = fst (take_catalog (br_parser b)) /\ P' = with_catalog (br_parser b) None.
Proof.
  unfold document_parse. cbv zeta. intros H. apply bind_ok in H. destruct H as (h & Eh & H). apply bind_ok in H. destruct H as (b & Eb & H). apply bind_ok in H. destruct H as (bs & Ebs & H). apply bind_ok in H. destruct H as (s & _ & H).
  apply Ok_inj in H. injection H as <- <-. exists h, b. cbn [d_blocks d_header d_warnings d_catalog]. auto 10.
Qed.
(** The header sets attributes and nothing else. *)
Definition only_attrs (P Q : parser) : Prop := exists a, Q = with_attrs P a.
Lemma oa_refl P : only_attrs P P. Proof. exists (p_attrs P). destruct P. reflexivity. Qed.
Lemma oa_trans P Q R : only_attrs P Q -> only_attrs Q R -> only_attrs P R. Proof. intros (a & ->) (b & ->). exists b. reflexivity. Qed.
Lemma oa_value U P n v : only_attrs P (set_attribute_by_value_from_header U P n v). Proof. eexists. reflexivity. Qed.
Lemma oa_opt U P n o : only_attrs P (set_opt U P n o). Proof. destruct o; [apply oa_value|apply oa_refl]. Qed.
Lemma oa_nth U P n i v : only_attrs P (set_nth_attribute U P n i v). Proof. apply oa_value. Qed.
Lemma oa_nth_opt U P n i o : only_attrs P (set_nth_opt U P n i o). Proof. destruct o; [apply oa_nth|apply oa_refl]. Qed.
Lemma oa_header U P a : only_attrs P (fst (set_attribute_from_header U P a)).
Proof. unfold set_attribute_from_header. cbv zeta. match goal with |- context [if ?b then _ else _] => destruct b end; [apply oa_refl|eexists; reflexivity]. Qed.
Lemma oa_author U P i a : only_attrs P (set_author U P i a).
Proof. unfold set_author. cbv zeta. eapply oa_trans; [|apply oa_nth_opt]. eapply oa_trans; [|apply oa_nth_opt]. eapply oa_trans; [|apply oa_nth_opt]. eapply oa_trans; [|apply oa_nth]. eapply oa_trans; [|apply oa_nth]. apply oa_nth. Qed.
Lemma oa_authors U l : forall P i, only_attrs P (set_authors U P i l).
Proof. induction l as [|a l IH]; intros P i; [apply oa_refl|]. exact (oa_trans _ _ _ (oa_author U P i a) (IH _ _)). Qed.
Lemma oa_entry U a P Q : set_author_entry U a P = Ok Q -> only_attrs P Q.
Proof.
  unfold set_author_entry. destruct (eq_ignore_ascii_case _ _); [|intros H; apply Ok_inj in H; subst; apply oa_refl]. destruct (at_value_source a); [|intros H; apply Ok_inj in H; subst; apply oa_refl].
  intros H. apply bind_ok in H. destruct H as (o & _ & H). apply Ok_inj in H. subst Q. destruct o; [|apply oa_refl]. cbv zeta. eapply oa_trans; [|apply oa_opt]. eapply oa_trans; [|apply oa_value]. eapply oa_trans; [|apply oa_opt]. eapply oa_trans; [|apply oa_opt]. apply oa_value.
Qed.
Lemma oa_step E s h r : header_step E s h = Ok r -> only_attrs (s_parser h) (s_parser (fst r)).
Proof.
  unfold header_step. cbv zeta. intros H. apply bind_ok in H. destruct H as (l & _ & H). destruct (is_nil _). { apply Ok_inj in H. subst r. apply oa_refl. }
  match type of H with (if ?b then _ else _) = _ => destruct b end. { apply Ok_inj in H. subst r. apply oa_refl. }
  apply bind_ok in H. destruct H as (o & _ & H). destruct o as [a|].
  { apply bind_ok in H. destruct H as (Q & Eq & H). apply Ok_inj in H. subst r. cbn [fst s_parser]. exact (oa_trans _ _ _ (oa_entry _ _ _ _ Eq) (oa_header _ _ _)). }
  match type of H with (if ?b then _ else _) = _ => destruct b end.
  { apply bind_ok in H. destruct H as (? & _ & H). apply bind_ok in H. destruct H as (? & _ & H). apply bind_ok in H. destruct H as (? & _ & H). apply Ok_inj in H. subst r. apply oa_value. }
  match type of H with (if ?b then _ else _) = _ => destruct b end.
  { apply bind_ok in H. destruct H as (ap & Ea & H). apply Ok_inj in H. subst r. cbn [fst s_parser]. unfold author_line_parse in Ea. apply bind_ok in Ea. destruct Ea as (al & _ & Ea). apply Ok_inj in Ea. subst ap. apply oa_authors. }
  match type of H with (if ?b then _ else _) = _ => destruct b end.
  { apply bind_ok in H. destruct H as (rp & Ea & H). apply Ok_inj in H. subst r. cbn [fst s_parser]. unfold revision_parse in Ea. cbv zeta in Ea. apply bind_ok in Ea. destruct Ea as (? & _ & Ea). apply bind_ok in Ea. destruct Ea as (? & _ & Ea).
    apply bind_ok in Ea. destruct Ea as (? & _ & Ea). apply Ok_inj in Ea. subst rp. cbn [snd]. eapply oa_trans; [|apply oa_opt]. eapply oa_trans; [|apply oa_value]. apply oa_opt. }
  apply Ok_inj in H. subst r. cbn [fst]. destruct (is_some _); apply oa_refl.
Qed.
Lemma oa_loop E : forall fuel s h r, header_loop E fuel s h = Ok r -> only_attrs (s_parser h) (s_parser (fst r)).
Proof.
  induction fuel as [|fuel IH]; intros s h r H; cbn [header_loop] in H.
  - destruct (sp_data s); [|discriminate H]. apply Ok_inj in H. subst r. apply oa_refl.
  - destruct (sp_data s). { apply Ok_inj in H. subst r. apply oa_refl. } apply bind_ok in H. destruct H as (x & Ex & H). pose proof (oa_step _ _ _ _ Ex) as K.
    destruct (snd x); [exact (oa_trans _ _ _ K (IH _ _ _ H))|]. apply Ok_inj in H. subst r. exact K.
Qed.
Lemma header_only_attrs E s P h : header_parse E s P = Ok h -> only_attrs P (snd (snd h)).
Proof.
  unfold header_parse. intros H. apply bind_ok in H. destruct H as (? & _ & H). apply bind_ok in H. destruct H as (r & Er & H). cbv zeta in H. apply bind_ok in H. destruct H as (? & _ & H). apply bind_ok in H. destruct H as (? & _ & H).
  apply bind_ok in H. destruct H as (? & _ & H). apply Ok_inj in H. subst h. cbn [snd]. exact (oa_loop _ _ _ _ _ Er).
Qed.
Theorem document_numbers E fuel t sm P h d P' : sane P -> header_parse E (span_new t) P = Ok h -> document_parse E fuel t sm P = Ok (d, P') ->
  numbered (e_u E) (with_levels (snd (snd h)) (sectnumlevels (snd (snd h)))) (flat_map events (d_blocks d)) /\ sane P'.
Proof.
  intros (S1 & S2 & S3) Hh H. destruct (document_inv _ _ _ _ _ _ _ H) as (h' & b & Hh' & Hb & Hm & _ & _ & _ & ->). rewrite Hh in Hh'. apply Ok_inj in Hh'. subst h'.
  destruct (header_only_attrs _ _ _ _ Hh) as (a & Ea). rewrite (make_preamble_flat events _ _ _ (fun _ _ => eq_refl) Hm).
  destruct (until_numbers E fuel _ _ _ _ _ Hb) as (W & T); [rewrite Ea; exact S1|]. destruct (walk_numbered _ _ _ _ W) as (N & (C1 & C2) & _); [rewrite Ea; split; assumption|]. split; [exact N|]. split; [exact T|split; assumption].
Qed.

(** * Section types *)
Definition is_leaf (b : block) : Prop := match b with BSection _ _ _ _ _ _ _ _ | BCompound _ _ _ _ | BPreamble _ _ => False | _ => True end.
Inductive typed : section_type -> list block -> section_type -> Prop :=
| ty_nil t : typed t [] t
| ty_leaf t b bs t' : is_leaf b -> typed t bs t' -> typed t (b :: bs) t'
| ty_compound t l cx src cm t1 bs t2 : typed t l t1 -> typed t1 bs t2 -> typed t (BCompound l cx src cm :: bs) t2
| ty_discrete t level title src cm id bs t' : discrete_style (BSection level title [] src cm SDiscrete id None) = true -> typed t bs t' -> typed t (BSection level title [] src cm SDiscrete id None :: bs) t'
| ty_chapter t title l src cm ty id n t1 bs t2 : discrete_style (BSection 1 title l src cm ty id n) = false ->
    ty = (if style_is (block_style (BSection 1 title l src cm ty id n)) (lit "appendix") then SAppendix else SNormal) -> typed ty l t1 -> typed SNormal bs t2 -> typed t (BSection 1 title l src cm ty id n :: bs) t2
| ty_section t level title l src cm id n t1 bs t2 : discrete_style (BSection level title l src cm t id n) = false -> level <> 1 -> typed t l t1 -> typed t1 bs t2 -> typed t (BSection level title l src cm t id n :: bs) t2.
Lemma typed_app t l1 t1 : typed t l1 t1 -> forall l2 t2, typed t1 l2 t2 -> typed t (l1 ++ l2) t2.
Proof. intros H. induction H; intros l2 t3 K; cbn [app]; [exact K|eapply ty_leaf|eapply ty_compound|eapply ty_discrete|eapply ty_chapter|eapply ty_section]; eauto. Qed.
(** A discrete heading has no blocks. *)
Lemma discrete_blocks E un level n s P b : real E un -> un (section_stop E true level) n s P = Ok b -> br_blocks b = [] /\ br_parser b = P /\ br_warnings b = [] /\ br_stop_warnings b = [].
Proof.
  intros (fuel & Hu) H. rewrite Hu, discard_empty_lines_ok in H. cbn [bind] in H. destruct fuel as [|fuel]; cbn [blocks_loop] in H; destruct (sp_data _); try discriminate H; apply Ok_inj in H; subst b; auto.
Qed.
Definition R_types (P : parser) (bs : list block) (ws : list warning) (P' : parser) : Prop := typed (p_topmost P) bs (p_topmost P').
Lemma section_types E un m ws P mi w P1 : real E un -> until_good R_types un -> section_parse E un m P = Ok (Some mi, (w, P1)) -> R_types P [mi_item mi] (ws ++ w) P1.
Proof.
  intros Rl G H. destruct (section_inv _ _ _ _ _ _ _ H) as [(di & level & title & rest & lw & bs & b & src & t & base & man & reg & src2 & Hd & Hl & Hs & Hu & _ & _ & _ & _ & Hr & -> & -> & _)].
  cbn [mi_item]. unfold R_types. set (tp := section_type_of di level bs P) in *. match type of Hu with un _ _ _ (snd ?n) = _ => set (np := n) in * end.
  assert (Rt : p_topmost (fst (snd reg)) = p_topmost (br_parser b)).
  { unfold section_register in Hr. destruct (p_catalog (br_parser b)); [|apply Ok_inj in Hr; subst reg; reflexivity]. destruct man; [cbv zeta in Hr; match type of Hr with (if ?b then _ else _) = _ => destruct b end; [apply Ok_inj in Hr; subst reg; reflexivity|apply bind_ok in Hr; destruct Hr as (? & _ & Hr); apply Ok_inj in Hr; subst reg; reflexivity]|].
    destruct (is_attribute_set P _); [apply bind_ok in Hr; destruct Hr as (? & _ & Hr)|]; apply Ok_inj in Hr; subst reg; reflexivity. }
  assert (Np : p_topmost (snd np) = p_topmost (snd tp)).
  { unfold np. match goal with |- context [if ?b then _ else _] => destruct b end; [|reflexivity]. cbv zeta. unfold assign_section_number. destruct (p_topmost (snd tp)) eqn:X; cbn [snd]; exact X. }
  assert (Ds : forall l ty id n, discrete_style (BSection level (mkct title t) l src2 (common_of m) ty id n) = di /\ block_style (BSection level (mkct title t) l src2 (common_of m) ty id n) = bs).
  { intros l ty id n. unfold discrete_style, block_style. cbn [block_common common_of cm_attrlist]. unfold is_discrete in Hd. rewrite Hs in Hd |- *. cbn [bind] in Hd. apply Ok_inj in Hd. auto. }
  destruct di.
  - destruct (discrete_blocks _ _ _ _ _ _ _ Rl Hu) as (-> & Ep & _). rewrite andb_false_r. rewrite Rt, Ep, Np. unfold np. rewrite andb_false_r. cbn [fst snd]. unfold tp, section_type_of in *. cbn [fst snd] in *.
    apply ty_discrete; [apply Ds|constructor].
  - specialize (G _ _ _ _ _ Hu). unfold R_types in G. rewrite Np in G. unfold tp, section_type_of in *. cbn [negb] in *. rewrite andb_true_r. destruct (Nat.eqb_spec level 1) as [->|Nl]; cbn [fst snd p_topmost with_topmost] in *.
    + destruct (Ds (br_blocks b) (if style_is bs (lit "appendix") then SAppendix else SNormal) (fst reg) (fst np)) as (D1 & D2). eapply ty_chapter; [exact D1|rewrite D2; reflexivity|exact G|constructor].
    + rewrite Rt. eapply ty_section; [apply Ds|exact Nl|exact G|constructor].
Qed.
Lemma until_types E fuel : until_good R_types (parse_blocks_until E fuel).
Proof.
  apply until_induction.
  - intros P. constructor.
  - intros P l1 w1 P1 l2 w2 P2 H1 H2. exact (typed_app _ _ _ H1 _ _ H2).
  - apply step_cases.
    + intros P w. constructor.
    + intros P mi w r Hb Hf. destruct (finish_core _ _ _ _ Hf) as (_ & T). unfold R_types. rewrite T. apply ty_leaf; [|constructor]. destruct (mi_item mi); try contradiction; exact I.
    + intros P a. destruct (core_body_fields (e_u E) P a) as (_ & _ & _ & T & _). unfold R_types. rewrite T. apply ty_leaf; [exact I|constructor].
    + intros P ty src cm w. apply ty_leaf; [exact I|constructor].
    + intros P bs cx src cm w0 w w1 P1 af r H _ Hf. destruct (finish_core _ _ _ _ Hf) as (_ & T). unfold R_types in *. rewrite T. eapply ty_compound; [exact H|constructor].
    + intros un m ws P mi w P1 Rl G H. exact (section_types E un m ws P mi w P1 Rl G H).
Qed.
Lemma all_of {A} (f : A -> Prop) l : fold_right (fun x p => f x /\ p) True l <-> Forall f l.
Proof. induction l as [|x l IH]; cbn; [split; auto|]. rewrite IH. split; [intros (H & K); constructor; assumption|intros H; inversion H; auto]. Qed.
Lemma typed_quiet t bs t' : typed t bs t' -> existsb has_chapter bs = false -> t' = t /\ Forall (well_typed t) bs.
Proof.
  intros H. induction H as [t|t b bs t' Hb H IH|t l cx src cm t1 bs t2 H1 I1 H2 I2|t level title src cm id bs t' Hd H IH|t title l src cm ty id n t1 bs t2 Hd Ht H1 I1 H2 I2|t level title l src cm id n t1 bs t2 Hd Hl H1 I1 H2 I2]; cbn [existsb]; intros Q.
  - auto.
  - apply orb_false_iff in Q. destruct Q as (_ & Q). destruct (IH Q) as (-> & F). split; [reflexivity|]. constructor; [|exact F]. destruct b; try contradiction; exact I.
  - apply orb_false_iff in Q. destruct Q as (Q1 & Q2). cbn [has_chapter] in Q1. destruct (I1 Q1) as (-> & F1). destruct (I2 Q2) as (-> & F2). split; [reflexivity|]. constructor; [|exact F2]. cbn [well_typed]. apply all_of. exact F1.
  - apply orb_false_iff in Q. destruct Q as (_ & Q). destruct (IH Q) as (-> & F). split; [reflexivity|]. constructor; [|exact F]. cbn [well_typed]. rewrite Hd. auto.
  - cbn [has_chapter] in Q. rewrite Hd in Q. discriminate Q.
  - apply orb_false_iff in Q. destruct Q as (Q1 & Q2). cbn [has_chapter] in Q1. apply orb_false_iff in Q1. destruct Q1 as (_ & Q1). destruct (I1 Q1) as (-> & F1). destruct (I2 Q2) as (-> & F2). split; [reflexivity|]. constructor; [|exact F2].
    cbn [well_typed]. rewrite Hd. destruct (Nat.eqb_spec level 1); [contradiction|]. split; [reflexivity|]. apply all_of. exact F1.
Qed.
Lemma typed_apart t bs t' : typed t bs t' -> t = SNormal -> forallb chapters_apart bs = true -> t' = SNormal /\ Forall (well_typed SNormal) bs.
Proof.
  intros H. induction H as [t|t b bs t' Hb H IH|t l cx src cm t1 bs t2 H1 I1 H2 I2|t level title src cm id bs t' Hd H IH|t title l src cm ty id n t1 bs t2 Hd Ht H1 I1 H2 I2|t level title l src cm id n t1 bs t2 Hd Hl H1 I1 H2 I2]; cbn [forallb]; intros Et Q.
  - auto.
  - apply andb_true_iff in Q. destruct Q as (_ & Q). destruct (IH Et Q) as (-> & F). split; [reflexivity|]. constructor; [|exact F]. destruct b; try contradiction; exact I.
  - apply andb_true_iff in Q. destruct Q as (Q1 & Q2). cbn [chapters_apart] in Q1. destruct (I1 Et Q1) as (E1 & F1). destruct (I2 E1 Q2) as (-> & F2). split; [reflexivity|]. constructor; [|exact F2]. cbn [well_typed]. apply all_of. exact F1.
  - apply andb_true_iff in Q. destruct Q as (_ & Q). destruct (IH Et Q) as (-> & F). split; [reflexivity|]. constructor; [|exact F]. cbn [well_typed]. rewrite Hd. auto.
  - apply andb_true_iff in Q. destruct Q as (Q1 & Q2). cbn [chapters_apart] in Q1. apply negb_true_iff in Q1. destruct (typed_quiet _ _ _ H1 Q1) as (_ & F1). destruct (I2 eq_refl Q2) as (-> & F2). split; [reflexivity|]. constructor; [|exact F2].
    cbn [well_typed]. rewrite Hd. cbn [Nat.eqb]. split; [exact Ht|]. apply all_of. exact F1.
  - subst t. apply andb_true_iff in Q. destruct Q as (Q1 & Q2). cbn [chapters_apart] in Q1. apply negb_true_iff in Q1. destruct (typed_quiet _ _ _ H1 Q1) as (-> & F1). destruct (I2 eq_refl Q2) as (-> & F2). split; [reflexivity|]. constructor; [|exact F2].
    cbn [well_typed]. rewrite Hd. destruct (Nat.eqb_spec level 1); [contradiction|]. split; [reflexivity|]. apply all_of. exact F1.
Qed.
Lemma preamble_pieces bs ah bs' : make_preamble bs ah = Ok bs' -> bs' = bs \/ exists l1 l2 src, bs = l1 ++ l2 /\ bs' = BPreamble l1 src :: l2.
Proof.
  intros H. unfold make_preamble in H. destruct (preamble_split 0 false bs) as [i|]; [|apply Ok_inj in H; subst; auto]. apply bind_ok in H. destruct H as (p & Ep & H). apply Ok_inj in H. subst bs'. right.
  unfold preamble_from_blocks in Ep. apply bind_ok in Ep. destruct Ep as (src & _ & Ep). apply Ok_inj in Ep. subst p. exists (firstn i bs), (skipn i bs), src. rewrite firstn_skipn. auto.
Qed.
Theorem document_types E fuel t sm P d P' : p_topmost P = SNormal -> document_parse E fuel t sm P = Ok (d, P') -> forallb chapters_apart (d_blocks d) = true -> Forall (well_typed SNormal) (d_blocks d) /\ p_topmost P' = SNormal.
Proof.
  intros Hp H Ha. destruct (document_inv _ _ _ _ _ _ _ H) as (h & b & Hh & Hb & Hm & _ & _ & _ & ->). destruct (header_only_attrs _ _ _ _ Hh) as (a & Ea). pose proof (until_types E fuel _ _ _ _ _ Hb) as W. unfold R_types in W. rewrite Ea in W. cbn [p_topmost with_levels with_attrs] in W. rewrite Hp in W.
  destruct (preamble_pieces _ _ _ Hm) as [Eb|(l1 & l2 & src & E1 & E2)].
  - rewrite Eb in *. destruct (typed_apart _ _ _ W eq_refl Ha) as (K1 & K2). split; [exact K2|exact K1].
  - rewrite E1 in W. rewrite E2 in *. cbn [forallb chapters_apart] in Ha. destruct (typed_apart _ _ _ W eq_refl) as (K1 & K2); [rewrite forallb_app; exact Ha|]. split; [|exact K1]. apply Forall_app in K2. destruct K2 as (A & B). constructor; [|exact B]. cbn [well_typed]. apply all_of. exact A.
Qed.

(** * Ids *)
Lemma keep_first_app l2 l1 : forall l, keep_first l (l1 ++ l2) = keep_first (keep_first l l1) l2.
Proof. induction l1 as [|e l1 IH]; intros l; [reflexivity|]. cbn [app keep_first]. apply IH. Qed.
Lemma duplicates_app a b : duplicates (a ++ b) = duplicates a + duplicates b.
Proof. unfold duplicates. rewrite filter_app, app_length. reflexivity. Qed.
Definition R_ids (P : parser) (bs : list block) (ws : list warning) (P' : parser) : Prop :=
  forall c l, p_catalog P = Some c -> agrees c l -> exists c', p_catalog P' = Some c' /\ agrees c' (keep_first l (flat_map references bs)) /\
    length l + length (flat_map references bs) <= length (keep_first l (flat_map references bs)) + duplicates ws.
Lemma register_one c l i rt ty : agrees c l -> agrees (snd (register_ref c i rt ty)) (keep_first l [(i, rt, ty)]) /\
  (fst (register_ref c i rt ty) = true -> length (keep_first l [(i, rt, ty)]) = S (length l)) /\ (fst (register_ref c i rt ty) = false -> keep_first l [(i, rt, ty)] = l).
Proof.
  intros A. cbn [keep_first fst]. unfold register_ref. pose proof (agrees_has c l i A) as H. destruct (mhas i (cat_refs c)); destruct (in_dec _ i (log_ids l)) as [K|K]; cbn [fst snd].
  - repeat split; [apply A..|discriminate].
  - exfalso. apply K. apply H. reflexivity.
  - apply H in K. discriminate K.
  - split; [exact (insert_agrees c l i rt ty A K)|]. split; [intros _; rewrite app_length; cbn; lia|discriminate].
Qed.
Lemma registered_leaf b id : no_blocks b \/ (exists l cx src cm, b = BCompound l cx src cm) -> block_id b = Ok id -> registered b = id /\
  reference b = match id with Some i => [(i, cm_title (block_common b), RAnchor)] | None => [] end.
Proof.
  intros Hb H. assert (K : registered b = id).
  { unfold block_id, common_id in H. unfold registered, attr_id. apply bind_ok in H. destruct H as (o & Eo & H). apply Ok_inj in H. subst id.
    assert (G : or_else (option_map sp_data (cm_anchor (block_common b))) (match cm_attrlist (block_common b) with Some a => match al_id a with Ok o => o | _ => None end | None => None end) = o).
    { destruct (cm_anchor (block_common b)); [apply Ok_inj in Eo; subst; reflexivity|]. destruct (cm_attrlist (block_common b)); [rewrite Eo; reflexivity|apply Ok_inj in Eo; subst; reflexivity]. }
    destruct Hb as [Hb|(l & cx & src & cm & ->)]; [destruct b; try contradiction|]; rewrite G; destruct o; reflexivity. }
  split; [exact K|]. unfold reference. rewrite K. destruct Hb as [Hb|(l & cx & src & cm & ->)]; [destruct b; try contradiction|]; reflexivity.
Qed.
Lemma finish_ids P mi w r c l : no_blocks (mi_item mi) \/ (exists l cx src cm, mi_item mi = BCompound l cx src cm) -> finish mi w P = Ok r -> p_catalog P = Some c -> agrees c l ->
  exists c', p_catalog (pr_parser r) = Some c' /\ agrees c' (keep_first l (reference (mi_item mi))) /\ length l + length (reference (mi_item mi)) + duplicates w <= length (keep_first l (reference (mi_item mi))) + duplicates (pr_warnings r).
Proof.
  intros Hb H Hc A. destruct (finish_inv _ _ _ _ H) as (id & Ei & ->). cbn [pr_parser pr_warnings]. destruct (registered_leaf _ _ Hb Ei) as (_ & ->). unfold register_block_id. rewrite Hc. destruct id as [i|].
  - destruct (register_one c l i (cm_title (block_common (mi_item mi))) RAnchor A) as (K1 & K2 & K3). cbn [fst snd]. exists (snd (register_ref c i (cm_title (block_common (mi_item mi))) RAnchor)). split; [reflexivity|]. split; [exact K1|].
    rewrite duplicates_app. destruct (fst (register_ref c i (cm_title (block_common (mi_item mi))) RAnchor)); [rewrite (K2 eq_refl)|rewrite (K3 eq_refl)]; cbn; lia.
  - cbn [fst snd]. exists c. split; [exact Hc|]. split; [exact A|]. rewrite app_nil_r. cbn. lia.
Qed.
Lemma section_ids E un m ws P mi w P1 : until_good R_ids un -> section_parse E un m P = Ok (Some mi, (w, P1)) -> R_ids P [mi_item mi] (ws ++ w) P1.
Proof.
  intros G H c l Hc A. destruct (section_inv _ _ _ _ _ _ _ H) as [(di & level & title & rest & lw & bs & b & src & t & base & man & reg & src2 & Hd & Hl & Hs & Hu & _ & _ & _ & Hm & Hr & -> & -> & ->)].
  cbn [mi_item flat_map]. rewrite app_nil_r. set (tp := section_type_of di level bs P) in *. match type of Hu with un _ _ _ (snd ?n) = _ => set (np := n) in * end.
  assert (Tp : p_catalog (snd tp) = p_catalog P). { unfold tp, section_type_of. destruct di; [|destruct (level =? 1)]; reflexivity. }
  assert (Np : p_catalog (snd np) = Some c). { rewrite <- Hc, <- Tp. unfold np. match goal with |- context [if ?b then _ else _] => destruct b end; [|reflexivity]. cbv zeta. unfold assign_section_number. destruct (p_topmost (snd tp)); reflexivity. }
  destruct (G _ _ _ _ _ Hu c l Np A) as (c1 & Hc1 & A1 & N1). cbn [references]. rewrite keep_first_app. set (l1 := keep_first l (flat_map references (br_blocks b))) in *. rewrite app_length, !duplicates_app.
  set (sb := BSection level (mkct title t) (br_blocks b) src2 (common_of m) (fst tp) (fst reg) (fst np)).
  assert (Mn : man = or_else (attr_id (common_of m)) (option_map sp_data (cm_anchor (common_of m)))).
  { unfold manual_id in Hm. apply bind_ok in Hm. destruct Hm as (o & Eo & Hm). apply Ok_inj in Hm. subst man. unfold attr_id. cbn [common_of cm_attrlist cm_anchor]. destruct (md_attrlist m); [rewrite Eo|apply Ok_inj in Eo; subst o]; [|reflexivity]. destruct o; reflexivity. }
  assert (Rf : reference sb = match or_else man (fst reg) with Some i => [(i, Some (section_reftext m t), RSection)] | None => [] end).
  { unfold reference, registered. cbn [sb block_common]. rewrite <- Mn. destruct (or_else man (fst reg)); reflexivity. }
  assert (Fin : exists c', p_catalog (fst (snd reg)) = Some c' /\ agrees c' (keep_first l1 (reference sb)) /\ length l1 + length (reference sb) <= length (keep_first l1 (reference sb)) + duplicates (snd (snd reg))).
  { rewrite Rf. unfold section_register in Hr. rewrite Hc1 in Hr. destruct man as [i|].
    - cbv zeta in Hr. destruct (register_one c1 l1 i (Some (section_reftext m t)) RSection A1) as (K1 & K2 & K3). cbn [or_else]. destruct (fst (register_ref c1 i (Some (section_reftext m t)) RSection)) eqn:Ok1.
      + apply Ok_inj in Hr. subst reg. cbn [fst snd p_catalog with_catalog]. eexists. split; [reflexivity|]. split; [exact K1|]. rewrite (K2 eq_refl). cbn. lia.
      + apply bind_ok in Hr. destruct Hr as (s & _ & Hr). apply Ok_inj in Hr. subst reg. cbn [fst snd]. exists c1. split; [exact Hc1|]. rewrite (K3 eq_refl). split; [exact A1|]. cbn. lia.
    - destruct (is_attribute_set P (lit "sectids")).
      + destruct (generate_spec c1 l1 base (Some (section_reftext m t)) RSection A1) as (id & Eg & Hg). rewrite Eg in Hr. cbn [bind fst snd] in Hr. apply Ok_inj in Hr. subst reg. cbn [fst snd or_else p_catalog with_catalog].
        eexists. split; [reflexivity|]. cbn [keep_first fst]. destruct (in_dec _ id (log_ids l1)) as [K|K]; [destruct Hg as (Hg & _); contradiction|]. split; [exact (insert_agrees _ _ _ _ _ A1 K)|]. rewrite app_length. cbn. lia.
      + apply Ok_inj in Hr. subst reg. cbn [fst snd or_else]. exists c1. split; [exact Hc1|]. split; [exact A1|]. cbn. lia. }
  destruct Fin as (c2 & Hc2 & A2 & N2). exists c2. split; [destruct ((level =? 1) && negb di); exact Hc2|]. split; [exact A2|]. fold sb. lia.
Qed.

Lemma until_ids E fuel : until_good R_ids (parse_blocks_until E fuel).
Proof.
  apply until_induction.
  - intros P c l Hc A. exists c. cbn. auto with arith.
  - intros P l1 w1 P1 l2 w2 P2 H1 H2 c l Hc A. destruct (H1 c l Hc A) as (c1 & Hc1 & A1 & N1). destruct (H2 c1 _ Hc1 A1) as (c2 & Hc2 & A2 & N2). exists c2. split; [exact Hc2|]. rewrite flat_map_app, keep_first_app, app_length, duplicates_app. split; [exact A2|lia].
  - apply step_cases.
    + intros P w c l Hc A. exists c. cbn. split; [exact Hc|]. split; [exact A|lia].
    + intros P mi w r Hb Hf c l Hc A. destruct (finish_ids P mi w r c l (or_introl Hb) Hf Hc A) as (c' & Hc' & A' & N). exists c'. split; [exact Hc'|]. cbn [flat_map]. rewrite app_nil_r.
      replace (references (mi_item mi)) with (reference (mi_item mi)) by (destruct (mi_item mi); try contradiction; reflexivity). split; [exact A'|lia].
    + intros P a c l Hc A. destruct (core_body_fields (e_u E) P a) as (_ & _ & _ & _ & T). exists c. cbn [flat_map references reference registered app keep_first length]. split; [rewrite T; exact Hc|]. split; [exact A|lia].
    + intros P ty src cm w c l Hc A. exists c. cbn. split; [exact Hc|]. split; [exact A|lia].
    + intros P bs cx src cm w0 w w1 P1 af r H Hw Hf c l Hc A. destruct (H c l Hc A) as (c1 & Hc1 & A1 & N1). set (b := BCompound bs cx src cm) in *.
      destruct (finish_ids P1 (mkmi b af) (w1 ++ w) r c1 _ (or_intror (ex_intro _ bs (ex_intro _ cx (ex_intro _ src (ex_intro _ cm eq_refl))))) Hf Hc1 A1) as (c2 & Hc2 & A2 & N2). cbn [mi_item] in *. exists c2. split; [exact Hc2|].
      cbn [flat_map]. rewrite app_nil_r. change (references b) with (flat_map references bs ++ reference b). rewrite keep_first_app, app_length. split; [exact A2|]. rewrite duplicates_app in N2. destruct Hw as [-> |(x & ->)]; [lia|]. change (duplicates (_ :: w0)) with (duplicates w0) in N2. lia.
    + intros un m ws P mi w P1 _ G H. exact (section_ids E un m ws P mi w P1 G H).
Qed.
Lemma keep_first_ids l : forall seen i, In i (log_ids (keep_first seen l)) <-> In i (log_ids seen) \/ In i (log_ids l).
Proof.
  induction l as [|e l IH]; intros seen i; cbn [keep_first log_ids map]; [cbn; tauto|]. rewrite IH. destruct (in_dec _ _ _) as [K|K].
  - unfold log_ids in *. cbn [map In]. split; [tauto|]. intros [H|[H|H]]; [auto|subst; auto|auto].
  - unfold log_ids in *. rewrite map_app, in_app_iff. cbn. tauto.
Qed.
Lemma keep_first_len l : forall seen, length (keep_first seen l) <= length seen + length l.
Proof. induction l as [|e l IH]; intros seen; cbn [keep_first length]; [lia|]. specialize (IH (if in_dec (list_eq_dec N.eq_dec) (fst (fst e)) (log_ids seen) then seen else seen ++ [e])). destruct (in_dec _ _ _); [lia|]. rewrite app_length in IH. cbn in IH. lia. Qed.
Lemma keep_first_all l : forall seen, length seen + length l <= length (keep_first seen l) -> keep_first seen l = seen ++ l.
Proof.
  induction l as [|e l IH]; intros seen H; cbn [keep_first length] in *; [rewrite app_nil_r; reflexivity|]. destruct (in_dec _ _ _) as [K|K].
  - pose proof (keep_first_len l seen). lia.
  - rewrite IH; [rewrite <- app_assoc; reflexivity|]. rewrite app_length. cbn. lia.
Qed.
Theorem document_ids E fuel t sm P d P' c : p_catalog P = Some c -> agrees c [] -> document_parse E fuel t sm P = Ok (d, P') ->
  agrees (d_catalog d) (keep_first [] (flat_map references (d_blocks d))) /\
  length (flat_map references (d_blocks d)) <= length (keep_first [] (flat_map references (d_blocks d))) + duplicates (d_warnings d).
Proof.
  intros Hp A H. destruct (document_inv _ _ _ _ _ _ _ H) as (h & b & Hh & Hb & Hm & _ & Hw & Hc & ->). destruct (header_only_attrs _ _ _ _ Hh) as (a & Ea).
  assert (F : flat_map references (d_blocks d) = flat_map references (br_blocks b)). { apply (make_preamble_flat references _ _ _) with (2 := Hm). intros l s. cbn. rewrite app_nil_r. reflexivity. }
  rewrite F. destruct (until_ids E fuel _ _ _ _ _ Hb c []) as (c' & Hc' & A' & N); [rewrite Ea; exact Hp|exact A|]. rewrite Hc. unfold take_catalog. rewrite Hc'. cbn [fst]. split; [exact A'|]. rewrite Hw, duplicates_app. cbn [length] in N. lia.
Qed.
