(** Proofs about the warnings of written documents (C113). *)
From Verif Require Import Text TextFacts Maps Span_Model Span_Pure Span_Proof Span_Laws Span_Spec Catalog_Model Parser_Model Subs_Model Attrlist_Model Attrlist_Proof
  Entry_Model Group_Model SecId_Model Header_Model Header_Spec Header_Proof Block_Model Block_Spec Block_Proof Shape_Proof Meta_Spec Meta_Proof Kind_Spec Kind_Proof
  Walk_Spec Outline_Spec Tree_Spec Tree_Proof Outline_Proof Total_Spec Total_Proof Doc_Model Walk_Proof Walk_Prop Header_Prop Parser_Spec Attrs_Spec Attrs_Proof Round_Spec Round_Proof Notice_Spec.

(** * Marks *)
Lemma same_marks_repeat c q : (forall y, q <> c :: y) -> forall j, same_marks c (repeat c j ++ q) = j.
Proof. intros Hq. induction j as [|j IH]; cbn [repeat app same_marks]; [|rewrite N.eqb_refl, IH; reflexivity]. destruct q as [|d q]; [reflexivity|]. cbn [same_marks]. destruct (N.eqb_spec d c) as [->|K]; [destruct (Hq q eq_refl)|reflexivity]. Qed.
Lemma mark_count_cases n j q : n <> [] -> n = repeat (mark_of n) j ++ q -> (forall y, q <> mark_of n :: y) -> mark_count n = j.
Proof.
  intros Hn D Hq. destruct n as [|c n0]; [contradiction|]. unfold mark_count. destruct ((c =? 61)%N || (c =? 35)%N) eqn:Hc.
  - assert (Em : mark_of (c :: n0) = c). { cbn [mark_of]. destruct (N.eqb_spec c 61) as [->|K]; [reflexivity|]. cbn [orb] in Hc. apply N.eqb_eq in Hc. symmetry. exact Hc. }
    rewrite Em in D, Hq. rewrite D. apply same_marks_repeat, Hq.
  - destruct j as [|j]; [reflexivity|]. exfalso. cbn [repeat app] in D. injection D as Dc _. apply orb_false_iff in Hc. destruct Hc as (H1 & H2). cbn [mark_of] in Dc. rewrite H1 in Dc. rewrite Dc in H2. discriminate H2.
Qed.
(** The warnings about the title line. *)
Lemma title_line_notes s l r n o w : a_line (sp_data s) l r n -> n <> [] -> parse_title_line s = Ok (o, w) -> map w_type w = heading_notes n.
Proof.
  intros Hl Hn H. assert (Hd : sp_data s <> []) by (intros K; rewrite K in Hl; apply Hn; exact (a_line_nil _ _ _ Hl)).
  destruct (title_line_cases s l r n Hl Hn Hd) as (j & q & Dj & Hq & E). rewrite E in H. clear E. unfold heading_notes. cbv zeta. rewrite (mark_count_cases n j q Hn Dj Hq).
  destruct (j =? 1); [apply Ok_inj in H; injection H as _ <-; reflexivity|]. destruct (6 <? j); [apply Ok_inj in H; injection H as _ <-; reflexivity|].
  destruct (fst (span_while is_sp_tab q)); [apply Ok_inj in H; injection H as _ <-; reflexivity|]. apply bind_ok in H. destruct H as (lv & _ & H). apply Ok_inj in H. injection H as _ <-. reflexivity.
Qed.
Lemma no_marks c y : c <> 61%N -> c <> 35%N -> heading_notes (c :: y) = [].
Proof. intros H1 H2. unfold heading_notes, mark_count. apply N.eqb_neq in H1, H2. rewrite H1, H2. reflexivity. Qed.
Lemma heading_quiet c k t : In c (lit "=#") -> 1 <= k <= 5 -> heading_notes (heading_line c k t) = [].
Proof.
  intros Hc Hk. unfold heading_notes. cbv zeta. assert (Em : mark_count (heading_line c k t) = S k).
  { unfold heading_line. unfold mark_count. cbn [repeat app]. assert (Eb : (c =? 61)%N || (c =? 35)%N = true) by (cbn in Hc; destruct Hc as [<-|[<-|[]]]; reflexivity). rewrite Eb.
    change (c :: repeat c k ++ lit " " ++ t) with (repeat c (S k) ++ lit " " ++ t). apply same_marks_repeat. intros y K. injection K as K _. subst c. cbn in Hc. intuition discriminate. }
  rewrite Em. replace (S k =? 1) with false by (symmetry; apply Nat.eqb_neq; lia). replace (6 <? S k) with false by (symmetry; apply Nat.ltb_ge; lia). reflexivity.
Qed.

(** * What is told *)
Definition told (is_ : list text) (es : list warning_type) (ws : list warning) : Prop :=
  filter other_than_ids (map w_type ws) = es /\ forall i, In (WDuplicateId i) (map w_type ws) -> In i is_.
Lemma told_nil : told [] [] []. Proof. split; [reflexivity|intros i []]. Qed.
Lemma told_app i1 e1 w1 i2 e2 w2 : told i1 e1 w1 -> told i2 e2 w2 -> told (i1 ++ i2) (e1 ++ e2) (w1 ++ w2).
Proof. intros (A1 & B1) (A2 & B2). split; [rewrite map_app, filter_app, A1, A2; reflexivity|]. intros i K. rewrite map_app in K. apply in_app_iff in K. apply in_app_iff. destruct K as [K|K]; auto. Qed.
Lemma told_more i1 i2 e w : incl i1 i2 -> told i1 e w -> told i2 e w.
Proof. intros H (A & B). split; [exact A|intros i K; apply H, B, K]. Qed.
Lemma told_exact e w : map w_type w = e -> Forall (fun x => other_than_ids x = true) e -> told [] e w.
Proof.
  intros E F. unfold told. rewrite E. split; [clear -F; induction F as [|x l Hx F IH]; cbn [filter]; [reflexivity|rewrite Hx, IH; reflexivity]|]. intros i K. rewrite Forall_forall in F. specialize (F _ K). discriminate F.
Qed.
Lemma heading_other x : Forall (fun x => other_than_ids x = true) (heading_notes x).
Proof. unfold heading_notes. cbv zeta. destruct (_ =? 1); [repeat constructor|]. destruct (6 <? _); repeat constructor. Qed.
Lemma anchor_other m x : Forall (fun x => other_than_ids x = true) (anchor_notes m x).
Proof. unfold anchor_notes. destruct (t_id m); [constructor|]. destruct (text_eqb _ _); [repeat constructor|]. destruct (_ && _); repeat constructor. Qed.
Lemma looking_other ns : forall k, Forall (fun x => other_than_ids x = true) (looking k ns).
Proof. induction ns as [|n ns IH]; intros k; cbn [looking]; [constructor|]. destruct n; try apply IH; apply Forall_app; (split; [try apply heading_other|apply IH]). destruct (_ <? _); repeat constructor. Qed.
Lemma finish_notes mi ws P r is_ es : finish mi ws P = Ok r -> told [] es ws -> (forall i, block_id (mi_item mi) = Ok (Some i) -> In i is_) -> told is_ es (pr_warnings r).
Proof.
  intros H T Hi. destruct (finish_inv _ _ _ _ H) as (id & Ei & ->). cbn [pr_warnings]. rewrite <- (app_nil_r es). change is_ with ([] ++ is_). apply told_app; [exact T|]. unfold register_block_id. destruct id as [i|]; [|split; [reflexivity|intros j []]].
  destruct (p_catalog P); [|split; [reflexivity|intros j []]]. cbv zeta. match goal with |- context [if ?b then _ else _] => destruct b end; cbn [snd map w_type]; (split; [reflexivity|]); intros j K; [destruct K|]. destruct K as [K|[]]. injection K as <-. apply Hi, Ei.
Qed.

(** * Reading *)
Section Notices.
Context (E : env) (f : group -> text -> text) (Q : parser -> Prop).
Context (QI : forall P P', (forall n, ~ implied_name n -> is_attribute_set P' n = is_attribute_set P n) -> Q P -> Q P') (QD : Q parser_default).
Local Notation agree := (agree E f Q).
Local Notation at_block := (at_block f).
(** The warnings about the lines above a block. *)
Lemma anchor_note_spec U m x : t_id m = None -> (forall i, ~ item_line U x i) -> forall w, bad_anchor U x w -> anchor_notes m x = [w].
Proof.
  intros Hm Hi w [(-> & ->)|(y & Hy & -> & -> & _)]; unfold anchor_notes; rewrite Hm; [reflexivity|].
  destruct (text_eqb_spec (lit "[[" ++ y ++ lit "]]") (lit "[[]]")) as [K|_]; [exfalso; apply Hy; change (lit "[[]]") with (lit "[[" ++ [] ++ lit "]]") in K; apply app_inv_head, app_inv_tail in K; exact K|].
  assert (Hl : (4 <? length (lit "[[" ++ y ++ lit "]]")) = true) by (apply Nat.ltb_lt; rewrite !app_length; cbn [length lit]; destruct y; [contradiction|cbn [length]; rewrite ?app_length; cbn; lia]).
  rewrite Hl. rewrite (proj2 (starts_with_spec (lit "[[") _)) by eauto. rewrite (proj2 (ends_with_spec (lit "]]") _)) by (exists (lit "[[" ++ y); rewrite <- app_assoc; reflexivity). reflexivity.
Qed.
Lemma anchor_note_none U m x : t_id m = None -> (forall i, ~ item_line U x i) -> (forall w, ~ bad_anchor U x w) -> anchor_notes m x = [].
Proof.
  intros Hm Hi Hb. unfold anchor_notes. rewrite Hm. destruct (text_eqb_spec x (lit "[[]]")) as [->|K]; [exfalso; apply (Hb WEmptyBlockAnchorName); left; split; reflexivity|].
  destruct (4 <? length x) eqn:El; [|reflexivity]. destruct (starts_with (lit "[[") x) eqn:Es; [|reflexivity]. destruct (ends_with (lit "]]") x) eqn:Ee; [|reflexivity]. exfalso.
  apply Nat.ltb_lt in El. apply starts_with_spec in Es. destruct Es as (y & ->). apply ends_with_spec in Ee. destruct Ee as (z & Ez). rewrite app_length in El. cbn [length lit] in El.
  destruct z as [|z1 [|z2 z]]; [apply (f_equal (@length char)) in Ez; rewrite !app_length in Ez; cbn in Ez, El; lia|apply (f_equal (@length char)) in Ez; rewrite !app_length in Ez; cbn in Ez, El; lia|].
  cbn in Ez. injection Ez as <- <- Ez. apply (Hb WInvalidBlockAnchorName). right. exists z. split; [intros ->; subst y; cbn in El; lia|]. split; [rewrite Ez; reflexivity|]. split; [reflexivity|]. intros id rt. apply Hi.
Qed.
Lemma head_bracket n : fits (e_u E) n -> match n with NText _ _ => True | _ => forall y, head_line n <> 91%N :: y end.
Proof.
  destruct n as [m ls|m d ls|m d ns|m l|m ty t a|m c k t ns]; intros H; [exact I| | | | |]; cbn [head_line]; intros y K.
  - destruct H as (_ & (c & Hc & (n & Hn & ->)) & _). destruct n as [|n]; [lia|]. injection K as -> _. cbn in Hc. intuition discriminate.
  - destruct H as (_ & [->|(c & Hc & (n & Hn & ->))] & _); [discriminate K|]. destruct n as [|n]; [lia|]. injection K as -> _. cbn in Hc. intuition discriminate.
  - destruct H as (_ & H). subst l. unfold break_line in H. cbn [In] in H. repeat (destruct H as [H|H]; [discriminate H|]). destruct H.
  - destruct ty; discriminate K.
  - destruct H as (_ & Hc & _). injection K as -> _. cbn in Hc. intuition discriminate.
Qed.
Definition top_notes (n : node) : list warning_type := match n with NText m ls => anchor_notes m (hd [] ls) | _ => [] end.
Lemma metadata_notes n s P m ws rest : fits (e_u E) n -> sp_data s = unlines (write n) ++ rest -> metadata_parse E s P = Ok (m, ws) -> map w_type ws = top_notes n.
Proof.
  intros H D Em. pose proof (write_solid _ _ rest H) as Hs. rewrite <- D in Hs. destruct (metadata_Suffix _ _ _ _ _ Em) as (Es & Ss). rewrite (discard_solid _ Hs) in Es.
  destruct (metadata_lines _ _ _ _ _ Em) as (is_ & ws1 & ws2 & _ & Hm & _ & _ & _ & Eal & _ & -> & He & _). rewrite Es, D in Hm.
  destruct (meta_lines_unique _ _ _ _ _ Hm _ _ (write_meta _ n rest H)) as (-> & Er). rewrite items_list in Eal. assert (ws1 = []) as -> by (destruct (md_attrlist m); [destruct Eal as (sp & af & K & _); discriminate K|apply Eal]).
  cbn [app]. destruct He as (l & r & x & Hl & He). rewrite Er, unlines_cons, <- app_assoc in Hl. cbn [app] in Hl. destruct (head_facts _ n H) as (Ht & _ & Hi & _). destruct (a_line_unique _ _ _ _ _ _ _ Hl (a_line_tidy _ _ Ht)) as (_ & _ & ->).
  assert (HA : forall a b, In (IAnchor a b) (items (top_of n)) <-> t_id (top_of n) = Some a /\ b = None).
  { intros a b. unfold items. destruct (t_title (top_of n)), (t_id (top_of n)); cbn; split; intros K; intuition (try discriminate; try congruence). }
  assert (K : map w_type ws2 = anchor_notes (top_of n) (head_line n)).
  { destruct (t_id (top_of n)) as [i|] eqn:Ei.
    - assert (En : anchor_notes (top_of n) (head_line n) = []) by (unfold anchor_notes; rewrite Ei; reflexivity). rewrite En. destruct He as [(-> & _)|(sp & w & _ & K & _)]; [reflexivity|]. exfalso. apply (K i None), HA. auto.
    - destruct He as [(-> & [(a & b & K)|K])|(sp & w & -> & _ & K & _)]; [apply HA in K; destruct K as (K & _); discriminate K| |].
      + rewrite (anchor_note_none (e_u E) _ _ Ei Hi K). reflexivity.
      + rewrite (anchor_note_spec (e_u E) _ _ Ei Hi w K). reflexivity. }
  rewrite K. pose proof (head_bracket n H) as Hb. destruct n as [m0 ls|m0 d ls|m0 d ns|m0 l0|m0 ty t a|m0 c k t ns]; [reflexivity| | | | |]; cbn [top_notes];
    unfold anchor_notes; match goal with |- match ?o with Some _ => _ | None => _ end = _ => destruct o; [reflexivity|] end;
    match goal with |- context [text_eqb ?x ?y] => destruct (text_eqb_spec x y) as [Z|_] end; try (exfalso; exact (Hb _ Z)); match goal with |- context [starts_with (lit "[[") ?x] => destruct (starts_with (lit "[[") x) eqn:Z end;
    try (apply starts_with_spec in Z; destruct Z as (y & Z); exfalso; exact (Hb _ Z)); rewrite andb_false_r; reflexivity.
Qed.
(** The section that looks for its end. *)
Lemma stop_notes n lo s k st rest : fits (e_u E) n -> agree (texts n) -> sp_data s = unlines (write n) ++ rest -> section_stop E false lo s k = Ok st ->
  map w_type (snd (snd st)) = looking k [n] /\ fst (snd st) = match node_level n with Some j => j | None => k end.
Proof.
  intros H Ha D K. unfold section_stop, peer_or_ancestor_section in K. apply bind_ok in K. destruct K as ([m ws] & Em & K). cbn [fst] in K. destruct (written_metadata E f Q n s _ m ws rest H QD Ha D Em) as (_ & B2 & B3 & _).
  unfold is_discrete in K. rewrite B3 in K. cbn [style_of bind] in K. change (style_is None (lit "discrete") || style_is None (lit "float")) with false in K. cbn [bind] in K.
  apply bind_ok in K. destruct K as ([o w] & Eo & K). cbn [fst snd] in K. destruct (head_facts _ n H) as (Ht & Hso & _).
  assert (Hl : a_line (sp_data (md_start m)) (head_line n ++ [LF]) (unlines (more_lines n) ++ rest) (head_line n)) by (rewrite B2, unlines_cons, <- app_assoc; apply a_line_tidy, Ht).
  pose proof (title_line_notes _ _ _ _ _ _ Hl (proj1 Ht) Eo) as Ew.
  assert (Hn : heading_notes (head_line n) = match n with NText _ ls => heading_notes (hd [] ls) | NBox _ d _ => heading_notes d | _ => [] end).
  { destruct n as [m0 ls|m0 d ls|m0 d ns|m0 l0|m0 ty t a|m0 c j t ns]; try reflexivity; cbn [head_line].
    - destruct H as (_ & (c & Hc & (n & Hn & ->)) & _). destruct n as [|n]; [lia|]. apply no_marks; intros ->; cbn in Hc; intuition discriminate.
    - destruct H as (_ & H). unfold break_line in H. cbn [In] in H. repeat (destruct H as [<-|H]; [reflexivity|]). destruct H.
    - destruct ty; reflexivity.
    - destruct H as (_ & Hc & Hk & _). apply heading_quiet; assumption. }
  destruct (node_level n) as [j|] eqn:Ej.
  - destruct n as [m0 ls|m0 d ls|m0 d ns|m0 l0|m0 ty t a|m0 c j0 t ns]; try discriminate Ej. injection Ej as ->. pose proof (head_heading _ _ _ _ _ _ H) as Hh. cbn [head_line] in *.
    destruct (title_line_heading _ _ _ _ _ _ Hl Hh) as (t' & Et' & _). rewrite Et' in Eo. apply Ok_inj in Eo. injection Eo as <- <-. cbn [mi_item fst app] in K. apply bind_ok in K. destruct K as (w2 & Ew2 & K). apply Ok_inj in K. subst st. cbn [fst snd looking].
    split; [|reflexivity]. rewrite app_nil_r. destruct (k + 1 <? j); [apply bind_ok in Ew2; destruct Ew2 as (li & _ & Ew2)|]; apply Ok_inj in Ew2; subst w2; reflexivity.
  - destruct o as [mi|].
    + exfalso. destruct (title_line_some _ _ _ Eo) as (l' & r' & x' & ti & Hl' & Hh & _). destruct (a_line_unique _ _ _ _ _ _ _ Hl Hl') as (_ & _ & <-). exact (no_heading _ n H Ej _ _ Hh).
    + apply Ok_inj in K. subst st. cbn [fst snd]. split; [|reflexivity]. rewrite Ew, Hn. destruct n; cbn [looking]; rewrite ?app_nil_r; try reflexivity. discriminate Ej.
Qed.
Definition stop_of (o : option nat) : stop_fn := match o with None => never | Some lo => section_stop E false lo end.
Definition ends (o : option nat) (lo : nat) (rest : text) : Prop := match o with None => rest = [] | Some x => x = lo /\ next_is E f Q lo rest end.
Lemma ends_mode o lo rest : ends o lo rest -> mode E f Q (stop_of o) lo rest.
Proof. destruct o as [x|]; cbn; [intros (-> & H); right; auto|intros ->; left; auto]. Qed.
Definition un_notes (un : stop_fn -> nat -> span -> parser -> res bres) : Prop := forall o lo k ns s P b rest, ends o lo rest -> lo <= k -> sp_data (p_discard_empty_lines s) = body ns ++ rest -> begins (p_discard_empty_lines s) ->
  in_order lo ns -> Forall (fits (e_u E)) ns -> Forall bare ns -> agree (flat_map texts ns) -> Q P -> un (stop_of o) k s P = Ok b ->
  told (flat_map ids ns) (flat_map notes ns) (br_warnings b) /\ map w_type (br_stop_warnings b) = match o with Some _ => looking k ns | None => [] end.
Lemma plain_id m i b : md_attrlist m = None -> cm_anchor (block_common b) = md_anchor m -> cm_attrlist (block_common b) = md_attrlist m -> (forall x1 x2 x3 x4 x5 x6 x7 x8, b <> BSection x1 x2 x3 x4 x5 x6 x7 x8) -> block_id b = Ok (Some i) -> option_map sp_data (md_anchor m) = Some i.
Proof.
  intros Hl Ha Hc Hs H. unfold block_id, common_id in H. rewrite Ha, Hc, Hl in H. destruct (md_anchor m) as [a|]; cbn [bind option_map] in *.
  - destruct b; apply Ok_inj in H; injection H as <-; reflexivity.
  - destruct b; try discriminate H. exfalso. eapply Hs. reflexivity.
Qed.
Lemma top_id_in n i : t_id (top_of n) = Some i -> In i (ids n).
Proof. destruct n; cbn [top_of ids]; unfold top_ids; intros ->; cbn; auto. Qed.
Lemma text_notes un n s m ws P r mi rest : fits (e_u E) n -> form_of n = None -> at_block n s m rest -> map w_type ws = top_notes n -> with_metadata E un m ws P = Ok r -> pr_item r = Some mi -> told (ids n) (notes n) (pr_warnings r).
Proof.
  intros H Ef B Hw K Hi. pose proof (text_path E f un n s m ws P r mi rest H Ef B K Hi) as Es. destruct (head_at E f n s m rest H B) as (q & Hl). pose proof (form_fits E n H) as NF. rewrite Ef in NF. destruct (head_facts _ n H) as (Ht & Hso & _).
  unfold with_metadata in K. rewrite (ab_list _ _ _ _ _ B) in K. cbn [style_of bind style_is] in K.
  rewrite (raw_parse_none E m P _ _ _ Hl) in K by (intros Z; exact (NF _ (raw_delim_form _ Z))). cbn [bind] in K. rewrite (compound_parse_none _ m P _ _ _ Hl) in K by (intros Z; exact (NF _ (compound_delim_form _ Z))). cbn [bind] in K.
  rewrite (take_norm_eq _ _ _ _ Hl) in K. cbn [bind mi_item sp_data with_data] in K. unfold try_media in K. apply bind_ok in K. destruct K as ([o w] & Eo & K). cbn [fst snd] in K. destruct o as [x|].
  { exfalso. match type of Eo with (if ?b then _ else _) = _ => destruct b eqn:Eb end; [|discriminate Eo]. destruct (media_some _ _ _ _ _ _ _ _ Hl Eb Eo) as (ty & t & a & sr & cm & _ & Z). exact (NF _ Z). }
  unfold try_section in K. apply bind_ok in K. destruct K as ([o2 [w2 P2]] & Eo2 & K). cbn [fst snd] in K. destruct o2 as [x|].
  { exfalso. destruct (starts_with_any (lit "=#") (head_line n)) eqn:Ez; [|discriminate Eo2]. destruct (section_some _ _ _ _ _ _ _ _ _ _ Hl Ez Eo2) as (fo & _ & Z). exact (NF _ Z). }
  assert (W2 : map w_type w2 = heading_notes (head_line n)).
  { destruct (starts_with_any (lit "=#") (head_line n)) eqn:Ez.
    - unfold section_parse in Eo2. apply bind_ok in Eo2. destruct Eo2 as (dd & _ & Eo2). rewrite discard_empty_lines_ok in Eo2. cbn [bind] in Eo2. apply bind_ok in Eo2. destruct Eo2 as ([lt lw] & El & Eo2). cbn [fst snd] in Eo2.
      destruct lt as [lv|]; [repeat (apply bind_ok in Eo2; destruct Eo2 as (? & _ & Eo2)); apply Ok_inj in Eo2; discriminate Eo2|]. apply Ok_inj in Eo2. injection Eo2 as <- _.
      rewrite discard_ready in El by (right; rewrite (ab_data _ _ _ _ _ B), unlines_cons; destruct Hso as (c & y & E1 & Hc); rewrite E1; cbn [app]; exact (solid_cons c _ Hc)). exact (title_line_notes _ _ _ _ _ _ Hl (proj1 Ht) El).
    - apply Ok_inj in Eo2. injection Eo2 as <- _. destruct (head_line n) as [|c y] eqn:Eh; [reflexivity|]. symmetry. cbn [starts_with_any] in Ez. apply no_marks; intros ->; discriminate Ez. }
  unfold try_break in K. apply bind_ok in K. destruct K as (o3 & Eo3 & K). destruct o3 as [x|].
  { exfalso. destruct (starts_with_any (lit "'-*<") (head_line n)); [|discriminate Eo3]. destruct (break_some _ _ _ _ _ Hl Eo3) as (fo & _ & Z). exact (NF _ Z). }
  unfold no_block in K. apply bind_ok in K. destruct K as (o4 & Eo4 & K). destruct o4 as [x|]; [|exfalso; exact (solid_not_blank _ Hso (simple_md_none _ _ _ _ _ _ Hl Eo4))]. cbn [is_some negb andb] in K.
  unfold last_resort in K. rewrite Eo4 in K. cbn [bind] in K. 
  assert (En : notes n = top_notes n ++ heading_notes (head_line n)) by (destruct n; try discriminate Ef; reflexivity). rewrite En.
  apply (finish_notes _ _ _ _ _ _ K).
  - apply told_exact; [rewrite map_app, Hw, W2; reflexivity|]. apply Forall_app. split; [|apply heading_other]. destruct n; cbn [top_notes]; try apply anchor_other; constructor.
  - intros i Ei. apply top_id_in. rewrite <- (ab_anchor _ _ _ _ _ B). destruct (Shape_Proof.simple_inv _ _ _ _ Eo4) as (c1 & c2 & c3 & Z). apply (plain_id m i (mi_item x)); [exact (ab_list _ _ _ _ _ B)| | | |exact Ei]; rewrite Z; try reflexivity. intros; discriminate.
Qed.
Lemma register_notes sectids man base rt at_ P reg is_ : section_register sectids man base rt at_ P = Ok reg -> (forall i, man = Some i -> In i is_) -> told is_ [] (snd (snd reg)).
Proof.
  intros H Hi. unfold section_register in H. destruct (p_catalog P); [|apply Ok_inj in H; subst reg; split; [reflexivity|intros i []]]. destruct man as [i|].
  - cbv zeta in H. match type of H with (if ?b then _ else _) = _ => destruct b end; [apply Ok_inj in H; subst reg; split; [reflexivity|intros j []]|]. apply bind_ok in H. destruct H as (s & _ & H). apply Ok_inj in H. subst reg. cbn [snd map w_type]. split; [reflexivity|].
    intros j [K|[]]. injection K as <-. apply Hi. reflexivity.
  - match type of H with (if ?b then _ else _) = _ => destruct b end; [apply bind_ok in H; destruct H as (s & _ & H)|]; apply Ok_inj in H; subst reg; (split; [reflexivity|intros j []]).
Qed.
Lemma bare_all ns : fold_right (fun x p => bare x /\ p) True ns -> Forall bare ns.
Proof. induction ns as [|n ns IH]; cbn [fold_right]; [constructor|]. intros (H1 & H2). constructor; auto. Qed.
Lemma box_notes un m0 d ns s m P mi w P1 rest : un_notes un -> fits (e_u E) (NBox m0 d ns) -> bare (NBox m0 d ns) -> Q P -> agree (texts (NBox m0 d ns)) -> at_block (NBox m0 d ns) s m rest ->
  compound_parse (un never 0) m P = Ok (Some (mi, (w, P1))) -> told (flat_map ids ns) (flat_map notes ns) w.
Proof.
  intros Hu Hf Hba Qp Ha B H. destruct Hf as (Hf0 & Hd & Fd & Ho & F0). pose proof F0 as F. apply fits_all in F. destruct B as [B1 B2 B3 B4 B5 B6 B7]. cbn [head_line more_lines top_of] in *. rewrite unlines_cons, <- app_assoc in B2. cbn [app] in B2.
  assert (Hl : a_line (sp_data (md_start m)) (d ++ [LF]) (unlines (flat_map write ns ++ [d]) ++ rest) d) by (rewrite B2; apply a_line_tidy, compound_tidy, Hd).
  assert (He : enclosed d (unlines (flat_map write ns ++ [d]) ++ rest) (body ns) (Some rest)).
  { apply enclosed_lines; [apply compound_tidy, Hd|]. rewrite Forall_forall in Fd |- *. intros x Hx. split; [|apply Fd, Hx]. apply in_flat_map in Hx. destruct Hx as (n & Hn & Hx). rewrite Forall_forall in F.
    pose proof (write_no_lf E n (F n Hn)) as K. rewrite Forall_forall in K. exact (K x Hx). }
  destruct (compound_run (un never 0) m P mi (w, P1) _ _ d _ rest Hl Hd He H) as (b & Eb).
  destruct (compound_parse_found (un never 0) m P _ _ d _ rest b Hl Hd He) as (k & w' & pre & D & _ & _ & Er); [rewrite B1; exact B6|exact Eb|].
  assert (Hn : p_discard_empty_lines (skip (md_start m) (d ++ [LF]) (body ns)) = skip (md_start m) (d ++ [LF]) (body ns)).
  { apply discard_ready. rewrite sp_data_skip. rewrite <- (app_nil_r (body ns)). apply (body_ready _ _ _ F). left. reflexivity. }
  rewrite Er in H. apply Ok_inj in H. injection H as _ <- _.
  refine (proj1 (Hu None 0 0 ns (skip (md_start m) (d ++ [LF]) (body ns)) P b [] eq_refl (le_n 0) _ _ Ho F (bare_all _ Hba) (proj2 (agree_app E f Q (top_texts m0) (flat_map texts ns) Ha)) Qp Eb)); [rewrite Hn, sp_data_skip, app_nil_r; reflexivity|rewrite Hn; apply (skip_begins f)].
Qed.
Lemma section_notes un m0 c lv t ns s m P mi w P1 rest : un_notes un -> fits (e_u E) (NSection m0 c lv t ns) -> bare (NSection m0 c lv t ns) -> Q P -> agree (texts (NSection m0 c lv t ns)) -> at_block (NSection m0 c lv t ns) s m rest -> next_is E f Q lv rest ->
  section_parse E un m P = Ok (Some mi, (w, P1)) -> told (ids (NSection m0 c lv t ns)) (notes (NSection m0 c lv t ns)) w.
Proof.
  intros Hu Hf Hba Qp Ha [B1 B2 B3 B4 B5 B6 B7] Hrest H. pose proof (head_facts _ _ Hf) as (Ht & Hso & _). pose proof (head_heading _ _ _ _ _ _ Hf) as Hh. cbn [head_line] in *.
  destruct Hf as (_ & _ & _ & _ & _ & Ho & F). apply fits_all in F.
  destruct (section_inv _ _ _ _ _ _ _ H) as [(dd & level & title & rest' & lw & bs & b & src & tt & base & mn & reg & s2 & Ed & Et & _ & Eb & _ & Es & _ & Em & Ereg & _ & _ & ->)].
  unfold is_discrete in Ed. rewrite B3 in Ed. cbn [style_of bind] in Ed. apply Ok_inj in Ed. change (false = dd) in Ed. subst dd. cbn [more_lines] in B2. rewrite unlines_cons, <- app_assoc in B2. cbn [app] in B2.
  assert (Hl : a_line (sp_data (md_start m)) (heading_line c lv t ++ [LF]) (unlines ([] :: flat_map write ns) ++ rest) (heading_line c lv t)) by (rewrite B2; apply a_line_tidy, Ht).
  rewrite discard_ready in Et. 2: { right. rewrite B2. destruct Hso as (x & y & E1 & Hx). rewrite E1. cbn [app]. exact (solid_cons x _ Hx). }
  destruct (title_line_heading _ _ _ _ _ _ Hl Hh) as (t' & Et' & E1 & _). rewrite Et' in Et. apply Ok_inj in Et. injection Et as <- <- <- <-.
  rewrite unlines_cons in *. cbn [app] in *. change (unlines (flat_map write ns)) with (body ns) in *.
  set (r0 := skip (md_start m) (heading_line c lv t ++ [LF]) (LF :: body ns ++ rest)) in *.
  assert (Er : p_discard_empty_lines r0 = skip r0 [LF] (body ns ++ rest)). { apply discard_one; [apply sp_data_skip|]. apply (body_ready _ _ _ F), (next_ready _ _ _ _ _ Hrest). }
  match type of Eb with un _ _ _ ?p = _ => set (P0 := p) in * end.
  assert (Qp0 : Q P0). { refine (QA Q QI P P0 _ Qp). unfold P0. match goal with |- context [if ?b then _ else _] => destruct b end; cbn [snd]; [unfold assign_section_number; match goal with |- context [match ?b with SNormal => _ | _ => _ end] => destruct b end|]; unfold section_type_of; destruct (lv =? 1); reflexivity. }
  destruct (Hu (Some lv) lv lv ns r0 P0 b rest (conj eq_refl Hrest) (le_n _)) as (K1 & K2).
  { rewrite Er. apply sp_data_skip. }
  { rewrite Er. apply (skip_begins f r0 [] _). }
  { exact Ho. } { exact F. } { exact (bare_all _ Hba). } { exact (proj2 (agree_app E f Q _ _ (proj2 (agree_app E f Q _ _ Ha)))). } { exact Qp0. } { exact Eb. }
  cbn [app notes ids]. assert (Hm : forall i, mn = Some i -> In i (top_ids m0)). { intros i ->. unfold manual_id in Em. rewrite B3 in Em. cbn [bind] in Em. apply Ok_inj in Em. cbn [top_of] in B5. rewrite B5 in Em. unfold top_ids. rewrite Em. left. reflexivity. }
  apply (told_more ([] ++ top_ids m0 ++ flat_map ids ns)); [apply incl_refl|]. apply told_app; [apply told_exact; [exact K2|apply looking_other]|]. rewrite <- (app_nil_l (flat_map notes ns)). apply told_app; [exact (register_notes _ _ _ _ _ _ _ _ Ereg Hm)|exact K1].
Qed.
Lemma bare_media m P l r ty t mi w : a_line (sp_data (md_start m)) l r (media_word ty ++ lit "::" ++ t ++ lit "[" ++ [] ++ lit "]") -> In ty [MImage; MVideo] -> ~ In 91%N t -> media_parse E m P = Ok (Some mi, w) -> w = [].
Proof.
  intros Hl Hty Ht H. unfold media_parse in H. rewrite (take_norm_eq _ _ _ _ Hl) in H. cbn [bind mi_item mi_after sp_data with_data] in H. destruct (negb _); [discriminate H|].
  assert (Ei : take_ident (with_data (md_start m) (media_word ty ++ lit "::" ++ t ++ lit "[" ++ [] ++ lit "]")) = Ok (Some (mkmi (with_data (md_start m) (media_word ty)) (skip (md_start m) (media_word ty) (lit "::" ++ t ++ lit "[" ++ [] ++ lit "]"))))).
  { unfold take_ident. rewrite take_name_ok. destruct ty; reflexivity. }
  rewrite Ei in H. cbn [bind mi_item mi_after sp_data with_data] in H. assert (Em : media_type_of (media_word ty) = Some ty) by (destruct ty; reflexivity). rewrite Em in H.
  rewrite take_prefix_ok in H. unfold p_take_prefix in H. rewrite sp_data_skip in H. rewrite (proj2 (starts_with_spec (lit "::") _)) in H by eauto.
  change (skipn (length (lit "::")) (lit "::" ++ t ++ lit "[" ++ [] ++ lit "]")) with (t ++ lit "[" ++ [] ++ lit "]") in H. cbn [bind mi_after psplit] in H. rewrite skip_skip, take_while_ok in H. unfold p_take_while in H. rewrite sp_data_skip in H.
  assert (Es : span_while (fun c => negb (c =? 91)%N) (t ++ lit "[" ++ [] ++ lit "]") = (t, lit "[]")).
  { clear H Ei Hl. induction t as [|c t IH]; [reflexivity|]. cbn [app span_while]. rewrite (proj2 (N.eqb_neq c 91)) by (intros ->; apply Ht; left; reflexivity). cbn [negb]. match goal with |- context [span_while ?p ?x] => change x with (t ++ lit "[" ++ [] ++ lit "]") end. rewrite IH by (intros K; apply Ht; right; exact K). reflexivity. }
  rewrite Es in H. cbn [bind mi_item mi_after psplit sp_data with_data fst snd] in H. destruct (is_nil t); [discriminate H|].
  rewrite take_prefix_ok in H. unfold p_take_prefix in H. rewrite with_data_skip, skip_skip, sp_data_skip in H. change (starts_with (lit "[") (lit "[]")) with true in H. cbn [bind] in H. change (skipn (length (lit "[")) (lit "[]")) with (lit "]") in H.
  cbn [mi_after psplit] in H. rewrite sp_data_skip in H. change (checked_sub (blen (lit "]")) 1) with (Ok 0) in H. cbn [bind] in H. apply bind_ok in H. destruct H as (al & Eal & H).
  assert (Dal : sp_data al = []). { match type of Eal with slice ?x _ _ = _ => pose proof (slice_ok x [] [] (lit "]") (sp_data_skip _ _ _)) as K end. change (slice _ _ _) with (slice (skip (skip (md_start m) ((media_word ty ++ lit "::") ++ t) (lit "[]")) (lit "[") (lit "]")) 0 0) in K. rewrite Eal in K. apply Ok_inj in K. subst al. apply sp_data_skip. }
  apply bind_ok in H. destruct H as ([a wa] & Ea & H). unfold attrlist_parse in Ea. rewrite Dal in Ea. cbn in Ea.
  rewrite discard_all_ok in Ea. cbn [bind] in Ea. apply Ok_inj in Ea. injection Ea as _ <-. apply bind_ok in H. destruct H as (src & _ & H). apply bind_ok in H. destruct H as (af & _ & H). apply Ok_inj in H. injection H as _ <-. reflexivity.
Qed.
Lemma break_notes un m0 l s m P r mi rest : fits (e_u E) (NBreak m0 l) -> at_block (NBreak m0 l) s m rest -> with_metadata E un m [] P = Ok r -> pr_item r = Some mi -> told (ids (NBreak m0 l)) (notes (NBreak m0 l)) (pr_warnings r).
Proof.
  intros H B K Hi. destruct (head_at E f _ s m rest H B) as (q & Hl). pose proof (form_fits E _ H) as FF. cbn [form_of head_line] in *.
  assert (Hc : exists c y, l = c :: y /\ In c (lit "'-*<")). { destruct H as (_ & H). unfold break_line in H. cbn [In] in H. repeat (destruct H as [<-|H]; [do 2 eexists; split; [reflexivity|cbn; tauto]|]). destruct H. }
  assert (NF : forall f1, f1 <> FPage /\ f1 <> FThematic -> ~ has_form l f1). { intros f1 (Hf1 & Hf2) K1. pose proof (forms_exclusive _ _ _ K1 FF) as Z. destruct (text_eqb l (lit "<<<")); auto. }
  unfold with_metadata in K. rewrite (ab_list _ _ _ _ _ B) in K. cbn [style_of bind style_is] in K.
  rewrite (raw_parse_none E m P _ _ _ Hl) in K by (intros Z; refine (NF _ _ (raw_delim_form _ Z)); split; discriminate). cbn [bind] in K. rewrite (compound_parse_none _ m P _ _ _ Hl) in K by (intros Z; refine (NF _ _ (compound_delim_form _ Z)); split; discriminate). cbn [bind] in K.
  rewrite (take_norm_eq _ _ _ _ Hl) in K. cbn [bind mi_item sp_data with_data] in K. unfold try_media in K. apply bind_ok in K. destruct K as ([o w] & Eo & K). cbn [fst snd] in K. destruct o as [x|].
  { exfalso. match type of Eo with (if ?b then _ else _) = _ => destruct b eqn:Eb end; [|discriminate Eo]. destruct (media_some _ _ _ _ _ _ _ _ Hl Eb Eo) as (ty & t & a & sr & cm & _ & Z). refine (NF _ _ Z). split; discriminate. }
  destruct Hc as (c & y & -> & Hc). unfold try_section in K. assert (Ez : starts_with_any (lit "=#") (c :: y) = false) by (cbn in Hc; repeat (destruct Hc as [<-|Hc]; [reflexivity|]); destruct Hc). rewrite Ez in K. cbn [bind fst snd] in K.
  unfold try_break in K. apply bind_ok in K. destruct K as (o3 & Eo3 & K). destruct o3 as [x|]; [apply Ok_inj in K; subst r; cbn [pr_warnings app notes]; split; [reflexivity|intros i []]|].
  exfalso. assert (Ey : starts_with_any (lit "'-*<") (c :: y) = true) by (cbn in Hc; repeat (destruct Hc as [<-|Hc]; [reflexivity|]); destruct Hc). rewrite Ey in Eo3. destruct (break_none _ _ _ _ Hl Eo3) as (Z1 & Z2). destruct (text_eqb (c :: y) (lit "<<<")); contradiction.
Qed.
Lemma step_notes un n s P r mi rest : un_notes un -> fits (e_u E) n -> bare n -> Q P -> agree (texts n) -> begins s -> sp_data s = unlines (write n) ++ rest -> (forall k, node_level n = Some k -> next_is E f Q k rest) ->
  block_parse_with E un s P = Ok r -> pr_item r = Some mi -> piece_of (mi_item mi) = meant f n -> told (ids n) (notes n) (pr_warnings r).
Proof.
  intros Hu H Hba Qp Ha Hb D Hnx K Hi Hp. destruct (head_facts _ n H) as (Ht & Hso & _ & _).
  destruct (first_written E n rest H) as (w0 & r0 & E0 & Hw0 & Hc0). assert (Hl0 : a_line (sp_data s) (w0 ++ [LF]) r0 w0) by (rewrite D, E0; apply a_line_tidy, Hw0).
  destruct (first_line_sp s _ _ _ Hl0) as (fl & z & Ef & Ez & Fz).
  unfold block_parse_with in K. rewrite Ef in K. cbn [bind] in K. apply bind_ok in K. destruct K as (fast & Efa & K). destruct fast as [x|].
  { destruct (try_fast s (mi_item fl)) eqn:Et; [|discriminate Efa]. destruct (finish_inv _ _ _ _ K) as (id & Eid & Er). rewrite Er in Hi |- *. cbn [pr_item] in Hi. injection Hi as ->.
    destruct (simple_fast_inv _ _ _ _ Efa) as (c1 & st & src & cm & Em & ->). rewrite Em in Eid, Hp |- *. cbn in Eid. apply Ok_inj in Eid. subst id. cbn [pr_warnings register_block_id snd app block_common].
    destruct st; try solve [destruct n; discriminate Hp]. destruct n as [m0 ls|m0 d ls|m0 d ns|m0 l|m0 ty t a|m0 c k t ns]; try discriminate Hp. cbn [piece_of meant block_common] in Hp. unfold the_id in Hp. cbn in Hp. injection Hp as P1 P2 P3. cbn [notes ids].
    assert (Etop : top_lines m0 = []) by (unfold top_lines; rewrite <- P2; destruct (t_title m0); [discriminate P1|reflexivity]).
    split; [|intros i []]. cbn [map filter]. symmetry. destruct ls as [|x ls]; [destruct H as (_ & [])|]. cbn [hd].
    assert (Hx : exists c y, x = c :: y /\ is_marker c = false).
    { unfold try_fast in Et. rewrite D in Et. cbn [write] in Et. rewrite Etop in Et. cbn [app] in Et. rewrite unlines_cons in Et. destruct H as (_ & (Hx & _) & _). destruct x as [|c y]; [destruct (proj1 Hx eq_refl)|]. exists c, y. split; [reflexivity|]. cbn [app] in Et. apply andb_true_iff in Et. destruct Et as (Et & _). apply negb_true_iff in Et. exact Et. }
    destruct Hx as (c & y & -> & Hc). rewrite no_marks by (intros ->; discriminate Hc). rewrite app_nil_r. unfold anchor_notes. rewrite <- P2.
    destruct (text_eqb_spec (c :: y) (lit "[[]]")) as [Z|_]; [injection Z as -> _; discriminate Hc|]. destruct (starts_with (lit "[[") (c :: y)) eqn:Z; [apply starts_with_spec in Z; destruct Z as (q & Z); injection Z as -> _; discriminate Hc|]. rewrite andb_false_r. reflexivity. }
  apply bind_ok in K. destruct K as (en & Ee & K). destruct en as [at_|].
  { apply Ok_inj in K. subst r. cbn [pr_item] in Hi. injection Hi as <-. cbn [mi_item piece_of] in Hp. destruct n; discriminate Hp. }
  apply bind_ok in K. destruct K as ([m ws] & Em & Ew). cbn [fst snd] in Ew. pose proof (written_at E f Q n s P m ws rest H Qp Ha Hb D Em) as B. pose proof (metadata_notes n s P m ws rest H D Em) as Wm. destruct (head_at E f n s m rest H B) as (q & Hl).
  pose proof (ab_list _ _ _ _ _ B) as BL. pose proof (ab_anchor _ _ _ _ _ B) as BA.
  destruct (form_of n) as [fo|] eqn:Efo; [|exact (text_notes un n s m ws P r mi rest H Efo B Wm Ew Hi)].
  assert (Wn : ws = []). { destruct n as [m0 ls|m0 d ls|m0 d ns|m0 l|m0 ty t a|m0 c k t ns]; try discriminate Efo; destruct ws; try reflexivity; discriminate Wm. } subst ws.
  pose proof (md_shape _ _ _ _ _ _ Ew) as Sh; destruct Sh as [w _|m' mj w rr _ _ Es Hf|mj w rr Es Hf|mj w P1 rr Es Hf|mj w rr Es Hf|mj w P1 Es|mj w _ Es]; cbn [pr_item] in Hi; try discriminate Hi;
      try (pose proof Hf as Hf'; destruct (finish_inv _ _ _ _ Hf') as (i & Ei & Er); rewrite Er in Hi; cbn [pr_item] in Hi; clear Er); injection Hi as ->.
  - destruct (Shape_Proof.simple_inv _ _ _ _ Es) as (c1 & c2 & c3 & Z). rewrite Z in Hp. destruct c2; destruct n; try discriminate Efo; discriminate Hp.
  - destruct (Shape_Proof.raw_inv _ _ _ _ _ Es) as (c1 & c2 & c3 & c4 & c5 & Z). destruct n as [m0 ls|m0 d ls|m0 d ns|m0 l|m0 ty t a|m0 c k t ns]; try solve [rewrite Z in Hp; discriminate Hp].
    destruct (raw_read E f Q m0 d ls s m P mi w rest H Qp Ha B Es) as (_ & ->). apply (finish_notes _ _ _ _ _ _ Hf); [exact told_nil|]. intros j Ej. apply top_id_in. rewrite <- BA. apply (plain_id m j (mi_item mi)); [exact BL| | | |exact Ej]; rewrite Z; try reflexivity. intros; discriminate.
  - destruct (Shape_Proof.compound_inv _ _ _ _ _ _ Es) as (c1 & c2 & c3 & c4 & c5 & _ & Z & _). destruct n as [m0 ls|m0 d ls|m0 d ns|m0 l|m0 ty t a|m0 c k t ns]; try solve [rewrite Z in Hp; discriminate Hp].
    pose proof (box_notes un m0 d ns s m P mi w P1 rest Hu H Hba Qp Ha B Es) as (T1 & T2). destruct (finish_inv _ _ _ _ Hf) as (i' & Ei' & ->). cbn [pr_warnings app notes ids]. rewrite <- (app_nil_r (flat_map notes ns)).
    apply (told_more (flat_map ids ns ++ top_ids m0)); [intros x; rewrite !in_app_iff; tauto|]. apply told_app; [split; assumption|]. unfold register_block_id. destruct i' as [j|]; [|split; [reflexivity|intros ? []]]. destruct (p_catalog P1); [|split; [reflexivity|intros ? []]]. cbv zeta.
    match goal with |- context [if ?b then _ else _] => destruct b end; cbn [snd map w_type]; (split; [reflexivity|]); intros j' J; [destruct J|]. destruct J as [J|[]]. injection J as <-.
    assert (X : option_map sp_data (md_anchor m) = Some j). { apply (plain_id m j (mi_item mi)); [exact BL| | | |exact Ei']; rewrite Z; try reflexivity. intros; discriminate. } rewrite BA in X. cbn [top_of] in X. unfold top_ids. rewrite X. left. reflexivity.
  - destruct (Shape_Proof.media_inv _ _ _ _ _ Es) as (c1 & c2 & c3 & c4 & Z). destruct n as [m0 ls|m0 d ls|m0 d ns|m0 l|m0 ty t a|m0 c k t ns]; try solve [rewrite Z in Hp; discriminate Hp].
    cbn [bare] in Hba. subst a. cbn [head_line] in Hl. destruct H as (_ & Hty & _ & _ & Hbr & _). rewrite (bare_media m P _ _ ty t mi w Hl Hty Hbr Es) in Hf. apply (finish_notes _ _ _ _ _ _ Hf); [exact told_nil|]. intros j Ej. apply top_id_in. rewrite <- BA. apply (plain_id m j (mi_item mi)); [exact BL| | | |exact Ej]; rewrite Z; try reflexivity. intros; discriminate.
  - destruct n as [m0 ls|m0 d ls|m0 d ns|m0 l|m0 ty t a|m0 c k t ns].
    6: { cbn [app pr_warnings]. exact (section_notes un m0 c k t ns s m P mi w P1 rest Hu H Hba Qp Ha B (Hnx k eq_refl) Es). }
    all: destruct (Shape_Proof.section_inv _ _ _ _ _ _ _ Es) as [(c1 & c2 & c3 & c4 & c5 & c6 & c7 & c8 & c9 & c10 & c11 & c12 & c13 & _ & _ & _ & _ & _ & _ & _ & _ & _ & _ & Z & _)]; rewrite Z in Hp; discriminate Hp.
  - destruct (Shape_Proof.break_inv _ _ Es) as (c1 & c2 & Z). rewrite Z in Hp. destruct n as [m0 ls|m0 d ls|m0 d ns|m0 l|m0 ty t a|m0 c k t ns]; try discriminate Hp. exact (break_notes un m0 l s m P _ mi rest H B Ew eq_refl).
Qed.

(** * All the blocks *)
Lemma looking_cons k n r : looking k (n :: r) = looking k [n] ++ looking (match node_level n with Some j => j | None => k end) r.
Proof. destruct n; cbn [looking node_level]; rewrite ?app_nil_r; reflexivity. Qed.
Lemma loop_notes : forall fuel o lo k ns s P b rest, ends o lo rest -> lo <= k -> sp_data s = body ns ++ rest -> begins s ->
  in_order lo ns -> Forall (fits (e_u E)) ns -> Forall bare ns -> agree (flat_map texts ns) -> Q P -> blocks_loop E fuel (stop_of o) k s P = Ok b ->
  told (flat_map ids ns) (flat_map notes ns) (br_warnings b) /\ map w_type (br_stop_warnings b) = match o with Some _ => looking k ns | None => [] end.
Proof.
  induction fuel as [|fuel IH]; intros o lo k ns s P b rest Hm Hk D Hb Ho F Fb Ha Qp H.
  - cbn [blocks_loop] in H. destruct (sp_data s) as [|c y] eqn:Ds; [|discriminate H]. apply Ok_inj in H. subst b. cbn [br_warnings br_stop_warnings]. symmetry in D. apply app_eq_nil in D. destruct D as (D1 & D2).
    destruct ns as [|n ns]; [split; [exact told_nil|destruct o; reflexivity]|]. exfalso. rewrite body_cons in D1. destruct (write_end E n (Forall_inv F)) as (q & Eq). rewrite Eq in D1. destruct q; discriminate D1.
  - cbn [blocks_loop] in H. destruct ns as [|n ns].
    + cbn [body flat_map] in D. change (sp_data s = rest) in D. destruct (sp_data s) as [|c y] eqn:Ds. { apply Ok_inj in H. subst b. split; [exact told_nil|destruct o; reflexivity]. }
      destruct o as [x|]; [|rewrite <- D in Hm; discriminate Hm]. destruct Hm as (-> & [->|(n & j & r & Hn & Han & Ej & Hle & Er)]); [discriminate D|]. cbn [stop_of] in H. apply bind_ok in H. destruct H as (st & Est & H). rewrite <- D in Er. rewrite <- Ds in Er.
      assert (Et : fst st = true) by (apply (stop_written E f Q QD n lo s k st r Hn Han Er Est); eauto). rewrite Et in H. apply Ok_inj in H. subst b. cbn [br_warnings br_stop_warnings looking flat_map]. split; [exact told_nil|].
      destruct (stop_notes n lo s k st r Hn Han Er Est) as (-> & _). destruct n; try discriminate Ej. injection Ej as ->. cbn [looking]. replace (k + 1 <? j) with false by (symmetry; apply Nat.ltb_ge; lia). reflexivity.
    + rewrite body_cons, <- app_assoc in D. pose proof (Forall_inv F) as Hn. pose proof (Forall_inv_tail F) as F2. destruct (agree_app _ _ _ _ _ Ha) as (Han & Ha2). destruct (write_end E n Hn) as (q & Eq).
      assert (Dne : exists c y, sp_data s = c :: y). { rewrite D, Eq. destruct q; do 2 eexists; reflexivity. } destruct Dne as (c & y & Ds). rewrite Ds in H.
      apply bind_ok in H. destruct H as (st & Est & H). destruct Ho as (Ho1 & Ho2).
      assert (Et : fst st = false /\ map w_type (snd (snd st)) = (match o with Some _ => looking k [n] | None => [] end) /\ fst (snd st) = match o with Some _ => match node_level n with Some j => j | None => k end | None => k end).
      { destruct o as [x|]; [|apply Ok_inj in Est; subst st; auto]. destruct Hm as (-> & _). cbn [stop_of] in Est. split; [|exact (stop_notes n lo s k st _ Hn Han D Est)]. destruct (fst st) eqn:E1; [|reflexivity]. apply (stop_written E f Q QD n lo s k st _ Hn Han D Est) in E1. destruct E1 as (j & Ej & Hle). rewrite Ej in Ho1. lia. }
      destruct Et as (Et & Ew & Ek). rewrite Et in H. apply bind_ok in H. destruct H as (r & Er & H). apply bind_ok in H. destruct H as (br & Ebr & H). apply Ok_inj in H. subst b. cbn [br_warnings br_stop_warnings].
      match type of Er with block_parse_with _ ?un _ _ = _ => assert (Hu : un_notes un /\ un_reads E f Q un) end.
      { split.
        - intros o' lo' k' ns' s' P' b' rest' Hm' Hk' D' Hb' Ho' F' Fb' Ha' Q' H'. rewrite discard_empty_lines_ok in H'. cbn [bind] in H'. exact (IH _ _ _ _ _ _ _ _ Hm' Hk' D' Hb' Ho' F' Fb' Ha' Q' H').
        - intros stop' lo' k' ns' s' P' b' rest' Hm' D' Hb' Ho' F' Ha' Q' H'. rewrite discard_empty_lines_ok in H'. cbn [bind] in H'. destruct (loop_reads E f Q QI QD _ _ _ _ _ _ _ _ _ Hm' D' Hb' Ho' F' Ha' Q' H') as (K1 & K2 & K3). split; [exact K1|]. split; [exact K2|]. exact (suffix_trans _ _ _ (discard_empty_Suffix s') K3). }
      destruct Hu as (Hu & Hr). match type of Er with block_parse_with _ ?un _ _ = _ => assert (Hg : until_good R_attrs un /\ real E un) end.
      { split; [|exists fuel; reflexivity]. intros f' n' s' P' b' Hb'. rewrite discard_empty_lines_ok in Hb'. cbn [bind] in Hb'. exact (loop_attrs E fuel _ _ _ _ _ Hb'). }
      destruct Hg as (Hg & Hre). pose proof (step_attrs E _ s P r Hre Hg (block_shape _ _ _ _ _ Er)) as Ra.
      assert (Hnx : forall j, node_level n = Some j -> next_is E f Q j (body ns ++ rest)).
      { intros j Ej. rewrite Ej in Ho1. destruct Ho1 as (Hlt & Hnx). destruct ns as [|n' ns].
        - cbn [body flat_map]. change (next_is E f Q j rest). destruct o as [x|]; [|rewrite Hm; left; reflexivity]. destruct Hm as (_ & [->|(n2 & j2 & r2 & Z1 & Z2 & Z3 & Z4 & Z5)]); [left; reflexivity|]. right. exists n2, j2, r2. repeat (split; [assumption|]). split; [lia|exact Z5].
        - destruct Hnx as (j2 & Ej2 & Hle). right. exists n', j2, (body ns ++ rest). split; [exact (Forall_inv F2)|]. split; [exact (proj1 (agree_app _ _ _ _ _ Ha2))|]. split; [exact Ej2|]. split; [exact Hle|]. rewrite body_cons, <- app_assoc. reflexivity. }
      destruct (written_step E f Q QI _ n s P r (body ns ++ rest) Hr Hg Hn Qp Han Hb D) as (mi & Ei & R1 & R2 & R3); [exact (body_ready _ _ _ F2 (mode_ready _ _ _ _ _ _ (ends_mode _ _ _ Hm)))|exact Hnx|exact Er|].
      pose proof (step_notes _ n s P r mi (body ns ++ rest) Hu Hn (Forall_inv Fb) Qp Han Hb D Hnx Er Ei R1) as T1.
      rewrite Ei in *. assert (Qp2 : Q (pr_parser r)). { refine (QA Q QI _ _ (Ra _) Qp). cbn [flat_map]. rewrite app_nil_r. exact (piece_entries f n _ R1). } assert (Hb2 : begins (mi_after mi)). { apply (suffix_begins f s _ q R3). rewrite D, Eq, R2, <- app_assoc. reflexivity. }
      assert (Hk2 : lo <= fst (snd st)). { rewrite Ek. destruct o; [|exact Hk]. destruct (node_level n) as [j|]; [lia|exact Hk]. }
      destruct (IH _ _ _ _ _ _ _ _ Hm Hk2 R2 Hb2 Ho2 F2 (Forall_inv_tail Fb) Ha2 Qp2 Ebr) as (K1 & K2). split; [exact (told_app _ _ _ _ _ _ T1 K1)|]. rewrite map_app, Ew, K2, Ek. destruct o; [rewrite (looking_cons k n ns); reflexivity|reflexivity].
Qed.
(** * The header *)
Lemma header_tells fuel : forall s h r, header_loop E fuel s h = Ok r -> (Forall unterminated (s_warnings h) \/ s_attrs h <> []) -> Forall unterminated (s_warnings (fst r)) \/ s_attrs (fst r) <> [].
Proof.
  assert (St : forall s h r, header_step E s h = Ok r -> (Forall unterminated (s_warnings h) \/ s_attrs h <> []) -> Forall unterminated (s_warnings (fst r)) \/ s_attrs (fst r) <> []).
  { intros s h r H I0. unfold header_step in H. cbv zeta in H. apply bind_ok in H. destruct H as (li & _ & H). destruct (is_nil _). { apply Ok_inj in H. subst r. exact I0. }
    match type of H with (if ?b then _ else _) = _ => destruct b end. { apply Ok_inj in H. subst r. exact I0. } apply bind_ok in H. destruct H as (o & _ & H). destruct o as [a|].
    { apply bind_ok in H. destruct H as (P & _ & H). apply Ok_inj in H. subst r. right. cbn [fst s_attrs]. intros K. apply app_eq_nil in K. destruct K as (_ & K). discriminate K. }
    match type of H with (if ?b then _ else _) = _ => destruct b end.
    { apply bind_ok in H. destruct H as (? & _ & H). apply bind_ok in H. destruct H as (? & _ & H). apply bind_ok in H. destruct H as (? & _ & H). apply Ok_inj in H. subst r. exact I0. }
    match type of H with (if ?b then _ else _) = _ => destruct b end. { apply bind_ok in H. destruct H as (? & _ & H). apply Ok_inj in H. subst r. exact I0. }
    match type of H with (if ?b then _ else _) = _ => destruct b end. { apply bind_ok in H. destruct H as (? & _ & H). apply Ok_inj in H. subst r. exact I0. }
    apply Ok_inj in H. subst r. cbn [fst]. destruct (is_some _); [|exact I0]. cbn [s_warnings s_attrs]. destruct I0 as [I0|I0]; [left; apply Forall_app; split; [exact I0|repeat constructor]|right; exact I0]. }
  induction fuel as [|fuel IH]; intros s h r H I0; cbn [header_loop] in H.
  - destruct (sp_data s); [|discriminate H]. apply Ok_inj in H. subst r. exact I0.
  - destruct (sp_data s). { apply Ok_inj in H. subst r. exact I0. } apply bind_ok in H. destruct H as (x & Ex & H). pose proof (St _ _ _ Ex I0) as I1. destruct (snd x); [exact (IH _ _ _ H I1)|]. apply Ok_inj in H. subst r. exact I1.
Qed.
Lemma header_silent s P hd after ws P' : header_parse E s P = Ok (mkmi hd after, (ws, P')) -> Forall unterminated ws \/ h_attrs hd <> [].
Proof.
  unfold header_parse. intros H. apply bind_ok in H. destruct H as (? & _ & H). apply bind_ok in H. destruct H as (r & Er & H). cbv zeta in H. apply bind_ok in H. destruct H as (? & _ & H). apply bind_ok in H. destruct H as (? & _ & H).
  apply bind_ok in H. destruct H as (? & _ & H). apply Ok_inj in H. injection H as <- _ <- _. cbn [h_attrs]. refine (header_tells _ _ _ _ Er _). left. constructor.
Qed.
Theorem document_notes fuel title ns sm P d P' : document_fits (e_u E) title ns -> Forall bare ns -> Q P -> agree (document_texts title ns) -> document_parse E fuel (document_text title ns) sm P = Ok (d, P') ->
  told (flat_map ids ns) (flat_map notes ns) (d_warnings d).
Proof.
  intros Hf Fb Qp Ha H. unfold document_parse in H. apply bind_ok in H. destruct H as ([[hd after] [hw P1]] & Eh & H). cbn [fst snd mi_after] in H. apply bind_ok in H. destruct H as (b & Eb & H). apply bind_ok in H. destruct H as (bs & Em & H).
  apply bind_ok in H. destruct H as (s & _ & H). apply Ok_inj in H. injection H as <- _. cbn [d_warnings].
  destruct (header_parse_spec _ _ _ _ _ _ _ Eh) as (h & src & ks & ts & w & R & _ & Hs & _ & _ & _ & _ & _ & _ & En & Hw & Ea & _). cbn [sp_data span_new] in R. destruct (written_header E f title ns Hf) as (ks' & Hks & R').
  destruct (header_run_unique _ _ _ _ _ _ R _ _ _ _ R') as (-> & -> & Es & ->). destruct (header_led _ _ _ _ _ _ _ Eh) as (l & (El & Etl & _ & _ & Hpr) & L). rewrite Hks in En. apply map_eq_nil in En. rewrite En in El. pose proof (QL E Q QI P l P1 El L Qp) as Qp1. destruct Hf as (Ht & Ho & F). destruct (agree_app _ _ _ _ _ Ha) as (Ha1 & Ha2).
  assert (hw = []) as ->. { destruct (header_silent _ _ _ _ _ _ Eh) as [K|K]; [|contradiction]. destruct K as [|x hw Hx K]; [reflexivity|]. pose proof (proj2 Hw (Exists_cons_hd _ _ _ Hx)) as Hz. discriminate Hz. }
  assert (Hr : body ns = [] \/ solid (body ns)). { rewrite <- (app_nil_r (body ns)). apply (body_ready _ _ _ F). left. reflexivity. }
  assert (A : sp_data after = body ns /\ begins after).
  { subst after. destruct title as [t|].
    - rewrite (discard_one _ _ Es Hr). split; [apply sp_data_skip|]. apply (skip_begins f src [] _).
    - rewrite discard_ready by (rewrite Es; exact Hr). split; [exact Es|]. destruct Hs as (pre & D & Ep). cbn [sp_data span_new] in D. rewrite Es in D. unfold document_text in D. apply (app_inv_tail (body ns) []) in D. subst pre. intros _. rewrite Ep, skip_nil. reflexivity. }
  destruct A as (A1 & A2). rewrite <- (app_nil_r (body ns)) in A1. assert (Ed : p_discard_empty_lines after = after). { apply discard_ready. rewrite A1, app_nil_r. exact Hr. }
  unfold parse_blocks_until in Eb. rewrite discard_empty_lines_ok in Eb. cbn [bind app] in *. rewrite Ed in Eb. cbn [mi_item].
  refine (proj1 (loop_notes _ None 0 0 ns after _ b [] eq_refl (le_n 0) A1 A2 Ho F Fb Ha2 (QA Q QI P1 (with_levels P1 (sectnumlevels P1)) eq_refl Qp1) Eb)).
Qed.
End Notices.
