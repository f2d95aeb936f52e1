(** Proofs for Again_Spec. *)
From Verif Require Import Text TextFacts Maps Span_Model Span_Pure Span_Spec Span_Proof Span_Laws Catalog_Model Parser_Model SourceMap_Model Subs_Model Attrlist_Model Entry_Model Regex Macro_Model Quote_Model Render_Model Pre_Model Group_Model SecId_Model
  Header_Model Block_Model Doc_Model Group_Proof Shape_Proof Walk_Spec Walk_Proof Pre_Proof Shift_Spec Shift_Proof Again_Spec.

Lemma same_refl P : same_attrs P P. Proof. split; reflexivity. Qed.
(** * The inline layer reads the attributes only *)
Definition only (P : parser) : parser := mkparser (p_attrs P) (p_defaults P) None 47%N None (mksn SNormal []) (mksn SNormal []) 0 SNormal.
Lemma only_eq P Q : same_attrs P Q -> only P = only Q. Proof. intros (A & B). unfold only. rewrite A, B. reflexivity. Qed.
Lemma only_attributes U P t : apply_attributes U P t = apply_attributes U (only P) t. Proof. reflexivity. Qed.
Lemma only_attrlist U n P s c : attrlist_parse U n P s c = attrlist_parse U n (only P) s c. Proof. reflexivity. Qed.
Lemma only_secid U t P : generate_section_id U t P = generate_section_id U t (only P). Proof. reflexivity. Qed.
Lemma only_inline U P t : inline_attrlist U P t = inline_attrlist U (only P) t. Proof. reflexivity. Qed.
Lemma only_loop U P l : forall t, quotes_loop U P l t = quotes_loop U (only P) l t.
Proof. induction l as [|q l IH]; intros t; [reflexivity|]. cbn [quotes_loop]. apply bind_more. intros a. apply IH. Qed.
Lemma only_quotes U P t : apply_quotes U P t = apply_quotes U (only P) t.
Proof. unfold apply_quotes. rewrite only_loop. reflexivity. Qed.
Lemma only_macros U fs P t : apply_macros U fs P t = apply_macros U fs (only P) t. Proof. reflexivity. Qed.
Lemma only_post U P h t : apply_post_replacements U P h t = apply_post_replacements U (only P) h t. Proof. reflexivity. Qed.
Lemma only_step U fs P h s t : apply_step U fs P h s t = apply_step U fs (only P) h s t.
Proof. destruct s; reflexivity. Qed.
Lemma only_steps U fs P h l : forall t, apply_steps U fs P h l t = apply_steps U fs (only P) h l t.
Proof. induction l as [|s l IH]; intros t; [reflexivity|]. cbn [apply_steps]. rewrite only_step. apply bind_more. intros a. apply IH. Qed.
Lemma only_format U P p t : pt_format U P p t = pt_format U (only P) p t. Proof. reflexivity. Qed.
Lemma fold_same {St} (f g : St -> mtch -> text -> res (St * text)) l : (forall s m d, f s m d = g s m d) -> forall s d, replace_fold f l s d = replace_fold g l s d.
Proof. intros H. induction l as [|[a m] l IH]; intros s d; [reflexivity|]. cbn [replace_fold]. rewrite H. apply bind_more. intros x. apply IH. Qed.
Lemma replace_same U r f g t : (forall m, f m = g m) -> replace_all_pure U r f t = replace_all_pure U r g t.
Proof.
  intros H. unfold replace_all_pure, replace_all. destruct (find_all U r t) as [l e]. rewrite (fold_same _ (fun (s : unit) m dest => t <- g m ;; Ok (s, dest ++ t))); [reflexivity|]. intros s m d. rewrite H. reflexivity.
Qed.
Lemma only_group U fs P f : (forall g h t, apply_group U fs P f g h t = apply_group U fs (only P) f g h t) /\ (forall pts t, restore U fs P f pts t = restore U fs (only P) f pts t).
Proof.
  induction f as [|f (IHa & IHr)]; [split; reflexivity|]. split.
  - intros g h t. rewrite !apply_group_S. destruct (extracts g); [|apply only_steps]. apply bind_more. intros pt. rewrite only_steps. apply bind_more. intros t'. destruct (fst pt); [reflexivity|apply IHr].
  - intros pts t. rewrite !restore_S. apply replace_same. intros m. unfold restore_one. apply bind_more. intros c1. destruct (pt_get pts (parse_index c1)) as [pt|]; [|reflexivity]. rewrite IHa. apply bind_more. intros x. rewrite only_format. apply bind_more. intros y. rewrite IHr. reflexivity.
Qed.
Theorem env_reads_attrs U fs fuel : sub_reads_attrs (env_of U fs fuel).
Proof. intros P Q g h t H. cbn [e_sub env_of]. rewrite (proj1 (only_group U fs P fuel)), (proj1 (only_group U fs Q fuel)), (only_eq _ _ H). reflexivity. Qed.
(** * Attribute lists *)
Section lists.
Variables (n n' : text -> res text).
Hypothesis N : forall t, n t = n' t.
Lemma same_finish ctx q v : ea_finish_value n ctx q v = ea_finish_value n' ctx q v.
Proof. unfold ea_finish_value. destruct q as [q|]; [|reflexivity]. destruct ctx; try rewrite N; reflexivity. Qed.
Lemma same_ea s b i ps c : ea_parse n s b i ps c = ea_parse n' s b i ps c.
Proof. unfold ea_parse. repeat (apply bind_more; intros ?). rewrite same_finish. reflexivity. Qed.
Lemma same_al_loop f : forall s b c a ps w i, attrlist_loop n f s b c a ps w i = attrlist_loop n' f s b c a ps w i.
Proof.
  induction f as [|f IH]; intros s b c a ps w i; [reflexivity|]. cbn [attrlist_loop]. rewrite same_ea. apply bind_more. intros r.
  repeat (first [reflexivity|rewrite IH|match goal with |- context [if ?b then _ else _] => destruct b | |- context [match ?b with _ => _ end] => destruct b | |- bind _ _ = bind _ _ => apply bind_more; intros ? end]).
Qed.
Lemma same_attrlist U P Q s c : same_attrs P Q -> attrlist_parse U n P s c = attrlist_parse U n' Q s c.
Proof. intros H. rewrite only_attrlist, (only_attrlist U n' Q), (only_eq _ _ H). unfold attrlist_parse. repeat (first [reflexivity|rewrite same_al_loop|match goal with |- (if ?b then _ else _) = (if ?b then _ else _) => destruct b | |- (match ?b with _ => _ end) = (match ?b with _ => _ end) => destruct b | |- bind _ _ = bind _ _ => apply bind_more; intros ? end]). Qed.
End lists.
(** * Blocks *)
Lemma two {A B C D} (m : A -> C) (g : B -> D) x y k l : on_ok m x = on_ok m y -> (forall a b, m a = m b -> on_ok g (k a) = on_ok g (l b)) -> on_ok g (bind x k) = on_ok g (bind y l).
Proof. intros H K. destruct x, y; cbn [on_ok] in H; try discriminate H; try reflexivity. cbn [bind]. apply K. apply (Ok_inj _ _ H). Qed.
Lemma one {A B D} (g : B -> D) (x : res A) k l : (forall a, on_ok g (k a) = on_ok g (l a)) -> on_ok g (bind x k) = on_ok g (bind x l).
Proof. intros K. destruct x; cbn [bind]; [apply K|reflexivity|reflexivity]. Qed.
Definition alike (P Q : parser) : Prop := unnum P = unnum Q.
Lemma alike_same P Q : alike P Q -> same_attrs P Q.
Proof. intros H. split; [exact (f_equal p_attrs H)|exact (f_equal p_defaults H)]. Qed.
Lemma alike_set P Q n : alike P Q -> is_attribute_set P n = is_attribute_set Q n.
Proof. intros H. unfold is_attribute_set. rewrite (proj1 (alike_same _ _ H)). reflexivity. Qed.
Lemma alike_catalog P Q : alike P Q -> p_catalog P = p_catalog Q. Proof. intros H. exact (f_equal p_catalog H). Qed.
Lemma alike_with P Q c : alike P Q -> alike (with_catalog P c) (with_catalog Q c).
Proof. intros H. unfold alike, unnum in *. cbn. injection H as A B C D F. rewrite A, B, C, D. reflexivity. Qed.
Lemma alike_attrs P Q a : alike P Q -> alike (with_attrs P a) (with_attrs Q a).
Proof. intros H. unfold alike, unnum in *. cbn. injection H as A B C D F. rewrite B, C, D, F. reflexivity. Qed.
Definition mu_mi (m : mitem block) : mitem block := mkmi (unnum_block (mi_item m)) (mi_after m).
Definition mu_b (b : bres) : bres := mkbr (map unnum_block (br_blocks b)) (br_after b) (br_warnings b) (br_level b) (br_stop_warnings b) (unnum (br_parser b)).
Definition mu_p (r : pres) : pres := mkpr (option_map mu_mi (pr_item r)) (pr_warnings r) (unnum (pr_parser r)).
Definition alike_until (un : stop_fn -> nat -> span -> parser -> res bres) : Prop := forall f n s P Q, alike P Q -> on_ok mu_b (un f n s P) = on_ok mu_b (un f n s Q).

Section blocks.
Variable E : env.
Hypothesis BL : sub_reads_attrs E.
Ltac more := repeat (first [match goal with |- ?x = ?x => reflexivity end|match goal with |- bind _ _ = bind _ _ => apply bind_more; intros ? | |- (if ?b then _ else _) = (if ?b then _ else _) => destruct b | |- (match ?b with _ => _ end) = (match ?b with _ => _ end) => destruct b end]).
Lemma s_subs P Q g a t : same_attrs P Q -> apply_subs E P g a t = apply_subs E Q g a t.
Proof. intros H. unfold apply_subs. more. apply BL. exact H. Qed.
Lemma s_attrlist P Q s c : same_attrs P Q -> attrlist_parse (e_u E) (norm_of E P) P s c = attrlist_parse (e_u E) (norm_of E Q) Q s c.
Proof. intros H. apply same_attrlist; [|exact H]. intros t. apply BL. exact H. Qed.
Lemma s_attrlist_line P Q s : same_attrs P Q -> parse_maybe_attrlist_line E s P = parse_maybe_attrlist_line E s Q.
Proof. intros H. unfold parse_maybe_attrlist_line. more. cbv zeta. more. rewrite (s_attrlist P Q _ _ H). reflexivity. Qed.
Lemma s_md_step P Q m : same_attrs P Q -> md_attrlist_step E P m = md_attrlist_step E Q m.
Proof. intros H. unfold md_attrlist_step. rewrite (s_attrlist_line P Q _ H). reflexivity. Qed.
Lemma s_md_loop P Q : same_attrs P Q -> forall f m, md_loop E P f m = md_loop E Q f m.
Proof. intros H. induction f as [|f IH]; intros m; [reflexivity|]. cbn [md_loop]. apply bind_more. intros [m'|]; [apply IH|]. apply bind_more. intros [a b]. cbn [fst snd]. destruct b; [apply IH|]. rewrite (s_md_step P Q _ H). apply bind_more. intros [x y]. cbn [fst snd]. destruct y; [apply IH|reflexivity]. Qed.
Lemma s_metadata P Q s : same_attrs P Q -> metadata_parse E s P = metadata_parse E s Q.
Proof. intros H. unfold metadata_parse. apply bind_more. intros s'. rewrite (s_md_loop P Q H). apply bind_more. intros m. destruct (ms_title m); [rewrite (BL P Q _ _ _ H)|]; reflexivity. Qed.
Lemma s_lines P Q s a : same_attrs P Q -> parse_lines E s a P = parse_lines E s a Q.
Proof. intros H. unfold parse_lines. more. cbv zeta. more. rewrite (s_subs P Q _ _ _ H). reflexivity. Qed.
Lemma s_simple P Q m : same_attrs P Q -> simple_parse E m P = simple_parse E m Q.
Proof. intros H. unfold simple_parse. rewrite (s_lines P Q _ _ H). reflexivity. Qed.
Lemma s_fast P Q s : same_attrs P Q -> simple_parse_fast E s P = simple_parse_fast E s Q.
Proof. intros H. unfold simple_parse_fast. rewrite (s_lines P Q _ _ H). reflexivity. Qed.
Lemma s_raw P Q m : same_attrs P Q -> raw_parse E m P = raw_parse E m Q.
Proof. intros H. unfold raw_parse. more. cbv zeta. more. rewrite (s_subs P Q _ _ _ H). reflexivity. Qed.
Lemma s_media P Q m : same_attrs P Q -> media_parse E m P = media_parse E m Q.
Proof. intros H. unfold media_parse. more; rewrite ?(s_attrlist P Q _ _ H); reflexivity. Qed.
Lemma s_raw_value P Q r : same_attrs P Q -> from_raw_value (apply_header_subs E) r P = from_raw_value (apply_header_subs E) r Q.
Proof. intros H. unfold from_raw_value, apply_header_subs. apply bind_more. intros t. rewrite (BL P Q _ _ _ H). reflexivity. Qed.
Lemma s_entry P Q s : same_attrs P Q -> attribute_parse (apply_header_subs E) s P = attribute_parse (apply_header_subs E) s Q.
Proof. intros H. unfold attribute_parse. more. cbv zeta. more. match goal with |- bind ?x _ = bind ?y _ => assert (X : x = y); [|rewrite X; reflexivity] end. more. rewrite (s_raw_value P Q _ H). reflexivity. Qed.
Lemma s_secid P Q t : same_attrs P Q -> generate_section_id (e_u E) t P = generate_section_id (e_u E) t Q.
Proof. intros H. rewrite only_secid, (only_eq _ _ H). reflexivity. Qed.
Lemma mu_b_inv a b : mu_b a = mu_b b -> map unnum_block (br_blocks a) = map unnum_block (br_blocks b) /\ br_after a = br_after b /\ br_warnings a = br_warnings b /\ br_level a = br_level b /\ br_stop_warnings a = br_stop_warnings b /\ alike (br_parser a) (br_parser b).
Proof. intros H. unfold mu_b in H. injection H as A B C D F G. unfold alike, unnum. repeat (split; [first [assumption|reflexivity]|]). congruence. Qed.
Lemma unnum_common b : block_common (unnum_block b) = block_common b. Proof. destruct b; reflexivity. Qed.
Lemma unnum_span b : block_span (unnum_block b) = block_span b. Proof. destruct b; reflexivity. Qed.
Lemma unnum_id b : block_id (unnum_block b) = block_id b. Proof. unfold block_id. rewrite unnum_common. destruct b; reflexivity. Qed.
Lemma r_register id t s P Q : alike P Q -> alike (fst (register_block_id id t s P)) (fst (register_block_id id t s Q)) /\ snd (register_block_id id t s P) = snd (register_block_id id t s Q).
Proof. intros H. unfold register_block_id. rewrite (alike_catalog _ _ H). destruct id; [|split; [exact H|reflexivity]]. destruct (p_catalog Q); [|split; [exact H|reflexivity]]. split; [apply alike_with; exact H|reflexivity]. Qed.
Lemma r_finish mi mj w P Q : mu_mi mi = mu_mi mj -> alike P Q -> on_ok mu_p (finish mi w P) = on_ok mu_p (finish mj w Q).
Proof.
  intros M H. assert (I : unnum_block (mi_item mi) = unnum_block (mi_item mj)) by (exact (f_equal (@mi_item block) M)). unfold finish. rewrite <- (unnum_id (mi_item mi)), <- (unnum_id (mi_item mj)), I. apply one. intros id. cbv zeta. cbn [on_ok]. unfold mu_p. cbn [pr_item pr_warnings pr_parser option_map].
  rewrite <- (unnum_common (mi_item mi)), <- (unnum_common (mi_item mj)), <- (unnum_span (mi_item mi)), <- (unnum_span (mi_item mj)), I, M.
  destruct (r_register id (cm_title (block_common (unnum_block (mi_item mj)))) (block_span (unnum_block (mi_item mj))) P Q H) as (R1 & R2). rewrite R1, R2. reflexivity.
Qed.
Lemma r_last m w P Q : alike P Q -> on_ok mu_p (last_resort E m w P) = on_ok mu_p (last_resort E m w Q).
Proof. intros H. unfold last_resort. rewrite (s_simple P Q _ (alike_same _ _ H)). apply one. intros [mi|]; [apply r_finish; [reflexivity|exact H]|]. cbn [on_ok]. unfold mu_p. cbn [pr_item pr_warnings pr_parser option_map]. rewrite H. reflexivity. Qed.
Lemma r_no_block m w P Q : alike P Q -> on_ok mu_p (no_block E m w P) = on_ok mu_p (no_block E m w Q).
Proof. intros H. unfold no_block. rewrite (s_simple P Q _ (alike_same _ _ H)). apply one. intros o. destruct (negb (is_some o) && negb (md_is_empty m)); apply r_last; exact H. Qed.
Lemma r_break m l w P Q : alike P Q -> on_ok mu_p (try_break E m l w P) = on_ok mu_p (try_break E m l w Q).
Proof. intros H. unfold try_break. apply one. intros [mi|]; [|apply r_no_block; exact H]. cbn [on_ok]. unfold mu_p. cbn [pr_item pr_warnings pr_parser option_map]. rewrite H. reflexivity. Qed.
Lemma r_compound un m P Q : (forall s, on_ok mu_b (un s P) = on_ok mu_b (un s Q)) ->
  on_ok (option_map (fun r => (mu_mi (fst r), (fst (snd r), unnum (snd (snd r)))))) (compound_parse un m P) = on_ok (option_map (fun r => (mu_mi (fst r), (fst (snd r), unnum (snd (snd r)))))) (compound_parse un m Q).
Proof.
  intros H. unfold compound_parse. apply one. intros d. cbv zeta. destruct (compound_context (sp_data (mi_item d))); [|reflexivity]. apply one. intros v. destruct (negb v); [reflexivity|]. apply one. intros r. apply one. intros i. apply (two mu_b _ _ _ _ _ (H i)). intros a b K. destruct (mu_b_inv _ _ K) as (A & _ & W & _ & _ & F).
  apply one. intros ca. apply one. intros s1. apply one. intros s2. cbn [on_ok option_map fst snd]. unfold mu_mi. cbn [mi_item mi_after unnum_block]. rewrite A, W, F. reflexivity.
Qed.
Lemma r_type d l b P Q : alike P Q -> alike (snd (section_type_of d l b P)) (snd (section_type_of d l b Q)).
Proof. intros H. unfold section_type_of. destruct d; [exact H|]. destruct (l =? 1); exact H. Qed.
Lemma r_assign P l : alike (snd (assign_section_number P l)) P.
Proof. unfold assign_section_number. destruct (p_topmost P); reflexivity. Qed.
Lemma r_sec_register b i ba r at_ P Q : alike P Q -> on_ok (fun x => (fst x, (unnum (fst (snd x)), snd (snd x)))) (section_register b i ba r at_ P) = on_ok (fun x => (fst x, (unnum (fst (snd x)), snd (snd x)))) (section_register b i ba r at_ Q).
Proof.
  intros H. unfold section_register. rewrite (alike_catalog _ _ H). destruct (p_catalog Q) as [c|]; [|cbn [on_ok fst snd]; rewrite H; reflexivity]. destruct i as [i|].
  - cbv zeta. destruct (fst (register_ref c i (Some r) RSection)); [cbn [on_ok fst snd]; rewrite (alike_with _ _ _ H); reflexivity|]. apply one. intros s. cbn [on_ok fst snd]. rewrite H. reflexivity.
  - destruct b; [|cbn [on_ok fst snd]; rewrite H; reflexivity]. apply one. intros x. cbn [on_ok fst snd]. rewrite (alike_with _ _ _ H). reflexivity.
Qed.
Definition mu_s (r : option (mitem block) * (list warning * parser)) := (option_map mu_mi (fst r), (fst (snd r), unnum (snd (snd r)))).
Lemma r_section un m P Q : alike_until un -> alike P Q -> on_ok mu_s (section_parse E un m P) = on_ok mu_s (section_parse E un m Q).
Proof.
  intros HU H. unfold section_parse. apply one. intros di. apply one. intros src. apply one. intros lt. destruct (fst lt) as [lv|]; [|cbn [on_ok]; unfold mu_s; cbn [fst snd option_map]; rewrite H; reflexivity]. cbv zeta. set (level := fst (mi_item lv)). apply one. intros bs.
  rewrite (alike_set _ _ _ H). set (tp := section_type_of di level bs P). set (tq := section_type_of di level bs Q). assert (T : alike (snd tp) (snd tq)) by (apply r_type; exact H).
  set (np := if is_attribute_set (snd tp) (lit "sectnums") && (level <=? p_levels (snd tp)) && negb di then (Some (fst (assign_section_number (snd tp) level)), snd (assign_section_number (snd tp) level)) else (None, snd tp)).
  set (nq := if is_attribute_set (snd tq) (lit "sectnums") && (level <=? p_levels (snd tq)) && negb di then (Some (fst (assign_section_number (snd tq) level)), snd (assign_section_number (snd tq) level)) else (None, snd tq)).
  assert (N1 : alike (snd np) (snd tp)) by (unfold np; match goal with |- context [if ?b then _ else _] => destruct b end; [apply r_assign|reflexivity]). assert (N2 : alike (snd nq) (snd tq)) by (unfold nq; match goal with |- context [if ?b then _ else _] => destruct b end; [apply r_assign|reflexivity]).
  assert (N : alike (snd np) (snd nq)) by (unfold alike in *; congruence).
  apply (two mu_b _ _ _ _ _ (HU _ _ _ _ _ N)). intros a b K. destruct (mu_b_inv _ _ K) as (A & B & C & D & F & G). rewrite B. apply one. intros s1. rewrite (s_subs _ _ _ _ _ (alike_same _ _ G)). apply one. intros title. rewrite (s_secid _ _ _ (alike_same _ _ G)). apply one. intros base. apply one. intros man.
  eapply two; [apply (r_sec_register _ _ _ _ _ _ _ G)|]. intros x y X. cbn beta in X. assert (X1 : fst x = fst y) by (exact (f_equal fst X)). assert (X2 : alike (fst (snd x)) (fst (snd y))) by (exact (f_equal (fun z => fst (snd z)) X)). assert (X3 : snd (snd x) = snd (snd y)) by (exact (f_equal (fun z => snd (snd z)) X)).
  apply one. intros s2. cbn [on_ok]. unfold mu_s. cbn [fst snd option_map]. unfold mu_mi. cbn [mi_item mi_after unnum_block]. rewrite A, C, F, X1, X3. do 3 f_equal. destruct ((level =? 1) && negb di); exact X2.
Qed.
Lemma r_try_section un m l w P Q : alike_until un -> alike P Q -> on_ok mu_p (try_section E un m l w P) = on_ok mu_p (try_section E un m l w Q).
Proof.
  intros HU H. unfold try_section. eapply (two mu_s). { destruct (starts_with_any (lit "=#") l); [apply r_section; assumption|]. cbn [on_ok]. unfold mu_s. cbn [fst snd option_map]. rewrite H. reflexivity. }
  intros a b K. assert (K1 : option_map mu_mi (fst a) = option_map mu_mi (fst b)) by (exact (f_equal fst K)). assert (K2 : fst (snd a) = fst (snd b)) by (exact (f_equal (fun z => fst (snd z)) K)). assert (K3 : alike (snd (snd a)) (snd (snd b))) by (exact (f_equal (fun z => snd (snd z)) K)). cbv zeta. rewrite K2.
  destruct (fst a) as [x|], (fst b) as [y|]; try discriminate K1; [|apply r_break; exact K3]. cbn [on_ok]. unfold mu_p. cbn [pr_item pr_warnings pr_parser]. rewrite K1, K3. reflexivity.
Qed.
Lemma r_try_media un m l w P Q : alike_until un -> alike P Q -> on_ok mu_p (try_media E un m l w P) = on_ok mu_p (try_media E un m l w Q).
Proof. intros HU H. unfold try_media. rewrite (s_media P Q _ (alike_same _ _ H)). apply one. intros [[mi|] ws]; cbn [fst snd]; [apply r_finish; [reflexivity|exact H]|apply r_try_section; assumption]. Qed.
Lemma r_with_metadata un m w P Q : alike_until un -> alike P Q -> on_ok mu_p (with_metadata E un m w P) = on_ok mu_p (with_metadata E un m w Q).
Proof.
  intros HU H. unfold with_metadata. apply one. intros bs. destruct (style_is bs (lit "literal")); [apply r_last; exact H|]. rewrite (s_raw P Q _ (alike_same _ _ H)). apply one. intros [r|]; [apply r_finish; [reflexivity|exact H]|].
  eapply two; [apply r_compound; intros s; apply HU; exact H|]. intros a b K. destruct a as [a|], b as [b|]; cbn [option_map] in K; try discriminate K; [|apply one; intros l; apply r_try_media; assumption].
  injection K as K0 K1 K2 K3. rewrite K2. apply r_finish; [unfold mu_mi; congruence|]. unfold alike, unnum. congruence.
Qed.
Lemma r_body P Q a : alike P Q -> alike (fst (set_attribute_from_body (e_u E) P a)) (fst (set_attribute_from_body (e_u E) Q a)) /\ snd (set_attribute_from_body (e_u E) P a) = snd (set_attribute_from_body (e_u E) Q a).
Proof. intros H. unfold set_attribute_from_body. rewrite (proj1 (alike_same _ _ H)). cbv zeta. match goal with |- context [if ?b then (Q, _) else _] => destruct b end; cbn [fst snd]; (split; [|reflexivity]); [exact H|apply alike_attrs; exact H]. Qed.
Lemma r_block un s P Q : alike_until un -> alike P Q -> on_ok mu_p (block_parse_with E un s P) = on_ok mu_p (block_parse_with E un s Q).
Proof.
  intros HU H. pose proof (alike_same _ _ H) as Sa. unfold block_parse_with. apply one. intros fl. rewrite (s_fast P Q _ Sa). apply one. intros [mi|]; [apply r_finish; [reflexivity|exact H]|]. rewrite (s_entry P Q _ Sa). apply one. intros [a|].
  - cbv zeta. cbn [on_ok]. unfold mu_p. cbn [pr_item pr_warnings pr_parser]. destruct (r_body _ _ (mi_item a) H) as (R1 & R2). rewrite R1, R2. reflexivity.
  - rewrite (s_metadata P Q _ Sa). apply one. intros md. apply r_with_metadata; assumption.
Qed.
Lemma r_loop fuel : forall f n s P Q, alike P Q -> on_ok mu_b (blocks_loop E fuel f n s P) = on_ok mu_b (blocks_loop E fuel f n s Q).
Proof.
  induction fuel as [|fuel IH]; intros f n s P Q H; cbn [blocks_loop]; destruct (sp_data s) eqn:D; try reflexivity; try (cbn [on_ok]; unfold mu_b; cbn [br_blocks br_after br_warnings br_level br_stop_warnings br_parser]; rewrite H; reflexivity).
  apply one. intros st. destruct (fst st). { cbn [on_ok]. unfold mu_b. cbn [br_blocks br_after br_warnings br_level br_stop_warnings br_parser]. rewrite H. reflexivity. }
  eapply (two mu_p). { apply r_block; [|exact H]. intros g k x P1 Q1 H1. apply one. intros src. apply IH. exact H1. }
  intros a b K. assert (K1 : option_map mu_mi (pr_item a) = option_map mu_mi (pr_item b)) by (exact (f_equal pr_item K)). assert (K2 : pr_warnings a = pr_warnings b) by (exact (f_equal pr_warnings K)). assert (K3 : alike (pr_parser a) (pr_parser b)) by (exact (f_equal pr_parser K)).
  assert (A : match pr_item a with Some mi => mi_after mi | None => s end = match pr_item b with Some mi => mi_after mi | None => s end). { destruct (pr_item a), (pr_item b); try discriminate K1; [|reflexivity]. injection K1 as _ X. exact X. }
  cbv zeta. rewrite A. apply (two mu_b _ _ _ _ _ (IH _ _ _ _ _ K3)). intros x y X. destruct (mu_b_inv _ _ X) as (B1 & B2 & B3 & B4 & B5 & B6). cbn [on_ok]. unfold mu_b. cbn [br_blocks br_after br_warnings br_level br_stop_warnings br_parser]. rewrite B2, B3, B4, B5, B6, K2. f_equal. f_equal.
  destruct (pr_item a), (pr_item b); try discriminate K1; [|exact B1]. cbn [map]. injection K1 as X1 _. rewrite X1, B1. reflexivity.
Qed.
Lemma r_until fuel : alike_until (parse_blocks_until E fuel).
Proof. intros f n s P Q H. unfold parse_blocks_until. apply one. intros x. apply r_loop. exact H. Qed.
(** ** The header *)
Lemma only_same P Q : only P = only Q -> same_attrs P Q.
Proof. intros H. split; [exact (f_equal p_attrs H)|exact (f_equal p_defaults H)]. Qed.
Lemma o_value P Q n v : only P = only Q -> only (set_attribute_by_value_from_header (e_u E) P n v) = only (set_attribute_by_value_from_header (e_u E) Q n v).
Proof. intros H. unfold set_attribute_by_value_from_header, only in *. cbn. injection H as A B. rewrite A, B. reflexivity. Qed.
Lemma o_opt P Q n o : only P = only Q -> only (set_opt (e_u E) P n o) = only (set_opt (e_u E) Q n o).
Proof. intros H. destruct o; [apply o_value; exact H|exact H]. Qed.
Lemma o_nth P Q n i v : only P = only Q -> only (set_nth_attribute (e_u E) P n i v) = only (set_nth_attribute (e_u E) Q n i v).
Proof. apply o_value. Qed.
Lemma o_nth_opt P Q n i o : only P = only Q -> only (set_nth_opt (e_u E) P n i o) = only (set_nth_opt (e_u E) Q n i o).
Proof. intros H. destruct o; [apply o_nth; exact H|exact H]. Qed.
Lemma o_author P Q i a : only P = only Q -> only (set_author (e_u E) P i a) = only (set_author (e_u E) Q i a).
Proof. intros H. unfold set_author. cbv zeta. repeat (first [apply o_nth_opt|apply o_nth]). exact H. Qed.
Lemma o_authors l : forall P Q i, only P = only Q -> only (set_authors (e_u E) P i l) = only (set_authors (e_u E) Q i l).
Proof. induction l as [|a l IH]; intros P Q i H; [exact H|]. cbn [set_authors]. apply IH, o_author, H. Qed.
Lemma o_parse_author t P : author_parse (e_u E) t P = author_parse (e_u E) t (only P). Proof. reflexivity. Qed.
Lemma o_parse_authors l P : parse_authors (e_u E) P l = parse_authors (e_u E) (only P) l.
Proof. induction l as [|t l IH]; [reflexivity|]. cbn [parse_authors]. rewrite o_parse_author, IH. reflexivity. Qed.
Lemma o_author_line s P Q : only P = only Q -> on_ok (fun r => (fst r, only (snd r))) (author_line_parse (e_u E) s P) = on_ok (fun r => (fst r, only (snd r))) (author_line_parse (e_u E) s Q).
Proof. intros H. unfold author_line_parse. rewrite o_parse_authors, H, <- o_parse_authors. apply one. intros l. cbn [on_ok fst snd]. rewrite (o_authors l P Q 0 H). reflexivity. Qed.
Lemma o_author_entry a P Q : only P = only Q -> on_ok only (set_author_entry (e_u E) a P) = on_ok only (set_author_entry (e_u E) a Q).
Proof.
  intros H. unfold set_author_entry. destruct (eq_ignore_ascii_case _ _); [|cbn [on_ok]; rewrite H; reflexivity]. destruct (at_value_source a); [|cbn [on_ok]; rewrite H; reflexivity]. rewrite o_parse_author, H, <- o_parse_author. apply one. intros [x|]; cbn [on_ok]; [|rewrite H; reflexivity]. cbv zeta. f_equal. repeat (first [apply o_opt|apply o_value]). exact H.
Qed.
Lemma o_from_header P Q a : only P = only Q -> only (fst (set_attribute_from_header (e_u E) P a)) = only (fst (set_attribute_from_header (e_u E) Q a)) /\ snd (set_attribute_from_header (e_u E) P a) = snd (set_attribute_from_header (e_u E) Q a).
Proof.
  intros H. destruct (only_same _ _ H) as (A & B). unfold set_attribute_from_header. rewrite A, B. cbv zeta. match goal with |- context [if ?b then (Q, _) else _] => destruct b end; cbn [fst snd]; (split; [|reflexivity]); [exact H|]. unfold only. cbn. rewrite B. reflexivity.
Qed.
Lemma o_subs_opt P Q o : only P = only Q -> subs_opt E P o = subs_opt E Q o.
Proof. intros H. unfold subs_opt. destruct o; [|reflexivity]. unfold apply_header_subs. rewrite (BL P Q _ _ _ (only_same _ _ H)). reflexivity. Qed.
Lemma o_revision s P Q : only P = only Q -> on_ok (fun r => (fst r, only (snd r))) (revision_parse E s P) = on_ok (fun r => (fst r, only (snd r))) (revision_parse E s Q).
Proof.
  intros H. unfold revision_parse. cbv zeta. set (P1 := set_opt _ (set_attribute_by_value_from_header _ (set_opt _ P _ _) _ _) _ _). set (Q1 := set_opt _ (set_attribute_by_value_from_header _ (set_opt _ Q _ _) _ _) _ _).
  assert (H1 : only P1 = only Q1) by (apply o_opt, o_value, o_opt, H). rewrite (o_subs_opt P1 Q1 _ H1). apply one. intros n. unfold apply_header_subs. rewrite (BL P1 Q1 _ _ _ (only_same _ _ H1)). apply one. intros d. rewrite (o_subs_opt P1 Q1 _ H1). apply one. intros r. cbn [on_ok fst snd]. rewrite H1. reflexivity.
Qed.
Definition mu_h (h : hstate) : hstate := mkhs (s_title_source h) (s_title h) (s_attrs h) (s_author h) (s_revision h) (s_comments h) (s_warnings h) (only (s_parser h)).
Lemma mu_h_inv h k : mu_h h = mu_h k -> exists a b c d e f g P Q, h = mkhs a b c d e f g P /\ k = mkhs a b c d e f g Q /\ only P = only Q.
Proof. destruct h, k. unfold mu_h. cbn. intros H. injection H as -> -> -> -> -> -> -> A B. do 9 eexists. split; [reflexivity|]. split; [reflexivity|]. unfold only. rewrite A, B. reflexivity. Qed.
Lemma o_step s h k : mu_h h = mu_h k -> on_ok (fun r => (mu_h (fst r), snd r)) (header_step E s h) = on_ok (fun r => (mu_h (fst r), snd r)) (header_step E s k).
Proof.
  intros H. destruct (mu_h_inv _ _ H) as (a & b & c & d & e & f & g & P & Q & -> & -> & O). unfold header_step, header_attr. cbv zeta. cbn [s_title_source s_title s_attrs s_author s_revision s_comments s_warnings s_parser]. apply one. intros l.
  destruct (is_nil (sp_data (mi_item l))); [cbn [on_ok fst snd]; rewrite H; reflexivity|]. destruct (_ && _). { cbn [on_ok fst snd]. unfold mu_h. cbn [s_title_source s_title s_attrs s_author s_revision s_comments s_warnings s_parser]. rewrite O. reflexivity. }
  rewrite (s_entry P Q _ (only_same _ _ O)). apply one. intros [at_|].
  - apply (two only _ _ _ _ _ (o_author_entry _ _ _ O)). intros x y X. destruct (o_from_header x y (mi_item at_) X) as (K1 & K2). cbn [on_ok fst snd]. unfold mu_h. cbn [s_title_source s_title s_attrs s_author s_revision s_comments s_warnings s_parser]. rewrite K1, K2. reflexivity.
  - destruct (negb (is_some b) && starts_with (lit "= ") (sp_data (mi_item l))).
    { apply one. intros d1. apply one. intros t. unfold apply_header_subs. rewrite (BL P Q _ _ _ (only_same _ _ O)). apply one. intros ti. cbn [on_ok fst snd]. unfold mu_h. cbn [s_title_source s_title s_attrs s_author s_revision s_comments s_warnings s_parser]. rewrite (o_value P Q (lit "doctitle") ti O). reflexivity. }
    destruct (is_some b && negb (is_some d)).
    { apply (two (fun r => (fst r, only (snd r))) _ _ _ _ _ (o_author_line _ _ _ O)). intros x y X. assert (X1 : fst x = fst y) by (exact (f_equal fst X)). assert (X2 : only (snd x) = only (snd y)) by (exact (f_equal snd X)). cbn [on_ok fst snd]. unfold mu_h. cbn [s_title_source s_title s_attrs s_author s_revision s_comments s_warnings s_parser]. rewrite X1, X2. reflexivity. }
    destruct (is_some b && is_some d && negb (is_some e)).
    { apply (two (fun r => (fst r, only (snd r))) _ _ _ _ _ (o_revision _ _ _ O)). intros x y X. assert (X1 : fst x = fst y) by (exact (f_equal fst X)). assert (X2 : only (snd x) = only (snd y)) by (exact (f_equal snd X)). cbn [on_ok fst snd]. unfold mu_h. cbn [s_title_source s_title s_attrs s_author s_revision s_comments s_warnings s_parser]. rewrite X1, X2. reflexivity. }
    cbn [on_ok fst snd]. destruct (is_some b); unfold mu_h; cbn [s_title_source s_title s_attrs s_author s_revision s_comments s_warnings s_parser]; rewrite O; reflexivity.
Qed.
Lemma o_loop f : forall s h k, mu_h h = mu_h k -> on_ok (fun r => (mu_h (fst r), snd r)) (header_loop E f s h) = on_ok (fun r => (mu_h (fst r), snd r)) (header_loop E f s k).
Proof.
  induction f as [|f IH]; intros s h k H; cbn [header_loop]; destruct (sp_data s); try reflexivity; try (cbn [on_ok fst snd]; rewrite H; reflexivity).
  apply (two (fun r => (mu_h (fst r), snd r)) _ _ _ _ _ (o_step s _ _ H)). intros x y X. assert (X1 : mu_h (fst x) = mu_h (fst y)) by (exact (f_equal fst X)). assert (X2 : snd x = snd y) by (exact (f_equal snd X)). rewrite X2. destruct (snd y); [apply IH; exact X1|]. cbn [on_ok fst snd]. rewrite X1. reflexivity.
Qed.
Lemma o_header s P Q : only P = only Q -> on_ok (fun r => (fst r, (fst (snd r), only (snd (snd r))))) (header_parse E s P) = on_ok (fun r => (fst r, (fst (snd r), only (snd (snd r))))) (header_parse E s Q).
Proof.
  intros H. unfold header_parse. apply one. intros o. eapply two. { apply o_loop. unfold mu_h, hs_new. cbn [s_title_source s_title s_attrs s_author s_revision s_comments s_warnings s_parser]. rewrite H. reflexivity. }
  intros x y X. assert (X1 : mu_h (fst x) = mu_h (fst y)) by (exact (f_equal fst X)). assert (X2 : snd x = snd y) by (exact (f_equal snd X)). destruct (mu_h_inv _ _ X1) as (a & b & c & d & e & f & g & P1 & Q1 & Y1 & Y2 & O). rewrite X2, Y1, Y2. cbv zeta. apply one. intros af. apply one. intros s1. apply one. intros s2. cbn [on_ok fst snd s_title_source s_title s_attrs s_author s_revision s_comments s_warnings s_parser]. rewrite O. reflexivity.
Qed.
(** The same with the rest of each parser kept. *)
Lemma header_put s P Q : same_attrs P Q -> header_parse E s Q = on_ok (fun r => (fst r, (fst (snd r), with_attrs Q (p_attrs (snd (snd r)))))) (header_parse E s P).
Proof.
  intros H. pose proof (o_header s P Q (only_eq _ _ H)) as O. destruct (header_parse E s P) as [[i [w P1]]| |] eqn:HP, (header_parse E s Q) as [[j [v Q1]]| |] eqn:HQ; cbn [on_ok fst snd] in O |- *; try discriminate O; try reflexivity.
  injection O as -> -> A B. destruct (header_only_attrs _ _ _ _ HQ) as (a & Ea). cbn [snd] in Ea. subst Q1. cbn [with_attrs p_attrs] in A. rewrite A. reflexivity.
Qed.
(** ** The document *)
Lemma unnum_split : forall l l' i h, map unnum_block l = map unnum_block l' -> preamble_split i h l = preamble_split i h l'.
Proof.
  induction l as [|b l IH]; intros [|b' l'] i h H; try discriminate H; [reflexivity|]. injection H as H1 H2. destruct b, b'; cbn in H1; try discriminate H1; cbn [preamble_split]; try (apply IH; exact H2); reflexivity.
Qed.
Lemma unnum_preamble l l' s : map unnum_block l = map unnum_block l' -> on_ok (map unnum_block) (make_preamble l s) = on_ok (map unnum_block) (make_preamble l' s).
Proof.
  intros H. unfold make_preamble. rewrite (unnum_split _ _ _ _ H). destruct (preamble_split 0 false l') as [n|]; [|cbn [on_ok]; rewrite H; reflexivity]. unfold preamble_from_blocks.
  assert (F : map unnum_block (firstn n l) = map unnum_block (firstn n l')) by (rewrite <- !firstn_map, H; reflexivity). assert (K : map unnum_block (skipn n l) = map unnum_block (skipn n l')) by (rewrite <- !skipn_map, H; reflexivity).
  assert (R : map unnum_block (rev (firstn n l)) = map unnum_block (rev (firstn n l'))) by (rewrite !map_rev, F; reflexivity).
  rewrite !bind_bind. destruct (rev (firstn n l)) as [|x r], (rev (firstn n l')) as [|y r']; try discriminate R.
  - apply one. intros src. cbn [bind on_ok map unnum_block]. rewrite F, K. reflexivity.
  - injection R as R _. rewrite <- (unnum_span x), <- (unnum_span y), R. apply one. intros src. cbn [bind on_ok map unnum_block]. rewrite F, K. reflexivity.
Qed.
Theorem document_unnum fuel t sm P Q : alike P Q -> on_ok (fun r => (unnum_doc (fst r), unnum (snd r))) (document_parse E fuel t sm P) = on_ok (fun r => (unnum_doc (fst r), unnum (snd r))) (document_parse E fuel t sm Q).
Proof.
  intros H. unfold document_parse. cbv zeta. rewrite (header_put _ P Q (alike_same _ _ H)). destruct (header_parse E (span_new t) P) as [[i [w P1]]| |] eqn:HP; [|reflexivity|reflexivity]. cbn [bind on_ok fst snd].
  destruct (header_only_attrs _ _ _ _ HP) as (a & Ea). cbn [snd] in Ea. subst P1. cbn [with_attrs p_attrs]. change (mkparser a (p_defaults P) (p_primary P) (p_sep P) (p_catalog P) (p_last P) (p_last_app P) (p_levels P) (p_topmost P)) with (with_attrs P a). change (mkparser a (p_defaults Q) (p_primary Q) (p_sep Q) (p_catalog Q) (p_last Q) (p_last_app Q) (p_levels Q) (p_topmost Q)) with (with_attrs Q a).
  pose proof (alike_attrs _ _ a H) as Ha. eapply (two mu_b). { apply (r_until fuel). unfold alike, unnum in Ha |- *. cbn in Ha |- *. exact Ha. }
  intros x y K. destruct (mu_b_inv _ _ K) as (A & B & C & D & F & G). eapply (two (map unnum_block)); [apply unnum_preamble; exact A|]. intros bs bs' Hb. apply one. intros s. cbn [on_ok fst snd]. unfold unnum_doc, take_catalog. cbn [d_header d_blocks d_source d_warnings d_source_map d_catalog fst snd]. rewrite Hb, C, (alike_catalog _ _ G), (alike_with _ _ None G). reflexivity.
Qed.
(** The limit of the numbers that a parser has from before does not matter at all. *)
Lemma document_levels fuel t sm P n : document_parse E fuel t sm (with_levels P n) = document_parse E fuel t sm P.
Proof.
  unfold document_parse. cbv zeta. rewrite (header_put _ P (with_levels P n)) by (split; reflexivity). destruct (header_parse E (span_new t) P) as [[i [w P1]]| |] eqn:HP; [|reflexivity|reflexivity]. cbn [bind on_ok fst snd]. destruct (header_only_attrs _ _ _ _ HP) as (a & Ea). cbn [snd] in Ea. subst P1. reflexivity.
Qed.
(** ** The preprocessor *)
Section pre.
Variable ifh : include_handler.
Hypothesis BI : ifh_reads_attrs ifh.
Notation hdr := (apply_header_subs E). Notation nrm := (norm_of E). Notation U := (e_u E).
Definition mu_ps (s : pre_state) : pre_state := mkps (only (ps_parser s)) (ps_in_header s) (ps_can_attr s) (ps_line s) (ps_out s) (ps_map s).
Lemma mu_ps_inv h k : mu_ps h = mu_ps k -> exists a b c d e P Q, h = mkps P a b c d e /\ k = mkps Q a b c d e /\ only P = only Q.
Proof. destruct h, k. unfold mu_ps. cbn. intros H. injection H as A B -> -> -> -> ->. do 7 eexists. split; [reflexivity|]. split; [reflexivity|]. unfold only. rewrite A, B. reflexivity. Qed.
Lemma o_body P Q a : only P = only Q -> only (fst (set_attribute_from_body U P a)) = only (fst (set_attribute_from_body U Q a)).
Proof. intros H. destruct (only_same _ _ H) as (A & B). unfold set_attribute_from_body. rewrite A. cbv zeta. match goal with |- context [if ?b then (Q, _) else _] => destruct b end; cbn [fst snd]; [exact H|]. unfold only. cbn. rewrite B. reflexivity. Qed.
Lemma o_pre f : forall file rep s h k, mu_ps h = mu_ps k -> on_ok mu_ps (pre_loop U hdr nrm ifh f file rep s h) = on_ok mu_ps (pre_loop U hdr nrm ifh f file rep s k).
Proof.
  induction f as [|f IH]; intros file rep s h k H; [reflexivity|]. cbn [pre_loop]. destruct (sp_data s) as [|c0 t0]; [cbn [on_ok]; rewrite H; reflexivity|]. apply one. intros l. destruct (mu_ps_inv _ _ H) as (a & b & c & d & e & P & Q & -> & -> & O). unfold try_attribute, try_include. cbn [ps_parser ps_can_attr].
  rewrite (s_entry P Q _ (only_same _ _ O)). apply one. intros [at_|].
  - apply IH. destruct rep; unfold report, emit_attribute, mu_ps; cbn [ps_parser ps_in_header ps_can_attr ps_line ps_out ps_map]; rewrite (o_body P Q _ O); reflexivity.
  - destruct (starts_with (lit "include::") (sp_data (mi_item l))) eqn:Es; [|cbn [bind]; apply IH; destruct rep; unfold report, emit_line, mu_ps; cbn [ps_parser ps_in_header ps_can_attr ps_line ps_out ps_map]; rewrite O; reflexivity].
    match goal with |- on_ok _ (bind ?x _) = on_ok _ (bind ?y _) => assert (X : x = y) end.
    { destruct (captures U INCLUDE_DIRECTIVE (sp_data (mi_item l))) as [m|]; [|reflexivity]. apply bind_more. intros t. rewrite only_attributes, O, <- only_attributes. apply bind_more. intros tg. destruct (cap m 2); [|reflexivity]. rewrite (s_attrlist P Q _ _ (only_same _ _ O)). reflexivity. }
    rewrite X. apply one. intros [[tg al]|]; [|apply IH; destruct rep; unfold report, emit_line, mu_ps; cbn [ps_parser ps_in_header ps_can_attr ps_line ps_out ps_map]; rewrite O; reflexivity].
    rewrite (BI file tg al P Q (only_same _ _ O)). destruct (ifh file tg al Q).
    + apply (two mu_ps); [apply IH; exact H|]. intros x y Y. apply IH. exact Y.
    + apply IH. unfold emit_unresolved, mu_ps. cbn [ps_parser ps_in_header ps_can_attr ps_line ps_out ps_map]. rewrite O. reflexivity.
Qed.
Lemma preprocess_same f t P Q : same_attrs P Q -> p_primary P = p_primary Q -> preprocess U hdr nrm ifh f t P = preprocess U hdr nrm ifh f t Q.
Proof.
  intros H Hp. unfold preprocess, process_adoc_include. rewrite Hp. destruct (_ && _); [reflexivity|]. assert (K : mu_ps (pre_new P) = mu_ps (pre_new Q)) by (unfold mu_ps, pre_new; cbn [ps_parser ps_in_header ps_can_attr ps_line ps_out ps_map]; rewrite (only_eq _ _ H); reflexivity).
  pose proof (o_pre f (p_primary Q) (match p_primary Q with None => true | Some _ => false end) (span_new t) _ _ K) as O.
  destruct (pre_loop U hdr nrm ifh f (p_primary Q) _ (span_new t) (pre_new P)) as [x| |], (pre_loop U hdr nrm ifh f (p_primary Q) _ (span_new t) (pre_new Q)) as [y| |]; cbn [on_ok] in O; try discriminate O; try reflexivity. apply Ok_inj in O. cbn [bind]. f_equal. f_equal; [exact (f_equal ps_out O)|exact (f_equal ps_map O)].
Qed.
End pre.
End blocks.
(** * What stays *)
Lemma typed_top t l t' : typed t l t' -> t' = t \/ t' = SNormal.
Proof. intros H. induction H; auto; repeat match goal with K : _ \/ _ |- _ => destruct K end; subst; auto. Qed.
Definition kept (P : parser) (bs : list block) (ws : list warning) (P' : parser) : Prop := p_defaults P' = p_defaults P /\ p_primary P' = p_primary P /\ p_sep P' = p_sep P.
Lemma finish_kept mi w P r : finish mi w P = Ok r -> kept P [] [] (pr_parser r).
Proof. intros H. destruct (finish_inv _ _ _ _ H) as (id & _ & ->). cbn [pr_parser]. unfold kept, register_block_id. destruct id; [destruct (p_catalog P)|]; repeat split. Qed.
Lemma section_kept E un m P mi w P1 : until_good kept un -> section_parse E un m P = Ok (Some mi, (w, P1)) -> kept P [] [] P1.
Proof.
  intros G H. destruct (section_inv _ _ _ _ _ _ _ H) as [(di & level & title & rest & lw & bs & b & src & t & base & man & reg & src2 & Hd & Hl & Hs & Hu & _ & _ & _ & _ & Hr & -> & -> & _)]. specialize (G _ _ _ _ _ Hu).
  set (tp := section_type_of di level bs P) in *. match type of Hu with un _ _ _ (snd ?n) = _ => set (np := n) in * end.
  assert (Kt : kept P [] [] (snd tp)) by (unfold kept, tp, section_type_of; destruct di; [repeat split|destruct (level =? 1); repeat split]).
  assert (Kn : kept (snd tp) [] [] (snd np)). { unfold kept, np. match goal with |- context [if ?b then _ else _] => destruct b end; [|repeat split]. cbv zeta. unfold assign_section_number. destruct (p_topmost (snd tp)); repeat split. }
  assert (Kr : kept (br_parser b) [] [] (fst (snd reg))).
  { unfold section_register in Hr. destruct (p_catalog (br_parser b)); [|apply Ok_inj in Hr; subst reg; repeat split]. destruct man; [cbv zeta in Hr; match type of Hr with (if ?b then _ else _) = _ => destruct b end; [apply Ok_inj in Hr; subst reg; repeat split|apply bind_ok in Hr; destruct Hr as (? & _ & Hr); apply Ok_inj in Hr; subst reg; repeat split]|].
    destruct (is_attribute_set P _); [apply bind_ok in Hr; destruct Hr as (? & _ & Hr)|]; apply Ok_inj in Hr; subst reg; repeat split. }
  unfold kept in *. destruct Kt as (A1 & A2 & A3), Kn as (B1 & B2 & B3), G as (C1 & C2 & C3), Kr as (D1 & D2 & D3). destruct ((level =? 1) && negb di); cbn [with_topmost p_defaults p_primary p_sep]; repeat split; congruence.
Qed.
Lemma until_kept E fuel : until_good kept (parse_blocks_until E fuel).
Proof.
  apply until_induction.
  - intros P. repeat split.
  - intros P l1 w1 P1 l2 w2 P2 (A & B & C) (A' & B' & C'). unfold kept. repeat split; congruence.
  - apply step_cases.
    + intros P w. repeat split.
    + intros P mi w r Hb Hf. exact (finish_kept _ _ _ _ Hf).
    + intros P a. unfold kept, set_attribute_from_body. cbv zeta. match goal with |- context [if ?b then _ else _] => destruct b end; repeat split.
    + intros P ty src cm w. repeat split.
    + intros P bs cx src cm w0 w w1 P1 af r (A & B & C) _ Hf. destruct (finish_kept _ _ _ _ Hf) as (A' & B' & C'). unfold kept. repeat split; congruence.
    + intros un m ws P mi w P1 Rl G H. exact (section_kept E un m P mi w P1 G H).
Qed.
Lemma walk_app_number U P l Q : walk U P l Q -> (forall level n, ~ In (ESection level SAppendix (Some n)) l) -> p_last_app Q = p_last_app P.
Proof.
  intros H. induction H as [P Q H|P a Q1 l Q H K IH|P level ty Q1 l Q Hn H K IH|P level Q1 l Q Hn Hl H K IH|P level Q1 l Q Hn Hl H K IH]; intros N.
  - destruct H as (_ & _ & _ & _ & ->). reflexivity.
  - destruct H as (_ & _ & _ & _ & H). rewrite IH, <- H by (intros v n X; exact (N v n (or_intror X))). unfold set_attribute_from_body. cbv zeta. match goal with |- context [if ?b then _ else _] => destruct b end; reflexivity.
  - destruct H as (_ & _ & _ & _ & H). rewrite IH, H by (intros v n X; exact (N v n (or_intror X))). reflexivity.
  - destruct H as (_ & _ & _ & _ & H). rewrite IH, <- H by (intros v n X; exact (N v n (or_intror X))). reflexivity.
  - exfalso. exact (N _ _ (or_introl eq_refl)).
Qed.
Theorem document_kept E fuel t sm P d P' : p_topmost P = SNormal -> document_parse E fuel t sm P = Ok (d, P') ->
  p_defaults P' = p_defaults P /\ p_primary P' = p_primary P /\ p_sep P' = p_sep P /\ p_catalog P' = None /\ p_topmost P' = SNormal /\
  ((forall level n, ~ In (ESection level SAppendix (Some n)) (flat_map events (d_blocks d))) -> p_last_app P' = p_last_app P).
Proof.
  intros Ht H. destruct (document_inv _ _ _ _ _ _ _ H) as (h & b & Hh & Hb & Hm & _ & _ & _ & ->). destruct (header_only_attrs _ _ _ _ Hh) as (a & Ea).
  destruct (until_kept E fuel _ _ _ _ _ Hb) as (K1 & K2 & K3). pose proof (typed_top _ _ _ (until_types E fuel _ _ _ _ _ Hb)) as K4. destruct (until_numbers E fuel _ _ _ _ _ Hb) as (W & _); [rewrite Ea; cbn [with_levels with_attrs p_topmost]; rewrite Ht; discriminate|].
  rewrite Ea in K1, K2, K3, K4. cbn [with_levels with_attrs p_defaults p_primary p_sep p_topmost] in K1, K2, K3, K4. cbn [with_catalog p_defaults p_primary p_sep p_catalog p_topmost p_last_app]. repeat (split; [assumption|]). split; [reflexivity|]. split; [destruct K4; congruence|].
  intros N. rewrite (walk_app_number _ _ _ _ W); [rewrite Ea; reflexivity|]. intros v n X. apply (N v n). rewrite (make_preamble_flat events _ _ _ (fun _ _ => eq_refl) Hm). exact X.
Qed.
