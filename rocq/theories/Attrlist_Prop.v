(** C28-C30 and C59-C63: attribute lists.  The notions used in the statements are in [Attrlist_Spec];
    [comes_from] and [entry_value] say which values are substituted by the argument [norm]. *)
From Verif Require Import Text TextFacts Span_Model Span_Pure Span_Spec Span_Proof Span_Laws Maps Catalog_Model Parser_Model Regex Subs_Model Subs_Spec Subs_Proof Attrlist_Model Attrlist_Proof Attrlist_Spec Attrlist_Laws Attrlist_Round.

(** * C28 *)
(** [nth_unnamed l n e]: [e] is the [n]-th attribute of [l] (from 1) that has no name. *)
Definition nth_unnamed (l : list element_attribute) (n : nat) (e : element_attribute) : Prop :=
  exists l1 l2 k, l = l1 ++ e :: l2 /\ ea_name e = None /\ n = S k /\
    length (filter (fun a => match ea_name a with None => true | _ => false end) l1) = k.
Lemma nth_filter {A} (f : A -> bool) : forall l k e, nth_error (filter f l) k = Some e <->
  exists l1 l2, l = l1 ++ e :: l2 /\ f e = true /\ length (filter f l1) = k.
Proof.
  induction l as [|a l IH]; intros k e; cbn [filter].
  - split; [destruct k; discriminate|]. intros (l1 & l2 & H & _). destruct l1; discriminate.
  - split.
    + destruct (f a) eqn:Ea.
      * destruct k as [|k]; cbn [nth_error]; intros H.
        -- apply Some_inj in H. subst a. exists [], l. auto.
        -- apply IH in H. destruct H as (l1 & l2 & -> & He & Hl). exists (a :: l1), l2. cbn [app filter]. rewrite Ea. cbn. auto.
      * intros H. apply IH in H. destruct H as (l1 & l2 & -> & He & Hl). exists (a :: l1), l2. cbn [app filter]. rewrite Ea. auto.
    + intros (l1 & l2 & H & He & Hl). destruct l1 as [|b l1]; cbn [app] in H; injection H as <- ->.
      * rewrite He. cbn in Hl. subst k. reflexivity.
      * cbn [filter] in Hl. destruct (f a) eqn:Ea; cbn in Hl; [subst k; cbn [nth_error]; apply IH; eauto|apply IH; eauto].
Qed.
Theorem C28_positional_lookup : forall a n e, nth_attribute a n = Some e <-> nth_unnamed (al_attrs a) n e.
Proof.
  intros a n e. unfold nth_attribute, nth_unnamed. destruct n as [|k].
  - split; [discriminate|]. intros (? & ? & ? & _ & _ & H & _). discriminate.
  - rewrite nth_filter. unfold unnamed. split.
    + intros (l1 & l2 & H & He & Hl). exists l1, l2, k. destruct (ea_name e); [discriminate|]. auto.
    + intros (l1 & l2 & j & H & He & Hj & Hl). injection Hj as <-. exists l1, l2. rewrite He. auto.
Qed.
Theorem C28_named_lookup : forall a n e, named_attribute a n = Some e <->
  exists l1 l2, al_attrs a = l1 ++ e :: l2 /\ ea_name e = Some n /\ (forall x, In x l1 -> ea_name x <> Some n).
Proof.
  intros a n e. unfold named_attribute. induction (al_attrs a) as [|b l IH]; cbn [find].
  - split; [discriminate|]. intros (l1 & l2 & H & _). destruct l1; discriminate.
  - assert (Hb : (match ea_name b with Some m => text_eqb m n | None => false end) = true <-> ea_name b = Some n).
    { destruct (ea_name b) as [m|]; [|split; discriminate]. rewrite text_eqb_eq. split; congruence. }
    destruct (match ea_name b with Some m => text_eqb m n | None => false end).
    + apply proj1 in Hb. specialize (Hb eq_refl). split.
      * intros H. apply Some_inj in H. subst b. exists [], l. repeat split; auto.
      * intros (l1 & l2 & H & He & Hx). destruct l1 as [|c l1]; cbn in H; injection H as <- ->; [reflexivity|]. exfalso. apply (Hx b); [left; reflexivity|exact Hb].
    + rewrite IH. split.
      * intros (l1 & l2 & -> & He & Hx). exists (b :: l1), l2. repeat split; auto. intros x [<-|Hi]; [|auto]. intros Hc. apply Hb in Hc. discriminate.
      * intros (l1 & l2 & H & He & Hx). destruct l1 as [|c l1]; cbn in H; injection H as <- ->; [apply Hb in He; discriminate|]. exists l1, l2. repeat split; auto. intros x Hi. apply Hx. right. exact Hi.
Qed.
Theorem C28_combined_lookup : forall a n i e, named_or_positional_attribute a n i = Some e <->
  named_attribute a n = Some e \/ ((forall x, In x (al_attrs a) -> ea_name x <> Some n) /\ nth_attribute a i = Some e).
Proof.
  intros a n i e. unfold named_or_positional_attribute. destruct (named_attribute a n) as [f|] eqn:E.
  - split; [auto|]. intros [H|[H _]]; [exact H|]. apply C28_named_lookup in E. destruct E as (l1 & l2 & Hl & He & _). exfalso. apply (H f); [rewrite Hl; apply in_elt|exact He].
  - split; [|intros [H|[_ H]]; [discriminate|exact H]]. intros H. right. split; [|exact H]. intros x Hx Hn. unfold named_attribute in E.
    apply (find_none _ _ E) in Hx. rewrite Hn in Hx. rewrite text_eqb_refl in Hx. discriminate.
Qed.
Definition ex_list : attrlist := mkal [mkea None (lit "p1") []; mkea (Some (lit "n")) (lit "v") []; mkea None (lit "p2") []; mkea (Some (lit "n")) (lit "w") []] None span_default.
Example C28_example : option_map ea_value (nth_attribute ex_list 2) = Some (lit "p2") /\ nth_attribute ex_list 0 = None /\
  option_map ea_value (named_attribute ex_list (lit "n")) = Some (lit "v") /\ option_map ea_value (named_or_positional_attribute ex_list (lit "m") 1) = Some (lit "p1").
Proof. vm_compute. repeat split. Qed.

(** * C29 *)
Theorem C29_parsing_is_total_and_values_come_from_the_source : forall U norm P source ctx, total norm ->
  exists src m ws, (src = sp_data source \/ expands (value_of P) (sp_data source) src) /\
    attrlist_parse U norm P source ctx = Ok (m, ws) /\
    sp_data (mi_after m) = [] /\ al_source (mi_item m) = source /\ (forall w, In w ws -> w_source w = source) /\
    (forall e, In e (al_attrs (mi_item m)) -> comes_from norm ctx src (ea_value e) /\ (forall n, ea_name e = Some n -> exists p q, src = p ++ n ++ q)) /\
    (forall t, al_anchor (mi_item m) = Some t -> src = lit "[" ++ t ++ lit "]").
Proof.
  intros U norm P source ctx Hn. destruct (src_of_total U P (sp_data source)) as (src & Es & Hs). exists src. rewrite attrlist_parse_eq, Es. cbn [bind].
  destruct (starts_with (lit "[") src && ends_with (lit "]") src) eqn:Ea.
  - destruct (anchor_text src Ea) as (a & Ha & ->). cbn [bind]. eexists _, _. split; [exact Hs|]. split; [reflexivity|]. cbn [mi_after mi_item al_source al_attrs al_anchor].
    split; [apply sp_data_skip|]. split; [reflexivity|]. split; [intros w []|]. split; [intros e []|]. intros t Ht. apply Some_inj in Ht. subst t. exact Ha.
  - destruct (t_loop_total norm ctx Hn (S (length src)) src [] true []) as (r & -> & _ & new & Hnew & Hg); [lia|]. cbn [bind].
    eexists _, _. split; [exact Hs|]. split; [reflexivity|]. cbn [mi_after mi_item al_source al_attrs al_anchor].
    split; [apply sp_data_skip|]. split; [reflexivity|]. split; [intros w Hw; apply in_map_iff in Hw; destruct Hw as (x & <- & _); reflexivity|]. split; [|discriminate].
    intros e He. rewrite Hnew in He. rewrite Forall_forall in Hg. destruct (Hg e He) as (_ & H1 & H2). auto.
Qed.
Theorem C29_accessors_are_total : forall U norm P source ctx m ws, total norm -> attrlist_parse U norm P source ctx = Ok (m, ws) ->
  (exists o, al_id (mi_item m) = Ok o) /\ (exists l, al_roles (mi_item m) = Ok l) /\ (exists l, al_options (mi_item m) = Ok l) /\ (exists o, al_block_style (mi_item m) = Ok o).
Proof.
  intros U norm P source ctx m ws Hn H. apply accessors_total. rewrite attrlist_parse_eq in H. apply bind_ok in H. destruct H as (src & _ & H).
  destruct (starts_with (lit "[") src && ends_with (lit "]") src).
  - apply bind_ok in H. destruct H as (a & _ & H). apply Ok_inj in H. injection H as <- _. constructor.
  - destruct (t_loop_total norm ctx Hn (S (length src)) src [] true []) as (r & E & _ & new & Hnew & Hg); [lia|]. rewrite E in H. cbn [bind] in H. apply Ok_inj in H. injection H as <- _.
    cbn [mi_item al_attrs]. rewrite Hnew. eapply Forall_impl; [|exact Hg]. intros a (Hw & _). exact Hw.
Qed.
(** The roles (options) given by name are the words of the value separated by spaces (commas). *)
Theorem C29_named_roles_and_options : forall sep t, exists l, pieces sep t = Ok l /\ words sep t l.
Proof. exact pieces_total. Qed.
(** Where roles and options come from: the shorthand of the first positional attribute, then the named
    attributes, split at blanks or commas. *)
Definition words_of (sep : N) (a : attrlist) (name : text) (l : list text) : Prop :=
  match named_attribute a name with Some e => words sep (ea_value e) l | None => l = [] end.
Definition shorthand_of (a : attrlist) (get : element_attribute -> res (list text)) (l : list text) : Prop :=
  match nth_attribute a 1 with Some e => get e = Ok l | None => l = [] end.
Theorem C29_roles_and_options : forall a,
  (forall l, al_roles a = Ok l -> exists l1 l2, l = l1 ++ l2 /\ shorthand_of a ea_roles l1 /\ words_of 32%N a (lit "role") l2) /\
  (forall l, al_options a = Ok l -> exists l1 l2 l3, l = l1 ++ l2 ++ l3 /\ shorthand_of a ea_options l1 /\ words_of 44%N a (lit "opts") l2 /\ words_of 44%N a (lit "options") l3).
Proof.
  assert (W : forall sep a n l, opt_list (named_attribute a n) (fun e => pieces sep (ea_value e)) = Ok l -> words_of sep a n l).
  { intros sep a n l H. unfold words_of, opt_list in *. destruct (named_attribute a n) as [e|]; [|apply Ok_inj in H; congruence].
    destruct (pieces_total sep (ea_value e)) as (l' & E & Hw). rewrite E in H. apply Ok_inj in H. subst l'. exact Hw. }
  assert (S1 : forall a get l, opt_list (nth_attribute a 1) get = Ok l -> shorthand_of a get l).
  { intros a get l H. unfold shorthand_of, opt_list in *. destruct (nth_attribute a 1) as [e|]; [exact H|apply Ok_inj in H; congruence]. }
  intros a. split; intros l H.
  - unfold al_roles in H. apply Span_Proof.bind_ok in H. destruct H as (l1 & H1 & H). apply Span_Proof.bind_ok in H. destruct H as (l2 & H2 & H). apply Ok_inj in H. subst l.
    exists l1, l2. split; [reflexivity|]. split; [apply S1, H1|apply W, H2].
  - unfold al_options in H. apply Span_Proof.bind_ok in H. destruct H as (l1 & H1 & H). apply Span_Proof.bind_ok in H. destruct H as (l2 & H2 & H). apply Span_Proof.bind_ok in H. destruct H as (l3 & H3 & H). apply Ok_inj in H. subst l.
    exists l1, l2, l3. split; [reflexivity|]. split; [apply S1, H1|]. split; [apply W, H2|apply W, H3].
Qed.
Definition attrs_of (r : res (mitem attrlist * list warning)) : option (list (option text * text)) :=
  match r with Ok (m, _) => Some (map nv (al_attrs (mi_item m))) | _ => None end.
Definition inline (t : text) : res (mitem attrlist * list warning) :=
  attrlist_parse ascii_only (fun t => Ok t) parser_default (span_new t) CtxInline.
Example C29_example : total (fun t => Ok t) /\
  attrs_of (inline (lit "a.b#c, n = ""x \"" y"" , 'z' w, k=None,")) = Some [(None, lit "a.b#c"); (Some (lit "n"), lit "x "" y"); (None, lit "z")].
Proof. split; [intros t; eauto|]. vm_compute. reflexivity. Qed.

(** * C30 *)
Lemma plain_no_delim t : Forall plain t -> no_delim t.
Proof.
  intros H. eapply Forall_impl; [|exact H]. intros c [Hc _]. unfold is_shorthand_delimiter. cbn in Hc.
  destruct (N.eqb_spec c HASH) as [->|]; [exfalso; apply Hc; unfold HASH; auto 12|]. destruct (N.eqb_spec c PERCENT) as [->|]; [exfalso; apply Hc; unfold PERCENT; auto 12|].
  destruct (N.eqb_spec c DOT) as [->|]; [exfalso; apply Hc; unfold DOT; auto 12|]. reflexivity.
Qed.
Lemma plain_trim t d : Forall plain t -> t <> [] -> trim_end (d ++ t) = d ++ t.
Proof.
  intros H Hne. apply trim_end_by_id. intros b c Hc. destruct t as [|x t] using rev_ind; [contradiction|]. rewrite app_assoc in Hc. apply app_inj_tail in Hc. destruct Hc as [_ <-].
  apply Forall_app in H. destruct H as [_ H]. inversion H as [|? ? [_ Hw] _]; subst. exact Hw.
Qed.
Lemma print_item_head i : exists d, print_item i = d :: item_text i /\ is_shorthand_delimiter d = true /\ (d = HASH \/ d = DOT \/ d = PERCENT).
Proof. destruct i; eexists; repeat split; unfold HASH, DOT, PERCENT; auto. Qed.
Lemma keep_item i : Forall plain (item_text i) -> item_text i <> [] -> keep1 (print_item i) = [print_item i].
Proof.
  intros H Hne. destruct (print_item_head i) as (d & E & Hd & _). unfold keep1. rewrite E.
  assert (Hl : forall x, text_eqb (d :: item_text i) [x] = false).
  { intros x. destruct (text_eqb (d :: item_text i) [x]) eqn:Ex; [|reflexivity]. apply text_eqb_eq in Ex. injection Ex as _ Ex. contradiction. }
  rewrite !Hl. cbn [orb]. change (d :: item_text i) with ([d] ++ item_text i). rewrite plain_trim by assumption. reflexivity.
Qed.
Lemma sh_items_print style items : Forall plain style -> Forall (fun i => Forall plain (item_text i) /\ item_text i <> []) items ->
  sh_items (style ++ concat (map print_item items)) = (match style with [] => [] | _ => [style] end) ++ map print_item items.
Proof.
  intros Hs Hi. unfold sh_items. rewrite grp_unique.
  - cbn [fst snd flat_map]. f_equal.
    + destruct style as [|c st]; [reflexivity|]. assert (Ed : dw is_sp_tab (c :: st) = c :: st).
      { inversion Hs as [|? ? [_ Hw] _]; subst. unfold dw. cbn [span_while]. destruct (is_sp_tab c) eqn:E; [|reflexivity]. apply is_sp_tab_spec in E. destruct E as [->| ->]; discriminate Hw. }
      rewrite Ed. unfold keep1. assert (Hd : forall d, is_shorthand_delimiter d = true -> text_eqb (c :: st) [d] = false).
      { intros d Hd. destruct (text_eqb (c :: st) [d]) eqn:E; [|reflexivity]. apply text_eqb_eq in E. injection E as -> _. apply plain_no_delim in Hs. inversion Hs as [|? ? Hx _]; subst. congruence. }
      rewrite !Hd by reflexivity. cbn [orb]. change (c :: st) with ([] ++ c :: st). rewrite plain_trim by (exact Hs || discriminate). reflexivity.
    + induction Hi as [|i items [H1 H2] _ IH]; [reflexivity|]. cbn [map flat_map]. rewrite IH, keep_item by assumption. reflexivity.
  - apply plain_no_delim, Hs.
  - apply Forall_map. eapply Forall_impl; [|exact Hi]. intros i [H _]. destruct (print_item_head i) as (d & E & Hd & _). exists d, (item_text i). split; [exact E|]. split; [exact Hd|apply plain_no_delim, H].
Qed.
Lemma marked_items style items c (sel : item -> list text) : Forall plain style ->
  (forall i, sel i = match print_item i with x :: r => if (x =? c)%N then [r] else [] | [] => [] end) -> is_shorthand_delimiter c = true ->
  flat_map (fun v => match v with x :: r => if (x =? c)%N then [r] else [] | [] => [] end) ((match style with [] => [] | _ => [style] end) ++ map print_item items) = flat_map sel items.
Proof.
  intros Hs Hsel Hc. rewrite flat_map_app. assert (E : flat_map (fun v : list N => match v with x :: r => if (x =? c)%N then [r] else [] | [] => [] end) (match style with [] => [] | _ => [style] end) = []).
  { destruct style as [|x st]; [reflexivity|]. cbn [flat_map]. destruct (N.eqb_spec x c) as [->|]; [|reflexivity]. apply plain_no_delim in Hs. inversion Hs; congruence. }
  rewrite E. cbn [app]. induction items as [|i items IH]; [reflexivity|]. cbn [map flat_map]. rewrite IH, Hsel. reflexivity.
Qed.
(** Style, id, roles and options written in shorthand are read back. *)
Theorem C30_shorthand_round_trip : forall U norm P source ctx style items, total norm ->
  Forall plain style -> Forall (fun i => Forall plain (item_text i) /\ item_text i <> []) items ->
  sp_data source = style ++ concat (map print_item items) ->
  exists m ws, attrlist_parse U norm P source ctx = Ok (m, ws) /\ ws = [] /\
    al_block_style (mi_item m) = Ok (match style with [] => None | _ => Some style end) /\
    al_id (mi_item m) = Ok (hd_error (flat_map item_id items)) /\
    al_roles (mi_item m) = Ok (flat_map item_role items) /\
    al_options (mi_item m) = Ok (flat_map item_option items).
Proof.
  intros U norm P source ctx style items Hn Hs Hi Hd. set (v := style ++ concat (map print_item items)) in *.
  assert (Hv : forall c, In c v -> plain c \/ is_shorthand_delimiter c = true).
  { intros c Hc. unfold v in Hc. apply in_app_iff in Hc. destruct Hc as [Hc|Hc]; [left; rewrite Forall_forall in Hs; auto|].
    apply in_concat in Hc. destruct Hc as (x & Hx & Hc). apply in_map_iff in Hx. destruct Hx as (i & <- & Hin). rewrite Forall_forall in Hi. destruct (Hi i Hin) as [Hp _].
    destruct (print_item_head i) as (d & E & Hdl & _). rewrite E in Hc. destruct Hc as [<-|Hc]; [auto|]. left. rewrite Forall_forall in Hp. auto. }
  assert (Hno : forall c, In c (lit ",=""'{}[]") -> ~ In c v).
  { intros c Hc Hin. destruct (Hv c Hin) as [[Hp _]|Hdl]; [apply Hp; cbn in *; intuition|]. cbn in Hc. intuition (subst; discriminate). }
  assert (Es : src_of U P v = Ok v).
  { unfold src_of. assert (E : has_char 123%N v = false) by (apply has_char_false, Hno; cbn; auto 12). rewrite E. reflexivity. }
  assert (Ea : starts_with (lit "[") v && ends_with (lit "]") v = false).
  { destruct (starts_with (lit "[") v) eqn:E; [|reflexivity]. apply starts_with_spec in E. destruct E as [r E]. exfalso. apply (Hno 91%N); [cbn; auto 12|]. rewrite E. left. reflexivity. }
  rewrite attrlist_parse_eq, Hd, Es. cbn [bind]. rewrite Ea.
  assert (Hit := sh_items_print style items Hs Hi). fold v in Hit.
  assert (Hgrp : grp v = (style, map print_item items)).
  { apply grp_unique; [apply plain_no_delim, Hs|]. apply Forall_map. eapply Forall_impl; [|exact Hi]. intros i [H _]. destruct (print_item_head i) as (d & E & Hdl & _). exists d, (item_text i). split; [exact E|]. split; [exact Hdl|apply plain_no_delim, H]. }
  assert (Hemp : empties (map print_item items) = []).
  { clear - Hi. induction Hi as [|i items [_ Hne] _ IH]; [reflexivity|]. unfold empties. cbn [map flat_map]. destruct (print_item_head i) as (d & E & _). rewrite E. cbn [length]. destruct (item_text i); [contradiction|]. cbn. exact IH. }
  destruct v as [|c0 v0] eqn:Ev.
  - assert (style = [] /\ items = []) as [-> ->].
    { unfold v in Ev. apply app_eq_nil in Ev. destruct Ev as [-> Ev]. split; [reflexivity|]. destruct items as [|i items]; [reflexivity|]. destruct (print_item_head i) as (d & E & _). cbn in Ev. rewrite E in Ev. discriminate. }
    eexists _, _. split; [reflexivity|]. repeat split.
  - rewrite <- Ev in *. assert (Hnd : is_ws c0 = false /\ ~ In c0 (lit ",=""'{}[]")).
    { split; [|intros Hc; apply (Hno c0 Hc); rewrite Ev; left; reflexivity]. destruct (Hv c0) as [[_ Hw]|Hdl]; [rewrite Ev; left; reflexivity|exact Hw|].
      unfold is_shorthand_delimiter in Hdl. destruct (N.eqb_spec c0 HASH) as [->|]; [reflexivity|]. destruct (N.eqb_spec c0 PERCENT) as [->|]; [reflexivity|]. destruct (N.eqb_spec c0 DOT) as [->|]; [reflexivity|discriminate]. }
    destruct Hnd as [Hw0 Hc0].
    assert (Hlast : forall x, v <> x ++ [SP]).
    { intros x Hx. destruct (Hv SP) as [[_ Hw]|Hdl]; [rewrite Hx, in_app_iff; right; left; reflexivity|discriminate Hw|discriminate Hdl]. }
    assert (Hok : entry_ok (Bare None v)).
    { cbn. split; [apply Hno; cbn; auto 12|]. split; [|split; [apply Hno; cbn; auto 12|exact Hlast]]. exists c0, v0. split; [exact Ev|]. split.
      - intros [->|[->| ->]]; discriminate Hw0.
      - intros [->| ->]; apply Hc0; cbn; auto 12. }
    destruct (t_parse_entry norm ctx true (Bare None v) v [] Hok eq_refl (or_introl eq_refl)) as (idx & w & E & _ & Hix). cbn [print_entry entry_name app] in E. rewrite app_nil_r in E.
    specialize (Hix v eq_refl eq_refl).
    assert (Ew : w = []).
    { unfold t_parse in E. cbn in Hok. assert (En : t_name v = (None, v)) by (rewrite <- (app_nil_r v); apply t_name_none; [apply Hok|left; reflexivity]).
      cbv zeta in E. rewrite En in E. cbn [fst snd] in E.
      assert (Edw : dw is_sp_tab_lf v = v) by (rewrite Ev; unfold dw; cbn [span_while]; rewrite not_blank; [reflexivity|intros [->|[->| ->]]; discriminate Hw0]). rewrite Edw in E.
      assert (Eq : is_quote c0 = false) by (destruct (is_quote c0) eqn:Q; [|reflexivity]; apply is_quote_iff in Q; exfalso; apply Hc0; destruct Q as [->| ->]; cbn; auto 12).
      assert (Et : snd (t_value v true) = (true, [])) by (unfold t_value; rewrite Ev, Eq; reflexivity).
      assert (Eh : hd_error v = Some c0) by (rewrite Ev; reflexivity).
      apply bind_ok in E. destruct E as (v' & E1 & E). rewrite Et in E. cbn [fst snd app] in E. apply bind_ok in E. destruct E as (sh & E2 & E). apply Ok_inj in E. injection E as -> _ <- _.
      destruct (parse_shorthand_items_eq v) as (idx' & E3 & _). rewrite E3 in E2. apply Ok_inj in E2. subst sh. cbn [snd]. rewrite Hgrp. exact Hemp. }
    subst w. cbn [t_loop]. rewrite E. cbn [bind ta_name ta_value ta_idx ta_warn ta_rest]. set (attr := mkea None v idx).
    assert (Ec : unnamed attr && is_nil (ea_value attr) && is_nil (@nil char) && is_nil (@nil element_attribute) = false) by (unfold unnamed, attr; cbn; rewrite Ev; reflexivity).
    rewrite Ec. unfold dw at 1. cbn [span_while snd bind fst blen app unnamed attr ea_name orb ea_value].
    eexists _, _. split; [reflexivity|]. cbn [mi_item]. rewrite Nat.sub_0_r, Nat.ltb_irrefl. split; [reflexivity|].
    assert (Hsi : shorthand_items attr = Ok ((match style with [] => [] | _ => [style] end) ++ map print_item items)) by (unfold shorthand_items, attr; cbn [ea_value ea_idx]; rewrite Hix, Hit; reflexivity).
    assert (Hnth : forall an, nth_attribute (mkal [attr] an source) 1 = Some attr) by reflexivity.
    unfold al_block_style, al_id, al_roles, al_options, ea_block_style, ea_id, ea_roles, ea_options. cbn [al_anchor]. fold attr. rewrite !Hnth. cbn [opt_list]. rewrite Hsi. cbn [bind].
    rewrite !after_marker_eq by reflexivity. cbn [bind].
    rewrite (marked_items style items HASH item_id), (marked_items style items DOT item_role), (marked_items style items PERCENT item_option); try assumption; try reflexivity; try (intros [t|t|t]; reflexivity).
    split; [|split; [|split]].
    + destruct style as [|s0 st].
      * cbn [app]. destruct items as [|i items]; [reflexivity|]. cbn [map]. destruct (print_item_head i) as (d & Ei & Hdl & _). rewrite Ei. cbn [existsb]. rewrite Hdl. reflexivity.
      * cbn [app]. assert (Ex : existsb is_shorthand_delimiter (s0 :: st) = false).
        { apply plain_no_delim in Hs. destruct (existsb is_shorthand_delimiter (s0 :: st)) eqn:Ex; [|reflexivity]. apply existsb_exists in Ex. destruct Ex as (x & Hx & Hxd). unfold no_delim in Hs. rewrite Forall_forall in Hs. rewrite (Hs x Hx) in Hxd. discriminate. }
        rewrite Ex. reflexivity.
    + cbn [named_attribute al_attrs find ea_name attr option_map]. destruct (hd_error (flat_map item_id items)); reflexivity.
    + cbn [named_attribute al_attrs find ea_name attr opt_list bind]. rewrite app_nil_r. reflexivity.
    + cbn [named_attribute al_attrs find ea_name attr opt_list bind app]. rewrite app_nil_r. reflexivity.
Qed.
Example C30_example : let style := lit "quote" in let items := [IId (lit "the-id"); IRole (lit "r1"); IOption (lit "o_1"); IRole (lit "r2")] in
  Forall plain style /\ Forall (fun i => Forall plain (item_text i) /\ item_text i <> []) items /\
  style ++ concat (map print_item items) = lit "quote#the-id.r1%o_1.r2".
Proof.
  assert (P : forall t, forallb (fun c => negb (existsb (N.eqb c) (lit "#.%,=""'{}[]")) && negb (is_ws c)) t = true -> Forall plain t).
  { intros t H. apply Forall_forall. intros c Hc. rewrite forallb_forall in H. specialize (H c Hc). apply andb_prop in H. destruct H as [H1 H2]. apply negb_true_iff in H1, H2. split; [apply not_in_b; exact H1|exact H2]. }
  split; [apply P; reflexivity|]. split; [|reflexivity]. do 4 (constructor; [split; [apply P; reflexivity|discriminate]|]). constructor.
Qed.

(** * C59 *)
(** Entries written as the documentation asks, separated by commas (with the same blanks after each
    comma), are read back in order with their names and values; a named attribute with the value
    [None] is left out; no warning but the one for an empty shorthand item is given. *)
Theorem C59_entries_round_trip : forall U norm P source ctx sepws es vals,
  (forall c, In c sepws -> c = SP \/ c = TAB) ->
  Forall entry_ok es -> Forall2 (entry_value norm ctx) es vals -> Forall2 (fun e v => entry_name e = None -> v <> []) es vals ->
  sp_data source = join (COMMA :: sepws) (map print_entry es) ->
  (~ In 123%N (sp_data source) \/ ~ In 125%N (sp_data source)) ->
  (forall x, sp_data source <> lit "[" ++ x ++ lit "]") ->
  exists m ws, attrlist_parse U norm P source ctx = Ok (m, ws) /\
    al_anchor (mi_item m) = None /\ map nv (al_attrs (mi_item m)) = kept (combine (map entry_name es) vals) /\
    (forall w, In w ws -> w_type w = WEmptyShorthandItem).
Proof.
  intros U norm P source ctx sepws es vals Hsep Hok Hval Hnn Hd Hbr Han. rewrite attrlist_parse_eq.
  assert (Es : src_of U P (sp_data source) = Ok (sp_data source)).
  { unfold src_of. destruct Hbr as [H|H]; apply has_char_false in H; rewrite H, ?andb_false_r; reflexivity. }
  rewrite Es. cbn [bind]. destruct (starts_with (lit "[") (sp_data source) && ends_with (lit "]") (sp_data source)) eqn:Ea.
  { destruct (anchor_text _ Ea) as (a & Ha & _). exfalso. apply (Han a Ha). }
  destruct es as [|e es].
  - inversion Hval; subst. cbn in Hd. rewrite Hd. cbn. eexists _, _. split; [reflexivity|]. cbn. repeat split. intros w [].
  - destruct (t_loop_entries norm ctx sepws) with (es := e :: es) (vals := vals) (attrs := @nil element_attribute) (psh := true) (ws := @nil warning_type) (fuel := S (length (sp_data source))) as (new & w & E & Hm & Hw & _); try assumption.
    + apply Forall_forall. intros c Hc. apply is_sp_tab_spec, Hsep, Hc.
    + discriminate.
    + rewrite <- Hd. lia.
    + rewrite <- Hd in E. rewrite E. cbn [bind fst snd app blen]. rewrite Nat.sub_0_r, Nat.ltb_irrefl, app_nil_r. eexists _, _. split; [reflexivity|]. cbn [mi_item al_attrs al_anchor].
      split; [reflexivity|]. split; [exact Hm|]. intros x Hx. apply in_map_iff in Hx. destruct Hx as (y & <- & Hy). cbn. unfold only_empties in Hw. rewrite Forall_forall in Hw. symmetry. apply Hw, Hy.
Qed.
Example C59_example : let es := [Bare None (lit "quote#x"); Quoted (Some (lit "by")) 34%N (lit "a ""b"", c"); Bare (Some (lit "k-1")) (lit "None"); Quoted None 39%N (lit "d'e")] in
  Forall entry_ok es /\ join (lit ", ") (map print_entry es) = lit "quote#x, by=""a \""b\"", c"", k-1=None, 'd\'e'" /\
  attrs_of (inline (lit "quote#x, by=""a \""b\"", c"", k-1=None, 'd\'e'")) = Some [(None, lit "quote#x"); (Some (lit "by"), lit "a ""b"", c"); (None, lit "d'e")].
Proof.
  assert (Hd : forall v c, forallb (fun x => negb (x =? c)%N) v = true -> ~ In c v).
  { intros v c H Hin. rewrite forallb_forall in H. specialize (H c Hin). rewrite N.eqb_refl in H. discriminate. }
  assert (Hl : forall v c, last v 0%N <> c -> c <> 0%N -> forall x, v <> x ++ [c]).
  { intros v c H _ x ->. apply H. apply last_last. }
  assert (Nb : forall c, is_sp_tab_lf c = false -> ~ blank_char c) by (intros c H Hb; apply is_sp_tab_lf_iff in Hb; congruence).
  assert (Nq : forall c, is_quote c = false -> ~ quote_char c) by (intros c H Hb; apply is_quote_iff in Hb; congruence).
  assert (Nm : forall n, (match n with c :: r => is_ascii_alnum c && forallb (fun d => is_ascii_alnum d || (d =? 45)%N) r | [] => false end) = true -> name_ok n).
  { assert (A : forall c, is_ascii_alnum c = true -> letter_or_digit c).
    { intros c H. unfold is_ascii_alnum, is_ascii_alpha, is_ascii_upper, is_ascii_lower, is_ascii_digit in H. unfold letter_or_digit. lia. }
    intros [|c r] H; [discriminate|]. apply andb_prop in H. destruct H as [H1 H2]. exists c, r. split; [reflexivity|]. split; [apply A, H1|].
    apply Forall_forall. intros d Hd'. rewrite forallb_forall in H2. specialize (H2 d Hd'). apply orb_prop in H2. destruct H2 as [H2|H2]; [left; apply A, H2|right; apply N.eqb_eq, H2]. }
  split; [|split; vm_compute; reflexivity].
  constructor; [|constructor; [|constructor; [|constructor; [|constructor]]]].
  - cbn [entry_ok]. split; [apply Hd; reflexivity|]. split; [eexists _, _; split; [reflexivity|split; [apply Nb|apply Nq]; reflexivity]|]. split; [apply Hd; reflexivity|apply Hl; discriminate].
  - cbn [entry_ok]. split; [apply Nm; reflexivity|]. split; [right; reflexivity|apply Hl; discriminate].
  - cbn [entry_ok]. split; [apply Nm; reflexivity|].
    split; [eexists _, _; split; [reflexivity|split; [apply Nb|apply Nq]; reflexivity]|]. split; [apply Hd; reflexivity|apply Hl; discriminate].
  - cbn [entry_ok]. split; [discriminate|]. split; [left; reflexivity|apply Hl; discriminate].
Qed.

(** * C60 *)
(** The documentation: "The position is the 1-based index of the entry once all named attributes have
    been removed".  The entries here have no name, quote or blank, so they are the texts between the commas. *)
Definition positions_ok (t : text) : Prop := forall m ws n e,
  attrlist_parse ascii_only (fun t => Ok t) parser_default (span_new t) CtxInline = Ok (m, ws) ->
  nth_attribute (mi_item m) n = Some e -> nth_error (split_on COMMA t) (n - 1) = Some (ea_value e).
Theorem C60_positions_count_empty_entries_refuted : exists t, Forall (fun c => c = 97%N \/ c = 44%N \/ c = 98%N) t /\ ~ positions_ok t.
Proof.
  exists (lit "a,,b"). split.
  - change (lit "a,,b") with [97%N; 44%N; 44%N; 98%N]. do 4 (constructor; [auto|]). constructor.
  - intros H. destruct (inline (lit "a,,b")) as [[m ws]| |] eqn:E; [|vm_compute in E; discriminate E|vm_compute in E; discriminate E].
    pose proof (H m ws 2) as H2. unfold inline in E. vm_compute in E. apply Ok_inj in E. injection E as <- <-. cbn [mi_item] in H2.
    specialize (H2 _ eq_refl eq_refl). vm_compute in H2. discriminate H2.
Qed.
(** The empty entry is lost and [b] moves from the third position to the second. *)
Example C60_witness : attrs_of (inline (lit "a,,b")) = Some [(None, lit "a"); (None, lit "b")].
Proof. vm_compute. reflexivity. Qed.

(** * C61 *)
(** The documentation: "Any space or tab characters at the boundaries of the value are ignored." *)
Theorem C61_unquoted_values_are_trimmed_refuted : exists t v, attrs_of (inline t) = Some [(None, v)] /\ exists x, v = x ++ [TAB].
Proof. exists (lit "a	"), (lit "a	"). split; [vm_compute; reflexivity|]. exists (lit "a"). reflexivity. Qed.
(** What holds: no unquoted value begins with a blank or ends in a space. *)
Theorem C61_unquoted_values_have_no_leading_blank_or_trailing_space : forall t psh,
  let x := dw is_sp_tab_lf (snd (t_name t)) in
  let v := fst (fst (t_value x psh)) in
  (forall c r, x = c :: r -> ~ quote_char c) ->
  (forall c r, v = c :: r -> ~ blank_char c) /\ (forall y, v <> y ++ [SP]) /\ ~ In COMMA v.
Proof.
  intros t psh x v Hq. assert (Ev : v = fst (t_unquoted x)).
  { unfold v, t_value. destruct x as [|c r]; [reflexivity|]. destruct (is_quote c) eqn:E; [|reflexivity]. apply is_quote_iff in E. exfalso. apply (Hq c r eq_refl E). }
  rewrite Ev. unfold t_unquoted. pose proof (span_while_app not_comma x) as H. pose proof (span_while_all not_comma x) as Ha.
  destruct (span_while not_comma x) as [a b]. cbn [fst snd] in *. destruct (trim_end_by_app (N.eqb SP) a) as (w & Hw & _ & Hl). split; [|split].
  - intros c r E. rewrite Hw, E in H. assert (Hx : x = c :: (r ++ w) ++ b) by (rewrite <- H; cbn; reflexivity). intros Hb.
    apply is_sp_tab_lf_iff in Hb. unfold x, dw in Hx. apply span_while_stop in Hx. congruence.
  - intros y Hy. specialize (Hl _ _ Hy). discriminate Hl.
  - intros Hin. rewrite Forall_forall in Ha. assert (Hina : In COMMA a) by (rewrite Hw, in_app_iff; auto). specialize (Ha _ Hina). discriminate Ha.
Qed.
Example C61_example : t_name (lit "k =  a b  ,c") = (Some (lit "k"), lit "a b  ,c") /\ t_value (lit "a b  ,c") true = ((lit "a b", lit ",c"), (true, [])).
Proof. vm_compute. split; reflexivity. Qed.

(** * C62 *)
(** The documentation drops escapes and applies substitutions only "if there is a closing ... quote". *)
Theorem C62_unterminated_quote_is_kept_as_written_refuted :
  (exists t, attrs_of (inline t) <> Some [(None, t)] /\ attrs_of (inline t) = Some [(None, lit """say "" it")] /\ t = lit """say \"" it") /\
  (exists t o, attrs_of (attrlist_parse ascii_only (apply_special_characters ascii_only) parser_default (span_new t) CtxBlock) = Some [(None, o)] /\
     t = lit "'a<b" /\ o = lit "'a&lt;b").
Proof.
  split.
  - exists (lit """say \"" it"). split; [vm_compute; discriminate|]. split; vm_compute; reflexivity.
  - exists (lit "'a<b"), (lit "'a&lt;b"). vm_compute. repeat split.
Qed.

(** * C63 *)
(** A marker followed by blanks only gives an empty role (id, option) and no warning. *)
Theorem C63_shorthand_items_are_not_empty_refuted : exists t m ws l,
  attrlist_parse ascii_only (fun t => Ok t) parser_default (span_new t) CtxInline = Ok (m, ws) /\ ws = [] /\ al_roles (mi_item m) = Ok l /\ In [] l.
Proof. exists (lit ". #id"). eexists _, _, _. split; [vm_compute; reflexivity|]. split; [reflexivity|]. split; [vm_compute; reflexivity|]. left. reflexivity. Qed.
(** What holds: items are never empty and never end in white space. *)
Theorem C63_items_are_trimmed : forall v, exists idx ws l, parse_shorthand_items v = Ok (idx, ws) /\ shorthand_items_go v idx = Ok l /\
  forall i, In i l -> exists a c, i = a ++ [c] /\ is_ws c = false.
Proof.
  intros v. destruct (parse_shorthand_items_eq v) as (idx & E & I). exists idx, (empties (snd (grp v))), (sh_items v). split; [exact E|]. split; [exact I|].
  intros i Hi. unfold sh_items in Hi. apply in_flat_map in Hi. destruct Hi as (c & _ & Hc). unfold keep1 in Hc. destruct (text_eqb c [HASH] || text_eqb c [DOT] || text_eqb c [PERCENT]); [destruct Hc|].
  destruct (trim_end c) as [|x y] eqn:Et; [destruct Hc|]. destruct Hc as [<-|[]]. destruct (trim_end_by_app is_ws c) as (_ & _ & _ & Hl). fold (trim_end c) in Hl.
  destruct (exists_last (l := x :: y)) as (a & z & Ez); [discriminate|]. exists a, z. split; [exact Ez|]. apply (Hl a z). rewrite Et. exact Ez.
Qed.

Print Assumptions C28_positional_lookup.
Print Assumptions C28_named_lookup.
Print Assumptions C28_combined_lookup.
Print Assumptions C29_parsing_is_total_and_values_come_from_the_source.
Print Assumptions C29_accessors_are_total.
Print Assumptions C29_roles_and_options.
Print Assumptions C30_shorthand_round_trip.
Print Assumptions C59_entries_round_trip.
Print Assumptions C60_positions_count_empty_entries_refuted.
Print Assumptions C61_unquoted_values_are_trimmed_refuted.
Print Assumptions C61_unquoted_values_have_no_leading_blank_or_trailing_space.
Print Assumptions C62_unterminated_quote_is_kept_as_written_refuted.
Print Assumptions C63_shorthand_items_are_not_empty_refuted.
Print Assumptions C63_items_are_trimmed.
