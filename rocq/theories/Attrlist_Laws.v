(** Totality, round trip and shorthand laws for attribute lists. *)
From Verif Require Import Text TextFacts Span_Model Span_Pure Span_Spec Span_Proof Span_Laws Maps Catalog_Model Parser_Model Regex Subs_Model Subs_Spec Subs_Proof Attrlist_Model Attrlist_Proof Attrlist_Spec.

(** * Totality *)

Definition total (norm : text -> res text) : Prop := forall t, exists o, norm t = Ok o.

Lemma unescape_unescaped q t : unescaped q t (replace_str [BSL; q] [q] t).
Proof.
  unfold replace_str. remember (length t) as n eqn:En. revert t En. induction n as [n IH] using lt_wf_ind. intros t ->.
  destruct t as [|c r]; cbn [replace_go]; [constructor|]. destruct (starts_with [BSL; q] (c :: r)) eqn:E.
  - apply starts_with_spec in E. destruct E as [r' E]. cbn [app] in E. injection E as -> ->. cbn [app length Nat.sub replace_go].
    apply un_esc. apply (IH (length r')); [cbn; lia|reflexivity].
  - apply un_char; [|apply (IH (length r)); [cbn; lia|reflexivity]]. intros r' H. rewrite H in E. cbn in E. rewrite !N.eqb_refl in E. discriminate.
Qed.

Lemma finish_total norm ctx first v : total norm -> exists o, ea_finish_value norm ctx first v = Ok o.
Proof.
  intros Hn. unfold ea_finish_value. destruct first as [q|]; [|eauto]. destruct (is_quote q); [|eauto].
  destruct ctx; [|eauto]. destruct (q =? SQUOTE)%N; eauto.
Qed.

Definition wf_ea (a : element_attribute) : Prop :=
  ea_idx a = [] \/ exists ws, parse_shorthand_items (ea_value a) = Ok (ea_idx a, ws).

(** Where a reported value comes from. *)
Definition comes_from (norm : text -> res text) (ctx : attrlist_context) (src value : text) : Prop :=
  exists pre raw post, src = pre ++ raw ++ post /\
    (value = raw \/ exists q u, quote_char q /\ unescaped q raw u /\
       (value = u \/ (ctx = CtxBlock /\ q = 39%N /\ norm u = Ok value))).

Lemma is_quote_iff c : is_quote c = true <-> quote_char c.
Proof. unfold is_quote, quote_char, SQUOTE, DQUOTE. rewrite orb_true_iff, !N.eqb_eq. reflexivity. Qed.

Lemma t_unquoted_prefix t : exists w, t = fst (t_unquoted t) ++ w.
Proof.
  unfold t_unquoted. pose proof (span_while_app not_comma t) as H. destruct (span_while not_comma t) as [a b]. cbn in *.
  destruct (trim_end_by_app (N.eqb SP) a) as (w & Hw & _). exists (w ++ b). rewrite <- H, Hw at 1. rewrite <- app_assoc. reflexivity.
Qed.
Lemma t_value_within t psh : exists pre post, t = pre ++ fst (fst (t_value t psh)) ++ post.
Proof.
  unfold t_value. assert (B : exists pre post, t = pre ++ fst (t_unquoted t) ++ post) by (destruct (t_unquoted_prefix t) as [w H]; exists [], w; exact H).
  destruct t as [|c r]; [exact B|]. destruct (is_quote c); [|exact B]. destruct (quoted_split c false r) as [[v rest]|] eqn:E; [|exact B].
  apply quoted_split_app in E. exists [c], (c :: rest). cbn [fst]. rewrite E. reflexivity.
Qed.

Lemma t_parse_total norm ctx psh t : total norm -> exists r, t_parse norm ctx psh t = Ok r /\
  wf_ea (mkea (ta_name r) (ta_value r) (ta_idx r)) /\ comes_from norm ctx t (ta_value r) /\ ta_name r = fst (t_name t).
Proof.
  intros Hn. unfold t_parse. set (x := dw is_sp_tab_lf (snd (t_name t))).
  destruct (finish_total norm ctx (hd_error x) (fst (fst (t_value x psh))) Hn) as [v Ev]. rewrite Ev. cbn [bind].
  assert (Hc : comes_from norm ctx t v).
  { destruct (t_name_suffix t) as [u1 H1]. destruct (dw_suffix is_sp_tab_lf (snd (t_name t))) as [u2 H2]. fold x in H2.
    destruct (t_value_within x psh) as (p & s & H3). exists (u1 ++ u2 ++ p), (fst (fst (t_value x psh))), s.
    split; [rewrite H1, H2, H3 at 1; rewrite <- !app_assoc; reflexivity|].
    unfold ea_finish_value in Ev. destruct (hd_error x) as [q|]; [|left; congruence]. destruct (is_quote q) eqn:Q; [|left; congruence].
    apply is_quote_iff in Q. right. exists q, (replace_str [BSL; q] [q] (fst (fst (t_value x psh)))). split; [exact Q|]. split; [apply unescape_unescaped|].
    destruct ctx; [|left; congruence]. destruct (N.eqb_spec q SQUOTE) as [->|]; [right; auto|left; congruence]. }
  destruct (fst (t_name t)) as [n|] eqn:En; cbn [bind].
  - eexists. split; [reflexivity|]. cbn. split; [left; reflexivity|auto].
  - destruct (fst (snd (t_value x psh))).
    + destruct (parse_shorthand_items_eq v) as (idx & E & _). rewrite E. cbn [bind]. eexists. split; [reflexivity|]. cbn. split; [right; eauto|auto].
    + cbn [bind]. eexists. split; [reflexivity|]. cbn. split; [left; reflexivity|auto].
Qed.

Lemma comes_from_suffix norm ctx u t v : comes_from norm ctx t v -> comes_from norm ctx (u ++ t) v.
Proof. intros (pre & raw & post & -> & H). exists (u ++ pre), raw, post. rewrite <- app_assoc. auto. Qed.

Lemma t_name_prefix t n : fst (t_name t) = Some n -> exists w, t = n ++ w.
Proof.
  unfold t_name. destruct t as [|c r]; [discriminate|]. destruct (is_ascii_alnum c); [|discriminate].
  pose proof (span_while_app attr_more r) as H. destruct (span_while attr_more r) as [a b]. cbn in H.
  destruct (dw is_sp_tab_lf b) as [|e b']; [discriminate|]. destruct (e =? 61)%N; [|discriminate].
  destruct (dw is_sp_tab_lf b') as [|d v]; [discriminate|]. destruct (d =? COMMA)%N; [discriminate|].
  cbn [fst]. intros E. apply Some_inj in E. subst n. exists b. rewrite <- H. reflexivity.
Qed.

Definition attr_good norm ctx src (a : element_attribute) : Prop :=
  wf_ea a /\ comes_from norm ctx src (ea_value a) /\
  (forall n, ea_name a = Some n -> exists pre post, src = pre ++ n ++ post).
Lemma attr_good_suffix norm ctx u t a : attr_good norm ctx t a -> attr_good norm ctx (u ++ t) a.
Proof.
  intros (H1 & H2 & H3). split; [exact H1|]. split; [apply comes_from_suffix; exact H2|]. intros n Hn. destruct (H3 n Hn) as (p & q & ->).
  exists (u ++ p), q. rewrite <- app_assoc. reflexivity.
Qed.

Lemma t_loop_total norm ctx : total norm -> forall fuel t attrs psh ws, length t < fuel ->
  exists r, t_loop norm fuel ctx attrs psh ws t = Ok r /\ (exists pre, t = pre ++ snd (snd r)) /\
    (exists new, fst r = attrs ++ new /\ Forall (attr_good norm ctx t) new).
Proof.
  intros Hn. induction fuel as [|f IH]; intros t attrs psh ws Hf; [lia|]. cbn [t_loop].
  destruct (t_parse_total norm ctx psh t Hn) as (r & E & Hw & Hc & En). rewrite E. cbn [bind].
  set (attr := mkea (ta_name r) (ta_value r) (ta_idx r)) in *.
  pose proof (t_parse_suffix _ _ _ _ _ E) as [u Hu].
  destruct (unnamed attr && is_nil (ea_value attr) && is_nil (ta_rest r) && is_nil attrs).
  { eexists. split; [reflexivity|]. cbn [fst snd]. split; [exists []; reflexivity|]. exists []. rewrite app_nil_r. split; [reflexivity|constructor]. }
  set (psh' := if unnamed attr then false else psh).
  set (attrs' := if unnamed attr || negb (text_eqb (ea_value attr) (lit "None")) then attrs ++ [attr] else attrs).
  assert (Hg : attr_good norm ctx t attr).
  { split; [exact Hw|]. split; [exact Hc|]. intros n Hn'. cbn in Hn'. rewrite En in Hn'. apply t_name_prefix in Hn'. destruct Hn' as [w Hn']. exists [], w. exact Hn'. }
  assert (Ha : exists l, attrs' = attrs ++ l /\ Forall (attr_good norm ctx t) l).
  { unfold attrs'. destruct (unnamed attr || negb (text_eqb (ea_value attr) (lit "None"))); [exists [attr]; auto|exists []; rewrite app_nil_r; auto]. }
  destruct Ha as (l & Ha & Hl).
  assert (Go : forall t2 ws2 p, t = p ++ t2 -> length t2 < length t ->
     exists r0, t_loop norm f ctx attrs' psh' ws2 t2 = Ok r0 /\ (exists pre, t = pre ++ snd (snd r0)) /\ (exists new, fst r0 = attrs ++ new /\ Forall (attr_good norm ctx t) new)).
  { intros t2 ws2 p Hp Hlen. destruct (IH t2 attrs' psh' ws2) as (r0 & E0 & (p0 & Hp0) & new & Hnew & Hgood); [lia|].
    exists r0. split; [exact E0|]. split; [exists (p ++ p0); rewrite <- app_assoc, <- Hp0; exact Hp|].
    exists (l ++ new). split; [rewrite Hnew, Ha, <- app_assoc; reflexivity|]. apply Forall_app. split; [exact Hl|].
    eapply Forall_impl; [|exact Hgood]. intros a Hga. rewrite Hp. apply attr_good_suffix. exact Hga. }
  destruct (dw_suffix is_sp_tab (ta_rest r)) as [w Hw1]. destruct (dw is_sp_tab (ta_rest r)) as [|c t1].
  { eexists. split; [reflexivity|]. cbn [fst snd]. split; [exists t; rewrite app_nil_r; reflexivity|]. exists l. auto. }
  destruct (c =? COMMA)%N.
  - destruct (dw_suffix is_sp_tab t1) as [w2 Hw2]. destruct (dw is_sp_tab t1) as [|d t2].
    + apply (Go [] _ t); [rewrite app_nil_r; reflexivity|]. rewrite Hu, Hw1, !app_length. cbn. lia.
    + assert (Ht : t = (u ++ w ++ c :: w2) ++ d :: t2) by (rewrite Hu at 1; rewrite Hw1, Hw2, <- !app_assoc; reflexivity).
      assert (Hlen : length (d :: t2) < length t) by (rewrite Ht, !app_length; cbn [length]; rewrite ?app_length; cbn [length]; lia).
      destruct (d =? COMMA)%N.
      * apply (Go t2 _ ((u ++ w ++ c :: w2) ++ [d])); [rewrite <- app_assoc; exact Ht|cbn in Hlen; lia].
      * apply (Go (d :: t2) _ (u ++ w ++ c :: w2)); [exact Ht|exact Hlen].
  - eexists. split; [reflexivity|]. cbn [fst snd]. split; [exists (u ++ w); rewrite <- app_assoc, <- Hw1; exact Hu|]. exists l. auto.
Qed.

Definition src_of (U : unicode) (P : parser) (t : text) : res text :=
  if has_char 123%N t && has_char 125%N t then apply_attributes U P t else Ok t.
Lemma src_of_total U P t : exists src, src_of U P t = Ok src /\ (src = t \/ expands (value_of P) t src).
Proof.
  unfold src_of. destruct (has_char 123%N t && has_char 125%N t); [|eauto]. destruct (apply_attributes_total U P t) as [o Ho].
  exists o. split; [exact Ho|]. right. apply apply_attributes_iff in Ho. exact Ho.
Qed.

Lemma anchor_text src : starts_with (lit "[") src && ends_with (lit "]") src = true ->
  exists a, src = lit "[" ++ a ++ lit "]" /\ str_range 1 (blen src - 1) src = Ok a.
Proof.
  intros H. apply andb_prop in H. destruct H as [H1 H2]. apply starts_with_spec in H1. destruct H1 as [r H1]. apply ends_with_spec in H2. destruct H2 as [x H2].
  change (lit "[") with [91%N] in *. change (lit "]") with [93%N] in *.
  destruct x as [|c x]; [rewrite H2 in H1; cbn in H1; discriminate H1|].
  rewrite H1 in H2. injection H2 as <- H2. exists x. subst r. split; [exact H1|]. subst src. unfold str_range, str_to, str_from.
  replace (blen ([91%N] ++ x ++ [93%N]) - 1) with (blen ([91%N] ++ x)) by (rewrite !blen_app; cbn; lia).
  rewrite app_assoc, bsplit_app. cbn [bind of_option]. change 1 with (blen [91%N]). rewrite bsplit_app. reflexivity.
Qed.

(** The result of [attrlist_parse] in text-level terms. *)
Lemma attrlist_parse_eq U norm P source ctx :
  attrlist_parse U norm P source ctx =
  (src <- src_of U P (sp_data source) ;;
   if starts_with (lit "[") src && ends_with (lit "]") src then
     anchor <- str_range 1 (blen src - 1) src ;;
     Ok (mkmi (mkal [] (Some anchor) source) (p_discard_all source), [])
   else
     r <- t_loop norm (S (length src)) ctx [] true [] src ;;
     Ok (mkmi (mkal (fst r) None source) (p_discard_all source),
         map (mkwarn source) (fst (snd r) ++ (if blen src - blen (snd (snd r)) <? blen src then [WMissingCommaAfterQuotedAttributeValue] else [])))).
Proof.
  unfold attrlist_parse, src_of. destruct (if has_char 123%N (sp_data source) && has_char 125%N (sp_data source) then apply_attributes U P (sp_data source) else Ok (sp_data source)) as [src| |]; [|reflexivity|reflexivity].
  cbn [bind]. rewrite discard_all_ok. cbn [bind]. destruct (starts_with (lit "[") src && ends_with (lit "]") src); [reflexivity|].
  change 0 with (blen []). rewrite (attrlist_loop_eq norm src _ ctx (S (length src)) [] src [] true [] eq_refl).
  destruct (t_loop norm (S (length src)) ctx [] true [] src) as [r| |]; reflexivity.
Qed.

Lemma wf_items a : wf_ea a -> exists l, shorthand_items a = Ok l.
Proof.
  intros [H|[ws H]]; unfold shorthand_items; [rewrite H; eexists; reflexivity|].
  destruct (parse_shorthand_items_eq (ea_value a)) as (idx & E & I). rewrite H in E. apply Ok_inj in E. injection E as -> _. eauto.
Qed.

Lemma after_marker_eq c l : clen c = 1 -> after_marker c l = Ok (flat_map (fun v => match v with x :: r => if (x =? c)%N then [r] else [] | [] => [] end) l).
Proof.
  intros Hc. induction l as [|v l IH]; [reflexivity|]. cbn [after_marker flat_map]. rewrite IH. cbn [bind]. destruct v as [|x r]; [reflexivity|].
  cbn [starts_with]. rewrite (N.eqb_sym c x). destruct (N.eqb_spec x c) as [->|]; [|reflexivity]. cbn [andb]. unfold str_from.
  change (c :: r) with ([c] ++ r). replace 1 with (blen [c]) by (cbn; lia). rewrite bsplit_app. reflexivity.
Qed.

Lemma words_nil_inv sep l : words sep [] l -> l = [].
Proof. intros H. remember [] as t eqn:Et in H. destruct H as [|t ws H|w H1 H2|w t ws H1 H2 H3]; [reflexivity|discriminate|congruence|destruct w; discriminate]. Qed.

Lemma pieces_total sep t : exists l, pieces sep t = Ok l /\ words sep t l.
Proof.
  unfold pieces. rewrite take_while_ok. cbn [bind].
  assert (Go : forall fuel s, length (sp_data s) <= fuel -> exists l, pieces_loop sep fuel s = Ok l /\ words sep (sp_data s) l).
  { induction fuel as [|f IH]; intros s Hf; cbn [pieces_loop].
    - destruct (sp_data s); [|cbn in Hf; lia]. exists []. split; [reflexivity|constructor].
    - destruct (sp_data s) as [|c r] eqn:D; [exists []; split; [reflexivity|constructor]|]. rewrite <- D in *.
      rewrite take_while_ok. cbn [bind]. pose proof (span_while_all (fun c => negb (c =? sep)%N) (sp_data s)) as Ha.
      pose proof (span_while_stop (fun c => negb (c =? sep)%N) (sp_data s)) as Hst.
      destruct (pwhile_at s (fun c => negb (c =? sep)%N)) as (a & b & E1 & D1 & ->). rewrite E1 in Ha, Hst. cbn [fst snd mi_after mi_item with_data sp_data] in *.
      rewrite take_while_ok. cbn [bind]. pose proof (span_while_all (fun c => (c =? sep)%N) b) as Hb.
      destruct (pwhile_at (skip s a b) (fun c => (c =? sep)%N)) as (w & x & E2 & D2 & ->). rewrite sp_data_skip in E2, D2. rewrite E2 in Hb. cbn [fst mi_after] in *. rewrite skip_skip.
      assert (Hx : length x <= f).
      { rewrite D1, D2, !app_length in Hf. destruct a as [|a0 a]; [|cbn in Hf; lia]. destruct w as [|w0 w]; [|cbn in Hf; lia]. cbn [app] in D1, D2. rewrite D1 in D. rewrite D in E2, Hst.
        specialize (Hst c r eq_refl). cbn beta in Hst. rewrite negb_false_iff in Hst. cbn [span_while] in E2. rewrite Hst in E2. destruct (span_while (fun c => (c =? sep)%N) r); discriminate. }
      destruct (IH (skip s (a ++ w) x)) as (l & El & Wl); [rewrite sp_data_skip; exact Hx|]. rewrite El. cbn [bind]. rewrite sp_data_skip in Wl.
      assert (Hnin : ~ In sep a) by (intros Hin; rewrite Forall_forall in Ha; specialize (Ha _ Hin); rewrite N.eqb_refl in Ha; discriminate).
      assert (Hwx : forall w, Forall (fun c => (c =? sep)%N = true) w -> words sep (w ++ x) l).
      { intros w' Hw'. induction Hw' as [|y w' Hy _ IHw]; [exact Wl|]. apply N.eqb_eq in Hy. subst y. cbn. constructor. exact IHw. }
      rewrite D1, D2. destruct a as [|a0 a].
      + exists l. split; [reflexivity|]. apply Hwx, Hb.
      + exists ((a0 :: a) :: l). split; [reflexivity|]. destruct w as [|w0 w].
        * cbn [app] in D2 |- *. subst b. destruct x as [|x0 x].
          -- rewrite app_nil_r. rewrite (words_nil_inv sep l Wl). apply words_last; [discriminate|exact Hnin].
          -- exfalso. specialize (Hst x0 x eq_refl). cbn in Hst. rewrite negb_false_iff in Hst. cbn in E2. rewrite Hst in E2. destruct (span_while _ x); discriminate.
        * inversion Hb as [|? ? Hw0 Hb']; subst. apply N.eqb_eq in Hw0. subst w0. cbn [app]. change (a0 :: a ++ sep :: w ++ x) with ((a0 :: a) ++ sep :: (w ++ x)).
          apply words_word; [discriminate|exact Hnin|]. apply Hwx, Hb'. }
  pose proof (span_while_all (fun c => (c =? sep)%N) t) as Hb.
  destruct (pwhile_at (span_new t) (fun c => (c =? sep)%N)) as (w & x & E & D & ->). cbn [mi_after span_new sp_data] in *. rewrite E in Hb. cbn in Hb.
  destruct (Go (length t) (skip (span_new t) w x)) as (l & El & Wl); [rewrite sp_data_skip, D, app_length; lia|].
  exists l. split; [exact El|]. rewrite sp_data_skip in Wl. rewrite D. clear - Wl Hb. induction Hb as [|c w Hc _ IH]; [exact Wl|]. apply N.eqb_eq in Hc. subst c. cbn. constructor. exact IH.
Qed.

Lemma nth_attribute_in a n e : nth_attribute a n = Some e -> In e (al_attrs a) /\ ea_name e = None.
Proof.
  unfold nth_attribute. destruct n as [|k]; [discriminate|]. intros H. apply nth_error_In in H. apply filter_In in H. destruct H as [H1 H2]. split; [exact H1|].
  unfold unnamed in H2. destruct (ea_name e); [discriminate|reflexivity].
Qed.

Lemma accessors_total a : Forall wf_ea (al_attrs a) ->
  (exists o, al_id a = Ok o) /\ (exists l, al_roles a = Ok l) /\ (exists l, al_options a = Ok l) /\ (exists o, al_block_style a = Ok o).
Proof.
  intros H. rewrite Forall_forall in H.
  assert (Hn : forall e, nth_attribute a 1 = Some e -> exists l, shorthand_items e = Ok l).
  { intros e He. apply nth_attribute_in in He. apply wf_items, H, He. }
  assert (Hp : forall sep o, exists l, opt_list o (fun e : element_attribute => pieces sep (ea_value e)) = Ok l).
  { intros sep [e|]; [|eexists; reflexivity]. destruct (pieces_total sep (ea_value e)) as (l & Hl & _). exists l. exact Hl. }
  assert (Hm : forall c, clen c = 1 -> exists l, opt_list (nth_attribute a 1) (fun e => items <- shorthand_items e ;; after_marker c items) = Ok l).
  { intros c Hc. destruct (nth_attribute a 1) as [e|]; [|eexists; reflexivity]. destruct (Hn e eq_refl) as [l Hl]. cbn [opt_list]. rewrite Hl. cbn [bind]. rewrite after_marker_eq by exact Hc. eauto. }
  unfold al_id, al_roles, al_options, al_block_style. split; [|split; [|split]].
  - destruct (al_anchor a); [eauto|]. destruct (nth_attribute a 1) as [e|]; [|cbn; eauto]. destruct (Hn e eq_refl) as [l Hl]. unfold ea_id. rewrite Hl. cbn [bind]. rewrite after_marker_eq by reflexivity. cbn. eauto.
  - destruct (Hm DOT eq_refl) as [l Hl]. unfold ea_roles. rewrite Hl. cbn [bind]. destruct (Hp SP (named_attribute a (lit "role"))) as [l2 ->]. cbn. eauto.
  - destruct (Hm PERCENT eq_refl) as [l Hl]. unfold ea_options. rewrite Hl. cbn [bind]. destruct (Hp COMMA (named_attribute a (lit "opts"))) as [l2 ->]. cbn [bind]. destruct (Hp COMMA (named_attribute a (lit "options"))) as [l3 ->]. cbn. eauto.
  - destruct (nth_attribute a 1) as [e|]; [|eauto]. destruct (Hn e eq_refl) as [l Hl]. unfold ea_block_style. rewrite Hl. cbn. eauto.
Qed.
