(** Reading back what was written: lists of entries, and shorthand. *)
From Verif Require Import Text TextFacts Span_Model Span_Pure Span_Spec Span_Proof Span_Laws Maps Catalog_Model Parser_Model Regex Subs_Model Subs_Spec Subs_Proof Attrlist_Model Attrlist_Proof Attrlist_Spec Attrlist_Laws.

Definition tailok (t : text) : Prop := t = [] \/ exists r, t = COMMA :: r.

Lemma span_while_tail p v tail : p COMMA = false -> tailok tail ->
  span_while p (v ++ tail) = (fst (span_while p v), snd (span_while p v) ++ tail).
Proof.
  intros Hp Ht. induction v as [|c v IH]; cbn [app span_while].
  - destruct Ht as [->|[r ->]]; [reflexivity|]. cbn [span_while]. rewrite Hp. reflexivity.
  - destruct (p c); [|reflexivity]. rewrite IH. destruct (span_while p v); reflexivity.
Qed.

Lemma t_name_none v tail : ~ In 61%N v -> tailok tail -> t_name (v ++ tail) = (None, v ++ tail).
Proof.
  intros Hv Ht. destruct v as [|c r].
  - destruct Ht as [->|[r ->]]; reflexivity.
  - cbn [app t_name]. destruct (is_ascii_alnum c); [|reflexivity]. rewrite span_while_tail by (reflexivity || exact Ht).
    pose proof (span_while_app attr_more r) as H. destruct (span_while attr_more r) as [a b]. cbn [fst snd] in *. unfold dw at 1.
    rewrite span_while_tail by (reflexivity || exact Ht). cbn [snd].
    pose proof (span_while_app is_sp_tab_lf b) as H2. destruct (span_while is_sp_tab_lf b) as [w x]. cbn [fst snd] in *.
    destruct x as [|e x]; cbn [app].
    + destruct Ht as [->|[r' ->]]; reflexivity.
    + destruct (N.eqb_spec e 61) as [->|]; [|reflexivity]. exfalso. apply Hv. right. rewrite <- H, <- H2, !in_app_iff. cbn. auto.
Qed.

Lemma letter_alnum c : letter_or_digit c -> is_ascii_alnum c = true.
Proof. unfold letter_or_digit, is_ascii_alnum, is_ascii_alpha, is_ascii_digit, is_ascii_lower, is_ascii_upper. lia. Qed.

Lemma is_sp_tab_lf_iff c : is_sp_tab_lf c = true <-> blank_char c.
Proof. unfold is_sp_tab_lf, blank_char. rewrite !orb_true_iff, !N.eqb_eq. tauto. Qed.
Lemma not_blank c : ~ blank_char c -> is_sp_tab_lf c = false.
Proof. intros H. destruct (is_sp_tab_lf c) eqn:E; [|reflexivity]. apply is_sp_tab_lf_iff in E. contradiction. Qed.
Lemma not_blank_sp c : ~ blank_char c -> is_sp_tab c = false.
Proof. intros H. destruct (is_sp_tab c) eqn:E; [|reflexivity]. apply is_sp_tab_spec in E. exfalso. apply H. unfold blank_char. tauto. Qed.

Lemma t_name_some n c x : name_ok n -> ~ blank_char c -> c <> COMMA -> t_name ((n ++ [61%N]) ++ c :: x) = (Some n, c :: x).
Proof.
  intros (d & r & -> & Hd & Hr) Hc Hm. rewrite <- app_assoc. cbn [app t_name]. rewrite (letter_alnum d Hd).
  rewrite (span_while_prefix attr_more r (61%N :: c :: x)); [|eapply Forall_impl; [|exact Hr]; intros e [He| ->]; unfold attr_more; [rewrite (letter_alnum e He)|]; reflexivity|cbn; reflexivity].
  unfold dw. cbn [span_while is_sp_tab_lf]. change (is_sp_tab_lf 61%N) with false. cbn [snd]. rewrite N.eqb_refl. cbn [span_while].
  rewrite (not_blank c Hc). cbn [snd]. destruct (N.eqb_spec c COMMA); [contradiction|reflexivity].
Qed.

Lemma quote_not_alnum q : quote_char q -> is_ascii_alnum q = false.
Proof. intros [->| ->]; reflexivity. Qed.
Lemma quote_facts q : quote_char q -> ~ blank_char q /\ q <> COMMA /\ q <> BSL /\ is_quote q = true.
Proof. intros H. split; [|split; [|split]]; [destruct H as [->| ->]; intros [H|[H|H]]; discriminate H|destruct H as [->| ->]; discriminate|destruct H as [->| ->]; discriminate|apply is_quote_iff; exact H]. Qed.

Lemma unescape_escape q v : q <> BSL -> replace_str [BSL; q] [q] (escape q v) = v.
Proof.
  intros Hq. unfold replace_str. induction v as [|c v IH]; [reflexivity|]. cbn [escape flat_map].
  change (flat_map (fun c => if (c =? q)%N then [BSL; q] else [c]) v) with (escape q v).
  destruct (N.eqb_spec c q) as [->|Hc].
  - cbn [app replace_go starts_with]. rewrite !N.eqb_refl. cbn [andb app length Nat.sub replace_go]. rewrite IH. reflexivity.
  - cbn [app replace_go]. assert (E : starts_with [BSL; q] (c :: escape q v) = false).
    { cbn [starts_with]. destruct (BSL =? c)%N; [|reflexivity]. cbn [andb]. destruct v as [|d v]; [reflexivity|]. cbn [escape flat_map].
      destruct (N.eqb_spec d q) as [->|Hd]; cbn [app starts_with].
      - destruct (N.eqb_spec q BSL) as [->|]; [contradiction|reflexivity].
      - destruct (N.eqb_spec q d) as [->|]; [contradiction|reflexivity]. }
    rewrite E, IH. reflexivity.
Qed.

Lemma escape_quotes q v x y : q <> BSL -> escape q v = x ++ q :: y -> exists z, x = z ++ [BSL].
Proof.
  intros Hq. revert x. induction v as [|c v IH]; intros x H; [destruct x; discriminate|]. cbn [escape flat_map] in H.
  change (flat_map (fun c => if (c =? q)%N then [BSL; q] else [c]) v) with (escape q v) in H.
  destruct (N.eqb_spec c q) as [->|Hc]; cbn [app] in H.
  - destruct x as [|x0 x]; cbn in H; [injection H as H _; congruence|]. injection H as <- H. destruct x as [|x1 x]; [exists []; reflexivity|].
    cbn in H. injection H as <- H. destruct (IH x H) as [z ->]. exists (BSL :: q :: z). reflexivity.
  - destruct x as [|x0 x]; cbn in H; [injection H as H _; congruence|]. injection H as <- H. destruct (IH x H) as [z ->]. exists (c :: z). reflexivity.
Qed.
Lemma escape_app q a b : escape q (a ++ b) = escape q a ++ escape q b.
Proof. apply flat_map_app. Qed.
Lemma escape_end q v x : q <> BSL -> escape q v = x ++ [BSL] -> exists y, v = y ++ [BSL].
Proof.
  intros Hq H. destruct v as [|c v] using rev_ind; [destruct x; discriminate|]. clear IHv. rewrite escape_app in H. cbn [escape flat_map] in H.
  destruct (N.eqb_spec c q) as [->|Hc]; cbn [app] in H.
  - change [BSL; q] with ([BSL] ++ [q]) in H. rewrite app_assoc in H. apply app_inj_tail in H. destruct H as [_ H]. congruence.
  - apply app_inj_tail in H. destruct H as [_ ->]. eauto.
Qed.

(** The value of an entry, once read: a single-quoted value in a block attribute list is substituted. *)
Definition entry_value (norm : text -> res text) (ctx : attrlist_context) (e : entry) (val : text) : Prop :=
  match e with
  | Bare _ v => val = v
  | Quoted _ q v => (ctx = CtxBlock /\ q = 39%N /\ norm v = Ok val) \/ (~ (ctx = CtxBlock /\ q = 39%N) /\ val = v)
  end.

Lemma finish_quoted norm ctx n q v val : quote_char q -> entry_value norm ctx (Quoted n q v) val ->
  ea_finish_value norm ctx (Some q) (escape q v) = Ok val.
Proof.
  intros Hq Hv. destruct (quote_facts q Hq) as (_ & _ & Hb & Hi). unfold ea_finish_value. rewrite Hi, (unescape_escape q v Hb). cbn in Hv.
  destruct ctx.
  - destruct (N.eqb_spec q SQUOTE) as [->|Hn]; destruct Hv as [(_ & H1 & H2)|(H1 & ->)].
    + exact H2.
    + exfalso. apply H1. auto.
    + contradiction.
    + reflexivity.
  - destruct Hv as [(H & _)|(_ & ->)]; [discriminate|reflexivity].
Qed.

Definition only_empties (ws : list warning_type) : Prop := Forall (eq WEmptyShorthandItem) ws.
Lemma empties_only cs : only_empties (empties cs).
Proof. induction cs as [|c cs IH]; [constructor|]. unfold empties. cbn [flat_map]. destruct (length c =? 1); [constructor; auto|exact IH]. Qed.

Lemma entry_head e : entry_ok e -> exists c r, print_entry e = c :: r /\ ~ blank_char c /\ c <> COMMA.
Proof.
  assert (Hn : forall c, letter_or_digit c -> ~ blank_char c /\ c <> COMMA).
  { intros c H. split; [intros [->|[->| ->]]|intros ->]; unfold letter_or_digit in H; vm_compute in H; intuition congruence. }
  destruct e as [[n|] v|[n|] q v]; cbn [entry_ok print_entry].
  - intros ((c & r & -> & Hc & _) & _). exists c, (r ++ 61%N :: v). cbn. rewrite <- app_assoc. split; [reflexivity|]. apply Hn, Hc.
  - intros (_ & (c & r & -> & Hc & _) & Hm & _). exists c, r. split; [reflexivity|]. split; [exact Hc|]. intros ->. apply Hm. left. reflexivity.
  - intros ((c & r & -> & Hc & _) & _). exists c, ((r ++ [61%N]) ++ q :: escape q v ++ [q]). cbn. rewrite <- app_assoc. split; [reflexivity|]. apply Hn, Hc.
  - intros (_ & Hq & _). exists q, (escape q v ++ [q]). split; [reflexivity|]. destruct (quote_facts q Hq) as (H1 & H2 & _). auto.
Qed.

Lemma t_parse_entry norm ctx psh e val tail : entry_ok e -> entry_value norm ctx e val -> tailok tail ->
  exists idx ws, t_parse norm ctx psh (print_entry e ++ tail) = Ok (mkta (entry_name e) val idx ws tail) /\ only_empties ws /\
    (forall v, e = Bare None v -> psh = true -> shorthand_items_go v idx = Ok (sh_items v)).
Proof.
  intros He Hv Ht. unfold t_parse.
  assert (Sh : forall (nm : option text) v w (b : bool), exists idx ws, (sh <- match nm with Some _ => Ok ([], []) | None => if b then parse_shorthand_items v else Ok ([], []) end ;;
     Ok (mkta nm v (fst sh) (@nil warning_type ++ snd sh) w)) = Ok (mkta nm v idx ws w) /\ only_empties ws /\ (nm = None -> b = true -> shorthand_items_go v idx = Ok (sh_items v))).
  { intros [nm|] v w b; [exists [], []; repeat split; [constructor|discriminate]|]. destruct b; [|exists [], []; repeat split; [constructor|discriminate]].
    destruct (parse_shorthand_items_eq v) as (idx & E & I). rewrite E. cbn [bind fst snd app]. exists idx, (empties (snd (grp v))). split; [reflexivity|]. split; [apply empties_only|auto]. }
  destruct e as [nm v|nm q v]; cbn [entry_name print_entry] in *.
  - destruct He as (Hnm & (c & r & Ec & Hb & Hq) & Hm & Hsp). cbn in Hv. subst val.
    assert (Hc : c <> COMMA) by (intros ->; apply Hm; rewrite Ec; left; reflexivity).
    assert (En : t_name ((match nm with Some n => n ++ [61%N] | None => [] end ++ v) ++ tail) = (nm, v ++ tail)).
    { destruct nm as [n|]; cbn [app].
      - rewrite <- app_assoc, Ec. cbn [app]. apply t_name_some; auto.
      - apply t_name_none; auto. }
    rewrite En. cbn [fst snd].
    assert (Ed : dw is_sp_tab_lf (v ++ tail) = v ++ tail) by (rewrite Ec; unfold dw; cbn [app span_while]; rewrite (not_blank c Hb); reflexivity).
    rewrite Ed.
    assert (Eq : is_quote c = false) by (destruct (is_quote c) eqn:E; [apply is_quote_iff in E; contradiction|reflexivity]).
    assert (Et : t_value (v ++ tail) psh = ((v, tail), (psh, []))).
    { unfold t_value. rewrite Ec. cbn [app]. rewrite Eq. f_equal. change (c :: r ++ tail) with ((c :: r) ++ tail). rewrite <- Ec.
      unfold t_unquoted. rewrite span_while_tail by (reflexivity || exact Ht). rewrite <- (app_nil_r v) at 1 2.
      rewrite (span_while_prefix not_comma v []); [|apply Forall_forall; intros x Hx; unfold not_comma; destruct (N.eqb_spec x COMMA) as [->|]; [contradiction|reflexivity]|exact I].
      cbn [fst snd app]. rewrite trim_end_by_id; [reflexivity|]. intros b x Hx. destruct (N.eqb_spec SP x) as [<-|]; [exfalso; apply (Hsp b Hx)|reflexivity]. }
    rewrite Et. cbn [fst snd]. rewrite Ec. cbn [app hd_error]. unfold ea_finish_value. rewrite Eq. cbn [bind]. rewrite <- Ec.
    destruct (Sh nm v tail psh) as (idx & ws & E & Ho & Hi). exists idx, ws. split; [exact E|]. split; [exact Ho|].
    intros v' Ev Hp. injection Ev as -> ->. apply Hi; auto.
  - destruct He as (Hnm & Hq & Hbs). destruct (quote_facts q Hq) as (Hb & Hc & Hbl & Hi).
    assert (En : t_name ((match nm with Some n => n ++ [61%N] | None => [] end ++ q :: escape q v ++ [q]) ++ tail) = (nm, q :: escape q v ++ q :: tail)).
    { destruct nm as [n|]; cbn [app].
      - replace (((n ++ [61%N]) ++ q :: escape q v ++ [q]) ++ tail) with ((n ++ [61%N]) ++ q :: escape q v ++ q :: tail); [apply t_name_some; auto|].
        rewrite <- (app_assoc (n ++ [61%N])). cbn [app]. rewrite <- (app_assoc (escape q v)). reflexivity.
      - unfold t_name. rewrite (quote_not_alnum q Hq). rewrite <- app_assoc. reflexivity. }
    rewrite En. cbn [fst snd].
    assert (Ed : dw is_sp_tab_lf (q :: escape q v ++ q :: tail) = q :: escape q v ++ q :: tail) by (unfold dw; cbn [span_while]; rewrite (not_blank q Hb); reflexivity).
    rewrite Ed. cbn [hd_error]. unfold t_value. rewrite Hi.
    rewrite quoted_split_complete; [|intros x y Hx; right; eapply escape_quotes; eauto|reflexivity|intros z Hz; apply escape_end in Hz; [|exact Hbl]; destruct Hz as [y Hy]; exact (Hbs y Hy)].
    cbn [fst snd]. rewrite (finish_quoted norm ctx nm q v val Hq Hv). cbn [bind].
    destruct (Sh nm val tail false) as (idx & ws & E & Ho & _). exists idx, ws. split; [exact E|]. split; [exact Ho|]. intros v' Ev. discriminate.
Qed.

Definition nv (a : element_attribute) : option text * text := (ea_name a, ea_value a).
(** A named attribute with the value [None] is left out. *)
Definition kept (l : list (option text * text)) : list (option text * text) :=
  filter (fun x => match fst x with Some _ => negb (text_eqb (snd x) (lit "None")) | None => true end) l.

Lemma t_loop_entries norm ctx sepws : Forall (fun c => is_sp_tab c = true) sepws ->
  forall es vals attrs psh ws fuel, es <> [] -> Forall entry_ok es -> Forall2 (entry_value norm ctx) es vals ->
  Forall2 (fun e v => entry_name e = None -> v <> []) es vals ->
  length (join (COMMA :: sepws) (map print_entry es)) < fuel ->
  exists new w, t_loop norm fuel ctx attrs psh ws (join (COMMA :: sepws) (map print_entry es)) = Ok (attrs ++ new, (ws ++ w, [])) /\
    map nv new = kept (combine (map entry_name es) vals) /\ only_empties w /\
    (forall v, es = [Bare None v] -> psh = true -> exists idx, new = [mkea None v idx] /\ shorthand_items_go v idx = Ok (sh_items v)).
Proof.
  intros Hs. induction es as [|e es IH]; intros vals attrs psh ws fuel Hne Hok Hval Hnn Hf; [contradiction|].
  inversion Hok as [|? ? Ho Hok']; subst. inversion Hval as [|? val ? vals' Hv Hval']; subst. inversion Hnn as [|? ? ? ? Hnn1 Hnn']; subst.
  destruct fuel as [|f]; [lia|]. cbn [t_loop].
  destruct es as [|e2 es].
  - cbn [map join] in *. destruct (t_parse_entry norm ctx psh e val [] Ho Hv (or_introl eq_refl)) as (idx & w & E & Hw & Hi).
    rewrite app_nil_r in E. rewrite E. cbn [bind ta_name ta_value ta_idx ta_warn ta_rest]. set (attr := mkea (entry_name e) val idx).
    assert (Ec : unnamed attr && is_nil (ea_value attr) && is_nil (@nil char) && is_nil attrs = false).
    { unfold unnamed, attr. cbn. destruct (entry_name e); [reflexivity|]. destruct val; [exfalso; apply Hnn1; reflexivity|reflexivity]. }
    rewrite Ec. unfold dw at 1. cbn [span_while snd].
    inversion Hval'; subst. exists (if unnamed attr || negb (text_eqb (ea_value attr) (lit "None")) then [attr] else []), w.
    split; [destruct (unnamed attr || negb (text_eqb (ea_value attr) (lit "None"))); rewrite ?app_nil_r; reflexivity|].
    split; [|split; [exact Hw|]].
    + unfold kept, unnamed, attr, combine. cbn [map filter ea_name ea_value fst snd nv]. destruct (entry_name e); cbn [orb]; [|reflexivity]. destruct (text_eqb val (lit "None")); reflexivity.
    + intros v Hev Hp. injection Hev as ->. cbn in Hv. subst val. exists idx. split; [reflexivity|]. apply Hi; auto.
  - cbn [map] in *. rewrite join_cons2 in *. set (next := join (COMMA :: sepws) (print_entry e2 :: map print_entry es)) in *.
    destruct (t_parse_entry norm ctx psh e val (COMMA :: sepws ++ next) Ho Hv (or_intror (ex_intro _ _ eq_refl))) as (idx & w & E & Hw & _).
    change ((COMMA :: sepws) ++ next) with (COMMA :: sepws ++ next) in *. rewrite E. cbn [bind ta_name ta_value ta_idx ta_warn ta_rest]. set (attr := mkea (entry_name e) val idx).
    rewrite andb_false_r, andb_false_l. unfold dw at 1. cbn [span_while]. change (is_sp_tab COMMA) with false. cbn [snd]. rewrite N.eqb_refl.
    inversion Hok' as [|? ? Ho2 _]; subst.
    assert (Hnx : exists c r, next = c :: r /\ ~ blank_char c /\ c <> COMMA).
    { destruct (entry_head e2 Ho2) as (c & r & Er & H1 & H2). unfold next. destruct es as [|e3 es]; cbn [map]; [cbn [join]; eauto|]. rewrite join_cons2, Er. cbn [app]. eauto. }
    destruct Hnx as (c & r & Enx & H1 & H2).
    assert (Ed : dw is_sp_tab (sepws ++ next) = c :: r).
    { unfold dw. rewrite span_while_prefix; [rewrite Enx; reflexivity|exact Hs|rewrite Enx; cbn; apply not_blank_sp; exact H1]. }
    rewrite Ed. destruct (N.eqb_spec c COMMA) as [|_]; [contradiction|]. rewrite <- Enx.
    set (psh' := if unnamed attr then false else psh).
    set (attrs' := if unnamed attr || negb (text_eqb (ea_value attr) (lit "None")) then attrs ++ [attr] else attrs).
    destruct (IH vals' attrs' psh' (ws ++ w) f) as (new & w' & E' & Hm & Hw' & _); try assumption; [discriminate| |].
    { change (map print_entry (e2 :: es)) with (print_entry e2 :: map print_entry es). fold next. rewrite app_length in Hf. cbn [length] in Hf. rewrite app_length in Hf. lia. }
    change (map print_entry (e2 :: es)) with (print_entry e2 :: map print_entry es) in E'. fold next in E'.
    exists ((if unnamed attr || negb (text_eqb (ea_value attr) (lit "None")) then [attr] else []) ++ new), (w ++ w').
    split; [rewrite E'; unfold attrs'; destruct (unnamed attr || negb (text_eqb (ea_value attr) (lit "None"))); rewrite <- ?app_assoc; reflexivity|].
    split; [|split; [apply Forall_app; auto|intros v Hev; discriminate]].
    rewrite map_app, Hm. cbn [combine map]. unfold kept at 2. cbn [filter fst snd]. unfold kept, unnamed, attr. cbn [ea_name ea_value].
    destruct (entry_name e); cbn [orb]; [|reflexivity]. destruct (text_eqb val (lit "None")); reflexivity.
Qed.
