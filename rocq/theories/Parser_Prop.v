(** C15, C17-C20, C54-C56: document attributes and section numbers.  The notions used in the
    statements (entries, which entries are permitted, next number, lexicographic order) are in
    [Parser_Spec]. *)
From Verif Require Import Text TextFacts Maps Span_Model Catalog_Model Parser_Model Parser_Spec Parser_Proof.

(** C15. *)
Theorem C15_locked_attribute_is_never_changed : forall U p n es,
  ctx_of p n = Some ApiOnly ->
  let '(p', ws) := run_entries U p es in
  attribute_value p' n = attribute_value p n /\
  mget n (p_attrs p') = mget n (p_attrs p) /\
  length (filter (locked_warning n) ws) = length (filter (about U n) es).
Proof.
  intros U p n es H. pose proof (run_value U es p n) as V. pose proof (run_warnings U es p n) as W.
  pose proof (run_unchanged U es p n) as C. rewrite H in V, W, C. cbn in V, W.
  destruct (run_entries U p es) as [p' ws]. cbn [fst snd] in *. split; [exact V|]. split; [apply C; reflexivity|lia].
Qed.
(** Every refused entry is reported at its own source, under its own name. *)
Theorem C15_refusal_is_reported_at_the_entry : forall U p e,
  ctx_of p (entry_name U e) = Some ApiOnly ->
  apply_entry U p e = (p, [mkwarn (at_source (en_attr e)) (WAttributeValueIsLocked (entry_name U e))]).
Proof. intros U p e H. pose proof (apply_entry_cases U p e) as C. cbv zeta in C. rewrite H in C. exact C. Qed.
Definition ex_attr (n : text) (v : ivalue) : attribute := mkattr (span_new n) None v (span_new n).
Definition ex_locked : parser := with_intrinsic_attribute ascii_only parser_default (lit "Foo") (lit "bar") ApiOnly.
Example C15_example : ctx_of ex_locked (lit "foo") = Some ApiOnly /\
  let '(p', ws) := run_entries ascii_only ex_locked
     [mkentry InHeader (ex_attr (lit "FOO") (VValue (lit "x"))); mkentry InBody (ex_attr (lit "foo") VUnset);
      mkentry InBody (ex_attr (lit "other") VSet)] in
  attribute_value p' (lit "foo") = VValue (lit "bar") /\ length ws = 2 /\ attribute_value p' (lit "other") = VSet.
Proof. vm_compute. repeat split; reflexivity. Qed.

(** C17. The value of every attribute after any sequence of entries. *)
Theorem C17_last_permitted_entry_wins : forall U p n es,
  attribute_value (fst (run_entries U p es)) n =
  last (map (fun e => read_as p n (at_value (en_attr e))) (permitted (ctx_of p n) (filter (about U n) es)))
       (attribute_value p n).
Proof. intros. apply run_value. Qed.
(** Entries not about [n] leave it alone. *)
Theorem C17_other_attributes_unaffected : forall U p n es,
  Forall (fun e => entry_name U e <> n) es ->
  mget n (p_attrs (fst (run_entries U p es))) = mget n (p_attrs p).
Proof.
  intros U p n es H. apply run_unchanged.
  assert (E : filter (about U n) es = []).
  { induction H as [|e es He H IH]; [reflexivity|]. cbn [filter]. unfold about at 1.
    destruct (text_eqb_spec (entry_name U e) n); [contradiction|exact IH]. }
  rewrite E. destruct (ctx_of p n) as [[]|]; reflexivity.
Qed.
(** Every entry is either permitted or answered by a warning. *)
Theorem C17_refused_entries_are_counted : forall U p n es,
  length (filter (locked_warning n) (snd (run_entries U p es))) +
  length (permitted (ctx_of p n) (filter (about U n) es)) = length (filter (about U n) es).
Proof. intros. apply run_warnings. Qed.
(** The name under which an entry is stored: lower case, and [hardbreaks] stands for [hardbreaks-option]. *)
Theorem C17_stored_name : forall U e,
  (to_lowercase U (sp_data (at_name (en_attr e))) = lit "hardbreaks" -> entry_name U e = lit "hardbreaks-option") /\
  (to_lowercase U (sp_data (at_name (en_attr e))) <> lit "hardbreaks" -> entry_name U e = to_lowercase U (sp_data (at_name (en_attr e)))).
Proof.
  intros U e. unfold entry_name, remap_attr_name. split; intros H.
  - rewrite H. reflexivity.
  - destruct (text_eqb (to_lowercase U (sp_data (at_name (en_attr e)))) (lit "hardbreaks")) eqn:E; [|reflexivity]. apply text_eqb_eq in E. contradiction.
Qed.
Example C17_hardbreaks : attribute_value (fst (run_entries ascii_only parser_default [mkentry InBody (ex_attr (lit "HardBreaks") VSet)])) (lit "hardbreaks-option") = VSet.
Proof. vm_compute. reflexivity. Qed.
Example C17_example :
  let es := [mkentry InBody (ex_attr (lit "toc") (VValue (lit "x"))); mkentry InHeader (ex_attr (lit "Toc") VSet);
             mkentry InHeader (ex_attr (lit "a") (VValue (lit "1"))); mkentry InBody (ex_attr (lit "a") (VValue (lit "2")))] in
  attribute_value (fst (run_entries ascii_only parser_default es)) (lit "toc") = VValue (lit "auto") /\
  attribute_value (fst (run_entries ascii_only parser_default es)) (lit "a") = VValue (lit "2").
Proof. vm_compute. split; reflexivity. Qed.

(** C18. *)
Theorem C18_header_only_attribute_frozen_in_body : forall U p n es,
  ctx_of p n = Some ApiOrHeader -> Forall (fun e => en_place e = InBody) es ->
  mget n (p_attrs (fst (run_entries U p es))) = mget n (p_attrs p) /\
  attribute_value (fst (run_entries U p es)) n = attribute_value p n.
Proof.
  intros U p n es H F.
  assert (E : permitted (ctx_of p n) (filter (about U n) es) = []).
  { rewrite H. cbn [permitted]. induction F as [|e es He F IH]; [reflexivity|]. cbn [filter]. destruct (about U n e); [|exact IH].
    cbn [from_first]. rewrite He. exact IH. }
  split; [apply run_unchanged, E|]. rewrite run_value, E. reflexivity.
Qed.
Example C18_example : ctx_of parser_default (lit "toc") = Some ApiOrHeader /\
  attribute_value (fst (run_entries ascii_only parser_default [mkentry InBody (ex_attr (lit "toc") (VValue (lit "left")))])) (lit "toc") = VUnset.
Proof. vm_compute. split; reflexivity. Qed.

(** C54.  The restriction is lost by a write in the header: a later body entry succeeds. *)
Theorem C54_header_write_unlocks_the_body_refuted :
  exists U p n h b, ctx_of p n = Some ApiOrHeader /\ en_place h = InHeader /\ en_place b = InBody /\
    attribute_value (fst (run_entries U p [h])) n = VValue (lit "left") /\
    attribute_value (fst (run_entries U p [h; b])) n = VValue (lit "right").
Proof.
  exists ascii_only, parser_default, (lit "toc"), (mkentry InHeader (ex_attr (lit "toc") (VValue (lit "left")))),
    (mkentry InBody (ex_attr (lit "toc") (VValue (lit "right")))).
  vm_compute. repeat split; reflexivity.
Qed.
(** The general rule: after any permitted write every later write is permitted. *)
Theorem C54_any_permitted_write_lifts_the_restriction : forall U p e,
  snd (apply_entry U p e) = [] -> ctx_of (fst (apply_entry U p e)) (entry_name U e) = Some Anywhere.
Proof.
  intros U p e H. pose proof (apply_entry_cases U p e) as C. cbv zeta in C. destruct (allowed _ _).
  - destruct C as (v & -> & _). unfold ctx_of. cbn [fst with_attrs p_attrs]. rewrite mget_mput_same. reflexivity.
  - rewrite C in H. discriminate.
Qed.

(** C19.  Refuted: names are stored in lower case, but looked up as given. *)
Theorem C19_lookup_is_case_sensitive_refuted :
  exists U p e n, ctx_of p (entry_name U e) = None /\ sp_data (at_name (en_attr e)) = n /\
    at_value (en_attr e) = VValue (lit "1") /\ attribute_value (fst (apply_entry U p e)) n = VUnset /\
    is_attribute_set (fst (apply_entry U p e)) n = false /\ has_attribute (fst (apply_entry U p e)) n = false.
Proof.
  exists ascii_only, parser_default, (mkentry InHeader (ex_attr (lit "Foo") (VValue (lit "1")))), (lit "Foo").
  vm_compute. repeat split; reflexivity.
Qed.
(** The API write path has the same defect, and does not know the alias "hardbreaks". *)
Theorem C19_api_lookup_is_case_sensitive_refuted :
  exists U p n v, attribute_value (with_intrinsic_attribute U p n v Anywhere) n <> VValue v.
Proof. exists ascii_only, parser_default, (lit "Foo"), (lit "1"). vm_compute. discriminate. Qed.
(** What holds: whatever the capitalisation used to set it, the lower-case name reads the value. *)
Theorem C19_reading_the_lower_case_name : forall U p pl name v src,
  to_lowercase U name <> lit "hardbreaks" ->
  allowed (ctx_of p (to_lowercase U name)) pl = true ->
  attribute_value (fst (apply_entry U p (mkentry pl (mkattr (span_new name) None v src)))) (to_lowercase U name)
  = read_as p (to_lowercase U name) v.
Proof.
  intros U p pl name v src Hn Ha.
  set (e := mkentry pl _). assert (En : entry_name U e = to_lowercase U name).
  { unfold entry_name, remap_attr_name. cbn [e en_attr at_name span_new sp_data]. destruct (text_eqb_spec (to_lowercase U name) (lit "hardbreaks")); [contradiction|reflexivity]. }
  pose proof (apply_entry_cases U p e) as C. cbv zeta in C. rewrite En in C. cbn [en_place e] in C. rewrite Ha in C.
  destruct C as (w & -> & Hr & _). rewrite attribute_value_read. cbn [fst with_attrs p_attrs]. rewrite mget_mput_same. cbn [av_value].
  change v with (at_value (en_attr e)). rewrite <- Hr. apply read_as_defaults. reflexivity.
Qed.
Theorem C19_api_reading_the_lower_case_name : forall U p name v ctx,
  attribute_value (with_intrinsic_attribute U p name v ctx) (to_lowercase U name) = VValue v.
Proof. intros. unfold with_intrinsic_attribute, attribute_value. cbn [p_attrs with_attrs]. rewrite mget_mput_same. reflexivity. Qed.
Example C19_example : to_lowercase ascii_only (lit "FooBar") = lit "foobar" /\
  attribute_value (with_intrinsic_attribute ascii_only parser_default (lit "FooBar") (lit "1") Anywhere) (lit "foobar") = VValue (lit "1").
Proof. vm_compute. split; reflexivity. Qed.

(** C16 at the level of the parser state: the header's implicit writes ignore the lock (see
    also the witness in [Header_Prop]). *)
Theorem C16_implicit_header_write_ignores_lock_refuted :
  exists U p n v, ctx_of p n = Some ApiOnly /\ attribute_value p n = VValue (lit "locked") /\
    attribute_value (set_attribute_by_value_from_header U p n v) n = VValue v /\ v <> lit "locked".
Proof.
  exists ascii_only, (with_intrinsic_attribute ascii_only parser_default (lit "doctitle") (lit "locked") ApiOnly), (lit "doctitle"), (lit "T").
  vm_compute. repeat split; congruence.
Qed.
(** It always overwrites. *)
Theorem C16_implicit_header_write_always_overwrites : forall U p n v,
  attribute_value (set_attribute_by_value_from_header U p n v) (remap_attr_name U n) = VValue v.
Proof. intros. unfold set_attribute_by_value_from_header, attribute_value. cbn [p_attrs with_attrs]. rewrite mget_mput_same. reflexivity. Qed.

(** C20. *)
Theorem C20_next_number : forall n level, 1 <= level ->
  next_number (sn_comps n) level (sn_comps (assign_next_number n level)) /\
  length (sn_comps (assign_next_number n level)) = level /\
  sn_type (assign_next_number n level) = sn_type n.
Proof. exact assign_next. Qed.
(** Over a whole document: consecutive numbers follow the rule, and any later number is
    lexicographically greater than any earlier one. *)
Theorem C20_numbers_are_consecutive : forall levels n,
  Forall (fun l => 1 <= l) levels ->
  length (numbers n levels) = length levels /\
  (forall i l, nth_error levels i = Some l ->
     exists m, nth_error (numbers n levels) i = Some m /\ length (sn_comps m) = l /\ sn_type m = sn_type n /\
       exists prev, nth_error (n :: numbers n levels) i = Some prev /\ next_number (sn_comps prev) l (sn_comps m)).
Proof. exact numbers_spec. Qed.
Theorem C20_numbers_strictly_increase : forall levels n i j a b,
  Forall (fun l => 1 <= l) levels -> i < j ->
  nth_error (n :: numbers n levels) i = Some a -> nth_error (n :: numbers n levels) j = Some b ->
  lex_lt (sn_comps a) (sn_comps b).
Proof. exact numbers_increase. Qed.
(** The order is irreflexive, so numbers are pairwise distinct. *)
Theorem C20_order_is_strict : (forall a, ~ lex_lt a a) /\ (forall a b c, lex_lt a b -> lex_lt b c -> lex_lt a c).
Proof. split; [exact lex_irrefl|exact lex_trans]. Qed.
(** The parser keeps one counter per kind and never touches the other. *)
Theorem C20_parser_counters : forall p level,
  let '(n, p') := assign_section_number p level in
  match p_topmost p with
  | SNormal => n = assign_next_number (p_last p) level /\ p_last p' = n /\ p_last_app p' = p_last_app p
  | SAppendix => n = assign_next_number (p_last_app p) level /\ p_last_app p' = n /\ p_last p' = p_last p
  | SDiscrete => n = p_last p /\ p' = p
  end.
Proof. intros p level. unfold assign_section_number. destruct (p_topmost p); repeat split; reflexivity. Qed.
Example C20_example : map sn_comps (numbers (mksn SNormal []) [1;2;2;1;3;2]) = [[1];[1;1];[1;2];[2];[2;1;1];[2;2]].
Proof. reflexivity. Qed.

(** C55. Numbers of sections never panic when displayed, and different numbers are displayed
    differently. *)
Theorem C55_display_is_total : forall levels ty m,
  In m (numbers (mksn ty []) levels) -> exists t, show_section_number m = Ok t.
Proof. exact numbers_display. Qed.
Theorem C55_display_is_injective : forall a b t,
  sn_type a <> SAppendix -> sn_type b <> SAppendix ->
  sn_comps a <> [] -> sn_comps b <> [] ->
  show_section_number a = Ok t -> show_section_number b = Ok t -> sn_comps a = sn_comps b.
Proof. exact display_inj. Qed.
Theorem C55_appendix_display_is_injective : forall a b t x y ra rb,
  sn_type a = SAppendix -> sn_type b = SAppendix ->
  sn_comps a = x :: ra -> sn_comps b = y :: rb -> 1 <= x <= 26 -> 1 <= y <= 26 ->
  show_section_number a = Ok t -> show_section_number b = Ok t -> sn_comps a = sn_comps b.
Proof. exact display_app_inj. Qed.
(** The first component of an appendix number is shown as one character, always a Unicode scalar value:
    the one after '@' by the number, or a question mark where there is none. *)
Theorem C55_appendix_character : forall x, 1 <= x -> (64 + N.of_nat x < 4294967296)%N ->
  exists c, show_section_number (mksn SAppendix [x]) = Ok [c] /\ (c < 55296 \/ 57344 <= c <= 1114111)%N /\
    (c = 64 + N.of_nat x \/ c = 63 /\ ~ (64 + N.of_nat x < 55296 \/ 57344 <= 64 + N.of_nat x <= 1114111))%N.
Proof.
  intros x Hx Hb. unfold show_section_number. cbn [sn_type sn_comps show_components show_component]. unfold checked_sub. rewrite (proj2 (Nat.leb_le 1 x) Hx). cbn [bind].
  replace (65 + N.of_nat (x - 1))%N with (64 + N.of_nat x)%N by lia. rewrite N.mod_small by lia. unfold from_u32.
  destruct (64 + N.of_nat x <? 55296)%N eqn:A; [apply N.ltb_lt in A; eexists; split; [reflexivity|]; auto|]. destruct (57344 <=? 64 + N.of_nat x)%N eqn:B; [destruct (64 + N.of_nat x <=? 1114111)%N eqn:C|]; cbn [orb andb];
    rewrite ?N.ltb_ge, ?N.leb_le, ?N.leb_gt in *; eexists; (split; [reflexivity|]); try (split; [left; lia|right; split; [reflexivity|lia]]). split; [right; lia|left; reflexivity].
Qed.
Example C55_example : show_section_number (mksn SNormal [2;10;1]) = Ok (lit "2.10.1") /\
  show_section_number (mksn SAppendix [2;10;1]) = Ok (lit "B.10.1").
Proof. vm_compute. split; reflexivity. Qed.

(** C56. Appendix letters. The 27th appendix is not displayed as a letter; the first 26 are. *)
Theorem C56_appendix_27_is_not_a_letter_refuted :
  exists m, In m (numbers (mksn SAppendix []) (repeat 1 27)) /\ show_section_number m = Ok (lit "[").
Proof. exists (mksn SAppendix [27]). split; [vm_compute; tauto|vm_compute; reflexivity]. Qed.
Theorem C56_first_26_appendices_are_letters : forall x, 1 <= x <= 26 ->
  exists c, show_section_number (mksn SAppendix [x]) = Ok [c] /\ is_ascii_upper c = true /\ N.to_nat c = 64 + x.
Proof. exact appendix_letter. Qed.
Example C56_example : show_section_number (mksn SAppendix [26]) = Ok (lit "Z").
Proof. vm_compute. reflexivity. Qed.


(** C21, at the level of the parser's state: the state in which a document is parsed.  The counter of
    the appendices, unlike the other one, is left over from the previous document. *)
Theorem C21_numbers_start_afresh_refuted : exists p p',
  p_attrs p' = p_attrs p /\ p_last (begin_parse p') = p_last (begin_parse p) /\
  snd (assign_section_number (with_topmost (begin_parse p) SAppendix) 1) = p' /\
  fst (assign_section_number (with_topmost (begin_parse p') SAppendix) 1) <> fst (assign_section_number (with_topmost (begin_parse p) SAppendix) 1).
Proof. exists parser_default. eexists. split; [|split; [|split; [reflexivity|]]]; vm_compute; congruence. Qed.
(** Ordinary numbers do start afresh, whatever happened before; a catalog is always there. *)
Theorem C21_ordinary_numbers_start_afresh : forall p levels,
  p_last (begin_parse p) = mksn SNormal [] /\
  numbers (p_last (begin_parse p)) levels = numbers (p_last (begin_parse parser_default)) levels /\
  p_last_app (begin_parse p) = p_last_app p /\ p_attrs (begin_parse p) = p_attrs p /\
  (p_catalog p = None -> p_catalog (begin_parse p) = Some catalog_new) /\ (forall c, p_catalog p = Some c -> p_catalog (begin_parse p) = Some c).
Proof.
  intros p levels. unfold begin_parse. destruct (p_catalog p) as [c|] eqn:E; cbn [p_last p_last_app p_attrs p_catalog with_last with_catalog]; repeat split; try congruence; intros; congruence.
Qed.
Example C21_example : map sn_comps (numbers (p_last (begin_parse (with_last parser_default (mksn SNormal [4])))) [1; 2; 1]) = [[1]; [1; 1]; [2]].
Proof. vm_compute. reflexivity. Qed.

Print Assumptions C15_locked_attribute_is_never_changed.
Print Assumptions C15_refusal_is_reported_at_the_entry.
Print Assumptions C16_implicit_header_write_ignores_lock_refuted.
Print Assumptions C16_implicit_header_write_always_overwrites.
Print Assumptions C17_last_permitted_entry_wins.
Print Assumptions C17_stored_name.
Print Assumptions C17_other_attributes_unaffected.
Print Assumptions C17_refused_entries_are_counted.
Print Assumptions C18_header_only_attribute_frozen_in_body.
Print Assumptions C54_header_write_unlocks_the_body_refuted.
Print Assumptions C54_any_permitted_write_lifts_the_restriction.
Print Assumptions C19_lookup_is_case_sensitive_refuted.
Print Assumptions C19_api_lookup_is_case_sensitive_refuted.
Print Assumptions C19_reading_the_lower_case_name.
Print Assumptions C19_api_reading_the_lower_case_name.
Print Assumptions C20_next_number.
Print Assumptions C20_numbers_are_consecutive.
Print Assumptions C20_numbers_strictly_increase.
Print Assumptions C20_order_is_strict.
Print Assumptions C20_parser_counters.
Print Assumptions C55_display_is_total.
Print Assumptions C55_display_is_injective.
Print Assumptions C55_appendix_display_is_injective.
Print Assumptions C55_appendix_character.
Print Assumptions C56_appendix_27_is_not_a_letter_refuted.
Print Assumptions C56_first_26_appendices_are_letters.
Print Assumptions C21_numbers_start_afresh_refuted.
Print Assumptions C21_ordinary_numbers_start_afresh.
