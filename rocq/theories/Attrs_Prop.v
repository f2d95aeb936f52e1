(** Properties of the attributes of a whole document: C110, C111. *)
From Verif Require Import Text TextFacts Maps Span_Model Span_Proof Span_Laws Parser_Model Parser_Spec Parser_Proof Subs_Model Subs_Spec Subs_Proof Subs_Prop
  Header_Model Header_Spec Header_Prop Block_Model Block_Prop Doc_Model Walk_Spec Walk_Proof Attrs_Spec Attrs_Proof.

(** ** C111: the attributes of a document *)
(** A header has parts, in the order of its lines; each is read with the attributes that the parts before it
    left.  What becomes of every attribute is what these parts and then the entries of the body make of it. *)
Theorem C111_document : forall E fuel t sm P d P', sane P -> document_parse E fuel t sm P = Ok (d, P') ->
  exists l, header_parts E P (d_header d) l /\
    forall n, now P' n = fate (e_u E) (read_as P n) n (now P n) (flat_map deeds l ++ map DEntry (entries (flat_map events (d_blocks d)))).
Proof. intros E fuel t sm P d P' (S & _) H. destruct (document_led _ _ _ _ _ _ _ S H) as (l & Hp & _ & L). exists l. auto. Qed.
Theorem C111_header : forall E s P hd af ws P', header_parse E s P = Ok (mkmi hd af, (ws, P')) ->
  exists l, header_parts E P hd l /\ forall n, now P' n = fate (e_u E) (read_as P n) n (now P n) (flat_map deeds l).
Proof. intros E s P hd af ws P' H. destruct (header_led _ _ _ _ _ _ _ H) as (l & Hp & _ & L). exists l. auto. Qed.
(** Names that the header does not imply have the value of the last entry that was permitted, in the header or the body. *)
Definition all_entries (d : document) : list entry := map (mkentry InHeader) (h_attrs (d_header d)) ++ entries (flat_map events (d_blocks d)).
Lemma by_entries E fuel t sm P d P' n : sane P -> document_parse E fuel t sm P = Ok (d, P') -> ~ implied_name n ->
  now P' n = now (fst (run_entries (e_u E) P (all_entries d))) n.
Proof.
  intros S H N. destruct (C111_document _ _ _ _ _ _ _ S H) as (l & (He & _) & L). rewrite L, fate_app, fate_entries, <- fate_app, <- map_app by exact N. rewrite He.
  symmetry. apply (led_run (e_u E) (all_entries d) P).
Qed.
Theorem C111_last_entry_wins : forall E fuel t sm P d P' n, sane P -> document_parse E fuel t sm P = Ok (d, P') -> ~ implied_name n ->
  attribute_value P' n = last (map (fun e => read_as P n (at_value (en_attr e))) (permitted (ctx_of P n) (filter (about (e_u E) n) (all_entries d)))) (attribute_value P n).
Proof.
  intros E fuel t sm P d P' n S H N. pose proof (by_entries _ _ _ _ _ _ _ _ S H N) as Q. apply (f_equal snd) in Q. cbn [now snd] in Q. rewrite Q. apply run_value.
Qed.
(** A locked attribute that the header does not imply is the same after every document. *)
Theorem C111_locked : forall E fuel t sm P d P' n, sane P -> document_parse E fuel t sm P = Ok (d, P') -> ~ implied_name n -> ctx_of P n = Some ApiOnly ->
  now P' n = now P n.
Proof.
  intros E fuel t sm P d P' n S H N C. destruct (C111_document _ _ _ _ _ _ _ S H) as (l & _ & L). rewrite L. unfold now at 1. rewrite C. rewrite fate_locked; [unfold now; rewrite C; reflexivity|].
  intros x Hx. destruct x as [e|m v]; [exact I|]. intros ->. apply N. apply in_app_iff in Hx. destruct Hx as [Hx|Hx].
  - apply in_flat_map in Hx. destruct Hx as (p & _ & Hp). eapply implied_part; exact Hp.
  - apply in_map_iff in Hx. destruct Hx as (e & X & _). discriminate X.
Qed.
(** What is set and not mentioned stays. *)
Theorem C111_untouched : forall E fuel t sm P d P' n, sane P -> document_parse E fuel t sm P = Ok (d, P') -> ~ implied_name n -> Forall (fun e => entry_name (e_u E) e <> n) (all_entries d) ->
  now P' n = now P n.
Proof.
  intros E fuel t sm P d P' n S H N F. rewrite (by_entries _ _ _ _ _ _ _ _ S H N). pose proof (led_run (e_u E) (all_entries d) P) as (_ & L). rewrite L. apply fate_apart.
  intros x Hx. apply in_map_iff in Hx. destruct Hx as (e & <- & He). rewrite Forall_forall in F. intros ->. exact (F e He eq_refl).
Qed.
(** What an author entry says about the author: the parts of the name, the initials and the address. *)
Theorem C111_author_entry : forall U a P P1, set_author_entry U a P = Ok P1 -> exists who, names U P a who /\
  forall n, now P1 n = fate U (read_as P n) n (now P n) (match who with Some x => named x | None => [] end).
Proof. intros U a P P1 H. destruct (author_entry_deeds _ _ _ _ H) as (who & N & _ & L). eauto. Qed.
Definition book : text := lines [lit "= My Book"; lit "Ann Lee; Bo_B. Cox <b@x.org>"; lit "v1.2, 2020: first"; lit ":a: one"; lit ":author: Di E. Fox <d@x.org>"; []; lit ":a: {a} two"; []; lit "== Part"; []; lit ":toc: left"; []; lit ":!b:"; []; lit "Text."].
Example C111_example : exists d P', parse_with E0 40 book = Ok (d, P') /\ sane parser_default /\
  map (attribute_value P') [lit "doctitle"; lit "author"; lit "firstname"; lit "middlename"; lit "authorinitials"; lit "email"; lit "author_2"; lit "lastname_2"; lit "email_2"; lit "revnumber"; lit "a"; lit "toc"] =
    map VValue [lit "My Book"; lit "Di E. Fox &lt;d@x.org&gt;"; lit "Di"; lit "E."; lit "DEF"; lit "d@x.org"; lit "Bo B. Cox"; lit "Cox"; lit "b@x.org"; lit "1.2"; lit "one two"] ++ [VUnset].
Proof. eexists. eexists. split; [vm_compute; reflexivity|]. split; [repeat split; discriminate|]. vm_compute. reflexivity. Qed.

(** ** C110: predefined attributes *)
(** Those of the character replacements that exist have the documented value after every document, and a
    reference to one of them becomes that value. *)
Theorem C110_character_replacements : forall E fuel t sm d P' n v, document_parse E fuel t sm parser_default = Ok (d, P') -> In (n, v) replacement_table -> In n [lit "empty"; lit "sp"; lit "deg"; lit "plus"] ->
  attribute_value P' n = VValue v /\ forall U r o, apply_attributes U P' (ref n ++ r) = Ok o -> exists o', apply_attributes U P' r = Ok o' /\ o = v ++ o'.
Proof.
  intros E fuel t sm d P' n v H T I.
  assert (X : ~ implied_name n /\ is_name n /\ now parser_default n = (Some ApiOnly, VValue v)).
  { assert (Nm : forall b i x, In b author_names -> In UND x = False \/ ~ In UND x -> ~ In x author_names -> x <> nth_name b i).
    { intros b i x Hb Hu Hx ->. destruct i; [exact (Hx Hb)|]. destruct Hu as [Hu|Hu]; [rewrite <- Hu|apply Hu]; cbn [nth_name]; apply in_or_app; right; left; reflexivity. }
    assert (G : forallb (fun x => negb (existsb (text_eqb x) ([lit "doctitle"; lit "revnumber"; lit "revdate"; lit "revremark"] ++ author_names)) && negb (has_char UND x)) [lit "empty"; lit "sp"; lit "deg"; lit "plus"] = true) by (vm_compute; reflexivity).
    rewrite forallb_forall in G. specialize (G n I). rewrite andb_true_iff, !negb_true_iff in G. destruct G as (G1 & G2). apply has_char_false in G2.
    assert (G1' : ~ In n ([lit "doctitle"; lit "revnumber"; lit "revdate"; lit "revremark"] ++ author_names)).
    { intros Y. assert (existsb (text_eqb n) ([lit "doctitle"; lit "revnumber"; lit "revdate"; lit "revremark"] ++ author_names) = true) by (apply existsb_exists; exists n; split; [exact Y|apply text_eqb_refl]). congruence. }
    split; [intros [Y|(b & i & Hb & Y)]|].
    - apply G1', in_or_app. left. exact Y.
    - apply (Nm b i n Hb); auto. intros Z. apply G1', in_or_app. right. exact Z.
    - assert (W : forall m, In m [lit "empty"; lit "sp"; lit "deg"; lit "plus"] -> is_name m).
      { intros m Hm. cbn [In] in Hm. destruct Hm as [<-|[<-|[<-|[<-|[]]]]]; eexists; eexists; (split; [vm_compute; reflexivity|]); (split; [unfold name_first; lia|]); repeat (apply Forall_cons; [unfold name_char, name_first; lia|]); apply Forall_nil. }
      split; [exact (W n I)|].
      assert (K : forallb (fun p => if existsb (text_eqb (fst p)) [lit "empty"; lit "sp"; lit "deg"; lit "plus"] then match now parser_default (fst p) with (Some ApiOnly, VValue x) => text_eqb x (snd p) | _ => false end else true) replacement_table = true) by (vm_compute; reflexivity).
      rewrite forallb_forall in K. specialize (K _ T). cbn [fst snd] in K. assert (Ex : existsb (text_eqb n) [lit "empty"; lit "sp"; lit "deg"; lit "plus"] = true) by (apply existsb_exists; exists n; split; [exact I|apply text_eqb_refl]).
      rewrite Ex in K. destruct (now parser_default n) as [[[| | |]|] [x| |]]; try discriminate K. destruct (text_eqb_spec x v) as [Ev|Ev]; [congruence|discriminate K]. }
  destruct X as (N & Hn & Hw). assert (S : sane parser_default) by (repeat split; discriminate).
  assert (C : ctx_of parser_default n = Some ApiOnly) by (apply (f_equal fst) in Hw; exact Hw).
  pose proof (C111_locked _ _ _ _ _ _ _ _ S H N C) as L. rewrite Hw in L. apply (f_equal snd) in L. cbn [now snd] in L. split; [exact L|]. intros U r o Ho. eapply (C39_values_are_not_scanned_again U P' n v); [exact Hn| |exact Ho].
  unfold value_of. rewrite L. unfold has_attribute, mhas. unfold attribute_value in L. destruct (mget n (p_attrs P')); [reflexivity|discriminate L].
Qed.
Example C110_example : exists d P', parse_with E0 30 (lines [lit ":deg: x"; []; lit "21{deg}C{sp}{plus}{empty}2"]) = Ok (d, P') /\ map rendered (d_blocks d) = [Some (lit "21&#176;C &#43;2")] /\ map w_type (d_warnings d) = [WAttributeValueIsLocked (lit "deg")].
Proof. eexists. eexists. split; [vm_compute; reflexivity|]. vm_compute. auto. Qed.
(** The other replacements of the table do not exist: a reference to one of them stays. *)
Theorem C110_character_replacements_refuted : exists n v, In (n, v) replacement_table /\ v = lit "&#160;" /\
  exists d P', parse_with E0 30 (ref n) = Ok (d, P') /\ map rendered (d_blocks d) = [Some (ref n)].
Proof. exists (lit "nbsp"), (lit "&#160;"). split; [cbn; tauto|]. split; [reflexivity|]. eexists. eexists. split; [vm_compute; reflexivity|]. vm_compute. reflexivity. Qed.
Theorem C110_missing_replacements : forall n v, In (n, v) replacement_table -> ~ In n [lit "empty"; lit "sp"; lit "deg"; lit "plus"] -> attribute_value parser_default n = VUnset /\ has_attribute parser_default n = false.
Proof.
  intros n v H N. assert (K : forallb (fun p => if existsb (text_eqb (fst p)) [lit "empty"; lit "sp"; lit "deg"; lit "plus"] then true else match now parser_default (fst p) with (None, VUnset) => negb (has_attribute parser_default (fst p)) | _ => false end) replacement_table = true) by (vm_compute; reflexivity).
  rewrite forallb_forall in K. specialize (K _ H). cbn [fst] in K. destruct (existsb (text_eqb n) _) eqn:Ex.
  { destruct N. apply existsb_exists in Ex. destruct Ex as (x & Hx & Ex). destruct (text_eqb_spec n x) as [->|]; [exact Hx|discriminate Ex]. }
  unfold now in K. destruct (ctx_of parser_default n); [discriminate K|]. destruct (attribute_value parser_default n); try discriminate K. rewrite negb_true_iff in K. auto.
Qed.
(** "The AsciiDoc processor does not prevent you from reassigning these predefined attributes." *)
Theorem C110_reassigning_refuted : exists d P', parse_with E0 30 (lines [lit ":plus: and"; []; lit "1 {plus} 2"]) = Ok (d, P') /\
  map rendered (d_blocks d) = [Some (lit "1 &#43; 2")] /\ map w_type (d_warnings d) = [WAttributeValueIsLocked (lit "plus")].
Proof. eexists. eexists. split; [vm_compute; reflexivity|]. vm_compute. auto. Qed.
(** The settings have the documented values, and those for the header can be changed there only; of the
    documented rows [sectnumlevels] is the exception. *)
Theorem C110_settings : forall n o h, In (n, (o, h)) settings_table -> n <> lit "sectnumlevels" ->
  now parser_default n = (Some (if h then ApiOrHeader else Anywhere), match o with Some [] => VSet | Some v => VValue v | None => VUnset end).
Proof. intros n o h H N. cbn [settings_table In] in H. repeat (destruct H as [H|H]; [injection H as <- <- <-; first [contradiction|vm_compute; reflexivity]|]). destruct H. Qed.
(** It is not marked as an attribute for the header only, and the value 3 is implied: "An implied value can't be
    resolved using an attribute reference."  In a body it is locked, and a reference is resolved. *)
Theorem C110_sectnumlevels_refuted : In (lit "sectnumlevels", (None, false)) settings_table /\
  exists d P' b, parse_with E0 30 (lines [lit "{sectnumlevels}"; []; lit ":sectnumlevels: 1"]) = Ok (d, P') /\ map rendered (d_blocks d) = [Some (lit "3"); b] /\ map w_type (d_warnings d) = [WAttributeValueIsLocked (lit "sectnumlevels")].
Proof. split; [cbn; tauto|]. eexists. eexists. eexists. split; [vm_compute; reflexivity|]. vm_compute. auto. Qed.
(** "An attribute reference will resolve to an empty value rather than the effective value." *)
Theorem C110_effective_value_refuted : exists d P', parse_with E0 30 (lines [lit ":toc:"; lit ":sectnums:"; []; lit "[{toc}] [{sectnums}]"]) = Ok (d, P') /\ map rendered (d_blocks d) = [Some (lit "[auto] [all]")].
Proof. eexists. eexists. split; [vm_compute; reflexivity|]. vm_compute. reflexivity. Qed.
(** What is read from an attribute that an entry merely sets: a default for four names, nothing for the others. *)
Theorem C110_defaults : forall n, read_as parser_default n VSet =
  if text_eqb n (lit "example-caption") then VValue (lit "Example") else if text_eqb n (lit "iconsdir") then VValue (lit "./images/icons") else
  if text_eqb n (lit "sectnums") then VValue (lit "all") else if text_eqb n (lit "toc") then VValue (lit "auto") else VSet.
Proof. intros n. unfold read_as. cbn [parser_default p_defaults built_in_default_values mget]. repeat match goal with |- context [text_eqb ?a ?b] => destruct (text_eqb a b); [reflexivity|] end. reflexivity. Qed.
(** "Defaults to the icons folder under [imagesdir] if [imagesdir] is specified and [iconsdir] is not." *)
Theorem C110_iconsdir_refuted : exists d P', parse_with E0 30 (lines [lit ":imagesdir: img"; []; lit "{iconsdir}"]) = Ok (d, P') /\ map rendered (d_blocks d) = [Some (lit "./images/icons")].
Proof. eexists. eexists. split; [vm_compute; reflexivity|]. vm_compute. reflexivity. Qed.
Print Assumptions C111_document.
Print Assumptions C111_header.
Print Assumptions C111_last_entry_wins.
Print Assumptions C111_locked.
Print Assumptions C111_untouched.
Print Assumptions C111_author_entry.
Print Assumptions C110_character_replacements.
Print Assumptions C110_character_replacements_refuted.
Print Assumptions C110_missing_replacements.
Print Assumptions C110_reassigning_refuted.
Print Assumptions C110_settings.
Print Assumptions C110_sectnumlevels_refuted.
Print Assumptions C110_effective_value_refuted.
Print Assumptions C110_defaults.
Print Assumptions C110_iconsdir_refuted.
