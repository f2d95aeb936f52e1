(** What is written about warnings and catalogs (C133). *)
From Coq Require Import Permutation.
From Verif Require Import Text TextFacts Maps Catalog_Model Catalog_Spec Catalog_Proof Catalog_Prop Span_Model Parser_Model Header_Model Block_Model Doc_Model Header_Prop Block_Prop Walk_Spec Walk_Proof Walk_Prop Show_Model Show_Spec Show_Proof.

(** A text in quotes can be read back, whatever comes after it and whichever characters are taken to be printable. *)
Theorem C133_texts : forall pc, self_ending (quoted pc).
Proof. exact quoted_ends. Qed.
(** A text of printable characters is written as it is, but for quotes and backslashes. *)
Theorem C133_plain : forall pc t, Forall (fun c => pc c = true /\ ~ In c [0; 9; 10; 13; 34; 92]%N) t -> quoted pc t = [34%N] ++ t ++ [34%N].
Proof.
  intros pc t H. unfold quoted. cbn [app]. f_equal. f_equal. induction H as [|c t (H1 & H2) _ IH]; [reflexivity|]. cbn [flat_map]. rewrite IH. unfold esc_char. rewrite H1. cbn [In] in H2.
  repeat match goal with |- context [(?a =? ?b)%N] => destruct (N.eqb_spec a b); [exfalso; apply H2; subst; tauto|] end. reflexivity.
Qed.
(** The message and the debug form of a warning tell which warning it is, with the names and numbers in it. *)
Theorem C133_messages : forall pc w w', message pc w = message pc w' -> w = w'.
Proof. exact message_inj. Qed.
Theorem C133_warnings : forall pc w w', debug_warning pc w = debug_warning pc w' -> w = w'.
Proof. exact debug_warning_inj. Qed.
(** A map is written in one way, in whatever order it gives its entries: *)
Theorem C133_order : forall V pc (sv : V -> text) m m', NoDup (map fst m) -> Permutation m m' -> show_map pc sv m = show_map pc sv m'.
Proof. intros V pc sv m m' N P. unfold show_map. rewrite (sort_order pc m m' N P). reflexivity. Qed.
(** all of them, in the order of the written keys. *)
Theorem C133_sorted : forall V pc (sv : V -> text) m, NoDup (map fst m) -> exists l, Permutation m l /\ ascending (map (fun e => quoted pc (fst e)) l) /\
  show_map pc sv m = lit "HashMap::from([" ++ join (lit ", ") (map (fun e => lit "(" ++ quoted pc (fst e) ++ lit ", " ++ sv (snd e) ++ lit ")") l) ++ lit "])".
Proof. intros V pc sv m N. exists (sort_keys pc m). split; [apply sort_perm|]. split; [apply sort_asc, N|reflexivity]. Qed.
(** And what is written tells what is in the map, *)
Theorem C133_maps : forall V pc (sv : V -> text) m m' x y, self_ending sv -> NoDup (map fst m) -> show_map pc sv m ++ x = show_map pc sv m' ++ y -> same_map m m' /\ x = y.
Proof. intros V pc sv m m' x y Hs N H. destruct (map_ends pc sv Hs m m' x y H) as (P & E). split; [exact (mget_perm _ _ N P)|exact E]. Qed.
(** so two catalogs are written in the same way just if they have the same entries. *)
Definition one_each (c : catalog) : Prop := NoDup (map fst (cat_refs c)) /\ NoDup (map fst (cat_reftexts c)).
Theorem C133_catalogs : forall pc c c', one_each c -> one_each c' ->
  (show_catalog pc c = show_catalog pc c' <-> (forall id, get_ref c id = get_ref c' id) /\ (forall t, resolve_id c t = resolve_id c' t)).
Proof.
  intros pc c c' (N1 & N2) (M1 & M2). split.
  - intros H. destruct (show_catalog_perm pc c c' H) as (P1 & P2). split; [exact (mget_perm _ _ N1 P1)|exact (mget_perm _ _ N2 P2)].
  - intros (H1 & H2). unfold show_catalog. rewrite (C133_order _ pc (show_ref pc) _ _ N1 (same_perm _ _ N1 M1 H1)), (C133_order _ pc (quoted pc) _ _ N2 (same_perm _ _ N2 M2 H2)). reflexivity.
Qed.
(** Registering keeps one entry for each key. *)
Lemma put_each {V} k (v : V) m : NoDup (map fst m) -> NoDup (map fst (mput k v m)).
Proof.
  intros H. assert (G : forall m : tmap V, map fst (mput k v m) = if mhas k m then map fst m else map fst m ++ [k]).
  { clear. unfold mhas. induction m as [|(k1 & v1) m IH]; [reflexivity|]. cbn [mput mget]. destruct (text_eqb_spec k k1) as [->|N]; [reflexivity|]. cbn [map fst]. rewrite IH. destruct (mget k m); reflexivity. }
  rewrite G. unfold mhas. destruct (mget k m) eqn:E; [exact H|]. apply mget_none in E. apply (Permutation_NoDup (Permutation_cons_append _ k)). constructor; assumption.
Qed.
Lemma insert_each c id rt ty : one_each c -> one_each (insert_ref c id rt ty).
Proof.
  intros (H1 & H2). unfold insert_ref. split; cbn [cat_refs cat_reftexts]; [apply put_each, H1|]. destruct rt as [t|]; [|exact H2]. unfold mput_new. destruct (mhas t (cat_reftexts c)); [exact H2|apply put_each, H2].
Qed.
Theorem C133_register : forall c id rt ty, one_each c -> one_each (snd (register_ref c id rt ty)).
Proof. intros c id rt ty H. unfold register_ref. destruct (mhas id (cat_refs c)); [exact H|apply insert_each, H]. Qed.
Theorem C133_generate : forall c base rt ty id c', one_each c -> generate_unique c base rt ty = Ok (id, c') -> one_each c'.
Proof. intros c base rt ty id c' H K. unfold generate_unique in K. destruct (if negb (contains_id c base) then _ else _) as [i| |]; cbn [bind] in K; try discriminate K. injection K as <- <-. apply insert_each, H. Qed.
(** In the catalog of a document there is one entry for each id, so its part of ids is written in the same way for two documents just if
    they have the same ids, with the same texts and types. *)
Theorem C133_documents : forall pc E E' fuel fuel' t t' sm sm' P Q d d' P' Q' c c', p_catalog P = Some c -> agrees c [] -> p_catalog Q = Some c' -> agrees c' [] ->
  document_parse E fuel t sm P = Ok (d, P') -> document_parse E' fuel' t' sm' Q = Ok (d', Q') ->
  (show_map pc (show_ref pc) (cat_refs (d_catalog d)) = show_map pc (show_ref pc) (cat_refs (d_catalog d')) <-> forall id, get_ref (d_catalog d) id = get_ref (d_catalog d') id).
Proof.
  intros pc E E' fuel fuel' t t' sm sm' P Q d d' P' Q' c c' H1 H2 H3 H4 H5 H6. pose proof (C84_catalog _ _ _ _ _ _ _ _ H1 H2 H5) as A. pose proof (C84_catalog _ _ _ _ _ _ _ _ H3 H4 H6) as A'.
  assert (N : NoDup (map fst (cat_refs (d_catalog d)))) by (pose proof (agrees_keys _ _ A) as K; unfold mkeys in K; rewrite K; exact (ag_nodup _ _ A)). assert (N' : NoDup (map fst (cat_refs (d_catalog d')))) by (pose proof (agrees_keys _ _ A') as K; unfold mkeys in K; rewrite K; exact (ag_nodup _ _ A')).
  split; [intros H; refine (proj1 (C133_maps _ pc (show_ref pc) _ _ [] [] (show_ref_ends pc) N _)); rewrite H; reflexivity|intros H; exact (C133_order _ pc _ _ _ N (same_perm _ _ N N' H))].
Qed.
(** * Cases *)
Example documents_meet : p_catalog (begin_parse parser_default) = Some catalog_new /\ agrees catalog_new [] /\ exists d P, parse_with E0 40 (lines [lit "[#b]"; lit "one"; []; lit "== A"]) = Ok (d, P) /\ show_map (fun _ => true) (show_ref (fun _ => true)) (cat_refs (d_catalog d)) = lit "HashMap::from([(""_a"", RefEntry { id: ""_a"", reftext: Some(""A""), ref_type: RefType::Section }), (""b"", RefEntry { id: ""b"", reftext: None, ref_type: RefType::Anchor })])".
Proof. split; [reflexivity|]. split; [exact agrees_new|]. do 2 eexists. split; vm_compute; reflexivity. Qed.
Definition ascii_plain (c : char) : bool := (32 <=? c)%N && (c <? 127)%N.
Example show_meets : message ascii_plain (WDuplicateId (lit "a""b\" ++ [10; 233]%N)) = lit "Duplicate ID: ""a\""b\\\n\u{e9}"" is already registered" /\
  debug_warning ascii_plain (WSectionHeadingLevelSkipped 1 3) = lit "WarningType::SectionHeadingLevelSkipped(1, 3)".
Proof. split; vm_compute; reflexivity. Qed.
Definition two_refs : catalog := snd (register_ref (snd (register_ref catalog_new (lit "b") (Some (lit "B")) RSection)) (lit "a") None RAnchor).
Definition two_refs_back : catalog := snd (register_ref (snd (register_ref catalog_new (lit "a") None RAnchor)) (lit "b") (Some (lit "B")) RSection).
Example catalog_meets : one_each two_refs /\ one_each two_refs_back /\ two_refs <> two_refs_back /\ show_catalog ascii_plain two_refs = show_catalog ascii_plain two_refs_back /\
  show_catalog ascii_plain two_refs = lit "Catalog { refs: HashMap::from([(""a"", RefEntry { id: ""a"", reftext: None, ref_type: RefType::Anchor }), (""b"", RefEntry { id: ""b"", reftext: Some(""B""), ref_type: RefType::Section })]), reftext_to_id: HashMap::from([(""B"", ""b"")]) }".
Proof.
  assert (N : one_each catalog_new) by (split; constructor). split; [apply C133_register, C133_register, N|]. split; [apply C133_register, C133_register, N|]. split; [discriminate|]. split; vm_compute; reflexivity.
Qed.
Example plain_meets : quoted ascii_plain (lit "a b-1!") = lit """a b-1!""" /\ Forall (fun c => ascii_plain c = true /\ ~ In c [0; 9; 10; 13; 34; 92]%N) (lit "a b-1!").
Proof. split; [vm_compute; reflexivity|]. repeat (apply Forall_cons; [split; [reflexivity|cbn; intuition discriminate]|]). apply Forall_nil. Qed.
(** * The order is not that of the keys themselves *)
(** The quote at the end is compared too, so an id may come before one that it goes on from. *)
Theorem C133_key_order_refuted : exists a b : text, before a b /\ forall pc, pc 33%N = true -> pc 97%N = true -> sort_keys pc [(a, tt); (b, tt)] = [(b, tt); (a, tt)].
Proof. exists (lit "a"), (lit "a!"). split; [apply be_more, be_end|]. intros pc H1 H2. unfold sort_keys, fold_right, sort_in, quoted, esc_char. cbn. rewrite H1, H2. cbn. reflexivity. Qed.
Print Assumptions C133_texts.
Print Assumptions C133_plain.
Print Assumptions C133_messages.
Print Assumptions C133_warnings.
Print Assumptions C133_order.
Print Assumptions C133_sorted.
Print Assumptions C133_maps.
Print Assumptions C133_catalogs.
Print Assumptions C133_register.
Print Assumptions C133_generate.
Print Assumptions C133_documents.
Print Assumptions C133_key_order_refuted.
