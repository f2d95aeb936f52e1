(** Properties of whole documents: section numbers, section types, ids, reference texts, the preamble
    (C81-C87). *)
From Verif Require Import Text TextFacts Maps Span_Model Span_Pure Span_Proof Span_Laws Span_Spec Catalog_Model Catalog_Spec Catalog_Proof Parser_Model Parser_Spec Parser_Proof SourceMap_Model Subs_Model Attrlist_Model
  Entry_Model Pre_Model Group_Model SecId_Model Header_Model Header_Spec Header_Proof Header_Prop Block_Model Block_Spec Block_Proof Doc_Model Block_Prop Shape_Proof Walk_Spec Walk_Proof.

(** ** C81: section numbers *)
(** On a walk through the document, a section has a number exactly when it is not a discrete heading, not
    deeper than [sectnumlevels], and [sectnums] is set by the entries before it; and the number is the one
    after the last number of its type. *)
Theorem C81_numbers : forall E fuel t sm P h d P', sane P -> header_parse E (span_new t) P = Ok h -> document_parse E fuel t sm P = Ok (d, P') ->
  numbered (e_u E) (with_levels (snd (snd h)) (sectnumlevels (snd (snd h)))) (flat_map events (d_blocks d)).
Proof. intros E fuel t sm P h d P' Hs Hh H. exact (proj1 (document_numbers _ _ _ _ _ _ _ _ Hs Hh H)). Qed.
(** The hypothesis on the parser holds at first, and parsing keeps it, as setting attributes does. *)
Theorem C81_parsers_are_sane : sane parser_default /\ (forall U P n v c, sane P -> sane (with_intrinsic_attribute U P n v c)) /\ (forall U P n v c, sane P -> sane (with_intrinsic_attribute_bool U P n v c)) /\
  (forall P, sane P -> sane (begin_parse P)) /\ (forall E ifh f1 f2 t P d P', sane P -> parser_parse E ifh f1 f2 t P = Ok (d, P') -> sane P').
Proof.
  assert (B : forall P, sane P -> sane (begin_parse P)). { intros P (A & B & C). unfold begin_parse. destruct (p_catalog P); repeat split; assumption. }
  split; [repeat split; discriminate|]. split; [intros; assumption|]. split; [intros; assumption|]. split; [exact B|].
  intros E ifh f1 f2 t P d P' Hs H. unfold parser_parse in H. apply bind_ok in H. destruct H as (p & _ & H). destruct (document_inv _ _ _ _ _ _ _ H) as (h & _ & Hh & _). exact (proj2 (document_numbers _ _ _ _ _ _ _ _ (B P Hs) Hh H)).
Qed.
(** So of two numbered sections of the same type the later one has the greater number. *)
Definition lex_le (a b : list nat) : Prop := a = b \/ lex_lt a b.
Lemma last_app ty l : forall n0 e, last_number ty n0 (l ++ [e]) = match e with ESection _ ty' (Some n) => if same_type ty ty' then sn_comps n else last_number ty n0 l | _ => last_number ty n0 l end.
Proof. induction l as [|x l IH]; intros n0 e; cbn [app last_number]; [destruct e as [|? ? [|]]; reflexivity|]. destruct x as [|? ? [|]]; apply IH. Qed.
Lemma same_type_eq a b : same_type a b = true <-> a = b.
Proof. destruct a, b; split; (discriminate || reflexivity). Qed.
Lemma below_last U P ty l : numbered U P l -> forall pre post, l = pre ++ post -> (forall level n, In (ESection level ty (Some n)) pre -> lex_le (sn_comps n) (last_number ty (first_number P ty) pre)) .
Proof.
  intros H pre. induction pre as [|e pre IH] using rev_ind; intros post D level n Hin; [destruct Hin|]. rewrite <- app_assoc in D. cbn [app] in D. rewrite last_app. apply in_app_iff in Hin. destruct Hin as [Hin|[->|[]]].
  - specialize (IH _ D level n Hin). destruct e as [|level' ty' [m|]]; [exact IH| |exact IH]. destruct (same_type ty ty') eqn:T; [|exact IH]. apply same_type_eq in T. subst ty'. specialize (H pre level' ty (Some m) post D). cbn in H. destruct H as (_ & _ & _ & _ & Hl & Hn).
    assert (L : 1 <= level'). { destruct (Nat.eq_dec level' 0) as [->|]; [|lia]. destruct Hn as [(K & _)|(_ & a & x & b & _ & K & _)]; lia. }
    right. pose proof (next_lex _ _ _ L Hn) as K. destruct IH as [->|IH]; [exact K|exact (lex_trans _ _ _ IH K)].
  - rewrite (proj2 (same_type_eq ty ty) eq_refl). left. reflexivity.
Qed.
Theorem C81_numbers_increase : forall U P l, numbered U P l -> forall pre l1 ty n1 mid l2 n2 post,
  l = pre ++ ESection l1 ty (Some n1) :: mid ++ ESection l2 ty (Some n2) :: post -> lex_lt (sn_comps n1) (sn_comps n2).
Proof.
  intros U P l H pre l1 ty n1 mid l2 n2 post D. assert (D' : l = (pre ++ ESection l1 ty (Some n1) :: mid) ++ ESection l2 ty (Some n2) :: post) by (rewrite D, <- app_assoc; reflexivity).
  pose proof (below_last U P ty l H _ _ D' l1 n1) as B. specialize (H _ _ _ _ _ D'). cbn in H. destruct H as (_ & _ & _ & _ & _ & Hn).
  assert (L : 1 <= l2). { destruct (Nat.eq_dec l2 0) as [->|]; [|lia]. destruct Hn as [(K & _)|(_ & a & x & b & _ & K & _)]; lia. }
  pose proof (next_lex _ _ _ L Hn) as K. destruct B as [->|B]; [apply in_app_iff; right; left; reflexivity|exact K|exact (lex_trans _ _ _ B K)].
Qed.
Definition numbered_sample : text := lines [lit "= T"; lit ":sectnums:"; []; lit "== A"; []; lit "=== B"; []; lit ":!sectnums:"; []; lit "== C"; []; lit ":sectnums:"; []; lit "== D"; []; lit "[appendix]"; lit "== E"; []; lit "=== F"; []; lit "[discrete]"; lit "== G"].
Example C81_example : exists d P, parse_with E0 60 numbered_sample = Ok (d, P) /\
  flat_map (fun e => match e with ESection l ty n => [(l, ty, option_map sn_comps n)] | _ => [] end) (flat_map events (d_blocks d)) =
  [(1, SNormal, Some [1]); (2, SNormal, Some [1;1]); (1, SNormal, None); (1, SNormal, Some [2]); (1, SAppendix, Some [1]); (2, SAppendix, Some [1;1]); (1, SDiscrete, None)].
Proof. eexists. eexists. split; vm_compute; reflexivity. Qed.
(** The limit: a decimal number, perhaps with a plus sign, that fits in a machine word of 64 bits; 3 for everything else. *)
Inductive decimal_value : text -> N -> Prop :=
| dv_nil : decimal_value [] 0%N
| dv_digit d k n : decimal_value d n -> (k <= 9)%N -> decimal_value (d ++ [(48 + k)%N]) (10 * n + k)%N.
Definition is_number (t : text) (n : N) : Prop := exists d, (t = d \/ t = lit "+" ++ d) /\ d <> [] /\ decimal_value d n /\ (n < 2 ^ 64)%N.
Lemma decimal_iff d : (forall n, decimal_value d n -> forallb is_ascii_digit d = true /\ fold_left (fun acc c => (acc * 10 + (c - 48))%N) d 0%N = n) /\
  (forallb is_ascii_digit d = true -> decimal_value d (fold_left (fun acc c => (acc * 10 + (c - 48))%N) d 0%N)).
Proof.
  induction d as [|c d IH] using rev_ind.
  - split; [|intros _; constructor]. intros n H. remember [] as x eqn:E in H. destruct H as [|? ? ? ? _]; [split; reflexivity|destruct d; discriminate E].
  - rewrite forallb_app, fold_left_app. cbn [forallb fold_left]. rewrite andb_true_r. split.
    + intros n H. remember (d ++ [c]) as x eqn:E in H. destruct H as [|d' k n H Hk]; [destruct d; discriminate E|]. apply app_last_eq in E. destruct E as [-> E]. subst c. destruct (proj1 IH n H) as [-> ->]. split; [|lia].
      unfold is_ascii_digit. cbn [andb]. apply andb_true_iff. rewrite !N.leb_le. lia.
    + intros H. apply andb_true_iff in H. destruct H as [H1 H2]. specialize (proj2 IH H1). intros D. unfold is_ascii_digit in H2. apply andb_true_iff in H2. rewrite !N.leb_le in H2.
      replace (fold_left (fun acc c => (acc * 10 + (c - 48))%N) d 0 * 10 + (c - 48))%N with (10 * fold_left (fun acc c => (acc * 10 + (c - 48))%N) d 0 + (c - 48))%N by lia. replace [c] with [(48 + (c - 48))%N] by (f_equal; lia). apply dv_digit; [exact D|lia].
Qed.
Lemma parse_usize_iff t n : parse_usize t = Some (N.to_nat n) <-> is_number t n.
Proof.
  unfold parse_usize, is_number. set (d := match t with c :: r => if (c =? 43)%N then r else t | [] => [] end).
  assert (D : forall d', d' <> [] -> forallb is_ascii_digit d' = true -> (t = d' \/ t = lit "+" ++ d') -> d' = d).
  { intros d' N F [->| ->]; unfold d; [|reflexivity]. destruct d' as [|c r]; [reflexivity|]. destruct (c =? 43)%N eqn:E; [|reflexivity]. apply N.eqb_eq in E. subst c. discriminate F. }
  assert (T : d <> [] -> t = d \/ t = lit "+" ++ d). { unfold d. destruct t as [|c r]; [auto|]. destruct (c =? 43)%N eqn:E; [|auto]. apply N.eqb_eq in E. subst c. auto. }
  clearbody d. split.
  - intros H. assert (Nd : d <> []) by (intros ->; discriminate H). destruct d as [|c r] eqn:Ed; [congruence|]. rewrite <- Ed in *. destruct (forallb is_ascii_digit d) eqn:F; [|discriminate H]. destruct (_ <=? usize_max)%N eqn:L in H; [|discriminate H]. apply Some_inj, N2Nat.inj in H. subst n. apply N.leb_le in L.
    exists d. split; [exact (T Nd)|]. split; [exact Nd|]. split; [exact (proj2 (decimal_iff d) F)|]. unfold usize_max in L. lia.
  - intros (d' & Ht & Nd & V & L). destruct (proj1 (decimal_iff d') n V) as [F E]. rewrite <- (D d' Nd F Ht). destruct d' as [|c r] eqn:Ed; [congruence|]. rewrite <- Ed in *. rewrite F, E. replace (n <=? usize_max)%N with true; [reflexivity|]. symmetry. apply N.leb_le. unfold usize_max. lia.
Qed.
Theorem C81_limit : forall P k, sectnumlevels P = k <->
  (exists v n, attribute_value P (lit "sectnumlevels") = VValue v /\ is_number v n /\ k = N.to_nat n) \/
  ((forall v n, attribute_value P (lit "sectnumlevels") = VValue v -> ~ is_number v n) /\ k = 3).
Proof.
  intros P k. unfold sectnumlevels. destruct (attribute_value P (lit "sectnumlevels")) as [v| |]; cbn [as_maybe_str].
  - destruct (parse_usize v) as [m|] eqn:E.
    + rewrite <- (Nat2N.id m) in E. apply parse_usize_iff in E. split.
      * intros <-. left. exists v, (N.of_nat m). rewrite Nat2N.id. auto.
      * intros [(v' & n & Ev & Hn & ->)|(H & _)]; [|destruct (H v _ eq_refl E)]. injection Ev as <-. apply parse_usize_iff in E, Hn. rewrite E in Hn. apply Some_inj in Hn. rewrite Nat2N.id in Hn. exact Hn.
    + assert (K : forall n, ~ is_number v n) by (intros n Hn; apply parse_usize_iff in Hn; congruence). split.
      * intros <-. right. split; [|reflexivity]. intros v' n Ev. injection Ev as <-. apply K.
      * intros [(v' & n & Ev & Hn & _)|(_ & ->)]; [injection Ev as <-; destruct (K n Hn)|reflexivity].
  - split; [intros <-; right; split; [intros v n H; discriminate H|reflexivity]|]. intros [(v & n & H & _)|(_ & ->)]; [discriminate H|reflexivity].
  - split; [intros <-; right; split; [intros v n H; discriminate H|reflexivity]|]. intros [(v & n & H & _)|(_ & ->)]; [discriminate H|reflexivity].
Qed.
Example C81_limit_example : is_number (lit "+05") 5%N /\ ~ is_number (lit "2 ") 2%N /\ ~ is_number (lit "18446744073709551616") 18446744073709551616%N.
Proof. split; [apply parse_usize_iff; vm_compute; reflexivity|]. split; [intros H; apply parse_usize_iff in H; vm_compute in H; discriminate H|]. intros (d & _ & _ & _ & L). revert L. apply N.nlt_ge. vm_compute. discriminate. Qed.
(** Expected: the value -1 numbers nothing at all (numbers.adoc).  But it counts as 3. *)
Theorem C81_minus_one_refuted : exists t d P level n, t = lines [lit "= T"; lit ":sectnums:"; lit ":sectnumlevels: -1"; []; lit "==== A"] /\ parse_with E0 30 t = Ok (d, P) /\
  flat_map (fun e => match e with ESection l _ (Some n) => [(l, n)] | _ => [] end) (flat_map events (d_blocks d)) = [(level, n)].
Proof. exists (lines [lit "= T"; lit ":sectnums:"; lit ":sectnumlevels: -1"; []; lit "==== A"]). do 4 eexists. split; [reflexivity|]. split; vm_compute; reflexivity. Qed.
Print Assumptions C81_numbers.
Print Assumptions C81_limit.

(** ** C82: appendices and special sections *)
(** The documentation: the numbers of appendices do not depend on [sectnums]; special sections are not
    numbered unless [sectnums] is "all". *)
Theorem C82_appendix_without_sectnums_refuted : exists t d P level n, parse_with E0 30 t = Ok (d, P) /\ flat_map events (d_blocks d) = [ESection level SAppendix n] /\ n = None.
Proof. exists (lines [lit "[appendix]"; lit "== A"]). do 4 eexists. split; [vm_compute; reflexivity|]. split; vm_compute; reflexivity. Qed.
Theorem C82_special_sections_refuted : exists t d P b, parse_with E0 30 t = Ok (d, P) /\ d_blocks d = [b] /\ block_style b = Some (lit "preface") /\
  attribute_value P (lit "sectnums") <> VValue (lit "all") /\ exists level n, events b = [ESection level SNormal (Some n)].
Proof. exists (lines [lit "= T"; lit ":sectnums: yes"; []; lit "[preface]"; lit "== A"]). do 3 eexists. split; [vm_compute; reflexivity|]. split; [reflexivity|]. split; [vm_compute; reflexivity|]. split; [vm_compute; discriminate|]. do 2 eexists. vm_compute. reflexivity. Qed.

(** ** C83: section types *)
(** Discrete headings have no blocks and no number; an appendix is a section of level 1 with that style;
    deeper sections are of the type of the section of level 1 they are in.  This holds if no section of
    level 1 is in another section. *)
Theorem C83_section_types : forall E fuel t sm P d P', p_topmost P = SNormal -> document_parse E fuel t sm P = Ok (d, P') -> forallb chapters_apart (d_blocks d) = true ->
  Forall (well_typed SNormal) (d_blocks d) /\ p_topmost P' = SNormal.
Proof. exact document_types. Qed.
(** A section of level 1 in a delimited block ends the appendix around it. *)
Definition interrupted : text := lines [lit "[appendix]"; lit "== A"; []; lit "===="; lit "== B"; lit "===="; []; lit "=== C"].
Theorem C83_section_types_refuted : exists t d P, parse_with E0 30 t = Ok (d, P) /\ ~ Forall (well_typed SNormal) (d_blocks d) /\
  exists n1 n2 n3, flat_map events (d_blocks d) = [ESection 1 SAppendix n1; ESection 1 SNormal n2; ESection 2 SNormal n3].
Proof.
  exists interrupted. do 2 eexists. split; [vm_compute; reflexivity|]. split; [|do 3 eexists; vm_compute; reflexivity].
  intros H. apply Forall_inv in H. vm_compute in H. destruct H as (_ & _ & (H & _) & _). discriminate H.
Qed.
Example C83_example : exists d P, parse_with E0 60 numbered_sample = Ok (d, P) /\ forallb chapters_apart (d_blocks d) = true /\ length (d_blocks d) = 4.
Proof. do 2 eexists. split; [vm_compute; reflexivity|]. split; vm_compute; reflexivity. Qed.
Print Assumptions C83_section_types.

(** ** C84: the catalog *)
(** The catalog has the registrations of the blocks, in the order in which the blocks end, each id once. *)
Theorem C84_catalog : forall E fuel t sm P d P' c, p_catalog P = Some c -> agrees c [] -> document_parse E fuel t sm P = Ok (d, P') ->
  agrees (d_catalog d) (keep_first [] (flat_map references (d_blocks d))).
Proof. intros E fuel t sm P d P' c Hc A H. exact (proj1 (document_ids _ _ _ _ _ _ _ _ Hc A H)). Qed.
(** So the ids of the catalog are the registered ids; and no two blocks have the same one unless there is
    a warning about it. *)
Theorem C84_catalog_ids : forall E fuel t sm P d P' c, p_catalog P = Some c -> agrees c [] -> document_parse E fuel t sm P = Ok (d, P') ->
  (forall i, contains_id (d_catalog d) i = true <-> In i (log_ids (flat_map references (d_blocks d)))) /\
  (duplicates (d_warnings d) = 0 -> NoDup (log_ids (flat_map references (d_blocks d)))) /\
  (forall i, get_ref (d_catalog d) i = match first_with_id i (flat_map references (d_blocks d)) with Some (rt, ty) => Some (mkref i rt ty) | None => None end).
Proof.
  intros E fuel t sm P d P' c Hc A H. destruct (document_ids _ _ _ _ _ _ _ _ Hc A H) as (A' & N). split; [|split].
  - intros i. unfold contains_id. rewrite (agrees_has _ _ i A'), keep_first_ids. cbn. tauto.
  - intros D. rewrite D in N. rewrite <- (app_nil_l (flat_map references (d_blocks d))), <- (keep_first_all _ []); [exact (ag_nodup _ _ A')|cbn [length]; lia].
  - intros i. rewrite (agrees_get _ _ i A'). rewrite <- (app_nil_l (flat_map references (d_blocks d))) at 2. generalize (flat_map references (d_blocks d)). intros l. generalize (@nil (text * option text * reftype)) as seen. induction l as [|[[j rt] ty] l IH]; intros seen; [rewrite app_nil_r; reflexivity|].
    cbn [keep_first fst]. destruct (in_dec _ j (log_ids seen)) as [K|K].
    + rewrite IH. assert (F : forall s, In j (log_ids s) -> first_with_id i (s ++ l) = first_with_id i (s ++ (j, rt, ty) :: l)).
      { induction s as [|[[k rt'] ty'] s IHs]; cbn [app first_with_id log_ids map In fst]; [intros []|]. destruct (list_eq_dec N.eq_dec k i) as [->|Nk]; [reflexivity|]. intros [->|Hj]; [|apply IHs; exact Hj].
        clear IHs IH K. induction s as [|[[k rt''] ty''] s IHs]; cbn [app first_with_id]; [destruct (list_eq_dec N.eq_dec j i); [contradiction|reflexivity]|]. destruct (list_eq_dec N.eq_dec k i); [reflexivity|exact IHs]. }
      rewrite (F seen K). reflexivity.
    + rewrite IH, <- app_assoc. reflexivity.
Qed.
(** Breaks are left out: their ids are not registered. *)
Theorem C84_break_ids_refuted : exists t d P b i, parse_with E0 30 t = Ok (d, P) /\ d_blocks d = [b] /\ block_id b = Ok (Some i) /\ contains_id (d_catalog d) i = false.
Proof. exists (lines [lit "[#id]"; lit "'''"]). do 4 eexists. split; [vm_compute; reflexivity|]. split; [reflexivity|]. split; vm_compute; reflexivity. Qed.
Example C84_example : exists d P, parse_with E0 40 (lines [lit "[#a]"; lit "one"; []; lit "== S"; []; lit "[#a]"; lit "two"]) = Ok (d, P) /\ agrees catalog_new [] /\ p_catalog (begin_parse parser_default) = Some catalog_new /\
  log_ids (flat_map references (d_blocks d)) = [lit "a"; lit "a"; lit "_s"] /\ duplicates (d_warnings d) = 1 /\ log_ids (keep_first [] (flat_map references (d_blocks d))) = [lit "a"; lit "_s"].
Proof. do 2 eexists. split; [vm_compute; reflexivity|]. split; [exact agrees_new|]. repeat split; vm_compute; reflexivity. Qed.
Print Assumptions C84_catalog_ids.

(** ** C85: reference texts *)
(** The documentation: the text for references can be given in the block anchor, or in the attribute
    [reftext], which is preferred over the title. *)
Theorem C85_anchor_reftext_refuted : exists t d P r, parse_with E0 30 t = Ok (d, P) /\ t = lines [lit "[[tigers,Subspecies]]"; lit "=== Subspecies of Tiger"] /\
  get_ref (d_catalog d) (lit "tigers") = Some r /\ re_reftext r = Some (lit "Subspecies of Tiger") /\ resolve_id (d_catalog d) (lit "Subspecies") = None.
Proof. exists (lines [lit "[[tigers,Subspecies]]"; lit "=== Subspecies of Tiger"]). do 3 eexists. split; [vm_compute; reflexivity|]. split; [reflexivity|]. split; [vm_compute; reflexivity|]. split; vm_compute; reflexivity. Qed.
Theorem C85_block_reftext_refuted : exists t d P r, parse_with E0 30 t = Ok (d, P) /\ t = lines [lit ".Title"; lit "[#x,reftext=Text]"; lit "p"] /\
  get_ref (d_catalog d) (lit "x") = Some r /\ re_reftext r = Some (lit "Title").
Proof. exists (lines [lit ".Title"; lit "[#x,reftext=Text]"; lit "p"]). do 3 eexists. split; [vm_compute; reflexivity|]. split; [reflexivity|]. split; vm_compute; reflexivity. Qed.
(** For a section, the attribute is preferred over the title. *)
Theorem C85_section_reftext : forall level title bs src m ty id n i a e, registered (BSection level title bs src m ty id n) = Some i -> cm_attrlist m = Some a -> named_attribute a (lit "reftext") = Some e ->
  reference (BSection level title bs src m ty id n) = [(i, Some (ea_value e), RSection)].
Proof. intros level title bs src m ty id n i a e Hi Ha He. unfold reference. rewrite Hi, Ha, He. reflexivity. Qed.
Example C85_example : exists d P r, parse_with E0 30 (lines [lit "[#x,reftext=Text]"; lit "== S"]) = Ok (d, P) /\ get_ref (d_catalog d) (lit "x") = Some r /\ re_reftext r = Some (lit "Text").
Proof. do 3 eexists. split; [vm_compute; reflexivity|]. split; vm_compute; reflexivity. Qed.

(** ** C86: entries act on what follows *)
(** The documentation: an attribute is available from its entry on.  But a section's title is substituted,
    and its id made, after the blocks in the section. *)
Definition rendered_title (b : block) : option text := match b with BSection _ t _ _ _ _ _ _ => Some (ct_rendered t) | _ => None end.
Theorem C86_title_refuted : exists t d P b, parse_with E0 30 t = Ok (d, P) /\ t = lines [lit "== A {x}"; []; lit ":x: later"] /\ d_blocks d = [b] /\ rendered_title b = Some (lit "A later").
Proof. exists (lines [lit "== A {x}"; []; lit ":x: later"]). do 3 eexists. split; [vm_compute; reflexivity|]. split; [reflexivity|]. split; [reflexivity|]. vm_compute. reflexivity. Qed.
Theorem C86_id_refuted : exists t d P b, parse_with E0 30 t = Ok (d, P) /\ t = lines [lit "== A"; []; lit ":idprefix: x-"] /\ d_blocks d = [b] /\ block_id b = Ok (Some (lit "x-a")).
Proof. exists (lines [lit "== A"; []; lit ":idprefix: x-"]). do 3 eexists. split; [vm_compute; reflexivity|]. split; [reflexivity|]. split; [reflexivity|]. vm_compute. reflexivity. Qed.

(** ** C87: the preamble *)
Definition is_section (b : block) : bool := match b with BSection _ _ _ _ _ _ _ _ => true | _ => false end.
Definition is_entry (b : block) : bool := match b with BAttribute _ => true | _ => false end.
Lemma preamble_split_spec l : forall i has, match preamble_split i has l with
  | Some k => exists l1 b l2, l = l1 ++ b :: l2 /\ k = i + length l1 /\ is_section b = true /\ forallb (fun x => negb (is_section x)) l1 = true /\ (has = true \/ forallb is_entry l1 = false)
  | None => forall l1 b l2, l = l1 ++ b :: l2 -> is_section b = true -> forallb (fun x => negb (is_section x)) l1 = true -> has = false /\ forallb is_entry l1 = true
  end.
Proof.
  induction l as [|b l IH]; intros i has; cbn [preamble_split].
  - intros l1 b l2 D. destruct l1; discriminate D.
  - assert (Step : forall has', is_section b = false -> (has' = true <-> has = true \/ is_entry b = false) -> match preamble_split (S i) has' l with
      | Some k => exists l1 b0 l2, b :: l = l1 ++ b0 :: l2 /\ k = i + length l1 /\ is_section b0 = true /\ forallb (fun x => negb (is_section x)) l1 = true /\ (has = true \/ forallb is_entry l1 = false)
      | None => forall l1 b0 l2, b :: l = l1 ++ b0 :: l2 -> is_section b0 = true -> forallb (fun x => negb (is_section x)) l1 = true -> has = false /\ forallb is_entry l1 = true end).
    { intros has' Hb Hh. specialize (IH (S i) has'). destruct (preamble_split (S i) has' l) as [k|].
      - destruct IH as (l1 & b0 & l2 & -> & -> & H1 & H2 & H3). exists (b :: l1), b0, l2. split; [reflexivity|]. split; [cbn; lia|]. split; [exact H1|]. split; [cbn [forallb]; rewrite Hb; exact H2|]. cbn [forallb]. destruct H3 as [H3|H3]; [apply Hh in H3; destruct H3 as [H3|H3]; [auto|rewrite H3; auto]|rewrite H3, andb_false_r; auto].
      - intros [|x l1] b0 l2 D Hs Ha; cbn [app] in D; injection D as -> D; [rewrite Hb in Hs; discriminate Hs|]. cbn [forallb] in *. apply andb_true_iff in Ha. destruct Ha as (_ & Ha). destruct (IH _ _ _ D Hs Ha) as (K1 & K2). rewrite K2, andb_true_r.
        destruct has'; [discriminate K1|]. destruct has; [discriminate (proj2 Hh (or_introl eq_refl))|]. split; [reflexivity|]. destruct (is_entry x); [reflexivity|]. discriminate (proj2 Hh (or_intror eq_refl)). }
    destruct b; cbn [is_section is_entry] in Step; try (apply Step; [reflexivity|tauto]).
    + clear Step. destruct has.
      * eexists [], _, l. split; [reflexivity|]. split; [cbn; lia|]. auto.
      * intros [|x l1] b0 l2 D Hs Ha; cbn [app] in D; injection D as E1 D; [auto|]. subst x. cbn in Ha. discriminate Ha.
    + apply Step; [reflexivity|]. split; [auto|]. intros [H|H]; [exact H|discriminate H].
Qed.
(** If the blocks before the first section are not all attribute entries, they are the blocks of the
    preamble, which comes first; else, or without a section, there is no preamble. *)
Theorem C87_preamble : forall bs ah bs', make_preamble bs ah = Ok bs' ->
  (forall l1 b l2, bs = l1 ++ b :: l2 -> is_section b = true -> forallb (fun x => negb (is_section x)) l1 = true ->
     if forallb is_entry l1 then bs' = bs else exists src, bs' = BPreamble l1 src :: b :: l2) /\
  (forallb (fun x => negb (is_section x)) bs = true -> bs' = bs).
Proof.
  intros bs ah bs' H. unfold make_preamble in H. pose proof (preamble_split_spec bs 0 false) as S. destruct (preamble_split 0 false bs) as [k|].
  - apply bind_ok in H. destruct H as (p & Ep & H). apply Ok_inj in H. subst bs'. unfold preamble_from_blocks in Ep. apply bind_ok in Ep. destruct Ep as (src & _ & Ep). apply Ok_inj in Ep. subst p.
    destruct S as (l1 & b & l2 & -> & -> & Hb & Hn & [Hh|He]); [discriminate Hh|]. cbn [plus]. rewrite firstn_app, firstn_all, Nat.sub_diag, skipn_app, skipn_all, Nat.sub_diag. cbn [firstn skipn app]. rewrite app_nil_r. split.
    + assert (U : forall m1 m2 c e f, m1 ++ c :: m2 = l1 ++ e :: f -> is_section c = true -> is_section e = true -> forallb (fun x => negb (is_section x)) m1 = true -> forallb (fun x => negb (is_section x)) l1 = true -> m1 = l1 /\ c = e /\ m2 = f).
      { clear. induction l1 as [|y l1 IH]; intros [|x m1] m2 c e f D Hc He Hm Hl; cbn [app forallb] in *; injection D as D1 D2; subst.
        - auto.
        - rewrite He in Hm. discriminate Hm.
        - rewrite Hc in Hl. discriminate Hl.
        - apply andb_true_iff in Hm, Hl. destruct (IH m1 m2 c e f D2 Hc He) as (-> & -> & ->); tauto. }
      intros m1 c m2 D Hc Hm. destruct (U m1 m2 c b l2 (eq_sym D) Hc Hb Hm Hn) as (-> & -> & ->). rewrite He. eauto.
    + rewrite forallb_app. cbn [forallb]. rewrite Hb, andb_false_r. discriminate.
  - apply Ok_inj in H. subst bs'. split; [|reflexivity]. intros l1 b l2 D Hb Hn. destruct (S l1 b l2 D Hb Hn) as (_ & ->). reflexivity.
Qed.
(** The preamble ends at a discrete heading, which does not begin a section. *)
Theorem C87_discrete_heading_refuted : exists t d P l src b, parse_with E0 30 t = Ok (d, P) /\ t = lines [lit "one"; []; lit "[discrete]"; lit "== two"; []; lit "three"; []; lit "== four"] /\
  d_blocks d = BPreamble l src :: b /\ length l = 1 /\ length b = 3.
Proof. exists (lines [lit "one"; []; lit "[discrete]"; lit "== two"; []; lit "three"; []; lit "== four"]). do 5 eexists. split; [vm_compute; reflexivity|]. split; [reflexivity|]. split; [reflexivity|]. split; vm_compute; reflexivity. Qed.
Example C87_example : exists d P l src b, parse_with E0 30 (lines [lit "= T"; []; lit ":x: y"; []; lit "one"; []; lit "two"; []; lit "== four"]) = Ok (d, P) /\ d_blocks d = [BPreamble l src; b] /\ map is_entry l = [true; false; false].
Proof. do 5 eexists. split; [vm_compute; reflexivity|]. split; [reflexivity|]. vm_compute. reflexivity. Qed.
Print Assumptions C87_preamble.
