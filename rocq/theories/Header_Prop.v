(** Properties of the document header: C16 (at the level of the header), C53, C72 to C80. *)
From Verif Require Import Text TextFacts Maps Span_Model Span_Pure Span_Proof Span_Laws Span_Spec Parser_Model Parser_Spec Parser_Proof Regex Entry_Spec Entry_Model
  Subs_Model Subs_Proof Attrlist_Model Render_Model Quote_Model Macro_Model Group_Model Group_Proof Group_Prop SecId_Proof Header_Model Header_Spec Header_Proof.

(** The substitutions of the inline model, with fuel that may depend on the text. *)
Definition env_with (U : unicode) (fs : char) (fuel : text -> nat) : env := mkenv U (fun P g hb t => apply_group U fs P (fuel t) g hb t).
Definition doc (t : text) : span := mkspan t 1 1 0.
Definition E0 : env := env_of ascii_only 47%N 20.

(** ** C53: the revision line *)
(** What the model finds is what the specification says, and conversely; so the parts are determined. *)
Theorem C53_revision_line : forall U t n d r, ~ In LF t -> (revision_parts U t = (n, (d, r)) <-> revision U t n d r).
Proof. intros U t n d r H. split; [apply revision_sound, H|apply revision_complete, H]. Qed.
Theorem C53_parts_in_order : forall U t n d r, revision U t n d r ->
  exists a b c e, t = a ++ otext n ++ b ++ d ++ c ++ otext r ++ e /\
    (n <> None -> d <> [] -> exists b1 b2, b = b1 ++ lit "," ++ b2 /\ blank b1 /\ blank b2) /\
    (r <> None -> exists c1 c2, c = c1 ++ lit ":" ++ c2 /\ blank c1 /\ blank c2).
Proof. exact revision_order. Qed.
Lemma put_value U P n v m : In n [lit "revnumber"; lit "revdate"; lit "revremark"] ->
  attribute_value (set_attribute_by_value_from_header U P n v) m = if text_eqb m n then VValue v else attribute_value P m.
Proof.
  intros H. unfold set_attribute_by_value_from_header, attribute_value. cbn [p_attrs with_attrs p_defaults].
  assert (R : remap_attr_name U n = n).
  { unfold remap_attr_name. assert (L : to_lowercase U n = n) by (apply lower_ascii; cbn [In] in H; destruct H as [<-|[<-|[<-|[]]]]; repeat constructor). rewrite L.
    cbn [In] in H; destruct H as [<-|[<-|[<-|[]]]]; reflexivity. }
  rewrite R, mget_mput. destruct (text_eqb m n); reflexivity.
Qed.
Definition subst_opt (E : env) (P : parser) (o o' : option text) : Prop :=
  match o, o' with Some t, Some u => apply_header_subs E P t = Ok u | None, None => True | _, _ => False end.
(** The fields of the revision line are its parts after the header substitutions; the attributes hold the
    parts, and no other attribute changes. *)
Theorem C53_fields_and_attributes : forall E s P rv P', ~ In LF (sp_data s) -> revision_parse E s P = Ok (rv, P') ->
  exists n d r, revision (e_u E) (sp_data s) n d r /\
    subst_opt E P' n (rv_number rv) /\ apply_header_subs E P' d = Ok (rv_date rv) /\ subst_opt E P' r (rv_remark rv) /\
    attribute_value P' (lit "revdate") = VValue d /\
    attribute_value P' (lit "revnumber") = match n with Some x => VValue x | None => attribute_value P (lit "revnumber") end /\
    attribute_value P' (lit "revremark") = match r with Some x => VValue x | None => attribute_value P (lit "revremark") end /\
    (forall m, ~ In m [lit "revnumber"; lit "revdate"; lit "revremark"] -> attribute_value P' m = attribute_value P m).
Proof.
  intros E s P rv P' Nl H. unfold revision_parse in H. cbv zeta in H. destruct (revision_parts (e_u E) (sp_data s)) as [n [d r]] eqn:Er. cbn [fst snd] in H. apply revision_sound in Er; [|exact Nl].
  set (P1 := set_opt (e_u E) (set_attribute_by_value_from_header (e_u E) (set_opt (e_u E) P (lit "revnumber") n) (lit "revdate") d) (lit "revremark") r) in H.
  destruct (subs_opt E P1 n) as [n'| |] eqn:En; cbn [bind] in H; try discriminate H. destruct (apply_header_subs E P1 d) as [d'| |] eqn:Ed; cbn [bind] in H; try discriminate H.
  destruct (subs_opt E P1 r) as [r'| |] eqn:Err; cbn [bind] in H; try discriminate H. apply Ok_inj in H. injection H as <- <-.
  assert (S : forall o o', subs_opt E P1 o = Ok o' -> subst_opt E P1 o o').
  { intros [t|] o' X; cbn in X; [destruct (apply_header_subs E P1 t) as [u| |] eqn:Eu; cbn [bind] in X; try discriminate X|]; apply Ok_inj in X; subst o'; [exact Eu|exact I]. }
  assert (V : forall o P2 m k, In k [lit "revnumber"; lit "revdate"; lit "revremark"] -> attribute_value (set_opt (e_u E) P2 k o) m =
    match o with Some v => if text_eqb m k then VValue v else attribute_value P2 m | None => attribute_value P2 m end).
  { intros [v|] P2 m k Hk; [apply put_value, Hk|reflexivity]. }
  exists n, d, r. cbn [rv_number rv_date rv_remark]. split; [exact Er|]. split; [apply S, En|]. split; [exact Ed|]. split; [apply S, Err|]. unfold P1.
  split; [rewrite V, put_value by (cbn; auto); destruct r; reflexivity|].
  split; [rewrite V, put_value, V by (cbn; auto); destruct r, n; reflexivity|].
  split; [rewrite V, put_value, V by (cbn; auto); destruct r, n; reflexivity|].
  intros m Hm. rewrite V, put_value, V by (cbn; auto).
  assert (X : forall k, In k [lit "revnumber"; lit "revdate"; lit "revremark"] -> text_eqb m k = false) by (intros k Hk; apply text_eqb_neq; intros ->; exact (Hm Hk)).
  rewrite !X by (cbn; auto). destruct r, n; reflexivity.
Qed.
Example C53_example : revision ascii_only (lit "v2.9, October 31, 2021: Fall incarnation") (Some (lit "2.9")) (lit "October 31, 2021") (Some (lit "Fall incarnation")) /\
  ~ In LF (lit "v2.9, October 31, 2021: Fall incarnation").
Proof. split; [apply C53_revision_line|]; try (vm_compute; reflexivity); intros X; cbn in X; repeat (destruct X as [X|X]; [discriminate X|]); exact X. Qed.

(** ** C72: one author *)
Definition an_author (U : unicode) (t : text) (o : option author) : Prop :=
  exists s, bare t s /\
   ((s = [] /\ o = None) \/
    (exists full f m l e, author_text U s full f m l e /\ o = Some (mkauthor (spaced full) (spaced f) (option_map spaced m) (option_map spaced l) e)) \/
    (s <> [] /\ (forall full f m l e, ~ author_text U s full f m l e) /\
     exists n, n = spaced (if has_char 60%N s && has_char 62%N s then flat_map entity s else s) /\ o = Some (mkauthor n n None None None))).
(** Text of the documented form gives first, middle and last name and address; any other text is used
    whole, as full name and as first name.  (Text with attribute references is not covered by the statement.) *)
Theorem C72_author : forall U P t, spaces_apart U -> ~ In 123%N t -> forall o, author_parse U t P = Ok o <-> an_author U t o.
Proof.
  intros U P t Sp Nb.
  assert (F : exists o, author_parse U t P = Ok o /\ an_author U t o).
  { assert (B : bare t (trim t)) by apply trim_bare. assert (Nb' : ~ In 123%N (trim t)) by (intros X; apply Nb; destruct B as ((a & b & E & _) & _); rewrite E; apply in_or_app; right; apply in_or_app; left; exact X).
    destruct (trim t) as [|c0 s0] eqn:Es.
    - exists None. split; [unfold author_parse; rewrite Es; reflexivity|]. exists []. auto.
    - rewrite <- Es in *. assert (Ne : trim t <> []) by (rewrite Es; discriminate). clear Es c0 s0. set (s := trim t) in *. clearbody s. destruct (captures U (AUTHOR U) s) as [mt|] eqn:M.
      + rewrite search_author in M. destruct (author_match_inv U s mt M) as (full & f & m & l & e & X). eexists. split; [eapply author_parse_form; eassumption|]. exists s. split; [exact B|]. right. left. eauto 10.
      + assert (N : forall full f m l e, ~ author_text U s full f m l e) by (intros full f m l e X; destruct (author_captures _ _ _ _ _ _ _ X) as (mt & M' & _); rewrite M in M'; discriminate M').
        destruct (author_parse_other U P t s B Ne Nb' N) as (n & E & En). eexists. split; [exact E|]. exists s. split; [exact B|]. right. right. eauto 10. }
  assert (Un : forall o o', an_author U t o -> an_author U t o' -> o = o').
  { intros o o' (s & B & H) (s' & B' & H'). apply bare_trim in B, B'. rewrite <- B in B'. subst s'.
    assert (AU : forall full f m l e full' f' m' l' e', author_text U s full f m l e -> author_text U s full' f' m' l' e' ->
      mkauthor (spaced full) (spaced f) (option_map spaced m) (option_map spaced l) e = mkauthor (spaced full') (spaced f') (option_map spaced m') (option_map spaced l') e').
    { intros full f m l e full' f' m' l' e' X X'. assert (Nb' : ~ In 123%N s) by (intros Y; apply Nb; destruct (trim_bare t) as ((a & b & E & _) & _); rewrite E, <- B; apply in_or_app; right; apply in_or_app; left; exact Y).
      assert (B0 : bare t s) by (apply bare_trim; exact B). pose proof (author_parse_form U P t s _ _ _ _ _ Sp B0 Nb' X) as Q. rewrite (author_parse_form U P t s _ _ _ _ _ Sp B0 Nb' X') in Q. apply Ok_inj, Some_inj in Q. symmetry. exact Q. }
    destruct H as [(E & ->)|[(full & f & m & l & e & X & ->)|(Ne & N & n & En & ->)]], H' as [(E' & ->)|[(full' & f' & m' & l' & e' & X' & ->)|(Ne' & N' & n' & En' & ->)]]; try reflexivity;
      try contradiction; try (destruct (author_nonempty _ _ _ _ _ _ _ X'); assumption); try (destruct (author_nonempty _ _ _ _ _ _ _ X); assumption).
    - f_equal. eapply AU; eassumption.
    - destruct (N' _ _ _ _ _ X).
    - destruct (N _ _ _ _ _ X').
    - rewrite En, En'. reflexivity. }
  intros o. destruct F as (o1 & E1 & A1). split.
  - intros E. rewrite E in E1. apply Ok_inj in E1. subst. exact A1.
  - intros A. rewrite (Un _ _ A A1). exact E1.
Qed.
Theorem C72_always_a_result : forall U P t, exists o, author_parse U t P = Ok o.
Proof. exact author_parse_total. Qed.
Example C72_example : spaces_apart ascii_only /\
  author_parse ascii_only (lit "Mara_Moss J. O'Brien <m@x.org>") parser_default = Ok (Some (mkauthor (lit "Mara Moss J. O'Brien") (lit "Mara Moss") (Some (lit "J.")) (Some (lit "O'Brien")) (Some (lit "m@x.org")))) /\
  author_parse ascii_only (lit "A B C D <m@x.org>") parser_default = Ok (Some (mkauthor (lit "A B C D &lt;m@x.org&gt;") (lit "A B C D &lt;m@x.org&gt;") None None None)).
Proof. split; [intros c _; split; reflexivity|]. split; vm_compute; reflexivity. Qed.

(** ** C73: the author line *)
Definition known (a : author) (base : text) : option text :=
  if text_eqb base (lit "author") then Some (au_name a) else
  if text_eqb base (lit "authorinitials") then Some (first_char_text (au_first a) ++ opt_first_char (au_middle a) ++ opt_first_char (au_last a)) else
  if text_eqb base (lit "firstname") then Some (au_first a) else
  if text_eqb base (lit "middlename") then au_middle a else
  if text_eqb base (lit "lastname") then au_last a else
  if text_eqb base (lit "email") then au_email a else None.
Inductive authors_of (U : unicode) (P : parser) : list text -> list author -> Prop :=
| ao_nil : authors_of U P [] []
| ao_blank t ts l : author_parse U t P = Ok None -> authors_of U P ts l -> authors_of U P (t :: ts) l
| ao_cons t a ts l : author_parse U t P = Ok (Some a) -> authors_of U P ts l -> authors_of U P (t :: ts) (a :: l).
(** The line is cut at each "; "; what the i-th author is known by is in the attributes with number i (no
    number for the first); no other attribute changes. *)
Theorem C73_author_line : forall U s P, exists al P' ts, author_line_parse U s P = Ok (al, P') /\
  pieces_of (sp_data s) ts /\ (forall ts', pieces_of (sp_data s) ts' -> ts' = ts) /\ authors_of U P ts (aul_authors al) /\ aul_source al = s /\
  (forall i a b, nth_error (aul_authors al) i = Some a -> In b author_bases ->
     attribute_value P' (nth_name b i) = match known a b with Some v => VValue v | None => attribute_value P (nth_name b i) end) /\
  (forall n, (forall b i, In b author_bases -> i < length (aul_authors al) -> n <> nth_name b i) -> attribute_value P' n = attribute_value P n).
Proof.
  intros U s P. unfold author_line_parse. set (ts := split_str (lit "; ") (sp_data s)).
  assert (A : exists l, parse_authors U P ts = Ok l /\ authors_of U P ts l).
  { induction ts as [|t ts (l & E & A)]; [exists []; split; [reflexivity|constructor]|]. cbn [parse_authors]. destruct (author_parse_total U P t) as (o & Eo). rewrite Eo. cbn [bind]. rewrite E. cbn [bind].
    destruct o as [a|]; eexists; (split; [reflexivity|]); [apply ao_cons|apply ao_blank]; assumption. }
  destruct A as (l & E & A). exists (mkal_line l s), (set_authors U P 0 l), ts. rewrite E. split; [reflexivity|]. cbn [aul_authors aul_source]. pose proof (split_str_pieces (sp_data s)) as Pc.
  split; [exact Pc|]. split; [intros ts' H; eapply pieces_unique; eassumption|]. split; [exact A|]. split; [reflexivity|]. split.
  - intros i a b Hn Hb. pose proof (set_authors_nth U l P 0 i a b Hn Hb) as Q. exact Q.
  - intros n H. apply set_authors_other. intros b i Hb Hi. apply H; [exact Hb|lia].
Qed.
Example C73_example : exists al P', author_line_parse ascii_only (doc (lit "Ann_Marie Jenson; Bo R. Lee <b@x.y>")) parser_default = Ok (al, P') /\
  attribute_value P' (lit "firstname") = VValue (lit "Ann Marie") /\ attribute_value P' (lit "authorinitials_2") = VValue (lit "BRL") /\ attribute_value P' (lit "email_2") = VValue (lit "b@x.y").
Proof. eexists. eexists. split; [vm_compute; reflexivity|]. vm_compute. auto. Qed.

(** ** C74: the lines of the header *)
Theorem C74_header : forall E s P hd after ws P', header_parse E s P = Ok (mkmi hd after, (ws, P')) ->
  exists ks ts rest w, header_run [] (sp_data s) ks ts rest w /\
    (forall ks1 ts1 rest1 w1, header_run [] (sp_data s) ks1 ts1 rest1 w1 -> ks1 = ks /\ ts1 = ts /\ rest1 = rest /\ w1 = w) /\
    map sp_data (h_comments hd) = comments_of ks /\
    map (fun a => sp_data (at_name a)) (h_attrs hd) = entries_of ks /\
    match ts with
    | [] => h_title_source hd = None /\ h_title hd = None
    | n :: _ => exists sp bl P1 o, h_title_source hd = Some sp /\ n = lit "= " ++ bl ++ sp_data sp /\ Forall (fun c => c = SP \/ c = TAB) bl /\
        (forall c r, sp_data sp = c :: r -> c <> SP /\ c <> TAB) /\ h_title hd = Some o /\ apply_header_subs E P1 (sp_data sp) = Ok o
    end /\
    option_map (fun a => sp_data (aul_source a)) (h_author hd) = nth_error ts 1 /\
    option_map (fun r => sp_data (rv_source r)) (h_revision hd) = nth_error ts 2 /\
    (Exists (fun x => w_type x = WDocumentHeaderNotTerminated) ws <-> w = true) /\
    (exists ls tail, rest = unlines ls ++ tail /\ (forall l, In l ls -> blank_line l /\ ~ In LF l) /\
      ((sp_data after = tail /\ exists l e r, tail = l ++ e ++ r /\ ~ In LF l /\ eol e r /\ ~ blank_line l) \/ (sp_data after = [] /\ blank_line tail /\ ~ In LF tail))).
Proof.
  intros E s P hd after ws P' H. destruct (header_parse_spec E s P hd after ws P' H) as (h & src & ks & ts & w & R & [Hi Hl] & Hs & E1 & E2 & E3 & E4 & _ & Hc & Ha & Hw & Haf & _).
  exists ks, ts, (sp_data src), w. split; [exact R|]. split; [intros ks1 ts1 rest1 w1 R1; eapply header_run_unique; eassumption|]. split; [exact Hc|]. split; [exact Ha|]. rewrite E1, E2, E3, E4.
  assert (AS : forall al s P P', author_line_parse (e_u E) s P = Ok (al, P') -> aul_source al = s).
  { intros al s0 P0 P0' X. unfold author_line_parse in X. destruct (parse_authors _ _ _) as [l| |]; cbn [bind] in X; try discriminate X. apply Ok_inj in X. injection X as <- _. reflexivity. }
  assert (RS : forall rv s P P', revision_parse E s P = Ok (rv, P') -> rv_source rv = s).
  { intros rv s0 P0 P0' X. unfold revision_parse in X. cbv zeta in X. destruct (subs_opt _ _ (fst _)) as [n| |]; cbn [bind] in X; try discriminate X. destruct (apply_header_subs _ _ _) as [d| |]; cbn [bind] in X; try discriminate X.
    destruct (subs_opt _ _ _) as [r| |]; cbn [bind] in X; try discriminate X. apply Ok_inj in X. injection X as <- _. reflexivity. }
  split; [|split; [|split; [|split; [symmetry; exact Hw|]]]].
  - destruct ts as [|n ts]; [destruct Hi as (X1 & X2 & _); auto|]. destruct Hi as ((bl & sp & P1 & o & En & Fb & Hb & Et & Eo & Eti) & _). exists sp, bl, P1, o. auto 10.
  - destruct ts as [|n [|a ts]]; [destruct Hi as (_ & _ & -> & _); reflexivity|destruct Hi as (_ & -> & _); reflexivity|]. destruct Hi as (_ & (al & sa & Pa & Pa' & -> & <- & X) & _). cbn. rewrite (AS _ _ _ _ X). reflexivity.
  - destruct ts as [|n [|a [|r ts]]]; [destruct Hi as (_ & _ & _ & ->); reflexivity|destruct Hi as (_ & _ & ->); reflexivity|destruct Hi as (_ & _ & ->); reflexivity|]. destruct Hi as (_ & _ & rv & sa & Pa & Pa' & -> & <- & X). cbn. rewrite (RS _ _ _ _ X). reflexivity.
  - rewrite Haf. apply discard_go_spec. lia.
Qed.
Definition sample : text := join [LF] [lit "// note"; lit ":a: b"; lit "= Title"; lit "Ann Lee"; lit "// more"; lit "v1.0, 2020: first"; lit ":c: d"; []; lit "Body."].
Example C74_example : exists hd after ws P', header_parse E0 (doc sample) parser_default = Ok (mkmi hd after, (ws, P')) /\ sp_data after = lit "Body." /\ h_title hd = Some (lit "Title") /\
  map sp_data (h_comments hd) = [lit "// note"; lit "// more"] /\ map (fun a => sp_data (at_name a)) (h_attrs hd) = [lit "a"; lit "c"] /\ ws = [].
Proof. eexists. eexists. eexists. eexists. split; [vm_compute; reflexivity|]. vm_compute. auto 10. Qed.

(** ** C75: the header is always read *)
(** With substitutions that give a result for text of the document's characters, and blanks, it is. *)
Theorem C75_header_is_read : forall E (ok : char -> Prop) s P, ok SP -> ok LF ->
  (forall P t, Forall ok t -> exists o, e_sub E P GHeader false t = Ok o) -> Forall ok (sp_data s) -> exists r, header_parse E s P = Ok r.
Proof. intros E ok s P Hsp Hlf T H. exact (header_parse_total E ok Hsp Hlf T s P H). Qed.
(** For the inline model this holds for documents without brackets and without the internal character. *)
Theorem C75_without_brackets : forall U fs, u_nd U PASS_END = false -> exists fuel, forall s P,
  ~ In 91%N (sp_data s) -> ~ In PASS_START (sp_data s) -> exists r, header_parse (env_with U fs fuel) s P = Ok r.
Proof.
  intros U fs He. exists (fun t => match extract_from U t with Ok (pts, _) => length pts + 3 | _ => 1 end). intros s P N1 N2.
  apply (C75_header_is_read _ (fun c => c <> 91%N /\ c <> PASS_START)); [split; discriminate|split; discriminate| |].
  - intros P0 t Ft. cbn [env_with e_sub]. destruct (extract_from U t) as [[pts o]| |] eqn:Ex; [|destruct (C43_extraction_gives_a_result U t) as (r & X); congruence..].
    replace (length pts + 3) with (S (length pts + 2)) by lia. rewrite apply_group_S. change (extracts GHeader) with true. cbv iota. rewrite Ex. cbn [bind fst snd steps_of apply_steps apply_step].
    rewrite apply_special_characters_eq. cbn [bind]. match goal with |- context [apply_attributes U P0 ?x] => destruct (apply_attributes_total U P0 x) as (y & ->) end. cbn [bind]. destruct pts as [|p pts]; [eauto|].
    eapply C43_restoring_ends; [exact He| | |exact Ex|lia]; intros X; rewrite Forall_forall in Ft; destruct (Ft _ X) as [Y1 Y2]; [apply Y2|apply Y1]; reflexivity.
  - apply Forall_forall. intros c Hc. split; intros ->; [exact (N1 Hc)|exact (N2 Hc)].
Qed.
Example C75_example : ~ In 91%N sample /\ ~ In PASS_START sample.
Proof. split; apply has_char_false; vm_compute; reflexivity. Qed.
(** Not for all documents: a title may hold a passthrough that is never restored. *)
Definition bad_title : text := lit "= " ++ mono_source.
Theorem C75_header_is_read_refuted : exists t, (forall c, In c t -> (c < 128)%N) /\ forall f, header_parse (env_of ascii_only 47%N f) (doc t) parser_default = OutOfFuel.
Proof.
  exists bad_title. split.
  - intros c Hc. assert (F : forallb (fun c => (c <? 128)%N) bad_title = true) by (vm_compute; reflexivity). rewrite forallb_forall in F. apply N.ltb_lt, F, Hc.
  - intros f.
    assert (L : apply_group ascii_only 47%N parser_default f GHeader false mono_source = OutOfFuel).
    { destruct f as [|f]; [reflexivity|]. rewrite apply_group_S. change (extracts GHeader) with true. cbv iota.
      replace (extract_from ascii_only mono_source) with (Ok ([mkpt (lit "q") GVerbatim None None; mkpt mono_inner GNormal (Some QMonospaced) (Some [])], placeholder 1)) by (vm_compute; reflexivity). cbn [bind fst snd].
      replace (apply_steps ascii_only 47%N parser_default false (steps_of GHeader) (placeholder 1)) with (Ok (placeholder 1)) by (vm_compute; reflexivity). cbn [bind].
      pose proof (mono_source_loops (S f)) as M. rewrite apply_group_S in M. change (extracts GNormal) with true in M. cbv iota in M.
      replace (extract_from ascii_only mono_source) with (Ok ([mkpt (lit "q") GVerbatim None None; mkpt mono_inner GNormal (Some QMonospaced) (Some [])], placeholder 1)) in M by (vm_compute; reflexivity). cbn [bind fst snd] in M.
      replace (apply_steps ascii_only 47%N parser_default false (steps_of GNormal) (placeholder 1)) with (Ok (placeholder 1)) in M by (vm_compute; reflexivity). cbn [bind] in M. exact M. }
    unfold header_parse. match goal with |- context [discard_empty_lines ?x] => replace (discard_empty_lines x) with (Ok (doc bad_title)) by (vm_compute; reflexivity) end. cbn [bind].
    change (length (sp_data (doc bad_title))) with (S 18). cbn [header_loop]. change (sp_data (doc bad_title)) with bad_title. unfold bad_title at 1.
    match goal with |- context [header_step ?E ?s ?h] => assert (X : header_step E s h = OutOfFuel) end; [|rewrite X; reflexivity].
    unfold header_step. match goal with |- context [take_normalized_line ?x] => replace (take_normalized_line x) with (Ok (mkmi (doc bad_title) (mkspan [] 1 20 19))) by (vm_compute; reflexivity) end. cbn [bind mi_item mi_after].
    change (is_nil (sp_data (doc bad_title))) with false. cbv iota.
    change (starts_with (lit "//") (sp_data (doc bad_title)) && negb (starts_with (lit "///") (sp_data (doc bad_title)))) with false. cbv iota.
    unfold header_attr. change (starts_with (lit ":") (sp_data (doc bad_title))) with false. cbv iota. cbn [bind].
    change (negb (is_some (s_title (hs_new parser_default))) && starts_with (lit "= ") (sp_data (doc bad_title))) with true. cbv iota.
    replace (discard (doc bad_title) 2) with (Ok (mkspan mono_source 1 3 2)) by (vm_compute; reflexivity). cbn [bind].
    replace (discard_whitespace (mkspan mono_source 1 3 2)) with (Ok (mkspan mono_source 1 3 2)) by (vm_compute; reflexivity). cbn [bind sp_data].
    unfold apply_header_subs. cbn [env_of e_sub]. change (s_parser (hs_new parser_default)) with parser_default. rewrite L. reflexivity.
Qed.

(** ** C76: a version and a remark *)
(** "When the revision line contains a version and a remark, separate the version number from the remark
    with a colon.  A [v] prefix before the version number is optional." (revision-line.adoc) *)
Theorem C76_version_and_remark_refuted : exists v r, Forall decimal v /\ v <> [] /\ revision ascii_only (v ++ lit ": " ++ r) None v (Some r).
Proof.
  exists (lit "7"), (lit "A new analysis"). split; [repeat constructor; cbn; discriminate|]. split; [discriminate|]. apply C53_revision_line; [|vm_compute; reflexivity].
  intros X. cbn in X. repeat (destruct X as [X|X]; [discriminate X|]). exact X.
Qed.
(** With the prefix it is found. *)
Theorem C76_with_prefix : forall U d v r x, decimal d -> ~ In 44%N v -> ~ In 58%N v -> bare (lit "v" ++ d :: v) (lit "v" ++ d :: v) -> bare r x ->
  revision U (lit "v" ++ d :: v ++ lit ":" ++ r) (Some (d :: v)) [] (Some x).
Proof.
  intros U d v r x Hd N1 N2 B Br. apply (rev_version U _ (lit "v" ++ d :: v) (Some r) (Some x) (d :: v) (lit "v" ++ d :: v)); [|exact Br| |exact B| |].
  - split; [cbn [app]; reflexivity|]. intros [X|[X|X]]; [discriminate X|subst d; destruct Hd; lia|exact (N2 X)].
  - intros [X|[X|X]]; [discriminate X|subst d; destruct Hd; lia|exact (N1 X)].
  - exists d, v. split; [reflexivity|]. left. exact Hd.
  - exists (lit "v"). split; [reflexivity|]. split; [repeat constructor; intros [X Y]; vm_compute in Y; apply Y; reflexivity|]. right. eauto.
Qed.

(** ** C77: the first empty line ends the header *)
(** Not when there is no title before it. *)
Theorem C77_empty_line_ends_the_header_refuted : exists a b hd after ws P',
  header_parse E0 (doc (lit ":" ++ a ++ lit ": x" ++ [LF; LF] ++ lit ":" ++ b ++ lit ": y" ++ [LF; LF] ++ lit "= Title")) parser_default = Ok (mkmi hd after, (ws, P')) /\
  map (fun x => sp_data (at_name x)) (h_attrs hd) = [a; b] /\ h_title hd = Some (lit "Title").
Proof. exists (lit "a"), (lit "b"). eexists. eexists. eexists. eexists. split; [vm_compute; reflexivity|]. vm_compute. auto. Qed.
(** It does once there is a title. *)
Theorem C77_after_the_title : forall ts t ks ts' rest w l e r, ts <> [] -> t = l ++ e ++ r -> t <> [] -> ~ In LF l -> eol e r -> trimmed_line l [] ->
  header_run ts t ks ts' rest w -> ks = [] /\ ts' = ts /\ rest = t /\ w = false.
Proof.
  intros ts t ks ts' rest w l e r Nts Et Ne Hl He Ht R. eapply header_run_unique; [exact R|]. eapply hr_blank; [exact Nts|exact Ne|]. rewrite Et. apply hl_blank; assumption.
Qed.

(** ** C78: compound names in an author entry *)
(** "Underscores aren't displayed" (compound-author-name.adoc): they are, for a name given by an entry. *)
Theorem C78_compound_name_in_entry_refuted : exists hd after ws P', header_parse E0 (doc (lit "= T" ++ [LF] ++ lit ":author: Mara_Moss Wirribi")) parser_default = Ok (mkmi hd after, (ws, P')) /\
  attribute_value P' (lit "author") = VValue (lit "Mara_Moss Wirribi") /\ attribute_value P' (lit "firstname") = VValue (lit "Mara Moss").
Proof. eexists. eexists. eexists. eexists. split; [vm_compute; reflexivity|]. vm_compute. auto. Qed.
(** No name or part of a name given by an author line holds an underscore. *)
Theorem C78_author_line : forall U P t a, spaces_apart U -> ~ In 123%N t -> author_parse U t P = Ok (Some a) ->
  ~ In 95%N (au_name a) /\ ~ In 95%N (au_first a) /\ (forall m, au_middle a = Some m -> ~ In 95%N m) /\ (forall l, au_last a = Some l -> ~ In 95%N l).
Proof.
  assert (S : forall x, ~ In 95%N (spaced x)).
  { intros x H. unfold spaced in H. apply in_map_iff in H. destruct H as (c & E & _). destruct (c =? 95)%N eqn:Ec; [discriminate E|]. subst c. discriminate Ec. }
  intros U P t a Sp Nb H. apply C72_author in H; [|exact Sp|exact Nb]. destruct H as (s & _ & [(_ & X)|[(full & f & m & l & e & _ & X)|(_ & _ & n & En & X)]]); [discriminate X|..]; apply Some_inj in X; subst a; cbn [au_name au_first au_middle au_last].
  - split; [apply S|]. split; [apply S|]. split; intros x Hx; [destruct m|destruct l]; try discriminate Hx; apply Some_inj in Hx; subst x; apply S.
  - subst n. split; [apply S|]. split; [apply S|]. split; discriminate.
Qed.

(** ** C79: the revision attributes are substituted *)
(** The attributes hold the unsubstituted text: what an attribute reference inserts is not escaped. *)
Theorem C79_revision_attributes_refuted : exists t rv P', revision_parse E0 (doc t) parser_default = Ok (rv, P') /\
  attribute_value P' (lit "revremark") = VValue (lit "<b>") /\ rv_remark rv = Some (lit "&lt;b&gt;").
Proof. exists (lit "1.0, 2020: <b>"). eexists. eexists. split; [vm_compute; reflexivity|]. vm_compute. auto. Qed.
(** Those of an attribute entry are. *)
Theorem C79_entries_are_substituted : forall E s P m, attribute_parse (apply_header_subs E) s P = Ok (Some m) ->
  match at_value (mi_item m) with VValue v => exists t, apply_header_subs E P t = Ok v | _ => True end.
Proof.
  intros E s P m H. destruct (logical_total (sp_data s)) as (c & r & L). destruct (Entry_Proof.attribute_parse_eq (apply_header_subs E) s P c r L) as (pre & vs & Q & _). cbv zeta in Q. rewrite H in Q.
  destruct (Entry_Proof.e_parse _) as [[n [u rest]]|]; [|discriminate Q]. unfold Entry_Proof.e_value in Q. destruct u; [cbn [bind] in Q; apply Ok_inj, Some_inj in Q; subst m; exact I|].
  destruct rest as [|x rest]; [cbn [bind] in Q; apply Ok_inj, Some_inj in Q; subst m; exact I|]. destruct (fold_value _) as [t| |]; cbn [bind] in Q; try discriminate Q.
  destruct (apply_header_subs E P t) as [o| |] eqn:Eo; cbn [bind] in Q; try discriminate Q. apply Ok_inj, Some_inj in Q. subst m. cbn. eauto.
Qed.

(** ** C80: blank lines before the title *)
(** A line with a tab only is skipped as blank where the body begins, but it hides the title. *)
Theorem C80_blank_line_before_the_title_refuted : exists l hd after ws P', blank_line l /\ header_parse E0 (doc (l ++ [LF] ++ lit "= Title")) parser_default = Ok (mkmi hd after, (ws, P')) /\
  h_title hd = None /\ sp_data after = lit "= Title".
Proof. exists [TAB]. eexists. eexists. eexists. eexists. split; [exists [TAB], []; split; [reflexivity|]; split; [intros c [<-|[]]; auto|left; reflexivity]|]. split; [vm_compute; reflexivity|]. vm_compute. auto. Qed.
(** Lines of spaces do not. *)
Theorem C80_lines_of_spaces : forall l t ks ts rest w, (forall c, In c l -> c = SP) ->
  header_run [] t ks ts rest w -> header_run [] (l ++ [LF] ++ t) (HBlank :: ks) ts rest w.
Proof.
  intros l t ks ts rest w Hl R. apply (hr_skip _ t); [destruct l; discriminate| |exact R]. apply hl_blank; [|left; reflexivity|].
  - intros X. apply Hl in X. discriminate X.
  - exists l, l. split; [right; split; [reflexivity|]|]. { intros x E. assert (Y : In CR l) by (rewrite E; apply in_or_app; right; left; reflexivity). apply Hl in Y. discriminate Y. }
    split; [reflexivity|]. split; [exact Hl|]. intros y E. destruct y; discriminate E.
Qed.

(** ** C16: locked attributes *)
(** The title, the author line and the revision line change attributes that the host application locked. *)
Theorem C16_header_changes_locked_attributes_refuted : exists P hd after ws P',
  (forall n, In n [lit "doctitle"; lit "author"; lit "revdate"] -> ctx_of P n = Some ApiOnly /\ attribute_value P n = VValue (lit "locked")) /\
  header_parse E0 (doc sample) P = Ok (mkmi hd after, (ws, P')) /\ ws = [] /\
  attribute_value P' (lit "doctitle") = VValue (lit "Title") /\ attribute_value P' (lit "author") = VValue (lit "Ann Lee") /\ attribute_value P' (lit "revdate") = VValue (lit "2020").
Proof.
  exists (fold_left (fun P n => with_intrinsic_attribute ascii_only P n (lit "locked") ApiOnly) [lit "doctitle"; lit "author"; lit "revdate"] parser_default).
  eexists. eexists. eexists. eexists. split; [intros n [<-|[<-|[<-|[]]]]; vm_compute; auto|]. split; [vm_compute; reflexivity|]. vm_compute. auto 10.
Qed.

Print Assumptions C53_revision_line.
Print Assumptions C53_parts_in_order.
Print Assumptions C53_fields_and_attributes.
Print Assumptions C72_author.
Print Assumptions C72_always_a_result.
Print Assumptions C73_author_line.
Print Assumptions C74_header.
Print Assumptions C75_header_is_read.
Print Assumptions C75_without_brackets.
Print Assumptions C75_header_is_read_refuted.
Print Assumptions C76_version_and_remark_refuted.
Print Assumptions C76_with_prefix.
Print Assumptions C77_empty_line_ends_the_header_refuted.
Print Assumptions C77_after_the_title.
Print Assumptions C78_compound_name_in_entry_refuted.
Print Assumptions C78_author_line.
Print Assumptions C79_revision_attributes_refuted.
Print Assumptions C79_entries_are_substituted.
Print Assumptions C80_blank_line_before_the_title_refuted.
Print Assumptions C80_lines_of_spaces.
Print Assumptions C16_header_changes_locked_attributes_refuted.
