(** Proofs about block metadata. *)
From Verif Require Import Text TextFacts Maps Span_Model Span_Pure Span_Proof Span_Laws Span_Spec Span_Prop Parser_Model Subs_Model Attrlist_Model
  Group_Model Header_Model Block_Model Block_Spec Block_Proof Tree_Proof Total_Proof Meta_Spec.

Lemma xml_id U t : is_xml_name U t = true <-> id_name U t.
Proof. apply C08_xml_name. Qed.
Lemma xml_more_ascii U c : xml_more U c -> (c < 128)%N -> c <> COMMA /\ c <> 93%N /\ c <> 91%N.
Proof.
  intros H L. destruct H as [->|[->|[->|[->|[->|(_ & H)]]]]]; try (repeat split; discriminate). unfold is_alnum in H. replace (c <? 128)%N with true in H by (symmetry; apply N.ltb_lt; exact L).
  repeat split; intros ->; discriminate H.
Qed.
Lemma xml_first_more U c : xml_first U c -> xml_more U c.
Proof.
  unfold xml_first, xml_more. intros [->|[->|(H & K)]]; [auto|auto|]. do 5 right. split; [exact H|]. unfold is_alnum, is_alpha in *. destruct (c <? 128)%N; [unfold is_ascii_alnum; rewrite K; reflexivity|rewrite K; reflexivity].
Qed.
Lemma id_chars U t c : id_name U t -> In c t -> xml_more U c.
Proof. intros (d & a & -> & H1 & H2) [<-|K]; [apply xml_first_more; exact H1|rewrite Forall_forall in H2; auto]. Qed.
Lemma id_no U t c : id_name U t -> In c [COMMA; 93%N; 91%N] -> ~ In c t.
Proof.
  intros H K J. pose proof (id_chars _ _ _ H J) as M. assert (L : (c < 128)%N) by (destruct K as [<-|[<-|[<-|[]]]]; reflexivity).
  destruct (xml_more_ascii _ _ M L) as (N1 & N2 & N3). destruct K as [<-|[<-|[<-|[]]]]; contradiction.
Qed.

(** * The steps *)
(** A bracket at the start of the text is one at the start of the line. *)
Lemma line_starts t l r n p : a_line t l r n -> (forall c, In c p -> c <> SP /\ c <> CR /\ c <> LF) -> starts_with p t = starts_with p n.
Proof.
  intros H Hp. destruct H as (x & e & -> & -> & _ & He & (y & sps & Hm & -> & Hs & _)). apply eq_true_iff_eq. rewrite !starts_with_spec. split; [|intros (z & ->); destruct Hm as [->|(-> & _)]; rewrite <- !app_assoc; eauto].
  intros (z & D).
  assert (Q : exists q, n ++ q = p ++ z /\ forall c w, q = c :: w -> c = SP \/ c = CR \/ c = LF).
  { destruct Hm as [->|(-> & _)].
    - exists (sps ++ [CR] ++ e ++ r). split; [rewrite <- D, <- !app_assoc; reflexivity|]. intros c w K. destruct sps as [|c0 sps]; [injection K as <- _; auto|]. injection K as <- _. left. apply Hs. left. reflexivity.
    - exists (sps ++ e ++ r). split; [rewrite <- D, <- !app_assoc; reflexivity|]. intros c w K. destruct sps as [|c0 sps]; [|injection K as <- _; left; apply Hs; left; reflexivity].
      destruct He as [->|(-> & ->)]; [injection K as <- _; auto|discriminate K]. }
  destruct Q as (q & D' & Hq). clear - Hp D' Hq. revert n D'. induction p as [|c p IH]; intros n D'; [exists n; reflexivity|].
  destruct n as [|c' n].
  - exfalso. cbn in D'. destruct (Hp c (or_introl eq_refl)) as (N1 & N2 & N3). destruct (Hq c _ D') as [K|[K|K]]; congruence.
  - injection D' as -> D'. destruct (IH (fun d K => Hp d (or_intror K)) n D') as (w & ->). exists w. reflexivity.
Qed.
Lemma skip_neq s l d : l <> [] -> span_eqb (skip s l d) s = false.
Proof.
  intros H. unfold span_eqb. rewrite sp_off_skip. destruct (Nat.eqb_spec (sp_off s + blen l) (sp_off s)) as [K|K]; [|rewrite andb_false_r; reflexivity]. destruct l as [|c l]; [contradiction|]. cbn [blen] in K. pose proof (clen_pos c). lia.
Qed.
Lemma title_step_eq U m l r n : a_line (sp_data (ms_start m)) l r n -> ms_title m = None ->
  (exists x, item_line U n (ITitle x) /\ md_title_step m = Ok (Some (mkms (Some (skip (ms_start m) (lit ".") x)) (ms_anchor m) (ms_reftext m) (ms_attrlist m) (skip (ms_start m) l r) (ms_warnings m)))) \/
  ((forall x, ~ item_line U n (ITitle x)) /\ md_title_step m = Ok None).
Proof.
  intros H Ht. unfold md_title_step. rewrite Ht, (take_norm_eq _ _ _ _ H). cbn [bind mi_item mi_after sp_data with_data].
  destruct (starts_with (lit ".") n) eqn:E1; [|right; split; [|reflexivity]; intros x (-> & _); rewrite (proj2 (starts_with_spec _ _)) in E1 by eauto; discriminate E1].
  apply starts_with_spec in E1. destruct E1 as (y & En).
  destruct (starts_with (lit "..") n) eqn:E2; cbn [negb andb].
  { right. split; [|reflexivity]. intros x (Ex & Hx). apply starts_with_spec in E2. destruct E2 as (z & Ez). rewrite Ez in Ex. change (lit "..") with [46%N; 46%N] in Ex. injection Ex as Ex. destruct (Hx _ _ (eq_sym Ex)) as (K & _). contradiction. }
  assert (Ed : discard (with_data (ms_start m) n) 1 = Ok (skip (ms_start m) (lit ".") y)).
  { unfold discard. change 1 with (blen (lit ".")). rewrite (ipr_ok (with_data (ms_start m) n) (lit ".") y En). reflexivity. }
  rewrite Ed. cbn [bind]. unfold take_whitespace. rewrite take_while_ok. cbn [bind]. unfold p_take_while. rewrite sp_data_skip.
  destruct (span_while is_sp_tab y) as [a b] eqn:Ey. unfold psplit. cbn [mi_item sp_data with_data]. destruct a as [|a0 a]; cbn [is_nil].
  - left. exists y. split; [|reflexivity]. split; [exact En|]. intros c z ->. split.
    + intros ->. rewrite En in E2. discriminate E2.
    + intros K. apply is_sp_tab_spec in K. cbn [span_while] in Ey. rewrite K in Ey. destruct (span_while is_sp_tab z). discriminate Ey.
  - right. split; [|reflexivity]. intros x (Ex & Hx). rewrite Ex in En. apply app_inv_head in En. subst y. destruct x as [|c x]; [discriminate Ey|]. destruct (Hx _ _ eq_refl) as (_ & K). apply K, is_sp_tab_spec. cbn [span_while] in Ey. destruct (is_sp_tab c); [reflexivity|discriminate Ey].
Qed.
(** The text in brackets. *)
Lemma bracket_cut p q n : (forall c, In c p -> ~ In c q) -> p <> [] -> starts_with p n && ends_with q n = true <-> exists mid, n = p ++ mid ++ q.
Proof.
  intros H Hp. rewrite andb_true_iff, starts_with_spec, ends_with_spec. split.
  - intros ((x & Ex) & (y & Ey)). exact (ends_cut _ _ _ _ _ Ex Ey (or_intror H) Hp).
  - intros (mid & ->). split; [eauto|exists (p ++ mid); rewrite <- app_assoc; reflexivity].
Qed.
Lemma bracket_slice s p mid q n : n = p ++ mid ++ q -> exists e, checked_sub (blen n) (blen q) = Ok e /\ slice (with_data s n) (blen p) e = Ok (skip s p mid).
Proof.
  intros D. exists (blen (p ++ mid)). split; [|rewrite (slice_ok (with_data s n) p mid q D); reflexivity].
  unfold checked_sub. rewrite D, !blen_app. replace (blen q <=? blen p + (blen mid + blen q)) with true by (symmetry; apply Nat.leb_le; lia). f_equal. lia.
Qed.
Lemma no_comma_split U (id y x : text) : id_name U id -> x = id ++ lit "," ++ y -> span_while (fun c => negb (COMMA =? c)%N) x = (id, COMMA :: y).
Proof.
  intros H ->. assert (N : ~ In COMMA id) by (apply (id_no U); [exact H|left; reflexivity]). clear H. induction id as [|c id IH]; [reflexivity|]. cbn [app span_while].
  destruct (N.eqb_spec COMMA c) as [<-|K]; [exfalso; apply N; left; reflexivity|]. cbn [negb]. rewrite IH by (intros J; apply N; right; exact J). reflexivity.
Qed.
Lemma anchor_item U n x : n = lit "[[" ++ x ++ lit "]]" -> forall id rt, item_line U n (IAnchor id rt) <->
  id_name U id /\ match rt with None => x = id | Some y => y <> [] /\ x = id ++ lit "," ++ y end.
Proof.
  intros -> id [y|]; cbn [item_line].
  - split; [intros (A & B & D); apply app_inv_head in D; split; [exact A|split; [exact B|]]|intros (A & B & ->); split; [exact A|split; [exact B|rewrite <- !app_assoc; reflexivity]]].
    rewrite !app_assoc in D. apply app_inv_tail in D. rewrite <- app_assoc in D. exact D.
  - split; [intros (A & D); apply app_inv_head, app_inv_tail in D; auto|intros (A & ->); auto].
Qed.
Lemma anchor_step_eq U m l r n : a_line (sp_data (ms_start m)) l r n -> ms_anchor m = None -> ms_reftext m = None ->
  (exists a o, item_line U n (IAnchor (sp_data a) (option_map sp_data o)) /\ Sub (with_data (ms_start m) n) a /\ (forall x, o = Some x -> Sub (with_data (ms_start m) n) x) /\
     md_anchor_step U m = Ok (mkms (ms_title m) (Some a) o (ms_attrlist m) (skip (ms_start m) l r) (ms_warnings m), true)) \/
  ((forall id rt, ~ item_line U n (IAnchor id rt)) /\ exists ws, md_anchor_step U m = Ok (mkms (ms_title m) None None (ms_attrlist m) (ms_start m) (ms_warnings m ++ ws), false) /\
     ((ws = [] /\ forall w, ~ bad_anchor U n w) \/ exists sp w, ws = [mkwarn sp w] /\ bad_anchor U n w /\ Sub (with_data (ms_start m) n) sp)).
Proof.
  intros H Ha Hr. unfold md_anchor_step, parse_maybe_block_anchor. rewrite Ha.
  rewrite (line_starts _ _ _ _ (lit "[[") H) by (intros c [<-|[<-|[]]]; repeat split; discriminate).
  assert (Hno : (forall mid, n <> lit "[[" ++ mid ++ lit "]]") -> (forall id rt, ~ item_line U n (IAnchor id rt)) /\ forall w, ~ bad_anchor U n w).
  { intros K. split; [intros id [rt|]; [intros (_ & _ & D)|intros (_ & D)]|intros w [(D & _)|(x & _ & D & _)]].
    - apply (K (id ++ lit "," ++ rt)). rewrite D, <- !app_assoc. reflexivity.
    - exact (K _ D).
    - exact (K [] D).
    - exact (K _ D). }
  assert (B : starts_with (lit "[[") n && ends_with (lit "]]") n = true <-> exists mid, n = lit "[[" ++ mid ++ lit "]]") by (apply bracket_cut; [intros c [<-|[<-|[]]] [K|[K|[]]]; discriminate K|discriminate]). destruct (starts_with (lit "[[") n) eqn:E1; cbn [andb bind] in *.
  2:{ right. destruct Hno as (N1 & N2). { intros mid D. rewrite D in E1. discriminate E1. } split; [exact N1|]. exists []. cbn [fst snd app]. rewrite app_nil_r, Hr. auto. }
  rewrite (take_norm_eq _ _ _ _ H). cbn [bind mi_item mi_after sp_data with_data]. destruct (ends_with (lit "]]") n) eqn:E2; cbn [bind fst snd].
  2:{ right. destruct Hno as (N1 & N2). { intros mid D. assert (K : false = true) by (apply B; eauto). discriminate K. } split; [exact N1|]. exists []. rewrite app_nil_r, Hr. auto. }
  clear Hno. destruct (proj1 B eq_refl) as (mid & Em). clear B E1 E2.
  destruct (bracket_slice (ms_start m) _ _ _ _ Em) as (e & Ee & Es). change (blen (lit "]]")) with 2 in Ee. change (blen (lit "[[")) with 2 in Es. rewrite Ee. cbn [bind]. rewrite Es. cbn [bind]. rewrite sp_data_skip.
  assert (Sa : Sub (with_data (ms_start m) n) (skip (ms_start m) (lit "[[") mid)) by (apply (Sub_intro (with_data (ms_start m) n) (lit "[[") mid (lit "]]")); exact Em).
  destruct mid as [|c0 mid0]; cbn [is_nil bind fst snd].
  { right. split; [intros id rt K; apply (anchor_item U n [] Em) in K; destruct K as ((c & a & -> & _) & K); destruct rt; [destruct K as (_ & K)|]; discriminate K|].
    exists [mkwarn (skip (ms_start m) (lit "[[") []) WEmptyBlockAnchorName]. rewrite Hr. split; [reflexivity|]. right. do 2 eexists. split; [reflexivity|]. split; [left; auto|exact Sa]. }
  set (mid := c0 :: mid0) in *. cbn [mi_item mi_after]. rewrite sp_data_skip, app_nil_r.
  assert (Hmove : forall a o, item_line U n (IAnchor (sp_data a) (option_map sp_data o)) -> Sub (with_data (ms_start m) n) a -> (forall x, o = Some x -> Sub (with_data (ms_start m) n) x) -> forall X,
     (m' <- Ok (mkms (ms_title m) (Some a) o (ms_attrlist m) (skip (ms_start m) l r) (ms_warnings m)) ;; Ok (m', negb (span_eqb (ms_start m') (ms_start m)))) = X -> 
     exists a o, item_line U n (IAnchor (sp_data a) (option_map sp_data o)) /\ Sub (with_data (ms_start m) n) a /\ (forall x, o = Some x -> Sub (with_data (ms_start m) n) x) /\
     X = Ok (mkms (ms_title m) (Some a) o (ms_attrlist m) (skip (ms_start m) l r) (ms_warnings m), true)).
  { intros a o K1 K2 K3 X <-. exists a, o. repeat split; try assumption. cbn [bind ms_start]. rewrite skip_neq; [reflexivity|]. apply (a_line_nonempty _ _ _ _ H). destruct (a_line_prefix _ _ _ _ H) as (w & Ew). rewrite (a_line_app _ _ _ _ H), Ew, Em. discriminate. }
  assert (Hstay : forall sp, (forall id rt, ~ item_line U n (IAnchor id rt)) -> Sub (with_data (ms_start m) n) sp -> forall X,
     (m' <- Ok (mkms (ms_title m) None (ms_reftext m) (ms_attrlist m) (ms_start m) (ms_warnings m ++ [mkwarn sp WInvalidBlockAnchorName])) ;; Ok (m', negb (span_eqb (ms_start m') (ms_start m)))) = X -> 
     (forall id rt, ~ item_line U n (IAnchor id rt)) /\ exists ws, X = Ok (mkms (ms_title m) None None (ms_attrlist m) (ms_start m) (ms_warnings m ++ ws), false) /\
     ((ws = [] /\ forall w, ~ bad_anchor U n w) \/ exists sp w, ws = [mkwarn sp w] /\ bad_anchor U n w /\ Sub (with_data (ms_start m) n) sp)).
  { intros sp K1 K2 X <-. split; [exact K1|]. cbn [bind ms_start]. rewrite span_eqb_refl, Hr. eexists. split; [reflexivity|]. right. do 2 eexists. split; [reflexivity|]. split; [|exact K2].
    right. exists mid. split; [discriminate|]. split; [exact Em|]. split; [reflexivity|exact K1]. }
  rewrite position_spec. pose proof (span_while_app (fun c => negb (COMMA =? c)%N) mid) as Dsp. pose proof (span_while_stop (fun c => negb (COMMA =? c)%N) mid) as Dst.
  destruct (span_while (fun c => negb (COMMA =? c)%N) mid) as [a b] eqn:Esw. cbn [fst snd] in *. symmetry in Dsp.
  assert (Whole : (forall y id, y <> [] -> id_name U id -> mid <> id ++ lit "," ++ y) -> 
    if is_xml_name U mid then item_line U n (IAnchor mid None) else forall id rt, ~ item_line U n (IAnchor id rt)).
  { intros K. destruct (is_xml_name U mid) eqn:Ex; [apply (anchor_item U n mid Em); split; [apply xml_id; exact Ex|reflexivity]|].
    intros id [y|] J; apply (anchor_item U n mid Em) in J; [destruct J as (J1 & J2 & J3); exact (K y id J2 J1 J3)|destruct J as (J1 & <-); apply xml_id in J1; rewrite J1 in Ex; discriminate Ex]. }
  destruct b as [|c b].
  - assert (W : forall y id, y <> [] -> id_name U id -> mid <> id ++ lit "," ++ y) by (intros y id _ Hid J; rewrite (no_comma_split U id y mid Hid J) in Esw; discriminate Esw).
    specialize (Whole W). destruct (is_xml_name U mid).
    + left. eapply (Hmove (skip (ms_start m) (lit "[[") mid) None); [cbn [option_map]; rewrite sp_data_skip; exact Whole|exact Sa|intros x J; discriminate J|rewrite Hr; reflexivity].
    + right. eapply Hstay; [exact Whole|exact Sa|reflexivity].
  - specialize (Dst _ _ eq_refl). apply negb_false_iff, N.eqb_eq in Dst. subst c.
    assert (Hc : checked_sub (blen mid) 1 = Ok (blen mid - 1)).
    { unfold checked_sub. replace (1 <=? blen mid) with true; [reflexivity|]. symmetry. apply Nat.leb_le. rewrite Dsp, blen_app. cbn [blen]. pose proof (clen_pos COMMA). lia. }
    rewrite Hc. cbn [bind]. assert (Hb : (blen a <? blen mid - 1) = negb (is_nil b)).
    { rewrite Dsp, blen_app. cbn [blen]. change (clen COMMA) with 1. destruct b as [|c b]; cbn [blen is_nil negb]; [apply Nat.ltb_ge; lia|apply Nat.ltb_lt; pose proof (clen_pos c); lia]. }
    rewrite Hb. destruct b as [|c b]; cbn [is_nil negb].
    + assert (W : forall y id, y <> [] -> id_name U id -> mid <> id ++ lit "," ++ y).
      { intros y id Hy Hid J. rewrite (no_comma_split U id y mid Hid J) in Esw. injection Esw as _ K. contradiction. }
      specialize (Whole W). destruct (is_xml_name U mid).
      * left. eapply (Hmove (skip (ms_start m) (lit "[[") mid) None); [cbn [option_map]; rewrite sp_data_skip; exact Whole|exact Sa|intros x J; discriminate J|rewrite Hr; reflexivity].
      * right. eapply Hstay; [exact Whole|exact Sa|reflexivity].
    + set (y := c :: b) in *. assert (Dd : sp_data (skip (ms_start m) (lit "[[") mid) = a ++ COMMA :: y) by (rewrite sp_data_skip; exact Dsp).
      rewrite (slice_to_ok _ _ _ Dd). cbn [bind]. replace (blen a + 1) with (blen (a ++ [COMMA])) by (rewrite blen_app; reflexivity). rewrite (slice_from_ok (skip (ms_start m) (lit "[[") mid) (a ++ [COMMA]) y) by (rewrite Dd, <- app_assoc; reflexivity). cbn [bind sp_data with_data].
      assert (S1 : Sub (with_data (ms_start m) n) (with_data (skip (ms_start m) (lit "[[") mid) a)).
      { eapply Sub_trans; [exact Sa|]. replace (with_data (skip (ms_start m) (lit "[[") mid) a) with (skip (skip (ms_start m) (lit "[[") mid) [] a) by (rewrite skip_nil; reflexivity). apply (Sub_intro _ [] a (COMMA :: y)). exact Dd. }
      assert (S2 : Sub (with_data (ms_start m) n) (skip (skip (ms_start m) (lit "[[") mid) (a ++ [COMMA]) y)).
      { eapply Sub_trans; [exact Sa|]. apply (Sub_intro _ (a ++ [COMMA]) y []). rewrite app_nil_r, Dd, <- app_assoc. reflexivity. }
      destruct (is_xml_name U a) eqn:Ex.
      * left. eapply (Hmove (with_data (skip (ms_start m) (lit "[[") mid) a) (Some (skip (skip (ms_start m) (lit "[[") mid) (a ++ [COMMA]) y))); [|exact S1|intros x J; injection J as <-; exact S2|reflexivity].
        cbn [option_map sp_data with_data]. rewrite sp_data_skip. apply (anchor_item U n mid Em). split; [apply xml_id; exact Ex|]. split; [discriminate|exact Dsp].
      * right. eapply Hstay; [|exact S1|reflexivity]. intros id [z|] J; apply (anchor_item U n mid Em) in J.
        -- destruct J as (J1 & J2 & J3). rewrite (no_comma_split U id z mid J1 J3) in Esw. injection Esw as -> _. apply xml_id in J1. rewrite J1 in Ex. discriminate Ex.
        -- destruct J as (J1 & <-). apply (id_no U _ COMMA J1); [left; reflexivity|]. rewrite Dsp. apply in_app_iff. right. left. reflexivity.
Qed.
Lemma list_item U n x : n = lit "[" ++ x ++ lit "]" -> forall y, item_line U n (IList y) -> y = x.
Proof. intros -> y (D & _). apply app_inv_head, app_inv_tail in D. auto. Qed.
Lemma attrlist_step_eq E P m l r n z : a_line (sp_data (ms_start m)) l r n -> ms_attrlist m = None -> md_attrlist_step E P m = Ok z ->
  (exists sp a w, item_line (e_u E) n (IList (sp_data sp)) /\ Sub (with_data (ms_start m) n) sp /\ attrlist_parse (e_u E) (norm_of E P) P sp CtxBlock = Ok (a, w) /\
     z = (mkms (ms_title m) (ms_anchor m) (ms_reftext m) (Some (mi_item a)) (skip (ms_start m) l r) (ms_warnings m ++ w), true)) \/
  ((forall x, ~ item_line (e_u E) n (IList x)) /\ z = (m, false)).
Proof.
  intros H Ha. unfold md_attrlist_step, parse_maybe_attrlist_line. rewrite Ha. rewrite (line_starts _ _ _ _ (lit "[") H) by (intros c [<-|[]]; repeat split; discriminate).
  assert (B : starts_with (lit "[") n && ends_with (lit "]") n = true <-> exists mid, n = lit "[" ++ mid ++ lit "]") by (apply bracket_cut; [intros c [<-|[]] [K|[]]; discriminate K|discriminate]).
  assert (Hno : starts_with (lit "[") n && ends_with (lit "]") n = false -> forall x, ~ item_line (e_u E) n (IList x)).
  { intros K x (D & _). rewrite (proj2 B) in K by eauto. discriminate K. }
  destruct (starts_with (lit "[") n) eqn:E1; cbn [andb bind] in *; [|intros K; apply Ok_inj in K; right; auto].
  rewrite (take_norm_eq _ _ _ _ H). cbn [bind mi_item mi_after sp_data with_data]. destruct (ends_with (lit "]") n) eqn:E2; cbn [bind]; [|intros K; apply Ok_inj in K; right; auto].
  destruct (proj1 B eq_refl) as (mid & Em). clear B E1 E2 Hno.
  destruct (bracket_slice (ms_start m) _ _ _ _ Em) as (e & Ee & Es). change (blen (lit "]")) with 1 in Ee. change (blen (lit "[")) with 1 in Es. rewrite Ee. cbn [bind]. rewrite Es. cbn [bind]. rewrite sp_data_skip.
  assert (Sa : Sub (with_data (ms_start m) n) (skip (ms_start m) (lit "[") mid)) by (apply (Sub_intro (with_data (ms_start m) n) (lit "[") mid (lit "]")); exact Em).
  assert (C : starts_with [SP] mid || starts_with [TAB] mid || starts_with (lit "[") mid && ends_with (lit "]") mid = true <-> ~ ((forall c y, mid = c :: y -> ~ sp_tab c) /\ forall y, mid <> lit "[" ++ y ++ lit "]")).
  { assert (B : starts_with (lit "[") mid && ends_with (lit "]") mid = true <-> exists q, mid = lit "[" ++ q ++ lit "]") by (apply bracket_cut; [intros c [<-|[]] [K|[]]; discriminate K|discriminate]).
    destruct (starts_with (lit "[") mid && ends_with (lit "]") mid).
    - rewrite orb_true_r. split; [|auto]. intros _ (_ & K). destruct (proj1 B eq_refl) as (q & D). exact (K q D).
    - rewrite orb_false_r. assert (B' : forall y, mid <> lit "[" ++ y ++ lit "]") by (intros y D; assert (K : false = true) by (apply B; eauto); discriminate K). destruct mid as [|c mid].
      + cbn. split; [discriminate|]. intros K. exfalso. apply K. split; [discriminate|exact B'].
      + cbn [starts_with]. rewrite !andb_true_r, orb_true_iff, !N.eqb_eq. split.
        * intros K (J & _). apply (J c mid eq_refl). unfold sp_tab. destruct K as [<-|<-]; auto.
        * intros K. destruct (N.eq_dec SP c) as [|N1]; [auto|]. destruct (N.eq_dec TAB c) as [|N2]; [auto|]. exfalso. apply K. split; [|exact B']. intros c' y D. injection D as <- _. unfold sp_tab. intros [->| ->]; contradiction. }
  destruct (starts_with [SP] mid || starts_with [TAB] mid || starts_with (lit "[") mid && ends_with (lit "]") mid).
  - cbn [bind]. intros K. apply Ok_inj in K. right. split; [|auto]. intros x Hx. pose proof (list_item _ _ _ Em _ Hx) as ->. destruct Hx as (_ & Hx). exact (proj1 C eq_refl Hx).
  - destruct (attrlist_parse (e_u E) (norm_of E P) P (skip (ms_start m) (lit "[") mid) CtxBlock) as [[a w]| |] eqn:Ea; cbn [bind]; try discriminate. intros K. apply Ok_inj in K. cbn [fst snd mi_item mi_after] in K. left.
    exists (skip (ms_start m) (lit "[") mid), a, w. split; [|split; [exact Sa|split; [exact Ea|symmetry; exact K]]]. rewrite sp_data_skip. split; [exact Em|].
    split; [intros c y D J|intros y D]; (assert (X : false = true); [apply C; intros (K1 & K2)|discriminate X]); [exact (K1 _ _ D J)|exact (K2 _ D)].
Qed.

(** * All lines *)
(** What the state says of the lines seen. *)
Record told (E : env) (P : parser) (s0 : span) (seen : list item) (title anchor reftext : option span) (al : option attrlist) (ws : list warning) : Prop := {
  td_title : match title with Some sp => In (ITitle (sp_data sp)) seen /\ Sub s0 sp | None => forall x, ~ In (ITitle x) seen end;
  td_anchor : match anchor with
              | Some a => In (IAnchor (sp_data a) (option_map sp_data reftext)) seen /\ Sub s0 a /\ forall x, reftext = Some x -> Sub s0 x
              | None => reftext = None /\ forall x y, ~ In (IAnchor x y) seen
              end;
  td_list : match al with
            | Some a => exists sp after, In (IList (sp_data sp)) seen /\ Sub s0 sp /\ attrlist_parse (e_u E) (norm_of E P) P sp CtxBlock = Ok (mkmi a after, ws)
            | None => ws = [] /\ forall x, ~ In (IList x) seen
            end }.
Definition tell E P s0 seen (m : mdstate) ws := told E P s0 seen (ms_title m) (ms_anchor m) (ms_reftext m) (ms_attrlist m) ws.
Definition end_warnings (U : unicode) (s : span) (seen : list item) (ws : list warning) : Prop :=
  exists l r n, a_line (sp_data s) l r n /\
  ((ws = [] /\ ((exists x y, In (IAnchor x y) seen) \/ forall w, ~ bad_anchor U n w)) \/ exists sp w, ws = [mkwarn sp w] /\ (forall x y, ~ In (IAnchor x y) seen) /\ bad_anchor U n w /\ Sub s sp).
Lemma seen_kind i seen : existsb (same_kind i) seen = false <-> forall j, In j seen -> same_kind i j = false.
Proof.
  rewrite <- not_true_iff_false, existsb_exists. split; [intros H j Hj; apply not_true_iff_false; intros K; apply H; eauto|intros H (j & Hj & K); rewrite (H j Hj) in K; discriminate K].
Qed.
Lemma Sub_line s l r n x : a_line (sp_data s) l r n -> Sub (with_data s n) x -> Sub s x.
Proof.
  intros H K. eapply Sub_trans; [|exact K]. destruct (a_line_prefix _ _ _ _ H) as (w & ->). replace (with_data s n) with (skip s [] n) by (rewrite skip_nil; reflexivity). apply (Sub_intro s [] n (w ++ r)). rewrite (a_line_app _ _ _ _ H), <- app_assoc. reflexivity.
Qed.
Lemma md_loop_lines E P s0 : forall fuel seen m ws m', Suffix s0 (ms_start m) -> tell E P s0 seen m ws -> ms_warnings m = ws -> md_loop E P fuel m = Ok m' ->
  exists is_ ws1 ws2, meta_lines (e_u E) seen (sp_data (ms_start m)) is_ (sp_data (ms_start m')) /\ tell E P s0 (rev is_ ++ seen) m' ws1 /\ ms_warnings m' = ws1 ++ ws2 /\ end_warnings (e_u E) (ms_start m') (rev is_ ++ seen) ws2.
Proof.
  induction fuel as [|fuel IH]; intros seen m ws m' Hs0 T Hw H; cbn [md_loop] in H; [discriminate H|].
  destruct (a_line_total (sp_data (ms_start m))) as (l & r & n & Hl).
  assert (SubN : forall x, Sub (with_data (ms_start m) n) x -> Sub s0 x) by (intros x K; eapply Sub_trans; [exact (Suffix_Sub _ _ Hs0)|exact (Sub_line _ _ _ _ _ Hl K)]).
  assert (Hs1 : Suffix s0 (skip (ms_start m) l r)) by (eapply Suffix_trans; [exact Hs0|exact (suffix_line _ _ _ _ Hl)]).
  assert (Step : forall i m1 ws1, item_line (e_u E) n i -> existsb (same_kind i) seen = false -> ms_start m1 = skip (ms_start m) l r -> ms_warnings m1 = ws1 -> tell E P s0 (i :: seen) m1 ws1 -> md_loop E P fuel m1 = Ok m' ->
     exists is_ ws1 ws2, meta_lines (e_u E) seen (sp_data (ms_start m)) is_ (sp_data (ms_start m')) /\ tell E P s0 (rev is_ ++ seen) m' ws1 /\ ms_warnings m' = ws1 ++ ws2 /\ end_warnings (e_u E) (ms_start m') (rev is_ ++ seen) ws2).
  { intros i m1 ws1 Hi Hk Es Ew T1 H1. assert (Hsm : Suffix s0 (ms_start m1)) by (rewrite Es; exact Hs1). destruct (IH (i :: seen) m1 ws1 m' Hsm T1 Ew H1) as (is_ & w1 & w2 & A & B & C & D). rewrite Es, sp_data_skip in A.
    exists (i :: is_), w1, w2. split; [eapply me_line; eassumption|]. cbn [rev]. rewrite <- app_assoc. cbn [app]. auto. }
  destruct T as [T1 T2 T3].
  (* the title *)
  assert (HT : (exists x, item_line (e_u E) n (ITitle x) /\ ms_title m = None /\ md_title_step m = Ok (Some (mkms (Some (skip (ms_start m) (lit ".") x)) (ms_anchor m) (ms_reftext m) (ms_attrlist m) (skip (ms_start m) l r) (ms_warnings m)))) \/
      (md_title_step m = Ok None /\ forall x, item_line (e_u E) n (ITitle x) -> existsb (same_kind (ITitle x)) seen = true)).
  { destruct (ms_title m) as [sp|] eqn:Et.
    - right. split; [unfold md_title_step; rewrite Et; reflexivity|]. intros x _. apply existsb_exists. exists (ITitle (sp_data sp)). split; [exact (proj1 T1)|reflexivity].
    - destruct (title_step_eq (e_u E) m l r n Hl Et) as [(x & Hx & Hm)|(Hx & Hm)]; [left; exists x; auto|right; split; [exact Hm|intros x K; destruct (Hx x K)]]. }
  destruct HT as [(x & Hx & Et & Em)|(Em & HT)]; rewrite Em in H; cbn [bind] in H; clear Em.
  { rewrite Et in T1. apply (Step (ITitle x) _ ws Hx) in H; [exact H| |reflexivity|exact Hw|].
    - apply seen_kind. intros [y|y z|y] Hy; [destruct (T1 _ Hy)|reflexivity|reflexivity].
    - constructor; cbn [ms_title ms_anchor ms_reftext ms_attrlist].
      + rewrite sp_data_skip. split; [left; reflexivity|]. apply SubN. destruct Hx as (Hx & _). rewrite <- (app_nil_r x) in Hx. exact (Sub_intro (with_data (ms_start m) n) (lit ".") x [] Hx).
      + destruct (ms_anchor m); [destruct T2 as (A & B); split; [right; exact A|exact B]|destruct T2 as (A & B); split; [exact A|]]. intros a b [K|K]; [discriminate K|exact (B _ _ K)].
      + destruct (ms_attrlist m); [destruct T3 as (sp & af & A & B); exists sp, af; split; [right; exact A|exact B]|destruct T3 as (A & B); split; [exact A|]]. intros a [K|K]; [discriminate K|exact (B _ K)]. }
  (* the anchor *)
  assert (HA : (exists a o, item_line (e_u E) n (IAnchor (sp_data a) (option_map sp_data o)) /\ ms_anchor m = None /\ Sub (with_data (ms_start m) n) a /\ (forall x, o = Some x -> Sub (with_data (ms_start m) n) x) /\
       md_anchor_step (e_u E) m = Ok (mkms (ms_title m) (Some a) o (ms_attrlist m) (skip (ms_start m) l r) (ms_warnings m), true)) \/
     (exists m1 ws2, md_anchor_step (e_u E) m = Ok (m1, false) /\ ms_title m1 = ms_title m /\ ms_anchor m1 = ms_anchor m /\ ms_reftext m1 = ms_reftext m /\ ms_attrlist m1 = ms_attrlist m /\ ms_start m1 = ms_start m /\ ms_warnings m1 = ms_warnings m ++ ws2 /\
       (forall x y, item_line (e_u E) n (IAnchor x y) -> existsb (same_kind (IAnchor x y)) seen = true) /\ end_warnings (e_u E) (ms_start m) seen ws2)).
  { destruct (ms_anchor m) as [a0|] eqn:Ea.
    - right. exists m, []. rewrite app_nil_r. unfold md_anchor_step. rewrite Ea. do 7 (split; [auto|]). split.
      + intros x y _. apply existsb_exists. eexists. split; [exact (proj1 T2)|reflexivity].
      + exists l, r, n. split; [exact Hl|]. left. split; [reflexivity|]. left. destruct T2 as (T2 & _). eauto.
    - destruct T2 as (Er & T2). destruct (anchor_step_eq (e_u E) m l r n Hl Ea Er) as [(a & o & A & B & C & D)|(A & ws2 & D & C)].
      + left. exists a, o. auto.
      + right. eexists _, ws2. split; [exact D|]. cbn [ms_title ms_anchor ms_reftext ms_attrlist ms_start ms_warnings]. rewrite Er. do 6 (split; [auto|]). split.
        * intros x y K. destruct (A _ _ K).
        * exists l, r, n. split; [exact Hl|]. destruct C as [(C1 & C2)|(sp & w & C1 & C2 & C3)]; [left; auto|right]. exists sp, w. repeat split; auto. exact (Sub_line _ _ _ _ _ Hl C3). }
  destruct HA as [(a & o & Hx & Ea & S1 & S2 & Em)|(m1 & ws2 & Em & E1 & E2 & E3 & E4 & E5 & E6 & HA & HW)]; rewrite Em in H; cbn [bind fst snd] in H; clear Em.
  { rewrite Ea in T2. apply (Step (IAnchor (sp_data a) (option_map sp_data o)) _ ws Hx) in H; [exact H| |reflexivity|exact Hw|].
    - apply seen_kind. intros [y|y z|y] Hy; [reflexivity|destruct (proj2 T2 _ _ Hy)|reflexivity].
    - constructor; cbn [ms_title ms_anchor ms_reftext ms_attrlist].
      + destruct (ms_title m); [destruct T1 as (A & B); split; [right; exact A|exact B]|]. intros x [K|K]; [discriminate K|exact (T1 _ K)].
      + split; [left; reflexivity|]. split; [exact (SubN _ S1)|]. intros x Ex. exact (SubN _ (S2 x Ex)).
      + destruct (ms_attrlist m); [destruct T3 as (sp & af & A & B); exists sp, af; split; [right; exact A|exact B]|destruct T3 as (A & B); split; [exact A|]]. intros x [K|K]; [discriminate K|exact (B _ K)]. }
  (* the attribute list *)
  assert (Fin : forall m2, m' = m2 -> ms_title m2 = ms_title m -> ms_anchor m2 = ms_anchor m -> ms_reftext m2 = ms_reftext m -> ms_attrlist m2 = ms_attrlist m -> ms_start m2 = ms_start m -> ms_warnings m2 = ws ++ ws2 ->
     (forall x, item_line (e_u E) n (IList x) -> existsb (same_kind (IList x)) seen = true) ->
     exists is_ ws1 ws2, meta_lines (e_u E) seen (sp_data (ms_start m)) is_ (sp_data (ms_start m')) /\ tell E P s0 (rev is_ ++ seen) m' ws1 /\ ms_warnings m' = ws1 ++ ws2 /\ end_warnings (e_u E) (ms_start m') (rev is_ ++ seen) ws2).
  { intros m2 -> F1 F2 F3 F4 F5 F6 HL. exists [], ws, ws2. rewrite F5. cbn [rev app]. split; [eapply me_end; [exact Hl|intros [x|x y|x] K; auto]|]. split; [|auto]. unfold tell. rewrite F1, F2, F3, F4. constructor; assumption. }
  rewrite <- Hw in Fin.
  destruct (ms_attrlist m) as [a0|] eqn:El.
  { unfold md_attrlist_step in H. rewrite E4 in H. cbn [bind fst snd] in H. apply Ok_inj in H. symmetry in H. apply (Fin _ H); auto.
    intros x _. destruct T3 as (sp & af & A & _). apply existsb_exists. eexists. split; [exact A|reflexivity]. }
  destruct (md_attrlist_step E P m1) as [z| |] eqn:Ez; cbn [bind] in H; try discriminate H. rewrite <- E5 in Hl.
  destruct (attrlist_step_eq E P m1 l r n z Hl E4 Ez) as [(sp & a & w & Hx & S1 & Hp & ->)|(HL & ->)]; cbn [fst snd] in H; rewrite E5 in Hl.
  - assert (ws2 = []) as ->.
    { destruct HW as (l' & r' & n' & Hl' & [(-> & _)|(sp' & w' & _ & _ & Hb & _)]); [reflexivity|]. exfalso. destruct (a_line_unique _ _ _ _ _ _ _ Hl Hl') as (_ & _ & <-).
      destruct Hx as (D & _ & K). assert (X : exists x, n = lit "[[" ++ x ++ lit "]]") by (destruct Hb as [(F & _)|(x & _ & F & _)]; [exists []; exact F|eauto]). destruct X as (x & F). rewrite D in F. apply (K x).
      change (lit "[[") with (lit "[" ++ lit "[") in F. change (lit "]]") with (lit "]" ++ lit "]") in F. rewrite <- app_assoc in F. apply app_inv_head in F. rewrite !app_assoc in F. apply app_inv_tail in F. rewrite <- app_assoc in F. exact F. }
    destruct T3 as (W0 & T3). rewrite E5, E1, E2, E3, E6, app_nil_r, Hw, W0 in H. rewrite E5 in S1. apply (Step (IList (sp_data sp)) _ ([] ++ w) Hx) in H; [exact H| |reflexivity|reflexivity|].
    + apply seen_kind. intros [y|y z|y] Hy; [reflexivity|reflexivity|destruct (T3 _ Hy)].
    + constructor; cbn [ms_title ms_anchor ms_reftext ms_attrlist].
      * destruct (ms_title m); [destruct T1 as (A & B); split; [right; exact A|exact B]|]. intros x [K|K]; [discriminate K|exact (T1 _ K)].
      * destruct (ms_anchor m); [destruct T2 as (A & B); split; [right; exact A|exact B]|destruct T2 as (A & B); split; [exact A|]]. intros x y [K|K]; [discriminate K|exact (B _ _ K)].
      * exists sp, (mi_after a). split; [left; reflexivity|]. split; [exact (SubN _ S1)|]. destruct a. exact Hp.
  - apply Ok_inj in H. symmetry in H. apply (Fin _ H); auto. intros x K. destruct (HL _ K).
Qed.

(** * The lines determine the metadata *)
Lemma ml_seen U seen t is_ r : meta_lines U seen t is_ r -> forall i, In i is_ -> existsb (same_kind i) seen = false.
Proof.
  induction 1 as [seen t l r n i is_ rest Hl Hi Hk H IH|seen t l r n Hl Hn]; intros j Hj; [|destruct Hj]. destruct Hj as [<-|Hj]; [exact Hk|]. specialize (IH j Hj). cbn [existsb] in IH. apply orb_false_iff in IH. exact (proj2 IH).
Qed.
Lemma ml_title U seen t is_ r : meta_lines U seen t is_ r -> forall x, In (ITitle x) is_ -> the_title is_ = Some x.
Proof.
  induction 1 as [seen t l r n i is_ rest Hl Hi Hk H IH|seen t l r n Hl Hn]; intros x Hx; [|destruct Hx]. destruct Hx as [->|Hx]; [reflexivity|]. destruct i as [y|y z|y]; [|exact (IH x Hx)|exact (IH x Hx)].
  pose proof (ml_seen _ _ _ _ _ H _ Hx) as K. discriminate K.
Qed.
Lemma ml_anchor U seen t is_ r : meta_lines U seen t is_ r -> forall x y, In (IAnchor x y) is_ -> the_anchor is_ = Some x /\ the_reftext is_ = y.
Proof.
  induction 1 as [seen t l r n i is_ rest Hl Hi Hk H IH|seen t l r n Hl Hn]; intros x y Hx; [|destruct Hx]. destruct Hx as [->|Hx].
  - split; [reflexivity|]. destruct y as [y|]; [reflexivity|]. unfold the_reftext. cbn [flat_map app].
    assert (G : forall j, In j is_ -> match j with IAnchor _ _ => False | _ => True end) by (intros j Hj; pose proof (ml_seen _ _ _ _ _ H _ Hj) as K; destruct j; [exact I|discriminate K|exact I]).
    clear - G. induction is_ as [|j is_ IH]; [reflexivity|]. pose proof (G j (or_introl eq_refl)) as Gj. destruct j; [|destruct Gj|]; cbn [flat_map app]; apply IH; intros k Hk; apply G; right; exact Hk.
  - destruct i as [z|z w|z]; [exact (IH x y Hx)| |exact (IH x y Hx)]. pose proof (ml_seen _ _ _ _ _ H _ Hx) as K. discriminate K.
Qed.
Lemma ml_list U seen t is_ r : meta_lines U seen t is_ r -> forall x, In (IList x) is_ -> the_list is_ = Some x.
Proof.
  induction 1 as [seen t l r n i is_ rest Hl Hi Hk H IH|seen t l r n Hl Hn]; intros x Hx; [|destruct Hx]. destruct Hx as [->|Hx]; [reflexivity|]. destruct i as [y|y z|y]; [exact (IH x Hx)|exact (IH x Hx)|].
  pose proof (ml_seen _ _ _ _ _ H _ Hx) as K. discriminate K.
Qed.
Lemma the_none is_ : ((forall x, ~ In (ITitle x) is_) -> the_title is_ = None) /\ ((forall x y, ~ In (IAnchor x y) is_) -> the_anchor is_ = None /\ the_reftext is_ = None) /\ ((forall x, ~ In (IList x) is_) -> the_list is_ = None).
Proof.
  induction is_ as [|i is_ (IH1 & IH2 & IH3)]; [repeat split|]. split; [|split].
  - intros H. destruct i as [y|y z|y]; [destruct (H y (or_introl eq_refl))| |]; apply IH1; intros x Hx; apply (H x); right; exact Hx.
  - intros H. destruct i as [y|y z|y]; [|destruct (H y z (or_introl eq_refl))|]; apply IH2; intros a b Hx; apply (H a b); right; exact Hx.
  - intros H. destruct i as [y|y z|y]; [| |destruct (H y (or_introl eq_refl))]; apply IH3; intros x Hx; apply (H x); right; exact Hx.
Qed.
Theorem metadata_lines E s P md ws : metadata_parse E s P = Ok (md, ws) ->
  exists is_ ws1 ws2, discard_empty_lines s = Ok (md_source md) /\ meta_lines (e_u E) [] (sp_data (md_source md)) is_ (sp_data (md_start md)) /\
    option_map sp_data (md_title_source md) = the_title is_ /\ option_map sp_data (md_anchor md) = the_anchor is_ /\ option_map sp_data (md_reftext md) = the_reftext is_ /\
    match md_attrlist md with
    | Some a => exists sp after, the_list is_ = Some (sp_data sp) /\ Sub (md_source md) sp /\ attrlist_parse (e_u E) (norm_of E P) P sp CtxBlock = Ok (mkmi a after, ws1)
    | None => the_list is_ = None /\ ws1 = []
    end /\
    match the_title is_ with Some x => exists t, e_sub E P GNormal false x = Ok t /\ md_title md = Some t | None => md_title md = None end /\
    ws = ws1 ++ ws2 /\ end_warnings (e_u E) (md_start md) is_ ws2 /\
    forall x, md_title_source md = Some x \/ md_anchor md = Some x \/ md_reftext md = Some x -> Sub (md_source md) x.
Proof.
  unfold metadata_parse. intros H. apply bind_ok in H. destruct H as (s0 & E0 & H). apply bind_ok in H. destruct H as (m & Em & H). apply bind_ok in H. destruct H as (ti & Et & H). injection H as <- <-. cbn [md_source md_start md_title_source md_title md_anchor md_reftext md_attrlist].
  assert (T0 : tell E P s0 [] (mkms None None None None s0 []) []) by (constructor; cbn; [intros x K; exact K|split; [reflexivity|intros x y K; exact K]|split; [reflexivity|intros x K; exact K]]).
  destruct (md_loop_lines E P s0 4 [] (mkms None None None None s0 []) [] m (Suffix_refl s0) T0 eq_refl Em) as (is_ & ws1 & ws2 & A & [T1 T2 T3] & C & D). cbn [ms_start] in A. rewrite app_nil_r in *.
  assert (Q1 : option_map sp_data (ms_title m) = the_title is_).
  { destruct (ms_title m); cbn [option_map]; symmetry; [eapply ml_title; [exact A|apply in_rev, T1]|apply the_none; intros x K; apply (T1 x), in_rev; rewrite rev_involutive; exact K]. }
  assert (Q2 : option_map sp_data (ms_anchor m) = the_anchor is_ /\ option_map sp_data (ms_reftext m) = the_reftext is_).
  { destruct (ms_anchor m) as [a|]; cbn [option_map].
    - destruct T2 as (T2 & _). apply in_rev in T2. destruct (ml_anchor _ _ _ _ _ A _ _ T2) as (-> & ->). auto.
    - destruct T2 as (-> & T2). assert (K : forall x y, ~ In (IAnchor x y) is_) by (intros x y K; apply (T2 x y), in_rev; rewrite rev_involutive; exact K). destruct (proj1 (proj2 (the_none is_)) K) as (-> & ->). auto. }
  exists is_, ws1, ws2. split; [exact E0|]. split; [exact A|]. split; [exact Q1|]. split; [exact (proj1 Q2)|]. split; [exact (proj2 Q2)|]. split; [|split; [|split; [exact C|split]]].
  - destruct (ms_attrlist m) as [a|].
    + destruct T3 as (sp & after & K & S1 & Hp). exists sp, after. split; [|auto]. eapply ml_list; [exact A|]. apply in_rev. exact K.
    + destruct T3 as (-> & K). split; [|reflexivity]. apply the_none. intros x J. apply (K x), in_rev. rewrite rev_involutive. exact J.
  - rewrite <- Q1. destruct (ms_title m) as [sp|]; cbn [option_map] in *; [|injection Et as <-; reflexivity]. apply bind_ok in Et. destruct Et as (t & Es & Et). injection Et as <-. eauto.
  - destruct D as (l & r & n & Hl & D). exists l, r, n. split; [exact Hl|]. destruct D as [(-> & D)|(sp & w & -> & D & Hb & Hs)]; [left; split; [reflexivity|]; destruct D as [(x & y & D)|D]; [left; exists x, y; apply in_rev; exact D|right; exact D]|right].
    exists sp, w. split; [reflexivity|]. split; [|auto]. intros x y K. apply (D x y), in_rev. rewrite rev_involutive. exact K.
  - intros x [K|[K|K]]; [rewrite K in T1; exact (proj2 T1)|rewrite K in T2; exact (proj1 (proj2 T2))|]. destruct (ms_anchor m) as [a|]; [exact (proj2 (proj2 T2) x K)|destruct T2 as (T2 & _); rewrite T2 in K; discriminate K].
Qed.

(** A line is of one kind, and the lines of a text are determined. *)
Lemma comma_cut a b c d : ~ In COMMA a -> ~ In COMMA c -> a ++ lit "," ++ b = c ++ lit "," ++ d -> a = c /\ b = d.
Proof.
  change (lit ",") with [COMMA]. revert c. induction a as [|x a IH]; intros [|y c] Ha Hc H; cbn in H.
  - injection H as H. auto.
  - injection H as H1 H2. subst y. destruct Hc. left. reflexivity.
  - injection H as H1 H2. subst x. destruct Ha. left. reflexivity.
  - injection H as H1 H2. subst y. destruct (IH c) as (-> & ->); auto; intros K; [apply Ha|apply Hc]; right; exact K.
Qed.
Lemma app2_inv (p q x y : text) : p ++ x ++ q = p ++ y ++ q -> x = y.
Proof. intros H. apply app_inv_head in H. apply app_inv_tail in H. exact H. Qed.
Lemma anchor_brackets U n id rt : item_line U n (IAnchor id rt) -> exists y, n = lit "[" ++ (lit "[" ++ y ++ lit "]") ++ lit "]".
Proof.
  destruct rt as [rt|]; [intros (_ & _ & ->)|intros (_ & ->)]; [exists (id ++ lit "," ++ rt)|exists id]; change (lit "[[") with (lit "[" ++ lit "["); change (lit "]]") with (lit "]" ++ lit "]"); rewrite <- !app_assoc; reflexivity.
Qed.
Lemma item_unique U n i j : item_line U n i -> item_line U n j -> i = j.
Proof.
  assert (X1 : forall x y z, item_line U n (ITitle x) -> item_line U n (IAnchor y z) -> False) by (intros x y z (-> & _) K; apply anchor_brackets in K; destruct K as (w & K); discriminate K).
  assert (X2 : forall x y, item_line U n (ITitle x) -> item_line U n (IList y) -> False) by (intros x y (-> & _) (K & _); discriminate K).
  assert (X3 : forall x y z, item_line U n (IList x) -> item_line U n (IAnchor y z) -> False) by (intros x y z (D & _ & Hx) K; apply anchor_brackets in K; destruct K as (w & K); rewrite D in K; apply app2_inv in K; exact (Hx w K)).
  intros Hi Hj. destruct i as [x|x y|x], j as [x'|x' y'|x']; try solve [exfalso; first [eapply X1; eassumption|eapply X2; eassumption|eapply X3; eassumption]].
  - destruct Hi as (-> & _), Hj as (D & _). apply app_inv_head in D. subst. reflexivity.
  - destruct y as [y|], y' as [y'|]; cbn [item_line] in *.
    + destruct Hi as (I1 & _ & ->), Hj as (I2 & _ & D). apply app_inv_head in D. rewrite !app_assoc in D. apply app_inv_tail in D. rewrite <- !app_assoc in D. apply comma_cut in D; [|apply (id_no _ _ _ I1); cbn; auto|apply (id_no _ _ _ I2); cbn; auto]. destruct D as (-> & ->). reflexivity.
    + destruct Hi as (I1 & _ & ->), Hj as (I2 & D). apply app_inv_head in D. rewrite !app_assoc in D. apply app_inv_tail in D. exfalso. apply (id_no _ _ COMMA I2); [cbn; auto|]. rewrite <- D, <- !app_assoc. apply in_app_iff. right. left. reflexivity.
    + destruct Hi as (I1 & ->), Hj as (I2 & _ & D). apply app_inv_head in D. rewrite !app_assoc in D. apply app_inv_tail in D. exfalso. apply (id_no _ _ COMMA I1); [cbn; auto|]. rewrite D, <- !app_assoc. apply in_app_iff. right. left. reflexivity.
    + destruct Hi as (_ & ->), Hj as (_ & D). apply app2_inv in D. subst. reflexivity.
  - destruct Hi as (-> & _), Hj as (D & _). apply app2_inv in D. subst. reflexivity.
Qed.
Lemma meta_lines_unique U seen t is_ r : meta_lines U seen t is_ r -> forall is' r', meta_lines U seen t is' r' -> is_ = is' /\ r = r'.
Proof.
  induction 1 as [seen t l r n i is_ rest Hl Hi Hk H IH|seen t l r n Hl Hn]; intros is' r' H'; inversion H' as [? ? l' r1 n' i' is1 ? Hl' Hi' Hk' H1|? ? l' r1 n' Hl' Hn']; subst; destruct (a_line_unique _ _ _ _ _ _ _ Hl Hl') as (-> & -> & ->).
  - pose proof (item_unique _ _ _ _ Hi Hi') as ->. destruct (IH _ _ H1) as (-> & ->). auto.
  - rewrite (Hn' _ Hi) in Hk. discriminate Hk.
  - rewrite (Hn _ Hi') in Hk'. discriminate Hk'.
  - auto.
Qed.
