(** What becomes of a text in the loop over the blocks (C120). *)
From Verif Require Import Text TextFacts Maps Pre_Spec Span_Model Span_Pure Span_Proof Span_Laws Span_Spec Catalog_Model Catalog_Proof Parser_Model Subs_Model Attrlist_Model Attrlist_Proof
  Attrlist_Laws Attrlist_Prop Render_Proof Render_Model Entry_Spec Entry_Model Entry_Proof Group_Model Group_Proof SecId_Model SecId_Proof Header_Model Header_Spec Header_Proof Block_Model Block_Spec Block_Proof SourceMap_Model Doc_Model Tree_Spec Tree_Proof Total_Spec Total_Proof Shape_Proof Meta_Spec Meta_Proof Kind_Spec Kind_Proof Stuck_Spec Stuck_Proof Block_Prop Begin_Spec Begin_Proof Fate_Spec.

(** * Fuel *)
Definition below_un (u v : stop_fn -> nat -> span -> parser -> res bres) : Prop := forall f n s P x, u f n s P = x -> x <> OutOfFuel -> v f n s P = x.
Lemma bind_mono {A B} (a : res A) (k k' : A -> res B) x : bind a k = x -> x <> OutOfFuel -> (forall y z, k y = z -> z <> OutOfFuel -> k' y = z) -> bind a k' = x.
Proof. destruct a as [y| |]; cbn [bind]; auto. Qed.
Lemma bind_mono2 {A B} (a a' : res A) (k : A -> res B) x : bind a k = x -> x <> OutOfFuel -> (forall z, a = z -> z <> OutOfFuel -> a' = z) -> bind a' k = x.
Proof. destruct a as [y| |]; cbn [bind]; intros H N K; [rewrite (K _ eq_refl); [exact H|discriminate]|rewrite (K _ eq_refl); [exact H|discriminate]|congruence]. Qed.
Ltac thru := match goal with H : bind ?a ?k = ?x |- bind ?a ?k' = ?x => apply (bind_mono _ _ _ _ H); [assumption|]; clear H; intros; cbn beta in * end.
Ltac cases := match goal with |- match ?o with _ => _ end = _ => destruct o; try assumption end.
Lemma compound_mono u v m P x : (forall s P y, u s P = y -> y <> OutOfFuel -> v s P = y) -> compound_parse u m P = x -> x <> OutOfFuel -> compound_parse v m P = x.
Proof.
  intros K H N. unfold compound_parse in *. thru. destruct (compound_context _); [|assumption]. thru. destruct (negb _); [assumption|]. thru. thru.
  eapply bind_mono2; [eassumption|assumption|]. intros w Hw Nw. exact (K _ _ _ Hw Nw).
Qed.
Lemma section_mono E u v m P x : below_un u v -> section_parse E u m P = x -> x <> OutOfFuel -> section_parse E v m P = x.
Proof.
  intros K H N. unfold section_parse in *. thru. thru. thru. destruct (fst _); [|assumption]. thru. eapply bind_mono2; [eassumption|assumption|]. intros w Hw Nw. exact (K _ _ _ _ _ Hw Nw).
Qed.
Lemma block_mono E u v s P x : below_un u v -> block_parse_with E u s P = x -> x <> OutOfFuel -> block_parse_with E v s P = x.
Proof.
  intros K H N. unfold block_parse_with in *. thru. thru. cases. thru. cases. thru. unfold with_metadata in *. thru. cases. thru. cases.
  match goal with H : bind (compound_parse (u never 0) ?m ?P) ?k = ?z |- _ =>
    assert (Hc : bind (compound_parse (v never 0) m P) k = z); [apply (bind_mono2 _ _ _ _ H); [assumption|]; intros w Hw Nw; exact (compound_mono _ _ _ _ _ (fun s P y Hy Ny => K never 0 s P y Hy Ny) Hw Nw)|]; clear H end.
  thru. cases. thru. unfold try_media in *. thru. cases. unfold try_section in *. eapply bind_mono2; [eassumption|assumption|].
  intros w Hw Nw. destruct (starts_with_any _ _); [|assumption]. exact (section_mono _ _ _ _ _ _ K Hw Nw).
Qed.
Lemma loop_fuel E : forall fuel fuel' f n s P x, blocks_loop E fuel f n s P = x -> x <> OutOfFuel -> fuel <= fuel' -> blocks_loop E fuel' f n s P = x.
Proof.
  induction fuel as [|fuel IH]; intros fuel' f n s P x H N Hf.
  - cbn [blocks_loop] in H. destruct (sp_data s) eqn:D; [|congruence]. destruct fuel'; cbn [blocks_loop]; rewrite D; exact H.
  - destruct fuel' as [|fuel']; [lia|]. cbn [blocks_loop] in *. destruct (sp_data s); [exact H|]. thru. destruct (fst _); [assumption|].
    match goal with H : bind (block_parse_with E ?u ?s ?P) ?k = ?z |- bind (block_parse_with E ?v ?s ?P) _ = _ => assert (Hc : bind (block_parse_with E v s P) k = z) end.
    { eapply bind_mono2; [eassumption|assumption|]. intros w Hw Nw. eapply block_mono; [|exact Hw|exact Nw]. intros f' n' s' P' w' Hw' Nw'. cbn beta in *. apply (bind_mono _ _ _ _ Hw' Nw'). intros y1 z1 K1 K2. apply (IH fuel' _ _ _ _ _ K1 K2). lia. }
    thru. eapply bind_mono2; [eassumption|assumption|]. intros w Hw Nw. apply (IH fuel' _ _ _ _ _ Hw Nw). lia.
Qed.
Lemma until_fuel E fuel fuel' f n s P x : parse_blocks_until E fuel f n s P = x -> x <> OutOfFuel -> fuel <= fuel' -> parse_blocks_until E fuel' f n s P = x.
Proof. unfold parse_blocks_until. intros H N Hf. thru. apply (loop_fuel E fuel fuel'); assumption. Qed.
Lemma block_fuel E fuel fuel' s P x : block_parse E fuel s P = x -> x <> OutOfFuel -> fuel <= fuel' -> block_parse E fuel' s P = x.
Proof. unfold block_parse. intros H N Hf. eapply block_mono; [|exact H|exact N]. intros f n s' P' y Hy Ny. exact (until_fuel _ _ _ _ _ _ _ _ Hy Ny Hf). Qed.

(** * Every piece of the block layer has a result, if the inline layer has *)
Definition wf_opt (o : option attrlist) : Prop := forall a, o = Some a -> Forall wf_ea (al_attrs a).
Lemma wf_none : wf_opt None.
Proof. intros a K. discriminate K. Qed.
Lemma title_step_any m : exists o, md_title_step m = Ok o /\ forall m', o = Some m' -> ms_attrlist m' = ms_attrlist m /\ md_left m' < md_left m.
Proof.
  unfold md_title_step. destruct (ms_title m) eqn:Et; [exists None; split; [reflexivity|intros m' K; discriminate K]|].
  destruct (take_norm (ms_start m)) as (l & r & n & Hl & ->). cbn [bind mi_item mi_after sp_data with_data].
  destruct (starts_with (lit ".") n) eqn:E1; [|exists None; split; [reflexivity|intros m' K; discriminate K]]. destruct (starts_with (lit "..") n) eqn:E2; [exists None; split; [reflexivity|intros m' K; discriminate K]|]. cbn [andb negb].
  apply starts_with_spec in E1. destruct E1 as (y & En).
  assert (Ed : discard (with_data (ms_start m) n) 1 = Ok (skip (with_data (ms_start m) n) (lit ".") y)).
  { unfold discard. change 1 with (blen (lit ".")). rewrite (ipr_ok (with_data (ms_start m) n) (lit ".") y En). reflexivity. }
  rewrite Ed. cbn [bind]. unfold take_whitespace. rewrite take_while_ok. cbn [bind]. destruct (is_nil _); [|exists None; split; [reflexivity|intros m' K; discriminate K]].
  eexists. split; [reflexivity|]. intros m' K. injection K as <-. cbn [ms_attrlist]. split; [reflexivity|]. unfold md_left. cbn [ms_title ms_anchor ms_attrlist]. rewrite Et. cbn [unset]. lia.
Qed.
Lemma anchor_step_any U m : exists m' b, md_anchor_step U m = Ok (m', b) /\ ms_attrlist m' = ms_attrlist m /\ md_left m' <= md_left m /\ (b = true -> md_left m' < md_left m).
Proof.
  unfold md_anchor_step. destruct (ms_anchor m) eqn:Ea; [exists m, false; split; [reflexivity|split; [reflexivity|split; [lia|discriminate]]]|].
  destruct (block_anchor_total (ms_start m)) as (o & w & -> & Ho). cbn [bind fst snd].
  assert (Hstay : forall w', md_left (mkms (ms_title m) None (ms_reftext m) (ms_attrlist m) (ms_start m) w') <= md_left m) by (intros w'; unfold md_left; cbn [ms_title ms_anchor ms_attrlist]; rewrite Ea; lia).
  destruct o as [mi|]; [|do 2 eexists; split; [reflexivity|]; split; [reflexivity|]; split; [apply Hstay|discriminate]].
  set (goal := fun m0 : mdstate => ms_attrlist m0 = ms_attrlist m /\ (md_left m0 < md_left m \/ (md_left m0 <= md_left m /\ ms_start m0 = ms_start m))).
  assert (Hmove : forall a rt s w', goal (mkms (ms_title m) (Some a) rt (ms_attrlist m) s w')).
  { intros a rt s w'. split; [reflexivity|]. left. unfold md_left. cbn [ms_title ms_anchor ms_attrlist]. rewrite Ea. cbn [unset]. lia. }
  assert (Hst : forall w', goal (mkms (ms_title m) None (ms_reftext m) (ms_attrlist m) (ms_start m) w')) by (intros w'; split; [reflexivity|]; right; split; [apply Hstay|reflexivity]).
  assert (Hfin : forall e, (exists m0, e = Ok m0 /\ goal m0) -> exists m' b, (m0 <- e ;; Ok (m0, negb (span_eqb (ms_start m0) (ms_start m)))) = Ok (m', b) /\ ms_attrlist m' = ms_attrlist m /\ md_left m' <= md_left m /\ (b = true -> md_left m' < md_left m)).
  { intros e (m0 & -> & H0 & Hg). cbn [bind]. exists m0. eexists. split; [reflexivity|]. split; [exact H0|]. destruct Hg as [H2|(H2 & H3)]; split; auto; [lia|]. rewrite H3, span_eqb_refl. discriminate. }
  assert (Hif : forall (b : bool) m1 m2, goal m1 -> goal m2 -> exists m0, Ok (if b then m1 else m2) = Ok m0 /\ goal m0) by (intros [|] m1 m2 H1 H2; eauto).
  apply Hfin. clear Hfin. rewrite position_spec. pose proof (span_while_app (fun c => negb (COMMA =? c)%N) (sp_data (mi_item mi))) as Dsp. pose proof (span_while_stop (fun c => negb (COMMA =? c)%N) (sp_data (mi_item mi))) as Dst.
  destruct (span_while (fun c => negb (COMMA =? c)%N) (sp_data (mi_item mi))) as [a b] eqn:Es. cbn [fst snd] in *. symmetry in Dsp. destruct b as [|c b]; [apply Hif; auto|].
  specialize (Dst _ _ eq_refl). apply negb_false_iff, N.eqb_eq in Dst. subst c.
  assert (Hc : checked_sub (blen (sp_data (mi_item mi))) 1 = Ok (blen (sp_data (mi_item mi)) - 1)).
  { unfold checked_sub. replace (1 <=? blen (sp_data (mi_item mi))) with true; [reflexivity|]. symmetry. apply Nat.leb_le. rewrite Dsp, blen_app. cbn [blen]. pose proof (clen_pos COMMA). lia. }
  rewrite Hc. cbn [bind]. destruct (blen a <? blen (sp_data (mi_item mi)) - 1); [|apply Hif; auto].
  rewrite (slice_to_ok _ _ _ Dsp). cbn [bind]. replace (blen a + 1) with (blen (a ++ [COMMA])) by (rewrite blen_app; reflexivity). rewrite (slice_from_ok (mi_item mi) (a ++ [COMMA]) b) by (rewrite Dsp, <- app_assoc; reflexivity). cbn [bind]. apply Hif; auto.
Qed.
Lemma norm_total E P : total_env E -> total (norm_of E P).
Proof. intros He t. exact (He P GNormal false t). Qed.
Lemma attrlist_step_any E P m : total_env E -> wf_opt (ms_attrlist m) -> exists m' b, md_attrlist_step E P m = Ok (m', b) /\ wf_opt (ms_attrlist m') /\ md_left m' <= md_left m /\ (b = true -> md_left m' < md_left m).
Proof.
  intros He W. unfold md_attrlist_step. destruct (ms_attrlist m) eqn:Ea; [exists m, false; split; [reflexivity|split; [rewrite Ea; exact W|split; [lia|discriminate]]]|].
  assert (Hstay : exists m' b, Ok (m, false) = Ok (m', b) /\ wf_opt (ms_attrlist m') /\ md_left m' <= md_left m /\ (b = true -> md_left m' < md_left m)) by (exists m, false; split; [reflexivity|split; [rewrite Ea; exact W|split; [lia|discriminate]]]).
  unfold parse_maybe_attrlist_line. destruct (starts_with (lit "[") (sp_data (ms_start m))) eqn:E1; [|exact Hstay].
  destruct (take_norm (ms_start m)) as (l & r & n & Hl & ->). cbn [bind mi_item mi_after sp_data with_data].
  destruct (ends_with (lit "]") n) eqn:E2; [|exact Hstay].
  apply starts_with_spec in E1. destruct E1 as (q & Eq). apply ends_with_spec in E2. destruct E2 as (z & Ez).
  assert (En : exists x, n = lit "[" ++ x).
  { destruct (a_line_prefix _ _ _ _ Hl) as (w & Ew). pose proof (a_line_app _ _ _ _ Hl) as D. rewrite Eq, Ew, Ez in D. clear - D Ez.
    destruct z as [|z0 z]; cbn in D; [discriminate D|]. injection D as <- _. rewrite Ez. eexists. reflexivity. }
  destruct En as (x & Ex). destruct (ends_cut _ _ n x z Ex Ez) as (mid & Em); [right; intros c Hc Hc'; cbn in Hc, Hc'; destruct Hc as [<-|[]], Hc' as [Hc'|[]]; discriminate Hc'|discriminate|].
  assert (Eb : checked_sub (blen n) 1 = Ok (blen (lit "[" ++ mid))).
  { rewrite Em, !blen_app. unfold checked_sub. change (blen (lit "]")) with 1. change (blen (lit "[")) with 1. replace (1 <=? 1 + (blen mid + 1)) with true by (symmetry; apply Nat.leb_le; lia). f_equal. lia. }
  rewrite Eb. cbn [bind]. change 1 with (blen (lit "[")) at 1. rewrite (slice_ok (with_data (ms_start m) n) (lit "[") mid (lit "]") Em). cbn [bind]. rewrite sp_data_skip.
  destruct (starts_with [SP] mid || starts_with [TAB] mid || starts_with (lit "[") mid && ends_with (lit "]") mid); [exact Hstay|].
  match goal with |- context [attrlist_parse ?u ?nn ?p ?s ?c] => destruct (attrlist_total u nn p s c (norm_total E P He)) as (a & ws & Eal) end. rewrite Eal. cbn [bind fst snd mi_item mi_after].
  do 2 eexists. split; [reflexivity|]. unfold md_left. cbn [ms_title ms_anchor ms_attrlist]. rewrite Ea. cbn [unset]. split; [|split; [lia|intros _; lia]].
  intros al K. injection K as <-. exact (parse_wf _ _ _ _ _ _ _ (norm_total E P He) Eal).
Qed.
Lemma md_loop_any E P : total_env E -> forall fuel m, wf_opt (ms_attrlist m) -> md_left m < fuel -> exists m', md_loop E P fuel m = Ok m' /\ wf_opt (ms_attrlist m').
Proof.
  intros He. induction fuel as [|fuel IH]; intros m W Hf; [lia|]. cbn [md_loop]. destruct (title_step_any m) as (o & -> & Ho). cbn [bind]. destruct o as [m1|].
  { destruct (Ho _ eq_refl) as (M1 & H1). apply IH; [rewrite M1; exact W|lia]. }
  destruct (anchor_step_any (e_u E) m) as (m1 & b1 & -> & M1 & L1 & B1). rewrite <- M1 in W. cbn [bind fst snd]. destruct b1; [specialize (B1 eq_refl); apply IH; [exact W|lia]|].
  destruct (attrlist_step_any E P m1 He W) as (m2 & b2 & -> & M2 & L2 & B2). cbn [bind fst snd]. destruct b2; [specialize (B2 eq_refl); apply IH; [exact M2|lia]|]. eauto.
Qed.
Lemma metadata_any E s P : total_env E -> exists m ws, metadata_parse E s P = Ok (m, ws) /\ md_source m = p_discard_empty_lines s /\ Suffix (md_source m) (md_start m) /\ wf_opt (md_attrlist m).
Proof.
  intros He. unfold metadata_parse. rewrite discard_empty_lines_ok. cbn [bind].
  destruct (md_loop_any E P He 4 (mkms None None None None (p_discard_empty_lines s) [])) as (m' & Em & W); [intros a K; discriminate K|cbn; lia|].
  rewrite Em. cbn [bind]. pose proof (md_loop_Suffix _ _ _ _ _ Em) as Sx. cbn [ms_start] in Sx.
  destruct (ms_title m') as [t|]; [destruct (He P GNormal false (sp_data t)) as (o & ->)|]; cbn [bind]; do 2 eexists; (split; [reflexivity|]); cbn [md_source md_start md_attrlist]; auto.
Qed.
Lemma md_source_solid E s P m ws : metadata_parse E s P = Ok (m, ws) -> solid (sp_data (md_start m)) -> solid (sp_data (md_source m)).
Proof.
  intros H Hs. destruct (metadata_lines _ _ _ _ _ H) as (is_ & ws1 & ws2 & _ & ML & _). inversion ML as [seen t0 l r n i is' rest Hl Hi Hsn ML'|seen t0 l r n Hl Hi]; subst.
  - destruct (item_not_blank _ _ _ Hi) as (c & y & -> & Hc). exact (solid_line _ _ _ _ Hl (solid_cons c y Hc)).
  - congruence.
Qed.
Lemma indented_total t : exists k, indented t k.
Proof.
  exists (length (fst (span_while is_sp_tab t))), (fst (span_while is_sp_tab t)), (snd (span_while is_sp_tab t)). split; [symmetry; apply span_while_app|]. split; [|split; [reflexivity|]].
  - eapply Forall_impl; [|apply span_while_all]. intros c Hc. apply is_sp_tab_spec. exact Hc.
  - intros c y K Hc. apply is_sp_tab_spec in Hc. rewrite (span_while_stop is_sp_tab t c y K) in Hc. discriminate Hc.
Qed.
Lemma style_any a : wf_opt a -> exists o, style_of a = Ok o.
Proof. intros Ha. destruct a as [a|]; [|exists None; reflexivity]. destruct (accessors_total a (Ha a eq_refl)) as (_ & _ & _ & (o & Eo)). exists o. exact Eo. Qed.
Lemma override_any g a : wf_opt a -> exists o, override_via_attrlist g a = Ok o.
Proof.
  intros Ha. unfold override_via_attrlist. destruct a as [a|]; [|exists g; reflexivity]. destruct (accessors_total a (Ha a eq_refl)) as (_ & _ & _ & (o & Eo)).
  assert (Es : exists o, opt_bind (nth_attribute a 1) ea_block_style = Ok o) by (unfold al_block_style in Eo; destruct (nth_attribute a 1); cbn [opt_bind]; eauto). destruct Es as (st & ->). cbn [bind].
  destruct (named_value a (lit "subs")) as [t|]; cbn [opt_bind bind]; [rewrite from_custom_string_eq; cbn [bind]|]; eexists; reflexivity.
Qed.
Lemma apply_subs_any E P g a t : total_env E -> wf_opt a -> exists o, apply_subs E P g a t = Ok o.
Proof.
  intros He Ha. unfold apply_subs, hardbreaks. destruct a as [a|]; [|cbn [bind]; apply He]. destruct (accessors_total a (Ha a eq_refl)) as (_ & _ & (l & El) & _).
  unfold al_has_option. rewrite El. cbn [bind]. apply He.
Qed.
Lemma finish_any mi ws P : wf_opt (cm_attrlist (block_common (mi_item mi))) -> exists r, finish mi ws P = Ok r.
Proof.
  intros Ha. unfold finish, block_id, common_id. destruct (cm_anchor _); [cbn [bind]; eauto|]. destruct (cm_attrlist _) as [a|]; [|cbn [bind]; eauto]. destruct (accessors_total a (Ha a eq_refl)) as ((o & ->) & _). cbn [bind]. eauto.
Qed.
Lemma parse_lines_any E s a P : total_env E -> wf_opt a -> 1 <= sp_col s -> exists o, parse_lines E s a P = Ok o /\ forall mi, o = Some mi -> Suffix s (mi_after mi).
Proof.
  intros He Ha Hcol. unfold parse_lines. destruct (indented_total (sp_data s)) as (k & Hk). destruct (discard_ws_col s k Hk) as (saw & -> & Ecol). cbn [bind]. rewrite Ecol.
  assert (Ec : checked_sub (sp_col s + k) 1 = Ok (sp_col s + k - 1)) by (unfold checked_sub; replace (1 <=? sp_col s + k) with true by (symmetry; apply Nat.leb_le; lia); reflexivity). rewrite Ec. cbn [bind].
  destruct (style_any a Ha) as (bs & ->). cbn [bind].
  destruct (simple_lines_spec (sp_col s + k - 1) (length (sp_data s)) s [] (le_n _)) as (ls & pre & rest & Hp & D & ->). cbn [bind fst snd app started] in *.
  rewrite (trim_to s pre rest (skip s pre rest) D (sp_off_skip _ _ _)). cbn [bind]. rewrite trim_trailing_whitespace_ok. cbn [bind].
  destruct (is_nil _); [exists None; split; [reflexivity|intros mi K; discriminate K]|].
  destruct (override_any GNormal a Ha) as (g & ->). cbn [bind]. destruct (apply_subs_any E P g a (join [LF] ls) He Ha) as (o & ->). cbn [bind]. rewrite discard_empty_lines_ok. cbn [bind].
  eexists. split; [reflexivity|]. intros mi K. injection K as <-. cbn [mi_after]. eapply Suffix_trans; [apply Suffix_intro; exact D|apply discard_empty_Suffix].
Qed.
Lemma simple_any E m P : total_env E -> wf_opt (md_attrlist m) -> 1 <= sp_col (md_start m) -> Suffix (md_source m) (md_start m) ->
  exists o, simple_parse E m P = Ok o /\ forall mi, o = Some mi -> block_common (mi_item mi) = common_of m.
Proof.
  intros He Ha Hcol S1. unfold simple_parse. destruct (parse_lines_any E _ _ P He Ha Hcol) as (o & -> & S2). cbn [bind]. destruct o as [x|]; [|exists None; split; [reflexivity|intros mi K; discriminate K]].
  destruct (suffix_cut _ _ (Suffix_trans _ _ _ S1 (S2 _ eq_refl))) as (pre & _ & _ & ->). cbn [bind]. rewrite trim_trailing_whitespace_ok, discard_empty_lines_ok. cbn [bind].
  eexists. split; [reflexivity|]. intros mi K. injection K as <-. reflexivity.
Qed.
Lemma last_any E m ws P : total_env E -> wf_opt (md_attrlist m) -> 1 <= sp_col (md_start m) -> Suffix (md_source m) (md_start m) -> exists r, last_resort E m ws P = Ok r.
Proof.
  intros He Ha Hc S1. unfold last_resort. destruct (simple_any E m P He Ha Hc S1) as (o & -> & Ho). cbn [bind]. destruct o as [mi|]; [|eauto]. apply finish_any. rewrite (Ho _ eq_refl). exact Ha.
Qed.
Lemma no_block_any E m ws P : total_env E -> wf_opt (md_attrlist m) -> 1 <= sp_col (md_start m) -> 1 <= sp_col (md_source m) -> Suffix (md_source m) (md_start m) -> exists r, no_block E m ws P = Ok r.
Proof.
  intros He Ha Hc Hc2 S1. unfold no_block. destruct (simple_any E m P He Ha Hc S1) as (o & -> & _). cbn [bind]. destruct (_ && _); apply last_any; auto; [apply wf_none|]. cbn. apply Suffix_refl.
Qed.
Lemma entry_any E s P : total_env E -> exists o, attribute_parse (apply_header_subs E) s P = Ok o.
Proof.
  intros He. destruct (logical_total (sp_data s)) as (c & r' & Hlog). destruct (attribute_parse_eq (apply_header_subs E) s P _ _ Hlog) as (pre & vs & -> & _). destruct (e_parse _) as [[n [u rest]]|] eqn:Ep; [|eauto].
  assert (Ev : exists v, e_value (apply_header_subs E) P u rest = Ok v).
  { unfold e_value. destruct u; [eauto|]. destruct rest as [|x rest]; [eauto|]. destruct (fold_value_total (e_raw (x :: rest))) as (o & ->). cbn [bind]. unfold apply_header_subs. destruct (He P GHeader false o) as (o' & ->). cbn [bind]. eauto. }
  destruct Ev as (v & ->). cbn [bind]. eauto.
Qed.
Lemma media_any E m P l r n : total_env E -> wf_opt (md_attrlist m) -> Suffix (md_source m) (md_start m) -> solid (sp_data (md_source m)) -> a_line (sp_data (md_start m)) l r n ->
  exists o w, media_parse E m P = Ok (o, w) /\ forall mi, o = Some mi -> wf_opt (cm_attrlist (block_common (mi_item mi))).
Proof.
  intros He Ha S1 Hs Hl. assert (Hno : forall w : list warning, exists o w', Ok (None, w) = Ok (o, w') /\ forall mi : mitem block, o = Some mi -> wf_opt (cm_attrlist (block_common (mi_item mi)))) by (intros w; do 2 eexists; split; [reflexivity|intros mi K; discriminate K]).
  unfold media_parse. rewrite (take_norm_eq _ _ _ _ Hl). cbn [bind mi_item mi_after sp_data with_data]. destruct (ends_with (lit "]") n) eqn:Ee; cbn [negb]; [|apply Hno].
  apply ends_with_spec in Ee. destruct Ee as (z & Ez).
  destruct (take_ident_total (with_data (md_start m) n)) as (o & -> & Ho). cbn [bind]. destruct o as [name|]; [|apply Hno]. destruct (Ho _ eq_refl) as (a & b & D1 & ->). cbn [sp_data with_data] in D1. cbn [psplit mi_item mi_after].
  destruct (media_type_of _) as [ty|]; [|apply Hno]. rewrite take_prefix_ok. unfold p_take_prefix. rewrite sp_data_skip. destruct (starts_with (lit "::") b) eqn:E2; cbn [bind]; [|apply Hno].
  apply starts_with_spec in E2. destruct E2 as (b2 & E2). rewrite E2. change (skipn (length (lit "::")) (lit "::" ++ b2)) with b2. cbn [psplit mi_item mi_after].
  rewrite take_while_ok. unfold p_take_while. rewrite sp_data_skip. pose proof (span_while_app (fun c => negb (c =? 91)%N) b2) as D3. destruct (span_while (fun c => negb (c =? 91)%N) b2) as [tg b3]. cbn [fst snd bind psplit mi_item mi_after sp_data with_data] in *.
  destruct (is_nil tg); [apply Hno|]. rewrite take_prefix_ok. unfold p_take_prefix. rewrite sp_data_skip. destruct (starts_with (lit "[") b3) eqn:E4; cbn [bind]; [|apply Hno].
  apply starts_with_spec in E4. destruct E4 as (b4 & E4). rewrite E4. change (skipn (length (lit "[")) (lit "[" ++ b4)) with b4. cbn [psplit mi_item mi_after]. rewrite sp_data_skip.
  assert (K : exists x, b4 = x ++ lit "]").
  { rewrite <- D3, E4 in E2. rewrite E2 in D1. rewrite Ez in D1. clear - D1. destruct (rev_cons_inv b4) as [->|(x & c & ->)].
    - exfalso. rewrite !app_assoc in D1. change (lit "]") with [93%N] in D1. rewrite app_nil_r in D1. change (lit "[") with [91%N] in D1. apply app_last_eq in D1. destruct D1 as [_ D1]. discriminate D1.
    - exists x. rewrite !app_assoc in D1. change (lit "]") with [93%N] in D1 |- *. apply app_last_eq in D1. destruct D1 as [_ <-]. reflexivity. }
  destruct K as (x & Ex).
  assert (Eb : checked_sub (blen b4) 1 = Ok (blen x)). { rewrite Ex, blen_app. change (blen (lit "]")) with 1. unfold checked_sub. replace (1 <=? blen x + 1) with true by (symmetry; apply Nat.leb_le; lia). f_equal. lia. }
  rewrite Eb. cbn [bind]. match goal with |- context [slice ?s 0 (blen x)] => rewrite (slice0_ok s x (lit "]")) by (rewrite sp_data_skip; exact Ex) end. cbn [bind].
  match goal with |- context [attrlist_parse ?u ?nn ?p ?s ?c] => destruct (attrlist_total u nn p s c (norm_total E P He)) as (al & ws & ->) end. cbn [bind].
  destruct (line_source_total m l r n S1 Hs Hl) as (src & ->). cbn [bind]. rewrite discard_empty_lines_ok. cbn [bind]. do 2 eexists. split; [reflexivity|]. intros mi K. injection K as <-. exact Ha.
Qed.
Lemma break_any m l r n : Suffix (md_source m) (md_start m) -> solid (sp_data (md_source m)) -> a_line (sp_data (md_start m)) l r n -> exists o, break_parse m = Ok o.
Proof.
  intros S1 Hs Hl. unfold break_parse. rewrite (take_norm_eq _ _ _ _ Hl). cbn [bind mi_item mi_after sp_data with_data]. destruct (break_type_of n) as [ty|]; [|eauto].
  destruct (line_source_total m l r n S1 Hs Hl) as (src & ->). cbn [bind]. rewrite discard_empty_lines_ok. cbn [bind]. eauto.
Qed.

(** * Where places end *)
Lemma ended_new t : ended t (span_new t).
Proof. exists [], []. cbn [span_new sp_data sp_off]. rewrite app_nil_r. auto. Qed.
Lemma ended_suffix D s s' : ended D s -> Suffix s s' -> ended D s'.
Proof.
  intros (x & y & Dx & Ho & Hy) (p & Dp & Es). exists (x ++ p), y. rewrite Dp, <- app_assoc in Dx. split; [rewrite <- app_assoc; exact Dx|]. split; [rewrite Es, sp_off_skip, blen_app, Ho; reflexivity|].
  destruct Hy as [->|(H1 & H2)]; [left; reflexivity|right]. split; [|exact H2]. rewrite Dp, app_assoc in H1. exact H1.
Qed.
Lemma a_line_more x y t l r n : a_line t l r n -> t <> [] -> y = [] \/ starts_line (x ++ t) -> a_line (t ++ y) l (r ++ y) n.
Proof.
  intros (z & e & Dt & Dl & Hz & He & Hn) Ht Hy. exists z, e. split; [rewrite Dt, <- app_assoc; reflexivity|]. split; [exact Dl|]. split; [exact Hz|]. split; [|exact Hn].
  destruct He as [->|(-> & ->)]; [left; reflexivity|right]. split; [reflexivity|]. destruct Hy as [->|Hy]; [reflexivity|]. exfalso. rewrite app_nil_r in Dl, Dt. subst. destruct Hy as [K|(q & K)].
  - apply app_eq_nil in K. destruct K as (_ & K). exact (Ht K).
  - destruct (exists_last Ht) as (v & c & ->). rewrite app_assoc in K. apply app_inj_tail in K. destruct K as (_ & ->). apply Hz, in_or_app. right. left. reflexivity.
Qed.
Lemma enclosed_lines d t c r : enclosed d t c (Some r) -> c = [] \/ exists q, c = q ++ [LF].
Proof.
  intros H. remember (Some r) as o. induction H as [|t l r' Ht Hl|t l r' n c o Ht Hl Hn He IH]; [discriminate Heqo|left; reflexivity|right].
  destruct (IH Heqo) as [->|(q & ->)]; [|exists (l ++ q); apply app_assoc]. rewrite app_nil_r. destruct Hl as (z & e & _ & -> & _ & [->|(-> & ->)] & _); [eauto|].
  inversion He; subst; congruence.
Qed.
Lemma ended_part D s l r n c r' : ended D s -> a_line (sp_data s) l r n -> enclosed n r c (Some r') -> compound_delimiter n -> ended D (skip s l c).
Proof.
  intros (x & y & Dx & Ho & Hy) Hl He Hd. destruct (find_delimiter_spec n (length r) (span_new r) (le_n _)) as (c1 & o1 & He1 & H1). cbn [sp_data span_new] in *. destruct (enclosed_unique _ _ _ _ He _ _ He1) as (<- & <-). destruct H1 as (k & Dk & Hk & Hne & _).
  pose proof (a_line_app _ _ _ _ Hl) as Ds.
  exists (x ++ l), (k ++ r' ++ y). rewrite sp_data_skip, sp_off_skip. split; [rewrite Dx, Ds, Dk, <- !app_assoc; reflexivity|]. split; [rewrite blen_app, Ho; reflexivity|]. right. split.
  - right. destruct (enclosed_lines _ _ _ _ He) as [->|(q & ->)]; [|exists ((x ++ l) ++ q); apply app_assoc]. destruct Hl as (z & e & _ & -> & _ & [->|(-> & ->)] & _); [exists (x ++ z); rewrite app_nil_r; apply app_assoc|].
    exfalso. symmetry in Dk. apply app_eq_nil in Dk. destruct Dk as (_ & Dk). exact (Hne Dk).
  - exists k, (r' ++ y), n. split; [|exact Hd]. rewrite app_assoc. apply (a_line_more (x ++ l ++ c)); [exact Hk|exact Hne|]. destruct Hy as [->|(Hy & _)]; [left; reflexivity|right].
    rewrite Ds, Dk in Hy. rewrite <- !app_assoc. exact Hy.
Qed.

(** * Blocks that hold blocks *)
Section Asks.
Context (E : env) (D : text) (N : nat).
Definition until_fn := stop_fn -> nat -> span -> parser -> res bres.
(** [F] has a result, or hands on what the blocks inside give. *)
Definition asks {A} (Q R : A -> Prop) (F : until_fn -> res A) : Prop :=
  (forall un, exists r, F un = Ok r /\ Q r) \/
  (exists f n s' P', stop_of E f /\ place D s' /\ length (sp_data s') < N /\ forall un, match un f n s' P' with
    | Ok b => Suffix s' (br_after b) -> exists r, F un = Ok r /\ R r
    | Panic => F un = Panic
    | OutOfFuel => F un = OutOfFuel
    end).
Definition always {A} (_ : A) : Prop := True.
Lemma asks_bind {A B} (Q R : A -> Prop) (Q2 R2 : B -> Prop) F k : asks Q R F -> (forall un x, Q x -> exists y, k un x = Ok y /\ Q2 y) -> (forall un x, R x -> exists y, k un x = Ok y /\ R2 y) -> asks Q2 R2 (fun un => bind (F un) (k un)).
Proof.
  intros [H|(f & n & s' & P' & H1 & H2 & H3 & H)] Hq Hr.
  - left. intros un. destruct (H un) as (r & -> & K). exact (Hq un r K).
  - right. exists f, n, s', P'. split; [exact H1|]. split; [exact H2|]. split; [exact H3|]. intros un. specialize (H un). destruct (un f n s' P') as [b| |].
    + intros K. destruct (H K) as (r & -> & K2). exact (Hr un r K2).
    + rewrite H. reflexivity.
    + rewrite H. reflexivity.
Qed.
Lemma asks_ok {A} (Q R : A -> Prop) (e : res A) : (exists r, e = Ok r /\ Q r) -> asks Q R (fun _ => e).
Proof. intros H. left. intros un. exact H. Qed.
End Asks.
Lemma discrete_any m : wf_opt (md_attrlist m) -> exists d, is_discrete m = Ok d.
Proof. intros Ha. unfold is_discrete. destruct (style_any _ Ha) as (o & ->). cbn [bind]. eauto. Qed.
Lemma section_asks E D N m P : total_env E -> wf_opt (md_attrlist m) -> located D (md_source m) -> ended D (md_source m) -> Suffix (md_source m) (md_start m) -> solid (sp_data (md_start m)) -> length (sp_data (md_source m)) <= N ->
  asks E D N always (fun o => fst o <> None) (fun un => section_parse E un m P).
Proof.
  intros He Ha L En S1 Hs HN. unfold section_parse. destruct (discrete_any m Ha) as (d & ->). cbn [bind]. rewrite discard_empty_lines_ok, (discard_solid _ Hs). cbn [bind].
  destruct (title_line_total (md_start m) (solid_not_indented _ Hs)) as (o & w & Etl). rewrite Etl. cbn [bind fst snd]. destruct o as [lt|]; [|left; intros un; eexists; split; [reflexivity|exact I]].
  destruct (style_any _ Ha) as (bs & ->). cbn [bind]. apply title_line_some in Etl. destruct Etl as (l & r & n & t & Hl & Hn & _ & Et & Ea & _).
  assert (S2 : Suffix (md_source m) (mi_after lt)) by (rewrite Ea; eapply Suffix_trans; [exact S1|exact (suffix_line _ _ _ _ Hl)]).
  cbv zeta. match goal with |- asks _ _ _ _ _ (fun un => bind (un ?f ?n ?s ?p) _) => right; exists f, n, s, p end. split; [right; do 2 eexists; reflexivity|]. split; [split; [exact (located_Suffix _ _ _ L S2)|split; [rewrite Ea; exact (line_begins_after _ _ _ _ Hl)|exact (ended_suffix _ _ _ En S2)]]|]. split; [rewrite Ea, sp_data_skip; pose proof (strict_line _ _ _ _ Hl (heading_nonempty _ _ _ Hn)); pose proof (suffix_len _ _ S1); lia|].
  intros un. match goal with |- match ?x with _ => _ end => destruct x as [b| |] eqn:Eb end; [|reflexivity|reflexivity].
  intros Sb. cbn [bind]. destruct (suffix_cut _ _ (Suffix_trans _ _ _ S2 Sb)) as (q & _ & _ & ->). cbn [bind].
  destruct (apply_subs_any E (br_parser b) GTitle (md_attrlist m) (sp_data (snd (mi_item lt))) He Ha) as (title & ->). cbn [bind].
  destruct (section_id_of (e_u E) title (br_parser b)) as (g & _ & ->). cbn [bind].
  assert (Em : exists o, manual_id m = Ok o). { unfold manual_id. destruct (md_attrlist m) as [a|]; [|cbn [bind]; eauto]. destruct (accessors_total a (Ha a eq_refl)) as ((i & ->) & _). cbn [bind]. eauto. }
  destruct Em as (manual & ->). cbn [bind]. match goal with |- context [section_register ?a1 ?a2 ?a3 ?a4 ?a5 ?a6] => destruct (register_total a1 a2 a3 a4 a5 a6) as (reg & ->) end.
  { destruct (suffix_cut _ _ S2) as (q2 & _ & _ & K). eauto. }
  cbn [bind]. rewrite trim_trailing_whitespace_ok. cbn [bind]. eexists. split; [reflexivity|discriminate].
Qed.
Lemma compound_fails until m P l r d c o : a_line (sp_data (md_start m)) l r d -> compound_delimiter d -> enclosed d r c o ->
  (until (skip (md_start m) l c) P = Panic -> compound_parse until m P = Panic) /\ (until (skip (md_start m) l c) P = OutOfFuel -> compound_parse until m P = OutOfFuel).
Proof.
  intros H Hd He. unfold compound_parse. rewrite (take_norm_eq _ _ _ _ H). cbn [bind mi_item mi_after sp_data with_data].
  destruct (compound_delimiter_b d) as (v & Eb & Hb). assert (v = true) as -> by (apply Hb; exact Hd).
  rewrite (compound_context_delim d Hd), Eb. cbn [bind negb].
  destruct (find_delimiter_spec d (length (sp_data (skip (md_start m) l r))) (skip (md_start m) l r) (le_n _)) as (c' & o' & He' & Ho).
  rewrite sp_data_skip in He'. destruct (enclosed_unique _ _ _ _ He _ _ He') as (-> & <-). destruct o as [r'|].
  - destruct Ho as (k & Dk & Hk & Hne & ->). rewrite sp_data_skip in Dk.
    cbn [bind fst snd mi_item mi_after]. rewrite (trim_to (skip (md_start m) l r) c' (k ++ r')) by (rewrite ?sp_data_skip, ?sp_off_skip; auto). cbn [bind].
    rewrite with_data_skip. split; intros ->; reflexivity.
  - destruct Ho as (Ec & ->). rewrite sp_data_skip in Ec. subst c'.
    cbn [bind fst snd mi_item mi_after]. rewrite (trim_to (skip (md_start m) l r) r []) by (rewrite ?sp_data_skip, ?sp_off_skip, ?app_nil_r; auto). cbn [bind].
    rewrite with_data_skip. split; intros ->; reflexivity.
Qed.
Lemma compound_asks E D N m P l r n : located D (md_start m) -> ended D (md_start m) -> Suffix (md_source m) (md_start m) -> a_line (sp_data (md_start m)) l r n -> compound_delimiter n -> length (sp_data (md_start m)) <= N ->
  asks E D N (fun _ => False) (fun o => exists x, o = Some x /\ block_common (mi_item (fst x)) = common_of m) (fun un => compound_parse (un never 0) m P).
Proof.
  intros L En S1 Hl Hd HN. destruct (find_delimiter_spec n (length r) (span_new r) (le_n _)) as (c & o & He & Ho). cbn [sp_data span_new] in *.
  assert (Dm : exists post, sp_data (md_start m) = l ++ c ++ post /\ (o = None -> post = [] /\ c = r)).
  { destruct o as [r'|]; [destruct Ho as (k & Dk & _); exists (k ++ r'); rewrite (a_line_app _ _ _ _ Hl), Dk; split; [reflexivity|discriminate]|]. destruct Ho as (-> & _). exists []. rewrite app_nil_r. split; [exact (a_line_app _ _ _ _ Hl)|auto]. }
  destruct Dm as (post & Dm & Dn).
  right. exists never, 0, (skip (md_start m) l c), P. split; [left; reflexivity|]. split; [split; [apply (located_Sub _ _ _ L), Sub_intro with (post := post); exact Dm|split]|].
  { rewrite (a_line_app _ _ _ _ Hl) in Dm. apply app_inv_head in Dm. rewrite Dm in Hl. exact (line_begins_part _ _ _ _ _ Hl). }
  { destruct o as [r'|]; [exact (ended_part _ _ _ _ _ _ _ En Hl He Hd)|]. destruct (Dn eq_refl) as (-> & ->). exact (ended_suffix _ _ _ En (suffix_line _ _ _ _ Hl)). }
  split.
  { rewrite sp_data_skip. pose proof (strict_line _ _ _ _ Hl (compound_delim_nonempty _ Hd)) as Hlt. apply (f_equal (@length _)) in Dm. rewrite !app_length in Dm. pose proof (a_line_app _ _ _ _ Hl) as Da. apply (f_equal (@length _)) in Da. rewrite app_length in Da. lia. }
  intros un. destruct (compound_fails (un never 0) m P l r n c o Hl Hd He) as (K1 & K2). destruct (un never 0 (skip (md_start m) l c) P) as [b| |] eqn:Eb; [|auto|auto]. intros _. destruct o as [r'|].
  - destruct (compound_parse_found (un never 0) m P l r n c r' b Hl Hd He S1 Eb) as (k' & w' & pre & _ & _ & _ & ->). eexists. split; [reflexivity|]. eexists. split; reflexivity.
  - destruct (Dn eq_refl) as (-> & ->). destruct (compound_parse_open (un never 0) m P l r n r b Hl Hd He S1 Eb) as (_ & ->). eexists. split; [reflexivity|]. eexists. split; reflexivity.
Qed.

(** * Any block *)
Lemma raw_any E m P l r n : total_env E -> wf_opt (md_attrlist m) -> Suffix (md_source m) (md_start m) -> a_line (sp_data (md_start m)) l r n -> raw_delimiter n ->
  exists x, raw_parse E m P = Ok (Some x) /\ block_common (mi_item (fst x)) = common_of m.
Proof.
  intros He Ha S1 Hl Hraw. destruct (find_delimiter_spec n (length r) (span_new r) (le_n _)) as (c & o & Hen & Ho). cbn [sp_data span_new] in *. destruct (trim_line_end (with_data (md_start m) c)) as (x & Hx & _). cbn [sp_data with_data] in Hx. destruct o as [r'|].
  - destruct (override_any (snd (snd (kind_of n))) (md_attrlist m) Ha) as (g & Eg). destruct (apply_subs_any E P g (md_attrlist m) x He Ha) as (tt & Ett).
    destruct (raw_parse_found E m P l r n c r' x g tt Hl Hraw Hen Hx Eg Ett S1) as (src & k & _ & _ & _ & _ & ->). eexists. split; reflexivity.
  - destruct (raw_parse_open E m P l r n c x Hl Hraw Hen Hx S1) as (src & _ & _ & _ & _ & ->). eexists. split; reflexivity.
Qed.
Lemma starts_any_solid cs t l r n : a_line t l r n -> starts_with_any cs n = true -> (forall c, In c cs -> is_ws c = false) -> solid t.
Proof.
  intros Hl H Hc. destruct n as [|c y]; [discriminate H|]. cbn [starts_with_any] in H. apply has_char_spec in H. exact (solid_line _ _ _ _ Hl (solid_cons c y (Hc _ H))).
Qed.
Lemma block_asks E D s P : total_env E -> located D s -> ended D s -> asks E D (length (sp_data s)) always (fun r => pr_item r <> None) (fun un => block_parse_with E un s P).
Proof.
  intros He L En. unfold block_parse_with. destruct (a_line_total (sp_data s)) as (l0 & r0 & n0 & Hl0). destruct (first_line_of _ _ _ _ Hl0) as (fl & z & Efl & _). rewrite Efl. cbn [bind].
  assert (Hf : exists o, (if try_fast s (mi_item fl) then simple_parse_fast E s P else Ok None) = Ok o /\ forall mi, o = Some mi -> block_common (mi_item mi) = no_common).
  { destruct (try_fast _ _); [|exists None; split; [reflexivity|intros mi K; discriminate K]]. unfold simple_parse_fast. destruct (parse_lines_any E s None P He wf_none (located_col _ _ L)) as (o & -> & _). cbn [bind]. destruct o as [x|]; [|exists None; split; [reflexivity|intros mi K; discriminate K]].
    rewrite discard_empty_lines_ok. cbn [bind]. eexists. split; [reflexivity|]. intros mi K. injection K as <-. reflexivity. }
  destruct Hf as (o & -> & Ho). cbn [bind]. destruct o as [mi|].
  { apply asks_ok. destruct (finish_any mi [] P) as (r & Er); [rewrite (Ho _ eq_refl); apply wf_none|]. exists r. split; [exact Er|exact I]. }
  clear Ho. assert (He2 : exists o, (if try_entry (mi_item fl) then attribute_parse (apply_header_subs E) s P else Ok None) = Ok o) by (destruct (try_entry _); [apply entry_any, He|eauto]).
  destruct He2 as (o & ->). cbn [bind]. destruct o as [attr|]; [apply asks_ok; eexists; split; [reflexivity|exact I]|].
  destruct (metadata_any E s P He) as (m & ws & Em & Es & S2 & Ha). rewrite Em. cbn [bind fst snd]. clear Hl0 Efl z fl l0 r0 n0.
  assert (S0 : Suffix s (md_source m)) by (rewrite Es; apply discard_empty_Suffix). pose proof (located_Suffix _ _ _ L S0) as L0. pose proof (located_Suffix _ _ _ L0 S2) as L1. pose proof (ended_suffix _ _ _ En S0) as En0. pose proof (ended_suffix _ _ _ En0 S2) as En1. pose proof (suffix_len _ _ S0) as Len0. pose proof (suffix_len _ _ S2) as Len1. pose proof (md_source_solid _ _ _ _ _ Em) as Hsolid. clear Em.
  unfold with_metadata. destruct (style_any _ Ha) as (bs & ->). cbn [bind]. destruct (style_is bs (lit "literal")).
  { apply asks_ok. destruct (last_any E m ws P He Ha (located_col _ _ L1) S2) as (r & Er). exists r. split; [exact Er|exact I]. }
  destruct (a_line_total (sp_data (md_start m))) as (l & r & n & Hl). destruct (raw_delimiter_b n) as (br & _ & Hbr). destruct br.
  { destruct (raw_any E m P l r n He Ha S2 Hl (proj1 Hbr eq_refl)) as (x & -> & Hx). cbn [bind]. apply asks_ok. destruct (finish_any (fst x) (ws ++ snd x) P) as (q & Eq); [rewrite Hx; exact Ha|]. exists q. split; [exact Eq|exact I]. }
  rewrite (raw_parse_none E m P l r n Hl) by (intros K; apply Hbr in K; discriminate K). cbn [bind].
  destruct (compound_delimiter_b n) as (bc & _ & Hbc). destruct bc.
  { match goal with |- asks _ _ _ _ _ (fun un => bind (@?F un) (@?k un)) => apply (asks_bind E D (length (sp_data s)) (fun _ => False) (fun o => exists x, o = Some x /\ block_common (mi_item (fst x)) = common_of m) always (fun r => pr_item r <> None) F k) end; [apply (compound_asks E D (length (sp_data s)) m P l r n L1 En1 S2 Hl (proj1 Hbc eq_refl)); lia|intros un o []|]. intros un o (x & -> & Hx). destruct (finish_any (fst x) (ws ++ fst (snd x)) (snd (snd x))) as (q & Eq); [rewrite Hx; exact Ha|]. exists q. split; [exact Eq|exact (finish_some _ _ _ _ Eq)]. }
  assert (Hcn : forall un : until_fn, compound_parse (un never 0) m P = Ok None) by (intros un; apply (compound_parse_none _ m P l r n Hl); intros K; apply Hbc in K; discriminate K).
  assert (Hb : forall P ws, exists r, try_break E m n ws P = Ok r).
  { clear ws P Hcn. intros P ws. unfold try_break. assert (Hbk : exists o, (if starts_with_any (lit "'-*<") n then break_parse m else Ok None) = Ok o).
    { destruct (starts_with_any (lit "'-*<") n) eqn:Eb; [|eauto]. apply (break_any m l r n S2); [|exact Hl]. apply Hsolid. apply (starts_any_solid _ _ _ _ _ Hl Eb). intros c Hc. cbn in Hc. repeat (destruct Hc as [<-|Hc]; [reflexivity|]). destruct Hc. }
    destruct Hbk as (o & ->). cbn [bind]. destruct o as [mi|]; [eauto|]. apply no_block_any; auto; [exact (located_col _ _ L1)|exact (located_col _ _ L0)]. }
  assert (Hsec : forall P ws, asks E D (length (sp_data s)) always (fun r => pr_item r <> None) (fun un => try_section E un m n ws P)).
  { clear ws P Hcn. intros P ws. unfold try_section. destruct (starts_with_any (lit "=#") n) eqn:Eb.
    - match goal with |- asks _ _ _ _ _ (fun un => bind (@?F un) (@?k un)) => apply (asks_bind E D (length (sp_data s)) always (fun o => fst o <> None) always (fun r => pr_item r <> None) F k) end; [apply (section_asks E D (length (sp_data s)) m P He Ha L0 En0 S2)| |].
      + apply (starts_any_solid _ _ _ _ _ Hl Eb). intros c Hc. cbn in Hc. repeat (destruct Hc as [<-|Hc]; [reflexivity|]). destruct Hc.
      + lia.
      + intros un o _. destruct (fst o); [eexists; split; [reflexivity|exact I]|]. destruct (Hb (snd (snd o)) (ws ++ fst (snd o))) as (q & Eq). exists q. split; [exact Eq|exact I].
      + intros un o Ho. destruct (fst o); [|contradiction]. eexists. split; [reflexivity|discriminate].
    - cbn [bind fst snd]. apply asks_ok. destruct (Hb P (ws ++ [])) as (q & Eq). exists q. split; [exact Eq|exact I]. }
  assert (Hext : forall F G : until_fn -> res pres, (forall un, F un = G un) -> asks E D (length (sp_data s)) always (fun r => pr_item r <> None) G -> asks E D (length (sp_data s)) always (fun r => pr_item r <> None) F).
  { intros F G K [H|(f & n1 & s' & P' & H1 & H2 & H3 & H)]; [left; intros un; rewrite K; apply H|right; exists f, n1, s', P'; split; [exact H1|]; split; [exact H2|]; split; [exact H3|]; intros un; rewrite K; exact (H un)]. }
  refine (Hext _ _ (fun un => _) _); [rewrite Hcn; cbn [bind]; rewrite (take_norm_eq _ _ _ _ Hl); cbn [bind mi_item sp_data with_data]; reflexivity|].
  unfold try_media. destruct (starts_with (lit "image::") n || starts_with (lit "video::") n || starts_with (lit "video::") n) eqn:Em.
  - assert (Hs : solid (sp_data (md_start m))).
    { rewrite <- orb_assoc, orb_diag in Em. apply orb_prop in Em. apply (solid_line _ _ _ _ Hl). destruct Em as [K|K]; apply starts_with_spec in K; destruct K as (q & ->); apply solid_cons; reflexivity. }
    destruct (media_any E m P l r n He Ha S2 (Hsolid Hs) Hl) as (o & w & -> & Ho). cbn [bind fst snd]. destruct o as [mi|]; [|apply Hsec].
    apply asks_ok. destruct (finish_any mi (ws ++ w) P (Ho _ eq_refl)) as (q & Eq). exists q. split; [exact Eq|exact I].
  - cbn [bind fst snd]. apply Hsec.
Qed.

(** * Where no block is found *)
Lemma contains_spaces n z : Forall sp_tab n -> Forall (eq SP) z -> contains (lit "::") (n ++ z) = false.
Proof.
  intros Hn Hz. destruct (contains (lit "::") (n ++ z)) eqn:Ec; [exfalso|reflexivity]. apply contains_spec in Ec. destruct Ec as (a & b & Eab). assert (Hin : In 58%N (n ++ z)) by (rewrite Eab; apply in_app_iff; right; left; reflexivity).
  apply in_app_iff in Hin. rewrite Forall_forall in Hn, Hz. destruct Hin as [K|K]; [destruct (Hn _ K) as [K'|K']; discriminate K'|specialize (Hz _ K); discriminate Hz].
Qed.
Lemma sp_tab_dec n : Forall sp_tab n \/ exists c, In c n /\ ~ sp_tab c.
Proof.
  induction n as [|c n [IH|(x & Hx & Nx)]]; [left; constructor| |right; exists x; split; [right; exact Hx|exact Nx]].
  destruct (is_sp_tab c) eqn:Ec; [left; constructor; [apply is_sp_tab_spec; exact Ec|exact IH]|]. right. exists c. split; [left; reflexivity|]. intros K. apply is_sp_tab_spec in K. congruence.
Qed.
Theorem block_dead E un s P r : sp_data s <> [] -> block_parse_with E un s P = Ok r -> (pr_item r = None <-> dead E P s) /\ (pr_item r = None -> pr_parser r = P).
Proof.
  intros Hne H. pose proof (discard_empty_lines_ok s) as Hd. set (s0 := p_discard_empty_lines s) in *. destruct (a_line_total (sp_data s)) as (l & r0 & n & Hl).
  assert (Dd : dead E P s <-> (s0 = s \/ hollow false (sp_data s)) /\ nowhere E P (sp_data s0)).
  { unfold dead. rewrite Hd. split; [intros (s1 & K & H1 & H2); injection K as <-; auto|intros (H1 & H2); exists s0; auto]. }
  rewrite Dd. clear Dd. destruct (sp_tab_dec n) as [Fn|(c & Hc & Nc)].
  2:{ assert (Es : s0 = s) by exact (discard_none s l r0 n c Hl Hc Nc). destruct (block_none E un s s0 P r Hd (or_introl Es) H) as (A & B). split; [|exact B]. rewrite A. tauto. }
  destruct n as [|c n'].
  { destruct (block_none E un s s0 P r Hd (or_intror (ex_intro _ l (ex_intro _ r0 Hl))) H) as (A & B). split; [|exact B]. rewrite A. assert (hollow false (sp_data s)) by (constructor; right; eauto). tauto. }
  unfold block_parse_with in H. destruct (first_line_sp _ _ _ _ Hl) as (fl & z & Ef & Ez & Fz). rewrite Ef in H. cbn [bind] in H. destruct (a_line_head _ _ _ _ _ Hl) as (t0 & D0).
  assert (Hc : c = SP \/ c = TAB) by (inversion Fn as [|? ? K _]; exact K).
  assert (Et : try_fast s (mi_item fl) = true) by (unfold try_fast; rewrite D0, Ez, (contains_spaces _ _ Fn Fz); destruct Hc as [-> | ->]; reflexivity). rewrite Et in H.
  apply bind_ok in H. destruct H as (fast & Efa & H). pose proof (simple_fast_hollow _ _ _ _ Efa) as Hh. destruct fast as [x|].
  { assert (Nh : ~ hollow false (sp_data s)) by (intros K; apply Hh in K; discriminate K). assert (Ns : pr_item r <> None) by exact (finish_some _ _ _ _ H). split; [|tauto]. split; [tauto|]. intros ([Es|K] & (is_ & rest & st & ML2 & _ & Ho & _)); [|contradiction].
    rewrite Es in ML2. destruct (fast_line (e_u E) s (mi_item fl) Et) as (l1 & r1 & n1 & A & B & C); [eauto 10|]. destruct (meta_lines_unique _ _ _ _ _ B _ _ ML2) as (_ & <-). contradiction. }
  assert (Ho : hollow false (sp_data s)) by (apply Hh; reflexivity).
  assert (Hen : try_entry (mi_item fl) = false) by (unfold try_entry; rewrite Ez; destruct Hc as [-> | ->]; reflexivity). rewrite Hen in H. cbn [bind] in H.
  apply bind_ok in H. destruct H as ([m ws] & Em & H). cbn [fst snd] in H.
  destruct (with_md E un s s0 P m ws r Hd Em H) as (A & B). split; [|exact B]. rewrite A. tauto.
Qed.
(** A place where no block is found has no blocks inside. *)
Lemma dead_any E D un s P : total_env E -> located D s -> ended D s -> sp_data s <> [] -> dead E P s -> exists r, block_parse_with E un s P = Ok r /\ pr_item r = None /\ pr_parser r = P.
Proof.
  intros He L En Hne Hd. destruct (block_asks E D s P He L En) as [H|(f & n & s' & P' & _ & _ & _ & H)].
  - destruct (H un) as (r & Er & _). destruct (block_dead _ _ _ _ _ Hne Er) as (A & B). apply proj2 in A. specialize (A Hd). exists r. auto.
  - exfalso. destruct (H (fun _ _ s P => Ok (mkbr [] s [] 0 [] P)) (Suffix_refl s')) as (r & Er & Hr). destruct (block_dead _ _ _ _ _ Hne Er) as (A & _). apply Hr, A, Hd.
Qed.

(** * The closures *)
Lemma stop_regular E f : total_env E -> stop_of E f -> forall s, (forall n, f s n = Panic) \/ exists b, forall n, exists x, f s n = Ok (b, x).
Proof.
  intros He [->|(d & l & ->)] s; [right; exists false; intros n; eexists; reflexivity|]. unfold section_stop. destruct d; [right; exists true; intros n; eexists; reflexivity|].
  unfold peer_or_ancestor_section. destruct (metadata_any E s parser_default He) as (m & ws & -> & _ & _ & Ha). cbn [bind fst]. destruct (discrete_any m Ha) as (d & ->). cbn [bind]. destruct d; [right; exists false; intros n; eexists; reflexivity|].
  destruct (a_line_total (sp_data (md_start m))) as (l0 & r0 & n0 & Hl).
  assert (Ht : parse_title_line (md_start m) = Panic \/ exists o w, parse_title_line (md_start m) = Ok (o, w)).
  { destruct (is_nil n0) eqn:En.
    - right. apply title_line_total. intros l1 r1 c y H1. destruct (a_line_unique _ _ _ _ _ _ _ Hl H1) as (_ & _ & ->). discriminate En.
    - destruct n0 as [|c y]; [discriminate En|]. destruct (is_sp_tab c) eqn:Ec.
      + left. apply C35_underflow_iff_indented. exists l0, r0, c, y. split; [exact Hl|apply is_sp_tab_spec; exact Ec].
      + right. apply title_line_total. intros l1 r1 c1 y1 H1. destruct (a_line_unique _ _ _ _ _ _ _ Hl H1) as (_ & _ & K). injection K as <- <-. intros K. apply is_sp_tab_spec in K. congruence. }
  destruct Ht as [-> |(o & w & ->)]; [left; reflexivity|]. right. cbn [bind fst snd]. destruct o as [mi|]; [|exists false; intros n; eexists; reflexivity].
  exists (fst (mi_item mi) <=? l). intros n. destruct (n + 1 <? fst (mi_item mi)); [|cbn [bind]; eexists; reflexivity]. destruct (take_norm s) as (l1 & r1 & k & _ & ->). cbn [bind]. eexists. reflexivity.
Qed.

(** * The loop *)
Lemma dead_loop E D f s P : total_env E -> stop_of E f -> located D s -> ended D s -> sp_data s <> [] -> (exists n x, f s n = Ok (false, x)) -> dead E P s -> forall fuel n, blocks_loop E fuel f n s P = OutOfFuel.
Proof.
  intros He Hf L En Hne (n0 & x0 & H0) Hd. destruct (stop_regular E f He Hf s) as [K|(b & Hb)]; [rewrite K in H0; discriminate H0|]. destruct (Hb n0) as (x1 & H1). rewrite H0 in H1. injection H1 as <- _. clear x0 x1 n0 H0.
  induction fuel as [|fuel IH]; intros n; cbn [blocks_loop]; (destruct (sp_data s) as [|c t] eqn:Ds; [contradiction|]); [reflexivity|]. rewrite <- Ds in *.
  destruct (Hb n) as (x & ->). cbn [bind fst snd]. match goal with |- context [block_parse_with E ?un s P] => destruct (dead_any E D un s P He L En Hne Hd) as (r & -> & Er & Ep) end. cbn [bind]. rewrite Er, Ep, IH. reflexivity.
Qed.
Lemma until_good E D fuel : good_until D (fun stop level source P => src <- discard_empty_lines source ;; blocks_loop E fuel stop level src P).
Proof. intros f' n' s' P' b' L' Hb. exact (until_ok D E fuel f' n' s' P' b' L' Hb). Qed.
Theorem loop_fate E D : total_env E -> forall fuel f n s P, stop_of E f -> located D s -> ended D s -> length (sp_data s) <= fuel ->
  (exists b, blocks_loop E fuel f n s P = Ok b) \/ (blocks_loop E fuel f n s P = Panic /\ goes_wrong E D f n s P true) \/ (blocks_loop E fuel f n s P = OutOfFuel /\ goes_wrong E D f n s P false).
Proof.
  intros He. induction fuel as [|fuel IH]; intros f n s P Hf L En Hlen.
  { cbn [blocks_loop]. destruct (sp_data s) eqn:Ds; [left; eexists; reflexivity|cbn in Hlen; lia]. }
  destruct (sp_data s) as [|c0 t0] eqn:Ds; [left; cbn [blocks_loop]; rewrite Ds; eexists; reflexivity|]. assert (Hne : sp_data s <> []) by (rewrite Ds; discriminate). rewrite <- Ds in Hlen.
  destruct (stop_regular E f He Hf s) as [K|(b & Hb)].
  { right. left. cbn [blocks_loop]. rewrite Ds, K. split; [reflexivity|]. apply gw_panic; auto. }
  destruct (Hb n) as ([n1 w1] & Hn). destruct b; [left; cbn [blocks_loop]; rewrite Ds, Hn; cbn [bind fst]; eexists; reflexivity|].
  set (un := fun stop level source P => src <- discard_empty_lines source ;; blocks_loop E fuel stop level src P).
  assert (Eu : forall x, blocks_loop E (S fuel) f n s P = x <-> (r <- block_parse_with E un s P ;; rest <- blocks_loop E fuel f n1 (match pr_item r with Some mi => mi_after mi | None => s end) (pr_parser r) ;;
            Ok (mkbr (match pr_item r with Some mi => mi_item mi :: br_blocks rest | None => br_blocks rest end)
                  (br_after rest) (pr_warnings r ++ br_warnings rest) (br_level rest) (w1 ++ br_stop_warnings rest) (br_parser rest))) = x).
  { intros x. cbn [blocks_loop]. rewrite Ds, Hn. reflexivity. }
  assert (Later : forall r, block_parse_with E un s P = Ok r -> (exists b, blocks_loop E (S fuel) f n s P = Ok b) \/ (blocks_loop E (S fuel) f n s P = Panic /\ goes_wrong E D f n s P true) \/ (blocks_loop E (S fuel) f n s P = OutOfFuel /\ goes_wrong E D f n s P false)).
  { intros r Er. destruct (pr_item r) as [mi|] eqn:Ei.
    - destruct (block_ok D E un s P r mi (until_good E D fuel) L Er Ei) as (A1 & A2 & _).
      assert (Eb : block_parse E fuel s P = Ok r) by exact Er.
      destruct (IH f n1 (mi_after mi) (pr_parser r) Hf (located_Suffix _ _ _ L A1) (ended_suffix _ _ _ En A1) ltac:(lia)) as [(b & H)|[(H & G)|(H & G)]].
      + left. eexists. apply Eu. rewrite Er. cbn [bind]. rewrite Ei, H. cbn [bind]. reflexivity.
      + right. left. split; [apply Eu; rewrite Er; cbn [bind]; rewrite Ei, H; reflexivity|exact (gw_later E D _ _ _ _ _ _ _ _ _ _ Hne Hn Eb Ei G)].
      + right. right. split; [apply Eu; rewrite Er; cbn [bind]; rewrite Ei, H; reflexivity|exact (gw_later E D _ _ _ _ _ _ _ _ _ _ Hne Hn Eb Ei G)].
    - right. right. assert (Hd : dead E P s) by (apply (block_dead _ _ _ _ _ Hne Er); exact Ei). split; [|exact (gw_dead E D _ _ _ _ _ _ Hne Hn Hd)]. apply (dead_loop E D f s P He Hf L En Hne); [exists n, (n1, w1); exact Hn|exact Hd]. }
  destruct (block_asks E D s P He L En) as [H|(f1 & n2 & s1 & P1 & H1 & H2 & H3 & H)].
  - destruct (H un) as (r & Er & _). exact (Later r Er).
  - assert (Op : opens E s P f1 n2 s1 P1) by (split; intros u Hu; specialize (H u); rewrite Hu in H; exact H).
    specialize (H un). pose proof (discard_empty_Suffix s1) as Sx. pose proof (suffix_len _ _ Sx) as Lx.
    destruct (IH f1 n2 (p_discard_empty_lines s1) P1 H1 (located_Suffix _ _ _ (proj1 H2) Sx) (ended_suffix _ _ _ (proj2 (proj2 H2)) Sx) ltac:(lia)) as [(b & K)|[(K & G)|(K & G)]].
    + assert (Kb : un f1 n2 s1 P1 = Ok b) by (unfold un; rewrite discard_empty_lines_ok; exact K). rewrite Kb in H. destruct (until_good E D fuel _ _ _ _ _ (proj1 H2) Kb) as (Sb & _). destruct (H Sb) as (r & Er & _). exact (Later r Er).
    + assert (Kb : un f1 n2 s1 P1 = Panic) by (unfold un; rewrite discard_empty_lines_ok; exact K). rewrite Kb in H. right. left. split; [apply Eu; rewrite H; reflexivity|]. exact (gw_inside E D _ _ _ _ _ _ _ _ _ _ _ _ Hne Hn H1 H2 Op (discard_empty_lines_ok s1) G).
    + assert (Kb : un f1 n2 s1 P1 = OutOfFuel) by (unfold un; rewrite discard_empty_lines_ok; exact K). rewrite Kb in H. right. right. split; [apply Eu; rewrite H; reflexivity|]. exact (gw_inside E D _ _ _ _ _ _ _ _ _ _ _ _ Hne Hn H1 H2 Op (discard_empty_lines_ok s1) G).
Qed.
(** What goes wrong is what the loop does. *)
Lemma loop_step E fuel f n s P n' w : sp_data s <> [] -> f s n = Ok (false, (n', w)) ->
  blocks_loop E (S fuel) f n s P = (r <- block_parse E fuel s P ;; rest <- blocks_loop E fuel f n' (match pr_item r with Some mi => mi_after mi | None => s end) (pr_parser r) ;;
     Ok (mkbr (match pr_item r with Some mi => mi_item mi :: br_blocks rest | None => br_blocks rest end)
        (br_after rest) (pr_warnings r ++ br_warnings rest) (br_level rest) (w ++ br_stop_warnings rest) (br_parser rest))).
Proof. intros Hne Hf. cbn [blocks_loop]. destruct (sp_data s); [contradiction|]. rewrite Hf. reflexivity. Qed.
Lemma loop_0 E f n s P : sp_data s <> [] -> blocks_loop E 0 f n s P = OutOfFuel.
Proof. intros Hne. cbn [blocks_loop]. destruct (sp_data s); [contradiction|reflexivity]. Qed.
Lemma block_same E fuel fuel' s P x y : block_parse E fuel s P = x -> block_parse E fuel' s P = y -> x <> OutOfFuel -> y <> OutOfFuel -> x = y.
Proof. intros Hx Hy Nx Ny. destruct (Nat.le_ge_cases fuel fuel') as [K|K]; [pose proof (block_fuel _ _ _ _ _ _ Hx Nx K)|pose proof (block_fuel _ _ _ _ _ _ Hy Ny K)]; congruence. Qed.
Lemma wrong_endless E D : total_env E -> forall f n s P k, goes_wrong E D f n s P k -> stop_of E f -> located D s -> ended D s -> k = false -> forall fuel, blocks_loop E fuel f n s P = OutOfFuel.
Proof.
  intros He f n s P k H. induction H as [f n s P Hne Hp|f n s P n' w Hne Hn Hd|f n s P n' w f1 n1 s1 P1 s2 k Hne Hn H1 L1 Op Hs G IH|f n s P n' w fl r mi k Hne Hn Hr Hi G IH]; intros Hf L En Hk fuel.
  - discriminate Hk.
  - apply (dead_loop E D f s P He Hf L En Hne); [exists n, (n', w); exact Hn|exact Hd].
  - destruct fuel as [|fuel]; [apply loop_0, Hne|]. rewrite (loop_step _ _ _ _ _ _ _ _ Hne Hn). unfold block_parse. rewrite (proj2 Op); [reflexivity|]. unfold parse_blocks_until. rewrite Hs. cbn [bind]. rewrite discard_empty_lines_ok in Hs. apply Ok_inj in Hs. subst s2.
    apply IH; [exact H1|exact (located_Suffix _ _ _ (proj1 L1) (discard_empty_Suffix s1))|exact (ended_suffix _ _ _ (proj2 (proj2 L1)) (discard_empty_Suffix s1))|exact Hk].
  - destruct fuel as [|fuel]; [apply loop_0, Hne|]. rewrite (loop_step _ _ _ _ _ _ _ _ Hne Hn). destruct (block_parse E fuel s P) as [r'| |] eqn:Eb; [|exfalso|reflexivity].
    + assert (K : Ok r = Ok r') by (apply (block_same E fl fuel s P); [exact Hr|exact Eb|discriminate..]). injection K as <-. cbn [bind]. destruct (block_ok D E _ s P r mi (until_good E D fl) L Hr Hi) as (A1 & _).
      rewrite Hi, IH; [reflexivity|exact Hf|exact (located_Suffix _ _ _ L A1)|exact (ended_suffix _ _ _ En A1)|exact Hk].
    + assert (K : Ok r = Panic) by (apply (block_same E fl fuel s P); [exact Hr|exact Eb|discriminate..]). discriminate K.
Qed.
Lemma wrong_panics E D : forall f n s P k, goes_wrong E D f n s P k -> k = true -> exists fuel0, forall fuel, fuel0 <= fuel -> blocks_loop E fuel f n s P = Panic.
Proof.
  intros f n s P k H. induction H as [f n s P Hne Hp|f n s P n' w Hne Hn Hd|f n s P n' w f1 n1 s1 P1 s2 k Hne Hn H1 L1 Op Hs G IH|f n s P n' w fl r mi k Hne Hn Hr Hi G IH]; intros Hk.
  - exists 1. intros fuel Hl. destruct fuel as [|fuel]; [lia|]. cbn [blocks_loop]. destruct (sp_data s); [contradiction|]. rewrite Hp. reflexivity.
  - discriminate Hk.
  - destruct (IH Hk) as (f0 & Hf0). exists (S f0). intros fuel Hl. destruct fuel as [|fuel]; [lia|]. rewrite (loop_step _ _ _ _ _ _ _ _ Hne Hn). unfold block_parse. rewrite (proj1 Op); [reflexivity|]. unfold parse_blocks_until. rewrite Hs. cbn [bind]. apply Hf0. lia.
  - destruct (IH Hk) as (f0 & Hf0). exists (S (f0 + fl)). intros fuel Hl. destruct fuel as [|fuel]; [lia|]. rewrite (loop_step _ _ _ _ _ _ _ _ Hne Hn). rewrite (block_fuel E fl fuel s P (Ok r) Hr) by (discriminate || lia). cbn [bind]. rewrite Hi, Hf0 by lia. reflexivity.
Qed.
(** Where the closure panics there is indented text in a section. *)
Lemma stop_panics E f s n : total_env E -> stop_of E f -> f s n = Panic ->
  exists m ws l r c y, metadata_parse E s parser_default = Ok (m, ws) /\ (exists k, f = section_stop E false k) /\ a_line (sp_data (md_start m)) l r (c :: y) /\ sp_tab c.
Proof.
  intros He [->|(d & l & ->)] H; [discriminate H|]. unfold section_stop in H. destruct d; [discriminate H|].
  unfold peer_or_ancestor_section in H. destruct (metadata_any E s parser_default He) as (m & ws & Em & _ & _ & Ha). rewrite Em in H. cbn [bind fst] in H. destruct (discrete_any m Ha) as (d & Ed). rewrite Ed in H. cbn [bind] in H. destruct d; [discriminate H|].
  destruct (parse_title_line (md_start m)) as [[[mi|] w]| |] eqn:Et.
  - cbn [bind fst snd] in H. exfalso. destruct (n + 1 <? fst (mi_item mi)); [|discriminate H]. destruct (take_norm s) as (l1 & r1 & k & _ & K). rewrite K in H. discriminate H.
  - discriminate H.
  - apply C35_underflow_iff_indented in Et. destruct Et as (l0 & r0 & c & y & A & B). exists m, ws, l0, r0, c, y. eauto 10.
  - discriminate H.
Qed.
Lemma wrong_why E D f n s P k : total_env E -> goes_wrong E D f n s P k -> stop_of E f -> place D s -> k = true ->
  exists s' m ws l r c y, place D s' /\ metadata_parse E s' parser_default = Ok (m, ws) /\ a_line (sp_data (md_start m)) l r (c :: y) /\ sp_tab c.
Proof.
  intros He H. induction H as [f n s P Hne Hp|f n s P n' w Hne Hn Hd|f n s P n' w f1 n1 s1 P1 s2 k Hne Hn H1 L1 Op Hs G IH|f n s P n' w fl r mi k Hne Hn Hr Hi G IH]; intros Hf L Hk.
  - destruct (stop_panics E f s n He Hf Hp) as (m & ws & l & r & c & y & A & _ & B & C). exists s, m, ws, l, r, c, y. auto.
  - discriminate Hk.
  - apply IH; [exact H1| |exact Hk]. rewrite discard_empty_lines_ok in Hs. apply Ok_inj in Hs. subst s2. destruct L1 as (L1 & B1 & N1). split; [exact (located_Suffix _ _ _ L1 (discard_empty_Suffix s1))|]. split; [exact (discard_begins _ B1)|exact (ended_suffix _ _ _ N1 (discard_empty_Suffix s1))].
  - apply IH; [exact Hf| |exact Hk]. destruct L as (L & B & En). destruct (block_ok D E _ s P r mi (until_good E D fl) L Hr Hi) as (A1 & _). split; [exact (located_Suffix _ _ _ L A1)|]. split; [|exact (ended_suffix _ _ _ En A1)]. exact (proj1 (block_begins D E _ s P r mi (until_good E D fl) (until_begins D E fl) L B Hr Hi)).
Qed.

(** * Documents *)
Lemma header_any E t P : total_env E -> exists h, header_parse E (span_new t) P = Ok h.
Proof. intros He. apply (header_parse_total E (fun _ => True)); [exact I|exact I|intros P0 t0 _; exact (He P0 _ _ t0)|apply Forall_forall; auto]. Qed.
Theorem document_fate E t sm P h s : total_env E -> header_parse E (span_new t) P = Ok h -> discard_empty_lines (mi_after (fst h)) = Ok s ->
  let Q := with_levels (snd (snd h)) (sectnumlevels (snd (snd h))) in
  ((exists fuel0 d P', forall fuel, fuel0 <= fuel -> document_parse E fuel t sm P = Ok (d, P')) /\ forall k, ~ goes_wrong E t never 0 s Q k) \/
  ((exists fuel0, forall fuel, fuel0 <= fuel -> document_parse E fuel t sm P = Panic) /\ goes_wrong E t never 0 s Q true /\ ~ goes_wrong E t never 0 s Q false) \/
  ((forall fuel, document_parse E fuel t sm P = OutOfFuel) /\ goes_wrong E t never 0 s Q false /\ ~ goes_wrong E t never 0 s Q true).
Proof.
  intros He Hh Hs Q. assert (S0 : Suffix (span_new t) (mi_after (fst h))). { destruct h as [[hd after] [ws Ph]]. destruct (header_parse_spec _ _ _ _ _ _ _ Hh) as (x & src & _ & _ & _ & _ & _ & S1 & _ & _ & _ & _ & _ & _ & _ & _ & Ea & _). cbn [fst mi_after]. rewrite Ea. eapply Suffix_trans; [exact S1|apply discard_empty_Suffix]. }
  assert (Ls : located t s). { rewrite discard_empty_lines_ok in Hs. apply Ok_inj in Hs. subst s. exact (located_Suffix _ _ _ (located_Suffix _ _ _ (located_new t) S0) (discard_empty_Suffix _)). }
  assert (En : ended t s). { rewrite discard_empty_lines_ok in Hs. apply Ok_inj in Hs. subst s. exact (ended_suffix _ _ _ (ended_suffix _ _ _ (ended_new t) S0) (discard_empty_Suffix _)). }
  assert (Hst : stop_of E never) by (left; reflexivity).
  assert (Df : forall fuel, document_parse E fuel t sm P = (b <- blocks_loop E fuel never 0 s Q ;; blocks <- make_preamble (br_blocks b) (mi_after (fst h)) ;;
     s1 <- trim_trailing_whitespace (span_new t) ;; let cp := take_catalog (br_parser b) in Ok (mkdoc (mi_item (fst h)) blocks s1 (fst (snd h) ++ br_warnings b) sm (fst cp), snd cp))).
  { intros fuel. unfold document_parse. cbv zeta. rewrite Hh. cbn [bind]. unfold parse_blocks_until. rewrite Hs. reflexivity. }
  assert (NT : goes_wrong E t never 0 s Q true -> goes_wrong E t never 0 s Q false -> False).
  { intros A B. destruct (wrong_panics E t _ _ _ _ _ A eq_refl) as (f0 & K). specialize (K f0 (le_n _)). rewrite (wrong_endless E t He _ _ _ _ _ B Hst Ls En eq_refl) in K. discriminate K. }
  destruct (loop_fate E t He (length (sp_data s)) never 0 s Q Hst Ls En (le_n _)) as [(b & Hb)|[(Hb & G)|(Hb & G)]].
  - left. assert (Hu : parse_blocks_until E (length (sp_data s)) never 0 (mi_after (fst h)) Q = Ok b) by (unfold parse_blocks_until; rewrite Hs; exact Hb).
    destruct (until_ok t E _ _ _ _ _ _ (located_Suffix _ _ _ (located_new t) S0) Hu) as (Sb & Tb). destruct (make_preamble_ok t _ (br_blocks b) _ S0 Tb) as (bs & Em & _).
    split.
    + eexists (length (sp_data s)), _, _. intros fuel Hl. rewrite Df, (loop_fuel _ _ fuel _ _ _ _ _ Hb) by (discriminate || exact Hl). cbn [bind]. rewrite Em. cbn [bind]. rewrite trim_trailing_whitespace_ok. cbn [bind]. reflexivity.
    + intros [|] G.
      * destruct (wrong_panics E t _ _ _ _ _ G eq_refl) as (f0 & K). specialize (K (f0 + length (sp_data s)) ltac:(lia)). rewrite (loop_fuel _ _ _ _ _ _ _ _ Hb) in K by (discriminate || lia). discriminate K.
      * rewrite (wrong_endless E t He _ _ _ _ _ G Hst Ls En eq_refl) in Hb. discriminate Hb.
  - right. left. split; [|split; [exact G|intros K; exact (NT G K)]]. exists (length (sp_data s)). intros fuel Hl. rewrite Df, (loop_fuel _ _ fuel _ _ _ _ _ Hb) by (discriminate || exact Hl). reflexivity.
  - right. right. split; [|split; [exact G|intros K; exact (NT K G)]]. intros fuel. rewrite Df, (wrong_endless E t He _ _ _ _ _ G Hst Ls En eq_refl). reflexivity.
Qed.
Lemma wrong_dead E D f n s P k : goes_wrong E D f n s P k -> place D s -> k = false -> exists s' P', place D s' /\ sp_data s' <> [] /\ dead E P' s'.
Proof.
  intros H. induction H as [f n s P Hne Hp|f n s P n' w Hne Hn Hd|f n s P n' w f1 n1 s1 P1 s2 k Hne Hn H1 L1 Op Hs G IH|f n s P n' w fl r mi k Hne Hn Hr Hi G IH]; intros L Hk.
  - discriminate Hk.
  - exists s, P. auto.
  - apply IH; [|exact Hk]. rewrite discard_empty_lines_ok in Hs. apply Ok_inj in Hs. subst s2. destruct L1 as (L1 & B1 & N1). split; [exact (located_Suffix _ _ _ L1 (discard_empty_Suffix s1))|]. split; [exact (discard_begins _ B1)|exact (ended_suffix _ _ _ N1 (discard_empty_Suffix s1))].
  - apply IH; [|exact Hk]. destruct L as (L & B & En). destruct (block_ok D E _ s P r mi (until_good E D fl) L Hr Hi) as (A1 & _). split; [exact (located_Suffix _ _ _ L A1)|]. split; [|exact (ended_suffix _ _ _ En A1)]. exact (proj1 (block_begins D E _ s P r mi (until_good E D fl) (until_begins D E fl) L B Hr Hi)).
Qed.
Lemma after_header E t P h : header_parse E (span_new t) P = Ok h -> Suffix (span_new t) (p_discard_empty_lines (mi_after (fst h))).
Proof.
  intros Hh. destruct h as [[hd after] [ws Ph]]. destruct (header_parse_spec _ _ _ _ _ _ _ Hh) as (x & src & _ & _ & _ & _ & _ & S1 & _ & _ & _ & _ & _ & _ & _ & _ & Ea & _). cbn [fst mi_after]. rewrite Ea.
  eapply Suffix_trans; [exact S1|]. eapply Suffix_trans; apply discard_empty_Suffix.
Qed.
Lemma place_header E t P h : header_parse E (span_new t) P = Ok h -> place t (p_discard_empty_lines (mi_after (fst h))).
Proof. intros Hh. split; [exact (located_Suffix _ _ _ (located_new t) (after_header E t P h Hh))|]. split; [exact (discard_begins _ (proj1 (header_begins _ _ _ _ Hh)))|exact (ended_suffix _ _ _ (ended_new t) (after_header E t P h Hh))]. Qed.
