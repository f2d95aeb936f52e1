(** Lemmas on blocks. *)
From Verif Require Import Text TextFacts Maps Span_Model Span_Pure Span_Proof Span_Laws Span_Spec Catalog_Model Catalog_Proof Parser_Model Subs_Model Attrlist_Model
  Attrlist_Laws Attrlist_Prop Entry_Spec Entry_Model Entry_Proof Group_Model SecId_Model Header_Model Header_Spec Header_Proof Block_Model Block_Spec.

(** * Lines *)
Lemma take_norm s : exists l r n, a_line (sp_data s) l r n /\
  take_normalized_line s = Ok (mkmi (with_data s n) (skip s l r)).
Proof.
  destruct (first_line (sp_data s)) as (x & e & r & D & Hx & He).
  exists (x ++ e), r, (trim_end_by (N.eqb SP) (strip_cr x)). split.
  - exists x, e. rewrite <- app_assoc. auto using norm_trimmed.
  - rewrite take_normalized_line_ok, (norm_line_eq s x e r Hx He D). reflexivity.
Qed.
Lemma a_line_unique t l r n l' r' n' : a_line t l r n -> a_line t l' r' n' -> l = l' /\ r = r' /\ n = n'.
Proof.
  intros (x & e & D & -> & Hx & He & Ht) (x' & e' & D' & -> & Hx' & He' & Ht'). rewrite <- app_assoc in D, D'.
  destruct (line_unique x e r x' e' r') as (-> & -> & ->); try assumption; [congruence|].
  rewrite (trimmed_unique _ _ _ Ht Ht'). auto.
Qed.
Lemma a_line_app t l r n : a_line t l r n -> t = l ++ r.
Proof. intros (x & e & D & _). exact D. Qed.
Lemma a_line_total t : exists l r n, a_line t l r n.
Proof. destruct (take_norm (mkspan t 1 1 0)) as (l & r & n & H & _). eauto. Qed.
Lemma take_norm_eq s l r n : a_line (sp_data s) l r n -> take_normalized_line s = Ok (mkmi (with_data s n) (skip s l r)).
Proof.
  intros H. destruct (take_norm s) as (l' & r' & n' & H' & ->). destruct (a_line_unique _ _ _ _ _ _ _ H H') as (-> & -> & ->). reflexivity.
Qed.
Lemma a_line_nonempty t l r n : a_line t l r n -> t <> [] -> l <> [].
Proof.
  intros (x & e & D & -> & _ & He & _) Ht E. apply app_eq_nil in E. destruct E as [-> ->]. destruct He as [He|[_ ->]]; [discriminate|].
  apply Ht. exact D.
Qed.
Lemma a_line_shorter t l r n : a_line t l r n -> t <> [] -> length r < length t.
Proof.
  intros H Ht. pose proof (a_line_nonempty _ _ _ _ H Ht). rewrite (a_line_app _ _ _ _ H), app_length. destruct l; [contradiction|cbn; lia].
Qed.
Lemma a_line_prefix t l r n : a_line t l r n -> exists w, l = n ++ w.
Proof. intros (x & e & D & -> & _ & _ & Ht). destruct (trimmed_prefix _ _ Ht) as (w & ->). exists (w ++ e). rewrite <- app_assoc. reflexivity. Qed.
Lemma a_line_no_lf t l r n : a_line t l r n -> ~ In LF n.
Proof. intros (x & e & D & -> & Hx & _ & Ht) H. destruct (trimmed_prefix _ _ Ht) as (w & ->). apply Hx. apply in_or_app. auto. Qed.
Lemma take_non_empty s : 
  (exists l r n, a_line (sp_data s) l r n /\ n <> [] /\ sp_data s <> [] /\ take_non_empty_line s = Ok (Some (mkmi (with_data s n) (skip s l r)))) \/
  ((sp_data s = [] \/ exists l r, a_line (sp_data s) l r []) /\ take_non_empty_line s = Ok None).
Proof.
  rewrite take_non_empty_line_ok. destruct (take_norm s) as (l & r & n & H & E). rewrite take_normalized_line_ok in E. apply Ok_inj in E.
  unfold p_take_non_empty_line. destruct (sp_data s) as [|c t] eqn:D; [right; auto|]. rewrite E. cbn [mi_item mi_after sp_data with_data].
  destruct (N.eqb_spec c LF) as [->|Hc].
  - right. split; [|reflexivity]. right. exists [LF], t. exists [], [LF]. repeat split; auto; [left; reflexivity|].
    exists [], []. repeat split; [right; split; [reflexivity|intros x; destruct x; discriminate]|intros ? []|intros y; destruct y; discriminate].
  - destruct n as [|d n].
    + right. split; [eauto|reflexivity].
    + left. exists l, r, (d :: n). repeat split; [exact H|discriminate|discriminate].
Qed.

(** * Delimiters *)
Lemma forallb_repeat c r : forallb (N.eqb c) r = true -> exists k, r = repeat c k.
Proof.
  induction r as [|x r IH]; [exists 0; reflexivity|]. cbn [forallb]. intros H. apply andb_true_iff in H. destruct H as [H1 H2].
  apply N.eqb_eq in H1. subst x. destruct (IH H2) as (k & ->). exists (S k). reflexivity.
Qed.
Lemma repeat_forallb c k : forallb (N.eqb c) (repeat c k) = true.
Proof. induction k as [|k IH]; [reflexivity|]. cbn. rewrite N.eqb_refl. exact IH. Qed.
Lemma repeated_eq c t : repeated c t <-> exists k, t = [c; c; c; c] ++ repeat c k.
Proof.
  split.
  - intros (n & Hn & ->). exists (n - 4). replace n with (4 + (n - 4)) at 1 by lia. reflexivity.
  - intros (k & ->). exists (4 + k). split; [lia|reflexivity].
Qed.
Lemma delim_case c p r : p = [c; c; c; c] -> clen c = 1 -> exists b, rest_is c (p ++ r) = Ok b /\ (b = true <-> repeated c (p ++ r)).
Proof.
  intros -> Hc. unfold rest_is, str_from. assert (H4 : blen [c; c; c; c] = 4) by (cbn; rewrite Hc; reflexivity).
  pose proof (bsplit_app [c; c; c; c] r) as B. rewrite H4 in B. rewrite B. cbn [bind of_option]. eexists. split; [reflexivity|]. rewrite repeated_eq. split.
  - intros H. destruct (forallb_repeat _ _ H) as (k & ->). exists k. reflexivity.
  - intros (k & E). apply app_inv_head in E. subst r. apply repeat_forallb.
Qed.
Lemma repeated_starts c p t : p = [c; c; c; c] -> repeated c t -> starts_with p t = true.
Proof. intros -> H. apply repeated_eq in H. destruct H as (k & ->). apply starts_with_spec. eauto. Qed.
Lemma starts_false p t : starts_with p t = false -> forall r, t <> p ++ r.
Proof. intros H r ->. assert (K : starts_with p (p ++ r) = true) by (apply starts_with_spec; eauto). congruence. Qed.
Lemma repeated_char c d t : repeated c t -> repeated d t -> c = d.
Proof. intros H H'. apply repeated_eq in H. apply repeated_eq in H'. destruct H as (k & ->). destruct H' as (k' & E). injection E. auto. Qed.
Lemma repeated_long c t : repeated c t -> 4 <= blen t.
Proof. intros H. apply repeated_eq in H. destruct H as (k & ->). rewrite blen_app. cbn [blen]. pose proof (clen_pos c). lia. Qed.
Lemma raw_delimiter_b t : exists b, raw_is_valid_delimiter t = Ok b /\ (b = true <-> raw_delimiter t).
Proof.
  unfold raw_is_valid_delimiter. destruct (Nat.leb_spec 4 (blen t)) as [H4|H4].
  2:{ exists false. split; [reflexivity|]. split; [discriminate|]. intros (c & _ & H). apply repeated_long in H. lia. }
  assert (step : forall c p, p = [c; c; c; c] -> clen c = 1 -> In c (lit "/-.+") -> starts_with p t = true -> exists b, rest_is c t = Ok b /\ (b = true <-> raw_delimiter t)).
  { intros c p Hp Hc Hin Hs. apply starts_with_spec in Hs. destruct Hs as (r & ->). destruct (delim_case c p r Hp Hc) as (b & E & Hb). exists b. split; [exact E|].
    rewrite Hb. split; [intros H; exists c; auto|]. intros (d & _ & Hd). subst p. assert (d = c) as -> by (apply repeated_eq in Hd; destruct Hd as (k & Ek); injection Ek; congruence). exact Hd. }
  destruct (starts_with (lit "////") t) eqn:E1; [apply (step 47%N (lit "////")); auto; cbn; auto|].
  destruct (starts_with (lit "----") t) eqn:E2; [apply (step 45%N (lit "----")); auto; cbn; auto|].
  destruct (starts_with (lit "....") t) eqn:E3; [apply (step 46%N (lit "....")); auto; cbn; auto|].
  destruct (starts_with (lit "++++") t) eqn:E4; [apply (step 43%N (lit "++++")); auto; cbn; auto|].
  exists false. split; [reflexivity|]. split; [discriminate|]. intros (c & Hin & H). exfalso. cbn in Hin.
  destruct Hin as [<-|[<-|[<-|[<-|[]]]]];
  [pose proof (repeated_starts _ (lit "////") _ eq_refl H)|pose proof (repeated_starts _ (lit "----") _ eq_refl H)
  |pose proof (repeated_starts _ (lit "....") _ eq_refl H)|pose proof (repeated_starts _ (lit "++++") _ eq_refl H)]; congruence.
Qed.
Lemma compound_delimiter_b t : exists b, compound_is_valid_delimiter t = Ok b /\ (b = true <-> compound_delimiter t).
Proof.
  unfold compound_is_valid_delimiter. destruct (text_eqb_spec t (lit "--")) as [->|Hn].
  { exists true. split; [reflexivity|]. split; [left; reflexivity|reflexivity]. }
  destruct (Nat.leb_spec 4 (blen t)) as [H4|H4].
  2:{ exists false. split; [reflexivity|]. split; [discriminate|]. intros [H|(c & _ & H)]; [contradiction|]. apply repeated_long in H. lia. }
  assert (step : forall c p, p = [c; c; c; c] -> clen c = 1 -> In c (lit "=*_") -> starts_with p t = true -> exists b, rest_is c t = Ok b /\ (b = true <-> compound_delimiter t)).
  { intros c p Hp Hc Hin Hs. apply starts_with_spec in Hs. destruct Hs as (r & ->). destruct (delim_case c p r Hp Hc) as (b & E & Hb). exists b. split; [exact E|].
    rewrite Hb. split; [intros H; right; exists c; auto|]. intros [H|(d & _ & Hd)]; [contradiction|]. subst p. assert (d = c) as -> by (apply repeated_eq in Hd; destruct Hd as (k & Ek); injection Ek; congruence). exact Hd. }
  destruct (starts_with (lit "====") t) eqn:E1; [apply (step 61%N (lit "====")); auto; cbn; auto|].
  destruct (starts_with (lit "****") t) eqn:E2; [apply (step 42%N (lit "****")); auto; cbn; auto|].
  destruct (starts_with (lit "____") t) eqn:E3; [apply (step 95%N (lit "____")); auto; cbn; auto|].
  exists false. split; [reflexivity|]. split; [discriminate|]. intros [H|(c & Hin & H)]; [contradiction|]. exfalso. cbn in Hin.
  destruct Hin as [<-|[<-|[<-|[]]]];
  [pose proof (repeated_starts _ (lit "====") _ eq_refl H)|pose proof (repeated_starts _ (lit "****") _ eq_refl H)
  |pose proof (repeated_starts _ (lit "____") _ eq_refl H)]; congruence.
Qed.
Lemma raw_not_compound t : raw_delimiter t -> compound_delimiter t -> False.
Proof.
  intros (c & Hc & H) [->|(d & Hd & H')].
  - apply repeated_long in H. cbn in H. lia.
  - pose proof (repeated_char _ _ _ H H') as ->. cbn in Hc, Hd.
    destruct Hc as [<-|[<-|[<-|[<-|[]]]]]; destruct Hd as [Hd|[Hd|[Hd|[]]]]; discriminate Hd.
Qed.

(** * The closing delimiter *)
Lemma find_delimiter_spec d : forall fuel s, length (sp_data s) <= fuel ->
  exists c o, enclosed d (sp_data s) c o /\
  match o with
  | Some r => exists l, sp_data s = c ++ l ++ r /\ a_line (l ++ r) l r d /\ l ++ r <> [] /\
      find_delimiter fuel d s = Ok (skip s c (l ++ r), Some (mkmi (skip s c d) (skip s (c ++ l) r)))
  | None => c = sp_data s /\ find_delimiter fuel d s = Ok (skip s c [], None)
  end.
Proof.
  induction fuel as [|fuel IH]; intros s Hf.
  - destruct (sp_data s) eqn:D; [|cbn in Hf; lia]. exists [], None. split; [constructor|]. split; [reflexivity|]. cbn [find_delimiter]. rewrite D.
    rewrite skip_nil, <- D, with_data_self. reflexivity.
  - cbn [find_delimiter]. destruct (take_norm s) as (l & r & n & H & E). destruct (sp_data s) as [|x t] eqn:D.
    + exists [], None. split; [constructor|]. split; [reflexivity|]. rewrite skip_nil, <- D, with_data_self. reflexivity.
    + rewrite E. cbn [bind mi_item mi_after sp_data with_data]. destruct (text_eqb_spec n d) as [->|Hn].
      * exists [], (Some r). split; [eapply en_here; [discriminate|exact H]|]. exists l. pose proof (a_line_app _ _ _ _ H) as Ha. rewrite Ha in H |- *.
        split; [reflexivity|]. split; [exact H|]. split; [rewrite <- Ha; discriminate|]. rewrite !skip_nil. rewrite <- Ha, <- D, with_data_self. cbn [app]. reflexivity.
      * assert (Hlen : length (sp_data (skip s l r)) <= fuel).
        { rewrite sp_data_skip. pose proof (a_line_shorter _ _ _ _ H). assert (length r < length (x :: t)) by (apply H0; discriminate). cbn [length] in *. lia. }
        destruct (IH (skip s l r) Hlen) as (c & o & He & Ho). rewrite sp_data_skip in He, Ho. exists (l ++ c), o. split; [eapply en_more; eauto; discriminate|].
        pose proof (a_line_app _ _ _ _ H) as Ha. destruct o as [q|].
        -- destruct Ho as (m & D' & Hm & Hne & ->). exists m. split; [rewrite Ha, D', <- app_assoc; reflexivity|]. split; [exact Hm|]. split; [exact Hne|].
           rewrite !skip_skip, <- app_assoc. reflexivity.
        -- destruct Ho as (-> & ->). split; [congruence|]. rewrite !skip_skip. reflexivity.
Qed.
Lemma enclosed_unique d t c o : enclosed d t c o -> forall c' o', enclosed d t c' o' -> c = c' /\ o = o'.
Proof.
  induction 1 as [|t l r Ht Hl|t l r n c o Ht Hl Hn He IH]; intros c' o' H'; inversion H' as [Ea|? l' r' Ht' Hl'|? l' r' n' c2 o2 Ht' Hl' Hn' He']; subst; try contradiction; auto.
  - destruct (a_line_unique _ _ _ _ _ _ _ Hl Hl') as (_ & -> & _). auto.
  - destruct (a_line_unique _ _ _ _ _ _ _ Hl Hl') as (_ & _ & E). congruence.
  - destruct (a_line_unique _ _ _ _ _ _ _ Hl Hl') as (_ & _ & E). congruence.
  - destruct (a_line_unique _ _ _ _ _ _ _ Hl Hl') as (-> & -> & _). destruct (IH _ _ He') as (-> & ->). auto.
Qed.

(** * Cutting a span where another begins *)
Lemma trim_remainder_off s a a' : sp_off a = sp_off a' -> trim_remainder s a = trim_remainder s a'.
Proof. unfold trim_remainder. intros ->. reflexivity. Qed.
Lemma trim_to s c x a : sp_data s = c ++ x -> sp_off a = sp_off s + blen c -> trim_remainder s a = Ok (with_data s c).
Proof.
  intros D H. rewrite (trim_remainder_off s a (skip s c x)) by (rewrite sp_off_skip; exact H).
  rewrite trim_remainder_ok by (apply Suffix_intro; exact D). unfold p_trim_remainder. rewrite sp_data_skip, D, app_length.
  replace (length c + length x - length x) with (length c) by lia. rewrite firstn_app, Nat.sub_diag, firstn_all. cbn [firstn]. rewrite app_nil_r. reflexivity.
Qed.
Lemma trim_line_end s : exists x, without_eol (sp_data s) x /\ trim_trailing_line_end s = Ok (with_data s x).
Proof.
  rewrite trim_trailing_line_end_ok. unfold p_trim_trailing_line_end. destruct (rev_cons_inv (sp_data s)) as [E|(a & c & E)]; rewrite E.
  - exists []. split; [right; split; [reflexivity|intros y; destruct y; discriminate]|]. cbn [rev]. rewrite <- (with_data_self s) at 1. rewrite E. reflexivity.
  - rewrite rev_app_distr. cbn [rev app]. rewrite rev_involutive. destruct (N.eqb_spec c LF) as [->|H].
    + exists (strip_cr a). split; [|reflexivity]. left. exists a. split; [reflexivity|apply strip_cr_minus].
    + exists (a ++ [c]). split; [|rewrite <- E, with_data_self; reflexivity]. right. split; [reflexivity|]. intros y Hy. apply app_last_eq in Hy. destruct Hy. contradiction.
Qed.
Lemma minus_cr_unique l x y : minus_cr l x -> minus_cr l y -> x = y.
Proof.
  intros [H|[H Hn]] [H'|[H' Hn']].
  - rewrite H in H'. apply app_last_eq in H'. apply H'.
  - exfalso. exact (Hn' _ H).
  - exfalso. exact (Hn _ H').
  - congruence.
Qed.
Lemma without_eol_unique c x y : without_eol c x -> without_eol c y -> x = y.
Proof.
  intros [(a & H & Ha)|[H Hn]] [(b & H' & Hb)|[H' Hn']].
  - rewrite H in H'. apply app_last_eq in H'. destruct H' as [-> _]. exact (minus_cr_unique _ _ _ Ha Hb).
  - exfalso. exact (Hn' _ H).
  - exfalso. exact (Hn _ H').
  - congruence.
Qed.
Lemma trim_line_end_eq s x : without_eol (sp_data s) x -> trim_trailing_line_end s = Ok (with_data s x).
Proof. intros H. destruct (trim_line_end s) as (y & Hy & ->). rewrite (without_eol_unique _ _ _ H Hy). reflexivity. Qed.
Lemma without_eol_prefix c x : without_eol c x -> exists w, c = x ++ w.
Proof.
  intros [(a & -> & Ha)|[-> _]]; [|exists []; rewrite app_nil_r; reflexivity]. destruct Ha as [->|[-> _]]; [exists [CR; LF]; rewrite <- app_assoc; reflexivity|eauto].
Qed.
Lemma trim_ws s : exists w, sp_data s = trim_end (sp_data s) ++ w /\ trim_trailing_whitespace s = Ok (with_data s (trim_end (sp_data s))).
Proof. rewrite trim_trailing_whitespace_ok. destruct (trim_end_by_app is_ws (sp_data s)) as (w & H & _). exists w. split; [exact H|reflexivity]. Qed.

(** * Raw delimited blocks *)
(** What a raw delimiter opens. *)
Definition kind_of (d : text) : content_model * (text * group) :=
  match d with
  | 47%N :: _ => (CmRaw, (lit "comment", GNone))
  | 45%N :: _ => (CmVerbatim, (lit "listing", GVerbatim))
  | 46%N :: _ => (CmVerbatim, (lit "literal", GVerbatim))
  | _ => (CmRaw, (lit "pass", GPass))
  end.
Lemma raw_kind_delim d : raw_delimiter d -> raw_kind d = Some (kind_of d).
Proof.
  intros (c & Hc & H). apply repeated_eq in H. destruct H as (k & ->). cbn in Hc. destruct Hc as [<-|[<-|[<-|[<-|[]]]]]; reflexivity.
Qed.
Lemma raw_parse_none E m P l r d : a_line (sp_data (md_start m)) l r d -> ~ raw_delimiter d -> raw_parse E m P = Ok None.
Proof.
  intros H Hd. unfold raw_parse. rewrite (take_norm_eq _ _ _ _ H). cbn [bind mi_item sp_data with_data]. destruct (blen d <? 4); [reflexivity|].
  destruct (raw_kind d) as [[model [context g]]|]; [|reflexivity]. destruct (raw_delimiter_b d) as (b & -> & Hb). cbn [bind].
  destruct b; [exfalso; apply Hd, Hb; reflexivity|reflexivity].
Qed.
Lemma raw_parse_found E m P l r d c r' x g t : a_line (sp_data (md_start m)) l r d -> raw_delimiter d -> enclosed d r c (Some r') -> without_eol c x ->
  override_via_attrlist (snd (snd (kind_of d))) (md_attrlist m) = Ok g -> apply_subs E P g (md_attrlist m) x = Ok t ->
  Suffix (md_source m) (md_start m) ->
  exists src k, sp_data (md_start m) = l ++ c ++ k ++ r' /\ Sub (md_source m) src /\ sp_off src = sp_off (md_source m) /\
  without_eol (firstn (length (sp_data (md_source m)) - length r') (sp_data (md_source m))) (sp_data src) /\
  raw_parse E m P = Ok (Some (mkmi (BRaw (mkct (skip (md_start m) l x) t) (fst (kind_of d)) (fst (snd (kind_of d))) src (common_of m) g)
                                   (skip (md_start m) (l ++ c ++ k) r'), [])).
Proof.
  intros H Hd He Hx Hg Ht HS. unfold raw_parse. rewrite (take_norm_eq _ _ _ _ H). cbn [bind mi_item mi_after sp_data with_data].
  destruct (raw_delimiter_b d) as (b & Eb & Hb). assert (b = true) as -> by (apply Hb; exact Hd).
  assert (H4 : (blen d <? 4) = false) by (apply Nat.ltb_ge; destruct Hd as (q & _ & Hq); exact (repeated_long _ _ Hq)). rewrite H4.
  rewrite (raw_kind_delim d Hd). destruct (kind_of d) as [model [context g0]] eqn:Ek. cbn [fst snd] in *. rewrite Eb. cbn [bind negb].
  destruct (find_delimiter_spec d (length (sp_data (skip (md_start m) l r))) (skip (md_start m) l r) (le_n _)) as (c' & o' & He' & Ho).
  rewrite sp_data_skip in He'. destruct (enclosed_unique _ _ _ _ He _ _ He') as (-> & <-). destruct Ho as (k & Dk & Hk & Hne & ->). rewrite sp_data_skip in Dk.
  cbn [bind fst snd]. rewrite (trim_to (skip (md_start m) l r) c' (k ++ r')) by (rewrite ?sp_data_skip, ?sp_off_skip; auto). cbn [bind].
  rewrite (trim_line_end_eq (with_data (skip (md_start m) l r) c') x Hx). cbn [bind]. rewrite Hg. cbn [bind sp_data with_data]. rewrite Ht. cbn [bind].
  pose proof (a_line_app _ _ _ _ H) as Ha. destruct HS as (pre & Dp & Es).
  assert (Dsrc : sp_data (md_source m) = (pre ++ l ++ c' ++ k) ++ r') by (rewrite Dp, Ha, Dk, <- !app_assoc; reflexivity).
  rewrite (trim_to (md_source m) (pre ++ l ++ c' ++ k) r') by (try exact Dsrc; cbn [mi_after]; rewrite !sp_off_skip, Es, sp_off_skip, !blen_app; lia).
  cbn [bind]. destruct (trim_line_end (with_data (md_source m) (pre ++ l ++ c' ++ k))) as (y & Hy & ->). cbn [bind sp_data with_data] in *.
  exists (with_data (md_source m) y), k. split; [rewrite Ha, Dk; reflexivity|]. split.
  { destruct (without_eol_prefix _ _ Hy) as (w & Ew). exists [], (w ++ r'). cbn [app sp_data with_data]. rewrite skip_nil. split; [rewrite Dsrc, Ew, <- app_assoc; reflexivity|reflexivity]. }
  split; [reflexivity|]. split.
  { rewrite Dsrc at 1 2. rewrite app_length. replace (length (pre ++ l ++ c' ++ k) + length r' - length r') with (length (pre ++ l ++ c' ++ k)) by lia.
    rewrite firstn_app, Nat.sub_diag, firstn_all. cbn [firstn]. rewrite app_nil_r. exact Hy. }
  rewrite !skip_skip, with_data_with_data, with_data_skip. reflexivity.
Qed.
Lemma raw_parse_open E m P l r d c x : a_line (sp_data (md_start m)) l r d -> raw_delimiter d -> enclosed d r c None -> without_eol c x ->
  Suffix (md_source m) (md_start m) ->
  exists src, c = r /\ Sub (md_source m) src /\ sp_off src = sp_off (md_source m) /\ without_eol (sp_data (md_source m)) (sp_data src) /\
  raw_parse E m P = Ok (Some (mkmi (BRaw (mkct (skip (md_start m) l x) x) (fst (kind_of d)) (fst (snd (kind_of d))) src (common_of m) (snd (snd (kind_of d))))
                                   (skip (md_start m) (l ++ r) []), [mkwarn (with_data (md_start m) d) WUnterminatedDelimitedBlock])).
Proof.
  intros H Hd He Hx HS. unfold raw_parse. rewrite (take_norm_eq _ _ _ _ H). cbn [bind mi_item mi_after sp_data with_data].
  destruct (raw_delimiter_b d) as (b & Eb & Hb). assert (b = true) as -> by (apply Hb; exact Hd).
  assert (H4 : (blen d <? 4) = false) by (apply Nat.ltb_ge; destruct Hd as (q & _ & Hq); exact (repeated_long _ _ Hq)). rewrite H4.
  rewrite (raw_kind_delim d Hd). destruct (kind_of d) as [model [context g0]] eqn:Ek. cbn [fst snd] in *. rewrite Eb. cbn [bind negb].
  destruct (find_delimiter_spec d (length (sp_data (skip (md_start m) l r))) (skip (md_start m) l r) (le_n _)) as (c' & o' & He' & Ho).
  rewrite sp_data_skip in He'. destruct (enclosed_unique _ _ _ _ He _ _ He') as (-> & <-). destruct Ho as (Ec & ->). rewrite sp_data_skip in Ec. subst c'.
  cbn [bind fst snd]. rewrite (trim_to (skip (md_start m) l r) r []) by (rewrite ?sp_data_skip, ?sp_off_skip, ?app_nil_r; auto). cbn [bind].
  rewrite (trim_line_end_eq (with_data (skip (md_start m) l r) r) x Hx). cbn [bind].
  pose proof (a_line_app _ _ _ _ H) as Ha. destruct HS as (pre & Dp & Es).
  assert (Dsrc : sp_data (md_source m) = pre ++ l ++ r) by (rewrite Dp, Ha; reflexivity).
  rewrite (trim_to (md_source m) (pre ++ l ++ r) []) by (try (rewrite app_nil_r; exact Dsrc); rewrite !sp_off_skip, Es, sp_off_skip, !blen_app; lia).
  cbn [bind]. destruct (trim_line_end (with_data (md_source m) (pre ++ l ++ r))) as (y & Hy & ->). cbn [bind sp_data with_data] in *.
  exists (with_data (md_source m) y). split; [reflexivity|]. split.
  { destruct (without_eol_prefix _ _ Hy) as (w & Ew). exists [], w. cbn [app sp_data with_data]. rewrite skip_nil. split; [rewrite Dsrc; exact Ew|reflexivity]. }
  split; [reflexivity|]. split; [rewrite Dsrc; exact Hy|].
  rewrite !skip_skip, with_data_with_data, with_data_skip. reflexivity.
Qed.

(** * Compound delimited blocks *)
Definition context_of (d : text) : text :=
  match d with
  | 61%N :: _ => lit "example"
  | 45%N :: _ => lit "open"
  | 42%N :: _ => lit "sidebar"
  | _ => lit "quote"
  end.
Lemma compound_context_delim d : compound_delimiter d -> compound_context d = Some (context_of d).
Proof.
  intros [->|(c & Hc & H)]; [reflexivity|]. unfold compound_context. rewrite Nat.min_r by exact (repeated_long _ _ H).
  apply repeated_eq in H. destruct H as (k & ->). assert (B : clen c = 1 -> bsplit 4 ([c; c; c; c] ++ repeat c k) = Some ([c; c; c; c], repeat c k)).
  { intros E. rewrite <- (bsplit_app [c; c; c; c] (repeat c k)). f_equal. cbn. rewrite E. reflexivity. }
  cbn in Hc. destruct Hc as [<-|[<-|[<-|[]]]]; rewrite B by reflexivity; reflexivity.
Qed.
Lemma compound_parse_none until m P l r d : a_line (sp_data (md_start m)) l r d -> ~ compound_delimiter d -> compound_parse until m P = Ok None.
Proof.
  intros H Hd. unfold compound_parse. rewrite (take_norm_eq _ _ _ _ H). cbn [bind mi_item sp_data with_data].
  destruct (compound_context d) as [context|]; [|reflexivity]. destruct (compound_delimiter_b d) as (b & -> & Hb). cbn [bind].
  destruct b; [exfalso; apply Hd, Hb; reflexivity|reflexivity].
Qed.
Lemma compound_delim_cons d : compound_delimiter d -> exists x y, d = x ++ [y] /\ is_ws y = false.
Proof.
  intros [->|(c & Hc & (n & Hn & ->))]; [exists [45%N], 45%N; auto|]. exists (repeat c (n - 1)), c. split.
  - replace n with (n - 1 + 1) at 1 by lia. rewrite repeat_app. reflexivity.
  - cbn in Hc. destruct Hc as [<-|[<-|[<-|[]]]]; reflexivity.
Qed.
Lemma compound_parse_found until m P l r d c r' b : a_line (sp_data (md_start m)) l r d -> compound_delimiter d -> enclosed d r c (Some r') ->
  Suffix (md_source m) (md_start m) -> until (skip (md_start m) l c) P = Ok b ->
  exists k w pre, sp_data (md_start m) = l ++ c ++ k ++ r' /\ k = d ++ w /\ sp_data (md_source m) = pre ++ l ++ c ++ k ++ r' /\
  compound_parse until m P = Ok (Some (mkmi (BCompound (br_blocks b) (context_of d) (with_data (md_source m) (pre ++ l ++ c ++ d)) (common_of m))
                                            (skip (md_start m) (l ++ c ++ k) r'), (br_warnings b, br_parser b))).
Proof.
  intros H Hd He HS Hu. unfold compound_parse. rewrite (take_norm_eq _ _ _ _ H). cbn [bind mi_item mi_after sp_data with_data].
  destruct (compound_delimiter_b d) as (v & Eb & Hb). assert (v = true) as -> by (apply Hb; exact Hd).
  rewrite (compound_context_delim d Hd), Eb. cbn [bind negb].
  destruct (find_delimiter_spec d (length (sp_data (skip (md_start m) l r))) (skip (md_start m) l r) (le_n _)) as (c' & o' & He' & Ho).
  rewrite sp_data_skip in He'. destruct (enclosed_unique _ _ _ _ He _ _ He') as (-> & <-). destruct Ho as (k & Dk & Hk & Hne & ->). rewrite sp_data_skip in Dk.
  cbn [bind fst snd mi_item mi_after]. rewrite (trim_to (skip (md_start m) l r) c' (k ++ r')) by (rewrite ?sp_data_skip, ?sp_off_skip; auto). cbn [bind].
  rewrite with_data_skip, Hu. cbn [bind]. rewrite discard_all_ok. cbn [bind].
  pose proof (a_line_app _ _ _ _ H) as Ha. destruct HS as (pre & Dp & Es). destruct (a_line_prefix _ _ _ _ Hk) as (w & ->).
  assert (Dsrc : sp_data (md_source m) = (pre ++ l ++ c' ++ d) ++ w ++ r') by (rewrite Dp, Ha, Dk, <- !app_assoc; reflexivity).
  rewrite (trim_to (md_source m) (pre ++ l ++ c' ++ d) (w ++ r')) by (try exact Dsrc; unfold p_discard_all; rewrite !sp_off_skip, Es, !sp_off_skip, !sp_data_skip, !blen_app; lia).
  cbn [bind]. rewrite trim_trailing_whitespace_ok. cbn [bind]. unfold p_trim_trailing_whitespace. cbn [sp_data with_data].
  destruct (compound_delim_cons d Hd) as (dx & dy & Ed & Hdy).
  assert (Et : trim_end (pre ++ l ++ c' ++ d) = pre ++ l ++ c' ++ d).
  { apply trim_end_by_id. intros b0 c0 E0. rewrite Ed, !app_assoc in E0. apply app_last_eq in E0. destruct E0 as [_ <-]. exact Hdy. }
  rewrite Et, with_data_with_data. exists (d ++ w), w, pre. split; [rewrite Ha, Dk; reflexivity|]. split; [reflexivity|]. split; [rewrite Dsrc, <- !app_assoc; reflexivity|].
  rewrite !skip_skip, sp_data_skip. assert (En : is_nil d = false) by (rewrite Ed; destruct dx; reflexivity). rewrite En. reflexivity.
Qed.
Lemma compound_parse_open until m P l r d c b : a_line (sp_data (md_start m)) l r d -> compound_delimiter d -> enclosed d r c None ->
  Suffix (md_source m) (md_start m) -> until (skip (md_start m) l r) P = Ok b ->
  c = r /\ compound_parse until m P = Ok (Some (mkmi (BCompound (br_blocks b) (context_of d) (with_data (md_source m) (trim_end (sp_data (md_source m)))) (common_of m))
                                            (skip (md_start m) (l ++ r) []), (mkwarn (with_data (md_start m) d) WUnterminatedDelimitedBlock :: br_warnings b, br_parser b))).
Proof.
  intros H Hd He HS Hu. unfold compound_parse. rewrite (take_norm_eq _ _ _ _ H). cbn [bind mi_item mi_after sp_data with_data].
  destruct (compound_delimiter_b d) as (v & Eb & Hb). assert (v = true) as -> by (apply Hb; exact Hd).
  rewrite (compound_context_delim d Hd), Eb. cbn [bind negb].
  destruct (find_delimiter_spec d (length (sp_data (skip (md_start m) l r))) (skip (md_start m) l r) (le_n _)) as (c' & o' & He' & Ho).
  rewrite sp_data_skip in He'. destruct (enclosed_unique _ _ _ _ He _ _ He') as (-> & <-). destruct Ho as (Ec & ->). rewrite sp_data_skip in Ec. subst c'.
  cbn [bind fst snd mi_item mi_after]. rewrite (trim_to (skip (md_start m) l r) r []) by (rewrite ?sp_data_skip, ?sp_off_skip, ?app_nil_r; auto). cbn [bind].
  rewrite with_data_skip, Hu. cbn [bind]. rewrite discard_all_ok. cbn [bind].
  pose proof (a_line_app _ _ _ _ H) as Ha. destruct HS as (pre & Dp & Es).
  assert (Dsrc : sp_data (md_source m) = pre ++ l ++ r) by (rewrite Dp, Ha; reflexivity).
  rewrite (trim_to (md_source m) (pre ++ l ++ r) []) by (try (rewrite app_nil_r; exact Dsrc); unfold p_discard_all; rewrite !sp_off_skip, Es, !sp_off_skip, !sp_data_skip, !blen_app; cbn; lia).
  cbn [bind]. rewrite trim_trailing_whitespace_ok. cbn [bind]. unfold p_trim_trailing_whitespace. cbn [sp_data with_data].
  rewrite <- Dsrc, with_data_with_data. split; [reflexivity|]. rewrite !skip_skip, sp_data_skip. reflexivity.
Qed.

(** * Paragraphs *)
Lemma boundary_b n : exists b, is_stop_line n = Ok b /\ (b = true <-> boundary_line n).
Proof.
  unfold is_stop_line. destruct (text_eqb_spec n (lit "+")) as [->|Hp]; [exists true; split; [reflexivity|]; split; [left; reflexivity|reflexivity]|].
  destruct (starts_with (lit "[") n && ends_with (lit "]") n) eqn:Eb.
  { apply andb_true_iff in Eb. destruct Eb as [E1 E2]. apply starts_with_spec in E1. apply ends_with_spec in E2. destruct E1 as (u & ->). destruct E2 as (v & Ev).
    exists true. split; [reflexivity|]. split; [intros _|reflexivity]. right. left. destruct v as [|q v]; [discriminate Ev|]. injection Ev as _ ->. exists v. reflexivity. }
  assert (Hb : ~ (exists x, n = lit "[" ++ x ++ lit "]")).
  { intros (x & ->). rewrite (proj2 (starts_with_spec (lit "[") _)) in Eb by eauto. rewrite (proj2 (ends_with_spec (lit "]") _)) in Eb by (exists (lit "[" ++ x); rewrite <- app_assoc; reflexivity). discriminate. }
  destruct (raw_delimiter_b n) as (b1 & E1 & H1). destruct (compound_delimiter_b n) as (b2 & E2 & H2).
  destruct (starts_with_any (lit "/-.+=*_") n) eqn:Es.
  - rewrite E1. cbn [bind]. destruct b1.
    + exists true. split; [reflexivity|]. split; [intros _|reflexivity]. right. right. left. apply H1. reflexivity.
    + exists b2. split; [exact E2|]. rewrite H2. unfold boundary_line. split; [auto|]. intros [H|[H|[H|H]]]; [contradiction|contradiction| |exact H]. apply H1 in H. discriminate.
  - exists false. split; [reflexivity|]. split; [discriminate|]. intros H. exfalso.
    assert (K : forall c, In c (lit "/-.+=*_") -> repeated c n -> False).
    { intros c Hc Hr. apply repeated_eq in Hr. destruct Hr as (k & ->). cbn [starts_with_any app] in Es. apply has_char_false in Es. contradiction. }
    destruct H as [H|[H|[(c & Hc & H)|[H|(c & Hc & H)]]]]; [contradiction|contradiction| | |].
    + apply (K c); [|exact H]. cbn in *. tauto.
    + subst n. discriminate Es.
    + apply (K c); [|exact H]. cbn in *. tauto.
Qed.
Lemma comment_b n : is_comment_line n = true <-> a_comment n.
Proof. apply a_comment_b. Qed.
Lemma not_sp_tab_b c : is_sp_tab c = false <-> ~ sp_tab c.
Proof. unfold sp_tab. rewrite <- is_sp_tab_spec. destruct (is_sp_tab c); split; auto; try discriminate. intros H. exfalso. apply H. reflexivity. Qed.
Lemma sp_tab_all w : Forall (fun c => is_sp_tab c = true) w <-> Forall sp_tab w.
Proof. split; apply Forall_impl; intros c; apply is_sp_tab_spec. Qed.
Lemma blen_sp_tab w : Forall sp_tab w -> blen w = length w.
Proof. induction 1 as [|c w H _ IH]; [reflexivity|]. cbn. rewrite IH. destruct H as [->| ->]; reflexivity. Qed.
Lemma ws_sp_tab c : sp_tab c -> is_ws c = true.
Proof. intros [->| ->]; reflexivity. Qed.
Lemma trim_end_spec u : exists z, u = trim_end u ++ z /\ blank z /\ forall r c, trim_end u = r ++ [c] -> is_ws c = false.
Proof. destruct (trim_end_by_app is_ws u) as (z & Hz & Fz & Lz). exists z. repeat split; auto. Qed.
Lemma trim_end_blank u : blank u -> trim_end u = [].
Proof. intros H. change u with ([] ++ u). apply trim_end_by_unique; [exact H|]. intros b c E. destruct b; discriminate E. Qed.
Lemma kept_spec k s : exists y, kept_line k s = Ok y /\ unindented k (sp_data s) y.
Proof.
  unfold kept_line. rewrite (position_spec (fun c => negb (is_sp_tab c)) (sp_data s)).
  rewrite (span_while_negneg is_sp_tab (sp_data s)).
  pose proof (span_while_app is_sp_tab (sp_data s)) as D. pose proof (span_while_all is_sp_tab (sp_data s)) as Fa. pose proof (span_while_stop is_sp_tab (sp_data s)) as Fb.
  destruct (span_while is_sp_tab (sp_data s)) as [a b]. cbn [fst snd] in *. apply sp_tab_all in Fa.
  assert (plain : (k = 0 \/ b = []) -> exists y, (l <- trim_trailing_whitespace s ;; Ok (sp_data l)) = Ok y /\ unindented k (sp_data s) y).
  { intros Hk. rewrite trim_trailing_whitespace_ok. cbn [bind]. exists (trim_end (sp_data s)). split; [reflexivity|].
    destruct (trim_end_spec (sp_data s)) as (z & Hz & Bz & Lz). exists [], z. split; [exact Hz|]. split; [constructor|]. split; [|auto].
    destruct Hk as [->| ->]; [left; reflexivity|]. destruct k as [|k]; [left; reflexivity|]. right. split; [cbn; lia|].
    rewrite app_nil_r in D. rewrite <- D. rewrite trim_end_blank; [discriminate|]. apply Forall_impl with (2 := Fa). apply ws_sp_tab. }
  destruct (Nat.ltb_spec 0 k) as [Hk|Hk]; [|apply plain; left; lia].
  destruct b as [|x b]; [apply plain; auto|]. cbn [bind].
  rewrite (blen_sp_tab a Fa).
  assert (Hsplit : sp_data s = firstn k a ++ (skipn k a ++ x :: b)) by (rewrite app_assoc, firstn_skipn; symmetry; exact D).
  assert (Fw : Forall sp_tab (firstn k a)) by (apply Forall_forall; intros c Hc; rewrite Forall_forall in Fa; apply Fa; rewrite <- (firstn_skipn k a); apply in_or_app; auto).
  replace (Nat.min (length a) k) with (blen (firstn k a)) by (rewrite (blen_sp_tab _ Fw), firstn_length; lia).
  rewrite (ipr_ok s _ _ Hsplit). cbn [bind mi_after psplit]. rewrite trim_trailing_whitespace_ok. cbn [bind]. unfold p_trim_trailing_whitespace. cbn [sp_data with_data].
  rewrite sp_data_skip. destruct (trim_end_spec (skipn k a ++ x :: b)) as (z & Hz & Bz & Lz). eexists. split; [reflexivity|].
  exists (firstn k a), z. split; [rewrite <- Hz; exact Hsplit|]. split; [exact Fw|]. split; [|auto].
  destruct (le_lt_dec k (length a)) as [Hl|Hl]; [left; rewrite firstn_length; lia|right]. rewrite firstn_length. split; [lia|].
  intros c r E. rewrite skipn_all2 in * by lia. cbn [app] in *. rewrite E in Hz. injection Hz as <- _. apply not_sp_tab_b. exact (Fb _ _ eq_refl).
Qed.
Definition started (l : list text) : bool := match l with [] => false | _ => true end.
Lemma started_snoc l x : started (l ++ [x]) = true.
Proof. destruct l; reflexivity. Qed.
Lemma simple_lines_spec k : forall fuel s filtered, length (sp_data s) <= fuel ->
  exists ls pre rest, paragraph k (started filtered) (sp_data s) ls rest /\ sp_data s = pre ++ rest /\
    simple_lines fuel k s filtered = Ok (filtered ++ ls, skip s pre rest).
Proof.
  induction fuel as [|fuel IH]; intros s filtered Hf.
  - assert (D : sp_data s = []) by (destruct (sp_data s); [reflexivity|cbn in Hf; lia]).
    exists [], [], []. rewrite D. split; [constructor; auto|]. split; [reflexivity|]. cbn [simple_lines]. rewrite take_non_empty_line_ok. unfold p_take_non_empty_line. rewrite D.
    cbn [bind]. rewrite app_nil_r, skip_nil, <- D, with_data_self. reflexivity.
  - cbn [simple_lines]. destruct (take_non_empty s) as [(l & r & n & H & Hn & Ht & ->)|(H & ->)]; cbn [bind].
    2:{ exists [], [], (sp_data s). split; [constructor; exact H|]. split; [reflexivity|]. rewrite app_nil_r, skip_nil, with_data_self. reflexivity. }
    cbn [mi_item mi_after sp_data with_data]. pose proof (a_line_app _ _ _ _ H) as Ha. pose proof (a_line_shorter _ _ _ _ H Ht) as Hsh.
    destruct (boundary_b n) as (b & Eb & Hb).
    set (stop := match filtered with [] => Ok false | _ => is_stop_line n end). 
    assert (Es : exists v, stop = Ok v /\ (v = true <-> started filtered = true /\ boundary_line n)).
    { unfold stop. destruct filtered as [|f fs]; [exists false; split; [reflexivity|]; split; [discriminate|intros [H1 _]; discriminate]|].
      exists b. split; [exact Eb|]. rewrite Hb. cbn [started]. split; [auto|tauto]. }
    destruct Es as (v & Es & Hv). rewrite Es. clearbody stop. clear stop Es. cbn [bind]. destruct v.
    + destruct (proj1 Hv eq_refl) as [Hs Hbl]. exists [], [], (sp_data s). rewrite Hs. split; [eapply pg_boundary; eauto|]. split; [reflexivity|]. rewrite app_nil_r, skip_nil, with_data_self. reflexivity.
    + assert (Hnb : started filtered = true -> ~ boundary_line n) by (intros H1 H2; assert (K : false = true) by (apply Hv; auto); discriminate K).
      destruct (is_comment_line n) eqn:Ec.
      * apply comment_b in Ec. destruct (IH (skip s l r) filtered) as (ls & pre & rest & Hp & D & ->); [rewrite sp_data_skip; lia|]. rewrite sp_data_skip in Hp, D.
        exists ls, (l ++ pre), rest. split; [eapply pg_comment; eauto|]. split; [rewrite Ha, D, <- app_assoc; reflexivity|]. rewrite skip_skip. reflexivity.
      * destruct (kept_spec k (with_data s n)) as (y & -> & Hy). cbn [bind sp_data with_data] in *.
        destruct (IH (skip s l r) (filtered ++ [y])) as (ls & pre & rest & Hp & D & ->); [rewrite sp_data_skip; lia|]. rewrite sp_data_skip in Hp, D. rewrite started_snoc in Hp.
        assert (Hc : ~ a_comment n) by (intros Hc; apply comment_b in Hc; congruence).
        exists (y :: ls), (l ++ pre), rest. split; [eapply pg_line; eauto|]. split; [rewrite Ha, D, <- app_assoc; reflexivity|]. rewrite skip_skip, <- app_assoc. reflexivity.
Qed.
Lemma blank_skipn n t : blank t -> blank (skipn n t).
Proof. intros H. rewrite <- (firstn_skipn n t) in H. apply Forall_app in H. apply H. Qed.
Lemma unindented_eq k n y : unindented k n y -> y = trim_end (skipn (Nat.min k (length (fst (span_while is_sp_tab n)))) n).
Proof.
  intros (w & z & D & Fw & Hw & Bz & Ly). apply sp_tab_all in Fw.
  assert (E0 : forall u, u = y ++ z -> y = trim_end u) by (intros u ->; symmetry; apply trim_end_by_unique; [exact Bz|intros b c Eb; exact (Ly _ _ Eb)]).
  pose proof (span_while_app is_sp_tab (y ++ z)) as Dyz.
  assert (Ea : fst (span_while is_sp_tab n) = w ++ fst (span_while is_sp_tab (y ++ z))).
  { rewrite D. clear - Fw. induction w as [|c w IH]; [reflexivity|]. inversion Fw as [|? ? Hc Fw2]; subst. cbn [app span_while]. rewrite Hc.
    destruct (span_while is_sp_tab (w ++ y ++ z)) as [p q] eqn:E. cbn [fst] in *. rewrite (IH Fw2). reflexivity. }
  rewrite Ea, app_length. assert (Hsk : skipn (length w) n = y ++ z) by (rewrite D, skipn_app, skipn_all, Nat.sub_diag; reflexivity).
  destruct Hw as [Hw|[Hw Hy]].
  - rewrite Nat.min_l by lia. rewrite <- Hw. apply E0, Hsk.
  - destruct y as [|c y].
    + cbn [app] in *. symmetry. apply trim_end_blank, blank_skipn. rewrite D. apply Forall_app. split; [|exact Bz].
      apply sp_tab_all in Fw. apply Forall_impl with (2 := Fw). apply ws_sp_tab.
    + assert (Ec : fst (span_while is_sp_tab ((c :: y) ++ z)) = []). { cbn [app span_while]. rewrite (proj2 (not_sp_tab_b c) (Hy _ _ eq_refl)). reflexivity. }
      rewrite Ec. cbn [length]. rewrite Nat.min_r by lia. rewrite Nat.add_0_r. apply E0, Hsk.
Qed.
Lemma unindented_unique k n y y' : unindented k n y -> unindented k n y' -> y = y'.
Proof. intros H H'. rewrite (unindented_eq _ _ _ H), (unindented_eq _ _ _ H'). reflexivity. Qed.
Lemma boundary_not_nil n : boundary_line n -> n <> [].
Proof. intros [->|[(x & ->)|[(c & _ & H)|[->|(c & _ & H)]]]]; try discriminate; apply repeated_eq in H; destruct H as (k & ->); discriminate. Qed.
Lemma comment_not_boundary n : a_comment n -> ~ boundary_line n.
Proof.
  intros (q & -> & Hq) [H|[(x & H)|[(c & _ & H)|[H|(c & Hc & H)]]]]; try discriminate.
  - apply repeated_eq in H. destruct H as (k & H). injection H as <- _ H. apply (Hq (47%N :: repeat 47%N k)). exact H.
  - apply repeated_eq in H. destruct H as (k & H). injection H as <- _ H. cbn in Hc. destruct Hc as [Hc|[Hc|[Hc|[]]]]; discriminate.
Qed.
Lemma comment_not_nil n : a_comment n -> n <> [].
Proof. intros (q & -> & _). discriminate. Qed.
Lemma a_line_nil l r n : a_line [] l r n -> n = [].
Proof. intros H. pose proof (a_line_app _ _ _ _ H) as D. symmetry in D. apply app_eq_nil in D. destruct D as [-> ->]. destruct (a_line_prefix _ _ _ _ H) as (w & E). symmetry in E. apply app_eq_nil in E. apply E. Qed.
Lemma paragraph_unique k b t ls rest : paragraph k b t ls rest -> forall ls' rest', paragraph k b t ls' rest' -> ls = ls' /\ rest = rest'.
Proof.
  assert (nil_line : forall (t l r n : text), (t = [] \/ exists l r, a_line t l r []) -> a_line t l r n -> n = []).
  { intros t0 l r n [->|(l' & r' & H')] H; [exact (a_line_nil _ _ _ H)|]. destruct (a_line_unique _ _ _ _ _ _ _ H H') as (_ & _ & ->). reflexivity. }
  induction 1 as [b t Ht|t l r n H Hb|b t l r n ls rest H Hc Hp IH|b t l r n y ls rest Ht H Hn Hc Hb Hy Hp IH]; intros ls' rest' H';
  inversion H' as [b0 t0 Ht0|t0 l0 r0 n0 H0 Hb0|b0 t0 l0 r0 n0 ls0 rest0 H0 Hc0 Hp0|b0 t0 l0 r0 n0 y0 ls0 rest0 Ht0 H0 Hn0 Hc0 Hb0 Hy0 Hp0]; subst; auto;
  try (exfalso; match goal with K : a_line ?t _ _ ?n, K2 : ?t = [] \/ _ |- _ => pose proof (nil_line _ _ _ _ K2 K) as ->; first [contradiction|apply (boundary_not_nil [] Hb eq_refl)|apply (comment_not_nil [] Hc eq_refl)|apply (boundary_not_nil [] Hb0 eq_refl)|apply (comment_not_nil [] Hc0 eq_refl)] end);
  destruct (a_line_unique _ _ _ _ _ _ _ H H0) as (<- & <- & <-).
  - exfalso. exact (comment_not_boundary _ Hc0 Hb).
  - exfalso. exact (Hb0 eq_refl Hb).
  - exfalso. exact (comment_not_boundary _ Hc Hb0).
  - apply IH, Hp0.
  - contradiction.
  - exfalso. exact (Hb eq_refl Hb0).
  - contradiction.
  - rewrite (unindented_unique _ _ _ _ Hy Hy0). destruct (IH _ _ Hp0) as (-> & ->). auto.
Qed.
Lemma paragraph_app k b t ls rest : paragraph k b t ls rest -> exists pre, t = pre ++ rest.
Proof.
  induction 1 as [b t Ht|t l r n H Hb|b t l r n ls rest H Hc Hp IH|b t l r n y ls rest Ht H Hn Hc Hb Hy Hp IH]; try (exists []; reflexivity);
  destruct IH as (pre & ->); exists (l ++ pre); rewrite (a_line_app _ _ _ _ H), app_assoc; reflexivity.
Qed.

Lemma indented_total t : exists k, indented t k.
Proof.
  pose proof (span_while_app is_sp_tab t) as D. pose proof (span_while_all is_sp_tab t) as Fa. pose proof (span_while_stop is_sp_tab t) as Fb.
  destruct (span_while is_sp_tab t) as [a b]. cbn [fst snd] in *. exists (length a), a, b. split; [auto|]. split; [apply sp_tab_all; exact Fa|]. split; [reflexivity|].
  intros c y E. apply not_sp_tab_b. exact (Fb _ _ E).
Qed.
Lemma indented_while t w x : t = w ++ x -> Forall sp_tab w -> (forall c y, x = c :: y -> ~ sp_tab c) -> span_while is_sp_tab t = (w, x).
Proof.
  intros -> Hw Hx. apply sp_tab_all in Hw. induction w as [|c w IH]; cbn [app].
  - destruct x as [|c x]; [reflexivity|]. cbn [span_while]. rewrite (proj2 (not_sp_tab_b c) (Hx _ _ eq_refl)). reflexivity.
  - inversion Hw as [|? ? Hc Hw2]; subst. cbn [span_while]. rewrite Hc, (IH Hw2). reflexivity.
Qed.
Lemma discard_ws_col s k : indented (sp_data s) k -> exists saw, discard_whitespace s = Ok saw /\ sp_col saw = sp_col s + k.
Proof.
  intros (w & x & D & Fw & Hk & Hx). rewrite discard_whitespace_ok. eexists. split; [reflexivity|].
  unfold p_discard_whitespace, p_take_whitespace, p_take_while. rewrite (indented_while _ _ _ D Fw Hx). cbn [mi_after psplit].
  unfold skip. rewrite slice_internal_eq. 
  assert (Hz : count_lf w = 0). { apply count_lf_0. intros H. rewrite Forall_forall in Fw. destruct (Fw _ H); discriminate. }
  rewrite Hz. cbn. lia.
Qed.
Lemma parse_lines_some E s a P k bs ls pre rest g t : sp_col s = 1 -> indented (sp_data s) k -> paragraph k false (sp_data s) ls rest -> sp_data s = pre ++ rest ->
  trim_end pre <> [] -> style_of a = Ok bs -> override_via_attrlist GNormal a = Ok g -> apply_subs E P g a (join [LF] ls) = Ok t ->
  parse_lines E s a P = Ok (Some (mkmi (mkct (with_data s (trim_end pre)) t, simple_style_of (negb (k =? 0)) bs) (p_discard_empty_lines (skip s pre rest)))).
Proof.
  intros Hc Hk Hp D Hne Hbs Hg Ht. unfold parse_lines. destruct (discard_ws_col s k Hk) as (saw & -> & Ecol). cbn [bind]. rewrite Ecol, Hc.
  replace (checked_sub (1 + k) 1) with (Ok k) by (unfold checked_sub; cbn; rewrite Nat.sub_0_r; reflexivity). cbn [bind]. rewrite Hbs. cbn [bind].
  destruct (simple_lines_spec k (length (sp_data s)) s [] (le_n _)) as (ls' & pre' & rest' & Hp' & D' & ->). cbn [started app] in *.
  destruct (paragraph_unique _ _ _ _ _ Hp _ _ Hp') as (<- & <-). assert (pre' = pre) as -> by (rewrite D in D'; apply app_inv_tail in D'; congruence).
  cbn [bind fst snd]. rewrite (trim_to s pre rest) by (rewrite ?sp_off_skip; auto). cbn [bind]. rewrite trim_trailing_whitespace_ok. cbn [bind]. unfold p_trim_trailing_whitespace.
  cbn [sp_data with_data]. rewrite with_data_with_data. destruct (trim_end pre) as [|x y]; [contradiction|]. cbn [is_nil]. rewrite Hg. cbn [bind]. rewrite Ht. cbn [bind].
  rewrite discard_empty_lines_ok. cbn [bind]. replace (1 + k =? 1) with (k =? 0) by (destruct k; reflexivity). reflexivity.
Qed.
Lemma parse_lines_none E s a P k bs ls pre rest : sp_col s = 1 -> indented (sp_data s) k -> paragraph k false (sp_data s) ls rest -> sp_data s = pre ++ rest ->
  trim_end pre = [] -> style_of a = Ok bs -> parse_lines E s a P = Ok None.
Proof.
  intros Hc Hk Hp D Hne Hbs. unfold parse_lines. destruct (discard_ws_col s k Hk) as (saw & -> & Ecol). cbn [bind]. rewrite Ecol, Hc.
  replace (checked_sub (1 + k) 1) with (Ok k) by (unfold checked_sub; cbn; rewrite Nat.sub_0_r; reflexivity). cbn [bind]. rewrite Hbs. cbn [bind].
  destruct (simple_lines_spec k (length (sp_data s)) s [] (le_n _)) as (ls' & pre' & rest' & Hp' & D' & ->). cbn [started app] in *.
  destruct (paragraph_unique _ _ _ _ _ Hp _ _ Hp') as (<- & <-). assert (pre' = pre) as -> by (rewrite D in D'; apply app_inv_tail in D'; congruence).
  cbn [bind fst snd]. rewrite (trim_to s pre rest) by (rewrite ?sp_off_skip; auto). cbn [bind]. rewrite trim_trailing_whitespace_ok. cbn [bind]. unfold p_trim_trailing_whitespace.
  cbn [sp_data with_data]. rewrite Hne. reflexivity.
Qed.
Lemma paragraph_total k t : exists ls pre rest, paragraph k false t ls rest /\ t = pre ++ rest.
Proof. destruct (simple_lines_spec k (length t) (mkspan t 1 1 0) [] (le_n _)) as (ls & pre & rest & H & D & _). eauto. Qed.

(** * Headings *)
Lemma skipn_S {A} (x : A) l : skipn 1 (x :: l) = l.
Proof. reflexivity. Qed.
Lemma count_marker_spec c : forall fuel s count, length (sp_data s) <= fuel ->
  exists j r, sp_data s = repeat c j ++ r /\ (forall y, r <> c :: y) /\ count_marker fuel [c] s count = Ok (count + j, skip s (repeat c j) r).
Proof.
  induction fuel as [|fuel IH]; intros s count Hf; cbn [count_marker]; rewrite take_prefix_ok; unfold p_take_prefix; cbn [bind starts_with];
  destruct (sp_data s) as [|x t] eqn:D.
  - exists 0, []. split; [reflexivity|]. split; [discriminate|]. cbn [bind repeat]. rewrite Nat.add_0_r, skip_nil, <- D, with_data_self. reflexivity.
  - cbn in Hf. lia.
  - exists 0, []. split; [reflexivity|]. split; [discriminate|]. cbn [bind repeat]. rewrite Nat.add_0_r, skip_nil, <- D, with_data_self. reflexivity.
  - destruct (N.eqb_spec c x) as [<-|Hx]; cbn [andb bind].
    + destruct (IH (skip s [c] t) (S count)) as (j & r & Dj & Hr & E); [rewrite sp_data_skip; cbn [length] in Hf; lia|]. rewrite sp_data_skip in Dj.
      exists (S j), r. split; [cbn [repeat app]; congruence|]. split; [exact Hr|]. cbn [length skipn mi_after psplit]. rewrite E, skip_skip. cbn [app repeat]. rewrite Nat.add_succ_r. reflexivity.
    + exists 0, (x :: t). split; [reflexivity|]. split; [intros y E; injection E; intros; congruence|]. cbn [repeat]. rewrite Nat.add_0_r, skip_nil, <- D, with_data_self. reflexivity.
Qed.
(** Which mark is counted. *)
Definition mark_of (n : text) : char := match n with c :: _ => if (c =? 61)%N then 61%N else 35%N | [] => 35%N end.
Lemma title_line_cases s l r n : a_line (sp_data s) l r n -> n <> [] -> sp_data s <> [] -> exists j q,
  n = repeat (mark_of n) j ++ q /\ (forall y, q <> mark_of n :: y) /\
  parse_title_line s =
    if j =? 1 then Ok (None, [mkwarn (with_data s n) WLevel0SectionHeadingNotSupported])
    else if 6 <? j then Ok (None, [mkwarn (with_data s n) (WSectionHeadingLevelExceedsMaximum (j - 1))])
    else match fst (span_while is_sp_tab q) with
         | [] => Ok (None, [])
         | w => level <- checked_sub j 1 ;;
                Ok (Some (mkmi (level, skip s (repeat (mark_of n) j ++ w) (snd (span_while is_sp_tab q))) (skip s l r)), [])
         end.
Proof.
  intros H Hn Ht. destruct (take_non_empty s) as [(l' & r' & n' & H' & _ & _ & E)|(H' & E)].
  2:{ exfalso. apply Hn. destruct H' as [H'|(l' & r' & H')]; [contradiction|]. destruct (a_line_unique _ _ _ _ _ _ _ H H') as (_ & _ & ->). reflexivity. }
  destruct (a_line_unique _ _ _ _ _ _ _ H H') as (<- & <- & <-). clear H'.
  destruct (count_marker_spec (mark_of n) (length n) (with_data s n) 0 (le_n _)) as (j & q & D & Hq & Ec). cbn [sp_data with_data] in D.
  exists j, q. split; [exact D|]. split; [exact Hq|]. unfold parse_title_line. rewrite E. cbn [bind mi_item mi_after sp_data with_data].
  assert (Em : (if starts_with (lit "=") n then lit "=" else lit "#") = [mark_of n]).
  { destruct n as [|x n]; [contradiction|]. change (lit "=") with [61%N]. cbn [starts_with mark_of]. rewrite N.eqb_sym. destruct (x =? 61)%N; [destruct n; reflexivity|reflexivity]. }
  rewrite Em, Ec. cbn [bind fst snd Nat.add]. rewrite (take_norm_eq _ _ _ _ H). cbn [bind mi_item].
  destruct (j =? 1); [reflexivity|]. destruct (6 <? j); [reflexivity|]. rewrite take_required_whitespace_ok. cbn [bind].
  unfold p_take_required_whitespace, p_take_whitespace, p_take_while. rewrite sp_data_skip. destruct (span_while is_sp_tab q) as [w q2]. cbn [fst snd mi_item psplit sp_data with_data].
  destruct w as [|x w]; [reflexivity|]. cbn [bind mi_item mi_after psplit]. rewrite ?skip_with_data, ?skip_skip, ?skip_with_data. reflexivity.
Qed.
Lemma repeat_mark (c : char) j (q : text) : (forall y, q <> c :: y) -> forall j' q', repeat c j ++ q = repeat c j' ++ q' -> (forall y, q' <> c :: y) -> j = j' /\ q = q'.
Proof.
  intros Hq. induction j as [|j IH]; intros [|j'] q' E Hq'; cbn [repeat app] in E.
  - auto.
  - exfalso. exact (Hq _ E).
  - exfalso. exact (Hq' _ (eq_sym E)).
  - injection E as E. destruct (IH _ _ E Hq') as (-> & ->). auto.
Qed.
Lemma mark_not_sp_tab n : ~ sp_tab (mark_of n).
Proof. unfold mark_of. destruct n as [|c n]; [intros [H|H]; discriminate|]. destruct (c =? 61)%N; intros [H|H]; discriminate. Qed.
Lemma title_line_heading s l r n level title : a_line (sp_data s) l r n -> heading n level title ->
  exists t, parse_title_line s = Ok (Some (mkmi (level, t) (skip s l r)), []) /\ sp_data t = title /\ Sub s t.
Proof.
  intros H (c & ws & Hc & Hl & En & Hws & Fws & Hti).
  assert (Hne : n <> []) by (rewrite En; discriminate).
  assert (Hd : sp_data s <> []) by (intros D; rewrite D in H; apply Hne; exact (a_line_nil _ _ _ H)).
  assert (Hm : mark_of n = c) by (rewrite En; cbn in Hc; destruct Hc as [<-|[<-|[]]]; reflexivity).
  destruct (title_line_cases s l r n H Hne Hd) as (j & q & Dj & Hq & ->). rewrite Hm in *.
  assert (Hw : forall y, ws ++ title <> c :: y).
  { intros y E. destruct ws as [|x ws]; [contradiction|]. injection E as Ex _. apply (mark_not_sp_tab n). rewrite Hm, <- Ex. exact (Forall_inv Fws). }
  rewrite En in Dj. destruct (repeat_mark c (S level) (ws ++ title) Hw j q Dj Hq) as (<- & <-).
  rewrite (indented_while (ws ++ title) ws title eq_refl Fws Hti). cbn [fst snd].
  assert (E1 : (S level =? 1) = false) by (apply Nat.eqb_neq; lia). assert (E6 : (6 <? S level) = false) by (apply Nat.ltb_ge; lia). rewrite E1, E6.
  destruct ws as [|x ws]; [contradiction|]. unfold checked_sub. cbn [Nat.leb Nat.sub bind]. rewrite Nat.sub_0_r. eexists. split; [reflexivity|]. split; [apply sp_data_skip|].
  destruct (a_line_prefix _ _ _ _ H) as (w & Ew). apply Sub_intro with (post := w ++ r). rewrite (a_line_app _ _ _ _ H), Ew, En, <- !app_assoc. reflexivity.
Qed.
Lemma title_line_some s mi w : parse_title_line s = Ok (Some mi, w) -> exists l r n title, a_line (sp_data s) l r n /\ heading n (fst (mi_item mi)) title /\
  w = [] /\ sp_data (snd (mi_item mi)) = title /\ mi_after mi = skip s l r /\ Sub s (snd (mi_item mi)).
Proof.
  intros E. destruct (take_non_empty s) as [(l & r & n & H & Hn & Ht & E2)|(H & E2)].
  2:{ exfalso. unfold parse_title_line in E. rewrite E2 in E. discriminate E. }
  destruct (title_line_cases s l r n H Hn Ht) as (j & q & Dj & Hq & Ep). rewrite Ep in E.
  destruct (Nat.eqb_spec j 1) as [->|J1]; [discriminate E|]. destruct (Nat.ltb_spec 6 j) as [J6|J6]; [discriminate E|].
  pose proof (span_while_app is_sp_tab q) as D. pose proof (span_while_all is_sp_tab q) as Fa. pose proof (span_while_stop is_sp_tab q) as Fb.
  destruct (span_while is_sp_tab q) as [ws title] eqn:Es. cbn [fst snd] in *. destruct ws as [|x ws]; [discriminate E|].
  destruct j as [|j]; [discriminate E|]. unfold checked_sub in E. cbn [Nat.leb Nat.sub bind] in E. rewrite Nat.sub_0_r in E. injection E as <- <-. cbn [mi_item mi_after fst snd].
  assert (Hhead : heading n j title).
  { exists (mark_of n), (x :: ws). split; [unfold mark_of; destruct n as [|y n]; [contradiction|]; destruct (y =? 61)%N; cbn; auto|]. split; [lia|]. split; [rewrite D; exact Dj|].
    split; [discriminate|]. split; [apply sp_tab_all; exact Fa|]. intros c y Ec. apply not_sp_tab_b. exact (Fb _ _ Ec). }
  exists l, r, n, title. split; [exact H|]. split; [exact Hhead|]. split; [reflexivity|]. split; [apply sp_data_skip|]. split; [reflexivity|].
  destruct (a_line_prefix _ _ _ _ H) as (w & Ew). apply Sub_intro with (post := w ++ r). rewrite (a_line_app _ _ _ _ H), Ew. assert (Dn : n = (repeat (mark_of n) (S j) ++ x :: ws) ++ title) by (rewrite <- app_assoc, <- D in *; exact Dj). rewrite Dn at 1. cbn [repeat app]. rewrite <- ?app_assoc. cbn [app]. rewrite <- ?app_assoc. reflexivity.
Qed.
Lemma title_line_panic s : parse_title_line s = Panic <-> exists l r c y, a_line (sp_data s) l r (c :: y) /\ sp_tab c.
Proof.
  split.
  - intros E. destruct (take_non_empty s) as [(l & r & n & H & Hn & Ht & E2)|(H & E2)].
    2:{ exfalso. unfold parse_title_line in E. rewrite E2 in E. discriminate E. }
    destruct (title_line_cases s l r n H Hn Ht) as (j & q & Dj & Hq & Ep). rewrite Ep in E.
    destruct (Nat.eqb_spec j 1) as [->|J1]; [discriminate E|]. destruct (Nat.ltb_spec 6 j) as [J6|J6]; [discriminate E|].
    pose proof (span_while_app is_sp_tab q) as D. pose proof (span_while_all is_sp_tab q) as Fa. destruct (span_while is_sp_tab q) as [ws title]. cbn [fst snd] in *.
    destruct ws as [|x ws]; [discriminate E|]. destruct j as [|j]; [|discriminate E]. cbn [repeat app] in Dj. exists l, r, x, (ws ++ title). split; [change (x :: ws ++ title) with ((x :: ws) ++ title); rewrite D, <- Dj; exact H|].
    apply is_sp_tab_spec. exact (Forall_inv Fa).
  - intros (l & r & c & y & H & Hc). assert (Ht : sp_data s <> []) by (intros D; rewrite D in H; apply a_line_nil in H; discriminate H).
    destruct (title_line_cases s l r (c :: y) H ltac:(discriminate) Ht) as (j & q & Dj & Hq & ->).
    destruct j as [|j]. 2:{ exfalso. pose proof (mark_not_sp_tab (c :: y)) as Hm. set (mk := mark_of (c :: y)) in *. clearbody mk. cbn [repeat app] in Dj. injection Dj as Dc _. subst mk. exact (Hm Hc). }
    cbn [repeat app] in Dj. subst q. cbn [Nat.eqb Nat.ltb Nat.leb span_while]. rewrite (proj2 (is_sp_tab_spec c) Hc). destruct (span_while is_sp_tab y) as [a b]. reflexivity.
Qed.
Lemma title_line_total s : (forall l r c y, a_line (sp_data s) l r (c :: y) -> ~ sp_tab c) -> exists o w, parse_title_line s = Ok (o, w).
Proof.
  intros Hs. destruct (take_non_empty s) as [(l & r & n & H & Hn & Ht & E2)|(H & E2)].
  2:{ unfold parse_title_line. rewrite E2. cbn. eauto. }
  destruct (title_line_cases s l r n H Hn Ht) as (j & q & Dj & Hq & ->). destruct (j =? 1); [eauto|]. destruct (6 <? j); [eauto|].
  pose proof (span_while_app is_sp_tab q) as D. pose proof (span_while_all is_sp_tab q) as Fa. destruct (span_while is_sp_tab q) as [ws title]. cbn [fst snd] in *.
  destruct ws as [|x ws]; [eauto|]. destruct j as [|j]; [|cbn; eauto]. exfalso. cbn [repeat app] in Dj. apply (Hs l r x (ws ++ title)); [change (x :: ws ++ title) with ((x :: ws) ++ title); rewrite D, <- Dj; exact H|].
  apply is_sp_tab_spec. exact (Forall_inv Fa).
Qed.

(** * Lines that are not blank *)
Lemma trimmed_strip x n : trimmed_line x n -> exists sps, strip_cr x = n ++ sps /\ Forall (eq SP) sps.
Proof.
  intros (y & sps & Hm & -> & Hs & _). exists sps. split; [exact (minus_cr_unique _ _ _ (strip_cr_minus x) Hm)|]. apply Forall_forall. intros c Hc. symmetry. exact (Hs c Hc).
Qed.
Lemma discard_none s l r n c : a_line (sp_data s) l r n -> In c n -> ~ sp_tab c -> p_discard_empty_lines s = s.
Proof.
  intros H Hc Hs. unfold p_discard_empty_lines. assert (Ht : sp_data s <> []) by (intros D; rewrite D in H; apply a_line_nil in H; subst n; contradiction).
  destruct (length (sp_data s)) eqn:El; [destruct (sp_data s); [contradiction|discriminate El]|]. cbn [p_discard_empty_lines_go]. destruct (sp_data s) as [|x t] eqn:D; [contradiction|]. rewrite <- D in H.
  destruct H as (y & e & D1 & -> & Hy & He & Htr). rewrite <- app_assoc in D1. unfold p_take_empty_line. rewrite (p_take_line_eq s y e r Hy He D1). cbn [mi_item sp_data with_data].
  destruct (trimmed_strip _ _ Htr) as (sps & -> & _). destruct (forallb is_sp_tab (n ++ sps)) eqn:Ef; [|reflexivity]. exfalso. rewrite forallb_forall in Ef.
  apply Hs, is_sp_tab_spec, Ef, in_or_app. auto.
Qed.
Lemma starts_in p t c : starts_with p t = true -> In c p -> In c t.
Proof. intros H Hc. apply starts_with_spec in H. destruct H as (r & ->). apply in_or_app. auto. Qed.
Lemma a_line_head t l r c y : a_line t l r (c :: y) -> exists z, t = c :: z.
Proof. intros H. destruct (a_line_prefix _ _ _ _ H) as (w & ->). rewrite (a_line_app _ _ _ _ H). eexists. reflexivity. Qed.
(** Metadata where there is none. *)
Lemma metadata_plain E s P l r c y : a_line (sp_data s) l r (c :: y) -> ~ sp_tab c -> c <> 46%N -> c <> 91%N ->
  metadata_parse E s P = Ok (mkmd None None None None None s s, []).
Proof.
  intros H Hs H1 H2. unfold metadata_parse. rewrite discard_empty_lines_ok, (discard_none s l r (c :: y) c H) by (cbn; auto). cbn [bind md_loop].
  destruct (a_line_head _ _ _ _ _ H) as (z & D).
  assert (Et : md_title_step (mkms None None None None s []) = Ok None).
  { unfold md_title_step. cbn [ms_title ms_start]. rewrite (take_norm_eq _ _ _ _ H). cbn [bind mi_item sp_data with_data]. change (lit ".") with [46%N]. cbn [starts_with].
    destruct (N.eqb_spec 46 c) as [<-|_]; [contradiction|]. reflexivity. }
  rewrite Et. cbn [bind]. assert (Eb : starts_with (lit "[") (sp_data s) = false /\ starts_with (lit "[[") (sp_data s) = false).
  { rewrite D. change (lit "[") with [91%N]. change (lit "[[") with [91%N; 91%N]. cbn [starts_with]. destruct (N.eqb_spec 91 c) as [<-|_]; [contradiction|]. auto. }
  destruct Eb as [Eb1 Eb2]. unfold md_anchor_step, parse_maybe_block_anchor. cbn [ms_anchor ms_start]. rewrite Eb2. cbn [bind fst snd ms_warnings app ms_title ms_reftext ms_attrlist ms_start].
  unfold md_attrlist_step, parse_maybe_attrlist_line. cbn [ms_attrlist ms_start]. rewrite Eb1. cbn [bind fst snd ms_title ms_anchor ms_reftext ms_attrlist ms_start ms_warnings]. reflexivity.
Qed.

(** * Media blocks *)
Lemma span_until c a b : ~ In c a -> span_while (fun x => negb (x =? c)%N) (a ++ c :: b) = (a, c :: b).
Proof.
  induction a as [|x a IH]; intros H; cbn [app span_while].
  - rewrite N.eqb_refl. reflexivity.
  - destruct (N.eqb_spec x c) as [->|Hx]; [exfalso; apply H; left; reflexivity|]. cbn [negb]. rewrite IH; [reflexivity|]. intros K. apply H. right. exact K.
Qed.
Lemma attrlist_total U norm P s ctx : total norm -> exists m ws, attrlist_parse U norm P s ctx = Ok (m, ws).
Proof. intros H. destruct (C29_parsing_is_total_and_values_come_from_the_source U norm P s ctx H) as (_ & m & ws & _ & E & _). eauto. Qed.
Lemma line_block_source_ok m pre after rest : sp_data (md_source m) = pre ++ rest -> sp_off after = sp_off (md_source m) + blen pre ->
  (forall c r, pre = c :: r -> is_ws c = false) -> line_block_source m after = Ok (with_data (md_source m) (trim_end pre)).
Proof.
  intros D Ho Hh. unfold line_block_source. rewrite (trim_to _ _ _ _ D Ho). cbn [bind sp_data with_data].
  assert (Et : trim pre = trim_end pre).
  { unfold trim, trim_start, trim_start_by, drop_while_c. destruct (trim_end_spec pre) as (z & Ez & _). destruct (trim_end pre) as [|c t] eqn:E; [reflexivity|].
    cbn [span_while]. rewrite (Hh c (t ++ z)); [reflexivity|exact Ez]. }
  rewrite Et. destruct (trim_end_spec pre) as (z & Ez & _). rewrite (slice0_ok (with_data (md_source m) pre) (trim_end pre) z) by exact Ez. rewrite with_data_with_data. reflexivity.
Qed.
Definition media_name (ty : media_type) : text := match ty with MImage => lit "image" | MVideo => lit "video" | MAudio => lit "audio" end.
Lemma media_parse_ok E m P ty target attrs l r : total (norm_of E P) ->
  a_line (sp_data (md_start m)) l r (media_name ty ++ lit "::" ++ target ++ lit "[" ++ attrs ++ lit "]") ->
  target <> [] -> ~ In 91%N target -> Suffix (md_source m) (md_start m) -> (forall c y, sp_data (md_source m) = c :: y -> is_ws c = false) ->
  exists al src ws, attrlist_parse (e_u E) (norm_of E P) P al CtxInline = Ok (fst src, ws) /\ sp_data al = attrs /\
  sp_off (snd src) = sp_off (md_source m) /\ Sub (md_source m) (snd src) /\
  media_parse E m P = Ok (Some (mkmi (BMedia ty (skip (md_start m) (media_name ty ++ lit "::") target) (mi_item (fst src)) (snd src)
     (mkcm (md_title_source m) (md_title m) (md_anchor m) None (md_attrlist m))) (p_discard_empty_lines (skip (md_start m) l r))), ws).
Proof.
  intros Hn H Ht Hb HS Hws. set (line := media_name ty ++ lit "::" ++ target ++ lit "[" ++ attrs ++ lit "]") in *.
  set (al := skip (md_start m) (media_name ty ++ lit "::" ++ target ++ lit "[") attrs).
  destruct (attrlist_total (e_u E) (norm_of E P) P al CtxInline Hn) as (mi & ws & Ea).
  pose proof (a_line_app _ _ _ _ H) as Ha. destruct HS as (pre & Dp & Es).
  destruct (trim_end_spec (pre ++ l)) as (z & Ez & _).
  exists al, (mi, with_data (md_source m) (trim_end (pre ++ l))), ws. cbn [fst snd]. split; [exact Ea|]. split; [apply sp_data_skip|]. split; [reflexivity|]. split.
  { exists [], (z ++ r). cbn [app sp_data with_data]. rewrite skip_nil. split; [rewrite Dp, Ha, app_assoc, Ez, <- app_assoc; f_equal; rewrite <- Ez; reflexivity|reflexivity]. }
  unfold media_parse. rewrite (take_norm_eq _ _ _ _ H). cbn [bind mi_item mi_after sp_data with_data].
  assert (Ee : ends_with (lit "]") line = true) by (apply ends_with_spec; exists (media_name ty ++ lit "::" ++ target ++ lit "[" ++ attrs); unfold line; rewrite <- !app_assoc; reflexivity).
  rewrite Ee. cbn [negb].
  assert (Ei : take_ident (with_data (md_start m) line) = Ok (Some (mkmi (with_data (md_start m) (media_name ty)) (skip (md_start m) (media_name ty) (lit "::" ++ target ++ lit "[" ++ attrs ++ lit "]"))))).
  { unfold take_ident. rewrite take_name_ok. unfold line. destruct ty; reflexivity. }
  rewrite Ei. cbn [bind mi_item mi_after sp_data with_data]. assert (Em : media_type_of (media_name ty) = Some ty) by (destruct ty; reflexivity). rewrite Em.
  rewrite take_prefix_ok. unfold p_take_prefix. rewrite sp_data_skip. rewrite (proj2 (starts_with_spec (lit "::") _)) by eauto.
  change (skipn (length (lit "::")) (lit "::" ++ target ++ lit "[" ++ attrs ++ lit "]")) with (target ++ lit "[" ++ attrs ++ lit "]").
  cbn [bind mi_after psplit]. rewrite skip_skip. rewrite take_while_ok. unfold p_take_while. rewrite sp_data_skip.
  change (lit "[" ++ attrs ++ lit "]") with (91%N :: attrs ++ lit "]"). rewrite (span_until _ _ _ Hb). cbn [bind mi_item mi_after psplit sp_data with_data].
  rewrite with_data_skip, skip_skip. assert (En : is_nil target = false) by (destruct target; [contradiction|reflexivity]). rewrite En.
  rewrite take_prefix_ok. unfold p_take_prefix. rewrite sp_data_skip. change (lit "[") with [91%N]. cbn [starts_with N.eqb Pos.eqb andb bind length skipn mi_after psplit]. rewrite skip_skip, sp_data_skip.
  rewrite blen_app. replace (checked_sub (blen attrs + blen (lit "]")) 1) with (Ok (blen attrs)) by (unfold checked_sub; change (blen (lit "]")) with 1; destruct (Nat.leb_spec 1 (blen attrs + 1)); [f_equal; lia|lia]).
  cbn [bind]. rewrite (slice0_ok _ attrs (lit "]")) by apply sp_data_skip. cbn [bind]. rewrite with_data_skip.
  replace (((media_name ty ++ lit "::") ++ target) ++ [91%N]) with (media_name ty ++ lit "::" ++ target ++ lit "[") by (rewrite <- !app_assoc; reflexivity). fold al.
  rewrite Ea. cbn [bind fst snd]. rewrite (line_block_source_ok m (pre ++ l) (skip (md_start m) l r) r).
  - cbn [bind]. rewrite discard_empty_lines_ok. reflexivity.
  - rewrite Dp, Ha, app_assoc. reflexivity.
  - rewrite sp_off_skip, Es, sp_off_skip, blen_app. lia.
  - intros c y E0. apply (Hws c (y ++ r)). rewrite Dp, Ha, app_assoc, E0. reflexivity.
Qed.

(** * Sections *)
Lemma p_catalog_with_topmost P ty : p_catalog (with_topmost P ty) = p_catalog P.
Proof. reflexivity. Qed.
Lemma register_contains c id rt ty : contains_id (snd (register_ref c id rt ty)) id = true.
Proof.
  unfold register_ref. destruct (mhas id (cat_refs c)) eqn:E; cbn [snd]; [exact E|]. unfold contains_id, insert_ref. cbn [cat_refs].
  unfold mhas. rewrite mget_mput, text_eqb_refl. reflexivity.
Qed.
(** What a section is registered as: the id, and the catalog afterwards. *)
Lemma section_register_spec sectids manual base rt at_ P r : section_register sectids manual base rt at_ P = Ok r ->
  match p_catalog P with
  | None => fst r = None /\ p_catalog (fst (snd r)) = None
  | Some c => exists c', p_catalog (fst (snd r)) = Some c' /\
      match manual with
      | Some i => fst r = None /\ contains_id c' i = true /\ (contains_id c i = false -> get_ref c' i = Some (mkref i (Some rt) RSection))
      | None => if sectids then exists i, fst r = Some i /\ contains_id c i = false /\ get_ref c' i = Some (mkref i (Some rt) RSection)
                else fst r = None
      end
  end.
Proof.
  unfold section_register. destruct (p_catalog P) as [c|] eqn:Ec.
  2:{ intros H. apply Ok_inj in H. subst r. cbn. auto. }
  destruct manual as [i|].
  - destruct (register_ref c i (Some rt) RSection) as [ok c'] eqn:Er. cbn [fst snd]. assert (Hc : contains_id c' i = true) by (rewrite <- (register_contains c i (Some rt) RSection), Er; reflexivity).
    unfold register_ref in Er. change (contains_id c i) with (mhas i (cat_refs c)). destruct (mhas i (cat_refs c)) eqn:Eh; injection Er as <- <-.
    + intros H. apply bind_ok in H. destruct H as (s & _ & H). apply Ok_inj in H. subst r. cbn [fst snd]. exists c. split; [exact Ec|]. split; [reflexivity|]. split; [exact Hc|]. discriminate.
    + intros H. apply Ok_inj in H. subst r. cbn [fst snd p_catalog with_catalog]. eexists. split; [reflexivity|]. split; [reflexivity|]. split; [exact Hc|]. intros _.
      unfold get_ref, insert_ref. cbn [cat_refs]. rewrite mget_mput, text_eqb_refl. reflexivity.
  - destruct sectids.
    + intros H. apply bind_ok in H. destruct H as ([i c'] & Eg & H). apply Ok_inj in H. subst r. cbn [fst snd p_catalog with_catalog]. exists c'. split; [reflexivity|]. exists i. split; [reflexivity|].
      destruct (generate_any c base (Some rt) RSection) as (i' & c'' & Eg' & H1 & H2 & _). rewrite Eg in Eg'. apply Ok_inj in Eg'. injection Eg' as <- <-. auto.
    + intros H. apply Ok_inj in H. subst r. cbn. eauto.
Qed.
Lemma section_parse_inv E until m P mi ws P' : section_parse E until m P = Ok (Some mi, (ws, P')) ->
  exists discrete source lt w sid b src0 src title base manual reg tp np bs,
    is_discrete m = Ok discrete /\ source = p_discard_empty_lines (md_start m) /\ parse_title_line source = Ok (Some lt, w) /\
    style_of (md_attrlist m) = Ok bs /\ tp = section_type_of discrete (fst (mi_item lt)) bs P /\
    np = (if is_attribute_set (snd tp) (lit "sectnums") && (fst (mi_item lt) <=? p_levels (snd tp)) && negb discrete
                then let r := assign_section_number (snd tp) (fst (mi_item lt)) in (Some (fst r), snd r) else (None, snd tp)) /\
    until (section_stop E discrete (fst (mi_item lt))) (fst (mi_item lt)) (mi_after lt) (snd np) = Ok b /\
    trim_remainder (md_source m) (br_after b) = Ok src0 /\ src = p_trim_trailing_whitespace src0 /\
    apply_subs E (br_parser b) GTitle (md_attrlist m) (sp_data (snd (mi_item lt))) = Ok title /\
    generate_section_id (e_u E) title (br_parser b) = Ok base /\ manual_id m = Ok manual /\
    section_register (is_attribute_set P (lit "sectids")) manual base (section_reftext m title) (trim_remainder (md_source m) (mi_after lt)) (br_parser b) = Ok reg /\
    sid = fst reg /\
    mi = mkmi (BSection (fst (mi_item lt)) (mkct (snd (mi_item lt)) title) (br_blocks b) src (common_of m) (fst tp) sid (fst np)) (br_after b) /\
    ws = w ++ br_stop_warnings b ++ snd (snd reg) ++ br_warnings b /\
    P' = (if (fst (mi_item lt) =? 1) && negb discrete then with_topmost (fst (snd reg)) SNormal else fst (snd reg)).
Proof.
  unfold section_parse. intros H. apply bind_ok in H. destruct H as (discrete & E1 & H). rewrite discard_empty_lines_ok in H. cbn [bind] in H.
  apply bind_ok in H. destruct H as ([o w] & E2 & H). cbn [fst snd] in H. destruct o as [lt|]; [|apply Ok_inj in H; discriminate H].
  apply bind_ok in H. destruct H as (bs & E3 & H). apply bind_ok in H. destruct H as (b & E4 & H). apply bind_ok in H. destruct H as (src0 & E5 & H).
  apply bind_ok in H. destruct H as (title & E6 & H). apply bind_ok in H. destruct H as (base & E7 & H). apply bind_ok in H. destruct H as (manual & E8 & H).
  apply bind_ok in H. destruct H as (reg & E9 & H). rewrite trim_trailing_whitespace_ok in H. cbn [bind] in H. apply Ok_inj in H. injection H as <- <- <-.
  exists discrete, (p_discard_empty_lines (md_start m)), lt, w, (fst reg), b, src0, (p_trim_trailing_whitespace src0), title, base, manual, reg,
    (section_type_of discrete (fst (mi_item lt)) bs P),
    (if is_attribute_set (snd (section_type_of discrete (fst (mi_item lt)) bs P)) (lit "sectnums") && (fst (mi_item lt) <=? p_levels (snd (section_type_of discrete (fst (mi_item lt)) bs P))) && negb discrete
                then let r := assign_section_number (snd (section_type_of discrete (fst (mi_item lt)) bs P)) (fst (mi_item lt)) in (Some (fst r), snd r) else (None, snd (section_type_of discrete (fst (mi_item lt)) bs P))), bs.
  repeat (split; [first [exact E1|exact E2|exact E3|exact E4|exact E5|exact E6|exact E7|exact E8|exact E9|reflexivity]|]). reflexivity.
Qed.

(** * Which kind of block is tried *)
Lemma first_line_of s l r n : a_line (sp_data s) l r n -> exists mi z, take_line s = Ok mi /\ sp_data (mi_item mi) = n ++ z.
Proof.
  intros (x & e & D & -> & Hx & He & Ht). rewrite <- app_assoc in D. rewrite take_line_ok, (p_take_line_eq s x e r Hx He D). destruct (trimmed_strip _ _ Ht) as (z & Ez & _).
  do 2 eexists. split; [reflexivity|]. exact Ez.
Qed.
Lemma raw_delimiter_head c y : raw_delimiter (c :: y) -> In c (lit "/-.+").
Proof. intros (k & Hk & (n & Hn & E)). destruct n; [lia|]. injection E as -> _. exact Hk. Qed.
Lemma compound_delimiter_head c y : compound_delimiter (c :: y) -> In c (lit "-=*_").
Proof. intros [E|(k & Hk & (n & Hn & E))]; [injection E as -> _; cbn; auto|]. destruct n; [lia|]. injection E as -> _. right. exact Hk. Qed.
Definition md_plain (s : span) : metadata := mkmd None None None None None s s.
Lemma dispatch_plain E un s P l r c y : a_line (sp_data s) l r (c :: y) -> ~ sp_tab c -> ~ In c (lit "./-+=*_[:") -> (exists a b, c :: y = a ++ lit "::" ++ b) ->
  block_parse_with E un s P = try_media E un (md_plain s) (c :: y) [] P.
Proof.
  intros H Hs Hc (a & b & Eab). unfold block_parse_with. destruct (first_line_of _ _ _ _ H) as (mi & z & -> & Ez). cbn [bind].
  destruct (a_line_head _ _ _ _ _ H) as (t & D).
  assert (Ef : try_fast s (mi_item mi) = false).
  { unfold try_fast. rewrite D, Ez. rewrite (proj2 (contains_spec (lit "::") _)); [apply andb_false_r|]. exists a, (b ++ z). rewrite Eab, <- !app_assoc. reflexivity. }
  rewrite Ef. cbn [bind].
  assert (Ee : try_entry (mi_item mi) = false).
  { unfold try_entry. rewrite Ez. change (lit ":") with [58%N] at 1. cbn [app starts_with]. destruct (N.eqb_spec 58 c) as [<-|_]; [exfalso; apply Hc; cbn; tauto|]. reflexivity. }
  rewrite Ee. cbn [bind]. rewrite (metadata_plain E s P l r c y H Hs) by (intros ->; apply Hc; cbn; tauto). cbn [bind fst snd]. fold (md_plain s).
  unfold with_metadata. cbn [md_plain md_attrlist style_of bind style_is]. fold (md_plain s).
  rewrite (raw_parse_none E (md_plain s) P l r _ H) by (intros K; apply raw_delimiter_head in K; apply Hc; cbn in *; tauto). cbn [bind].
  rewrite (compound_parse_none _ (md_plain s) P l r _ H) by (intros K; apply compound_delimiter_head in K; apply Hc; cbn in *; tauto). cbn [bind].
  cbn [md_start md_plain]. rewrite (take_norm_eq _ _ _ _ H). reflexivity.
Qed.
Definition simple_or_none (o : option (mitem block)) : Prop := forall mi, o = Some mi -> exists c src st cm, mi_item mi = BSimple c src st cm.
Lemma simple_parse_simple E m P o : simple_parse E m P = Ok o -> simple_or_none o.
Proof.
  unfold simple_parse. intros H. apply bind_ok in H. destruct H as (o' & _ & H). destruct o' as [mi|]; [|apply Ok_inj in H; subst o; intros mi K; discriminate K].
  apply bind_ok in H. destruct H as (s1 & _ & H). apply bind_ok in H. destruct H as (s2 & _ & H). apply bind_ok in H. destruct H as (s3 & _ & H). apply Ok_inj in H. subst o.
  intros mi' K. injection K as <-. cbn [mi_item]. eauto.
Qed.
Lemma finish_item mi ws P r : finish mi ws P = Ok r -> pr_item r = Some mi.
Proof. unfold finish. intros H. apply bind_ok in H. destruct H as (id & _ & H). apply Ok_inj in H. subst r. reflexivity. Qed.
Lemma last_resort_simple E m ws P r : last_resort E m ws P = Ok r -> simple_or_none (pr_item r).
Proof.
  unfold last_resort. intros H. apply bind_ok in H. destruct H as (o & Eo & H). destruct o as [mi|].
  - rewrite (finish_item _ _ _ _ H). exact (simple_parse_simple _ _ _ _ Eo).
  - apply Ok_inj in H. subst r. intros mi K. discriminate K.
Qed.
Lemma no_block_simple E m ws P r : no_block E m ws P = Ok r -> simple_or_none (pr_item r).
Proof. unfold no_block. intros H. apply bind_ok in H. destruct H as (o & _ & H). destruct (_ && _); exact (last_resort_simple _ _ _ _ _ H). Qed.
