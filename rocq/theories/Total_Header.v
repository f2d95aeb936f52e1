(** Facts about headers (C33): only the lines of the header have to be of a class on which the header
    substitutions give a result. *)
From Verif Require Import Text TextFacts Maps Span_Model Span_Pure Span_Spec Span_Proof Span_Laws Parser_Model Regex Attrlist_Model Subs_Model Group_Model Entry_Model Entry_Spec Entry_Proof Header_Model Header_Spec Header_Proof.

Lemma hline_exists t : t <> [] -> exists k r, hline t k r.
Proof.
  intros Hne. destruct (first_line t) as (l & e & rest & D & Hl & He). pose proof (norm_trimmed l) as Ht. set (n := trim_end_by (N.eqb SP) (strip_cr l)) in *.
  destruct (entry_cases (fun _ t => Ok t) (span_new t) parser_default (fun _ => True) I I) as [(nm & r & m & X & _)|(Ne & _)].
  - apply Forall_forall. auto.
  - eauto.
  - exists (HEntry nm), r. apply hl_entry, X.
  - cbn [sp_data span_new] in Ne. destruct (starts_with (lit "//") n && negb (starts_with (lit "///") n)) eqn:Ec.
    + apply a_comment_b in Ec. exists (HComment n), rest. rewrite D. apply hl_comment; assumption.
    + assert (Nc : ~ a_comment n) by (intros X; apply a_comment_b in X; congruence). destruct n as [|c0 n0] eqn:En.
      * exists HBlank, rest. rewrite D. apply hl_blank; assumption.
      * exists (HText (c0 :: n0)), rest. rewrite D. apply hl_text; try assumption; [discriminate|]. rewrite <- D. exact Ne.
Qed.
Lemma hline_cut t k r : hline t k r -> exists x, t = x ++ r.
Proof.
  intros H. destruct H as [l e r _ _ _|l e r n _ _ _ _|t n r (c & d & u & x & H & _)|l e r n _ _ _ _ _ _]; [exists (l ++ e)|exists (l ++ e)|exists c; exact (logical_app _ _ _ H)|exists (l ++ e)]; rewrite <- app_assoc; reflexivity.
Qed.
Lemma run_cut ts t ks ts' rest w : header_run ts t ks ts' rest w -> exists x, t = x ++ rest.
Proof.
  induction 1 as [| ? ? ? ? ? ? _ H _ (x & ->)|?|? ? ? ? ? ? ? ? H _ (x & ->)|? ? ? ? ? ? ? ? H _ (x & ->)|? ? ? ? ? ? ? H _ _ (x & ->)|? ? ? ? ? ? ? ? H _ _ (x & ->)|?|?];
    try (exists []; reflexivity); apply hline_cut in H; destruct H as (y & ->); exists (y ++ x); rewrite <- app_assoc; reflexivity.
Qed.
Lemma run_exists : forall n t ts, length t <= n -> length ts <= 3 -> exists ks ts' rest w, header_run ts t ks ts' rest w.
Proof.
  induction n as [|n IH]; intros t ts L Lt; (destruct t as [|c0 t0] eqn:Et; [do 4 eexists; apply hr_end|]); [cbn in L; lia|]. rewrite <- Et in *. assert (Hne : t <> []) by (rewrite Et; discriminate). clear Et c0 t0.
  destruct (hline_exists t Hne) as (k & r & H). pose proof (hline_shorter _ _ _ H Hne) as Hs.
  destruct k as [|m|m|m].
  - destruct ts as [|t1 ts]; [|do 4 eexists; eapply hr_blank; [discriminate|exact Hne|exact H]]. destruct (IH r [] ltac:(lia) ltac:(cbn; lia)) as (ks & ts' & rest & w & R). do 4 eexists. eapply hr_skip; eassumption.
  - destruct (IH r ts ltac:(lia) Lt) as (ks & ts' & rest & w & R). do 4 eexists. eapply hr_comment; eassumption.
  - destruct (IH r ts ltac:(lia) Lt) as (ks & ts' & rest & w & R). do 4 eexists. eapply hr_entry; eassumption.
  - destruct ts as [|t1 ts].
    + destruct (starts_with (lit "= ") m) eqn:Em.
      * destruct (IH r [m] ltac:(lia) ltac:(cbn; lia)) as (ks & ts' & rest & w & R). do 4 eexists. eapply hr_title; [exact H|apply a_title_b, Em|exact R].
      * do 4 eexists. eapply hr_no_title; [exact H|]. intros X. apply a_title_b in X. congruence.
    + destruct (Nat.eq_dec (length ts) 2) as [E2|E2]; [do 4 eexists; eapply hr_full; [exact H|cbn; lia]|].
      destruct (IH r ((t1 :: ts) ++ [m]) ltac:(lia)) as (ks & ts' & rest & w & R); [rewrite app_length; cbn in *; lia|]. do 4 eexists. eapply hr_line; [exact H|cbn in *; lia|exact R].
Qed.
(** The lines that belong to the header are of the class. *)
Definition in_header (ok : char -> Prop) (ts : list text) (t : text) : Prop := forall ks ts' rest w, header_run ts t ks ts' rest w -> exists c, t = c ++ rest /\ Forall ok c.
Lemma in_header_step ok ts t k r ts1 : in_header ok ts t -> hline t k r -> length ts1 <= 3 ->
  (forall ks ts' rest w, header_run ts1 r ks ts' rest w -> exists ks', header_run ts t ks' ts' rest w) -> (exists c, t = c ++ r /\ Forall ok c) /\ in_header ok ts1 r.
Proof.
  intros H Hl L K. destruct (hline_cut _ _ _ Hl) as (x & Ex).
  assert (A : forall ks ts' rest w, header_run ts1 r ks ts' rest w -> exists y, r = y ++ rest /\ Forall ok x /\ Forall ok y).
  { intros ks ts' rest w R. destruct (run_cut _ _ _ _ _ _ R) as (y & Ey). destruct (K _ _ _ _ R) as (ks' & R'). destruct (H _ _ _ _ R') as (c & Ec & Fc).
    exists y. split; [exact Ey|]. rewrite Ex, Ey, app_assoc in Ec. apply app_inv_tail in Ec. subst c. apply Forall_app in Fc. exact Fc. }
  split.
  - destruct (run_exists _ r ts1 (le_n _) L) as (ks & ts' & rest & w & R). destruct (A _ _ _ _ R) as (y & _ & Fx & _). exists x. auto.
  - intros ks ts' rest w R. destruct (A _ _ _ _ R) as (y & Ey & _ & Fy). exists y. auto.
Qed.
Section Header.
Context (E : env) (ok : char -> Prop) (Hsp : ok SP) (Hlf : ok LF) (T : header_subs_on E ok).
Lemma entry_total_in hdr s P : (forall n r, an_entry (sp_data s) n r -> exists c, sp_data s = c ++ r /\ Forall ok c) -> (forall t, Forall ok t -> exists o, hdr P t = Ok o) ->
  exists o, attribute_parse hdr s P = Ok o.
Proof.
  intros Hok Hh. destruct (logical_total (sp_data s)) as (c & r & H). destruct (stripped_ok c) as (d & Hd & Ed).
  destruct (attribute_parse_eq hdr s P c r H) as (pre & vs & Ea & _). cbv zeta in Ea. rewrite <- Ed in Ea. rewrite Ea. destruct (e_parse d) as [[n [u rest]]|] eqn:Ep; [|eauto].
  assert (Hc : Forall ok c).
  { destruct (Hok n r) as (c' & Ec' & F); [exists c, d, u, rest; split; [exact H|]; split; [exact Hd|]; apply e_parse_iff, Ep|]. rewrite (logical_app _ _ _ H) in Ec'. apply app_inv_tail in Ec'. subst c'. exact F. }
  assert (Hv : exists v, e_value hdr P u rest = Ok v).
  { unfold e_value. destruct u; [eauto|]. destruct rest as [|x rest]; [eauto|]. destruct (fold_value_total (e_raw (x :: rest))) as [t Et].
    assert (Ht : Forall ok t). { eapply fold_value_ok; [exact Hsp|exact Hlf| |exact Et]. apply e_raw_ok. apply e_parse_iff in Ep. destruct Hd as (sps & cr & lf & Ec & _). rewrite Ec in Hc. repeat (apply Forall_app_inv in Hc; destruct Hc as [Hc _]). apply entry_rest in Ep. destruct Ep as (q & Eq). rewrite Eq in Hc. apply Forall_app_inv in Hc. apply Hc. }
    destruct (Hh t Ht) as [o Eo]. rewrite Et. cbn [bind]. rewrite Eo. cbn. eauto. }
  destruct Hv as (v & ->). cbn [bind]. eauto.
Qed.
Lemma header_step_in source h ts : sp_data source <> [] -> inv E ts h -> in_header ok ts (sp_data source) -> exists o, header_step E source h = Ok o.
Proof.
  intros Hne Hi Hc. unfold header_step. cbv zeta. rewrite take_normalized_line_ok. cbn [bind].
  destruct (first_line (sp_data source)) as (l & e & rest & D & Hl & He). rewrite (norm_line_eq source l e rest Hl He D). cbn [mi_item mi_after].
  set (n := trim_end_by (N.eqb SP) (strip_cr l)) in *. pose proof (norm_trimmed l) as Ht. fold n in Ht. destruct (trimmed_prefix _ _ Ht) as (w & Ew). change (sp_data (with_data source n)) with n.
  assert (Nl : ~ In LF n) by (intros X; apply Hl; rewrite Ew; apply in_or_app; auto).
  rewrite (inv_none _ _ _ Hi), (inv_author_some _ _ _ Hi), (inv_rev_some _ _ _ Hi). pose proof (proj2 Hi) as Lt.
  destruct (is_nil n) eqn:Enil; [eauto|]. assert (Nn : n <> []) by (intros K; rewrite K in Enil; discriminate Enil).
  destruct (starts_with (lit "//") n && negb (starts_with (lit "///") n)) eqn:Ec; [eauto|]. assert (Nc : ~ a_comment n) by (intros X; apply a_comment_b in X; congruence).
  destruct (entry_total_in (apply_header_subs E) source (s_parser h)) as (oa' & Ea').
  { intros nm r X. apply (in_header_step ok ts _ (HEntry nm) r ts Hc (hl_entry _ _ _ X) Lt). intros ks ts' rr ww R. eexists. eapply hr_entry; [apply hl_entry, X|exact R]. }
  { exact (T (s_parser h)). }
  assert (A : exists oa, header_attr E source (with_data source n) h = Ok oa) by (unfold header_attr; match goal with |- context [if ?b then _ else _] => destruct b end; [exists oa'; exact Ea'|exists None; reflexivity]). destruct A as (oa & Ea). rewrite Ea. cbn [bind]. destruct oa as [m|].
  - destruct (author_entry_total (e_u E) (mi_item m) (s_parser h)) as (P' & ->). cbn [bind]. eauto.
  - assert (Ent : forall nm r, ~ an_entry (sp_data source) nm r).
    { unfold header_attr in Ea. change (sp_data (with_data source n)) with n in Ea. destruct (starts_with (lit ":") n) eqn:Es.
      - apply entry_result in Ea. exact Ea.
      - intros nm r X. destruct (entry_starts _ _ _ _ _ _ X D Hl He) as (l' & El). destruct (norm_starts l l' El) as (n' & En'). change (n = 58%N :: n') in En'. rewrite En' in Es. discriminate Es. }
    assert (HT : hline (sp_data source) (HText n) rest) by (rewrite D; apply hl_text; try assumption; rewrite <- D; exact Ent).
    assert (Nok : forall ts1, length ts1 <= 3 -> (forall ks ts' rr ww, header_run ts1 rest ks ts' rr ww -> exists ks', header_run ts (sp_data source) ks' ts' rr ww) -> Forall ok n).
    { intros ts1 L1 K. destruct (in_header_step ok ts _ _ _ ts1 Hc HT L1 K) as ((c & Ecc & Fc) & _). rewrite D, app_assoc in Ecc. apply app_inv_tail in Ecc. subst c. rewrite Ew, <- app_assoc in Fc. apply Forall_app in Fc. apply Fc. }
    destruct ts as [|t1 ts]; cbn [negb andb].
    + destruct (starts_with (lit "= ") n) eqn:Et; [|eauto]. pose proof Et as Et'. apply a_title_b in Et. destruct Et as (x & Ex). destruct (header_sub_discard (with_data source n) x Ex) as (s & Hs & w' & Ew' & _).
      assert (Sok : Forall ok (sp_data s)).
      { assert (F : Forall ok n). { apply (Nok [n]); [cbn; lia|]. intros ks ts' rr ww R. eexists. eapply hr_title; [exact HT|exists x; exact Ex|exact R]. }
        rewrite Ex, Ew' in F. apply Forall_app_inv in F. destruct F as [_ F]. apply Forall_app_inv in F. apply F. }
      destruct (discard _ 2) as [d| |] eqn:Ed; try discriminate Hs. cbn [bind] in *. rewrite Hs. cbn [bind]. destruct (T (s_parser h) (sp_data s) Sok) as (o & ->). cbn [bind]. eauto.
    + destruct ts as [|t2 ts]; cbn [negb andb].
      * destruct (author_line_total (e_u E) (with_data source n) (s_parser h)) as (o & ->). cbn [bind]. eauto.
      * destruct ts as [|t3 ts]; cbn [negb andb]; [|eauto]. destruct (revision_total E ok T (with_data source n) (s_parser h)) as (o & ->); [exact Nl| |cbn [bind]; eauto].
        apply (Nok [t1; t2; n]); [cbn; lia|]. intros ks ts' rr ww R. eexists. eapply (hr_line [t1; t2]); [exact HT|cbn; lia|exact R].
Qed.
Lemma header_loop_in : forall fuel source h ts, in_header ok ts (sp_data source) -> inv E ts h -> length (sp_data source) <= fuel -> exists o, header_loop E fuel source h = Ok o.
Proof.
  induction fuel as [|fuel IH]; intros source h ts Hc Hi L; cbn [header_loop]; destruct (sp_data source) as [|c0 d0] eqn:D; [eauto|cbn in L; lia|eauto|].
  rewrite <- D in *. assert (Ne : sp_data source <> []) by (rewrite D; discriminate). clear D c0 d0.
  destruct (header_step_in source h ts Ne Hi Hc) as ([h1 o] & Es). rewrite Es. cbn [bind fst snd]. destruct o as [s'|]; [|eauto].
  destruct (header_step_spec E source h ts h1 _ Ne Hi Es) as (k & r & Hk & Hr & Hs & _ & _ & _ & X). pose proof (hline_shorter _ _ _ Hk Ne) as Lr. subst r. pose proof (proj2 Hi) as Lt.
  assert (Y : exists ts1, inv E ts1 h1 /\ in_header ok ts1 (sp_data s')).
  { destruct k as [|n|n|n].
    - destruct X as [-> X]. exists []. split; [exact X|]. refine (proj2 (in_header_step ok [] _ _ _ [] Hc Hk _ _)); [cbn; lia|]. intros ks ts' rest w R. eexists. eapply hr_skip; eassumption.
    - exists ts. split; [exact X|]. refine (proj2 (in_header_step ok ts _ _ _ ts Hc Hk Lt _)). intros ks ts' rest w R. eexists. eapply hr_comment; eassumption.
    - exists ts. split; [exact X|]. refine (proj2 (in_header_step ok ts _ _ _ ts Hc Hk Lt _)). intros ks ts' rest w R. eexists. eapply hr_entry; eassumption.
    - destruct X as (Ht & Ll & X). exists (ts ++ [n]). split; [exact X|]. refine (proj2 (in_header_step ok ts _ _ _ (ts ++ [n]) Hc Hk _ _)); [rewrite app_length; cbn; lia|].
      intros ks ts' rest w R. eexists. destruct ts as [|t1 ts]; [eapply hr_title; eauto|]. eapply hr_line; [exact Hk| |exact R]. cbn [length] in *. lia. }
  destruct Y as (ts1 & X1 & X2). apply (IH s' h1 ts1); [exact X2|exact X1|lia].
Qed.
Theorem header_parse_in s P : in_header ok [] (sp_data s) -> exists o, header_parse E s P = Ok o.
Proof.
  intros Hc. unfold header_parse. rewrite discard_empty_lines_ok. cbn [bind]. destruct (header_loop_in _ s (hs_new P) [] Hc (inv_new E P) (le_n _)) as ([h src] & El). rewrite El. cbn [bind fst snd].
  rewrite discard_empty_lines_ok. cbn [bind]. destruct (header_loop_spec E _ s (hs_new P) [] h src (inv_new E P) El) as (ks & ts & w & _ & _ & Hs & _).
  rewrite (trim_remainder_eq s) by (auto using discard_empty_Suffix). cbn [bind]. rewrite trim_trailing_whitespace_ok. cbn [bind]. eauto.
Qed.
End Header.
