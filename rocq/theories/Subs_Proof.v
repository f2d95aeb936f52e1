From Verif Require Import Text TextFacts Maps Span_Model Parser_Model Regex Regex_Proof Regex_Scan Subs_Model Subs_Spec.

(** ** Special characters *)
Definition esc (c : char) : text :=
  if (c =? 60)%N then lit "&lt;" else if (c =? 62)%N then lit "&gt;" else if (c =? 38)%N then lit "&amp;" else [c].
Lemma c_in_special c : c_in (lit "<>&") c = (c =? 60)%N || (c =? 62)%N || (c =? 38)%N.
Proof. unfold c_in, has_char. cbn [lit existsb map]. cbn. rewrite orb_false_r, orb_assoc. reflexivity. Qed.
Lemma special_scans U : forall t prev, scans U SPECIAL_CHARS special_character_replacer prev t (flat_map esc t).
Proof.
  induction t as [|c t IH]; intros prev; [constructor; reflexivity|]. cbn [flat_map].
  destruct (c_in (lit "<>&") c) eqn:E.
  - eapply sc_match with (m := mkm [c] [] (Some c) t).
    + unfold match_here, SPECIAL_CHARS. cbn [rmatch s_rest]. rewrite E. reflexivity.
    + rewrite c_in_special in E. unfold special_character_replacer, esc. cbn [m_text text_eqb lit map].
      destruct (N.eqb_spec c 60); [subst; reflexivity|]. destruct (N.eqb_spec c 62); [subst; reflexivity|]. destruct (N.eqb_spec c 38); [subst; reflexivity|]. discriminate E.
    + apply IH.
  - assert (He : esc c = [c]). { rewrite c_in_special in E. unfold esc. destruct (c =? 60)%N, (c =? 62)%N, (c =? 38)%N; try discriminate E; reflexivity. }
    rewrite He. cbn [app]. apply sc_skip; [|apply IH]. unfold match_here, SPECIAL_CHARS. cbn [rmatch s_rest]. rewrite E. reflexivity.
Qed.
Lemma flat_map_esc_id t : existsb (c_in (lit "<>&")) t = false -> flat_map esc t = t.
Proof.
  induction t as [|c t IH]; intros H; [reflexivity|]. cbn [existsb] in H. apply orb_false_iff in H. destruct H as [H1 H2]. cbn [flat_map]. rewrite IH by exact H2.
  rewrite c_in_special in H1. unfold esc. destruct (c =? 60)%N, (c =? 62)%N, (c =? 38)%N; try discriminate H1; reflexivity.
Qed.
Lemma apply_special_characters_eq U t : apply_special_characters U t = Ok (flat_map esc t).
Proof.
  unfold apply_special_characters. destruct (existsb _ t) eqn:E; [|rewrite flat_map_esc_id by exact E; reflexivity].
  apply replace_all_pure_scans; [apply nonnull_never_empty; reflexivity|apply special_scans].
Qed.
Lemma esc_cases c : (c = 60%N /\ esc c = lit "&lt;") \/ (c = 62%N /\ esc c = lit "&gt;") \/ (c = 38%N /\ esc c = lit "&amp;") \/
  (c <> 60%N /\ c <> 62%N /\ c <> 38%N /\ esc c = [c]).
Proof. unfold esc. destruct (N.eqb_spec c 60), (N.eqb_spec c 62), (N.eqb_spec c 38); subst; auto 10. Qed.
Lemma decode_plain c r : c <> 38%N -> decode (c :: r) = c :: decode r.
Proof.
  intros H. destruct c as [|p]; [reflexivity|]. cbn [decode].
  do 6 (destruct p as [p|p|]; try reflexivity). contradiction.
Qed.
Lemma decode_esc t : decode (flat_map esc t) = t.
Proof.
  induction t as [|c t IH]; [reflexivity|]. cbn [flat_map].
  destruct (esc_cases c) as [[-> ->]|[[-> ->]|[[-> ->]|(H1 & H2 & H3 & ->)]]]; cbn [app]; try (cbn; rewrite IH; reflexivity).
  rewrite decode_plain by exact H3. rewrite IH. reflexivity.
Qed.
Lemma esc_no_angle t c : In c (flat_map esc t) -> c <> 60%N /\ c <> 62%N.
Proof.
  intros H. apply in_flat_map in H. destruct H as (x & _ & H).
  destruct (esc_cases x) as [[-> E]|[[-> E]|[[-> E]|(H1 & H2 & H3 & E)]]]; rewrite E in H; cbn in H.
  1-3: repeat (destruct H as [<-|H]; [split; discriminate|]); destruct H.
  destruct H as [<-|[]]. auto.
Qed.
Lemma esc_amp t : forall a b, flat_map esc t = a ++ 38%N :: b -> starts_entity (38%N :: b).
Proof.
  induction t as [|c t IH]; intros a b H; [destruct a; discriminate|]. cbn [flat_map] in H.
  assert (K : forall w, ~ In 38%N w -> w ++ flat_map esc t = a ++ 38%N :: b -> starts_entity (38%N :: b)).
  { clear H. intros w. revert a. induction w as [|x w IHw]; intros a Hw H; [apply (IH a), H|]. destruct a as [|y a]; cbn in H.
    - injection H as -> _. exfalso. apply Hw. left. reflexivity.
    - injection H as _ H. apply (IHw a); [|exact H]. intros Hin. apply Hw. right. exact Hin. }
  assert (K2 : forall w, ~ In 38%N w -> (38%N :: w) ++ flat_map esc t = a ++ 38%N :: b -> (exists r, 38%N :: b = (38%N :: w) ++ r) \/ starts_entity (38%N :: b)).
  { intros w Hw E. destruct a as [|y a]; cbn in E.
    - left. exists (flat_map esc t). injection E as <-. reflexivity.
    - right. injection E as _ E. clear K H. revert a E. induction w as [|x w IHw]; intros a E; [apply (IH a), E|]. destruct a as [|z a]; cbn in E.
      + injection E as -> _. exfalso. apply Hw. left. reflexivity.
      + injection E as _ E. apply (IHw (fun Hin => Hw (or_intror Hin)) a), E. }
  destruct (esc_cases c) as [[-> E]|[[-> E]|[[-> E]|(H1 & H2 & H3 & E)]]]; rewrite E in H.
  - apply (K2 (lit "lt;")) in H; [|cbn; intuition discriminate]. destruct H as [[r H]|H]; [|exact H]. exists r. left. exact H.
  - apply (K2 (lit "gt;")) in H; [|cbn; intuition discriminate]. destruct H as [[r H]|H]; [|exact H]. exists r. right. left. exact H.
  - apply (K2 (lit "amp;")) in H; [|cbn; intuition discriminate]. destruct H as [[r H]|H]; [|exact H]. exists r. right. right. exact H.
  - apply (K [c]); [|exact H]. intros [Hc|[]]. apply H3, Hc.
Qed.

(** ** Attribute references *)
Lemma name_first_iff c : is_ascii_alnum c || (c =? 95)%N = true <-> name_first c.
Proof. unfold is_ascii_alnum, is_ascii_alpha, is_ascii_upper, is_ascii_lower, is_ascii_digit, name_first. lia. Qed.
Lemma name_char_iff c : is_ascii_alnum c || (c =? 95)%N || (c =? 45)%N = true <-> name_char c.
Proof. unfold name_char. rewrite <- name_first_iff, orb_true_iff. rewrite N.eqb_eq. reflexivity. Qed.
Lemma name_no_brace n : is_name n -> ~ In 125%N n.
Proof.
  intros (c & r & -> & Hc & Hr) [E|Hin].
  - subst c. unfold name_first in Hc. lia.
  - rewrite Forall_forall in Hr. specialize (Hr _ Hin). unfold name_char, name_first in Hr. lia.
Qed.
Lemma cut_unique (x : char) a1 b1 a2 b2 : a1 ++ x :: b1 = a2 ++ x :: b2 -> ~ In x a1 -> ~ In x a2 -> a1 = a2 /\ b1 = b2.
Proof.
  revert a2. induction a1 as [|c a1 IH]; intros a2 H N1 N2; destruct a2 as [|d a2]; cbn in H.
  - injection H as ->. auto.
  - injection H as -> H. exfalso. apply N2. left. reflexivity.
  - injection H as -> H. exfalso. apply N1. left. reflexivity.
  - injection H as -> H. destruct (IH a2 H) as [-> ->]; auto.
    + intros Hin. apply N1. right. exact Hin.
    + intros Hin. apply N2. right. exact Hin.
Qed.
Lemma ref_unique n1 r1 n2 r2 : is_name n1 -> is_name n2 -> ref n1 ++ r1 = ref n2 ++ r2 -> n1 = n2 /\ r1 = r2.
Proof.
  intros H1 H2 E. unfold ref in E. cbn [lit map] in E. cbn [app] in E. injection E as E. rewrite <- !app_assoc in E. cbn [app] in E.
  apply cut_unique in E; [exact E|apply name_no_brace, H1|apply name_no_brace, H2].
Qed.
Lemma bsl_not_ref r n r' : BSL :: r <> ref n ++ r'.
Proof. discriminate. Qed.

Definition ref_match (n r : text) (escaped : bool) : mtch :=
  mkm ((if escaped then [BSL] else []) ++ ref n) [(1, n)] (Some 125%N) r.
Lemma attribute_reference_inv U prev t m : match_here U ATTRIBUTE_REFERENCE prev t = Some m ->
  exists n r e, is_name n /\ t = (if e : bool then [BSL] else []) ++ ref n ++ r /\ m = ref_match n r e.
Proof.
  intros H. unfold match_here in H. apply rmatch_sound in H. destruct H as (s' & D & H).
  unfold ATTRIBUTE_REFERENCE in D. cbn [Seqs] in D.
  apply den_seq_inv in D. destruct D as (s1 & D1 & D). apply den_seq_inv in D. destruct D as (s2 & D2 & D).
  apply den_seq_inv in D. destruct D as (s3 & D3 & D4).
  apply den_lit1_inv in D2. destruct D2 as (t2 & E2 & ->).
  apply den_grp_inv in D3. destruct D3 as (s4 & D3 & ->). apply den_seq_inv in D3. destruct D3 as (s5 & D5 & D6).
  apply den_chr_inv in D5. destruct D5 as (c & t5 & E5 & Hc & ->). cbn [advance s_rest] in E5. subst t2.
  apply den_star_chr_inv in D6. destruct D6 as (k & Lk & Fk & ->). cbn [advance s_rest] in Lk, Fk.
  apply den_lit1_inv in D4. destruct D4 as (r & E4 & ->). cbn [set_cap jump s_rest advance] in E4.
  set (a := firstn k t5) in *. assert (Ha : t5 = a ++ 125%N :: r) by (rewrite <- E4; unfold a; symmetry; apply firstn_skipn).
  assert (La : length a = k) by (unfold a; rewrite firstn_length; lia).
  exists (c :: a), r. assert (Hn : is_name (c :: a)).
  { exists c, a. split; [reflexivity|]. split; [apply name_first_iff, Hc|]. eapply Forall_impl; [|exact Fk]. intros x Hx. apply name_char_iff, Hx. }
  assert (E : s_rest s1 = ref (c :: a) ++ r). { rewrite E2, Ha. unfold ref. cbn [lit map app]. cbn. rewrite <- app_assoc. reflexivity. }
  assert (Hcap : s_caps (set_cap 1 (advance s1 123%N (c :: t5)) (jump (advance (advance s1 123%N (c :: t5)) c t5) k)) = (1, c :: a) :: s_caps s1).
  { cbn [set_cap s_caps jump advance s_pos s_rest]. f_equal. f_equal. replace (S (S (s_pos s1)) + k - S (s_pos s1)) with (S k) by lia. reflexivity. }
  assert (Hm : forall esc_, t = esc_ ++ ref (c :: a) ++ r -> s_pos s1 = length esc_ -> s_caps s1 = [] ->
     m = mkm (esc_ ++ ref (c :: a)) [(1, c :: a)] (Some 125%N) r).
  { intros esc_ Ht Hp Hc0. apply Some_inj in H. rewrite <- H. f_equal.
    - cbn [set_cap s_pos jump advance]. rewrite Ht, app_assoc. replace (S (S (S (s_pos s1)) + k)) with (length (esc_ ++ ref (c :: a))); [apply firstn_len|].
      rewrite app_length. unfold ref. rewrite !app_length. cbn [length lit map]. cbn. lia.
    - etransitivity; [exact Hcap|]. rewrite Hc0. reflexivity. }
  apply den_alt_inv in D1. destruct D1 as [D1|D1].
  - apply den_lit1_inv in D1. destruct D1 as (t1 & E1 & ->). cbn [s_rest] in E1. exists true. split; [exact Hn|].
    cbn [advance s_rest] in E. assert (Ht : t = [BSL] ++ ref (c :: a) ++ r) by (rewrite E1, E; reflexivity). split; [exact Ht|]. apply (Hm [BSL]); [exact Ht|reflexivity|reflexivity].
  - apply den_eps_inv in D1. subst s1. cbn [s_rest] in E. exists false. split; [exact Hn|]. split; [exact E|]. apply (Hm []); [exact E|reflexivity|reflexivity].
Qed.
Lemma attribute_reference_some U prev n r (e : bool) : is_name n ->
  exists s', den U ATTRIBUTE_REFERENCE (mkst 0 prev ((if e then [BSL] else []) ++ ref n ++ r) []) s'.
Proof.
  intros (c & a & -> & Hc & Ha). unfold ATTRIBUTE_REFERENCE. cbn [Seqs].
  assert (K : forall s1, s_rest s1 = ref (c :: a) ++ r -> exists s', den U (Seq (Lit1 123%N) (Seq (Grp 1 (Seq (Chr (fun c => is_ascii_alnum c || (c =? 95)%N))
                   (Many (Chr (fun c => is_ascii_alnum c || (c =? 95)%N || (c =? 45)%N))))) (Lit1 125%N))) s1 s').
  { intros s1 E. assert (E' : s_rest s1 = 123%N :: c :: a ++ 125%N :: r) by (rewrite E; unfold ref; cbn [lit map]; cbn; rewrite <- app_assoc; reflexivity).
    eexists. econstructor; [apply den_lit1, E'|]. econstructor.
    - apply d_grp. econstructor; [apply d_chr; [reflexivity|apply name_first_iff, Hc]|]. apply den_star_chr with (n := length a); cbn [s_rest advance].
      + rewrite app_length. lia.
      + rewrite firstn_len. eapply Forall_impl; [|exact Ha]. intros x Hx. apply name_char_iff, Hx.
    - apply den_lit1. cbn [s_rest set_cap jump advance]. rewrite skipn_app, skipn_all, Nat.sub_diag. reflexivity. }
  destruct e.
  - destruct (K (advance (mkst 0 prev ([BSL] ++ ref (c :: a) ++ r) []) BSL (ref (c :: a) ++ r)) eq_refl) as [s' D]. exists s'.
    econstructor; [apply d_alt_l, den_lit1; reflexivity|exact D].
  - destruct (K (mkst 0 prev ([] ++ ref (c :: a) ++ r) []) eq_refl) as [s' D]. exists s'. econstructor; [apply d_alt_r, d_eps|exact D].
Qed.
Lemma attribute_reference_match U prev n r e : is_name n ->
  match_here U ATTRIBUTE_REFERENCE prev ((if e : bool then [BSL] else []) ++ ref n ++ r) = Some (ref_match n r e).
Proof.
  intros Hn. destruct (attribute_reference_some U prev n r e Hn) as [s' D]. destruct (match_here_some _ _ _ _ _ D) as [m Hm]. rewrite Hm.
  apply attribute_reference_inv in Hm. destruct Hm as (n' & r' & e' & Hn' & E & ->). f_equal.
  destruct e, e'; cbn [app] in E.
  - apply (f_equal (@tl N)) in E. cbn [tl] in E. destruct (ref_unique _ _ _ _ Hn Hn' E) as [-> ->]. reflexivity.
  - destruct (bsl_not_ref _ _ _ E).
  - symmetry in E. destruct (bsl_not_ref _ _ _ E).
  - destruct (ref_unique _ _ _ _ Hn Hn' E) as [-> ->]. reflexivity.
Qed.
Lemma attribute_reference_none U prev t : ~ starts_ref t -> (forall u, t = BSL :: u -> ~ starts_ref u) -> match_here U ATTRIBUTE_REFERENCE prev t = None.
Proof.
  intros H1 H2. destruct (match_here U ATTRIBUTE_REFERENCE prev t) eqn:E; [|reflexivity]. exfalso.
  apply attribute_reference_inv in E. destruct E as (n & r & e & Hn & -> & _). destruct e.
  - apply (H2 _ eq_refl). exists n, r. auto.
  - apply H1. exists n, r. auto.
Qed.

(** The value of a reference, from the attribute table. *)
Definition value_of (P : parser) (n : text) : option text :=
  if has_attribute P n then Some (match attribute_value P n with VValue v => v | _ => [] end) else None.
Lemma attribute_replacer_ok P n r e : is_name n ->
  attribute_replacer P (ref_match n r e) =
  Ok (match value_of P n with None => (if e then [BSL] else []) ++ ref n | Some v => if e then ref n else v end).
Proof.
  intros Hn. unfold attribute_replacer, value_of. cbn [ref_match cap_idx cap m_caps get_cap Nat.eqb of_option bind m_text].
  destruct (has_attribute P n); cbn [negb].
  - destruct e; cbn [app]; [reflexivity|]. unfold ref at 1. cbn. destruct (attribute_value P n); reflexivity.
  - reflexivity.
Qed.
Lemma expands_scans U P t o : expands (value_of P) t o -> forall prev, scans U ATTRIBUTE_REFERENCE (attribute_replacer P) prev t o.
Proof.
  induction 1 as [|n v r o Hn Hv He IH|n v r o Hn Hv He IH|n r o Hn Hv He IH|n r o Hn Hv He IH|c t o H1 H2 He IH]; intros prev.
  - constructor. apply attribute_reference_none; [|discriminate]. intros (n & r & _ & E). discriminate E.
  - eapply sc_match; [apply (attribute_reference_match U prev n r false Hn)|rewrite attribute_replacer_ok, Hv by exact Hn; reflexivity|apply IH].
  - eapply sc_match; [apply (attribute_reference_match U prev n r true Hn)|rewrite attribute_replacer_ok, Hv by exact Hn; reflexivity|apply IH].
  - eapply sc_match; [apply (attribute_reference_match U prev n r false Hn)|rewrite attribute_replacer_ok, Hv by exact Hn; reflexivity|apply IH].
  - change (BSL :: ref n ++ o) with ((BSL :: ref n) ++ o). eapply sc_match; [apply (attribute_reference_match U prev n r true Hn)|rewrite attribute_replacer_ok, Hv by exact Hn; reflexivity|apply IH].
  - apply sc_skip; [|apply IH]. apply attribute_reference_none; [exact H1|]. intros u E. injection E as -> <-. intros Hs. apply H2. auto.
Qed.
Lemma scans_expands U P prev t o : scans U ATTRIBUTE_REFERENCE (attribute_replacer P) prev t o -> expands (value_of P) t o.
Proof.
  induction 1 as [prev Hn|prev c t o Hn Hs IH|prev t m x o Hm Hx Hs IH].
  - constructor.
  - apply ex_char; [| |exact IH].
    + intros (n & r & Hname & E). rewrite E in Hn. pose proof (attribute_reference_match U prev n r false Hname) as K. cbn [app] in K. rewrite K in Hn. discriminate Hn.
    + intros (-> & n & r & Hname & ->). pose proof (attribute_reference_match U prev n r true Hname) as K. cbn [app] in K. rewrite K in Hn. discriminate Hn.
  - apply attribute_reference_inv in Hm. destruct Hm as (n & r & e & Hn & -> & ->). rewrite attribute_replacer_ok in Hx by exact Hn.
    apply (f_equal (fun r => match r with Ok y => y | _ => x end)) in Hx. subst x. cbn [ref_match m_after] in IH.
    destruct (value_of P n) as [v|] eqn:Ev; destruct e; cbn [app].
    + eapply ex_escaped; eassumption.
    + eapply ex_value; eassumption.
    + apply ex_unknown_escaped; assumption.
    + apply ex_unknown; assumption.
Qed.
Lemma attribute_reference_nonnull : nonnull ATTRIBUTE_REFERENCE = true.
Proof. reflexivity. Qed.
Lemma expands_no_brace value t : has_char 123%N t = false -> expands value t t.
Proof.
  induction t as [|c t IH]; intros H; [constructor|]. unfold has_char in H. cbn [existsb] in H. apply orb_false_iff in H. destruct H as [H1 H2].
  apply ex_char; [| |apply IH, H2].
  - intros (n & r & _ & E). injection E as -> _. discriminate H1.
  - intros (_ & n & r & _ & ->). discriminate H2.
Qed.
Lemma expands_ref value n r o : is_name n -> expands value (ref n ++ r) o ->
  exists o', expands value r o' /\ o = match value n with Some v => v | None => ref n end ++ o'.
Proof.
  intros Hn He. remember (ref n ++ r) as t eqn:Et. destruct He as [|n' v r' o Hn' Hv He|n' v r' o Hn' Hv He|n' r' o Hn' Hv He|n' r' o Hn' Hv He|c t o H1 H2 He].
  - discriminate Et.
  - destruct (ref_unique _ _ _ _ Hn' Hn Et) as [-> ->]. rewrite Hv. eauto.
  - destruct (bsl_not_ref _ _ _ Et).
  - destruct (ref_unique _ _ _ _ Hn' Hn Et) as [-> ->]. rewrite Hv. eauto.
  - destruct (bsl_not_ref _ _ _ Et).
  - exfalso. apply H1. exists n, r. auto.
Qed.
Lemma expands_bsl_ref value n r o : is_name n -> expands value (BSL :: ref n ++ r) o ->
  exists o', expands value r o' /\ o = match value n with Some v => ref n | None => BSL :: ref n end ++ o'.
Proof.
  intros Hn He. remember (BSL :: ref n ++ r) as t eqn:Et. destruct He as [|n' v r' o Hn' Hv He|n' v r' o Hn' Hv He|n' r' o Hn' Hv He|n' r' o Hn' Hv He|c t o H1 H2 He].
  - discriminate Et.
  - symmetry in Et. destruct (bsl_not_ref _ _ _ Et).
  - apply (f_equal (@tl N)) in Et. cbn [tl] in Et. destruct (ref_unique _ _ _ _ Hn' Hn Et) as [-> ->]. rewrite Hv. eauto.
  - symmetry in Et. destruct (bsl_not_ref _ _ _ Et).
  - apply (f_equal (@tl N)) in Et. cbn [tl] in Et. destruct (ref_unique _ _ _ _ Hn' Hn Et) as [-> ->]. rewrite Hv. eauto.
  - exfalso. apply H2. apply (f_equal (@tl N)) in Et as E2. apply (f_equal (hd 0%N)) in Et as E1. cbn [tl] in E2. cbn [hd] in E1. split; [exact E1|]. exists n, r. auto.
Qed.
Lemma expands_det value t o : expands value t o -> forall o', expands value t o' -> o = o'.
Proof.
  induction 1 as [|n v r o Hn Hv He IH|n v r o Hn Hv He IH|n r o Hn Hv He IH|n r o Hn Hv He IH|c t o H1 H2 He IH]; intros o' H'.
  - remember (@nil N) as t eqn:Et. destruct H'; try discriminate Et. reflexivity.
  - apply expands_ref in H'; [|exact Hn]. destruct H' as (o1 & H1 & ->). rewrite Hv. f_equal. apply IH, H1.
  - apply expands_bsl_ref in H'; [|exact Hn]. destruct H' as (o1 & H1 & ->). rewrite Hv. f_equal. apply IH, H1.
  - apply expands_ref in H'; [|exact Hn]. destruct H' as (o1 & H1 & ->). rewrite Hv. f_equal. apply IH, H1.
  - apply expands_bsl_ref in H'; [|exact Hn]. destruct H' as (o1 & H1 & ->). rewrite Hv. cbn [app]. f_equal. f_equal. apply IH, H1.
  - remember (c :: t) as t' eqn:Et. destruct H' as [|n v r o1 Hn Hv He1|n v r o1 Hn Hv He1|n r o1 Hn Hv He1|n r o1 Hn Hv He1|c1 t1 o1 H3 H4 He1].
    + discriminate Et.
    + exfalso. apply H1. exists n, r. auto.
    + exfalso. apply (f_equal (@tl N)) in Et as E2. apply (f_equal (hd 0%N)) in Et as E1. cbn [tl] in E2. cbn [hd] in E1. apply H2. split; [auto|]. exists n, r. auto.
    + exfalso. apply H1. exists n, r. auto.
    + exfalso. apply (f_equal (@tl N)) in Et as E2. apply (f_equal (hd 0%N)) in Et as E1. cbn [tl] in E2. cbn [hd] in E1. apply H2. split; [auto|]. exists n, r. auto.
    + injection Et as -> ->. f_equal. apply IH, He1.
Qed.
Lemma apply_attributes_iff U P t o : apply_attributes U P t = Ok o <-> expands (value_of P) t o.
Proof.
  unfold apply_attributes. destruct (has_char 123%N t) eqn:E.
  - rewrite replace_all_pure_scans by (apply nonnull_never_empty, attribute_reference_nonnull). split; [apply scans_expands|intros H; apply expands_scans, H].
  - pose proof (expands_no_brace (value_of P) t E) as H. split.
    + intros Ho. apply (f_equal (fun r => match r with Ok y => y | _ => o end)) in Ho. subst o. exact H.
    + intros Ho. f_equal. eapply expands_det; eassumption.
Qed.
Lemma apply_attributes_total U P t : exists o, apply_attributes U P t = Ok o.
Proof.
  unfold apply_attributes. destruct (has_char 123%N t); [|eauto]. apply replace_all_pure_ok. intros pv x m H.
  apply attribute_reference_inv in H. destruct H as (n & r & e & Hn & _ & ->). rewrite attribute_replacer_ok by exact Hn. eauto.
Qed.
