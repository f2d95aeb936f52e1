(** Proofs about what the inline macros make of a text. *)
From Verif Require Import Text TextFacts Span_Model Span_Proof Span_Laws Maps Parser_Model Regex Regex_Proof Regex_Scan Regex_Lang Regex_Lazy Attrlist_Model Attrlist_Proof Attrlist_Laws Render_Model Render_Proof
  Quote_Model Macro_Model Macro_Spec Macro_Proof Auto_Spec.

(** * Rules where the matcher chooses *)
(** The matcher [r] with replacer [rep] finds exactly the places of the rule. *)
Definition realizes (U : unicode) (r : re) (rep : mtch -> res text) (R : option char -> text -> text -> text -> Prop) : Prop :=
  (forall prev t m, match_here U r prev t = Some m -> exists x, rep m = Ok x /\ R prev (m_text m) (m_after m) x) /\
  (forall prev w rest x, R prev w rest x -> exists w' rest' caps, w ++ rest = w' ++ rest' /\ lang U r prev w' rest' caps).
Section Realizes.
  Context (U : unicode) (r : re) (rep : mtch -> res text) (R : option char -> text -> text -> text -> Prop) (Hr : rule_ok R) (Hi : realizes U r rep R).
  Lemma realizes_match prev t m : match_here U r prev t = Some m ->
    exists x, t = m_text m ++ m_after m /\ m_prev m = prev_of prev (m_text m) /\ R prev (m_text m) (m_after m) x /\ rep m = Ok x.
  Proof.
    intros H. destruct Hi as [H1 _]. destruct (H1 _ _ _ H) as (x & Hx & Rx). apply match_here_lang in H. destruct H as (E & Hp & L). exists x. auto.
  Qed.
  Lemma realizes_nonempty : never_empty U r.
  Proof. intros prev t m H. apply realizes_match in H. destruct H as (x & _ & _ & H & _). destruct Hr as [H1 _]. apply (H1 _ _ _ _ H). Qed.
  Lemma realizes_some prev w rest x : R prev w rest x ->
    exists m, match_here U r prev (w ++ rest) = Some m /\ m_text m = w /\ m_after m = rest /\ rep m = Ok x.
  Proof.
    intros H. destruct Hi as [_ H2]. destruct (H2 _ _ _ _ H) as (w' & rest' & caps & Ew & L). destruct (lang_match _ _ _ _ _ _ L) as [m Hm]. rewrite <- Ew in Hm. exists m. split; [exact Hm|].
    apply realizes_match in Hm. destruct Hm as (x' & E & _ & H' & Hx'). destruct Hr as [_ Hd]. destruct (Hd _ _ _ _ _ _ _ H H' E) as [-> ->].
    split; [reflexivity|]. split; [|exact Hx']. apply app_inv_head in E. auto.
  Qed.
  Lemma scans_realized prev t o : scans U r rep prev t o <-> rewritten R prev t o.
  Proof.
    split.
    - induction 1 as [prev Hn|prev c t o Hn Hs IH|prev t m x o Hm Hx Hs IH].
      + constructor.
      + apply rw_char; [|exact IH]. intros w rest x E H. apply realizes_some in H. destruct H as (m & Hm & _). rewrite <- E in Hm. congruence.
      + apply realizes_match in Hm. destruct Hm as (x' & -> & Hp & H & Hx'). rewrite Hx in Hx'. apply (f_equal (fun r => match r with Ok y => y | _ => x end)) in Hx'. subst x'.
        apply rw_step; [exact H|]. rewrite <- Hp. exact IH.
    - induction 1 as [prev|prev w rest x o H Hs IH|prev c t o Hn Hs IH].
      + constructor. destruct (match_here U r prev []) eqn:E; [|reflexivity]. exfalso. pose proof (realizes_nonempty _ _ _ E) as N.
        apply realizes_match in E. destruct E as (x & E & _). symmetry in E. apply app_eq_nil in E. destruct E. contradiction.
      + apply realizes_some in H. destruct H as (m & Hm & Ht & Ha & Hx). eapply sc_match; [exact Hm|exact Hx|]. apply match_here_text in Hm. destruct Hm as [_ ->]. rewrite Ht, Ha. exact IH.
      + apply sc_skip; [|exact IH]. destruct (match_here U r prev (c :: t)) eqn:E; [|reflexivity]. exfalso. apply realizes_match in E.
        destruct E as (x & E & _ & H & _). apply (Hn _ _ _ E H).
  Qed.
  Lemma replace_all_realized h o : replace_all_pure U r rep h = Ok o <-> rewritten R None h o.
  Proof. rewrite replace_all_pure_scans by apply realizes_nonempty. apply scans_realized. Qed.
End Realizes.
Lemma first_some_greedy {A} (f : nat -> option A) n x : first_some f (rev (seq 0 (S n))) = Some x -> exists i, i <= n /\ f i = Some x /\ forall j, i < j <= n -> f j = None.
Proof.
  induction n as [|n IH]; intros H.
  - cbn in H. exists 0. destruct (f 0) eqn:E; [|discriminate H]. injection H as ->. split; [lia|]. split; [assumption || reflexivity|]. intros j Hj. lia.
  - rewrite seq_S, rev_app_distr in H. cbn [rev app Nat.add first_some] in H. destruct (f (Datatypes.S n)) eqn:E.
    + injection H as ->. exists (Datatypes.S n). split; [lia|]. split; [assumption || reflexivity|]. intros j Hj. lia.
    + destruct (IH H) as (i & Hi & Ei & Hj). exists i. split; [lia|]. split; [exact Ei|]. intros j Hlt. destruct (Nat.eq_dec j (Datatypes.S n)) as [->|]; [exact E|apply Hj; lia].
Qed.

(** * E-mail addresses *)
Lemma empty_attrlist U P : inline_attrlist U P [] = inline_attrlist ascii_only parser_default [].
Proof. reflexivity. Qed.
Definition esc_char (c : char) : bool := c_in (lit ">:/" ++ [BSL]) c.
Definition e_local U (c : char) : bool := is_word U c || c_in (lit "-.%+") c.
Definition e_first U (c : char) : bool := is_letter U c || c_digit U c.
Definition e_dom U (c : char) : bool := is_letter U c || c_digit U c || c_in (lit "_-.") c.
Definition SUFFIX : re := Seqs [Lit1 46%N; Chr is_ascii_alpha; Chr is_ascii_alpha; Upto 3 (Chr is_ascii_alpha)].
Definition MAIL (U : unicode) : re :=
  Seq (Chr (fun c => is_word U c || (c =? 95)%N)) (Seq (Many (Alt (Lit (lit "&amp;")) (Chr (e_local U)))) (Seq (Lit1 64%N) (Seq (Chr (e_first U)) (Seq (Many (Chr (e_dom U))) SUFFIX)))).
Lemma email_re U : INLINE_EMAIL U = Seq (Grp 1 (Opt (Chr esc_char))) (Seq (Grp 2 (MAIL U)) (Assert AWordBoundary)).
Proof. reflexivity. Qed.
Lemma e_first_spec U c : e_first U c = letter_or_digit U c.
Proof. unfold e_first, is_letter, c_digit, letter_or_digit, is_ascii_alnum. destruct (c <? 128)%N; reflexivity. Qed.
Lemma e_word U c : is_word U c || (c =? 95)%N = is_word U c.
Proof. unfold is_word. destruct (c <? 128)%N eqn:E; [|destruct (N.eqb_spec c 95) as [->|_]; [discriminate E|apply orb_false_r]]. rewrite <- orb_assoc. f_equal. apply orb_diag. Qed.
Lemma c_in_spec t c : c_in t c = true <-> In c t.
Proof. unfold c_in. apply has_char_spec. Qed.
Lemma e_dom_spec U c : e_dom U c = true <-> letter_or_digit U c = true \/ In c (lit "_-.").
Proof. unfold e_dom. fold (e_first U c). rewrite orb_true_iff, e_first_spec, c_in_spec. reflexivity. Qed.
Lemma e_local_spec U c : e_local U c = true <-> is_word U c = true \/ In c (lit "-.%+").
Proof. unfold e_local. rewrite orb_true_iff, c_in_spec. reflexivity. Qed.
Lemma alpha_word U c : is_ascii_alpha c = true -> is_word U c = true.
Proof.
  intros H. unfold is_word, is_ascii_alnum. rewrite H. replace (c <? 128)%N with true; [reflexivity|]. symmetry. apply N.ltb_lt. unfold is_ascii_alpha, is_ascii_upper, is_ascii_lower in H. lia.
Qed.
Lemma lang_local U : forall prev w rest caps, iter (lang U (Alt (Lit (lit "&amp;")) (Chr (e_local U)))) prev w rest caps <-> local_rest U w /\ caps = [].
Proof.
  intros prev w rest caps. split.
  - induction 1 as [|prev w1 w2 rest c1 c2 L _ _ (IH & ->)]; [split; [constructor|reflexivity]|]. apply (proj1 (lang_alt _ _ _ _ _ _ _)) in L. destruct L as [L|L].
    + apply (proj1 (lang_lit _ _ _ _ _ _)) in L. destruct L as (-> & ->). split; [apply lr_amp, IH|reflexivity].
    + apply (proj1 (lang_chr _ _ _ _ _ _)) in L. destruct L as (c & -> & Hc & ->). split; [apply lr_char; [apply e_local_spec, Hc|exact IH]|reflexivity].
  - intros (H & ->). revert prev. induction H as [|c t Hc H IH|t H IH]; intros prev; [constructor| |].
    + change (c :: t) with ([c] ++ t). change (@nil (nat * text)) with (@nil (nat * text) ++ []). constructor; [|discriminate|apply IH]. apply lang_alt. right. apply lang_chr. exists c. split; [reflexivity|]. split; [apply e_local_spec, Hc|reflexivity].
    + change (@nil (nat * text)) with (@nil (nat * text) ++ []). constructor; [|discriminate|apply IH]. apply lang_alt. left. apply lang_lit. auto.
Qed.
Lemma lang_suffix U prev w rest caps : lang U SUFFIX prev w rest caps <-> exists s, w = lit "." ++ s /\ Forall (fun x => is_ascii_alpha x = true) s /\ 2 <= length s <= 5 /\ caps = [].
Proof.
  unfold SUFFIX. cbn [Seqs]. split.
  - intros L. apply -> lang_seq in L. destruct L as (a & b & c1 & c2 & -> & -> & La & L). apply -> lang_lit1 in La. destruct La as (-> & ->).
    apply -> lang_seq in L. destruct L as (a & b' & c1 & c3 & -> & -> & La & L). apply -> lang_chr in La. destruct La as (x & -> & Hx & ->).
    apply -> lang_seq in L. destruct L as (a & b & c1 & c4 & -> & -> & La & L). apply -> lang_chr in La. destruct La as (y & -> & Hy & ->).
    apply -> lang_upto_chr in L. destruct L as (F & Hl & ->). exists (x :: y :: b). split; [reflexivity|]. split; [repeat constructor; assumption|]. split; [cbn [length]; lia|reflexivity].
  - intros (s & -> & F & Hl & ->). destruct s as [|x [|y s]]; [cbn in Hl; lia|cbn in Hl; lia|]. inversion F as [|? ? Hx F2]; subst. inversion F2 as [|? ? Hy F3]; subst.
    apply lang_seq. exists (lit "."), (x :: y :: s), [], []. split; [reflexivity|]. split; [reflexivity|]. split; [apply lang_lit1; auto|].
    apply lang_seq. exists [x], (y :: s), [], []. split; [reflexivity|]. split; [reflexivity|]. split; [apply lang_chr; eauto|].
    apply lang_seq. exists [y], s, [], []. split; [reflexivity|]. split; [reflexivity|]. split; [apply lang_chr; eauto|]. apply lang_upto_chr. split; [exact F3|]. split; [cbn [length] in Hl; lia|reflexivity].
Qed.
Lemma forall_dom U d : Forall (fun c => e_dom U c = true) d <-> Forall (fun x => letter_or_digit U x = true \/ In x (lit "_-.")) d.
Proof. split; intros F; (eapply Forall_impl; [|exact F]); intros c; apply e_dom_spec. Qed.
Lemma lang_mail U prev w rest caps : lang U (MAIL U) prev w rest caps <-> address U w /\ caps = [].
Proof.
  unfold MAIL. split.
  - intros L. apply -> lang_seq in L. destruct L as (a & b & c1 & c2 & -> & -> & La & L). apply -> lang_chr in La. destruct La as (c & -> & Hc & ->). rewrite e_word in Hc.
    apply -> lang_seq in L. destruct L as (l & b' & c1 & c3 & -> & -> & La & L). apply -> lang_local in La. destruct La as (Hl & ->).
    apply -> lang_seq in L. destruct L as (a & b & c1 & c4 & -> & -> & La & L). apply -> lang_lit1 in La. destruct La as (-> & ->).
    apply -> lang_seq in L. destruct L as (a & b' & c1 & c5 & -> & -> & La & L). apply -> lang_chr in La. destruct La as (h & -> & Hh & ->). rewrite e_first_spec in Hh.
    apply -> lang_seq in L. destruct L as (d & b & c1 & c6 & -> & -> & La & L). apply -> lang_many_chr in La. destruct La as (Hd & ->).
    apply -> lang_suffix in L. destruct L as (s & -> & Hs & Hn & ->). split; [|reflexivity]. exists c, l, h, d, s. split; [reflexivity|]. do 3 (split; [assumption|]). split; [apply forall_dom, Hd|auto].
  - intros ((c & l & h & d & s & -> & Hc & Hl & Hh & Hd & Hs & Hn) & ->).
    apply lang_seq. exists [c], (l ++ lit "@" ++ [h] ++ d ++ lit "." ++ s), [], []. split; [reflexivity|]. split; [reflexivity|]. split; [apply lang_chr; exists c; rewrite e_word; auto|].
    apply lang_seq. exists l, (lit "@" ++ [h] ++ d ++ lit "." ++ s), [], []. split; [reflexivity|]. split; [reflexivity|]. split; [apply lang_local; auto|].
    apply lang_seq. exists (lit "@"), ([h] ++ d ++ lit "." ++ s), [], []. split; [reflexivity|]. split; [reflexivity|]. split; [apply lang_lit1; auto|].
    apply lang_seq. exists [h], (d ++ lit "." ++ s), [], []. split; [reflexivity|]. split; [reflexivity|]. split; [apply lang_chr; exists h; rewrite e_first_spec; auto|].
    apply lang_seq. exists d, (lit "." ++ s), [], []. split; [reflexivity|]. split; [reflexivity|]. split; [apply lang_many_chr; split; [apply forall_dom, Hd|reflexivity]|]. apply lang_suffix. eauto.
Qed.
(** The last character of an address is a letter. *)
Lemma address_last U w prev : address U w -> word_opt U (prev_of prev w) = true.
Proof.
  intros (c & l & h & d & s & -> & _ & _ & _ & _ & Hs & Hn). destruct (exists_last (l := s)) as (s0 & z & ->); [intros ->; cbn in Hn; lia|].
  replace ([c] ++ l ++ lit "@" ++ [h] ++ d ++ lit "." ++ s0 ++ [z]) with (([c] ++ l ++ lit "@" ++ [h] ++ d ++ lit "." ++ s0) ++ [z]) by (rewrite <- !app_assoc; reflexivity).
  rewrite <- prev_of_app. cbn [prev_of rev app hd_error word_opt]. apply alpha_word. apply Forall_app in Hs. destruct Hs as (_ & Hs). inversion Hs; assumption.
Qed.
Lemma word_end_check U prev w rest : address U w -> at_check U AWordBoundary (prev_of prev w) rest = true <-> word_end U rest.
Proof.
  intros H. unfold at_check. cbn [check s_prev s_rest]. rewrite (address_last U w prev H). split.
  - intros K c r ->. cbn [hd_error word_opt] in K. destruct (is_word U c); [discriminate K|reflexivity].
  - intros K. destruct rest as [|c r]; [reflexivity|]. cbn [hd_error word_opt]. rewrite (K c r eq_refl). reflexivity.
Qed.
Lemma lang_email U prev w rest caps : lang U (INLINE_EMAIL U) prev w rest caps <->
  exists e m, w = e ++ m /\ (e = [] \/ exists c, e = [c] /\ esc_char c = true) /\ address U m /\ word_end U rest /\ caps = [(2, m); (1, e)].
Proof.
  rewrite email_re. split.
  - intros L. apply -> lang_seq in L. destruct L as (e & b & c1 & c2 & -> & -> & La & L). apply -> lang_grp in La. destruct La as (c3 & -> & La).
    assert (He : (e = [] \/ exists c, e = [c] /\ esc_char c = true) /\ c3 = []). { unfold Opt in La. apply -> lang_alt in La. destruct La as [La|La]; [apply -> lang_chr in La; destruct La as (c & -> & Hc & ->); eauto|apply -> lang_eps in La; destruct La as (-> & ->); auto]. }
    destruct He as (He & ->). clear La. apply -> lang_seq in L. destruct L as (m & b' & c1 & c4 & -> & -> & La & L). apply -> lang_grp in La. destruct La as (c3 & -> & La). apply -> lang_mail in La. destruct La as (Ha & ->).
    apply -> lang_assert in L. destruct L as (-> & -> & Hc). exists e, m. rewrite app_nil_r. split; [reflexivity|]. split; [exact He|]. split; [exact Ha|]. split; [|reflexivity]. apply (word_end_check U (prev_of prev e) m rest Ha), Hc.
  - intros (e & m & -> & He & Ha & Hw & ->). apply lang_seq. exists e, m, [(1, e)], [(2, m)]. split; [reflexivity|]. split; [reflexivity|]. split.
    + apply <- lang_grp. exists []. split; [reflexivity|]. unfold Opt. apply lang_alt. destruct He as [->|(c & -> & Hc)]; [right; apply lang_eps; auto|left; apply lang_chr; eauto].
    + apply lang_seq. exists m, [], [(2, m)], []. rewrite app_nil_r. split; [reflexivity|]. split; [reflexivity|]. split; [apply <- lang_grp; exists []; split; [reflexivity|apply lang_mail; auto]|].
      apply lang_assert. split; [reflexivity|]. split; [reflexivity|]. apply (word_end_check U (prev_of prev e) m rest Ha), Hw.
Qed.
Lemma no_at U l : local_rest U l -> ~ In 64%N l.
Proof.
  induction 1 as [|c t Hc _ IH|t _ IH]; [intros []| |].
  - intros [->|K]; [|exact (IH K)]. destruct Hc as [Hc|Hc]; [discriminate Hc|]. cbn in Hc. repeat (destruct Hc as [Hc|Hc]; [discriminate Hc|]). exact Hc.
  - intros K. apply in_app_iff in K. destruct K as [K|K]; [|exact (IH K)]. cbn in K. repeat (destruct K as [K|K]; [discriminate K|]). exact K.
Qed.
Lemma split_at (c : char) a b a' b' : ~ In c a -> ~ In c a' -> a ++ c :: b = a' ++ c :: b' -> a = a' /\ b = b'.
Proof.
  revert a'. induction a as [|x a IH]; intros a' H H' E; destruct a' as [|y a']; cbn [app] in E.
  - injection E as ->. auto.
  - injection E as -> _. destruct H'. left. reflexivity.
  - injection E as -> _. destruct H. left. reflexivity.
  - injection E as -> E2. destruct (IH a' (fun K => H (or_intror K)) (fun K => H' (or_intror K)) E2) as (-> & ->). auto.
Qed.
Lemma esc_no_word U c : esc_char c = true -> is_word U c = false.
Proof. unfold esc_char. intros H. apply c_in_spec in H. cbn in H. repeat (destruct H as [<-|H]; [reflexivity|]). destruct H. Qed.
Lemma same_escape U e e' c c' r r' : (e = [] \/ exists c, e = [c] /\ esc_char c = true) -> (e' = [] \/ exists c, e' = [c] /\ esc_char c = true) -> is_word U c = true -> is_word U c' = true ->
  e ++ c :: r = e' ++ c' :: r' -> e = e' /\ c = c' /\ r = r'.
Proof.
  intros [->|(x & -> & Hx)] [->|(y & -> & Hy)] Hc Hc' E; cbn [app] in E.
  - injection E as -> ->. auto.
  - injection E as -> _. rewrite (esc_no_word U _ Hy) in Hc. discriminate Hc.
  - injection E as -> _. rewrite (esc_no_word U _ Hx) in Hc'. discriminate Hc'.
  - injection E as -> -> ->. auto.
Qed.
(** Letters up to the end of a word. *)
Lemma same_letters U s s' r r' : Forall (fun x => is_ascii_alpha x = true) s -> Forall (fun x => is_ascii_alpha x = true) s' -> word_end U r -> word_end U r' -> s ++ r = s' ++ r' -> s = s' /\ r = r'.
Proof.
  revert s'. induction s as [|x s IH]; intros s' F F' W W' E; destruct s' as [|y s']; cbn [app] in E.
  - auto.
  - exfalso. inversion F' as [|? ? Hy _]; subst. specialize (W _ _ eq_refl). rewrite (alpha_word U _ Hy) in W. discriminate W.
  - exfalso. inversion F as [|? ? Hx _]; subst. specialize (W' _ _ eq_refl). rewrite (alpha_word U _ Hx) in W'. discriminate W'.
  - injection E as -> E. inversion F; inversion F'; subst. destruct (IH s') as (-> & ->); auto.
Qed.
Lemma dot_after (d d' s s' : text) r r' : d ++ 46%N :: s ++ r = d' ++ 46%N :: s' ++ r' -> Forall (fun x => is_ascii_alpha x = true) s' -> length d' < length d -> length d' + 1 + length s' <= length d.
Proof.
  intros E F L. destruct (Nat.le_gt_cases (length d' + 1 + length s') (length d)) as [K|K]; [exact K|exfalso].
  assert (N1 : nth_error (d ++ 46%N :: s ++ r) (length d) = Some 46%N) by (rewrite nth_error_app2 by lia; rewrite Nat.sub_diag; reflexivity).
  rewrite E in N1. rewrite nth_error_app2 in N1 by lia. destruct (length d - length d') as [|q] eqn:Eq; [lia|]. cbn [nth_error] in N1. rewrite nth_error_app1 in N1 by lia.
  apply nth_error_In in N1. rewrite Forall_forall in F. specialize (F _ N1). discriminate F.
Qed.
Lemma email_longest U prev t m e' a' rest' : match_here U (INLINE_EMAIL U) prev t = Some m -> t = e' ++ a' ++ rest' -> (e' = [] \/ exists c, e' = [c] /\ esc_char c = true) -> address U a' -> word_end U rest' ->
  length (e' ++ a') <= length (m_text m).
Proof.
  intros H Et He' Ha' Hw'. unfold match_here in H. rewrite email_re in H. set (K := fun s' : st => Some (mkm (firstn (s_pos s') t) (s_caps s') (s_prev s') (s_rest s'))) in H. set (s0 := mkst 0 prev t []) in H.
  apply rmatch_seq_lang in H. destruct H as (e & r1 & k1 & E1 & L1 & H). apply -> lang_grp in L1. destruct L1 as (k1' & -> & L1).
  assert (He : e = [] \/ exists c, e = [c] /\ esc_char c = true). { unfold Opt in L1. apply -> lang_alt in L1. destruct L1 as [La|La]; [apply -> lang_chr in La; destruct La as (c & -> & Hc & ->); eauto|apply -> lang_eps in La; destruct La as (-> & ->); auto]. }
  set (s1 := ext s0 e r1 _) in H. change (rmatch U (MAIL U) (fun s' => rmatch U (Assert AWordBoundary) K (set_cap 2 s1 s')) s1 = Some m) in H. set (K2 := fun s' => rmatch U (Assert AWordBoundary) K (set_cap 2 s1 s')) in H.
  unfold MAIL in H. apply rmatch_seq_lang in H. destruct H as (x & r2 & k2 & E2 & L2 & H). apply -> lang_chr in L2. destruct L2 as (c & -> & Hc & ->). rewrite e_word in Hc.
  apply rmatch_seq_lang in H. destruct H as (l & r3 & k3 & E3 & L3 & H). apply -> lang_local in L3. destruct L3 as (Hl & ->).
  apply rmatch_seq_lang in H. destruct H as (x & r4 & k4 & E4 & L4 & H). apply -> lang_lit1 in L4. destruct L4 as (-> & ->).
  apply rmatch_seq_lang in H. destruct H as (x & r5 & k5 & E5 & L5 & H). apply -> lang_chr in L5. destruct L5 as (h & -> & Hh & ->).
  match type of H with rmatch U _ K2 ?s = _ => set (s5 := s) in H end. change (rmatch U (Many (Chr (e_dom U))) (rmatch U SUFFIX K2) s5 = Some m) in H. rewrite rmatch_many_chr in H.
  apply first_some_greedy in H. destruct H as (i & Hi & Ei & Hj).
  assert (R5 : s_rest s5 = r5) by reflexivity. rewrite R5 in *. cbn [ext s_rest] in E2, E3, E4, E5. assert (R0 : s_rest s0 = t) by reflexivity. rewrite R0 in E1. assert (Er1 : s_rest s1 = r1) by reflexivity. rewrite Er1 in E2.
  assert (P5 : s_pos s5 = length e + 1 + length l + 1 + 1). { unfold s5, s1, s0. cbn [ext s_pos length]. lia. }
  (* the other reading begins in the same way *)
  destruct Ha' as (c' & l' & h' & d' & s' & -> & Hc' & Hl' & Hh' & Hd' & Hs' & Hn'). rewrite E1, E2, E3, E4, E5 in Et. cbn [app] in Et. repeat rewrite <- app_assoc in Et.
  destruct (same_escape U e e' c c' _ _ He He' Hc Hc' Et) as (-> & -> & Et2). repeat rewrite <- app_assoc in Et2. cbn [app] in Et2. apply split_at in Et2; [|apply (no_at U), Hl|apply (no_at U), Hl']. destruct Et2 as (-> & Et2). cbn [app] in Et2. repeat rewrite <- app_assoc in Et2. injection Et2 as Ehh Et3. subst h'. cbn [app] in Et3.
  pose proof (proj2 (forall_dom U d') Hd') as Fd'. assert (Hj' : length d' <= run_len (e_dom U) r5) by (rewrite Et3; apply run_len_ge, Fd').
  (* the choice *)
  apply rmatch_lang in Ei. destruct Ei as (w6 & r6 & k6 & E6 & L6 & H). apply -> lang_suffix in L6. destruct L6 as (s & -> & Hs & Hn & ->).
  pose proof (run_len_le (e_dom U) r5) as Hrl. assert (Rj : s_rest (jump s5 i) = skipn i r5) by reflexivity. rewrite Rj in E6.
  assert (Hlen : length (m_text m) = length e' + 1 + length l' + 1 + 1 + i + length (lit "." ++ s)).
  { unfold K2 in H. cbn [rmatch] in H. destruct (check _ _ _); [|discriminate H]. unfold K in H. injection H as <-. cbn [m_text]. change (length (lit "." ++ s)) with (Datatypes.S (length s)).  rewrite firstn_length_le; [lia|].
    rewrite E1, E2, E3, E4, E5. rewrite !app_length. assert (Q : length r5 = i + length (skipn i r5)) by (rewrite skipn_length; lia). rewrite E6, !app_length in Q. change (length (lit ".")) with 1 in Q. cbn [length]. lia. }
  assert (Hw : word_end U r6).
  { unfold K2 in H. cbn [rmatch] in H. destruct (check _ _ _) eqn:Ec; [|discriminate H]. cbn [check set_cap s_prev s_rest ext] in Ec. intros y r ->. cbn [hd_error word_opt] in Ec.
    destruct (exists_last (l := s)) as (s7 & z & Ez); [intros ->; cbn in Hn; lia|]. rewrite Ez in *. rewrite app_assoc, <- prev_of_app in Ec. cbn [prev_of rev app hd_error word_opt] in Ec. apply Forall_app in Hs. destruct Hs as (_ & Hs). pose proof (Forall_inv Hs) as Hz. rewrite (alpha_word U z Hz) in Ec. destruct (is_word U y); [discriminate Ec|reflexivity]. }
  rewrite Hlen. rewrite !app_length. cbn [length].
  assert (Er5 : firstn i r5 ++ 46%N :: s ++ r6 = d' ++ 46%N :: s' ++ rest'). { rewrite <- Et3. rewrite <- (firstn_skipn i r5) at 2. rewrite E6. reflexivity. }
  assert (Li : length (firstn i r5) = i) by (apply firstn_length_le; lia).
  destruct (lt_eq_lt_dec (length d') i) as [[Hlt|Heq]|Hgt].
  - pose proof (dot_after (firstn i r5) d' s s' r6 rest' Er5 Hs' ltac:(lia)) as Q. rewrite Li in Q. change (length (lit "@")) with 1. change (length (lit ".")) with 1. lia.
  - assert (E7 : firstn i r5 = d'). { apply (f_equal (firstn i)) in Er5. rewrite !firstn_app in Er5. rewrite Li, Heq, Nat.sub_diag in Er5. cbn [firstn] in Er5. rewrite !app_nil_r in Er5. rewrite firstn_firstn, Nat.min_id in Er5. rewrite Er5. rewrite <- Heq. apply firstn_all. }
    rewrite E7 in Er5. apply app_inv_head in Er5. injection Er5 as Er5. destruct (same_letters U _ _ _ _ Hs Hs' Hw Hw' Er5) as (-> & _). change (length (lit "@")) with 1. change (length (lit ".")) with 1. lia.
  - exfalso. specialize (Hj (length d') ltac:(lia)). revert Hj. apply (rmatch_complete U SUFFIX K2 (jump s5 (length d')) (ext (jump s5 (length d')) (lit "." ++ s') rest' [])).
    + apply lang_den; [|apply <- lang_suffix; eauto]. cbn [jump s_rest]. rewrite R5, Et3. rewrite skipn_app, skipn_all, Nat.sub_diag. reflexivity.
    + unfold K2. cbn [rmatch]. match goal with |- (if ?b then _ else _) <> None => replace b with true; [discriminate|] end. symmetry. cbn [check set_cap s_prev s_rest ext].
      destruct (exists_last (l := s')) as (s7 & z & Ez); [intros ->; cbn in Hn'; lia|]. rewrite Ez in *. rewrite app_assoc, <- prev_of_app. cbn [prev_of rev app hd_error word_opt]. apply Forall_app in Hs'. destruct Hs' as (_ & Hs'). pose proof (Forall_inv Hs') as Hz. rewrite (alpha_word U z Hz).
      destruct rest' as [|y r]; [reflexivity|]. cbn [hd_error word_opt]. rewrite (Hw' _ _ eq_refl). reflexivity.
Qed.
(** The rule in terms of the character in front. *)
Lemma r_email_esc U prev w rest x : r_email U prev w rest x <-> exists e m, w = e ++ m /\ (e = [] \/ exists c, e = [c] /\ esc_char c = true) /\ address_at U m rest /\ x = match e with [] => mail_link m | c :: _ => if (c =? BSL)%N then m else w end.
Proof.
  split.
  - intros (m & Hm & [(-> & ->)|[(-> & ->)|(c & Hc & -> & ->)]]).
    + exists [], m. auto.
    + exists [BSL], m. split; [reflexivity|]. split; [right; exists BSL; auto|]. auto.
    + exists [c], m. split; [reflexivity|]. split; [right; exists c; split; [reflexivity|]; apply c_in_spec, in_or_app; auto|]. split; [exact Hm|]. cbn in Hc. repeat (destruct Hc as [<-|Hc]; [reflexivity|]). destruct Hc.
  - intros (e & m & -> & He & Hm & ->). exists m. split; [exact Hm|]. destruct He as [->|(c & -> & Hc)]; [left; auto|]. apply c_in_spec in Hc. apply in_app_iff in Hc. destruct Hc as [Hc|[<-|[]]]; [|right; left; auto].
    right. right. exists c. split; [exact Hc|]. split; [reflexivity|]. cbn in Hc. repeat (destruct Hc as [<-|Hc]; [reflexivity|]). destruct Hc.
Qed.
Lemma address_first U m : address U m -> exists c r, m = c :: r /\ is_word U c = true.
Proof. intros (c & l & h & d & s & -> & Hc & _). exists c. eexists. split; [reflexivity|exact Hc]. Qed.
Lemma app_len_eq (a b c d : text) : a ++ b = c ++ d -> length a = length c -> a = c.
Proof. intros E L. apply (f_equal (firstn (length a))) in E. rewrite firstn_app, Nat.sub_diag, firstn_all in E. cbn [firstn] in E. rewrite app_nil_r in E. rewrite E, L. apply firstn_len. Qed.
Lemma r_email_ok U : rule_ok (r_email U).
Proof.
  split.
  - intros prev w r x H. apply r_email_esc in H. destruct H as (e & m & -> & _ & (Ha & _) & _). destruct (address_first U m Ha) as (c & q & -> & _). destruct e; discriminate.
  - intros prev w1 r1 x1 w2 r2 x2 H1 H2 E. apply r_email_esc in H1, H2. destruct H1 as (e1 & m1 & -> & He1 & (Ha1 & Hw1 & Hl1) & ->). destruct H2 as (e2 & m2 & -> & He2 & (Ha2 & Hw2 & Hl2) & ->).
    assert (K : e1 = e2 /\ m1 ++ r1 = m2 ++ r2).
    { destruct (address_first U m1 Ha1) as (c1 & q1 & -> & Hc1). destruct (address_first U m2 Ha2) as (c2 & q2 & -> & Hc2). rewrite <- !app_assoc in E. cbn [app] in E. destruct (same_escape U _ _ _ _ _ _ He1 He2 Hc1 Hc2 E) as (-> & -> & Eq). split; [reflexivity|]. cbn [app]. rewrite Eq. reflexivity. }
    destruct K as (-> & Em). assert (m1 = m2) as ->; [|auto]. apply (app_len_eq _ r1 _ r2 Em). apply Nat.le_antisymm; [apply (Hl2 m1 r1 Em Ha1 Hw1)|apply (Hl1 m2 r2 (eq_sym Em) Ha2 Hw2)].
Qed.
Lemma mail_render U P m : (a <- inline_attrlist U P [] ;; render_link (mklp (lit "mailto:" ++ m) m [] None a)) = Ok (mail_link m).
Proof.
  rewrite empty_attrlist. destruct (inline_attrlist ascii_only parser_default []) as [a| |] eqn:E; vm_compute in E; try discriminate E. apply Ok_inj in E. subst a. cbn [bind].
  unfold render_link. cbn [lp_attrlist lp_extra_roles lp_window lp_target lp_text]. cbn. unfold mail_link, html_attr. rewrite <- ?app_assoc. reflexivity.
Qed.
Lemma email_realizes U P : realizes U (INLINE_EMAIL U) (email_replacer U P) (r_email U).
Proof.
  split.
  - intros prev t m H. pose proof (fun e' a' rest' => email_longest U prev t m e' a' rest' H) as Hl. apply match_here_lang in H. destruct H as (Et & _ & L). apply -> lang_email in L. destruct L as (e & a & Ew & He & Ha & Hw & Ec).
    assert (Hat : address_at U a (m_after m)).
    { split; [exact Ha|]. split; [exact Hw|]. intros t' rest' E' Ha' Hw'. specialize (Hl e t' rest'). rewrite Ew, !app_length in Hl. specialize (Hl ltac:(rewrite Et, Ew, <- app_assoc, E'; reflexivity) He Ha' Hw'). lia. }
    exists (match e with [] => mail_link a | c :: _ => if (c =? BSL)%N then a else m_text m end). split; [|apply r_email_esc; exists e, a; rewrite Ew; auto].
    unfold email_replacer, cap_idx, cap. rewrite Ec. cbn [get_cap find fst snd Nat.eqb of_option bind option_map]. destruct He as [->|(c & -> & Hc)]; [apply mail_render|].
    destruct (N.eqb_spec c BSL) as [->|Hn].
    + change (text_eqb [BSL] [BSL]) with true. cbv iota. rewrite Ew. cbn [app]. rewrite str_from1 by reflexivity. reflexivity.
    + replace (text_eqb [c] [BSL]) with false; [reflexivity|]. symmetry. cbn [text_eqb]. apply N.eqb_neq in Hn. rewrite ?Hn. reflexivity.
  - intros prev w rest x H. apply r_email_esc in H. destruct H as (e & m & -> & He & (Ha & Hw & _) & _). exists (e ++ m), rest. eexists. split; [reflexivity|]. apply <- lang_email. exists e, m. eauto 6.
Qed.
Lemma email_rewritten U P t o : replace_all_pure U (INLINE_EMAIL U) (email_replacer U P) t = Ok o <-> rewritten (r_email U) None t o.
Proof. apply (replace_all_realized U _ _ _ (r_email_ok U) (email_realizes U P)). Qed.

(** * Whole markup *)
Lemma read_app p a b : read_markup p (a ++ b) = match read_markup p a with Some q => read_markup q b | None => None end.
Proof. revert p. induction a as [|c a IH]; intros p; [reflexivity|]. cbn [app read_markup]. destruct (place_after p c); [apply IH|reflexivity]. Qed.
Lemma read_plain p t : no_markup t -> read_markup p t = Some p.
Proof.
  induction t as [|c t IH]; intros H; [reflexivity|]. destruct (H c (or_introl eq_refl)) as (H1 & H2 & H3). apply N.eqb_neq in H1, H2, H3.
  cbn [read_markup]. assert (E : place_after p c = Some p) by (destruct p; cbn; rewrite ?H1, ?H2, ?H3; reflexivity). rewrite E. apply IH. intros x Hx. apply H. right. exact Hx.
Qed.
Lemma whole_app a b : whole_markup a -> whole_markup b -> whole_markup (a ++ b).
Proof. unfold whole_markup. intros Ha Hb. rewrite read_app, Ha. exact Hb. Qed.
Lemma no_markup_app a b : no_markup (a ++ b) <-> no_markup a /\ no_markup b.
Proof. unfold no_markup. split; [intros H; split; intros c Hc; apply H, in_or_app; auto|intros (H1 & H2) c Hc; apply in_app_iff in Hc; destruct Hc; auto]. Qed.
Lemma mail_link_whole m : no_markup m -> whole_markup (mail_link m).
Proof.
  intros H. unfold whole_markup, mail_link. change (read_markup InValue (m ++ [34%N] ++ lit ">" ++ m ++ lit "</a>") = Some Between).
  rewrite read_app, (read_plain InValue m H). change (read_markup Between (m ++ lit "</a>") = Some Between). rewrite read_app, (read_plain Between m H). reflexivity.
Qed.
Lemma rewritten_whole (R : option char -> text -> text -> text -> Prop) : (forall prev w r x, R prev w r x -> no_markup w -> whole_markup x) -> forall prev t o, rewritten R prev t o -> no_markup t -> whole_markup o.
Proof.
  intros HR prev t o H. induction H as [|prev w r x o Hw _ IH|prev c t o _ _ IH]; intros Hn.
  - reflexivity.
  - apply no_markup_app in Hn. destruct Hn as (H1 & H2). apply whole_app; [exact (HR _ _ _ _ Hw H1)|apply IH, H2].
  - change (c :: t) with ([c] ++ t) in Hn. apply no_markup_app in Hn. destruct Hn as (H1 & H2). apply (whole_app [c] o); [apply (read_plain Between), H1|apply IH, H2].
Qed.
