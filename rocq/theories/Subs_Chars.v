(** Proofs about character replacements and post replacements. *)
From Verif Require Import Text TextFacts Maps Span_Model Span_Laws Parser_Model Regex Regex_Proof Regex_Scan Regex_Lang Subs_Model Subs_Spec.

Lemma replace_bsl_none t : ~ In BSL t -> replace_str [BSL] [] t = t.
Proof.
  intros H. unfold replace_str. rewrite replace_go_one. induction t as [|x t IH]; [reflexivity|]. cbn [flat_map].
  destruct (N.eqb_spec BSL x) as [<-|_]; [exfalso; apply H; left; reflexivity|]. cbn [app]. f_equal. apply IH. intros Hi. apply H. right. exact Hi.
Qed.
Lemma replace_bsl_mid a b : ~ In BSL a -> ~ In BSL b -> replace_str [BSL] [] (a ++ BSL :: b) = a ++ b.
Proof.
  intros Ha Hb. unfold replace_str. rewrite replace_go_one, flat_map_app. cbn [flat_map]. rewrite N.eqb_refl. cbn [app].
  rewrite <- !replace_go_one. pose proof (replace_bsl_none a Ha) as Ea. pose proof (replace_bsl_none b Hb) as Eb. unfold replace_str in Ea, Eb. rewrite Ea, Eb. reflexivity.
Qed.
Lemma has_bsl_none t : ~ In BSL t -> has_char BSL t = false.
Proof. intros H. unfold has_char. destruct (existsb (N.eqb BSL) t) eqn:E; [|reflexivity]. apply existsb_exists in E. destruct E as (x & Hx & Ex). apply N.eqb_eq in Ex. subst x. contradiction. Qed.
Lemma has_bsl_mid a b : has_char BSL (a ++ BSL :: b) = true.
Proof. unfold has_char. rewrite existsb_app. cbn. apply orb_true_r. Qed.

(** *** Literals *)
Lemma lang_optbsl U w prev v rest caps : lang U (OptBsl w) prev v rest caps <-> (v = w \/ v = BSL :: w) /\ caps = [].
Proof.
  unfold OptBsl. rewrite lang_seq. split.
  - intros (w1 & w2 & c1 & c2 & -> & -> & L1 & L2). apply lang_opt_lit1 in L1. apply lang_lit in L2. destruct L1 as [L1 ->], L2 as [-> ->]. split; [|reflexivity]. destruct L1 as [->| ->]; auto.
  - intros [[->| ->] ->].
    + exists [], w, [], []. rewrite lang_opt_lit1, lang_lit. auto 10.
    + exists [BSL], w, [], []. rewrite lang_opt_lit1, lang_lit. auto 10.
Qed.
Definition plain_type (ty : char_replacement) : bool :=
  match ty with CREmDashWithoutSpace | CRCharacterReference _ => false | _ => true end.
Lemma literal_implements U ty w : plain_type ty = true -> ~ In BSL w ->
  implements U (OptBsl w) (character_replacer ty) (r_literal w (render_character_replacement ty)).
Proof.
  intros Hty Hw. split.
  - intros prev v rest caps m L Ht Hc. apply lang_optbsl in L. destruct L as [Hv ->]. unfold character_replacer. rewrite Ht.
    destruct Hv as [->| ->].
    + exists (render_character_replacement ty). split; [|left; auto]. rewrite has_bsl_none by exact Hw. unfold cap. rewrite Hc.
      destruct ty; try discriminate Hty; reflexivity.
    + exists w. split; [|right; auto]. pose proof (replace_bsl_mid [] w (fun x => x) Hw) as E. cbn [app] in E. rewrite E. pose proof (has_bsl_mid [] w) as E2. cbn [app] in E2. rewrite E2. reflexivity.
  - intros prev v rest x [[-> _]|[-> _]]; exists []; apply lang_optbsl; auto.
Qed.
Lemma literal_rule_ok w x : w <> [] -> hd 0%N w <> BSL -> rule_ok (r_literal w x).
Proof.
  intros Hw Hb. split.
  - intros prev v r y [[-> _]|[-> _]]; [exact Hw|discriminate].
  - intros prev v1 r1 y1 v2 r2 y2 [[-> ->]|[-> ->]] [[-> ->]|[-> ->]] E; auto; exfalso; destruct w as [|c w]; try contradiction; cbn in E; injection E as E _; cbn in Hb; congruence.
Qed.

(** *** Em dash between blanks *)
Lemma dash_spaces_lang U prev v rest caps :
  lang U (Seqs [Alts [Lit1 SP; Lit1 LF; Assert ABegin; Lit1 BSL]; Lit (lit "--"); Alts [Lit1 SP; Lit1 LF; Assert AEnd]]) prev v rest caps <->
  caps = [] /\ exists a b, v = a ++ lit "--" ++ b /\ (a = [SP] \/ a = [LF] \/ (a = [] /\ prev = None) \/ a = [BSL]) /\ (b = [SP] \/ b = [LF] \/ (b = [] /\ rest = [])).
Proof.
  cbn [Seqs Alts]. rewrite lang_seq. split.
  - intros (w1 & w2 & c1 & c2 & -> & -> & L1 & L2). apply lang_seq in L2. destruct L2 as (w3 & w4 & c3 & c4 & -> & -> & L3 & L4).
    apply lang_lit in L3. destruct L3 as [-> ->].
    assert (H1 : c1 = [] /\ (w1 = [SP] \/ w1 = [LF] \/ (w1 = [] /\ prev = None) \/ w1 = [BSL])).
    { destruct L1 as [L1|[L1|[L1|L1]]]; [apply lang_lit1 in L1|apply lang_lit1 in L1|apply lang_assert in L1|apply lang_lit1 in L1]; try (destruct L1 as [-> ->]; auto 12; fail).
      destruct L1 as (-> & -> & H). unfold at_check in H. cbn [check s_prev] in H. destruct prev; [discriminate H|auto 12]. }
    assert (H4 : c4 = [] /\ (w4 = [SP] \/ w4 = [LF] \/ (w4 = [] /\ rest = []))).
    { destruct L4 as [L4|[L4|L4]]; [apply lang_lit1 in L4|apply lang_lit1 in L4|apply lang_assert in L4]; try (destruct L4 as [-> ->]; auto 12; fail).
      destruct L4 as (-> & -> & H). unfold at_check in H. cbn [check s_rest] in H. destruct rest; [auto 12|discriminate H]. }
    destruct H1 as [-> H1], H4 as [-> H4]. split; [reflexivity|]. exists w1, w4. auto.
  - intros (-> & a & b & -> & Ha & Hb). exists a, (lit "--" ++ b), [], []. split; [reflexivity|]. split; [reflexivity|]. split.
    + destruct Ha as [->|[->|[[-> ->]| ->]]]; [left|right; left|right; right; left|right; right; right]; try (apply lang_lit1; auto; fail). apply lang_assert. auto.
    + apply lang_seq. exists (lit "--"), b, [], []. rewrite lang_lit. split; [reflexivity|]. split; [reflexivity|]. split; [auto|].
      destruct Hb as [->|[->|[-> ->]]]; [left|right; left|right; right]; try (apply lang_lit1; auto; fail). apply lang_assert. auto.
Qed.
Lemma dash_spaces_implements U : implements U
  (Seqs [Alts [Lit1 SP; Lit1 LF; Assert ABegin; Lit1 BSL]; Lit (lit "--"); Alts [Lit1 SP; Lit1 LF; Assert AEnd]])
  (character_replacer CREmDashSurroundedBySpaces) r_dash_spaces.
Proof.
  split.
  - intros prev v rest caps m L Ht _. apply dash_spaces_lang in L. destruct L as (_ & a & b & -> & Ha & Hb). unfold character_replacer. rewrite Ht.
    assert (Hnb : ~ In BSL (lit "--" ++ b)) by (apply not_in_b; destruct Hb as [->|[->|[-> _]]]; reflexivity).
    assert (K : a = [BSL] \/ a <> [BSL]) by (destruct Ha as [->|[->|[[-> _]| ->]]]; [right|right|right|left]; first [reflexivity | discriminate]).
    destruct K as [->|Hna].
    + exists (lit "--" ++ b). split; [|exists [BSL], b; auto 10].
      pose proof (replace_bsl_mid [] (lit "--" ++ b) (fun x => x) Hnb) as E. cbn [app] in E |- *. rewrite E.
      pose proof (has_bsl_mid [] (lit "--" ++ b)) as E2. cbn [app] in E2. rewrite E2. reflexivity.
    + eexists. split; [|exists a, b; split; [reflexivity|]; split; [left; split; [|reflexivity]; intuition|exact Hb]].
      rewrite has_bsl_none; [reflexivity|]. intros Hi. apply in_app_or in Hi. destruct Hi as [Hi|Hi]; [|contradiction].
      revert Hi. apply not_in_b. destruct Ha as [->|[->|[[-> _]| ->]]]; try reflexivity. contradiction.
  - intros prev v rest x (a & b & -> & Ha & Hb). exists []. apply dash_spaces_lang. split; [reflexivity|]. exists a, b. split; [reflexivity|]. split; [|exact Hb].
    destruct Ha as [[Ha _]|[Ha _]]; intuition.
Qed.
Lemma dash_spaces_rule_ok : rule_ok r_dash_spaces.
Proof.
  split.
  - intros prev v r y (a & b & -> & _). destruct a; discriminate.
  - intros prev v1 r1 y1 v2 r2 y2 (a1 & b1 & -> & Ha1 & Hb1) (a2 & b2 & -> & Ha2 & Hb2) E.
    assert (Ea : a1 = a2).
    { destruct Ha1 as [[[->|[->|[-> _]]] _]|[-> _]], Ha2 as [[[->|[->|[-> _]]] _]|[-> _]]; try reflexivity; discriminate E. }
    subst a2. rewrite <- !app_assoc in E. apply app_inv_head in E. cbn [lit map] in E. apply (app_inv_head (lit "--")) in E.
    assert (Eb : b1 = b2).
    { destruct Hb1 as [->|[->|[-> ->]]], Hb2 as [->|[->|[-> ->]]]; try reflexivity; try discriminate E. }
    subst b2. split; [reflexivity|].
    destruct Ha1 as [[K1 ->]|[-> ->]], Ha2 as [[K2 ->]|[K2 ->]]; try reflexivity.
    + subst a1. destruct K1 as [K|[K|[K _]]]; discriminate K.
    + destruct K2 as [K|[K|[K _]]]; discriminate K.
Qed.

(** *** Em dash after a word character *)
Lemma word_not_bsl U c : is_word U c = true -> c <> BSL.
Proof. intros H ->. discriminate H. Qed.
Lemma word_not_dash U c : is_word U c = true -> c <> 45%N.
Proof. intros H ->. discriminate H. Qed.
Lemma dash_word_lang U prev v rest caps :
  lang U (Seqs [Grp 1 (Chr (is_word U)); Opt (Lit1 BSL); Lit (lit "--"); Assert AStartHalf]) prev v rest caps <->
  exists c, is_word U c = true /\ caps = [(1, [c])] /\ (v = c :: lit "--" \/ v = c :: BSL :: lit "--").
Proof.
  cbn [Seqs]. rewrite lang_seq. split.
  - intros (w1 & w2 & c1 & c2 & -> & -> & L1 & L2). apply lang_grp in L1. destruct L1 as (c0 & -> & c & -> & Hc & ->).
    apply lang_seq in L2. destruct L2 as (w3 & w4 & c3 & c4 & -> & -> & L3 & L4). apply lang_opt_lit1 in L3. destruct L3 as [L3 ->].
    apply lang_seq in L4. destruct L4 as (w5 & w6 & c5 & c6 & -> & -> & L5 & L6). apply lang_lit in L5. destruct L5 as [-> ->].
    apply lang_assert in L6. destruct L6 as (-> & -> & _). exists c. split; [exact Hc|]. split; [reflexivity|]. destruct L3 as [->| ->]; [right|left]; reflexivity.
  - intros (c & Hc & -> & Hv).
    assert (K : forall e, e = [BSL] \/ e = [] -> lang U (Seq (Opt (Lit1 BSL)) (Seq (Lit (lit "--")) (Assert AStartHalf))) (prev_of prev [c]) (e ++ lit "--") rest []).
    { intros e He. apply lang_seq. exists e, (lit "--"), [], []. split; [reflexivity|]. split; [reflexivity|]. split; [apply lang_opt_lit1; auto|].
      apply lang_seq. exists (lit "--"), [], [], []. split; [reflexivity|]. split; [reflexivity|]. split; [apply lang_lit; auto|].
      apply lang_assert. split; [reflexivity|]. split; [reflexivity|]. destruct He as [->| ->]; reflexivity. }
    destruct Hv as [->| ->].
    + exists [c], (lit "--"), [(1, [c])], []. split; [reflexivity|]. split; [reflexivity|]. split; [|apply (K []); auto]. apply lang_grp. exists []. split; [reflexivity|]. exists c. auto.
    + exists [c], (BSL :: lit "--"), [(1, [c])], []. split; [reflexivity|]. split; [reflexivity|]. split; [|apply (K [BSL]); auto]. apply lang_grp. exists []. split; [reflexivity|]. exists c. auto.
Qed.
Lemma dash_word_implements U : implements U (Seqs [Grp 1 (Chr (is_word U)); Opt (Lit1 BSL); Lit (lit "--"); Assert AStartHalf])
  (character_replacer CREmDashWithoutSpace) (r_dash_word U).
Proof.
  split.
  - intros prev v rest caps m L Ht Hcap. apply dash_word_lang in L. destruct L as (c & Hc & -> & Hv). unfold character_replacer, cap_idx, cap. rewrite Ht, Hcap.
    assert (Hcb : ~ In BSL [c]) by (intros [E|[]]; apply (word_not_bsl U c Hc E)).
    destruct Hv as [->| ->].
    + exists (c :: lit "&#8212;&#8203;"). split; [|exists c; auto]. rewrite has_bsl_none; [reflexivity|]. intros [E|Hi]; [apply Hcb; left; exact E|]. revert Hi. apply not_in_b. reflexivity.
    + exists (c :: lit "--"). split; [|exists c; auto]. change (c :: BSL :: lit "--") with ([c] ++ BSL :: lit "--").
      rewrite has_bsl_mid, replace_bsl_mid; [reflexivity|exact Hcb|apply not_in_b; reflexivity].
  - intros prev v rest x (c & Hc & Hv). exists [(1, [c])]. apply dash_word_lang. exists c. split; [exact Hc|]. split; [reflexivity|]. destruct Hv as [[-> _]|[-> _]]; auto.
Qed.
Lemma dash_word_rule_ok U : rule_ok (r_dash_word U).
Proof.
  split.
  - intros prev v r y (c & _ & [[-> _]|[-> _]]); discriminate.
  - intros prev v1 r1 y1 v2 r2 y2 (c1 & _ & [[-> ->]|[-> ->]]) (c2 & _ & [[-> ->]|[-> ->]]) E; cbn in E; injection E as -> E; auto; discriminate.
Qed.

(** *** Apostrophe *)
Lemma alnum_not_bsl c : is_ascii_alnum c = true -> c <> BSL.
Proof. intros H ->. discriminate H. Qed.
Lemma alpha_alnum c : is_ascii_alpha c = true -> is_ascii_alnum c = true.
Proof. intros H. unfold is_ascii_alnum. rewrite H. reflexivity. Qed.
Lemma apostrophe_lang U prev v rest caps :
  lang U (Seqs [Grp 1 (Chr is_ascii_alnum); Opt (Lit1 BSL); Lit1 39%N; Grp 2 (Chr is_ascii_alpha)]) prev v rest caps <->
  exists a b, is_ascii_alnum a = true /\ is_ascii_alpha b = true /\ caps = [(2, [b]); (1, [a])] /\ (v = [a; 39%N; b] \/ v = [a; BSL; 39%N; b]).
Proof.
  cbn [Seqs]. rewrite lang_seq. split.
  - intros (w1 & w2 & c1 & c2 & -> & -> & L1 & L2). apply lang_grp in L1. destruct L1 as (c0 & -> & a & -> & Ha & ->).
    apply lang_seq in L2. destruct L2 as (w3 & w4 & c3 & c4 & -> & -> & L3 & L4). apply lang_opt_lit1 in L3. destruct L3 as [L3 ->].
    apply lang_seq in L4. destruct L4 as (w5 & w6 & c5 & c6 & -> & -> & L5 & L6). apply lang_lit1 in L5. destruct L5 as [-> ->].
    apply lang_grp in L6. destruct L6 as (c7 & -> & b & -> & Hb & ->). exists a, b. repeat split; auto. destruct L3 as [->| ->]; auto.
  - intros (a & b & Ha & Hb & -> & Hv).
    assert (K : forall e, e = [BSL] \/ e = [] -> lang U (Seq (Opt (Lit1 BSL)) (Seq (Lit1 39%N) (Grp 2 (Chr is_ascii_alpha)))) (prev_of prev [a]) (e ++ [39%N; b]) rest [(2, [b])]).
    { intros e He. apply lang_seq. exists e, [39%N; b], [], [(2, [b])]. split; [reflexivity|]. split; [reflexivity|]. split; [apply lang_opt_lit1; auto|].
      apply lang_seq. exists [39%N], [b], [], [(2, [b])]. split; [reflexivity|]. split; [reflexivity|]. split; [apply lang_lit1; auto|].
      apply lang_grp. exists []. split; [reflexivity|]. exists b. auto. }
    destruct Hv as [->| ->].
    + exists [a], [39%N; b], [(1, [a])], [(2, [b])]. split; [reflexivity|]. split; [reflexivity|]. split; [|apply (K []); auto]. apply lang_grp. exists []. split; [reflexivity|]. exists a. auto.
    + exists [a], [BSL; 39%N; b], [(1, [a])], [(2, [b])]. split; [reflexivity|]. split; [reflexivity|]. split; [|apply (K [BSL]); auto]. apply lang_grp. exists []. split; [reflexivity|]. exists a. auto.
Qed.
Lemma apostrophe_implements U : implements U (Seqs [Grp 1 (Chr is_ascii_alnum); Opt (Lit1 BSL); Lit1 39%N; Grp 2 (Chr is_ascii_alpha)])
  (character_replacer CRTypographicApostrophe) r_apostrophe.
Proof.
  split.
  - intros prev v rest caps m L Ht Hcap. apply apostrophe_lang in L. destruct L as (a & b & Ha & Hb & -> & Hv). unfold character_replacer, cap_idx, cap. rewrite Ht, Hcap.
    pose proof (alnum_not_bsl a Ha) as Na. pose proof (alnum_not_bsl b (alpha_alnum b Hb)) as Nb. destruct Hv as [->| ->].
    + exists (a :: lit "&#8217;" ++ [b]). split; [|exists a, b; auto]. rewrite has_bsl_none; [reflexivity|]. cbn. unfold BSL in *. intuition congruence.
    + exists [a; 39%N; b]. split; [|exists a, b; auto]. change [a; BSL; 39%N; b] with ([a] ++ BSL :: [39%N; b]).
      rewrite has_bsl_mid, replace_bsl_mid; [reflexivity| |]; cbn; unfold BSL in *; intuition congruence.
  - intros prev v rest x (a & b & Ha & Hb & Hv). exists [(2, [b]); (1, [a])]. apply apostrophe_lang. exists a, b. repeat split; auto. destruct Hv as [[-> _]|[-> _]]; auto.
Qed.
Lemma apostrophe_rule_ok : rule_ok r_apostrophe.
Proof.
  split.
  - intros prev v r y (a & b & _ & _ & [[-> _]|[-> _]]); discriminate.
  - intros prev v1 r1 y1 v2 r2 y2 (a1 & b1 & _ & _ & [[-> ->]|[-> ->]]) (a2 & b2 & _ & _ & [[-> ->]|[-> ->]]) E; cbn in E; injection E as; subst; auto; discriminate.
Qed.

(** *** Entities *)
Definition ENTITY_NAME (U : unicode) : re :=
  Alts [Seqs [Chr is_ascii_alpha; Plus (Chr is_ascii_alpha); Upto 2 (Chr (c_digit U))];
        Seqs [Lit1 35%N; Chr (c_digit U); Chr (c_digit U); Upto 4 (Chr (c_digit U))];
        Seqs [Lit (lit "#x"); Chr (c_hex U); Chr (c_hex U); Upto 3 (Chr (c_hex U))]].
Lemma c_hex_iff U c : c_hex U c = true <-> (c_digit U c = true \/ (97 <= c <= 102)%N \/ (65 <= c <= 70)%N).
Proof. unfold c_hex, c_or, c_range. rewrite !orb_true_iff, !andb_true_iff, !N.leb_le. tauto. Qed.
Lemma two_more U p n prev w rest caps : lang U (Seq (Chr p) (Seq (Chr p) (Upto n (Chr p)))) prev w rest caps <->
  Forall (fun c => p c = true) w /\ 2 <= length w <= 2 + n /\ caps = [].
Proof.
  rewrite lang_seq. split.
  - intros (w1 & w2 & c1 & c2 & -> & -> & (a & -> & Ha & ->) & L). apply lang_seq in L. destruct L as (w3 & w4 & c3 & c4 & -> & -> & (b & -> & Hb & ->) & L).
    apply lang_upto_chr in L. destruct L as (F & Ln & ->). repeat split; [repeat constructor; assumption|cbn; lia|cbn; lia].
  - intros (F & L & ->). destruct w as [|a [|b w]]; cbn in L; try lia. inversion F as [|? ? Ha F']; subst. inversion F' as [|? ? Hb F'']; subst.
    exists [a], (b :: w), [], []. repeat split; [exists a; auto|]. apply lang_seq. exists [b], w, [], []. repeat split; [exists b; auto|]. apply lang_upto_chr. repeat split; [assumption|lia].
Qed.
Lemma entity_name_lang U prev n rest caps : lang U (ENTITY_NAME U) prev n rest caps <-> entity_name U n /\ caps = [].
Proof.
  unfold ENTITY_NAME. cbn [Alts Seqs]. rewrite !lang_alt. unfold entity_name. split.
  - intros [L|[L|L]].
    + apply lang_seq in L. destruct L as (w1 & w2 & c1 & c2 & -> & -> & (a & -> & Ha & ->) & L). apply lang_seq in L. destruct L as (w3 & w4 & c3 & c4 & -> & -> & L & L').
      apply lang_upto_chr in L'. destruct L' as (F & Ln & ->). unfold Plus in L. apply lang_seq in L. destruct L as (w5 & w6 & c5 & c6 & -> & -> & (b & -> & Hb & ->) & L).
      apply lang_many_chr in L. destruct L as (F' & ->). split; [|reflexivity]. left. exists (a :: b :: w6), w4. repeat split; [cbn; lia|repeat constructor; assumption|exact Ln|exact F].
    + apply lang_seq in L. destruct L as (w1 & w2 & c1 & c2 & -> & -> & L1 & L). apply lang_lit1 in L1. destruct L1 as [-> ->]. apply two_more in L. destruct L as (F & Ln & ->).
      split; [|reflexivity]. right. left. exists w2. split; [reflexivity|]. split; [lia|exact F].
    + apply lang_seq in L. destruct L as (w1 & w2 & c1 & c2 & -> & -> & L1 & L). apply lang_lit in L1. destruct L1 as [-> ->]. apply two_more in L. destruct L as (F & Ln & ->).
      split; [|reflexivity]. right. right. exists w2. split; [reflexivity|]. split; [lia|]. eapply Forall_impl; [|exact F]. intros c. apply c_hex_iff.
  - intros [[(l & d & -> & Hl & Fl & Hd & Fd)|[(d & -> & Hd & Fd)|(d & -> & Hd & Fd)]] ->].
    + left. destruct l as [|a [|b l]]; cbn in Hl; try lia. inversion Fl as [|? ? Ha F']; subst. inversion F' as [|? ? Hb F'']; subst.
      apply lang_seq. exists [a], ((b :: l) ++ d), [], []. repeat split; [exists a; auto|]. apply lang_seq. exists (b :: l), d, [], []. repeat split.
      * unfold Plus. apply lang_seq. exists [b], l, [], []. repeat split; [exists b; auto|]. apply lang_many_chr. auto.
      * apply lang_upto_chr. auto.
    + right. left. apply lang_seq. exists (lit "#"), d, [], []. repeat split; [apply lang_lit1; auto|]. apply two_more. auto.
    + right. right. apply lang_seq. exists (lit "#x"), d, [], []. repeat split; [apply lang_lit; auto|]. apply two_more. split; [|auto]. eapply Forall_impl; [|exact Fd]. intros c. apply c_hex_iff.
Qed.
Lemma entity_no U n c : entity_name U n -> c = 59%N \/ c = BSL -> ~ In c n.
Proof.
  assert (D : forall x, x = 59%N \/ x = BSL -> c_digit U x = false /\ is_ascii_alpha x = false /\ c_hex U x = false) by (intros x [->| ->]; repeat split; reflexivity).
  intros H Hc Hi. destruct (D _ Hc) as (D1 & D2 & D3). destruct H as [(l & d & -> & _ & Fl & _ & Fd)|[(d & -> & _ & Fd)|(d & -> & _ & Fd)]]; rewrite Forall_forall in Fd.
  - rewrite Forall_forall in Fl. apply in_app_or in Hi. destruct Hi as [Hi|Hi]; [apply Fl in Hi|apply Fd in Hi]; congruence.
  - apply in_app_or in Hi. destruct Hi as [[E|[]]|Hi]; [destruct Hc; subst; discriminate|apply Fd in Hi; congruence].
  - apply in_app_or in Hi. destruct Hi as [[E|[E|[]]]|Hi]; [destruct Hc; subst; discriminate|destruct Hc; subst; discriminate|]. apply Fd, c_hex_iff in Hi. congruence.
Qed.
Lemma entity_lang U prev v rest caps : lang U (Seqs [Opt (Lit1 BSL); Lit (lit "&amp;"); Grp 1 (ENTITY_NAME U); Lit1 59%N]) prev v rest caps <->
  exists n, entity_name U n /\ caps = [(1, n)] /\ (v = lit "&amp;" ++ n ++ lit ";" \/ v = BSL :: lit "&amp;" ++ n ++ lit ";").
Proof.
  cbn [Seqs]. rewrite lang_seq. split.
  - intros (w1 & w2 & c1 & c2 & -> & -> & L1 & L2). apply lang_opt_lit1 in L1. destruct L1 as [L1 ->].
    apply lang_seq in L2. destruct L2 as (w3 & w4 & c3 & c4 & -> & -> & L3 & L4). apply lang_lit in L3. destruct L3 as [-> ->].
    apply lang_seq in L4. destruct L4 as (w5 & w6 & c5 & c6 & -> & -> & L5 & L6). apply lang_lit1 in L6. destruct L6 as [-> ->].
    apply lang_grp in L5. destruct L5 as (c7 & -> & L5). apply entity_name_lang in L5. destruct L5 as [Hn ->]. exists w5. split; [exact Hn|]. split; [reflexivity|]. destruct L1 as [->| ->]; auto.
  - intros (n & Hn & -> & Hv).
    assert (K : forall pv, lang U (Seq (Lit (lit "&amp;")) (Seq (Grp 1 (ENTITY_NAME U)) (Lit1 59%N))) pv (lit "&amp;" ++ n ++ lit ";") rest [(1, n)]).
    { intros pv. apply lang_seq. exists (lit "&amp;"), (n ++ lit ";"), [], [(1, n)]. repeat split; [apply lang_lit; auto|]. apply lang_seq. exists n, (lit ";"), [(1, n)], [].
      repeat split; [|apply lang_lit1; auto]. apply lang_grp. exists []. split; [reflexivity|]. apply entity_name_lang. auto. }
    destruct Hv as [->| ->].
    + exists [], (lit "&amp;" ++ n ++ lit ";"), [], [(1, n)]. repeat split; [apply lang_opt_lit1; auto|apply K].
    + exists [BSL], (lit "&amp;" ++ n ++ lit ";"), [], [(1, n)]. repeat split; [apply lang_opt_lit1; auto|apply K].
Qed.
Lemma entity_implements U : implements U (Seqs [Opt (Lit1 BSL); Lit (lit "&amp;"); Grp 1 (ENTITY_NAME U); Lit1 59%N])
  (character_replacer (CRCharacterReference [])) (r_entity U).
Proof.
  split.
  - intros prev v rest caps m L Ht Hcap. apply entity_lang in L. destruct L as (n & Hn & -> & Hv). unfold character_replacer, cap_idx, cap. rewrite Ht, Hcap.
    assert (Hb : ~ In BSL (lit "&amp;" ++ n ++ lit ";")).
    { intros Hi. apply in_app_or in Hi. destruct Hi as [Hi|Hi]; [revert Hi; apply not_in_b; reflexivity|]. apply in_app_or in Hi.
      destruct Hi as [Hi|Hi]; [revert Hi; apply (entity_no U n); auto|revert Hi; apply not_in_b; reflexivity]. }
    destruct Hv as [->| ->].
    + exists (lit "&" ++ n ++ lit ";"). split; [|exists n; auto]. rewrite has_bsl_none by exact Hb. reflexivity.
    + exists (lit "&amp;" ++ n ++ lit ";"). split; [|exists n; auto].
      pose proof (replace_bsl_mid [] _ (fun x => x) Hb) as E. cbn [app] in E. rewrite E. pose proof (has_bsl_mid [] (lit "&amp;" ++ n ++ lit ";")) as E2. cbn [app] in E2. rewrite E2. reflexivity.
  - intros prev v rest x (n & Hn & Hv). exists [(1, n)]. apply entity_lang. exists n. repeat split; auto. destruct Hv as [[-> _]|[-> _]]; auto.
Qed.
Lemma entity_rule_ok U : rule_ok (r_entity U).
Proof.
  split.
  - intros prev v r y (n & _ & [[-> _]|[-> _]]); discriminate.
  - intros prev v1 r1 y1 v2 r2 y2 (n1 & H1 & K1) (n2 & H2 & K2) E.
    assert (K : (lit "&amp;" ++ n1 ++ lit ";") ++ r1 = (lit "&amp;" ++ n2 ++ lit ";") ++ r2 -> n1 = n2).
    { intros E'. rewrite <- !app_assoc in E'. apply (app_inv_head (lit "&amp;")) in E'. cbn [lit map app] in E'.
      eapply in_cut_unique; [exact E'| |]; eapply entity_no; eauto. }
    destruct K1 as [[-> ->]|[-> ->]], K2 as [[-> ->]|[-> ->]].
    + apply K in E. subst. auto.
    + discriminate E.
    + discriminate E.
    + apply (f_equal (@tl N)) in E. apply K in E. subst. auto.
Qed.

(** *** The whole step *)
Lemma pass_cons U ty r R l rules t o : rule_ok R -> implements U r (character_replacer ty) R ->
  (forall t' o', replacements_loop U l t' = Ok o' <-> passes rules t' o') ->
  (replacements_loop U ((ty, r) :: l) t = Ok o <-> passes (R :: rules) t o).
Proof.
  intros HR HI IH. cbn [replacements_loop passes]. split.
  - intros H. destruct (replace_all_pure U r (character_replacer ty) t) as [t'| |] eqn:E; try discriminate H. cbn [bind] in H. exists t'. split; [|apply IH, H].
    apply (replace_all_rewritten U r _ R HR HI), E.
  - intros (t' & H1 & H2). apply (replace_all_rewritten U r _ R HR HI) in H1. rewrite H1. apply IH, H2.
Qed.
Lemma loop_passes U t o : replacements_loop U (REPLACEMENTS U) t = Ok o <-> passes (replacement_rules U) t o.
Proof.
  unfold REPLACEMENTS, replacement_rules. revert t o.
  Ltac lit_pass := apply pass_cons;
    [first [apply literal_rule_ok; [discriminate|discriminate] | apply dash_spaces_rule_ok | apply dash_word_rule_ok | apply apostrophe_rule_ok | apply entity_rule_ok]
    |first [apply dash_spaces_implements | apply dash_word_implements | apply apostrophe_implements | apply entity_implements
           | (match goal with |- implements _ _ (character_replacer ?ty) _ => apply (literal_implements _ ty) end; [reflexivity|apply not_in_b; reflexivity])]|].
  do 13 (intros t o; lit_pass; clear t o). intros t o. cbn. split; [intros H; apply Ok_inj in H; auto|intros ->; reflexivity].
Qed.
Lemma loop_total U t : exists o, replacements_loop U (REPLACEMENTS U) t = Ok o.
Proof.
  assert (K : forall l, (forall ty r, In (ty, r) l -> forall t, exists o, replace_all_pure U r (character_replacer ty) t = Ok o) -> forall t, exists o, replacements_loop U l t = Ok o).
  { induction l as [|[ty r] l IH]; intros H t0; [cbn; eauto|]. cbn [replacements_loop]. destruct (H ty r (or_introl eq_refl) t0) as [o ->]. cbn [bind]. apply IH. intros ty' r' Hin. apply H. right. exact Hin. }
  apply K. clear t. intros ty r Hin t.
  unfold REPLACEMENTS in Hin. cbn [In] in Hin.
  repeat (destruct Hin as [E|Hin]; [injection E as <- <-;
    first [ eapply replace_all_total; apply (dash_spaces_implements U) | eapply replace_all_total; apply (dash_word_implements U)
          | eapply replace_all_total; apply (apostrophe_implements U) | eapply replace_all_total; apply (entity_implements U)
          | match goal with |- exists o, replace_all_pure _ _ (character_replacer ?ty) _ = _ => eapply replace_all_total; apply (literal_implements U ty); [reflexivity|apply not_in_b; reflexivity] end ]|]).
  destruct Hin.
Qed.

(** The test made before the loop is only an optimisation. *)
Definition sniff_words : list text := [lit "&"; lit "'"; lit "--"; lit "..."; lit "(C)"; lit "(R)"; lit "(TM)"].
Lemma sniff_word_lang U w prev rest : In w sniff_words -> exists caps, lang U REPLACEABLE_TEXT_SNIFF prev w rest caps.
Proof.
  intros H. exists []. unfold REPLACEABLE_TEXT_SNIFF. cbn [Alts Seqs]. rewrite !lang_alt. cbn [In sniff_words] in H.
  destruct H as [<-|[<-|[<-|[<-|H]]]].
  - left. exists 38%N. auto.
  - left. exists 39%N. auto.
  - right. left. apply lang_lit. auto.
  - right. right. left. apply lang_lit. auto.
  - right. right. right.
    assert (K : forall c, c_in (lit "CRT") c = true -> forall pv e, e = [77%N] \/ e = [] -> lang U (Seq (Lit1 40%N) (Seq (Chr (c_in (lit "CRT"))) (Seq (Opt (Lit1 77%N)) (Lit1 41%N)))) pv (40%N :: c :: e ++ [41%N]) rest []).
    { intros c Hc pv e He. apply lang_seq. exists [40%N], (c :: e ++ [41%N]), [], []. repeat split; [apply lang_lit1; auto|]. apply lang_seq. exists [c], (e ++ [41%N]), [], [].
      repeat split; [exists c; auto|]. apply lang_seq. exists e, [41%N], [], []. repeat split; [apply lang_opt_lit1; auto|apply lang_lit1; auto]. }
    destruct H as [<-|[<-|[<-|[]]]]; [apply (K 67%N eq_refl _ [])|apply (K 82%N eq_refl _ [])|apply (K 84%N eq_refl _ [77%N])]; auto.
Qed.
Lemma is_match_false U r t : is_match U r t = false -> forall a w b caps, t = a ++ w ++ b -> lang U r (prev_of None a) w b caps -> False.
Proof.
  unfold is_match. destruct (search U r None t) as [[p m]|] eqn:E; [discriminate|]. intros _ a w b caps -> L.
  pose proof (search_none U r _ None E a (w ++ b) eq_refl) as H. destruct (lang_match _ _ _ _ _ _ L) as [m Hm]. congruence.
Qed.
Lemma rule_sniffed U R prev v rest y : In R (replacement_rules U) -> R prev v rest y -> exists a w b, v = a ++ w ++ b /\ In w sniff_words.
Proof.
  intros Hin HR. unfold replacement_rules in Hin. cbn [In] in Hin.
  assert (KL : forall l x a w b, r_literal l x prev v rest y -> l = a ++ w ++ b -> In w sniff_words -> exists a w b, v = a ++ w ++ b /\ In w sniff_words).
  { intros l x a w b HL El Hw. destruct HL as [[-> _]|[-> _]]; [exists a, w, b; auto|exists (BSL :: a), w, b]. rewrite El. auto. }
  destruct Hin as [<-|Hin]; [apply (KL _ _ [] (lit "(C)") [] HR eq_refl); cbn; auto 10|].
  destruct Hin as [<-|Hin]; [apply (KL _ _ [] (lit "(R)") [] HR eq_refl); cbn; auto 10|].
  destruct Hin as [<-|Hin]; [apply (KL _ _ [] (lit "(TM)") [] HR eq_refl); cbn; auto 10|].
  destruct Hin as [<-|Hin]. { destruct HR as (a & b & -> & _). exists a, (lit "--"), b. cbn; auto 10. }
  destruct Hin as [<-|Hin]. { destruct HR as (c & _ & [[-> _]|[-> _]]); [exists [c], (lit "--"), []|exists [c; BSL], (lit "--"), []]; cbn; auto 10. }
  destruct Hin as [<-|Hin]; [apply (KL _ _ [] (lit "...") [] HR eq_refl); cbn; auto 10|].
  destruct Hin as [<-|Hin]; [apply (KL _ _ (lit "`") (lit "'") [] HR eq_refl); cbn; auto 10|].
  destruct Hin as [<-|Hin]. { destruct HR as (a & b & _ & _ & [[-> _]|[-> _]]); [exists [a], (lit "'"), [b]|exists [a; BSL], (lit "'"), [b]]; cbn; auto 10. }
  destruct Hin as [<-|Hin]; [apply (KL _ _ (lit "-") (lit "&") (lit "gt;") HR eq_refl); cbn; auto 10|].
  destruct Hin as [<-|Hin]; [apply (KL _ _ (lit "=") (lit "&") (lit "gt;") HR eq_refl); cbn; auto 10|].
  destruct Hin as [<-|Hin]; [apply (KL _ _ [] (lit "&") (lit "lt;-") HR eq_refl); cbn; auto 10|].
  destruct Hin as [<-|Hin]; [apply (KL _ _ [] (lit "&") (lit "lt;=") HR eq_refl); cbn; auto 10|].
  destruct Hin as [<-|[]]. destruct HR as (n & _ & [[-> _]|[-> _]]); [exists [], (lit "&"), (lit "amp;" ++ n ++ lit ";")|exists [BSL], (lit "&"), (lit "amp;" ++ n ++ lit ";")]; split; try reflexivity; cbn; auto 10.
Qed.
Lemma no_sniff_passes U t : is_match U REPLACEABLE_TEXT_SNIFF t = false -> forall l, (forall R, In R l -> In R (replacement_rules U)) -> passes l t t.
Proof.
  intros Hs. induction l as [|R l IH]; intros Hl; [reflexivity|]. exists t. split; [|apply IH; intros R' H; apply Hl; right; exact H].
  apply rewritten_id. intros pv w rest x HR (a & Et). destruct (rule_sniffed U R pv w rest x (Hl R (or_introl eq_refl)) HR) as (a' & s & b' & -> & Hin).
  assert (Et' : t = (a ++ a') ++ s ++ (b' ++ rest)) by (rewrite Et, <- !app_assoc; reflexivity).
  destruct (sniff_word_lang U s (prev_of None (a ++ a')) (b' ++ rest) Hin) as [caps L]. exact (is_match_false U _ _ Hs _ _ _ _ Et' L).
Qed.
Lemma rewritten_det R : rule_ok R -> forall prev t o, rewritten R prev t o -> forall o', rewritten R prev t o' -> o = o'.
Proof.
  intros [Hne Hd] prev t o H. induction H as [prev|prev w r x o HR Hs IH|prev c t o Hn Hs IH]; intros o' H'.
  - remember [] as t eqn:Et in H'. destruct H' as [|prev w r x o' HR Hs|]; [reflexivity| |discriminate Et]. exfalso. apply app_eq_nil in Et. destruct Et as [E _]. apply (Hne _ _ _ _ HR E).
  - remember (w ++ r) as t eqn:Et in H'. destruct H' as [prev|prev w' r' x' o' HR' Hs'|prev c t o' Hn Hs'].
    + exfalso. symmetry in Et. apply app_eq_nil in Et. destruct Et as [E _]. apply (Hne _ _ _ _ HR E).
    + destruct (Hd _ _ _ _ _ _ _ HR HR' (eq_sym Et)) as [<- <-]. apply app_inv_head in Et. subst r'. f_equal. apply IH, Hs'.
    + exfalso. apply (Hn _ _ _ Et HR).
  - remember (c :: t) as t' eqn:Et in H'. destruct H' as [|prev w' r' x' o' HR' Hs'|prev c' t' o' Hn' Hs']; [discriminate Et| |].
    + exfalso. apply (Hn _ _ _ (eq_sym Et) HR').
    + injection Et as -> ->. f_equal. apply IH, Hs'.
Qed.
Lemma apply_character_replacements_iff U t o : apply_character_replacements U t = Ok o <-> passes (replacement_rules U) t o.
Proof.
  unfold apply_character_replacements. destruct (is_match U REPLACEABLE_TEXT_SNIFF t) eqn:E; [apply loop_passes|].
  pose proof (no_sniff_passes U t E _ (fun R H => H)) as H. split.
  - intros Ho. apply Ok_inj in Ho. subst o. exact H.
  - intros Ho. apply loop_passes in Ho. apply loop_passes in H. congruence.
Qed.
Lemma apply_character_replacements_total U t : exists o, apply_character_replacements U t = Ok o.
Proof. unfold apply_character_replacements. destruct (is_match _ _ _); [apply loop_total|eauto]. Qed.

(** ** Post replacements *)
Definition r_hard_break : rule := fun prev v rest y => (prev = None \/ prev = Some LF) /\
  exists a, ~ In LF a /\ v = a ++ lit " +" /\ (rest = [] \/ exists r, rest = LF :: r) /\ y = a ++ lit "<br>".
Lemma not_lf_forall a : ~ In LF a <-> Forall (fun c => c_dot c = true) a.
Proof.
  rewrite Forall_forall. unfold c_dot, c_not, c_is. split.
  - intros H x Hx. destruct (N.eqb_spec LF x) as [<-|]; [contradiction|]. destruct (N.eqb_spec x LF); [subst; contradiction|reflexivity].
  - intros H Hi. apply H in Hi. discriminate Hi.
Qed.
Lemma hard_break_lang U prev v rest caps : lang U HARD_LINE_BREAK prev v rest caps <->
  (prev = None \/ prev = Some LF) /\ exists a, ~ In LF a /\ v = a ++ lit " +" /\ (rest = [] \/ exists r, rest = LF :: r) /\ caps = [(1, a)].
Proof.
  unfold HARD_LINE_BREAK. cbn [Seqs]. rewrite lang_seq. split.
  - intros (w1 & w2 & c1 & c2 & -> & -> & L1 & L2). apply lang_assert in L1. destruct L1 as (-> & -> & H1).
    apply lang_seq in L2. destruct L2 as (w3 & w4 & c3 & c4 & -> & -> & L3 & L4). apply lang_grp in L3. destruct L3 as (c5 & -> & L3). apply lang_many_chr in L3. destruct L3 as [F ->].
    apply lang_seq in L4. destruct L4 as (w5 & w6 & c6 & c7 & -> & -> & L5 & L6). apply lang_lit in L5. destruct L5 as [-> ->]. apply lang_assert in L6. destruct L6 as (-> & -> & H6).
    split.
    + unfold at_check in H1. cbn [check s_prev] in H1. destruct prev as [c|]; [|auto]. apply N.eqb_eq in H1. subst c. auto.
    + exists w3. split; [apply not_lf_forall, F|]. split; [reflexivity|]. split; [|reflexivity]. unfold at_check in H6. cbn [check s_rest] in H6. destruct rest as [|c r]; [auto|]. apply N.eqb_eq in H6. subst c. eauto.
  - intros (Hp & a & Ha & -> & Hr & ->). exists [], (a ++ lit " +"), [], [(1, a)]. split; [reflexivity|]. split; [reflexivity|]. split.
    + apply lang_assert. split; [reflexivity|]. split; [reflexivity|]. destruct Hp as [->| ->]; reflexivity.
    + apply lang_seq. exists a, (lit " +"), [(1, a)], []. split; [reflexivity|]. split; [reflexivity|]. split.
      * apply lang_grp. exists []. split; [reflexivity|]. apply lang_many_chr. split; [apply not_lf_forall, Ha|reflexivity].
      * apply lang_seq. exists (lit " +"), [], [], []. split; [reflexivity|]. split; [reflexivity|]. split; [apply lang_lit; auto|]. apply lang_assert. split; [reflexivity|]. split; [reflexivity|].
        destruct Hr as [->|[r ->]]; reflexivity.
Qed.
Definition post_replacer (m : mtch) : res text := c1 <- cap_idx m 1 ;; Ok (c1 ++ line_break).
Lemma hard_break_implements U : implements U HARD_LINE_BREAK post_replacer r_hard_break.
Proof.
  split.
  - intros prev v rest caps m L Ht Hc. apply hard_break_lang in L. destruct L as (Hp & a & Ha & -> & Hr & ->). exists (a ++ lit "<br>"). split.
    + unfold post_replacer, cap_idx, cap. rewrite Hc. reflexivity.
    + split; [exact Hp|]. exists a. auto.
  - intros prev v rest x (Hp & a & Ha & -> & Hr & ->). exists [(1, a)]. apply hard_break_lang. split; [exact Hp|]. exists a. auto.
Qed.
Lemma hard_break_rule_ok : rule_ok r_hard_break.
Proof.
  split.
  - intros prev v r y (_ & a & _ & -> & _). destruct a; discriminate.
  - intros prev v1 r1 y1 v2 r2 y2 (_ & a1 & H1 & -> & R1 & ->) (_ & a2 & H2 & -> & R2 & ->) E.
    assert (K : a1 ++ lit " +" = a2 ++ lit " +").
    { assert (N1 : forall a, ~ In LF a -> ~ In LF (a ++ lit " +")) by (intros a Ha Hi; apply in_app_or in Hi; destruct Hi as [Hi|Hi]; [auto|revert Hi; apply not_in_b; reflexivity]).
      destruct R1 as [->|[r1' ->]], R2 as [->|[r2' ->]].
      - rewrite !app_nil_r in E. exact E.
      - exfalso. rewrite app_nil_r in E. apply (N1 a1 H1). rewrite E. apply in_or_app. right. left. reflexivity.
      - exfalso. rewrite app_nil_r in E. apply (N1 a2 H2). rewrite <- E. apply in_or_app. right. left. reflexivity.
      - eapply in_cut_unique; [exact E| |]; auto. }
    apply app_inv_tail in K. subst. auto.
Qed.
(** [tail_ok R t o]: what follows a line. *)
Definition tail_ok (t o : text) : Prop := (t = [] /\ o = []) \/ exists t' o', t = LF :: t' /\ o = LF :: o' /\ rewritten r_hard_break (Some LF) t' o'.
Lemma hb_tail prev t o : tail_ok t o -> rewritten r_hard_break prev t o.
Proof.
  intros [[-> ->]|(t' & o' & -> & -> & H)]; [constructor|]. apply rw_char; [|exact H].
  intros w r x E (_ & a & Ha & -> & _). destruct a as [|c a]; [discriminate E|]. cbn in E. injection E as <- _. apply Ha. left. reflexivity.
Qed.
Lemma hb_inner l : forall c t o, c <> LF -> ~ In LF l -> tail_ok t o -> rewritten r_hard_break (Some c) (l ++ t) (l ++ o).
Proof.
  induction l as [|d l IH]; intros c t o Hc Hl Ht; [apply hb_tail, Ht|]. cbn [app]. apply rw_char.
  - intros w r x _ ([H|H] & _); [discriminate H|injection H as ->; contradiction].
  - apply IH; [intros ->; apply Hl; left; reflexivity|intros Hi; apply Hl; right; exact Hi|exact Ht].
Qed.
Lemma hb_line prev l l' t o : prev = None \/ prev = Some LF -> ~ In LF l -> plus_broken l l' -> tail_ok t o -> rewritten r_hard_break prev (l ++ t) (l' ++ o).
Proof.
  intros Hp Hl [(a & -> & ->)|[Hn ->]] Ht.
  - apply rw_step; [|apply hb_tail, Ht]. split; [exact Hp|]. exists a. repeat split.
    + intros Hi. apply Hl. apply in_or_app. left. exact Hi.
    + destruct Ht as [[-> _]|(t' & _ & -> & _)]; eauto.
  - destruct l as [|c l]; [apply hb_tail, Ht|]. cbn [app]. apply rw_char.
    + intros w r x E (_ & a & Ha & -> & Hr & _).
      assert (K : c :: l = a ++ lit " +").
      { assert (Na : ~ In LF (a ++ lit " +")) by (intros Hi; apply in_app_or in Hi; destruct Hi as [Hi|Hi]; [auto|revert Hi; apply not_in_b; reflexivity]).
        destruct Ht as [[-> _]|(t' & _ & -> & _)], Hr as [->|[r' ->]].
        - rewrite !app_nil_r in E. exact E.
        - exfalso. rewrite app_nil_r in E. apply Hl. rewrite E. apply in_or_app. right. left. reflexivity.
        - exfalso. rewrite app_nil_r in E. apply Na. rewrite <- E. right. apply in_or_app. right. left. reflexivity.
        - change (c :: l ++ LF :: t') with ((c :: l) ++ LF :: t') in E. eapply in_cut_unique; [exact E| |]; auto. }
      apply (Hn a K).
    + apply hb_inner; [intros ->; apply Hl; left; reflexivity|intros Hi; apply Hl; right; exact Hi|exact Ht].
Qed.
Lemma hb_lines t ls : lines_are t ls -> forall prev, prev = None \/ prev = Some LF -> forall ls' o, Forall2 plus_broken ls ls' -> lines_are o ls' -> rewritten r_hard_break prev t o.
Proof.
  induction 1 as [l Hl|l t ls Hl Ht IH]; intros prev Hp ls' o F Ho.
  - inversion F as [|? l' ? ? P F']; subst. inversion F'; subst. inversion Ho as [? Hl'|? ? ? ? Hbad]; subst; [|inversion Hbad].
    rewrite <- (app_nil_r l), <- (app_nil_r l'). apply hb_line; auto. left. auto.
  - inversion F as [|? l' ? ls1 P F']; subst. inversion Ho as [? Hl'|? t' ? Hl' Ht']; subst.
    + inversion F'; subst. inversion Ht.
    + apply hb_line; auto. right. exists t, t'. repeat split. apply (IH (Some LF) (or_intror eq_refl) _ _ F' Ht').
Qed.
Lemma plus_broken_fun l : exists l', plus_broken l l'.
Proof.
  destruct (ends_with (lit " +") l) eqn:E.
  - apply ends_with_spec in E. destruct E as [a ->]. exists (a ++ lit "<br>"). left. eauto.
  - exists l. right. split; [|reflexivity]. intros a Ha. assert (ends_with (lit " +") l = true) by (apply ends_with_spec; eauto). congruence.
Qed.
Lemma plus_broken_lf l l' : plus_broken l l' -> ~ In LF l -> ~ In LF l'.
Proof.
  intros [(a & -> & ->)|[_ ->]] H Hi; [|auto]. apply H. apply in_app_or in Hi. destruct Hi as [Hi|Hi]; [apply in_or_app; auto|exfalso; revert Hi; apply not_in_b; reflexivity].
Qed.
Lemma lines_are_map (R : text -> text -> Prop) t ls : (forall l, exists l', R l l') -> (forall l l', R l l' -> ~ In LF l -> ~ In LF l') -> lines_are t ls -> exists ls' o, Forall2 R ls ls' /\ lines_are o ls'.
Proof.
  intros Hf Hl. induction 1 as [l H|l t ls H Ht (ls' & o & F & Ho)].
  - destruct (Hf l) as [l' P]. exists [l'], l'. split; [auto|]. constructor. apply (Hl _ _ P H).
  - destruct (Hf l) as [l' P]. exists (l' :: ls'), (l' ++ LF :: o). split; [auto|]. constructor; [apply (Hl _ _ P H)|exact Ho].
Qed.
Lemma lines_are_total t : exists ls, lines_are t ls.
Proof.
  assert (K : forall l, ~ In LF l -> exists ls, lines_are (l ++ t) ls); [|apply (K []); auto].
  induction t as [|c t IH]; intros l Hl; [rewrite app_nil_r; exists [l]; constructor; exact Hl|].
  destruct (N.eqb_spec c LF) as [->|Hc].
  - destruct (IH [] (fun x => x)) as [ls H]. exists (l :: ls). constructor; assumption.
  - destruct (IH (l ++ [c])) as [ls H]; [|exists ls; rewrite <- app_assoc in H; exact H]. intros Hi. apply in_app_or in Hi. destruct Hi as [Hi|[Hi|[]]]; [auto|congruence].
Qed.
Lemma lines_are_det t ls : lines_are t ls -> forall ls', lines_are t ls' -> ls = ls'.
Proof.
  induction 1 as [l H|l t ls H Ht IH]; intros ls' H'.
  - destruct H' as [|l' t' ls' Hl' Ht']; [reflexivity|]. exfalso. apply H. apply in_or_app. right. left. reflexivity.
  - remember (l ++ LF :: t) as u eqn:Eu in H'. destruct H' as [l' Hl'|l' t' ls' Hl' Ht'].
    + exfalso. apply Hl'. rewrite Eu. apply in_or_app. right. left. reflexivity.
    + assert (l = l') by (symmetry in Eu; eapply in_cut_unique; eauto). subst l'. apply app_inv_head in Eu. injection Eu as ->. f_equal. apply IH, Ht'.
Qed.
Lemma lines_are_inj t ls : lines_are t ls -> forall t', lines_are t' ls -> t = t'.
Proof.
  induction 1 as [l H|l t ls H Ht IH]; intros t' H'; inversion H'; subst; try reflexivity.
  - match goal with H : lines_are _ [] |- _ => inversion H end.
  - inversion Ht.
  - f_equal. f_equal. auto.
Qed.
Lemma no_plus_broken t ls : lines_are t ls -> ~ In 43%N t -> Forall2 plus_broken ls ls.
Proof.
  assert (K : forall l, ~ In 43%N l -> plus_broken l l).
  { intros l H. right. split; [|reflexivity]. intros a ->. apply H. apply in_or_app. right. cbn. auto. }
  induction 1 as [l H|l t ls H Ht IH]; intros Hp; constructor.
  - auto.
  - constructor.
  - apply K. intros Hi. apply Hp, in_or_app. auto.
  - apply IH. intros Hi. apply Hp, in_or_app. right. right. exact Hi.
Qed.
(** Without the hardbreaks option. *)
Lemma post_plain U P t o : is_attribute_set P (lit "hardbreaks-option") = false -> In LF t ->
  (apply_post_replacements U P false t = Ok o <-> exists ls ls', lines_are t ls /\ lines_are o ls' /\ Forall2 plus_broken ls ls').
Proof.
  intros HP Hlf. unfold apply_post_replacements. rewrite HP. cbn [orb].
  assert (ELF : has_char LF t = true) by (apply has_char_spec; exact Hlf). rewrite ELF, andb_true_r.
  destruct (lines_are_total t) as [ls Hls].
  destruct (lines_are_map plus_broken t ls plus_broken_fun plus_broken_lf Hls) as (ls' & o' & F & Ho').
  assert (K : rewritten r_hard_break None t o') by (eapply hb_lines; eauto).
  assert (Fdet : forall x y z, plus_broken x y -> plus_broken x z -> y = z).
  { intros x y z [(a & -> & ->)|[Hn ->]] [(b & E & ->)|[Hm ->]]; [|exfalso; apply (Hm a); reflexivity|exfalso; apply (Hn b E)|reflexivity].
    apply app_inv_tail in E. subst. reflexivity. }
  assert (F2 : forall l1 l2 l3, Forall2 plus_broken l1 l2 -> Forall2 plus_broken l1 l3 -> l2 = l3).
  { intros l1 l2 l3 A. revert l3. induction A; intros l3 B; inversion B; subst; [reflexivity|]. f_equal; eauto. }
  assert (Spec : (exists ls1 ls2, lines_are t ls1 /\ lines_are o ls2 /\ Forall2 plus_broken ls1 ls2) <-> o = o').
  { split.
    - intros (ls1 & ls2 & H1 & H2 & H3). rewrite (lines_are_det _ _ Hls _ H1) in F. rewrite <- (F2 _ _ _ H3 F) in Ho'. eapply lines_are_inj; eauto.
    - intros ->. eauto 10. }
  rewrite Spec. destruct (has_char 43%N t) eqn:E43; cbn [negb].
  - change (fun m => c1 <- cap_idx m 1;; Ok (c1 ++ line_break)) with post_replacer.
    rewrite (replace_all_rewritten U _ _ _ hard_break_rule_ok (hard_break_implements U)). split.
    + intros H. eapply rewritten_det; eauto. apply hard_break_rule_ok.
    + intros ->. exact K.
  - assert (N43 : ~ In 43%N t) by (intros Hi; apply has_char_spec in Hi; congruence).
    pose proof (no_plus_broken _ _ Hls N43) as F'. rewrite <- (F2 _ _ _ F' F) in Ho'. pose proof (lines_are_inj _ _ Ho' _ Hls) as <-.
    split; [intros H; apply Ok_inj in H; auto|intros ->; reflexivity].
Qed.
Lemma post_plain_single U P hb t : ~ In LF t -> apply_post_replacements U P hb t = Ok t.
Proof.
  intros H. assert (E : has_char LF t = false) by (apply has_char_false; exact H).
  unfold apply_post_replacements. rewrite E, andb_false_r. cbn [negb]. destruct (_ || hb); reflexivity.
Qed.

(** With the hardbreaks option. *)
Lemma lines_are_join ls : ls <> [] -> Forall (fun l => ~ In LF l) ls -> lines_are (join [LF] ls) ls.
Proof.
  intros H F. induction F as [|l ls Hl F IH]; [contradiction|]. destruct ls as [|m ls]; [constructor; exact Hl|]. rewrite join_cons2. cbn [app]. constructor; [exact Hl|]. apply IH. discriminate.
Qed.
Lemma lines_are_split t : lines_are t (split_on LF t).
Proof. rewrite <- (join_split LF t) at 1. apply lines_are_join; [apply split_on_nonempty|apply split_on_no_sep]. Qed.
Lemma lines_are_lf t ls : lines_are t ls -> Forall (fun l => ~ In LF l) ls.
Proof. induction 1; auto. Qed.
Lemma lines_of_app init lst : lines_of (init ++ [lst]) = map drop_cr init ++ match lst with [] => [] | _ => [lst] end.
Proof.
  induction init as [|x init IH]; [destruct lst; reflexivity|]. cbn [app map lines_of]. destruct (init ++ [lst]) as [|y r] eqn:E; [destruct init; discriminate E|]. rewrite <- IH. destruct y; reflexivity.
Qed.
Lemma drop_cr_spec l : no_cr l (drop_cr l).
Proof.
  unfold drop_cr, no_cr. destruct (rev_cons_inv l) as [->|(a & x & ->)]; [right; split; [intros a Ha; destruct a; discriminate|reflexivity]|].
  rewrite rev_app_distr. cbn [rev app]. destruct (N.eqb_spec x CR) as [->|Hx]; [left; rewrite rev_involutive; reflexivity|].
  right. split; [|reflexivity]. intros b Hb. apply app_inj_tail in Hb. destruct Hb. contradiction.
Qed.
Lemma drop_cr_lf l : ~ In LF l -> ~ In LF (drop_cr l).
Proof. intros H Hi. destruct (drop_cr_spec l) as [E|[_ E]]; [apply H; rewrite E; apply in_or_app; auto|rewrite E in Hi; auto]. Qed.
Lemma hardbreak_line_ok l : exists l', hardbreak_line l = Ok l' /\ hard_broken l l'.
Proof.
  unfold hardbreak_line. destruct (ends_with (lit " +") l) eqn:E.
  - apply ends_with_spec in E. destruct E as [a ->]. exists (a ++ lit "<br>"). split; [|left; eauto].
    assert (Eb : blen (a ++ lit " +") - 2 = blen a) by (rewrite blen_app; cbn [lit map blen]; change (blen (lit " +")) with 2; lia).
    unfold str_to. rewrite Eb, bsplit_app. reflexivity.
  - exists (l ++ lit "<br>"). split; [reflexivity|]. right. split; [|reflexivity]. intros a Ha. assert (ends_with (lit " +") l = true) by (apply ends_with_spec; eauto). congruence.
Qed.
Lemma hardbreak_lines_ok ls : exists ls', hardbreak_lines ls = Ok ls' /\ Forall2 hard_broken ls ls'.
Proof.
  induction ls as [|l ls (ls' & E & F)]; [exists []; auto|]. destruct (hardbreak_line_ok l) as (l' & El & P). exists (l' :: ls'). cbn [hardbreak_lines]. rewrite El. cbn [bind]. rewrite E. auto.
Qed.
Lemma hard_broken_lf l l' : hard_broken l l' -> ~ In LF l -> ~ In LF l'.
Proof.
  intros H Hl Hi. assert (K : forall a, ~ In LF a -> ~ In LF (a ++ lit "<br>")) by (intros a Ha Hx; apply in_app_or in Hx; destruct Hx as [Hx|Hx]; [auto|revert Hx; apply not_in_b; reflexivity]).
  destruct H as [(a & -> & ->)|[_ ->]]; revert Hi; apply K; [|exact Hl]. intros Hx. apply Hl, in_or_app. auto.
Qed.
Lemma F2_lf ls ls' : Forall2 hard_broken ls ls' -> Forall (fun l => ~ In LF l) ls -> Forall (fun l => ~ In LF l) ls'.
Proof. induction 1 as [|l l' ls ls' P F IH]; intros H; [constructor|]. inversion H; subst. constructor; [eapply hard_broken_lf; eauto|auto]. Qed.
Lemma post_hard U P hb t init lst : is_attribute_set P (lit "hardbreaks-option") || hb = true -> In LF t -> lines_are t (init ++ [lst]) -> lst <> [] ->
  exists o mid ls', apply_post_replacements U P hb t = Ok o /\ lines_are o (ls' ++ [lst]) /\ Forall2 no_cr init mid /\ Forall2 hard_broken mid ls'.
Proof.
  intros HP Hlf Hls Hne. unfold apply_post_replacements. rewrite HP. assert (E : has_char LF t = true) by (apply has_char_spec; exact Hlf). rewrite E. cbn [negb].
  unfold str_lines. rewrite (lines_are_det _ _ (lines_are_split t) _ Hls), lines_of_app.
  assert (Em : match lst with [] => [] | _ => [lst] end = [lst]) by (destruct lst; [contradiction|reflexivity]). rewrite Em, removelast_last, last_last.
  destruct (hardbreak_lines_ok (map drop_cr init)) as (ls' & El & F). rewrite El. cbn [bind]. exists (join [LF] (ls' ++ [lst])), (map drop_cr init), ls'.
  pose proof (lines_are_lf _ _ Hls) as HF. apply Forall_app in HF. destruct HF as [HF1 HF2].
  split; [reflexivity|]. split; [|split; [|exact F]].
  - apply lines_are_join; [destruct ls'; discriminate|]. apply Forall_app. split; [|exact HF2]. eapply F2_lf; [exact F|]. rewrite Forall_forall. intros x Hx. apply in_map_iff in Hx. destruct Hx as (y & <- & Hy). apply drop_cr_lf. rewrite Forall_forall in HF1. auto.
  - clear. induction init; constructor; [apply drop_cr_spec|assumption].
Qed.
(** A final newline is lost, and the line before it then counts as the last one. *)
Lemma post_hard_nl U P hb t init lst : is_attribute_set P (lit "hardbreaks-option") || hb = true -> lines_are t (init ++ [lst]) ->
  exists o mid lst' ls', apply_post_replacements U P hb (t ++ [LF]) = Ok o /\ lines_are o (ls' ++ [lst']) /\ no_cr lst lst' /\ Forall2 no_cr init mid /\ Forall2 hard_broken mid ls'.
Proof.
  intros HP Hls. unfold apply_post_replacements. rewrite HP. assert (E : has_char LF (t ++ [LF]) = true) by (apply has_char_spec, in_or_app; right; left; reflexivity). rewrite E. cbn [negb].
  assert (H2 : lines_are (t ++ [LF]) ((init ++ [lst]) ++ [[]])).
  { clear E HP. remember (init ++ [lst]) as ls eqn:El. clear El. induction Hls as [l H|l t ls H Ht IH]; [apply la_cons; [exact H|constructor; auto]|]. rewrite <- app_assoc. cbn [app]. constructor; assumption. }
  unfold str_lines. rewrite (lines_are_det _ _ (lines_are_split (t ++ [LF])) _ H2), lines_of_app, app_nil_r, map_app. cbn [map]. rewrite removelast_last, last_last.
  destruct (hardbreak_lines_ok (map drop_cr init)) as (ls' & El & F). rewrite El. cbn [bind]. exists (join [LF] (ls' ++ [drop_cr lst])), (map drop_cr init), (drop_cr lst), ls'.
  pose proof (lines_are_lf _ _ Hls) as HF. apply Forall_app in HF. destruct HF as [HF1 HF2].
  split; [reflexivity|]. split; [|split; [apply drop_cr_spec|split; [|exact F]]].
  - apply lines_are_join; [destruct ls'; discriminate|]. apply Forall_app. split.
    + eapply F2_lf; [exact F|]. rewrite Forall_forall. intros x Hx. apply in_map_iff in Hx. destruct Hx as (y & <- & Hy). apply drop_cr_lf. rewrite Forall_forall in HF1. auto.
    + inversion HF2; subst. constructor; [apply drop_cr_lf; assumption|constructor].
  - clear. induction init; constructor; [apply drop_cr_spec|assumption].
Qed.
Lemma post_total U P hb t : exists o, apply_post_replacements U P hb t = Ok o.
Proof.
  unfold apply_post_replacements. destruct (_ || hb).
  - destruct (has_char LF t); cbn [negb]; [|eauto]. destruct (hardbreak_lines_ok (removelast (str_lines t))) as (ls' & -> & _). cbn [bind]. eauto.
  - destruct (negb _); [eauto|]. eapply replace_all_total. apply (hard_break_implements U).
Qed.
