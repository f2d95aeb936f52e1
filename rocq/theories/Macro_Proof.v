(** Proofs about inline macros and the HTML they give. *)
From Verif Require Import Text TextFacts Span_Model Span_Laws Maps Parser_Model Regex Regex_Proof Regex_Scan Regex_Lang Path_Model Path_Proof Subs_Proof Attrlist_Model Attrlist_Laws
  Render_Model Render_Proof Look_Proof Quote_Model Macro_Model Macro_Spec.

(** * URI components *)
Lemma plus_back t : ~ In 43%N t -> forall k, replace_char 43%N (lit "%20") (replace_go (lit "%20") (lit "+") k t) = skipn k t.
Proof.
  induction t as [|c t IH]; intros H k; [destruct k; reflexivity|]. cbn [replace_go]. destruct k as [|k].
  - destruct (starts_with (lit "%20") (c :: t)) eqn:E.
    + apply starts_with_spec in E. destruct E as [r E]. cbn [lit app map String.list_ascii_of_string] in E. injection E as -> ->.
      change (replace_char 43%N (lit "%20") (lit "+" ++ ?x)) with (lit "%20" ++ replace_char 43%N (lit "%20") x). cbn [length lit map String.list_ascii_of_string Nat.sub].
      change (map Ascii.N_of_ascii _) with (lit "+"). rewrite IH; [reflexivity|]. intros Hi. apply H. right. exact Hi.
    + cbn [replace_char flat_map skipn]. destruct (N.eqb_spec c 43) as [->|_]; [exfalso; apply H; left; reflexivity|]. cbn [app]. f_equal. apply (IH (fun Hi => H (or_intror Hi)) 0).
  - apply IH. intros Hi. apply H. right. exact Hi.
Qed.
Lemma hex_digit_hex n : (n < 16)%N -> is_hex (hex_digit n).
Proof. unfold hex_digit, is_hex. destruct (N.ltb_spec n 10); lia. Qed.
Lemma hex_value_digit n : (n < 16)%N -> hex_value (hex_digit n) = Some n.
Proof.
  intros H. unfold hex_digit, hex_value. destruct (N.ltb_spec n 10).
  - replace ((48 <=? 48 + n) && (48 + n <=? 57))%N with true by lia. f_equal. lia.
  - replace ((48 <=? 55 + n) && (55 + n <=? 57))%N with false by lia. replace ((65 <=? 55 + n) && (55 + n <=? 70))%N with true by lia. f_equal. lia.
Qed.
Lemma utf8_bytes c : scalar c -> Forall (fun b => (b < 256)%N) (utf8 c).
Proof.
  unfold scalar, utf8. intros H. pose proof (N.mod_lt c 64). pose proof (N.mod_lt (c / 64) 64). pose proof (N.mod_lt (c / 4096) 64).
  destruct (N.ltb_spec c 128); [repeat constructor; lia|]. destruct (N.ltb_spec c 2048); [assert (c / 64 < 32)%N by (apply N.div_lt_upper_bound; lia); repeat constructor; lia|].
  destruct (N.ltb_spec c 65536); [assert (c / 4096 < 16)%N by (apply N.div_lt_upper_bound; lia); repeat constructor; lia|].
  assert (c / 262144 < 16)%N by (apply N.div_lt_upper_bound; lia); repeat constructor; lia.
Qed.
Lemma utf8_decode_enc c r : scalar c -> utf8_decode (utf8 c ++ r) = ocons c (utf8_decode r).
Proof.
  unfold scalar, utf8. intros H. pose proof (N.mod_lt c 64). pose proof (N.mod_lt (c / 64) 64). pose proof (N.mod_lt (c / 4096) 64).
  pose proof (N.div_mod c 64). pose proof (N.div_mod (c / 64) 64). pose proof (N.div_mod (c / 64 / 64) 64).
  assert (E1 : (c / 4096 = c / 64 / 64)%N) by (rewrite N.div_div by lia; reflexivity). assert (E2 : (c / 262144 = c / 64 / 64 / 64)%N) by (rewrite !N.div_div by lia; reflexivity).
  rewrite E2, E1 in *. unfold cont.
  destruct (N.ltb_spec c 128); [cbn [app utf8_decode]; replace (c <? 128)%N with true by lia; reflexivity|].
  destruct (N.ltb_spec c 2048).
  { assert (c / 64 < 32)%N by (apply N.div_lt_upper_bound; lia). assert (c / 64 >= 2)%N by (apply N.le_ge, N.div_le_lower_bound; lia). cbn [app utf8_decode].
    replace (192 + c / 64 <? 128)%N with false by lia. replace (192 + c / 64 <? 192)%N with false by lia. replace (192 + c / 64 <? 224)%N with true by lia.
    unfold cont. replace ((128 <=? 128 + c mod 64) && (128 + c mod 64 <? 192))%N with true by lia. f_equal. lia. }
  destruct (N.ltb_spec c 65536).
  { assert (c / 64 / 64 < 16)%N by (apply N.div_lt_upper_bound; [lia|]; apply N.div_lt_upper_bound; lia). cbn [app utf8_decode].
    replace (224 + c / 64 / 64 <? 128)%N with false by lia. replace (224 + c / 64 / 64 <? 192)%N with false by lia. replace (224 + c / 64 / 64 <? 224)%N with false by lia. replace (224 + c / 64 / 64 <? 240)%N with true by lia.
    unfold cont. replace ((128 <=? 128 + (c / 64) mod 64) && (128 + (c / 64) mod 64 <? 192) && ((128 <=? 128 + c mod 64) && (128 + c mod 64 <? 192)))%N with true by lia. f_equal. lia. }
  assert (c / 64 / 64 / 64 < 8)%N by (do 3 (apply N.div_lt_upper_bound; [lia|]); lia). cbn [app utf8_decode].
  replace (240 + c / 64 / 64 / 64 <? 128)%N with false by lia. replace (240 + c / 64 / 64 / 64 <? 192)%N with false by lia. replace (240 + c / 64 / 64 / 64 <? 224)%N with false by lia. replace (240 + c / 64 / 64 / 64 <? 240)%N with false by lia.
  unfold cont. replace ((128 <=? 128 + (c / 64 / 64) mod 64) && (128 + (c / 64 / 64) mod 64 <? 192) && ((128 <=? 128 + (c / 64) mod 64) && (128 + (c / 64) mod 64 <? 192)) && ((128 <=? 128 + c mod 64) && (128 + c mod 64 <? 192)))%N with true by lia. f_equal. lia.
Qed.
Lemma percent_byte_decode b r : (b < 256)%N -> percent_decode (percent_byte b ++ r) = ocons b (percent_decode r).
Proof.
  intros H. unfold percent_byte. cbn [app]. change (percent_decode (PERCENT :: ?a :: ?c :: r)) with (match hex_value a, hex_value c with Some x, Some y => ocons (16 * x + y)%N (percent_decode r) | _, _ => None end).
  rewrite !hex_value_digit; [|apply N.mod_lt; lia|apply N.div_lt_upper_bound; lia]. f_equal. pose proof (N.div_mod b 16). lia.
Qed.
Definition oapp {A} (l : list A) (o : option (list A)) : option (list A) := fold_right ocons o l.
Lemma percent_bytes_decode l r : Forall (fun b => (b < 256)%N) l -> percent_decode (flat_map percent_byte l ++ r) = oapp l (percent_decode r).
Proof. induction 1 as [|b l H F IH]; [reflexivity|]. cbn [flat_map]. rewrite <- app_assoc, percent_byte_decode, IH by exact H. reflexivity. Qed.
Lemma kept_char c : (c < 128)%N -> cgi_escaped c = false -> unreserved c \/ c = 42%N.
Proof.
  intros H E.
  assert (K : forallb (fun n => let c := N.of_nat n in cgi_escaped c || ((65 <=? c) && (c <=? 90) || (97 <=? c) && (c <=? 122) || (48 <=? c) && (c <=? 57) || (c =? 45) || (c =? 46) || (c =? 95) || (c =? 126) || (c =? 42))%N) (seq 0 128) = true) by (vm_compute; reflexivity).
  rewrite forallb_forall in K. specialize (K (N.to_nat c)). rewrite N2Nat.id in K. cbv zeta in K. rewrite E in K. cbn [orb] in K.
  assert (Hin : In (N.to_nat c) (seq 0 128)) by (apply in_seq; lia). specialize (K Hin). unfold unreserved. lia.
Qed.
Lemma kept_decode c r : (c <? 128)%N && negb (cgi_escaped c) = true -> percent_decode (c :: r) = ocons c (percent_decode r).
Proof.
  intros H. apply andb_true_iff in H. destruct H as [H1 H2]. destruct (N.eqb_spec c 37) as [->|Hn]; [discriminate H2|].
  transitivity (if (c <? 128)%N then ocons c (percent_decode r) else None); [|rewrite H1; reflexivity].
  cbn [percent_decode]. destruct c as [|p]; [reflexivity|]. do 6 (destruct p as [p|p|]; try reflexivity). contradiction.
Qed.
Definition keep_char (c : char) : text := if (c <? 128)%N && negb (cgi_escaped c) then [c] else flat_map percent_byte (utf8 c).
Lemma percent_encode_eq t : percent_encode t = flat_map keep_char t.
Proof. reflexivity. Qed.
Lemma percent_byte_in x b : (b < 256)%N -> In x (percent_byte b) -> x = 37%N \/ is_hex x.
Proof. intros Hb [<-|[<-|[<-|[]]]]; [left; reflexivity|right; apply hex_digit_hex, N.div_lt_upper_bound; lia|right; apply hex_digit_hex, N.mod_lt; lia]. Qed.
Lemma keep_char_no_plus c : scalar c -> ~ In 43%N (keep_char c).
Proof.
  intros Hs Hi. unfold keep_char in Hi. destruct ((c <? 128)%N && negb (cgi_escaped c)) eqn:E.
  - destruct Hi as [->|[]]. discriminate E.
  - apply in_flat_map in Hi. destruct Hi as (b & Hb & Hi). pose proof (utf8_bytes c Hs) as F. rewrite Forall_forall in F. apply percent_byte_in in Hi; [|apply F, Hb]. unfold is_hex in Hi. destruct Hi as [Hi|Hi]; [discriminate Hi|lia].
Qed.
Lemma encode_eq t : Forall scalar t -> encode_uri_component t = flat_map keep_char t.
Proof.
  intros F. unfold encode_uri_component, replace_str. rewrite percent_encode_eq, plus_back; [reflexivity|]. intros Hi. apply in_flat_map in Hi. destruct Hi as (c & Hc & Hi).
  rewrite Forall_forall in F. apply (keep_char_no_plus c (F c Hc) Hi).
Qed.
Lemma encode_round t : Forall scalar t -> exists bs, percent_decode (encode_uri_component t) = Some bs /\ utf8_decode bs = Some t.
Proof.
  intros F. rewrite (encode_eq t F). exists (flat_map utf8 t). split.
  - induction F as [|c t Hc F IH]; [reflexivity|]. cbn [flat_map]. unfold keep_char at 1. destruct ((c <? 128)%N && negb (cgi_escaped c)) eqn:E.
    + cbn [app]. rewrite kept_decode, IH by exact E. apply andb_true_iff in E. destruct E as [E _]. unfold utf8 at 2. rewrite E. reflexivity.
    + rewrite percent_bytes_decode, IH by (apply utf8_bytes, Hc). clear. unfold oapp. induction (utf8 c) as [|b l IH]; [reflexivity|]. cbn [fold_right app]. rewrite IH. reflexivity.
  - induction F as [|c t Hc F IH]; [reflexivity|]. cbn [flat_map]. rewrite utf8_decode_enc, IH by exact Hc. reflexivity.
Qed.
Lemma encode_safe t : Forall scalar t -> uri_safe (fun c => unreserved c \/ c = 42%N) (encode_uri_component t).
Proof.
  intros F. rewrite (encode_eq t F). induction F as [|c t Hc F IH]; [constructor|]. cbn [flat_map]. unfold keep_char at 1. destruct ((c <? 128)%N && negb (cgi_escaped c)) eqn:E.
  - cbn [app]. apply us_char; [|exact IH]. apply andb_true_iff in E. destruct E as [E1 E2]. apply kept_char; [lia|apply negb_true_iff, E2].
  - pose proof (utf8_bytes c Hc) as Fb. induction Fb as [|b l Hb Fb IHb]; [exact IH|]. cbn [flat_map]. rewrite <- app_assoc. unfold percent_byte at 1. cbn [app].
    apply us_byte; [apply hex_digit_hex, N.div_lt_upper_bound; lia|apply hex_digit_hex, N.mod_lt; lia|exact IHb].
Qed.

(** * Totality *)
Lemma find_all_go_in U r fuel : forall ne prev t l e p m, find_all_go fuel U r ne prev t = (l, e) -> In (p, m) l ->
  exists pv a x, t = a ++ x /\ match_here U r pv x = Some m.
Proof.
  induction fuel as [|f IH]; intros ne prev t l e p m H Hin; cbn [find_all_go] in H; [injection H as <- <-; destruct Hin|].
  destruct (search U r prev t) as [[q n]|] eqn:Es; [|injection H as <- <-; destruct Hin].
  destruct (ne && _).
  - destruct t as [|c t]; [injection H as <- <-; destruct Hin|].
    destruct (find_all_go f U r false (Some c) t) as [[|[p' m'] l'] e'] eqn:Ef; injection H as <- <-; [destruct Hin|].
    assert (K : exists pv a x, t = a ++ x /\ match_here U r pv x = Some m).
    { destruct Hin as [E|Hin]; [injection E as <- <-; eapply IH; [exact Ef|left; reflexivity]|]. eapply IH; [exact Ef|right; exact Hin]. }
    destruct K as (pv & a & x & -> & Hm). exists pv, (c :: a), x. auto.
  - destruct (find_all_go f U r true (m_prev n) (m_after n)) as [l' e'] eqn:Ef. injection H as <- <-.
    apply search_sound in Es. destruct Es as (Et & Hm & _). destruct Hin as [E|Hin].
    + injection E as <- <-. eexists _, q, _. split; [exact Et|exact Hm].
    + destruct (IH _ _ _ _ _ _ _ Ef Hin) as (pv & a & x & Ea & Hx). exists pv, (q ++ m_text n ++ a), x. split; [|exact Hx]. rewrite Et, Ea, !app_assoc. reflexivity.
Qed.
Lemma replace_all_pure_ok_in U r rep h :
  (forall pv a x m, h = a ++ x -> match_here U r pv x = Some m -> exists t, rep m = Ok t) -> exists o, replace_all_pure U r rep h = Ok o.
Proof.
  intros H. rewrite replace_all_pure_eq. destruct (find_all U r h) as [l e] eqn:Ef.
  destruct (rmap_all_ok (fun pm => rep (snd pm)) l) as [ts Hts].
  - intros [p m] Hin. destruct (find_all_go_in _ _ _ _ _ _ _ _ _ _ Ef Hin) as (pv & a & x & Hx & Hm). apply (H _ _ _ _ Hx Hm).
  - exists (fill l ts e). cbv beta in Hts. rewrite Hts. reflexivity.
Qed.

(** Groups that do not occur in a pattern are not captured. *)
Fixpoint has_grp (n : nat) (r : re) : bool :=
  match r with
  | Eps | Chr _ | Assert _ => false
  | Seq a b | Alt a b => has_grp n a || has_grp n b
  | Star _ a => has_grp n a
  | Grp i a => (n =? i) || has_grp n a
  end.
Fixpoint no_grp (r : re) : bool :=
  match r with Eps | Chr _ | Assert _ => true | Seq a b | Alt a b => no_grp a && no_grp b | Star _ a => no_grp a | Grp _ _ => false end.
Lemma lang_no_cap U n r : forall prev w rest caps, lang U r prev w rest caps -> has_grp n r = false -> get_cap n caps = None.
Proof.
  induction r as [|p|a IHa b IHb|a IHa b IHb|g a IHa|i a IHa|a]; intros prev w rest caps L H; cbn [has_grp] in H.
  - destruct L as [_ ->]. reflexivity.
  - destruct L as (c & _ & _ & ->). reflexivity.
  - apply orb_false_iff in H. destruct H. destruct L as (w1 & w2 & c1 & c2 & _ & -> & L1 & L2). rewrite get_cap_app, (IHb _ _ _ _ L2), (IHa _ _ _ _ L1); auto.
  - apply orb_false_iff in H. destruct H, L as [L|L]; eauto.
  - cbn [lang] in L. induction L as [|pv w1 w2 rest c1 c2 L1 Hw L2 IH]; [reflexivity|]. rewrite get_cap_app, IH. eauto.
  - apply orb_false_iff in H. destruct H as [H1 H2]. destruct L as (c & -> & L). cbn [get_cap]. rewrite H1. eauto.
  - destruct L as (_ & -> & _). reflexivity.
Qed.
Lemma lang_no_caps U r : forall prev w rest caps, lang U r prev w rest caps -> no_grp r = true -> caps = [].
Proof.
  induction r as [|p|a IHa b IHb|a IHa b IHb|g a IHa|i a IHa|a]; intros prev w rest caps L H; cbn [no_grp] in H.
  - destruct L as [_ ->]. reflexivity.
  - destruct L as (c & _ & _ & ->). reflexivity.
  - apply andb_true_iff in H. destruct H. destruct L as (w1 & w2 & c1 & c2 & _ & -> & L1 & L2). rewrite (IHb _ _ _ _ L2), (IHa _ _ _ _ L1); auto.
  - apply andb_true_iff in H. destruct H, L as [L|L]; eauto.
  - cbn [lang] in L. induction L as [|pv w1 w2 rest c1 c2 L1 Hw L2 IH]; [reflexivity|]. rewrite IH, (IHa _ _ _ _ L1); auto.
  - discriminate H.
  - destruct L as (_ & -> & _). reflexivity.
Qed.
(** Takes a [lang] hypothesis apart. *)
Ltac linv := repeat match goal with
  | H : exists _, _ |- _ => destruct H
  | H : _ /\ _ |- _ => destruct H
  | H : lang _ (Lit _) _ _ _ _ |- _ => apply -> lang_lit in H
  | H : lang _ (Lit1 _) _ _ _ _ |- _ => apply -> lang_lit1 in H
  | H : iter (lang _ (Chr _)) _ _ _ _ |- _ => apply -> iter_chr in H
  | H : lang _ (ManyL (Chr _)) _ _ _ _ |- _ => apply -> lang_many_chr in H
  | H : lang _ (Many (Chr _)) _ _ _ _ |- _ => apply -> lang_many_chr in H
  | H : ?x = _ |- _ => is_var x; subst x
  | H : _ = ?x |- _ => is_var x; subst x
  end.
Lemma occurs_app p a t b : occurs p t -> occurs p (a ++ t ++ b).
Proof. intros (x & y & ->). exists (a ++ x), (y ++ b). rewrite !app_assoc. reflexivity. Qed.
Lemma occurs_pre p t a : occurs p t -> occurs p (a ++ t).
Proof. intros H. rewrite <- (app_nil_r t). apply occurs_app, H. Qed.
Lemma occurs_trans p q t : occurs p q -> occurs q t -> occurs p t.
Proof. intros H (x & y & ->). apply occurs_app, H. Qed.
Lemma occurs_match U r pv a x h m p : h = a ++ x -> match_here U r pv x = Some m -> occurs p (m_text m) -> occurs p h.
Proof. intros -> Hm H. apply match_here_text in Hm. destruct Hm as [-> _]. apply occurs_app, H. Qed.
Lemma str_from1 c t : clen c = 1 -> str_from 1 (c :: t) = Ok t.
Proof. intros H. pose proof (str_from_at [c] t) as E. cbn [blen app] in E. rewrite H in E. exact E. Qed.
Lemma chop_last a c : clen c = 1 -> chop (a ++ [c]) = Ok a.
Proof. intros H. unfold chop. rewrite blen_app. cbn [blen]. rewrite H. replace (blen a + (1 + 0) - 1) with (blen a) by lia. apply str_to_at. Qed.

Lemma image_shape U pv x m : match_here U INLINE_IMAGE_MACRO pv x = Some m -> exists e k attrs,
  m_text m = e ++ k ++ lit ":" ++ unwrap_or_default (cap m 1) ++ lit "[" ++ attrs ++ lit "]" /\ (e = [] \/ e = [BSL]) /\ (k = lit "image" \/ k = lit "icon") /\ cap m 2 = Some attrs.
Proof.
  intros H. apply match_here_lang in H. destruct H as (_ & _ & L). unfold cap. unfold INLINE_IMAGE_MACRO in L. cbn [Seqs] in L.
  apply lang_seq in L. destruct L as (we & w1 & ce & c1 & Ew & Ec & Le & L). rewrite Ew, Ec. clear Ew Ec.
  apply lang_opt_lit1 in Le. destruct Le as [He ->].
  apply lang_seq in L. destruct L as (wi & w2 & ci & c2 & -> & -> & Li & L). apply -> lang_lit1 in Li. destruct Li as [-> ->].
  apply lang_seq in L. destruct L as (wk & w3 & ck & c3 & -> & -> & Lk & L).
  apply lang_seq in L. destruct L as (wc & w4 & cc & c4 & -> & -> & Lc & L). apply -> lang_lit1 in Lc. destruct Lc as [-> ->].
  apply lang_seq in L. destruct L as (wt & w5 & ct & c5 & -> & -> & Lt & L).
  apply lang_seq in L. destruct L as (wb & w6 & cb & c6 & -> & -> & Lb & L). apply -> lang_lit1 in Lb. destruct Lb as [-> ->].
  apply lang_seq in L. destruct L as (wa & wz & ca & cz & -> & -> & La & L). apply -> lang_lit1 in L. destruct L as [-> ->].
  apply -> lang_grp in La. destruct La as (ca' & -> & La).
  assert (ca' = []) as -> by (apply (lang_no_caps _ _ _ _ _ _ La); reflexivity).
  exists we, (105%N :: wk), wa.
  assert (Hk : (105%N :: wk = lit "image" \/ 105%N :: wk = lit "icon") /\ ck = []).
  { destruct Lk as [Lk|Lk]; apply -> lang_lit in Lk; destruct Lk as [-> ->]; auto. }
  destruct Hk as [Hk ->]. split; [|split; [tauto|split; [exact Hk|reflexivity]]].
  destruct Lt as [(ct' & -> & Lt)|[-> ->]].
  - assert (ct' = []) as -> by (apply (lang_no_caps _ _ _ _ _ _ Lt); reflexivity).
    cbn [app get_cap Nat.eqb unwrap_or_default]. reflexivity.
  - reflexivity.
Qed.
Lemma is_bsl t e : starts_with [BSL] (e ++ t) = true -> (e = [] \/ e = [BSL]) -> (forall r, t <> BSL :: r) -> e = [BSL].
Proof. intros H [->| ->] N; [|reflexivity]. apply starts_with_spec in H. destruct H as [r H]. destruct (N r H). Qed.
Lemma image_replacer_ok U fs P pv x m : match_here U INLINE_IMAGE_MACRO pv x = Some m ->
  (forall k target attrs, occurs (k ++ lit ":" ++ target ++ lit "[" ++ attrs ++ lit "]") (m_text m) -> k = lit "image" \/ k = lit "icon" -> target <> [] /\ forall a, inline_attrlist U P attrs = Ok a -> ~ unported target a) ->
  exists o, image_macro_replacer U fs P m = Ok o.
Proof.
  intros Hm Hc. destruct (image_shape _ _ _ _ Hm) as (e & k & attrs & Et & He & Hk & H2). unfold image_macro_replacer.
  destruct (starts_with [BSL] (m_text m)) eqn:Eb.
  { rewrite Et in *. assert (e = [BSL]) as ->; [apply (is_bsl _ _ Eb He); destruct Hk as [->| ->]; discriminate|]. cbn [app]. rewrite str_from1 by reflexivity. eauto. }
  specialize (Hc k (unwrap_or_default (cap m 1)) attrs). destruct Hc as [Hn Ha]; [rewrite Et; apply occurs_pre; exists [], []; rewrite app_nil_r; reflexivity|exact Hk|].
  unfold cap_idx. destruct (cap m 1) as [target|]; [|destruct (Hn eq_refl)]. cbn [unwrap_or_default of_option bind] in *. rewrite H2. cbn [of_option bind].
  destruct (inline_attrlist_ok U P attrs) as (a & Ea & W). rewrite Ea. cbn [bind]. specialize (Ha a Ea).
  destruct (starts_with (lit "image:") (m_text m)); [|apply render_icon_ok, W]. unfold render_image. destruct (image_uri_ok U fs P (ip_target (mkip target match named_or_positional_attribute a (lit "alt") 1 with Some e0 => normalize_text_lf_escaped_bracket (ea_value e0) | None => basename (blank_separators target) end (option_map ea_value (named_or_positional_attribute a (lit "width") 2)) (option_map ea_value (named_or_positional_attribute a (lit "height") 3)) a)) None) as [src ->].
  cbn [bind ip_target ip_attrlist]. destruct (has_option_ok a W (lit "inline")) as [i Hi], (has_option_ok a W (lit "interactive")) as [j Hj].
  set (svg := match named_value a (lit "format") with Some f => text_eqb f (lit "svg") | None => false end || contains (lit ".svg") target).
  assert (Hs : svg = true -> i || j = false).
  { intros Hs. unfold svg in Hs. apply orb_true_iff in Hs. destruct (i || j) eqn:Eo; [|reflexivity]. exfalso. apply Ha. split.
    - destruct Hs as [Hs|Hs]; [left|right; apply contains_spec, Hs]. unfold named_value in Hs. destruct (option_map ea_value (named_attribute a (lit "format"))) as [f|]; [|discriminate Hs]. apply text_eqb_eq in Hs. subst f. reflexivity.
    - rewrite Hi, Hj. apply orb_true_iff in Eo. destruct Eo as [->| ->]; auto. }
  destruct svg; [|cbn [bind]; apply icon_or_image_ok, W]. specialize (Hs eq_refl). apply orb_false_iff in Hs. destruct Hs as [-> ->]. rewrite Hi. cbn [bind]. rewrite Hj. cbn [bind]. apply icon_or_image_ok, W.
Qed.

Lemma strip_ok U t : exists o, strip_scheme U t = Ok o.
Proof. apply replace_all_pure_ok. eauto. Qed.
Lemma shown_ok U P t : exists o, shown_target U P t = Ok o.
Proof. unfold shown_target. destruct (is_attribute_set P (lit "hide-uri-scheme")); [apply strip_ok|eauto]. Qed.
Lemma extract_attrs_ok U P t : exists s a, extract_attributes_from_text U P t = Ok (s, a) /\ wf_al a.
Proof. unfold extract_attributes_from_text. destruct (inline_attrlist_ok U P t) as (a & -> & W). cbn [bind]. eauto. Qed.
Lemma caret_ok t : exists s w, caret t = Ok (s, w).
Proof.
  unfold caret. destruct (ends_with (lit "^") t) eqn:E; [|eauto]. apply ends_with_spec in E. destruct E as [a ->]. change (lit "^") with [94%N]. rewrite chop_last by reflexivity. cbn [bind]. eauto.
Qed.
Lemma link_body_ok U P empty target lt : wf_al empty -> exists s w a b, link_body U P empty target lt = Ok (s, w, a, b) /\ wf_al a.
Proof.
  intros W. unfold link_body. destruct (shown_ok U P target) as [o Ho]. destruct lt as [raw|]; [|rewrite Ho; cbn [bind]; eauto 7].
  destruct (has_char 61%N (replace_esc_bracket raw)).
  - destruct (extract_attrs_ok U P raw) as (s & a & -> & Wa). cbn [bind fst snd]. destruct (caret_ok (replace_str [BSL; DQUOTE] [DQUOTE] s)) as (u & w & ->). cbn [bind fst snd]. destruct u; [rewrite Ho; cbn [bind]|]; eauto 7.
  - cbn [bind fst snd]. destruct (caret_ok (replace_esc_bracket raw)) as (u & w & ->). cbn [bind fst snd]. destruct u; [rewrite Ho; cbn [bind]|]; eauto 7.
Qed.

Lemma link_shape U pv x m : match_here U INLINE_LINK pv x = Some m -> exists c1 c3 tail,
  m_text m = c1 ++ c3 ++ tail /\ cap m 1 = Some c1 /\ cap m 3 = Some c3 /\
  ((exists t a, cap m 4 = Some t /\ cap m 5 = Some a) \/
   (exists s, cap m 4 = None /\ cap m 5 = None /\ cap m 6 = Some s /\ tail = s ++ lit "&gt;") \/
   (exists w c, cap m 4 = None /\ cap m 5 = None /\ cap m 6 = None /\ cap m 7 = Some (w ++ [c]) /\ cap m 8 = Some [c])).
Proof.
  intros H. apply match_here_lang in H. destruct H as (_ & _ & L). unfold cap. unfold INLINE_LINK in L. cbn [Seqs] in L.
  apply lang_seq in L. destruct L as (w1 & w2 & k1 & k2 & Ew & Ec & L1 & L). rewrite Ew, Ec. clear Ew Ec.
  apply lang_seq in L. destruct L as (w3 & w4 & k3 & k4 & -> & -> & L3 & L).
  apply -> lang_grp in L1. destruct L1 as (k1' & -> & L1). apply -> lang_grp in L3. destruct L3 as (k3' & -> & L3).
  assert (k3' = []) as -> by (apply (lang_no_caps _ _ _ _ _ _ L3); reflexivity).
  assert (K1 : forall n, n <> 2 -> get_cap n ((1, w1) :: k1') = get_cap n [(1, w1)]).
  { intros n Hn. cbn [get_cap]. destruct (n =? 1); [reflexivity|]. apply (lang_no_cap _ _ _ _ _ _ _ L1). destruct n as [|[|[|n]]]; [reflexivity|reflexivity|congruence|reflexivity]. }
  exists w1, w3, w4. split; [reflexivity|]. rewrite !get_cap_app.
  cbn [Alts] in L. rewrite !K1 by lia. cbn [get_cap Nat.eqb].
  destruct L as [L|[L|L]].
  - cbn [Seqs] in L. apply lang_seq in L. destruct L as (a & b & ka & kb & -> & -> & La & L). apply -> lang_grp in La. destruct La as (ka' & -> & La).
    assert (ka' = []) as -> by (apply (lang_no_caps _ _ _ _ _ _ La); reflexivity).
    apply lang_seq in L. destruct L as (c & d & kc & kd & -> & -> & Lc & L). apply -> lang_lit1 in Lc. destruct Lc as [-> ->].
    apply lang_seq in L. destruct L as (e & f & ke & kf & -> & -> & Le & L). apply -> lang_lit1 in L. destruct L as [-> ->].
    apply -> lang_grp in Le. destruct Le as (ke' & -> & Le).
    assert (ke' = []) as -> by (apply (lang_no_caps _ _ _ _ _ _ Le); reflexivity).
    cbn [app get_cap Nat.eqb]. split; [reflexivity|]. split; [reflexivity|]. left. eauto.
  - cbn [Seqs] in L. apply lang_seq in L. destruct L as (a & b & ka & kb & -> & -> & La & L). apply -> lang_grp in La. destruct La as (ka' & -> & La).
    assert (ka' = []) as -> by (apply (lang_no_caps _ _ _ _ _ _ La); reflexivity).
    apply -> lang_lit in L. destruct L as [-> ->]. cbn [app get_cap Nat.eqb]. split; [reflexivity|]. split; [reflexivity|]. right. left. exists a. auto.
  - apply -> lang_grp in L. destruct L as (k & -> & L). apply lang_seq in L. destruct L as (a & b & ka & kb & -> & -> & La & L). apply -> lang_many_chr in La. destruct La as [_ ->].
    apply -> lang_grp in L. destruct L as (k' & -> & L). destruct L as (c & -> & _ & ->). cbn [app get_cap Nat.eqb]. split; [reflexivity|]. split; [reflexivity|]. right. right. exists a, c. auto 6.
Qed.
Lemma link_tail_ok w c s : exists a b, link_tail [c] (s ++ w ++ [c]) = Ok (a, b).
Proof.
  unfold link_tail. destruct (text_eqb [c] (lit ";") || text_eqb [c] (lit ":")) eqn:E; [|eauto].
  assert (clen c = 1) as Hc. { apply orb_true_iff in E. destruct E as [E|E]; apply text_eqb_eq in E; injection E as ->; reflexivity. }
  rewrite app_assoc, chop_last by exact Hc. cbn [bind]. destruct (ends_with (lit ")") (s ++ w)) eqn:E2; [|eauto].
  apply ends_with_spec in E2. destruct E2 as [a ->]. change (lit ")") with [41%N]. rewrite chop_last by reflexivity. cbn [bind]. eauto.
Qed.
Lemma link_replacer_ok U P pv x m : match_here U INLINE_LINK pv x = Some m -> ~ occurs (lit "&gt;") (m_text m) \/ cap m 2 <> None -> exists o, link_replacer U P m = Ok o.
Proof.
  intros Hm Hg. destruct (link_shape _ _ _ _ Hm) as (c1 & c3 & tail & Et & H1 & H3 & Hc). unfold link_replacer.
  destruct (inline_attrlist_ok U P []) as (em & -> & We). cbn [bind].
  assert (Hs : forall t, starts_with [BSL] c3 = true -> exists o, (s <- str_from (blen c1 + 1) (m_text m) ;; Ok (t ++ s)) = Ok o).
  { intros t Hb. apply starts_with_spec in Hb. destruct Hb as [r ->]. rewrite Et. replace (blen c1 + 1) with (blen (c1 ++ [BSL])) by (rewrite blen_app; reflexivity).
    replace (c1 ++ ([BSL] ++ r) ++ tail) with ((c1 ++ [BSL]) ++ r ++ tail) by (rewrite <- !app_assoc; reflexivity). rewrite str_from_at. cbn [bind]. eauto. }
  destruct (match cap m 2 with Some _ => match cap m 5 with Some _ => false | None => true end | None => false end) eqn:Ea.
  - unfold link_angle, cap_idx. rewrite H1. cbn [of_option bind]. destruct (starts_with [BSL] c1) eqn:Eb.
    { apply starts_with_spec in Eb. destruct Eb as [r ->]. rewrite Et. cbn [app]. rewrite str_from1 by reflexivity. eauto. }
    rewrite H3. cbn [of_option bind]. destruct (starts_with [BSL] c3) eqn:Ec; [apply Hs; reflexivity|]. destruct (cap m 6) as [suffix|]; [|eauto].
    destruct (shown_ok U P (c3 ++ suffix)) as [o ->]. cbn [bind]. apply render_link_ok, We.
  - unfold cap_idx. rewrite H1, H3. cbn [of_option bind]. destruct (starts_with [BSL] c3) eqn:Ec; [apply Hs; reflexivity|].
    destruct Hc as [(t & a & H4 & H5)|[(s & H4 & H5 & H6 & E)|(w & c & H4 & H5 & H6 & H7 & H8)]].
    + rewrite H4, H5. cbn [bind]. destruct (link_body_ok U P em (c3 ++ t) (if is_nil a then None else Some a) We) as (s & w & al & b & -> & Wa). cbn [bind].
      destruct (render_link_ok (mklp (c3 ++ t) s (if b then [lit "bare"] else []) w al) Wa) as [o ->]. cbn [bind]. eauto.
    + exfalso. destruct Hg as [Hg|Hg].
      * apply Hg. rewrite Et, E. exists (c1 ++ c3 ++ s), []. rewrite app_nil_r, !app_assoc. reflexivity.
      * rewrite H5 in Ea. destruct (cap m 2); [discriminate Ea|contradiction].
    + rewrite H4, H5, H7. cbn [of_option bind]. destruct (text_eqb c1 (lit "link") || text_eqb c1 DQ || text_eqb c1 (lit "'")); [eauto|].
      rewrite H8. cbn [of_option bind]. destruct (link_tail_ok w c c3) as (tg & sf & ->). cbn [bind fst snd].
      destruct (link_body_ok U P em tg None We) as (s & wd & al & b & -> & Wa). cbn [bind].
      destruct (render_link_ok (mklp tg s (if b then [lit "bare"] else []) wd al) Wa) as [o ->]. cbn [bind]. eauto.
Qed.

Lemma link_macro_shape U pv x m : match_here U INLINE_LINK_MACRO pv x = Some m -> exists e k c3 tail,
  m_text m = e ++ k ++ lit ":" ++ c3 ++ lit "[" ++ tail /\ (e = [] \/ e = [BSL]) /\ (k = lit "link" \/ k = lit "mailto") /\ (cap m 3 = Some c3 \/ exists c, c3 = [c]).
Proof.
  intros H. apply match_here_lang in H. destruct H as (_ & _ & L). unfold cap. unfold INLINE_LINK_MACRO in L. cbn [Seqs] in L.
  apply lang_seq in L. destruct L as (we & w1 & ce & c1 & Ew & Ec & Le & L). rewrite Ew, Ec. clear Ew Ec. apply -> lang_opt_lit1 in Le. destruct Le as [He ->].
  apply lang_seq in L. destruct L as (wk & w3 & ck & c3 & -> & -> & Lk & L).
  apply lang_seq in L. destruct L as (wc & w4 & cc & c4 & -> & -> & Lc & L). apply -> lang_lit1 in Lc. destruct Lc as [-> ->].
  apply lang_seq in L. destruct L as (wt & w5 & ct & c5 & -> & -> & Lt & L).
  apply lang_seq in L. destruct L as (wb & w6 & cb & c6 & -> & -> & Lb & L). apply -> lang_lit1 in Lb. destruct Lb as [-> ->].
  apply lang_seq in L. destruct L as (wa & wz & ca & cz & -> & -> & La & L). apply -> lang_lit1 in L. destruct L as [-> ->].
  exists we, wk, wt, (wa ++ [93%N]). split; [reflexivity|]. split; [tauto|]. split.
  { destruct Lk as [Lk|(c & -> & Lk)]; apply -> lang_lit in Lk; destruct Lk as [-> _]; auto. }
  assert (Hca : forall l, get_cap 3 (ca ++ l) = get_cap 3 l).
  { intros l. rewrite get_cap_app. rewrite (lang_no_cap _ 3 _ _ _ _ _ La) by reflexivity. reflexivity. }
  rewrite !app_nil_r. cbn [app]. rewrite <- !app_assoc, Hca.
  destruct Lt as [Lt|(ct' & -> & Lt)].
  - right. cbn [lang] in Lt. linv. eexists. reflexivity.
  - left. reflexivity.
Qed.
Lemma link_macro_text_ok U P mailto target lt : exists s t w a, link_macro_text U P mailto target lt = Ok (s, t, w, a) /\ wf_opt a.
Proof.
  unfold link_macro_text. destruct (is_nil lt); [repeat eexists|]. destruct (extract_attrs_ok U P (replace_char LF (lit " ") lt)) as (s & a & Ex & Wa).
  assert (K : forall (s target : text) oa, wf_opt oa -> exists s' t w a, (tw <- caret s ;; Ok (fst tw, target, snd tw, oa)) = Ok (s', t, w, a) /\ wf_opt a).
  { clear. intros s target oa Wo. destruct (caret_ok s) as (u & w & ->). cbn [bind fst snd]. eauto 6. }
  destruct mailto.
  - destruct (has_char COMMA (replace_esc_bracket lt)); cbn [bind]; [rewrite Ex; cbn [bind fst snd]|]; apply K; [exact Wa|exact I].
  - destruct (has_char 61%N (replace_esc_bracket lt)); cbn [bind]; [rewrite Ex; cbn [bind fst snd]|]; apply K; [exact Wa|exact I].
Qed.
Lemma link_macro_replacer_ok U P pv x m : match_here U INLINE_LINK_MACRO pv x = Some m ->
  (forall k c, occurs (k ++ lit ":" ++ [c] ++ lit "[") (m_text m) -> ~ (k = lit "link" \/ k = lit "mailto")) -> exists o, link_macro_replacer U P m = Ok o.
Proof.
  intros Hm Hn. destruct (link_macro_shape _ _ _ _ Hm) as (e & k & c3 & tail & Et & He & Hk & Hc). unfold link_macro_replacer.
  destruct (starts_with [BSL] (m_text m)) eqn:Eb.
  { rewrite Et in *. assert (e = [BSL]) as ->; [apply (is_bsl _ _ Eb He); destruct Hk as [->| ->]; discriminate|]. cbn [app]. rewrite str_from1 by reflexivity. eauto. }
  destruct Hc as [Hc|[c ->]].
  2:{ exfalso. apply (Hn k c); [|exact Hk]. rewrite Et. exists e, tail. rewrite <- !app_assoc. reflexivity. }
  unfold cap_idx. rewrite Hc. cbn [of_option bind].
  destruct (link_macro_text_ok U P (match cap m 1 with Some _ => true | None => false end) (if match cap m 1 with Some _ => true | None => false end then lit "mailto:" ++ c3 else c3) (unwrap_or_default (cap m 5))) as (s & t & w & a & -> & Wa).
  cbn [bind]. assert (K : exists al, match a with Some a0 => Ok a0 | None => inline_attrlist U P [] end = Ok al /\ wf_al al).
  { destruct a as [a|]; [eauto|]. apply inline_attrlist_ok. }
  destruct K as (al & -> & Wl). cbn [bind]. destruct (is_nil s); cbn [bind].
  - destruct (match cap m 1 with Some _ => true | None => false end); cbn [bind]; [apply render_link_ok, Wl|]. destruct (shown_ok U P t) as [o ->]. cbn [bind]. apply render_link_ok, Wl.
  - apply render_link_ok, Wl.
Qed.

Lemma email_replacer_ok U P pv x m : match_here U (INLINE_EMAIL U) pv x = Some m -> exists o, email_replacer U P m = Ok o.
Proof.
  intros Hm. destruct (must_cap_idx U 2 (INLINE_EMAIL U) _ _ _ eq_refl Hm) as (c2 & H2 & _). apply match_here_lang in Hm. destruct Hm as (_ & _ & L).
  unfold INLINE_EMAIL in L. cbn [Seqs] in L. apply lang_seq in L. destruct L as (a & b & ka & kb & Et & Ec & La & L). apply -> lang_grp in La. destruct La as (ka' & -> & La).
  assert (H1 : cap m 1 = Some a).
  { unfold cap. rewrite Ec, get_cap_app. rewrite (lang_no_cap _ 1 _ _ _ _ _ L) by reflexivity. reflexivity. }
  unfold email_replacer. rewrite H1, H2. cbn [bind]. destruct (inline_attrlist_ok U P []) as (em & -> & We). cbn [bind]. destruct a as [|a0 a]; [apply render_link_ok, We|].
  destruct (text_eqb (a0 :: a) [BSL]) eqn:E; [|eauto]. apply text_eqb_eq in E. injection E as -> ->. rewrite Et. cbn [app]. rewrite str_from1 by reflexivity. eauto.
Qed.
Lemma anchor_replacer_ok U pv x m : match_here U (INLINE_ANCHOR U) pv x = Some m -> exists o, anchor_replacer m = Ok o.
Proof.
  intros Hm. apply match_here_lang in Hm. destruct Hm as (_ & _ & L). unfold INLINE_ANCHOR in L.
  apply lang_seq in L. destruct L as (a & b & ka & kb & Et & Ec & La & L). unfold anchor_replacer, cap_idx, cap. rewrite Et, Ec, !get_cap_app.
  assert (Ha : (a = [BSL] /\ ka = [(1, [BSL])]) \/ (a = [] /\ ka = [])).
  { destruct La as [(c & -> & La)|[-> ->]]; [|auto]. apply -> lang_lit1 in La. destruct La as [-> ->]. auto. }
  assert (Hb : get_cap 1 kb = None /\ (get_cap 2 kb <> None \/ get_cap 4 kb <> None)).
  { split; [apply (lang_no_cap _ 1 _ _ _ _ _ L); reflexivity|]. destruct L as [L|L]; [left|right].
    - cbn [Seqs] in L. destruct L as (u & v & ku & kv & -> & -> & Lu & (u2 & v2 & ku2 & kv2 & -> & -> & (k2 & -> & _) & L)). rewrite !get_cap_app. destruct (get_cap 2 kv2); discriminate.
    - cbn [Seqs] in L. destruct L as (u & v & ku & kv & -> & -> & Lu & (u2 & v2 & ku2 & kv2 & -> & -> & (k2 & -> & _) & L)). rewrite !get_cap_app. destruct (get_cap 4 kv2); discriminate. }
  destruct Hb as [-> Hb]. destruct Ha as [[-> ->]|[-> ->]].
  - cbn [get_cap Nat.eqb app]. rewrite str_from1 by reflexivity. eauto.
  - cbn [get_cap]. destruct (get_cap 2 kb) as [i|]; cbn [bind]; [eauto|]. destruct Hb as [Hb|Hb]; [congruence|]. destruct (get_cap 4 kb); [cbn; eauto|congruence].
Qed.

(** * Attributes of images *)
Lemma join_in (x : char) sep l : In x (join sep l) -> In x sep \/ exists s, In s l /\ In x s.
Proof.
  induction l as [|a l IH]; [intros []|]. destruct l as [|b l]; [intros H; right; exists a; cbn; auto|]. rewrite join_cons2, !in_app_iff. intros [H|[H|H]]; [right; exists a; cbn; auto|auto|].
  destruct (IH H) as [K|(s & Hs & K)]; [auto|right; exists s; split; [right; exact Hs|exact K]].
Qed.
Lemma split_on_in (x c : char) t s : In s (split_on c t) -> In x s -> In x t.
Proof.
  revert s. induction t as [|d t IH]; intros s Hs Hx; [destruct Hs as [<-|[]]; destruct Hx|]. cbn [split_on] in Hs. destruct (d =? c)%N.
  - destruct Hs as [<-|Hs]; [destruct Hx|right; eapply IH; eassumption].
  - destruct (split_on c t) as [|l ls] eqn:E; [destruct Hs as [<-|[]]; destruct Hx as [->|[]]; left; reflexivity|].
    destruct Hs as [<-|Hs]; [destruct Hx as [->|Hx]; [left; reflexivity|right; eapply IH; [left; reflexivity|exact Hx]]|right; eapply IH; [right; exact Hs|exact Hx]].
Qed.
Lemma posixify_in (x : char) fs t : In x (posixify fs t) -> In x t \/ x = 47%N.
Proof.
  unfold posixify. destruct (_ && _); [|auto]. unfold replace_char. intros H. apply in_flat_map in H. destruct H as (y & Hy & H). destruct (y =? BSL)%N; destruct H as [H|[]]; subst; auto.
Qed.
Lemma str_from_in (x : char) n t r : str_from n t = Ok r -> In x r -> In x t.
Proof. unfold str_from. destruct (bsplit n t) as [[a b]|] eqn:E; [|discriminate]. intros H. apply Ok_inj in H. subst r. apply bsplit_some in E. destruct E as [-> _]. intros H. apply in_or_app. auto. Qed.
Lemma replace_char_in (x c : char) by_ t : In x (replace_char c by_ t) -> In x t \/ In x by_.
Proof. unfold replace_char. intros H. apply in_flat_map in H. destruct H as (y & Hy & H). destruct (y =? c)%N; [auto|]. destruct H as [H|[]]; subst; auto. Qed.
Definition path_char (x : char) : Prop := In x (lit "/.%20").
Lemma partition_in (x : char) fs t segs root s : partition_path fs t = Ok (segs, root) -> In s segs -> In x s -> In x t \/ path_char x.
Proof.
  unfold partition_path. set (p := posixify fs t). set (r := if is_web_root p then _ else _).
  intros H Hs Hx. destruct (match r with Some r0 => str_from (blen r0) p | None => Ok p end) as [ar| |] eqn:E; cbn [bind] in H; [|discriminate|discriminate].
  apply Ok_inj in H. injection H as <- <-. apply filter_In in Hs. destruct Hs as [Hs _]. pose proof (split_on_in x _ _ _ Hs Hx) as K.
  assert (Kp : In x p). { destruct r; [eapply str_from_in; eassumption|]. apply Ok_inj in E. subst ar. exact K. }
  apply posixify_in in Kp. destruct Kp as [Kp| ->]; [auto|right; left; reflexivity].
Qed.
Lemma web_path_chars U fs target start o x : web_path U fs target start = Ok o -> In x o -> In x target \/ (exists s, start = Some s /\ In x s) \/ path_char x.
Proof.
  unfold web_path. set (t := posixify fs target). intros H Hx.
  assert (Ht : forall x, In x t -> In x target \/ path_char x). { intros y Hy. apply posixify_in in Hy. destruct Hy as [Hy| ->]; [auto|right; left; reflexivity]. }
  destruct (match option_map (posixify fs) start with None => Ok (t, None) | Some start0 => if is_web_root t then Ok (t, None) else extract_uri_prefix U (start0 ++ (if ends_with (lit "/") start0 then [] else lit "/") ++ t) end) as [[t' pre]| |] eqn:E; cbn [bind] in H; [|discriminate|discriminate].
  assert (Hb : forall x, In x t' \/ (exists p, pre = Some p /\ In x p) -> In x target \/ (exists s, start = Some s /\ In x s) \/ path_char x).
  { destruct start as [s|]; cbn [option_map] in E.
    - destruct (is_web_root t).
      + apply Ok_inj in E. injection E as <- <-. intros y [Hy|(p & Hp & _)]; [apply Ht in Hy; tauto|discriminate].
      + destruct (extract_ok U (posixify fs s ++ (if ends_with (lit "/") (posixify fs s) then [] else lit "/") ++ t)) as (t2 & pre2 & E2 & Es & _). rewrite E2 in E. apply Ok_inj in E. injection E as -> ->.
        intros y Hy. assert (Hi : In y (posixify fs s ++ (if ends_with (lit "/") (posixify fs s) then [] else lit "/") ++ t)).
        { rewrite Es. apply in_or_app. destruct Hy as [Hy|(p & -> & Hy)]; [right; exact Hy|left; exact Hy]. }
        rewrite !in_app_iff in Hi. destruct Hi as [Hi|[Hi|Hi]].
        * apply posixify_in in Hi. destruct Hi as [Hi| ->]; [right; left; eauto|right; right; left; reflexivity].
        * destruct (ends_with (lit "/") (posixify fs s)); [destruct Hi|]. destruct Hi as [<-|[]]. right. right. left. reflexivity.
        * apply Ht in Hi. tauto.
    - apply Ok_inj in E. injection E as <- <-. intros y [Hy|(p & Hp & _)]; [apply Ht in Hy; tauto|discriminate]. }
  cbn [fst snd] in H. destruct (partition_path fs t') as [[segs root]| |] eqn:Ep; cbn [bind] in H; [|discriminate|discriminate]. apply Ok_inj in H. subst o. cbn [fst snd] in Hx.
  apply in_app_iff in Hx. destruct Hx as [Hx|Hx]; [destruct pre as [p|]; [apply Hb; eauto|destruct Hx]|]. apply unspace_in in Hx. destruct Hx as [_ [Hx|Hx]].
  - unfold join_path in Hx. apply in_app_iff in Hx. destruct Hx as [Hx|Hx].
    + destruct (partition_ok fs t') as (segs2 & root2 & E2 & Hr & _). rewrite E2 in Ep. apply Ok_inj in Ep. injection Ep as -> ->. right. right. destruct Hr as [->|[->| ->]]; cbn in Hx; unfold path_char; cbn; intuition.
    + apply join_in in Hx. destruct Hx as [Hx|(s & Hs & Hx)]; [right; right; destruct Hx as [<-|[]]; left; reflexivity|]. apply in_rev in Hs. destruct (resolve_in root segs [] s Hs) as [[]|Hi].
      destruct (partition_in x _ _ _ _ _ Ep Hi Hx) as [K|K]; [apply Hb; auto|auto].
  - right. right. unfold path_char. cbn. intuition.
Qed.
Lemma path_char_dq : ~ path_char DQC.
Proof. unfold path_char. cbn. intuition discriminate. Qed.
Lemma image_uri_clean U fs P target k src : image_uri U fs P target k = Ok src -> ~ In DQC target ->
  (forall d, as_maybe_str (attribute_value P (match k with Some k0 => k0 | None => lit "imagesdir" end)) = Some d -> ~ In DQC d) -> ~ In DQC src.
Proof.
  unfold image_uri, normalize_web_path. intros H Ht Hd Hi. destruct (true && is_uri_ish U target).
  - apply Ok_inj in H. subst src. unfold encode_spaces_in_uri in Hi. apply replace_char_in in Hi. destruct Hi as [Hi|Hi]; [auto|]. cbn in Hi. intuition discriminate.
  - destruct (web_path_chars _ _ _ _ _ _ H Hi) as [K|[(s & Hs & K)|K]]; [auto|apply (Hd s Hs K)|apply path_char_dq, K].
Qed.
Definition quot (c : char) : text := if (c =? 34)%N then lit "&quot;" else [c].
Lemma encode_clean v : ~ In DQC (encode_attribute_value v).
Proof.
  unfold encode_attribute_value, replace_char. intros H. apply in_flat_map in H. destruct H as (y & _ & H). destruct (y =? DQUOTE)%N eqn:E; [cbn in H; intuition discriminate|]. destruct H as [H|[]]. subst y. discriminate E.
Qed.
Lemma img_attrs l : l <> [] -> lit "<img " ++ join (lit " ") (map (fun nv => html_attr0 (fst nv) (snd nv)) l) ++ lit ">" = lit "<img" ++ flat_map (fun nv => attr (fst nv) (snd nv)) l ++ lit ">".
Proof.
  intros Hl. change (lit "<img ") with (lit "<img" ++ lit " "). rewrite <- app_assoc. f_equal. revert Hl. induction l as [|a l IH]; [congruence|]. intros _.
  cbn [map]. destruct l as [|b l].
  - cbn [map join flat_map]. unfold attr, html_attr0. rewrite app_nil_r, <- !app_assoc. reflexivity.
  - cbn [map]. rewrite join_cons2. cbn [flat_map]. cbn [map flat_map] in IH. rewrite <- !app_assoc. rewrite IH by discriminate. unfold attr, html_attr0. rewrite <- !app_assoc. reflexivity.
Qed.
Definition opt_list {A} (o : option A) : list A := match o with Some a => [a] | None => [] end.
Lemma render_image_element U fs P p html : render_image U fs P p = Ok html -> named_attribute (ip_attrlist p) (lit "link") = None ->
  exists src roles, image_uri U fs P (ip_target p) None = Ok src /\ al_roles (ip_attrlist p) = Ok roles /\
  html = image_element (join (lit " ") (lit "image" :: opt_list (option_map ea_value (named_attribute (ip_attrlist p) (lit "float"))) ++ roles))
    ((lit "src", src) :: (lit "alt", flat_map quot (ip_alt p)) :: map (pair (lit "width")) (opt_list (ip_width p)) ++ map (pair (lit "height")) (opt_list (ip_height p))
     ++ map (pair (lit "title")) (opt_list (option_map (fun e => flat_map quot (ea_value e)) (named_attribute (ip_attrlist p) (lit "title"))))).
Proof.
  unfold render_image. intros H Hl. destruct (image_uri U fs P (ip_target p) None) as [src| |]; cbn [bind] in H; [|discriminate|discriminate].
  match type of H with (bind ?e _) = _ => destruct e as [u| |]; cbn [bind] in H; [|discriminate|discriminate] end. destruct u; [discriminate|].
  unfold render_icon_or_image in H. rewrite Hl in H. cbn [bind] in H. destruct (al_roles (ip_attrlist p)) as [roles| |]; cbn [bind] in H; [|discriminate|discriminate].
  exists src, roles. split; [reflexivity|]. split; [reflexivity|]. apply Ok_inj in H. rewrite <- H. clear H. unfold image_element.
  match goal with |- context [flat_map _ ?l ++ lit "></span>"] => set (al := l) end.
  assert (E : lit "<img " ++ join (lit " ") ([html_attr0 (lit "src") src; html_attr0 (lit "alt") (encode_attribute_value (ip_alt p))] ++ opt_attr (lit "width") (ip_width p) ++ opt_attr (lit "height") (ip_height p)
     ++ opt_attr (lit "title") (option_map encode_attribute_value (named_value (ip_attrlist p) (lit "title")))) ++ lit ">" = lit "<img" ++ flat_map (fun nv => attr (fst nv) (snd nv)) al ++ lit ">").
  { rewrite <- img_attrs by discriminate. f_equal. f_equal. f_equal. unfold al, named_value. rewrite !map_cons, !map_app, !map_map. cbn [fst snd app].
    f_equal. f_equal. destruct (ip_width p), (ip_height p), (named_attribute (ip_attrlist p) (lit "title")); reflexivity. }
  rewrite E. change (lit "></span>") with (lit ">" ++ lit "</span>"). change (lit "><img") with (lit ">" ++ lit "<img"). rewrite <- !app_assoc. f_equal.
  destruct (named_attribute (ip_attrlist p) (lit "float")) as [f|]; cbn [option_map opt_list app]; unfold html_attr, attr; rewrite <- !app_assoc; reflexivity.
Qed.
