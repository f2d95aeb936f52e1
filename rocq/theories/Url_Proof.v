(** Proofs about URLs in text. *)
From Verif Require Import Text TextFacts Span_Model Span_Proof Span_Laws Maps Parser_Model Regex Regex_Proof Regex_Scan Regex_Lang Regex_Lazy Attrlist_Model Attrlist_Proof Attrlist_Laws Render_Model Render_Proof
  Quote_Model Look_Proof Macro_Model Macro_Spec Macro_Proof Auto_Spec Auto_Proof Inline_Spec Inline_Proof.

Definition URL_PREFIX : re := Alts [Assert ALineBegin; Lit (lit "link:"); Chr (c_in [SP; TAB]); Seqs [Opt (Lit1 BSL); Lit (lit "&lt;"); Grp 2 Eps]; Chr (c_in (lit ">()[];'" ++ DQ))].
Definition URL_SCHEME : re := Seqs [Opt (Lit1 BSL); Alts [Seq (Lit (lit "http")) (Opt (Lit (lit "s"))); Lit (lit "file"); Lit (lit "ftp"); Lit (lit "irc")]; Lit (lit "://")].
Definition url_tchar (c : char) : bool := negb (is_ws c || c_in (lit "[]") c).
Definition url_bchar (c : char) : bool := negb (is_ws c || c_in (lit "[]<") c).
Definition url_zchar (c : char) : bool := negb (is_ws c || c_in (lit ",.?![]<)") c).
Definition URL_M : re := Seq (Grp 4 (Plus (Chr url_tchar))) (Seq (Lit1 91%N) (Seq (Grp 5 (Alt Eps (Bracketed c_any))) (Lit1 93%N))).
Definition URL_A : re := Seq (Grp 6 (PlusL (Chr c_nonspace))) (Lit (lit "&gt;")).
Definition URL_B : re := Grp 7 (Seq (Many (Chr url_bchar)) (Grp 8 (Chr url_zchar))).
Lemma url_re : INLINE_LINK = Seq (Grp 1 URL_PREFIX) (Seq (Grp 3 URL_SCHEME) (Alt URL_M (Alt URL_A URL_B))).
Proof. reflexivity. Qed.

(** * Before the scheme *)
Definition angle_caps (p : text) : list (nat * text) := if text_eqb p angle || text_eqb p (BSL :: angle) then [(2, [])] else [].
Lemma one_char_caps c : angle_caps [c] = [].
Proof. unfold angle_caps. destruct (text_eqb [c] angle) eqn:E; [apply text_eqb_eq in E; discriminate E|]. destruct (text_eqb [c] (BSL :: angle)) eqn:E2; [apply text_eqb_eq in E2; discriminate E2|]. reflexivity. Qed.
Lemma prefix_lang U prev p rest c : lang U URL_PREFIX prev p rest c <-> url_prefix prev p /\ c = angle_caps p.
Proof.
  unfold URL_PREFIX. cbn [Alts]. rewrite !lang_alt. unfold url_prefix. split.
  - intros [L|[L|[L|[L|L]]]].
    + apply -> lang_assert in L. destruct L as (-> & -> & H). split; [left; split; [reflexivity|]|reflexivity]. cbn [at_check] in H. destruct prev as [d|]; [|auto]. apply N.eqb_eq in H. subst d. auto.
    + apply -> lang_lit in L. destruct L as (-> & ->). split; [auto|reflexivity].
    + apply -> lang_chr in L. destruct L as (d & -> & H & ->). apply c_in_spec in H. split; [|symmetry; apply one_char_caps]. right. right. right. right. exists d. split; [reflexivity|]. cbn in H |- *. tauto.
    + cbn [Seqs] in L. apply -> lang_seq in L. destruct L as (w1 & w2 & k1 & k2 & -> & -> & L1 & L2). apply escape_lang in L1. destruct L1 as (He & ->). apply -> lang_seq in L2. destruct L2 as (w3 & w4 & k3 & k4 & -> & -> & L3 & L4). apply -> lang_lit in L3. destruct L3 as (-> & ->).
      apply -> lang_grp in L4. destruct L4 as (k & -> & L4). apply -> lang_eps in L4. destruct L4 as (-> & ->). destruct He as [->| ->]; (split; [|reflexivity]); [right; right; left; reflexivity|right; right; right; left; reflexivity].
    + apply -> lang_chr in L. destruct L as (d & -> & H & ->). apply c_in_spec in H. split; [|symmetry; apply one_char_caps]. right. right. right. right. exists d. split; [reflexivity|]. change DQ with [34%N] in H. cbn in H |- *. tauto.
  - intros (H & ->). destruct H as [(-> & H)|[->|[->|[->|(d & -> & H)]]]].
    + left. apply lang_assert. split; [reflexivity|]. split; [reflexivity|]. destruct H as [->| ->]; reflexivity.
    + right. left. apply lang_lit. auto.
    + right. right. right. left. cbn [Seqs]. apply lang_seq. exists [], angle, [], [(2, [])]. split; [reflexivity|]. split; [reflexivity|]. split; [apply lang_alt; right; apply lang_eps; auto|]. apply lang_seq. exists angle, [], [], [(2, [])]. split; [reflexivity|]. split; [reflexivity|]. split; [apply lang_lit; auto|apply lang_grp; exists []; split; [reflexivity|apply lang_eps; auto]].
    + right. right. right. left. cbn [Seqs]. apply lang_seq. exists [BSL], angle, [], [(2, [])]. split; [reflexivity|]. split; [reflexivity|]. split; [apply lang_alt; left; apply lang_lit1; auto|]. apply lang_seq. exists angle, [], [], [(2, [])]. split; [reflexivity|]. split; [reflexivity|]. split; [apply lang_lit; auto|apply lang_grp; exists []; split; [reflexivity|apply lang_eps; auto]].
    + rewrite one_char_caps. assert (K : In d [SP; TAB] \/ In d (lit ">()[];'" ++ DQ)) by (change DQ with [34%N]; cbn in H |- *; tauto). destruct K as [K|K]; [right; right; left|right; right; right; right]; apply lang_chr; exists d; (split; [reflexivity|]); (split; [apply c_in_spec, K|reflexivity]).
Qed.
Lemma scheme_lang U prev w rest c : lang U URL_SCHEME prev w rest c <-> exists e s, escape e /\ In s url_schemes /\ w = e ++ s /\ c = [].
Proof.
  unfold URL_SCHEME. cbn [Seqs Alts]. split.
  - intros L. apply -> lang_seq in L. destruct L as (e & w2 & k1 & k2 & -> & -> & L1 & L2). apply escape_lang in L1. destruct L1 as (He & ->). apply -> lang_seq in L2. destruct L2 as (n & w4 & k3 & k4 & -> & -> & L3 & L4). apply -> lang_lit in L4. destruct L4 as (-> & ->).
    exists e, (n ++ lit "://"). split; [exact He|]. assert (K : In (n ++ lit "://") url_schemes /\ k3 = []); [|destruct K as (K & ->); split; [exact K|]; split; reflexivity].
    repeat (apply -> lang_alt in L3; destruct L3 as [L3|L3]).
    + apply -> lang_seq in L3. destruct L3 as (a & b & ka & kb & -> & -> & La & Lb). apply -> lang_lit in La. destruct La as (-> & ->). apply -> lang_alt in Lb. destruct Lb as [Lb|Lb]; [apply -> lang_lit in Lb|apply -> lang_eps in Lb]; destruct Lb as (-> & ->); (split; [|reflexivity]); cbn; tauto.
    + apply -> lang_lit in L3. destruct L3 as (-> & ->). split; [|reflexivity]. cbn. tauto.
    + apply -> lang_lit in L3. destruct L3 as (-> & ->). split; [|reflexivity]. cbn. tauto.
    + apply -> lang_lit in L3. destruct L3 as (-> & ->). split; [|reflexivity]. cbn. tauto.
  - intros (e & s & He & Hs & -> & ->). apply lang_seq. exists e, s, [], []. split; [reflexivity|]. split; [reflexivity|]. split; [apply lang_alt; destruct He as [->| ->]; [right; apply <- lang_eps; auto|left; apply lang_lit1; auto]|].
    assert (K : exists n, s = n ++ lit "://" /\ In n [lit "http"; lit "https"; lit "file"; lit "ftp"; lit "irc"]). { destruct Hs as [<-|[<-|[<-|[<-|[<-|[]]]]]]; [exists (lit "http")|exists (lit "https")|exists (lit "file")|exists (lit "ftp")|exists (lit "irc")]; (split; [reflexivity|]); cbn; tauto. }
    destruct K as (n & -> & Hn). apply lang_seq. exists n, (lit "://"), [], []. split; [reflexivity|]. split; [reflexivity|]. split; [|apply lang_lit; auto]. rewrite !lang_alt. destruct Hn as [<-|[<-|[<-|[<-|[<-|[]]]]]].
    + left. apply lang_seq. exists (lit "http"), [], [], []. split; [reflexivity|]. split; [reflexivity|]. split; [apply lang_lit; auto|apply lang_alt; right; apply lang_eps; auto].
    + left. apply lang_seq. exists (lit "http"), (lit "s"), [], []. split; [reflexivity|]. split; [reflexivity|]. split; [apply lang_lit; auto|apply lang_alt; left; apply lang_lit; auto].
    + right. left. apply lang_lit. auto.
    + right. right. left. apply lang_lit. auto.
    + right. right. right. apply lang_lit. auto.
Qed.
Lemma scheme_unique s r s' r' : In s url_schemes -> In s' url_schemes -> s ++ r = s' ++ r' -> s = s'.
Proof. intros H H' E. destruct H as [<-|[<-|[<-|[<-|[<-|[]]]]]]; destruct H' as [<-|[<-|[<-|[<-|[<-|[]]]]]]; try reflexivity; discriminate E. Qed.
Lemma scheme_head s : In s url_schemes -> exists c r, s = c :: r /\ In c (lit "hfi").
Proof. intros [<-|[<-|[<-|[<-|[<-|[]]]]]]; eexists; eexists; (split; [reflexivity|cbn; tauto]). Qed.
(** The prefix and the scheme are determined. *)
Lemma head_of p e s prev : url_prefix prev p -> escape e -> In s url_schemes -> exists c r, p ++ e ++ s = c :: r /\ (p = [] -> c = BSL \/ In c (lit "hfi")).
Proof.
  intros Hp He Hs. destruct (scheme_head s Hs) as (c & r & -> & Hc). destruct p as [|x p]; [|eexists; eexists; split; [reflexivity|discriminate]].
  destruct He as [->| ->]; cbn [app]; eexists; eexists; (split; [reflexivity|]); auto.
Qed.
Lemma url_unique prev p e s r p' e' s' r' : url_prefix prev p -> url_prefix prev p' -> escape e -> escape e' -> In s url_schemes -> In s' url_schemes ->
  p ++ e ++ s ++ r = p' ++ e' ++ s' ++ r' -> p = p' /\ e = e' /\ s = s' /\ r = r'.
Proof.
  intros Hp Hp' He He' Hs Hs' E. destruct (scheme_head s Hs) as (c & q & Es & Hc), (scheme_head s' Hs') as (c' & q' & Es' & Hc').
  assert (Nc : c <> BSL /\ c' <> BSL) by (cbn in Hc, Hc'; split; intros ->; intuition discriminate).
  assert (K : p = p').
  { assert (Hq : forall x, In x (lit "hfi") -> x <> 108%N /\ x <> 38%N /\ x <> BSL /\ ~ In x ([SP; TAB; 34%N] ++ lit ">()[];'")).
    { intros x Hx. cbn in Hx. destruct Hx as [<-|[<-|[<-|[]]]]; repeat split; try discriminate; cbn; intuition discriminate. }
    destruct (Hq _ Hc) as (H1 & H2 & H3 & H4), (Hq _ Hc') as (H1' & H2' & H3' & H4'). rewrite Es, Es' in E.
    assert (One : forall x, In x ([SP; TAB; 34%N] ++ lit ">()[];'") -> x <> 108%N /\ x <> 38%N /\ x <> BSL). { intros x Hx. cbn in Hx. repeat (destruct Hx as [<-|Hx]; [repeat split; discriminate|]). destruct Hx. }
    destruct Hp as [(-> & _)|[->|[->|[->|(d & -> & Hd)]]]]; destruct Hp' as [(-> & _)|[->|[->|[->|(d' & -> & Hd')]]]]; try reflexivity;
      try (cbn [app] in E; injection E as E0 _; rewrite E0; reflexivity); exfalso;
      try (destruct (One _ Hd) as (O1 & O2 & O3)); try (destruct (One _ Hd') as (O1' & O2' & O3')); destruct He as [->| ->]; destruct He' as [->| ->]; cbn [app lit angle] in E; try discriminate E; injection E; intros; subst; try tauto; try congruence. }
  subst p'. apply app_inv_head in E. rewrite Es, Es' in E. cbn [app] in E. apply same_esc in E; [|exact He|exact He'|apply Nc|apply Nc]. destruct E as (-> & E). change ((c :: q) ++ r = (c' :: q') ++ r') in E. rewrite <- Es, <- Es' in E.
  pose proof (scheme_unique _ _ _ _ Hs Hs' E) as <-. apply app_inv_head in E. auto.
Qed.

(** * The forms *)
Lemma tchar_spec c : url_tchar c = true <-> is_ws c = false /\ ~ In c (lit "[]").
Proof. unfold url_tchar. rewrite negb_true_iff, orb_false_iff, not_in_spec. reflexivity. Qed.
Lemma bchar_spec c : url_bchar c = true <-> is_ws c = false /\ ~ In c (lit "[]<").
Proof. unfold url_bchar. rewrite negb_true_iff, orb_false_iff, not_in_spec. reflexivity. Qed.
Lemma zchar_spec c : url_zchar c = true <-> url_bchar c = true /\ ~ In c (lit ",.?!)").
Proof. rewrite bchar_spec. unfold url_zchar. rewrite negb_true_iff, orb_false_iff, not_in_spec. cbn. intuition. Qed.
Lemma all_spec (p : char -> bool) (Q : char -> Prop) l : (forall c, p c = true <-> Q c) -> Forall (fun c => p c = true) l <-> Forall Q l.
Proof. intros H. split; intros F; (eapply Forall_impl; [|exact F]); intros a Ha; apply H, Ha. Qed.
Lemma lang_plus_chr U p prev w rest c : lang U (Plus (Chr p)) prev w rest c <-> w <> [] /\ Forall (fun c => p c = true) w /\ c = [].
Proof.
  unfold Plus. rewrite lang_seq. split.
  - intros (w1 & w2 & k1 & k2 & -> & -> & L1 & L2). apply -> lang_chr in L1. destruct L1 as (y & -> & Hy & ->). apply -> lang_many_chr in L2. destruct L2 as (F & ->). split; [discriminate|]. split; [constructor; assumption|reflexivity].
  - intros (Hn & F & ->). destruct w as [|y w]; [contradiction|]. exists [y], w, [], []. split; [reflexivity|]. split; [reflexivity|]. split; [apply lang_chr; exists y; split; [reflexivity|]; split; [exact (Forall_inv F)|reflexivity]|apply lang_many_chr; split; [exact (Forall_inv_tail F)|reflexivity]].
Qed.
Lemma lang_plusl_chr U p prev w rest c : lang U (PlusL (Chr p)) prev w rest c <-> w <> [] /\ Forall (fun c => p c = true) w /\ c = [].
Proof.
  unfold PlusL. rewrite lang_seq. split.
  - intros (w1 & w2 & k1 & k2 & -> & -> & L1 & L2). apply -> lang_chr in L1. destruct L1 as (y & -> & Hy & ->). apply -> lang_many_chr in L2. destruct L2 as (F & ->). split; [discriminate|]. split; [constructor; assumption|reflexivity].
  - intros (Hn & F & ->). destruct w as [|y w]; [contradiction|]. exists [y], w, [], []. split; [reflexivity|]. split; [reflexivity|]. split; [apply lang_chr; exists y; split; [reflexivity|]; split; [exact (Forall_inv F)|reflexivity]|apply lang_many_chr; split; [exact (Forall_inv_tail F)|reflexivity]].
Qed.
(** The label in one group. *)
Lemma group_label {A} U n (k : st -> A) s x : rmatch U (Seq (Grp n (Alt Eps (Bracketed c_any))) (Lit1 93%N)) (fun s' => Some (k s')) s = Some x ->
  exists l rest, s_rest s = l ++ 93%N :: rest /\ label any_char l /\ x = k (ext s (l ++ [93%N]) rest [(n, l)]).
Proof.
  intros H. change (rmatch U (Alt (Seq (Grp n Eps) (Lit1 93%N)) (Seq (Grp n (Bracketed c_any)) (Lit1 93%N))) (fun s' => Some (k s')) s = Some x) in H. apply rmatch_alt in H. destruct H as [H|(Hn & H)].
  - apply rmatch_seq_lang in H. destruct H as (w & r & c & E & L & H). apply -> lang_grp in L. destruct L as (c' & -> & L). apply -> lang_eps in L. destruct L as (-> & ->).
    apply rmatch_lang in H. destruct H as (w & r' & c & E' & L & H). apply -> lang_lit1 in L. destruct L as (-> & ->). cbn [s_rest ext] in E'. rewrite ext_ext in H. injection H as <-. cbn [app] in E. subst r. exists [], r'. split; [exact E'|]. split; [left; reflexivity|reflexivity].
  - apply bracketed_label in H.
    + destruct H as (l & rest & E & Hl & Hb & ->). exists l, rest. split; [exact E|]. split; [exact Hb|]. reflexivity.
    + intros r E. revert Hn. apply (lang_rmatch U _ k s [93%N] r ([] ++ [(n, [])])); [exact E|]. apply lang_seq. exists [], [93%N], [(n, [])], []. split; [reflexivity|]. split; [reflexivity|]. split; [apply lang_grp; exists []; split; [reflexivity|apply lang_eps; auto]|apply lang_lit1; auto].
Qed.
Lemma group_label_lang U n prev l rest : label any_char l -> lang U (Seq (Grp n (Alt Eps (Bracketed c_any))) (Lit1 93%N)) prev (l ++ [93%N]) rest [(n, l)].
Proof.
  intros H. apply lang_seq. exists l, [93%N], [(n, l)], []. split; [reflexivity|]. split; [reflexivity|]. split; [|apply lang_lit1; auto]. apply lang_grp. exists []. split; [reflexivity|]. destruct l as [|a l]; [apply lang_alt; left; apply <- lang_eps; auto|apply lang_alt; right; apply label_bracketed; [exact H|discriminate]].
Qed.
Lemma url_m_match {A} U (k : st -> A) s x : rmatch U URL_M (fun s' => Some (k s')) s = Some x ->
  exists T L b rest, s_rest s = b ++ rest /\ with_text T L b /\ x = k (ext s b rest [(5, L); (4, T)]).
Proof.
  intros H. apply rmatch_seq_lang in H. destruct H as (T & r1 & c1 & E1 & L1 & H). apply -> lang_grp in L1. destruct L1 as (c' & -> & L1). apply -> lang_plus_chr in L1. destruct L1 as (Hn & F & ->).
  apply rmatch_seq_lang in H. destruct H as (w & r2 & c2 & E2 & L2 & H). apply -> lang_lit1 in L2. destruct L2 as (-> & ->). rewrite ext_ext in H. cbn [s_rest ext] in E2. apply group_label in H. destruct H as (L & rest & E3 & HL & ->). rewrite ext_ext. cbn [s_rest ext] in E3.
  exists T, L, (T ++ lit "[" ++ L ++ lit "]"), rest. split; [rewrite E1, E2, E3, <- !app_assoc; reflexivity|]. split; [split; [reflexivity|]; split; [exact Hn|]; split; [apply (all_spec url_tchar); [apply tchar_spec|exact F]|exact HL]|]. rewrite <- !app_assoc. reflexivity.
Qed.
Lemma url_m_lang U prev T L b rest : with_text T L b -> lang U URL_M prev b rest [(5, L); (4, T)].
Proof.
  intros (-> & Hn & F & HL). apply lang_seq. exists T, (lit "[" ++ L ++ lit "]"), [(4, T)], [(5, L)]. split; [reflexivity|]. split; [reflexivity|]. split; [apply lang_grp; exists []; split; [reflexivity|apply lang_plus_chr; split; [exact Hn|]; split; [apply (all_spec url_tchar _ _ tchar_spec), F|reflexivity]]|].
  apply lang_seq. exists (lit "["), (L ++ lit "]"), [], [(5, L)]. split; [reflexivity|]. split; [reflexivity|]. split; [apply lang_lit1; auto|apply group_label_lang, HL].
Qed.
Lemma fixed_gt U : fixed_len U (Lit (lit "&gt;")) 4.
Proof. intros prev w rest c L. apply -> lang_lit in L. destruct L as (-> & _). reflexivity. Qed.
Lemma nonspace_spec c : c_nonspace c = true <-> is_ws c = false.
Proof. unfold c_nonspace. apply negb_true_iff. Qed.
Lemma prefix_of {A} (p q r t : list A) : p ++ q = r ++ t -> length p <= length r -> exists d, r = p ++ d.
Proof.
  revert r. induction p as [|x p IH]; intros r E Hl; [exists r; reflexivity|]. destruct r as [|y r]; [exfalso; inversion Hl|]. cbn [app] in E. injection E as -> E. cbn [length] in Hl. destruct (IH r E ltac:(lia)) as (d & ->). exists d. reflexivity.
Qed.
Lemma url_a_match {A} U (k : st -> A) s x : rmatch U URL_A (fun s' => Some (k s')) s = Some x ->
  exists T b rest, s_rest s = b ++ rest /\ up_to_angle T b rest /\ x = k (ext s b rest [(6, T)]).
Proof.
  intros H. apply (shortest_plus U c_nonspace 6 _ 4 (fixed_gt U)) in H. destruct H as (w & rest & c & Ew & L & -> & Hmin). apply -> lang_seq in L. destruct L as (T & w2 & k1 & k2 & -> & -> & L1 & L2). apply -> lang_grp in L1. destruct L1 as (k3 & -> & L1). apply -> lang_plusl_chr in L1. destruct L1 as (Hn & F & ->). apply -> lang_lit in L2. destruct L2 as (-> & ->).
  exists T, (T ++ lit "&gt;"), rest. split; [exact Ew|]. split; [|reflexivity]. split; [reflexivity|]. split; [exact Hn|]. split; [apply (all_spec c_nonspace _ _ nonspace_spec), F|].
  intros p q E Hp. destruct (le_lt_dec (length T) (length p)) as [|Hlt]; [assumption|exfalso]. rewrite <- app_assoc in E. destruct (prefix_of p _ T _ (eq_sym E) ltac:(lia)) as (d & ->).
  assert (K : length ((p ++ d) ++ lit "&gt;") <= length (p ++ lit "&gt;")); [|rewrite !app_length in K; rewrite app_length in Hlt; lia]. apply (Hmin _ q [(6, p)]); [rewrite Ew, <- !app_assoc, <- E, <- app_assoc; reflexivity|].
  apply lang_seq. exists p, (lit "&gt;"), [(6, p)], []. split; [reflexivity|]. split; [reflexivity|]. split; [|apply lang_lit; auto]. apply lang_grp. exists []. split; [reflexivity|]. apply lang_plusl_chr. split; [exact Hp|]. split; [|reflexivity]. apply Forall_app in F. apply F.
Qed.
Lemma url_a_lang U prev T b rest : up_to_angle T b rest -> lang U URL_A prev b rest [(6, T)].
Proof.
  intros (-> & Hn & F & _). apply lang_seq. exists T, (lit "&gt;"), [(6, T)], []. split; [reflexivity|]. split; [reflexivity|]. split; [|apply lang_lit; auto]. apply lang_grp. exists []. split; [reflexivity|]. apply lang_plusl_chr. split; [exact Hn|]. split; [|reflexivity]. apply (all_spec c_nonspace _ _ nonspace_spec), F.
Qed.
Lemma url_b_lang U prev T rest : bare_url T -> lang U URL_B prev T rest [(7, T); (8, [last T 0%N])].
Proof.
  intros (a & z & -> & F & Hz). rewrite last_last. apply lang_grp. exists [(8, [z])]. split; [reflexivity|]. apply lang_seq. exists a, [z], [], [(8, [z])]. split; [reflexivity|]. split; [reflexivity|]. apply (all_spec url_bchar _ _ bchar_spec) in F. apply Forall_app in F. destruct F as (Fa & Fz).
  split; [apply lang_many_chr; auto|]. apply lang_grp. exists []. split; [reflexivity|]. apply lang_chr. exists z. split; [reflexivity|]. split; [apply zchar_spec; split; [exact (Forall_inv Fz)|exact Hz]|reflexivity].
Qed.
Lemma url_b_match {A} U (k : st -> A) s x : rmatch U URL_B (fun s' => Some (k s')) s = Some x ->
  exists T rest, s_rest s = T ++ rest /\ bare_url T /\ (forall T' r, s_rest s = T' ++ r -> bare_url T' -> length T' <= length T) /\ x = k (ext s T rest [(7, T); (8, [last T 0%N])]).
Proof.
  intros H. change (rmatch U (Many (Chr url_bchar)) (rmatch U (Grp 8 (Chr url_zchar)) (fun s' => Some (k (set_cap 7 s s')))) s = Some x) in H.
  rewrite rmatch_many_chr in H. apply first_some_greedy in H. destruct H as (i & Hi & Ei & Hj).
  assert (Lr : run_len url_bchar (s_rest s) <= length (s_rest s)) by apply run_len_le.
  assert (Fi := run_len_all url_bchar (s_rest s) i Hi). rewrite jump_ext in Ei by lia. set (a := firstn i (s_rest s)) in *. assert (La : length a = i) by (unfold a; rewrite firstn_length; lia). assert (Ea : s_rest s = a ++ skipn i (s_rest s)) by (unfold a; rewrite firstn_skipn; reflexivity).
  apply rmatch_lang in Ei. destruct Ei as (w & rest & c & Ew & L & Hx). cbn [s_rest ext] in Ew. apply -> lang_grp in L. destruct L as (c' & -> & L). apply -> lang_chr in L. destruct L as (z & -> & Hz & ->). rewrite ext_ext in Hx. injection Hx as <-. apply zchar_spec in Hz. destruct Hz as (Hb & Hz).
  exists (a ++ [z]), rest. rewrite last_last. split; [rewrite Ea, Ew, <- app_assoc; reflexivity|].
  split; [exists a, z; split; [reflexivity|]; split; [apply (all_spec url_bchar _ _ bchar_spec), Forall_app; auto|exact Hz]|]. split.
  - intros T' r E (a' & z' & -> & F' & Hz'). rewrite !app_length. cbn [length]. destruct (le_lt_dec (length a') (length a)) as [|Hlt]; [lia|exfalso]. apply (all_spec url_bchar _ _ bchar_spec) in F'. apply Forall_app in F'. destruct F' as (Fa' & Fz').
    assert (Hl : length a' <= run_len url_bchar (s_rest s)) by (rewrite E, <- app_assoc; apply run_len_ge, Fa'). specialize (Hj (length a') ltac:(lia)). rewrite jump_ext in Hj by lia. revert Hj.
    assert (E1 : firstn (length a') (s_rest s) = a') by (rewrite E, <- app_assoc; apply firstn_len). assert (E2 : skipn (length a') (s_rest s) = [z'] ++ r) by (rewrite E, <- app_assoc, skipn_app, skipn_all, Nat.sub_diag; reflexivity). rewrite E1, E2.
    apply (lang_rmatch U _ (fun s' => k (set_cap 7 s s')) _ [z'] r [(8, [z'])]); [reflexivity|]. apply lang_grp. exists []. split; [reflexivity|]. apply lang_chr. exists z'. split; [reflexivity|]. split; [apply zchar_spec; split; [exact (Forall_inv Fz')|exact Hz']|reflexivity].
  - f_equal. rewrite ext_cap; [reflexivity|]. rewrite Ea, Ew, <- app_assoc. reflexivity.
Qed.
Definition caps_of (f : url_form) : list (nat * text) :=
  match f with FText T L => [(5, L); (4, T)] | FAngle T => [(6, T)] | FBare T => [(7, T); (8, [last T 0%N])] end.
Definition URL_FORM : re := Alt URL_M (Alt URL_A URL_B).
Lemma url_form_match {A} U (k : st -> A) s x : rmatch U URL_FORM (fun s' => Some (k s')) s = Some x ->
  exists f b rest, s_rest s = b ++ rest /\ form_of f b rest /\ x = k (ext s b rest (caps_of f)).
Proof.
  intros H. apply rmatch_alt in H. destruct H as [H|(Hm & H)].
  { apply url_m_match in H. destruct H as (T & L & b & rest & E & Hw & Hx). exists (FText T L), b, rest. auto. }
  assert (Nm : forall T L b r, s_rest s = b ++ r -> ~ with_text T L b). { intros T L b r E Hw. revert Hm. apply (lang_rmatch U URL_M k s b r [(5, L); (4, T)] E). apply (url_m_lang U _ T L), Hw. }
  apply rmatch_alt in H. destruct H as [H|(Ha & H)].
  { apply url_a_match in H. destruct H as (T & b & rest & E & Hw & Hx). exists (FAngle T), b, rest. split; [exact E|]. split; [|exact Hx]. split; [exact Hw|]. rewrite <- E. exact Nm. }
  assert (Na : forall T b r, s_rest s = b ++ r -> ~ up_to_angle T b r). { intros T b r E Hw. revert Ha. apply (lang_rmatch U URL_A k s b r [(6, T)] E). apply (url_a_lang U _ T), Hw. }
  apply url_b_match in H. destruct H as (T & rest & E & Hb & Hl & Hx). exists (FBare T), T, rest. split; [exact E|]. split; [|exact Hx]. cbn [form_of]. rewrite <- E. split; [reflexivity|]. split; [exact Hb|]. auto.
Qed.
Lemma with_text_unique T L b r T' L' b' r' : with_text T L b -> with_text T' L' b' -> b ++ r = b' ++ r' -> T = T' /\ L = L'.
Proof.
  intros (-> & _ & F & HL) (-> & _ & F' & HL') E. repeat rewrite <- app_assoc in E. change (T ++ 91%N :: (L ++ 93%N :: r) = T' ++ 91%N :: (L' ++ 93%N :: r')) in E.
  apply (run_unique (fun c => is_ws c = false /\ ~ In c (lit "[]"))) in E; [|exact F|exact F'|intros (_ & K); apply K; left; reflexivity|intros (_ & K); apply K; left; reflexivity].
  destruct E as (-> & _ & E). split; [reflexivity|]. apply (label_end any_char any_char) in E; auto. apply E.
Qed.
Lemma angle_unique T b r T' b' r' : up_to_angle T b r -> up_to_angle T' b' r' -> b ++ r = b' ++ r' -> T = T'.
Proof.
  intros (Eb & Hn & _ & Hm) (Eb' & Hn' & _ & Hm') E. assert (H1 : length T <= length T'). { apply (Hm T' r'); [rewrite E, Eb', <- app_assoc; reflexivity|exact Hn']. } assert (H2 : length T' <= length T). { apply (Hm' T r); [rewrite <- E, Eb, <- app_assoc; reflexivity|exact Hn]. }
  rewrite Eb, Eb', <- !app_assoc in E. destruct (prefix_of _ _ _ _ E H1) as (d & ->). rewrite app_length in H2. destruct d; [rewrite app_nil_r; reflexivity|cbn [length] in H2; lia].
Qed.
Lemma form_unique f b r f' b' r' : form_of f b r -> form_of f' b' r' -> b ++ r = b' ++ r' -> f = f' /\ b = b'.
Proof.
  intros H H' E. destruct f as [T L|T|T], f' as [T' L'|T'|T']; cbn [form_of] in *.
  - destruct (with_text_unique _ _ _ _ _ _ _ _ H H' E) as (<- & <-). destruct H as (-> & _), H' as (-> & _). auto.
  - exfalso. destruct H' as (_ & N). exact (N _ _ _ _ (eq_sym E) H).
  - exfalso. destruct H' as (_ & _ & N & _). exact (N _ _ _ _ (eq_sym E) H).
  - exfalso. destruct H as (_ & N). exact (N _ _ _ _ E H').
  - destruct H as (H & _), H' as (H' & _). pose proof (angle_unique _ _ _ _ _ _ H H' E) as <-. destruct H as (-> & _), H' as (-> & _). auto.
  - exfalso. destruct H as (H & _), H' as (_ & _ & _ & N & _). exact (N _ _ _ (eq_sym E) H).
  - exfalso. destruct H as (_ & _ & N & _). exact (N _ _ _ _ E H').
  - exfalso. destruct H' as (H' & _), H as (_ & _ & _ & N & _). exact (N _ _ _ E H').
  - destruct H as (-> & Hb & _ & _ & Hl), H' as (-> & Hb' & _ & _ & Hl'). assert (H1 : length T' <= length T) by (apply (Hl T' r'); assumption). assert (H2 : length T <= length T') by (apply (Hl' T r); auto).
    destruct (prefix_of _ _ _ _ E H2) as (d & ->). rewrite app_length in H1. destruct d; [rewrite app_nil_r; auto|cbn [length] in H1; lia].
Qed.
Lemma form_lang U prev f b rest : form_of f b rest -> lang U URL_FORM prev b rest (caps_of f).
Proof.
  intros H. unfold URL_FORM. rewrite !lang_alt. destruct f as [T L|T|T]; cbn [form_of caps_of] in *; [left; apply url_m_lang, H|right; left; apply url_a_lang, H|]. destruct H as (-> & H & _). right. right. apply url_b_lang, H.
Qed.
Lemma url_match U prev t m : match_here U INLINE_LINK prev t = Some m ->
  exists p e s f, url prev (m_text m) (m_after m) p e s f /\ m_caps m = caps_of f ++ [(3, e ++ s)] ++ (1, p) :: angle_caps p.
Proof.
  rewrite match_here_final, url_re. intros H. apply rmatch_seq_lang in H. destruct H as (p & r1 & c1 & E1 & L1 & H). apply -> lang_grp in L1. destruct L1 as (c1' & -> & L1). apply prefix_lang in L1. destruct L1 as (Hp & ->). cbn [s_rest s_prev] in E1, Hp.
  apply rmatch_seq_lang in H. destruct H as (w & r2 & c2 & E2 & L2 & H). apply -> lang_grp in L2. destruct L2 as (c2' & -> & L2). apply scheme_lang in L2. destruct L2 as (e & s & He & Hs & -> & ->). rewrite ext_ext in H. cbn [s_rest ext] in E2.
  apply url_form_match in H. destruct H as (f & b & rest & E3 & Hf & ->). rewrite ext_ext. cbn [s_rest ext] in E3. rewrite final_ext by (rewrite E1, E2, E3, <- !app_assoc; reflexivity). cbn [m_text m_after m_caps].
  exists p, e, s, f. split; [|reflexivity]. split; [exact Hp|]. split; [exact He|]. split; [exact Hs|]. exists b. split; [rewrite <- !app_assoc; reflexivity|exact Hf].
Qed.
Lemma url_det prev w r p e s f w' r' p' e' s' f' : url prev w r p e s f -> url prev w' r' p' e' s' f' -> w ++ r = w' ++ r' -> w = w' /\ p = p' /\ e = e' /\ s = s' /\ f = f'.
Proof.
  intros (Hp & He & Hs & b & -> & Hf) (Hp' & He' & Hs' & b' & -> & Hf') E. repeat rewrite <- app_assoc in E. destruct (url_unique _ _ _ _ _ _ _ _ _ Hp Hp' He He' Hs Hs' E) as (-> & -> & -> & Eb). destruct (form_unique _ _ _ _ _ _ Hf Hf' Eb) as (-> & ->). auto.
Qed.
Lemma url_some U prev w r p e s f : url prev w r p e s f -> match_here U INLINE_LINK prev (w ++ r) <> None.
Proof.
  intros (Hp & He & Hs & b & -> & Hf). assert (K : lang U INLINE_LINK prev (p ++ (e ++ s) ++ b) r ((caps_of f ++ [(3, e ++ s)]) ++ (1, p) :: angle_caps p)).
  { rewrite url_re. apply lang_seq. exists p, ((e ++ s) ++ b), ((1, p) :: angle_caps p), (caps_of f ++ [(3, e ++ s)]). split; [reflexivity|]. split; [reflexivity|]. split; [apply lang_grp; exists (angle_caps p); split; [reflexivity|apply prefix_lang; auto]|].
    apply lang_seq. exists (e ++ s), b, [(3, e ++ s)], (caps_of f). split; [reflexivity|]. split; [reflexivity|]. split; [apply lang_grp; exists []; split; [reflexivity|apply scheme_lang; exists e, s; auto]|]. apply form_lang, Hf. }
  rewrite <- app_assoc in K. apply lang_match in K. destruct K as (m & ->). discriminate.
Qed.
Lemma url_nonempty prev r p e s f : ~ url prev [] r p e s f.
Proof. intros (_ & _ & Hs & b & E & _). destruct (scheme_head s Hs) as (c & q & -> & _). destruct p; [destruct e|]; discriminate E. Qed.

(** * What replaces a URL *)
Lemma ok_iff {A} (a x : A) : Ok a = Ok x <-> x = a.
Proof. split; [intros H; apply Ok_inj in H; auto|intros ->; reflexivity]. Qed.
Lemma bare_link_spec U P em target : inline_attrlist U P [] = Ok em -> wf_al em -> exists l,
  (t <- shown_target U P target ;; render_link (mklp target t [lit "bare"] None em)) = Ok l /\ forall x, bare_link U (reads U P) (hides P) target x <-> x = l.
Proof.
  intros Ee W. destruct (shown_some U P target) as (s & Es & Hs). rewrite Es. cbn [bind]. rewrite (link_element_eq _ _ _ _ _ W). eexists. split; [reflexivity|]. intros x. unfold bare_link, reads. rewrite Ee. split.
  - intros (t & Ht & ->). apply Hs in Ht. subst t. reflexivity.
  - intros ->. exists s. split; [apply Hs; reflexivity|reflexivity].
Qed.
Lemma url_text_det R L a raw a' raw' : url_text R L a raw -> url_text R L a' raw' -> a = a' /\ raw = raw'.
Proof. intros [(H & -> & ->)|(H & -> & ->)] [(H' & -> & ->)|(H' & -> & ->)]; try contradiction; auto. Qed.
Lemma text_link_spec U P em target L : inline_attrlist U P [] = Ok em -> wf_al em -> exists l,
  (b <- link_body U P em target (if is_nil L then None else Some L) ;; let '(link_text, window, a, bare) := b in render_link (mklp target link_text (if bare : bool then [lit "bare"] else []) window a)) = Ok l /\
  forall x, text_link U (reads U P) (hides P) target L x <-> x = l.
Proof.
  intros Ee W. assert (R0 : reads U P [] = attrs_of em) by (unfold reads; rewrite Ee; reflexivity). destruct (shown_some U P target) as (s & Es & Hs).
  destruct L as [|c0 L0] eqn:EL.
  { cbn [is_nil link_body]. rewrite Es. cbn [bind]. rewrite (link_element_eq _ _ _ _ _ W). eexists. split; [reflexivity|]. intros x. split.
    - intros (a & raw & txt & w & Ht & Hw & Hx). destruct Ht as [([] & _)|(_ & -> & ->)]. destruct Hw as [(E & _)|(<- & -> & _)]; [destruct txt; discriminate E|]. cbn [unescape] in Hx. destruct Hx as (s' & Hs' & ->). apply Hs in Hs'. subst s'. rewrite R0. reflexivity.
    - intros ->. exists (attrs_of em), [], [], None. split; [right; split; [intros []|auto]|]. split; [right; split; [reflexivity|]; split; [reflexivity|]; intros y E; destruct y; discriminate E|]. exists s. split; [apply Hs; reflexivity|reflexivity]. }
  rewrite <- EL. assert (En : is_nil L = false) by (rewrite EL; reflexivity). rewrite En. clear c0 L0 EL En. unfold link_body. rewrite (has_sep 61%N L) by discriminate.
  assert (K : exists raw a, (if has_char 61 L then r <- extract_attributes_from_text U P L;; Ok (replace_str [BSL; DQUOTE] [DQUOTE] (fst r), snd r) else Ok (replace_esc_bracket L, em)) = Ok (raw, a) /\ wf_al a /\ url_text (reads U P) L (attrs_of a) raw).
  { destruct (has_char 61 L) eqn:E.
    - destruct (reads_ok U P L) as (a & Ea & Wa & Ra). unfold extract_attributes_from_text. rewrite Ea. cbn [bind fst snd]. rewrite unescape_eq by discriminate. eexists. exists a. split; [reflexivity|]. split; [exact Wa|]. left. split; [apply has_char_spec, E|]. split; [auto|]. unfold attrs_of. cbn [at_pos]. destruct (nth_attribute a 1); reflexivity.
    - exists (unescape 93%N L), em. unfold replace_esc_bracket. rewrite unescape_eq by discriminate. split; [reflexivity|]. split; [exact W|]. right. split; [apply has_char_false, E|auto]. }
  destruct K as (raw & a & -> & Wa & Ht). cbn [bind fst snd]. destruct (caret_some raw) as (txt & w & -> & Hw). cbn [bind fst snd]. destruct txt as [|c txt].
  - rewrite Es. cbn [bind]. rewrite (link_element_eq _ _ _ _ _ Wa). eexists. split; [reflexivity|]. intros x. split.
    + intros (a' & raw' & txt' & w' & Ht' & Hw' & Hx). destruct (url_text_det _ _ _ _ _ _ Ht Ht') as (<- & <-). destruct (new_window_det _ _ _ _ _ Hw Hw') as (<- & <-). destruct Hx as (s' & Hs' & ->). apply Hs in Hs'. subst s'. reflexivity.
    + intros ->. exists (attrs_of a), raw, [], w. split; [exact Ht|]. split; [exact Hw|]. exists s. split; [apply Hs; reflexivity|reflexivity].
  - cbn [bind]. rewrite (link_element_eq _ _ _ _ _ Wa). eexists. split; [reflexivity|]. intros x. split.
    + intros (a' & raw' & txt' & w' & Ht' & Hw' & Hx). destruct (url_text_det _ _ _ _ _ _ Ht Ht') as (<- & <-). destruct (new_window_det _ _ _ _ _ Hw Hw') as (<- & <-). exact Hx.
    + intros ->. exists (attrs_of a), raw, (c :: txt), w. auto.
Qed.
Lemma tail_spec y z : exists tg tl, link_tail [z] (y ++ [z]) = Ok (tg, tl) /\ forall tg' tl', url_tail (y ++ [z]) tg' tl' <-> tg' = tg /\ tl' = tl.
Proof.
  unfold link_tail, url_tail. destruct (text_eqb [z] (lit ";") || text_eqb [z] (lit ":")) eqn:E.
  - assert (Hz : In z (lit ";:")). { apply orb_true_iff in E. destruct E as [E|E]; apply text_eqb_eq in E; injection E as ->; cbn; auto. }
    assert (clen z = 1) as Hc by (cbn in Hz; destruct Hz as [<-|[<-|[]]]; reflexivity). rewrite chop_last by exact Hc. cbn [bind]. destruct (ends_with (lit ")") y) eqn:E2.
    + apply ends_with_spec in E2. destruct E2 as (a & ->). change (lit ")") with [41%N]. rewrite chop_last by reflexivity. cbn [bind]. exists a, [41%N; z]. split; [reflexivity|]. intros tg' tl'. split.
      * intros [(c & Hc' & [(E1 & ->)|(E1 & -> & N)])|(_ & _ & N)].
        -- change [41%N; c] with ([41%N] ++ [c]) in E1. rewrite app_assoc in E1. apply app_inj_tail in E1. destruct E1 as (E1 & <-). apply app_inj_tail in E1. destruct E1 as (<- & _). auto.
        -- apply app_inj_tail in E1. destruct E1 as (<- & <-). destruct (N a eq_refl).
        -- destruct (N _ _ eq_refl Hz).
      * intros (-> & ->). left. exists z. split; [exact Hz|]. left. split; [rewrite <- app_assoc; reflexivity|reflexivity].
    + assert (Ny : forall x, y <> x ++ [41%N]). { intros x ->. assert (T : ends_with (lit ")") (x ++ [41%N]) = true) by (apply ends_with_spec; exists x; reflexivity). congruence. }
      exists y, [z]. split; [reflexivity|]. intros tg' tl'. split.
      * intros [(c & Hc' & [(E1 & ->)|(E1 & -> & N)])|(_ & _ & N)].
        -- change [41%N; c] with ([41%N] ++ [c]) in E1. rewrite app_assoc in E1. apply app_inj_tail in E1. destruct E1 as (E1 & <-). destruct (Ny _ E1).
        -- apply app_inj_tail in E1. destruct E1 as (<- & <-). auto.
        -- destruct (N _ _ eq_refl Hz).
      * intros (-> & ->). left. exists z. split; [exact Hz|]. right. auto.
  - assert (Nz : ~ In z (lit ";:")). { apply orb_false_iff in E. destruct E as (E1 & E2). intros [<-|[<-|[]]]; [discriminate E1|discriminate E2]. }
    exists (y ++ [z]), []. split; [reflexivity|]. intros tg' tl'. split.
    + intros [(c & Hc' & [(E1 & ->)|(E1 & -> & N)])|(-> & -> & _)]; [| |auto].
      * change [41%N; c] with ([41%N] ++ [c]) in E1. rewrite app_assoc in E1. apply app_inj_tail in E1. destruct E1 as (_ & <-). contradiction.
      * apply app_inj_tail in E1. destruct E1 as (_ & <-). contradiction.
    + intros (-> & ->). right. split; [reflexivity|]. split; [reflexivity|]. intros x c Ex. apply app_inj_tail in Ex. destruct Ex as (_ & <-). exact Nz.
Qed.
Lemma is_angle_dec p : (text_eqb p angle || text_eqb p (BSL :: angle) = true <-> is_angle p).
Proof. unfold is_angle. rewrite orb_true_iff, !text_eqb_eq. reflexivity. Qed.
Lemma caps_angle p f e s : get_cap 2 (caps_of f ++ [(3, e ++ s)] ++ (1, p) :: angle_caps p) = if text_eqb p angle || text_eqb p (BSL :: angle) then Some [] else None.
Proof. unfold angle_caps. destruct f; cbn [caps_of app get_cap Nat.eqb]; destruct (text_eqb p angle || text_eqb p (BSL :: angle)); reflexivity. Qed.
Lemma esc_scheme e s : escape e -> In s url_schemes -> (starts_with [BSL] (e ++ s) = true /\ e = [BSL]) \/ (starts_with [BSL] (e ++ s) = false /\ e = []).
Proof. intros [->| ->] Hs; [right|left; split; reflexivity]. split; [|reflexivity]. destruct Hs as [<-|[<-|[<-|[<-|[<-|[]]]]]]; reflexivity. Qed.
Lemma after_escape p r : str_from (blen p + 1) (p ++ BSL :: r) = Ok r.
Proof. replace (blen p + 1) with (blen (p ++ [BSL])) by (rewrite blen_app; reflexivity). replace (p ++ BSL :: r) with ((p ++ [BSL]) ++ r) by (rewrite <- app_assoc; reflexivity). apply str_from_at. Qed.
Lemma bare_last T : bare_url T -> exists y z, T = y ++ [z] /\ last T 0%N = z.
Proof. intros (a & z & -> & _). exists a, z. rewrite last_last. auto. Qed.
Lemma url_replaced_by U P prev p e s f b rest m x : url_prefix prev p -> escape e -> In s url_schemes -> form_of f b rest -> m_text m = p ++ e ++ s ++ b -> m_caps m = caps_of f ++ [(3, e ++ s)] ++ (1, p) :: angle_caps p ->
  link_replacer U P m = Ok x <-> url_result U (reads U P) (hides P) (p ++ e ++ s ++ b) p e s f x.
Proof.
  intros Hp He Hs Hf Et Ec. unfold link_replacer, link_angle, cap_idx. destruct (inline_attrlist_ok U P []) as (em & Ee & W). rewrite Ee. cbn [bind].
  assert (C1 : cap m 1 = Some p) by (unfold cap; rewrite Ec; destruct f; reflexivity). assert (C3 : cap m 3 = Some (e ++ s)) by (unfold cap; rewrite Ec; destruct f; reflexivity).
  assert (C2 : cap m 2 = if text_eqb p angle || text_eqb p (BSL :: angle) then Some [] else None) by (unfold cap; rewrite Ec; apply caps_angle).
  rewrite C1, C2, C3. cbn [of_option bind]. rewrite Et.
  assert (Pb : starts_with [BSL] p = true <-> p = BSL :: angle).
  { split; [|intros ->; reflexivity]. destruct Hp as [(-> & _)|[->|[->|[->|(d & -> & Hd)]]]]; try discriminate; [reflexivity|]. intros E. apply starts_with_spec in E. destruct E as (r & E). injection E as -> _. cbn in Hd. intuition discriminate. }
  destruct f as [T L|T|T].
  - assert (C4 : cap m 4 = Some T /\ cap m 5 = Some L) by (unfold cap; rewrite Ec; split; reflexivity). destruct C4 as (C4 & C5). rewrite C4, C5.
    assert (Ei : match (if text_eqb p angle || text_eqb p (BSL :: angle) then Some ([] : text) else None) with Some _ => false | None => false end = false) by (destruct (text_eqb p angle || text_eqb p (BSL :: angle)); reflexivity). rewrite Ei. clear Ei. cbn [bind].
    destruct Hf as (-> & _). cbn [url_result]. destruct (esc_scheme e s He Hs) as [(Es & ->)|(Es & ->)]; rewrite Es.
    + cbn [app]. rewrite after_escape. cbn [bind]. rewrite ok_iff. split; [intros ->; left; auto|]. intros [(_ & _ & ->)|(K & _)]; [reflexivity|discriminate K].
    + cbn [app]. destruct (text_link_spec U P em (s ++ T) L Ee W) as (l & El & Hl).
      assert (Er : (b <- link_body U P em (s ++ T) (if is_nil L then None else Some L);; (let '(link_text, window, a, bare) := b in l0 <- render_link (mklp (s ++ T) link_text (if bare : bool then [lit "bare"] else []) window a) ;; Ok ((if text_eqb p (lit "link:") then [] else p) ++ l0))) = Ok ((if text_eqb p (lit "link:") then [] else p) ++ l)).
      { destruct (link_body U P em (s ++ T) (if is_nil L then None else Some L)) as [[[[lt wd] a] bare]| |]; cbn [bind] in El |- *; [|discriminate El|discriminate El]. rewrite El. reflexivity. }
      rewrite Er, ok_iff. split.
      * intros ->. right. split; [reflexivity|]. exists l. split; [apply Hl; reflexivity|]. destruct (text_eqb p (lit "link:")) eqn:E; [apply text_eqb_eq in E; auto|]. right. split; [|reflexivity]. intros ->. rewrite text_eqb_refl in E. discriminate E.
      * intros [(K & _)|(_ & l' & Hl' & H)]; [discriminate K|]. apply Hl in Hl'. subst l'. destruct H as [(-> & ->)|(N & ->)]; [reflexivity|]. destruct (text_eqb p (lit "link:")) eqn:E; [apply text_eqb_eq in E; contradiction|reflexivity].
  - assert (C4 : cap m 4 = None /\ cap m 5 = None /\ cap m 6 = Some T /\ cap m 7 = None).
    { unfold cap. rewrite Ec. cbn [caps_of app get_cap Nat.eqb]. unfold angle_caps. destruct (text_eqb p angle || text_eqb p (BSL :: angle)); repeat split; reflexivity. }
    destruct C4 as (C4 & C5 & C6 & C7). rewrite C4, C5, C6, C7. destruct Hf as ((-> & _) & _). cbn [url_result]. destruct (text_eqb p angle || text_eqb p (BSL :: angle)) eqn:Ea.
    + apply is_angle_dec in Ea. destruct (starts_with [BSL] p) eqn:Eb.
      * pose proof (proj1 Pb eq_refl) as Ep. subst p. cbn [app]. rewrite str_from1 by reflexivity. rewrite ok_iff. split; [intros ->; left; auto|]. intros [(_ & K)|[(K & _)|(K & _)]]; [injection K as <-; reflexivity|contradiction|discriminate K].
      * assert (Np : p <> BSL :: angle) by (intros K; apply Pb in K; discriminate K). assert (p = angle) as -> by (destruct Ea as [Ea|Ea]; [exact Ea|contradiction]).
        destruct (esc_scheme e s He Hs) as [(Es & ->)|(Es & ->)]; rewrite Es.
        -- cbn [app]. rewrite after_escape. cbn [bind]. rewrite ok_iff. split; [intros ->; right; left; auto|]. intros [(K & _)|[(_ & _ & ->)|(_ & K & _)]]; [discriminate K|reflexivity|discriminate K].
        -- cbn [app]. destruct (bare_link_spec U P em (s ++ T) Ee W) as (l & El & Hl). rewrite El, ok_iff. split.
           ++ intros ->. right. right. split; [reflexivity|]. split; [reflexivity|]. apply Hl. reflexivity.
           ++ intros [(K & _)|[(_ & K & _)|(_ & _ & K)]]; [discriminate K|discriminate K|]. apply Hl in K. exact K.
    + assert (Na : ~ is_angle p) by (intros K; apply is_angle_dec in K; congruence). assert (Na' : p <> angle /\ p <> BSL :: angle) by (unfold is_angle in Na; tauto). destruct (esc_scheme e s He Hs) as [(Es & ->)|(Es & ->)]; rewrite Es.
      * cbn [app]. rewrite after_escape. cbn [bind]. rewrite ok_iff. split; [intros ->; right; left; split; [apply Na'|]; auto|]. intros [(K & _)|[(_ & _ & ->)|(_ & K & _)]]; [destruct (proj2 Na' K)|reflexivity|discriminate K].
      * cbn [of_option bind]. split; [discriminate|]. intros [(K & _)|[(_ & K & _)|(K & _)]]; [destruct (proj2 Na' K)|discriminate K|destruct (proj1 Na' K)].
  - destruct Hf as (-> & Hb & _). destruct (bare_last T Hb) as (y & z & -> & El). assert (C4 : cap m 4 = None /\ cap m 5 = None /\ cap m 6 = None /\ cap m 7 = Some (y ++ [z]) /\ cap m 8 = Some [z]).
    { unfold cap. rewrite Ec. cbn [caps_of app get_cap Nat.eqb]. rewrite El. unfold angle_caps. destruct (text_eqb p angle || text_eqb p (BSL :: angle)); repeat split; reflexivity. }
    destruct C4 as (C4 & C5 & C6 & C7 & C8). rewrite C4, C5, C6, C7, C8. cbn [url_result]. destruct (text_eqb p angle || text_eqb p (BSL :: angle)) eqn:Ea.
    + apply is_angle_dec in Ea. destruct (starts_with [BSL] p) eqn:Eb.
      * pose proof (proj1 Pb eq_refl) as Ep. subst p. cbn [app]. rewrite str_from1 by reflexivity. rewrite ok_iff. split; [intros ->; left; auto|]. intros [(_ & K)|[(K & _)|[(_ & [K|[K|K]] & _)|(_ & K & _)]]]; [injection K as <-; reflexivity|contradiction|discriminate K|discriminate K|discriminate K|]. destruct (K Ea).
      * assert (Np : p <> BSL :: angle) by (intros K; apply Pb in K; discriminate K). assert (p = angle) as -> by (destruct Ea as [Ea|Ea]; [exact Ea|contradiction]).
        destruct (esc_scheme e s He Hs) as [(Es & ->)|(Es & ->)]; rewrite Es.
        -- cbn [app]. rewrite after_escape. cbn [bind]. rewrite ok_iff. split; [intros ->; right; left; auto|]. intros [(K & _)|[(_ & _ & ->)|[(K & _)|(K & _)]]]; [discriminate K|reflexivity|discriminate K|discriminate K].
        -- rewrite ok_iff. split; [intros ->; right; right; left; auto|]. intros [(K & _)|[(_ & K & _)|[(_ & _ & ->)|(_ & K & _)]]]; [discriminate K|discriminate K|reflexivity|destruct (K Ea)].
    + assert (Na : ~ is_angle p) by (intros K; apply is_angle_dec in K; congruence). assert (Na' : p <> angle /\ p <> BSL :: angle) by (unfold is_angle in Na; tauto). destruct (esc_scheme e s He Hs) as [(Es & ->)|(Es & ->)]; rewrite Es.
      * cbn [app]. rewrite after_escape. cbn [bind]. rewrite ok_iff. split; [intros ->; right; left; split; [apply Na'|]; auto|]. intros [(K & _)|[(_ & _ & ->)|[(K & _)|(K & _)]]]; [destruct (proj2 Na' K)|reflexivity|discriminate K|discriminate K].
      * cbn [of_option bind app]. assert (El' : text_eqb p (lit "link") = false). { destruct (text_eqb p (lit "link")) eqn:E; [|reflexivity]. apply text_eqb_eq in E. subst p. destruct Hp as [(K & _)|[K|[K|[K|(d & K & _)]]]]; discriminate K. }
        rewrite El'. cbn [orb]. destruct (text_eqb p DQ || text_eqb p (lit "'")) eqn:Eq.
        -- assert (Hq : quote_mark p). { apply orb_true_iff in Eq. destruct Eq as [Eq|Eq]; apply text_eqb_eq in Eq; [left|right]; exact Eq. }
           rewrite ok_iff. split; [intros ->; right; right; left; auto|]. intros [(K & _)|[(_ & K & _)|[(_ & _ & ->)|(_ & _ & K & _)]]]; [destruct (proj2 Na' K)|discriminate K|reflexivity|destruct (K Hq)].
        -- assert (Nq : ~ quote_mark p). { apply orb_false_iff in Eq. destruct Eq as (E1 & E2). intros [->| ->]; [discriminate E1|discriminate E2]. }
           destruct (tail_spec (s ++ y) z) as (tg & tl & Etl & Htl). rewrite app_assoc, Etl. cbn [bind fst snd link_body]. destruct (bare_link_spec U P em tg Ee W) as (l & Eli & Hl).
           assert (Er : (b <- (t <- shown_target U P tg ;; Ok (t, None, em, true)) ;; (let '(link_text, window, a, bare) := b in l0 <- render_link (mklp tg link_text (if bare : bool then [lit "bare"] else []) window a) ;; Ok (p ++ l0 ++ tl))) = Ok (p ++ l ++ tl)).
           { destruct (shown_target U P tg); cbn [bind] in Eli |- *; [|discriminate Eli|discriminate Eli]. rewrite Eli. reflexivity. }
           rewrite Er, ok_iff. split.
           ++ intros ->. right. right. right. split; [reflexivity|]. split; [exact Na|]. split; [exact Nq|]. exists tg, tl, l. split; [apply Htl; auto|]. split; [apply Hl; reflexivity|reflexivity].
           ++ intros [(K & _)|[(_ & K & _)|[(_ & [K|K] & _)|(_ & _ & _ & tg' & tl' & l' & H1 & H2 & ->)]]]; [destruct (proj2 Na' K)|discriminate K|destruct (proj1 Na' K)|destruct (Nq K)|]. apply Htl in H1. destruct H1 as (-> & ->). apply Hl in H2. subst l'. reflexivity.
Qed.
Lemma urls_rewritten U P t o : replace_all_pure U INLINE_LINK (link_replacer U P) t = Ok o <-> replaced url_at (url_out U (reads U P) (hides P)) None t o.
Proof.
  apply replacing.
  - intros prev rest (p & e & s & f & H). exact (url_nonempty _ _ _ _ _ _ H).
  - intros prev w1 r1 w2 r2 (p & e & s & f & H) (p' & e' & s' & f' & H') E. apply (url_det _ _ _ _ _ _ _ _ _ _ _ _ _ H H' E).
  - intros prev t0 m H. apply url_match in H. destruct H as (p & e & s & f & Hu & Ec). split; [exists p, e, s, f; exact Hu|]. intros x. pose proof Hu as (Hp & He & Hs & b & Et & Hf). rewrite (url_replaced_by U P prev p e s f b (m_after m) m x Hp He Hs Hf Et Ec). rewrite <- Et. split.
    + intros K. exists p, e, s, f. auto.
    + intros (p' & e' & s' & f' & Hu' & K). destruct (url_det _ _ _ _ _ _ _ _ _ _ _ _ _ Hu Hu' eq_refl) as (_ & -> & -> & -> & ->). exact K.
  - intros prev w rest (p & e & s & f & H). apply (url_some _ _ _ _ _ _ _ _ H).
Qed.
