(** Proofs about the inline macros. *)
From Verif Require Import Text TextFacts Span_Model Span_Proof Span_Laws Maps Parser_Model Regex Regex_Proof Regex_Scan Regex_Lang Regex_Lazy Attrlist_Model Attrlist_Proof Attrlist_Laws Render_Model Render_Proof
  Quote_Model Macro_Model Macro_Spec Macro_Proof Auto_Spec Auto_Proof Inline_Spec.

(** * Replacing *)
Section Replacing.
  Context (U : unicode) (r : re) (rep : mtch -> res text) (F : option char -> text -> text -> Prop) (G : option char -> text -> text -> text -> Prop).
  Context (Hn : forall prev rest, ~ F prev [] rest).
  Context (Hd : forall prev w1 r1 w2 r2, F prev w1 r1 -> F prev w2 r2 -> w1 ++ r1 = w2 ++ r2 -> w1 = w2).
  Context (H1 : forall prev t m, match_here U r prev t = Some m -> F prev (m_text m) (m_after m) /\ forall x, rep m = Ok x <-> G prev (m_text m) (m_after m) x).
  Context (H2 : forall prev w rest, F prev w rest -> match_here U r prev (w ++ rest) <> None).
  Lemma replacing_nonempty : never_empty U r.
  Proof. intros prev t m H E. destruct (H1 _ _ _ H) as (Fm & _). rewrite E in Fm. exact (Hn _ _ Fm). Qed.
  Lemma replacing_some prev w rest : F prev w rest -> exists m, match_here U r prev (w ++ rest) = Some m /\ m_text m = w /\ m_after m = rest.
  Proof.
    intros H. pose proof (H2 _ _ _ H) as N. destruct (match_here U r prev (w ++ rest)) as [m|] eqn:E; [|contradiction]. exists m. split; [reflexivity|].
    destruct (H1 _ _ _ E) as (Fm & _). apply match_here_text in E. destruct E as [E _]. pose proof (Hd _ _ _ _ _ H Fm E) as Ew. rewrite <- Ew in *. split; [reflexivity|]. apply app_inv_head in E. auto.
  Qed.
  Lemma replacing_scans prev t o : scans U r rep prev t o <-> replaced F G prev t o.
  Proof.
    split.
    - induction 1 as [prev Hx|prev c t o Hx Hs IH|prev t m x o Hm Hx Hs IH].
      + constructor.
      + apply rp_char; [|exact IH]. intros w rest E H. apply replacing_some in H. destruct H as (m & Hm & _). rewrite <- E in Hm. congruence.
      + destruct (H1 _ _ _ Hm) as (Fm & Gm). apply Gm in Hx. apply match_here_text in Hm. destruct Hm as [-> Hp]. apply rp_step; [exact Fm|exact Hx|]. rewrite <- Hp. exact IH.
    - induction 1 as [prev|prev w rest x o Hf Hg Hs IH|prev c t o Hx Hs IH].
      + constructor. destruct (match_here U r prev []) eqn:E; [|reflexivity]. exfalso. pose proof (replacing_nonempty _ _ _ E) as N.
        apply match_here_text in E. destruct E as [E _]. symmetry in E. apply app_eq_nil in E. destruct E. contradiction.
      + apply replacing_some in Hf. destruct Hf as (m & Hm & Ht & Ha). destruct (H1 _ _ _ Hm) as (_ & Gm). rewrite Ht, Ha in Gm. apply Gm in Hg. eapply sc_match; [exact Hm|exact Hg|]. apply match_here_text in Hm. destruct Hm as [_ ->]. rewrite Ht, Ha. exact IH.
      + apply sc_skip; [|exact IH]. destruct (match_here U r prev (c :: t)) eqn:E; [|reflexivity]. exfalso. destruct (H1 _ _ _ E) as (Fm & _).
        apply match_here_text in E. destruct E as [E _]. exact (Hx _ _ E Fm).
  Qed.
  Lemma replacing h o : replace_all_pure U r rep h = Ok o <-> replaced F G None h o.
  Proof. rewrite replace_all_pure_scans by apply replacing_nonempty. apply replacing_scans. Qed.
End Replacing.

(** * Text in square brackets *)
Lemma c_any_eq : c_any = any_char. Proof. reflexivity. Qed.
Lemma c_dot_eq : c_dot = same_line. Proof. reflexivity. Qed.
Lemma not_bsl c : c_not (c_is BSL) c = true <-> c <> BSL.
Proof. unfold c_not, c_is. rewrite negb_true_iff, N.eqb_neq. split; intros H K; apply H; auto. Qed.
Lemma bracketed_least {A} U n p (k : st -> A) s x : rmatch U (Seq (Grp n (Bracketed p)) (Lit1 93%N)) (fun s' => Some (k s')) s = Some x ->
  exists a z rest, s_rest s = a ++ z :: 93%N :: rest /\ Forall (fun c => p c = true) a /\ z <> BSL /\ x = k (ext s (a ++ [z; 93%N]) rest [(n, a ++ [z])]) /\
    forall a' z' r', s_rest s = a' ++ z' :: 93%N :: r' -> Forall (fun c => p c = true) a' -> z' <> BSL -> length a <= length a'.
Proof.
  intros H. set (K := fun s' : st => rmatch U (Lit1 93%N) (fun s' => Some (k s')) (set_cap n s s')). change (rmatch U (ManyL (Chr p)) (rmatch U (Chr (c_not (c_is BSL))) K) s = Some x) in H.
  rewrite rmatch_manyl_chr in H. apply first_some_least in H. destruct H as (i & Hi & Ei & Hl). pose proof (run_len_le p (s_rest s)) as Hr.
  assert (Hfi : length (firstn i (s_rest s)) = i) by (rewrite firstn_length; lia).
  apply rmatch_lang in Ei. destruct Ei as (w & r1 & c1 & E1 & L1 & Ek). apply -> lang_chr in L1. destruct L1 as (z & -> & Hz & ->). apply not_bsl in Hz.
  rewrite jump_ext in Ek, E1 by lia. rewrite ext_ext in Ek. cbn [app ext s_rest] in E1, Ek. unfold K in Ek. rewrite ext_cap in Ek.
  2:{ rewrite <- app_assoc, <- (firstn_skipn i (s_rest s)) at 1. rewrite E1. reflexivity. }
  apply rmatch_lang in Ek. destruct Ek as (w3 & rest & c3 & E3 & L3 & Ex). cbn [s_rest ext] in E3. apply -> lang_lit1 in L3. destruct L3 as (-> & ->). rewrite ext_ext in Ex. injection Ex as <-.
  exists (firstn i (s_rest s)), z, rest. split; [rewrite <- (firstn_skipn i (s_rest s)) at 1; rewrite E1, E3; reflexivity|]. split; [apply run_len_all; lia|]. split; [exact Hz|]. split; [rewrite <- app_assoc; reflexivity|].
  intros a' z' r' E' F' Hz'. rewrite Hfi. destruct (le_lt_dec i (length a')) as [|Hlt]; [assumption|]. exfalso. specialize (Hl (length a') ltac:(lia)). revert Hl.
  assert (Ej : jump s (length a') = ext s a' (z' :: 93%N :: r') []). { rewrite jump_ext by (rewrite E', app_length; cbn; lia). rewrite E', firstn_len, skipn_app, skipn_all, Nat.sub_diag. reflexivity. }
  rewrite Ej. cbn [rmatch s_rest ext]. rewrite (proj2 (not_bsl z') Hz'). unfold K.
  assert (Eg : set_cap n s (advance (ext s a' (z' :: 93%N :: r') []) z' (93%N :: r')) = ext s (a' ++ [z']) (93%N :: r') [(n, a' ++ [z'])]).
  { rewrite <- (ext_cap s (a' ++ [z']) (93%N :: r') [] n) by (rewrite E', <- app_assoc; reflexivity). f_equal. unfold ext, advance. cbn [s_pos s_prev s_rest s_caps]. f_equal; [rewrite app_length; cbn; lia|]. rewrite <- prev_of_app. reflexivity. }
  rewrite Eg. apply (lang_rmatch U (Lit1 93%N) k _ [93%N] r' []); [reflexivity|apply lang_lit1; auto].
Qed.
(** The text taken is the label. *)
Lemma bracketed_label {A} U n p (k : st -> A) s x : rmatch U (Seq (Grp n (Bracketed p)) (Lit1 93%N)) (fun s' => Some (k s')) s = Some x -> (forall r, s_rest s <> 93%N :: r) ->
  exists l rest, s_rest s = l ++ 93%N :: rest /\ l <> [] /\ label p l /\ x = k (ext s (l ++ [93%N]) rest [(n, l)]).
Proof.
  intros H Hs. apply bracketed_least in H. destruct H as (a & z & rest & E & F & Hz & Hx & Hl). exists (a ++ [z]), rest. rewrite <- !app_assoc. split; [exact E|]. split; [destruct a; discriminate|]. split; [|exact Hx].
  right. split; [eauto|]. intros x0 y Ex. destruct x0 as [|x1 x0'] using rev_ind; [|clear IHx0'].
  - exfalso. cbn [app] in Ex. apply (Hs (y ++ 93%N :: rest)). rewrite E. change (a ++ z :: 93%N :: rest) with (a ++ ([z] ++ 93%N :: rest)). rewrite app_assoc, Ex. reflexivity.
  - destruct (N.eq_dec x1 BSL) as [->|Hn]; [eauto|]. exfalso.
    assert (Ey : exists y', y = y' ++ [z] /\ a = x0' ++ x1 :: 93%N :: y' \/ (y = [] /\ z = 93%N /\ a = x0' ++ [x1])).
    { rewrite <- app_assoc in Ex. destruct y as [|y0 y] using rev_ind; [|clear IHy].
      - exists []. right. cbn [app] in Ex. change (x0' ++ [x1; 93%N]) with (x0' ++ [x1] ++ [93%N]) in Ex. rewrite app_assoc in Ex. apply app_inj_tail in Ex. destruct Ex as (-> & ->). auto.
      - exists y. left. cbn [app] in Ex. change (x0' ++ x1 :: 93%N :: y ++ [y0]) with (x0' ++ (x1 :: 93%N :: y) ++ [y0]) in Ex. rewrite app_assoc in Ex. apply app_inj_tail in Ex. destruct Ex as (-> & ->). auto. }
    destruct Ey as (y' & [(-> & ->)|(-> & -> & ->)]).
    + specialize (Hl x0' x1 (y' ++ z :: 93%N :: rest)). rewrite E, <- app_assoc in Hl. specialize (Hl eq_refl). apply Forall_app in F. specialize (Hl (proj1 F) Hn). rewrite app_length in Hl. cbn [length] in Hl. lia.
    + specialize (Hl x0' x1 (93%N :: rest)). rewrite E, <- app_assoc in Hl. specialize (Hl eq_refl). apply Forall_app in F. specialize (Hl (proj1 F) Hn). rewrite app_length in Hl. cbn [length] in Hl. lia.
Qed.
(** One label only. *)
Lemma label_end p q l r l' r' : label p l -> label q l' -> l ++ 93%N :: r = l' ++ 93%N :: r' -> l = l' /\ r = r'.
Proof.
  assert (K : forall p q l l' d r r', label p l -> label q l' -> l' = l ++ d -> l ++ 93%N :: r = l' ++ 93%N :: r' -> d = []).
  { clear. intros p q l l' d r r' Hl Hl' -> E. destruct d as [|x d]; [reflexivity|exfalso]. rewrite <- app_assoc in E. apply app_inv_head in E. cbn [app] in E. injection E as <- E.
    destruct Hl' as [K|(_ & Hc)]; [destruct l; discriminate K|]. destruct (Hc l d eq_refl) as (x' & ->). destruct Hl as [K|((a & z & Ez & _ & Hz) & _)]; [destruct x'; discriminate K|]. apply app_inj_tail in Ez. destruct Ez as (_ & <-). apply Hz. reflexivity. }
  intros Hl Hl' E. destruct (app_eq_app _ _ _ _ E) as (d & [(Ed & _)|(Ed & _)]).
  - pose proof (K q p l' l d r' r Hl' Hl Ed (eq_sym E)) as ->. rewrite app_nil_r in Ed. subst l. apply app_inv_head in E. injection E as ->. auto.
  - pose proof (K p q l l' d r r' Hl Hl' Ed E) as ->. rewrite app_nil_r in Ed. subst l'. apply app_inv_head in E. injection E as ->. auto.
Qed.
Lemma label_bracketed U p l prev rest : label p l -> l <> [] -> lang U (Bracketed p) prev l rest [].
Proof.
  intros [->|((a & z & -> & F & Hz) & _)] Hn; [contradiction|]. apply lang_seq. exists a, [z], [], []. split; [reflexivity|]. split; [reflexivity|]. split; [apply lang_many_chr; auto|apply lang_chr; exists z; split; [reflexivity|]; split; [apply not_bsl, Hz|reflexivity]].
Qed.

(** * Runs of characters *)
Lemma run_unique (P : char -> Prop) a a' x x' b b' : Forall P a -> Forall P a' -> ~ P x -> ~ P x' -> a ++ x :: b = a' ++ x' :: b' -> a = a' /\ x = x' /\ b = b'.
Proof.
  revert a'. induction a as [|y a IH]; intros a' F F' Hx Hx' E; destruct a' as [|y' a']; cbn [app] in E.
  - injection E as -> ->. auto.
  - injection E as -> _. inversion F'; subst. contradiction.
  - injection E as -> _. inversion F; subst. contradiction.
  - injection E as -> E. inversion F; inversion F'; subst. destruct (IH a') as (-> & -> & ->); auto.
Qed.
Lemma app_len_eq2 (a b c d : text) : a ++ b = c ++ d -> length a = length c -> a = c /\ b = d.
Proof. intros E L. pose proof (app_len_eq _ _ _ _ E L) as ->. split; [reflexivity|]. apply app_inv_head in E. exact E. Qed.
(** What follows the longest run. *)
Lemma run_len_split p t : exists b r, t = b ++ r /\ length b = run_len p t /\ Forall (fun c => p c = true) b /\ (forall c q, r = c :: q -> p c = false).
Proof.
  induction t as [|c t IH]; [exists [], []; repeat split; [constructor|discriminate]|]. rewrite run_len_cons. destruct (p c) eqn:E.
  - destruct IH as (b & r & -> & Hb & F & Hr). exists (c :: b), r. cbn [app length]. repeat split; [lia|constructor; assumption|exact Hr].
  - exists [], (c :: t). repeat split; [constructor|]. intros c' q Eq. injection Eq as <- _. exact E.
Qed.
Definition final_m (t : text) (s : st) : mtch := mkm (firstn (s_pos s) t) (s_caps s) (s_prev s) (s_rest s).
Lemma final_ext prev t w rest c : t = w ++ rest -> final_m t (ext (mkst 0 prev t []) w rest c) = mkm w c (prev_of prev w) rest.
Proof. intros ->. unfold final_m, ext. cbn [s_pos s_prev s_rest s_caps Nat.add]. rewrite firstn_len, app_nil_r. reflexivity. Qed.
Lemma match_here_final U r prev t : match_here U r prev t = rmatch U r (fun s => Some (final_m t s)) (mkst 0 prev t []).
Proof. reflexivity. Qed.
Lemma escape_lang U prev w rest c : lang U (Opt (Lit1 BSL)) prev w rest c -> escape w /\ c = [].
Proof. intros L. apply -> lang_alt in L. destruct L as [L|L]; [apply -> lang_lit1 in L; destruct L as (-> & ->); split; [right|]; reflexivity|apply -> lang_eps in L; destruct L as (-> & ->); split; [left|]; reflexivity]. Qed.
Lemma escape_lang_grp U n prev w rest c : lang U (Opt (Grp n (Lit1 BSL))) prev w rest c -> (w = [] /\ c = []) \/ (w = [BSL] /\ c = [(n, [BSL])]).
Proof. intros L. apply -> lang_alt in L. destruct L as [L|L]; [apply -> lang_grp in L; destruct L as (c' & -> & L); apply -> lang_lit1 in L; destruct L as (-> & ->); auto|apply -> lang_eps in L; destruct L as (-> & ->); auto]. Qed.
Lemma same_esc e e' c c' r r' : escape e -> escape e' -> c <> BSL -> c' <> BSL -> e ++ c :: r = e' ++ c' :: r' -> e = e' /\ c :: r = c' :: r'.
Proof.
  intros [->| ->] [->| ->] Hc Hc' E; cbn [app] in E; [auto| | |].
  - injection E as -> _. contradiction.
  - injection E as <- _. contradiction.
  - injection E as -> ->. auto.
Qed.

(** * Anchors *)
Lemma c_id_first_spec U c : c_id_first U c = true <-> id_start U c.
Proof. unfold c_id_first, id_start. rewrite orb_true_iff, c_in_spec. reflexivity. Qed.
Lemma c_id_rest_spec U c : c_id_rest U c = true <-> id_char U c.
Proof. unfold c_id_rest, id_char, decimal, c_digit. rewrite !orb_true_iff, c_in_spec. tauto. Qed.
Lemma lang_id U prev w rest caps : lang U (Id_re U) prev w rest caps <-> id_text U w /\ caps = [].
Proof.
  unfold Id_re. split.
  - intros L. apply -> lang_seq in L. destruct L as (a & b & c1 & c2 & -> & -> & La & L). apply -> lang_chr in La. destruct La as (c & -> & Hc & ->). apply -> lang_many_chr in L. destruct L as (F & ->).
    split; [|reflexivity]. exists c, b. split; [reflexivity|]. split; [apply c_id_first_spec, Hc|]. eapply Forall_impl; [|exact F]. intros x. apply c_id_rest_spec.
  - intros ((c & r & -> & Hc & F) & ->). apply lang_seq. exists [c], r, [], []. split; [reflexivity|]. split; [reflexivity|]. split; [apply lang_chr; exists c; split; [reflexivity|]; split; [apply c_id_first_spec, Hc|reflexivity]|].
    apply lang_many_chr. split; [|reflexivity]. eapply Forall_impl; [|exact F]. intros x. apply c_id_rest_spec.
Qed.
Lemma id_chars U i : id_text U i -> Forall (id_char U) i.
Proof. intros (c & r & -> & [Hc|Hc] & F); constructor; [left; exact Hc|exact F| |exact F]. right. right. cbn in Hc |- *. tauto. Qed.
Lemma not_id U c : In c (lit ",[]") -> ~ id_char U c.
Proof. intros H K. cbn in H. destruct H as [<-|[<-|[<-|[]]]]; destruct K as [K|[K|K]]; try discriminate K; cbn in K; repeat (destruct K as [K|K]; [discriminate K|]); exact K. Qed.
Lemma dot_no_lf r : Forall (fun c => c_dot c = true) r <-> ~ In LF r.
Proof.
  rewrite Forall_forall. split.
  - intros H K. specialize (H _ K). discriminate H.
  - intros H x Hx. unfold c_dot. destruct (N.eqb_spec x LF) as [->|]; [contradiction|reflexivity].
Qed.
Lemma lang_plusl_dot U prev w rest caps : lang U (PlusL (Chr c_dot)) prev w rest caps <-> w <> [] /\ ~ In LF w /\ caps = [].
Proof.
  unfold PlusL. split.
  - intros L. apply -> lang_seq in L. destruct L as (a & b & c1 & c2 & -> & -> & La & L). apply -> lang_chr in La. destruct La as (c & -> & Hc & ->). apply -> lang_many_chr in L. destruct L as (F & ->).
    split; [discriminate|]. split; [|reflexivity]. apply dot_no_lf. cbn [app]. constructor; assumption.
  - intros (Hn & Hl & ->). destruct w as [|c r]; [contradiction|]. apply dot_no_lf in Hl. inversion Hl as [|? ? Hc F]; subst. apply lang_seq. exists [c], r, [], []. split; [reflexivity|]. split; [reflexivity|]. split; [apply lang_chr; eauto|apply lang_many_chr; auto].
Qed.
Lemma fixed_lit2 U : fixed_len U (Lit (lit "]]")) 2.
Proof. intros prev w rest c L. apply -> lang_lit in L. destruct L as (-> & _). reflexivity. Qed.
Lemma reference_match {A} U (k : st -> A) s x : rmatch U (Seq (Many (Chr is_ws)) (Seq (Grp 3 (PlusL (Chr c_dot))) (Lit (lit "]]")))) (fun s' => Some (k s')) s = Some x ->
  exists l rest r, s_rest s = l ++ lit "]]" ++ rest /\ reference l rest /\ x = k (ext s (l ++ lit "]]") rest [(3, r)]).
Proof.
  intros H. change (rmatch U (Many (Chr is_ws)) (rmatch U (Seq (Grp 3 (PlusL (Chr c_dot))) (Lit (lit "]]"))) (fun s' => Some (k s'))) s = Some x) in H.
  rewrite rmatch_many_chr in H. apply first_some_greedy in H. destruct H as (i & Hi & Ei & Hj). destruct (run_len_split is_ws (s_rest s)) as (b & v & Es & Hb & Fb & Hv). rewrite <- Hb in *.
  apply (shortest_plus U c_dot 3 _ 2 (fixed_lit2 U)) in Ei. destruct Ei as (w & rest & c & Ew & L & Hx & Hmin).
  assert (Ej : jump s i = ext s (firstn i b) (skipn i b ++ v) []).
  { rewrite jump_ext by (rewrite Es, app_length; lia). rewrite Es, firstn_app, skipn_app. replace (i - length b) with 0 by lia. cbn [firstn skipn]. rewrite app_nil_r. reflexivity. }
  rewrite Ej in Ew, L, Hx, Hmin. cbn [s_rest s_prev ext] in Ew, L, Hmin.
  apply -> lang_seq in L. destruct L as (r & w2 & k1 & k2 & -> & -> & L1 & L2). apply -> lang_grp in L1. destruct L1 as (k3 & -> & L1). apply -> lang_plusl_dot in L1. destruct L1 as (Hr & Hlf & ->). apply -> lang_lit in L2. destruct L2 as (-> & ->).
  rewrite ext_ext in Hx. cbn [app] in Hx. rewrite <- app_assoc in Ew.
  (* any other reading is not shorter *)
  assert (Hmin' : forall p p', r ++ lit "]]" ++ rest = p ++ lit "]]" ++ p' -> p <> [] -> ~ In LF p -> length r <= length p).
  { intros p p' E Hp Hpl. specialize (Hmin (p ++ lit "]]") p' [(3, p)]). rewrite <- app_assoc in Hmin. rewrite Ew, !app_length in Hmin. cut (length r + length (lit "]]") <= length p + length (lit "]]")); [lia|]. apply Hmin; [exact E|]. apply lang_seq. exists p, (lit "]]"), [(3, p)], []. split; [reflexivity|]. split; [reflexivity|]. split; [apply lang_grp; exists []; split; [reflexivity|apply lang_plusl_dot; auto]|apply lang_lit; auto]. }
  assert (Hmin2 : forall p p', r ++ lit "]]" ++ rest = p ++ lit "]]" ++ p' -> p <> [] -> length r <= length p).
  { intros p p' E Hp. destruct (le_lt_dec (length r) (length p)) as [|Hlt]; [assumption|]. exfalso. assert (length r <= length p); [|lia]. apply (Hmin' p p' E Hp). intros K. apply Hlf.
    assert (Ep : p = firstn (length p) r). { apply (f_equal (firstn (length p))) in E. rewrite (firstn_app _ r), (firstn_app _ p), Nat.sub_diag in E. replace (length p - length r) with 0 in E by lia. cbn [firstn] in E. rewrite !app_nil_r, firstn_all in E. auto. }
    rewrite <- (firstn_skipn (length p) r). apply in_or_app. left. rewrite <- Ep. exact K. }
  destruct (Nat.eq_dec i (length b)) as [->|Hne].
  - rewrite firstn_all in *. rewrite skipn_all in *. cbn [app] in *. exists (b ++ r), rest, r. split; [rewrite Es, Ew, <- !app_assoc; reflexivity|]. split; [|rewrite <- app_assoc; exact Hx].
    exists b, r. split; [reflexivity|]. split; [exact Fb|]. left. destruct r as [|c q]; [contradiction|]. exists c, q. split; [reflexivity|]. split; [apply (Hv c (q ++ lit "]]" ++ rest)), Ew|]. auto.
  - set (u := skipn i b) in *. assert (Hu : length u = length b - i) by apply skipn_length.
    assert (No : forall p p', v = p ++ lit "]]" ++ p' -> p <> [] -> In LF p).
    { intros p p' Ev Hp. destruct (in_dec N.eq_dec LF p) as [|Hpl]; [assumption|exfalso]. specialize (Hj (length b) ltac:(lia)). revert Hj. apply (lang_rmatch U _ k _ (p ++ lit "]]") p' [(3, p)]).
      - rewrite jump_ext by (rewrite Es, app_length; lia). rewrite Es, skipn_app, skipn_all, Nat.sub_diag. cbn [app skipn s_rest ext]. rewrite Ev, <- app_assoc. reflexivity.
      - apply lang_seq. exists p, (lit "]]"), [(3, p)], []. split; [reflexivity|]. split; [reflexivity|]. split; [apply lang_grp; exists []; split; [reflexivity|apply lang_plusl_dot; auto]|apply lang_lit; auto]. }
    assert (Fu : Forall (fun c => is_ws c = true) u). { unfold u. rewrite <- (firstn_skipn i b) in Fb. apply Forall_app in Fb. apply Fb. }
    assert (Eu : r = u /\ v = lit "]]" ++ rest).
    { destruct (app_eq_app _ _ _ _ (eq_sym Ew)) as (d & [(E1 & E2)|(E1 & E2)]).
      - destruct d as [|d0 d]; [rewrite app_nil_r in E1; auto|exfalso]. apply Hlf. rewrite E1. apply in_or_app. right. apply (No (d0 :: d) rest E2). discriminate.
      - destruct d as [|d0 d]; [rewrite app_nil_r in E1; auto|exfalso]. injection E2 as <- _. rewrite E1 in Fu. apply Forall_app in Fu. destruct Fu as (_ & Fu). inversion Fu; discriminate. }
    destruct Eu as (-> & Ev). exists b, rest, u. split; [rewrite Es, Ev; reflexivity|]. split.
    + exists b, []. rewrite app_nil_r. split; [reflexivity|]. split; [exact Fb|]. right. split; [reflexivity|]. split; [|rewrite <- Ev; exact No].
      destruct (exists_last (l := u) Hr) as (u' & c0 & Eu). exists (firstn i b ++ u'), c0. split; [rewrite <- app_assoc, <- Eu; symmetry; apply firstn_skipn|]. intros ->. apply Hlf. rewrite Eu. apply in_or_app. right. left. reflexivity.
    + rewrite <- (firstn_skipn i b) at 1. rewrite <- app_assoc. exact Hx.
Qed.
Lemma reference_unique l r l' r' : reference l r -> reference l' r' -> l ++ lit "]]" ++ r = l' ++ lit "]]" ++ r' -> l = l' /\ r = r'.
Proof.
  assert (W : ~ is_ws 93%N = true) by discriminate.
  intros (b & t & -> & Fb & H) (b' & t' & -> & Fb' & H') E. rewrite <- !app_assoc in E. enough (K : b ++ t = b' ++ t') by (rewrite K in *; split; [reflexivity|]; rewrite !app_assoc, K in E; apply app_inv_head in E; exact E).
  destruct H as [(c & q & -> & Hc & Hl & Hm)|(-> & Hb & Hm)]; destruct H' as [(c' & q' & -> & Hc' & Hl' & Hm')|(-> & Hb' & Hm')]; cbn [app] in E.
  - apply (run_unique (fun c => is_ws c = true)) in E; [|exact Fb|exact Fb'|congruence|congruence]. destruct E as (-> & -> & E). f_equal.
    assert (Eq : (c' :: q) ++ lit "]]" ++ r = (c' :: q') ++ lit "]]" ++ r') by (cbn [app]; f_equal; exact E).
    apply (app_len_eq _ _ _ _ Eq). apply Nat.le_antisymm; [apply (Hm _ r' Eq); discriminate|apply (Hm' _ r (eq_sym Eq)); discriminate].
  - exfalso. apply (run_unique (fun c => is_ws c = true)) in E; [|exact Fb|exact Fb'|congruence|exact W]. destruct E as (-> & -> & E). apply Hl. apply (Hm' (93%N :: q) r); [|discriminate]. change (93%N :: (93%N :: r') = 93%N :: (q ++ lit "]]" ++ r)). f_equal. symmetry. exact E.
  - exfalso. apply (run_unique (fun c => is_ws c = true)) in E; [|exact Fb|exact Fb'|exact W|congruence]. destruct E as (-> & <- & E). apply Hl'. apply (Hm (93%N :: q') r'); [|discriminate]. change (93%N :: (93%N :: r) = 93%N :: (q' ++ lit "]]" ++ r')). f_equal. exact E.
  - apply (run_unique (fun c => is_ws c = true)) in E; [|exact Fb|exact Fb'|exact W|exact W]. destruct E as (-> & _). reflexivity.
Qed.
Lemma reference_lang U prev l rest : reference l rest -> exists c, lang U (Seq (Many (Chr is_ws)) (Grp 3 (PlusL (Chr c_dot)))) prev l (lit "]]" ++ rest) c.
Proof.
  intros (b & t & -> & Fb & [(c & q & -> & Hc & Hl & _)|(-> & (b' & c & -> & Hc) & _)]).
  - eexists. apply lang_seq. exists b, (c :: q), [], [(3, c :: q)]. split; [reflexivity|]. split; [reflexivity|]. split; [apply lang_many_chr; auto|]. apply <- lang_grp. exists []. split; [reflexivity|]. apply lang_plusl_dot. split; [discriminate|auto].
  - apply Forall_app in Fb. destruct Fb as (Fb & _). eexists. apply lang_seq. exists b', [c], [], [(3, [c])]. rewrite app_nil_r. split; [reflexivity|]. split; [reflexivity|]. split; [apply lang_many_chr; auto|]. apply <- lang_grp. exists []. split; [reflexivity|]. apply lang_plusl_dot. split; [discriminate|]. split; [|reflexivity]. intros [K|[]]. auto.
Qed.
Lemma rmatch_alt {A} U a b (k : st -> option A) s x : rmatch U (Alt a b) k s = Some x -> rmatch U a k s = Some x \/ (rmatch U a k s = None /\ rmatch U b k s = Some x).
Proof. cbn [rmatch]. destruct (rmatch U a k s) as [y|]; intros H; [left|right]; auto. Qed.
Definition ANCHOR_A (U : unicode) : re := Seq (Lit (lit "[[")) (Seq (Grp 2 (Id_re U)) (Seq (Opt (Seq (Lit1 COMMA) (Seq (Many (Chr is_ws)) (Grp 3 (PlusL (Chr c_dot)))))) (Lit (lit "]]")))).
Definition ANCHOR_B (U : unicode) : re := Seq (Lit (lit "anchor:")) (Seq (Grp 4 (Id_re U)) (Seq (Lit1 91%N) (Alt (Lit1 93%N) (Seq (Grp 5 (Bracketed c_dot)) (Lit1 93%N))))).
Lemma anchor_re U : INLINE_ANCHOR U = Seq (Opt (Grp 1 (Lit1 BSL))) (Alt (ANCHOR_A U) (ANCHOR_B U)).
Proof. reflexivity. Qed.
Lemma anchor_a {A} U (k : st -> A) s x : rmatch U (ANCHOR_A U) (fun s' => Some (k s')) s = Some x ->
  exists i b rest c, s_rest s = b ++ rest /\ anchor_form U i b rest /\ (c = [(2, i)] \/ exists r, c = [(3, r); (2, i)]) /\ x = k (ext s b rest c).
Proof.
  intros H. unfold ANCHOR_A in H. apply rmatch_seq_lang in H. destruct H as (w & r1 & c & E1 & L & H). apply -> lang_lit in L. destruct L as (-> & ->).
  apply rmatch_seq_lang in H. destruct H as (i & r2 & c & E2 & L & H). apply -> lang_grp in L. destruct L as (c' & -> & L). apply -> lang_id in L. destruct L as (Hi & ->). rewrite ext_ext in H. cbn [app s_rest ext] in E2, H.
  change (rmatch U (Alt (Seq (Lit1 COMMA) (Seq (Many (Chr is_ws)) (Seq (Grp 3 (PlusL (Chr c_dot))) (Lit (lit "]]"))))) (Lit (lit "]]"))) (fun s' => Some (k s')) (ext s (lit "[[" ++ i) r2 [(2, i)]) = Some x) in H.
  apply rmatch_alt in H. destruct H as [Ec|(_ & H)].
  - apply rmatch_seq_lang in Ec. destruct Ec as (w & r3 & c & E3 & L & H). apply -> lang_lit1 in L. destruct L as (-> & ->). rewrite ext_ext in H. cbn [s_rest ext] in E3.
    apply reference_match in H. destruct H as (l & rest & r & E4 & Hr & Hx). cbn [s_rest ext] in E4. rewrite ext_ext in Hx.
    exists i, (lit "[[" ++ i ++ lit "," ++ l ++ lit "]]"), rest, [(3, r); (2, i)]. split; [rewrite E1, E2, E3, E4; rewrite <- !app_assoc; reflexivity|]. split; [split; [exact Hi|]; right; left; eauto|]. split; [eauto|].
    rewrite Hx. rewrite <- !app_assoc. reflexivity.
  - apply rmatch_lang in H. destruct H as (w & rest & c & E3 & L & Hx). apply -> lang_lit in L. destruct L as (-> & ->). rewrite ext_ext in Hx. injection Hx as <-. cbn [s_rest ext] in E3.
    exists i, (lit "[[" ++ i ++ lit "]]"), rest, [(2, i)]. split; [rewrite E1, E2, E3; rewrite <- !app_assoc; reflexivity|]. split; [split; [exact Hi|]; left; reflexivity|]. split; [auto|]. repeat rewrite <- app_assoc. reflexivity.
Qed.
Lemma anchor_b {A} U (k : st -> A) s x : rmatch U (ANCHOR_B U) (fun s' => Some (k s')) s = Some x ->
  exists i b rest c, s_rest s = b ++ rest /\ anchor_form U i b rest /\ (c = [(4, i)] \/ exists r, c = [(5, r); (4, i)]) /\ x = k (ext s b rest c).
Proof.
  intros H. unfold ANCHOR_B in H. apply rmatch_seq_lang in H. destruct H as (w & r1 & c & E1 & L & H). apply -> lang_lit in L. destruct L as (-> & ->).
  apply rmatch_seq_lang in H. destruct H as (i & r2 & c & E2 & L & H). apply -> lang_grp in L. destruct L as (c' & -> & L). apply -> lang_id in L. destruct L as (Hi & ->). rewrite ext_ext in H. cbn [app s_rest ext] in E2, H.
  apply rmatch_seq_lang in H. destruct H as (w & r3 & c & E3 & L & H). apply -> lang_lit1 in L. destruct L as (-> & ->). rewrite ext_ext in H. cbn [app s_rest ext] in E3, H.
  set (s3 := ext s _ r3 _) in H. apply rmatch_alt in H. destruct H as [Ec|(Ec & H)].
  - apply rmatch_lang in Ec. destruct Ec as (w & rest & c & E4 & L & Hx). apply -> lang_lit1 in L. destruct L as (-> & ->). unfold s3 in E4, Hx. rewrite ext_ext in Hx. injection Hx as <-. cbn [s_rest ext] in E4.
    exists i, (lit "anchor:" ++ i ++ lit "[" ++ [] ++ lit "]"), rest, [(4, i)]. split; [rewrite E1, E2, E3, E4; rewrite <- !app_assoc; reflexivity|]. split; [split; [exact Hi|]; right; right; exists []; split; [reflexivity|left; reflexivity]|]. split; [auto|]. rewrite <- !app_assoc. reflexivity.
  - apply bracketed_label in H.
    2:{ intros r Er. unfold s3 in Er. cbn [s_rest ext] in Er. cbn [rmatch Lit1 s_rest ext] in Ec. unfold s3 in Ec. cbn [s_rest ext] in Ec. rewrite Er in Ec. discriminate Ec. }
    destruct H as (l & rest & E4 & Hn & Hl & Hx). unfold s3 in E4, Hx. rewrite ext_ext in Hx. cbn [s_rest ext] in E4.
    exists i, (lit "anchor:" ++ i ++ lit "[" ++ l ++ lit "]"), rest, [(5, l); (4, i)]. split; [rewrite E1, E2, E3, E4; rewrite <- !app_assoc; reflexivity|]. split; [split; [exact Hi|]; right; right; exists l; split; [reflexivity|exact Hl]|]. split; [eauto|]. rewrite Hx. rewrite <- !app_assoc. reflexivity.
Qed.
Lemma anchor_head U i b rest : anchor_form U i b rest -> exists c r, b = c :: r /\ c <> BSL.
Proof. intros (_ & [->|[(l & -> & _)|(l & -> & _)]]); eexists; eexists; (split; [reflexivity|discriminate]). Qed.
Lemma anchor_match U prev t m : match_here U (INLINE_ANCHOR U) prev t = Some m -> exists e i b, escape e /\ m_text m = e ++ b /\ anchor_form U i b (m_after m) /\
  cap m 1 = match e with [] => None | _ => Some e end /\ (cap m 2 = Some i \/ cap m 2 = None /\ cap m 4 = Some i).
Proof.
  rewrite match_here_final, anchor_re. intros H. apply rmatch_seq_lang in H. destruct H as (e & r1 & c1 & E1 & L & H). apply escape_lang_grp in L. cbn [s_rest] in E1.
  assert (K : exists i b rest c, r1 = b ++ rest /\ anchor_form U i b rest /\ (c = [(2, i)] \/ (exists r, c = [(3, r); (2, i)]) \/ c = [(4, i)] \/ exists r, c = [(5, r); (4, i)]) /\ m = final_m t (ext (ext (mkst 0 prev t []) e r1 c1) b rest c)).
  { set (s1 := ext _ e r1 c1) in *. apply rmatch_alt in H. destruct H as [Ea|(_ & H)].
    - apply anchor_a in Ea. destruct Ea as (i & b & rest & c & E & Hf & Hc & Hx). exists i, b, rest, c. split; [exact E|]. split; [exact Hf|]. split; [destruct Hc as [Hc|Hc]; auto|exact Hx].
    - apply anchor_b in H. destruct H as (i & b & rest & c & E & Hf & Hc & Hx). exists i, b, rest, c. split; [exact E|]. split; [exact Hf|]. split; [destruct Hc as [Hc|Hc]; auto|exact Hx]. }
  clear H. destruct K as (i & b & rest & c & E & Hf & Hc & ->). rewrite ext_ext, (final_ext prev t (e ++ b) rest) by (rewrite E1, E, <- app_assoc; reflexivity). cbn [m_text m_after]. exists e, i, b.
  split; [destruct L as [(-> & _)|(-> & _)]; [left|right]; reflexivity|]. split; [reflexivity|]. split; [exact Hf|]. unfold cap. cbn [m_caps].
  destruct L as [(-> & ->)|(-> & ->)]; (destruct Hc as [->|[(r & ->)|[->|(r & ->)]]]); (split; [reflexivity|]); auto.
Qed.
Lemma anchor_form_unique U i b r i' b' r' : anchor_form U i b r -> anchor_form U i' b' r' -> b ++ r = b' ++ r' -> i = i' /\ b = b'.
Proof.
  intros (Hi & H) (Hi' & H') E. apply id_chars in Hi, Hi'. assert (N1 := not_id U 44%N ltac:(cbn; auto)). assert (N2 := not_id U 93%N ltac:(cbn; auto)). assert (N3 := not_id U 91%N ltac:(cbn; auto)).
  destruct H as [->|[(l & -> & Hl)|(l & -> & Hl)]]; destruct H' as [->|[(l' & -> & Hl')|(l' & -> & Hl')]]; try discriminate E; repeat rewrite <- app_assoc in E; apply app_inv_head in E; cbn [app lit] in E.
  - change (i ++ 93%N :: (93%N :: r) = i' ++ 93%N :: (93%N :: r')) in E. apply (run_unique (id_char U)) in E; auto. destruct E as (-> & _). auto.
  - exfalso. change (i ++ 93%N :: (93%N :: r) = i' ++ 44%N :: (l' ++ lit "]]" ++ r')) in E. apply (run_unique (id_char U)) in E; auto. destruct E as (_ & E & _). discriminate E.
  - exfalso. change (i ++ 44%N :: (l ++ lit "]]" ++ r) = i' ++ 93%N :: (93%N :: r')) in E. apply (run_unique (id_char U)) in E; auto. destruct E as (_ & E & _). discriminate E.
  - change (i ++ 44%N :: (l ++ lit "]]" ++ r) = i' ++ 44%N :: (l' ++ lit "]]" ++ r')) in E. apply (run_unique (id_char U)) in E; auto. destruct E as (-> & _ & E). destruct (reference_unique _ _ _ _ Hl Hl' E) as (-> & _). auto.
  - change (i ++ 91%N :: (l ++ 93%N :: r) = i' ++ 91%N :: (l' ++ 93%N :: r')) in E. apply (run_unique (id_char U)) in E; auto. destruct E as (-> & _ & E). destruct (label_end _ _ _ _ _ _ Hl Hl' E) as (-> & _). auto.
Qed.
Lemma anchor_form_lang U prev i b rest : anchor_form U i b rest -> exists c, lang U (Alt (ANCHOR_A U) (ANCHOR_B U)) prev b rest c.
Proof.
  intros (Hi & [->|[(l & -> & Hl)|(l & -> & Hl)]]).
  - eexists. apply <- lang_alt. left. unfold ANCHOR_A. apply lang_seq. exists (lit "[["), (i ++ lit "]]"), [], [(2, i)]. split; [reflexivity|]. split; [reflexivity|]. split; [apply lang_lit; auto|].
    apply lang_seq. exists i, (lit "]]"), [(2, i)], []. split; [reflexivity|]. split; [reflexivity|]. split; [apply lang_grp; exists []; split; [reflexivity|apply lang_id; auto]|].
    apply lang_seq. exists [], (lit "]]"), [], []. split; [reflexivity|]. split; [reflexivity|]. split; [apply lang_alt; right; apply lang_eps; auto|apply lang_lit; auto].
  - destruct (reference_lang U (prev_of (prev_of (prev_of prev (lit "[[")) i) (lit ",")) l rest Hl) as (c & Lr). eexists. apply <- lang_alt. left. unfold ANCHOR_A. apply lang_seq. exists (lit "[["), (i ++ lit "," ++ l ++ lit "]]"), [], (([] ++ c) ++ [(2, i)]). split; [reflexivity|]. split; [reflexivity|]. split; [apply lang_lit; auto|].
    apply lang_seq. exists i, (lit "," ++ l ++ lit "]]"), [(2, i)], ([] ++ c). split; [reflexivity|]. split; [reflexivity|]. split; [apply lang_grp; exists []; split; [reflexivity|apply lang_id; auto]|].
    apply lang_seq. exists (lit "," ++ l), (lit "]]"), c, []. split; [rewrite <- app_assoc; reflexivity|]. split; [reflexivity|]. split; [|apply lang_lit; auto].
    apply lang_alt. left. apply lang_seq. exists (lit ","), l, [], c. split; [reflexivity|]. split; [rewrite app_nil_r; reflexivity|]. split; [apply lang_lit1; auto|exact Lr].
  - destruct l as [|l0 l].
    + eexists. apply <- lang_alt. right. unfold ANCHOR_B. apply lang_seq. exists (lit "anchor:"), (i ++ lit "[" ++ lit "]"), [], [(4, i)]. split; [reflexivity|]. split; [reflexivity|]. split; [apply lang_lit; auto|].
      apply lang_seq. exists i, (lit "[" ++ lit "]"), [(4, i)], []. split; [reflexivity|]. split; [reflexivity|]. split; [apply lang_grp; exists []; split; [reflexivity|apply lang_id; auto]|].
      apply lang_seq. exists (lit "["), (lit "]"), [], []. split; [reflexivity|]. split; [reflexivity|]. split; [apply lang_lit1; auto|]. apply lang_alt. left. apply lang_lit1. auto.
    + set (l1 := l0 :: l) in *. eexists. apply <- lang_alt. right. unfold ANCHOR_B. apply lang_seq. exists (lit "anchor:"), (i ++ lit "[" ++ l1 ++ lit "]"), [], [(5, l1); (4, i)]. split; [reflexivity|]. split; [reflexivity|]. split; [apply lang_lit; auto|].
      apply lang_seq. exists i, (lit "[" ++ l1 ++ lit "]"), [(4, i)], [(5, l1)]. split; [reflexivity|]. split; [reflexivity|]. split; [apply lang_grp; exists []; split; [reflexivity|apply lang_id; auto]|].
      apply lang_seq. exists (lit "["), (l1 ++ lit "]"), [], [(5, l1)]. split; [reflexivity|]. split; [reflexivity|]. split; [apply lang_lit1; auto|]. apply lang_alt. right. apply lang_seq. exists l1, (lit "]"), [(5, l1)], []. split; [reflexivity|]. split; [reflexivity|].
      split; [apply lang_grp; exists []; split; [reflexivity|apply label_bracketed; [exact Hl|discriminate]]|apply lang_lit1; auto].
Qed.
Lemma anchor_rewritten U t o : replace_all_pure U (INLINE_ANCHOR U) anchor_replacer t = Ok o <-> replaced (anchor_at U) (anchor_out U) None t o.
Proof.
  apply replacing.
  - intros prev rest (e & i & b & He & E & Hf). apply anchor_head in Hf. destruct Hf as (c & r & -> & _). destruct e; discriminate E.
  - intros prev w1 r1 w2 r2 (e & i & b & He & -> & Hf) (e' & i' & b' & He' & -> & Hf') E. destruct (anchor_head _ _ _ _ Hf) as (c & r & Eb & Hc). destruct (anchor_head _ _ _ _ Hf') as (c' & r' & Eb' & Hc').
    rewrite <- !app_assoc in E. assert (K : e = e' /\ b ++ r1 = b' ++ r2). { rewrite Eb, Eb' in E |- *. cbn [app] in E |- *. apply same_esc in E; auto. }
    destruct K as (-> & Eq). destruct (anchor_form_unique _ _ _ _ _ _ _ Hf Hf' Eq) as (_ & ->). reflexivity.
  - intros prev t0 m H. apply anchor_match in H. destruct H as (e & i & b & He & Et & Hf & H1 & H2). split; [exists e, i, b; auto|]. intros x. unfold anchor_replacer, cap_idx. rewrite H1, Et. destruct He as [->| ->]; cbn [app].
    + assert (Ex : (id <- match cap m 2 with Some id => Ok id | None => of_option (cap m 4) end;; Ok (render_anchor id)) = Ok (anchor_link i)).
      { destruct H2 as [->|(-> & ->)]; cbn [of_option bind]; unfold render_anchor, anchor_link, html_attr; rewrite <- ?app_assoc; reflexivity. }
      rewrite Ex. split.
      * intros K. apply Ok_inj in K. subst x. exists i, b. split; [exact Hf|]. left. auto.
      * intros (i' & b' & Hf' & [(<- & ->)|(-> & ->)]); [destruct (anchor_form_unique _ _ _ _ _ _ _ Hf Hf' eq_refl) as (<- & _); reflexivity|]. destruct (anchor_head _ _ _ _ Hf) as (c & r & Eb & Hc). injection Eb as <- _. contradiction.
    + rewrite str_from1 by reflexivity. split.
      * intros K. apply Ok_inj in K. subst x. exists i, b. split; [exact Hf|]. right. auto.
      * intros (i' & b' & Hf' & [(<- & ->)|(E & ->)]); [destruct (anchor_head _ _ _ _ Hf') as (c & r & Eb & Hc); injection Eb as <- _; contradiction|]. injection E as ->. reflexivity.
  - intros prev w rest (e & i & b & He & -> & Hf). destruct (anchor_form_lang U (prev_of prev e) i b rest Hf) as (c & L).
    assert (K : exists m, match_here U (INLINE_ANCHOR U) prev ((e ++ b) ++ rest) = Some m).
    { rewrite anchor_re. destruct He as [->| ->].
      - apply (lang_match _ _ prev b rest c). apply lang_seq. exists [], b, [], c. split; [reflexivity|]. split; [rewrite app_nil_r; reflexivity|]. split; [apply lang_alt; right; apply lang_eps; auto|exact L].
      - apply (lang_match _ _ prev (BSL :: b) rest (c ++ [(1, [BSL])])). apply lang_seq. exists [BSL], b, [(1, [BSL])], c. split; [reflexivity|]. split; [reflexivity|]. split; [apply lang_alt; left; apply <- lang_grp; exists []; split; [reflexivity|apply lang_lit1; auto]|exact L]. }
    destruct K as (m & ->). discriminate.
Qed.
Lemma replaced_id F G t prev : (forall prev a w rest, t = a ++ w ++ rest -> ~ F prev w rest) -> replaced F G prev t t.
Proof.
  revert prev. induction t as [|c t IH]; intros prev H; [apply rp_nil|]. apply rp_char; [intros w r E; apply (H prev [] w r), E|]. apply IH. intros pv a w r E. apply (H pv (c :: a) w r). rewrite E. reflexivity.
Qed.

(** * Attribute lists and links *)
Definition attrs_of (a : attrlist) : attributes :=
  mkattrs (match al_id a with Ok o => o | _ => None end) (match al_roles a with Ok l => l | _ => [] end)
    (fun n => match al_has_option a n with Ok b => b | _ => false end)
    (fun n => option_map ea_value (named_attribute a n)) (fun i => option_map ea_value (nth_attribute a i)).
(** What the attribute list [l] says. *)
Definition reads (U : unicode) (P : parser) (l : text) : attributes :=
  match inline_attrlist U P l with Ok a => attrs_of a | _ => mkattrs None [] (fun _ => false) (fun _ => None) (fun _ => None) end.
Lemma reads_ok U P l : exists a, inline_attrlist U P l = Ok a /\ wf_al a /\ reads U P l = attrs_of a.
Proof. unfold reads. destruct (inline_attrlist_ok U P l) as (a & -> & W). eauto. Qed.
Lemma opens_eq a window : wf_al a -> link_constraint_attrs a window = Ok (opens (attrs_of a) window).
Proof.
  intros W. unfold link_constraint_attrs, opens, attrs_of. cbn [at_option at_name]. destruct (has_option_ok _ W (lit "nofollow")) as (f & ->), (has_option_ok _ W (lit "noopener")) as (n & Hn). rewrite Hn. cbn [bind].
  destruct (named_attribute a (lit "window")) as [e|]; cbn [option_map].
  - destruct (text_eqb (ea_value e) (lit "_blank")); cbn [bind orb]; [destruct f; reflexivity|]. destruct n; [destruct f; reflexivity|]. reflexivity.
  - destruct window as [v|]; [|destruct f; reflexivity]. destruct (text_eqb v (lit "_blank")); cbn [bind orb]; [destruct f; reflexivity|]. destruct n; [destruct f; reflexivity|]. reflexivity.
Qed.
Lemma link_element_eq target txt extra window a : wf_al a -> render_link (mklp target txt extra window a) = Ok (link_element target txt extra window (attrs_of a)).
Proof.
  intros W. unfold render_link, link_element. cbn [lp_target lp_text lp_extra_roles lp_window lp_attrlist]. rewrite (opens_eq _ _ W).
  destruct (id_ok _ W) as (i & Hi), (roles_ok _ W) as (r & Hr). assert (Ei : at_id (attrs_of a) = i) by (unfold attrs_of; cbn [at_id]; rewrite Hi; reflexivity). assert (Er : at_roles (attrs_of a) = r) by (unfold attrs_of; cbn [at_roles]; rewrite Hr; reflexivity).
  rewrite Ei, Er, Hi, Hr. cbn [bind]. reflexivity.
Qed.
Lemma unescape_eq q t : q <> BSL -> replace_str [BSL; q] [q] t = unescape q t.
Proof.
  intros Hq. unfold replace_str. assert (K : forall n t, length t <= n -> replace_go [BSL; q] [q] 0 t = unescape q t); [|apply (K (length t)); lia]. clear t.
  induction n as [|n IH]; intros t Hn; [destruct t; [reflexivity|cbn in Hn; lia]|]. destruct t as [|c t]; [reflexivity|]. cbn [replace_go unescape starts_with]. cbn [length] in Hn.
  destruct (c =? BSL)%N eqn:Ec; rewrite N.eqb_sym in Ec; rewrite Ec; cbn [andb]; [|f_equal; apply IH; lia].
  destruct t as [|d t]; cbn [andb starts_with]; [reflexivity|]. rewrite (N.eqb_sym q d). destruct (d =? q)%N eqn:Ed; cbn [andb]; [|f_equal; apply IH; lia].
  apply N.eqb_eq in Ed. subst d. cbn [length Nat.sub app replace_go unescape]. assert (E : (q =? BSL)%N = false) by (apply N.eqb_neq, Hq). rewrite E. cbn [andb]. f_equal. apply IH. cbn [length] in Hn. lia.
Qed.
Lemma unescape_in q x t : x <> BSL -> In x (unescape q t) <-> In x t.
Proof.
  intros Hx. induction t as [|c t IH]; [reflexivity|]. cbn [unescape]. destruct ((c =? BSL)%N && _)%bool eqn:E; cbn [In]; [|rewrite IH; reflexivity].
  rewrite IH. split; [auto|]. intros [->|H]; [|exact H]. apply andb_true_iff in E. destruct E as (E & _). apply N.eqb_eq in E. contradiction.
Qed.
Lemma one_line_eq t : replace_char LF (lit " ") t = on_one_line t.
Proof. unfold replace_char, on_one_line. induction t as [|c t IH]; [reflexivity|]. cbn [flat_map map]. rewrite IH. destruct (c =? LF)%N; reflexivity. Qed.
Lemma caret_spec raw txt w : caret raw = Ok (txt, w) <-> new_window raw txt w.
Proof.
  unfold caret, new_window. destruct (ends_with (lit "^") raw) eqn:E.
  - apply ends_with_spec in E. destruct E as (a & ->). change (lit "^") with [94%N]. rewrite chop_last by reflexivity. cbn [bind]. split.
    + intros H. injection H as <- <-. auto.
    + intros [(H & ->)|(_ & _ & H)]; [apply app_inj_tail in H; destruct H as (-> & _); reflexivity|]. destruct (H a eq_refl).
  - assert (K : forall x, raw <> x ++ lit "^"). { intros x Hx. assert (T : ends_with (lit "^") raw = true) by (apply ends_with_spec; eauto). congruence. }
    split; [intros H; injection H as <- <-; auto|]. intros [(H & _)|(-> & -> & _)]; [destruct (K _ H)|reflexivity].
Qed.
Lemma caret_some raw : exists txt w, caret raw = Ok (txt, w) /\ new_window raw txt w.
Proof. destruct (caret_ok raw) as (s & w & E). exists s, w. split; [exact E|]. apply caret_spec, E. Qed.
Lemma new_window_det raw txt w txt' w' : new_window raw txt w -> new_window raw txt' w' -> txt = txt' /\ w = w'.
Proof. intros H H'. apply caret_spec in H, H'. rewrite H in H'. injection H' as -> ->. auto. Qed.

(** The scheme. *)
Definition scheme_char (U : unicode) (c : char) : Prop := is_alpha U c = true \/ decimal U c = true \/ In c (lit ".+-").
Lemma scheme_char_spec U c : is_alpha U c || c_digit U c || c_in (lit ".+-") c = true <-> scheme_char U c.
Proof. unfold scheme_char. rewrite !orb_true_iff, c_in_spec. change (c_digit U c) with (decimal U c). tauto. Qed.
Lemma no_scheme_colon U : ~ scheme_char U 58%N.
Proof. intros [H|[H|H]]; [discriminate H|discriminate H|]. cbn in H. intuition discriminate. Qed.
Definition at_scheme (U : unicode) (prev : option char) (w rest : text) : Prop := prev = None /\ scheme_text U w rest.
Lemma upto_greedy {A} U p n : forall (k : st -> A) s x, rmatch U (Upto n (Chr p)) (fun s' => Some (k s')) s = Some x ->
  exists l rest, s_rest s = l ++ rest /\ Forall (fun c => p c = true) l /\ length l <= n /\ (length l = n \/ forall c r, rest = c :: r -> p c = false) /\ x = k (ext s l rest []).
Proof.
  induction n as [|n IH]; intros k s x H.
  - injection H as <-. exists [], (s_rest s). split; [reflexivity|]. split; [constructor|]. split; [cbn; lia|]. split; [auto|]. destruct s. unfold ext. cbn. rewrite Nat.add_0_r. reflexivity.
  - apply rmatch_alt in H. destruct H as [H|(Hn & H)].
    + apply rmatch_seq_lang in H. destruct H as (w & rest & c & E & L & H). apply -> lang_chr in L. destruct L as (y & -> & Hy & ->). apply IH in H. destruct H as (l & r' & E' & F & Hl & Hg & Hx). cbn [s_rest ext] in E'. rewrite ext_ext in Hx.
      exists (y :: l), r'. split; [rewrite E, E'; reflexivity|]. split; [constructor; assumption|]. split; [cbn [length]; lia|]. split; [cbn [length]; destruct Hg as [Hg|Hg]; [left; lia|right; exact Hg]|exact Hx].
    + injection H as <-. exists [], (s_rest s). split; [reflexivity|]. split; [constructor|]. split; [cbn; lia|]. split; [|destruct s; unfold ext; cbn; rewrite Nat.add_0_r; reflexivity].
      right. intros c r E. destruct (p c) eqn:Ep; [|reflexivity]. exfalso. revert Hn. apply lang_rmatch with (w := [c]) (rest := r) (c := [] ++ []); [exact E|].
      apply lang_seq. exists [c], [], [], []. split; [reflexivity|]. split; [reflexivity|]. split; [apply lang_chr; eauto|apply lang_upto_chr; split; [constructor|split; [cbn; lia|reflexivity]]].
Qed.
Lemma sniff_match U prev t m : match_here U (RENDER_URI_SNIFF U) prev t = Some m -> at_scheme U prev (m_text m) (m_after m).
Proof.
  rewrite match_here_final. unfold RENDER_URI_SNIFF. cbn [Seqs]. intros H. apply rmatch_seq_lang in H. destruct H as (w & r0 & c0 & E0 & L & H). apply -> lang_assert in L. destruct L as (-> & -> & Hb). cbn [app s_rest s_prev] in E0, Hb. subst r0.
  apply rmatch_seq_lang in H. destruct H as (w & r1 & c1 & E1 & L & H). apply -> lang_chr in L. destruct L as (c & -> & Hc & ->). rewrite ext_ext in H. cbn [s_rest ext app] in E1, H.
  apply rmatch_seq_lang in H. destruct H as (r & r2 & c2 & E2 & L & H). rewrite ext_ext in H. cbn [s_rest ext app] in E2, H.
  apply rmatch_seq_lang in H. destruct H as (w & r3 & c3 & E3 & L3 & H). apply -> lang_lit1 in L3. destruct L3 as (-> & ->). rewrite ext_ext in H. cbn [s_rest ext app] in E3, H.
  apply upto_greedy in H. destruct H as (s & rest & E4 & F & Hl & Hg & ->). rewrite ext_ext. cbn [s_rest ext] in E4.
  apply lang_seq in L. destruct L as (w1 & w2 & ca & cb & -> & -> & La & Lb). apply -> lang_chr in La. destruct La as (y & -> & Hy & ->). apply -> lang_many_chr in Lb. destruct Lb as (Fb & ->).
  rewrite final_ext by (rewrite E1, E2, E3, E4; cbn [app]; rewrite <- !app_assoc; reflexivity). cbn [m_text m_after]. split; [destruct prev; [discriminate Hb|reflexivity]|].
  exists c, (y :: w2), s. split; [cbn [app]; rewrite <- !app_assoc; reflexivity|]. split; [exact Hc|]. split; [discriminate|]. split.
  - constructor; [apply scheme_char_spec, Hy|]. eapply Forall_impl; [|exact Fb]. intros a Ha. apply scheme_char_spec, Ha.
  - assert (F' : Forall (fun c => c = 47%N) s). { eapply Forall_impl; [|exact F]. intros a Ha. apply N.eqb_eq in Ha. auto. }
    destruct s as [|a [|b [|d s]]]; [right|right|left|cbn [length] in Hl; lia].
    + split; [auto|]. intros r' ->. destruct Hg as [Hg|Hg]; [cbn in Hg; lia|]. specialize (Hg _ _ eq_refl). discriminate Hg.
    + rewrite (Forall_inv F'). split; [auto|]. intros r' ->. destruct Hg as [Hg|Hg]; [cbn in Hg; lia|]. specialize (Hg _ _ eq_refl). discriminate Hg.
    + rewrite (Forall_inv F'), (Forall_inv (Forall_inv_tail F')). reflexivity.
Qed.
Lemma scheme_det U w r w' r' : scheme_text U w r -> scheme_text U w' r' -> w ++ r = w' ++ r' -> w = w'.
Proof.
  intros (c & k & s & -> & Hc & Hk & Fk & Hs) (c' & k' & s' & -> & Hc' & Hk' & Fk' & Hs') E. cbn [app] in E. rewrite <- !app_assoc in E. cbn [app lit] in E. injection E as <- E.
  change (k ++ 58%N :: (s ++ r) = k' ++ 58%N :: (s' ++ r')) in E. apply (run_unique (scheme_char U)) in E; [|exact Fk|exact Fk'|apply no_scheme_colon|apply no_scheme_colon]. destruct E as (<- & _ & E). f_equal. f_equal. f_equal.
  destruct Hs as [->|([->| ->] & Hr)]; destruct Hs' as [->|([->| ->] & Hr')]; cbn [app lit] in E; try reflexivity; exfalso.
  - exact (Hr' _ (eq_sym E)).
  - injection E as E. exact (Hr' _ (eq_sym E)).
  - exact (Hr _ E).
  - exact (Hr _ E).
  - injection E as E. exact (Hr _ E).
  - exact (Hr' _ (eq_sym E)).
Qed.
Lemma strip_spec U t x : strip_scheme U t = Ok x <-> replaced (at_scheme U) (fun _ _ _ x => x = []) None t x.
Proof.
  apply replacing.
  - intros prev rest (_ & c & r & s & E & _). discriminate E.
  - intros prev w1 r1 w2 r2 (_ & H) (_ & H') E. exact (scheme_det _ _ _ _ _ H H' E).
  - intros prev t0 m H. split; [apply (sniff_match _ _ _ _ H)|]. intros y. split; [intros K; apply Ok_inj in K; auto|intros ->; reflexivity].
  - intros prev w rest (-> & c & r & s & -> & Hc & Hr & Fr & Hs).
    assert (K : lang U (RENDER_URI_SNIFF U) None (c :: r ++ lit ":" ++ s) rest []).
    { unfold RENDER_URI_SNIFF. cbn [Seqs]. apply lang_seq. exists [], (c :: r ++ lit ":" ++ s), [], []. split; [reflexivity|]. split; [reflexivity|]. split; [apply lang_assert; auto|].
      apply lang_seq. exists [c], (r ++ lit ":" ++ s), [], []. split; [reflexivity|]. split; [reflexivity|]. split; [apply lang_chr; eauto|].
      apply lang_seq. exists r, (lit ":" ++ s), [], []. split; [reflexivity|]. split; [reflexivity|]. split.
      - destruct r as [|y r]; [contradiction|]. apply lang_seq. exists [y], r, [], []. split; [reflexivity|]. split; [reflexivity|]. split; [apply lang_chr; exists y; split; [reflexivity|]; split; [apply scheme_char_spec, (Forall_inv Fr)|reflexivity]|].
        apply lang_many_chr. split; [|reflexivity]. eapply Forall_impl; [|exact (Forall_inv_tail Fr)]. intros a Ha. apply scheme_char_spec, Ha.
      - apply lang_seq. exists (lit ":"), s, [], []. split; [reflexivity|]. split; [reflexivity|]. split; [apply lang_lit1; auto|]. apply (lang_upto_chr U). destruct Hs as [->|([->| ->] & _)]; (split; [repeat constructor|]); (split; [cbn; lia|reflexivity]). }
    apply lang_match in K. destruct K as (m & Em). unfold MACRO_URI_SNIFF. rewrite Em. discriminate.
Qed.
Lemma not_start U G t prev o : replaced (at_scheme U) G prev t o -> prev <> None -> o = t.
Proof. induction 1 as [|prev w r x o HF|prev c t o HF H IH]; intros Hp; [reflexivity| |rewrite IH by discriminate; reflexivity]. destruct HF as (-> & _). contradiction. Qed.
Lemma not_start_id U G t : forall prev, prev <> None -> replaced (at_scheme U) G prev t t.
Proof. induction t as [|c t IH]; intros prev Hp; [apply rp_nil|]. apply rp_char; [intros w r _ (-> & _); contradiction|]. apply IH. discriminate. Qed.
Lemma prev_of_some prev w : w <> [] -> prev_of prev w <> None.
Proof. destruct w as [|c w]; intros H; [contradiction|]. unfold prev_of. cbn [rev]. destruct (rev w); discriminate. Qed.
Lemma scheme_nonempty U k r : scheme_text U k r -> k <> [].
Proof. intros (c & x & s & -> & _). discriminate. Qed.
Lemma shown_spec U P t x : shown_target U P t = Ok x <-> shown U (is_attribute_set P (lit "hide-uri-scheme")) t x.
Proof.
  unfold shown_target, shown. destruct (is_attribute_set P (lit "hide-uri-scheme")); [|split; [intros H; apply Ok_inj in H; auto|intros ->; reflexivity]].
  rewrite strip_spec. split.
  - intros H. inversion H as [|? w r y o HF HG HR|? c t0 o HF HR]; subst.
    + right. split; [reflexivity|]. intros k y E (c & r & s & -> & _). discriminate E.
    + left. exists w. destruct HF as (_ & HF). apply not_start in HR; [subst o; auto|]. apply prev_of_some, (scheme_nonempty _ _ _ HF).
    + right. apply not_start in HR; [|discriminate]. subst o. split; [reflexivity|]. intros k y E K. apply (HF k y E). split; [reflexivity|exact K].
  - intros [(k & -> & K)|(-> & K)].
    + apply (rp_step _ _ None k x []); [split; [reflexivity|exact K]|reflexivity|]. apply not_start_id, prev_of_some, (scheme_nonempty _ _ _ K).
    + destruct t as [|c t]; [apply rp_nil|]. apply rp_char; [intros w r E (_ & H); exact (K w r E H)|]. apply not_start_id. discriminate.
Qed.

(** * The link macros *)
Lemma macro_label {A} U (k : st -> A) s x : rmatch U (Seq (Alt (Grp 4 Eps) (Grp 5 (Bracketed c_any))) (Lit1 93%N)) (fun s' => Some (k s')) s = Some x ->
  exists l rest, s_rest s = l ++ 93%N :: rest /\ label any_char l /\ x = k (ext s (l ++ [93%N]) rest (match l with [] => [(4, [])] | _ => [(5, l)] end)).
Proof.
  intros H. change (rmatch U (Alt (Seq (Grp 4 Eps) (Lit1 93%N)) (Seq (Grp 5 (Bracketed c_any)) (Lit1 93%N))) (fun s' => Some (k s')) s = Some x) in H. apply rmatch_alt in H. destruct H as [H|(Hn & H)].
  - apply rmatch_seq_lang in H. destruct H as (w & r & c & E & L & H). apply -> lang_grp in L. destruct L as (c' & -> & L). apply -> lang_eps in L. destruct L as (-> & ->).
    apply rmatch_lang in H. destruct H as (w & r' & c & E' & L & H). apply -> lang_lit1 in L. destruct L as (-> & ->). cbn [s_rest ext] in E'. rewrite ext_ext in H. injection H as <-. cbn [app] in E. subst r. exists [], r'. split; [exact E'|]. split; [left; reflexivity|reflexivity].
  - apply bracketed_label in H.
    + destruct H as (l & rest & E & Hl & Hb & ->). exists l, rest. split; [exact E|]. split; [exact Hb|]. destruct l; [contradiction|]. reflexivity.
    + intros r E. revert Hn. apply (lang_rmatch U _ k s [93%N] r ([] ++ [(4, [])])); [exact E|]. apply lang_seq. exists [], [93%N], [(4, [])], []. split; [reflexivity|]. split; [reflexivity|]. split; [apply lang_grp; exists []; split; [reflexivity|apply lang_eps; auto]|apply lang_lit1; auto].
Qed.
Lemma macro_label_lang U prev l rest : label any_char l -> exists c, lang U (Seq (Alt (Grp 4 Eps) (Grp 5 (Bracketed c_any))) (Lit1 93%N)) prev (l ++ [93%N]) rest c.
Proof.
  intros H. destruct l as [|a l].
  - exists ([] ++ [(4, [])]). apply lang_seq. exists [], [93%N], [(4, [])], []. split; [reflexivity|]. split; [reflexivity|]. split; [apply lang_alt; left; apply <- lang_grp; exists []; split; [reflexivity|apply lang_eps; auto]|apply lang_lit1; auto].
  - exists ([] ++ [(5, a :: l)]). apply lang_seq. exists (a :: l), [93%N], [(5, a :: l)], []. split; [reflexivity|]. split; [reflexivity|]. split; [apply lang_alt; right; apply <- lang_grp; exists []; split; [reflexivity|apply label_bracketed; [exact H|discriminate]]|apply lang_lit1; auto].
Qed.
Definition LINK_END : re := Seq (Lit1 91%N) (Seq (Alt (Grp 4 Eps) (Grp 5 (Bracketed c_any))) (Lit1 93%N)).
Definition LINK_T : re := Grp 3 (Seq (Chr (fun c => negb (is_ws c || c_in (lit ":[") c))) (Many (Chr (fun c => negb (is_ws c || c_in (lit "[") c))))).
Lemma link_re : INLINE_LINK_MACRO = Seq (Opt (Lit1 BSL)) (Seq (Alt (Lit (lit "link")) (Grp 1 (Lit (lit "mailto")))) (Seq (Lit1 58%N) (Seq (Alt (Seq (Grp 2 Eps) (Chr c_any)) LINK_T) LINK_END))).
Proof. reflexivity. Qed.
Lemma not_in_spec l c : c_in l c = false <-> ~ In c l.
Proof. rewrite <- c_in_spec. destruct (c_in l c); split; congruence. Qed.
Lemma link_t_lang U prev w rest c : lang U LINK_T prev w rest c <-> macro_target w /\ c = [(3, w)].
Proof.
  unfold LINK_T. rewrite lang_grp. split.
  - intros (c' & -> & L). apply lang_seq in L. destruct L as (w1 & w2 & ca & cb & -> & -> & La & Lb). apply -> lang_chr in La. destruct La as (y & -> & Hy & ->). apply -> lang_many_chr in Lb. destruct Lb as (F & ->). split; [|reflexivity].
    apply negb_true_iff, orb_false_iff in Hy. destruct Hy as (Hw & Hi). exists y, w2. split; [reflexivity|]. split; [exact Hw|]. split; [apply not_in_spec, Hi|]. eapply Forall_impl; [|exact F]. intros a Ha. cbv beta in Ha. apply negb_true_iff, orb_false_iff in Ha. destruct Ha as (Ha & Hb). split; [exact Ha|]. apply not_in_spec in Hb. intros ->. apply Hb. left. reflexivity.
  - intros ((y & r & -> & Hw & Hi & F) & ->). exists []. split; [reflexivity|]. apply lang_seq. exists [y], r, [], []. split; [reflexivity|]. split; [reflexivity|]. split.
    + apply lang_chr. exists y. split; [reflexivity|]. split; [|reflexivity]. apply not_in_spec in Hi. rewrite Hw, Hi. reflexivity.
    + apply lang_many_chr. split; [|reflexivity]. eapply Forall_impl; [|exact F]. intros a (Ha & Hb). rewrite Ha. assert (E : c_in (lit "[") a = false) by (apply not_in_spec; intros [<-|[]]; apply Hb; reflexivity). rewrite E. reflexivity.
Qed.
Lemma link_end_match {A} U (k : st -> A) s x : rmatch U LINK_END (fun s' => Some (k s')) s = Some x ->
  exists l rest, s_rest s = lit "[" ++ l ++ lit "]" ++ rest /\ label any_char l /\ x = k (ext s (lit "[" ++ l ++ lit "]") rest (match l with [] => [(4, [])] | _ => [(5, l)] end)).
Proof.
  intros H. apply rmatch_seq_lang in H. destruct H as (w & r & c & E & L & H). apply -> lang_lit1 in L. destruct L as (-> & ->). apply macro_label in H. destruct H as (l & rest & E' & Hl & Hx). cbn [s_rest ext] in E'. rewrite ext_ext in Hx.
  exists l, rest. split; [rewrite E, E'; reflexivity|]. split; [exact Hl|]. rewrite Hx. rewrite app_nil_r. reflexivity.
Qed.
Lemma link_end_lang U prev l rest : label any_char l -> exists c, lang U LINK_END prev (lit "[" ++ l ++ lit "]") rest c.
Proof.
  intros H. destruct (macro_label_lang U (prev_of prev (lit "[")) l rest H) as (c & L). exists (c ++ []). apply lang_seq. exists (lit "["), (l ++ lit "]"), [], c. split; [reflexivity|]. split; [reflexivity|]. split; [apply lang_lit1; auto|exact L].
Qed.
Definition one_or_target (T : text) : Prop := macro_target T \/ exists c, T = [c].
Lemma link_body_match {A} U (k : st -> A) s x : rmatch U (Seq (Alt (Seq (Grp 2 Eps) (Chr c_any)) LINK_T) LINK_END) (fun s' => Some (k s')) s = Some x ->
  exists T L rest, s_rest s = T ++ lit "[" ++ L ++ lit "]" ++ rest /\ one_or_target T /\ label any_char L /\
    x = k (ext s (T ++ lit "[" ++ L ++ lit "]") rest (match L with [] => [(4, [])] | _ => [(5, L)] end ++ [if length T =? 1 then (2, []) else (3, T)])).
Proof.
  intros H. change (rmatch U (Alt (Seq (Seq (Grp 2 Eps) (Chr c_any)) LINK_END) (Seq LINK_T LINK_END)) (fun s' => Some (k s')) s = Some x) in H. apply rmatch_alt in H. destruct H as [H|(Hn & H)].
  - apply rmatch_seq_lang in H. destruct H as (w & r & c & E & L & H). apply lang_seq in L. destruct L as (w1 & w2 & ca & cb & -> & -> & La & Lb). apply -> lang_grp in La. destruct La as (c' & -> & La). apply -> lang_eps in La. destruct La as (-> & ->).
    apply -> lang_chr in Lb. destruct Lb as (y & -> & _ & ->). apply link_end_match in H. destruct H as (l & rest & E' & Hl & Hx). cbn [s_rest ext app] in E', Hx, E. rewrite ext_ext in Hx. exists [y], l, rest. split; [rewrite E, E'; reflexivity|]. split; [right; eauto|]. split; [exact Hl|]. exact Hx.
  - apply rmatch_seq_lang in H. destruct H as (T & r & c & E & L & H). apply -> link_t_lang in L. destruct L as (HT & ->). apply link_end_match in H. destruct H as (l & rest & E' & Hl & Hx). cbn [s_rest ext] in E'. rewrite ext_ext in Hx.
    exists T, l, rest. split; [rewrite E, E'; reflexivity|]. split; [left; exact HT|]. split; [exact Hl|]. rewrite Hx. destruct (Nat.eqb_spec (length T) 1) as [E1|E1]; [|reflexivity]. exfalso. revert Hn.
    destruct T as [|y [|z T]]; [discriminate E1| |discriminate E1]. destruct (link_end_lang U (prev_of (s_prev s) [y]) l rest Hl) as (ce & Le).
    apply (lang_rmatch U _ k s ([y] ++ lit "[" ++ l ++ lit "]") rest (ce ++ ([] ++ [(2, [])]))); [rewrite E, E', <- !app_assoc; reflexivity|].
    apply lang_seq. exists [y], (lit "[" ++ l ++ lit "]"), ([] ++ [(2, [])]), ce. split; [reflexivity|]. split; [reflexivity|]. split; [|exact Le]. apply lang_seq. exists [], [y], [(2, [])], []. split; [reflexivity|]. split; [reflexivity|]. split; [apply lang_grp; exists []; split; [reflexivity|apply lang_eps; auto]|apply lang_chr; exists y; auto].
Qed.
Lemma link_macro_match U prev t m : match_here U INLINE_LINK_MACRO prev t = Some m -> exists e k T L, escape e /\ m_text m = e ++ link_macro k T L /\ one_or_target T /\ label any_char L /\
  match cap m 1 with Some _ => true | None => false end = match k with KMail => true | KLink => false end /\ cap m 3 = (if length T =? 1 then None else Some T) /\ unwrap_or_default (cap m 5) = L.
Proof.
  rewrite match_here_final, link_re. intros H. apply rmatch_seq_lang in H. destruct H as (e & r1 & c1 & E1 & L & H). apply escape_lang in L. destruct L as (He & ->). cbn [s_rest] in E1.
  apply rmatch_seq_lang in H. destruct H as (wk & r2 & c2 & E2 & L & H). rewrite ext_ext in H. cbn [s_rest ext] in E2.
  assert (Hk : exists k, wk = kind_name k /\ c2 = match k with KMail => [(1, lit "mailto")] | KLink => [] end).
  { apply -> lang_alt in L. destruct L as [L|L]; [apply -> lang_lit in L; destruct L as (-> & ->); exists KLink; auto|]. apply -> lang_grp in L. destruct L as (c' & -> & L). apply -> lang_lit in L. destruct L as (-> & ->). exists KMail. auto. }
  destruct Hk as (k & -> & ->). clear L.
  apply rmatch_seq_lang in H. destruct H as (w & r3 & c3 & E3 & L & H). apply -> lang_lit1 in L. destruct L as (-> & ->). rewrite ext_ext in H. cbn [s_rest ext] in E3.
  apply link_body_match in H. destruct H as (T & l & rest & E4 & HT & Hl & ->). cbn [s_rest ext] in E4. rewrite ext_ext. rewrite final_ext by (rewrite E1, E2, E3, E4, <- !app_assoc; reflexivity).
  unfold cap. cbn [m_text m_caps]. exists e, k, T, l. split; [exact He|]. split; [unfold link_macro; rewrite <- !app_assoc; reflexivity|]. split; [exact HT|]. split; [exact Hl|].
  destruct k; destruct (length T =? 1); destruct l; repeat split; reflexivity.
Qed.
Lemma link_macro_unique k T L r k' T' L' r' : one_or_target T -> one_or_target T' -> label any_char L -> label any_char L' -> link_macro k T L ++ r = link_macro k' T' L' ++ r' -> k = k' /\ T = T' /\ L = L'.
Proof.
  intros HT HT' HL HL' E. unfold link_macro in E. assert (k = k') as <- by (destruct k, k'; try reflexivity; discriminate E). repeat rewrite <- app_assoc in E. apply app_inv_head in E. apply app_inv_head in E. split; [reflexivity|].
  assert (K : T = T').
  { assert (N : forall T, one_or_target T -> exists c r, T = c :: r /\ Forall (fun x => x <> 91%N) r).
    { clear. intros T [(c & r & -> & _ & _ & F)|(c & ->)]; [exists c, r; split; [reflexivity|]; eapply Forall_impl; [|exact F]; intros a (_ & Ha); exact Ha|exists c, []; auto]. }
    destruct (N T HT) as (c & q & -> & F), (N T' HT') as (c' & q' & -> & F'). cbn [app] in E. injection E as <- E. change (q ++ 91%N :: (L ++ 93%N :: r) = q' ++ 91%N :: (L' ++ 93%N :: r')) in E. apply (run_unique (fun x => x <> 91%N)) in E; auto. destruct E as (-> & _). reflexivity. }
  subst T'. split; [reflexivity|]. apply app_inv_head in E. apply app_inv_head in E. change (L ++ 93%N :: r = L' ++ 93%N :: r') in E. apply (label_end any_char any_char) in E; auto. apply E.
Qed.
Lemma link_macro_head k T L : exists c r, link_macro k T L = c :: r /\ c <> BSL.
Proof. destruct k; eexists; eexists; (split; [reflexivity|discriminate]). Qed.
Definition is_mail (k : link_kind) : bool := match k with KMail => true | KLink => false end.
Definition sep_of (k : link_kind) : char := match k with KMail => COMMA | KLink => 61%N end.
Lemma macro_text_det R sep L a raw a' raw' : macro_text R sep L a raw -> macro_text R sep L a' raw' -> a = a' /\ raw = raw'.
Proof. intros [(H & -> & ->)|(H & -> & ->)] [(H' & -> & ->)|(H' & -> & ->)]; try contradiction; auto. Qed.
Lemma has_sep sep L : sep <> BSL -> has_char sep (replace_esc_bracket L) = has_char sep L.
Proof.
  intros H. unfold replace_esc_bracket. rewrite unescape_eq by discriminate. pose proof (unescape_in 93%N sep L H) as K. destruct (has_char sep L) eqn:E; [apply has_char_spec, K, has_char_spec, E|]. apply has_char_false. rewrite K. apply has_char_false, E.
Qed.
Lemma macro_text_spec U P k target L : exists raw txt w a oa, link_macro_text U P (is_mail k) target L = Ok (txt, target ++ (if is_mail k then query encode_uri_component L (attrs_of a) else []), w, oa) /\
  match oa with Some a' => Ok a' | None => inline_attrlist U P [] end = Ok a /\ wf_al a /\ macro_text (reads U P) (sep_of k) L (attrs_of a) raw /\ new_window raw txt w.
Proof.
  unfold link_macro_text. destruct (reads_ok U P []) as (a0 & E0 & W0 & R0).
  destruct L as [|l0 L0] eqn:EL.
  { cbn [is_nil]. exists [], [], None, a0, None. assert (Q : (if is_mail k then query encode_uri_component [] (attrs_of a0) else []) = []) by (destruct k; reflexivity). rewrite Q, app_nil_r. split; [reflexivity|]. split; [exact E0|]. split; [exact W0|].
    split; [right; split; [intros []|]; split; [symmetry; exact R0|reflexivity]|]. right. split; [reflexivity|]. split; [reflexivity|]. intros x H. destruct x; discriminate H. }
  rewrite <- EL. assert (En : is_nil L = false) by (rewrite EL; reflexivity). rewrite En. clear l0 L0 EL En.
  destruct (reads_ok U P (on_one_line L)) as (a & Ea & W & R).
  assert (Hs : has_char (sep_of k) (replace_esc_bracket L) = has_char (sep_of k) L) by (apply has_sep; destruct k; discriminate).
  assert (Hx : extract_attributes_from_text U P (replace_char LF (lit " ") L) = Ok (match at_pos (attrs_of a) 1 with Some v => v | None => [] end, a)).
  { unfold extract_attributes_from_text. rewrite one_line_eq, Ea. cbn [bind]. unfold attrs_of. cbn [at_pos]. destruct (nth_attribute a 1); reflexivity. }
  destruct (has_char (sep_of k) L) eqn:Es.
  - destruct (caret_some (match at_pos (attrs_of a) 1 with Some v => v | None => [] end)) as (txt & w & Ec & Hw). exists (match at_pos (attrs_of a) 1 with Some v => v | None => [] end), txt, w, a, (Some a).
    split; [|split; [reflexivity|]; split; [exact W|]; split; [|exact Hw]; left; split; [apply has_char_spec, Es|]; split; [symmetry; exact R|reflexivity]].
    destruct k; cbn [is_mail sep_of] in *; rewrite Hs, Hx; cbn [bind fst snd]; rewrite Ec; cbn [bind fst snd]; [rewrite app_nil_r; reflexivity|].
    unfold query. change (has_char 44%N L) with (has_char COMMA L). change (has_char COMMA L = true) in Es. rewrite Es. unfold attrs_of. cbn [at_pos]. destruct (nth_attribute a 2) as [s|]; cbn [option_map]; [|rewrite app_nil_r; reflexivity].
    destruct (nth_attribute a 3) as [b|]; cbn [option_map]; rewrite <- ?app_assoc, ?app_nil_r; reflexivity.
  - destruct (caret_some (unescape 93%N L)) as (txt & w & Ec & Hw). exists (unescape 93%N L), txt, w, a0, None. split; [|split; [exact E0|]; split; [exact W0|]; split; [|exact Hw]; right; split; [apply has_char_false, Es|]; split; [symmetry; exact R0|reflexivity]].
    assert (Er : replace_esc_bracket L = unescape 93%N L) by (apply unescape_eq; discriminate). rewrite Er in *.
    destruct k; cbn [is_mail sep_of] in *; rewrite Hs; cbn [bind fst snd]; rewrite Ec; cbn [bind fst snd]; [rewrite app_nil_r; reflexivity|].
    unfold query. change (has_char COMMA L = false) in Es. change (has_char 44%N L) with (has_char COMMA L). rewrite Es, app_nil_r. reflexivity.
Qed.
Definition hides (P : parser) : bool := is_attribute_set P (lit "hide-uri-scheme").
Lemma shown_some U P t : exists s, shown_target U P t = Ok s /\ forall s', shown U (hides P) t s' <-> s' = s.
Proof.
  destruct (shown_ok U P t) as (s & E). exists s. split; [exact E|]. intros s'. unfold hides. rewrite <- shown_spec, E. split; [intros H; apply Ok_inj in H; auto|intros ->; reflexivity].
Qed.
Lemma macro_link_spec U P k T L x : (r <- link_macro_text U P (is_mail k) (if is_mail k then lit "mailto:" ++ T else T) L ;;
    let '(link_text, target, window, attrs) := r in
    a <- match attrs with Some a => Ok a | None => inline_attrlist U P [] end ;;
    tx <- (if is_nil link_text then
             if is_mail k then Ok (T, [])
             else
               lt <- shown_target U P target ;;
               Ok (if is_nil lt then target else lt, [lit "bare"])
           else Ok (link_text, [])) ;;
    render_link (mklp target (fst tx) (snd tx) window a)) = Ok x <-> macro_link U (reads U P) encode_uri_component (hides P) k T L x.
Proof.
  destruct (macro_text_spec U P k (if is_mail k then lit "mailto:" ++ T else T) L) as (raw & txt & w & a & oa & E & Eo & W & Ht & Hw). rewrite E. cbn [bind]. rewrite Eo. cbn [bind]. unfold macro_link. destruct k; cbn [is_mail sep_of] in *.
  - rewrite app_nil_r. destruct txt as [|c txt]; cbn [is_nil].
    + destruct (shown_some U P T) as (s & -> & Hs). cbn [bind fst snd]. rewrite (link_element_eq _ _ _ _ _ W). split.
      * intros H. apply Ok_inj in H. subst x. exists (attrs_of a), raw, [], w. split; [exact Hw|]. split; [exact Ht|]. exists s. split; [apply Hs; reflexivity|]. destruct s; reflexivity.
      * intros (a' & raw' & txt' & w' & Hw' & Ht' & H). destruct (macro_text_det _ _ _ _ _ _ _ Ht Ht') as (<- & <-). destruct (new_window_det _ _ _ _ _ Hw Hw') as (<- & <-). destruct H as (s' & Hs' & ->). apply Hs in Hs'. subst s'. destruct s; reflexivity.
    + cbn [bind fst snd]. rewrite (link_element_eq _ _ _ _ _ W). split.
      * intros H. apply Ok_inj in H. subst x. exists (attrs_of a), raw, (c :: txt), w. auto.
      * intros (a' & raw' & txt' & w' & Hw' & Ht' & H). destruct (macro_text_det _ _ _ _ _ _ _ Ht Ht') as (<- & <-). destruct (new_window_det _ _ _ _ _ Hw Hw') as (<- & <-). rewrite H. reflexivity.
  - assert (K : forall y, (tx <- (if is_nil txt then Ok (T, []) else Ok (txt, [])) ;; render_link (mklp ((lit "mailto:" ++ T) ++ query encode_uri_component L (attrs_of a)) (fst tx) (snd tx) w a)) = Ok y <->
       y = link_element (lit "mailto:" ++ T ++ query encode_uri_component L (attrs_of a)) (match txt with [] => T | _ => txt end) [] w (attrs_of a)).
    { intros y. rewrite <- app_assoc. destruct txt; cbn [is_nil bind fst snd]; rewrite (link_element_eq _ _ _ _ _ W); (split; [intros H; apply Ok_inj in H; auto|intros ->; reflexivity]). }
    rewrite K. split.
    + intros ->. exists (attrs_of a), raw, txt, w. auto.
    + intros (a' & raw' & txt' & w' & Hw' & Ht' & H). destruct (macro_text_det _ _ _ _ _ _ _ Ht Ht') as (<- & <-). destruct (new_window_det _ _ _ _ _ Hw Hw') as (<- & <-). exact H.
Qed.
Lemma link_macros_rewritten U P t o : replace_all_pure U INLINE_LINK_MACRO (link_macro_replacer U P) t = Ok o <->
  replaced link_macro_at (link_macro_out U (reads U P) encode_uri_component (hides P)) None t o.
Proof.
  apply replacing.
  - intros prev rest (e & k & T & L & _ & E & _). destruct (link_macro_head k T L) as (c & r & Eh & _). rewrite Eh in E. destruct e; discriminate E.
  - intros prev w1 r1 w2 r2 (e & k & T & L & He & -> & HT & HL) (e' & k' & T' & L' & He' & -> & HT' & HL') E. rewrite <- !app_assoc in E.
    destruct (link_macro_head k T L) as (c & q & Eq & Hc), (link_macro_head k' T' L') as (c' & q' & Eq' & Hc').
    assert (K : e = e' /\ link_macro k T L ++ r1 = link_macro k' T' L' ++ r2). { rewrite Eq, Eq' in E |- *. cbn [app] in E |- *. apply same_esc in E; auto. }
    destruct K as (-> & K). destruct (link_macro_unique _ _ _ _ _ _ _ _ HT HT' HL HL' K) as (-> & -> & ->). reflexivity.
  - intros prev t0 m H. apply link_macro_match in H. destruct H as (e & k & T & L & He & Et & HT & HL & H1 & H3 & H5). split; [exists e, k, T, L; auto|]. intros x. unfold link_macro_replacer, cap_idx. rewrite Et, H1, H3, H5.
    destruct (link_macro_head k T L) as (c & q & Eq & Hc). destruct He as [->| ->]; cbn [app].
    + assert (Eb : starts_with [BSL] (link_macro k T L) = false). { rewrite Eq. cbn [starts_with]. rewrite andb_true_r. apply N.eqb_neq. auto. } rewrite Eb.
      assert (Em : match k with KLink => false | KMail => true end = is_mail k) by (destruct k; reflexivity). rewrite Em.
      assert (Out : link_macro_out U (reads U P) encode_uri_component (hides P) prev (link_macro k T L) (m_after m) x <-> length T <> 1 /\ macro_link U (reads U P) encode_uri_component (hides P) k T L x).
      { split.
        - intros (k' & T' & L' & HT' & HL' & [(E & _)|(E & H)]); [rewrite Eq in E; injection E as -> _; contradiction|]. destruct (link_macro_unique k T L [] k' T' L' [] HT HT' HL HL') as (-> & -> & ->); [rewrite E; reflexivity|exact H].
        - intros H. exists k, T, L. split; [exact HT|]. split; [exact HL|]. right. auto. }
      rewrite Out. destruct (Nat.eqb_spec (length T) 1) as [E1|E1]; cbn [of_option bind]; [split; [discriminate|intros (K & _); contradiction]|].
      rewrite macro_link_spec. tauto.
    + change (starts_with [BSL] (BSL :: link_macro k T L)) with true. cbv iota. rewrite str_from1 by reflexivity. split.
      * intros K. apply Ok_inj in K. subst x. exists k, T, L. split; [exact HT|]. split; [exact HL|]. left. auto.
      * intros (k' & T' & L' & HT' & HL' & [(E & ->)|(E & _)]); [injection E as ->; reflexivity|]. destruct (link_macro_head k' T' L') as (c' & q' & Eq' & Hc'). rewrite Eq' in E. injection E as <- _. contradiction.
  - intros prev w rest (e & k & T & L & He & -> & HT & HL).
    assert (K : exists c, lang U INLINE_LINK_MACRO prev (e ++ link_macro k T L) rest c).
    { set (p3 := prev_of (prev_of (prev_of prev e) (kind_name k)) (lit ":")). destruct (link_end_lang U (prev_of p3 T) L rest HL) as (ce & Le).
      assert (LT : exists ct, lang U (Alt (Seq (Grp 2 Eps) (Chr c_any)) LINK_T) p3 T ((lit "[" ++ L ++ lit "]") ++ rest) ct).
      { destruct HT as [HT|(y & ->)]; [exists [(3, T)]; apply lang_alt; right; apply <- link_t_lang; auto|]. exists ([] ++ [(2, [])]). apply lang_alt. left. apply lang_seq. exists [], [y], [(2, [])], []. split; [reflexivity|]. split; [reflexivity|]. split; [apply lang_grp; exists []; split; [reflexivity|apply lang_eps; auto]|apply lang_chr; exists y; auto]. }
      destruct LT as (ct & LT). rewrite link_re. eexists. apply lang_seq. exists e, (link_macro k T L), []. eexists. split; [reflexivity|]. split; [reflexivity|]. split; [apply lang_alt; destruct He as [->| ->]; [right; apply <- lang_eps; auto|left; apply lang_lit1; auto]|].
      unfold link_macro. apply lang_seq. exists (kind_name k), (lit ":" ++ T ++ lit "[" ++ L ++ lit "]"), (match k with KMail => [(1, lit "mailto")] | KLink => [] end). eexists. split; [reflexivity|]. split; [reflexivity|].
      split; [apply lang_alt; destruct k; [left; apply lang_lit; auto|right; apply <- lang_grp; exists []; split; [reflexivity|apply lang_lit; auto]]|].
      apply lang_seq. exists (lit ":"), (T ++ lit "[" ++ L ++ lit "]"), []. eexists. split; [reflexivity|]. split; [reflexivity|]. split; [apply lang_lit1; auto|]. apply lang_seq. exists T, (lit "[" ++ L ++ lit "]"), ct, ce. split; [reflexivity|]. split; [reflexivity|]. split; [exact LT|exact Le]. }
    destruct K as (c & K). apply lang_match in K. destruct K as (m & ->). discriminate.
Qed.
