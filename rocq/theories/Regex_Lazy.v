(** Lazy repetition gives the shortest match: the part of the matcher needed for formatting marks. *)
From Verif Require Import Text TextFacts Regex Regex_Proof Regex_Scan Regex_Lang.

Lemma first_some_least {A} (f : nat -> option A) : forall n a x, first_some f (seq a n) = Some x ->
  exists i, a <= i < a + n /\ f i = Some x /\ forall j, a <= j < i -> f j = None.
Proof.
  induction n as [|n IH]; intros a x H; [discriminate|]. cbn [seq first_some] in H. destruct (f a) as [y|] eqn:E.
  - injection H as ->. exists a. split; [lia|]. split; [exact E|]. intros j Hj. lia.
  - destruct (IH _ _ H) as (i & Hi & Ei & Hl). exists i. split; [lia|]. split; [exact Ei|]. intros j Hj. destruct (Nat.eq_dec j a) as [->|]; [exact E|]. apply Hl. lia.
Qed.

Lemma rmatch_lang {A} U r (k : st -> option A) s x : rmatch U r k s = Some x ->
  exists w rest c, s_rest s = w ++ rest /\ lang U r (s_prev s) w rest c /\ k (ext s w rest c) = Some x.
Proof.
  intros H. apply rmatch_sound in H. destruct H as (s' & D & K). apply den_lang in D. destruct D as (w & c & E & Es & L).
  exists w, (s_rest s'), c. split; [exact E|]. split; [exact L|]. rewrite <- Es. exact K.
Qed.
Lemma rmatch_seq_lang {A} U a b (k : st -> option A) s x : rmatch U (Seq a b) k s = Some x ->
  exists w rest c, s_rest s = w ++ rest /\ lang U a (s_prev s) w rest c /\ rmatch U b k (ext s w rest c) = Some x.
Proof. intros H. apply (rmatch_lang U a (rmatch U b k) s x H). Qed.
Lemma lang_rmatch {A} U r (k : st -> A) s w rest c : s_rest s = w ++ rest -> lang U r (s_prev s) w rest c ->
  rmatch U r (fun s' => Some (k s')) s <> None.
Proof.
  intros E L. pose proof (lang_den U r s w rest c E L) as D.
  apply (rmatch_complete U r (fun s' => Some (k s')) s (ext s w rest c) D). discriminate.
Qed.

(** [r] always takes the shortest text it can. *)
Definition shortest (U : unicode) (r : re) : Prop := forall A (k : st -> A) s x, rmatch U r (fun s' => Some (k s')) s = Some x ->
  exists w rest c, s_rest s = w ++ rest /\ lang U r (s_prev s) w rest c /\ x = k (ext s w rest c) /\
    forall w' rest' c', s_rest s = w' ++ rest' -> lang U r (s_prev s) w' rest' c' -> length w <= length w'.
(** Every text of [r] has [n] characters. *)
Definition fixed_len (U : unicode) (r : re) (n : nat) : Prop := forall prev w rest c, lang U r prev w rest c -> length w = n.

Lemma jump_ext s n : n <= length (s_rest s) -> jump s n = ext s (firstn n (s_rest s)) (skipn n (s_rest s)) [].
Proof. intros L. unfold jump, ext. rewrite firstn_length, Nat.min_l by exact L. reflexivity. Qed.
Lemma run_len_le p t : run_len p t <= length t.
Proof. unfold run_len. pose proof (span_while_app p t) as H. destruct (span_while p t) as [a b]. cbn in *. rewrite <- H, app_length. lia. Qed.
Lemma run_len_ge p w rest : Forall (fun c => p c = true) w -> length w <= run_len p (w ++ rest).
Proof. induction 1 as [|c w Hc _ IH]; [cbn; lia|]. cbn [app length]. rewrite run_len_cons, Hc. lia. Qed.
Lemma run_len_all p t i : i <= run_len p t -> Forall (fun c => p c = true) (firstn i t).
Proof.
  revert i. induction t as [|c t IH]; intros i H; [rewrite firstn_nil; constructor|]. rewrite run_len_cons in H. destruct i as [|i]; [constructor|].
  destruct (p c) eqn:E; [|lia]. cbn. constructor; [exact E|]. apply IH. lia.
Qed.
Lemma cap_jump n s w rest : s_rest s = w ++ rest -> set_cap n s (jump s (length w)) = ext s w rest [(n, w)].
Proof.
  intros E. rewrite jump_ext by (rewrite E, app_length; lia). rewrite E, firstn_len. rewrite skipn_app, skipn_all, Nat.sub_diag. cbn [app skipn].
  apply ext_cap, E.
Qed.

(** [(p+?)C]. *)
Lemma shortest_plus U p n C L : fixed_len U C L -> shortest U (Seq (Grp n (PlusL (Chr p))) C).
Proof.
  intros HC A k s x H.
  change (rmatch U (Chr p) (rmatch U (ManyL (Chr p)) (fun s' => rmatch U C (fun s' => Some (k s')) (set_cap n s s'))) s = Some x) in H.
  cbn [rmatch] in H. fold (@rmatch A) in H. destruct (s_rest s) as [|c t] eqn:Es; [discriminate|]. destruct (p c) eqn:Ec; [|discriminate].
  change (rmatch U (ManyL (Chr p)) (fun s' => rmatch U C (fun s' => Some (k s')) (set_cap n s s')) (advance s c t) = Some x) in H.
  rewrite rmatch_manyl_chr in H. apply first_some_least in H. destruct H as (i & Hi & Ei & Hl). cbn [s_rest advance] in Hi.
  pose proof (run_len_le p t) as Hr.
  assert (J : forall j u v, t = u ++ v -> j = length u -> set_cap n s (jump (advance s c t) j) = ext s (c :: u) v [(n, c :: u)]).
  { intros j u v Et ->. rewrite (jump_S _ _ _ _ Es). apply (cap_jump n s (c :: u) v). rewrite Es, Et. reflexivity. }
  assert (Hfi : length (firstn i t) = i) by (rewrite firstn_length; lia).
  rewrite (J i (firstn i t) (skipn i t)) in Ei by (rewrite ?firstn_skipn; auto). apply rmatch_lang in Ei. destruct Ei as (w2 & rest & c2 & E2 & L2 & Ex).
  cbn [s_rest ext] in E2. exists ((c :: firstn i t) ++ w2), rest, (c2 ++ [(n, c :: firstn i t)]). split; [|split; [|split]].
  - rewrite <- app_assoc, <- E2. cbn. rewrite firstn_skipn. reflexivity.
  - apply lang_seq. exists (c :: firstn i t), w2, [(n, c :: firstn i t)], c2. repeat split; [|exact L2].
    apply lang_grp. exists []. split; [reflexivity|]. apply lang_seq. exists [c], (firstn i t), [], []. repeat split; [exists c; auto|]. apply lang_many_chr. split; [apply run_len_all; lia|reflexivity].
  - rewrite ext_ext in Ex. injection Ex as <-. reflexivity.
  - intros w' rest' c' E' L'. apply lang_seq in L'. destruct L' as (w1 & v & c1 & c3 & -> & -> & L1 & L3). apply lang_grp in L1. destruct L1 as (c4 & -> & L1).
    apply lang_seq in L1. destruct L1 as (a & u & ca & cu & -> & -> & La & Lu). apply -> lang_chr in La. destruct La as (c' & -> & Hc' & ->). apply lang_many_chr in Lu. destruct Lu as (Fu & ->).
    rewrite !app_length. rewrite (HC _ _ _ _ L2). rewrite (HC _ _ _ _ L3). cbn [length app]. rewrite Hfi.
    cbn [app] in E'. injection E' as <- E'. rewrite <- app_assoc in E'. destruct (le_lt_dec i (length u)) as [|Hlt]; [lia|]. exfalso.
    specialize (Hl (length u) ltac:(lia)). rewrite (J (length u) u (v ++ rest') E' eq_refl) in Hl. revert Hl.
    apply (lang_rmatch U C k _ v rest' c3); [reflexivity|exact L3].
Qed.

(** [(q|q.*?q)C]. *)
Lemma shortest_body U p q n C L : fixed_len U C L -> shortest U (Seq (Grp n (Alt (Chr q) (Seqs [Chr q; ManyL (Chr p); Chr q]))) C).
Proof.
  intros HC A k s x H. cbn [Seqs] in H |- *.
  change (match rmatch U (Chr q) (fun s' => rmatch U C (fun s' => Some (k s')) (set_cap n s s')) s with Some x => Some x | None =>
     rmatch U (Chr q) (rmatch U (ManyL (Chr p)) (rmatch U (Chr q) (fun s' => rmatch U C (fun s' => Some (k s')) (set_cap n s s')))) s end = Some x) in H.
  destruct (rmatch U (Chr q) (fun s' => rmatch U C (fun s' => Some (k s')) (set_cap n s s')) s) as [y|] eqn:E1.
  - injection H as ->. apply rmatch_lang in E1. destruct E1 as (w1 & r1 & c1 & Es & L1 & E1). pose proof L1 as L1'. apply -> lang_chr in L1. destruct L1 as (c & -> & Hc & ->).
    rewrite ext_cap in E1 by exact Es. apply rmatch_lang in E1. destruct E1 as (w2 & rest & c2 & E2 & L2 & Ex). cbn [s_rest ext] in E2. subst r1.
    exists ([c] ++ w2), rest, (c2 ++ [(n, [c])]). split; [|split; [|split]].
    + rewrite Es, <- app_assoc. reflexivity.
    + apply lang_seq. exists [c], w2, [(n, [c])], c2. repeat split; [|exact L2]. apply lang_grp. exists []. split; [reflexivity|]. apply lang_alt. left. exact L1'.
    + rewrite ext_ext in Ex. injection Ex as <-. reflexivity.
    + intros w' rest' c' E' L'. apply lang_seq in L'. destruct L' as (v1 & v2 & d1 & d2 & -> & -> & M1 & M2). rewrite !app_length, (HC _ _ _ _ L2), (HC _ _ _ _ M2). cbn [length].
      enough (1 <= length v1) by lia. apply lang_grp in M1. destruct M1 as (c4 & -> & M1). apply lang_alt in M1. destruct M1 as [M1|M1].
      * apply -> lang_chr in M1. destruct M1 as (d & -> & _). cbn. lia.
      * apply lang_seq in M1. destruct M1 as (a & b & ca & cb & -> & -> & M1 & _). apply -> lang_chr in M1. destruct M1 as (d & -> & _). cbn. lia.
  - assert (N1 : forall a v rest' c3, s_rest s = [a] ++ v ++ rest' -> q a = true -> lang U C (Some a) v rest' c3 -> False).
    { intros a v rest' c3 Es Ha L3. cbn [rmatch] in E1. rewrite Es in E1. cbn [app] in E1. rewrite Ha in E1. revert E1.
      pose proof (cap_jump n s [a] (v ++ rest') Es) as J. cbn [length] in J. rewrite <- (jump_S s a (v ++ rest') 0 Es), jump_0 in J. rewrite J.
      apply (lang_rmatch U C k _ v rest' c3); [reflexivity|]. exact L3. }
    cbn [rmatch] in H. fold (@rmatch A) in H. destruct (s_rest s) as [|c t] eqn:Es; [discriminate|]. destruct (q c) eqn:Ec; [|discriminate].
    set (K := fun s' => rmatch U C (fun s' => Some (k s')) (set_cap n s s')) in *.
    change (rmatch U (ManyL (Chr p)) (rmatch U (Chr q) K) (advance s c t) = Some x) in H.
    rewrite rmatch_manyl_chr in H. apply first_some_least in H. destruct H as (i & Hi & Ei & Hl). cbn [s_rest advance] in Hi.
    pose proof (run_len_le p t) as Hr.
    assert (J : forall j u v, t = u ++ v -> j = length u -> jump (advance s c t) j = ext s (c :: u) v []).
    { intros j u v Et ->. rewrite (jump_S _ _ _ _ Es). change (S (length u)) with (length (c :: u)). rewrite jump_ext by (rewrite Es, Et; cbn; rewrite app_length; lia).
      rewrite Es, Et. change (c :: u ++ v) with ((c :: u) ++ v). rewrite firstn_len, skipn_app, skipn_all, Nat.sub_diag. reflexivity. }
    assert (Hfi : length (firstn i t) = i) by (rewrite firstn_length; lia).
    rewrite (J i (firstn i t) (skipn i t)) in Ei by (rewrite ?firstn_skipn; auto). apply rmatch_lang in Ei. destruct Ei as (w2 & r2 & c2 & E2 & L2 & Ek).
    cbn [s_rest ext] in E2. pose proof L2 as L2'. apply -> lang_chr in L2. destruct L2 as (d & -> & Hd & ->). rewrite ext_ext in Ek. cbn [app] in Ek. unfold K in Ek. rewrite ext_cap in Ek.
    2:{ rewrite Es. rewrite <- app_comm_cons, <- app_assoc, <- E2, firstn_skipn. reflexivity. }
    apply rmatch_lang in Ek. destruct Ek as (w3 & rest & c3 & E3 & L3 & Ex). cbn [s_rest ext] in E3. subst r2.
    set (b := c :: firstn i t ++ [d]) in *. exists (b ++ w3), rest, (c3 ++ [(n, b)]). split; [|split; [|split]].
    + unfold b. cbn [app]. f_equal. rewrite <- !app_assoc. rewrite <- (firstn_skipn i t) at 1. rewrite E2. reflexivity.
    + apply lang_seq. exists b, w3, [(n, b)], c3. repeat split; [|exact L3].
      apply lang_grp. exists []. split; [reflexivity|]. apply lang_alt. right. apply lang_seq. exists [c], (firstn i t ++ [d]), [], []. repeat split; [exists c; auto|].
      apply lang_seq. exists (firstn i t), [d], [], []. repeat split; [apply lang_many_chr; split; [apply run_len_all; lia|reflexivity]|]. apply lang_chr. eauto.
    + rewrite ext_ext in Ex. injection Ex as <-. reflexivity.
    + intros w' rest' c' E' L'. apply lang_seq in L'. destruct L' as (v1 & v2 & d1 & d2 & -> & -> & M1 & M2). rewrite !app_length, (HC _ _ _ _ L3), (HC _ _ _ _ M2).
      enough (length b <= length v1) by lia. unfold b. cbn [length]. rewrite app_length, Hfi. cbn [length].
      apply lang_grp in M1. destruct M1 as (c4 & -> & M1). apply lang_alt in M1. destruct M1 as [M1|M1].
      * exfalso. apply -> lang_chr in M1. destruct M1 as (e & -> & He & ->). apply (N1 e v2 rest' d2); [rewrite E', <- app_assoc; reflexivity|exact He|exact M2].
      * apply lang_seq in M1. destruct M1 as (a & y & ca & cy & -> & -> & Ma & My). apply -> lang_chr in Ma. destruct Ma as (e & -> & He & ->).
        apply lang_seq in My. destruct My as (u & z & cu & cz & -> & -> & Mu & Mz). apply lang_many_chr in Mu. destruct Mu as (Fu & ->). apply -> lang_chr in Mz. destruct Mz as (g & -> & Hg & ->).
        rewrite !app_length. cbn [length]. destruct (le_lt_dec i (length u)) as [|Hlt]; [lia|]. exfalso.
        cbn [app] in E'. injection E' as <- E'. rewrite <- !app_assoc in E'.
        specialize (Hl (length u) ltac:(lia)). rewrite (J (length u) u ([g] ++ v2 ++ rest') E' eq_refl) in Hl. cbn [rmatch s_rest ext app] in Hl. rewrite Hg in Hl. revert Hl.
        assert (Eg : set_cap n s (advance (ext s (c :: u) (g :: v2 ++ rest') []) g (v2 ++ rest')) = ext s (c :: u ++ [g]) (v2 ++ rest') [(n, c :: u ++ [g])]).
        { rewrite <- (ext_cap s (c :: u ++ [g]) (v2 ++ rest') [] n) by (rewrite Es, E'; cbn; rewrite <- app_assoc; reflexivity). f_equal.
          unfold ext, advance. cbn [s_pos s_prev s_rest s_caps]. f_equal; [cbn [length]; rewrite app_length; cbn; lia|]. rewrite app_comm_cons, <- prev_of_app. reflexivity. }
        unfold K. cbv beta. rewrite Eg. apply (lang_rmatch U C k _ v2 rest' d2); [reflexivity|]. cbn [s_prev ext]. exact M2.
Qed.

(** [replace_all] against a rule that describes the match the engine prefers. *)
Section Preferred.
  Variables (U : unicode) (r : re) (rep : mtch -> res text) (R : option char -> text -> text -> text -> Prop).
  Hypothesis Hr : rule_ok R.
  Hypothesis H1 : forall prev t m, match_here U r prev t = Some m -> exists x, rep m = Ok x /\ R prev (m_text m) (m_after m) x.
  Hypothesis H2 : forall prev w rest x, R prev w rest x -> match_here U r prev (w ++ rest) <> None.
  Lemma preferred_nonempty : never_empty U r.
  Proof. intros prev t m H. destruct (H1 _ _ _ H) as (x & _ & Rx). destruct Hr as [Hn _]. apply (Hn _ _ _ _ Rx). Qed.
  Lemma preferred_some prev w rest x : R prev w rest x -> exists m, match_here U r prev (w ++ rest) = Some m /\ m_text m = w /\ m_after m = rest /\ rep m = Ok x.
  Proof.
    intros H. pose proof (H2 _ _ _ _ H) as N. destruct (match_here U r prev (w ++ rest)) as [m|] eqn:E; [|contradiction]. exists m. split; [reflexivity|].
    destruct (H1 _ _ _ E) as (x' & Hx & Rx). apply match_here_text in E. destruct E as [E _]. destruct Hr as [_ Hd]. destruct (Hd _ _ _ _ _ _ _ H Rx E) as [Ew Exx].
    subst x'. rewrite <- Ew in *. split; [reflexivity|]. split; [|exact Hx]. apply app_inv_head in E. auto.
  Qed.
  Lemma preferred_scans prev t o : scans U r rep prev t o <-> rewritten R prev t o.
  Proof.
    split.
    - induction 1 as [prev Hn|prev c t o Hn Hs IH|prev t m x o Hm Hx Hs IH].
      + constructor.
      + apply rw_char; [|exact IH]. intros w rest x E H. apply preferred_some in H. destruct H as (m & Hm & _). rewrite <- E in Hm. congruence.
      + destruct (H1 _ _ _ Hm) as (x' & Hx' & Rx). rewrite Hx in Hx'. apply (f_equal (fun r => match r with Ok y => y | _ => x end)) in Hx'. subst x'.
        apply match_here_text in Hm. destruct Hm as [-> Hp]. apply rw_step; [exact Rx|]. rewrite <- Hp. exact IH.
    - induction 1 as [prev|prev w rest x o H Hs IH|prev c t o Hn Hs IH].
      + constructor. destruct (match_here U r prev []) eqn:E; [|reflexivity]. exfalso. pose proof (preferred_nonempty _ _ _ E) as N.
        apply match_here_text in E. destruct E as [E _]. symmetry in E. apply app_eq_nil in E. destruct E. contradiction.
      + apply preferred_some in H. destruct H as (m & Hm & Ht & Ha & Hx). eapply sc_match; [exact Hm|exact Hx|]. apply match_here_text in Hm. destruct Hm as [_ ->]. rewrite Ht, Ha. exact IH.
      + apply sc_skip; [|exact IH]. destruct (match_here U r prev (c :: t)) eqn:E; [|reflexivity]. exfalso. destruct (H1 _ _ _ E) as (x & _ & Rx).
        apply match_here_text in E. destruct E as [E _]. apply (Hn _ _ _ E Rx).
  Qed.
  Lemma preferred_rewritten h o : replace_all_pure U r rep h = Ok o <-> rewritten R None h o.
  Proof. rewrite replace_all_pure_scans by apply preferred_nonempty. apply preferred_scans. Qed.
  Lemma preferred_total h : exists o, replace_all_pure U r rep h = Ok o.
  Proof. apply replace_all_pure_ok. intros pv x m H. destruct (H1 _ _ _ H) as (y & Hy & _). eauto. Qed.
End Preferred.
