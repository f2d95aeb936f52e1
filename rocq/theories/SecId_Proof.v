(** Lemmas on section id generation. *)
From Verif Require Import Text TextFacts Span_Laws Regex Regex_Proof Regex_Scan Regex_Lang Parser_Model SecId_Model SecId_Spec.

(** * Condensing *)
Lemma starts2 c x t : starts_with [c; c] (x :: t) = (c =? x)%N && match t with y :: _ => (c =? y)%N | [] => false end.
Proof. cbn [starts_with]. destruct (c =? x)%N; [|reflexivity]. destruct t as [|y t]; [reflexivity|]. destruct (c =? y)%N; reflexivity. Qed.
Lemma replace2_hit c t : replace_str [c; c] [c] (c :: c :: t) = c :: replace_str [c; c] [c] t.
Proof.
  unfold replace_str. change (replace_go [c; c] [c] 0 (c :: c :: t)) with
    (if starts_with [c; c] (c :: c :: t) then [c] ++ replace_go [c; c] [c] 1 (c :: t) else c :: replace_go [c; c] [c] 0 (c :: t)).
  rewrite starts2, N.eqb_refl. reflexivity.
Qed.
Lemma replace2_miss c x t : starts_with [c; c] (x :: t) = false -> replace_str [c; c] [c] (x :: t) = x :: replace_str [c; c] [c] t.
Proof.
  intros H. unfold replace_str. change (replace_go [c; c] [c] 0 (x :: t)) with
    (if starts_with [c; c] (x :: t) then [c] ++ replace_go [c; c] [c] 1 t else x :: replace_go [c; c] [c] 0 t). rewrite H. reflexivity.
Qed.

Definition squeeze_step (c x : char) (s : text) : text :=
  if (x =? c)%N then match s with y :: _ => if (y =? c)%N then s else x :: s | [] => [x] end else x :: s.
Lemma squeeze_cons c x t : squeeze c (x :: t) = squeeze_step c x (squeeze c t).
Proof. unfold squeeze_step. cbn [squeeze]. destruct (x =? c)%N; [|reflexivity]. destruct (squeeze c t); reflexivity. Qed.
Lemma squeeze_step_twice c s : squeeze_step c c (squeeze_step c c s) = squeeze_step c c s.
Proof.
  unfold squeeze_step. rewrite N.eqb_refl. destruct s as [|y s]; [rewrite N.eqb_refl; reflexivity|].
  destruct (y =? c)%N eqn:E; [rewrite E; reflexivity|rewrite N.eqb_refl; reflexivity].
Qed.

Lemma squeeze_replace c n : forall t, length t <= n -> squeeze c (replace_str [c; c] [c] t) = squeeze c t.
Proof.
  induction n as [|n IH]; intros [|x t] Hl; [reflexivity|cbn in Hl; lia|reflexivity|]. cbn [length] in Hl.
  destruct (starts_with [c; c] (x :: t)) eqn:E.
  - rewrite starts2 in E. destruct t as [|y t]; [rewrite andb_false_r in E; discriminate E|].
    apply andb_true_iff in E. destruct E as [E1 E2]. apply N.eqb_eq in E1, E2. subst x y.
    rewrite replace2_hit, !squeeze_cons, squeeze_step_twice, IH; [reflexivity|cbn [length] in Hl; lia].
  - rewrite (replace2_miss _ _ _ E), !squeeze_cons, IH by lia. reflexivity.
Qed.

Lemma contains2_cons c x t : contains [c; c] (x :: t) = starts_with [c; c] (x :: t) || contains [c; c] t.
Proof. reflexivity. Qed.

Lemma squeeze_id c t : contains [c; c] t = false -> squeeze c t = t.
Proof.
  induction t as [|x t IH]; intros H; [reflexivity|]. rewrite contains2_cons in H. apply orb_false_iff in H. destruct H as [H1 H2].
  rewrite squeeze_cons, (IH H2). unfold squeeze_step. destruct (x =? c)%N eqn:E; [|reflexivity]. destruct t as [|y t]; [reflexivity|].
  rewrite starts2, (N.eqb_sym c x), E in H1. cbn [andb] in H1. rewrite N.eqb_sym, H1. reflexivity.
Qed.

Lemma replace2_length c n : forall t, length t <= n -> length (replace_str [c; c] [c] t) <= length t /\
  (contains [c; c] t = true -> length (replace_str [c; c] [c] t) < length t).
Proof.
  induction n as [|n IH]; intros [|x t] Hl; try (split; [cbn; lia|discriminate]); [cbn in Hl; lia|]. cbn [length] in Hl.
  destruct (starts_with [c; c] (x :: t)) eqn:E.
  - rewrite starts2 in E. destruct t as [|y t]; [rewrite andb_false_r in E; discriminate E|].
    apply andb_true_iff in E. destruct E as [E1 E2]. apply N.eqb_eq in E1, E2. subst x y.
    rewrite replace2_hit. cbn [length] in *. destruct (IH t) as [H _]; [lia|]. split; [lia|]. intros _. lia.
  - rewrite (replace2_miss _ _ _ E). cbn [length]. destruct (IH t) as [H1 H2]; [lia|]. split; [lia|].
    rewrite contains2_cons, E. cbn [orb]. intros H. specialize (H2 H). lia.
Qed.

Lemma condense_eq fuel c : forall t, length t <= fuel -> condense fuel [c] t = Ok (squeeze c t).
Proof.
  induction fuel as [|f IH]; intros t Hl.
  - destruct t; [reflexivity|cbn in Hl; lia].
  - cbn [condense]. change ([c] ++ [c]) with [c; c]. destruct (contains [c; c] t) eqn:E.
    + destruct (replace2_length c (length t) t (le_n _)) as [_ H]. specialize (H E).
      rewrite IH by lia. rewrite (squeeze_replace c (length t)) by lia. reflexivity.
    + rewrite squeeze_id by exact E. reflexivity.
Qed.

(** * The ends *)
Lemma chop_end_app c t : chop_end c (t ++ [c]) = t.
Proof. unfold chop_end. rewrite rev_app_distr. cbn [rev app]. rewrite N.eqb_refl. apply rev_involutive. Qed.
Lemma chop_end_eq c t : (if ends_with [c] t then removelast t else t) = chop_end c t.
Proof.
  destruct (ends_with [c] t) eqn:E.
  - apply ends_with_spec in E. destruct E as [r ->]. rewrite chop_end_app, removelast_last. reflexivity.
  - unfold chop_end. destruct (rev t) as [|x r] eqn:R; [reflexivity|]. destruct (x =? c)%N eqn:Ex; [|reflexivity].
    apply N.eqb_eq in Ex. subst x. exfalso. apply not_true_iff_false in E. apply E, ends_with_spec. exists (rev r).
    rewrite <- (rev_involutive t), R. reflexivity.
Qed.
Lemma chop_start_eq c t : (if starts_with [c] t then str_from (blen [c]) t else Ok t) = Ok (chop_start c t).
Proof.
  destruct t as [|x r]; [reflexivity|]. cbn [starts_with chop_start]. rewrite N.eqb_sym. destruct (x =? c)%N eqn:E; [|reflexivity].
  cbn [starts_with andb]. apply N.eqb_eq in E. subst x. unfold str_from. change (c :: r) with ([c] ++ r). rewrite bsplit_app. reflexivity.
Qed.
Lemma breaks_eq sep t : replace_breaks sep t = breaks_to sep t.
Proof. reflexivity. Qed.

(** * The regular expression *)
Lemma match_here_alt U a b prev t : match_here U (Alt a b) prev t = orelse (match_here U a prev t) (match_here U b prev t).
Proof. unfold match_here. cbn [rmatch]. destruct (rmatch U a _ _); reflexivity. Qed.

Lemma sec_never_empty U : never_empty U (INVALID_SECTION_ID_CHARS U).
Proof. apply nonnull_never_empty. reflexivity. Qed.

Lemma lang_plus_chr U p prev w rest caps : lang U (Plus (Chr p)) prev w rest caps <-> w <> [] /\ Forall (fun c => p c = true) w /\ caps = [].
Proof.
  unfold Plus, Many. rewrite lang_seq. split.
  - intros (w1 & w2 & c1 & c2 & -> & -> & L1 & L2). apply -> lang_chr in L1. destruct L1 as (c & -> & Hc & ->).
    apply -> lang_many_chr in L2. destruct L2 as [F ->]. split; [discriminate|]. split; [constructor; assumption|reflexivity].
  - intros (Hw & F & ->). destruct w as [|c w]; [contradiction|]. inversion F as [|? ? Hc Fw]; subst.
    exists [c], w, [], []. split; [reflexivity|]. split; [reflexivity|]. split; [apply lang_chr; eauto|apply lang_many_chr; auto].
Qed.

(** The four alternatives. *)
Definition R_tag : re := Seqs [Lit1 60%N; Plus (Chr (c_not (c_is 62%N))); Lit1 62%N].
Definition R_esc : re := Seqs [Lit (lit "&lt;"); Many (Chr (c_not (c_is 38%N))); Lit (lit "&gt;")].
Definition R_ref (U : unicode) : re :=
  Seqs [Lit1 38%N;
        Alts [Seqs [Chr c_lower; Plus (Chr c_lower); Upto 2 (Chr (c_digit U))];
              Seqs [Lit1 35%N; Chr (c_digit U); Chr (c_digit U); Upto 3 (Chr (c_digit U))];
              Seqs [Lit (lit "#x"); Chr (c_lhex U); Chr (c_lhex U); Upto 2 (Chr (c_lhex U))]];
        Lit1 59%N].
Definition R_bad (U : unicode) : re := Plus (Chr (c_not (c_id U))).
Lemma sec_split U prev t : match_here U (INVALID_SECTION_ID_CHARS U) prev t =
  orelse (match_here U R_tag prev t) (orelse (match_here U R_esc prev t) (orelse (match_here U (R_ref U) prev t) (match_here U (R_bad U) prev t))).
Proof. change (INVALID_SECTION_ID_CHARS U) with (Alt R_tag (Alt R_esc (Alt (R_ref U) (R_bad U)))). rewrite !match_here_alt. reflexivity. Qed.

Lemma Forall_not c (t : text) : Forall (fun x => c_not (c_is c) x = true) t <-> ~ In c t.
Proof.
  unfold c_not, c_is. rewrite Forall_forall. split.
  - intros H Hin. specialize (H c Hin). rewrite N.eqb_refl in H. discriminate H.
  - intros H x Hx. destruct (N.eqb_spec c x) as [<-|]; [contradiction|reflexivity].
Qed.

Lemma lang_tag U prev w rest caps : lang U R_tag prev w rest caps <-> tag w /\ caps = [].
Proof.
  unfold R_tag, tag. cbn [Seqs]. rewrite lang_seq. split.
  - intros (w1 & w2 & c1 & c2 & -> & -> & L1 & L2). apply -> lang_lit1 in L1. destruct L1 as [-> ->].
    apply -> lang_seq in L2. destruct L2 as (w3 & w4 & c3 & c4 & -> & -> & L3 & L4). apply -> lang_lit1 in L4. destruct L4 as [-> ->].
    apply -> lang_plus_chr in L3. destruct L3 as (Hn & F & ->). apply Forall_not in F. split; [|reflexivity]. exists w3. auto.
  - intros [(x & -> & Hx & F) ->]. exists (lit "<"), (x ++ lit ">"), [], []. split; [reflexivity|]. split; [reflexivity|].
    split; [apply lang_lit1; auto|]. apply lang_seq. exists x, (lit ">"), [], []. split; [reflexivity|]. split; [reflexivity|].
    split; [|apply lang_lit1; auto]. apply lang_plus_chr. split; [exact Hx|]. split; [apply Forall_not, F|reflexivity].
Qed.
Lemma lang_esc U prev w rest caps : lang U R_esc prev w rest caps <-> escaped_tag w /\ caps = [].
Proof.
  unfold R_esc, escaped_tag. cbn [Seqs]. rewrite lang_seq. split.
  - intros (w1 & w2 & c1 & c2 & -> & -> & L1 & L2). apply -> lang_lit in L1. destruct L1 as [-> ->].
    apply -> lang_seq in L2. destruct L2 as (w3 & w4 & c3 & c4 & -> & -> & L3 & L4). apply -> lang_lit in L4. destruct L4 as [-> ->].
    unfold Many in L3. apply -> lang_many_chr in L3. destruct L3 as (F & ->). apply Forall_not in F. split; [|reflexivity]. exists w3. auto.
  - intros [(x & -> & F) ->]. exists (lit "&lt;"), (x ++ lit "&gt;"), [], []. split; [reflexivity|]. split; [reflexivity|].
    split; [apply lang_lit; auto|]. apply lang_seq. exists x, (lit "&gt;"), [], []. split; [reflexivity|]. split; [reflexivity|].
    split; [|apply lang_lit; auto]. unfold Many. apply lang_many_chr. split; [apply Forall_not, F|reflexivity].
Qed.

(** [Chr p] twice, then up to [n] more. *)
Lemma lang_two_upto U p n prev w rest caps : lang U (Seqs [Chr p; Chr p; Upto n (Chr p)]) prev w rest caps <->
  Forall (fun c => p c = true) w /\ 2 <= length w <= 2 + n /\ caps = [].
Proof.
  cbn [Seqs]. split.
  - intros (w1 & w2 & c1 & c2 & -> & -> & L1 & L2). apply -> lang_chr in L1. destruct L1 as (a & -> & Ha & ->).
    apply -> lang_seq in L2. destruct L2 as (w3 & w4 & c3 & c4 & -> & -> & L3 & L4). apply -> lang_chr in L3. destruct L3 as (b & -> & Hb & ->).
    apply -> lang_upto_chr in L4. destruct L4 as (F & Hl & ->). cbn [app length]. split; [repeat constructor; assumption|]. split; [lia|reflexivity].
  - intros (F & Hl & ->). destruct w as [|a [|b w]]; cbn [length] in Hl; try lia. inversion F as [|? ? Ha F1]; subst. inversion F1 as [|? ? Hb F2]; subst.
    apply lang_seq. exists [a], (b :: w), [], []. split; [reflexivity|]. split; [reflexivity|]. split; [apply lang_chr; eauto|].
    apply lang_seq. exists [b], w, [], []. split; [reflexivity|]. split; [reflexivity|]. split; [apply lang_chr; eauto|].
    apply lang_upto_chr. split; [exact F2|]. split; [lia|reflexivity].
Qed.
Lemma c_lower_iff c : c_lower c = true <-> lower_letter c.
Proof. unfold c_lower, c_range, lower_letter. rewrite andb_true_iff, !N.leb_le. reflexivity. Qed.
Lemma c_lhex_iff U c : c_lhex U c = true <-> hex_digit (c_digit U) c.
Proof. unfold c_lhex, c_or, c_range, hex_digit. rewrite orb_true_iff, andb_true_iff, !N.leb_le. reflexivity. Qed.
Lemma Forall_iff {A} (P Q : A -> Prop) l : (forall x, P x <-> Q x) -> (Forall P l <-> Forall Q l).
Proof. intros H. split; apply Forall_impl; apply H. Qed.

Lemma lang_ref U prev w rest caps : lang U (R_ref U) prev w rest caps <-> char_ref (c_digit U) w /\ caps = [].
Proof.
  unfold R_ref, char_ref. cbn [Seqs Alts]. rewrite lang_seq. split.
  - intros (w1 & w2 & c1 & c2 & -> & -> & L1 & L2). apply -> lang_lit1 in L1. destruct L1 as [-> ->].
    apply -> lang_seq in L2. destruct L2 as (w3 & w4 & c3 & c4 & -> & -> & L3 & L4). apply -> lang_lit1 in L4. destruct L4 as [-> ->].
    assert (H : c3 = [] /\ ((exists a d, w3 = a ++ d /\ Forall lower_letter a /\ 2 <= length a /\ Forall (fun c => c_digit U c = true) d /\ length d <= 2) \/
   (exists d, w3 = lit "#" ++ d /\ Forall (fun c => c_digit U c = true) d /\ 2 <= length d <= 5) \/
   (exists h, w3 = lit "#x" ++ h /\ Forall (hex_digit (c_digit U)) h /\ 2 <= length h <= 4))).
    { apply -> lang_alt in L3. destruct L3 as [L3|L3].
      - apply -> lang_seq in L3. destruct L3 as (a & r & ca & cr & -> & -> & La & Lr). apply -> lang_chr in La. destruct La as (x & -> & Hx & ->).
        apply -> lang_seq in Lr. destruct Lr as (l & d & cl & cd & -> & -> & Ll & Ld). apply -> lang_plus_chr in Ll. destruct Ll as (Hl & Fl & ->).
        apply -> lang_upto_chr in Ld. destruct Ld as (Fd & Hd & ->). split; [reflexivity|]. left. exists (x :: l), d.
        split; [reflexivity|]. split; [constructor; [apply c_lower_iff, Hx|revert Fl; apply Forall_impl; apply c_lower_iff]|].
        split; [|split; assumption]. destruct l; [contradiction|cbn; lia].
      - apply -> lang_alt in L3. destruct L3 as [L3|L3].
        + apply -> lang_seq in L3. destruct L3 as (a & r & ca & cr & -> & -> & La & Lr). apply -> lang_lit1 in La. destruct La as [-> ->].
          apply -> (lang_two_upto U (c_digit U) 3) in Lr. destruct Lr as (F & Hl & ->). split; [reflexivity|]. right. left. exists r. auto.
        + apply -> lang_seq in L3. destruct L3 as (a & r & ca & cr & -> & -> & La & Lr). apply -> (lang_lit U (lit "#x")) in La. destruct La as [-> ->].
          apply -> (lang_two_upto U (c_lhex U) 2) in Lr. destruct Lr as (F & Hl & ->). split; [reflexivity|]. right. right. exists r.
          split; [reflexivity|]. split; [|exact Hl]. revert F. apply Forall_impl. apply c_lhex_iff. }
    destruct H as [-> H]. split; [|reflexivity]. exists w3. split; [reflexivity|exact H].
  - intros [(x & -> & H) ->]. exists (lit "&"), (x ++ lit ";"), [], []. split; [reflexivity|]. split; [reflexivity|].
    split; [apply lang_lit1; auto|]. apply lang_seq. exists x, (lit ";"), [], []. split; [reflexivity|]. split; [reflexivity|].
    split; [|apply lang_lit1; auto]. apply lang_alt. destruct H as [(a & d & -> & Fa & Ha & Fd & Hd)|[(d & -> & F & Hl)|(h & -> & F & Hl)]].
    + left. destruct a as [|x a]; [cbn in Ha; lia|]. inversion Fa as [|? ? Hx Fa']; subst. apply lang_seq. exists [x], (a ++ d), [], [].
      split; [reflexivity|]. split; [reflexivity|]. split; [apply lang_chr; exists x; split; [reflexivity|]; split; [apply c_lower_iff, Hx|reflexivity]|].
      apply lang_seq. exists a, d, [], []. split; [reflexivity|]. split; [reflexivity|]. split.
      * apply lang_plus_chr. split; [destruct a; [cbn in Ha; lia|discriminate]|]. split; [|reflexivity]. revert Fa'. apply Forall_impl. apply c_lower_iff.
      * apply lang_upto_chr. auto.
    + right. apply lang_alt. left. apply lang_seq. exists (lit "#"), d, [], []. split; [reflexivity|]. split; [reflexivity|].
      split; [apply lang_lit1; auto|]. apply (lang_two_upto U (c_digit U) 3). split; [exact F|]. split; [lia|reflexivity].
    + right. apply lang_alt. right. apply lang_seq. exists (lit "#x"), h, [], []. split; [reflexivity|]. split; [reflexivity|].
      split; [apply (lang_lit U (lit "#x")); auto|]. apply (lang_two_upto U (c_lhex U) 2). split; [|split; [lia|reflexivity]].
      revert F. apply Forall_impl. apply c_lhex_iff.
Qed.

(** Each of the three kinds of markup ends at a determined place. *)
Lemma cut_unique (c : char) a b a' b' : ~ In c a -> ~ In c a' -> a ++ c :: b = a' ++ c :: b' -> a = a' /\ b = b'.
Proof.
  revert a'. induction a as [|x a IH]; intros [|y a'] H1 H2 E; cbn [app] in E.
  - injection E as E. auto.
  - injection E as E1 E2. subst y. destruct H2. left. reflexivity.
  - injection E as E1 E2. subst x. destruct H1. left. reflexivity.
  - injection E as E1 E2. subst y. destruct (IH a') as [-> ->]; [intros K; apply H1; right; exact K|intros K; apply H2; right; exact K|exact E2|auto].
Qed.
Lemma tag_unique w r w' r' : tag w -> tag w' -> w ++ r = w' ++ r' -> w = w' /\ r = r'.
Proof.
  intros (x & -> & _ & Hx) (x' & -> & _ & Hx') E. cbn [app lit] in E.
  assert (E' : x ++ 62%N :: r = x' ++ 62%N :: r').
  { apply (f_equal (@tl N)) in E. change (tl ((lit "<" ++ x ++ lit ">") ++ r)) with ((x ++ lit ">") ++ r) in E.
    change (tl ((lit "<" ++ x' ++ lit ">") ++ r')) with ((x' ++ lit ">") ++ r') in E. rewrite <- !app_assoc in E. exact E. }
  destruct (cut_unique _ _ _ _ _ Hx Hx' E') as [-> ->]. auto.
Qed.
Lemma esc_unique w r w' r' : escaped_tag w -> escaped_tag w' -> w ++ r = w' ++ r' -> w = w' /\ r = r'.
Proof.
  intros (x & -> & Hx) (x' & -> & Hx') E. rewrite <- !app_assoc in E. apply app_inv_head in E.
  change (x ++ 38%N :: lit "gt;" ++ r = x' ++ 38%N :: lit "gt;" ++ r') in E.
  destruct (cut_unique _ _ _ _ _ Hx Hx' E) as [-> E2]. apply app_inv_head in E2. subst r'. auto.
Qed.
Lemma digit_not_semi U : c_digit U 59%N = false.
Proof. reflexivity. Qed.
Lemma ref_body U x : (exists a d, x = a ++ d /\ Forall lower_letter a /\ 2 <= length a /\ Forall (fun c => c_digit U c = true) d /\ length d <= 2) \/
   (exists d, x = lit "#" ++ d /\ Forall (fun c => c_digit U c = true) d /\ 2 <= length d <= 5) \/
   (exists h, x = lit "#x" ++ h /\ Forall (hex_digit (c_digit U)) h /\ 2 <= length h <= 4) -> ~ In 59%N x.
Proof.
  assert (D : forall d, Forall (fun c => c_digit U c = true) d -> ~ In 59%N d).
  { intros d F H. rewrite Forall_forall in F. specialize (F _ H). discriminate F. }
  intros [(a & d & -> & Fa & _ & Fd & _)|[(d & -> & F & _)|(h & -> & F & _)]] H.
  - apply in_app_or in H. destruct H as [H|H]; [|exact (D d Fd H)]. rewrite Forall_forall in Fa. specialize (Fa _ H). destruct Fa. lia.
  - cbn in H. destruct H as [H|H]; [discriminate H|exact (D d F H)].
  - cbn in H. destruct H as [H|[H|H]]; [discriminate H|discriminate H|]. rewrite Forall_forall in F. destruct (F _ H) as [K|[K1 K2]]; [discriminate K|lia].
Qed.
Lemma ref_unique U w r w' r' : char_ref (c_digit U) w -> char_ref (c_digit U) w' -> w ++ r = w' ++ r' -> w = w' /\ r = r'.
Proof.
  intros (x & -> & Hx) (x' & -> & Hx') E. rewrite <- !app_assoc in E. apply app_inv_head in E.
  change (x ++ 59%N :: r = x' ++ 59%N :: r') in E. destruct (cut_unique _ _ _ _ _ (ref_body U x Hx) (ref_body U x' Hx') E) as [-> ->]. auto.
Qed.

Lemma m_unique U r (L : text -> Prop) prev w rest :
  (forall p v s c, lang U r p v s c <-> L v /\ c = []) ->
  (forall a b a' b', L a -> L a' -> a ++ b = a' ++ b' -> a = a' /\ b = b') ->
  L w -> exists m, match_here U r prev (w ++ rest) = Some m /\ m_text m = w /\ m_after m = rest.
Proof.
  intros HL Hu Hw. destruct (lang_match U r prev w rest []) as [m Hm]; [apply HL; auto|].
  exists m. split; [exact Hm|]. apply match_here_lang in Hm. destruct Hm as (E & _ & K). apply HL in K. destruct K as [K _].
  destruct (Hu _ _ _ _ Hw K E) as [-> ->]. auto.
Qed.
Lemma m_none U r (L : text -> Prop) prev t :
  (forall p v s c, lang U r p v s c <-> L v /\ c = []) -> (forall v s, t = v ++ s -> ~ L v) -> match_here U r prev t = None.
Proof. intros HL Hn. apply no_lang_no_match. intros w rest caps E K. apply HL in K. exact (Hn _ _ E (proj1 K)). Qed.

Lemma tag_hd w : tag w -> exists s, w = 60%N :: s.
Proof. intros (x & -> & _). eexists. reflexivity. Qed.
Lemma esc_hd w : escaped_tag w -> exists s, w = 38%N :: s.
Proof. intros (x & -> & _). eexists. reflexivity. Qed.
Lemma ref_hd d w : char_ref d w -> exists s, w = 38%N :: s.
Proof. intros (x & -> & _). eexists. reflexivity. Qed.
Lemma none_hd (L : text -> Prop) (h : char) (t : text) : (forall w, L w -> exists s, w = h :: s) -> (forall s, t <> h :: s) -> forall v s, t = v ++ s -> ~ L v.
Proof. intros H Hn v s -> Hv. destruct (H v Hv) as [s' ->]. exact (Hn (s' ++ s) eq_refl). Qed.

(** A run of other characters is taken whole. *)
Lemma bad_match U prev t : match_here U (R_bad U) prev t =
  match t with c :: r => if c_not (c_id U) c then match_here U (R_bad U) prev t else None | [] => None end.
Proof. destruct t as [|c r]; [reflexivity|]. destruct (c_not (c_id U) c) eqn:E; [reflexivity|]. unfold match_here, R_bad, Plus. cbn [rmatch s_rest]. rewrite E. reflexivity. Qed.
Lemma bad_run U prev c r : c_id U c = false -> exists m, match_here U (R_bad U) prev (c :: r) = Some m /\
  m_text m = c :: fst (span_while (c_not (c_id U)) r) /\ m_after m = snd (span_while (c_not (c_id U)) r).
Proof.
  intros Hc. assert (E : c_not (c_id U) c = true) by (unfold c_not; rewrite Hc; reflexivity).
  assert (M : match_here U (R_bad U) prev (c :: r) <> None).
  { destruct (lang_match U (R_bad U) prev [c] r []) as [m Hm]; [apply lang_plus_chr; split; [discriminate|]; split; [repeat constructor; exact E|reflexivity]|].
    cbn [app] in Hm. rewrite Hm. discriminate. }
  unfold match_here, R_bad, Plus in *. cbn [rmatch s_rest] in *. rewrite E in *.
  rewrite rmatch_many_chr in *. cbn [advance s_rest] in *. rewrite seq_S, rev_app_distr in *. cbn [rev app first_some Nat.add] in *.
  eexists. split; [reflexivity|]. cbn [m_text m_after jump advance s_pos s_rest]. unfold run_len. pose proof (span_while_app (c_not (c_id U)) r) as Ha.
  set (a := fst (span_while (c_not (c_id U)) r)) in *. set (b := snd (span_while (c_not (c_id U)) r)) in *. clearbody a b.
  split.
  - change (1 + length a) with (S (length a)). cbn [firstn]. f_equal. rewrite <- Ha. apply firstn_len.
  - rewrite <- Ha. rewrite skipn_app, skipn_all, Nat.sub_diag. reflexivity.
Qed.

(** * Cleaning *)
Definition sec_scans (U : unicode) := scans U (INVALID_SECTION_ID_CHARS U) (fun _ => Ok []).

(** What is left consists of the permitted characters. *)
Lemma scans_ok U prev t o : sec_scans U prev t o -> Forall (fun c => c_id U c = true) o.
Proof.
  induction 1 as [prev Hn|prev c t o Hn Hs IH|prev t m x o Hm Hx Hs IH]; [constructor| |].
  - constructor; [|exact IH]. destruct (c_id U c) eqn:E; [reflexivity|]. exfalso. rewrite sec_split in Hn.
    destruct (bad_run U prev c t E) as (m & Hm & _). rewrite Hm in Hn.
    destruct (match_here U R_tag prev (c :: t)); [discriminate Hn|]. destruct (match_here U R_esc prev (c :: t)); [discriminate Hn|].
    destruct (match_here U (R_ref U) prev (c :: t)); discriminate Hn.
  - apply Ok_inj in Hx. subst x. exact IH.
Qed.

Lemma id_lt U : c_id U 60%N = false. Proof. reflexivity. Qed.
Lemma id_amp U : c_id U 38%N = false. Proof. reflexivity. Qed.

Lemma cleaned_run U t o : cleaned (c_digit U) (c_id U) t o -> (forall s, t <> 60%N :: s /\ t <> 38%N :: s) ->
  cleaned (c_digit U) (c_id U) (snd (span_while (c_not (c_id U)) t)) o.
Proof.
  induction 1 as [|w r o Hw H IH|w r o Hw H IH|w r o Hw Hv H IH|c r o Hc H IH|c r o Hc H1 H2 H3 H IH]; intros Hh.
  - constructor.
  - exfalso. destruct (tag_hd w Hw) as [s ->]. exact (proj1 (Hh (s ++ r)) eq_refl).
  - exfalso. destruct (esc_hd w Hw) as [s ->]. exact (proj2 (Hh (s ++ r)) eq_refl).
  - exfalso. destruct (ref_hd _ w Hw) as [s ->]. exact (proj2 (Hh (s ++ r)) eq_refl).
  - cbn [span_while]. unfold c_not at 1. rewrite Hc. cbn [negb snd]. constructor; assumption.
  - cbn [span_while]. unfold c_not at 1. rewrite Hc. cbn [negb]. destruct (span_while (c_not (c_id U)) r) as [a b]. cbn [snd] in *. apply IH. exact H3.
Qed.

Lemma scans_cleaned U n : forall prev t o, length t <= n -> cleaned (c_digit U) (c_id U) t o -> sec_scans U prev t o.
Proof.
  induction n as [|n IH]; intros prev t o Hl H.
  { destruct t; [|cbn in Hl; lia]. inversion H as [|w r o' Hw Hr E|w r o' Hw Hr E|w r o' Hw Hv Hr E| |]; subst.
    - constructor. reflexivity.
    - apply app_eq_nil in E. destruct E as [-> ->]. destruct (tag_hd [] Hw) as [s K]. discriminate K.
    - apply app_eq_nil in E. destruct E as [-> ->]. destruct (esc_hd [] Hw) as [s K]. discriminate K.
    - apply app_eq_nil in E. destruct E as [-> ->]. destruct (ref_hd _ [] Hw) as [s K]. discriminate K. }
  inversion H as [E1 E2|w r o' Hw Hr E|w r o' Hw Hr E|w r o' Hw Hv Hr E|c r o' Hc Hr E|c r o' Hc H1 H2 H3 Hr E]; subst.
  - constructor. reflexivity.
  - destruct (m_unique U R_tag tag prev w r (lang_tag U) tag_unique Hw) as (m & Hm & Ht & Ha).
    change o with ([] ++ o). apply sc_match with (m := m); [rewrite sec_split, Hm; reflexivity|reflexivity|]. rewrite Ha. apply IH; [|exact Hr].
    destruct (tag_hd w Hw) as [s ->]. rewrite app_length in Hl. cbn [length] in Hl. lia.
  - destruct (m_unique U R_esc escaped_tag prev w r (lang_esc U) esc_unique Hw) as (m & Hm & Ht & Ha).
    assert (N1 : match_here U R_tag prev (w ++ r) = None).
    { apply (m_none U R_tag tag prev (w ++ r) (lang_tag U)). apply (none_hd tag 60%N (w ++ r) tag_hd). intros s K. destruct (esc_hd w Hw) as [s' ->]. discriminate K. }
    change o with ([] ++ o). apply sc_match with (m := m); [rewrite sec_split, N1, Hm; reflexivity|reflexivity|]. rewrite Ha. apply IH; [|exact Hr].
    destruct (esc_hd w Hw) as [s ->]. rewrite app_length in Hl. cbn [length] in Hl. lia.
  - destruct (m_unique U (R_ref U) (char_ref (c_digit U)) prev w r (lang_ref U) (ref_unique U) Hw) as (m & Hm & Ht & Ha).
    assert (N1 : match_here U R_tag prev (w ++ r) = None).
    { apply (m_none U R_tag tag prev (w ++ r) (lang_tag U)). apply (none_hd tag 60%N (w ++ r) tag_hd). intros s K. destruct (ref_hd _ w Hw) as [s' ->]. discriminate K. }
    assert (N2 : match_here U R_esc prev (w ++ r) = None) by exact (m_none U R_esc escaped_tag prev (w ++ r) (lang_esc U) Hv).
    change o with ([] ++ o). apply sc_match with (m := m); [rewrite sec_split, N1, N2, Hm; reflexivity|reflexivity|]. rewrite Ha. apply IH; [|exact Hr].
    destruct (ref_hd _ w Hw) as [s ->]. rewrite app_length in Hl. cbn [length] in Hl. lia.
  - assert (A : forall s, c :: r <> 60%N :: s /\ c :: r <> 38%N :: s).
    { intros s. split; intros K; apply (f_equal (@hd_error N)) in K; apply Some_inj in K; subst c; discriminate Hc. }
    apply sc_skip; [|apply IH; [cbn [length] in Hl; lia|exact Hr]]. rewrite sec_split.
    rewrite (m_none U R_tag tag prev (c :: r) (lang_tag U) (none_hd tag 60%N _ tag_hd (fun s => proj1 (A s)))).
    rewrite (m_none U R_esc escaped_tag prev (c :: r) (lang_esc U) (none_hd escaped_tag 38%N _ esc_hd (fun s => proj2 (A s)))).
    rewrite (m_none U (R_ref U) _ prev (c :: r) (lang_ref U) (none_hd _ 38%N _ (ref_hd _) (fun s => proj2 (A s)))).
    cbn [orelse]. rewrite bad_match. unfold c_not. rewrite Hc. reflexivity.
  - assert (A : forall s, c :: r <> 60%N :: s /\ c :: r <> 38%N :: s).
    { intros s. split; intros K; apply (f_equal (@hd_error N)) in K; apply Some_inj in K; contradiction. }
    destruct (bad_run U prev c r Hc) as (m & Hm & Ht & Ha).
    change o with ([] ++ o). apply sc_match with (m := m); [|reflexivity|].
    + rewrite sec_split.
      rewrite (m_none U R_tag tag prev (c :: r) (lang_tag U) (none_hd tag 60%N _ tag_hd (fun s => proj1 (A s)))).
      rewrite (m_none U R_esc escaped_tag prev (c :: r) (lang_esc U) (none_hd escaped_tag 38%N _ esc_hd (fun s => proj2 (A s)))).
      rewrite (m_none U (R_ref U) _ prev (c :: r) (lang_ref U) (none_hd _ 38%N _ (ref_hd _) (fun s => proj2 (A s)))). exact Hm.
    + rewrite Ha. apply IH; [|apply cleaned_run; [exact Hr|exact H3]].
      pose proof (f_equal (@length N) (span_while_app (c_not (c_id U)) r)) as K. rewrite app_length in K. cbn [length] in Hl. lia.
Qed.

(** * The whole *)
Lemma section_id_of U title P :
  exists g, sec_scans U None (to_lowercase U title) g /\
    generate_section_id U title P = Ok (id_of (value_text (attribute_value P (lit "idprefix"))) (value_text (attribute_value P (lit "idseparator"))) g).
Proof.
  destruct (replace_all_pure_ok U (INVALID_SECTION_ID_CHARS U) (fun _ => Ok []) (to_lowercase U title)) as [g Hg].
  { intros pv x m _. exists []. reflexivity. }
  exists g. split; [apply replace_all_pure_scans; [apply sec_never_empty|exact Hg]|].
  unfold generate_section_id. rewrite Hg. cbn [bind]. unfold id_of.
  destruct (value_text (attribute_value P (lit "idseparator"))) as [|c sep]; [reflexivity|]. cbn [firstn].
  rewrite condense_eq by lia. cbn [bind]. rewrite chop_end_eq, breaks_eq.
  destruct (value_text (attribute_value P (lit "idprefix"))) as [|x pre]; [rewrite chop_start_eq|]; reflexivity.
Qed.

(** Shape. *)
Lemma squeeze_no_double c t : contains [c; c] (squeeze c t) = false.
Proof.
  induction t as [|x t IH]; [reflexivity|]. rewrite squeeze_cons. unfold squeeze_step. destruct (x =? c)%N eqn:E.
  - destruct (squeeze c t) as [|y s] eqn:Es.
    + rewrite contains2_cons, starts2, andb_false_r. reflexivity.
    + destruct (y =? c)%N eqn:Ey; [exact IH|]. rewrite contains2_cons, starts2, (N.eqb_sym c y), Ey, andb_false_r. exact IH.
  - rewrite contains2_cons, starts2, (N.eqb_sym c x), E. exact IH.
Qed.
Lemma squeeze_in c t x : In x (squeeze c t) -> In x t.
Proof.
  induction t as [|y t IH]; [tauto|]. rewrite squeeze_cons. unfold squeeze_step. destruct (y =? c)%N.
  - destruct (squeeze c t) as [|z s]; [cbn; tauto|]. destruct (z =? c)%N; [intros H; right; apply IH, H|]. intros [->|H]; [left; reflexivity|right; apply IH, H].
  - intros [->|H]; [left; reflexivity|right; apply IH, H].
Qed.
Lemma chop_end_cases c t : (chop_end c t = t /\ (forall r, t <> r ++ [c])) \/ t = chop_end c t ++ [c].
Proof.
  unfold chop_end. destruct (rev t) as [|x r] eqn:R.
  - left. split; [reflexivity|]. intros r ->. rewrite rev_app_distr in R. discriminate R.
  - destruct (x =? c)%N eqn:E.
    + right. apply N.eqb_eq in E. subst x. rewrite <- (rev_involutive t), R. reflexivity.
    + left. split; [reflexivity|]. intros r' ->. rewrite rev_app_distr in R. injection R as R1 R2. subst x. rewrite N.eqb_refl in E. discriminate E.
Qed.
Lemma chop_start_cases c t : (chop_start c t = t /\ (forall r, t <> c :: r)) \/ t = c :: chop_start c t.
Proof.
  destruct t as [|x r]; [left; split; [reflexivity|discriminate]|]. cbn [chop_start]. destruct (x =? c)%N eqn:E.
  - right. apply N.eqb_eq in E. subst x. reflexivity.
  - left. split; [reflexivity|]. intros r' K. injection K as K1 K2. subst x. rewrite N.eqb_refl in E. discriminate E.
Qed.
Definition no_double (c : char) (t : text) : Prop := ~ exists a b, t = a ++ c :: c :: b.
Lemma squeeze_nd c t : no_double c (squeeze c t).
Proof.
  intros (a & b & E). assert (H : contains [c; c] (squeeze c t) = true) by (apply contains_spec; exists a, b; exact E). rewrite squeeze_no_double in H. discriminate H.
Qed.
Lemma chop_end_shape c t : no_double c t -> no_double c (chop_end c t) /\ (forall r, chop_end c t <> r ++ [c]) /\ (forall x, In x (chop_end c t) -> In x t).
Proof.
  intros H. destruct (chop_end_cases c t) as [[E Hn]|E]; [rewrite E; auto|]. set (s := chop_end c t) in *. clearbody s. subst t. repeat split.
  - intros (a & b & ->). apply H. exists a, (b ++ [c]). rewrite <- app_assoc. reflexivity.
  - intros r ->. apply H. exists r, []. rewrite <- app_assoc. reflexivity.
  - intros x Hx. apply in_or_app. left. exact Hx.
Qed.
Lemma chop_start_shape c t : no_double c t -> (forall r, t <> r ++ [c]) ->
  no_double c (chop_start c t) /\ (forall r, chop_start c t <> c :: r) /\ (forall r, chop_start c t <> r ++ [c]) /\ (forall x, In x (chop_start c t) -> In x t).
Proof.
  intros H He. destruct (chop_start_cases c t) as [[E Hn]|E]; [rewrite E; auto|]. set (s := chop_start c t) in *. clearbody s. subst t. repeat split.
  - intros (a & b & ->). apply H. exists (c :: a), b. reflexivity.
  - intros r ->. apply H. exists [], r. reflexivity.
  - intros r ->. exact (He (c :: r) eq_refl).
  - intros x Hx. right. exact Hx.
Qed.
Lemma breaks_in sep t x : In x (breaks_to sep t) -> In x sep \/ (In x t /\ x <> 32%N /\ x <> 46%N /\ x <> 45%N).
Proof.
  intros H. apply in_flat_map in H. destruct H as (c & Hc & Hx). destruct ((c =? 32)%N || (c =? 46)%N || (c =? 45)%N) eqn:E; [left; exact Hx|].
  destruct Hx as [->|[]]. right. apply orb_false_iff in E. destruct E as [E E3]. apply orb_false_iff in E. destruct E as [E1 E2].
  apply N.eqb_neq in E1, E2, E3. auto.
Qed.
