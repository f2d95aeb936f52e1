(** Lemmas on the document header. *)
From Verif Require Import Text TextFacts Maps Span_Model Span_Pure Span_Proof Span_Laws Parser_Model Regex Regex_Proof Regex_Scan Regex_Lang Regex_Lazy Span_Spec Entry_Spec Parser_Proof
  Subs_Model Subs_Proof Subs_Chars Macro_Proof Attrlist_Model Entry_Model Entry_Proof Group_Model SecId_Proof Header_Model Header_Spec.

(** * Trimming and cutting *)
Lemma trim_bare t : bare t (trim t).
Proof.
  unfold trim, trim_end. destruct (trim_end_by_app is_ws t) as (w & Ht & Hw & Hl).
  set (e := trim_end_by is_ws t) in *. unfold trim_start, trim_start_by.
  pose proof (take_drop_while is_ws e) as Hd. split; [|split].
  - exists (take_while_c is_ws e), w. split; [rewrite app_assoc, Hd; exact Ht|]. split; [apply span_while_all|exact Hw].
  - intros c r E. exact (span_while_stop is_ws e c r E).
  - intros r c E. rewrite E in Hd. apply (Hl (take_while_c is_ws e ++ r)). rewrite <- app_assoc. symmetry. exact Hd.
Qed.
Lemma blank_split a x a' x' : a ++ x = a' ++ x' -> blank a -> blank a' ->
  (forall c r, x = c :: r -> is_ws c = false) -> (forall c r, x' = c :: r -> is_ws c = false) -> (x <> [] -> x' <> [] -> a = a' /\ x = x').
Proof.
  revert a'. induction a as [|c a IH]; intros [|c' a'] E Ha Ha' Hx Hx' Nx Nx'.
  - auto.
  - cbn [app] in E. exfalso. inversion Ha' as [|? ? H1 _]; subst. rewrite (Hx _ _ eq_refl) in H1. discriminate.
  - cbn [app] in E. exfalso. inversion Ha as [|? ? H1 _]; subst. rewrite (Hx' _ _ eq_refl) in H1. discriminate.
  - cbn [app] in E. injection E as -> E. inversion Ha; inversion Ha'; subst. destruct (IH a') as [-> ->]; auto.
Qed.
Lemma blank_rev t : blank t -> blank (rev t).
Proof. intros H. apply Forall_forall. intros c Hc. apply in_rev in Hc. unfold blank in H. rewrite Forall_forall in H. auto. Qed.
Lemma bare_nil t : bare t [] -> blank t.
Proof. intros ((a & b & E & Ha & Hb) & _). cbn [app] in E. subst t. apply Forall_app. auto. Qed.
Lemma blank_bare t x : blank t -> bare t x -> x = [].
Proof.
  intros Ht ((a & b & -> & _) & H & _). apply Forall_app in Ht. destruct Ht as [_ Ht]. apply Forall_app in Ht. destruct Ht as [Ht _].
  destruct x as [|c x]; [reflexivity|]. inversion Ht as [|? ? H1 _]; subst. rewrite (H _ _ eq_refl) in H1. discriminate.
Qed.
Lemma bare_unique t x y : bare t x -> bare t y -> x = y.
Proof.
  intros Hx Hy. destruct x as [|c x]; [symmetry; apply (blank_bare t); [apply bare_nil; exact Hx|exact Hy]|].
  destruct y as [|d y]; [apply (blank_bare t); [apply bare_nil; exact Hy|exact Hx]|].
  destruct Hx as ((a & b & E & Ha & Hb) & H1 & H2). destruct Hy as ((a' & b' & E' & Ha' & Hb') & H1' & H2'). rewrite E in E'.
  apply blank_split in E'; auto.
  - destruct E' as [_ E']. apply (f_equal (@rev N)) in E'. rewrite !rev_app_distr in E'. apply blank_split in E'.
    + destruct E' as [_ E']. apply (f_equal (@rev N)) in E'. rewrite !rev_involutive in E'. exact E'.
    + apply blank_rev, Hb.
    + apply blank_rev, Hb'.
    + intros k r Hk. apply (H2 (rev r)). apply (f_equal (@rev N)) in Hk. rewrite rev_involutive in Hk. exact Hk.
    + intros k r Hk. apply (H2' (rev r)). apply (f_equal (@rev N)) in Hk. rewrite rev_involutive in Hk. exact Hk.
    + intros Hk. apply (f_equal (@rev N)) in Hk. rewrite rev_involutive in Hk. discriminate.
    + intros Hk. apply (f_equal (@rev N)) in Hk. rewrite rev_involutive in Hk. discriminate.
  - intros k r Hk. cbn [app] in Hk. apply (H1 k x). injection Hk as -> _. reflexivity.
  - intros k r Hk. cbn [app] in Hk. apply (H1' k y). injection Hk as -> _. reflexivity.
  - discriminate.
  - discriminate.
Qed.
Lemma bare_trim t x : bare t x <-> x = trim t.
Proof. split; [intros H; exact (bare_unique _ _ _ H (trim_bare t))|intros ->; apply trim_bare]. Qed.

Lemma split_once_cut c t : match split_once c t with Some (a, b) => cut c t a (Some b) | None => ~ In c t end.
Proof.
  induction t as [|x t IH]; [intros []|]. cbn [split_once]. destruct (x =? c)%N eqn:E.
  - apply N.eqb_eq in E. subst x. split; [reflexivity|intros []].
  - apply N.eqb_neq in E. destruct (split_once c t) as [[a b]|].
    + destruct IH as [-> H]. split; [reflexivity|]. intros [H1|H1]; auto.
    + intros [H1|H1]; auto.
Qed.
Lemma cut_split c t l r : cut c t l r -> match r with Some b => split_once c t = Some (l, b) | None => split_once c t = None /\ l = t end.
Proof.
  destruct r as [b|]; intros [E H]; pose proof (split_once_cut c t) as K.
  - destruct (split_once c t) as [[a b']|].
    + destruct K as [K1 K2]. rewrite K1 in E. pose proof (in_cut_unique _ _ _ _ _ E K2 H) as ->. apply app_inv_head in E. injection E as ->. reflexivity.
    + exfalso. apply K. rewrite E. apply in_elt.
  - split; [|auto]. destruct (split_once c t) as [[a b']|]; [|reflexivity]. destruct K as [K1 K2]. exfalso. apply H. rewrite K1. apply in_elt.
Qed.

(** * The revision line *)
Lemma decimal_b c : c_range 48%N 57%N c = true <-> decimal c.
Proof. unfold c_range, decimal. rewrite andb_true_iff, !N.leb_le. reflexivity. Qed.
Lemma number_unique s n m : number_in s n -> number_in s m -> n = m.
Proof.
  intros (p & -> & Fp & Hn) (q & E & Fq & Hm). revert q E Fq. induction p as [|c p IH]; intros [|d q] E Fq.
  - exact E.
  - cbn [app] in E. destruct Hn as [->|(x & r & -> & Hx)]; [discriminate|]. injection E as -> E. inversion Fq; contradiction.
  - cbn [app] in E. destruct Hm as [->|(x & r & -> & Hx)]; [discriminate|]. injection E as -> E. inversion Fp; contradiction.
  - cbn [app] in E. injection E as -> E. inversion Fp; inversion Fq; subst. eauto.
Qed.
Lemma rmatch_many_run {A} U p (k : st -> option A) s w rest x :
  s_rest s = w ++ rest -> Forall (fun c => p c = true) w -> (forall c r, rest = c :: r -> p c = false) -> k (ext s w rest []) = Some x ->
  rmatch U (Many (Chr p)) k s = Some x.
Proof.
  intros E F Hr K. rewrite rmatch_many_chr. assert (L : run_len p (s_rest s) = length w).
  { unfold run_len. rewrite E. clear - F Hr. induction F as [|c w Hc F IH].
    - cbn [app]. destruct rest as [|c r]; [reflexivity|]. cbn [span_while]. rewrite (Hr _ _ eq_refl). reflexivity.
    - cbn [app span_while]. rewrite Hc. destruct (span_while p (w ++ rest)). cbn in *. lia. }
  rewrite L, seq_S, rev_app_distr. cbn [rev app first_some Nat.add]. rewrite jump_ext by (rewrite E, app_length; lia).
  rewrite E, firstn_len, skipn_app, skipn_all, Nat.sub_diag. cbn [app skipn]. rewrite K. reflexivity.
Qed.
Lemma begin_later U r c t : match_here U (Seq (Assert ABegin) r) (Some c) t = None.
Proof. reflexivity. Qed.
Lemma search_begin U r t : search U (Seq (Assert ABegin) r) None t =
  match match_here U (Seq (Assert ABegin) r) None t with Some m => Some ([], m) | None => None end.
Proof.
  assert (K : forall t c, search U (Seq (Assert ABegin) r) (Some c) t = None).
  { clear t. induction t as [|d t IH]; intros c; cbn [search]; rewrite begin_later; [reflexivity|]. rewrite IH. reflexivity. }
  destruct t as [|c t]; cbn [search].
  - destruct (match_here U (Seq (Assert ABegin) r) None []); reflexivity.
  - destruct (match_here U (Seq (Assert ABegin) r) None (c :: t)); [reflexivity|]. rewrite K. reflexivity.
Qed.
Lemma digits_split (p : char -> bool) (s : text) : exists w r, s = w ++ r /\ Forall (fun c => p c = true) w /\ (forall c r', r = c :: r' -> p c = false).
Proof.
  exists (fst (span_while p s)), (snd (span_while p s)). split; [symmetry; apply span_while_app|]. split; [apply span_while_all|].
  intros c r' H. exact (span_while_stop p s c r' H).
Qed.
Lemma rmatch_seq {A} U a b (k : st -> option A) s : rmatch U (Seq a b) k s = rmatch U a (rmatch U b k) s.
Proof. reflexivity. Qed.
Lemma rmatch_grp {A} U n a (k : st -> option A) s : rmatch U (Grp n a) k s = rmatch U a (fun s' => k (set_cap n s s')) s.
Proof. reflexivity. Qed.
Lemma rmatch_alt {A} U a b (k : st -> option A) s : rmatch U (Alt a b) k s = match rmatch U a k s with Some x => Some x | None => rmatch U b k s end.
Proof. reflexivity. Qed.
Lemma strip_number U s : ~ In LF s -> number_in s (strip_non_numeric_prefix U s).
Proof.
  intros Hlf. destruct (digits_split (c_not (c_range 48 57)) s) as (w & n & Es & Fw & Hn).
  assert (M : exists m, match_here U NON_NUMERIC_PREFIX None s = Some m /\ cap m 1 = Some n).
  { unfold match_here, NON_NUMERIC_PREFIX. cbn [Seqs]. rewrite rmatch_seq.
    eexists. split.
    - cbn [rmatch check s_prev]. fold (@rmatch mtch). apply rmatch_many_run with (w := w) (rest := n); [exact Es|exact Fw|exact Hn|].
      apply rmatch_many_run with (w := n) (rest := []); [cbn; rewrite app_nil_r; reflexivity| |discriminate|].
      + apply Forall_forall. intros c Hc. unfold c_dot. apply negb_true_iff, N.eqb_neq. intros ->. apply Hlf. rewrite Es. apply in_or_app. auto.
      + rewrite ext_cap by (cbn; rewrite app_nil_r; reflexivity). cbn [check ext s_rest]. reflexivity.
    - reflexivity. }
  destruct M as (m & M1 & M2). unfold strip_non_numeric_prefix, captures. unfold NON_NUMERIC_PREFIX in *. cbn [Seqs] in *.
  rewrite search_begin, M1. rewrite M2. exists w. split; [exact Es|]. split.
  - eapply Forall_impl; [|exact Fw]. intros c Hc Hd. apply decimal_b in Hd. unfold c_not in Hc. rewrite Hd in Hc. discriminate.
  - destruct n as [|d r]; [left; reflexivity|right]. exists d, r. split; [reflexivity|]. apply decimal_b. specialize (Hn d r eq_refl). unfold c_not in Hn. apply negb_false_iff in Hn. exact Hn.
Qed.
Lemma standalone_b U s : is_match U (STANDALONE_REVISION U) s = true <-> standalone U s.
Proof.
  unfold is_match, STANDALONE_REVISION. cbn [Seqs]. rewrite search_begin.
  assert (D : forall c, c_digit U c = true <-> a_digit U c).
  { intros c. unfold c_digit, a_digit, decimal, is_ascii_digit. destruct (c <? 128)%N eqn:E.
    - apply N.ltb_lt in E. rewrite andb_true_iff, !N.leb_le. split; [intros H; left; lia|]. intros [H|[H _]]; lia.
    - apply N.ltb_ge in E. split; [intros H; right; auto|]. intros [H|[_ H]]; [lia|exact H]. }
  split.
  - intros H. destruct (match_here _ _ None s) as [m|] eqn:M; [|discriminate]. apply match_here_lang in M. destruct M as (E & _ & L).
    apply lang_seq in L. destruct L as (w1 & w2 & c1 & c2 & E2 & _ & L1 & L2). apply lang_assert in L1. destruct L1 as (-> & _).
    apply lang_seq in L2. destruct L2 as (w3 & w4 & c3 & c4 & -> & _ & L3 & L4). apply lang_lit1 in L3. destruct L3 as (-> & _). apply -> lang_chr in L4. destruct L4 as (d & -> & Hd & _).
    exists d, (m_after m). split; [rewrite E, E2; reflexivity|apply D, Hd].
  - intros (d & r & -> & Hd). apply D in Hd.
    destruct (lang_match U (Seq (Assert ABegin) (Seq (Lit1 118%N) (Chr (c_digit U)))) None [118%N; d] r []) as [m M].
    + apply lang_seq. exists [], [118%N; d], [], []. repeat split. exists [118%N], [d], [], []. repeat split; [apply lang_lit1; auto|]. exists d. auto.
    + cbn [app] in M. rewrite M. reflexivity.
Qed.
Lemma trim_no_lf t : ~ In LF t -> ~ In LF (trim t).
Proof. intros H Hi. destruct (trim_bare t) as ((a & b & E & _) & _). apply H. rewrite E. apply in_or_app. right. apply in_or_app. auto. Qed.
Lemma revision_sound U t n d r : ~ In LF t -> revision_parts U t = (n, (d, r)) -> revision U t n d r.
Proof.
  intros Hlf H. unfold revision_parts in H.
  set (lr := match split_once 58%N t with Some (loc, remark) => (loc, Some (trim remark)) | None => (t, None) end) in H.
  assert (C : exists right, cut 58%N t (fst lr) right /\ opt_bare right (snd lr)).
  { clear H. pose proof (split_once_cut 58%N t) as K. unfold lr. clear lr. destruct (split_once 58%N t) as [[a b]|].
    - exists (Some b). split; [exact K|]. apply trim_bare.
    - exists None. split; [|exact I]. split; [reflexivity|exact K]. }
  destruct C as (right & C1 & C2). clearbody lr. assert (Ll : ~ In LF (fst lr)).
  { intros Hi. apply Hlf. destruct right; destruct C1 as [-> _]; [apply in_or_app; auto|exact Hi]. }
  pose proof (split_once_cut COMMA (fst lr)) as K. destruct (split_once COMMA (fst lr)) as [[a b]|].
  - injection H as <- <- <-. eapply rev_dated; [exact C1|exact C2|exact K|apply trim_bare| |apply trim_bare].
    apply strip_number, trim_no_lf. intros Hi. apply Ll. destruct K as [-> _]. apply in_or_app. auto.
  - destruct (is_match U (STANDALONE_REVISION U) (trim (fst lr))) eqn:M; injection H as <- <- <-.
    + eapply rev_version; [exact C1|exact C2|exact K|apply trim_bare|apply standalone_b, M|apply strip_number, trim_no_lf, Ll].
    + eapply rev_date; [exact C1|exact C2|exact K|apply trim_bare|]. intros S. apply standalone_b in S. congruence.
Qed.
Lemma opt_bare_trim o x : opt_bare o x <-> x = option_map trim o.
Proof. destruct o, x; cbn; rewrite ?bare_trim; split; intros H; try congruence; try contradiction; exact I. Qed.
Lemma revision_complete U t n d r : ~ In LF t -> revision U t n d r -> revision_parts U t = (n, (d, r)).
Proof.
  intros Hlf H.
  assert (K : forall left right r, cut 58%N t left right -> opt_bare right r ->
    match split_once 58%N t with Some (loc, remark) => (loc, Some (trim remark)) | None => (t, None) end = (left, r) /\ ~ In LF left).
  { intros left right r0 C O. apply opt_bare_trim in O. subst r0. assert (Hl : ~ In LF left) by (intros Hi; apply Hlf; destruct right; destruct C as [-> _]; [apply in_or_app; auto|exact Hi]).
    apply cut_split in C. destruct right; [rewrite C; auto|]. destruct C as [-> ->]. auto. }
  unfold revision_parts. destruct H as [left right r num date n s d C O Cc Bn Nn Bd|left right r n s C O Nc Bl Sl Nn|left right r s C O Nc Bl Sl];
    destruct (K _ _ _ C O) as [-> Ll]; cbn [fst snd].
  - assert (Ln : ~ In LF s) by (apply bare_trim in Bn; subst s; apply trim_no_lf; intros Hi; apply Ll; destruct Cc as [-> _]; apply in_or_app; auto).
    apply cut_split in Cc. change 44%N with COMMA in Cc. rewrite Cc. apply bare_trim in Bn, Bd. subst. rewrite (number_unique _ _ _ Nn (strip_number U _ Ln)). reflexivity.
  - pose proof (split_once_cut COMMA left) as Kc. destruct (split_once COMMA left) as [[a b]|]; [exfalso; apply Nc; destruct Kc as [-> _]; apply in_elt|].
    apply bare_trim in Bl. subst s. rewrite (proj2 (standalone_b U _) Sl). rewrite (number_unique _ _ _ Nn (strip_number U _ (trim_no_lf _ Ll))). reflexivity.
  - pose proof (split_once_cut COMMA left) as Kc. destruct (split_once COMMA left) as [[a b]|]; [exfalso; apply Nc; destruct Kc as [-> _]; apply in_elt|].
    apply bare_trim in Bl. subst s. destruct (is_match U (STANDALONE_REVISION U) (trim left)) eqn:M; [apply standalone_b in M; contradiction|]. reflexivity.
Qed.
(** The parts in order. *)
Lemma revision_order U t n d r : revision U t n d r ->
  exists a b c e, t = a ++ otext n ++ b ++ d ++ c ++ otext r ++ e /\
    (n <> None -> d <> [] -> exists b1 b2, b = b1 ++ 44%N :: b2 /\ blank b1 /\ blank b2) /\
    (r <> None -> exists c1 c2, c = c1 ++ 58%N :: c2 /\ blank c1 /\ blank c2).
Proof.
  assert (R : forall left right r x y z, cut 58%N t left right -> opt_bare right r -> left = x ++ y ++ z -> blank z ->
    exists c e, t = x ++ y ++ c ++ otext r ++ e /\ (r <> None -> exists c1 c2, c = c1 ++ 58%N :: c2 /\ blank c1 /\ blank c2)).
  { intros left right r0 x y z C O E Bz. destruct right as [rt|], r0 as [r0|]; try contradiction.
    - destruct C as [-> _]. destruct O as ((a & b & -> & Ba & Bb) & _). exists (z ++ 58%N :: a), b. split.
      + rewrite E. cbn [otext]. rewrite <- !app_assoc. cbn [app]. rewrite <- ?app_assoc. reflexivity.
      + intros _. exists z, a. auto.
    - destruct C as [-> _]. exists z, []. split; [rewrite E; cbn [otext]; rewrite !app_nil_r; reflexivity|congruence]. }
  intros [left right r0 num date n0 s d0 C O Cc Bn Nn Bd|left right r0 n0 s C O Nc Bl Sl Nn|left right r0 s C O Nc Bl Sl].
  - destruct Cc as [-> _]. destruct Bn as ((a1 & b1 & -> & Ba1 & Bb1) & _). destruct Bd as ((a2 & b2 & -> & Ba2 & Bb2) & _). destruct Nn as (p & -> & _ & _).
    destruct (R _ _ _ (a1 ++ p ++ n0 ++ b1 ++ 44%N :: a2) d0 b2 C O) as (c & e & E & Hc); [|exact Bb2|].
    + rewrite <- !app_assoc. cbn [app]. rewrite <- ?app_assoc. reflexivity.
    + exists (a1 ++ p), (b1 ++ 44%N :: a2), c, e. split; [rewrite E; cbn [otext]; rewrite <- !app_assoc; cbn [app]; rewrite <- ?app_assoc; reflexivity|]. split; [|exact Hc].
      intros _ _. exists b1, a2. auto.
  - destruct Bl as ((a1 & b1 & -> & Ba1 & Bb1) & _). destruct Nn as (p & -> & _ & _). destruct (R _ _ _ (a1 ++ p) n0 b1 C O) as (c & e & E & Hc); [|exact Bb1|].
    + rewrite <- !app_assoc. reflexivity.
    + exists (a1 ++ p), [], c, e. split; [rewrite E; cbn [otext app]; rewrite <- !app_assoc; reflexivity|]. split; [intros _ H; destruct (H eq_refl)|exact Hc].
  - destruct Bl as ((a1 & b1 & -> & Ba1 & Bb1) & _). destruct (R _ _ _ a1 s b1 C O eq_refl Bb1) as (c & e & E & Hc).
    exists a1, [], c, e. split; [rewrite E; reflexivity|]. split; [intros H; destruct (H eq_refl)|exact Hc].
Qed.

(** * Authors *)
Lemma alnum_c c : is_ascii_alnum c = true <-> (decimal c \/ (65 <= c /\ c <= 90) \/ (97 <= c /\ c <= 122))%N.
Proof. unfold is_ascii_alnum, is_ascii_alpha, is_ascii_digit, is_ascii_upper, is_ascii_lower, decimal. rewrite !orb_true_iff, !andb_true_iff, !N.leb_le. lia. Qed.
Lemma in_punct c l : c_in l c = true <-> In c l.
Proof. unfold c_in. rewrite has_char_spec. reflexivity. Qed.
Lemma c_pl_c U c : (is_ascii_alnum c || (c =? 95)%N || c_pl U c || is_numeric U c) = true <->
  (decimal c \/ (65 <= c /\ c <= 90) \/ (97 <= c /\ c <= 122) \/ c = 95)%N \/ ((128 <= c)%N /\ (u_letter U c = true \/ u_numeric U c = true)).
Proof.
  unfold c_pl, is_numeric. rewrite !orb_true_iff, alnum_c, N.eqb_eq. destruct (c <? 128)%N eqn:E.
  - apply N.ltb_lt in E. unfold is_ascii_alpha, is_ascii_upper, is_ascii_lower, is_ascii_digit. rewrite ?orb_true_iff, ?andb_true_iff, ?N.leb_le. unfold decimal. lia.
  - apply N.ltb_ge in E. unfold decimal. split; [intros [[[H|H]|H]|H]; auto; try lia|]. intros [H|[_ [H|H]]]; auto; try lia.
Qed.
Lemma c_name1_c U c : c_name1 U c = true <-> word_char U c.
Proof. unfold c_name1, word_char. rewrite orb_true_iff, in_punct, c_pl_c. tauto. Qed.
Lemma c_name_c U c : c_name U c = true <-> word_char U c \/ In c (lit "-'.").
Proof.
  unfold c_name, word_char. rewrite orb_true_iff, in_punct, c_pl_c.
  assert (P : In c (lit "-'.&#;") <-> In c (lit "-'.") \/ In c (lit "&#;")) by (change (lit "-'.&#;") with (lit "-'." ++ lit "&#;"); apply in_app_iff).
  rewrite P. tauto.
Qed.
Definition starts_non (p : char -> bool) (t : text) : Prop := forall c r, t = c :: r -> p c = false.
Lemma a_name_b U w : a_name U w <-> exists c r, w = c :: r /\ c_name1 U c = true /\ Forall (fun d => c_name U d = true) r.
Proof.
  split; intros (c & r & E & H1 & H2); exists c, r; (split; [exact E|]); (split; [apply c_name1_c, H1|]);
    (eapply Forall_impl; [|exact H2]); intros d; apply c_name_c.
Qed.
Lemma lang_name U n prev w rest c : lang U (NamePart U n) prev w rest c <-> a_name U w /\ c = [(n, w)].
Proof.
  unfold NamePart. rewrite lang_grp. rewrite a_name_b. split.
  - intros (c0 & -> & L). apply lang_seq in L. destruct L as (w1 & w2 & c1 & c2 & -> & -> & L1 & L2). apply -> lang_chr in L1. destruct L1 as (d & -> & Hd & ->).
    apply lang_many_chr in L2. destruct L2 as (F & ->). split; [|reflexivity]. exists d, w2. auto.
  - intros ((d & r & -> & Hd & F) & ->). exists []. split; [reflexivity|]. apply lang_seq. exists [d], r, [], []. repeat split; [exists d; auto|]. apply lang_many_chr. auto.
Qed.
Lemma gap_b g : gap g <-> exists r, g = SP :: r /\ Forall (fun c => c_is SP c = true) r.
Proof.
  split.
  - intros (H & F). destruct g as [|c r]; [contradiction|]. inversion F; subst. exists r. split; [reflexivity|]. eapply Forall_impl; [|eassumption]. intros a <-. reflexivity.
  - intros (r & -> & F). split; [discriminate|]. constructor; [reflexivity|]. eapply Forall_impl; [|exact F]. intros a H. apply N.eqb_eq in H. auto.
Qed.
Lemma lang_gap U prev w rest c : lang U (Plus (Lit1 SP)) prev w rest c <-> gap w /\ c = [].
Proof.
  unfold Plus. rewrite gap_b. split.
  - intros L. apply lang_seq in L. destruct L as (w1 & w2 & c1 & c2 & -> & -> & L1 & L2). apply lang_lit1 in L1. destruct L1 as (-> & ->). apply lang_many_chr in L2. destruct L2 as (F & ->). split; [|reflexivity]. exists w2. auto.
  - intros ((r & -> & F) & ->). apply lang_seq. exists [SP], r, [], []. repeat split; [apply lang_lit1; auto|]. apply lang_many_chr. auto.
Qed.
Lemma rmatch_name {A} U n (k : st -> option A) s w rest x : s_rest s = w ++ rest -> a_name U w -> starts_non (c_name U) rest ->
  k (ext s w rest [(n, w)]) = Some x -> rmatch U (NamePart U n) k s = Some x.
Proof.
  intros E N R K. apply a_name_b in N. destruct N as (c & r & -> & Hc & F). unfold NamePart. rewrite rmatch_grp, rmatch_seq. cbn [rmatch]. fold (@rmatch A).
  rewrite E. cbn [app]. rewrite Hc. apply rmatch_many_run with (w := r) (rest := rest); [reflexivity|exact F|exact R|].
  rewrite <- K. f_equal. change (advance s c (r ++ rest)) with (mkst (S (s_pos s)) (Some c) (r ++ rest) (s_caps s)).
  assert (X : ext (mkst (S (s_pos s)) (Some c) (r ++ rest) (s_caps s)) r rest [] = ext s (c :: r) rest []).
  { unfold ext. cbn [s_pos s_prev s_caps length]. rewrite (prev_of_cons (s_prev s) c r). f_equal. lia. }
  rewrite X. apply ext_cap. exact E.
Qed.
Lemma rmatch_gap {A} U (k : st -> option A) s w rest x : s_rest s = w ++ rest -> gap w -> starts_non (c_is SP) rest ->
  k (ext s w rest []) = Some x -> rmatch U (Plus (Lit1 SP)) k s = Some x.
Proof.
  intros E N R K. apply gap_b in N. destruct N as (r & -> & F). unfold Plus, Lit1. rewrite rmatch_seq. cbn [rmatch]. fold (@rmatch A).
  rewrite E. cbn [app]. change (c_is SP SP) with true. cbv iota. apply rmatch_many_run with (w := r) (rest := rest); [reflexivity|exact F|exact R|].
  rewrite <- K. f_equal. unfold ext, advance. cbn [s_pos s_prev s_caps length]. rewrite (prev_of_cons (s_prev s) SP r). f_equal. lia.
Qed.
Lemma rmatch_opt_yes {A} U r (k : st -> option A) s x : rmatch U r k s = Some x -> rmatch U (Opt r) k s = Some x.
Proof. intros H. unfold Opt. rewrite rmatch_alt, H. reflexivity. Qed.
Lemma rmatch_opt_no {A} U r (k : st -> option A) s x : (forall w rest c, s_rest s = w ++ rest -> ~ lang U r (s_prev s) w rest c) ->
  k s = Some x -> rmatch U (Opt r) k s = Some x.
Proof.
  intros H K. unfold Opt. rewrite rmatch_alt. destruct (rmatch U r k s) as [y|] eqn:E.
  - apply rmatch_lang in E. destruct E as (w & rest & c & E1 & L & _). destruct (H _ _ _ E1 L).
  - exact K.
Qed.
Lemma name_gap U w rest x y : gap w -> a_name U x -> w ++ x ++ y = rest -> exists g r, rest = SP :: g ++ r /\ Forall (eq SP) g /\ exists c t, r = c :: t /\ c_name1 U c = true.
Proof.
  intros (Hw & F) N <-. destruct w as [|c w]; [contradiction|]. inversion F; subst. exists w, (x ++ y). split; [reflexivity|]. split; [assumption|].
  apply a_name_b in N. destruct N as (d & r & -> & Hd & _). exists d, (r ++ y). auto.
Qed.
Definition EMAIL : re := Seqs [Plus (Lit1 SP); Lit1 60%N; Grp 4 (Plus (Chr (c_not (c_is 62%N)))); Lit1 62%N].
Lemma lang_email U prev w rest c : lang U EMAIL prev w rest c <-> exists e, address w (Some e) /\ c = [(4, e)].
Proof.
  unfold EMAIL. cbn [Seqs]. split.
  - intros L. apply lang_seq in L. destruct L as (w1 & w2 & c1 & c2 & -> & -> & L1 & L2). apply lang_gap in L1. destruct L1 as (G & ->).
    apply lang_seq in L2. destruct L2 as (w3 & w4 & c3 & c4 & -> & -> & L3 & L4). apply lang_lit1 in L3. destruct L3 as (-> & ->).
    apply lang_seq in L4. destruct L4 as (w5 & w6 & c5 & c6 & -> & -> & L5 & L6). apply lang_lit1 in L6. destruct L6 as (-> & ->).
    apply lang_grp in L5. destruct L5 as (c7 & -> & L5). apply lang_seq in L5. destruct L5 as (a & b & ca & cb & -> & -> & La & Lb). apply -> lang_chr in La. destruct La as (d & -> & Hd & ->).
    apply lang_many_chr in Lb. destruct Lb as (F & ->). exists ([d] ++ b). split; [|reflexivity].
    assert (N : ~ In 62%N ([d] ++ b)).
    { intros [H|H]; [subst d; discriminate Hd|]. rewrite Forall_forall in F. specialize (F _ H). discriminate F. }
    constructor; [exact G|discriminate|exact N].
  - intros (e & H & ->). remember (Some e) as o eqn:Eo. destruct H as [|g e' G Ne Nn]; [discriminate|]. injection Eo as ->.
    apply lang_seq. exists g, (lit "<" ++ e ++ lit ">"), [], [(4, e)]. repeat split; [apply lang_gap; auto|].
    apply lang_seq. exists (lit "<"), (e ++ lit ">"), [], [(4, e)]. repeat split; [apply lang_lit1; auto|].
    apply lang_seq. exists e, (lit ">"), [(4, e)], []. repeat split; [|apply lang_lit1; auto].
    apply lang_grp. exists []. split; [reflexivity|]. destruct e as [|d e]; [contradiction|].
    assert (F : Forall (fun c => c_not (c_is 62%N) c = true) (d :: e)).
    { apply Forall_forall. intros c Hc. unfold c_not, c_is. apply negb_true_iff, N.eqb_neq. intros X. subst c. auto. }
    inversion F; subst. apply lang_seq. exists [d], e, [], []. repeat split; [exists d; auto|]. apply lang_many_chr. auto.
Qed.
Lemma rmatch_email {A} U (k : st -> option A) s w rest e x : s_rest s = w ++ rest -> address w (Some e) ->
  k (ext s w rest [(4, e)]) = Some x -> rmatch U EMAIL k s = Some x.
Proof.
  intros E Ad K. remember (Some e) as o eqn:Eo. destruct Ad as [|g e' G Ne Nn]; [discriminate|]. injection Eo as ->.
  unfold EMAIL. cbn [Seqs]. rewrite rmatch_seq. apply rmatch_gap with (w := g) (rest := lit "<" ++ e ++ lit ">" ++ rest); [rewrite E, <- !app_assoc; reflexivity|exact G|intros c r H; injection H as <- _; reflexivity|].
  rewrite rmatch_seq. set (s1 := ext s g _ []). change (rmatch U (Lit1 60%N) ?f s1) with (f (advance s1 60%N (e ++ lit ">" ++ rest))). cbv beta.
  set (s2 := advance s1 60%N (e ++ lit ">" ++ rest)).
  assert (E2 : s2 = ext s (g ++ lit "<") (e ++ lit ">" ++ rest) []).
  { unfold s2, s1, advance, ext. cbn [s_pos s_prev s_caps]. rewrite app_length. cbn [length lit]. f_equal; [cbn; lia|]. unfold prev_of. rewrite rev_app_distr. destruct g; reflexivity. }
  rewrite E2. clear E2 s2 s1. rewrite rmatch_seq, rmatch_grp. unfold Plus. rewrite rmatch_seq.
  set (s2 := ext s (g ++ lit "<") (e ++ lit ">" ++ rest) []).
  destruct e as [|d e]; [contradiction|]. assert (F : Forall (fun c => c_not (c_is 62%N) c = true) (d :: e)).
  { apply Forall_forall. intros c Hc. unfold c_not, c_is. apply negb_true_iff, N.eqb_neq. intros X. subst c. auto. }
  inversion F as [|? ? Hd F']; subst. cbn [rmatch]. fold (@rmatch A). unfold s2 at 1. cbn [ext s_rest app]. rewrite Hd.
  apply rmatch_many_run with (w := e) (rest := lit ">" ++ rest); [reflexivity|exact F'|intros c r H; injection H as <- _; reflexivity|].
  assert (E3 : ext (advance s2 d (e ++ lit ">" ++ rest)) e (lit ">" ++ rest) [] = ext s2 (d :: e) (lit ">" ++ rest) []).
  { unfold ext, advance. cbn [s_pos s_prev s_caps length]. rewrite (prev_of_cons (s_prev s2) d e). f_equal. lia. }
  change (e ++ 62%N :: rest) with (e ++ lit ">" ++ rest). rewrite E3. rewrite ext_cap by reflexivity.
  unfold s2. rewrite ext_ext. set (s3 := ext s _ _ _). change (rmatch U (Lit1 62%N) k s3) with (k (advance s3 62%N rest)). unfold s3. clear s3.
  rewrite <- K. f_equal. unfold advance, ext. cbn [s_pos s_prev s_caps]. f_equal.
  - change (lit "<") with [60%N]. change (lit ">") with [62%N]. rewrite !app_length. cbn [length]. rewrite ?app_length. cbn [length]. lia.
  - change (lit "<") with [60%N]. change (lit ">") with [62%N]. unfold prev_of. change (d :: e) with ([d] ++ e). rewrite !app_assoc.
    destruct ((((g ++ [60%N]) ++ [d]) ++ e) ++ [62%N]) eqn:Y; [destruct (((g ++ [60%N]) ++ [d]) ++ e); discriminate|]. rewrite <- Y, rev_app_distr. reflexivity.
Qed.
Lemma first_nonspace a b (c d : char) t u : Forall (eq SP) a -> Forall (eq SP) b -> c <> SP -> d <> SP -> a ++ c :: t = b ++ d :: u -> c = d.
Proof.
  intros Fa. revert b. induction Fa as [|x a Hx Fa IH]; intros [|y b] Fb Hc Hd E.
  - injection E as -> _. reflexivity.
  - injection E as -> _. inversion Fb; subst. congruence.
  - injection E as <- _. congruence.
  - injection E as _ E. inversion Fb; subst. eauto.
Qed.
Lemma address_head x e (p : char -> bool) : address x e -> p SP = false -> starts_non p x.
Proof. intros [|g e' (Hg & F) _ _] H c r E; [discriminate|]. destruct g as [|y g]; [destruct (Hg eq_refl)|]. inversion F; subst. injection E as <- _. exact H. Qed.
Lemma no_name_in_address U n x e prev w rest c : address x e -> x = w ++ rest -> ~ lang U (Seq (Plus (Lit1 SP)) (NamePart U n)) prev w rest c.
Proof.
  intros Ad E L. apply lang_seq in L. destruct L as (w1 & w2 & c1 & c2 & -> & -> & L1 & L2). apply lang_gap in L1. destruct L1 as (G & _). apply lang_name in L2. destruct L2 as (N & _).
  rewrite <- app_assoc in E. destruct (name_gap U w1 x w2 rest G N (eq_sym E)) as (g & r & Ex & Fg & d & t & -> & Hd).
  assert (Nd : d <> SP /\ d <> 60%N) by (split; intros ->; discriminate Hd).
  destruct Ad as [|h e' (Hh & F) _ _]; [destruct w1; [destruct G; contradiction|discriminate]|].
  assert (d = 60%N); [|tauto]. change (SP :: g ++ d :: t) with ((SP :: g) ++ d :: t) in Ex. change (lit "<" ++ e' ++ lit ">") with (60%N :: e' ++ lit ">") in Ex.
  symmetry. eapply first_nonspace; [exact F| |discriminate| |exact Ex]; [constructor; [reflexivity|exact Fg]|tauto].
Qed.
Definition email_caps (e : option text) : list (nat * text) := match e with Some e => [(4, e)] | None => [] end.
Lemma rmatch_tail {A} U (k : st -> option A) s x e y : s_rest s = x -> address x e -> k (ext s x [] (email_caps e)) = Some y ->
  rmatch U (Seq (Opt EMAIL) (Assert AEnd)) k s = Some y.
Proof.
  intros E Ad K. rewrite rmatch_seq. destruct e as [e|].
  - apply rmatch_opt_yes. apply rmatch_email with (w := x) (rest := []) (e := e); [rewrite app_nil_r; exact E|exact Ad|]. cbn [rmatch check ext s_rest]. exact K.
  - remember None as o eqn:Eo. destruct Ad as [|]; [|discriminate]. apply rmatch_opt_no.
    + intros w rest c Ew L. rewrite E in Ew. symmetry in Ew. apply app_eq_nil in Ew. destruct Ew as [-> _]. apply lang_email in L. destruct L as (e & H & _). remember [] as z eqn:Ez. remember (Some e) as oe eqn:Eoe. destruct H as [|g e' (Hg & _) _ _]; [discriminate|]. destruct g; [contradiction|discriminate].
    + cbn [rmatch check]. rewrite E. unfold ext in K. cbn in K. rewrite Nat.add_0_r in K. destruct s as [p pv r c]. cbn in *. subst r. exact K.
Qed.
Lemma AUTHOR_eq U : AUTHOR U = Seq (Assert ABegin) (Seq (NamePart U 1) (Seq (Opt (Seq (Plus (Lit1 SP)) (NamePart U 2)))
  (Seq (Opt (Seq (Plus (Lit1 SP)) (NamePart U 3))) (Seq (Opt EMAIL) (Assert AEnd))))).
Proof. reflexivity. Qed.
Definition name_caps (f : text) (m l : option text) : list (nat * text) :=
  match m, l with
  | Some m, Some l => [(3, l); (2, m); (1, f)]
  | None, Some l => [(2, l); (1, f)]
  | _, _ => [(1, f)]
  end.
Lemma name_starts U w rest (p : char -> bool) : a_name U w -> (forall c, c_name1 U c = true -> p c = false) -> starts_non p (w ++ rest).
Proof. intros N H c r E. apply a_name_b in N. destruct N as (d & w' & -> & Hd & _). injection E as <- _. apply H, Hd. Qed.
Lemma gap_starts w rest (p : char -> bool) : gap w -> p SP = false -> starts_non p (w ++ rest).
Proof. intros (Hw & F) H c r E. destruct w as [|d w]; [contradiction|]. inversion F; subst. injection E as <- _. exact H. Qed.
Lemma name1_not_sp U c : c_name1 U c = true -> c_is SP c = false.
Proof. intros H. unfold c_is. apply N.eqb_neq. intros <-. discriminate H. Qed.
Lemma author_match U t full f m l e : author_text U t full f m l e ->
  exists mt, match_here U (AUTHOR U) None t = Some mt /\ m_caps mt = email_caps e ++ name_caps f m l.
Proof.
  intros H. unfold match_here. set (k := fun s' => Some _). rewrite AUTHOR_eq, rmatch_seq. set (s0 := mkst 0 None t []).
  assert (S0 : forall B (kk : st -> option B), rmatch U (Assert ABegin) kk s0 = kk s0) by reflexivity. rewrite S0. clear S0.
  assert (S1 : s_rest s0 = t) by reflexivity.
  assert (C0 : s_caps s0 = []) by reflexivity. clearbody s0.
  destruct H as [f x e Nf Ad|f g l x e Nf Gg Nl Ad|f g m h l x e Nf Gg Nm Gh Nl Ad].
  - eexists. split.
    + rewrite rmatch_seq. apply rmatch_name with (w := f) (rest := x); [exact S1|exact Nf|apply address_head with (e := e); [exact Ad|reflexivity]|].
      rewrite rmatch_seq. apply rmatch_opt_no; [intros w rest c Ew; apply no_name_in_address with (x := x) (e := e); [exact Ad|exact Ew]|].
      rewrite rmatch_seq. apply rmatch_opt_no; [intros w rest c Ew; apply no_name_in_address with (x := x) (e := e); [exact Ad|exact Ew]|].
      apply rmatch_tail with (x := x) (e := e); [reflexivity|exact Ad|]. rewrite ext_ext. unfold k. reflexivity.
    + cbn [m_caps ext s_caps]. rewrite C0, <- ?app_assoc, ?app_nil_r. reflexivity.
  - eexists. split.
    + rewrite rmatch_seq. apply rmatch_name with (w := f) (rest := g ++ l ++ x); [exact S1|exact Nf|apply gap_starts; [exact Gg|reflexivity]|].
      rewrite rmatch_seq. apply rmatch_opt_yes. rewrite rmatch_seq.
      apply rmatch_gap with (w := g) (rest := l ++ x); [reflexivity|exact Gg|eapply name_starts; [exact Nl|apply name1_not_sp]|].
      apply rmatch_name with (w := l) (rest := x); [reflexivity|exact Nl|apply address_head with (e := e); [exact Ad|reflexivity]|].
      rewrite rmatch_seq. apply rmatch_opt_no; [intros w rest c Ew; apply no_name_in_address with (x := x) (e := e); [exact Ad|exact Ew]|].
      apply rmatch_tail with (x := x) (e := e); [reflexivity|exact Ad|]. rewrite !ext_ext. unfold k. reflexivity.
    + cbn [m_caps ext s_caps]. rewrite C0, <- ?app_assoc, ?app_nil_r. reflexivity.
  - eexists. split.
    + rewrite rmatch_seq. apply rmatch_name with (w := f) (rest := g ++ m ++ h ++ l ++ x); [exact S1|exact Nf|apply gap_starts; [exact Gg|reflexivity]|].
      rewrite rmatch_seq. apply rmatch_opt_yes. rewrite rmatch_seq.
      apply rmatch_gap with (w := g) (rest := m ++ h ++ l ++ x); [reflexivity|exact Gg|eapply name_starts; [exact Nm|apply name1_not_sp]|].
      apply rmatch_name with (w := m) (rest := h ++ l ++ x); [reflexivity|exact Nm|apply gap_starts; [exact Gh|reflexivity]|].
      rewrite rmatch_seq. apply rmatch_opt_yes. rewrite rmatch_seq.
      apply rmatch_gap with (w := h) (rest := l ++ x); [reflexivity|exact Gh|eapply name_starts; [exact Nl|apply name1_not_sp]|].
      apply rmatch_name with (w := l) (rest := x); [reflexivity|exact Nl|apply address_head with (e := e); [exact Ad|reflexivity]|].
      apply rmatch_tail with (x := x) (e := e); [reflexivity|exact Ad|]. rewrite !ext_ext. unfold k. reflexivity.
    + cbn [m_caps ext s_caps]. rewrite C0, <- ?app_assoc, ?app_nil_r. reflexivity.
Qed.
Lemma author_match_inv U t mt : match_here U (AUTHOR U) None t = Some mt -> exists full f m l e, author_text U t full f m l e.
Proof.
  intros H. apply match_here_lang in H. destruct H as (Et & _ & L). rewrite AUTHOR_eq in L.
  apply lang_seq in L. destruct L as (w0 & w1 & c0 & c1 & E0 & _ & L0 & L). apply lang_assert in L0. destruct L0 as (-> & _). cbn [app] in E0.
  apply lang_seq in L. destruct L as (f & w2 & c2 & c3 & E1 & _ & L1 & L). apply lang_name in L1. destruct L1 as (Nf & _).
  apply lang_seq in L. destruct L as (o2 & w3 & c4 & c5 & E2 & _ & L2 & L). apply lang_seq in L. destruct L as (o3 & w4 & c6 & c7 & E3 & _ & L3 & L).
  apply lang_seq in L. destruct L as (o4 & w5 & c8 & c9 & E4 & _ & L4 & L). apply lang_assert in L. destruct L as (-> & _ & Hend).
  assert (Er : m_after mt = []) by (unfold at_check, check in Hend; cbn in Hend; destruct (m_after mt); [reflexivity|discriminate]).
  assert (Et' : t = f ++ o2 ++ o3 ++ o4) by (rewrite Et, Er, E0, E1, E2, E3, E4, !app_nil_r; reflexivity).
  assert (A4 : exists e, address o4 e).
  { unfold Opt in L4. apply lang_alt in L4. destruct L4 as [L4|L4]; [apply lang_email in L4; destruct L4 as (e & Ad & _); eauto|]. destruct L4 as (-> & _). exists None. constructor. }
  destruct A4 as (e & Ad).
  assert (N : forall n o pv r c, lang U (Opt (Seq (Plus (Lit1 SP)) (NamePart U n))) pv o r c -> o = [] \/ exists g w, o = g ++ w /\ gap g /\ a_name U w).
  { intros n o pv r c L0. unfold Opt in L0. apply lang_alt in L0. destruct L0 as [L0|L0]; [right|left; destruct L0 as (E & _); exact E].
    apply lang_seq in L0. destruct L0 as (g & w & ? & ? & -> & _ & G & W). apply lang_gap in G. apply lang_name in W. exists g, w. tauto. }
  apply N in L2, L3. rewrite Et'. destruct L2 as [->|(g & w & -> & G & W)], L3 as [->|(h & v & -> & G' & W')]; cbn [app]; rewrite <- ?app_assoc.
  - do 5 eexists. apply at_one; eassumption.
  - do 5 eexists. apply at_two; eassumption.
  - do 5 eexists. apply at_two; eassumption.
  - do 5 eexists. apply at_three; eassumption.
Qed.
Lemma search_author U t : captures U (AUTHOR U) t = match_here U (AUTHOR U) None t.
Proof. unfold captures. rewrite AUTHOR_eq, search_begin. destruct (match_here U _ None t); reflexivity. Qed.
Lemma author_captures U t full f m l e : author_text U t full f m l e ->
  exists mt, captures U (AUTHOR U) t = Some mt /\ cap mt 1 = Some f /\ cap mt 4 = e /\
    (cap mt 2, cap mt 3) = match m, l with Some m, Some l => (Some m, Some l) | None, Some l => (Some l, None) | _, _ => (None, None) end.
Proof.
  intros H. pose proof H as H0. destruct (author_match _ _ _ _ _ _ _ H) as (mt & M & C). exists mt. rewrite search_author. split; [exact M|]. unfold cap. rewrite C. clear M C H0.
  destruct H as [f x e Nf Ad|f g l x e Nf Gg Nl Ad|f g m h l x e Nf Gg Nm Gh Nl Ad]; destruct e; cbn; auto.
Qed.
Lemma replace_underscores_eq t : replace_underscores t = spaced t.
Proof. unfold replace_underscores, replace_char, spaced. induction t as [|c t IH]; [reflexivity|]. cbn. rewrite IH. change UND with 95%N. destruct (c =? 95)%N; reflexivity. Qed.
Lemma no_refs U P t : ~ In 123%N t -> apply_attributes U P t = Ok t.
Proof. intros H. apply apply_attributes_iff, expands_no_brace, has_char_false, H. Qed.
Lemma count_zero c t : ~ In c t -> count_char c t = 0.
Proof. intros H. unfold count_char. induction t as [|x t IH]; [reflexivity|]. cbn. destruct (c =? x)%N eqn:E; [apply N.eqb_eq in E; subst; cbn in H; tauto|]. apply IH. cbn in H. tauto. Qed.
Lemma author_subs_plain U P t : ~ In 123%N t -> apply_author_subs U P t = Ok t.
Proof. intros H. unfold apply_author_subs. rewrite no_refs by exact H. cbn [bind]. rewrite (count_zero _ _ H). rewrite andb_false_r. reflexivity. Qed.
Lemma not_single t : ~ In 123%N t -> is_single_attribute t = false.
Proof. intros H. unfold is_single_attribute. rewrite (count_zero _ _ H). apply andb_false_r. Qed.
Lemma name_chars U w c : a_name U w -> In c w -> word_char U c \/ In c (lit "-'.").
Proof. intros (d & r & -> & Hd & F) [<-|H]; [auto|]. rewrite Forall_forall in F. auto. Qed.
Lemma name_not U w c : a_name U w -> c_name U c = false -> ~ In c w.
Proof. intros N H Hi. apply name_chars with (U := U) in Hi; [|exact N]. apply c_name_c in Hi. congruence. Qed.
Lemma name_last_ws U w r c : spaces_apart U -> a_name U w -> w = r ++ [c] -> is_ws c = false.
Proof.
  intros S N E. destruct (is_ws c) eqn:W; [|reflexivity]. exfalso. assert (H : In c w) by (rewrite E; apply in_or_app; right; left; reflexivity).
  apply name_chars with (U := U) in H; [|exact N]. destruct (S c W) as [S1 S2].
  destruct H as [[H|(_ & [H|H])]|H]; [|congruence|congruence|cbn in H; destruct H as [<-|[<-|[<-|[]]]]; discriminate W].
  assert (Hc : (c < 128)%N /\ (32 < c)%N). { destruct H as [H|[H|[H|[H|H]]]]; [unfold decimal in H; lia|lia|lia|lia|]. cbn in H. destruct H as [<-|[<-|[<-|[]]]]; lia. }
  unfold is_ws in W. rewrite !orb_true_iff, !andb_true_iff, !N.leb_le, !N.eqb_eq in W. lia.
Qed.
Lemma name_first_ws U w rest c r : spaces_apart U -> a_name U w -> w ++ rest = c :: r -> is_ws c = false.
Proof.
  intros S (d & w' & -> & Hd & _) E. injection E as <- _. apply (name_last_ws U [d] [] d S); [|reflexivity]. exists d, []. auto.
Qed.
Lemma gap_blank g : gap g -> blank g.
Proof. intros (_ & F). eapply Forall_impl; [|exact F]. intros c <-. reflexivity. Qed.
Lemma author_full U t full f m l e : spaces_apart U -> author_text U t full f m l e -> before_email t = full.
Proof.
  intros Sp H.
  assert (K : forall fl x e, address x e -> ~ In 60%N fl -> (forall c r, fl = c :: r -> is_ws c = false) -> (forall r c, fl = r ++ [c] -> is_ws c = false) -> before_email (fl ++ x) = fl).
  { intros fl x e0 Ad N H1 H2. unfold before_email. destruct Ad as [|g e' G Ne Nn].
    - rewrite app_nil_r. pose proof (split_once_cut 60%N fl) as C. destruct (split_once 60%N fl) as [[a b]|]; [exfalso; apply N; destruct C as [-> _]; apply in_elt|].
      symmetry. apply bare_trim. split; [exists [], []; rewrite app_nil_r; repeat split; constructor|auto].
    - assert (C : cut 60%N (fl ++ g ++ lit "<" ++ e' ++ lit ">") (fl ++ g) (Some (e' ++ lit ">"))).
      { split; [rewrite <- app_assoc; reflexivity|]. intros Hi. apply in_app_or in Hi. destruct Hi as [Hi|Hi]; [auto|]. destruct G as (_ & F). rewrite Forall_forall in F. apply F in Hi. discriminate Hi. }
      apply cut_split in C. rewrite C. symmetry. apply bare_trim. split; [exists [], g; repeat split; [constructor|apply gap_blank, G]|auto]. }
  assert (NL : forall w, a_name U w -> ~ In 60%N w) by (intros w N; apply name_not with (U := U); [exact N|reflexivity]).
  assert (GL : forall g, gap g -> ~ In 60%N g) by (intros g (_ & F) Hi; rewrite Forall_forall in F; apply F in Hi; discriminate Hi).
  assert (LW : forall a w r c, a_name U w -> a ++ w = r ++ [c] -> is_ws c = false).
  { intros a w r c N E. destruct (rev_cons_inv w) as [->|(w' & y & ->)]; [destruct N as (? & ? & ? & _); discriminate|]. rewrite app_assoc in E. apply app_last_eq in E. destruct E as [_ ->]. exact (name_last_ws U _ _ _ Sp N eq_refl). }
  destruct H as [f x e Nf Ad|f g l x e Nf Gg Nl Ad|f g m h l x e Nf Gg Nm Gh Nl Ad].
  - eapply K; [exact Ad|apply NL, Nf| |].
    + intros c r E. apply (name_first_ws U f [] c r Sp Nf). rewrite app_nil_r. exact E.
    + intros r c E. apply (LW [] f r c Nf E).
  - replace (f ++ g ++ l ++ x) with ((f ++ g ++ l) ++ x) by (rewrite <- !app_assoc; reflexivity). eapply K; [exact Ad| | |].
    + rewrite !in_app_iff. intros [X|[X|X]]; revert X; [apply NL, Nf|apply GL, Gg|apply NL, Nl].
    + intros c r E. exact (name_first_ws U f _ c r Sp Nf E).
    + intros r c E. apply (LW (f ++ g) l r c Nl). rewrite <- app_assoc. exact E.
  - replace (f ++ g ++ m ++ h ++ l ++ x) with ((f ++ g ++ m ++ h ++ l) ++ x) by (rewrite <- !app_assoc; reflexivity). eapply K; [exact Ad| | |].
    + rewrite !in_app_iff. intros [X|[X|[X|[X|X]]]]; revert X; [apply NL, Nf|apply GL, Gg|apply NL, Nm|apply GL, Gh|apply NL, Nl].
    + intros c r E. exact (name_first_ws U f _ c r Sp Nf E).
    + intros r c E. apply (LW (f ++ g ++ m ++ h) l r c Nl). rewrite <- !app_assoc. exact E.
Qed.
Lemma author_parts_in U t full f m l e : author_text U t full f m l e -> forall x, x = f \/ m = Some x \/ l = Some x \/ e = Some x -> forall c, In c x -> In c t.
Proof.
  assert (K : forall x e, address x e -> forall y, e = Some y -> forall c, In c y -> In c x).
  { intros x e0 [|g e' _ _ _] y Ey c Hc; [discriminate|]. injection Ey as ->. rewrite !in_app_iff. auto. }
  intros H y Hy c Hc. destruct H as [f x e Nf Ad|f g l x e Nf Gg Nl Ad|f g m h l x e Nf Gg Nm Gh Nl Ad]; rewrite !in_app_iff;
    (destruct Hy as [->|[Hy|[Hy|Hy]]]; [auto 10|try (injection Hy as ->); auto 10; try discriminate Hy|try (injection Hy as ->); auto 10; try discriminate Hy|]); pose proof (K _ _ Ad _ Hy _ Hc); auto 10.
Qed.
Lemma author_nonempty U t full f m l e : author_text U t full f m l e -> t <> [].
Proof.
  intros H E. destruct H as [f x e Nf Ad|f g l x e Nf Gg Nl Ad|f g m h l x e Nf Gg Nm Gh Nl Ad]; destruct Nf as (c & r & -> & _); discriminate E.
Qed.
Lemma author_parse_form U P t s full f m l e : spaces_apart U -> bare t s -> ~ In 123%N s -> author_text U s full f m l e ->
  author_parse U t P = Ok (Some (mkauthor (spaced full) (spaced f) (option_map spaced m) (option_map spaced l) e)).
Proof.
  intros Sp B Nb H. apply bare_trim in B. unfold author_parse. rewrite <- B. destruct s as [|c0 s0] eqn:Es.
  { destruct (author_nonempty _ _ _ _ _ _ _ H eq_refl). }
  rewrite <- Es in *. clear Es c0 s0 B. rewrite (not_single _ Nb). destruct (author_captures _ _ _ _ _ _ _ H) as (mt & -> & C1 & C4 & C23).
  pose proof (author_parts_in _ _ _ _ _ _ _ H) as PI. unfold cap_idx. rewrite C1. cbn [of_option bind].
  rewrite author_subs_plain by (intros Hi; apply Nb; eapply PI; [left; reflexivity|exact Hi]). cbn [bind].
  assert (SO : forall o x, (o = None \/ o = m \/ o = l \/ o = e) -> x = o -> subs_author_opt U P x = Ok o).
  { intros o x Ho ->. destruct o as [y|]; [|reflexivity]. cbn [subs_author_opt]. rewrite author_subs_plain; [reflexivity|]. intros Hi. apply Nb. eapply PI; [|exact Hi].
    destruct Ho as [Ho|[Ho|[Ho|Ho]]]; [discriminate|auto..]. }
  rewrite (author_full U _ _ _ _ _ _ Sp H). rewrite !replace_underscores_eq.
  assert (RU : forall o, option_map replace_underscores o = option_map spaced o) by (intros [o|]; cbn; rewrite ?replace_underscores_eq; reflexivity).
  rewrite (SO e (cap mt 4)) by auto. destruct m as [m|], l as [l|]; injection C23 as C2 C3.
  - rewrite (SO (Some m) (cap mt 2)), (SO (Some l) (cap mt 3)) by auto. cbn [bind]. rewrite !RU. reflexivity.
  - exfalso. remember (Some m) as om eqn:Em. remember None as ol eqn:El. destruct H; discriminate.
  - rewrite (SO (Some l) (cap mt 2)), (SO None (cap mt 3)) by auto. cbn [bind]. rewrite !RU. reflexivity.
  - rewrite (SO None (cap mt 2)), (SO None (cap mt 3)) by auto. cbn [bind]. rewrite !RU. reflexivity.
Qed.
Lemma author_parse_other U P t s : bare t s -> s <> [] -> ~ In 123%N s -> (forall full f m l e, ~ author_text U s full f m l e) ->
  exists n, author_parse U t P = Ok (Some (mkauthor n n None None None)) /\
    n = spaced (if has_char 60%N s && has_char 62%N s then flat_map entity s else s).
Proof.
  intros B Ns Nb H. apply bare_trim in B. unfold author_parse. rewrite <- B. destruct s as [|c0 s0] eqn:Es; [contradiction|]. rewrite <- Es in *. clear Es c0 s0 B.
  rewrite (not_single _ Nb). destruct (captures U (AUTHOR U) s) as [mt|] eqn:C.
  - rewrite search_author in C. destruct (author_match_inv U s mt C) as (full & f & m & l & e & X). destruct (H _ _ _ _ _ X).
  - rewrite (proj2 (has_char_false 123%N s) Nb). unfold encode_brackets. destruct (has_char 60%N s && has_char 62%N s).
    + rewrite apply_special_characters_eq. cbn [bind]. unfold single_name. rewrite replace_underscores_eq. eexists. split; reflexivity.
    + cbn [bind]. unfold single_name. rewrite replace_underscores_eq. eexists. split; reflexivity.
Qed.
Lemma author_subs_total U P t : exists o, apply_author_subs U P t = Ok o.
Proof.
  unfold apply_author_subs. destruct (apply_attributes_total U P t) as (o & ->). cbn [bind].
  destruct (negb _ && _ && _); [rewrite apply_special_characters_eq|]; eauto.
Qed.
Lemma author_subs_opt_total U P t : exists o, subs_author_opt U P t = Ok o.
Proof. destruct t as [t|]; [|eexists; reflexivity]. cbn. destruct (author_subs_total U P t) as (o & ->). eexists; reflexivity. Qed.
Lemma author_parse_total U P t : exists o, author_parse U t P = Ok o.
Proof.
  unfold author_parse. destruct (trim t) as [|c0 s0] eqn:Et; [eauto|]. rewrite <- Et. set (s := trim t). clearbody s. clear Et c0 s0.
  assert (C1 : forall x mt, captures U (AUTHOR U) x = Some mt -> exists f, cap mt 1 = Some f).
  { intros x mt M. pose proof M as M0. rewrite search_author in M. destruct (author_match_inv U x mt M) as (full & f & m & l & e & X). destruct (author_captures _ _ _ _ _ _ _ X) as (mt' & M' & Q & _).
    rewrite M0 in M'. injection M' as <-. eauto. }
  assert (EB : forall x, exists o, encode_brackets U x = Ok o) by (intros x; unfold encode_brackets; destruct (_ && _); [rewrite apply_special_characters_eq|]; eauto).
  destruct (is_single_attribute s); [destruct (author_subs_total U P s) as (o & ->); cbn; eauto|].
  destruct (captures U (AUTHOR U) s) as [mt|] eqn:M.
  - destruct (C1 _ _ M) as (f & E1). unfold cap_idx. rewrite E1. cbn [of_option bind]. destruct (author_subs_total U P f) as (o & ->). cbn [bind].
    destruct (author_subs_opt_total U P (cap mt 2)) as (o2 & ->). cbn [bind]. destruct (author_subs_opt_total U P (cap mt 3)) as (o3 & ->). cbn [bind].
    destruct (author_subs_opt_total U P (cap mt 4)) as (o4 & ->). cbn [bind]. eauto.
  - destruct (has_char 123%N s).
    + destruct (author_subs_total U P s) as (o & ->). cbn [bind]. destruct (captures U (AUTHOR U) o) as [mt|] eqn:M2.
      * destruct (C1 _ _ M2) as (f & E1). unfold cap_idx. rewrite E1. cbn [of_option bind]. eauto.
      * destruct (EB o) as (n & ->). cbn [bind]. eauto.
    + destruct (EB s) as (n & ->). cbn [bind]. eauto.
Qed.
(** * The author line *)
Lemma split_str_pieces : forall t, pieces_of t (split_str (lit "; ") t).
Proof.
  change (lit "; ") with [59%N; 32%N].
  assert (K : forall n t, length t <= n -> pieces_of t (split_str [59%N; 32%N] t)).
  { induction n as [|n IH]; intros t L.
    - destruct t; [|cbn in L; lia]. cbn. apply po_last. intros [|? ?] b E; discriminate.
    - destruct t as [|c t]; [apply po_last; intros [|? ?] b E; discriminate|]. cbn [length] in L.
      destruct (starts_with [59%N; 32%N] (c :: t)) eqn:S.
      + apply starts_with_spec in S. destruct S as (r & E). cbn [app] in E. injection E as -> ->. unfold split_str. cbn. change (pieces_of ([] ++ lit "; " ++ r) ([] :: split_str [59%N; 32%N] r)).
        apply po_cut; [|apply IH; cbn in L; lia]. intros [|x [|y u]] z E; discriminate.
      + assert (N : forall r, c :: t <> lit "; " ++ r) by (intros r E; assert (starts_with [59%N; 32%N] (c :: t) = true) by (apply starts_with_spec; exists r; exact E); congruence).
        unfold split_str. cbn [split_str_go]. rewrite S. cbn [fst snd]. specialize (IH t ltac:(lia)). unfold split_str in IH.
        set (q := split_str_go [59%N; 32%N] 0 t) in *. clearbody q. destruct q as [a l]. cbn [fst snd] in *. remember (a :: l) as al eqn:Eal. destruct IH as [t Ht|a0 b l0 Ha Hb].
        * injection Eal as <- <-. apply po_last. intros x y E. destruct x as [|d x]; [exact (N _ E)|]. injection E as -> E. exact (Ht _ _ E).
        * injection Eal as -> ->. change (c :: a ++ lit "; " ++ b) with ((c :: a) ++ lit "; " ++ b). apply po_cut; [|exact Hb].
          intros x y E. destruct x as [|d x]; [|injection E as -> E; exact (Ha _ _ E)]. cbn [app] in E. change (lit "; " ++ y) with (59%N :: 32%N :: y) in E. injection E as -> E. apply (N (match a with [] => b | _ :: a' => a' ++ lit "; " ++ b end)). destruct a as [|d a]; [discriminate E|]. cbn [app] in E. injection E as -> E. reflexivity. }
  intros t. apply (K (length t)). lia.
Qed.
Lemma pieces_unique t l : pieces_of t l -> forall l', pieces_of t l' -> l = l'.
Proof.
  induction 1 as [t Ht|a b l Ha Hb IH]; intros l' H'.
  - destruct H' as [|a b l' _ _]; [reflexivity|]. destruct (Ht a b eq_refl).
  - remember (a ++ lit "; " ++ b) as t eqn:Et. destruct H' as [t Ht|a' b' l' Ha' Hb']; [destruct (Ht a b Et)|].
    assert (Eq : a = a' /\ b = b').
    { clear - Et Ha Ha'. revert a' Et Ha'. induction a as [|x a IH]; intros [|y a'] Et Ha'.
      - change (lit "; " ++ b') with (59%N :: 32%N :: b') in Et. injection Et as ->. auto.
      - exfalso. cbn [app] in Et. change (lit "; " ++ b) with (59%N :: 32%N :: b) in Et. injection Et as -> Et. destruct a' as [|z a']; [discriminate Et|]. cbn [app] in Et. injection Et as -> Et. apply (Ha' [] (a' ++ lit ";")). reflexivity.
      - exfalso. cbn [app] in Et. change (lit "; " ++ b') with (59%N :: 32%N :: b') in Et. injection Et as <- Et. destruct a as [|z a]; [discriminate Et|]. cbn [app] in Et. injection Et as <- Et. apply (Ha [] (a ++ lit ";")). reflexivity.
      - cbn [app] in Et. injection Et as Exy Et. destruct (IH) with (a' := a') as [-> ->]; auto; [| |subst; auto].
        + intros u v E. apply (Ha (x :: u) v). cbn [app]. rewrite E. reflexivity.
        + intros u v E. apply (Ha' (y :: u) v). cbn [app]. rewrite E. reflexivity. }
    destruct Eq as [-> ->]. f_equal. apply IH, Hb'.
Qed.
Lemma parse_authors_total U P l : exists o, parse_authors U P l = Ok o.
Proof. induction l as [|t l (o & IH)]; [eexists; reflexivity|]. cbn [parse_authors]. destruct (author_parse_total U P t) as (a & ->). cbn [bind]. rewrite IH. cbn [bind]. eauto. Qed.

Definition author_bases : list text := [lit "author"; lit "authorinitials"; lit "firstname"; lit "middlename"; lit "lastname"; lit "email"].
Lemma nth_name_eq base i : match i with 0 => base | _ => base ++ [UND] ++ show_nat (i + 1) end = nth_name base i.
Proof. destruct i; [reflexivity|]. cbn [nth_name]. rewrite Nat.add_1_r. reflexivity. Qed.
Lemma lower_ascii U t : Forall (fun c => (c < 128)%N /\ is_ascii_upper c = false) t -> to_lowercase U t = t.
Proof.
  unfold to_lowercase. induction 1 as [|c t (H1 & H2) _ IH]; [reflexivity|]. cbn [flat_map]. rewrite IH. unfold lower_c. apply N.ltb_lt in H1. rewrite H2, H1. reflexivity.
Qed.
Lemma digit_low c : is_ascii_digit c = true -> (c < 128)%N /\ is_ascii_upper c = false.
Proof. unfold is_ascii_digit, is_ascii_upper. rewrite andb_true_iff, !N.leb_le. intros H. split; [lia|]. apply andb_false_iff. left. apply N.leb_gt. lia. Qed.
Lemma base_low b : In b author_bases -> Forall (fun c => (c < 128)%N /\ is_ascii_upper c = false) b /\ ~ In UND b.
Proof.
  intros H. assert (K : forallb (fun b => forallb (fun c => (c <? 128)%N && negb (is_ascii_upper c) && negb (c =? UND)%N) b) author_bases = true) by reflexivity.
  rewrite forallb_forall in K. specialize (K _ H). rewrite forallb_forall in K. split.
  - apply Forall_forall. intros c Hc. specialize (K _ Hc). rewrite !andb_true_iff, !negb_true_iff, N.ltb_lt in K. tauto.
  - intros Hc. specialize (K _ Hc). rewrite !andb_true_iff, !negb_true_iff in K. destruct K as [_ K]. discriminate K.
Qed.
Lemma remap_nth U b i : In b author_bases -> remap_attr_name U (nth_name b i) = nth_name b i.
Proof.
  intros H. unfold remap_attr_name. destruct (base_low b H) as [F _].
  assert (L : to_lowercase U (nth_name b i) = nth_name b i).
  { apply lower_ascii. destruct i; [exact F|]. cbn [nth_name]. apply Forall_app. split; [exact F|]. constructor; [split; reflexivity|].
    cbn [app]. eapply Forall_impl; [|apply show_nat_digits]. intros c. apply digit_low. }
  rewrite L. destruct (text_eqb_spec (nth_name b i) (lit "hardbreaks")) as [E|]; [exfalso|reflexivity].
  destruct i; cbn [nth_name] in E.
  - cbn [author_bases In] in H. destruct H as [H|[H|[H|[H|[H|[H|[]]]]]]]; rewrite <- H in E; discriminate E.
  - assert (In UND (lit "hardbreaks")) by (rewrite <- E; apply in_or_app; right; left; reflexivity). vm_compute in H0. repeat (destruct H0 as [H0|H0]; [discriminate H0|]). destruct H0.
Qed.
Lemma nth_name_inj b i b' j : In b author_bases -> In b' author_bases -> nth_name b i = nth_name b' j -> b = b' /\ i = j.
Proof.
  intros H H' E. destruct (base_low b H) as [_ N], (base_low b' H') as [_ N']. destruct i as [|i], j as [|j]; cbn [nth_name] in E.
  - auto.
  - exfalso. apply N. rewrite E. apply in_or_app. right. left. reflexivity.
  - exfalso. apply N'. rewrite <- E. apply in_or_app. right. left. reflexivity.
  - change (b ++ UND :: show_nat (S (S i)) = b' ++ UND :: show_nat (S (S j))) in E. pose proof (in_cut_unique _ _ _ _ _ E N N') as ->. apply app_inv_head in E. injection E as E. apply show_nat_inj in E. split; [reflexivity|lia].
Qed.
(** Writing what is said about one author. *)
Definition said (a : author) (b : text) : option text :=
  if text_eqb b (lit "author") then Some (au_name a) else
  if text_eqb b (lit "authorinitials") then Some (initials a) else
  if text_eqb b (lit "firstname") then Some (au_first a) else
  if text_eqb b (lit "middlename") then au_middle a else
  if text_eqb b (lit "lastname") then au_last a else
  if text_eqb b (lit "email") then au_email a else None.
Lemma attribute_value_put U P b i v n : In b author_bases ->
  attribute_value (set_nth_attribute U P b i v) n = if text_eqb n (nth_name b i) then VValue v else attribute_value P n.
Proof.
  intros H. unfold set_nth_attribute. rewrite nth_name_eq. unfold set_attribute_by_value_from_header, attribute_value. cbn [p_attrs with_attrs p_defaults]. rewrite (remap_nth U b i H), mget_mput.
  destruct (text_eqb n (nth_name b i)); reflexivity.
Qed.
Lemma attribute_value_opt U P b i o n : In b author_bases ->
  attribute_value (set_nth_opt U P b i o) n = match o with Some v => if text_eqb n (nth_name b i) then VValue v else attribute_value P n | None => attribute_value P n end.
Proof. intros H. destruct o; [apply attribute_value_put, H|reflexivity]. Qed.
Lemma bases_cases b : In b author_bases -> b = lit "author" \/ b = lit "authorinitials" \/ b = lit "firstname" \/ b = lit "middlename" \/ b = lit "lastname" \/ b = lit "email".
Proof. cbn [author_bases In]. intuition. Qed.
Lemma set_author_same U P i a b : In b author_bases ->
  attribute_value (set_author U P i a) (nth_name b i) = match said a b with Some v => VValue v | None => attribute_value P (nth_name b i) end.
Proof.
  intros H. unfold set_author. rewrite !attribute_value_opt, !attribute_value_put by (cbn; tauto).
  assert (EQ : forall b', In b' author_bases -> text_eqb (nth_name b i) (nth_name b' i) = text_eqb b b').
  { intros b' Hb'. destruct (text_eqb_spec (nth_name b i) (nth_name b' i)) as [E|E], (text_eqb_spec b b') as [E'|E']; try reflexivity; [apply nth_name_inj in E; tauto|congruence]. }
  rewrite !EQ by (cbn; tauto). unfold said. apply bases_cases in H. destruct H as [->|[->|[->|[->|[->| ->]]]]]; cbn; destruct (au_middle a), (au_last a), (au_email a); reflexivity.
Qed.
Lemma set_author_other U P i a n : (forall b, In b author_bases -> n <> nth_name b i) -> attribute_value (set_author U P i a) n = attribute_value P n.
Proof.
  intros H. unfold set_author. rewrite !attribute_value_opt, !attribute_value_put by (cbn; tauto).
  assert (EQ : forall b', In b' author_bases -> text_eqb n (nth_name b' i) = false) by (intros b' Hb'; apply text_eqb_neq, H, Hb').
  rewrite !EQ by (cbn; tauto). destruct (au_middle a), (au_last a), (au_email a); reflexivity.
Qed.
Lemma set_authors_other U l : forall P k n, (forall b i, In b author_bases -> k <= i < k + length l -> n <> nth_name b i) -> attribute_value (set_authors U P k l) n = attribute_value P n.
Proof.
  induction l as [|a l IH]; intros P k n H; [reflexivity|]. cbn [set_authors length] in *. rewrite IH by (intros b i Hb Hi; apply H; [exact Hb|lia]).
  apply set_author_other. intros b Hb. apply H; [exact Hb|lia].
Qed.
Lemma set_authors_nth U l : forall P k i a b, nth_error l i = Some a -> In b author_bases ->
  attribute_value (set_authors U P k l) (nth_name b (k + i)) = match said a b with Some v => VValue v | None => attribute_value P (nth_name b (k + i)) end.
Proof.
  induction l as [|x l IH]; intros P k i a b Hn Hb; [destruct i; discriminate|]. cbn [set_authors]. destruct i as [|i]; cbn [nth_error] in Hn.
  - injection Hn as ->. rewrite Nat.add_0_r. rewrite set_authors_other; [apply set_author_same, Hb|]. intros b' i Hb' Hi E. apply nth_name_inj in E; auto. lia.
  - replace (k + S i) with (S k + i) by lia. rewrite (IH _ _ _ _ _ Hn Hb). rewrite set_author_other; [reflexivity|]. intros b' Hb' E. apply nth_name_inj in E; auto. lia.
Qed.

(** * The lines of the header *)
Lemma Suffix_comparable d s a : Suffix d s -> Suffix d a -> Suffix s a \/ Suffix a s.
Proof.
  intros (p & E1 & H1) (q & E2 & H2). pose proof E1 as E. rewrite E2 in E.
  destruct (le_lt_dec (blen p) (blen q)) as [L|L].
  - left. destruct (prefix_cmp p (sp_data s) q (sp_data a) (eq_sym E) L) as (e & ->). exists e. rewrite <- app_assoc in E. apply app_inv_head in E. split; [symmetry; exact E|].
    rewrite H2 at 1. rewrite H1. symmetry. apply skip_skip.
  - right. destruct (prefix_cmp q (sp_data a) p (sp_data s) E (Nat.lt_le_incl _ _ L)) as (e & ->). exists e. rewrite <- app_assoc in E. apply app_inv_head in E. split; [exact E|].
    rewrite H1 at 1. rewrite H2. symmetry. apply skip_skip.
Qed.
Lemma trim_remainder_eq d s a : Suffix d s -> Suffix d a -> trim_remainder s a = Ok (p_trim_remainder s a).
Proof.
  intros H1 H2. destruct (Suffix_comparable d s a H1 H2) as [H|H]; [apply trim_remainder_ok, H|].
  destruct H as (pre & E & Es). unfold trim_remainder, p_trim_remainder. assert (Ho : sp_off s = sp_off a + blen pre) by (rewrite Es; apply sp_off_skip).
  rewrite (proj2 (Nat.leb_le _ _)) by (rewrite Ho; lia). assert (El : length (sp_data s) - length (sp_data a) = 0) by (rewrite E, app_length; lia). rewrite El.
  apply (slice0_ok s [] (sp_data s)). reflexivity.
Qed.
Lemma stripped_eq c d : stripped c d -> d = trim_end_by (N.eqb SP) (strip1 CR (strip1 LF c)).
Proof.
  intros (sps & cr & lf & E & Hlf & Hcr & Fs & Hd).
  assert (S1 : strip1 LF c = d ++ sps ++ cr).
  { unfold strip1. destruct Hlf as [->|(-> & Hn)].
    - rewrite E, !app_assoc, strip_suffix_app. reflexivity.
    - rewrite app_nil_r in E. destruct (strip_suffix_c LF c) as [r|] eqn:Er; [apply strip_suffix_spec in Er; destruct (Hn _ Er)|exact E]. }
  assert (S2 : strip1 CR (strip1 LF c) = d ++ sps).
  { rewrite S1. unfold strip1. destruct Hcr as [->|(-> & Hn)].
    - rewrite app_assoc, strip_suffix_app. reflexivity.
    - rewrite app_nil_r. destruct (strip_suffix_c CR (d ++ sps)) as [r|] eqn:Er; [apply strip_suffix_spec in Er; destruct (Hn _ Er)|reflexivity]. }
  rewrite S2. symmetry. apply trim_spaces_unique; [|exact Hd]. intros x Hx. rewrite Forall_forall in Fs. symmetry. auto.
Qed.
(** An attribute entry at [s], as the header and the blocks see it. *)
Lemma Forall_app_inv {A} (Q : A -> Prop) x y : Forall Q (x ++ y) -> Forall Q x /\ Forall Q y.
Proof. apply Forall_app. Qed.
Lemma trim_end_ok (ok : char -> Prop) p t : Forall ok t -> Forall ok (trim_end_by p t).
Proof. intros H. destruct (trim_end_by_app p t) as (w & E & _). rewrite E in H. apply Forall_app_inv in H. apply H. Qed.
Lemma trim_start_ok (ok : char -> Prop) p t : Forall ok t -> Forall ok (trim_start_by p t).
Proof. unfold trim_start_by. intros H. rewrite <- (take_drop_while p t) in H. apply Forall_app_inv in H. apply H. Qed.
Lemma fold_value_ok (ok : char -> Prop) t o : ok SP -> ok LF -> Forall ok t -> fold_value t = Ok o -> Forall ok o.
Proof.
  intros Hsp Hlf H E. unfold fold_value in E. destruct (has_char LF t); [|apply Ok_inj in E; subst; exact H]. destruct (checked_sub _ 1) as [n| |]; cbn [bind] in E; try discriminate E. apply Ok_inj in E. subst o.
  assert (L : Forall (Forall ok) (str_lines t)).
  { unfold str_lines. assert (S : Forall (Forall ok) (split_on LF t)) by (apply Forall_forall; intros x Hx; apply Forall_forall; intros c Hc; rewrite Forall_forall in H; apply H; eapply split_on_in; eassumption).
    induction S as [|x l Hx S IH]; [constructor|]. destruct l as [|y l]; [destruct x as [|x0 x]; cbn; [constructor|constructor; [exact Hx|constructor]]|]. change (lines_of (x :: y :: l)) with (drop_cr x :: lines_of (y :: l)). constructor; [|exact IH].
    destruct (drop_cr_spec x) as [E|[_ E]]; [rewrite E in Hx; apply Forall_app_inv in Hx; apply Hx|rewrite E; exact Hx]. }
  assert (F : forall k x, Forall ok x -> Forall ok (fold_line k n x)).
  { intros k x Hx. unfold fold_line. cbv zeta. match goal with |- context [ends_with _ ?y] => assert (Hy : Forall ok y) by (repeat apply trim_end_ok; apply trim_start_ok; destruct (0 <? k); [apply trim_start_ok|]; exact Hx); set (z := y) in * end.
    clearbody z. destruct (ends_with _ z); [apply Forall_app; split; [repeat apply trim_end_ok; exact Hy|repeat constructor; exact Hlf]|]. destruct (k <? n); [apply Forall_app; split; [exact Hy|repeat constructor; exact Hsp]|exact Hy]. }
  clear H. generalize 0. induction L as [|x l Hx L IH]; intros k; cbn [fold_lines_go]; [constructor|]. apply Forall_app. split; [apply F, Hx|apply IH].
Qed.
Lemma e_raw_ok (ok : char -> Prop) t : Forall ok t -> Forall ok (e_raw t).
Proof. unfold e_raw. pose proof (span_while_app is_sp_tab t) as E. destruct (span_while is_sp_tab t) as [a b]. cbn [fst snd] in *. rewrite <- E. intros H. apply Forall_app_inv in H. apply H. Qed.
Lemma entry_rest d n u x : entry_line d n u x -> exists q, d = q ++ x.
Proof. intros H. destruct H; [exists (lit ":" ++ n ++ lit ":")|exists (lit ":!" ++ n ++ lit ":")|exists (lit ":" ++ n ++ lit "!:")]; rewrite <- !app_assoc; reflexivity. Qed.
Lemma entry_cases hdr s P : forall ok : char -> Prop, ok SP -> ok LF -> Forall ok (sp_data s) -> (forall t, Forall ok t -> exists o, hdr P t = Ok o) ->
  (exists n r m, an_entry (sp_data s) n r /\ attribute_parse hdr s P = Ok (Some m) /\ sp_data (at_name (mi_item m)) = n /\ sp_data (mi_after m) = r /\ Suffix s (mi_after m)) \/
  ((forall n r, ~ an_entry (sp_data s) n r) /\ attribute_parse hdr s P = Ok None).
Proof.
  intros ok Hsp Hlf Hok Hh. destruct (logical_total (sp_data s)) as (c & r & H). destruct (stripped_ok c) as (d & Hd & Ed).
  destruct (attribute_parse_eq hdr s P c r H) as (pre & vs & E & _). cbv zeta in E. rewrite <- Ed in E. destruct (e_parse d) as [[n [u rest]]|] eqn:Ep.
  - left. assert (Hv : exists v, e_value hdr P u rest = Ok v).
    { unfold e_value. destruct u; [eauto|]. destruct rest as [|x rest]; [eauto|]. destruct (fold_value_total (e_raw (x :: rest))) as [t Et]. assert (Ht : Forall ok t). { eapply fold_value_ok; [exact Hsp|exact Hlf| |exact Et]. apply e_raw_ok. apply e_parse_iff in Ep. destruct Hd as (sps & cr & lf & Ec & _). rewrite (logical_app _ _ _ H), Ec in Hok. repeat (apply Forall_app_inv in Hok; destruct Hok as [Hok _]). apply entry_rest in Ep. destruct Ep as (q & Eq). rewrite Eq in Hok. apply Forall_app_inv in Hok. apply Hok. }
      destruct (Hh t Ht) as [o Eo]. rewrite Et. cbn [bind]. rewrite Eo. cbn. eauto. }
    destruct Hv as (v & Ev). rewrite Ev in E. cbn [bind] in E. exists n, r. eexists. split; [|split; [exact E|]].
    + exists c, d, u, rest. split; [exact H|]. split; [exact Hd|]. apply e_parse_iff, Ep.
    + cbn [mi_item mi_after at_name]. split; [apply sp_data_skip|]. split; [apply sp_data_skip|]. apply Suffix_intro, logical_app, H.
  - right. split; [|exact E]. intros n r' (c' & d' & u & x & H' & Hd' & El). apply e_parse_iff in El.
    destruct (attribute_parse_eq hdr s P c' r' H') as (pre' & vs' & E' & _). cbv zeta in E'. rewrite <- (stripped_eq _ _ Hd'), El in E'. rewrite E in E'.
    destruct (e_value hdr P u x); discriminate E'.
Qed.
Lemma norm_line_eq s l e rest : ~ In LF l -> eol e rest -> sp_data s = l ++ e ++ rest ->
  p_take_normalized_line s = mkmi (with_data s (trim_end_by (N.eqb SP) (strip_cr l))) (skip s (l ++ e) rest).
Proof. intros Hl He D. unfold p_take_normalized_line. rewrite (p_take_line_eq s l e rest Hl He D). reflexivity. Qed.
Lemma trimmed_prefix l n : trimmed_line l n -> exists w, l = n ++ w.
Proof. intros (x & sps & Hm & -> & _ & _). destruct Hm as [->|[-> _]]; [exists (sps ++ [CR]); rewrite <- app_assoc; reflexivity|exists sps; reflexivity]. Qed.
Lemma entry_starts t n r l e q : an_entry t n r -> t = l ++ e ++ q -> ~ In LF l -> eol e q -> exists l', l = 58%N :: l'.
Proof.
  intros (c & d & u & x & H & (sps & cr & lf & Ec & _) & El) E Hl He. apply logical_app in H.
  assert (exists d', d = 58%N :: d') by (destruct El; eexists; reflexivity). destruct H0 as (d' & ->). rewrite Ec in H. rewrite H in E. cbn [app] in E.
  destruct l as [|y l]; cbn [app] in E; [|injection E as <- E; eauto]. destruct He as [->|[-> ->]]; discriminate E.
Qed.
Lemma norm_starts l l' : l = 58%N :: l' -> exists n', trim_end_by (N.eqb SP) (strip_cr l) = 58%N :: n'.
Proof.
  intros ->. pose proof (norm_trimmed (58%N :: l')) as H. destruct (trimmed_prefix _ _ H) as (w & E). destruct (trim_end_by (N.eqb SP) (strip_cr (58%N :: l'))) as [|c n'] eqn:En.
  - exfalso. destruct H as (x & sps & Hm & Ex & Hs & _). cbn [app] in Ex. subst x. destruct Hm as [Hm|[Hm _]].
    + destruct sps as [|y sps]; [discriminate Hm|]. injection Hm as Hy _. specialize (Hs y (or_introl eq_refl)). rewrite Hs in Hy. discriminate Hy.
    + destruct sps as [|y sps]; [discriminate Hm|]. injection Hm as Hy _. specialize (Hs y (or_introl eq_refl)). rewrite Hs in Hy. discriminate Hy.
  - injection E as <- _. eauto.
Qed.
Lemma a_comment_b n : starts_with (lit "//") n && negb (starts_with (lit "///") n) = true <-> a_comment n.
Proof.
  rewrite andb_true_iff, negb_true_iff. split.
  - intros [H1 H2]. apply starts_with_spec in H1. destruct H1 as (r & ->). exists r. split; [reflexivity|]. intros q ->.
    assert (X : starts_with (lit "///") (lit "//" ++ lit "/" ++ q) = true) by (apply starts_with_spec; exists q; reflexivity). congruence.
  - intros (r & -> & H). split; [apply starts_with_spec; eauto|]. destruct (starts_with _ _) eqn:X; [|reflexivity]. apply starts_with_spec in X. destruct X as (q & X).
    change (lit "///" ++ q) with (lit "//" ++ lit "/" ++ q) in X. apply app_inv_head in X. destruct (H _ X).
Qed.
Lemma a_title_b n : starts_with (lit "= ") n = true <-> a_title n.
Proof. apply starts_with_spec. Qed.
Lemma hline_shorter t k r : hline t k r -> t <> [] -> length r < length t.
Proof.
  assert (K : forall l e r : text, eol e r -> l ++ e ++ r <> [] -> length r < length (l ++ e ++ r)).
  { intros l e r0 He Ne. rewrite !app_length. destruct He as [->|[-> ->]]; [cbn; lia|]. destruct l; [contradiction|cbn; lia]. }
  intros [l e r0 Hl He _|l e r0 n Hl He _ _|t0 n r0 He|l e r0 n Hl He _ _ _ _] Ne; auto.
  destruct He as (c & d & u & x & H & (sps & cr & lf & Ec & _) & El). apply logical_app in H. rewrite H, app_length. rewrite Ec, app_length. destruct El; cbn; lia.
Qed.
Lemma header_sub_discard line x : sp_data line = lit "= " ++ x -> exists s, (d <- discard line 2 ;; discard_whitespace d) = Ok s /\
  exists w, x = w ++ sp_data s /\ Forall (fun c => c = SP \/ c = TAB) w /\ (forall c r, sp_data s = c :: r -> c <> SP /\ c <> TAB).
Proof.
  intros E. rewrite discard_ok by (rewrite E; cbn; repeat constructor; lia). cbn [bind]. rewrite discard_whitespace_ok. eexists. split; [reflexivity|].
  unfold p_discard_whitespace, p_take_whitespace, p_take_while. assert (Ed : sp_data (p_discard line 2) = x) by (unfold p_discard; rewrite sp_data_skip, E; reflexivity). rewrite Ed.
  pose proof (span_while_app is_sp_tab x) as H1. pose proof (span_while_all is_sp_tab x) as H2. pose proof (span_while_stop is_sp_tab x) as H3. destruct (span_while is_sp_tab x) as [a b]. cbn [fst snd psplit mi_after] in *. rewrite sp_data_skip.
  exists a. split; [symmetry; exact H1|]. split; [eapply Forall_impl; [|exact H2]; intros c Hc; apply is_sp_tab_spec, Hc|].
  intros c r ->. specialize (H3 c r eq_refl). split; intros ->; discriminate H3.
Qed.
Lemma entry_result hdr s P o : attribute_parse hdr s P = Ok o ->
  match o with
  | Some m => exists n r, an_entry (sp_data s) n r /\ sp_data (at_name (mi_item m)) = n /\ sp_data (mi_after m) = r /\ Suffix s (mi_after m)
  | None => forall n r, ~ an_entry (sp_data s) n r
  end.
Proof.
  intros E0. destruct (logical_total (sp_data s)) as (c & r & H). destruct (stripped_ok c) as (d & Hd & Ed).
  destruct (attribute_parse_eq hdr s P c r H) as (pre & vs & E & _). cbv zeta in E. rewrite <- Ed in E. rewrite E0 in E. destruct (e_parse d) as [[n [u rest]]|] eqn:Ep.
  - destruct (e_value hdr P u rest) as [v| |]; cbn [bind] in E; try discriminate E. apply Ok_inj in E. subst o. exists n, r. split; [|cbn [mi_item mi_after at_name]; split; [apply sp_data_skip|]; split; [apply sp_data_skip|apply Suffix_intro, logical_app, H]].
    exists c, d, u, rest. split; [exact H|]. split; [exact Hd|]. apply e_parse_iff, Ep.
  - apply Ok_inj in E. subst o. intros n r' (c' & d' & u & x & H' & Hd' & El). apply e_parse_iff in El.
    destruct (attribute_parse_eq hdr s P c' r' H') as (pre' & vs' & E' & _). cbv zeta in E'. rewrite <- (stripped_eq _ _ Hd'), El in E'. rewrite E0 in E'.
    destruct (e_value hdr P u x); discriminate E'.
Qed.
(** What the state of the loop says about the lines read. *)
Definition inv_revision (E : env) (ts : list text) (h : hstate) : Prop :=
  match ts with
  | [] => s_revision h = None
  | r :: _ => exists rv s P P', s_revision h = Some rv /\ sp_data s = r /\ revision_parse E s P = Ok (rv, P')
  end.
Definition inv_author (E : env) (ts : list text) (h : hstate) : Prop :=
  match ts with
  | [] => s_author h = None /\ s_revision h = None
  | a :: ts' => (exists al s P P', s_author h = Some al /\ sp_data s = a /\ author_line_parse (e_u E) s P = Ok (al, P')) /\ inv_revision E ts' h
  end.
Definition inv_title (E : env) (n : text) (h : hstate) : Prop :=
  exists w s P o, n = lit "= " ++ w ++ sp_data s /\ Forall (fun c => c = SP \/ c = TAB) w /\ (forall c r, sp_data s = c :: r -> c <> SP /\ c <> TAB) /\
    s_title_source h = Some s /\ apply_header_subs E P (sp_data s) = Ok o /\ s_title h = Some o.
Definition inv (E : env) (ts : list text) (h : hstate) : Prop :=
  match ts with
  | [] => s_title_source h = None /\ s_title h = None /\ s_author h = None /\ s_revision h = None
  | n :: ts' => inv_title E n h /\ inv_author E ts' h
  end /\ length ts <= 3.
Definition unterminated (w : warning) : Prop := w_type w = WDocumentHeaderNotTerminated.
Lemma header_warnings U P a w : In w (snd (set_attribute_from_header U P a)) -> ~ unterminated w.
Proof.
  unfold set_attribute_from_header. cbv zeta. match goal with |- context [if ?b then _ else _] => destruct b end; cbn [snd]; [|intros []].
  intros [<-|[]]. unfold unterminated. cbn. discriminate.
Qed.
Lemma inv_same E ts h h' : s_title_source h' = s_title_source h -> s_title h' = s_title h -> s_author h' = s_author h -> s_revision h' = s_revision h -> inv E ts h -> inv E ts h'.
Proof.
  intros E1 E2 E3 E4 [H L]. split; [|exact L]. destruct ts as [|n ts]; [rewrite E1, E2, E3, E4; exact H|].
  unfold inv_title, inv_author, inv_revision in *. rewrite E1, E2, E3, E4. exact H.
Qed.
Lemma inv_none E ts h : inv E ts h -> is_some (s_title h) = match ts with [] => false | _ => true end.
Proof. intros [H _]. destruct ts as [|n ts]; [destruct H as (_ & -> & _); reflexivity|]. destruct H as ((w & s & P & o & _ & _ & _ & _ & _ & ->) & _). reflexivity. Qed.
Lemma inv_author_some E ts h : inv E ts h -> is_some (s_author h) = match ts with [] | [_] => false | _ => true end.
Proof.
  intros [H _]. destruct ts as [|n [|a ts]]; [destruct H as (_ & _ & -> & _); reflexivity|destruct H as (_ & -> & _); reflexivity|]. destruct H as (_ & (al & s & P & P' & -> & _) & _). reflexivity.
Qed.
Lemma inv_rev_some E ts h : inv E ts h -> is_some (s_revision h) = match ts with [] | [_] | [_; _] => false | _ => true end.
Proof.
  intros [H _]. destruct ts as [|n [|a [|r ts]]]; [destruct H as (_ & _ & _ & ->); reflexivity|destruct H as (_ & _ & ->); reflexivity|destruct H as (_ & _ & ->); reflexivity|].
  destruct H as (_ & _ & rv & s & P & P' & -> & _). reflexivity.
Qed.
(** One pass. *)
Lemma header_step_spec E source h ts h' o : sp_data source <> [] -> inv E ts h -> header_step E source h = Ok (h', o) ->
  exists k r, hline (sp_data source) k r /\
    match o with
    | Some s' => sp_data s' = r /\ Suffix source s' /\
        map sp_data (s_comments h') = map sp_data (s_comments h) ++ comments_of [k] /\
        map (fun a => sp_data (at_name a)) (s_attrs h') = map (fun a => sp_data (at_name a)) (s_attrs h) ++ entries_of [k] /\
        (exists ws, s_warnings h' = s_warnings h ++ ws /\ Forall (fun w => ~ unterminated w) ws) /\
        match k with
        | HBlank => ts = [] /\ inv E ts h'
        | HComment _ | HEntry _ => inv E ts h'
        | HText n => (ts = [] -> a_title n) /\ length ts < 3 /\ inv E (ts ++ [n]) h'
        end
    | None => inv E ts h' /\ s_comments h' = s_comments h /\ s_attrs h' = s_attrs h /\
        match k with
        | HBlank => ts <> [] /\ s_warnings h' = s_warnings h
        | HText n => (ts = [] /\ ~ a_title n /\ s_warnings h' = s_warnings h) \/ (length ts = 3 /\ exists w, s_warnings h' = s_warnings h ++ [w] /\ unterminated w)
        | _ => False
        end
    end.
Proof.
  intros Hne Hi H. unfold header_step in H. rewrite take_normalized_line_ok in H. cbn [bind] in H.
  destruct (first_line (sp_data source)) as (l & e & rest & D & Hl & He). rewrite (norm_line_eq source l e rest Hl He D) in H. cbn [mi_item mi_after] in H.
  set (n := trim_end_by (N.eqb SP) (strip_cr l)) in *. pose proof (norm_trimmed l) as Ht. fold n in Ht. change (sp_data (with_data source n)) with n in H.
  assert (Saf : Suffix source (skip source (l ++ e) rest)) by (apply Suffix_intro; rewrite <- app_assoc; exact D).
  rewrite (inv_none _ _ _ Hi), (inv_author_some _ _ _ Hi), (inv_rev_some _ _ _ Hi) in H.
  destruct n as [|c0 n0] eqn:En.
  { cbn [is_nil] in H. exists HBlank, rest. split; [rewrite D; apply hl_blank; assumption|]. destruct ts as [|t1 ts]; injection H as <- <-.
    - split; [apply sp_data_skip|]. split; [exact Saf|]. cbn [comments_of entries_of flat_map app]. rewrite !app_nil_r. split; [reflexivity|]. split; [reflexivity|]. split; [exists []; rewrite app_nil_r; auto|]. auto.
    - split; [exact Hi|]. split; [reflexivity|]. split; [reflexivity|]. split; [discriminate|reflexivity]. }
  assert (Nn : n <> []) by (rewrite En; discriminate). cbn [is_nil] in H. rewrite <- En in *. clear En c0 n0.
  destruct (starts_with (lit "//") n && negb (starts_with (lit "///") n)) eqn:Ec.
  { injection H as <- <-. apply a_comment_b in Ec. exists (HComment n), rest. split; [rewrite D; apply hl_comment; assumption|]. split; [apply sp_data_skip|]. split; [exact Saf|].
    cbn [s_comments s_attrs s_warnings comments_of entries_of flat_map app]. rewrite map_app, app_nil_r. split; [reflexivity|]. split; [reflexivity|]. split; [exists []; rewrite app_nil_r; auto|].
    eapply inv_same; [..|exact Hi]; reflexivity. }
  assert (Nc : ~ a_comment n) by (intros X; apply a_comment_b in X; congruence).
  destruct (header_attr E source (with_data source n) h) as [oa| |] eqn:Ea; cbn [bind] in H; try discriminate H.
  assert (Ent : match oa with Some m => exists nm r, an_entry (sp_data source) nm r /\ sp_data (at_name (mi_item m)) = nm /\ sp_data (mi_after m) = r /\ Suffix source (mi_after m)
                | None => forall nm r, ~ an_entry (sp_data source) nm r end).
  { unfold header_attr in Ea. change (sp_data (with_data source n)) with n in Ea. destruct (starts_with (lit ":") n) eqn:Es.
    - apply entry_result in Ea. exact Ea.
    - apply Ok_inj in Ea. subst oa. intros nm r X. destruct (entry_starts _ _ _ _ _ _ X D Hl He) as (l' & El). destruct (norm_starts l l' El) as (n' & En'). change (n = 58%N :: n') in En'. rewrite En' in Es. discriminate Es. }
  destruct oa as [m|].
  { destruct Ent as (nm & r & X & Hnm & Hr & Hs). destruct (set_author_entry (e_u E) (mi_item m) (s_parser h)) as [P1| |]; cbn [bind] in H; try discriminate H. injection H as <- <-.
    exists (HEntry nm), r. split; [apply hl_entry, X|]. split; [exact Hr|]. split; [exact Hs|]. cbn [s_comments s_attrs s_warnings comments_of entries_of flat_map app]. rewrite map_app, app_nil_r. cbn [map]. rewrite Hnm.
    split; [reflexivity|]. split; [reflexivity|]. split; [eexists; split; [reflexivity|]; apply Forall_forall; intros w Hw; eapply header_warnings, Hw|].
    eapply inv_same; [..|exact Hi]; reflexivity. }
  assert (HT : hline (sp_data source) (HText n) rest).
  { rewrite D. apply hl_text; try assumption. rewrite <- D. exact Ent. }
  exists (HText n), rest. split; [exact HT|]. destruct Hi as [Hi Hlen].
  destruct ts as [|t1 ts].
  - cbn [negb andb] in H. destruct (starts_with (lit "= ") n) eqn:Et.
    + apply a_title_b in Et. destruct Et as (x & Ex). destruct (header_sub_discard (with_data source n) x Ex) as (s & Hds & w & Ew & Fw & Hs).
      assert (Hds' : exists d, discard (with_data source n) 2 = Ok d /\ discard_whitespace d = Ok s) by (destruct (discard (with_data source n) 2) as [d| |]; [exists d; auto|discriminate Hds..]).
      destruct Hds' as (d & Ed & Es). rewrite Ed in H. cbn [bind] in H. rewrite Es in H. cbn [bind] in H. destruct (apply_header_subs E (s_parser h) (sp_data s)) as [ti| |] eqn:Eti; cbn [bind] in H; try discriminate H.
      injection H as <- <-. split; [apply sp_data_skip|]. split; [exact Saf|]. cbn [s_comments s_attrs s_warnings comments_of entries_of flat_map app]. rewrite !app_nil_r. split; [reflexivity|]. split; [reflexivity|].
      split; [exists []; rewrite app_nil_r; auto|]. split; [intros _; exists x; exact Ex|]. split; [cbn; lia|]. destruct Hi as (_ & _ & Ha & Hr). split; [|cbn; lia]. split; [|split; [exact Ha|exact Hr]].
      exists w, s, (s_parser h), ti. rewrite Ex, Ew. auto 10.
    + injection H as <- <-. split; [split; [exact Hi|exact Hlen]|]. split; [reflexivity|]. split; [reflexivity|]. left. split; [reflexivity|]. split; [|reflexivity]. intros X. apply a_title_b in X. congruence.
  - cbn [negb andb] in H. destruct ts as [|t2 ts].
    + cbn [negb andb] in H. destruct (author_line_parse (e_u E) (with_data source n) (s_parser h)) as [[al P']| |] eqn:Eal; cbn [bind] in H; try discriminate H. injection H as <- <-.
      split; [apply sp_data_skip|]. split; [exact Saf|]. cbn [s_comments s_attrs s_warnings comments_of entries_of flat_map app]. rewrite !app_nil_r. split; [reflexivity|]. split; [reflexivity|].
      split; [exists []; rewrite app_nil_r; auto|]. split; [discriminate|]. split; [cbn; lia|]. destruct Hi as (Hti & Ha & Hr). split; [|cbn; lia]. split; [exact Hti|]. split; [|exact Hr].
      exists al, (with_data source n), (s_parser h), P'. auto.
    + cbn [negb andb] in H. destruct ts as [|t3 ts].
      * cbn [negb andb] in H. destruct (revision_parse E (with_data source n) (s_parser h)) as [[rv P']| |] eqn:Erv; cbn [bind] in H; try discriminate H. injection H as <- <-.
        split; [apply sp_data_skip|]. split; [exact Saf|]. cbn [s_comments s_attrs s_warnings comments_of entries_of flat_map app]. rewrite !app_nil_r. split; [reflexivity|]. split; [reflexivity|].
        split; [exists []; rewrite app_nil_r; auto|]. split; [discriminate|]. split; [cbn; lia|]. destruct Hi as (Hti & Ha & Hr). split; [|cbn; lia]. split; [exact Hti|]. split; [exact Ha|].
        exists rv, (with_data source n), (s_parser h), P'. auto.
      * cbn [negb andb] in H. assert (ts = []) by (destruct ts; [reflexivity|cbn in Hlen; lia]). subst ts. injection H as <- <-. split; [split; [exact Hi|exact Hlen]|]. split; [reflexivity|]. split; [reflexivity|]. right. split; [reflexivity|].
        eexists. split; [reflexivity|reflexivity].
Qed.
(** The loop. *)
Lemma header_loop_spec E : forall fuel source h ts h' src', inv E ts h -> header_loop E fuel source h = Ok (h', src') ->
  exists ks ts' w, header_run ts (sp_data source) ks ts' (sp_data src') w /\ inv E ts' h' /\ Suffix source src' /\
    map sp_data (s_comments h') = map sp_data (s_comments h) ++ comments_of ks /\
    map (fun a => sp_data (at_name a)) (s_attrs h') = map (fun a => sp_data (at_name a)) (s_attrs h) ++ entries_of ks /\
    (exists ws, s_warnings h' = s_warnings h ++ ws /\ (w = true <-> Exists unterminated ws)).
Proof.
  assert (NE : forall ws, Forall (fun w => ~ unterminated w) ws -> ~ Exists unterminated ws).
  { intros ws F X. apply Exists_exists in X. destruct X as (x & Hx & Ux). rewrite Forall_forall in F. exact (F x Hx Ux). }
  induction fuel as [|fuel IH]; intros source h ts h' src' Hi H; cbn [header_loop] in H; destruct (sp_data source) as [|c0 d0] eqn:D.
  1,3: injection H as <- <-; exists [], ts, false; rewrite D; split; [constructor|]; split; [exact Hi|]; split; [apply Suffix_refl|]; cbn; rewrite !app_nil_r; split; [reflexivity|]; split; [reflexivity|];
    exists []; rewrite app_nil_r; split; [reflexivity|]; split; [discriminate|intros X; inversion X].
  - discriminate H.
  - rewrite <- D in *. assert (Ne : sp_data source <> []) by (rewrite D; discriminate). clear D c0 d0.
    destruct (header_step E source h) as [[h1 o]| |] eqn:Es; cbn [bind] in H; try discriminate H. cbn [fst snd] in H.
    destruct (header_step_spec E source h ts h1 o Ne Hi Es) as (k & r & Hk & S). destruct o as [s'|].
    + destruct S as (Hr & Hs & Hc & Ha & (ws & Hw & Fw) & S). 
      assert (K : exists ts1, inv E ts1 h1 /\ forall ks ts' rest w, header_run ts1 r ks ts' rest w -> header_run ts (sp_data source) (k :: ks) ts' rest w).
      { destruct k as [|n|n|n].
        - destruct S as [-> S]. exists []. split; [exact S|]. intros. eapply hr_skip; eassumption.
        - exists ts. split; [exact S|]. intros. eapply hr_comment; eassumption.
        - exists ts. split; [exact S|]. intros. eapply hr_entry; eassumption.
        - destruct S as (Ht & L & S). exists (ts ++ [n]). split; [exact S|]. intros ks ts' rest w X. destruct ts as [|t1 ts]; [eapply hr_title; eauto|]. eapply hr_line; [exact Hk| |exact X]. cbn [length] in *. lia. }
      destruct K as (ts1 & Hi1 & K). destruct (IH s' h1 ts1 h' src' Hi1 H) as (ks & ts' & w & R & Hi' & Hs' & Hc' & Ha' & ws' & Hw' & Hw1). rewrite Hr in R.
      exists (k :: ks), ts', w. split; [apply K, R|]. split; [exact Hi'|]. split; [eapply Suffix_trans; eassumption|].
      rewrite Hc', Hc, Ha', Ha. unfold comments_of, entries_of. cbn [flat_map]. rewrite !app_nil_r, <- !app_assoc. split; [reflexivity|]. split; [reflexivity|].
      exists (ws ++ ws'). rewrite Hw', Hw, <- app_assoc. split; [reflexivity|]. rewrite Hw1, Exists_app. split; [auto|]. intros [X|X]; [exfalso; exact (NE _ Fw X)|exact X].
    + injection H as <- <-. destruct S as (Hi1 & Hc & Ha & S). rewrite Hc, Ha. destruct k as [|n|n|n]; try contradiction.
      * destruct S as [Hts Hw]. exists [], ts, false. split; [eapply hr_blank; eassumption|]. split; [exact Hi1|]. split; [apply Suffix_refl|]. cbn. rewrite !app_nil_r. split; [reflexivity|]. split; [reflexivity|].
        exists []. rewrite app_nil_r. split; [exact Hw|]. split; [discriminate|intros X; inversion X].
      * destruct S as [(-> & Nt & Hw)|(L & w & Hw & Uw)].
        -- exists [], [], false. split; [eapply hr_no_title; eassumption|]. split; [exact Hi1|]. split; [apply Suffix_refl|]. cbn. rewrite !app_nil_r. split; [reflexivity|]. split; [reflexivity|].
           exists []. rewrite app_nil_r. split; [exact Hw|]. split; [discriminate|intros X; inversion X].
        -- exists [], ts, true. split; [eapply hr_full; eassumption|]. split; [exact Hi1|]. split; [apply Suffix_refl|]. cbn. rewrite !app_nil_r. split; [reflexivity|]. split; [reflexivity|].
           exists [w]. split; [exact Hw|]. split; [intros _; apply Exists_cons_hd, Uw|reflexivity].
Qed.
(** The header is read whenever the header substitutions give a result. *)
Definition header_subs_on (E : env) (ok : char -> Prop) : Prop := forall P t, Forall ok t -> exists o, apply_header_subs E P t = Ok o.
Lemma author_line_total U s P : exists o, author_line_parse U s P = Ok o.
Proof. unfold author_line_parse. destruct (parse_authors_total U P (split_str (lit "; ") (sp_data s))) as (l & ->). cbn [bind]. eauto. Qed.
Lemma author_entry_total U a P : exists o, set_author_entry U a P = Ok o.
Proof. unfold set_author_entry. destruct (eq_ignore_ascii_case _ _); [|eauto]. destruct (at_value_source a) as [r|]; [|eauto]. destruct (author_parse_total U P (sp_data r)) as (o & ->). cbn [bind]. eauto. Qed.
Section Total.
Context (E : env) (ok : char -> Prop) (Hsp : ok SP) (Hlf : ok LF) (T : header_subs_on E ok).
Lemma subs_opt_total P o : Forall ok (otext o) -> exists r, subs_opt E P o = Ok r.
Proof. intros H. destruct o as [t|]; cbn; [destruct (T P t H) as (r & ->); cbn|]; eauto. Qed.
Lemma revision_total s P : ~ In LF (sp_data s) -> Forall ok (sp_data s) -> exists o, revision_parse E s P = Ok o.
Proof.
  intros Nl H. unfold revision_parse. cbv zeta. destruct (revision_parts (e_u E) (sp_data s)) as [n [d r]] eqn:Er. cbn [fst snd].
  apply revision_sound in Er; [|exact Nl]. destruct (revision_order _ _ _ _ _ Er) as (a & b & c & e & Et & _). rewrite Et in H.
  apply Forall_app_inv in H. destruct H as [_ H]. apply Forall_app_inv in H. destruct H as [Hn H]. apply Forall_app_inv in H. destruct H as [_ H]. apply Forall_app_inv in H. destruct H as [Hd H].
  apply Forall_app_inv in H. destruct H as [_ H]. apply Forall_app_inv in H. destruct H as [Hr _].
  match goal with |- context [subs_opt E ?P n] => destruct (subs_opt_total P n Hn) as (n' & ->) end. cbn [bind].
  match goal with |- context [apply_header_subs E ?P d] => destruct (T P d Hd) as (d' & ->) end. cbn [bind].
  match goal with |- context [subs_opt E ?P r] => destruct (subs_opt_total P r Hr) as (r' & ->) end. cbn [bind]. eauto.
Qed.
Lemma header_step_total source h : Forall ok (sp_data source) -> exists o, header_step E source h = Ok o.
Proof.
  intros Hok. unfold header_step. cbv zeta. rewrite take_normalized_line_ok. cbn [bind].
  destruct (first_line (sp_data source)) as (l & e & rest & D & Hl & He). rewrite (norm_line_eq source l e rest Hl He D). cbn [mi_item mi_after].
  set (n := trim_end_by (N.eqb SP) (strip_cr l)) in *. pose proof (norm_trimmed l) as Ht. fold n in Ht. destruct (trimmed_prefix _ _ Ht) as (w & Ew).
  assert (Nok : Forall ok n) by (rewrite D, Ew, <- !app_assoc in Hok; apply Forall_app_inv in Hok; apply Hok). assert (Nl : ~ In LF n) by (intros X; apply Hl; rewrite Ew; apply in_or_app; auto).
  clearbody n. set (line := with_data source n). assert (Dl : sp_data line = n) by reflexivity. clearbody line.
  destruct (is_nil _); [eauto|]. destruct (_ && _); [eauto|].
  assert (A : exists oa, header_attr E source line h = Ok oa).
  { unfold header_attr. destruct (starts_with _ _); [|eauto]. destruct (entry_cases (apply_header_subs E) source (s_parser h) ok Hsp Hlf Hok (T _)) as [(n' & r & m & _ & -> & _)|(_ & ->)]; eauto. }
  destruct A as (oa & ->). cbn [bind]. destruct oa as [m|].
  - destruct (author_entry_total (e_u E) (mi_item m) (s_parser h)) as (P' & ->). cbn [bind]. eauto.
  - match goal with |- context [if ?b && starts_with (lit "= ") ?n then _ else _] => destruct (b && starts_with (lit "= ") n) eqn:Et end.
    + apply andb_true_iff in Et. destruct Et as [_ Et]. apply a_title_b in Et. destruct Et as (x & Ex). destruct (header_sub_discard _ x Ex) as (s & Hs & w' & Ew' & _).
      assert (Sok : Forall ok (sp_data s)). { rewrite Dl in Ex. rewrite Ex, Ew' in Nok. apply Forall_app_inv in Nok. destruct Nok as [_ Nok]. apply Forall_app_inv in Nok. apply Nok. }
      destruct (discard _ 2) as [d| |] eqn:Ed; try discriminate Hs. cbn [bind] in *. rewrite Hs. cbn [bind]. destruct (T (s_parser h) (sp_data s) Sok) as (o & ->). cbn [bind]. eauto.
    + match goal with |- context [if ?b then bind (author_line_parse ?U ?s ?P) _ else _] => destruct b; [destruct (author_line_total U s P) as (o & ->); cbn [bind]; eauto|] end.
      match goal with |- context [if ?b then bind (revision_parse E ?s ?P) _ else _] => destruct b; [destruct (revision_total s P) as (o & ->); [rewrite Dl; exact Nl|rewrite Dl; exact Nok|cbn [bind]; eauto]|] end. eauto.
Qed.
Lemma header_loop_total : forall fuel source h ts, Forall ok (sp_data source) -> inv E ts h -> length (sp_data source) <= fuel -> exists o, header_loop E fuel source h = Ok o.
Proof.
  induction fuel as [|fuel IH]; intros source h ts Hok Hi L; cbn [header_loop]; destruct (sp_data source) as [|c0 d0] eqn:D; [eauto|cbn in L; lia|eauto|].
  rewrite <- D in *. assert (Ne : sp_data source <> []) by (rewrite D; discriminate). clear D c0 d0.
  destruct (header_step_total source h Hok) as ([h1 o] & Es). rewrite Es. cbn [bind fst snd]. destruct o as [s'|]; [|eauto].
  destruct (header_step_spec E source h ts h1 _ Ne Hi Es) as (k & r & Hk & Hr & Hs & _ & _ & _ & S). pose proof (hline_shorter _ _ _ Hk Ne) as Lr.
  assert (X : exists ts1, inv E ts1 h1) by (destruct k; [destruct S as [_ S]|..|destruct S as (_ & _ & S)]; eauto). destruct X as (ts1 & X). apply (IH s' h1 ts1); [|exact X|rewrite Hr; lia].
  destruct Hs as (pre & Ep & _). rewrite Ep in Hok. apply Forall_app_inv in Hok. apply Hok.
Qed.
Lemma inv_new P : inv E [] (hs_new P).
Proof. split; [cbn; auto|cbn; lia]. Qed.
Lemma discard_empty_Suffix s : Suffix s (p_discard_empty_lines s).
Proof. unfold p_discard_empty_lines. apply p_discard_empty_lines_go_Suffix. Qed.
Theorem header_parse_total s P : Forall ok (sp_data s) -> exists o, header_parse E s P = Ok o.
Proof.
  intros Hok. unfold header_parse. rewrite discard_empty_lines_ok. cbn [bind]. destruct (header_loop_total _ s (hs_new P) [] Hok (inv_new P) (le_n _)) as ([h src] & El). rewrite El. cbn [bind fst snd].
  rewrite discard_empty_lines_ok. cbn [bind]. destruct (header_loop_spec E _ s (hs_new P) [] h src (inv_new P) El) as (ks & ts & w & _ & _ & Hs & _).
  rewrite (trim_remainder_eq s) by (auto using discard_empty_Suffix). cbn [bind]. rewrite trim_trailing_whitespace_ok. cbn [bind]. eauto.
Qed.
End Total.
Theorem header_parse_spec E s P hd after ws P' : header_parse E s P = Ok (mkmi hd after, (ws, P')) ->
  exists h src ks ts w, header_run [] (sp_data s) ks ts (sp_data src) w /\ inv E ts h /\ Suffix s src /\
    h_title_source hd = s_title_source h /\ h_title hd = s_title h /\ h_author hd = s_author h /\ h_revision hd = s_revision h /\ P' = s_parser h /\
    map sp_data (h_comments hd) = comments_of ks /\ map (fun a => sp_data (at_name a)) (h_attrs hd) = entries_of ks /\
    (w = true <-> Exists unterminated ws) /\ after = p_discard_empty_lines src /\
    h_source hd = p_trim_trailing_whitespace (p_trim_remainder (p_discard_empty_lines s) src).
Proof.
  unfold header_parse. rewrite discard_empty_lines_ok. cbn [bind]. destruct (header_loop E _ s (hs_new P)) as [[h src]| |] eqn:El; cbn [bind fst snd]; try discriminate.
  rewrite discard_empty_lines_ok. cbn [bind]. destruct (header_loop_spec E _ s (hs_new P) [] h src (inv_new E P) El) as (ks & ts & w & R & Hi & Hs & Hc & Ha & wl & Hw & Hww).
  rewrite (trim_remainder_eq s) by (auto using discard_empty_Suffix). cbn [bind]. rewrite trim_trailing_whitespace_ok. cbn [bind]. intros H. apply Ok_inj in H. injection H as <- <- <- <-.
  exists h, src, ks, ts, w. cbn [hs_new s_comments s_attrs s_warnings map app] in *. rewrite Hw. auto 20.
Qed.
(** The header is one of the text alone. *)
Lemma line_unique l e r l' e' r' : l ++ e ++ r = l' ++ e' ++ r' -> ~ In LF l -> ~ In LF l' -> eol e r -> eol e' r' -> l = l' /\ e = e' /\ r = r'.
Proof.
  revert l'. induction l as [|x l IH]; intros [|y l'] E Hl Hl' He He'; cbn [app] in E.
  - destruct He as [->|[-> ->]], He' as [->|[-> ->]]; cbn [app] in E; [injection E as ->; auto|discriminate E|discriminate E|auto].
  - destruct He as [->|[-> ->]]; cbn [app] in E; [|discriminate E]. injection E as <- _. exfalso. apply Hl'. left. reflexivity.
  - destruct He' as [->|[-> ->]]; cbn [app] in E; [|discriminate E]. injection E as -> _. exfalso. apply Hl. left. reflexivity.
  - injection E as -> E. destruct (IH l' E) as (-> & -> & ->); auto; intros X; [apply Hl|apply Hl']; right; exact X.
Qed.
Lemma entry_unique t n r n' r' : an_entry t n r -> an_entry t n' r' -> n = n' /\ r = r'.
Proof.
  set (s := mkspan t 1 1 0). set (hdr := fun (_ : parser) (x : text) => Ok x).
  assert (K : forall n r, an_entry t n r -> exists m, attribute_parse hdr s parser_default = Ok (Some m) /\ sp_data (at_name (mi_item m)) = n /\ sp_data (mi_after m) = r).
  { intros n0 r0 (c & d & u & x & H & Hd & El). apply e_parse_iff in El. destruct (attribute_parse_eq hdr s parser_default c r0 H) as (pre & vs & E & _). cbv zeta in E. rewrite <- (stripped_eq _ _ Hd), El in E.
    assert (Hv : exists v, e_value hdr parser_default u x = Ok v).
    { unfold e_value. destruct u; [eauto|]. destruct x as [|y x]; [eauto|]. destruct (fold_value_total (e_raw (y :: x))) as [q Eq]. rewrite Eq. cbn. eauto. }
    destruct Hv as (v & Ev). rewrite Ev in E. cbn [bind] in E. eexists. split; [exact E|]. cbn [mi_item mi_after at_name]. split; apply sp_data_skip. }
  intros H H'. destruct (K _ _ H) as (m & E & <- & <-), (K _ _ H') as (m' & E' & <- & <-). rewrite E in E'. apply Ok_inj, Some_inj in E'. subst. auto.
Qed.
Lemma trimmed_unique l n n' : trimmed_line l n -> trimmed_line l n' -> n = n'.
Proof.
  assert (K : forall n, trimmed_line l n -> n = trim_end_by (N.eqb SP) (strip_cr l)).
  { intros m (x & sps & Hm & -> & Hs & Hn). pose proof (strip_cr_minus l) as Hc. assert (Ex : strip_cr l = m ++ sps).
    { destruct Hm as [E1|[E1 N1]], Hc as [E2|[E2 N2]].
      - pose proof (eq_trans (eq_sym E1) E2) as Q. apply app_inj_tail in Q. destruct Q as [Q _]. symmetry. exact Q.
      - exfalso. eapply N2, E1.
      - exfalso. eapply N1, E2.
      - congruence. }
    rewrite Ex. symmetry. apply trim_spaces_unique; [exact Hs|exact Hn]. }
  intros H H'. rewrite (K _ H), (K _ H'). reflexivity.
Qed.
Lemma comment_not_entry l n : trimmed_line l n -> a_comment n -> forall l', l <> 58%N :: l'.
Proof. intros H (q & -> & _) l' ->. destruct (trimmed_prefix _ _ H) as (w & E). discriminate E. Qed.
Lemma blank_not_entry l : trimmed_line l [] -> forall l', l <> 58%N :: l'.
Proof.
  intros H l' E. destruct (norm_starts l l' E) as (n' & En). pose proof (trimmed_unique _ _ _ H (norm_trimmed l)) as Y. rewrite En in Y. discriminate Y.
Qed.
Lemma hline_unique t k r k' r' : hline t k r -> hline t k' r' -> k = k' /\ r = r'.
Proof.
  assert (EL : forall l e r n q, ~ In LF l -> eol e r -> an_entry (l ++ e ++ r) n q -> exists l', l = 58%N :: l') by (intros; eapply entry_starts; eauto).
  intros H. destruct H as [l e r Hl He Ht|l e r n Hl He Ht Hc|t n r He|l e r n Hl He Ht Nn Nc Ne]; intros H'.
  - remember (l ++ e ++ r) as t eqn:Et. destruct H' as [l1 e1 r1 Hl1 He1 Ht1|l1 e1 r1 n1 Hl1 He1 Ht1 Hc1|t1 n1 r1 He1|l1 e1 r1 n1 Hl1 He1 Ht1 Nn1 Nc1 Ne1].
    + destruct (line_unique _ _ _ _ _ _ Et) as (-> & -> & ->); auto.
    + destruct (line_unique _ _ _ _ _ _ Et) as (-> & -> & ->); auto. rewrite (trimmed_unique _ _ _ Ht1 Ht) in Hc1. destruct Hc1 as (q & Q & _). discriminate Q.
    + subst t1. destruct (EL _ _ _ _ _ Hl He He1) as (l' & El). exfalso. exact (blank_not_entry l Ht l' El).
    + destruct (line_unique _ _ _ _ _ _ Et) as (-> & -> & ->); auto. exfalso. apply Nn1. eapply trimmed_unique; eassumption.
  - remember (l ++ e ++ r) as t eqn:Et. destruct H' as [l1 e1 r1 Hl1 He1 Ht1|l1 e1 r1 n1 Hl1 He1 Ht1 Hc1|t1 n1 r1 He1|l1 e1 r1 n1 Hl1 He1 Ht1 Nn1 Nc1 Ne1].
    + destruct (line_unique _ _ _ _ _ _ Et) as (-> & -> & ->); auto. rewrite (trimmed_unique _ _ _ Ht Ht1) in Hc. destruct Hc as (q & Q & _). discriminate Q.
    + destruct (line_unique _ _ _ _ _ _ Et) as (-> & -> & ->); auto. rewrite (trimmed_unique _ _ _ Ht Ht1). auto.
    + subst t1. destruct (EL _ _ _ _ _ Hl He He1) as (l' & El). exfalso. exact (comment_not_entry l n Ht Hc l' El).
    + destruct (line_unique _ _ _ _ _ _ Et) as (-> & -> & ->); auto. exfalso. apply Nc1. rewrite (trimmed_unique _ _ _ Ht1 Ht). exact Hc.
  - destruct H' as [l1 e1 r1 Hl1 He1 Ht1|l1 e1 r1 n1 Hl1 He1 Ht1 Hc1|t1 n1 r1 He1|l1 e1 r1 n1 Hl1 He1 Ht1 Nn1 Nc1 Ne1].
    + destruct (EL _ _ _ _ _ Hl1 He1 He) as (l' & El). exfalso. exact (blank_not_entry l1 Ht1 l' El).
    + destruct (EL _ _ _ _ _ Hl1 He1 He) as (l' & El). exfalso. exact (comment_not_entry l1 n1 Ht1 Hc1 l' El).
    + destruct (entry_unique _ _ _ _ _ He He1) as [-> ->]. auto.
    + exfalso. eapply Ne1, He.
  - remember (l ++ e ++ r) as t eqn:Et. destruct H' as [l1 e1 r1 Hl1 He1 Ht1|l1 e1 r1 n1 Hl1 He1 Ht1 Hc1|t1 n1 r1 He1|l1 e1 r1 n1 Hl1 He1 Ht1 Nn1 Nc1 Ne1].
    + destruct (line_unique _ _ _ _ _ _ Et) as (-> & -> & ->); auto. exfalso. apply Nn. eapply trimmed_unique; eassumption.
    + destruct (line_unique _ _ _ _ _ _ Et) as (-> & -> & ->); auto. exfalso. apply Nc. rewrite (trimmed_unique _ _ _ Ht Ht1). exact Hc1.
    + subst t1. exfalso. eapply Ne, He1.
    + destruct (line_unique _ _ _ _ _ _ Et) as (-> & -> & ->); auto. rewrite (trimmed_unique _ _ _ Ht Ht1). auto.
Qed.
Lemma hline_nil k r : hline [] k r -> k = HBlank.
Proof.
  intros H. destruct (hline_unique [] k r HBlank [] H) as [-> _]; [|reflexivity]. apply (hl_blank [] [] []); [intros []|right; auto|].
  exists [], []. split; [right; split; [reflexivity|intros x X; destruct x; discriminate X]|]. split; [reflexivity|]. split; [intros c []|]. intros y X. destruct y; discriminate X.
Qed.
Lemma header_run_unique ts t ks ts' rest w : header_run ts t ks ts' rest w -> forall ks1 ts1 rest1 w1, header_run ts t ks1 ts1 rest1 w1 -> ks = ks1 /\ ts' = ts1 /\ rest = rest1 /\ w = w1.
Proof.
  induction 1 as [ts|t r ks ts' rest w Ne Hk R IH|ts t r Nts Ne Hk|ts t n r ks ts' rest w Hk R IH|ts t n r ks ts' rest w Hk R IH|t n r ks ts' rest w Hk Ht R IH|ts t n r ks ts' rest w Hk L R IH|t n r Hk Nt|ts t n r Hk L];
  intros ks1 ts1 rest1 w1 H'; inversion H'; subst;
  repeat match goal with
  | H1 : hline [] _ _ |- _ => apply hline_nil in H1; discriminate H1
  | H1 : hline ?t ?k ?r, H2 : hline ?t ?k' ?r' |- _ => first [constr_eq k k'; constr_eq r r'; fail 1 | let X := fresh in let Y := fresh in destruct (hline_unique _ _ _ _ _ H1 H2) as [X Y]; first [discriminate X | injection X as <-; subst | subst]; clear H2]
  end; try contradiction; try (cbn [length] in *; lia); auto;
  try (match goal with H1 : header_run ?ts ?r ?k ?t ?x ?w, IH : forall ks1, _ |- _ => destruct (IH _ _ _ _ H1) as (-> & -> & -> & ->) end; auto);
  try (match goal with H1 : length ?x = 1 \/ length ?x = 2, H2 : length ?x = 3 |- _ => rewrite H2 in H1; lia end).
Qed.
