(** Text-level reading of patterns: [lang U r prev w rest caps] says that [r] matches the text [w] between
    the character [prev] and the text [rest], with captures [caps]. *)
From Verif Require Import Text TextFacts Regex Regex_Proof Regex_Scan.

Section Iter.
  Variable L : option char -> text -> text -> list (nat * text) -> Prop.
  Inductive iter : option char -> text -> text -> list (nat * text) -> Prop :=
  | it_nil prev rest : iter prev [] rest []
  | it_cons prev w1 w2 rest c1 c2 : L prev w1 (w2 ++ rest) c1 -> w1 <> [] -> iter (prev_of prev w1) w2 rest c2 ->
      iter prev (w1 ++ w2) rest (c2 ++ c1).
End Iter.

Definition at_check (U : unicode) (a : assertion) (prev : option char) (rest : text) : bool := check U a (mkst 0 prev rest []).
Fixpoint lang (U : unicode) (r : re) (prev : option char) (w rest : text) (caps : list (nat * text)) {struct r} : Prop :=
  match r with
  | Eps => w = [] /\ caps = []
  | Chr p => exists c, w = [c] /\ p c = true /\ caps = []
  | Seq a b => exists w1 w2 c1 c2, w = w1 ++ w2 /\ caps = c2 ++ c1 /\ lang U a prev w1 (w2 ++ rest) c1 /\ lang U b (prev_of prev w1) w2 rest c2
  | Alt a b => lang U a prev w rest caps \/ lang U b prev w rest caps
  | Star _ a => iter (lang U a) prev w rest caps
  | Grp n a => exists c, caps = (n, w) :: c /\ lang U a prev w rest c
  | Assert a => w = [] /\ caps = [] /\ at_check U a prev rest = true
  end.

Definition ext (s : st) (w rest : text) (caps : list (nat * text)) : st :=
  mkst (s_pos s + length w) (prev_of (s_prev s) w) rest (caps ++ s_caps s).
Lemma ext_ext s w1 r1 c1 w2 r2 c2 : ext (ext s w1 r1 c1) w2 r2 c2 = ext s (w1 ++ w2) r2 (c2 ++ c1).
Proof. unfold ext. cbn [s_pos s_prev s_rest s_caps]. rewrite app_length, prev_of_app, app_assoc, Nat.add_assoc. reflexivity. Qed.
Lemma check_at U a s : check U a s = at_check U a (s_prev s) (s_rest s).
Proof. destruct a; reflexivity. Qed.
Lemma ext_nil s rest : s_rest s = rest -> ext s [] rest [] = s.
Proof. intros <-. destruct s. unfold ext. cbn. rewrite Nat.add_0_r. reflexivity. Qed.
Lemma ext_cap s w rest c n : s_rest s = w ++ rest -> set_cap n s (ext s w rest c) = ext s w rest ((n, w) :: c).
Proof.
  intros E. unfold set_cap, ext. cbn [s_pos s_prev s_rest s_caps]. rewrite E. replace (s_pos s + length w - s_pos s) with (length w) by lia.
  rewrite firstn_len. reflexivity.
Qed.

Lemma den_lang U r s s' : den U r s s' -> exists w caps, s_rest s = w ++ s_rest s' /\ s' = ext s w (s_rest s') caps /\ lang U r (s_prev s) w (s_rest s') caps.
Proof.
  induction 1 as [s|p s c t Hr Hp|a b s s1 s2 D1 IH1 D2 IH2|a b s s1 D IH|a b s s1 D IH|g a s|g a s s1 s2 D1 IH1 Lt D2 IH2|n a s s1 D IH|a s H].
  - exists [], []. split; [reflexivity|]. split; [symmetry; apply ext_nil; reflexivity|]. split; reflexivity.
  - exists [c], []. split; [exact Hr|]. split; [unfold ext, advance; cbn; f_equal; lia|]. exists c. auto.
  - destruct IH1 as (w1 & c1 & E1 & Es1 & L1), IH2 as (w2 & c2 & E2 & Es2 & L2). exists (w1 ++ w2), (c2 ++ c1).
    split; [rewrite E1, E2, app_assoc; reflexivity|]. rewrite Es1 in Es2. rewrite ext_ext in Es2. split; [exact Es2|].
    exists w1, w2, c1, c2. split; [reflexivity|]. split; [reflexivity|]. rewrite <- E2. split; [exact L1|]. rewrite Es1 in L2. exact L2.
  - destruct IH as (w & c & E & Es & L). exists w, c. split; [exact E|]. split; [exact Es|]. left. exact L.
  - destruct IH as (w & c & E & Es & L). exists w, c. split; [exact E|]. split; [exact Es|]. right. exact L.
  - exists [], []. split; [reflexivity|]. split; [symmetry; apply ext_nil; reflexivity|]. constructor.
  - destruct IH1 as (w1 & c1 & E1 & Es1 & L1), IH2 as (w2 & c2 & E2 & Es2 & L2). exists (w1 ++ w2), (c2 ++ c1).
    split; [rewrite E1, E2, app_assoc; reflexivity|]. rewrite Es1 in Es2. rewrite ext_ext in Es2. split; [exact Es2|].
    cbn [lang]. apply it_cons; [rewrite <- E2; exact L1| |rewrite Es1 in L2; exact L2].
    intros ->. rewrite Es1 in Lt. cbn in Lt. lia.
  - destruct IH as (w & c & E & Es & L). exists w, ((n, w) :: c). split; [exact E|]. split; [rewrite Es at 1; apply ext_cap; exact E|].
    exists c. split; [reflexivity|exact L].
  - exists [], []. split; [reflexivity|]. split; [symmetry; apply ext_nil; reflexivity|]. split; [reflexivity|]. split; [reflexivity|]. rewrite <- check_at. exact H.
Qed.

Lemma lang_den U r : forall s w rest caps, s_rest s = w ++ rest -> lang U r (s_prev s) w rest caps -> den U r s (ext s w rest caps).
Proof.
  induction r as [|p|a IHa b IHb|a IHa b IHb|g a IHa|n a IHa|a]; intros s w rest caps E L.
  - destruct L as [-> ->]. rewrite ext_nil by exact E. constructor.
  - destruct L as (c & -> & Hp & ->). cbn in E. replace (ext s [c] rest []) with (advance s c rest); [constructor; assumption|]. unfold ext, advance. cbn. f_equal. lia.
  - destruct L as (w1 & w2 & c1 & c2 & -> & -> & L1 & L2). rewrite <- app_assoc in E. rewrite <- ext_ext with (r1 := w2 ++ rest).
    econstructor; [apply IHa; eassumption|]. apply IHb; [reflexivity|exact L2].
  - destruct L as [L|L]; [apply d_alt_l, IHa; assumption|apply d_alt_r, IHb; assumption].
  - cbn [lang] in L. revert E. remember (s_prev s) as pv eqn:Epv. revert s Epv.
    induction L as [pv rest|pv w1 w2 rest c1 c2 L1 Hw L2 IH]; intros s -> E.
    + rewrite ext_nil by exact E. constructor.
    + rewrite <- app_assoc in E. rewrite <- ext_ext with (r1 := w2 ++ rest). eapply d_star_cons; [apply IHa; eassumption| |].
      * unfold ext. cbn. destruct w1; [contradiction|]. cbn. lia.
      * apply IH; reflexivity.
  - destruct L as (c & -> & L). rewrite <- ext_cap by exact E. constructor. apply IHa; assumption.
  - destruct L as (-> & -> & H). rewrite ext_nil by exact E. constructor. rewrite check_at. cbn in E. rewrite E. exact H.
Qed.

Lemma match_here_lang U r prev t m : match_here U r prev t = Some m ->
  t = m_text m ++ m_after m /\ m_prev m = prev_of prev (m_text m) /\ lang U r prev (m_text m) (m_after m) (m_caps m).
Proof.
  intros H. apply match_here_sound in H. destruct H as (s' & D & Ht & Ha & Hc & Hp & Hl & Hp2). split; [exact Ht|]. split; [exact Hp2|].
  apply den_lang in D. destruct D as (w & caps & E & Es & L). cbn [s_rest s_prev] in *. rewrite <- Ha in *.
  assert (Ew : w = m_text m). { rewrite Ht in E. apply app_inv_tail in E. auto. }
  subst w. rewrite Hc, Es. unfold ext. cbn [s_caps]. rewrite app_nil_r. exact L.
Qed.
Lemma lang_match U r prev w rest caps : lang U r prev w rest caps -> exists m, match_here U r prev (w ++ rest) = Some m.
Proof. intros L. eapply match_here_some. apply lang_den with (s := mkst 0 prev (w ++ rest) []); [reflexivity|exact L]. Qed.
Lemma no_lang_no_match U r prev t : (forall w rest caps, t = w ++ rest -> ~ lang U r prev w rest caps) -> match_here U r prev t = None.
Proof.
  intros H. destruct (match_here U r prev t) as [m|] eqn:E; [|reflexivity]. apply match_here_lang in E. destruct E as (E & _ & L). destruct (H _ _ _ E L).
Qed.

Lemma iter_chr U p prev w rest caps : iter (lang U (Chr p)) prev w rest caps <-> Forall (fun c => p c = true) w /\ caps = [].
Proof.
  split.
  - induction 1 as [prev rest|prev w1 w2 rest c1 c2 L1 Hw L2 [IH1 IH2]]; [split; constructor|]. destruct L1 as (c & -> & Hp & ->). rewrite IH2. split; [constructor; assumption|reflexivity].
  - intros [F ->]. revert prev. induction F as [|c w Hc F IH]; intros prev; [constructor|].
    apply (it_cons (lang U (Chr p)) prev [c] w rest [] []); [exists c; auto|discriminate|]. apply IH.
Qed.
Lemma lang_lit U w : forall prev x rest caps, lang U (Lit w) prev x rest caps <-> x = w /\ caps = [].
Proof.
  induction w as [|c w IH]; intros prev x rest caps; [reflexivity|]. destruct w as [|d w].
  - cbn [Lit Lit1 lang]. unfold c_is. split.
    + intros (a & -> & Ha & ->). apply N.eqb_eq in Ha. subst a. auto.
    + intros [-> ->]. exists c. rewrite N.eqb_refl. auto.
  - rewrite lit_cons2. cbn [lang]. split.
    + intros (w1 & w2 & c1 & c2 & -> & -> & (a & -> & Ha & ->) & L). apply IH in L. destruct L as [-> ->]. apply N.eqb_eq in Ha. subst a. auto.
    + intros [-> ->]. exists [c], (d :: w), [], []. split; [reflexivity|]. split; [reflexivity|]. split; [exists c; unfold c_is; rewrite N.eqb_refl; auto|]. apply IH. auto.
Qed.
Lemma lang_lit1 U c prev x rest caps : lang U (Lit1 c) prev x rest caps <-> x = [c] /\ caps = [].
Proof. apply (lang_lit U [c]). Qed.
Lemma lang_opt_lit1 U c prev x rest caps : lang U (Opt (Lit1 c)) prev x rest caps <-> (x = [c] \/ x = []) /\ caps = [].
Proof. unfold Opt. cbn [lang]. split; [intros [(a & -> & Ha & ->)|[-> ->]]; auto|intros [[->| ->] ->]; auto].
  - apply N.eqb_eq in Ha. subst a. auto.
  - left. exists c. unfold c_is. rewrite N.eqb_refl. auto.
Qed.
Lemma lang_seq U a b prev w rest caps : lang U (Seq a b) prev w rest caps <->
  exists w1 w2 c1 c2, w = w1 ++ w2 /\ caps = c2 ++ c1 /\ lang U a prev w1 (w2 ++ rest) c1 /\ lang U b (prev_of prev w1) w2 rest c2.
Proof. reflexivity. Qed.
Lemma lang_alt U a b prev w rest caps : lang U (Alt a b) prev w rest caps <-> lang U a prev w rest caps \/ lang U b prev w rest caps.
Proof. reflexivity. Qed.
Lemma lang_grp U n a prev w rest caps : lang U (Grp n a) prev w rest caps <-> exists c, caps = (n, w) :: c /\ lang U a prev w rest c.
Proof. reflexivity. Qed.
Lemma lang_chr U p prev w rest caps : lang U (Chr p) prev w rest caps <-> exists c, w = [c] /\ p c = true /\ caps = [].
Proof. reflexivity. Qed.
Lemma lang_many_chr U g p prev w rest caps : lang U (Star g (Chr p)) prev w rest caps <-> Forall (fun c => p c = true) w /\ caps = [].
Proof. apply iter_chr. Qed.
Lemma lang_assert U a prev w rest caps : lang U (Assert a) prev w rest caps <-> w = [] /\ caps = [] /\ at_check U a prev rest = true.
Proof. reflexivity. Qed.
Lemma lang_eps U prev w rest caps : lang U Eps prev w rest caps <-> w = [] /\ caps = [].
Proof. reflexivity. Qed.
Lemma lang_upto_chr U p n : forall prev w rest caps, lang U (Upto n (Chr p)) prev w rest caps <-> Forall (fun c => p c = true) w /\ length w <= n /\ caps = [].
Proof.
  induction n as [|n IH]; intros prev w rest caps; cbn [Upto].
  - rewrite lang_eps. split; [intros [-> ->]; repeat split; [constructor|cbn; lia]|]. intros (F & L & ->). destruct w; [auto|cbn in L; lia].
  - unfold Opt. rewrite lang_alt, lang_seq, lang_eps. split.
    + intros [(w1 & w2 & c1 & c2 & -> & -> & (c & -> & Hc & ->) & L)|[-> ->]]; [|repeat split; [constructor|cbn; lia]].
      apply IH in L. destruct L as (F & Ln & ->). repeat split; [constructor; assumption|cbn; lia].
    + intros (F & L & ->). destruct w as [|c w]; [auto|]. left. inversion F; subst. exists [c], w, [], []. repeat split; [exists c; auto|].
      apply IH. repeat split; [assumption|cbn in L; lia].
Qed.

(** ** Rewriting with a declarative rule *)
(** [R prev w rest x]: after [prev] and before [rest], the text [w] is replaced by [x]. *)
Section Rewritten.
  Variable R : option char -> text -> text -> text -> Prop.
  Inductive rewritten : option char -> text -> text -> Prop :=
  | rw_nil prev : rewritten prev [] []
  | rw_step prev w r x o : R prev w r x -> rewritten (prev_of prev w) r o -> rewritten prev (w ++ r) (x ++ o)
  | rw_char prev c t o : (forall w r x, c :: t = w ++ r -> ~ R prev w r x) -> rewritten (Some c) t o -> rewritten prev (c :: t) (c :: o).
End Rewritten.
(** A rule that never applies to empty text and leaves no choice. *)
Definition rule_ok (R : option char -> text -> text -> text -> Prop) : Prop :=
  (forall prev w r x, R prev w r x -> w <> []) /\
  (forall prev w1 r1 x1 w2 r2 x2, R prev w1 r1 x1 -> R prev w2 r2 x2 -> w1 ++ r1 = w2 ++ r2 -> w1 = w2 /\ x1 = x2).
(** The matcher [r] with replacer [rep] implements the rule. *)
Definition implements (U : unicode) (r : re) (rep : mtch -> res text) (R : option char -> text -> text -> text -> Prop) : Prop :=
  (forall prev w rest caps m, lang U r prev w rest caps -> m_text m = w -> m_caps m = caps -> exists x, rep m = Ok x /\ R prev w rest x) /\
  (forall prev w rest x, R prev w rest x -> exists caps, lang U r prev w rest caps).

Section Implements.
  Variables (U : unicode) (r : re) (rep : mtch -> res text) (R : option char -> text -> text -> text -> Prop).
  Hypothesis Hr : rule_ok R.
  Hypothesis Hi : implements U r rep R.
  Lemma implements_match prev t m : match_here U r prev t = Some m ->
    exists x, t = m_text m ++ m_after m /\ m_prev m = prev_of prev (m_text m) /\ R prev (m_text m) (m_after m) x /\ rep m = Ok x.
  Proof.
    intros H. apply match_here_lang in H. destruct H as (E & Hp & L). destruct Hi as [H1 _]. destruct (H1 _ _ _ _ m L eq_refl eq_refl) as (x & Hx & Rx). exists x. auto.
  Qed.
  Lemma implements_nonempty : never_empty U r.
  Proof. intros prev t m H. apply implements_match in H. destruct H as (x & _ & _ & H & _). destruct Hr as [H1 _]. apply (H1 _ _ _ _ H). Qed.
  Lemma implements_some prev w rest x : R prev w rest x ->
    exists m, match_here U r prev (w ++ rest) = Some m /\ m_text m = w /\ m_after m = rest /\ rep m = Ok x.
  Proof.
    intros H. destruct Hi as [_ H2]. destruct (H2 _ _ _ _ H) as [caps L]. destruct (lang_match _ _ _ _ _ _ L) as [m Hm]. exists m. split; [exact Hm|].
    apply implements_match in Hm. destruct Hm as (x' & E & _ & H' & Hx'). destruct Hr as [_ Hd]. destruct (Hd _ _ _ _ _ _ _ H H' E) as [-> ->].
    split; [reflexivity|]. split; [|exact Hx']. apply app_inv_head in E. auto.
  Qed.
  Lemma scans_rewritten prev t o : scans U r rep prev t o <-> rewritten R prev t o.
  Proof.
    split.
    - induction 1 as [prev Hn|prev c t o Hn Hs IH|prev t m x o Hm Hx Hs IH].
      + constructor.
      + apply rw_char; [|exact IH]. intros w rest x E H. apply implements_some in H. destruct H as (m & Hm & _). rewrite <- E in Hm. congruence.
      + apply implements_match in Hm. destruct Hm as (x' & -> & Hp & H & Hx'). rewrite Hx in Hx'. apply (f_equal (fun r => match r with Ok y => y | _ => x end)) in Hx'. subst x'.
        apply rw_step; [exact H|]. rewrite <- Hp. exact IH.
    - induction 1 as [prev|prev w rest x o H Hs IH|prev c t o Hn Hs IH].
      + constructor. destruct (match_here U r prev []) eqn:E; [|reflexivity]. exfalso. pose proof (implements_nonempty _ _ _ E) as N.
        apply implements_match in E. destruct E as (x & E & _). symmetry in E. apply app_eq_nil in E. destruct E. contradiction.
      + apply implements_some in H. destruct H as (m & Hm & Ht & Ha & Hx). eapply sc_match; [exact Hm|exact Hx|]. apply match_here_text in Hm. destruct Hm as [_ ->]. rewrite Ht, Ha. exact IH.
      + apply sc_skip; [|exact IH]. destruct (match_here U r prev (c :: t)) eqn:E; [|reflexivity]. exfalso. apply implements_match in E.
        destruct E as (x & E & _ & H & _). apply (Hn _ _ _ E H).
  Qed.
  Lemma replace_all_rewritten h o : replace_all_pure U r rep h = Ok o <-> rewritten R None h o.
  Proof. rewrite replace_all_pure_scans by apply implements_nonempty. apply scans_rewritten. Qed.
  Lemma replace_all_total h : exists o, replace_all_pure U r rep h = Ok o.
  Proof. apply replace_all_pure_ok. intros pv x m H. apply implements_match in H. destruct H as (y & _ & _ & _ & H). eauto. Qed.
End Implements.

Lemma rewritten_id (R : option char -> text -> text -> text -> Prop) : forall t prev, (forall pv w rest x, R pv w rest x -> ~ exists a, t = a ++ w ++ rest) -> rewritten R prev t t.
Proof.
  induction t as [|c t IH]; intros prev H; [constructor|]. apply rw_char.
  - intros w rest x E HR. apply (H _ _ _ _ HR). exists []. exact E.
  - apply IH. intros pv w rest x HR (a & ->). apply (H _ _ _ _ HR). exists (c :: a). reflexivity.
Qed.
