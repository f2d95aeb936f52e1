(** Proofs about the inline passthroughs. *)
From Verif Require Import Text TextFacts Span_Model Span_Proof Span_Laws Maps Parser_Model Regex Regex_Proof Regex_Scan Regex_Lang Regex_Lazy SecId_Proof Attrlist_Model Look_Proof Render_Model Quote_Model Macro_Model Macro_Spec Macro_Proof Inline_Spec Inline_Proof
  Url_Proof Group_Model Group_Spec Group_Proof Pass_Spec.

(** * Replacing with a state *)
Section Sound.
  Context {St : Type} (U : unicode) (r : re) (rep : St -> mtch -> text -> res (St * text)) (T : St -> text -> option char -> text -> St -> text -> Prop).
  Context (NE : never_empty U r).
  Context (Tnil : forall s d prev, T s d prev [] s []).
  Context (Tchar : forall s d prev c t s' o, match_here U r prev (c :: t) = None -> T s (d ++ [c]) (Some c) t s' o -> T s d prev (c :: t) s' (c :: o)).
  Context (Tstep : forall s d prev t m s1 d1, match_here U r prev t = Some m -> rep s m d = Ok (s1, d1) ->
    exists x, d1 = d ++ x /\ forall s' o, T s1 d1 (m_prev m) (m_after m) s' o -> T s d prev t s' (x ++ o)).
  Lemma sound_skip p : forall s d prev t s' o, (forall a b, p = a ++ b -> b <> [] -> match_here U r (prev_of prev a) (b ++ t) = None) ->
    T s (d ++ p) (prev_of prev p) t s' o -> T s d prev (p ++ t) s' (p ++ o).
  Proof.
    induction p as [|c p IH]; intros s d prev t s' o Hn H; [rewrite app_nil_r in H; exact H|]. cbn [app]. apply Tchar; [apply (Hn [] (c :: p) eq_refl); discriminate|].
    apply IH; [|rewrite <- app_assoc; rewrite <- prev_of_cons in H; exact H]. intros a b Eab Hb. rewrite prev_of_cons with (prev := prev). apply Hn; [rewrite Eab; reflexivity|exact Hb].
  Qed.
  Lemma sound_end t : forall s d prev, (forall a b, t = a ++ b -> match_here U r (prev_of prev a) b = None) -> T s d prev t s t.
  Proof.
    induction t as [|c t IH]; intros s d prev Hn; [apply Tnil|]. apply Tchar; [apply (Hn [] _ eq_refl)|]. apply IH. intros a b Eab. rewrite prev_of_cons with (prev := prev). apply Hn. rewrite Eab. reflexivity.
  Qed.
  Lemma sound_fold prev t l e : segmented U r prev t l e -> forall s d s' d', replace_fold rep l s d = Ok (s', d') -> exists o, d' ++ e = d ++ o /\ T s d prev t s' o.
  Proof.
    induction 1 as [prev t Hn|prev p m l e Hm Hf Hs IH]; intros s d s' d' H.
    - cbn [replace_fold] in H. apply Ok_inj in H. injection H as <- <-. exists t. split; [reflexivity|apply sound_end, Hn].
    - cbn [replace_fold] in H. destruct (rep s m (d ++ p)) as [[s1 d1]| |] eqn:Er; try discriminate H. cbn [bind fst snd] in H. destruct (Tstep _ _ _ _ _ _ _ Hm Er) as (x & -> & Hx).
      destruct (IH _ _ _ _ H) as (o & Eo & To). destruct (match_here_text _ _ _ _ _ Hm) as [_ Hp]. exists (p ++ x ++ o). split; [rewrite Eo, <- !app_assoc; reflexivity|].
      apply sound_skip; [exact Hf|]. apply Hx. rewrite Hp, prev_of_app. exact To.
  Qed.
  Lemma sound_all s h s' o : replace_all U r rep s h = Ok (s', o) -> T s [] None h s' o.
  Proof.
    unfold replace_all. intros H. pose proof (find_all_segmented U r h NE) as S. destruct (find_all U r h) as [l e]. cbn [fst snd] in S. destruct l as [|pm l].
    - apply Ok_inj in H. injection H as <- <-. inversion S as [? ? Hn|]; subst. apply sound_end, Hn.
    - destruct (replace_fold rep (pm :: l) s []) as [[s1 d1]| |] eqn:E; try discriminate H. cbn [bind fst snd] in H. apply Ok_inj in H. injection H as -> <-.
      destruct (sound_fold _ _ _ _ S _ _ _ _ E) as (o' & Eo & To). cbn [app] in Eo. rewrite Eo. exact To.
  Qed.
End Sound.

(** * Marks *)
Lemma delimited_least {A} U n mark (k : st -> A) s x : rmatch U (Delimited n mark) (fun s' => Some (k s')) s = Some x ->
  exists body rest, s_rest s = mark ++ body ++ mark ++ rest /\ closes mark body rest /\ x = k (ext s (mark ++ body ++ mark) rest [(n + 2, mark); (n + 1, body); (n, mark)]).
Proof.
  unfold Delimited. cbn [Seqs]. intros H. apply rmatch_seq_lang in H. destruct H as (w & r1 & c1 & E1 & L1 & H). apply -> lang_grp in L1. destruct L1 as (c & -> & L1). apply -> lang_lit in L1. destruct L1 as [-> ->].
  set (s1 := ext s mark r1 [(n, mark)]) in *.
  change (rmatch U (ManyL (Chr c_any)) (fun s' => rmatch U (Grp (n + 2) (Lit mark)) (fun s' => Some (k s')) (set_cap (n + 1) s1 s')) s1 = Some x) in H.
  rewrite rmatch_manyl_chr in H. apply first_some_least in H. destruct H as (i & Hi & Ei & Hl). cbn [s_rest s1 ext] in Hi. pose proof (run_len_le c_any r1) as Hr.
  assert (J : forall u v, r1 = u ++ v -> set_cap (n + 1) s1 (jump s1 (length u)) = ext s1 u v [(n + 1, u)]) by (intros u v Eu; apply cap_jump; exact Eu).
  assert (Hfi : length (firstn i r1) = i) by (rewrite firstn_length; lia). pose proof (J (firstn i r1) (skipn i r1) (eq_sym (firstn_skipn i r1))) as Ji. rewrite Hfi in Ji. rewrite Ji in Ei.
  apply rmatch_lang in Ei. destruct Ei as (w2 & rest & c2 & E2 & L2 & Ex). apply -> lang_grp in L2. destruct L2 as (c & -> & L2). apply -> lang_lit in L2. destruct L2 as [-> ->]. cbn [s_rest ext] in E2.
  exists (firstn i r1), rest. split; [|split].
  - rewrite E1. f_equal. rewrite <- E2, firstn_skipn. reflexivity.
  - intros y z Ey. rewrite <- E2, firstn_skipn in Ey. rewrite Hfi. destruct (le_lt_dec i (length y)) as [|Hlt]; [assumption|]. exfalso.
    assert (Hy : length y <= run_len c_any r1) by (rewrite Ey; apply run_len_ge, Forall_forall; reflexivity).
    specialize (Hl (length y) ltac:(lia)). rewrite (J y (mark ++ z) Ey) in Hl. revert Hl.
    apply (lang_rmatch U (Grp (n + 2) (Lit mark)) k _ mark z [(n + 2, mark)]); [reflexivity|]. apply lang_grp. exists []. split; [reflexivity|apply lang_lit; auto].
  - unfold s1 in Ex. rewrite !ext_ext in Ex. injection Ex as <-. reflexivity.
Qed.
Lemma closes_unique mark b r b' r' : closes mark b r -> closes mark b' r' -> b ++ mark ++ r = b' ++ mark ++ r' -> b = b' /\ r = r'.
Proof.
  intros H H' E. pose proof (H _ _ E) as L1. pose proof (H' _ _ (eq_sym E)) as L2. apply app_len_eq2 in E; [|lia]. destruct E as [-> E]. split; [reflexivity|apply app_inv_head in E; exact E].
Qed.
Lemma delim_no {A} U n mark (k : st -> A) s x y : rmatch U (Delimited n mark) (fun s' => Some (k s')) s = None -> s_rest s <> mark ++ x ++ mark ++ y.
Proof.
  intros H E. revert H. apply (lang_rmatch U _ k s (mark ++ x ++ mark) y [(n + 2, mark); (n + 1, x); (n, mark)]); [rewrite E, <- !app_assoc; reflexivity|apply delim_lang].
Qed.
(** The marks in order of preference. *)
Definition MARKS : re := Alts [Delimited 4 (lit "+++"); Delimited 7 (lit "++"); Delimited 10 (lit "$$")].
Definition mark_num (mark : text) : nat := if text_eqb mark (lit "+++") then 4 else if text_eqb mark (lit "++") then 7 else 10.
Definition outranked (mark body rest : text) : Prop := mark = lit "++" -> forall x y, mark ++ body ++ mark ++ rest <> lit "+++" ++ x ++ lit "+++" ++ y.
Lemma marks_match {A} U (k : st -> A) s x : rmatch U MARKS (fun s' => Some (k s')) s = Some x ->
  exists mark body rest, In mark pass_marks /\ s_rest s = mark ++ body ++ mark ++ rest /\ closes mark body rest /\ outranked mark body rest /\
    x = k (ext s (mark ++ body ++ mark) rest [(mark_num mark + 2, mark); (mark_num mark + 1, body); (mark_num mark, mark)]).
Proof.
  unfold MARKS. cbn [Alts]. intros H. apply rmatch_alt in H. destruct H as [H|(Hn & H)].
  - apply delimited_least in H. destruct H as (body & rest & Es & Hc & ->). exists (lit "+++"), body, rest. split; [left; reflexivity|]. split; [exact Es|]. split; [exact Hc|]. split; [intros K; discriminate K|reflexivity].
  - apply rmatch_alt in H. destruct H as [H|(Hn2 & H)].
    + apply delimited_least in H. destruct H as (body & rest & Es & Hc & ->). exists (lit "++"), body, rest. split; [right; left; reflexivity|]. split; [exact Es|]. split; [exact Hc|]. split; [|reflexivity].
      intros _ y z. rewrite <- Es. apply (delim_no U 4 (lit "+++") k). exact Hn.
    + apply delimited_least in H. destruct H as (body & rest & Es & Hc & ->). exists (lit "$$"), body, rest. split; [right; right; left; reflexivity|]. split; [exact Es|]. split; [exact Hc|]. split; [intros K; discriminate K|reflexivity].
Qed.
Lemma marks_lang U prev mark body rest : In mark pass_marks -> lang U MARKS prev (mark ++ body ++ mark) rest [(mark_num mark + 2, mark); (mark_num mark + 1, body); (mark_num mark, mark)].
Proof.
  unfold MARKS, pass_marks. cbn [In Alts]. intros [<-|[<-|[<-|[]]]]; [left|right; left|right; right]; apply delim_lang.
Qed.
Lemma mark_head mark : In mark pass_marks -> exists c r, mark = c :: r /\ (c = 43%N \/ c = 36%N).
Proof. unfold pass_marks. cbn [In]. intros [<-|[<-|[<-|[]]]]; eexists; eexists; (split; [reflexivity|auto]). Qed.
Lemma marks_unique m b r m' b' r' : In m pass_marks -> In m' pass_marks -> closes m b r -> closes m' b' r' -> outranked m b r -> outranked m' b' r' ->
  m ++ b ++ m ++ r = m' ++ b' ++ m' ++ r' -> m = m' /\ b = b' /\ r = r'.
Proof.
  intros Hm Hm' Hc Hc' Ho Ho' E.
  assert (m = m') as <-.
  { unfold pass_marks in Hm, Hm'. cbn [In] in Hm, Hm'. destruct Hm as [<-|[<-|[<-|[]]]], Hm' as [<-|[<-|[<-|[]]]]; try reflexivity; try discriminate E; exfalso.
    - apply (Ho' eq_refl b r). symmetry. exact E.
    - apply (Ho eq_refl b' r'). exact E. }
  apply app_inv_head in E. split; [reflexivity|]. apply (closes_unique m); assumption.
Qed.

(** * Lists and backslashes *)
Definition LIST : re := Seqs [Grp 1 (Opt (Lit1 BSL)); Lit1 91%N; Grp 2 (Plus (Chr (c_not (c_in (lit "[]"))))); Lit1 93%N].
Lemma not_bracket a : Forall (fun c => c_not (c_in (lit "[]")) c = true) a <-> forall c, In c a -> ~ In c (lit "[]").
Proof.
  rewrite Forall_forall. unfold c_not. split; intros H c Hc; specialize (H c Hc).
  - apply negb_true_iff in H. apply not_in_spec in H. exact H.
  - apply negb_true_iff, not_in_spec. exact H.
Qed.
Lemma no_brackets_lang U prev w rest c : lang U (Plus (Chr (c_not (c_in (lit "[]"))))) prev w rest c <-> no_brackets w /\ c = [].
Proof. rewrite lang_plus_chr, not_bracket. unfold no_brackets. tauto. Qed.
Definition list_caps (a : option (text * text)) : list (nat * text) := match a with Some (b, a) => [(2, a); (1, b)] | None => [] end.
Lemma list_lang U prev w rest c : lang U (Opt LIST) prev w rest c <-> exists a, list_ok a /\ w = list_src a /\ c = list_caps a.
Proof.
  unfold Opt, LIST. cbn [Seqs]. split.
  - intros L. apply lang_alt in L. destruct L as [L|L]; [|apply -> lang_eps in L; destruct L as (-> & ->); exists None; repeat split].
    apply lang_seq in L. destruct L as (x1 & x2 & d1 & d2 & -> & -> & Le & L1). apply -> lang_grp in Le. destruct Le as (c' & -> & Le). apply escape_lang in Le. destruct Le as (He & ->).
    apply lang_seq in L1. destruct L1 as (x3 & x4 & d3 & d4 & -> & -> & Lb & L1). apply -> lang_lit1 in Lb. destruct Lb as [-> ->].
    apply lang_seq in L1. destruct L1 as (x5 & x6 & d5 & d6 & -> & -> & La & L1). apply -> lang_lit1 in L1. destruct L1 as [-> ->].
    apply -> lang_grp in La. destruct La as (c' & -> & La). apply no_brackets_lang in La. destruct La as (Ha & ->). exists (Some (x1, x5)). split; [exact (conj He Ha)|split; reflexivity].
  - intros (a & Ha & -> & ->). destruct a as [[b a]|]; [|apply lang_alt; right; apply <- lang_eps; auto]. destruct Ha as [He Ha]. cbn [list_src list_caps]. apply lang_alt. left.
    apply lang_seq. exists b, (lit "[" ++ a ++ lit "]"), [(1, b)], [(2, a)]. split; [reflexivity|]. split; [reflexivity|].
    split; [apply lang_grp; exists []; split; [reflexivity|]; apply lang_opt_lit1; split; [unfold escape in He; tauto|reflexivity]|].
    apply lang_seq. exists (lit "["), (a ++ lit "]"), [], [(2, a)]. split; [reflexivity|]. split; [reflexivity|]. split; [apply lang_lit1; auto|].
    apply lang_seq. exists a, (lit "]"), [(2, a)], []. split; [reflexivity|]. split; [reflexivity|]. split; [|apply lang_lit1; auto]. apply lang_grp. exists []. split; [reflexivity|]. apply no_brackets_lang. auto.
Qed.
Lemma backslashes_lang U prev w rest c : lang U (Upto 2 (Lit1 BSL)) prev w rest c <-> backslashes w /\ c = [].
Proof.
  unfold Lit1. rewrite lang_upto_chr. unfold backslashes. split.
  - intros (F & Hl & ->). split; [|reflexivity]. assert (F' : Forall (fun c => c = BSL) w) by (eapply Forall_impl; [|exact F]; intros y Hy; apply N.eqb_eq in Hy; symmetry; exact Hy).
    destruct w as [|a [|b [|d w]]]; cbn in Hl; try lia; repeat match goal with H : Forall _ (_ :: _) |- _ => inversion H; clear H; subst end; auto.
  - intros (H & ->). destruct H as [->|[->| ->]]; (split; [repeat constructor|]); (split; [cbn; lia|reflexivity]).
Qed.
Lemma backslashes_all e : backslashes e -> Forall (fun c => c = BSL) e.
Proof. intros [->|[->| ->]]; repeat constructor. Qed.
Lemma same_backslashes e e' c c' r r' : backslashes e -> backslashes e' -> c <> BSL -> c' <> BSL -> e ++ c :: r = e' ++ c' :: r' -> e = e' /\ c :: r = c' :: r'.
Proof. intros He He' Hc Hc' E. destruct (run_unique (fun c => c = BSL) e e' c c' r r' (backslashes_all _ He) (backslashes_all _ He') Hc Hc' E) as (-> & -> & ->). auto. Qed.
Lemma no_brackets_end a a' r r' : no_brackets a -> no_brackets a' -> a ++ lit "]" ++ r = a' ++ lit "]" ++ r' -> a = a' /\ r = r'.
Proof.
  intros [_ Ha] [_ Ha'] E. destruct (run_unique (fun c => ~ In c (lit "[]")) a a' 93%N 93%N r r') as (-> & _ & ->); [apply Forall_forall; exact Ha|apply Forall_forall; exact Ha'|intros K; apply K; cbn; auto|intros K; apply K; cbn; auto|exact E|auto].
Qed.

(** * The macro *)
Definition SUBS : re := Seq (Plus (Chr (c_range 97%N 122%N))) (Many (Seq (Lit1 COMMA) (Plus (Chr (fun c => c_range 97%N 122%N c || (c =? 45)%N))))).
Lemma lower_spec c : c_range 97%N 122%N c = true <-> lower c.
Proof. unfold c_range, lower. rewrite andb_true_iff, !N.leb_le. reflexivity. Qed.
Lemma lower_all n : Forall (fun c => c_range 97%N 122%N c = true) n <-> Forall lower n.
Proof. rewrite !Forall_forall. split; intros H c Hc; apply lower_spec, H, Hc. Qed.
Lemma dashed_all n : Forall (fun c => (c_range 97%N 122%N c || (c =? 45)%N)%bool = true) n <-> Forall (fun c => lower c \/ c = 45%N) n.
Proof. rewrite !Forall_forall. split; intros H c Hc; specialize (H c Hc); [apply orb_true_iff in H; rewrite lower_spec, N.eqb_eq in H; exact H|apply orb_true_iff; rewrite lower_spec, N.eqb_eq; exact H]. Qed.
Definition commaed (ns : list text) : text := concat (map (fun x => lit "," ++ x) ns).
Definition names_ok (ns : list text) : Prop := Forall (fun x => x <> [] /\ Forall (fun c => lower c \/ c = 45%N) x) ns.
Lemma more_lang U prev w rest c : lang U (Many (Seq (Lit1 COMMA) (Plus (Chr (fun c => c_range 97%N 122%N c || (c =? 45)%N))))) prev w rest c <-> exists ns, names_ok ns /\ w = commaed ns /\ c = [].
Proof.
  unfold Many. change (lang U (Star true ?a) prev w rest c) with (iter (lang U a) prev w rest c). split.
  - induction 1 as [prev rest|prev w1 w2 rest c1 c2 L1 Hw L2 (ns & Hns & -> & ->)]; [exists []; repeat split; constructor|].
    apply lang_seq in L1. destruct L1 as (x & y & d1 & d2 & -> & -> & Lx & Ly). apply -> lang_lit1 in Lx. destruct Lx as [-> ->]. apply -> lang_plus_chr in Ly. destruct Ly as (Hn & F & ->).
    exists (y :: ns). split; [constructor; [split; [exact Hn|apply dashed_all, F]|exact Hns]|]. split; reflexivity.
  - intros (ns & Hns & -> & ->). revert prev. induction Hns as [|x ns [Hx Fx] Hns IH]; intros prev; [constructor|]. 
    apply (Regex_Lang.it_cons _ prev (lit "," ++ x) (commaed ns) rest [] []); [|discriminate|apply IH]. apply lang_seq. exists (lit ","), x, [], []. split; [reflexivity|]. split; [reflexivity|].
    split; [apply lang_lit1; auto|]. apply lang_plus_chr. split; [exact Hx|]. split; [apply dashed_all, Fx|reflexivity].
Qed.
Lemma subs_lang U prev w rest c : lang U (Opt (Grp 14 SUBS)) prev w rest c <-> sub_list w /\ c = match w with [] => [] | _ => [(14, w)] end.
Proof.
  unfold Opt, SUBS, sub_list. split.
  - intros L. apply lang_alt in L. destruct L as [L|L]; [|apply -> lang_eps in L; destruct L as (-> & ->); auto]. apply -> lang_grp in L. destruct L as (c' & -> & L).
    apply lang_seq in L. destruct L as (n & y & d1 & d2 & -> & -> & Ln & Ly). apply -> lang_plus_chr in Ln. destruct Ln as (Hn & F & ->). apply -> more_lang in Ly. destruct Ly as (ns & Hns & -> & ->).
    split; [right; exists n, ns; split; [split; [exact Hn|apply lower_all, F]|split; [exact Hns|reflexivity]]|]. destruct n; [contradiction|reflexivity].
  - intros ([->|(n & ns & [Hn F] & Hns & ->)] & ->); [apply lang_alt; right; apply <- lang_eps; auto|]. apply lang_alt. left. apply lang_grp. exists []. split; [destruct n; [contradiction|reflexivity]|].
    apply lang_seq. exists n, (commaed ns), [], []. split; [reflexivity|]. split; [reflexivity|]. split; [apply lang_plus_chr; split; [exact Hn|]; split; [apply lower_all, F|reflexivity]|apply more_lang; exists ns; auto].
Qed.
Lemma sub_list_chars s : sub_list s -> Forall (fun c => lower c \/ c = 45%N \/ c = COMMA) s.
Proof.
  intros [->|(n & ns & [_ F] & Hns & ->)]; [constructor|]. apply Forall_app. split; [eapply Forall_impl; [|exact F]; auto|].
  induction Hns as [|x ns [_ Fx] Hns IH]; [constructor|]. cbn [map concat]. apply Forall_app. split; [|exact IH]. constructor; [auto|]. eapply Forall_impl; [|exact Fx]. cbv beta. intros c [H|H]; auto.
Qed.
Lemma no_ws_trim s : Forall (fun c => is_ws c = false) s -> trim s = s.
Proof.
  intros F. unfold trim, trim_end, trim_start, trim_end_by, trim_start_by. assert (K : forall x, Forall (fun c => is_ws c = false) x -> drop_while_c is_ws x = x) by (intros [|c x] Fx; [reflexivity|inversion Fx as [|? ? Hc]; subst; unfold drop_while_c; cbn [span_while]; rewrite Hc; reflexivity]).
  rewrite (K (rev s)) by (apply Forall_rev, F). rewrite rev_involutive. apply K, F.
Qed.
Lemma lower_no_ws c : lower c \/ c = 45%N \/ c = COMMA -> is_ws c = false.
Proof. unfold lower. intros [H|[->| ->]]; [|reflexivity|reflexivity]. apply not_true_is_false. unfold is_ws. repeat (rewrite orb_true_iff || rewrite andb_true_iff || rewrite N.leb_le || rewrite N.eqb_eq). lia. Qed.
Lemma macro_subs_spec s : sub_list s -> forall g, macro_subs s g <-> exists o, (match s with [] => Ok None | _ => from_custom_string None s end) = Ok o /\ g = match o with Some g' => g' | None => GNone end.
Proof.
  intros Hs g. assert (Ht : trim s = s) by (apply no_ws_trim; eapply Forall_impl; [|apply sub_list_chars, Hs]; intros c; apply lower_no_ws).
  assert (K : forall g', names_subs s g' <-> (match s with [] => Ok None | _ => from_custom_string None s end) = Ok (Some g')).
  { intros g'. destruct s as [|c s].
    - split; [|discriminate]. intros [H|(_ & l & (raws & Hr & _ & Ej & F) & _)].
      + unfold word_group, group_words in H. cbn [In] in H. repeat (destruct H as [H|H]; [discriminate H|]). destruct H.
      + exfalso. destruct raws as [|x raws]; [contradiction|]. destruct x as [|y x]; [|destruct raws; discriminate Ej]. destruct raws as [|y raws]; [|discriminate Ej].
        inversion F as [|? i ? ? R]; subst. cbn in R. inversion R as [| | | |n s0 Hin E|n s0 Hin E|n s0 Hin E|n s0 Hin E]; try discriminate.
        * subst n. unfold names in Hin. cbn [In] in Hin. repeat (destruct Hin as [Hin|Hin]; [discriminate Hin|]). destruct Hin.
        * destruct n; discriminate E.
    - rewrite from_custom_string_iff, Ht. reflexivity. }
  destruct (match s with [] => Ok None | _ => from_custom_string None s end) as [o| |] eqn:Eo.
  - unfold macro_subs. destruct o as [g0|].
    + split.
      * intros [H|(H & _)]; [apply K in H; apply Ok_inj in H; injection H as ->; eauto|]. exfalso. apply (H g0), K. reflexivity.
      * intros (o & H & ->). apply Ok_inj in H. subst o. left. apply K. reflexivity.
    + split.
      * intros [H|(_ & ->)]; [apply K in H; discriminate H|]. eauto.
      * intros (o & H & ->). apply Ok_inj in H. subst o. right. split; [|reflexivity]. intros g' H. apply K in H. discriminate H.
  - exfalso. destruct s as [|c s]; [discriminate Eo|]. rewrite from_custom_string_eq in Eo. discriminate Eo.
  - exfalso. destruct s as [|c s]; [discriminate Eo|]. rewrite from_custom_string_eq in Eo. discriminate Eo.
Qed.
Definition MACRO : re := Seq (Grp 13 (Opt (Lit1 BSL))) (Seq (Lit (lit "pass:")) (Seq (Opt (Grp 14 SUBS)) (Seq (Lit1 91%N) (Seq (Grp 15 (Alt Eps (Bracketed c_any))) (Lit1 93%N))))).
Lemma pass_re : INLINE_PASS_MACRO = Alt (Seq (Opt LIST) (Seq (Grp 3 (Upto 2 (Lit1 BSL))) MARKS)) MACRO.
Proof. reflexivity. Qed.
Definition quoted_caps (a : option (text * text)) (e mark body : text) : list (nat * text) :=
  [(mark_num mark + 2, mark); (mark_num mark + 1, body); (mark_num mark, mark); (3, e)] ++ list_caps a.
Definition macro_caps (e s l : text) : list (nat * text) := (15, l) :: match s with [] => [] | _ => [(14, s)] end ++ [(13, e)].
Lemma pass_match U prev t m : match_here U INLINE_PASS_MACRO prev t = Some m ->
  (exists a e mark body, quoted_form a e mark body (m_text m) (m_after m) /\ m_caps m = quoted_caps a e mark body) \/
  (exists e s l, macro_form e s l (m_text m) /\ m_caps m = macro_caps e s l).
Proof.
  rewrite match_here_final, pass_re. intros H. apply rmatch_alt in H. destruct H as [H|(_ & H)].
  - left. apply rmatch_seq_lang in H. destruct H as (w1 & r1 & c1 & E1 & L1 & H). apply list_lang in L1. destruct L1 as (a & Ha & -> & ->).
    apply rmatch_seq_lang in H. destruct H as (e & r2 & c2 & E2 & L2 & H). apply -> lang_grp in L2. destruct L2 as (c & -> & L2). apply backslashes_lang in L2. destruct L2 as (He & ->).
    apply marks_match in H. destruct H as (mark & body & rest & Hm & E3 & Hc & Ho & ->). cbn [s_rest ext] in E1, E2, E3. rewrite !ext_ext.
    rewrite final_ext by (rewrite E1, E2, E3, <- !app_assoc; reflexivity). cbn [m_text m_caps m_after]. exists a, e, mark, body. split; [|unfold quoted_caps; cbn [app]; reflexivity].
    split; [reflexivity|]. split; [exact Ha|]. split; [exact He|]. split; [exact Hm|]. split; [exact Hc|exact Ho].
  - right. unfold MACRO in H. apply rmatch_seq_lang in H. destruct H as (e & r1 & c1 & E1 & L1 & H). apply -> lang_grp in L1. destruct L1 as (c & -> & L1). apply escape_lang in L1. destruct L1 as (He & ->).
    apply rmatch_seq_lang in H. destruct H as (w2 & r2 & c2 & E2 & L2 & H). apply -> lang_lit in L2. destruct L2 as [-> ->].
    apply rmatch_seq_lang in H. destruct H as (s & r3 & c3 & E3 & L3 & H). apply -> subs_lang in L3. destruct L3 as (Hs & ->).
    apply rmatch_seq_lang in H. destruct H as (w4 & r4 & c4 & E4 & L4 & H). apply -> lang_lit1 in L4. destruct L4 as [-> ->].
    apply group_label in H. destruct H as (l & rest & E5 & Hl & ->). cbn [s_rest ext] in E1, E2, E3, E4, E5. rewrite !ext_ext.
    rewrite final_ext by (rewrite E1, E2, E3, E4, E5, <- !app_assoc; reflexivity). cbn [m_text m_caps m_after]. exists e, s, l. split; [|unfold macro_caps; cbn [app]; destruct s; reflexivity].
    split; [rewrite <- ?app_assoc; reflexivity|]. split; [exact He|]. split; [exact Hs|exact Hl].
Qed.
Lemma pass_lang U prev w rest : pass_at prev w rest -> exists c, lang U INLINE_PASS_MACRO prev w rest c.
Proof.
  rewrite pass_re. intros [(a & e & mark & body & -> & Ha & He & Hm & _)|(e & s & l & -> & He & Hs & Hl)].
  - eexists. apply lang_alt. left. apply lang_seq. exists (list_src a), (e ++ mark ++ body ++ mark), (list_caps a). eexists. split; [reflexivity|]. split; [reflexivity|]. split; [apply list_lang; eauto|].
    apply lang_seq. exists e, (mark ++ body ++ mark), [(3, e)]. eexists. split; [reflexivity|]. split; [reflexivity|]. split; [apply lang_grp; exists []; split; [reflexivity|apply backslashes_lang; auto]|apply marks_lang, Hm].
  - eexists. apply lang_alt. right. apply lang_seq. exists e, (lit "pass:" ++ s ++ lit "[" ++ l ++ lit "]"), [(13, e)]. eexists. split; [reflexivity|]. split; [reflexivity|].
    split; [apply lang_grp; exists []; split; [reflexivity|]; apply lang_opt_lit1; split; [unfold escape in He; tauto|reflexivity]|].
    apply lang_seq. exists (lit "pass:"), (s ++ lit "[" ++ l ++ lit "]"), []. eexists. split; [reflexivity|]. split; [reflexivity|]. split; [apply lang_lit; auto|].
    apply lang_seq. exists s, (lit "[" ++ l ++ lit "]"). eexists. eexists. split; [reflexivity|]. split; [reflexivity|]. split; [apply subs_lang; split; [exact Hs|reflexivity]|].
    apply lang_seq. exists (lit "["), (l ++ lit "]"), []. eexists. split; [reflexivity|]. split; [reflexivity|]. split; [apply lang_lit1; auto|apply group_label_lang, Hl].
Qed.

(** * The first pass *)
Lemma escape_backslashes e : escape e -> backslashes e.
Proof. unfold escape, backslashes. tauto. Qed.
Lemma quoted_unique a e mark body w r a' e' mark' body' w' r' : quoted_form a e mark body w r -> quoted_form a' e' mark' body' w' r' -> w ++ r = w' ++ r' ->
  a = a' /\ e = e' /\ mark = mark' /\ body = body' /\ r = r'.
Proof.
  intros (-> & Ha & He & Hm & Hc & Ho) (-> & Ha' & He' & Hm' & Hc' & Ho') E. rewrite <- !app_assoc in E.
  assert (K : e ++ mark ++ body ++ mark ++ r = e' ++ mark' ++ body' ++ mark' ++ r' -> e = e' /\ mark = mark' /\ body = body' /\ r = r').
  { intros E'. destruct (mark_head _ Hm) as (c & q & Em & Hh), (mark_head _ Hm') as (c' & q' & Em' & Hh').
    assert (K : e = e' /\ mark ++ body ++ mark ++ r = mark' ++ body' ++ mark' ++ r').
    { rewrite Em, Em' in *. cbn [app] in *. apply same_backslashes; [exact He|exact He'| | |exact E']; [intros ->; destruct Hh; discriminate|intros ->; destruct Hh'; discriminate]. }
    destruct K as [-> E2]. split; [reflexivity|]. apply marks_unique; assumption. }
  assert (X : forall b l (x : text), escape b -> e ++ mark ++ body ++ mark ++ r = b ++ lit "[" ++ l ++ x -> False).
  { clear K E. intros b l x Hb E. destruct (mark_head _ Hm) as (c & q & Em & Hh). rewrite Em in E. cbn [app lit] in E.
    apply same_backslashes in E; [|exact He|apply escape_backslashes, Hb|intros ->; destruct Hh; discriminate|discriminate]. destruct E as [_ E]. injection E as -> _. destruct Hh; discriminate. }
  assert (X' : forall b l (x : text), escape b -> e' ++ mark' ++ body' ++ mark' ++ r' = b ++ lit "[" ++ l ++ x -> False).
  { clear K E X. intros b l x Hb E. destruct (mark_head _ Hm') as (c & q & Em & Hh). rewrite Em in E. cbn [app lit] in E.
    apply same_backslashes in E; [|exact He'|apply escape_backslashes, Hb|intros ->; destruct Hh; discriminate|discriminate]. destruct E as [_ E]. injection E as -> _. destruct Hh; discriminate. }
  destruct a as [[b l]|], a' as [[b' l']|]; cbn [list_src list_ok] in *.
  - destruct Ha as [Hb Hl], Ha' as [Hb' Hl']. rewrite <- !app_assoc in E. apply same_esc in E; [|exact Hb|exact Hb'|discriminate|discriminate]. destruct E as [-> E]. injection E as E.
    apply no_brackets_end in E; [|exact Hl|exact Hl']. destruct E as [-> E]. destruct (K E) as (-> & -> & -> & ->). auto.
  - exfalso. destruct Ha as [Hb _]. rewrite <- !app_assoc in E. apply (X' b l (lit "]" ++ e ++ mark ++ body ++ mark ++ r) Hb). symmetry. exact E.
  - exfalso. destruct Ha' as [Hb _]. rewrite <- !app_assoc in E. apply (X b' l' (lit "]" ++ e' ++ mark' ++ body' ++ mark' ++ r') Hb). exact E.
  - destruct (K E) as (-> & -> & -> & ->). auto.
Qed.
Lemma macro_unique e s l w r e' s' l' w' r' : macro_form e s l w -> macro_form e' s' l' w' -> w ++ r = w' ++ r' -> e = e' /\ s = s' /\ l = l' /\ r = r'.
Proof.
  intros (-> & He & Hs & Hl) (-> & He' & Hs' & Hl') E. rewrite <- !app_assoc in E. apply same_esc in E; [|exact He|exact He'|discriminate|discriminate]. destruct E as [-> E].
  change (lit "pass:" ++ s ++ lit "[" ++ l ++ lit "]" ++ r = lit "pass:" ++ s' ++ lit "[" ++ l' ++ lit "]" ++ r') in E. apply app_inv_head in E.
  assert (N : ~ (lower 91%N \/ 91%N = 45%N \/ 91%N = COMMA)) by (unfold lower; intros [H|[H|H]]; [lia|discriminate H|discriminate H]).
  destruct (run_unique _ s s' 91%N 91%N _ _ (sub_list_chars _ Hs) (sub_list_chars _ Hs') N N E) as (-> & _ & E2). destruct (label_end _ _ _ _ _ _ Hl Hl' E2) as [-> ->]. auto.
Qed.
Lemma quoted_macro a e mark body w r e' s l w' r' : quoted_form a e mark body w r -> macro_form e' s l w' -> w ++ r = w' ++ r' -> False.
Proof.
  intros (-> & Ha & He & Hm & _) (-> & He' & _) E. rewrite <- !app_assoc in E. destruct a as [[b x]|]; cbn [list_src list_ok app] in *.
  - destruct Ha as [Hb _]. rewrite <- !app_assoc in E. apply same_esc in E; [|exact Hb|exact He'|discriminate|discriminate]. destruct E as [_ E]. discriminate E.
  - destruct (mark_head _ Hm) as (c & q & -> & Hh). cbn [app] in E. apply same_backslashes in E; [|exact He|apply escape_backslashes, He'|intros ->; destruct Hh; discriminate|discriminate].
    destruct E as [_ E]. injection E as -> _. destruct Hh; discriminate.
Qed.
Lemma pass_nonempty prev r : ~ pass_at prev [] r.
Proof.
  intros [(a & e & mark & body & E & _ & _ & Hm & _)|(e & s & l & E & _)]; symmetry in E.
  - apply app_eq_nil in E. destruct E as [_ E]. apply app_eq_nil in E. destruct E as [_ E]. apply app_eq_nil in E. destruct E as [E _]. destruct (mark_head _ Hm) as (c & q & -> & _). discriminate E.
  - apply app_eq_nil in E. destruct E as [_ E]. discriminate E.
Qed.
Lemma pass_unique prev w r w' r' : pass_at prev w r -> pass_at prev w' r' -> w ++ r = w' ++ r' -> w = w'.
Proof.
  intros [(a & e & mark & body & Q)|(e & s & l & M)] [(a' & e' & mark' & body' & Q')|(e' & s' & l' & M')] E.
  - destruct (quoted_unique _ _ _ _ _ _ _ _ _ _ _ _ Q Q' E) as (-> & -> & -> & -> & _). destruct Q as (-> & _), Q' as (-> & _). reflexivity.
  - destruct (quoted_macro _ _ _ _ _ _ _ _ _ _ _ Q M' E).
  - destruct (quoted_macro _ _ _ _ _ _ _ _ _ _ _ Q' M (eq_sym E)).
  - destruct (macro_unique _ _ _ _ _ _ _ _ _ _ M M' E) as (-> & -> & -> & _). destruct M as (-> & _), M' as (-> & _). reflexivity.
Qed.
Lemma old_style_det a l l' : old_style a l -> old_style a l' -> l = l'.
Proof.
  intros [[-> ->]|E] [[E' ->]|E'].
  - reflexivity.
  - exfalso. apply (f_equal (@length char)) in E'. rewrite app_length in E'. cbn in E'. lia.
  - exfalso. subst a. apply (f_equal (@length char)) in E'. rewrite app_length in E'. cbn in E'. lia.
  - rewrite E in E'. apply app_inv_tail in E'. exact E'.
Qed.
Lemma old_syntax_spec a : (exists l, old_syntax a = Ok (l, true) /\ old_style a l) \/ (old_syntax a = Ok (a, false) /\ forall l, ~ old_style a l).
Proof.
  unfold old_syntax. destruct (text_eqb a (lit "x-")) eqn:E; [apply text_eqb_eq in E; left; exists []; split; [reflexivity|left; auto]|].
  destruct (ends_with (lit " x-") a) eqn:E2.
  - left. apply ends_with_spec in E2. destruct E2 as [r ->]. exists r. rewrite blen_app. change (blen (lit " x-")) with 3. replace (blen r + 3 - 3) with (blen r) by lia. rewrite str_to_at. cbn [bind]. split; [reflexivity|]. right. reflexivity.
  - right. split; [reflexivity|]. intros l [[-> _]|K]; [rewrite (proj2 (text_eqb_eq _ _) eq_refl) in E; discriminate E|]. rewrite K in E2. assert (T : ends_with (lit " x-") (l ++ lit " x-") = true) by (apply ends_with_spec; eauto). congruence.
Qed.
Definition applied (pts : list passthrough) (d : text) (x : outcome) : list passthrough * text :=
  match x with Keep x => (pts, d ++ x) | Take x pt => (pts ++ [pt], d ++ x ++ placeholder (length pts)) end.
Lemma quoted_step m a e mark body w rest : m_caps m = quoted_caps a e mark body -> quoted_form a e mark body w rest -> forall pts d, exists x, pass_macro_replacer pts m d = Ok (applied pts d x) /\ quoted_becomes a e mark body x.
Proof.
  intros Ec (_ & Ha & He & Hm & _) pts d.
  assert (Ea : cap m 1 = match a with Some (b, _) => Some b | None => None end /\ cap m 2 = match a with Some (_, l) => Some l | None => None end /\ cap m 3 = Some e).
  { unfold cap. rewrite Ec. unfold pass_marks in Hm. cbn [In] in Hm. destruct Hm as [<-|[<-|[<-|[]]]]; destruct a as [[b l]|]; repeat split; reflexivity. }
  assert (Em : exists idx, pass_macro_replacer pts m d = handle_quoted_text pts m idx d /\ cap m (idx - 1) = Some mark /\ cap m idx = Some body /\ unwrap_or_default (or_else (cap m 4) (or_else (cap m 7) (cap m 10))) = mark /\
     unwrap_or_default (or_else (cap m 5) (or_else (cap m 8) (cap m 11))) = body).
  { unfold pass_macro_replacer, cap. rewrite Ec. unfold pass_marks in Hm. cbn [In] in Hm. destruct Hm as [<-|[<-|[<-|[]]]]; destruct a as [[b l]|]; cbn; eexists; repeat split; reflexivity. }
  destruct Ea as (H1 & H2 & H3), Em as (idx & -> & Hi1 & Hi & Hb & Hq). unfold handle_quoted_text. rewrite Hb, Hq, H2, H3. unfold cap_idx. rewrite H1, Hi1, Hi. cbn [of_option unwrap_or_default].
  assert (Hr : forall e', e = BSL :: e' -> repeat BSL (length e - 1) = e') by (intros e' E; destruct He as [->|[->| ->]]; [discriminate E|injection E as <-; reflexivity|injection E as <-; reflexivity]).
  destruct e as [|c e].
  - cbn [length Nat.ltb Nat.leb]. destruct a as [[b l]|].
    + cbn [bind]. destruct Ha as [[->| ->] Hl].
      * cbn [text_eqb]. destruct (text_eqb mark (lit "++")) eqn:E.
        -- destruct (old_syntax_spec l) as [(l' & -> & Ho)|(-> & Ho)]; cbn [bind fst snd]; unfold pt_push.
           ++ eexists (Take [] _). split; [reflexivity|]. constructor. rewrite E. left. eauto.
           ++ eexists (Take [] _). split; [reflexivity|]. constructor. rewrite E. right. auto.
        -- cbn [bind fst snd]. unfold pt_push. eexists (Take [] _). split; [reflexivity|]. constructor. rewrite E. right. auto.
      * change (text_eqb [BSL] [BSL]) with true. cbv iota. unfold pt_push. exists (Take (lit "[" ++ l ++ lit "]") (mkpt body (mark_subs mark) None None)). split; [cbn [applied]; rewrite <- !app_assoc; reflexivity|constructor].
    + unfold pt_push. eexists (Take [] _). split; [reflexivity|constructor].
  - assert (c = BSL) as -> by (destruct He as [He|[He|He]]; [discriminate He|injection He; auto|injection He; auto]). rewrite (Hr e eq_refl). cbn [length]. change (0 <? S (length e)) with true. cbv iota.
    destruct a as [[b l]|]; [cbn [bind]; exists (Keep (list_src (Some (b, l)) ++ e ++ mark ++ body ++ mark)); split; [cbn [applied list_src]; rewrite <- !app_assoc; reflexivity|constructor]|].
    exists (Keep (list_src None ++ e ++ mark ++ body ++ mark)). split; [reflexivity|constructor].
Qed.
Lemma macro_step m e s l w : m_caps m = macro_caps e s l -> macro_form e s l w -> forall pts d, exists x, pass_macro_replacer pts m d = Ok (applied pts d x) /\ macro_becomes e s l x.
Proof.
  intros Ec (_ & He & Hs & Hl) pts d. unfold pass_macro_replacer, cap_idx.
  assert (Hc : cap m 4 = None /\ cap m 7 = None /\ cap m 10 = None /\ cap m 13 = Some e /\ cap m 14 = match s with [] => None | _ => Some s end /\ cap m 15 = Some l) by (unfold cap; rewrite Ec; destruct s; repeat split; reflexivity).
  destruct Hc as (-> & -> & -> & -> & -> & ->). cbn [of_option bind]. destruct He as [->| ->].
  - assert (K : exists o, match (match s with [] => None | _ => Some s end) with Some s => from_custom_string None s | None => Ok None end = Ok o /\ (match s with [] => Ok None | _ => from_custom_string None s end) = Ok o) by (destruct s; [eauto|rewrite from_custom_string_eq; eauto]).
    destruct K as (o & -> & Eo). cbn [bind]. unfold pt_push. eexists (Take [] _). split; [reflexivity|]. unfold replace_esc_bracket. rewrite unescape_eq by discriminate. constructor. apply macro_subs_spec; [exact Hs|eauto].
  - exists (Keep (lit "pass:" ++ s ++ lit "[" ++ l ++ lit "]")). split; [destruct s; reflexivity|constructor].
Qed.
Lemma first_step U prev t m pts d : match_here U INLINE_PASS_MACRO prev t = Some m -> exists x, pass_macro_replacer pts m d = Ok (applied pts d x) /\ pass_at prev (m_text m) (m_after m) /\ pass_out prev (m_text m) (m_after m) x.
Proof.
  intros H. apply pass_match in H. destruct H as [(a & e & mark & body & Q & Ec)|(e & s & l & M & Ec)].
  - destruct (quoted_step _ _ _ _ _ _ _ Ec Q pts d) as (x & Hx & B). exists x. split; [exact Hx|]. split; [left; eauto|left; eauto 10].
  - destruct (macro_step _ _ _ _ _ Ec M pts d) as (x & Hx & B). exists x. split; [exact Hx|]. split; [right; eauto|right; eauto 10].
Qed.
Lemma first_sound U t pts o : replace_all U INLINE_PASS_MACRO pass_macro_replacer [] t = Ok (pts, o) -> taken pass_at pass_out 0 None t pts o.
Proof.
  intros H. apply (sound_all U INLINE_PASS_MACRO pass_macro_replacer (fun s d prev t s' o => exists l, s' = s ++ l /\ taken pass_at pass_out (length s) prev t l o)) in H.
  - destruct H as (l & -> & H). exact H.
  - apply pass_never_empty.
  - intros s d prev. exists []. rewrite app_nil_r. split; [reflexivity|constructor].
  - intros s d prev c t' s' o' Hn (l & -> & T). exists l. split; [reflexivity|]. apply tk_char; [|exact T]. intros w r E F. destruct (pass_lang U _ _ _ F) as (cs & L). apply lang_match in L. destruct L as (m & Hm). rewrite <- E in Hm. congruence.
  - intros s d prev t' m s1 d1 Hm Hr. destruct (first_step _ _ _ _ s d Hm) as (x & Hx & F & G). rewrite Hr in Hx. apply Ok_inj in Hx. destruct (match_here_text _ _ _ _ _ Hm) as [-> ->]. destruct x as [x|x pt]; cbn [applied] in Hx; injection Hx as -> ->.
    + exists x. split; [reflexivity|]. intros s' o' (l & -> & T). exists l. split; [reflexivity|]. apply tk_keep; assumption.
    + exists (x ++ placeholder (length s)). split; [reflexivity|]. intros s' o' (l & -> & T). exists (pt :: l). rewrite <- app_assoc. split; [reflexivity|]. rewrite <- app_assoc. apply tk_take; [assumption|assumption|]. rewrite app_length, Nat.add_1_r in T. exact T.
Qed.
Lemma attributed_det old g a body pt pt' : attributed old g a body pt -> attributed old g a body pt' -> pt = pt'.
Proof.
  intros [(-> & l & Hl & ->)|(H & ->)] [(Eo & l' & Hl' & ->)|(H' & ->)].
  - rewrite (old_style_det _ _ _ Hl Hl'). reflexivity.
  - destruct H' as [H'|H']; [discriminate H'|destruct (H' _ Hl)].
  - subst old. destruct H as [H|H]; [discriminate H|destruct (H _ Hl')].
  - reflexivity.
Qed.
Lemma quoted_becomes_det a e mark body x x' : quoted_becomes a e mark body x -> quoted_becomes a e mark body x' -> x = x'.
Proof.
  intros H H'. destruct H as [a e mark body|mark body|a mark body|a mark body pt A]; inversion H'; subst; try reflexivity. f_equal. eapply attributed_det; eassumption.
Qed.
Lemma macro_becomes_det e s l x x' : sub_list s -> macro_becomes e s l x -> macro_becomes e s l x' -> x = x'.
Proof.
  intros Hs H H'. destruct H as [s l|s l g G]; inversion H' as [|? ? g' G']; subst; [reflexivity|]. apply (macro_subs_spec _ Hs) in G, G'. destruct G as (o & Eo & ->), G' as (o' & Eo' & ->). rewrite Eo in Eo'. apply Ok_inj in Eo'. subst o'. reflexivity.
Qed.
Lemma pass_out_det prev w r x x' : pass_out prev w r x -> pass_out prev w r x' -> x = x'.
Proof.
  intros [(a & e & mark & body & Q & B)|(e & s & l & M & B)] [(a' & e' & mark' & body' & Q' & B')|(e' & s' & l' & M' & B')].
  - destruct (quoted_unique _ _ _ _ _ _ _ _ _ _ _ _ Q Q' eq_refl) as (-> & -> & -> & -> & _). eapply quoted_becomes_det; eassumption.
  - destruct (quoted_macro _ _ _ _ _ r _ _ _ _ r Q M' eq_refl).
  - destruct (quoted_macro _ _ _ _ _ r _ _ _ _ r Q' M eq_refl).
  - destruct (macro_unique _ _ _ _ r _ _ _ _ r M M' eq_refl) as (-> & -> & -> & _). destruct M as (_ & _ & Hs & _). eapply macro_becomes_det; eassumption.
Qed.
Lemma taken_inv (F : option char -> text -> text -> Prop) (G : option char -> text -> text -> outcome -> Prop) n prev t l o : taken F G n prev t l o ->
  (t = [] /\ l = [] /\ o = []) \/
  (exists w r x o1, t = w ++ r /\ F prev w r /\ G prev w r (Keep x) /\ taken F G n (prev_of prev w) r l o1 /\ o = x ++ o1) \/
  (exists w r x pt l1 o1, t = w ++ r /\ F prev w r /\ G prev w r (Take x pt) /\ taken F G (S n) (prev_of prev w) r l1 o1 /\ l = pt :: l1 /\ o = x ++ placeholder n ++ o1) \/
  (exists c t1 o1, t = c :: t1 /\ (forall w r, t = w ++ r -> ~ F prev w r) /\ taken F G n (Some c) t1 l o1 /\ o = c :: o1).
Proof. intros [n0 p0|n0 p0 w r x l0 o0 HF HG H|n0 p0 w r x pt l0 o0 HF HG H|n0 p0 c t0 l0 o0 HF H]; [left|right; left|right; right; left|right; right; right]; eauto 15. Qed.
Lemma taken_det (F : option char -> text -> text -> Prop) (G : option char -> text -> text -> outcome -> Prop) : (forall prev r, ~ F prev [] r) -> (forall prev w r w' r', F prev w r -> F prev w' r' -> w ++ r = w' ++ r' -> w = w') -> (forall prev w r x x', G prev w r x -> G prev w r x' -> x = x') ->
  forall n prev t l o, taken F G n prev t l o -> forall l' o', taken F G n prev t l' o' -> l = l' /\ o = o'.
Proof.
  intros Hn Hu Hg n prev t l o H. induction H as [n prev|n prev w r x l o HF HG H IH|n prev w r x pt l o HF HG H IH|n prev c t l o HF H IH]; intros l' o' H'; apply taken_inv in H';
    destruct H' as [(E & -> & ->)|[(w' & r' & x' & o1 & E & HF' & HG' & HT & ->)|[(w' & r' & x' & pt' & l1 & o1 & E & HF' & HG' & HT & -> & ->)|(c' & t1 & o1 & E & HF' & HT & ->)]]].
  all: try (exfalso; symmetry in E; apply app_eq_nil in E; destruct E as [-> ->]; exact (Hn _ _ HF')).
  all: try (exfalso; apply app_eq_nil in E; destruct E as [-> ->]; exact (Hn _ _ HF)).
  all: try discriminate E.
  all: try (exfalso; exact (HF' _ _ eq_refl HF)).
  all: try (exfalso; exact (HF _ _ E HF')).
  - auto.
  - pose proof (Hu _ _ _ _ _ HF HF' E) as Ew. subst w'. apply app_inv_head in E. subst r'. pose proof (Hg _ _ _ _ _ HG HG') as Ex. injection Ex as <-. destruct (IH _ _ HT) as [-> ->]. auto.
  - pose proof (Hu _ _ _ _ _ HF HF' E) as Ew. subst w'. apply app_inv_head in E. subst r'. pose proof (Hg _ _ _ _ _ HG HG') as Ex. discriminate Ex.
  - pose proof (Hu _ _ _ _ _ HF HF' E) as Ew. subst w'. apply app_inv_head in E. subst r'. pose proof (Hg _ _ _ _ _ HG HG') as Ex. discriminate Ex.
  - pose proof (Hu _ _ _ _ _ HF HF' E) as Ew. subst w'. apply app_inv_head in E. subst r'. pose proof (Hg _ _ _ _ _ HG HG') as Ex. injection Ex as <- <-. destruct (IH _ _ HT) as [-> ->]. auto.
  - injection E as <- <-. destruct (IH _ _ HT) as [-> ->]. auto.
Qed.
Lemma first_det n prev t l o l' o' : taken pass_at pass_out n prev t l o -> taken pass_at pass_out n prev t l' o' -> l = l' /\ o = o'.
Proof. intros H. apply (taken_det pass_at pass_out pass_nonempty pass_unique pass_out_det n prev t l o H). Qed.
Lemma first_iff U t pts o : replace_all U INLINE_PASS_MACRO pass_macro_replacer [] t = Ok (pts, o) <-> taken pass_at pass_out 0 None t pts o.
Proof.
  split; [apply first_sound|]. intros H. destruct (phase1_ok U t) as (p & o' & E & _). rewrite E. apply first_sound in E. destruct (first_det _ _ _ _ _ _ _ E H) as [-> ->]. reflexivity.
Qed.
Lemma taken_id (F : option char -> text -> text -> Prop) (G : option char -> text -> text -> outcome -> Prop) : forall t n prev, (forall pv a w r, t = a ++ w ++ r -> ~ F pv w r) -> taken F G n prev t [] t.
Proof. induction t as [|c t IH]; intros n prev H; [constructor|]. apply tk_char; [intros w r E; apply (H prev [] w r E)|]. apply IH. intros pv a w r E. apply (H pv (c :: a) w r). rewrite E. reflexivity. Qed.
Lemma no_first t : contains (lit "++") t || contains (lit "$$") t || contains (lit "ss:") t = false -> taken pass_at pass_out 0 None t [] t.
Proof.
  intros H. apply orb_false_iff in H. destruct H as [H H3]. apply orb_false_iff in H. destruct H as [H1 H2]. apply taken_id. intros pv a w r E [(b & e & mark & body & -> & _ & _ & Hm & _)|(e & s & l & -> & _)].
  - assert (Q : forall q, occurs q mark -> contains q t = false -> False).
    { intros q (y & z & Eq) Hq. apply not_true_iff_false in Hq. apply Hq, contains_spec. exists (a ++ list_src b ++ e ++ y), (z ++ body ++ mark ++ r). rewrite E. rewrite Eq at 1. rewrite <- !app_assoc. reflexivity. }
    unfold pass_marks in Hm. cbn [In] in Hm. destruct Hm as [<-|[<-|[<-|[]]]].
    + apply (Q (lit "++")); [exists [], (lit "+"); reflexivity|exact H1].
    + apply (Q (lit "++")); [exists [], []; reflexivity|exact H1].
    + apply (Q (lit "$$")); [exists [], []; reflexivity|exact H2].
  - apply not_true_iff_false in H3. apply H3, contains_spec. exists (a ++ e ++ lit "pa"), (s ++ lit "[" ++ l ++ lit "]" ++ r). rewrite E, <- !app_assoc. reflexivity.
Qed.

(** * The second pass *)
Lemma not_word_check U a s : check U a s = true -> (a = AStartHalf -> not_word U (s_prev s)) /\ (a = AEndHalf -> not_word U (hd_error (s_rest s))).
Proof.
  intros H. split; intros ->; cbn [check] in H; apply negb_true_iff in H; intros c E; rewrite E in H; exact H.
Qed.
Lemma not_word_opt U o : not_word U o <-> word_opt U o = false.
Proof. unfold not_word. destruct o as [c|]; cbn; split; intros H; auto; [intros d E; injection E as <-; exact H|discriminate]. Qed.
Definition BODY : re := Seq (Chr c_nonspace) (OptL (Seq (ManyL (Chr c_any)) (Chr c_nonspace))).
Definition BODY2 : re := Alt (Chr c_nonspace) (Seqs [Chr c_nonspace; ManyL (Chr c_any); Chr c_nonspace]).
Definition CLOSE (mark : char) : re := Seq (Lit1 mark) (Assert AEndHalf).
Lemma body_eq {A} U n (k : st -> option A) s : rmatch U (Grp n BODY) k s = rmatch U (Grp n BODY2) k s.
Proof.
  unfold BODY, BODY2, OptL. cbn [Seqs]. change (rmatch U (Grp n ?a) k s) with (rmatch U a (fun s' => k (set_cap n s s')) s). generalize (fun s' => k (set_cap n s s')). clear k. intros k.
  change (rmatch U (Seq (Chr c_nonspace) (Alt Eps (Seq (ManyL (Chr c_any)) (Chr c_nonspace)))) k s) with
    (match s_rest s with c :: t => if c_nonspace c then match k (advance s c t) with Some x => Some x | None => rmatch U (Seq (ManyL (Chr c_any)) (Chr c_nonspace)) k (advance s c t) end else None | [] => None end).
  change (rmatch U (Alt (Chr c_nonspace) (Seq (Chr c_nonspace) (Seq (ManyL (Chr c_any)) (Chr c_nonspace)))) k s) with
    (match match s_rest s with c :: t => if c_nonspace c then k (advance s c t) else None | [] => None end with Some x => Some x | None =>
      match s_rest s with c :: t => if c_nonspace c then rmatch U (Seq (ManyL (Chr c_any)) (Chr c_nonspace)) k (advance s c t) else None | [] => None end end).
  destruct (s_rest s) as [|c t]; [reflexivity|]. destruct (c_nonspace c); reflexivity.
Qed.
Lemma nonspace_spec c : c_nonspace c = true <-> is_ws c = false.
Proof. unfold c_nonspace. apply negb_true_iff. Qed.
Lemma body_lang U prev w rest c : lang U BODY2 prev w rest c <-> tight w /\ c = [].
Proof.
  unfold BODY2, tight. cbn [Seqs]. split.
  - intros L. apply lang_alt in L. destruct L as [L|L].
    + apply -> lang_chr in L. destruct L as (d & -> & Hd & ->). split; [|reflexivity]. exists d. split; [apply nonspace_spec, Hd|auto].
    + apply lang_seq in L. destruct L as (x & y & d1 & d2 & -> & -> & L1 & L). apply -> lang_chr in L1. destruct L1 as (d & -> & Hd & ->).
      apply lang_seq in L. destruct L as (z & y' & d3 & d4 & -> & -> & L3 & L). apply -> lang_many_chr in L3. destruct L3 as [_ ->]. apply -> lang_chr in L. destruct L as (e & -> & He & ->).
      split; [|reflexivity]. exists d. split; [apply nonspace_spec, Hd|]. right. exists z, e. split; [reflexivity|apply nonspace_spec, He].
  - intros ((d & Hd & [->|(m & e & -> & He)]) & ->); apply lang_alt.
    + left. apply lang_chr. exists d. split; [reflexivity|]. split; [apply nonspace_spec, Hd|reflexivity].
    + right. apply lang_seq. exists [d], (m ++ [e]), [], []. split; [reflexivity|]. split; [reflexivity|]. split; [apply lang_chr; exists d; split; [reflexivity|]; split; [apply nonspace_spec, Hd|reflexivity]|].
      apply lang_seq. exists m, [e], [], []. split; [reflexivity|]. split; [reflexivity|]. split; [apply lang_many_chr; split; [apply Forall_forall; reflexivity|reflexivity]|]. apply lang_chr. exists e. split; [reflexivity|]. split; [apply nonspace_spec, He|reflexivity].
Qed.
Lemma close_lang U mark prev w rest c : lang U (CLOSE mark) prev w rest c <-> w = [mark] /\ c = [] /\ not_word U (hd_error rest).
Proof.
  unfold CLOSE. rewrite not_word_opt. split.
  - intros L. apply lang_seq in L. destruct L as (x & y & d1 & d2 & -> & -> & L1 & L). apply -> lang_lit1 in L1. destruct L1 as [-> ->]. apply -> lang_assert in L. destruct L as (-> & -> & H). cbn in H. apply negb_true_iff in H. auto.
  - intros (-> & -> & H). apply lang_seq. exists [mark], [], [], []. split; [reflexivity|]. split; [reflexivity|]. split; [apply lang_lit1; auto|]. apply lang_assert. split; [reflexivity|]. split; [reflexivity|]. cbn. rewrite H. reflexivity.
Qed.
Lemma tight_lang U n mark prev body rest : tight body -> not_word U (hd_error rest) -> lang U (Seq (Grp n BODY2) (CLOSE mark)) prev (body ++ [mark]) rest [(n, body)].
Proof.
  intros Ht Hw. apply lang_seq. exists body, [mark], [(n, body)], []. split; [reflexivity|]. split; [reflexivity|]. split; [apply lang_grp; exists []; split; [reflexivity|apply body_lang; auto]|apply close_lang; auto].
Qed.
Lemma tight_match {A} U n mark (k : st -> A) s x : rmatch U (Seq (Grp n BODY) (CLOSE mark)) (fun s' => Some (k s')) s = Some x ->
  exists body rest, s_rest s = body ++ mark :: rest /\ tight_at U mark body rest /\ x = k (ext s (body ++ [mark]) rest [(n, body)]).
Proof.
  change (rmatch U (Seq (Grp n BODY) (CLOSE mark)) (fun s' => Some (k s')) s) with (rmatch U (Grp n BODY) (rmatch U (CLOSE mark) (fun s' => Some (k s'))) s). rewrite body_eq. intros H.
  assert (FL : fixed_len U (CLOSE mark) 1) by (intros pv w rest c L; apply close_lang in L; destruct L as (-> & _); reflexivity).
  destruct (shortest_body U c_any c_nonspace n (CLOSE mark) 1 FL A k s x H) as (w & rest & c & Es & L & -> & Hmin).
  apply lang_seq in L. destruct L as (body & w2 & c1 & c2 & -> & -> & L1 & L2). apply -> lang_grp in L1. destruct L1 as (c' & -> & L1). apply body_lang in L1. destruct L1 as (Ht & ->). apply close_lang in L2. destruct L2 as (-> & -> & Hw).
  exists body, rest. split; [rewrite Es, <- app_assoc; reflexivity|]. split; [|reflexivity]. split; [auto|]. intros b r E Hb Hr.
  enough (length (body ++ [mark]) <= length (b ++ [mark])) by (rewrite !app_length in *; cbn in *; lia).
  apply (Hmin (b ++ [mark]) r [(n, b)]); [rewrite Es, <- !app_assoc; exact E|]. apply tight_lang; assumption.
Qed.
Lemma tight_unique U mark b r b' r' : tight_at U mark b r -> tight_at U mark b' r' -> b ++ mark :: r = b' ++ mark :: r' -> b = b' /\ r = r'.
Proof.
  intros ((T & W) & M) ((T' & W') & M') E. pose proof (M _ _ E T' W'). pose proof (M' _ _ (eq_sym E) T W). apply app_len_eq2 in E; [|lia]. destruct E as [-> E]. injection E as ->. auto.
Qed.
Definition OLD : re := Alt (Lit (lit "x-")) (Seq (Plus (Chr (c_not (c_in (lit "[]"))))) (Lit (lit " x-"))).
Lemma old_lang U prev w rest c : lang U OLD prev w rest c <-> old_list w /\ c = [].
Proof.
  unfold OLD, old_list. split.
  - intros L. apply lang_alt in L. destruct L as [L|L]; [apply -> lang_lit in L; destruct L as [-> ->]; auto|]. apply lang_seq in L. destruct L as (x & y & d1 & d2 & -> & -> & L1 & L). apply no_brackets_lang in L1. destruct L1 as (H & ->). apply -> lang_lit in L. destruct L as [-> ->]. eauto.
  - intros ([->|(p & Hp & ->)] & ->); apply lang_alt; [left; apply lang_lit; auto|right]. apply lang_seq. exists p, (lit " x-"), [], []. split; [reflexivity|]. split; [reflexivity|]. split; [apply no_brackets_lang; auto|apply lang_lit; auto].
Qed.
Definition F1 : re := Seq (Lit1 91%N) (Seq (Grp 1 OLD) (Seq (Lit1 93%N) (Seq (Lit1 96%N) (Seq (Grp 2 BODY) (CLOSE 96%N))))).
Definition F2 : re := Seq (Lit1 91%N) (Seq (Grp 3 (Plus (Chr (c_not (c_in (lit "[]")))))) (Seq (Lit1 93%N) (Seq (Grp 4 (Upto 2 (Lit1 BSL))) (Seq (Lit1 43%N) (Seq (Grp 5 BODY) (CLOSE 43%N)))))).
Definition F3 : re := Seq (Opt (Grp 6 (Lit1 BSL))) (Seq (Lit1 43%N) (Seq (Grp 7 BODY) (CLOSE 43%N))).
Lemma inline_re U prev t : match_here U INLINE_PASS prev t = rmatch U (Seq (Assert AStartHalf) (Alt F1 (Alt F2 F3))) (fun s => Some (final_m t s)) (mkst 0 prev t []).
Proof. reflexivity. Qed.
Definition form_caps (f : inline_form) : list (nat * text) :=
  match f with
  | FBacktick a body => [(2, body); (1, a)]
  | FPlus (Some a) e body => [(5, body); (4, e); (3, a)]
  | FPlus None e body => (7, body) :: match e with [] => [] | _ => [(6, e)] end
  end.
Lemma inline_match U prev t m : match_here U INLINE_PASS prev t = Some m -> exists f, inline_at U f prev (m_text m) (m_after m) /\ m_caps m = form_caps f.
Proof.
  rewrite inline_re. intros H. apply rmatch_seq_lang in H. destruct H as (w & r0 & c0 & E0 & L & H). apply -> lang_assert in L. destruct L as (-> & -> & Hs). cbn [s_rest s_prev app] in E0, Hs. subst r0. rewrite ext_nil in H by reflexivity.
  assert (Hp : not_word U prev) by (apply not_word_opt; cbn in Hs; apply negb_true_iff in Hs; exact Hs). clear Hs.
  apply rmatch_alt in H. destruct H as [H|(_ & H)]; [|apply rmatch_alt in H; destruct H as [H|(_ & H)]].
  - apply rmatch_seq_lang in H. destruct H as (w & r1 & c1 & E1 & L & H). apply -> lang_lit1 in L. destruct L as [-> ->].
    apply rmatch_seq_lang in H. destruct H as (a & r2 & c2 & E2 & L & H). apply -> lang_grp in L. destruct L as (c & -> & L). apply old_lang in L. destruct L as (Ha & ->).
    apply rmatch_seq_lang in H. destruct H as (w & r3 & c3 & E3 & L & H). apply -> lang_lit1 in L. destruct L as [-> ->].
    apply rmatch_seq_lang in H. destruct H as (w & r4 & c4 & E4 & L & H). apply -> lang_lit1 in L. destruct L as [-> ->].
    apply tight_match in H. destruct H as (body & rest & E5 & Ht & ->). cbn [s_rest ext] in E1, E2, E3, E4, E5. rewrite !ext_ext. rewrite final_ext by (rewrite E1, E2, E3, E4, E5, <- !app_assoc; reflexivity). cbn [m_text m_after m_caps].
    exists (FBacktick a body). split; [|reflexivity]. split; [exact Hp|]. split; [|split; assumption]. cbn [form_src]. rewrite <- ?app_assoc. reflexivity.
  - apply rmatch_seq_lang in H. destruct H as (w & r1 & c1 & E1 & L & H). apply -> lang_lit1 in L. destruct L as [-> ->].
    apply rmatch_seq_lang in H. destruct H as (a & r2 & c2 & E2 & L & H). apply -> lang_grp in L. destruct L as (c & -> & L). apply no_brackets_lang in L. destruct L as (Ha & ->).
    apply rmatch_seq_lang in H. destruct H as (w & r3 & c3 & E3 & L & H). apply -> lang_lit1 in L. destruct L as [-> ->].
    apply rmatch_seq_lang in H. destruct H as (e & r4 & c4 & E4 & L & H). apply -> lang_grp in L. destruct L as (c & -> & L). apply backslashes_lang in L. destruct L as (He & ->).
    apply rmatch_seq_lang in H. destruct H as (w & r5 & c5 & E5 & L & H). apply -> lang_lit1 in L. destruct L as [-> ->].
    apply tight_match in H. destruct H as (body & rest & E6 & Ht & ->). cbn [s_rest ext] in E1, E2, E3, E4, E5, E6. rewrite !ext_ext. rewrite final_ext by (rewrite E1, E2, E3, E4, E5, E6, <- !app_assoc; reflexivity). cbn [m_text m_after m_caps].
    exists (FPlus (Some a) e body). split; [|reflexivity]. split; [exact Hp|]. split; [|split; [assumption|split; assumption]]. cbn [form_src plus_list]. rewrite <- ?app_assoc. reflexivity.
  - apply rmatch_seq_lang in H. destruct H as (e & r1 & c1 & E1 & L & H). apply escape_lang_grp in L.
    apply rmatch_seq_lang in H. destruct H as (w & r5 & c5 & E5 & L5 & H). apply -> lang_lit1 in L5. destruct L5 as [-> ->].
    apply tight_match in H. destruct H as (body & rest & E6 & Ht & ->). cbn [s_rest ext] in E1, E5, E6. rewrite !ext_ext. rewrite final_ext by (rewrite E1, E5, E6, <- !app_assoc; reflexivity). cbn [m_text m_after m_caps].
    exists (FPlus None e body). split; [split; [exact Hp|]; split; [cbn [form_src plus_list app]; rewrite <- ?app_assoc; reflexivity|split; [unfold escape; tauto|assumption]]|]. destruct L as [[-> ->]|[-> ->]]; reflexivity.
Qed.
Lemma tight_rest_lang U n mark prev body rest : tight_at U mark body rest -> exists c, lang U (Seq (Grp n BODY) (CLOSE mark)) prev (body ++ [mark]) rest c.
Proof.
  intros ((Ht & Hw) & _). exists [(n, body)]. apply lang_seq. exists body, [mark], [(n, body)], []. split; [reflexivity|]. split; [reflexivity|]. split; [|apply close_lang; auto]. apply lang_grp. exists []. split; [reflexivity|].
  unfold BODY, OptL. destruct Ht as (d & Hd & [->|(m & e & -> & He)]).
  - apply lang_seq. exists [d], [], [], []. split; [reflexivity|]. split; [reflexivity|]. split; [apply lang_chr; exists d; split; [reflexivity|]; split; [apply nonspace_spec, Hd|reflexivity]|]. apply lang_alt. left. apply <- lang_eps. auto.
  - apply lang_seq. exists [d], (m ++ [e]), [], []. split; [reflexivity|]. split; [reflexivity|]. split; [apply lang_chr; exists d; split; [reflexivity|]; split; [apply nonspace_spec, Hd|reflexivity]|]. apply lang_alt. right.
    apply lang_seq. exists m, [e], [], []. split; [reflexivity|]. split; [reflexivity|]. split; [apply lang_many_chr; split; [apply Forall_forall; reflexivity|reflexivity]|]. apply lang_chr. exists e. split; [reflexivity|]. split; [apply nonspace_spec, He|reflexivity].
Qed.
Lemma form_lang U f prev rest : form_ok U f rest -> exists c, lang U (Alt F1 (Alt F2 F3)) prev (form_src f) rest c.
Proof.
  destruct f as [a body|[a|] e body]; cbn [form_ok form_src plus_list app].
  - intros (Ha & Ht). destruct (tight_rest_lang U 2 96%N (prev_of (prev_of (prev_of (prev_of prev (lit "[")) a) (lit "]")) (lit "`")) body rest Ht) as (c & L). eexists. apply lang_alt. left.
    apply lang_seq. exists (lit "["), (a ++ lit "]" ++ lit "`" ++ body ++ lit "`"), []. eexists. split; [reflexivity|]. split; [reflexivity|]. split; [apply lang_lit1; auto|].
    apply lang_seq. exists a, (lit "]" ++ lit "`" ++ body ++ lit "`"), [(1, a)]. eexists. split; [reflexivity|]. split; [reflexivity|]. split; [apply lang_grp; exists []; split; [reflexivity|apply old_lang; auto]|].
    apply lang_seq. exists (lit "]"), (lit "`" ++ body ++ lit "`"), []. eexists. split; [reflexivity|]. split; [reflexivity|]. split; [apply lang_lit1; auto|].
    apply lang_seq. exists (lit "`"), (body ++ lit "`"), []. eexists. split; [reflexivity|]. split; [reflexivity|]. split; [apply lang_lit1; auto|]. exact L.
  - intros (Ha & He & Ht). destruct (tight_rest_lang U 5 43%N (prev_of (prev_of (prev_of (prev_of (prev_of prev (lit "[")) a) (lit "]")) e) (lit "+")) body rest Ht) as (c & L). eexists. apply lang_alt. right. apply lang_alt. left.
    apply lang_seq. exists (lit "["), (a ++ lit "]" ++ e ++ lit "+" ++ body ++ lit "+"), []. eexists. split; [rewrite <- !app_assoc; reflexivity|]. split; [reflexivity|]. split; [apply lang_lit1; auto|].
    apply lang_seq. exists a, (lit "]" ++ e ++ lit "+" ++ body ++ lit "+"), [(3, a)]. eexists. split; [reflexivity|]. split; [reflexivity|]. split; [apply lang_grp; exists []; split; [reflexivity|apply no_brackets_lang; auto]|].
    apply lang_seq. exists (lit "]"), (e ++ lit "+" ++ body ++ lit "+"), []. eexists. split; [reflexivity|]. split; [reflexivity|]. split; [apply lang_lit1; auto|].
    apply lang_seq. exists e, (lit "+" ++ body ++ lit "+"), [(4, e)]. eexists. split; [reflexivity|]. split; [reflexivity|]. split; [apply lang_grp; exists []; split; [reflexivity|apply backslashes_lang; auto]|].
    apply lang_seq. exists (lit "+"), (body ++ lit "+"), []. eexists. split; [reflexivity|]. split; [reflexivity|]. split; [apply lang_lit1; auto|]. exact L.
  - intros (He & Ht). destruct (tight_rest_lang U 7 43%N (prev_of (prev_of prev e) (lit "+")) body rest Ht) as (c & L). eexists. apply lang_alt. right. apply lang_alt. right.
    apply lang_seq. exists e, (lit "+" ++ body ++ lit "+"), (match e with [] => [] | _ => [(6, e)] end). eexists. split; [reflexivity|]. split; [reflexivity|]. split.
    + unfold Opt. destruct He as [->| ->]; apply lang_alt; [right; apply <- lang_eps; split; [reflexivity|reflexivity]|left]. apply lang_grp. exists []. split; [reflexivity|apply lang_lit1; auto].
    + apply lang_seq. exists (lit "+"), (body ++ lit "+"), []. eexists. split; [reflexivity|]. split; [reflexivity|]. split; [apply lang_lit1; auto|]. exact L.
Qed.
Lemma inline_some U f prev w rest : inline_at U f prev w rest -> match_here U INLINE_PASS prev (w ++ rest) <> None.
Proof.
  intros (Hp & -> & Ho). rewrite inline_re. destruct (form_lang U f prev rest Ho) as (c & L).
  apply (lang_rmatch U _ (final_m (form_src f ++ rest)) _ (form_src f) rest c); [reflexivity|]. apply lang_seq. exists [], (form_src f), [], c. split; [reflexivity|]. split; [rewrite app_nil_r; reflexivity|].
  split; [|exact L]. apply lang_assert. split; [reflexivity|]. split; [reflexivity|]. cbn. apply not_word_opt in Hp. rewrite Hp. reflexivity.
Qed.
Lemma old_list_brackets a : old_list a -> no_brackets a.
Proof.
  intros [->|(p & [Hp Hb] & ->)]; split; [discriminate| |destruct p; [contradiction|discriminate]|]; intros c Hc.
  - cbn in Hc. cbn. intuition (subst; discriminate).
  - apply in_app_iff in Hc. destruct Hc as [Hc|Hc]; [apply Hb, Hc|]. cbn in Hc. cbn. intuition (subst; discriminate).
Qed.
Lemma form_unique U f f' r r' : form_ok U f r -> form_ok U f' r' -> form_src f ++ r = form_src f' ++ r' -> f = f'.
Proof.
  assert (X : forall a e body r a' (e' body' : text) r', no_brackets a -> old_list a' -> backslashes e -> lit "[" ++ a ++ lit "]" ++ e ++ lit "+" ++ body ++ lit "+" ++ r = lit "[" ++ a' ++ lit "]" ++ lit "`" ++ body' ++ lit "`" ++ r' -> False).
  { intros a e body r0 a' e' body' r0' Ha Ha' He E. injection E as E. apply no_brackets_end in E; [|exact Ha|apply old_list_brackets, Ha']. destruct E as [_ E]. 
    destruct He as [->|[->| ->]]; discriminate E. }
  assert (Y : forall e body (r : text) (x : text), escape e -> e ++ lit "+" ++ body ++ lit "+" ++ r = lit "[" ++ x -> False).
  { intros e body r0 x [->| ->] E; discriminate E. }
  destruct f as [a body|[a|] e body], f' as [a' body'|[a'|] e' body']; cbn [form_ok form_src plus_list]; intros H H' E; rewrite ?app_nil_l, <- !app_assoc in E.
  - destruct H as (Ha & Ht), H' as (Ha' & Ht'). injection E as E. apply no_brackets_end in E; [|apply old_list_brackets; assumption..]. destruct E as [-> E]. injection E as E. apply (tight_unique U 96%N) in E; [|assumption..]. destruct E as [-> _]. reflexivity.
  - exfalso. destruct H as (Ha & _), H' as (Ha' & He' & _). exact (X a' e' body' r' a [] body r Ha' Ha He' (eq_sym E)).
  - exfalso. destruct H' as (He' & _). exact (Y _ _ _ _ He' (eq_sym E)).
  - exfalso. destruct H as (Ha & He & _), H' as (Ha' & _). exact (X a e body r a' [] body' r' Ha Ha' He E).
  - destruct H as (Ha & He & Ht), H' as (Ha' & He' & Ht'). injection E as E. apply no_brackets_end in E; [|assumption..]. destruct E as [-> E]. apply same_backslashes in E; [|assumption|assumption|discriminate|discriminate]. destruct E as [-> E]. injection E as E.
    apply (tight_unique U 43%N) in E; [|assumption..]. destruct E as [-> _]. reflexivity.
  - exfalso. destruct H' as (He' & _). exact (Y _ _ _ _ He' (eq_sym E)).
  - exfalso. destruct H as (He & _). exact (Y _ _ _ _ He E).
  - exfalso. destruct H as (He & _). exact (Y _ _ _ _ He E).
  - destruct H as (He & Ht), H' as (He' & Ht'). apply same_esc in E; [|assumption|assumption|discriminate|discriminate]. destruct E as [-> E]. injection E as E. apply (tight_unique U 43%N) in E; [|assumption..]. destruct E as [-> _]. reflexivity.
Qed.
Lemma inline_unique U f f' prev w r w' r' : inline_at U f prev w r -> inline_at U f' prev w' r' -> w ++ r = w' ++ r' -> f = f' /\ w = w' /\ r = r'.
Proof.
  intros (_ & -> & H) (_ & -> & H') E. pose proof (form_unique _ _ _ _ _ H H' E) as ->. apply app_inv_head in E. auto.
Qed.
Lemma form_head f U r : form_ok U f r -> exists c v, form_src f = c :: v /\ clen c = 1.
Proof.
  destruct f as [a body|[a|] e body]; cbn [form_ok form_src plus_list]; intros H; [eexists; eexists; split; reflexivity..|]. destruct H as ([->| ->] & _); eexists; eexists; split; reflexivity.
Qed.
Lemma old_list_style a : old_list a -> exists l, old_style a l.
Proof. intros [->|(p & _ & ->)]; [exists []; left; auto|exists p; right; reflexivity]. Qed.
Lemma held_spec d : (ends_with [BSL] d || ends_with (lit ":") d || ends_with (lit ";") d)%bool = true <-> held (prev_of None d).
Proof.
  assert (K : forall c, ends_with [c] d = true <-> prev_of None d = Some c).
  { intros c. rewrite ends_with_spec. split.
    - intros (r & ->). rewrite <- prev_of_app. reflexivity.
    - destruct d as [|x d] using rev_ind; [discriminate|]. rewrite <- prev_of_app. cbn. intros E. injection E as ->. eauto. }
  rewrite !orb_true_iff. change (lit ":") with [58%N]. change (lit ";") with [59%N]. rewrite !K. unfold held. split.
  - intros [[H|H]|H]; eexists; (split; [exact H|]); cbn; auto.
  - intros (c & -> & H). cbn in H. destruct H as [<-|[<-|[<-|[]]]]; auto.
Qed.
Lemma form_step U f m fuel pts d rest : m_caps m = form_caps f -> form_ok U f rest -> ~ held (prev_of None d) -> exists x, inline_pass_replacer U fuel pts m d = Ok (applied pts d x) /\ form_becomes f x.
Proof.
  intros Ec Ho Hh. assert (Eh : (ends_with [BSL] d || ends_with (lit ":") d || ends_with (lit ";") d)%bool = false) by (apply not_true_is_false; rewrite held_spec; exact Hh).
  assert (Hr : forall e e', backslashes e -> e = BSL :: e' -> repeat BSL (length e - 1) = e') by (intros e e' He E; destruct He as [->|[->| ->]]; [discriminate E|injection E as <-; reflexivity|injection E as <-; reflexivity]).
  destruct fuel as [|fu]; cbn [inline_pass_replacer]; rewrite Eh; clear fu || idtac.
  all: destruct f as [a body|[a|] e body]; cbn [form_ok form_caps] in Ho, Ec.
  all: try (destruct Ho as (Ha & _); unfold cap; rewrite Ec; cbn [get_cap Nat.eqb or_else unwrap_or_default length Nat.ltb Nat.leb]; destruct (old_list_style _ Ha) as (l & Hl);
    destruct (old_syntax_spec a) as [(l' & -> & Hl')|(_ & Hn)]; [|destruct (Hn _ Hl)]; cbn [bind fst snd andb negb]; unfold pt_push; eexists (Take [] _); split; [reflexivity|constructor; exact Hl']).
  all: try (destruct Ho as (Ha & He & _); unfold cap; rewrite Ec; cbn [get_cap Nat.eqb or_else unwrap_or_default]; destruct e as [|c e];
    [cbn [length Nat.ltb Nat.leb]; destruct (old_syntax_spec a) as [(l' & -> & Hl')|(-> & Hn)]; cbn [bind fst snd andb negb]; unfold pt_push; eexists (Take [] _); (split; [reflexivity|constructor]); [left; eauto|right; auto]
    |assert (c = BSL) as -> by (destruct He as [He|[He|He]]; [discriminate He|injection He; auto|injection He; auto]); destruct (old_syntax_ok a) as (ao & ->); cbn [bind fst snd]; rewrite (Hr _ e He eq_refl); cbn [length]; change (0 <? S (length e)) with true; cbv iota;
     exists (Keep (plus_list (Some a) ++ e ++ lit "+" ++ body ++ lit "+")); split; [cbn [applied plus_list]; rewrite <- !app_assoc; reflexivity|constructor]]).
  all: destruct Ho as (He & _); unfold cap; rewrite Ec; destruct He as [->| ->]; cbn [get_cap Nat.eqb or_else unwrap_or_default bind length Nat.ltb Nat.leb fst snd andb negb].
  all: try (unfold pt_push; eexists (Take [] _); split; [reflexivity|constructor]).
  all: exists (Keep (plus_list None ++ [] ++ lit "+" ++ body ++ lit "+")); split; [reflexivity|constructor].
Qed.
Lemma inline_never_empty U : never_empty U INLINE_PASS.
Proof.
  intros prev t m H E. apply inline_match in H. destruct H as (f & (_ & Ef & Ho) & _). rewrite E in Ef. destruct (form_head _ _ _ Ho) as (c & v & Ec & _). rewrite Ec in Ef. discriminate Ef.
Qed.
Lemma held_dec last : held last \/ ~ held last.
Proof.
  destruct last as [c|]; [|right; intros (c & E & _); discriminate E]. destruct (in_dec N.eq_dec c (lit "\:;")) as [H|H]; [left; exists c; auto|right]. intros (d & E & Hd). injection E as <-. contradiction.
Qed.
Lemma prev_of_None_app d x : prev_of None (d ++ x) = prev_of (prev_of None d) x.
Proof. symmetry. apply prev_of_app. Qed.
Lemma second_sound U fuel : forall pts t pts' o, replace_all U INLINE_PASS (inline_pass_replacer U fuel) pts t = Ok (pts', o) -> exists l, pts' = pts ++ l /\ inline_taken U (length pts) None None t l o.
Proof.
  induction fuel as [fuel IHf] using lt_wf_ind. intros pts t pts' o H.
  apply (sound_all U INLINE_PASS (inline_pass_replacer U fuel) (fun s d prev t s' o => exists l, s' = s ++ l /\ inline_taken U (length s) (prev_of None d) prev t l o)) in H; [exact H|apply inline_never_empty| | |].
  - intros s d prev. exists []. rewrite app_nil_r. split; [reflexivity|constructor].
  - intros s d prev c t' s' o' Hn (l & -> & T). exists l. split; [reflexivity|]. apply it_char; [|rewrite prev_of_None_app in T; exact T]. intros f w r E F. apply inline_some in F. rewrite <- E in F. contradiction.
  - intros s d prev t' m s1 d1 Hm Hr. destruct (inline_match _ _ _ _ Hm) as (f & At & Ec). destruct (match_here_text _ _ _ _ _ Hm) as [-> ->]. pose proof At as (Hp & Ef & Ho). destruct (held_dec (prev_of None d)) as [Hh|Hh].
    + pose proof (proj2 (held_spec d) Hh) as Eh. destruct fuel as [|fu]; cbn [inline_pass_replacer] in Hr; rewrite Eh in Hr; [discriminate Hr|].
      destruct (form_head _ _ _ Ho) as (c & v & Ecv & Hc). rewrite <- Ef in Ecv. rewrite Ecv in *. pose proof (str_to_at [c] v) as S1. cbn [blen app] in S1. rewrite Hc in S1. cbn [Nat.add] in S1. rewrite S1 in Hr. rewrite str_from1 in Hr by exact Hc. cbn [bind] in Hr.
      destruct (replace_all U INLINE_PASS (inline_pass_replacer U fu) s v) as [[s2 y]| |] eqn:En; try discriminate Hr. cbn [bind fst snd] in Hr. apply Ok_inj in Hr. injection Hr as <- <-.
      destruct (IHf fu (le_n _) _ _ _ _ En) as (l1 & -> & T1). exists (c :: y). split; [reflexivity|]. intros s' o' (l2 & -> & T2). exists (l1 ++ l2). split; [rewrite app_assoc; reflexivity|].
      cbn [app]. apply (it_again U (length s) (prev_of None d) prev f c v); [exact At|exact Hh|exact T1|]. rewrite app_length, prev_of_None_app in T2. exact T2.
    + destruct (form_step U f m fuel s d _ Ec Ho Hh) as (x & Hx & B). rewrite Hr in Hx. apply Ok_inj in Hx. destruct x as [x|x pt]; cbn [applied] in Hx; injection Hx as -> ->.
      * exists x. split; [reflexivity|]. intros s' o' (l & -> & T). exists l. split; [reflexivity|]. rewrite prev_of_None_app in T. eapply it_keep; eassumption.
      * exists (x ++ placeholder (length s)). split; [reflexivity|]. intros s' o' (l & -> & T). exists (pt :: l). split; [rewrite <- app_assoc; reflexivity|]. rewrite prev_of_None_app, app_length, Nat.add_1_r in T. rewrite <- app_assoc. eapply it_take; eassumption.
Qed.
Lemma form_becomes_det f x x' : form_becomes f x -> form_becomes f x' -> x = x'.
Proof.
  intros H H'. destruct H as [a body l Hl|a e body|body|a body pt A]; inversion H'; subst; try reflexivity.
  - match goal with K : old_style _ _ |- _ => rewrite (old_style_det _ _ _ Hl K) || fail end. reflexivity.
  - f_equal. eapply attributed_det; eassumption.
Qed.
Lemma inline_taken_inv U n last prev t l o : inline_taken U n last prev t l o ->
  (t = [] /\ l = [] /\ o = []) \/
  (exists c t1 o1, t = c :: t1 /\ (forall f w r, t = w ++ r -> ~ inline_at U f prev w r) /\ inline_taken U n (Some c) (Some c) t1 l o1 /\ o = c :: o1) \/
  (exists f w r x o1, t = w ++ r /\ inline_at U f prev w r /\ ~ held last /\ form_becomes f (Keep x) /\ inline_taken U n (prev_of last x) (prev_of prev w) r l o1 /\ o = x ++ o1) \/
  (exists f w r x pt l1 o1, t = w ++ r /\ inline_at U f prev w r /\ ~ held last /\ form_becomes f (Take x pt) /\ inline_taken U (S n) (prev_of last (x ++ placeholder n)) (prev_of prev w) r l1 o1 /\ l = pt :: l1 /\ o = x ++ placeholder n ++ o1) \/
  (exists f c v r l1 y l2 o1, t = (c :: v) ++ r /\ inline_at U f prev (c :: v) r /\ held last /\ inline_taken U n None None v l1 y /\ inline_taken U (n + length l1) (prev_of last (c :: y)) (prev_of prev (c :: v)) r l2 o1 /\ l = l1 ++ l2 /\ o = c :: y ++ o1).
Proof.
  intros [n0 l0 p0|n0 la0 p0 c t0 l0 o0 HF H|n0 la0 p0 f w r x l0 o0 HF Hh HB H|n0 la0 p0 f w r x pt l0 o0 HF Hh HB H|n0 la0 p0 f c v r l1 y l2 o0 HF Hh H1 H2]; [left|right; left|right; right; left|right; right; right; left|right; right; right; right].
  - auto.
  - exists c, t0, o0. auto.
  - exists f, w, r, x, o0. auto 10.
  - exists f, w, r, x, pt, l0, o0. auto 10.
  - exists f, c, v, r, l1, y, l2, o0. auto 10.
Qed.
Lemma inline_empty U f prev r : ~ inline_at U f prev [] r.
Proof. intros (_ & E & Ho). destruct (form_head _ _ _ Ho) as (c & v & Ec & _). rewrite Ec in E. discriminate E. Qed.
Lemma second_det U n last prev t l o : inline_taken U n last prev t l o -> forall l' o', inline_taken U n last prev t l' o' -> l = l' /\ o = o'.
Proof.
  intros H. induction H as [n last prev|n last prev c t l o HF H IH|n last prev f w r x l o HF Hh HB H IH|n last prev f w r x pt l o HF Hh HB H IH|n last prev f c v r l1 y l2 o HF Hh H1 IH1 H2 IH2]; intros l' o' H'; apply inline_taken_inv in H';
    destruct H' as [(E & -> & ->)|[(c' & t1 & o1 & E & HF' & HT & ->)|[(f' & w' & r' & x' & o1 & E & HF' & Hh' & HB' & HT & ->)|[(f' & w' & r' & x' & pt' & l1' & o1 & E & HF' & Hh' & HB' & HT & -> & ->)|(f' & c' & v' & r' & l1' & y' & l2' & o1 & E & HF' & Hh' & HT1 & HT2 & -> & ->)]]]].
  all: try contradiction.
  all: try (exfalso; symmetry in E; apply app_eq_nil in E; destruct E as [-> ->]; exact (inline_empty _ _ _ _ HF')).
  all: try (exfalso; apply app_eq_nil in E; destruct E as [-> ->]; exact (inline_empty _ _ _ _ HF)).
  all: try discriminate E.
  all: try (exfalso; exact (HF' _ _ _ eq_refl HF)).
  all: try (exfalso; exact (HF _ _ _ E HF')).
  - auto.
  - injection E as <- <-. destruct (IH _ _ HT) as [-> ->]. auto.
  - destruct (inline_unique _ _ _ _ _ _ _ _ HF HF' E) as (<- & <- & <-). pose proof (form_becomes_det _ _ _ HB HB') as Ex. injection Ex as <-. destruct (IH _ _ HT) as [-> ->]. auto.
  - destruct (inline_unique _ _ _ _ _ _ _ _ HF HF' E) as (<- & <- & <-). pose proof (form_becomes_det _ _ _ HB HB') as Ex. discriminate Ex.
  - destruct (inline_unique _ _ _ _ _ _ _ _ HF HF' E) as (<- & <- & <-). pose proof (form_becomes_det _ _ _ HB HB') as Ex. discriminate Ex.
  - destruct (inline_unique _ _ _ _ _ _ _ _ HF HF' E) as (<- & <- & <-). pose proof (form_becomes_det _ _ _ HB HB') as Ex. injection Ex as <- <-. destruct (IH _ _ HT) as [-> ->]. auto.
  - destruct (inline_unique _ _ _ _ _ _ _ _ HF HF' E) as (<- & Ew & <-). injection Ew as <- <-. destruct (IH1 _ _ HT1) as [-> ->]. destruct (IH2 _ _ HT2) as [-> ->]. auto.
Qed.
Lemma second_iff U pts t pts' o : replace_all U INLINE_PASS (inline_pass_replacer U (length t)) pts t = Ok (pts', o) <-> exists l, pts' = pts ++ l /\ inline_taken U (length pts) None None t l o.
Proof.
  split; [apply second_sound|]. intros (l & -> & H). destruct (phase2_ok U (length t) t pts (le_n _)) as (new & o' & E & _). rewrite E. apply second_sound in E. destruct E as (l' & El & H'). apply app_inv_head in El. subst l'.
  destruct (second_det _ _ _ _ _ _ _ H' _ _ H) as [-> ->]. reflexivity.
Qed.
Lemma inline_taken_id U : forall t n last prev, (forall pv f a w r, t = a ++ w ++ r -> ~ inline_at U f pv w r) -> inline_taken U n last prev t [] t.
Proof. induction t as [|c t IH]; intros n last prev H; [constructor|]. apply it_char; [intros f w r E; apply (H prev f [] w r E)|]. apply IH. intros pv f a w r E. apply (H pv f (c :: a) w r). rewrite E. reflexivity. Qed.
Lemma no_second U t n : has_char 43%N t || contains (lit "-]") t = false -> inline_taken U n None None t [] t.
Proof.
  intros H. apply orb_false_iff in H. destruct H as [H1 H2]. apply has_char_false in H1. apply not_true_iff_false in H2. apply inline_taken_id. intros pv f a w r E (_ & -> & Ho). destruct f as [b body|b e body]; cbn [form_src form_ok] in *.
  - apply H2, contains_spec. destruct Ho as ([->|(p & _ & ->)] & _).
    + exists (a ++ lit "[x"), (lit "`" ++ body ++ lit "`" ++ r). rewrite E, <- !app_assoc. reflexivity.
    + exists (a ++ lit "[" ++ p ++ lit " x"), (lit "`" ++ body ++ lit "`" ++ r). rewrite E, <- !app_assoc. reflexivity.
  - apply H1. rewrite E, !in_app_iff. right. left. right. right. left. left. reflexivity.
Qed.
Lemma extract_iff U t pts o : extract_from U t = Ok (pts, o) <-> passthroughs_of U t pts o.
Proof.
  assert (S : forall pts o, extract_from U t = Ok (pts, o) -> passthroughs_of U t pts o).
  { clear. intros pts o. unfold extract_from. intros H. apply bind_ok in H. destruct H as ((p1 & t1) & H1 & H). cbn [fst snd] in H.
    assert (T1 : taken pass_at pass_out 0 None t p1 t1) by (match type of H1 with (if ?b then _ else _) = _ => destruct b eqn:E end; [apply first_sound in H1; exact H1|apply Ok_inj in H1; injection H1 as <- <-; apply no_first, E]).
    match type of H with (if ?b then _ else _) = _ => destruct b eqn:E end.
    - apply second_sound in H. destruct H as (l & -> & T2). exists p1, t1, l. auto.
    - apply Ok_inj in H. injection H as <- <-. exists p1, t1, []. split; [exact T1|]. split; [apply no_second, E|rewrite app_nil_r; reflexivity]. }
  split; [apply S|]. intros (l1 & t1 & l2 & T1 & T2 & ->). destruct (extract_ok U t) as (p1 & p2 & t1' & o' & E & _). pose proof (S _ _ E) as (l1' & t1'' & l2' & T1' & T2' & El).
  destruct (first_det _ _ _ _ _ _ _ T1 T1') as [<- <-]. destruct (second_det _ _ _ _ _ _ _ T2 _ _ T2') as [<- <-]. rewrite E, El. reflexivity.
Qed.
