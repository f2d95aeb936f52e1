(** No include directive is left in the output of the preprocessor. *)
From Verif Require Import Text TextFacts Span_Model Span_Pure Span_Spec Span_Proof Span_Laws Parser_Model Subs_Model Attrlist_Model Entry_Model Entry_Proof Regex Regex_Proof Regex_Scan Regex_Lang Pre_Model Pre_Spec Pre_Proof.

Lemma Forall_c_not c (t : text) : ~ In c t -> Forall (fun x => c_not (c_is c) x = true) t.
Proof. intros H. apply Forall_forall. intros x Hx. unfold c_not, c_is. destruct (N.eqb_spec c x) as [<-|]; [contradiction|reflexivity]. Qed.
Lemma drop_while_split p t : exists w, t = w ++ drop_while_c p t /\ (forall x r, drop_while_c p t = x :: r -> p x = false).
Proof. exists (take_while_c p t). split; [symmetry; apply take_drop_while|]. intros x r K. exact (span_while_stop p t x r K). Qed.
Lemma trim_first x t : trim (x :: t) = x :: t -> is_ws x = false.
Proof. intros H. destruct (drop_while_split is_ws (trim_end (x :: t))) as (w & _ & Hd). exact (Hd x t H). Qed.
Lemma trim_last t x : trim (t ++ [x]) = t ++ [x] -> is_ws x = false.
Proof.
  intros H. destruct (drop_while_split is_ws (trim_end (t ++ [x]))) as (w & E & _). change (drop_while_c is_ws (trim_end (t ++ [x]))) with (trim (t ++ [x])) in E. rewrite H in E.
  destruct (trim_end_by_app is_ws (t ++ [x])) as (w' & _ & _ & Hl). fold (trim_end (t ++ [x])) in Hl. apply (Hl (w ++ t) x). rewrite E, app_assoc. reflexivity.
Qed.

Lemma include_line_lang U l : ~ In LF l -> include_line l -> exists caps, lang U INCLUDE_DIRECTIVE None l [] caps.
Proof.
  intros Hlf (target & attrs & -> & Hne & Hb & Ht & Hl & Hh). unfold INCLUDE_DIRECTIVE. cbn [Seqs].
  assert (Hattr : ~ In LF attrs) by (intros K; apply Hlf; rewrite !in_app_iff; tauto).
  assert (Htgt : forall prev rest, exists c, lang U (Seq (Chr c_target) (Opt (Seq (Many (Chr (c_not (c_is 91%N)))) (Chr c_target)))) prev target rest c).
  { intros prev rest. destruct target as [|x t]; [contradiction|]. pose proof (trim_first _ _ Ht) as Hx.
    assert (Hx' : c_target x = true). { unfold c_target. rewrite Hx. destruct (N.eqb_spec x 91) as [->|]; [destruct Hb; left; reflexivity|reflexivity]. }
    destruct (rev_ind (fun z => z = [] \/ exists z' c, z = z' ++ [c]) (or_introl eq_refl) (fun x l _ => or_intror (ex_intro _ l (ex_intro _ x eq_refl))) t) as [->|(t' & y & ->)].
    - exists []. exists [x], [], [], []. repeat split; [exists x; auto|]. right. split; reflexivity.
    - change (x :: t' ++ [y]) with ((x :: t') ++ [y]) in Ht. pose proof (trim_last _ _ Ht) as Hy.
      assert (Hy' : c_target y = true). { unfold c_target. rewrite Hy. destruct (N.eqb_spec y 91) as [->|]; [destruct Hb; right; apply in_elt|reflexivity]. }
      exists []. exists [x], (t' ++ [y]), [], []. split; [reflexivity|]. split; [reflexivity|]. split; [exists x; auto|]. left.
      exists t', [y], [], []. split; [reflexivity|]. split; [reflexivity|]. split; [|exists y; auto]. apply lang_many_chr. split; [|reflexivity]. apply Forall_c_not. intros K. apply Hb. right. apply in_or_app. left. exact K. }
  assert (Hal : forall prev rest, exists c, lang U (Opt (Grp 2 (Seq (Chr (c_not (c_is 93%N))) (Plus (Chr c_dot))))) prev attrs rest c).
  { intros prev rest. destruct attrs as [|x [|y attrs]]; [exists []; right; split; reflexivity|cbn in Hl; lia|].
    assert (D : forall z, In z (x :: y :: attrs) -> c_dot z = true). { intros z Hz. unfold c_dot. destruct (N.eqb_spec z LF) as [->|]; [contradiction|reflexivity]. }
    exists [(2, x :: y :: attrs)]. left. exists []. split; [reflexivity|]. exists [x], (y :: attrs), [], []. split; [reflexivity|]. split; [reflexivity|]. split.
    - exists x. split; [reflexivity|]. split; [|reflexivity]. unfold c_not, c_is. destruct (N.eqb_spec 93 x) as [<-|]; [destruct Hh; reflexivity|reflexivity].
    - exists [y], attrs, [], []. split; [reflexivity|]. split; [reflexivity|]. split; [exists y; split; [reflexivity|]; split; [apply D; right; left; reflexivity|reflexivity]|].
      apply lang_many_chr. split; [|reflexivity]. apply Forall_forall. intros z Hz. apply D. right. right. exact Hz. }
  set (p1 := prev_of None (lit "include::")). destruct (Htgt p1 (lit "[" ++ attrs ++ lit "]")) as (c1 & L1).
  set (p2 := prev_of (prev_of p1 target) (lit "[")). destruct (Hal p2 (lit "]")) as (c2 & L2).
  exists (c2 ++ (1, target) :: c1).
  exists [], (lit "include::" ++ target ++ lit "[" ++ attrs ++ lit "]"), [], (c2 ++ (1, target) :: c1). split; [reflexivity|]. split; [rewrite app_nil_r; reflexivity|]. split; [split; [reflexivity|split; reflexivity]|].
  exists (lit "include::"), (target ++ lit "[" ++ attrs ++ lit "]"), [], (c2 ++ (1, target) :: c1). split; [reflexivity|]. split; [rewrite app_nil_r; reflexivity|]. split; [apply (lang_lit U (lit "include::")); split; reflexivity|].
  exists target, (lit "[" ++ attrs ++ lit "]"), ((1, target) :: c1), c2. split; [reflexivity|]. split; [reflexivity|]. split; [exists c1; split; [reflexivity|]; rewrite app_nil_r; exact L1|].
  exists (lit "["), (attrs ++ lit "]"), [], c2. split; [reflexivity|]. split; [rewrite app_nil_r; reflexivity|]. split; [apply lang_lit1; split; reflexivity|].
  exists attrs, (lit "]"), c2, []. split; [reflexivity|]. split; [reflexivity|]. split; [rewrite app_nil_r; exact L2|].
  exists (lit "]"), [], [], []. split; [reflexivity|]. split; [reflexivity|]. split; [apply lang_lit1; split; reflexivity|]. split; [reflexivity|]. split; reflexivity.
Qed.

Lemma include_line_tried U norm s l : ~ In LF l -> include_line l -> try_include U norm s l <> Ok None.
Proof.
  intros Hlf H. destruct (include_line_lang U l Hlf H) as (caps & L). destruct H as (target & attrs & E & _). unfold try_include.
  assert (Es : starts_with (lit "include::") l = true) by (apply starts_with_spec; rewrite E; eexists; reflexivity). rewrite Es.
  apply lang_match in L. destruct L as (m & Hm). rewrite app_nil_r in Hm. unfold captures.
  destruct (search U INCLUDE_DIRECTIVE None l) as [[p m']|] eqn:Ese.
  - destruct (cap_idx m' 1) as [t| |]; cbn [bind]; try discriminate. destruct (apply_attributes U (ps_parser s) t) as [tg| |]; cbn [bind]; try discriminate.
    destruct (cap m' 2); [|discriminate]. destruct (attrlist_parse _ _ _ _ _); cbn [bind]; discriminate.
  - rewrite (search_none _ _ _ _ Ese [] l eq_refl : match_here U INCLUDE_DIRECTIVE None l = None) in Hm. discriminate.
Qed.

Lemma not_include_hd c l : c <> 105%N -> ~ include_line (c :: l).
Proof. intros Hc (t & a & E & _). apply (f_equal (@hd_error N)) in E. apply Some_inj in E. contradiction. Qed.

Section Loop.
Context (U : unicode) (hdr norm : parser -> text -> res text) (ifh : include_handler) (primary : option text) (root : text).
Notation sup := (supplied ifh primary root).
Context (Hsup : forall f content, sup f content -> no_continuation content /\ (forall n, f = Some n -> ~ In LF n)).
Definition Clean (t : text) : Prop := starts_line t /\ forall k l, line_at t k l -> ~ include_line l.
Lemma clean_emit t b : Clean t -> ~ In LF b -> ~ include_line b -> Clean (t ++ b ++ [LF]).
Proof.
  intros [H1 H2] Hb Hi. split; [rewrite app_assoc; apply starts_line_lf|]. intros k l Hl. apply line_at_app in Hl; [|exact H1].
  destruct Hl as [Hl|(i & _ & Hl)]; [exact (H2 k l Hl)|]. apply line_at_one in Hl; [|exact Hb]. destruct Hl as [_ ->]. exact Hi.
Qed.
Definition Tail (content : text) (source : span) : Prop := exists pre, content = pre ++ sp_data source.
Lemma report_out file reported n s : ps_out (report file reported n s) = ps_out s.
Proof. unfold report. destruct reported; reflexivity. Qed.

Lemma pre_loop_clean fuel : forall file reported source s s' content, sup file content -> Tail content source -> Clean (ps_out s) ->
  pre_loop U hdr norm ifh fuel file reported source s = Ok s' -> Clean (ps_out s').
Proof.
  induction fuel as [|f IH]; [discriminate|]. intros file reported source s s' content Hs Htl Hc E. cbn [pre_loop] in E.
  destruct (sp_data source) as [|c0 d0] eqn:Ed; [apply Ok_inj in E; subst s'; exact Hc|].
  destruct (first_line (sp_data source)) as (l & e & rest & D & Hl & He). rewrite take_line_ok in E. rewrite (p_take_line_eq source l e rest Hl He D) in E. cbn [bind mi_item mi_after] in E. change (sp_data (with_data source (strip_cr l))) with (strip_cr l) in E. change (sp_line (with_data source (strip_cr l))) with (sp_line source) in E.
  destruct (Hsup _ _ Hs) as [Hnc Hname]. destruct Htl as [pre Epre].
  assert (Hnext : Tail content (skip source (l ++ e) rest)).
  { exists (pre ++ l ++ e). rewrite sp_data_skip, Epre, D, <- !app_assoc. reflexivity. }
  assert (HlCR : ~ In LF (strip_cr l)) by (intros Hi; apply Hl; destruct (strip_cr_opt l) as (cr & El & _); rewrite El, in_app_iff; left; exact Hi).
  apply bind_ok in E. destruct E as (attr & Ea & E). destruct attr as [attr|].
  - unfold try_attribute in Ea. destruct (ps_can_attr s); [|discriminate]. destruct (starts_with (lit ":") (strip_cr l)) eqn:Es; [|discriminate]. cbn [andb] in Ea. destruct (_ || _); [|discriminate].
    apply starts_with_spec in Es. destruct Es as [ll El].
    destruct (logical_total (sp_data source)) as (c & r & Hlog). pose proof (logical_app _ _ _ Hlog) as Dc.
    assert (Hone : c = l ++ e /\ r = rest).
    { assert (Hcont : e = [LF] -> ~ continued l).
      { intros -> K. apply Hnc. exists pre, l, rest. rewrite Epre, D. auto. }
      assert (Huniq : forall l' e' rest', ~ In LF l' -> eol e' rest' -> sp_data source = l' ++ e' ++ rest' -> l' = l /\ e' = e /\ rest' = rest).
      { intros l' e' rest' Hl' He' D'. rewrite D in D'. destruct He as [->|[-> ->]], He' as [->|[-> ->]]; cbn [app] in D'; rewrite ?app_nil_r in D'.
        - destruct (lf_split l (LF :: rest) l' rest' Hl) as (q & -> & Eq); [exact D'|]. destruct q as [|x q]; [injection Eq as ->; rewrite app_nil_r; auto|]. injection Eq as <- _. exfalso. apply Hl', in_elt.
        - exfalso. apply Hl'. rewrite <- D'. apply in_elt.
        - exfalso. apply Hl. rewrite D'. apply in_elt.
        - subst. auto. }
      inversion Hlog as [l1 e1 rest1 Hl1 He1 Hc1 E1 E2 E3|l1 e1 rest1 cons rest2 Hl1 He1 Hc1 Hlog1 E1 E2 E3]; subst.
      - symmetry in E1. destruct (Huniq _ _ _ Hl1 He1 E1) as (-> & -> & ->). auto.
      - symmetry in E1. destruct (Huniq _ _ _ Hl1 He1 E1) as (-> & -> & ->). destruct He as [->|[-> ->]]; [destruct (Hcont eq_refl Hc1)|].
        apply logical_app in Hlog1. symmetry in Hlog1. apply app_eq_nil in Hlog1. destruct Hlog1 as [-> ->]. auto. }
    destruct Hone as [-> ->].
    destruct (attribute_parse_eq hdr source (ps_parser s) _ _ Hlog) as (pr & vs & Eat & _). cbv zeta in Eat. rewrite Eat in Ea. clear Eat.
    destruct (e_parse _) as [[n [u rst]]|]; [|discriminate]. apply bind_ok in Ea. destruct Ea as (v & _ & Ea). apply Ok_inj, Some_inj in Ea. subst attr. cbn [mi_after mi_item] in E.
    revert E. apply (IH file true _ _ s' content Hs Hnext). cbn [emit_attribute ps_out at_source sp_data with_data]. rewrite report_out.
    destruct (trim_end_by_app is_ws (l ++ e)) as (w & Ew & Hw & Hlast). fold (trim_end (l ++ e)) in *.
    apply clean_emit; [exact Hc| |].
    + intros Hi. destruct He as [->|[-> _]]; [|apply Hl; rewrite app_nil_r in Ew, Hi; rewrite Ew; apply in_or_app; left; exact Hi].
      apply in_split in Hi. destruct Hi as (a & b & Eab). rewrite Eab, <- app_assoc in Ew. cbn [app] in Ew.
      destruct (lf_split l [LF] a (b ++ w) Hl Ew) as (q & -> & Eq). destruct q as [|x q]; [|destruct q; discriminate]. cbn [app] in Eq. injection Eq as Eq. symmetry in Eq. apply app_eq_nil in Eq. destruct Eq as [-> ->].
      specialize (Hlast _ _ Eab). discriminate.
    + assert (Hh : hd_error (l ++ e) = Some 58%N). { destruct (strip_cr_opt l) as (cr & Elc & _). rewrite El in Elc. rewrite Elc. reflexivity. }
      destruct (trim_end (l ++ e)) as [|x t] eqn:Et.
      * intros (tt & aa & K & _). discriminate K.
      * rewrite Ew in Hh. cbn [app hd_error] in Hh. apply Some_inj in Hh. subst x. apply not_include_hd. discriminate.
  - apply bind_ok in E. destruct E as (inc & Ei & E). destruct inc as [[target al]|].
    + destruct (ifh file target al (ps_parser s)) as [it|] eqn:Eh.
      * apply bind_ok in E. destruct E as (s1 & E1 & E2).
        assert (Hc1 : Clean (ps_out s1)).
        { revert E1. apply (IH (Some target) false (span_new it) s s1 it); [econstructor; exact Eh|exists []; reflexivity|exact Hc]. }
        revert E2. apply (IH file false _ s1 s' content Hs Hnext Hc1).
      * revert E. apply (IH file reported _ _ s' content Hs Hnext). cbn [emit_unresolved ps_out].
        set (msg := lit "Unresolved directive in " ++ (match file with Some f => f | None => lit "(root file)" end) ++ lit " - " ++ strip_cr l).
        replace (lit "Unresolved directive in " ++ (match file with Some f => f | None => lit "(root file)" end) ++ lit " - " ++ strip_cr l ++ [LF]) with (msg ++ [LF]) by (unfold msg; rewrite <- !app_assoc; reflexivity).
        apply clean_emit; [exact Hc| |].
        -- unfold msg. rewrite !in_app_iff. intros [H|[H|[H|H]]].
           ++ cbn in H. repeat (destruct H as [H|H]; [discriminate|]). exact H.
           ++ destruct file as [n|]; [exact (Hname n eq_refl H)|]. cbn in H. repeat (destruct H as [H|H]; [discriminate|]). exact H.
           ++ cbn in H. repeat (destruct H as [H|H]; [discriminate|]). exact H.
           ++ exact (HlCR H).
        -- unfold msg. change (lit "Unresolved directive in ") with (85%N :: lit "nresolved directive in "). cbn [app]. apply not_include_hd. discriminate.
    + revert E. apply (IH file true _ _ s' content Hs Hnext). cbn [emit_line ps_out]. rewrite report_out. apply clean_emit; [exact Hc|exact HlCR|].
      intros Hi. exact (include_line_tried U norm s _ HlCR Hi Ei).
Qed.
End Loop.
