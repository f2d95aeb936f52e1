(** Laws of the span operations (C02, C04-C09), from the pure forms. *)
From Verif Require Import Text TextFacts Span_Model Span_Pure Span_Spec Span_Proof.

Lemma strip_cr_minus l : minus_cr l (strip_cr l).
Proof.
  unfold strip_cr, minus_cr. destruct (strip_suffix_c CR l) as [r|] eqn:E.
  - left. apply strip_suffix_spec, E.
  - right. split; [reflexivity|]. apply strip_suffix_none, E.
Qed.

Lemma strip_cr_opt l : exists cr, l = strip_cr l ++ cr /\ opt_cr cr.
Proof.
  destruct (strip_cr_minus l) as [H|[H _]].
  - exists [CR]. split; [exact H|right; reflexivity].
  - exists []. rewrite app_nil_r. split; [exact H|left; reflexivity].
Qed.

Lemma trim_spaces_spec t :
  exists w, t = trim_end_by (N.eqb SP) t ++ w /\ spaces w.
Proof.
  destruct (trim_end_by_app (N.eqb SP) t) as (w & Hw & Hall & _). exists w. split; [exact Hw|].
  intros c Hc. rewrite Forall_forall in Hall. specialize (Hall c Hc). symmetry. apply N.eqb_eq. exact Hall.
Qed.

Lemma not_lf_forall l : ~ In LF l -> Forall (fun c => is_not_lf c = true) l.
Proof.
  intros H. apply Forall_forall. intros c Hc. unfold is_not_lf.
  destruct (N.eqb_spec c LF) as [->|]; [contradiction|reflexivity].
Qed.

Lemma forall_not_lf l : Forall (fun c => is_not_lf c = true) l -> ~ In LF l.
Proof. intros H Hin. rewrite Forall_forall in H. specialize (H _ Hin). discriminate H. Qed.

(** Evaluating [p_take_line] on a text given as first line, end of line and rest. *)
Lemma p_take_line_eq s l e rest : ~ In LF l -> eol e rest -> sp_data s = l ++ e ++ rest ->
  p_take_line s = mkmi (with_data s (strip_cr l)) (skip s (l ++ e) rest).
Proof.
  intros Hl He D. unfold p_take_line.
  assert (Hs : span_while is_not_lf (sp_data s) = (l, e ++ rest)).
  { rewrite D. destruct He as [->|[-> ->]].
    - apply span_while_prefix; [apply not_lf_forall, Hl|reflexivity].
    - cbn. rewrite app_nil_r. pose proof (span_while_prefix is_not_lf l [] (not_lf_forall l Hl) I) as H.
      rewrite app_nil_r in H. exact H. }
  rewrite Hs. destruct He as [->|[-> ->]]; cbn [app].
  - reflexivity.
  - rewrite app_nil_r. reflexivity.
Qed.

(** Every text has a first line. *)
Lemma first_line t : exists l e rest, t = l ++ e ++ rest /\ ~ In LF l /\ eol e rest.
Proof.
  pose proof (span_while_app is_not_lf t) as H. pose proof (span_while_all is_not_lf t) as Ha.
  pose proof (span_lf_tail t) as Ht. destruct (span_while is_not_lf t) as [l r]; cbn [fst snd] in *.
  destruct r as [|c r].
  - exists l, [], []. rewrite app_nil_r in H. cbn. rewrite app_nil_r. repeat split; [congruence|apply forall_not_lf, Ha|right; auto].
  - specialize (Ht c r eq_refl). subst c. exists l, [LF], r. repeat split; [symmetry; exact H|apply forall_not_lf, Ha|left; reflexivity].
Qed.

Lemma Ok_inj {A} (x y : A) : Ok x = Ok y -> x = y.
Proof. congruence. Qed.

(** C02 *)
Lemma take_line_partition s m : take_line s = Ok m ->
  exists cr e, sp_data s = sp_data (mi_item m) ++ cr ++ e ++ sp_data (mi_after m) /\
    opt_cr cr /\ eol e (sp_data (mi_after m)) /\ ~ In LF (sp_data (mi_item m)).
Proof.
  rewrite take_line_ok. intros H. injection H as <-.
  destruct (first_line (sp_data s)) as (l & e & rest & D & Hl & He).
  rewrite (p_take_line_eq s l e rest Hl He D). cbn [mi_item mi_after with_data sp_data]. rewrite sp_data_skip.
  destruct (strip_cr_opt l) as (cr & E & Hcr). exists cr, e. split; [|split; [exact Hcr|split; [exact He|]]].
  - rewrite D, E at 1. rewrite <- app_assoc. reflexivity.
  - intros Hin. apply Hl. rewrite E. apply in_or_app. left. exact Hin.
Qed.

Lemma take_normalized_line_partition s m : take_normalized_line s = Ok m ->
  exists sps cr e, sp_data s = sp_data (mi_item m) ++ sps ++ cr ++ e ++ sp_data (mi_after m) /\
    spaces sps /\ opt_cr cr /\ eol e (sp_data (mi_after m)) /\ ~ In LF (sp_data (mi_item m)) /\
    (forall x, sp_data (mi_item m) <> x ++ [SP]).
Proof.
  rewrite take_normalized_line_ok. intros H. injection H as <-.
  destruct (take_line_partition s (p_take_line s) (take_line_ok s)) as (cr & e & D & Hcr & He & Hn).
  cbn [p_take_normalized_line mi_item mi_after with_data sp_data].
  destruct (trim_spaces_spec (sp_data (mi_item (p_take_line s)))) as (w & Hw & Hs).
  exists w, cr, e. split; [|repeat split; try assumption].
  - rewrite D at 1. rewrite Hw at 1. rewrite <- app_assoc. reflexivity.
  - intros Hin. apply Hn. rewrite Hw. apply in_or_app. left. exact Hin.
  - intros x Hx. destruct (trim_end_by_app (N.eqb SP) (sp_data (mi_item (p_take_line s)))) as (_ & _ & _ & H).
    specialize (H _ _ Hx). rewrite N.eqb_refl in H. discriminate H.
Qed.

Lemma take_non_empty_line_partition s m : take_non_empty_line s = Ok (Some m) ->
  take_normalized_line s = Ok m /\ sp_data (mi_item m) <> [].
Proof.
  rewrite take_non_empty_line_ok, take_normalized_line_ok. intros H. apply Ok_inj in H. unfold p_take_non_empty_line in H.
  destruct (sp_data s); [discriminate|]. destruct (_ =? _)%N; [discriminate|].
  destruct (sp_data (mi_item (p_take_normalized_line s))) as [|x d] eqn:E; rewrite ?E in H; [discriminate H|].
  injection H as <-. split; [reflexivity|]. rewrite E. discriminate.
Qed.

Lemma take_non_empty_line_none s : take_non_empty_line s = Ok None ->
  exists m, take_normalized_line s = Ok m /\ sp_data (mi_item m) = [].
Proof.
  rewrite take_non_empty_line_ok, take_normalized_line_ok. intros H. apply Ok_inj in H. unfold p_take_non_empty_line in H.
  eexists. split; [reflexivity|].
  destruct (sp_data s) as [|c d] eqn:Ed.
  - unfold p_take_normalized_line, p_take_line. rewrite Ed. reflexivity.
  - destruct (N.eqb_spec c LF) as [->|].
    + unfold p_take_normalized_line, p_take_line. rewrite Ed. reflexivity.
    + destruct (sp_data (mi_item (p_take_normalized_line s))) eqn:E; rewrite ?E in H; [reflexivity|discriminate H].
Qed.

Lemma take_while_partition s p m : take_while s p = Ok m ->
  sp_data s = sp_data (mi_item m) ++ sp_data (mi_after m) /\
  (forall c, In c (sp_data (mi_item m)) -> p c = true) /\
  (forall c r, sp_data (mi_after m) = c :: r -> p c = false).
Proof.
  rewrite take_while_ok. intros H. injection H as <-. unfold p_take_while.
  pose proof (span_while_app p (sp_data s)) as H. pose proof (span_while_all p (sp_data s)) as Ha.
  pose proof (fun c r => span_while_stop p (sp_data s) c r) as Ht.
  destruct (span_while p (sp_data s)) as [a b]; cbn [fst snd psplit mi_item mi_after with_data sp_data] in *.
  rewrite sp_data_skip. split; [symmetry; exact H|]. split; [|exact Ht].
  rewrite Forall_forall in Ha. exact Ha.
Qed.

Lemma take_prefix_partition s p m : take_prefix s p = Ok (Some m) ->
  sp_data (mi_item m) = p /\ sp_data s = p ++ sp_data (mi_after m).
Proof.
  rewrite take_prefix_ok. intros H. injection H as H. unfold p_take_prefix in H.
  destruct (starts_with p (sp_data s)) eqn:E; [|discriminate]. injection H as <-.
  apply starts_with_spec in E. destruct E as [r E]. cbn [psplit mi_item mi_after]. rewrite sp_data_skip. split; [reflexivity|].
  rewrite E at 2. rewrite skipn_app, skipn_all, Nat.sub_diag. exact E.
Qed.

Lemma ipr_partition s n m : into_parse_result s n = Ok m ->
  sp_data s = sp_data (mi_item m) ++ sp_data (mi_after m) /\
  length (utf8_bytes (sp_data (mi_item m))) = Nat.min n (length (utf8_bytes (sp_data s))).
Proof.
  intros H. rewrite !blen_utf8. unfold into_parse_result in H. apply bind_ok in H. destruct H as (i & Hi & H).
  apply bind_ok in H. destruct H as (a & Ha & H). injection H as <-. unfold slice_to in Hi. unfold slice_from in Ha.
  destruct (bsplit _ (sp_data s)) as [[x y]|] eqn:E; [|discriminate]. injection Hi as <-. injection Ha as <-.
  apply bsplit_some in E. destruct E as [E1 E2]. cbn [mi_item mi_after]. rewrite !sp_data_slice_internal. split; [exact E1|]. lia.
Qed.

(** C04 *)
Lemma reads_lines_spec (take : span -> res (mitem span)) (norm : text -> text) :
  (forall s l e rest, ~ In LF l -> eol e rest -> sp_data s = l ++ e ++ rest ->
     exists m, take s = Ok m /\ sp_data (mi_item m) = norm l /\ sp_data (mi_after m) = rest) ->
  forall ps last s, (forall p, In p ps -> ~ In LF p) -> ~ In LF last ->
    sp_data s = unlines ps ++ last ->
    reads take s (map norm (ps ++ match last with [] => [] | _ => [last] end)).
Proof.
  intros Ht. induction ps as [|p ps IH]; intros last s Hps Hlast D.
  - cbn [unlines map concat app] in D. destruct last as [|c last].
    + apply reads_nil, D.
    + destruct (Ht s (c :: last) [] []) as (m & Hm & Hi & Ha); [exact Hlast|right; auto|rewrite D, !app_nil_r; reflexivity|].
      cbn [app map]. rewrite <- Hi. apply reads_cons; [rewrite D; discriminate|exact Hm|]. apply reads_nil, Ha.
  - unfold unlines in D. cbn [map concat] in D. fold (unlines ps) in D. rewrite <- !app_assoc in D.
    destruct (Ht s p [LF] (unlines ps ++ last)) as (m & Hm & Hi & Ha); [apply Hps; left; reflexivity|left; reflexivity|exact D|].
    cbn [app map]. rewrite <- Hi. apply reads_cons.
    + rewrite D. destruct p; discriminate.
    + exact Hm.
    + apply IH; [intros q Hq; apply Hps; right; exact Hq|exact Hlast|exact Ha].
Qed.

Lemma reads_take_line ps last s : (forall p, In p ps -> ~ In LF p) -> ~ In LF last ->
  sp_data s = unlines ps ++ last ->
  reads take_line s (map strip_cr (ps ++ match last with [] => [] | _ => [last] end)).
Proof.
  apply reads_lines_spec. intros s' l e rest Hl He D. exists (p_take_line s'). split; [apply take_line_ok|].
  rewrite (p_take_line_eq s' l e rest Hl He D). cbn [mi_item mi_after with_data sp_data]. rewrite sp_data_skip. auto.
Qed.

Lemma reads_take_normalized_line ps last s : (forall p, In p ps -> ~ In LF p) -> ~ In LF last ->
  sp_data s = unlines ps ++ last ->
  reads take_normalized_line s
    (map (fun l => trim_end_by (N.eqb SP) (strip_cr l)) (ps ++ match last with [] => [] | _ => [last] end)).
Proof.
  apply reads_lines_spec. intros s' l e rest Hl He D. exists (p_take_normalized_line s'). split; [apply take_normalized_line_ok|].
  unfold p_take_normalized_line. rewrite (p_take_line_eq s' l e rest Hl He D).
  cbn [mi_item mi_after with_data sp_data]. rewrite sp_data_skip. auto.
Qed.

Lemma decompose_lines t : exists ps last, t = unlines ps ++ last /\
  (forall p, In p ps -> ~ In LF p) /\ ~ In LF last.
Proof.
  induction t as [|c t (ps & last & -> & Hps & Hl)].
  - exists [], []. cbn. tauto.
  - destruct (N.eq_dec c LF) as [->|Hc].
    + exists ([] :: ps), last. split; [reflexivity|]. split; [|exact Hl]. intros p [<-|Hp]; [easy|auto].
    + destruct ps as [|p ps].
      * exists [], (c :: last). split; [reflexivity|]. split; [easy|]. intros [E|E]; [congruence|contradiction].
      * exists ((c :: p) :: ps), last. split; [reflexivity|]. split; [|exact Hl].
        intros q [<-|Hq]; [|apply Hps; right; exact Hq]. intros [E|E]; [congruence|]. apply (Hps p); [left; reflexivity|exact E].
Qed.

Lemma reads_det take s l1 l2 : reads take s l1 -> reads take s l2 -> l1 = l2.
Proof.
  intros H. revert l2. induction H as [s H|s m ls Hne Hm _ IH]; intros l2 H2; inversion H2; subst; try congruence.
  rewrite Hm in H0. injection H0 as <-. f_equal. auto.
Qed.

Definition trimmed_line (l r : text) : Prop :=
  exists x sps, minus_cr l x /\ x = r ++ sps /\ spaces sps /\ (forall y, r <> y ++ [SP]).

Lemma trim_no_space_end t y : trim_end_by (N.eqb SP) t <> y ++ [SP].
Proof.
  intros Hx. destruct (trim_end_by_app (N.eqb SP) t) as (_ & _ & _ & H). specialize (H _ _ Hx). rewrite N.eqb_refl in H. discriminate H.
Qed.

Lemma norm_trimmed l : trimmed_line l (trim_end_by (N.eqb SP) (strip_cr l)).
Proof.
  destruct (trim_spaces_spec (strip_cr l)) as (w & Hw & Hs). exists (strip_cr l), w.
  split; [apply strip_cr_minus|]. split; [exact Hw|]. split; [exact Hs|]. apply trim_no_space_end.
Qed.

(** C05 *)
Lemma is_sp_tab_spec c : is_sp_tab c = true <-> c = SP \/ c = TAB.
Proof. unfold is_sp_tab. destruct (N.eqb_spec c SP), (N.eqb_spec c TAB); cbn; intuition congruence. Qed.

Lemma blank_line_dec l : forallb is_sp_tab (strip_cr l) = true <-> blank_line l.
Proof.
  split.
  - intros H. destruct (strip_cr_opt l) as (cr & E & Hcr). exists (strip_cr l), cr. split; [exact E|]. split; [|exact Hcr].
    intros c Hc. rewrite forallb_forall in H. apply is_sp_tab_spec, H, Hc.
  - intros (ws & cr & -> & Hws & Hcr).
    assert (Hb : forallb is_sp_tab ws = true) by (apply forallb_forall; intros c Hc; apply is_sp_tab_spec; auto).
    destruct Hcr as [->| ->].
    + rewrite app_nil_r. destruct (strip_cr_opt ws) as (cr & E & _). rewrite E, forallb_app in Hb. apply andb_prop in Hb. apply Hb.
    + unfold strip_cr. rewrite strip_suffix_app. exact Hb.
Qed.

Lemma p_discard_nil f s : sp_data s = [] -> p_discard_empty_lines_go f s = s.
Proof. intros H. destruct f; cbn [p_discard_empty_lines_go]; rewrite H; reflexivity. Qed.

Lemma discard_go_spec fuel : forall s, length (sp_data s) <= fuel ->
  exists ls tail, sp_data s = unlines ls ++ tail /\ (forall l, In l ls -> blank_line l /\ ~ In LF l) /\
  ((sp_data (p_discard_empty_lines_go fuel s) = tail /\
    exists l e rest, tail = l ++ e ++ rest /\ ~ In LF l /\ eol e rest /\ ~ blank_line l) \/
   (sp_data (p_discard_empty_lines_go fuel s) = [] /\ blank_line tail /\ ~ In LF tail)).
Proof.
  induction fuel as [|f IH]; intros s Hf; cbn [p_discard_empty_lines_go].
  - assert (D : sp_data s = []) by (destruct (sp_data s); [reflexivity|cbn in Hf; lia]).
    rewrite D. exists [], []. split; [reflexivity|]. split; [easy|]. right. split; [exact D|]. split; [|easy].
    exists [], []. split; [reflexivity|]. split; [easy|left; reflexivity].
  - destruct (sp_data s) as [|c d] eqn:D.
    + exists [], []. split; [reflexivity|]. split; [easy|]. right. split; [exact D|]. split; [|easy].
      exists [], []. split; [reflexivity|]. split; [easy|left; reflexivity].
    + rewrite <- D in *. destruct (first_line (sp_data s)) as (l & e & rest & E & Hl & He).
      unfold p_take_empty_line. rewrite (p_take_line_eq s l e rest Hl He E). cbn [mi_item mi_after with_data sp_data].
      destruct (forallb is_sp_tab (strip_cr l)) eqn:Eb.
      * assert (Hlen : length rest < length (sp_data s)).
        { rewrite E. destruct He as [->|[-> ->]]; rewrite !app_length; cbn; [lia|].
          destruct l; [|cbn; lia]. rewrite E in D. discriminate D. }
        destruct (IH (skip s (l ++ e) rest)) as (ls & tail & D2 & Hls & Ht); [rewrite sp_data_skip; lia|].
        rewrite sp_data_skip in D2. apply blank_line_dec in Eb. destruct He as [->|[-> ->]].
        -- exists (l :: ls), tail. split; [|split; [|exact Ht]].
           ++ unfold unlines. cbn [map concat]. fold (unlines ls). rewrite <- !app_assoc, <- D2. exact E.
           ++ intros x [<-|Hx]; [split; assumption|auto].
        -- exists [], l. split; [rewrite E, !app_nil_r; reflexivity|]. split; [easy|]. right. split; [|split; assumption].
           rewrite p_discard_nil; apply sp_data_skip.
      * exists [], (sp_data s). split; [reflexivity|]. split; [easy|]. left. split; [reflexivity|].
        exists l, e, rest. repeat split; try assumption. rewrite <- blank_line_dec. congruence.
Qed.

Lemma discard_empty_lines_idem s t : discard_empty_lines s = Ok t -> discard_empty_lines t = Ok t.
Proof.
  rewrite !discard_empty_lines_ok. intros H. injection H as <-. f_equal. unfold p_discard_empty_lines at 1.
  destruct (discard_go_spec (length (sp_data s)) s) as (ls & tail & D & Hls & Ht); [lia|].
  fold (p_discard_empty_lines s) in Ht. set (t := p_discard_empty_lines s) in *. destruct Ht as [[Ht (l & e & rest & E & Hl & He & Hb)]|[Ht _]].
  - destruct (length (sp_data t)) eqn:El; cbn [p_discard_empty_lines_go].
    + destruct (sp_data t); [reflexivity|discriminate].
    + destruct (sp_data t) eqn:Ed; [reflexivity|]. rewrite <- Ed in *. unfold p_take_empty_line.
      rewrite (p_take_line_eq t l e rest Hl He) by congruence. cbn [mi_item with_data sp_data].
      destruct (forallb is_sp_tab (strip_cr l)) eqn:Eb; [|reflexivity]. apply blank_line_dec in Eb. contradiction.
  - rewrite Ht. cbn. rewrite Ht. reflexivity.
Qed.

(** C06 *)
Lemma trim_spaces_unique r w : spaces w -> (forall y, r <> y ++ [SP]) -> trim_end_by (N.eqb SP) (r ++ w) = r.
Proof.
  intros Hw Hr. apply trim_end_by_unique.
  - apply Forall_forall. intros c Hc. apply N.eqb_eq. symmetry. auto.
  - intros b c ->. destruct (N.eqb_spec SP c) as [<-|]; [|reflexivity]. exfalso. apply (Hr b eq_refl).
Qed.

Lemma continued_dec l : ends_with [BSL] (trim_end_by (N.eqb SP) (strip_cr l)) = true <-> continued l.
Proof.
  split.
  - intros H. apply ends_with_spec in H. destruct H as [x Hx].
    destruct (strip_cr_opt l) as (cr & E & Hcr). destruct (trim_spaces_spec (strip_cr l)) as (w & Hw & Hs).
    exists x, w, cr. split; [|split; assumption]. rewrite E at 1. rewrite Hw at 1. rewrite Hx, <- !app_assoc. reflexivity.
  - intros (x & sps & cr & -> & Hs & Hcr).
    assert (E : strip_cr (x ++ [BSL] ++ sps ++ cr) = (x ++ [BSL]) ++ sps).
    { destruct Hcr as [->| ->].
      - rewrite app_nil_r. destruct (strip_cr_minus (x ++ [BSL] ++ sps)) as [H|[H _]].
        + exfalso. destruct sps as [|y sps _] using rev_ind.
          * rewrite app_nil_r in H. apply app_inj_tail in H. destruct H as [_ H]. discriminate H.
          * rewrite !app_assoc in H. apply app_inj_tail in H. destruct H as [_ H].
            specialize (Hs y ltac:(apply in_or_app; right; left; reflexivity)). subst y. discriminate H.
        + rewrite <- H, app_assoc. reflexivity.
      - unfold strip_cr. rewrite !app_assoc, strip_suffix_app. reflexivity. }
    rewrite E, trim_spaces_unique; [|exact Hs|].
    + apply ends_with_spec. exists x. reflexivity.
    + intros y H. apply app_inj_tail in H. destruct H as [_ H]. discriminate H.
Qed.

Lemma continued_nonempty l : continued l -> l <> [].
Proof. intros (x & sps & cr & -> & _) H. destruct x; discriminate H. Qed.

Lemma p_continuation_spec t c r : logical t c r -> forall fuel s, sp_data s = t -> length t <= fuel ->
  sp_data (mi_after (p_take_line (p_continuation_go fuel s))) = r.
Proof.
  induction 1 as [l e rest Hl He Hc|l e rest consumed rest' Hl He Hc _ IH]; intros fuel s D Hf.
  - destruct fuel as [|f]; cbn [p_continuation_go]; unfold p_take_normalized_line;
      rewrite (p_take_line_eq s l e rest Hl He D); cbn [mi_item mi_after with_data sp_data];
      destruct (ends_with [BSL] _) eqn:E; try (apply continued_dec in E; contradiction);
      rewrite (p_take_line_eq s l e rest Hl He D); apply sp_data_skip.
  - pose proof (continued_nonempty l Hc) as Hne.
    assert (Hlen : length rest < length (l ++ e ++ rest)).
    { rewrite !app_length. destruct l; [contradiction|]. cbn. lia. }
    destruct fuel as [|f]; [lia|]. cbn [p_continuation_go]. unfold p_take_normalized_line.
    rewrite (p_take_line_eq s l e rest Hl He D). cbn [mi_item mi_after with_data sp_data].
    apply continued_dec in Hc. rewrite Hc. apply IH; [apply sp_data_skip|lia].
Qed.

Lemma logical_app t c r : logical t c r -> t = c ++ r.
Proof.
  induction 1 as [l e rest _ _ _|l e rest consumed rest' _ _ _ _ IH]; rewrite <- ?app_assoc; [reflexivity|].
  rewrite IH. reflexivity.
Qed.

Lemma logical_total t : exists c r, logical t c r.
Proof.
  remember (length t) as n eqn:En. revert t En. induction n as [n IH] using lt_wf_ind. intros t ->.
  destruct (first_line t) as (l & e & rest & -> & Hl & He).
  destruct (ends_with [BSL] (trim_end_by (N.eqb SP) (strip_cr l))) eqn:E.
  - apply continued_dec in E. pose proof (continued_nonempty l E) as Hne.
    destruct (IH (length rest)) with (t := rest) as (c & r & Hlog); [|reflexivity|].
    { rewrite !app_length. destruct l; [contradiction|]. cbn. lia. }
    exists (l ++ e ++ c), r. apply logical_more; assumption.
  - exists (l ++ e), rest. apply logical_end; [assumption|assumption|]. rewrite <- continued_dec. congruence.
Qed.

Lemma strip1_opt c t : exists w, t = strip1 c t ++ w /\ (w = [] \/ w = [c]).
Proof.
  unfold strip1. destruct (strip_suffix_c c t) as [r|] eqn:E.
  - apply strip_suffix_spec in E. exists [c]. auto.
  - exists []. rewrite app_nil_r. auto.
Qed.

Lemma stripped_ok c : exists d, stripped c d /\ d = trim_end_by (N.eqb SP) (strip1 CR (strip1 LF c)).
Proof.
  exists (trim_end_by (N.eqb SP) (strip1 CR (strip1 LF c))). split; [|reflexivity]. unfold stripped.
  assert (H1 : forall x t, exists l, t = strip1 x t ++ l /\ (l = [x] \/ (l = [] /\ forall y, t <> y ++ [x]))).
  { intros x t. unfold strip1, strip_suffix_c. destruct t as [|z t _] using rev_ind.
    - exists []. cbn. split; [reflexivity|]. right. split; [reflexivity|]. intros [|? ?]; discriminate.
    - rewrite rev_app_distr. cbn [rev app]. destruct (N.eqb_spec z x) as [->|Hz].
      + exists [x]. rewrite rev_involutive. auto.
      + exists []. rewrite app_nil_r. split; [reflexivity|]. right. split; [reflexivity|]. intros y E. apply app_inj_tail in E. destruct E as [_ E]. contradiction. }
  destruct (H1 LF c) as (lf & E1 & Hlf). destruct (H1 CR (strip1 LF c)) as (cr & E2 & Hcr). destruct (trim_end_by_app (N.eqb SP) (strip1 CR (strip1 LF c))) as (sps & E3 & Hs & Hl).
  exists sps, cr, lf. split; [rewrite E1 at 1; rewrite E2 at 1; rewrite E3 at 1; rewrite <- !app_assoc; reflexivity|]. split; [exact Hlf|]. split.
  - destruct Hcr as [->|[-> Hcr]]; [auto|]. right. split; [reflexivity|]. rewrite <- E3. rewrite app_nil_r in E2. rewrite <- E2. exact Hcr.
  - split; [eapply Forall_impl; [|exact Hs]; intros x Hx; apply N.eqb_eq, Hx|]. intros x Hx. specialize (Hl _ _ Hx). discriminate Hl.
Qed.

Lemma take_line_cont_spec s c r : logical (sp_data s) c r ->
  exists d, stripped c d /\ take_line_with_continuation s =
      Ok (match d with [] => None | _ => Some (mkmi (with_data s d) (skip s c r)) end).
Proof.
  intros H. pose proof (logical_app _ _ _ H) as D.
  pose proof (p_continuation_spec _ _ _ H (length (sp_data s)) s eq_refl (le_n _)) as Ha.
  destruct (stripped_ok c) as (d & Hd & Ed). exists d. split; [exact Hd|].
  rewrite take_line_with_continuation_ok. unfold p_take_line_with_continuation.
  rewrite Ha. cbv zeta. fold (strip1 LF (firstn (length (sp_data s) - length r) (sp_data s))).
  assert (Hpre : firstn (length (sp_data s) - length r) (sp_data s) = c).
  { rewrite D, app_length. replace (length c + _ - _) with (length c) by lia.
    rewrite firstn_app, Nat.sub_diag, firstn_all. cbn. apply app_nil_r. }
  rewrite Hpre. fold (strip1 CR (strip1 LF c)). rewrite <- Ed. destruct d; reflexivity.
Qed.

(** C07 *)
Lemma app_cons_last (x : text) q y c t : c :: t = x ++ q :: y ->
  (x = [] /\ c = q /\ t = y) \/ exists x', x = c :: x' /\ t = x' ++ q :: y.
Proof. destruct x as [|d x]; cbn; intros H; injection H as -> ->; [left; auto|right; eauto]. Qed.

(** Generalisation to a preceding character: [b] says whether it was a backslash. *)
Lemma quoted_split_sound q : forall t b v r, quoted_split q b t = Some (v, r) ->
  t = v ++ q :: r /\
  (forall x y, v = x ++ q :: y -> (x = [] /\ b = true) \/ exists z, x = z ++ [BSL]) /\
  (v = [] -> b = false) /\ (forall z, v <> z ++ [BSL]).
Proof.
  induction t as [|c t IH]; intros b v r H; [discriminate|]. cbn [quoted_split] in H.
  destruct ((c =? q)%N && negb b) eqn:E.
  - injection H as <- <-. apply andb_prop in E. destruct E as [E1 E2]. apply N.eqb_eq in E1. subst c.
    split; [reflexivity|]. split; [intros [|]; discriminate|]. split; [destruct b; [discriminate|reflexivity]|].
    intros [|]; discriminate.
  - destruct (quoted_split q (c =? BSL)%N t) as [[v' r']|] eqn:Es; [|discriminate]. injection H as <- <-.
    destruct (IH _ _ _ Es) as (H1 & H2 & H3 & H4). split; [cbn; congruence|]. split; [|split; [discriminate|]].
    + intros x y Hx. apply app_cons_last in Hx. destruct Hx as [(-> & -> & _)|(x' & -> & Hx)].
      * left. split; [reflexivity|]. rewrite N.eqb_refl in E. cbn in E. destruct b; [reflexivity|discriminate].
      * right. destruct (H2 x' y Hx) as [[-> Hb]|[z ->]].
        -- apply N.eqb_eq in Hb. subst c. exists []. reflexivity.
        -- exists (c :: z). reflexivity.
    + intros z Hz. destruct z as [|d z]; cbn in Hz.
      * injection Hz as -> ->. specialize (H3 eq_refl). rewrite N.eqb_refl in H3. discriminate.
      * injection Hz as _ Hz. apply (H4 z Hz).
Qed.

Lemma quoted_split_complete q : forall v b r,
  (forall x y, v = x ++ q :: y -> (x = [] /\ b = true) \/ exists z, x = z ++ [BSL]) ->
  (v = [] -> b = false) -> (forall z, v <> z ++ [BSL]) ->
  quoted_split q b (v ++ q :: r) = Some (v, r).
Proof.
  induction v as [|c v IH]; intros b r H1 H2 H3; cbn [app quoted_split].
  - rewrite N.eqb_refl, (H2 eq_refl). reflexivity.
  - assert (E : (c =? q)%N && negb b = false).
    { destruct (N.eqb_spec c q) as [->|]; [|reflexivity]. destruct (H1 [] v eq_refl) as [[_ ->]|[z Hz]]; [reflexivity|].
      destruct z; discriminate. }
    rewrite E, IH; [reflexivity| | |].
    + intros x y Hx. destruct (H1 (c :: x) y) as [[Hc _]|[z Hz]]; [cbn; congruence|discriminate|].
      destruct z as [|d z]; cbn in Hz; injection Hz as -> Hz.
      * left. split; [exact Hz|]. apply N.eqb_refl.
      * right. eauto.
    + intros ->. destruct (N.eqb_spec c BSL) as [->|]; [|reflexivity]. exfalso. apply (H3 []). reflexivity.
    + intros z Hz. apply (H3 (c :: z)). cbn. congruence.
Qed.

Lemma take_quoted_iff s v r :
  (exists m, take_quoted_string s = Ok (Some m) /\ sp_data (mi_item m) = v /\ sp_data (mi_after m) = r) <->
  exists q, (q = 39%N \/ q = 34%N) /\ sp_data s = q :: v ++ q :: r /\ no_unescaped q v /\ forall z, v <> z ++ [BSL].
Proof.
  rewrite take_quoted_string_ok. unfold p_take_quoted_string. split.
  - intros (m & H & <- & <-). injection H as H. destruct (sp_data s) as [|c t] eqn:D; [discriminate|].
    destruct ((c =? 39) || (c =? 34))%N eqn:Eq; [|discriminate].
    destruct (quoted_split c false t) as [[a b]|] eqn:Es; [|discriminate]. injection H as <-.
    apply quoted_split_sound in Es. destruct Es as (-> & H1 & _ & H3). cbn [mi_item mi_after]. rewrite !sp_data_skip.
    exists c. split; [|split; [reflexivity|split; [|exact H3]]].
    + apply orb_prop in Eq. destruct Eq as [Eq|Eq]; apply N.eqb_eq in Eq; auto.
    + intros x y Hx. destruct (H1 x y Hx) as [[_ H]|H]; [discriminate|exact H].
  - intros (q & Hq & D & Hu & Hb). rewrite D.
    assert (Eq : ((q =? 39) || (q =? 34))%N = true) by (destruct Hq as [->| ->]; reflexivity).
    rewrite Eq, quoted_split_complete; [|intros x y Hx; right; apply (Hu x y Hx)|reflexivity|exact Hb].
    eexists. split; [reflexivity|]. cbn [mi_item mi_after]. rewrite !sp_data_skip. auto.
Qed.

(** C08 *)
Lemma take_name_spec first more s :
  match sp_data s with
  | [] => take_name first more s = Ok None
  | c :: t => if first c then
      exists a b, t = a ++ b /\ Forall (fun d => more d = true) a /\ (forall d u, b = d :: u -> more d = false) /\
        take_name first more s = Ok (Some (mkmi (with_data s (c :: a)) (skip s (c :: a) b)))
    else take_name first more s = Ok None
  end.
Proof.
  rewrite take_name_ok. unfold p_take_name. destruct (sp_data s) as [|c t]; [reflexivity|].
  destruct (first c); [|reflexivity]. pose proof (span_while_app more t) as H.
  pose proof (span_while_all more t) as Ha. pose proof (fun d u => span_while_stop more t d u) as Hs.
  destruct (span_while more t) as [a b]; cbn [fst snd] in *. exists a, b. repeat split; auto.
Qed.

(** C09 *)
Lemma prefix_cmp (a b c d : text) : a ++ b = c ++ d -> blen a <= blen c -> exists e, c = a ++ e.
Proof.
  revert c. induction a as [|x a IH]; intros c H Hl; [exists c; reflexivity|].
  destruct c as [|y c]; [pose proof (blen_cons_pos x a); cbn [blen] in *; lia|].
  cbn in H. injection H as -> H. cbn [blen] in Hl. destruct (IH c H) as [e ->]; [lia|]. exists e. reflexivity.
Qed.

Lemma trim_remainder_spec d s a bs hs ba ha :
  d = bs ++ sp_data s ++ hs -> d = ba ++ sp_data a ++ ha ->
  spec_offset bs (sp_off s) -> spec_offset ba (sp_off a) ->
  trim_remainder s a = Ok (with_data s (firstn (length ba - length bs) (sp_data s))).
Proof.
  unfold spec_offset. rewrite !blen_utf8. intros Ds Da Os Oa. unfold trim_remainder. rewrite Os, Oa.
  assert (E0 : slice s 0 0 = Ok (with_data s [])) by (apply (slice0_ok s [] (sp_data s)); reflexivity).
  destruct (le_lt_dec (blen ba) (blen bs)) as [H|H].
  - destruct (Nat.leb_spec (Nat.min (blen bs + blen (sp_data s)) (blen ba)) (blen bs)) as [_|H2]; [|lia].
    destruct (prefix_cmp ba (sp_data a ++ ha) bs (sp_data s ++ hs)) as [e ->]; [congruence|exact H|].
    rewrite app_length. replace (length ba - _) with 0 by lia. exact E0.
  - destruct (prefix_cmp bs (sp_data s ++ hs) ba (sp_data a ++ ha)) as [e ->]; [congruence|lia|].
    rewrite blen_app in *. rewrite app_length. replace (length bs + length e - length bs) with (length e) by lia.
    assert (Hd : sp_data s ++ hs = e ++ sp_data a ++ ha).
    { apply (app_inv_head bs). rewrite <- Ds, Da, <- app_assoc. reflexivity. }
    destruct (le_lt_dec (blen e) (blen (sp_data s))) as [He|He].
    + rewrite Nat.min_r by lia. destruct (Nat.leb_spec (blen bs + blen e) (blen bs)); [lia|].
      destruct (prefix_cmp e (sp_data a ++ ha) (sp_data s) hs) as [f Hf]; [congruence|exact He|].
      replace (blen bs + blen e - blen bs) with (blen e) by lia. rewrite (slice0_ok s e f Hf). rewrite Hf.
      rewrite firstn_app, Nat.sub_diag, firstn_all. cbn. rewrite app_nil_r. reflexivity.
    + rewrite Nat.min_l by lia. destruct (prefix_cmp (sp_data s) hs e (sp_data a ++ ha)) as [f ->]; [exact Hd|lia|].
      rewrite firstn_all2 by (rewrite app_length; lia). rewrite with_data_self.
      destruct (Nat.leb_spec (blen bs + blen (sp_data s)) (blen bs)) as [Hz|Hz].
      * assert (Hn : sp_data s = []) by (apply blen_0; lia). rewrite <- (with_data_self s) at 2. rewrite Hn. exact E0.
      * replace (blen bs + blen (sp_data s) - blen bs) with (blen (sp_data s)) by lia.
        rewrite (slice0_ok s (sp_data s) []) by (rewrite app_nil_r; reflexivity). rewrite with_data_self. reflexivity.
Qed.
