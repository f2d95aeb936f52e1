(** Proofs about the preprocessor. *)
From Verif Require Import Text TextFacts Span_Model Span_Pure Span_Spec Span_Proof Span_Laws Parser_Model Subs_Model Subs_Proof Attrlist_Model Attrlist_Proof Attrlist_Laws Attrlist_Prop SourceMap_Model SourceMap_Proof Entry_Model Entry_Spec Entry_Proof Regex Regex_Proof Regex_Scan Pre_Model Pre_Spec.

Lemma newlines_app a b : newlines (a ++ b) = newlines a + newlines b.
Proof. apply count_occ_app. Qed.
Lemma newlines_lf t : count_lf t = newlines t.
Proof. apply count_lf_occ. Qed.
Lemma newlines_none t : ~ In LF t -> newlines t = 0.
Proof. apply count_occ_not_In. Qed.
Lemma starts_line_lf x : starts_line (x ++ [LF]).
Proof. right. eexists. reflexivity. Qed.
Lemma starts_line_app a b : starts_line a -> starts_line b -> starts_line (a ++ b).
Proof. intros Ha [->|[y ->]]; [rewrite app_nil_r; exact Ha|]. right. exists (a ++ y). rewrite app_assoc. reflexivity. Qed.
Lemma starts_line_tail a z : starts_line (a ++ z) -> starts_line z.
Proof.
  intros [E|[y E]]; [apply app_eq_nil in E; left; apply E|]. destruct (rev_ind (fun z => z = [] \/ exists z' c, z = z' ++ [c]) (or_introl eq_refl) (fun x l _ => or_intror (ex_intro _ l (ex_intro _ x eq_refl))) z) as [->|(z' & c & ->)]; [left; reflexivity|].
  rewrite app_assoc in E. apply app_inj_tail in E. destruct E as [_ ->]. apply starts_line_lf.
Qed.
Lemma lf_split l : forall y z b, ~ In LF l -> l ++ y = z ++ LF :: b -> exists q, z = l ++ q /\ y = q ++ LF :: b.
Proof.
  induction l as [|c l IH]; intros y z b Hl E; [exists z; auto|]. destruct z as [|d z]; cbn [app] in E; injection E as -> E; [exfalso; apply Hl; left; reflexivity|].
  destruct (IH y z b) as (q & -> & ->); [intros Hi; apply Hl; right; exact Hi|exact E|]. exists q. auto.
Qed.
Lemma line_at_app a b k l : starts_line a -> line_at (a ++ b) k l -> line_at a k l \/ exists i, k = newlines a + i /\ line_at b i l.
Proof.
  intros Ha (x & y & E & Hx & -> & Hl & Hy). apply app_eq_app in E. destruct E as [z [[Ea Eb]|[Ex Eb]]].
  - assert (Hz : starts_line z) by (apply (starts_line_tail x); rewrite <- Ea; exact Ha). destruct Hz as [->|[z' ->]].
    + right. exists 1. rewrite app_nil_r in Ea. subst x. split; [lia|]. exists [], y. split; [exact (eq_sym Eb)|]. repeat split; [left; reflexivity|exact Hl|exact Hy].
    + left. rewrite <- app_assoc in Eb. destruct (lf_split l y z' b Hl Eb) as (q & -> & Ey). exists x, (q ++ [LF]). split; [rewrite Ea, <- app_assoc; reflexivity|]. repeat split; [exact Hx|exact Hl|].
      left. destruct Hy as [[y0 Hy]|[Hy _]]; rewrite Hy in Ey; [|destruct q; discriminate]. destruct q as [|c q]; [exists []; reflexivity|]. injection Ey as <- _. eexists. reflexivity.
  - right. subst x. exists (S (newlines z)). rewrite newlines_app. split; [lia|]. exists z, y. split; [exact Eb|]. repeat split; [apply (starts_line_tail a), Hx|exact Hl|exact Hy].
Qed.
(** A text without a newline is one line. *)
Lemma line_at_one b i l : ~ In LF b -> line_at (b ++ [LF]) i l -> i = 1 /\ l = b.
Proof.
  intros Hb (x & y & E & Hx & -> & Hl & Hy). destruct Hx as [->|[x' ->]].
  - cbn [app] in E. destruct Hy as [[y' ->]|[-> Hn]].
    + symmetry in E. destruct (lf_split l (LF :: y') b [] Hl E) as (q & -> & Ey). destruct q as [|c q]; [rewrite app_nil_r; auto|]. injection Ey as <- _. exfalso. apply Hb, in_elt.
    + rewrite app_nil_r in E. exfalso. apply Hl. rewrite <- E. apply in_elt.
  - rewrite <- app_assoc in E. cbn [app] in E. destruct (lf_split b [LF] x' (l ++ y) Hb E) as (q & -> & Ey). destruct q as [|c q]; cbn [app] in Ey; injection Ey as Ey; [|destruct q; discriminate].
    symmetry in Ey. apply app_eq_nil in Ey. destruct Ey as [-> ->]. destruct Hy as [[y' Hy]|[_ Hn]]; [discriminate|exfalso; apply Hn; reflexivity].
Qed.
(** The lines of a text whose trailing whitespace has been cut off. *)
Lemma line_at_trimmed pre src w r i l : starts_line pre -> Forall (fun c => is_ws c = true) w -> (forall b c, src = b ++ [c] -> is_ws c = false) -> src <> [] ->
  (r = [] \/ In LF w) -> line_at (src ++ [LF]) i l -> exists l', line_at (pre ++ src ++ w ++ r) (newlines pre + i) l' /\ trim_end l = trim_end l'.
Proof.
  intros Hp Hw Hs Hne Hr (x & y & E & Hx & -> & Hl & Hy).
  assert (Hpos : forall l' y', ~ In LF l' -> src ++ w ++ r = x ++ l' ++ y' -> ((exists y'', y' = LF :: y'') \/ (y' = [] /\ l' <> [])) -> line_at (pre ++ src ++ w ++ r) (newlines pre + S (newlines x)) l').
  { intros l' y' H1 H2 H3. exists (pre ++ x), y'. rewrite H2, <- app_assoc. split; [reflexivity|]. split; [apply starts_line_app; assumption|]. split; [rewrite newlines_app; lia|]. split; assumption. }
  destruct Hy as [[y' ->]|[-> Hn]].
  2:{ rewrite app_nil_r in E. destruct (rev_ind (fun z => z = [] \/ exists z' c, z = z' ++ [c]) (or_introl eq_refl) (fun x l _ => or_intror (ex_intro _ l (ex_intro _ x eq_refl))) l) as [->|(z' & c & ->)]; [contradiction|].
      rewrite app_assoc in E. apply app_inj_tail in E. destruct E as [_ <-]. exfalso. apply Hl, in_elt. }
  destruct (rev_ind (fun z => z = [] \/ exists z' c, z = z' ++ [c]) (or_introl eq_refl) (fun x l _ => or_intror (ex_intro _ l (ex_intro _ x eq_refl))) y') as [->|(z' & c & ->)].
  - (* the last line *)
    rewrite app_assoc in E. apply app_inj_tail in E. destruct E as [E _].
    assert (Hlast : forall b c, l = b ++ [c] -> is_ws c = false) by (intros b c El; apply (Hs (x ++ b) c); rewrite E, El, app_assoc; reflexivity).
    assert (Hln : l <> []).
    { intros ->. rewrite app_nil_r in E. subst x. destruct Hx as [Hx|[x' Hx]]; [contradiction|]. specialize (Hs _ _ Hx). discriminate. }
    pose proof (span_while_app is_not_lf w) as Hsp. pose proof (span_while_all is_not_lf w) as Hall. pose proof (span_lf_tail w) as Ht. destruct (span_while is_not_lf w) as [w1 w2]; cbn [fst snd] in *.
    exists (l ++ w1). split.
    + apply (Hpos (l ++ w1) (w2 ++ r)).
      * rewrite in_app_iff. intros [H|H]; [exact (Hl H)|]. exact (forall_not_lf _ Hall H).
      * rewrite E, <- Hsp, <- !app_assoc. reflexivity.
      * destruct w2 as [|c w2]; [|left; rewrite (Ht c w2 eq_refl); eexists; reflexivity]. right. destruct Hr as [->|Hr]; [|exfalso; rewrite <- Hsp, app_nil_r in Hr; exact (forall_not_lf _ Hall Hr)].
        split; [reflexivity|]. destruct l; [contradiction|discriminate].
    + unfold trim_end. rewrite (trim_end_by_id is_ws l Hlast). symmetry. apply trim_end_by_unique; [|exact Hlast]. rewrite <- Hsp in Hw. apply Forall_app in Hw. apply Hw.
  - exists l. split; [|reflexivity]. change (LF :: z' ++ [c]) with ((LF :: z') ++ [c]) in E. rewrite !app_assoc in E. apply app_inj_tail in E. destruct E as [E _].
    apply (Hpos l (LF :: z' ++ w ++ r)); [exact Hl|rewrite E, <- !app_assoc; reflexivity|left; eexists; reflexivity].
Qed.

(** * The logical line of an attribute entry. *)
Lemma logical_last t c r : logical t c r -> r <> [] -> exists q l, c = q ++ l ++ [LF] /\ ~ In LF l /\ (q = [] \/ exists q' l0, q = q' ++ l0 ++ [LF] /\ continued l0).
Proof.
  induction 1 as [l e rest Hl He Hc|l e rest consumed rest' Hl He Hc Hlog IH]; intros Hr.
  - destruct He as [->|[_ ->]]; [|contradiction]. exists [], l. auto.
  - destruct (IH Hr) as (q & l1 & -> & Hl1 & Hq). destruct He as [->|[_ ->]].
    2:{ apply logical_app in Hlog. symmetry in Hlog. apply app_eq_nil in Hlog. destruct Hlog. contradiction. }
    exists (l ++ [LF] ++ q), l1. rewrite <- !app_assoc. split; [reflexivity|]. split; [exact Hl1|]. right. destruct Hq as [->|(q' & l0 & -> & H0)].
    + exists [], l. rewrite app_nil_r. auto.
    + exists (l ++ [LF] ++ q'), l0. rewrite <- !app_assoc. auto.
Qed.
Lemma all_ws_or l : Forall (fun c => is_ws c = true) l \/ trim_end l <> [].
Proof.
  destruct (trim_end_by_app is_ws l) as (w & E & Hw & _). fold (trim_end l) in E. destruct (trim_end l); [left; cbn in E; rewrite E; exact Hw|right; discriminate].
Qed.
Lemma logical_trim t c r : logical t c r -> ~ blank_continuation t -> (exists t', t = 58%N :: t') ->
  exists w, c = trim_end c ++ w /\ Forall (fun c => is_ws c = true) w /\ (forall b x, trim_end c = b ++ [x] -> is_ws x = false) /\ trim_end c <> [] /\
    (r = [] \/ (newlines w = 1 /\ starts_line c)).
Proof.
  intros H Hb (t' & Ht). destruct (trim_end_by_app is_ws c) as (w & E & Hw & Hlast). fold (trim_end c) in *. exists w. split; [exact E|]. split; [exact Hw|]. split; [exact Hlast|].
  pose proof (logical_app _ _ _ H) as D.
  assert (Hc : r = [] \/ exists c', c = 58%N :: c').
  { destruct c as [|x c]; [|right; rewrite Ht in D; injection D as <- _; eauto]. inversion H as [l e rest H1 He H3 H4 H5 H6|l e rest consumed rest' H1 He H3 H4 H5 H6 H7]; subst.
    - apply app_eq_nil in H5. destruct H5 as [-> ->]. destruct He as [He|[_ He]]; [discriminate|left; exact He].
    - apply app_eq_nil in H6. destruct H6 as [-> _]. destruct H3 as (x & sps & cr & E' & _). destruct x; discriminate. }
  assert (Hne : (exists c', c = 58%N :: c') -> trim_end c <> []).
  { intros (c' & Ec) E'. rewrite E' in E. cbn in E. rewrite <- E, Ec in Hw. inversion Hw. discriminate. }
  assert (Hcc : exists c', c = 58%N :: c').
  { destruct Hc as [->|Hc]; [|exact Hc]. rewrite app_nil_r in D. exists t'. congruence. }
  split; [exact (Hne Hcc)|]. destruct r as [|r0 r]; [left; reflexivity|]. right. set (rr := r0 :: r) in *. assert (Hr : rr <> []) by discriminate.
  destruct (logical_last _ _ _ H Hr) as (q & l & Ec & Hl & Hq). split; [|rewrite Ec, app_assoc; apply starts_line_lf].
  destruct (all_ws_or l) as [Hws|Hnw].
  - exfalso. destruct Hq as [->|(q' & l0 & -> & H0)].
    + apply (Hne Hcc). rewrite Ec. cbn [app]. rewrite <- (app_nil_l (l ++ [LF])). apply trim_end_by_unique; [apply Forall_app; split; [exact Hws|repeat constructor]|]. intros b x Hx. destruct b; discriminate.
    + apply Hb. exists q', l0, l, rr. rewrite D, Ec, <- !app_assoc. auto.
  - destruct (trim_end_by_app is_ws l) as (w1 & E1 & Hw1 & Hlast1). fold (trim_end l) in *.
    assert (Et : trim_end c = q ++ trim_end l).
    { rewrite Ec. rewrite E1 at 1. replace (q ++ (trim_end l ++ w1) ++ [LF]) with ((q ++ trim_end l) ++ w1 ++ [LF]) by (rewrite <- !app_assoc; reflexivity).
      apply trim_end_by_unique; [apply Forall_app; split; [exact Hw1|repeat constructor]|]. intros b x Hx.
      destruct (rev_ind (fun z => z = [] \/ exists z' c, z = z' ++ [c]) (or_introl eq_refl) (fun x l _ => or_intror (ex_intro _ l (ex_intro _ x eq_refl))) (trim_end l)) as [Hz|(z' & y & Hz)]; [contradiction|].
      rewrite Hz in *. rewrite app_assoc in Hx. apply app_inj_tail in Hx. destruct Hx as [_ <-]. apply (Hlast1 _ _ eq_refl). }
    assert (Ew : w = w1 ++ [LF]).
    { rewrite Et in E. rewrite Ec in E. rewrite E1 in E at 1. rewrite <- !app_assoc in E. apply app_inv_head in E. apply app_inv_head in E. symmetry. exact E. }
    rewrite Ew, newlines_app, newlines_none; [reflexivity|]. intros Hi. apply Hl. rewrite E1, in_app_iff. right. exact Hi.
Qed.

(** * The source map *)
Lemma lookup_step_go key m : forall best best', Forall (fun e => fst e <= key) m -> sl_file best' = sl_file best -> sl_line best' = S (sl_line best) ->
  let v := fold_left (lookup_from key) m best in fold_left (lookup_from (S key)) m best' = mksl (sl_file v) (S (sl_line v)).
Proof.
  induction m as [|[k v] m IH]; intros best best' H H1 H2; cbn [fold_left].
  - destruct best'; cbn in *; subst; reflexivity.
  - inversion H as [|? ? Hk Hm]; subst. cbn in Hk. apply IH; [exact Hm| |]; unfold lookup_from; cbn [fst snd]; destruct (Nat.leb_spec k key), (Nat.leb_spec k (S key)); try lia; cbn [sl_file sl_line]; auto; lia.
Qed.
Lemma lookup_step m key i : Forall (fun e => fst e <= key) m -> lookup_spec m (key + i) = mksl (sl_file (lookup_spec m key)) (sl_line (lookup_spec m key) + i).
Proof.
  intros H. induction i as [|i IH]; [rewrite !Nat.add_0_r; destruct (lookup_spec m key); reflexivity|].
  rewrite Nat.add_succ_r. unfold lookup_spec at 1. rewrite (lookup_step_go (key + i) m (mksl None (key + i))); [|eapply Forall_impl; [|exact H]; cbn; lia|reflexivity|reflexivity].
  fold (lookup_spec m (key + i)). rewrite IH. cbn [sl_file sl_line]. f_equal. lia.
Qed.
Lemma lookup_append m k v key : lookup_spec (sm_append m k v) key = if k <=? key then mksl (sl_file v) (sl_line v + (key - k)) else lookup_spec m key.
Proof. unfold lookup_spec, sm_append. rewrite fold_left_app. cbn. reflexivity. Qed.

(** * The loop invariant *)
Section Loop.
Context (U : unicode) (hdr norm : parser -> text -> res text) (ifh : include_handler) (primary : option text) (root : text).
Notation sup := (supplied ifh primary root).

Definition origin (m : source_map) (k : nat) (l : text) : Prop := unresolved_line l \/
  exists content l', sup (sl_file (lookup_spec m k)) content /\ line_at content (sl_line (lookup_spec m k)) l' /\ trim_end l = trim_end l'.
Definition Inv (s : pre_state) : Prop := starts_line (ps_out s) /\ ps_line s = S (newlines (ps_out s)) /\ increasing (ps_map s) /\
  Forall (fun e => fst e < ps_line s) (ps_map s) /\ forall k l, line_at (ps_out s) k l -> origin (ps_map s) k l.
Definition Track (file : option text) (source : span) (s : pre_state) : Prop := lookup_spec (ps_map s) (ps_line s) = mksl file (sp_line source).
Definition At (content : text) (source : span) : Prop := exists pre, content = pre ++ sp_data source /\ starts_line pre /\ sp_line source = S (newlines pre).

Lemma line_at_bound out k l : starts_line out -> line_at out k l -> k <= newlines out.
Proof.
  intros Ho (x & y & -> & Hx & -> & Hl & Hy). rewrite !newlines_app. destruct Hy as [[y' ->]|[-> Hn]]; [unfold newlines; cbn; destruct (N.eq_dec LF LF); [lia|congruence]|].
  rewrite app_nil_r in Ho. apply starts_line_tail in Ho. destruct Ho as [->|[z ->]]; [contradiction|]. exfalso. apply Hl, in_elt.
Qed.
(** Emitting the text [b] (one or several lines). *)
Lemma inv_emit s s' b : Inv s -> ps_out s' = ps_out s ++ b ++ [LF] -> ps_line s' = ps_line s + (newlines b + 1) ->
  increasing (ps_map s') -> Forall (fun e => fst e <= ps_line s) (ps_map s') -> (forall k, k < ps_line s -> lookup_spec (ps_map s') k = lookup_spec (ps_map s) k) ->
  (forall i l, line_at (b ++ [LF]) (S i) l -> origin (ps_map s') (ps_line s + i) l) -> Inv s'.
Proof.
  intros (H1 & H2 & H3 & H4 & H5) Ho El Hi Hm Hk Hb. split; [|split; [|split; [|split]]].
  - rewrite Ho, app_assoc. apply starts_line_lf.
  - rewrite Ho, El, H2, !newlines_app. change (newlines [LF]) with 1. lia.
  - exact Hi.
  - eapply Forall_impl; [|exact Hm]. cbn. lia.
  - intros k l Hl. rewrite Ho in Hl. apply line_at_app in Hl; [|exact H1]. destruct Hl as [Hl|(i & -> & Hl)].
    + pose proof (line_at_bound _ _ _ H1 Hl). destruct (H5 k l Hl) as [Hu|(content & l' & Hs & Hla & Ht)]; [left; exact Hu|]. right. exists content, l'. rewrite Hk by lia. auto.
    + destruct i as [|i]; [destruct Hl as (x & y & _ & _ & E & _); discriminate|]. replace (newlines (ps_out s) + S i) with (ps_line s + i) by lia. apply Hb, Hl.
Qed.
Lemma report_facts file reported n s : Inv s -> (reported = true -> lookup_spec (ps_map s) (ps_line s) = mksl file n) ->
  let s' := report file reported n s in ps_parser s' = ps_parser s /\ ps_in_header s' = ps_in_header s /\ ps_can_attr s' = ps_can_attr s /\ ps_line s' = ps_line s /\ ps_out s' = ps_out s /\
    increasing (ps_map s') /\ Forall (fun e => fst e <= ps_line s) (ps_map s') /\ (forall k, k < ps_line s -> lookup_spec (ps_map s') k = lookup_spec (ps_map s) k) /\
    forall i, lookup_spec (ps_map s') (ps_line s + i) = mksl file (n + i).
Proof.
  intros (H1 & H2 & H3 & H4 & H5) Hr. unfold report. destruct reported; cbn [ps_parser ps_in_header ps_can_attr ps_line ps_out ps_map].
  - do 5 (split; [reflexivity|]). split; [exact H3|]. assert (Hle : Forall (fun e => fst e <= ps_line s) (ps_map s)) by (eapply Forall_impl; [|exact H4]; cbn; lia). split; [exact Hle|]. split; [reflexivity|].
    intros i. rewrite (lookup_step _ _ _ Hle), Hr by reflexivity. reflexivity.
  - do 5 (split; [reflexivity|]). split; [apply increasing_append; assumption|]. split; [|split].
    + unfold sm_append. apply Forall_app. split; [eapply Forall_impl; [|exact H4]; cbn; lia|]. repeat constructor.
    + intros k Hk. rewrite lookup_append. destruct (Nat.leb_spec (ps_line s) k); [lia|reflexivity].
    + intros i. rewrite lookup_append. destruct (Nat.leb_spec (ps_line s) (ps_line s + i)); [|lia]. cbn. f_equal. lia.
Qed.

Context (Hsup : forall f content, sup f content -> ~ blank_continuation content /\ (forall n, f = Some n -> ~ In LF n)).

Lemma blank_sub pre t : ~ blank_continuation (pre ++ t) -> ~ blank_continuation t.
Proof. intros H (x & l & w & y & -> & Hc & Hw). apply H. exists (pre ++ x), l, w, y. rewrite <- !app_assoc. auto. Qed.
Lemma skip_line s pre d : sp_line (skip s pre d) = sp_line s + newlines pre.
Proof. unfold skip. rewrite slice_internal_eq. cbn. rewrite newlines_lf. reflexivity. Qed.

Lemma At_skip content source pre rest : At content source -> sp_data source = pre ++ rest -> rest = [] \/ starts_line pre -> sp_data (skip source pre rest) = [] \/ At content (skip source pre rest).
Proof.
  intros (p & E & Hp & Hl) D [->|Hs]; [left; apply sp_data_skip|]. right. exists (p ++ pre). rewrite sp_data_skip, skip_line. split; [rewrite E, D, app_assoc; reflexivity|].
  split; [apply starts_line_app; assumption|]. rewrite newlines_app. lia.
Qed.
Lemma strip_cr_trim l : trim_end (strip_cr l) = trim_end l.
Proof.
  destruct (strip_cr_minus l) as [H|[H _]]; [|congruence]. rewrite H at 2. destruct (trim_end_by_app is_ws (strip_cr l)) as (w & E & Hw & Hl). fold (trim_end (strip_cr l)) in *.
  rewrite E at 2. rewrite <- app_assoc. symmetry. apply trim_end_by_unique; [apply Forall_app; split; [exact Hw|repeat constructor]|exact Hl].
Qed.

Lemma pre_loop_inv fuel : forall file reported source s s' content, sup file content -> sp_data source = [] \/ At content source -> Inv s ->
  (reported = true -> sp_data source <> [] -> Track file source s) -> pre_loop U hdr norm ifh fuel file reported source s = Ok s' -> Inv s'.
Proof.
  induction fuel as [|f IH]; [discriminate|]. intros file reported source s s' content Hs Hat Hinv Htr E. cbn [pre_loop] in E.
  destruct (sp_data source) as [|c0 d0] eqn:Ed; [apply Ok_inj in E; subst s'; exact Hinv|]. destruct Hat as [Hat|Hat]; [discriminate|].
  assert (Htr' : reported = true -> lookup_spec (ps_map s) (ps_line s) = mksl file (sp_line source)) by (intros Hr; apply Htr; [exact Hr|discriminate]). clear Htr.
  destruct (first_line (sp_data source)) as (l & e & rest & D & Hl & He). rewrite take_line_ok in E. rewrite (p_take_line_eq source l e rest Hl He D) in E. cbn [bind mi_item mi_after] in E. change (sp_data (with_data source (strip_cr l))) with (strip_cr l) in E. change (sp_line (with_data source (strip_cr l))) with (sp_line source) in E.
  assert (Hle : l ++ e <> []) by (destruct He as [->|[-> ->]]; [destruct l; discriminate|]; rewrite Ed in D; rewrite app_nil_r in *; intros ->; discriminate).
  pose proof Hat as (p & Ep & Hp & Hpl). destruct (Hsup _ _ Hs) as [Hbc Hname].
  assert (Hnext : sp_data (skip source (l ++ e) rest) = [] \/ At content (skip source (l ++ e) rest)).
  { apply (At_skip content source (l ++ e) rest Hat); [rewrite <- app_assoc; exact D|]. destruct He as [->|[_ ->]]; [right; apply starts_line_lf|left; reflexivity]. }
  assert (Hline : line_at content (sp_line source) l).
  { exists p, (e ++ rest). rewrite Ep, D. split; [reflexivity|]. split; [exact Hp|]. split; [exact Hpl|]. split; [exact Hl|]. destruct He as [->|[-> ->]]; [left; eexists; reflexivity|right]. rewrite app_nil_r in Hle. auto. }
  assert (HlCR : ~ In LF (strip_cr l)) by (intros Hi; apply Hl; destruct (strip_cr_opt l) as (cr & El & _); rewrite El, in_app_iff; left; exact Hi).
  assert (Hnl : rest <> [] -> newlines (l ++ e) = 1) by (intros Hr; destruct He as [->|[_ ->]]; [rewrite newlines_app, (newlines_none l Hl); reflexivity|contradiction]).
  apply bind_ok in E. destruct E as (attr & Ea & E). destruct attr as [attr|].
  - (* attribute entry *)
    unfold try_attribute in Ea. destruct (ps_can_attr s); [|discriminate]. destruct (starts_with (lit ":") (strip_cr l)) eqn:Es; [|discriminate]. cbn [andb] in Ea. destruct (_ || _); [|discriminate].
    apply starts_with_spec in Es. destruct Es as [ll El].
    assert (Hcolon : exists t', sp_data source = 58%N :: t').
    { destruct (strip_cr_opt l) as (cr & Elc & _). rewrite El in Elc. rewrite D, Elc. eexists. reflexivity. }
    destruct (logical_total (sp_data source)) as (c & r & Hlog). pose proof (logical_app _ _ _ Hlog) as Dc.
    assert (Hbs : ~ blank_continuation (sp_data source)) by (apply (blank_sub p); rewrite <- Ep; exact Hbc).
    destruct (logical_trim _ _ _ Hlog Hbs Hcolon) as (w & Ew & Hw & Hlast & Hne & Hr).
    destruct (attribute_parse_eq hdr source (ps_parser s) c r Hlog) as (pre & vs & Eat & _). cbv zeta in Eat. rewrite Eat in Ea. clear Eat.
    destruct (e_parse _) as [[n [u rst]]|]; [|discriminate]. apply bind_ok in Ea. destruct Ea as (v & _ & Ea). apply Ok_inj, Some_inj in Ea. subst attr. cbn [mi_after mi_item] in E.
    destruct (report_facts file reported (sp_line source) s Hinv Htr') as (R1 & R2 & R3 & R4 & R5 & R6 & R7 & R8 & R9). set (s1 := report file reported (sp_line source) s) in *.
    set (src := trim_end c) in *. revert E. apply (IH file true (skip source c r) (emit_attribute U _ s1) s' content Hs).
    + apply (At_skip content source c r Hat Dc). destruct Hr as [->|[_ Hr]]; [left; reflexivity|right; exact Hr].
    + apply (inv_emit s _ src Hinv); cbn [emit_attribute ps_out ps_line ps_map at_source sp_data with_data].
      * rewrite R5. reflexivity.
      * rewrite R4, newlines_lf. reflexivity.
      * exact R6.
      * exact R7.
      * exact R8.
      * intros i l0 Hl0. destruct (line_at_trimmed p src w r (S i) l0 Hp Hw Hlast Hne) as (l' & Hl' & Et); [destruct Hr as [Hr|[Hr _]]; [left; exact Hr|right]|exact Hl0|].
        { destruct (in_dec N.eq_dec LF w) as [Hi|Hi]; [exact Hi|]. rewrite newlines_none in Hr by exact Hi. discriminate. }
        right. exists content, l'. rewrite R9. cbn [sl_file sl_line]. split; [exact Hs|]. split; [|exact Et]. rewrite Ep, Dc, Ew, <- app_assoc. replace (sp_line source + i) with (newlines p + S i) by lia. exact Hl'.
    + intros _ Hr'. rewrite sp_data_skip in Hr'. destruct Hr as [Hr|[Hr _]]; [contradiction|]. unfold Track. cbn [emit_attribute ps_line ps_map at_source sp_data with_data]. rewrite R4, newlines_lf, R9, skip_line.
      f_equal. rewrite Ew, newlines_app, Hr. lia.
  - apply bind_ok in E. destruct E as (inc & Ei & E). destruct inc as [[target al]|].
    + destruct (ifh file target al (ps_parser s)) as [it|] eqn:Eh.
      * apply bind_ok in E. destruct E as (s1 & E1 & E2).
        assert (Hinv1 : Inv s1).
        { revert E1. apply (IH (Some target) false (span_new it) s s1 it); [econstructor; exact Eh| |exact Hinv|discriminate]. right. exists []. split; [reflexivity|]. split; [left; reflexivity|reflexivity]. }
        revert E2. apply (IH file false _ s1 s' content Hs Hnext Hinv1). discriminate.
      * destruct Hinv as (I1 & I2 & I3 & I4 & I5).
        set (msg := lit "Unresolved directive in " ++ (match file with Some f => f | None => lit "(root file)" end) ++ lit " - " ++ strip_cr l) in *.
        assert (Hinc : exists d, strip_cr l = lit "include::" ++ d).
        { unfold try_include in Ei. destruct (starts_with (lit "include::") (strip_cr l)) eqn:Es; [|discriminate]. apply starts_with_spec in Es. exact Es. }
        assert (Hmsg : ~ In LF msg).
        { unfold msg. rewrite !in_app_iff. intros [H|[H|[H|H]]].
          - cbn in H. repeat (destruct H as [H|H]; [discriminate|]). exact H.
          - destruct file as [n|]; [exact (Hname n eq_refl H)|]. cbn in H. repeat (destruct H as [H|H]; [discriminate|]). exact H.
          - cbn in H. repeat (destruct H as [H|H]; [discriminate|]). exact H.
          - exact (HlCR H). }
        assert (Hle' : Forall (fun e0 : nat * source_line => fst e0 <= ps_line s) (ps_map s)) by (eapply Forall_impl; [|exact I4]; cbn; lia).
        revert E. apply (IH file reported _ _ s' content Hs Hnext).
        { apply (inv_emit s _ msg); cbn [emit_unresolved ps_out ps_line ps_map].
          - repeat split; assumption.
          - unfold msg. rewrite <- !app_assoc. reflexivity.
          - rewrite (newlines_none msg Hmsg). reflexivity.
          - exact I3.
          - exact Hle'.
          - reflexivity.
          - intros i l0 Hl0. apply line_at_one in Hl0; [|exact Hmsg]. destruct Hl0 as [_ ->]. left. destruct Hinc as [d Hd]. unfold msg. rewrite Hd. eexists _, d. reflexivity. }
        { intros Hr Hd. rewrite sp_data_skip in Hd. unfold Track. cbn [emit_unresolved ps_line ps_map]. rewrite (lookup_step _ _ 1 Hle'), (Htr' Hr), skip_line, (Hnl Hd). reflexivity. }
    + destruct (report_facts file reported (sp_line source) s Hinv Htr') as (R1 & R2 & R3 & R4 & R5 & R6 & R7 & R8 & R9). set (s1 := report file reported (sp_line source) s) in *.
      revert E. apply (IH file true _ _ s' content Hs Hnext).
      { apply (inv_emit s _ (strip_cr l) Hinv); cbn [emit_line ps_out ps_line ps_map].
        - rewrite R5. reflexivity.
        - rewrite R4, (newlines_none _ HlCR). reflexivity.
        - exact R6.
        - exact R7.
        - exact R8.
        - intros i l0 Hl0. apply line_at_one in Hl0; [|exact HlCR]. destruct Hl0 as [Ei0 ->]. right. exists content, l. rewrite R9. injection Ei0 as ->. cbn [sl_file sl_line]. rewrite Nat.add_0_r. split; [exact Hs|]. split; [exact Hline|apply strip_cr_trim]. }
      { intros _ Hd. rewrite sp_data_skip in Hd. unfold Track. cbn [emit_line ps_line ps_map]. rewrite R4, R9, skip_line, (Hnl Hd). reflexivity. }
Qed.
End Loop.

(** * Termination *)
Section Termination.
Context (U : unicode) (hdr norm : parser -> text -> res text) (ifh : include_handler).
Notation loop := (pre_loop U hdr norm ifh).

Lemma pre_loop_mono f : forall f' file reported source s s', loop f file reported source s = Ok s' -> f <= f' -> loop f' file reported source s = Ok s'.
Proof.
  induction f as [|f IH]; [discriminate|]. intros f' file reported source s s' E Hf. destruct f' as [|f']; [lia|]. cbn [pre_loop] in *. apply le_S_n in Hf.
  destruct (sp_data source); [exact E|]. apply bind_ok in E. destruct E as (mi & E0 & E). rewrite E0. cbn [bind]. apply bind_ok in E. destruct E as (attr & Ea & E). rewrite Ea. cbn [bind].
  destruct attr as [attr|]; [apply (IH _ _ _ _ _ _ E Hf)|]. apply bind_ok in E. destruct E as (inc & Ei & E). rewrite Ei. cbn [bind].
  destruct inc as [[target al]|]; [|apply (IH _ _ _ _ _ _ E Hf)]. destruct (ifh file target al (ps_parser s)); [|apply (IH _ _ _ _ _ _ E Hf)].
  apply bind_ok in E. destruct E as (s1 & E1 & E2). rewrite (IH _ _ _ _ _ _ E1 Hf). cbn [bind]. apply (IH _ _ _ _ _ _ E2 Hf).
Qed.

Context (Hhdr : forall P t, exists o, hdr P t = Ok o) (Hnorm : forall P t, exists o, norm P t = Ok o).
Context (rank : option text -> nat) (Hrank : forall from target al P t, ifh from target al P = Some t -> rank (Some target) < rank from).

Lemma attribute_parse_total s P : exists o, attribute_parse hdr s P = Ok o /\ forall m, o = Some m -> length (sp_data (mi_after m)) < length (sp_data s).
Proof.
  destruct (logical_total (sp_data s)) as (c & r & H). destruct (attribute_parse_eq hdr s P c r H) as (pre & vs & E & _). cbv zeta in E. rewrite E.
  destruct (stripped_ok c) as (d & (sps & cr & lf & Ec & _) & Ed). rewrite <- Ed. destruct (e_parse d) as [[n [u rest]]|] eqn:Ep; [|eexists; split; [reflexivity|discriminate]].
  assert (Hv : exists v, e_value hdr P u rest = Ok v).
  { unfold e_value. destruct u; [eauto|]. destruct rest as [|x rest]; [eauto|]. destruct (fold_value_total (e_raw (x :: rest))) as [t ->]. cbn [bind]. destruct (Hhdr P t) as [o ->]. cbn [bind]. eauto. }
  destruct Hv as [v ->]. cbn [bind]. eexists. split; [reflexivity|]. intros m Hm. apply Some_inj in Hm. subst m. cbn [mi_after]. rewrite sp_data_skip. rewrite (logical_app _ _ _ H), app_length.
  destruct d as [|x d]; [discriminate|]. rewrite Ec. cbn. lia.
Qed.
Lemma INCLUDE_group1 line caps : captures U INCLUDE_DIRECTIVE line = Some caps -> exists t, cap_idx caps 1 = Ok t.
Proof.
  unfold captures. destruct (search U INCLUDE_DIRECTIVE None line) as [[p m]|] eqn:E; [|discriminate]. intros H. apply Some_inj in H. subst m. apply search_sound in E.
  destruct E as (E1 & E2 & _). destruct (must_cap_idx U 1 INCLUDE_DIRECTIVE _ _ _ eq_refl E2) as (x & Hx & _). eauto.
Qed.
Lemma try_include_total s line : exists o, try_include U norm s line = Ok o.
Proof.
  unfold try_include. destruct (starts_with _ _); [|eauto]. destruct (captures U INCLUDE_DIRECTIVE line) as [caps|] eqn:E; [|eauto]. destruct (INCLUDE_group1 _ _ E) as [t ->]. cbn [bind].
  destruct (apply_attributes_total U (ps_parser s) t) as [o ->]. cbn [bind]. destruct (cap caps 2) as [a2|]; [|eauto].
  destruct (C29_parsing_is_total_and_values_come_from_the_source U (norm (ps_parser s)) (ps_parser s) (span_new a2) CtxInline) as (src & m & ws & _ & -> & _); [intros x; apply Hnorm|]. cbn [bind]. eauto.
Qed.
Lemma pre_loop_total n : forall file, rank file < n -> forall m source, length (sp_data source) < m -> forall reported s, exists fuel s', loop fuel file reported source s = Ok s'.
Proof.
  induction n as [|n IHn]; [lia|]. intros file Hn m. induction m as [|m IHm]; [lia|]. intros source Hm reported s.
  assert (Hstep : exists fuel, match sp_data source with [] => True | _ => exists s', loop (S fuel) file reported source s = Ok s' end).
  2:{ destruct Hstep as [fuel H]. destruct (sp_data source) eqn:Ed; [exists 1, s; cbn; rewrite Ed; reflexivity|]. destruct H as [s' H]. eauto. }
  destruct (sp_data source) as [|c0 d0] eqn:Ed; [exists 0; exact I|]. rewrite <- Ed in Hm.
  assert (Hlen : length (sp_data (mi_after (p_take_line source))) < m) by (pose proof (p_take_line_after_len source) as H; rewrite Ed in H; specialize (H ltac:(discriminate)); rewrite Ed in Hm; cbn in *; lia).
  assert (Hta : exists attr, try_attribute hdr s (sp_data (mi_item (p_take_line source))) source = Ok attr /\ forall a, attr = Some a -> length (sp_data (mi_after a)) < m).
  { unfold try_attribute. destruct (_ && _); [|eexists; split; [reflexivity|discriminate]]. destruct (attribute_parse_total source (ps_parser s)) as (o & -> & Ho). eexists. split; [reflexivity|]. intros a Ha. specialize (Ho a Ha). lia. }
  destruct Hta as (attr & Ea & Hattr). destruct (try_include_total s (sp_data (mi_item (p_take_line source)))) as (inc & Ei).
  assert (Hunf : forall fuel, loop (S fuel) file reported source s =
    match attr with
    | Some attr => loop fuel file true (mi_after attr) (emit_attribute U (mi_item attr) (report file reported (sp_line (mi_item (p_take_line source))) s))
    | None => match inc with
              | Some (target, al) =>
                  match ifh file target al (ps_parser s) with
                  | Some it => s' <- loop fuel (Some target) false (span_new it) s ;; loop fuel file false (mi_after (p_take_line source)) s'
                  | None => loop fuel file reported (mi_after (p_take_line source)) (emit_unresolved file (sp_data (mi_item (p_take_line source))) s)
                  end
              | None => loop fuel file true (mi_after (p_take_line source)) (emit_line (sp_data (mi_item (p_take_line source))) (report file reported (sp_line (mi_item (p_take_line source))) s))
              end
    end).
  { intros fuel. cbn [pre_loop]. rewrite Ed, take_line_ok. cbn [bind]. rewrite Ea. cbn [bind]. destruct attr; [reflexivity|]. rewrite Ei. reflexivity. }
  destruct attr as [a|].
  { destruct (IHm (mi_after a) (Hattr a eq_refl) true (emit_attribute U (mi_item a) (report file reported (sp_line (mi_item (p_take_line source))) s))) as (fuel & s' & H). exists fuel, s'. rewrite Hunf. exact H. }
  destruct inc as [[target al]|].
  2:{ destruct (IHm _ Hlen true (emit_line (sp_data (mi_item (p_take_line source))) (report file reported (sp_line (mi_item (p_take_line source))) s))) as (fuel & s' & H). exists fuel, s'. rewrite Hunf. exact H. }
  destruct (ifh file target al (ps_parser s)) as [it|] eqn:Eh.
  2:{ destruct (IHm _ Hlen reported (emit_unresolved file (sp_data (mi_item (p_take_line source))) s)) as (fuel & s' & H). exists fuel, s'. rewrite Hunf. exact H. }
  destruct (IHn (Some target) ltac:(pose proof (Hrank _ _ _ _ _ Eh); lia) (S (length it)) (span_new it) ltac:(cbn; lia) false s) as (f1 & s1 & H1).
  destruct (IHm _ Hlen false s1) as (f2 & s2 & H2). exists (Nat.max f1 f2), s2. rewrite Hunf, (pre_loop_mono _ (Nat.max f1 f2) _ _ _ _ _ H1) by lia. cbn [bind]. apply (pre_loop_mono _ _ _ _ _ _ _ H2). lia.
Qed.
End Termination.
