(** What the preprocessor knows when it comes to a directive. *)
From Verif Require Import Text TextFacts Maps Span_Model Span_Pure Span_Spec Span_Proof Span_Laws Parser_Model Subs_Model Attrlist_Model SourceMap_Model Entry_Model Entry_Spec Entry_Proof Regex Pre_Model Seen_Spec.

Lemma announced_iff l : announced l <-> ends_with (lit ":") l || contains (lit ": ") l = true.
Proof. unfold announced. rewrite orb_true_iff, ends_with_spec, contains_spec. split; intros [H|H]; auto. Qed.
Lemma cut_off_eq l d : cut_off l d -> d = trim_end_by (N.eqb SP) l.
Proof.
  intros (k & -> & H). symmetry. apply trim_end_by_unique.
  - apply Forall_forall. intros x K. apply repeat_spec in K. subst x. reflexivity.
  - intros a c -> . destruct (N.eqb_spec SP c) as [<-|N]; [exfalso; exact (H a eq_refl)|reflexivity].
Qed.
Lemma cut_off_of l : cut_off l (trim_end_by (N.eqb SP) l).
Proof.
  destruct (trim_end_by_app (N.eqb SP) l) as (w & E & F & H). exists (length w). split.
  - rewrite E at 1. f_equal. clear E H. induction w as [|c w IH]; [reflexivity|]. inversion F; subst. cbn [length repeat]. rewrite <- IH by assumption. f_equal. apply N.eqb_eq in H1. congruence.
  - intros x K. specialize (H x SP K). discriminate H.
Qed.
Lemma raw_split rest : exists w, rest = w ++ e_raw rest /\ Forall blank_or_tab w /\ forall c y, e_raw rest = c :: y -> ~ blank_or_tab c.
Proof.
  unfold e_raw. exists (fst (span_while is_sp_tab rest)). split; [symmetry; apply span_while_app|]. split.
  - pose proof (span_while_all is_sp_tab rest) as F. eapply Forall_impl; [|exact F]. intros c K. unfold is_sp_tab in K. apply orb_prop in K. destruct K as [K|K]; apply N.eqb_eq in K; [left|right]; congruence.
  - intros c y E K. apply span_while_stop in E. unfold is_sp_tab in E. destruct K as [->| ->]; discriminate E.
Qed.
Lemma raw_eq w x : Forall blank_or_tab w -> (forall c y, x = c :: y -> ~ blank_or_tab c) -> e_raw (w ++ x) = x.
Proof.
  intros F H. unfold e_raw. rewrite span_while_prefix; [reflexivity| |].
  - eapply Forall_impl; [|exact F]. intros c [->| ->]; reflexivity.
  - destruct x as [|c y]; [exact I|]. specialize (H c y eq_refl). unfold is_sp_tab. destruct (N.eqb_spec c SP) as [->|_]; [exfalso; apply H; left; reflexivity|]. destruct (N.eqb_spec c TAB) as [->|_]; [exfalso; apply H; right; reflexivity|reflexivity].
Qed.
Lemma has_no_lf x : ~ In LF x -> has_char LF x = false.
Proof. intros H. unfold has_char. destruct (existsb (N.eqb LF) x) eqn:K; [|reflexivity]. apply existsb_exists in K. destruct K as (c & K1 & K2). apply N.eqb_eq in K2. subst c. contradiction. Qed.
Lemma value_eq hdr P u rest v : ~ In LF rest -> value_read hdr P u rest v -> e_value hdr P u rest = Ok v.
Proof.
  intros N H. unfold value_read in H. unfold e_value. destruct u; [subst v; reflexivity|]. destruct rest as [|c r] eqn:Er; [subst v; reflexivity|]. rewrite <- Er in *. destruct H as (w & x & o & E & F & Hx & Ho & ->).
  rewrite E in N |- *. rewrite (raw_eq w x F Hx). unfold fold_value. rewrite has_no_lf by (intros K; apply N; apply in_or_app; right; exact K). cbn [bind]. rewrite Ho. reflexivity.
Qed.
Lemma strip_no_cr l : ~ In CR l -> strip_cr l = l.
Proof. intros H. unfold strip_cr, strip_suffix_c. destruct (rev l) as [|c y] eqn:R; [reflexivity|]. destruct (N.eqb_spec c CR) as [->|_]; [|reflexivity]. exfalso. apply H. apply in_rev. rewrite R. left. reflexivity. Qed.
Lemma strip1_lf l : strip1 LF (l ++ [LF]) = l.
Proof. unfold strip1, strip_suffix_c. rewrite rev_app_distr. cbn [rev app]. change (LF =? LF)%N with true. cbv iota. apply rev_involutive. Qed.
Lemma strip1_cr l : ~ In CR l -> strip1 CR l = l.
Proof. exact (strip_no_cr l). Qed.
Lemma trim_end_lf l : trim_end (l ++ [LF]) = trim_end l.
Proof.
  unfold trim_end. destruct (trim_end_by_app is_ws l) as (w & E & F & H). rewrite E at 1. rewrite <- app_assoc. apply trim_end_by_unique; [apply Forall_app; split; [exact F|constructor; [reflexivity|constructor]]|exact H].
Qed.
Lemma trim_end_in c l : In c (trim_end l) -> In c l.
Proof. intros H. unfold trim_end in *. destruct (trim_end_by_app is_ws l) as (w & E & _). rewrite E. apply in_or_app. left. exact H. Qed.
Lemma plain_not_continued l : ~ In BSL l -> ~ continued l.
Proof. intros H (x & sps & c & -> & _). apply H. apply in_or_app. right. left. reflexivity. Qed.
Lemma count_none x : ~ In LF x -> count_lf x = 0.
Proof. intros H. induction x as [|c x IH]; [reflexivity|]. cbn [count_lf]. destruct (N.eqb_spec c LF) as [->|_]; [exfalso; apply H; left; reflexivity|]. apply IH. intros K. apply H. right. exact K. Qed.
Section at_line.
Context (U : unicode) (hdr norm : parser -> text -> res text) (ifh : include_handler).
Notation loop := (pre_loop U hdr norm ifh).
Variables (l r : text) (s : span).
Hypothesis (Hl : plain_line l) (D : sp_data s = l ++ LF :: r).
Lemma take_here : take_line s = Ok (mkmi (with_data s l) (skip s (l ++ [LF]) r)).
Proof. destruct Hl as (H1 & H2 & _). rewrite take_line_ok. f_equal. rewrite (p_take_line_eq s l [LF] r H1 (or_introl eq_refl) D), (strip_no_cr l H2). reflexivity. Qed.
Lemma entry_here P : exists pre vs, attribute_parse hdr s P =
    match e_parse (trim_end_by (N.eqb SP) l) with
    | None => Ok None
    | Some (n, (u, rest)) => v <- e_value hdr P u rest ;; Ok (Some (mkmi (mkattr (skip s pre n) vs v (with_data s (trim_end l))) (skip s (l ++ [LF]) r)))
    end.
Proof.
  destruct Hl as (H1 & H2 & H3 & _). assert (L : logical (sp_data s) (l ++ [LF]) r) by (rewrite D; exact (logical_end l [LF] r H1 (or_introl eq_refl) (plain_not_continued l H3))).
  destruct (attribute_parse_eq hdr s P _ _ L) as (pre & vs & E & _). rewrite strip1_lf, (strip1_cr l H2), trim_end_lf in E. exists pre, vs. exact E.
Qed.
Lemma line_step f file rep st : (ps_can_attr st = true -> forall n u rest, ~ an_entry_line l n u rest) ->
  loop (S f) file rep s st = loop f file true (skip s (l ++ [LF]) r) (emit_line l (report file rep (sp_line s) st)).
Proof.
  intros H. pose proof take_here as TH. pose proof entry_here as EH. cbn [pre_loop]. destruct (sp_data s) as [|c0 t0] eqn:E0; [destruct l; discriminate D|]. rewrite TH. cbn [bind mi_item mi_after]. cbn [with_data sp_data sp_line].
  assert (Ta : try_attribute hdr st l s = Ok None).
  { unfold try_attribute. destruct (ps_can_attr st) eqn:K; [|reflexivity]. specialize (H eq_refl). cbn [andb]. destruct (starts_with (lit ":") l) eqn:Ks; [|reflexivity]. cbn [andb]. destruct (ends_with (lit ":") l || contains (lit ": ") l) eqn:Ka; [|reflexivity].
    destruct (EH (ps_parser st)) as (pre & vs & ->). destruct (e_parse (trim_end_by (N.eqb SP) l)) as [[n [u rest]]|] eqn:Ee; [|reflexivity]. exfalso. apply (H n u rest). split; [apply announced_iff; exact Ka|]. exists (trim_end_by (N.eqb SP) l). split; [apply cut_off_of|]. apply e_parse_iff. exact Ee. }
  rewrite Ta. cbn [bind]. assert (Ti : try_include U norm st l = Ok None). { unfold try_include. destruct (starts_with (lit "include::") l) eqn:K; [|reflexivity]. apply starts_with_spec in K. destruct K as (d & K). exfalso. exact (proj2 (proj2 (proj2 Hl)) d K). }
  rewrite Ti. reflexivity.
Qed.
Lemma entry_step f file rep st n u rest v : ps_can_attr st = true -> an_entry_line l n u rest -> value_read hdr (ps_parser st) u rest v ->
  exists a, loop (S f) file rep s st = loop f file true (skip s (l ++ [LF]) r) (emit_attribute U a (report file rep (sp_line s) st)) /\
    sp_data (at_name a) = n /\ at_value a = v /\ sp_data (at_source a) = trim_end l.
Proof.
  intros Hc (Ha & d & Hd & He) Hv. apply cut_off_eq in Hd. subst d. pose proof take_here as TH. pose proof entry_here as EH. cbn [pre_loop]. destruct (sp_data s) as [|c0 t0] eqn:E0; [destruct l; discriminate D|]. rewrite TH. cbn [bind mi_item mi_after]. cbn [with_data sp_data sp_line].
  destruct (trim_end_by_app (N.eqb SP) l) as (w & Ew & _). unfold try_attribute. rewrite Hc.
  assert (Ks : starts_with (lit ":") l = true). { apply starts_with_spec. rewrite Ew. destruct He; eexists; cbn [app lit]; rewrite <- ?app_assoc; reflexivity. }
  rewrite Ks, (proj1 (announced_iff l) Ha). cbn [andb]. destruct (EH (ps_parser st)) as (pre & vs & ->). rewrite (proj2 (e_parse_iff _ _ _ _) He).
  assert (Nr : ~ In LF rest). { intros K. apply (proj1 Hl). rewrite Ew. apply in_or_app. left. destruct He; rewrite !in_app_iff; auto 10. }
  rewrite (value_eq hdr (ps_parser st) u rest v Nr Hv). cbn [bind mi_item mi_after]. eexists. split; [reflexivity|]. cbn [at_name at_value at_source]. rewrite sp_data_skip. auto.
Qed.
End at_line.
Lemma report_eq file rep n st : ps_parser (report file rep n st) = ps_parser st /\ ps_in_header (report file rep n st) = ps_in_header st /\ ps_can_attr (report file rep n st) = ps_can_attr st /\ ps_out (report file rep n st) = ps_out st /\ ps_line (report file rep n st) = ps_line st.
Proof. unfold report. destruct rep; cbn; auto. Qed.
Lemma on_lines_skip s l t r : skip (skip s (l ++ [LF]) (t ++ r)) t r = skip s (l ++ LF :: t) r.
Proof. rewrite skip_skip, <- app_assoc. reflexivity. Qed.
Lemma seen_loop U hdr norm ifh first free P ls outs P' : sees U hdr first free P ls outs P' -> Forall plain_line ls ->
  forall rest file rep s st f, sp_data s = on_lines ls ++ rest -> ps_in_header st = first -> ps_can_attr st = free -> ps_parser st = P ->
  exists rep' st', pre_loop U hdr norm ifh (length ls + f) file rep s st = pre_loop U hdr norm ifh f file rep' (skip s (on_lines ls) rest) st' /\
    ps_parser st' = P' /\ ps_out st' = ps_out st ++ on_lines outs /\ ps_line st' = ps_line st + length ls.
Proof.
  intros H. induction H as [first free P|first free P ls outs P' H IH|first P l n u rs v ls outs P' He Hv H IH|first free P l ls outs P' Nl Hn H IH]; intros F rest file rep s st f D Hh Hc Hp.
  - exists rep, st. cbn [length on_lines app] in *. rewrite <- D, app_nil_r. assert (K : skip s [] (sp_data s) = s) by (destruct s; reflexivity). rewrite K. split; [reflexivity|]. split; [exact Hp|]. split; [reflexivity|]. lia.
  - inversion F as [|? ? Hl F2]; subst. cbn [on_lines] in D. cbn [app] in D. cbn [length Nat.add]. rewrite (line_step U hdr norm ifh [] (on_lines ls ++ rest) s Hl D).
    2:{ intros _ n u rs ([(x & K)|(x & y & K)] & _); destruct x; discriminate K. }
    destruct (report_eq file rep (sp_line s) st) as (R1 & R2 & R3 & R4 & R5).
    destruct (IH F2 rest file true (skip s ([] ++ [LF]) (on_lines ls ++ rest)) (emit_line [] (report file rep (sp_line s) st)) f) as (rep' & st' & K & K1 & K2 & K3); [apply sp_data_skip|reflexivity|reflexivity|exact R1|].
    exists rep', st'. rewrite K, on_lines_skip. split; [reflexivity|]. split; [exact K1|]. cbn [emit_line ps_out ps_line] in K2, K3. rewrite R4 in K2. rewrite R5 in K3. split; [rewrite K2; cbn [on_lines app]; rewrite <- app_assoc; reflexivity|lia].
  - inversion F as [|? ? Hl F2]; subst. cbn [on_lines] in D. rewrite <- app_assoc in D. cbn [app] in D. cbn [length Nat.add]. destruct (report_eq file rep (sp_line s) st) as (R1 & R2 & R3 & R4 & R5).
    destruct (entry_step U hdr norm ifh l (on_lines ls ++ rest) s Hl D (length ls + f) file rep st n u rs v Hc He Hv) as (a & -> & A1 & A2 & A3).
    destruct (IH F2 rest file true (skip s (l ++ [LF]) (on_lines ls ++ rest)) (emit_attribute U a (report file rep (sp_line s) st)) f) as (rep' & st' & K & K1 & K2 & K3); [apply sp_data_skip|exact R2|cbn [emit_attribute ps_can_attr]; rewrite R3; exact Hc| |].
    { cbn [emit_attribute ps_parser]. rewrite R1. unfold with_entry, set_attribute_from_body. cbn [at_name at_value sp_data span_new]. rewrite A1, A2. cbv zeta. set (b := match mget _ _ with Some _ => _ | None => _ end). destruct b; reflexivity. }
    exists rep', st'. rewrite K, on_lines_skip. split; [reflexivity|]. split; [exact K1|]. cbn [emit_attribute ps_out ps_line] in K2, K3. rewrite R4, A3 in K2. rewrite R5, A3, count_none in K3 by (intros X; apply (proj1 Hl); exact (trim_end_in _ _ X)). split; [rewrite K2; cbn [on_lines]; rewrite <- !app_assoc; reflexivity|lia].
  - inversion F as [|? ? Hl F2]; subst. cbn [on_lines] in D. rewrite <- app_assoc in D. cbn [app] in D. cbn [length Nat.add]. rewrite (line_step U hdr norm ifh l (on_lines ls ++ rest) s Hl D); [|exact Hn]. destruct (report_eq file rep (sp_line s) st) as (R1 & R2 & R3 & R4 & R5).
    destruct (IH F2 rest file true (skip s (l ++ [LF]) (on_lines ls ++ rest)) (emit_line l (report file rep (sp_line s) st)) f) as (rep' & st' & K & K1 & K2 & K3); [apply sp_data_skip|unfold emit_line; destruct l; [contradiction|exact R2]|unfold emit_line; destruct l; [contradiction|cbn [ps_can_attr]; rewrite R2, R3; destruct (ps_in_header st); reflexivity]|exact R1|].
    exists rep', st'. rewrite K, on_lines_skip. split; [reflexivity|]. split; [exact K1|]. cbn [emit_line ps_out ps_line] in K2, K3. rewrite R4 in K2. rewrite R5 in K3. split; [rewrite K2; cbn [on_lines]; rewrite <- !app_assoc; reflexivity|lia].
Qed.
