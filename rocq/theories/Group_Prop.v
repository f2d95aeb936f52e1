(** C40, C41, C43: substitution lists, groups and passthroughs. *)
From Verif Require Import Text TextFacts Span_Model Span_Laws Maps Parser_Model Regex Regex_Proof Regex_Scan Subs_Model Subs_Proof Subs_Spec Subs_Prop Attrlist_Model Look_Proof
  Render_Model Quote_Model Quote_Prop Macro_Model Macro_Spec Macro_Proof Group_Model Group_Spec Group_Proof.

(** ** C40 *)
(** A list is understood exactly when it is the word of a group or each of its items is known; it then
    means what the items say, in order. *)
Theorem C40_meaning : forall start t g, from_custom_string start t = Ok (Some g) <->
  word_group (trim t) g \/ (~ is_word_group (trim t) /\ exists l, itemised (trim t) l /\ g = GCustom (meaning (defaults_of start) l)).
Proof. exact from_custom_string_iff. Qed.
Theorem C40_never_panics : forall start t, exists o, from_custom_string start t = Ok o.
Proof. intros start t. rewrite from_custom_string_eq. eauto. Qed.
(** Plain names alone are applied in the order written, whatever the defaults. *)
Theorem C40_plain_names_in_order : forall defaults l, meaning defaults (map Plain l) = l.
Proof.
  intros defaults l. unfold meaning. replace (initial defaults (map Plain l)) with (@nil step) by (destruct l; reflexivity).
  assert (G : forall a, fold_left effect (map Plain l) a = a ++ l); [|apply G]. induction l as [|s l IH]; intros a; cbn [map fold_left]; [rewrite app_nil_r; reflexivity|].
  rewrite IH. cbn [effect]. rewrite <- app_assoc. reflexivity.
Qed.
Theorem C40_changes : forall defaults s,
  meaning defaults [Append s] = defaults ++ [s] /\ meaning defaults [Prepend s] = s :: defaults /\
  (forall x, In x (meaning defaults [Remove s]) <-> In x defaults /\ x <> s).
Proof.
  intros defaults s. split; [reflexivity|]. split; [reflexivity|]. intros x. cbn. rewrite filter_In. destruct x, s; cbn; intuition congruence.
Qed.
Theorem C40_only_implemented : forall start t g, ~ In SCallouts (defaults_of start) -> from_custom_string start t = Ok (Some g) -> ~ In SCallouts (steps_of g).
Proof. exact from_custom_no_callouts. Qed.
Example C40_example :
  from_custom_string (Some GVerbatim) (lit " attributes+, -c , +q") = Ok (Some (GCustom [SAttributeReferences; SQuotes])) /\
  from_custom_string (Some GNormal) (lit "quotes,nothing") = Ok None /\ ~ In SCallouts (defaults_of (Some GNormal)).
Proof. split; [vm_compute; reflexivity|]. split; [vm_compute; reflexivity|]. cbn. intuition discriminate. Qed.

(** ** C41 *)
Theorem C41_verbatim : forall U fs P f hb t, exists o, apply_group U fs P (S f) GVerbatim hb t = Ok o /\ o = flat_map escape_char t.
Proof. intros U fs P f hb t. exists (flat_map escape_char t). split; [apply apply_verbatim|reflexivity]. Qed.
Theorem C41_pass_and_none : forall U fs P f hb t, apply_group U fs P (S f) GPass hb t = Ok t /\ apply_group U fs P (S f) GNone hb t = Ok t.
Proof. intros. split; apply apply_none; auto. Qed.
Example C41_example : apply_group ascii_only 47%N parser_default 1 GVerbatim false (lit "*a* <b> {c} +++d+++") = Ok (lit "*a* &lt;b&gt; {c} +++d+++").
Proof. vm_compute. reflexivity. Qed.

(** ** C43 *)
(** Extraction always gives a result. *)
Theorem C43_extraction_gives_a_result : forall U t, exists r, extract_from U t = Ok r.
Proof. intros U t. destruct (extract_ok U t) as (p1 & p2 & t1 & o & E & _). eauto. Qed.
(** Text that holds nothing a passthrough could start with is left to the other steps: what looks like a
    placeholder is not touched. *)
Theorem C43_no_passthrough : forall U fs P f g hb t, ~ occurs (lit "+") t -> ~ occurs (lit "$$") t -> ~ occurs (lit "ss:") t -> ~ occurs (lit "-]") t ->
  apply_group U fs P (S f) g hb t = apply_steps U fs P hb (steps_of g) t.
Proof.
  intros U fs P f g hb t H1 H2 H3 H4. assert (N : forall p, ~ occurs p t -> contains p t = false) by (intros p Hp; destruct (contains p t) eqn:E; [|reflexivity]; exfalso; apply Hp, contains_spec, E).
  rewrite apply_group_S. destruct (extracts g); [|reflexivity]. unfold extract_from.
  assert (Np : has_char 43%N t = false) by (apply has_char_false; intros K; apply H1; apply in_split in K; destruct K as (a & b & ->); exists a, b; reflexivity).
  rewrite (N (lit "++")), (N (lit "$$")), (N (lit "ss:")) by (try assumption; intros (a & b & E); apply H1; exists a, (lit "+" ++ b); exact E). cbn [orb bind fst snd]. rewrite Np, (N (lit "-]")) by assumption. cbn [orb bind fst snd].
  destruct (apply_steps U fs P hb (steps_of g) t); reflexivity.
Qed.
(** Restoring puts the value of the passthrough in the place of each placeholder and changes nothing
    else, when no value holds a placeholder itself. *)
Theorem C43_restored_in_place : forall U fs P f pts (v : nat -> text), u_nd U PASS_END = false -> (N.of_nat (length pts) <= usize_max)%N ->
  (forall i pt, nth_error pts i = Some pt -> exists s, apply_group U fs P f (pt_subs pt) false (pt_text pt) = Ok s /\ pt_format U P pt s = Ok (v i) /\ ~ In PASS_START (v i)) ->
  forall a l, ~ In PASS_START a -> Forall (fun ia => fst ia < length pts /\ ~ In PASS_START (snd ia)) l ->
  restore U fs P (S f) pts (a ++ concat (map (fun ia => placeholder (fst ia) ++ snd ia) l)) = Ok (a ++ concat (map (fun ia => v (fst ia) ++ snd ia) l)).
Proof. intros U fs P f pts v He. apply (restore_pieces U fs P f pts v He). Qed.
(** Restoring ends for every text in which neither the internal character nor a bracket occurs. *)
Theorem C43_restoring_ends : forall U fs P t pts o, u_nd U PASS_END = false -> ~ In PASS_START t -> ~ In 91%N t -> extract_from U t = Ok (pts, o) ->
  forall f t', length pts + 2 <= f -> exists r, restore U fs P f pts t' = Ok r.
Proof. intros U fs P t pts o He. apply (extracted_restores U fs P t pts o He). Qed.
(** One passthrough in text without any other markup: everything around it is kept, its content is put
    back as it is or escaped. *)
Theorem C43_one_passthrough : forall U fs P f hb mark a w b, u_nd U PASS_END = false -> In mark pass_marks -> inert a -> inert b -> w <> [] ->
  ~ In 43%N w -> ~ In 36%N w -> ~ In PASS_START w ->
  apply_group U fs P (S (S (S f))) GNormal hb (a ++ mark ++ w ++ mark ++ b) = Ok (a ++ passed mark w ++ b).
Proof.
  intros U fs P f hb mark a w b He Hm Ia Ib Hw H1 H2 H3. assert (Hd : exists n, In (n, mark) delimiters).
  { unfold pass_marks in Hm. unfold delimiters. cbn [In] in *. destruct Hm as [<-|[<-|[<-|[]]]]; eauto. }
  destruct Hd as [n Hin]. destruct (delimiters_marks _ _ Hin) as (_ & Hmn & Hc). rewrite apply_group_S. change (extracts GNormal) with true. cbv iota.
  rewrite (extract_one U n mark a w b Hin Ia Ib Hw) by (destruct Hc as [->| ->]; assumption). cbn [bind fst snd].
  assert (N : forall c, In c meaningful -> c <> PASS_START -> ~ In c (a ++ P0 ++ b)).
  { intros c Hcm Hcs. apply in3; [apply inert_no; assumption| |apply inert_no; assumption]. intros K. unfold P0 in K. cbn in K. destruct K as [K|[K|[K|[]]]]; [congruence|..]; subst c; revert Hcm; apply has_char_false; reflexivity. }
  assert (St : apply_steps U fs P hb (steps_of GNormal) (a ++ P0 ++ b) = Ok (a ++ P0 ++ b)).
  { cbn [steps_of normal_steps apply_steps apply_step]. rewrite apply_special_characters_eq, flat_map_esc_id; cycle 1.
    { destruct (existsb _ _) eqn:E; [|reflexivity]. apply existsb_exists in E. destruct E as (c & Hcc & E). rewrite c_in_special, !orb_true_iff, !N.eqb_eq in E. exfalso. revert Hcc. destruct E as [[->| ->]| ->]; apply N; try meant; discriminate. }
    cbn [bind]. rewrite C71_no_mark_no_change; cycle 1.
    { intros c Hcc K. revert Hcc. cbn in K. apply N; [unfold meaningful; cbn; tauto|]. intros ->. revert K. change (In PASS_START (lit "*_`#^~") -> False). apply has_char_false. reflexivity. }
    cbn [bind]. rewrite C39_text_without_references_is_unchanged by (apply N; [meant|discriminate]). cbn [bind]. rewrite C57_plain_text_is_unchanged; cycle 1.
    { intros x Hx (p & q & E). cbn [In] in Hx. 
      assert (One : forall c r, x = c :: r -> In c meaningful -> c <> PASS_START -> False) by (intros c r -> Hcm Hcs; apply (N c Hcm Hcs); rewrite E, in_app_iff; right; left; reflexivity).
      assert (Two : forall c r, In c [45%N; 46%N] -> x = c :: c :: r -> (forall y z, a <> y ++ x ++ z) -> (forall y z, b <> y ++ x ++ z) -> (forall y, In y x -> y = c) -> False).
      { intros c r Hcd Ex Na Nb Hall. assert (HnP : forall y, In y P0 -> y <> c) by (intros y Hy; cbn in Hy, Hcd; intuition (subst; discriminate)).
        assert (O : occurs x (a ++ P0 ++ b)) by (exists p, q; exact E). clear E. destruct O as (p' & q' & E).
        destruct (Nat.le_gt_cases (length a) (length p')) as [L1|L1].
        - assert (Ep : exists p2, p' = a ++ p2 /\ P0 ++ b = p2 ++ x ++ q').
          { exists (skipn (length a) p'). assert (Ea : a = firstn (length a) p'). { pose proof (f_equal (firstn (length a)) E) as K. rewrite firstn_len in K. rewrite firstn_app in K. replace (length a - length p') with 0 in K by lia. cbn [firstn] in K. rewrite app_nil_r in K. exact K. }
            assert (Ep : p' = a ++ skipn (length a) p') by (rewrite Ea at 1; symmetry; apply firstn_skipn). split; [exact Ep|]. rewrite Ep in E at 1. rewrite <- app_assoc in E. apply app_inv_head in E. exact E. }
          destruct Ep as (p2 & _ & E2). destruct (Nat.le_gt_cases (length P0) (length p2)) as [L2|L2].
          + cbn in L2. destruct p2 as [|p20 [|p21 [|p22 p2]]]; cbn in L2; try lia. cbn in E2. injection E2 as _ _ _ E2. apply (Nb p2 q' E2).
          + cbn in L2. assert (Hx0 : In c P0); [|exact (HnP c Hx0 eq_refl)]. rewrite Ex in E2. destruct p2 as [|p20 [|p21 [|p22 p2]]]; cbn in L2; try lia; cbn in E2.
            * injection E2 as <- _ _. left. reflexivity.
            * injection E2 as _ <- _ _. right. left. reflexivity.
            * injection E2 as _ _ <- _. right. right. left. reflexivity.
        - destruct (Nat.le_gt_cases (length p' + length x) (length a)) as [L2|L2].
          + apply (Na p' (firstn (length a - (length p' + length x)) q')). pose proof (f_equal (firstn (length a)) E) as K. rewrite firstn_len in K. rewrite app_assoc, firstn_app in K.
            rewrite firstn_all2 in K by (rewrite app_length; lia). rewrite app_length in K. rewrite app_assoc. exact K.
          + (* the occurrence covers the first character of the placeholder *)
            assert (K : nth_error (a ++ P0 ++ b) (length a) = Some PASS_START) by (rewrite nth_error_app2 by lia; rewrite Nat.sub_diag; reflexivity).
            rewrite E in K. rewrite nth_error_app2 in K by lia. rewrite nth_error_app1 in K by lia. apply nth_error_In in K. apply Hall in K. cbn in Hcd. destruct Hcd as [Hcd|[Hcd|[]]]; subst c; discriminate K. }
      destruct Ia as (_ & Ia2 & Ia3), Ib as (_ & Ib2 & Ib3).
      destruct Hx as [Hx|[Hx|[Hx|[Hx|[Hx|[Hx|[Hx|[]]]]]]]]; symmetry in Hx.
      - eapply One; [exact Hx|meant|discriminate].
      - eapply One; [exact Hx|meant|discriminate].
      - eapply (Two 45%N); [left; reflexivity|exact Hx|rewrite Hx; exact Ia2|rewrite Hx; exact Ib2|]. rewrite Hx. intros y Hy. cbn in Hy. intuition.
      - eapply (Two 46%N); [right; left; reflexivity|exact Hx|rewrite Hx; exact Ia3|rewrite Hx; exact Ib3|]. rewrite Hx. intros y Hy. cbn in Hy. intuition.
      - eapply One; [exact Hx|meant|discriminate].
      - eapply One; [exact Hx|meant|discriminate].
      - eapply One; [exact Hx|meant|discriminate]. }
    cbn [bind]. rewrite macros_plain by (apply N; [meant|discriminate]). cbn [bind]. rewrite C48_single_line_is_unchanged by (apply N; [meant|discriminate]). reflexivity. }
  rewrite St. cbn [bind].
  pose proof (restore_pieces U fs P (S f) [mkpt w (if is_plus3 mark then GNone else GVerbatim) None None] (fun _ => passed mark w) He) as R. specialize (R ltac:(vm_compute; discriminate)).
  assert (Na : ~ In PASS_START a) by (apply inert_no; [exact Ia|meant]). assert (Nb : ~ In PASS_START b) by (apply inert_no; [exact Ib|meant]).
  specialize (R ltac:(intros i pt En; destruct i as [|i]; [injection En as <-|destruct i; discriminate En]; cbn [pt_subs pt_text]; unfold passed, is_plus3; destruct (text_eqb mark (lit "+++"));
    [exists w; split; [apply apply_none; auto|split; [reflexivity|exact H3]]|exists (flat_map escape_char w); split; [apply apply_verbatim|split; [reflexivity|
      intros K; apply in_flat_map in K; destruct K as (c & Hcc & K); revert K; apply (esc_no_start c); intros ->; exact (H3 Hcc)]]]) a [(0, b)] Na ltac:(constructor; [split; [cbn; lia|exact Nb]|constructor])).
  unfold pieces in R. cbn [map concat fst snd] in R. rewrite !app_nil_r in R. exact R.
Qed.
Example C43_example : inert (lit "Use ") /\ inert (lit " for bold, please.") /\
  apply_group ascii_only 47%N parser_default 3 GNormal false (lit "Use " ++ lit "$$" ++ lit "*<b>*" ++ lit "$$" ++ lit " for bold, please.") = Ok (lit "Use *&lt;b&gt;* for bold, please.").
Proof.
  assert (D : forall t, forallb (fun c => negb (has_char c meaningful)) t = true -> contains (lit "--") t = false -> contains (lit "...") t = false -> inert t).
  { intros t H1 H2 H3. split; [|split].
    - intros c Hc. rewrite forallb_forall in H1. specialize (H1 c Hc). apply has_char_false. destruct (has_char c meaningful); [discriminate|reflexivity].
    - intros a b E. assert (contains (lit "--") t = true) by (apply contains_spec; exists a, b; exact E). congruence.
    - intros a b E. assert (contains (lit "...") t = true) by (apply contains_spec; exists a, b; exact E). congruence. }
  split; [apply D; vm_compute; reflexivity|]. split; [apply D; vm_compute; reflexivity|]. vm_compute. reflexivity.
Qed.
(** Restoring does not always end: not for a passthrough whose content is a placeholder, nor for ASCII
    text with two nested passthroughs in the old syntax. *)
Theorem C43_restoring_ends_refuted : exists t, (forall c, In c t -> (c < 128)%N) /\ forall f, apply_group ascii_only 47%N parser_default f GNormal false t = OutOfFuel.
Proof.
  exists mono_source. split; [|exact mono_source_loops]. intros c Hc. assert (F : forallb (fun c => (c <? 128)%N) mono_source = true) by (vm_compute; reflexivity).
  rewrite forallb_forall in F. apply N.ltb_lt, F, Hc.
Qed.
Theorem C43_spoofed_placeholder_refuted : forall f, apply_group ascii_only 47%N parser_default f GNormal false (lit "+++" ++ placeholder 0 ++ lit "+++") = OutOfFuel.
Proof. exact spoof_source_loops. Qed.
(** Text that looks like a placeholder is replaced when there is a passthrough in the same text. *)
Theorem C43_look_alikes_are_kept_refuted : exists a b, apply_group ascii_only 47%N parser_default 5 GNormal false (a ++ placeholder 5 ++ b) =
  Ok (lit "a b(INTERNAL ERROR: Unresolved passthrough index 5)").
Proof. exists (lit "+++a+++ b"), []. vm_compute. reflexivity. Qed.
(** A passthrough may be lost, its place taken by another one. *)
Theorem C43_each_in_its_place_refuted : exists a b, apply_group ascii_only 47%N parser_default 8 GNormal false (lit "[x-]+$$" ++ a ++ lit "$$ [x-]`" ++ b ++ lit "` c+") =
  Ok (lit "<code><code>" ++ b ++ lit "</code> <code>" ++ b ++ lit "</code> c</code>") /\ a <> b.
Proof. exists (lit "q"), (lit "b"). split; [vm_compute; reflexivity|discriminate]. Qed.
(** A passthrough in the target of a link is put back twice. *)
Theorem C43_exactly_once_refuted : exists w, ~ occurs w (lit "link:[]") /\ apply_group ascii_only 47%N parser_default 5 GNormal false (lit "link:+++" ++ w ++ lit "+++[]") =
  Ok (lit "<a href=""" ++ w ++ lit """ class=""bare"">" ++ w ++ lit "</a>").
Proof. exists (lit "xx"). split; [|vm_compute; reflexivity]. intros K. apply contains_spec in K. discriminate K. Qed.
Print Assumptions C40_meaning.
Print Assumptions C41_verbatim.
Print Assumptions C43_restored_in_place.
Print Assumptions C43_restoring_ends.
Print Assumptions C43_one_passthrough.
Print Assumptions C43_restoring_ends_refuted.
