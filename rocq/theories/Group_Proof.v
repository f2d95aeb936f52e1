(** Proofs about substitution groups. *)
From Verif Require Import Text TextFacts Span_Model Span_Proof Span_Laws Parser_Model Parser_Proof Regex Regex_Proof Regex_Scan Regex_Lang Regex_Lazy Subs_Model Subs_Proof SecId_Proof
  Attrlist_Model Look_Proof Render_Model Quote_Model Macro_Model Macro_Spec Macro_Proof Group_Model Group_Spec.

(** ** Substitution lists *)
Lemma text_in_spec l t : text_in l t = true <-> In t l.
Proof.
  unfold text_in. rewrite existsb_exists. split.
  - intros (x & Hx & E). apply text_eqb_eq in E. subst x. exact Hx.
  - intros H. exists t. split; [exact H|apply text_eqb_refl].
Qed.
Lemma step_of_name_spec t s : step_of_name t = Some s <-> In (t, s) names.
Proof.
  unfold step_of_name. split.
  - repeat (match goal with |- (if text_in ?l t then _ else _) = _ -> _ => let E := fresh in destruct (text_in l t) eqn:E;
      [apply text_in_spec in E; intros K; injection K as <-; cbn [In] in E; decompose [or] E; subst; try contradiction; unfold names; cbn [In]; tauto|clear E] end).
    discriminate.
  - unfold names. cbn [In]. intros H. repeat (destruct H as [H|H]; [injection H as <- <-; reflexivity|]). destruct H.
Qed.
(** The reading of one item by the loop. *)
Definition item_of (s : text) : option item :=
  if text_in [lit "n"; lit "normal"] s then Some (Group normal_steps)
  else if text_in [lit "v"; lit "verbatim"] s then Some (Group [SSpecialCharacters])
  else if starts_with (lit "+") s then option_map Append (step_of_name (tl s))
  else if ends_with (lit "+") s then option_map Prepend (step_of_name (removelast s))
  else if starts_with (lit "-") s then option_map Remove (step_of_name (tl s))
  else option_map Plain (step_of_name s).
Lemma names_plain n s : In (n, s) names ->
  text_in [lit "n"; lit "normal"] n = false /\ text_in [lit "v"; lit "verbatim"] n = false /\
  starts_with (lit "+") n = false /\ ends_with (lit "+") n = false /\ starts_with (lit "-") n = false /\ n <> [].
Proof.
  unfold names. cbn [In]. intros H. repeat (destruct H as [H|H]; [injection H as <- <-; repeat split; try reflexivity; discriminate|]). destruct H.
Qed.
Lemma item_of_spec s i : item_of s = Some i <-> reads s i.
Proof.
  unfold item_of. split.
  - destruct (text_in [lit "n"; lit "normal"] s) eqn:E1.
    { apply text_in_spec in E1. intros K. injection K as <-. cbn [In] in E1. destruct E1 as [<-|[<-|[]]]; constructor. }
    destruct (text_in [lit "v"; lit "verbatim"] s) eqn:E2.
    { apply text_in_spec in E2. intros K. injection K as <-. cbn [In] in E2. destruct E2 as [<-|[<-|[]]]; constructor. }
    destruct (starts_with (lit "+") s) eqn:E3.
    { apply starts_with_spec in E3. destruct E3 as [r ->]. change (tl (lit "+" ++ r)) with r. destruct (step_of_name r) as [st|] eqn:E; [|discriminate].
      intros K. injection K as <-. constructor. apply step_of_name_spec, E. }
    destruct (ends_with (lit "+") s) eqn:E4.
    { apply ends_with_spec in E4. destruct E4 as [r ->]. change (lit "+") with [43%N]. rewrite removelast_last. destruct (step_of_name r) as [st|] eqn:E; [|discriminate].
      intros K. injection K as <-. apply (rd_prepend r). apply step_of_name_spec, E. }
    destruct (starts_with (lit "-") s) eqn:E5.
    { apply starts_with_spec in E5. destruct E5 as [r ->]. change (tl (lit "-" ++ r)) with r. destruct (step_of_name r) as [st|] eqn:E; [|discriminate].
      intros K. injection K as <-. constructor. apply step_of_name_spec, E. }
    destruct (step_of_name s) as [st|] eqn:E; [|discriminate]. intros K. injection K as <-. constructor. apply step_of_name_spec, E.
  - intros R. destruct R as [| | | |n s H|n s H|n s H|n s H]; try reflexivity.
    + destruct (names_plain n s H) as (-> & -> & -> & -> & -> & _). apply step_of_name_spec in H. rewrite H. reflexivity.
    + revert H. unfold names. cbn [In]. intros H. repeat (destruct H as [H|H]; [injection H as <- <-; reflexivity|]). destruct H.
    + revert H. unfold names. cbn [In]. intros H. repeat (destruct H as [H|H]; [injection H as <- <-; reflexivity|]). destruct H.
    + revert H. unfold names. cbn [In]. intros H. repeat (destruct H as [H|H]; [injection H as <- <-; reflexivity|]). destruct H.
Qed.
Definition changes (i : item) : bool := match i with Append _ | Prepend _ | Remove _ => true | _ => false end.
Lemma custom_loop_eq start first raw l steps :
  custom_loop start first (raw :: l) steps =
  match item_of (trim raw) with
  | None => Ok None
  | Some i => custom_loop start false l (effect (match start with Some g => if first && changes i then steps_of g else steps | None => steps end) i)
  end.
Proof.
  cbn [custom_loop]. set (s := trim raw). unfold item_of. destruct (text_in [lit "n"; lit "normal"] s) eqn:E1; [reflexivity|].
  destruct (text_in [lit "v"; lit "verbatim"] s) eqn:E2; [reflexivity|]. destruct (starts_with (lit "+") s) eqn:E3.
  { apply starts_with_spec in E3. destruct E3 as [r ->]. change (lit "+" ++ r) with (43%N :: r). cbn [tl negb andb]. rewrite str_from1 by reflexivity. cbn [bind].
    rewrite orb_true_l. destruct (step_of_name r) as [st|]; cbn [option_map]; [|reflexivity]. cbn [effect changes]. reflexivity. }
  cbn [bind negb andb]. destruct (ends_with (lit "+") s) eqn:E4.
  { apply ends_with_spec in E4. destruct E4 as [r ->]. change (lit "+") with [43%N]. rewrite removelast_last.
    pose proof (chop_last r 43%N eq_refl) as C. unfold chop in C. rewrite C. cbn [bind negb andb]. rewrite orb_false_l, orb_true_l. destruct (step_of_name r) as [st|]; cbn [option_map]; [|reflexivity]. reflexivity. }
  cbn [bind negb andb]. destruct (starts_with (lit "-") s) eqn:E5.
  { apply starts_with_spec in E5. destruct E5 as [r ->]. change (lit "-" ++ r) with (45%N :: r). cbn [tl]. rewrite str_from1 by reflexivity. cbn [bind].
    destruct (step_of_name r) as [st|]; cbn [option_map]; reflexivity. }
  cbn [bind]. destruct (step_of_name s) as [st|]; cbn [option_map]; [|reflexivity]. cbn [orb changes effect]. rewrite andb_false_r. destruct start; reflexivity.
Qed.
Fixpoint items_of (l : list text) : option (list item) :=
  match l with
  | [] => Some []
  | r :: l' => match item_of (trim r) with
               | None => None
               | Some i => option_map (cons i) (items_of l')
               end
  end.
Lemma items_of_spec l is_ : items_of l = Some is_ <-> Forall2 (fun r i => reads (trim r) i) l is_.
Proof.
  revert is_. induction l as [|r l IH]; intros is_; cbn [items_of].
  - split; [intros E; injection E as <-; constructor|]. intros F. inversion F. reflexivity.
  - destruct (item_of (trim r)) as [i|] eqn:Ei.
    + destruct (items_of l) as [js|]; cbn [option_map].
      * split; [intros E; injection E as <-; constructor; [apply item_of_spec, Ei|apply IH; reflexivity]|]. intros F. inversion F as [|? j ? ks Hj Hk]; subst.
        apply item_of_spec in Hj. rewrite Hj in Ei. injection Ei as ->. apply IH in Hk. injection Hk as ->. reflexivity.
      * split; [discriminate|]. intros F. inversion F as [|? j ? ks Hj Hk]; subst. apply IH in Hk. discriminate.
    + split; [discriminate|]. intros F. inversion F as [|? j ? ks Hj Hk]; subst. apply item_of_spec in Hj. congruence.
Qed.
Lemma custom_loop_rest start l : forall steps, custom_loop start false l steps = Ok (option_map (fun is_ => fold_left effect is_ steps) (items_of l)).
Proof.
  induction l as [|r l IH]; intros steps; [reflexivity|]. rewrite custom_loop_eq. cbn [items_of]. destruct (item_of (trim r)) as [i|]; [|reflexivity].
  cbn [andb]. assert (E : match start with Some g => steps | None => steps end = steps) by (destruct start; reflexivity). rewrite E, IH.
  destruct (items_of l); reflexivity.
Qed.
Lemma custom_loop_first start l : l <> [] -> custom_loop start true l [] = Ok (option_map (meaning (defaults_of start)) (items_of l)).
Proof.
  destruct l as [|r l]; [contradiction|]. intros _. rewrite custom_loop_eq. cbn [items_of]. destruct (item_of (trim r)) as [i|]; [|reflexivity].
  rewrite custom_loop_rest. destruct (items_of l) as [js|]; [|reflexivity]. cbn [option_map]. unfold meaning. cbn [fold_left]. f_equal. f_equal. f_equal.
  destruct start, i; reflexivity.
Qed.
Lemma from_custom_string_eq start t :
  from_custom_string start t =
  Ok (if text_eqb (trim t) (lit "none") then Some GNone
      else if text_in [lit "n"; lit "normal"] (trim t) then Some GNormal
      else if text_in [lit "v"; lit "verbatim"] (trim t) then Some GVerbatim
      else option_map (fun l => GCustom (meaning (defaults_of start) l)) (items_of (split_on COMMA (trim t)))).
Proof.
  unfold from_custom_string. destruct (text_eqb (trim t) (lit "none")); [reflexivity|]. destruct (text_in [lit "n"; lit "normal"] (trim t)); [reflexivity|].
  destruct (text_in [lit "v"; lit "verbatim"] (trim t)); [reflexivity|]. rewrite custom_loop_first by apply split_on_nonempty. cbn [bind].
  destruct (items_of _); reflexivity.
Qed.
Lemma itemised_iff t l : itemised t l <-> items_of (split_on COMMA t) = Some l.
Proof.
  unfold itemised. split.
  - intros (raws & Hne & F & -> & R). change (lit ",") with [COMMA]. rewrite split_join by assumption. apply items_of_spec, R.
  - intros H. exists (split_on COMMA t). split; [apply split_on_nonempty|]. split; [apply split_on_no_sep|]. split; [symmetry; apply join_split|]. apply items_of_spec, H.
Qed.
Lemma from_custom_string_iff start t g : from_custom_string start t = Ok (Some g) <->
  word_group (trim t) g \/ (~ is_word_group (trim t) /\ exists l, itemised (trim t) l /\ g = GCustom (meaning (defaults_of start) l)).
Proof.
  rewrite from_custom_string_eq. unfold word_group, is_word_group, group_words. cbn [map fst In]. set (s := trim t).
  destruct (text_eqb s (lit "none")) eqn:E1.
  { apply text_eqb_eq in E1. rewrite E1. split; [intros K; injection K as <-; auto|]. intros [H|[H _]]; [|exfalso; apply H; auto].
    repeat (destruct H as [H|H]; [try discriminate H; injection H as <-; reflexivity|]). destruct H. }
  destruct (text_in [lit "n"; lit "normal"] s) eqn:E2.
  { apply text_in_spec in E2. cbn [In] in E2. split.
    - intros K. injection K as <-. destruct E2 as [E2|[E2|[]]]; rewrite <- E2; auto 10.
    - intros [H|[H _]]; [|exfalso; apply H; destruct E2 as [E2|[E2|[]]]; auto 10].
      destruct E2 as [E2|[E2|[]]]; rewrite <- E2 in H; repeat (destruct H as [H|H]; [try discriminate H; injection H as <-; reflexivity|]); destruct H. }
  destruct (text_in [lit "v"; lit "verbatim"] s) eqn:E3.
  { apply text_in_spec in E3. cbn [In] in E3. split.
    - intros K. injection K as <-. destruct E3 as [E3|[E3|[]]]; rewrite <- E3; auto 10.
    - intros [H|[H _]]; [|exfalso; apply H; destruct E3 as [E3|[E3|[]]]; auto 10].
      destruct E3 as [E3|[E3|[]]]; rewrite <- E3 in H; repeat (destruct H as [H|H]; [try discriminate H; injection H as <-; reflexivity|]); destruct H. }
  assert (N : forall x, lit "none" = x \/ lit "n" = x \/ lit "normal" = x \/ lit "v" = x \/ lit "verbatim" = x \/ False -> x <> s).
  { intros x H ->. destruct H as [H|[H|[H|[H|[H|[]]]]]]; rewrite <- H in *; discriminate. }
  split.
  - intros K. right. split; [intros H; apply (N s H); reflexivity|]. destruct (items_of (split_on COMMA s)) as [l|] eqn:E; [|discriminate K]. injection K as <-.
    exists l. split; [apply itemised_iff, E|reflexivity].
  - intros [H|(_ & l & Hl & ->)].
    + exfalso. apply (N s); [|reflexivity]. destruct H as [H|[H|[H|[H|[H|[]]]]]]; injection H as <- _; tauto.
    + apply itemised_iff in Hl. rewrite Hl. reflexivity.
Qed.
(** No list selects a substitution that is not implemented. *)
Lemma effect_no_callouts l i : (forall s, reads s i -> ~ In SCallouts l -> ~ In SCallouts (effect l i)).
Proof.
  intros s R H. assert (N : forall n st, In (n, st) names -> st <> SCallouts).
  { intros n st Hn ->. unfold names in Hn. cbn [In] in Hn. repeat (destruct Hn as [Hn|Hn]; [discriminate Hn|]). destruct Hn. }
  destruct R as [| | | |n st Hn|n st Hn|n st Hn|n st Hn]; cbn [effect].
  1-4: vm_compute; intros K; repeat (destruct K as [K|K]; [discriminate K|]); destruct K.
  - rewrite in_app_iff. intros [K|[K|[]]]; [auto|]. apply (N _ _ Hn). exact K.
  - rewrite in_app_iff. intros [K|[K|[]]]; [auto|]. apply (N _ _ Hn). exact K.
  - intros [K|K]; [|auto]. apply (N _ _ Hn). exact K.
  - intros K. apply filter_In in K. tauto.
Qed.
Lemma from_custom_no_callouts start t g : ~ In SCallouts (defaults_of start) -> from_custom_string start t = Ok (Some g) -> ~ In SCallouts (steps_of g).
Proof.
  intros Hd H. apply from_custom_string_iff in H. destruct H as [H|(_ & l & (raws & _ & _ & _ & F) & ->)].
  - unfold word_group, group_words in H. cbn [In] in H. repeat (destruct H as [H|H]; [injection H as _ <-; vm_compute; intros K; repeat (destruct K as [K|K]; [discriminate K|]); destruct K|]). destruct H.
  - cbn [steps_of]. unfold meaning. assert (G : forall l raws, Forall2 (fun r i => reads (trim r) i) raws l -> forall s0, ~ In SCallouts s0 -> ~ In SCallouts (fold_left effect l s0)).
    { clear. intros l raws F. induction F as [|r i raws l R F IH]; intros s0 H0; [exact H0|]. cbn [fold_left]. apply IH. eapply effect_no_callouts; eassumption. }
    eapply G; [exact F|]. unfold initial. destruct l as [|[]]; try exact Hd; intros [].
Qed.

(** ** The fuel-free shape of one round of restoring *)
Definition restore_one (U : unicode) (fs : char) (P : parser) (f : nat) (pts : list passthrough) (m : mtch) : res text :=
  c1 <- cap_idx m 1 ;;
  match pt_get pts (parse_index c1) with
  | None => Ok (lit "(INTERNAL ERROR: Unresolved passthrough index " ++ show_nat (N.to_nat (parse_index c1)) ++ lit ")")
  | Some pt =>
      subbed <- apply_group U fs P f (pt_subs pt) false (pt_text pt) ;;
      subbed <- pt_format U P pt subbed ;;
      if has_char PASS_START subbed then restore U fs P f pts subbed else Ok subbed
  end.
Lemma restore_S U fs P f pts t : restore U fs P (S f) pts t = replace_all_pure U (PASS_WITH_INDEX U) (restore_one U fs P f pts) t.
Proof. reflexivity. Qed.
Lemma apply_group_S U fs P f g hb t : apply_group U fs P (S f) g hb t =
  if extracts g then
    pt <- extract_from U t ;;
    t' <- apply_steps U fs P hb (steps_of g) (snd pt) ;;
    match fst pt with
    | [] => Ok t'
    | _ => restore U fs P f (fst pt) t'
    end
  else apply_steps U fs P hb (steps_of g) t.
Proof. reflexivity. Qed.
Lemma apply_none U fs P f hb t g : g = GNone \/ g = GPass -> apply_group U fs P (S f) g hb t = Ok t.
Proof. intros [->| ->]; reflexivity. Qed.
Lemma apply_verbatim U fs P f hb t : apply_group U fs P (S f) GVerbatim hb t = Ok (flat_map esc t).
Proof. rewrite apply_group_S. change (extracts GVerbatim) with false. cbn [steps_of apply_steps apply_step]. rewrite apply_special_characters_eq. reflexivity. Qed.

(** ** Restoring that never ends *)
Definition P0 : text := placeholder 0.
Definition M0 (prev : option char) (rest : text) : mtch := mkm P0 [(1, lit "0")] (Some PASS_END) rest.
Lemma one_round U fs P f pts (a e : text) pt s v :
  find_all U (PASS_WITH_INDEX U) (a ++ P0 ++ e) = ([(a, M0 None e)], e) ->
  pt_get pts 0%N = Some pt -> apply_group U fs P f (pt_subs pt) false (pt_text pt) = s -> (s = OutOfFuel \/ exists u, s = Ok u /\
    pt_format U P pt u = Ok v /\ has_char PASS_START v = true /\ restore U fs P f pts v = OutOfFuel) ->
  restore U fs P (S f) pts (a ++ P0 ++ e) = OutOfFuel.
Proof.
  intros F G A H. rewrite restore_S, replace_all_pure_eq, F. cbn [rmap_all snd]. unfold restore_one at 1. change (cap_idx (M0 None e) 1) with (Ok (lit "0")). cbn [bind].
  change (parse_index (lit "0")) with 0%N. rewrite G. cbv beta iota. rewrite A. destruct H as [->|(u & -> & E & Hc & R)]; [reflexivity|].
  cbn [bind]. rewrite E. cbn [bind]. rewrite Hc, R. reflexivity.
Qed.
Lemma spoof_loops fs f : restore ascii_only fs parser_default f [mkpt P0 GNone None None] P0 = OutOfFuel.
Proof.
  induction f as [|f IH]; [reflexivity|]. change P0 with ([] ++ P0 ++ []) at 2. eapply one_round; [vm_compute; reflexivity|reflexivity|reflexivity|].
  destruct f as [|f]; [left; reflexivity|]. right. exists P0. split; [apply apply_none; auto|]. split; [reflexivity|]. split; [reflexivity|exact IH].
Qed.
(** The inner table of "[x-]+[x-]`$$q$$`+". *)
Definition mono_entry : passthrough := mkpt P0 GVerbatim (Some QMonospaced) (Some []).
Definition CODE_P0 : text := lit "<code>" ++ P0 ++ lit "</code>".
Lemma mono_loops fs f : restore ascii_only fs parser_default f [mono_entry] CODE_P0 = OutOfFuel.
Proof.
  induction f as [|f IH]; [reflexivity|]. unfold CODE_P0 at 1. eapply one_round; [vm_compute; reflexivity|reflexivity|reflexivity|].
  destruct f as [|f]; [left; reflexivity|]. right. exists P0. cbn [mono_entry pt_text pt_subs]. split; [rewrite apply_verbatim; reflexivity|]. split; [vm_compute; reflexivity|]. split; [reflexivity|exact IH].
Qed.
Lemma mono_loops0 fs f : restore ascii_only fs parser_default f [mono_entry] P0 = OutOfFuel.
Proof.
  destruct f as [|f]; [reflexivity|]. change P0 with ([] ++ P0 ++ []). eapply one_round; [vm_compute; reflexivity|reflexivity|reflexivity|].
  destruct f as [|f]; [left; reflexivity|]. right. exists P0. cbn [mono_entry pt_text pt_subs]. split; [rewrite apply_verbatim; reflexivity|]. split; [vm_compute; reflexivity|]. split; [reflexivity|apply mono_loops].
Qed.
Definition mono_inner : text := lit "[x-]`" ++ P0 ++ lit "`".
Lemma mono_inner_loops f : apply_group ascii_only 47%N parser_default f GNormal false mono_inner = OutOfFuel.
Proof.
  destruct f as [|f]; [reflexivity|]. rewrite apply_group_S. change (extracts GNormal) with true. cbv iota.
  replace (extract_from ascii_only mono_inner) with (Ok ([mono_entry], P0)) by (vm_compute; reflexivity). cbn [bind fst snd].
  replace (apply_steps ascii_only 47%N parser_default false (steps_of GNormal) P0) with (Ok P0) by (vm_compute; reflexivity). cbn [bind]. apply mono_loops0.
Qed.
Definition mono_source : text := lit "[x-]+[x-]`$$q$$`+".
Lemma mono_source_loops f : apply_group ascii_only 47%N parser_default f GNormal false mono_source = OutOfFuel.
Proof.
  destruct f as [|f]; [reflexivity|]. rewrite apply_group_S. change (extracts GNormal) with true. cbv iota.
  replace (extract_from ascii_only mono_source) with (Ok ([mkpt (lit "q") GVerbatim None None; mkpt mono_inner GNormal (Some QMonospaced) (Some [])], placeholder 1)) by (vm_compute; reflexivity). cbn [bind fst snd].
  replace (apply_steps ascii_only 47%N parser_default false (steps_of GNormal) (placeholder 1)) with (Ok (placeholder 1)) by (vm_compute; reflexivity). cbn [bind].
  destruct f as [|f]; [reflexivity|]. rewrite restore_S, replace_all_pure_eq.
  replace (find_all ascii_only (PASS_WITH_INDEX ascii_only) (placeholder 1)) with ([([] : text, mkm (placeholder 1) [(1, lit "1")] (Some PASS_END) [])], [] : text) by (vm_compute; reflexivity).
  cbn [rmap_all snd]. unfold restore_one at 1. match goal with |- context [cap_idx ?m 1] => change (cap_idx m 1) with (Ok (lit "1")) end. cbn [bind]. change (parse_index (lit "1")) with 1%N.
  match goal with |- context [pt_get ?l 1%N] => change (pt_get l 1%N) with (Some (mkpt mono_inner GNormal (Some QMonospaced) (Some []))) end.
  cbv beta iota. cbn [pt_subs pt_text]. rewrite mono_inner_loops. reflexivity.
Qed.
Definition spoof_source : text := lit "+++" ++ P0 ++ lit "+++".
Lemma spoof_source_loops f : apply_group ascii_only 47%N parser_default f GNormal false spoof_source = OutOfFuel.
Proof.
  destruct f as [|f]; [reflexivity|]. rewrite apply_group_S. change (extracts GNormal) with true. cbv iota.
  replace (extract_from ascii_only spoof_source) with (Ok ([mkpt P0 GNone None None], P0)) by (vm_compute; reflexivity). cbn [bind fst snd].
  replace (apply_steps ascii_only 47%N parser_default false (steps_of GNormal) P0) with (Ok P0) by (vm_compute; reflexivity). cbn [bind]. apply spoof_loops.
Qed.
(** ** What the two patterns match *)
Definition delimiters : list (nat * text) := [(4, lit "+++"); (7, lit "++"); (10, lit "$$")].
Lemma delimited_shape U n mark pv w rest caps : lang U (Delimited n mark) pv w rest caps ->
  exists body, w = mark ++ body ++ mark /\ caps = [(n + 2, mark); (n + 1, body); (n, mark)].
Proof.
  unfold Delimited. cbn [Seqs]. intros L. apply lang_seq in L. destruct L as (w1 & w2 & c1 & c2 & -> & -> & L1 & L).
  apply -> lang_grp in L1. destruct L1 as (c & -> & L1). apply -> lang_lit in L1. destruct L1 as [-> ->].
  apply lang_seq in L. destruct L as (w3 & w4 & c3 & c4 & -> & -> & L3 & L). apply -> lang_grp in L3. destruct L3 as (c & -> & L3). apply -> lang_many_chr in L3. destruct L3 as [_ ->].
  apply -> lang_grp in L. destruct L as (c & -> & L). apply -> lang_lit in L. destruct L as [-> ->]. exists w3. auto.
Qed.
Definition caps_are (m : mtch) (l : list (nat * text)) : Prop := forall n, cap m n = get_cap n l.
Lemma pass_shape U pv x m : match_here U INLINE_PASS_MACRO pv x = Some m ->
  (exists pre esc n mark body attr_caps, In (n, mark) delimiters /\ m_text m = pre ++ esc ++ mark ++ body ++ mark /\
     Forall (fun c => c = BSL) esc /\ (pre = [] /\ attr_caps = [] \/ exists e attrs, pre = e ++ lit "[" ++ attrs ++ lit "]" /\ (e = [] \/ e = [BSL]) /\ attr_caps = [(2, attrs); (1, e)]) /\
     m_caps m = [(n + 2, mark); (n + 1, body); (n, mark); (3, esc)] ++ attr_caps) \/
  (exists e subs body, m_text m = e ++ lit "pass:" ++ unwrap_or_default subs ++ lit "[" ++ body ++ lit "]" /\ (e = [] \/ e = [BSL]) /\
     m_caps m = (15, body) :: match subs with Some s => [(14, s)] | None => [] end ++ [(13, e)]).
Proof.
  intros H. apply match_here_lang in H. destruct H as (_ & _ & L). unfold INLINE_PASS_MACRO in L. cbn [Seqs] in L.
  apply lang_alt in L. destruct L as [L|L].
  - left. apply lang_seq in L. destruct L as (w1 & w2 & c1 & c2 & Ew & Ec & L1 & L). rewrite Ew, Ec. clear Ew Ec.
    apply lang_seq in L. destruct L as (w3 & w4 & c3 & c4 & -> & -> & L3 & L). apply -> lang_grp in L3. destruct L3 as (c & -> & L3).
    unfold Lit1 in L3. apply -> lang_upto_chr in L3. destruct L3 as (F & _ & ->).
    assert (K : exists n mark body, In (n, mark) delimiters /\ w4 = mark ++ body ++ mark /\ c4 = [(n + 2, mark); (n + 1, body); (n, mark)]).
    { unfold delimiters. cbn [Alts] in L. apply lang_alt in L. destruct L as [L|L]; [|apply lang_alt in L; destruct L as [L|L]]; apply delimited_shape in L; destruct L as (body & -> & ->).
      - exists 4, (lit "+++"), body. cbn [In]; auto.
      - exists 7, (lit "++"), body. cbn [In]; auto.
      - exists 10, (lit "$$"), body. cbn [In]; auto. }
    destruct K as (n & mark & body & Hin & -> & ->). exists w1, w3, n, mark, body, c1. split; [exact Hin|]. split; [reflexivity|].
    split; [eapply Forall_impl; [|exact F]; intros y Hy; apply N.eqb_eq in Hy; symmetry; exact Hy|]. split; [|reflexivity].
    unfold Opt in L1. apply lang_alt in L1. destruct L1 as [L1|L1]; [right|left; apply -> lang_eps in L1; exact L1].
    apply lang_seq in L1. destruct L1 as (x1 & x2 & d1 & d2 & -> & -> & Le & L1). apply -> lang_grp in Le. destruct Le as (c & -> & Le).
    apply lang_opt_lit1 in Le. destruct Le as [He ->].
    apply lang_seq in L1. destruct L1 as (x3 & x4 & d3 & d4 & -> & -> & Lb & L1). apply -> lang_lit1 in Lb. destruct Lb as [-> ->].
    apply lang_seq in L1. destruct L1 as (x5 & x6 & d5 & d6 & -> & -> & La & L1). apply -> lang_lit1 in L1. destruct L1 as [-> ->].
    apply -> lang_grp in La. destruct La as (c & -> & La). apply lang_no_caps in La; [|reflexivity]. subst c.
    exists x1, x5. split; [reflexivity|]. split; [tauto|reflexivity].
  - right. apply lang_seq in L. destruct L as (w1 & w2 & c1 & c2 & Ew & Ec & L1 & L). rewrite Ew, Ec. clear Ew Ec.
    apply -> lang_grp in L1. destruct L1 as (c & -> & L1). apply lang_opt_lit1 in L1. destruct L1 as [He ->].
    apply lang_seq in L. destruct L as (w3 & w4 & c3 & c4 & -> & -> & L3 & L). apply -> lang_lit in L3. destruct L3 as [-> ->].
    apply lang_seq in L. destruct L as (w5 & w6 & c5 & c6 & -> & -> & L5 & L).
    apply lang_seq in L. destruct L as (w7 & w8 & c7 & c8 & -> & -> & L7 & L). apply -> lang_lit1 in L7. destruct L7 as [-> ->].
    apply lang_seq in L. destruct L as (w9 & wz & c9 & cz & -> & -> & L9 & L). apply -> lang_lit1 in L. destruct L as [-> ->].
    apply -> lang_grp in L9. destruct L9 as (c & -> & L9). apply lang_no_caps in L9; [|reflexivity]. subst c.
    unfold Opt in L5. apply lang_alt in L5. destruct L5 as [L5|L5].
    + apply -> lang_grp in L5. destruct L5 as (c & -> & L5). apply lang_no_caps in L5; [|reflexivity]. subst c.
      exists w1, (Some w5), w9. split; [reflexivity|]. split; [tauto|reflexivity].
    + apply -> lang_eps in L5. destruct L5 as [-> ->]. exists w1, None, w9. split; [reflexivity|]. split; [tauto|reflexivity].
Qed.
Lemma tight_shape U n mark pv w rest caps : lang U (Tight n mark) pv w rest caps -> exists q, w = [mark] ++ q ++ [mark] /\ q <> [] /\ caps = [(n, q)].
Proof.
  unfold Tight. cbn [Seqs]. intros L. apply lang_seq in L. destruct L as (w1 & w2 & c1 & c2 & -> & -> & L1 & L). apply -> lang_lit1 in L1. destruct L1 as [-> ->].
  apply lang_seq in L. destruct L as (w3 & w4 & c3 & c4 & -> & -> & L3 & L). apply -> lang_lit1 in L. destruct L as [-> ->].
  apply -> lang_grp in L3. destruct L3 as (c & -> & L3). pose proof (lang_no_caps _ _ _ _ _ _ L3 eq_refl) as ->.
  exists w3. split; [reflexivity|]. split; [|reflexivity]. apply lang_seq in L3. destruct L3 as (y & z & ? & ? & -> & _ & (a & -> & _) & _). discriminate.
Qed.
Lemma inline_pass_shape U pv x m : match_here U INLINE_PASS pv x = Some m ->
  (exists a q, m_text m = lit "[" ++ a ++ lit "]`" ++ q ++ lit "`" /\ q <> [] /\ m_caps m = [(2, q); (1, a)]) \/
  (exists a esc q, m_text m = lit "[" ++ a ++ lit "]" ++ esc ++ lit "+" ++ q ++ lit "+" /\ q <> [] /\ m_caps m = [(5, q); (4, esc); (3, a)]) \/
  (exists e q, m_text m = unwrap_or_default e ++ lit "+" ++ q ++ lit "+" /\ q <> [] /\ (e = None \/ e = Some [BSL]) /\ m_caps m = (7, q) :: match e with Some s => [(6, s)] | None => [] end).
Proof.
  intros H. apply match_here_lang in H. destruct H as (_ & _ & L). unfold INLINE_PASS in L. cbn [Seqs Alts] in L.
  apply lang_seq in L. destruct L as (w0 & w1 & c0 & c1 & Ew & Ec & L0 & L). rewrite Ew, Ec. clear Ew Ec. apply -> lang_assert in L0. destruct L0 as (-> & -> & _).
  apply lang_seq in L. destruct L as (w2 & w3 & c2 & c3 & -> & -> & L & Lz). apply -> lang_assert in Lz. destruct Lz as (-> & -> & _). rewrite !app_nil_r. cbn [app].
  apply lang_alt in L. destruct L as [L|L]; [left|right; apply lang_alt in L; destruct L as [L|L]; [left|right]].
  - apply lang_seq in L. destruct L as (x1 & x2 & d1 & d2 & -> & -> & L1 & L). apply -> lang_lit1 in L1. destruct L1 as [-> ->].
    apply lang_seq in L. destruct L as (x3 & x4 & d3 & d4 & -> & -> & L3 & L). apply -> lang_grp in L3. destruct L3 as (c & -> & L3). apply lang_no_caps in L3; [|reflexivity]. subst c.
    apply lang_seq in L. destruct L as (x5 & x6 & d5 & d6 & -> & -> & L5 & L). apply -> lang_lit1 in L5. destruct L5 as [-> ->].
    apply tight_shape in L. destruct L as (q & -> & Hq & ->). exists x3, q. split; [reflexivity|]. split; [exact Hq|reflexivity].
  - apply lang_seq in L. destruct L as (x1 & x2 & d1 & d2 & -> & -> & L1 & L). apply -> lang_lit1 in L1. destruct L1 as [-> ->].
    apply lang_seq in L. destruct L as (x3 & x4 & d3 & d4 & -> & -> & L3 & L). apply -> lang_grp in L3. destruct L3 as (c & -> & L3). apply lang_no_caps in L3; [|reflexivity]. subst c.
    apply lang_seq in L. destruct L as (x5 & x6 & d5 & d6 & -> & -> & L5 & L). apply -> lang_lit1 in L5. destruct L5 as [-> ->].
    apply lang_seq in L. destruct L as (x7 & x8 & d7 & d8 & -> & -> & L7 & L). apply -> lang_grp in L7. destruct L7 as (c & -> & L7). apply lang_no_caps in L7; [|reflexivity]. subst c.
    apply tight_shape in L. destruct L as (q & -> & Hq & ->). exists x3, x7, q. split; [reflexivity|]. split; [exact Hq|reflexivity].
  - apply lang_seq in L. destruct L as (x1 & x2 & d1 & d2 & -> & -> & L1 & L). apply tight_shape in L. destruct L as (q & -> & Hq & ->).
    unfold Opt in L1. apply lang_alt in L1. destruct L1 as [L1|L1].
    + apply -> lang_grp in L1. destruct L1 as (c & -> & L1). apply -> lang_lit1 in L1. destruct L1 as [-> ->]. exists (Some [BSL]), q. auto.
    + apply -> lang_eps in L1. destruct L1 as [-> ->]. exists None, q. auto.
Qed.
(** ** Replacing with a state: what holds before and is kept by every match holds in the end *)
Lemma replace_all_inv {St} U r (rep : St -> mtch -> text -> res (St * text)) (I : St -> text -> Prop) h s :
  (forall a x pv m s d, h = a ++ x -> match_here U r pv x = Some m -> I s d -> exists s' d', rep s m d = Ok (s', d') /\ I s' d') ->
  (forall s d p, occurs p h -> I s d -> I s (d ++ p)) -> I s [] ->
  exists s' o, replace_all U r rep s h = Ok (s', o) /\ I s' o.
Proof.
  intros Hm Hp H0. unfold replace_all. destruct (find_all U r h) as [l e] eqn:E. pose proof (find_all_partition _ _ _ _ _ E) as Eh.
  assert (Hl : forall p m, In (p, m) l -> occurs p h /\ exists pv a x, h = a ++ x /\ match_here U r pv x = Some m).
  { intros p m Hin. split; [|unfold find_all in E; eapply find_all_go_in; eassumption]. apply in_split in Hin. destruct Hin as (l1 & l2 & El). rewrite Eh, El.
    unfold seg_text. rewrite map_app, concat_app. cbn [map concat fst snd]. exists (concat (map (fun pm => fst pm ++ m_text (snd pm)) l1)), (m_text m ++ concat (map (fun pm => fst pm ++ m_text (snd pm)) l2) ++ e).
    rewrite <- !app_assoc. reflexivity. }
  assert (K : forall l' s0 d0, (forall p m, In (p, m) l' -> In (p, m) l) -> I s0 d0 -> exists s' d', replace_fold rep l' s0 d0 = Ok (s', d') /\ I s' d').
  { induction l' as [|[p m] l' IH]; intros s0 d0 Hs Hi; [exists s0, d0; auto|]. cbn [replace_fold]. destruct (Hl p m (Hs _ _ (or_introl eq_refl))) as (Op & pv & a & x & Ex & Mx).
    destruct (Hm a x pv m s0 (d0 ++ p) Ex Mx (Hp _ _ _ Op Hi)) as (s1 & d1 & -> & I1). cbn [bind fst snd]. apply IH; [|exact I1]. intros p' m' H'. apply Hs. right. exact H'. }
  assert (Oe : occurs e h) by (exists (seg_text l), []; rewrite app_nil_r; exact Eh).
  destruct l as [|pm l].
  - cbn in Eh. subst e. exists s, h. split; [reflexivity|]. change h with ([] ++ h). apply Hp; [exact Oe|exact H0].
  - destruct (K (pm :: l) s [] (fun p m H => H) H0) as (s' & d' & -> & I'). cbn [bind fst snd]. exists s', (d' ++ e). split; [reflexivity|]. apply Hp; assumption.
Qed.
Lemma replace_go_incl p b t : forall k x, In x (replace_go p b k t) -> In x t \/ In x b.
Proof.
  induction t as [|c t IH]; intros k x H; [destruct H|]. cbn [replace_go] in H. destruct k as [|k].
  - destruct (starts_with p (c :: t)).
    + apply in_app_iff in H. destruct H as [H|H]; [auto|]. destruct (IH _ _ H); cbn [In]; auto.
    + destruct H as [->|H]; [left; left; reflexivity|]. destruct (IH _ _ H); cbn [In]; auto.
  - destruct (IH _ _ H); cbn [In]; auto.
Qed.
Lemma occurs_incl p t : occurs p t -> incl p t.
Proof. intros (a & b & ->) x H. rewrite !in_app_iff. auto. Qed.

(** ** Texts made of characters and placeholders *)
Definition tok_text (k : char + nat) : text := match k with inl c => [c] | inr n => placeholder n end.
Definition tok_ok (n : nat) (k : char + nat) : Prop := match k with inl c => c <> PASS_START | inr i => i < n end.
Definition good (n : nat) (d : text) : Prop := exists toks, Forall (tok_ok n) toks /\ d = flat_map tok_text toks.
Lemma good_plain n x : ~ In PASS_START x -> good n x.
Proof.
  intros H. exists (map inl x). split.
  - apply Forall_forall. intros k Hk. apply in_map_iff in Hk. destruct Hk as (c & <- & Hc). cbn. intros ->. exact (H Hc).
  - induction x as [|c x IH]; [reflexivity|]. cbn. f_equal. apply IH. intros K. apply H. right. exact K.
Qed.
Lemma good_app n a b : good n a -> good n b -> good n (a ++ b).
Proof. intros (k & Fk & ->) (l & Fl & ->). exists (k ++ l). split; [apply Forall_app; auto|]. rewrite flat_map_app. reflexivity. Qed.
Lemma good_le n m a : n <= m -> good n a -> good m a.
Proof. intros H (k & F & ->). exists k. split; [|reflexivity]. eapply Forall_impl; [|exact F]. intros [c|i]; cbn; [auto|lia]. Qed.
Lemma good_push n a : good n a -> good (S n) (a ++ placeholder n).
Proof. intros H. apply good_app; [apply (good_le n); [lia|exact H]|]. exists [inr n]. split; [repeat constructor|]. cbn. rewrite app_nil_r. reflexivity. Qed.
Lemma show_nat_not c n : is_ascii_digit c = false -> ~ In c (show_nat n).
Proof. intros H Hi. pose proof (show_nat_digits n) as F. rewrite Forall_forall in F. rewrite (F c Hi) in H. discriminate. Qed.
Definition digits (U : unicode) (ds : text) : Prop := ds <> [] /\ Forall (fun c => c_digit U c = true) ds.
Lemma good_ref U n d a ds b : c_digit U PASS_END = false -> good n d -> digits U ds -> d = a ++ PASS_START :: ds ++ PASS_END :: b -> exists i, i < n /\ ds = show_nat i.
Proof.
  intros He (toks & F & Ed) [Hn Fd] E. rewrite Ed in E. clear Ed d. assert (Hd : ~ In PASS_END ds) by (intros K; rewrite Forall_forall in Fd; rewrite (Fd _ K) in He; discriminate).
  revert a E. induction F as [|k toks Hk F IH]; intros a E; [destruct a; discriminate E|]. cbn [flat_map] in E. destruct k as [c|i]; cbn [tok_text tok_ok] in *.
  - destruct a as [|x a]; [injection E as -> _; contradiction|]. injection E as -> E. apply (IH a E).
  - unfold placeholder in E. destruct a as [|x a].
    + injection E as E. rewrite <- app_assoc in E. cbn [app] in E. apply cut_unique in E; [|apply show_nat_not; reflexivity|exact Hd]. destruct E as [E _]. exists i. auto.
    + injection E as <- E. rewrite <- app_assoc in E. cbn [app] in E. 
      assert (K : forall y a, ~ In PASS_START y -> y ++ flat_map tok_text toks = a ++ PASS_START :: ds ++ PASS_END :: b -> exists a', flat_map tok_text toks = a' ++ PASS_START :: ds ++ PASS_END :: b).
      { clear. induction y as [|c y IH]; intros a H E; [exists a; exact E|]. destruct a as [|x a]; [injection E as -> _; exfalso; apply H; left; reflexivity|]. injection E as _ E. apply (IH a); [|exact E]. intros K. apply H. right. exact K. }
      destruct (K (show_nat i ++ [PASS_END]) a) as (a' & Ea); [|rewrite <- app_assoc; exact E|apply (IH a' Ea)].
      intros Hi. apply in_app_iff in Hi. destruct Hi as [Hi|[Hi|[]]]; [|discriminate Hi]. revert Hi. apply show_nat_not. reflexivity.
Qed.

(** ** Extraction always gives a result *)
Lemma old_syntax_ok a : exists r, old_syntax a = Ok r.
Proof.
  unfold old_syntax. destruct (text_eqb a (lit "x-")); [eauto|]. destruct (ends_with (lit " x-") a) eqn:E; [|eauto]. apply ends_with_spec in E. destruct E as [r ->].
  rewrite blen_app. change (blen (lit " x-")) with 3. replace (blen r + 3 - 3) with (blen r) by lia. rewrite str_to_at. cbn [bind]. eauto.
Qed.
Definition entry1 (t : text) (e : passthrough) : Prop :=
  (incl (pt_text e) t \/ exists b, incl b t /\ incl (pt_text e) (b ++ [93%N])) /\
  (~ In 91%N t -> pt_type e = None /\ (pt_subs e = GNone \/ pt_subs e = GVerbatim)).
Definition inv1 (t : text) (pts : list passthrough) (d : text) : Prop :=
  Forall (entry1 t) pts /\ (~ In PASS_START t -> good (length pts) d) /\ (forall c, In c d -> In c t \/ c = PASS_START \/ c = PASS_END \/ is_ascii_digit c = true).
Lemma inv1_app t pts d x : incl x t -> inv1 t pts d -> inv1 t pts (d ++ x).
Proof.
  intros Hx (F & G & C). split; [exact F|]. split.
  - intros H. apply good_app; [auto|]. apply good_plain. intros K. apply H, Hx, K.
  - intros c Hc. apply in_app_iff in Hc. destruct Hc; auto.
Qed.
Lemma inv1_push t pts d e : entry1 t e -> inv1 t pts d -> exists s' d', Ok (pt_push pts e d) = Ok (s', d') /\ inv1 t s' d'.
Proof.
  intros He (F & G & C). exists (pts ++ [e]), (d ++ placeholder (length pts)). split; [reflexivity|]. split; [apply Forall_app; auto|]. split.
  - intros H. rewrite app_length. cbn [length]. rewrite Nat.add_1_r. apply good_push. auto.
  - intros c Hc. apply in_app_iff in Hc. destruct Hc as [Hc|[Hc|Hc]]; [auto|subst c; auto|]. apply in_app_iff in Hc. destruct Hc as [Hc|[Hc|[]]]; [|subst c; auto].
    right. right. right. pose proof (show_nat_digits (length pts)) as K. rewrite Forall_forall in K. auto.
Qed.
Lemma cap_caps m l n : m_caps m = l -> cap m n = get_cap n l.
Proof. intros <-. reflexivity. Qed.
Ltac inclx := let y := fresh "y" in intros y; rewrite ?in_app_iff; cbn [In]; rewrite ?in_app_iff; cbn [In]; rewrite ?in_app_iff; cbn [In]; tauto.
Lemma pass_macro_step U t a x pv m pts d : t = a ++ x -> match_here U INLINE_PASS_MACRO pv x = Some m -> inv1 t pts d ->
  exists s' d', pass_macro_replacer pts m d = Ok (s', d') /\ inv1 t s' d'.
Proof.
  intros Et Hm I. assert (Hi : incl (m_text m) t) by (apply match_here_text in Hm; destruct Hm as [-> _]; rewrite Et; intros y; rewrite !in_app_iff; tauto).
  destruct (pass_shape _ _ _ _ Hm) as [(pre & esc & n & mark & body & ac & Hin & Ew & Fe & Hpre & Ec)|(e & subs & body & Ew & He & Ec)].
  - assert (Hidx : pass_macro_replacer pts m d = handle_quoted_text pts m (n + 1) d /\ (forall k, cap m k = get_cap k (m_caps m)) /\ or_else (cap m 4) (or_else (cap m 7) (cap m 10)) = Some mark /\
      or_else (cap m 5) (or_else (cap m 8) (cap m 11)) = Some body /\ cap m (n + 1) = Some body /\ cap m (n + 1 - 1) = Some mark /\ cap m 3 = Some esc /\ cap m 2 = get_cap 2 ac /\ cap m 1 = get_cap 1 ac).
    { unfold pass_macro_replacer, cap. rewrite Ec. clear Ew Ec. destruct Hpre as [[-> ->]|(e & attrs & -> & _ & ->)];
      unfold delimiters in Hin; cbn [In] in Hin; destruct Hin as [Hin|[Hin|[Hin|[]]]]; injection Hin as <- <-; repeat split; reflexivity. }
    destruct Hidx as (-> & _ & Hb & Hq & H5 & H4 & H3 & H2 & H1). unfold handle_quoted_text. rewrite Hb, Hq, H5, H3, H2. cbn [unwrap_or_default].
    assert (Hesc : forall y, In y (repeat BSL (length esc - 1)) -> In y esc).
    { intros y Hy. apply repeat_spec in Hy as Ey. subst y. destruct esc as [|c esc]; [destruct Hy|]. inversion Fe; subst. left. reflexivity. }
    assert (Hbody : incl body t) by (intros y Hy; apply Hi; rewrite Ew, !in_app_iff; auto).
    assert (Plain : forall d0, inv1 t pts d0 -> exists s' d', Ok (pt_push pts (mkpt body (if is_plus3 mark then GNone else GVerbatim) None None) d0) = Ok (s', d') /\ inv1 t s' d').
    { intros d0 I0. apply inv1_push; [|exact I0]. split; [left; exact Hbody|]. intros _. split; [reflexivity|]. cbn. destruct (is_plus3 mark); auto. }
    destruct Hpre as [[-> ->]|(e & attrs & -> & He & ->)]; cbn [get_cap Nat.eqb] in *.
    + destruct (0 <? length esc); [|apply Plain, I]. eexists pts, _. split; [reflexivity|]. apply inv1_app; [|exact I].
      intros y Hy. apply Hi. rewrite Ew. rewrite !in_app_iff in Hy. rewrite !in_app_iff. destruct Hy as [Hy|Hy]; [right; left; apply Hesc, Hy|tauto].
    + unfold cap_idx. rewrite H4, H5, H1. cbn [of_option bind].
      assert (Hat : forall y, In y (lit "[" ++ attrs ++ lit "]") -> In y t) by (intros y Hy; apply Hi; rewrite Ew; rewrite !in_app_iff in Hy; rewrite !in_app_iff; tauto).
      destruct (0 <? length esc).
      * eexists pts, _. split; [reflexivity|]. apply inv1_app; [|exact I].
        intros y Hy. apply Hi. rewrite Ew. rewrite !in_app_iff in Hy. rewrite !in_app_iff. destruct Hy as [Hy|[Hy|[Hy|[Hy|[Hy|Hy]]]]]; try tauto. right. left. apply Hesc, Hy.
      * destruct (text_eqb e [BSL]); [apply Plain, inv1_app; [exact Hat|exact I]|].
        assert (K : exists ao, (if text_eqb mark (lit "++") then old_syntax attrs else Ok (attrs, false)) = Ok ao) by (destruct (text_eqb mark (lit "++")); [apply old_syntax_ok|eauto]).
        destruct K as [[a1 o] ->]. cbn [bind fst snd]. apply inv1_push; [|exact I]. split; [left; destruct o; exact Hbody|]. intros N. exfalso. apply N, Hat. left. reflexivity.
  - assert (Hc : cap m 4 = None /\ cap m 7 = None /\ cap m 10 = None /\ cap m 13 = Some e /\ cap m 14 = subs /\ cap m 15 = Some body).
    { unfold cap. rewrite Ec. destruct subs; repeat split; reflexivity. }
    destruct Hc as (H4 & H7 & H10 & H13 & H14 & H15). unfold pass_macro_replacer, cap_idx. rewrite H4, H7, H10, H13, H14, H15. cbn [of_option bind].
    assert (Hbody : incl body t) by (intros y Hy; apply Hi; rewrite Ew, !in_app_iff; auto 10).
    assert (N91 : In 91%N t) by (apply Hi; rewrite Ew, !in_app_iff; right; right; right; left; left; reflexivity).
    destruct e as [|c e].
    + assert (K : exists o, match subs with Some s => from_custom_string None s | None => Ok None end = Ok o) by (destruct subs; [rewrite from_custom_string_eq|]; eauto).
      destruct K as [o ->]. cbn [bind]. apply inv1_push; [|exact I]. split; [|intros N; exfalso; exact (N N91)]. right. exists body. split; [exact Hbody|].
      cbn [pt_text]. unfold replace_esc_bracket, replace_str. intros y Hy. apply replace_go_incl in Hy. rewrite in_app_iff. exact Hy.
    + eexists pts, _. split; [reflexivity|]. apply inv1_app; [|exact I]. intros y Hy. apply Hi. rewrite Ew. rewrite !in_app_iff in Hy. rewrite !in_app_iff. tauto.
Qed.
Lemma phase1_ok U t : exists pts o, replace_all U INLINE_PASS_MACRO pass_macro_replacer [] t = Ok (pts, o) /\ inv1 t pts o.
Proof.
  apply replace_all_inv.
  - intros a x pv m s d E Hm I. eapply pass_macro_step; eassumption.
  - intros s d p O I. apply inv1_app; [apply occurs_incl, O|exact I].
  - split; [constructor|]. split; [intros _; apply good_plain; intros []|intros c []].
Qed.
Definition entry2 (h : text) (e : passthrough) : Prop :=
  occurs (pt_text e) h /\ (~ In 91%N h -> pt_type e = None /\ pt_subs e = GVerbatim).
Lemma entry2_mono h h' e : occurs h h' -> entry2 h e -> entry2 h' e.
Proof. intros O [H1 H2]. split; [eapply occurs_trans; eassumption|]. intros N. apply H2. intros K. apply N. apply (occurs_incl _ _ O), K. Qed.
Lemma phase2_ok U fuel : forall h pts, length h <= fuel ->
  exists new o, replace_all U INLINE_PASS (inline_pass_replacer U fuel) pts h = Ok (pts ++ new, o) /\ Forall (entry2 h) new.
Proof.
  induction fuel as [|f IH]; intros h pts Hl.
  - assert (h = []) as -> by (destruct h; [reflexivity|cbn in Hl; lia]). exists [], []. split; [|constructor]. rewrite app_nil_r. cbv -[inline_pass_replacer]. reflexivity.
  - destruct (replace_all_inv U INLINE_PASS (inline_pass_replacer U (S f)) (fun s _ => exists new, s = pts ++ new /\ Forall (entry2 h) new) h pts) as (s' & o & E & new & -> & F).
    + intros a x pv m s d Eh Hm (new & -> & F). assert (Oh : occurs (m_text m) h).
      { apply match_here_text in Hm. destruct Hm as [Ex _]. exists a, (m_after m). rewrite Eh, Ex. reflexivity. }
      assert (Lm : length (m_text m) <= S f) by (destruct Oh as (y & z & Ey); rewrite Ey, !app_length in Hl; lia).
      pose proof (inline_pass_shape _ _ _ _ Hm) as Sh.
      assert (Hd : exists c r, m_text m = c :: r /\ clen c = 1).
      { destruct Sh as [(a1 & q & -> & _)|[(a1 & es & q & -> & _)|(e & q & -> & _ & He & _)]]; [eexists _, _; split; reflexivity..|].
        destruct He as [->| ->]; eexists _, _; split; reflexivity. }
      cbn [inline_pass_replacer]. destruct (_ || _).
      * destruct Hd as (c & r & Em & Hc). rewrite Em in *. pose proof (str_to_at [c] r) as S1. cbn [blen app] in S1. rewrite Hc in S1. cbn [Nat.add] in S1. rewrite S1. rewrite str_from1 by exact Hc. cbn [bind].
        destruct (IH r (pts ++ new)) as (new2 & o2 & -> & F2); [cbn [length] in Lm; lia|]. cbn [bind fst snd]. eexists _, _. split; [reflexivity|].
        exists (new ++ new2). split; [rewrite app_assoc; reflexivity|]. apply Forall_app. split; [exact F|]. eapply Forall_impl; [|exact F2]. intros e He. eapply entry2_mono; [|exact He].
        eapply occurs_trans; [|exact Oh]. exists [c], []. rewrite app_nil_r. reflexivity.
      * set (orig := or_else (cap m 1) (cap m 3)).
        assert (K : exists ao, match orig with Some a0 => r <- old_syntax a0 ;; Ok (Some (fst r), snd r) | None => Ok (None, false) end = Ok ao /\ (orig = None -> ao = (None, false))).
        { destruct orig as [a0|]; [destruct (old_syntax_ok a0) as [r ->]; cbn [bind]; eexists; split; [reflexivity|discriminate]|]. eexists. split; [reflexivity|reflexivity]. }
        destruct K as (ao & -> & Hao). cbn [bind]. destruct (0 <? _); [eexists _, _; split; [reflexivity|exists new; auto]|].
        eexists _, _. split; [reflexivity|]. exists (new ++ [mkpt (unwrap_or_default (or_else (cap m 2) (or_else (cap m 5) (cap m 7)))) (if snd ao && negb (match cap m 2 with Some _ => true | None => false end) then GNormal else GVerbatim) (match fst ao with Some _ => if snd ao : bool then Some QMonospaced else Some QUnquoted | None => None end) (fst ao)]).
        split; [rewrite app_assoc; reflexivity|]. apply Forall_app. split; [exact F|]. constructor; [|constructor].
        assert (Q : occurs (unwrap_or_default (or_else (cap m 2) (or_else (cap m 5) (cap m 7)))) (m_text m) /\ (~ In 91%N (m_text m) -> orig = None)).
        { unfold orig, cap. destruct Sh as [(a1 & q & -> & _ & ->)|[(a1 & es & q & -> & _ & ->)|(e & q & -> & _ & He & ->)]]; cbn [get_cap Nat.eqb or_else unwrap_or_default].
          - split; [exists (lit "[" ++ a1 ++ lit "]`"), (lit "`"); rewrite <- !app_assoc; reflexivity|]. intros N. exfalso. apply N. left. reflexivity.
          - split; [exists (lit "[" ++ a1 ++ lit "]" ++ es ++ lit "+"), (lit "+"); rewrite <- !app_assoc; reflexivity|]. intros N. exfalso. apply N. left. reflexivity.
          - split; [exists (unwrap_or_default e ++ lit "+"), (lit "+"); rewrite <- !app_assoc; destruct He as [->| ->]; reflexivity|]. intros _. destruct He as [->| ->]; reflexivity. }
        destruct Q as [Q1 Q2]. split; [cbn [pt_text]; eapply occurs_trans; [exact Q1|exact Oh]|]. intros N. rewrite (Hao (Q2 (fun K => N (occurs_incl _ _ Oh _ K)))). cbn. auto.
    + intros s d p _ I. exact I.
    + exists []. rewrite app_nil_r. auto.
    + exists new, o. auto.
Qed.
(** The result of extraction. *)
Lemma extract_ok U t : exists p1 p2 t1 o, extract_from U t = Ok (p1 ++ p2, o) /\ inv1 t p1 t1 /\ Forall (entry2 t1) p2.
Proof.
  unfold extract_from. assert (K : exists p1 t1, (if contains (lit "++") t || contains (lit "$$") t || contains (lit "ss:") t then replace_all U INLINE_PASS_MACRO pass_macro_replacer [] t else Ok ([], t)) = Ok (p1, t1) /\ inv1 t p1 t1).
  { destruct (_ || _); [apply phase1_ok|]. exists [], t. split; [reflexivity|]. split; [constructor|]. split; [apply good_plain|auto]. }
  destruct K as (p1 & t1 & -> & I). cbn [bind fst snd]. destruct (_ || _).
  - destruct (phase2_ok U (length t1) t1 p1 (le_n _)) as (new & o & -> & F). exists p1, new, t1, o. auto.
  - exists p1, [], t1, t1. rewrite app_nil_r. auto.
Qed.
(** ** Reading the index back *)
Lemma fold_index ds : Forall (fun c => is_ascii_digit c = true) ds -> forall acc, fold_left (fun a c => (a * 10 + (c - 48))%N) ds (N.of_nat acc) = N.of_nat (digits_val ds acc).
Proof.
  induction 1 as [|c ds Hc F IH]; intros acc; [reflexivity|]. cbn [fold_left digits_val]. rewrite <- IH. f_equal.
  unfold is_ascii_digit in Hc. apply andb_true_iff in Hc. destruct Hc as [H1 H2]. apply N.leb_le in H1, H2. lia.
Qed.
Lemma parse_index_show n : parse_index (show_nat n) = if (N.of_nat n <=? usize_max)%N then N.of_nat n else 0%N.
Proof.
  unfold parse_index. assert (E : forallb is_ascii_digit (show_nat n) = true) by (apply forallb_forall; intros c Hc; pose proof (show_nat_digits n) as F; rewrite Forall_forall in F; auto).
  rewrite E. pose proof (fold_index _ (show_nat_digits n) 0) as K. rewrite show_nat_val in K. change (N.of_nat 0) with 0%N in K. cbv zeta. rewrite K. reflexivity.
Qed.
Lemma parse_index_le n : (parse_index (show_nat n) <= N.of_nat n)%N.
Proof. rewrite parse_index_show. destruct (_ <=? _)%N; lia. Qed.

(** ** Restoring ends *)
Lemma index_match U pv x m : match_here U (PASS_WITH_INDEX U) pv x = Some m -> exists ds, digits U ds /\ m_text m = PASS_START :: ds ++ [PASS_END] /\ cap m 1 = Some ds.
Proof.
  intros H. apply match_here_lang in H. destruct H as (_ & _ & L). unfold PASS_WITH_INDEX in L. cbn [Seqs] in L. unfold cap.
  apply lang_seq in L. destruct L as (w1 & w2 & c1 & c2 & Ew & Ec & L1 & L). rewrite Ew, Ec. clear Ew Ec. apply -> lang_lit1 in L1. destruct L1 as [-> ->].
  apply lang_seq in L. destruct L as (w3 & w4 & c3 & c4 & -> & -> & L3 & L). apply -> lang_lit1 in L. destruct L as [-> ->].
  apply -> lang_grp in L3. destruct L3 as (c & -> & L3). apply -> lang_plus_chr in L3. destruct L3 as (Hn & F & ->). exists w3. repeat split; assumption.
Qed.
Definition refs (U : unicode) (Q : N -> Prop) (t : text) : Prop :=
  forall a ds b, t = a ++ PASS_START :: ds ++ PASS_END :: b -> digits U ds -> Q (parse_index ds).
Lemma restore_ends U fs P pts :
  (forall i pt, nth_error pts i = Some pt -> exists s v, (forall f, apply_group U fs P (S f) (pt_subs pt) false (pt_text pt) = Ok s) /\ pt_format U P pt s = Ok v /\ refs U (fun j => (j < N.of_nat i)%N) v) ->
  forall r f t, refs U (fun j => (j < N.of_nat r)%N \/ (N.of_nat (length pts) <= j)%N) t -> exists o, restore U fs P (S (S (f + r))) pts t = Ok o.
Proof.
  intros Hv. induction r as [|r IH]; intros f t Hr; rewrite restore_S; apply replace_all_pure_ok_in; intros pv a x m Et Hm;
    destruct (index_match _ _ _ _ Hm) as (ds & Hd & Ew & Hc); apply match_here_text in Hm; destruct Hm as [Ex _];
    unfold restore_one, cap_idx; rewrite Hc; cbn [of_option bind]; rewrite Ew in Ex;
    (assert (Ht : t = a ++ PASS_START :: ds ++ PASS_END :: m_after m) by (rewrite Et, Ex; cbn [app]; rewrite <- app_assoc; reflexivity));
    specialize (Hr _ _ _ Ht Hd); cbv beta in Hr; unfold pt_get; (destruct (parse_index ds <? N.of_nat (length pts))%N eqn:El; [|eauto]); apply N.ltb_lt in El.
  - lia.
  - destruct (nth_error pts (N.to_nat (parse_index ds))) as [pt|] eqn:En; [|eauto]. destruct (Hv _ _ En) as (s & v & Ha & Hf & Hv').
    rewrite Ha. cbn [bind]. rewrite Hf. cbn [bind]. destruct (has_char PASS_START v); [|eauto]. rewrite Nat.add_succ_r. apply IH.
    intros a' ds' b' E' D'. specialize (Hv' _ _ _ E' D'). cbv beta in Hv'. left. rewrite N2Nat.id in Hv'. lia.
Qed.
Lemma placeholder_chars c n : In c (placeholder n) -> c = PASS_START \/ c = PASS_END \/ is_ascii_digit c = true.
Proof.
  unfold placeholder. intros [H|H]; [auto|]. apply in_app_iff in H. destruct H as [H|[H|[]]]; [|auto]. right. right. pose proof (show_nat_digits n) as F. rewrite Forall_forall in F. auto.
Qed.
Lemma digit_range c : is_ascii_digit c = true -> (48 <= c <= 57)%N.
Proof. unfold is_ascii_digit. intros H. apply andb_true_iff in H. destruct H as [H1 H2]. apply N.leb_le in H1, H2. lia. Qed.
Lemma placeholder_esc i : flat_map esc (placeholder i) = placeholder i.
Proof.
  apply flat_map_esc_id. destruct (existsb _ _) eqn:E; [|reflexivity]. apply existsb_exists in E. destruct E as (c & Hc & E). exfalso. apply placeholder_chars in Hc.
  rewrite c_in_special in E. destruct Hc as [->|[->|Hc]]; [discriminate E..|]. apply digit_range in Hc. rewrite !orb_true_iff, !N.eqb_eq in E. lia.
Qed.
Lemma esc_no_start c : c <> PASS_START -> ~ In PASS_START (esc c).
Proof.
  intros H. unfold esc. destruct (c =? 60)%N; [apply has_char_false; reflexivity|]. destruct (c =? 62)%N; [apply has_char_false; reflexivity|]. destruct (c =? 38)%N; [apply has_char_false; reflexivity|].
  intros [K|[]]. contradiction.
Qed.
Lemma good_esc n d : good n d -> good n (flat_map esc d).
Proof.
  intros (toks & F & ->). induction F as [|k toks Hk F IH]; [exists []; auto|]. cbn [flat_map]. rewrite flat_map_app. apply good_app; [|exact IH]. destruct k as [c|i]; cbn [tok_text tok_ok] in *.
  - cbn [flat_map]. rewrite app_nil_r. apply good_plain, esc_no_start, Hk.
  - rewrite placeholder_esc. exists [inr i]; split; [repeat constructor; exact Hk|cbn; rewrite app_nil_r; reflexivity].
Qed.
Lemma no_start_refs U Q t : ~ In PASS_START t -> refs U Q t.
Proof. intros H a ds b E _. exfalso. apply H. rewrite E, in_app_iff. right. left. reflexivity. Qed.
Lemma extracted_restores U fs P t pts o : c_digit U PASS_END = false -> ~ In PASS_START t -> ~ In 91%N t -> extract_from U t = Ok (pts, o) ->
  forall f t', length pts + 2 <= f -> exists r, restore U fs P f pts t' = Ok r.
Proof.
  intros He Hs Hb E f t' Lf. destruct (extract_ok U t) as (p1 & p2 & t1 & o' & E' & (F1 & G1 & C1) & F2). rewrite E in E'. apply Ok_inj in E'. injection E' as -> _.
  specialize (G1 Hs). assert (Hb1 : ~ In 91%N t1) by (intros K; apply C1 in K; destruct K as [K|[K|[K|K]]]; [exact (Hb K)|discriminate K..]).
  replace f with (S (S ((f - (length (p1 ++ p2) + 2)) + length (p1 ++ p2)))) by lia. apply restore_ends.
  - intros i pt En. destruct (Nat.lt_ge_cases i (length p1)) as [Hi|Hi].
    + rewrite nth_error_app1 in En by exact Hi. apply nth_error_In in En. rewrite Forall_forall in F1. destruct (F1 _ En) as [Hin Hsub]. destruct (Hsub Hb) as [Hty Hs2].
      assert (Ns : ~ In PASS_START (pt_text pt)).
      { intros K. destruct Hin as [Hin|(b & Hb2 & Hin)]; [exact (Hs (Hin _ K))|]. apply Hin in K. apply in_app_iff in K. destruct K as [K|[K|[]]]; [exact (Hs (Hb2 _ K))|discriminate K]. }
      destruct Hs2 as [-> | ->].
      * exists (pt_text pt), (pt_text pt). split; [intros f'; apply apply_none; auto|]. unfold pt_format. rewrite Hty. split; [reflexivity|]. apply no_start_refs, Ns.
      * exists (flat_map esc (pt_text pt)), (flat_map esc (pt_text pt)). split; [intros f'; apply apply_verbatim|]. unfold pt_format. rewrite Hty. split; [reflexivity|].
        apply no_start_refs. intros K. apply in_flat_map in K. destruct K as (c & Hc & K). revert K. apply esc_no_start. intros ->. exact (Ns Hc).
    + rewrite nth_error_app2 in En by exact Hi. apply nth_error_In in En. rewrite Forall_forall in F2. destruct (F2 _ En) as [(x & y & Ht1) Hsub]. destruct (Hsub Hb1) as [Hty ->].
      exists (flat_map esc (pt_text pt)), (flat_map esc (pt_text pt)). split; [intros f'; apply apply_verbatim|]. unfold pt_format. rewrite Hty. split; [reflexivity|].
      intros a ds b Ev Hd. destruct (good_ref U (length p1) (flat_map esc t1) (flat_map esc x ++ a) ds (b ++ flat_map esc y) He (good_esc _ _ G1) Hd) as (j & Hj & ->).
      * rewrite Ht1, !flat_map_app, Ev. rewrite <- !app_assoc. cbn [app]. rewrite <- !app_assoc. reflexivity.
      * pose proof (parse_index_le j). lia.
  - intros a ds b _ _. lia.
Qed.

(** Restoring when every passthrough has a value without placeholders. *)
Lemma digits_show U n : digits U (show_nat n).
Proof.
  split.
  - intros E. pose proof (show_nat_val n) as H. rewrite E in H. cbn in H. subst n. discriminate E.
  - eapply Forall_impl; [|apply show_nat_digits]. intros c Hc. unfold c_digit. destruct (c <? 128)%N eqn:L; [exact Hc|]. apply digit_range in Hc. apply N.ltb_ge in L. lia.
Qed.
Lemma index_lang U ds rest pv : digits U ds -> lang U (PASS_WITH_INDEX U) pv (PASS_START :: ds ++ [PASS_END]) rest [(1, ds)].
Proof.
  intros [Hn F]. unfold PASS_WITH_INDEX. cbn [Seqs]. apply lang_seq. exists [PASS_START], (ds ++ [PASS_END]), [], [(1, ds)]. split; [reflexivity|]. split; [reflexivity|]. split; [apply lang_lit1; auto|].
  apply lang_seq. exists ds, [PASS_END], [(1, ds)], []. split; [reflexivity|]. split; [reflexivity|]. split; [|apply lang_lit1; auto]. apply lang_grp. exists []. split; [reflexivity|]. apply lang_plus_chr. auto.
Qed.
Definition pieces (f : nat -> text) (a : text) (l : list (nat * text)) : text := a ++ concat (map (fun ia => f (fst ia) ++ snd ia) l).
Lemma restore_pieces U fs P f pts (v : nat -> text) : c_digit U PASS_END = false -> (N.of_nat (length pts) <= usize_max)%N ->
  (forall i pt, nth_error pts i = Some pt -> exists s, apply_group U fs P f (pt_subs pt) false (pt_text pt) = Ok s /\ pt_format U P pt s = Ok (v i) /\ ~ In PASS_START (v i)) ->
  forall a l, ~ In PASS_START a -> Forall (fun ia => fst ia < length pts /\ ~ In PASS_START (snd ia)) l ->
  restore U fs P (S f) pts (pieces placeholder a l) = Ok (pieces v a l).
Proof.
  intros He Hmax Hv a l Ha Hl. rewrite restore_S. apply replace_all_pure_scans.
  { intros pv x m Hm. apply index_match in Hm. destruct Hm as (ds & _ & -> & _). discriminate. }
  assert (Pre : forall p x o, ~ In PASS_START p -> (forall pv, scans U (PASS_WITH_INDEX U) (restore_one U fs P f pts) pv x o) -> forall pv, scans U (PASS_WITH_INDEX U) (restore_one U fs P f pts) pv (p ++ x) (p ++ o)).
  { induction p as [|c p IH]; intros x o Hp Hx pv; [apply Hx|]. cbn [app]. apply sc_skip; [|apply IH; [intros K; apply Hp; right; exact K|exact Hx]].
    destruct (match_here U (PASS_WITH_INDEX U) pv (c :: p ++ x)) as [m|] eqn:E; [|reflexivity]. exfalso. destruct (index_match _ _ _ _ E) as (ds & _ & Ew & _). apply match_here_text in E. destruct E as [E _].
    rewrite Ew in E. injection E as -> _. apply Hp. left. reflexivity. }
  unfold pieces. generalize (@None char). apply Pre; [exact Ha|]. clear a Ha. induction Hl as [|[i a] l [Hi Hai] Hl IH]; intros pv.
  { constructor. destruct (match_here U (PASS_WITH_INDEX U) pv []) as [m|] eqn:E; [|reflexivity]. exfalso. destruct (index_match _ _ _ _ E) as (ds & _ & Ew & _). apply match_here_text in E. destruct E as [E _]. rewrite Ew in E. discriminate E. }
  cbn [map concat fst snd] in *. rewrite <- !app_assoc. destruct (lang_match _ _ pv _ (a ++ concat (map (fun ia => placeholder (fst ia) ++ snd ia) l)) _ (index_lang U (show_nat i) _ _ (digits_show U i))) as [m Hm].
  destruct (index_match _ _ _ _ Hm) as (ds & [Hn Fd] & Ew & Hc). pose proof (match_here_text _ _ _ _ _ Hm) as [Ex Ep]. rewrite Ew in Ex. cbn [app] in Ex. injection Ex as Ex. rewrite <- !app_assoc in Ex. cbn [app] in Ex.
  apply cut_unique in Ex; [|apply show_nat_not; reflexivity|intros K; rewrite Forall_forall in Fd; rewrite (Fd _ K) in He; discriminate]. destruct Ex as [<- Ea].
  eapply sc_match; [exact Hm| |rewrite <- Ea; apply Pre; [exact Hai|exact IH]].
  unfold restore_one, cap_idx. rewrite Hc. cbn [of_option bind]. rewrite parse_index_show. replace (N.of_nat i <=? usize_max)%N with true by (symmetry; apply N.leb_le; lia).
  unfold pt_get. replace (N.of_nat i <? N.of_nat (length pts))%N with true by (symmetry; apply N.ltb_lt; lia). rewrite Nat2N.id. destruct (nth_error pts i) as [pt|] eqn:En; [|apply nth_error_None in En; lia].
  destruct (Hv i pt En) as (s & -> & Hf & Hn'). cbn [bind]. rewrite Hf. cbn [bind]. rewrite (proj2 (has_char_false _ _) Hn'). reflexivity.
Qed.
(** ** One passthrough in a text *)
Lemma plus3_first U pv y x : rmatch U (Delimited 4 (lit "+++")) (fun s' => Some (mkm (firstn (s_pos s') (lit "+++" ++ y)) (s_caps s') (s_prev s') (s_rest s'))) (mkst 0 pv (lit "+++" ++ y) [(3, [])]) = Some x ->
  match_here U INLINE_PASS_MACRO pv (lit "+++" ++ y) = Some x.
Proof.
  intros H. unfold match_here, INLINE_PASS_MACRO. remember (Delimited 4 (lit "+++")) as D4 eqn:E4. remember (Delimited 7 (lit "++")) as D7 eqn:E7. remember (Delimited 10 (lit "$$")) as D10 eqn:E10.
  cbn [rmatch Seqs Alts Opt Upto Lit1 s_rest app lit]. cbn. unfold set_cap. cbn [s_pos s_rest s_prev s_caps Nat.sub firstn]. cbn in H. rewrite H. reflexivity.
Qed.
Lemma cut_mark (c : char) mark w b body after : (forall x, In x mark -> x = c) -> mark <> [] -> ~ In c w -> ~ In c b ->
  body ++ mark ++ after = w ++ mark ++ b -> body = w /\ after = b.
Proof.
  intros Hm Hne Hw Hb. revert w Hw. induction body as [|x body IH]; intros w Hw E.
  - destruct w as [|y w]; [cbn [app] in E; apply app_inv_head in E; auto|]. destruct mark as [|z mark]; [contradiction|]. pose proof (f_equal (hd 0%N) E) as E1. cbn in E1. subst y. exfalso. apply Hw. left. apply Hm. left. reflexivity.
  - destruct w as [|y w].
    + exfalso. assert (Ec : count_occ N.eq_dec ((x :: body) ++ mark ++ after) c = count_occ N.eq_dec (mark ++ b) c) by (f_equal; exact E).
      rewrite !count_occ_app, (proj1 (count_occ_not_In N.eq_dec b c) Hb) in Ec. destruct mark as [|z mark]; [contradiction|]. pose proof (f_equal (hd 0%N) E) as E1. cbn in E1. subst x.
      rewrite (Hm z (or_introl eq_refl)) in Ec. rewrite (count_occ_cons_eq N.eq_dec body) in Ec by reflexivity. lia.
    + cbn [app] in E. injection E as -> E. destruct (IH w) as [-> ->]; auto. intros K. apply Hw. right. exact K.
Qed.
Definition mark_char (mark : text) : char := hd 0%N mark.
Lemma delimiters_marks n mark : In (n, mark) delimiters -> (forall x, In x mark -> x = mark_char mark) /\ mark <> [] /\ (mark_char mark = 43%N \/ mark_char mark = 36%N).
Proof.
  unfold delimiters. cbn [In]. intros [E|[E|[E|[]]]]; injection E as <- <-; (split; [intros x Hx; cbn in Hx; decompose [or] Hx; subst; try contradiction; reflexivity|]); (split; [discriminate|]); auto.
Qed.
Lemma delim_lang U n mark pv w rest : lang U (Delimited n mark) pv (mark ++ w ++ mark) rest [(n + 2, mark); (n + 1, w); (n, mark)].
Proof.
  unfold Delimited. cbn [Seqs]. apply lang_seq. exists mark, (w ++ mark), [(n, mark)], [(n + 2, mark); (n + 1, w)]. split; [reflexivity|]. split; [reflexivity|].
  split; [apply lang_grp; exists []; split; [reflexivity|apply lang_lit; auto]|]. apply lang_seq. exists w, mark, [(n + 1, w)], [(n + 2, mark)]. split; [reflexivity|]. split; [reflexivity|].
  split; [apply lang_grp; exists []; split; [reflexivity|apply lang_many_chr; split; [apply Forall_forall; reflexivity|reflexivity]]|]. apply lang_grp. exists []. split; [reflexivity|apply lang_lit; auto].
Qed.
Lemma delim_here U pv n mark w b : In (n, mark) delimiters -> w <> [] -> ~ In (mark_char mark) w -> ~ In (mark_char mark) b ->
  exists m, match_here U INLINE_PASS_MACRO pv (mark ++ w ++ mark ++ b) = Some m /\ m_text m = mark ++ w ++ mark /\ m_after m = b /\
    m_caps m = [(n + 2, mark); (n + 1, w); (n, mark); (3, [])].
Proof.
  intros Hin Hne Hw Hb. destruct (delimiters_marks _ _ Hin) as (Hm & Hmn & Hc).
  destruct (text_eqb mark (lit "+++")) eqn:E3.
  - apply text_eqb_eq in E3. subst mark. assert (n = 4) as -> by (unfold delimiters in Hin; cbn [In] in Hin; destruct Hin as [E|[E|[E|[]]]]; injection E; congruence).
    set (k := fun s' => mkm (firstn (s_pos s') (lit "+++" ++ w ++ lit "+++" ++ b)) (s_caps s') (s_prev s') (s_rest s')).
    destruct (rmatch U (Delimited 4 (lit "+++")) (fun s' => Some (k s')) (mkst 0 pv (lit "+++" ++ w ++ lit "+++" ++ b) [(3, [])])) as [x|] eqn:E.
    + exists x. split; [apply (plus3_first U pv (w ++ lit "+++" ++ b) x E)|]. apply rmatch_lang in E. destruct E as (w1 & rest & c & Es & L & K). cbn [s_rest s_prev] in *. apply Some_inj in K. subst x.
      apply delimited_shape in L. destruct L as (body & -> & ->). rewrite <- !app_assoc in Es. apply app_inv_head in Es. symmetry in Es. apply (cut_mark 43%N) in Es; [|exact Hm|exact Hmn|exact Hw|exact Hb].
      destruct Es as [-> ->]. unfold k, ext. cbn [m_text m_after m_caps s_pos s_caps s_rest]. split; [|split; [reflexivity|reflexivity]].
      transitivity (firstn (length (lit "+++" ++ w ++ lit "+++")) ((lit "+++" ++ w ++ lit "+++") ++ b)); [f_equal; rewrite <- !app_assoc; reflexivity|apply firstn_len].
    + exfalso. revert E. apply (lang_rmatch U (Delimited 4 (lit "+++")) k _ (lit "+++" ++ w ++ lit "+++") b [(6, lit "+++"); (5, w); (4, lit "+++")]); [cbn [s_rest]; rewrite <- !app_assoc; reflexivity|apply (delim_lang U 4)].
  - assert (L : exists caps, lang U INLINE_PASS_MACRO pv (mark ++ w ++ mark) b caps).
    { eexists. unfold INLINE_PASS_MACRO. apply lang_alt. left. cbn [Seqs]. apply lang_seq. exists [], (mark ++ w ++ mark), [], ([(n + 2, mark); (n + 1, w); (n, mark)] ++ [(3, [])]). split; [reflexivity|]. split; [reflexivity|].
      split; [unfold Opt; apply lang_alt; right; apply lang_eps; auto|]. apply lang_seq. exists [], (mark ++ w ++ mark), [(3, [])], [(n + 2, mark); (n + 1, w); (n, mark)]. split; [reflexivity|]. split; [reflexivity|].
      split; [apply lang_grp; exists []; split; [reflexivity|unfold Lit1; apply lang_upto_chr; repeat split; [constructor|cbn; lia]]|].
      cbn [Alts]. unfold delimiters in Hin. cbn [In] in Hin. destruct Hin as [E|[E|[E|[]]]]; injection E as <- <-; [left|right; left|right; right]; apply delim_lang. }
    destruct L as [caps L]. destruct (lang_match _ _ _ _ _ _ L) as [m Hmm]. rewrite <- !app_assoc in Hmm. exists m. split; [exact Hmm|].
    pose proof (match_here_text _ _ _ _ _ Hmm) as [Ex _]. destruct (pass_shape _ _ _ _ Hmm) as [(pre & esc & n' & mark' & body & ac & Hin' & Ew & Fe & Hpre & Ec)|(e & subs & body & Ew & He & Ec)].
    + assert (Hd : exists r, mark ++ w ++ mark ++ b = mark_char mark :: r) by (destruct mark as [|z mark]; [contradiction|cbn; eauto]). destruct Hd as [r Hd]. rewrite Hd, Ew in Ex.
      destruct Hpre as [[-> ->]|(e & attrs & -> & He & ->)]; [|exfalso; destruct He as [->| ->]; cbn in Ex; injection Ex as Ex _; destruct Hc as [Hc|Hc]; rewrite Hc in Ex; discriminate].
      destruct esc as [|c esc]; [|exfalso; inversion Fe; subst; cbn in Ex; injection Ex as Ex _; destruct Hc as [Hc|Hc]; rewrite Hc in Ex; discriminate].
      rewrite <- Hd in Ex. cbn [app] in Ex, Ew. rewrite <- !app_assoc in Ex.
      assert (mark' = mark /\ n' = n) as [-> ->].
      { revert Hin Hin' E3 Ex. clear -Hne Hw. unfold delimiters. cbn [In]. intros [E|[E|[E|[]]]] [E'|[E'|[E'|[]]]]; injection E as <- <-; injection E' as <- <-; intros E3 Ex; try discriminate E3; auto; exfalso; try discriminate Ex.
        cbn in Ex. injection Ex as Ex. destruct w as [|y w]; [contradiction|]. injection Ex as -> _. apply Hw. left. reflexivity. }
      apply app_inv_head in Ex. symmetry in Ex. apply (cut_mark (mark_char mark)) in Ex; auto. destruct Ex as [-> Ea]. split; [exact Ew|]. split; [exact Ea|]. rewrite Ec. reflexivity.
    + exfalso. rewrite Ew in Ex. assert (Hd : exists r, mark ++ w ++ mark ++ b = mark_char mark :: r) by (destruct mark as [|z mark]; [contradiction|cbn; eauto]). destruct Hd as [r Hd]. rewrite Hd in Ex.
      destruct He as [->| ->]; cbn in Ex; injection Ex as Ex _; destruct Hc as [Hc|Hc]; rewrite Hc in Ex; discriminate.
Qed.
Lemma inert_no c t : inert t -> In c meaningful -> ~ In c t.
Proof. intros [H _] Hc K. exact (H c K Hc). Qed.
Ltac meant := solve [unfold meaningful; cbn; repeat (first [left; reflexivity|right])].
(** No match starts inside inert text that a mark follows. *)
Lemma inert_no_match U pv a y c rest m : inert a -> a <> [] -> (c = 43%N \/ c = 36%N) -> y = [] \/ y = c :: rest -> match_here U INLINE_PASS_MACRO pv (a ++ y) = Some m -> False.
Proof.
  intros Ia Hne Hc Hy H. pose proof (match_here_text _ _ _ _ _ H) as [Ex _]. destruct a as [|a0 a]; [contradiction|]. clear Hne.
  destruct (pass_shape _ _ _ _ H) as [(pre & esc & n' & mark' & body & ac & Hin' & Ew & Fe & Hpre & Ec)|(e & subs & body & Ew & He & Ec)]; rewrite Ew in Ex; clear Ec Ew H.
  - destruct (delimiters_marks _ _ Hin') as (Hm & Hmn & Hmc). assert (Ha0 : a0 = BSL \/ a0 = 91%N \/ a0 = 43%N \/ a0 = 36%N).
    { destruct Hpre as [[-> _]|(e & attrs & -> & He & _)].
      - destruct esc as [|x esc]; [|inversion Fe; subst; cbn in Ex; injection Ex as -> _; auto]. destruct mark' as [|z mark']; [contradiction|]. cbn in Ex, Hmc. injection Ex as -> _. destruct Hmc as [->| ->]; auto.
      - destruct He as [->| ->]; cbn in Ex; injection Ex as -> _; auto. }
    revert Ha0. assert (K : forall z, In z meaningful -> a0 <> z) by (intros z Hz ->; apply (inert_no z _ Ia Hz); left; reflexivity).
    intros [E|[E|[E|E]]]; revert E; apply K; meant.
  - assert (Hcol : ~ In 58%N (a0 :: a)) by (apply (inert_no _ _ Ia); meant). destruct He as [->| ->]; [|cbn in Ex; injection Ex as -> _; apply (inert_no BSL _ Ia); [meant|left; reflexivity]].
    cbn in Ex.
    assert (Hyc : match y with [] => True | z :: _ => z <> 112%N /\ z <> 97%N /\ z <> 115%N /\ z <> 58%N end) by (destruct Hy as [->| ->]; [exact I|destruct Hc as [->| ->]; repeat split; discriminate]).
    set (tl_ := unwrap_or_default subs ++ lit "[" ++ body ++ lit "]") in *. change (a0 :: a ++ y = lit "pass:" ++ (unwrap_or_default subs ++ 91%N :: body ++ [93%N]) ++ m_after m) in Ex.
    remember ((unwrap_or_default subs ++ 91%N :: body ++ [93%N]) ++ m_after m) as z eqn:Ez. clear Ez. change (a0 :: a ++ y) with ((a0 :: a) ++ y) in Ex.
    destruct (Nat.le_gt_cases (length (a0 :: a)) 4) as [Hl|Hl].
    + pose proof (f_equal (fun t => nth_error t (length (a0 :: a))) Ex) as E1. cbv beta in E1. rewrite nth_error_app2 in E1 by lia. rewrite Nat.sub_diag in E1.
      rewrite nth_error_app1 in E1 by (cbn; cbn in Hl; lia). destruct y as [|y0 y]; cbn [nth_error] in E1; [symmetry in E1; apply nth_error_None in E1; cbn in E1, Hl; lia|].
      symmetry in E1. apply nth_error_In in E1. cbn in E1. destruct Hyc as (N1 & N2 & N3 & N4). destruct E1 as [E1|[E1|[E1|[E1|[E1|[]]]]]]; congruence.
    + pose proof (f_equal (fun t => nth_error t 4) Ex) as E1. cbv beta in E1. rewrite nth_error_app1 in E1 by lia. cbn in E1. apply Hcol. right. eapply (nth_error_In a 3), E1.
Qed.
Lemma inert_suffix a b t : t = a ++ b -> inert t -> inert b.
Proof.
  intros -> (H1 & H2 & H3). split; [|split].
  - intros c Hc. apply H1. rewrite in_app_iff. auto.
  - intros x y ->. apply (H2 (a ++ x) y). rewrite <- !app_assoc. reflexivity.
  - intros x y ->. apply (H3 (a ++ x) y). rewrite <- !app_assoc. reflexivity.
Qed.
Lemma pass_never_empty U : never_empty U INLINE_PASS_MACRO.
Proof.
  intros pv t m H. destruct (pass_shape _ _ _ _ H) as [(pre & esc & n' & mark' & body & ac & Hin' & Ew & _)|(e & subs & body & Ew & _)]; rewrite Ew.
  - destruct (delimiters_marks _ _ Hin') as (_ & Hn & _). intros E. apply app_eq_nil in E. destruct E as [_ E]. apply app_eq_nil in E. destruct E as [_ E]. apply app_eq_nil in E. destruct E as [E _]. contradiction.
  - intros E. apply app_eq_nil in E. destruct E as [_ E]. discriminate E.
Qed.
Lemma contains_app_l p a b : contains p (p ++ b) = true -> contains p (a ++ p ++ b) = true.
Proof. intros _. apply contains_spec. exists a, b. reflexivity. Qed.
Lemma not_has c t : ~ In c t -> has_char c t = false.
Proof. apply has_char_false. Qed.
Lemma placeholder_not c n : c <> PASS_START -> c <> PASS_END -> is_ascii_digit c = false -> ~ In c (placeholder n).
Proof. intros H1 H2 H3 K. apply placeholder_chars in K. destruct K as [K|[K|K]]; congruence. Qed.
Lemma in3 (c : char) a x b : ~ In c a -> ~ In c x -> ~ In c b -> ~ In c (a ++ x ++ b).
Proof. rewrite !in_app_iff. tauto. Qed.
Lemma extract_one U n mark a w b : In (n, mark) delimiters -> inert a -> inert b -> w <> [] -> ~ In (mark_char mark) w ->
  extract_from U (a ++ mark ++ w ++ mark ++ b) = Ok ([mkpt w (if is_plus3 mark then GNone else GVerbatim) None None], a ++ P0 ++ b).
Proof.
  intros Hin Ia Ib Hne Hw. destruct (delimiters_marks _ _ Hin) as (_ & Hmn & Hc).
  assert (Hb : ~ In (mark_char mark) b) by (destruct Hc as [->| ->]; apply inert_no; [exact Ib|meant|exact Ib|meant]).
  assert (Hf : exists m, find_all U INLINE_PASS_MACRO (a ++ mark ++ w ++ mark ++ b) = ([(a, m)], b) /\ m_caps m = [(n + 2, mark); (n + 1, w); (n, mark); (3, [])]).
  { destruct (delim_here U (prev_of None a) n mark w b Hin Hne Hw Hb) as (m & Hm & Et & Ea & Ec). exists m. split; [|exact Ec]. apply find_all_unique; [apply pass_never_empty|].
    assert (Es : a ++ mark ++ w ++ mark ++ b = a ++ m_text m ++ m_after m) by (rewrite Et, Ea, <- !app_assoc; reflexivity). rewrite Es. apply seg_cons.
    - rewrite Et, Ea, <- !app_assoc. exact Hm.
    - intros x y Ey Hy. rewrite Et, Ea, <- !app_assoc. destruct (match_here U INLINE_PASS_MACRO (prev_of None x) (y ++ mark ++ w ++ mark ++ b)) as [m'|] eqn:E; [|reflexivity]. exfalso.
      eapply (inert_no_match U _ y (mark ++ w ++ mark ++ b) _ (tl mark ++ w ++ mark ++ b)); [eapply inert_suffix; [exact Ey|exact Ia]|exact Hy|exact Hc| |exact E]. right. destruct mark as [|z mark']; [contradiction|]. reflexivity.
    - rewrite Ea. apply seg_end. intros x y Ey. destruct (match_here U INLINE_PASS_MACRO _ y) as [m'|] eqn:E; [|reflexivity]. exfalso. destruct y as [|y0 y].
      + apply match_here_text in E as Et'. pose proof (pass_never_empty U _ _ _ E) as N. destruct Et' as [Et' _]. symmetry in Et'. apply app_eq_nil in Et'. destruct Et'. contradiction.
      + eapply (inert_no_match U _ (y0 :: y) [] _ []); [eapply inert_suffix; [exact Ey|exact Ib]|discriminate|exact Hc|left; reflexivity|]. rewrite app_nil_r. exact E. }
  destruct Hf as (m & Hf & Ec). unfold extract_from.
  assert (Hcont : contains (lit "++") (a ++ mark ++ w ++ mark ++ b) || contains (lit "$$") (a ++ mark ++ w ++ mark ++ b) || contains (lit "ss:") (a ++ mark ++ w ++ mark ++ b) = true).
  { unfold delimiters in Hin. cbn [In] in Hin. destruct Hin as [E|[E|[E|[]]]]; injection E as <- <-.
    - assert (K : contains (lit "++") (a ++ lit "+++" ++ w ++ lit "+++" ++ b) = true) by (apply contains_spec; exists a, (lit "+" ++ w ++ lit "+++" ++ b); reflexivity). rewrite K. reflexivity.
    - assert (K : contains (lit "++") (a ++ lit "++" ++ w ++ lit "++" ++ b) = true) by (apply contains_spec; exists a, (w ++ lit "++" ++ b); reflexivity). rewrite K. reflexivity.
    - assert (K : contains (lit "$$") (a ++ lit "$$" ++ w ++ lit "$$" ++ b) = true) by (apply contains_spec; exists a, (w ++ lit "$$" ++ b); reflexivity). rewrite K, orb_true_r. reflexivity. }
  rewrite Hcont. unfold replace_all at 1. rewrite Hf. cbn [replace_fold].
  assert (Hrep : pass_macro_replacer [] m ([] ++ a) = Ok (pt_push [] (mkpt w (if is_plus3 mark then GNone else GVerbatim) None None) a)).
  { unfold pass_macro_replacer, handle_quoted_text, cap. rewrite Ec. unfold delimiters in Hin. cbn [In] in Hin. destruct Hin as [E|[E|[E|[]]]]; injection E as <- <-; reflexivity. }
  rewrite Hrep. cbn [bind pt_push fst snd length app]. change (placeholder 0) with P0. rewrite <- app_assoc.
  assert (N : forall c, In c (lit "+]") -> ~ In c (a ++ P0 ++ b)).
  { intros c Hcc. apply in3; [apply inert_no; [exact Ia|]| |apply inert_no; [exact Ib|]]; cbn in Hcc; destruct Hcc as [<-|[<-|[]]]; try meant; apply has_char_false; reflexivity. }
  rewrite (not_has 43%N) by (apply N; left; reflexivity). destruct (contains (lit "-]") (a ++ P0 ++ b)) eqn:E; [|reflexivity]. exfalso. apply contains_spec in E. destruct E as (x & y & E).
  apply (N 93%N); [right; left; reflexivity|]. rewrite E, !in_app_iff. right. left. right. left. reflexivity.
Qed.
(** The steps leave inert text with a placeholder as it is. *)
Lemma macros_plain U fs P t : ~ In 91%N t -> ~ In 58%N t -> ~ In 64%N t -> apply_macros U fs P t = Ok t.
Proof.
  intros H1 H2 H3. unfold apply_macros. rewrite !(not_has _ _ H1), !(not_has _ _ H2), !(not_has _ _ H3). cbn [andb orb bind]. rewrite ?(not_has _ _ H1), ?(not_has _ _ H2), ?(not_has _ _ H3). reflexivity.
Qed.
