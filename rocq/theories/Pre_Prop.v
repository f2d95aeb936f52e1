(** C24-C26 and C67: the preprocessor. *)
From Verif Require Import Text TextFacts Span_Model Span_Laws Parser_Model Regex Attrlist_Model SourceMap_Model SourceMap_Proof Entry_Model Pre_Model Pre_Spec Pre_Proof Pre_Includes.

Definition no_files : include_handler := fun _ _ _ _ => None.
Definition same : parser -> text -> res text := fun _ t => Ok t.

(** * C24: a line that merely starts with "if" makes the preprocessor rewrite the document: the line
    ends are normalised and a final newline is added. *)
Theorem C24_identity_without_directives_refuted : exists source out m,
  (forall n l d, line_at source n l -> l <> lit "include::" ++ d /\ l <> lit "ifdef::" ++ d /\ l <> lit "ifndef::" ++ d /\ l <> lit "ifeval::" ++ d) /\
  preprocess ascii_only same same no_files 5 source parser_default = Ok (out, m) /\ out <> source.
Proof.
  exists (lit "if so"), (lit "if so" ++ [LF]), []. split; [|split; [vm_compute; reflexivity|discriminate]].
  intros n l d (x & y & E & Hx & _ & Hl & _). assert (Hx' : x = []) by (destruct Hx as [->|[z ->]]; [reflexivity|]; exfalso; assert (Hin : In LF (lit "if so")) by (rewrite E, in_app_iff, in_app_iff; left; right; left; reflexivity); cbn in Hin; repeat (destruct Hin as [Hin|Hin]; [discriminate|]); exact Hin).
  subst x. cbn [app] in E. repeat split; intros ->; cbn in E; discriminate.
Qed.
(** With no line that starts with "include::" or "if" it is the identity. *)
Theorem C24_identity_without_directive_lines : forall U hdr norm ifh fuel source P,
  (forall n l, line_at source n l -> ~ directive_line l) -> p_primary P = None -> preprocess U hdr norm ifh fuel source P = Ok (source, []).
Proof.
  intros U hdr norm ifh fuel source P H Hp. unfold preprocess. rewrite Hp.
  assert (Hl : forall x r, source = x ++ r -> starts_line x -> r <> [] -> ~ directive_line r).
  { intros x r E Hx Hr (d & Hd). destruct (first_line r) as (l & e & rest & Er & Hnl & He).
    assert (Hln : line_at source (S (newlines x)) l \/ l = []).
    { destruct He as [->|[-> ->]]; [left; exists x, (LF :: rest); rewrite E, Er; auto 7 using (ex_intro (fun y' => LF :: rest = LF :: y') rest eq_refl)|].
      destruct l as [|c l]; [right; reflexivity|left]. exists x, []. rewrite E, Er. repeat split; auto. right. split; [reflexivity|discriminate]. }
    destruct Hln as [Hln|Hln].
    - apply (H _ _ Hln). assert (Hpre : forall k, ~ In LF k -> (exists d, r = k ++ d) -> exists d, l = k ++ d).
      { intros k Hk (d' & E'). assert (Hk' : k ++ d' = l ++ e ++ rest) by congruence. destruct He as [->|[-> ->]]; [|exists d'; rewrite !app_nil_r in Hk'; auto].
        destruct (lf_split k d' l rest Hk Hk') as (q & -> & _). exists q. reflexivity. }
      destruct Hd as [Hd|Hd].
      + destruct (Hpre (lit "include::")) as [d' Hd']; [cbn; intros Hi; repeat (destruct Hi as [Hi|Hi]; [discriminate|]); exact Hi|eauto|]. exists d'. left. exact Hd'.
      + destruct (Hpre (lit "if")) as [d' Hd']; [cbn; intros Hi; repeat (destruct Hi as [Hi|Hi]; [discriminate|]); exact Hi|eauto|]. exists d'. right. exact Hd'.
    - subst l. cbn in Er. destruct He as [->|[-> ->]]; [|contradiction]. rewrite Er in Hd. destruct Hd as [Hd|Hd]; discriminate. }
  assert (Hs : forall k, (k = lit "include::" \/ k = lit "if") -> starts_with k source = false).
  { intros k Hk. destruct (starts_with k source) eqn:E; [|reflexivity]. apply starts_with_spec in E. destruct E as [d E]. exfalso.
    apply (Hl [] source eq_refl (or_introl eq_refl)); [rewrite E; destruct Hk; subst k; discriminate|]. exists d. destruct Hk; subst k; auto. }
  assert (Hc : forall k, (k = lit "include::" \/ k = lit "if") -> contains (LF :: k) source = false).
  { intros k Hk. destruct (contains (LF :: k) source) eqn:E; [|reflexivity]. apply contains_spec in E. destruct E as (a & d & E). exfalso.
    apply (Hl (a ++ [LF]) (k ++ d)); [rewrite E, <- app_assoc; reflexivity|apply starts_line_lf|destruct Hk; subst k; discriminate|]. exists d. destruct Hk; subst k; auto. }
  unfold no_directive. rewrite !Hs, !Hc by auto. reflexivity.
Qed.
Example C24_example : let source := lit "a" ++ LF :: lit "b include::c[]" in
  (forall n l, line_at source n l -> ~ directive_line l) /\ preprocess ascii_only same same no_files 0 source parser_default = Ok (source, []).
Proof.
  cbv zeta. set (source := lit "a" ++ LF :: lit "b include::c[]"). assert (H : forall n l, line_at source n l -> ~ directive_line l); [|split; [exact H|apply C24_identity_without_directive_lines; [exact H|reflexivity]]].
  intros n l Hl. change source with ((lit "a" ++ [LF]) ++ lit "b include::c[]") in Hl. apply line_at_app in Hl; [|apply starts_line_lf]. destruct Hl as [Hl|(i & _ & Hl)].
  - apply line_at_one in Hl; [|cbn; intros [E|[]]; discriminate]. destruct Hl as [_ ->]. intros (d & [E|E]); discriminate.
  - destruct Hl as (x & y & E & Hx & _ & _ & _). assert (Hx' : x = []) by (destruct Hx as [->|[z ->]]; [reflexivity|]; exfalso; assert (Hin : In LF (lit "b include::c[]")) by (rewrite E, in_app_iff, in_app_iff; left; right; left; reflexivity); cbn in Hin; repeat (destruct Hin as [Hin|Hin]; [discriminate|]); exact Hin).
    subst x. intros (d & [->| ->]); discriminate.
Qed.

(** * C25: the include depth is counted but never checked. *)
Definition loop_files : include_handler := fun _ _ _ _ => Some (lit "include::a[]").
Theorem C25_expansion_terminates_refuted : exists ifh source, forall fuel, preprocess ascii_only same same ifh fuel source parser_default = OutOfFuel.
Proof.
  exists loop_files, (lit "include::a[]"). intros fuel.
  assert (H : forall fuel file reported, pre_loop ascii_only same same loop_files fuel file reported (span_new (lit "include::a[]")) (pre_new parser_default) = OutOfFuel).
  { clear fuel. induction fuel as [|fuel IH]; intros file reported; [reflexivity|]. cbn [pre_loop].
    change (sp_data (span_new (lit "include::a[]"))) with (lit "include::a[]"). cbv iota.
    assert (E1 : take_line (span_new (lit "include::a[]")) = Ok (mkmi (span_new (lit "include::a[]")) (mkspan [] 1 13 12))) by (vm_compute; reflexivity).
    assert (E2 : try_attribute same (pre_new parser_default) (lit "include::a[]") (span_new (lit "include::a[]")) = Ok None) by (vm_compute; reflexivity).
    assert (E3 : try_include ascii_only same (pre_new parser_default) (lit "include::a[]") = Ok (Some (lit "a", attrlist_default))) by (vm_compute; reflexivity).
    cbn [lit] in *. rewrite E1. cbn [bind mi_item sp_data span_new]. rewrite E2. cbn [bind]. rewrite E3. cbn [bind loop_files]. rewrite IH. reflexivity. }
  unfold preprocess. change (no_directive (lit "include::a[]")) with false. cbn [andb]. unfold process_adoc_include. rewrite H. reflexivity.
Qed.
(** It terminates when the includes do not go round in a circle. *)
Theorem C25_expansion_terminates_for_ranked_handlers : forall U hdr norm ifh (rank : option text -> nat),
  (forall P t, exists o, hdr P t = Ok o) -> (forall P t, exists o, norm P t = Ok o) ->
  (forall from target al P t, ifh from target al P = Some t -> rank (Some target) < rank from) ->
  forall source P, exists fuel out m, preprocess U hdr norm ifh fuel source P = Ok (out, m) /\
    forall fuel', fuel <= fuel' -> preprocess U hdr norm ifh fuel' source P = Ok (out, m).
Proof.
  intros U hdr norm ifh rank Hh Hn Hr source P.
  destruct (pre_loop_total U hdr norm ifh Hh Hn rank Hr (S (rank (p_primary P))) (p_primary P) ltac:(lia) (S (length source)) (span_new source) ltac:(cbn; lia)
              (match p_primary P with None => true | Some _ => false end) (pre_new P)) as (fuel & s' & H).
  unfold preprocess. destruct (_ && _); [exists 0, source, []; split; [reflexivity|intros; reflexivity]|]. unfold process_adoc_include. exists fuel, (ps_out s'), (ps_map s').
  rewrite H. split; [reflexivity|]. intros fuel' Hf. rewrite (pre_loop_mono _ _ _ _ _ _ _ _ _ _ _ H Hf). reflexivity.
Qed.
Definition two_files : include_handler := fun from target _ _ =>
  match from with
  | None => if text_eqb target (lit "a") then Some (lit "A1" ++ LF :: lit "include::b[]" ++ LF :: lit "A3") else None
  | Some f => if text_eqb f (lit "a") && text_eqb target (lit "b") then Some (lit "B1") else None
  end.
Definition two_rank (f : option text) : nat := match f with None => 2 | Some f => if text_eqb f (lit "a") then 1 else 0 end.
Definition two_root : text := lit "R1" ++ LF :: lit "include::a[]" ++ LF :: lit "include::x[]" ++ LF :: lit "R4".
Example C25_example : (forall from target al P t, two_files from target al P = Some t -> two_rank (Some target) < two_rank from) /\
  exists out m, preprocess ascii_only same same two_files 12 two_root parser_default = Ok (out, m) /\
    out = join [LF] [lit "R1"; lit "A1"; lit "B1"; lit "A3"; lit "Unresolved directive in (root file) - include::x[]"; lit "R4"; []].
Proof.
  split; [|eexists _, _; split; vm_compute; reflexivity].
  intros from target al P t H. unfold two_files in H. unfold two_rank. destruct from as [f|].
  - destruct (text_eqb f (lit "a")); [|discriminate H]. destruct (text_eqb target (lit "b")) eqn:E; [|discriminate H]. apply text_eqb_eq in E. subst target. vm_compute. constructor.
  - destruct (text_eqb target (lit "a")); lia.
Qed.

(** * C26 *)
Definition named_root : parser := mkparser (p_attrs parser_default) (p_defaults parser_default) (Some (lit "f")) (p_sep parser_default)
  (p_catalog parser_default) (p_last parser_default) (p_last_app parser_default) (p_levels parser_default) (p_topmost parser_default).
Definition mapped (ifh : include_handler) (primary : option text) (source : text) (m : source_map) (n : nat) (l : text) : Prop :=
  exists f k content l', original_file_and_line m n = Ok (Some (mksl f k)) /\ supplied ifh primary source f content /\ line_at content k l' /\ trim_end l = trim_end l'.
Theorem C26_source_map_is_right : forall U hdr norm ifh fuel source P out m,
  (forall f content, supplied ifh (p_primary P) source f content -> ~ blank_continuation content /\ (forall n, f = Some n -> ~ In LF n)) ->
  preprocess U hdr norm ifh fuel source P = Ok (out, m) ->
  forall n l, line_at out n l -> unresolved_line l \/ mapped ifh (p_primary P) source m n l.
Proof.
  intros U hdr norm ifh fuel source P out m Hsup E n l Hl. unfold preprocess in E.
  destruct (no_directive source && match p_primary P with None => true | Some _ => false end) eqn:En.
  - apply Ok_inj in E. injection E as <- <-. right. apply andb_prop in En. destruct En as [_ En]. destruct (p_primary P) eqn:Ep; [discriminate|].
    exists None, n, source, l. split; [rewrite original_file_and_line_eq by exact I; reflexivity|]. split; [constructor|]. split; [exact Hl|reflexivity].
  - apply Span_Proof.bind_ok in E. destruct E as (s' & E & E'). apply Ok_inj in E'. injection E' as <- <-.
    assert (Hinv : Inv ifh (p_primary P) source s').
    { revert E. unfold process_adoc_include. apply (pre_loop_inv U hdr norm ifh (p_primary P) source Hsup fuel (p_primary P) _ (span_new source) (pre_new P) s' source).
      - constructor.
      - right. exists []. split; [reflexivity|]. split; [left; reflexivity|reflexivity].
      - split; [left; reflexivity|]. split; [reflexivity|]. split; [exact I|]. split; [constructor|]. intros k l0 (x & y & E0 & _ & _ & _ & Hy). symmetry in E0. apply app_eq_nil in E0. destruct E0 as [_ E0]. apply app_eq_nil in E0. destruct E0 as [-> ->]. destruct Hy as [[y' Hy]|[_ Hy]]; [discriminate|contradiction].
      - destruct (p_primary P); [discriminate|]. intros _ _. reflexivity. }
    destruct Hinv as (_ & _ & H3 & _ & H5). destruct (H5 n l Hl) as [Hu|(content & l' & H6 & H7 & H8)]; [left; exact Hu|right].
    unfold mapped. rewrite original_file_and_line_eq by exact H3. destruct (lookup_spec (ps_map s') n) as [f k]. exists f, k, content, l'. auto.
Qed.
Example C26_example : (forall f content, supplied two_files None two_root f content -> ~ blank_continuation content /\ (forall n, f = Some n -> ~ In LF n)) /\
  exists out m, preprocess ascii_only same same two_files 12 two_root parser_default = Ok (out, m) /\
   original_file_and_line m 3 = Ok (Some (mksl (Some (lit "b")) 1)) /\ original_file_and_line m 4 = Ok (Some (mksl (Some (lit "a")) 3)) /\
   original_file_and_line m 6 = Ok (Some (mksl None 4)).
Proof.
  split; [|eexists _, _; vm_compute; repeat split].
  assert (Hb : forall t, ~ In BSL t -> ~ blank_continuation t).
  { intros t Ht (x & l & w & y & E & (z & sps & cr & El & _) & _). apply Ht. rewrite E, El, !in_app_iff. right. left. right. left. left. reflexivity. }
  intros f content Hs. destruct Hs as [|from target al P t Hf].
  - split; [|discriminate]. apply Hb. cbn. intros H. repeat (destruct H as [H|H]; [discriminate|]). exact H.
  - assert (Hx : (target = lit "a" \/ target = lit "b") /\ ~ In BSL t).
    { unfold two_files in Hf. destruct from as [f|].
      - destruct (text_eqb f (lit "a")); [|discriminate Hf]. destruct (text_eqb target (lit "b")) eqn:E; [|discriminate Hf]. apply text_eqb_eq in E. apply Some_inj in Hf. subst. split; [auto|]. cbn. intros H. repeat (destruct H as [H|H]; [discriminate|]). exact H.
      - destruct (text_eqb target (lit "a")) eqn:E; [|discriminate]. apply text_eqb_eq in E. apply Some_inj in Hf. subst. split; [auto|]. cbn. intros H. repeat (destruct H as [H|H]; [discriminate|]). exact H. }
    destruct Hx as [Ht Hn]. split; [apply Hb, Hn|]. intros n E. apply Some_inj in E. subst n. destruct Ht as [->| ->]; cbn; intros [H|[]]; discriminate.
Qed.
(** Without the first hypothesis the map is wrong: the blank line after the continuation mark is lost. *)
Definition lost_line : text := lit ":a: x \" ++ LF :: LF :: lit "foo".
Theorem C26_source_map_is_right_refuted : exists source P out m n l, preprocess ascii_only same same no_files 10 source P = Ok (out, m) /\ line_at out n l /\
  ~ unresolved_line l /\ ~ mapped no_files (p_primary P) source m n l.
Proof.
  exists lost_line, named_root, (lit ":a: x \" ++ LF :: lit "foo" ++ [LF]). eexists _, 2, (lit "foo"). split; [vm_compute; reflexivity|]. split; [|split].
  - exists (lit ":a: x \" ++ [LF]), [LF]. split; [reflexivity|]. split; [apply starts_line_lf|]. split; [reflexivity|]. split; [cbn; intros H; repeat (destruct H as [H|H]; [discriminate|]); exact H|left; eexists; reflexivity].
  - intros (f & d & E). discriminate.
  - intros (f & k & content & l' & E & Hs & Hl & Ht). vm_compute in E. injection E as <- <-. assert (Hc : content = lost_line) by (inversion Hs; [reflexivity|discriminate]). subst content. clear Hs.
    assert (Hl' : l' = []).
    { change lost_line with ((lit ":a: x \" ++ [LF]) ++ ([] ++ [LF]) ++ lit "foo") in Hl. apply line_at_app in Hl; [|apply starts_line_lf]. destruct Hl as [Hl|(i & Ei & Hl)].
      { apply line_at_one in Hl; [destruct Hl; discriminate|]. cbn. intros H; repeat (destruct H as [H|H]; [discriminate|]); exact H. }
      change (newlines (lit ":a: x \" ++ [LF])) with 1 in Ei. injection Ei as <-. apply line_at_app in Hl; [|apply starts_line_lf]. destruct Hl as [Hl|(i & Ei & (x & y & _ & _ & Hi & _))]; [|change (newlines ([] ++ [LF])) with 1 in Ei; lia].
      apply line_at_one in Hl; [apply Hl|intros []]. }
    subst l'. vm_compute in Ht. discriminate.
Qed.

(** * C67: the message for an unresolved directive is a line of the document too; its entry in the map
    is forgotten when it is the first line of a file (or the first one after an include). *)
Theorem C67_unresolved_lines_are_mapped_refuted : exists source P out m, preprocess ascii_only same same no_files 10 source P = Ok (out, m) /\
  line_at out 1 (lit "Unresolved directive in f - include::x[]") /\ line_at source 1 (lit "include::x[]") /\ p_primary P = Some (lit "f") /\
  original_file_and_line m 1 <> Ok (Some (mksl (Some (lit "f")) 1)).
Proof.
  exists (lit "include::x[]"), named_root. eexists _, _. split; [vm_compute; reflexivity|]. split; [|split; [|split; [reflexivity|vm_compute; discriminate]]].
  - exists [], [LF]. split; [reflexivity|]. split; [left; reflexivity|]. split; [reflexivity|]. split; [cbn; intros H; repeat (destruct H as [H|H]; [discriminate|]); exact H|left; eexists; reflexivity].
  - exists [], []. split; [reflexivity|]. split; [left; reflexivity|]. split; [reflexivity|]. split; [cbn; intros H; repeat (destruct H as [H|H]; [discriminate|]); exact H|right; split; [reflexivity|discriminate]].
Qed.

(** * C70: include directives are carried out *)
(** A directive whose attribute list has one character is not recognised: the regular expression wants
    at least two.  The handler is not asked and the line goes to the output. *)
Theorem C70_directives_are_carried_out_refuted : exists source out m,
  preprocess ascii_only same same (fun _ _ _ _ => Some (lit "text")) 10 source parser_default = Ok (out, m) /\
  source = lit "include::f[x]" /\ line_at out 1 (lit "include::f[x]").
Proof.
  exists (lit "include::f[x]"). eexists _, _. split; [vm_compute; reflexivity|]. split; [reflexivity|].
  exists [], [LF]. split; [reflexivity|]. split; [left; reflexivity|]. split; [reflexivity|]. split; [cbn; intros H; repeat (destruct H as [H|H]; [discriminate|]); exact H|left; eexists; reflexivity].
Qed.
(** With an attribute list that is empty or longer, no directive is left. *)
Theorem C70_no_directive_is_left : forall U hdr norm ifh fuel source P out m,
  (forall f content, supplied ifh (p_primary P) source f content -> no_continuation content /\ (forall n, f = Some n -> ~ In LF n)) ->
  preprocess U hdr norm ifh fuel source P = Ok (out, m) -> forall n l, line_at out n l -> ~ include_line l.
Proof.
  intros U hdr norm ifh fuel source P out m Hsup E n l Hl. unfold preprocess in E.
  destruct (no_directive source && match p_primary P with None => true | Some _ => false end) eqn:En.
  - apply Ok_inj in E. injection E as <- <-. apply andb_prop in En. destruct En as [En _]. unfold no_directive in En. rewrite !andb_true_iff, !negb_true_iff in En. destruct En as [[[E1 _] E2] _].
    intros (t & a & El & _). destruct Hl as (x & y & Es & Hx & _). destruct Hx as [->|[x' ->]].
    + apply not_true_iff_false in E1. apply E1, starts_with_spec. rewrite Es, El. cbn [app]. rewrite <- app_assoc. eexists. reflexivity.
    + apply not_true_iff_false in E2. apply E2, contains_spec. rewrite Es, El. exists x'. eexists. rewrite <- !app_assoc. reflexivity.
  - apply Span_Proof.bind_ok in E. destruct E as (s' & E & E'). apply Ok_inj in E'. injection E' as <- <-.
    assert (Hc : Clean (ps_out s')).
    { revert E. unfold process_adoc_include. apply (pre_loop_clean U hdr norm ifh (p_primary P) source Hsup fuel (p_primary P) _ (span_new source) (pre_new P) s' source).
      - constructor.
      - exists []. reflexivity.
      - split; [left; reflexivity|]. intros k l0 (x & y & E0 & _ & _ & _ & Hy). symmetry in E0. apply app_eq_nil in E0. destruct E0 as [_ E0]. apply app_eq_nil in E0. destruct E0 as [-> ->]. destruct Hy as [[y' Hy]|[_ Hy]]; [discriminate|contradiction]. }
    exact (proj2 Hc n l Hl).
Qed.
Example C70_example : include_line (lit "include::a b.adoc[tag=x]") /\
  (forall f content, supplied no_files None (lit "x" ++ LF :: lit "include::a b.adoc[tag=x]") f content -> no_continuation content /\ (forall n, f = Some n -> ~ In LF n)) /\
  exists m, preprocess ascii_only same same no_files 9 (lit "x" ++ LF :: lit "include::a b.adoc[tag=x]") parser_default =
    Ok (lit "x" ++ LF :: lit "Unresolved directive in (root file) - include::a b.adoc[tag=x]" ++ [LF], m).
Proof.
  split; [|split].
  - exists (lit "a b.adoc"), (lit "tag=x"). split; [reflexivity|]. split; [discriminate|]. split; [cbn; intros H; repeat (destruct H as [H|H]; [discriminate|]); exact H|]. split; [reflexivity|]. split; [cbn; lia|discriminate].
  - intros f content H. inversion H; subst; [|discriminate]. split; [|discriminate]. intros (x & l & y & E & (z & sps & cr & -> & _)).
    assert (Hin : In BSL (lit "x" ++ LF :: lit "include::a b.adoc[tag=x]")) by (rewrite E, !in_app_iff; right; left; right; left; left; reflexivity).
    cbn in Hin. repeat (destruct Hin as [Hin|Hin]; [discriminate|]). exact Hin.
  - eexists. vm_compute. reflexivity.
Qed.
Print Assumptions C24_identity_without_directives_refuted.
Print Assumptions C24_identity_without_directive_lines.
Print Assumptions C25_expansion_terminates_refuted.
Print Assumptions C25_expansion_terminates_for_ranked_handlers.
Print Assumptions C26_source_map_is_right.
Print Assumptions C26_source_map_is_right_refuted.
Print Assumptions C67_unresolved_lines_are_mapped_refuted.
Print Assumptions C70_directives_are_carried_out_refuted.
Print Assumptions C70_no_directive_is_left.
