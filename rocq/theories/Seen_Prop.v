(** What the preprocessor knows of the attributes of a document (C127). *)
From Verif Require Import Text TextFacts Maps Span_Model Span_Pure Span_Spec Span_Proof Span_Laws Parser_Model Subs_Model Attrlist_Model SourceMap_Model Entry_Model Entry_Spec Entry_Proof Regex Pre_Model
  Header_Model Block_Model Doc_Model Header_Prop Block_Prop Seen_Spec Seen_Proof.

(** Lines before a directive: an entry counts if it is among the first lines, before any empty line, or comes after an empty line with
    only entries in between; and if it has a colon at the end or a colon and a space.  All lines are copied. *)
Theorem C127_lines : forall U hdr norm ifh P ls outs P' rest file fuel, sees U hdr true true P ls outs P' -> Forall plain_line ls ->
  exists rep st s, process_adoc_include U hdr norm ifh (length ls + fuel) (on_lines ls ++ rest) file (pre_new P) = pre_loop U hdr norm ifh fuel file rep s st /\
    sp_data s = rest /\ sp_line s = S (length ls) /\ ps_parser st = P' /\ ps_out st = on_lines outs /\ ps_line st = S (length ls).
Proof.
  intros U hdr norm ifh P ls outs P' rest file fuel H F. unfold process_adoc_include. set (r0 := match file with None => true | Some _ => false end).
  destruct (seen_loop U hdr norm ifh true true P ls outs P' H F rest file r0 (span_new (on_lines ls ++ rest)) (pre_new P) fuel eq_refl eq_refl eq_refl eq_refl) as (rep & st & K & K1 & K2 & K3).
  exists rep, st, (skip (span_new (on_lines ls ++ rest)) (on_lines ls) rest). split; [exact K|]. split; [apply sp_data_skip|]. split.
  { assert (L : count_lf (on_lines ls) = length ls). { clear - F. induction F as [|l ls (Hl & _) F IH]; [reflexivity|]. cbn [on_lines length]. rewrite count_lf_app, (count_none l Hl). cbn [count_lf]. change (LF =? LF)%N with true. cbv iota. lia. }
    unfold skip. rewrite slice_internal_eq. cbn [sp_line span_new]. rewrite L. reflexivity. }
  split; [exact K1|]. split; [exact K2|exact K3].
Qed.
(** When it comes to a directive, the include handler is asked with the attributes set by those entries. *)
Theorem C127_directive : forall U hdr norm ifh P ls outs P' d target al rest file fuel, sees U hdr true true P ls outs P' -> Forall plain_line ls -> ~ In LF d -> ~ In CR d ->
  (forall st, ps_parser st = P' -> try_include U norm st d = Ok (Some (target, al))) ->
  exists rep st s, ps_parser st = P' /\ ps_out st = on_lines outs /\ sp_data s = rest /\
    process_adoc_include U hdr norm ifh (length ls + S fuel) (on_lines ls ++ d ++ LF :: rest) file (pre_new P) =
      match ifh file target al P' with
      | Some t => st' <- pre_loop U hdr norm ifh fuel (Some target) false (span_new t) st ;; pre_loop U hdr norm ifh fuel file false s st'
      | None => pre_loop U hdr norm ifh fuel file rep s (emit_unresolved file d st)
      end.
Proof.
  intros U hdr norm ifh P ls outs P' d target al rest file fuel H F N1 N2 T. destruct (C127_lines U hdr norm ifh P ls outs P' (d ++ LF :: rest) file (S fuel) H F) as (rep & st & s & K & Ds & _ & K1 & K2 & _).
  exists rep, st, (skip s (d ++ [LF]) rest). split; [exact K1|]. split; [exact K2|]. split; [apply sp_data_skip|]. rewrite K. cbn [pre_loop]. destruct (sp_data s) as [|c0 t0] eqn:E0; [destruct d; discriminate Ds|]. rewrite <- E0 in Ds.
  rewrite take_line_ok, (p_take_line_eq s d [LF] rest N1 (or_introl eq_refl) Ds), (strip_no_cr d N2). cbn [bind mi_item mi_after]. cbn [with_data sp_data].
  assert (Sd : starts_with (lit "include::") d = true). { specialize (T st K1). unfold try_include in T. destruct (starts_with (lit "include::") d); [reflexivity|discriminate T]. }
  assert (Ta : try_attribute hdr st d s = Ok None). { apply starts_with_spec in Sd. destruct Sd as (x & ->). unfold try_attribute. change (starts_with (lit ":") (lit "include::" ++ x)) with false. rewrite andb_false_r. reflexivity. }
  rewrite Ta, (T st K1), K1. reflexivity.
Qed.
(** * A case *)
Local Ltac name_tail := match goal with |- Forall ?f ?l => let v := eval vm_compute in l in change (Forall f v) end; repeat (apply Forall_cons; [left; unfold word_first; lia|]); apply Forall_nil.
Definition E0s := apply_header_subs E0.
Definition seen_lines : list text := [lit "= T"; lit ":dir: a"; []; lit ":sub: b  "; lit ":!dir:"; lit "text"; lit ":sub: c"; []; lit ":no:space"].
Example seen_meets : exists outs P', sees ascii_only E0s true true parser_default seen_lines outs P' /\ Forall plain_line seen_lines /\ mget (lit "dir") (p_attrs P') = Some (mkav AnyValue Anywhere VUnset) /\ mget (lit "sub") (p_attrs P') = Some (mkav AnyValue Anywhere (VValue (lit "b"))) /\ mget (lit "no") (p_attrs P') = None.
Proof.
  eexists _, _. split.
  - apply sees_line; [discriminate|intros _ n u r ([(x & K)|(x & y & K)] & d & Hd & He); apply cut_off_eq in Hd; subst d; inversion He|].
    eapply (sees_entry _ _ _ _ _ (lit "dir") false (lit " a")); [split; [right; exists (lit ":dir"), (lit "a"); reflexivity|]; exists (lit ":dir: a"); split; [exists 0; split; [reflexivity|]; intros x K; apply (f_equal (@rev N)) in K; rewrite rev_app_distr in K; discriminate K|]; apply (el_set (lit "dir") (lit " a")); exists 100%N, (lit "ir"); split; [reflexivity|]; split; [unfold word_first; lia|name_tail]| |].
    { exists (lit " "), (lit "a"). eexists. split; [reflexivity|]. split; [repeat constructor|]. split; [intros c y K; injection K as <- _; intros [K|K]; discriminate K|]. split; [vm_compute; reflexivity|reflexivity]. }
    apply sees_empty.
    eapply (sees_entry _ _ _ _ _ (lit "sub") false (lit " b")); [split; [right; exists (lit ":sub"), (lit "b  "); reflexivity|]; exists (lit ":sub: b"); split; [exists 2; split; [reflexivity|]; intros x K; apply (f_equal (@rev N)) in K; rewrite rev_app_distr in K; discriminate K|]; apply (el_set (lit "sub") (lit " b")); exists 115%N, (lit "ub"); split; [reflexivity|]; split; [unfold word_first; lia|name_tail]| |].
    { exists (lit " "), (lit "b"). eexists. split; [reflexivity|]. split; [repeat constructor|]. split; [intros c y K; injection K as <- _; intros [K|K]; discriminate K|]. split; [vm_compute; reflexivity|reflexivity]. }
    eapply (sees_entry _ _ _ _ _ (lit "dir") true []); [split; [left; exists (lit ":!dir"); reflexivity|]; exists (lit ":!dir:"); split; [exists 0; split; [reflexivity|]; intros x K; apply (f_equal (@rev N)) in K; rewrite rev_app_distr in K; discriminate K|]; apply (el_before (lit "dir") []); exists 100%N, (lit "ir"); split; [reflexivity|]; split; [unfold word_first; lia|name_tail]|reflexivity|].
    apply sees_line; [discriminate|intros _ n u r (_ & d & Hd & He); apply cut_off_eq in Hd; subst d; inversion He|].
    apply sees_line; [discriminate|intros K; discriminate K|].
    apply sees_empty.
    apply sees_line; [discriminate|intros _ n u r (Ha & _); apply announced_iff in Ha; vm_compute in Ha; discriminate Ha|].
    apply sees_end.
  - split; [|split; [vm_compute; reflexivity|split; vm_compute; reflexivity]].
    repeat (apply Forall_cons; [split; [cbn; intuition discriminate|split; [cbn; intuition discriminate|split; [cbn; intuition discriminate|intros d K; cbn in K; discriminate K]]]|]). apply Forall_nil.
Qed.
Example directive_meets : forall st, ps_parser st = with_entry ascii_only parser_default (lit "dir") (VValue (lit "a")) -> try_include ascii_only (norm_of E0) st (lit "include::{dir}/x[]") = Ok (Some (lit "a/x", attrlist_default)).
Proof. intros st K. unfold try_include. rewrite K. vm_compute. reflexivity. Qed.
(** * Where the document has other attributes *)
Definition echo : include_handler := fun _ t _ _ => Some t.
(** The target that the include handler was asked for, as the last line of the output. *)
Definition asked (t : text) : text := match preprocess (e_u E0) E0s (norm_of E0) echo 30 t (begin_parse parser_default) with Ok (o, _) => o | _ => [] end.
Definition has (t : text) (name : text) : option text := match document_parse E0 30 t [] (begin_parse parser_default) with Ok (_, P) => as_maybe_str (attribute_value P name) | _ => None end.
(** A value right after the colon is one for the document, not for the directive. *)
Theorem C127_unspaced_refuted : exists t, has t (lit "dir") = Some (lit "a") /\ asked (t ++ lit "include::{dir}/x[]") = t ++ lit "{dir}/x" ++ [LF].
Proof. exists (lines [lit ":dir:a"; []; []]). split; vm_compute; reflexivity. Qed.
(** So is an entry on the line after the title of a section. *)
Theorem C127_after_title_refuted : exists t, has t (lit "dir") = Some (lit "a") /\ asked (t ++ lit "include::{dir}/x[]") = t ++ lit "{dir}/x" ++ [LF].
Proof. exists (lines [lit "= T"; []; lit "== S"; lit ":dir: a"; []; lit "x"; []; []]). split; vm_compute; reflexivity. Qed.
(** What looks like an entry in a listing is none for the document, but one for the directive. *)
Theorem C127_listing_refuted : exists t, has t (lit "dir") = None /\ asked (t ++ lit "include::{dir}/x[]") = t ++ lit "a/x" ++ [LF].
Proof. exists (lines [lit "= T"; []; lit "----"; []; lit ":dir: a"; lit "----"; []]). split; vm_compute; reflexivity. Qed.
(** The attributes that come from the author line are not there for the directive. *)
Theorem C127_author_refuted : exists t, has t (lit "lastname") = Some (lit "Lee") /\ asked (t ++ lit "include::{lastname}/x[]") = t ++ lit "{lastname}/x" ++ [LF].
Proof. exists (lines [lit "= T"; lit "Ann Lee"; []; []]). split; vm_compute; reflexivity. Qed.
Print Assumptions C127_lines.
Print Assumptions C127_directive.
Print Assumptions C127_unspaced_refuted.
Print Assumptions C127_after_title_refuted.
Print Assumptions C127_listing_refuted.
Print Assumptions C127_author_refuted.
