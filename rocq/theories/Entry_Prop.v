(** C51 and C64-C66: attribute entries. *)
From Verif Require Import Text TextFacts Span_Model Span_Pure Span_Spec Span_Proof Span_Laws Parser_Model Parser_Proof Regex_Proof Entry_Model Entry_Spec Entry_Proof.

(** What the value must be: [rest] is the text after the closing colon; blanks are spaces and tabs. *)
Inductive value_is (hdr : text -> res text) : bool -> text -> ivalue -> Prop :=
| vi_unset rest : value_is hdr true rest VUnset
| vi_set : value_is hdr false [] VSet
| vi_value w raw o t : w ++ raw <> [] -> Forall (fun c => c = SP \/ c = TAB) w -> (forall c r, raw = c :: r -> c <> SP /\ c <> TAB) ->
    fold_value raw = Ok t -> hdr t = Ok o -> value_is hdr false (w ++ raw) (VValue o).

(** An entry is recognised iff its logical line has the form of one; its name, value and extent. *)
Theorem C51_attribute_entries : forall hdr s P, (forall t, exists o, hdr P t = Ok o) ->
  exists c r d, logical (sp_data s) c r /\ stripped c d /\
    ((exists n u rest m, entry_line d n u rest /\ attribute_parse hdr s P = Ok (Some m) /\
        sp_data (at_name (mi_item m)) = n /\ value_is (hdr P) u rest (at_value (mi_item m)) /\
        sp_data (at_source (mi_item m)) = trim_end c /\ sp_data (mi_after m) = r) \/
     ((forall n u rest, ~ entry_line d n u rest) /\ attribute_parse hdr s P = Ok None)).
Proof.
  intros hdr s P Hh. destruct (logical_total (sp_data s)) as (c & r & H). destruct (stripped_ok c) as (d & Hd & Ed).
  exists c, r, d. split; [exact H|]. split; [exact Hd|]. destruct (attribute_parse_eq hdr s P c r H) as (pre & vs & E & _). cbv zeta in E. rewrite <- Ed in E.
  destruct (e_parse d) as [[n [u rest]]|] eqn:Ep.
  - left. assert (Hv : exists v, e_value hdr P u rest = Ok v /\ value_is (hdr P) u rest v).
    { unfold e_value. destruct u; [eexists; split; [reflexivity|constructor]|]. destruct rest as [|x rest]; [eexists; split; [reflexivity|constructor]|].
      destruct (fold_value_total (e_raw (x :: rest))) as [t Et]. destruct (Hh t) as [o Eo]. rewrite Et. cbn [bind]. rewrite Eo. cbn [bind]. eexists. split; [reflexivity|].
      rewrite <- (span_while_app is_sp_tab (x :: rest)) at 1. apply (vi_value _ _ _ _ t).
      - rewrite span_while_app. discriminate.
      - eapply Forall_impl; [|apply span_while_all]. intros y Hy. apply is_sp_tab_spec, Hy.
      - intros y z Hy. apply span_while_stop in Hy. split; intros ->; discriminate Hy.
      - exact Et.
      - exact Eo. }
    destruct Hv as (v & Ev & Hv). rewrite Ev in E. cbn [bind] in E. exists n, u, rest. eexists. split; [apply e_parse_iff, Ep|]. split; [exact E|]. cbn [mi_item mi_after at_name at_value at_source].
    split; [apply sp_data_skip|]. split; [exact Hv|]. split; [reflexivity|apply sp_data_skip].
  - right. split; [|exact E]. intros n u rest X. apply e_parse_iff in X. congruence.
Qed.
(** The value: one line is taken as it is; a value wrapped with " \" or " + \" is unfolded. *)
Theorem C51_single_line_values : forall t, ~ In LF t -> fold_value t = Ok t.
Proof. exact fold_value_single. Qed.
Theorem C51_wrapped_values : forall segs lst,
  Forall (fun s => segment_ok (fst s) /\ Forall (eq SP) (snd (snd s))) segs -> segment_ok lst -> lst <> [] ->
  fold_value (print_wrapped segs lst) = Ok (unwrapped segs lst).
Proof. exact fold_value_wrapped. Qed.
Definition value_of_entry (t : text) : option (text * ivalue) :=
  match attribute_parse (fun _ t => Ok t) (span_new t) parser_default with Ok (Some m) => Some (sp_data (at_name (mi_item m)), at_value (mi_item m)) | _ => None end.
Example C51_example : value_of_entry (lit ":!a-b: x") = Some (lit "a-b", VUnset) /\ value_of_entry (lit ":a_1!:") = Some (lit "a_1", VUnset) /\
  value_of_entry (lit ":a:") = Some (lit "a", VSet) /\ value_of_entry (lit ":a:  v w  ") = Some (lit "a", VValue (lit "v w")) /\
  value_of_entry (lit ":-a: x") = None /\
  value_of_entry (lit ":a: " ++ print_wrapped [(lit "one", (false, lit "  ")); (lit "two,", (true, []))] (lit "three")) = Some (lit "a", VValue (lit "one two," ++ LF :: lit "three")).
Proof. vm_compute. repeat split. Qed.
Example C51_wrapped_example : let segs := [(lit "one", (false, lit "  ")); (lit "two,", (true, []))] in
  Forall (fun s : text * (bool * text) => segment_ok (fst s) /\ Forall (eq SP) (snd (snd s))) segs /\ segment_ok (lit "three") /\ lit "three" <> [].
Proof.
  assert (S : forall v, forallb (fun c => negb (c =? LF)%N) v = true -> hd 0%N v <> SP -> hd 0%N v <> CR -> last v 0%N <> SP /\ last v 0%N <> BSL /\ last v 0%N <> 43%N -> segment_ok v).
  { intros v H1 H2 H3 H4. split; [|split; [|split]].
    - intros Hin. rewrite forallb_forall in H1. specialize (H1 _ Hin). discriminate.
    - intros r ->. apply H2. reflexivity.
    - intros r ->. apply H3. reflexivity.
    - intros x c ->. rewrite last_last in H4. exact H4. }
  split; [|split; [apply S; try discriminate; try reflexivity; repeat split; discriminate|discriminate]].
  constructor; [split; [apply S; try discriminate; try reflexivity; repeat split; discriminate|repeat constructor]|].
  constructor; [split; [apply S; try discriminate; try reflexivity; repeat split; discriminate|constructor]|constructor].
Qed.

(** C64.  The documentation: "The value must be offset from the closing colon by at least one space". *)
Theorem C64_values_are_offset_refuted : exists t n v rest, value_of_entry t = Some (n, v) /\ v <> VSet /\ t = lit ":" ++ n ++ lit ":" ++ rest /\ (forall r, rest <> SP :: r).
Proof. exists (lit ":a:b"), (lit "a"), (VValue (lit "b")), (lit "b"). split; [vm_compute; reflexivity|]. split; [discriminate|]. split; [reflexivity|discriminate]. Qed.

(** C65.  The documentation: "A line continuation consists of a space followed by a backslash character
    at the end of the line."  [wrapped_line l] is what that says; the value swallows the next line without it. *)
Theorem C65_continuation_needs_a_space_refuted : exists l next n v,
  ~ In LF l /\ (forall x, l <> x ++ lit " \") /\ attribute_parse (fun _ t => Ok t) (span_new (l ++ LF :: next)) parser_default = Ok (Some v) /\
  at_value (mi_item v) = VValue n /\ sp_data (mi_after v) = [] /\ next <> [].
Proof.
  exists (lit ":dir: C:\temp\"), (lit "text"), (lit "C:\temp text"). eexists. split; [cbn; intros H; repeat (destruct H as [H|H]; [discriminate|]); exact H|].
  split; [intros x E; apply (f_equal (@rev N)) in E; rewrite rev_app_distr in E; vm_compute in E; discriminate|]. split; [vm_compute; reflexivity|]. split; [vm_compute; reflexivity|]. split; [reflexivity|discriminate].
Qed.

(** C66.  The documentation: the hard line break mark " +" and the newline are both kept, so that the
    value gives hard line breaks where it is used. *)
Definition hard_wrapped (segs : list text) (lst : text) : text := concat (map (fun v => v ++ lit " + \" ++ [LF]) segs) ++ lst.
Definition hard_value (segs : list text) (lst : text) : text := concat (map (fun v => v ++ lit " +" ++ [LF]) segs) ++ lst.
Theorem C66_hard_wraps_keep_their_mark_refuted : exists segs lst, Forall segment_ok segs /\ segment_ok lst /\ fold_value (hard_wrapped segs lst) <> Ok (hard_value segs lst).
Proof.
  exists [lit "a"], (lit "b"). assert (S : forall c, c <> LF -> c <> SP -> c <> CR -> c <> BSL -> c <> 43%N -> segment_ok [c]).
  { intros c H1 H2 H3 H4 H5. split; [intros [H|[]]; auto|]. split; [intros r H; injection H as H _; auto|]. split; [intros r H; injection H as H _; auto|]. intros x d H. destruct x as [|y [|z x]]; cbn in H; [injection H as <-; auto|discriminate|discriminate]. }
  split; [constructor; [apply S; discriminate|constructor]|]. split; [apply S; discriminate|]. vm_compute. discriminate.
Qed.
(** Exactly: the mark is dropped and the newline is kept. *)
Theorem C66_hard_wraps_become_newlines : forall segs lst, Forall segment_ok segs -> segment_ok lst -> lst <> [] ->
  fold_value (hard_wrapped segs lst) = Ok (concat (map (fun v => v ++ [LF]) segs) ++ lst).
Proof.
  intros segs lst Hs Hl Hn. pose proof (fold_value_wrapped (map (fun v => (v, (true, []))) segs) lst) as H.
  assert (E1 : print_wrapped (map (fun v => (v, (true, []))) segs) lst = hard_wrapped segs lst).
  { unfold hard_wrapped. clear. induction segs as [|v segs IH]; [reflexivity|]. cbn [map print_wrapped concat]. rewrite IH. rewrite <- !app_assoc. reflexivity. }
  assert (E2 : unwrapped (map (fun v => (v, (true, []))) segs) lst = concat (map (fun v => v ++ [LF]) segs) ++ lst).
  { clear. induction segs as [|v segs IH]; [reflexivity|]. cbn [map unwrapped concat]. rewrite IH. rewrite <- !app_assoc. reflexivity. }
  rewrite E1, E2 in H. apply H; [|exact Hl|exact Hn]. apply Forall_map. eapply Forall_impl; [|exact Hs]. intros v Hv. split; [exact Hv|constructor].
Qed.
Example C66_example : fold_value (hard_wrapped [lit "a,"; lit "b"] (lit "c")) = Ok (lit "a," ++ LF :: lit "b" ++ LF :: lit "c").
Proof. vm_compute. reflexivity. Qed.

Print Assumptions C51_attribute_entries.
Print Assumptions C51_single_line_values.
Print Assumptions C51_wrapped_values.
Print Assumptions C64_values_are_offset_refuted.
Print Assumptions C65_continuation_needs_a_space_refuted.
Print Assumptions C66_hard_wraps_keep_their_mark_refuted.
Print Assumptions C66_hard_wraps_become_newlines.
