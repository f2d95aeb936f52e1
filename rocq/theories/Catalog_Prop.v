(** C12, C13, C14: the catalog of referenceable elements.  The specification (a log of
    successful registrations) is in [Catalog_Spec]. *)
From Verif Require Import Text TextFacts Maps Catalog_Model Catalog_Spec Catalog_Proof.

(** Every sequence of operations runs to the end without panic and its reports are those of
    the specification. *)
Theorem C12_registrations_follow_the_log : forall ops,
  exists outs c l, run ops = Ok (outs, c) /\ spec_run ops outs l /\
    NoDup (log_ids l) /\ (forall id, contains_id c id = true <-> In id (log_ids l)) /\
    NoDup (map fst (cat_refs c)).
Proof.
  intros ops. destruct (run_spec ops) as (outs & c & l & R & S & A). exists outs, c, l.
  split; [exact R|]. split; [exact S|]. split; [apply (ag_nodup c l A)|].
  split; [intros id; apply agrees_has, A|]. change (NoDup (mkeys (cat_refs c))). rewrite (agrees_keys c l A). apply (ag_nodup c l A).
Qed.
(** The specification leaves no choice: outputs and log are determined. *)
Theorem C12_log_is_determined : forall l o out1 l1 out2 l2,
  spec_step l o out1 l1 -> spec_step l o out2 l2 -> out1 = out2 /\ l1 = l2.
Proof. exact spec_step_det. Qed.
(** A single registration, on any catalog: succeeds iff the id is new; a failure changes nothing. *)
Theorem C12_register_succeeds_iff_new : forall c id rt ty,
  (fst (register_ref c id rt ty) = true <-> contains_id c id = false) /\
  (fst (register_ref c id rt ty) = false -> snd (register_ref c id rt ty) = c) /\
  (fst (register_ref c id rt ty) = true ->
     get_ref (snd (register_ref c id rt ty)) id = Some (mkref id rt ty) /\
     forall id', id' <> id -> get_ref (snd (register_ref c id rt ty)) id' = get_ref c id').
Proof.
  intros c id rt ty. unfold register_ref, contains_id. destruct (mhas id (cat_refs c)) eqn:E; cbn [fst snd].
  - repeat split; congruence.
  - split; [tauto|]. split; [discriminate|]. intros _. unfold get_ref. cbn [insert_ref cat_refs]. split.
    + apply mget_mput_same.
    + intros id' Hn. apply mget_mput_other, Hn.
Qed.
Definition ex_ops : list cat_op :=
  [OpRegister (lit "a") (Some (lit "T")) RAnchor; OpRegister (lit "a") None RSection;
   OpGenerate (lit "a") (Some (lit "T")) RSection; OpGenerate (lit "a") (Some (lit "U")) RSection;
   OpGenerate (lit "b") None RSection].
Example C12_example : exists c, run ex_ops =
  Ok ([OutRegister true; OutRegister false; OutGenerate (lit "a-2"); OutGenerate (lit "a-3"); OutGenerate (lit "b")], c).
Proof. vm_compute. eexists. reflexivity. Qed.

(** C13. Lookups after any sequence of operations, in terms of the log of the specification. *)
Theorem C13_lookups_return_first_registration : forall ops,
  exists outs c l, run ops = Ok (outs, c) /\ spec_run ops outs l /\
  (forall id, get_ref c id =
     match first_with_id id l with Some (rt, ty) => Some (mkref id rt ty) | None => None end) /\
  (forall t, resolve_id c t = first_with_reftext t l) /\
  catalog_len c = length l /\ (catalog_is_empty c = true <-> l = []).
Proof.
  intros ops. destruct (run_spec ops) as (outs & c & l & R & S & A). exists outs, c, l.
  split; [exact R|]. split; [exact S|]. split; [intros id; apply agrees_get, A|]. split; [apply (ag_texts c l A)|].
  unfold catalog_len, mlen, catalog_is_empty. rewrite (ag_refs c l A). split; [apply map_length|].
  destruct l; cbn; split; congruence.
Qed.
(** ... and that log is the only one. *)
Theorem C13_log_unique : forall ops outs1 l1 outs2 l2,
  spec_run ops outs1 l1 -> spec_run ops outs2 l2 -> outs1 = outs2 /\ l1 = l2.
Proof. exact spec_run_det. Qed.
(** In [ex_ops], "T" resolves to its first bearer although "a-2" carries it too. *)
Example C13_example : exists outs c, run ex_ops = Ok (outs, c) /\ resolve_id c (lit "T") = Some (lit "a") /\
  resolve_id c (lit "U") = Some (lit "a-3") /\ catalog_len c = 4.
Proof. vm_compute. repeat eexists. Qed.

(** C14. Generation of ids, on any catalog reached by operations. *)
Theorem C14_generated_ids_fresh_and_minimal : forall ops outs c base rt ty,
  run ops = Ok (outs, c) ->
  exists id c', generate_unique c base rt ty = Ok (id, c') /\
    contains_id c id = false /\ get_ref c' id = Some (mkref id rt ty) /\
    (forall id', id' <> id -> get_ref c' id' = get_ref c id') /\
    (contains_id c base = false -> id = base) /\
    (contains_id c base = true -> exists n, 2 <= n /\ id = base ++ lit "-" ++ show_nat n /\
       forall m, 2 <= m < n -> contains_id c (base ++ lit "-" ++ show_nat m) = true).
Proof. intros ops outs c base rt ty _. apply generate_any. Qed.
(** [show_nat] is the usual decimal notation: reading the digits back gives the number. *)
Theorem C14_decimal_notation : forall n, digits_val (show_nat n) 0 = n.
Proof. exact show_nat_val. Qed.
Example C14_example : exists outs c c', run ex_ops = Ok (outs, c) /\
  generate_unique c (lit "a") None RAnchor = Ok (lit "a-4", c').
Proof. vm_compute. repeat eexists. Qed.

Print Assumptions C12_registrations_follow_the_log.
Print Assumptions C12_log_is_determined.
Print Assumptions C12_register_succeeds_iff_new.
Print Assumptions C13_lookups_return_first_registration.
Print Assumptions C13_log_unique.
Print Assumptions C14_generated_ids_fresh_and_minimal.
Print Assumptions C14_decimal_notation.
