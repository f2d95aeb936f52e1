(** C23: looking up a line in the source map. *)
From Verif Require Import Text SourceMap_Model SourceMap_Proof.

(** [covers m key k v]: entry (k, v) is the last one of [m] at or before line [key]. *)
Definition covers (m : source_map) (key k : nat) (v : source_line) : Prop :=
  In (k, v) m /\ k <= key /\ forall k' v', In (k', v') m -> k' <= key -> k' <= k.
Theorem C23_lookup_uses_the_last_entry_before : forall m key k v,
  increasing m -> covers m key k v ->
  original_file_and_line m key = Ok (Some (mksl (sl_file v) (sl_line v + (key - k)))).
Proof.
  intros m key k v H (Hin & Hk & Hmax). rewrite original_file_and_line_eq by exact H. do 2 f_equal.
  apply In_nth_error in Hin. destruct Hin as [i Ei]. apply (lookup_split m key i k v Ei Hk). intros j Hij Hj.
  destruct (nth_error m j) as [[kj vj]|] eqn:Ej; [|apply nth_error_None in Ej; lia].
  assert (Hlt : sm_key m i < sm_key m j) by (apply increasing_nth; assumption). unfold sm_key in *. rewrite Ei, Ej in *. destruct (Nat.le_gt_cases kj key) as [L|L]; [|exact L].
  apply nth_error_In in Ej. specialize (Hmax _ _ Ej L). lia.
Qed.
Theorem C23_lines_before_the_first_entry_map_to_themselves : forall m key,
  increasing m -> Forall (fun e => key < fst e) m -> original_file_and_line m key = Ok (Some (mksl None key)).
Proof.
  intros m key H F. rewrite original_file_and_line_eq by exact H. do 2 f_equal. apply lookup_none. intros j Hj.
  unfold sm_key. destruct (nth_error m j) as [[kj vj]|] eqn:Ej; [|apply nth_error_None in Ej; lia]. apply nth_error_In in Ej. rewrite Forall_forall in F. apply (F _ Ej).
Qed.
(** Every line falls under one of the two theorems above. *)
Theorem C23_lookup_is_total : forall m key, increasing m ->
  (exists k v, covers m key k v) \/ Forall (fun e => key < fst e) m.
Proof.
  induction m as [|[k0 v0] m IH]; intros key H; [right; constructor|]. destruct H as [F H]. destruct (IH key H) as [(k & v & Hin & Hk & Hmax)|G].
  - left. exists k, v. split; [right; exact Hin|]. split; [exact Hk|]. intros k' v' [E|Hi] L; [|apply (Hmax _ _ Hi L)]. injection E as <- <-. rewrite Forall_forall in F. pose proof (F _ Hin). cbn in *. lia.
  - destruct (Nat.le_gt_cases k0 key) as [L|L]; [|right; constructor; [exact L|exact G]].
    left. exists k0, v0. split; [left; reflexivity|]. split; [exact L|]. intros k' v' [E|Hi] L'; [injection E as <- <-; lia|]. rewrite Forall_forall in G. pose proof (G _ Hi). cbn in *. lia.
Qed.
Theorem C23_append_keeps_the_order : forall m k v, increasing m -> Forall (fun e => fst e < k) m -> increasing (sm_append m k v).
Proof. exact increasing_append. Qed.
Example C23_example :
  let m := sm_append (sm_append (sm_append [] 3 (mksl (Some (lit "a")) 1)) 5 (mksl None 4)) 9 (mksl (Some (lit "b")) 7) in
  increasing m /\ covers m 8 5 (mksl None 4) /\ original_file_and_line m 8 = Ok (Some (mksl None 7)) /\ original_file_and_line m 2 = Ok (Some (mksl None 2)).
Proof.
  split; [repeat (constructor; cbn; try lia)|]. split; [|vm_compute; split; reflexivity]. split; [cbn; auto|]. split; [lia|].
  intros k' v' H L. cbn in H. destruct H as [E|[E|[E|[]]]]; injection E as <- _; lia.
Qed.
Print Assumptions C23_lookup_uses_the_last_entry_before.
Print Assumptions C23_lines_before_the_first_entry_map_to_themselves.
Print Assumptions C23_lookup_is_total.
Print Assumptions C23_append_keeps_the_order.
