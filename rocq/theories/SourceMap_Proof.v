(** Proofs about the source map. *)
From Verif Require Import Text TextFacts Span_Laws SourceMap_Model.

(** The entry for a line: the last one at or before it, found by going through the list. *)
Definition lookup_from (key : nat) (best : source_line) (e : nat * source_line) : source_line :=
  if fst e <=? key then mksl (sl_file (snd e)) (sl_line (snd e) + (key - fst e)) else best.
Definition lookup_spec (m : source_map) (key : nat) : source_line := fold_left (lookup_from key) m (mksl None key).
(** Entries in strictly increasing order of line. *)
Fixpoint increasing (m : source_map) : Prop :=
  match m with
  | [] => True
  | (k, _) :: r => Forall (fun e => k < fst e) r /\ increasing r
  end.

Lemma increasing_nth m : increasing m -> forall i j, i < j -> j < length m -> sm_key m i < sm_key m j.
Proof.
  induction m as [|[k v] m IH]; intros H i j Hij Hj; [cbn in Hj; lia|]. destruct H as [F H]. destruct j as [|j]; [lia|]. cbn in Hj. unfold sm_key in *. destruct i as [|i]; cbn [nth_error].
  - destruct (nth_error m j) as [[kj vj]|] eqn:E; [|apply nth_error_None in E; lia]. apply nth_error_In in E. rewrite Forall_forall in F. apply (F _ E).
  - apply IH; [exact H|lia|lia].
Qed.
Lemma bsearch_loop_spec key k fuel : forall base size, size < fuel -> 1 <= size ->
  (forall i j, i < j -> j < base + size -> key i < key j) ->
  exists b, bsearch_loop fuel key k base size = Ok b /\ base <= b < base + size /\ (base < b -> key b <= k) /\ (forall i, b < i -> i < base + size -> k < key i).
Proof.
  induction fuel as [|f IH]; intros base size Hf Hs Hk; [lia|]. cbn [bsearch_loop]. destruct (size <=? 1) eqn:E.
  - apply Nat.leb_le in E. exists base. split; [reflexivity|]. repeat split; lia.
  - apply Nat.leb_gt in E. cbv zeta. set (half := Nat.div size 2).
    assert (Hh : 1 <= half /\ half < size).
    { unfold half. split; [apply Nat.div_le_lower_bound; lia|apply Nat.div_lt; lia]. }
    destruct (k <? key (base + half)) eqn:Ek.
    + apply Nat.ltb_lt in Ek. destruct (Nat.le_gt_cases (size - half) half) as [Hle|Hgt].
      * destruct (IH base (size - half)) as (b & Eb & Hb & H1 & H2); [lia|lia|intros; apply Hk; lia|]. exists b. split; [exact Eb|]. split; [lia|]. split; [exact H1|].
        intros i Hi Hi2. destruct (Nat.lt_ge_cases i (base + (size - half))) as [L|L]; [apply H2; lia|].
        destruct (Nat.eq_dec i (base + half)) as [->|Hne]; [exact Ek|]. destruct (Nat.lt_ge_cases i (base + half)) as [L2|L2].
        -- (* only when size is odd *) exfalso. unfold half in *. pose proof (Nat.div_mod size 2 ltac:(lia)). pose proof (Nat.mod_upper_bound size 2 ltac:(lia)). lia.
        -- assert (key (base + half) < key i) by (apply Hk; lia). lia.
      * destruct (IH base (size - half)) as (b & Eb & Hb & H1 & H2); [lia|lia|intros; apply Hk; lia|]. exists b. split; [exact Eb|]. split; [lia|]. split; [exact H1|].
        intros i Hi Hi2. destruct (Nat.lt_ge_cases i (base + (size - half))) as [L|L]; [apply H2; lia|]. assert (key (base + half) < key i) by (apply Hk; lia). lia.
    + apply Nat.ltb_ge in Ek. destruct (IH (base + half) (size - half)) as (b & Eb & Hb & H1 & H2); [lia|lia|intros; apply Hk; lia|]. exists b. split; [exact Eb|]. split; [lia|]. split.
      * intros _. destruct (Nat.eq_dec b (base + half)) as [->|Hne]; [exact Ek|apply H1; lia].
      * intros i Hi Hi2. apply H2; lia.
Qed.
Lemma lookup_split m key i k v : nth_error m i = Some (k, v) -> k <= key -> (forall j, i < j -> j < length m -> key < sm_key m j) ->
  lookup_spec m key = mksl (sl_file v) (sl_line v + (key - k)).
Proof.
  intros E Hk Hj. apply nth_error_split in E. destruct E as (l1 & l2 & -> & <-). unfold lookup_spec. rewrite fold_left_app. cbn [fold_left]. unfold lookup_from at 2. cbn [fst snd].
  assert (El : (k <=? key) = true) by (apply Nat.leb_le; exact Hk). rewrite El.
  assert (F : Forall (fun e => key < fst e) l2).
  { apply Forall_forall. intros [k2 v2] He. apply In_nth_error in He. destruct He as [j Ej]. assert (L : j < length l2) by (apply nth_error_Some; congruence).
    specialize (Hj (length l1 + S j)). unfold sm_key in Hj. rewrite nth_error_app2 in Hj by lia. replace (length l1 + S j - length l1) with (S j) in Hj by lia. cbn [nth_error] in Hj. rewrite Ej in Hj. apply Hj; [lia|]. rewrite app_length. cbn. lia. }
  clear -F. induction F as [|e l2 He F IH]; [reflexivity|]. cbn [fold_left]. unfold lookup_from at 2. assert (E : (fst e <=? key) = false) by (apply Nat.leb_gt; exact He). rewrite E. exact IH.
Qed.
Lemma lookup_none m key : (forall j, j < length m -> key < sm_key m j) -> lookup_spec m key = mksl None key.
Proof.
  intros Hj. assert (F : Forall (fun e => key < fst e) m).
  { apply Forall_forall. intros [k2 v2] He. apply In_nth_error in He. destruct He as [j Ej]. assert (L : j < length m) by (apply nth_error_Some; congruence). specialize (Hj j L). unfold sm_key in Hj. rewrite Ej in Hj. exact Hj. }
  unfold lookup_spec. clear -F. induction F as [|e l2 He F IH]; [reflexivity|]. cbn [fold_left]. unfold lookup_from at 2. assert (E : (fst e <=? key) = false) by (apply Nat.leb_gt; exact He). rewrite E. exact IH.
Qed.
Lemma source_line_eta v : mksl (sl_file v) (sl_line v + 0) = v.
Proof. destruct v. cbn. rewrite Nat.add_0_r. reflexivity. Qed.
Lemma original_file_and_line_eq m key : increasing m -> original_file_and_line m key = Ok (Some (lookup_spec m key)).
Proof.
  intros H. unfold original_file_and_line, binary_search. destruct (length m =? 0) eqn:E0.
  - apply Nat.eqb_eq in E0. destruct m; [reflexivity|discriminate E0].
  - apply Nat.eqb_neq in E0. destruct (bsearch_loop_spec (sm_key m) key (S (length m)) 0 (length m)) as (b & Eb & Hb & H1 & H2); [lia|lia|intros; apply increasing_nth; [exact H|lia|lia]|].
    rewrite Eb. cbn [bind]. destruct (nth_error m b) as [[kb vb]|] eqn:En; [|apply nth_error_None in En; lia].
    assert (Ekb : sm_key m b = kb) by (unfold sm_key; rewrite En; reflexivity). rewrite Ekb in *.
    destruct (Nat.eqb_spec kb key) as [->|Hne].
    + rewrite En. do 2 f_equal. rewrite (lookup_split m key b key vb); [rewrite Nat.sub_diag, source_line_eta; reflexivity|exact En|lia|intros; apply H2; lia].
    + destruct (Nat.ltb_spec kb key) as [Hlt|Hge].
      * rewrite En. assert (El : (sl_line vb + key <? kb) = false) by (apply Nat.ltb_ge; lia). rewrite El. do 2 f_equal. rewrite (lookup_split m key b kb vb); [f_equal; lia|exact En|lia|intros; apply H2; lia].
      * assert (b = 0) by (destruct b; [reflexivity|specialize (H1 ltac:(lia)); lia]). subst b. do 2 f_equal. symmetry. apply lookup_none. intros j Hj.
        destruct j as [|j]; [rewrite Ekb; lia|apply H2; lia].
Qed.
Lemma increasing_append m k v : increasing m -> Forall (fun e => fst e < k) m -> increasing (sm_append m k v).
Proof.
  unfold sm_append. induction m as [|[k0 v0] m IH]; intros H F; [cbn; auto|]. destruct H as [G H]. inversion F; subst. cbn [app increasing]. split; [|apply IH; assumption].
  apply Forall_app. split; [exact G|]. constructor; [assumption|constructor].
Qed.
