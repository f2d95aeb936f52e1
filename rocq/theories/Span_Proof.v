(** Proofs about the span operations. *)
From Verif Require Import Text TextFacts Span_Model Span_Pure Span_Spec.

(** * Generic facts *)

Lemma bind_ok {A B} (r : res A) (k : A -> res B) b :
  bind r k = Ok b -> exists a, r = Ok a /\ k a = Ok b.
Proof. destruct r as [a| |]; cbn; [eauto|discriminate|discriminate]. Qed.

Lemma rmap_ok {A B} (f : A -> B) r b : rmap f r = Ok b -> exists a, r = Ok a /\ b = f a.
Proof. unfold rmap. intros H. apply bind_ok in H. destruct H as (a & H1 & H2). injection H2 as <-. eauto. Qed.

Lemma clen_utf8 c : length (utf8 c) = clen c.
Proof.
  unfold utf8, clen. destruct (c <? 128)%N; [reflexivity|].
  destruct (c <? 2048)%N; [reflexivity|]. destruct (c <? 65536)%N; reflexivity.
Qed.

Lemma blen_utf8 t : length (utf8_bytes t) = blen t.
Proof.
  induction t as [|c t IH]; [reflexivity|]. unfold utf8_bytes in *. cbn [flat_map blen].
  rewrite app_length, clen_utf8, IH. reflexivity.
Qed.

Lemma count_lf_occ t : count_lf t = count_occ N.eq_dec t LF.
Proof.
  induction t as [|c t IH]; [reflexivity|]. cbn [count_lf count_occ].
  destruct (N.eqb_spec c LF) as [->|Hn]; destruct (N.eq_dec _ LF); try congruence; lia.
Qed.

Lemma count_lf_app a b : count_lf (a ++ b) = count_lf a + count_lf b.
Proof. induction a as [|c a IH]; cbn [count_lf app]; lia. Qed.

Lemma count_lf_0 t : count_lf t = 0 <-> ~ In LF t.
Proof.
  induction t as [|c t IH]; cbn [count_lf]; [easy|].
  destruct (N.eqb_spec c LF) as [->|Hn]; split; intros H.
  - lia.
  - exfalso. apply H. left. reflexivity.
  - intros [E|E]; [congruence|]. apply IH in E; [exact E|lia].
  - cut (count_lf t = 0); [lia|]. apply IH. intros E. apply H. right. exact E.
Qed.

Lemma after_last_lf_none t : count_lf t = 0 -> after_last_lf t = t.
Proof.
  destruct t as [|c t]; [reflexivity|]. cbn [count_lf after_last_lf]. destruct (c =? LF)%N; [lia|].
  intros H. destruct (Nat.ltb_spec 0 (count_lf t)); [lia|reflexivity].
Qed.

Lemma after_last_lf_some t : 0 < count_lf t ->
  exists f, t = f ++ [LF] ++ after_last_lf t /\ count_lf (after_last_lf t) = 0.
Proof.
  induction t as [|c t IH]; cbn [count_lf after_last_lf]; [lia|].
  destruct (N.eqb_spec c LF) as [->|Hn]; intros H.
  - destruct (Nat.eq_dec (count_lf t) 0) as [E|E].
    + exists []. rewrite after_last_lf_none by exact E. auto.
    + destruct IH as (f & Hf & Hc); [lia|]. exists (LF :: f). split; [|exact Hc]. cbn. rewrite Hf at 1. reflexivity.
  - destruct (Nat.ltb_spec 0 (count_lf t)); [|lia].
    destruct IH as (f & Hf & Hc); [lia|]. exists (c :: f). split; [|exact Hc]. cbn. rewrite Hf at 1. reflexivity.
Qed.

Lemma after_last_lf_app_some a b : 0 < count_lf b -> after_last_lf (a ++ b) = after_last_lf b.
Proof.
  intros H. induction a as [|c a IH]; [reflexivity|]. cbn [app after_last_lf].
  rewrite count_lf_app. destruct (c =? LF)%N; [exact IH|].
  destruct (Nat.ltb_spec 0 (count_lf a + count_lf b)); [exact IH|lia].
Qed.

Lemma after_last_lf_app_none a b : count_lf b = 0 -> after_last_lf (a ++ b) = after_last_lf a ++ b.
Proof.
  intros H. induction a as [|c a IH].
  - cbn. apply after_last_lf_none, H.
  - cbn [app after_last_lf]. rewrite count_lf_app, H, Nat.add_0_r.
    destruct (c =? LF)%N; [exact IH|]. destruct (0 <? count_lf a); [exact IH|reflexivity].
Qed.

(** * slice_internal composes *)

Lemma slice_internal_nil s d : slice_internal s [] d = with_data s d.
Proof. reflexivity. Qed.

Lemma slice_internal_eq s pre d :
  slice_internal s pre d =
  mkspan d (sp_line s + count_lf pre)
    (if count_lf pre =? 0 then sp_col s + length pre else S (length (after_last_lf pre)))
    (sp_off s + blen pre).
Proof.
  unfold slice_internal. destruct (Nat.eqb_spec (blen pre) 0) as [E|E].
  - apply blen_0 in E. subst. cbn. f_equal; lia.
  - destruct (Nat.eqb_spec (count_lf pre) 0) as [E2|E2]; f_equal.
    + rewrite after_last_lf_none by exact E2. reflexivity.
    + lia.
Qed.

Lemma sp_data_skip s pre d : sp_data (skip s pre d) = d.
Proof. unfold skip. rewrite slice_internal_eq. reflexivity. Qed.

Lemma sp_data_slice_internal s pre d : sp_data (slice_internal s pre d) = d.
Proof. rewrite slice_internal_eq. reflexivity. Qed.

Lemma sp_off_skip s pre d : sp_off (skip s pre d) = sp_off s + blen pre.
Proof. unfold skip. rewrite slice_internal_eq. reflexivity. Qed.

Lemma skip_skip s a d b e : skip (skip s a d) b e = skip s (a ++ b) e.
Proof.
  unfold skip. rewrite !slice_internal_eq. cbn [sp_line sp_col sp_off].
  rewrite count_lf_app, blen_app, app_length. f_equal; try lia.
  destruct (Nat.eqb_spec (count_lf b) 0) as [Eb|Eb].
  - rewrite Eb, Nat.add_0_r. rewrite after_last_lf_app_none by exact Eb. rewrite app_length.
    destruct (count_lf a =? 0); lia.
  - rewrite after_last_lf_app_some by lia. destruct (Nat.eqb_spec (count_lf a + count_lf b) 0); lia.
Qed.

Lemma skip_with_data s d b e : skip (with_data s d) b e = skip s b e.
Proof. apply (skip_skip s [] d b e). Qed.

Lemma with_data_with_data s d e : with_data (with_data s d) e = with_data s e.
Proof. reflexivity. Qed.

Lemma with_data_skip s a d e : with_data (skip s a d) e = skip s a e.
Proof. rewrite <- (slice_internal_nil (skip s a d) e). fold (skip (skip s a d) [] e). rewrite skip_skip, app_nil_r. reflexivity. Qed.

Lemma with_data_self s : with_data s (sp_data s) = s.
Proof. destruct s; reflexivity. Qed.

Lemma skip_nil s d : skip s [] d = with_data s d.
Proof. reflexivity. Qed.

(** * Sub-spans *)

Definition Sub (s s' : span) : Prop :=
  exists pre post, sp_data s = pre ++ sp_data s' ++ post /\ s' = skip s pre (sp_data s').

Lemma Sub_refl s : Sub s s.
Proof. exists [], []. rewrite app_nil_r. split; [reflexivity|]. rewrite skip_nil, with_data_self. reflexivity. Qed.

Lemma Sub_trans s1 s2 s3 : Sub s1 s2 -> Sub s2 s3 -> Sub s1 s3.
Proof.
  intros (p1 & q1 & D1 & E1) (p2 & q2 & D2 & E2). exists (p1 ++ p2), (q2 ++ q1). split.
  - rewrite D1, D2. rewrite <- !app_assoc. reflexivity.
  - rewrite E2, E1 at 1. rewrite skip_skip. reflexivity.
Qed.

Lemma Sub_intro s pre d post : sp_data s = pre ++ d ++ post -> Sub s (skip s pre d).
Proof. intros H. exists pre, post. rewrite sp_data_skip. split; [exact H|reflexivity]. Qed.

Lemma located_Sub d s s' : located d s -> Sub s s' -> located d s'.
Proof.
  intros (bf & bh & D & L & C & O) (pre & post & D2 & E).
  exists (bf ++ pre), (post ++ bh). split.
  { rewrite D, D2. rewrite <- !app_assoc. reflexivity. }
  rewrite E. unfold skip. rewrite slice_internal_eq. cbn [sp_line sp_col sp_off].
  unfold spec_line, spec_col, spec_offset in *. split; [|split].
  - rewrite count_occ_app, <- !count_lf_occ in *. lia.
  - destruct C as (full & cur & -> & Hcur & Hfull & Hc).
    destruct (Nat.eqb_spec (count_lf pre) 0) as [E0|E0].
    + exists full, (cur ++ pre). rewrite app_assoc. split; [reflexivity|]. split; [|split; [exact Hfull|]].
      * rewrite in_app_iff. apply count_lf_0 in E0. tauto.
      * rewrite app_length. lia.
    + destruct (after_last_lf_some pre) as (f & Hf & Hz); [lia|].
      exists (full ++ cur ++ f ++ [LF]), (after_last_lf pre). split; [|split; [|split]].
      * rewrite Hf at 1. rewrite <- !app_assoc. reflexivity.
      * apply count_lf_0, Hz.
      * right. exists (full ++ cur ++ f). rewrite <- !app_assoc. reflexivity.
      * lia.
  - rewrite blen_utf8 in *. rewrite blen_app. lia.
Qed.

Lemma located_new d : located d (span_new d).
Proof.
  exists [], []. cbn. rewrite app_nil_r. split; [reflexivity|]. split; [reflexivity|].
  split; [|reflexivity]. exists [], []. cbn. repeat split; auto.
Qed.

(** * Slicing *)

Lemma slice_ok s a b c : sp_data s = a ++ b ++ c -> slice s (blen a) (blen (a ++ b)) = Ok (skip s a b).
Proof.
  intros H. unfold slice. rewrite H, app_assoc, bsplit_app, bsplit_app. reflexivity.
Qed.

Lemma slice0_ok s b c : sp_data s = b ++ c -> slice s 0 (blen b) = Ok (with_data s b).
Proof. intros H. apply (slice_ok s [] b c H). Qed.

Lemma slice_from_ok s a b : sp_data s = a ++ b -> slice_from s (blen a) = Ok (skip s a b).
Proof. intros H. unfold slice_from. rewrite H, bsplit_app. reflexivity. Qed.

Lemma slice_to_ok s a b : sp_data s = a ++ b -> slice_to s (blen a) = Ok (with_data s a).
Proof. intros H. unfold slice_to. rewrite H, bsplit_app. reflexivity. Qed.

Lemma slice_Sub s a b s' : slice s a b = Ok s' -> Sub s s'.
Proof.
  unfold slice. destruct (bsplit b (sp_data s)) as [[p q]|] eqn:E1; [|discriminate].
  destruct (bsplit a p) as [[pre d]|] eqn:E2; [|discriminate]. intros H. injection H as <-.
  apply bsplit_some in E1, E2. destruct E1 as [E1 _], E2 as [E2 _].
  apply (Sub_intro s pre d q). rewrite E1, E2, <- app_assoc. reflexivity.
Qed.

Lemma slice_from_Sub s a s' : slice_from s a = Ok s' -> Sub s s'.
Proof.
  unfold slice_from. destruct (bsplit a (sp_data s)) as [[pre d]|] eqn:E; [|discriminate].
  intros H. injection H as <-. apply bsplit_some in E. destruct E as [E _].
  apply (Sub_intro s pre d []). rewrite app_nil_r. exact E.
Qed.

Lemma slice_to_Sub s a s' : slice_to s a = Ok s' -> Sub s s'.
Proof.
  unfold slice_to. destruct (bsplit a (sp_data s)) as [[d q]|] eqn:E; [|discriminate].
  intros H. injection H as <-. apply bsplit_some in E. destruct E as [E _].
  apply (Sub_intro s [] d q). exact E.
Qed.

Definition SubM (s : span) (m : mitem span) : Prop := Sub s (mi_item m) /\ Sub s (mi_after m).

Lemma SubM_trans s s' m : Sub s s' -> SubM s' m -> SubM s m.
Proof. intros H [A B]. split; eapply Sub_trans; eauto. Qed.

Lemma ipr_Sub s n m : into_parse_result s n = Ok m -> SubM s m.
Proof.
  unfold into_parse_result. intros H. apply bind_ok in H. destruct H as (i & Hi & H).
  apply bind_ok in H. destruct H as (a & Ha & H). injection H as <-.
  split; cbn; eauto using slice_to_Sub, slice_from_Sub.
Qed.

Lemma ipr_ok s a b : sp_data s = a ++ b -> into_parse_result s (blen a) = Ok (psplit s a b).
Proof.
  intros H. unfold into_parse_result. rewrite Nat.min_r by (rewrite H, blen_app; lia).
  rewrite (slice_to_ok s a b H). cbn [bind]. rewrite (slice_from_ok s a b H). reflexivity.
Qed.

Lemma ipr_all s : into_parse_result s (blen (sp_data s)) = Ok (psplit s (sp_data s) []).
Proof. apply ipr_ok. rewrite app_nil_r. reflexivity. Qed.

(** * position *)
Lemma position_spec p t :
  position p t = match snd (span_while (fun c => negb (p c)) t) with
                 | [] => None
                 | _ => Some (blen (fst (span_while (fun c => negb (p c)) t)))
                 end.
Proof.
  induction t as [|c t IH]; [reflexivity|]. cbn [position span_while].
  destruct (p c); cbn; [reflexivity|]. rewrite IH.
  destruct (span_while (fun c => negb (p c)) t) as [a b]; cbn. destruct b; reflexivity.
Qed.

Lemma span_while_ext p q t : (forall c, p c = q c) -> span_while p t = span_while q t.
Proof. intros H. induction t as [|c t IH]; [reflexivity|]. cbn. rewrite H, IH. reflexivity. Qed.

Lemma span_while_negneg p t : span_while (fun c => negb (negb (p c))) t = span_while p t.
Proof. apply span_while_ext. intros c. apply negb_involutive. Qed.

Lemma take_while_ok s p : take_while s p = Ok (p_take_while s p).
Proof.
  unfold take_while, p_take_while. rewrite position_spec, span_while_negneg.
  pose proof (span_while_app p (sp_data s)) as H.
  destruct (span_while p (sp_data s)) as [a b]; cbn in *. destruct b as [|c b].
  - rewrite app_nil_r in H. subst a. apply ipr_all.
  - apply ipr_ok. symmetry. exact H.
Qed.

Lemma take_required_whitespace_ok s : take_required_whitespace s = Ok (p_take_required_whitespace s).
Proof. unfold take_required_whitespace. rewrite take_while_ok. reflexivity. Qed.

Lemma discard_whitespace_ok s : discard_whitespace s = Ok (p_discard_whitespace s).
Proof. unfold discard_whitespace, take_whitespace. rewrite take_while_ok. reflexivity. Qed.

Lemma discard_all_ok s : discard_all s = Ok (p_discard_all s).
Proof. unfold discard_all, discard. rewrite ipr_all. reflexivity. Qed.

Lemma take_prefix_ok s p : take_prefix s p = Ok (p_take_prefix s p).
Proof.
  unfold take_prefix, p_take_prefix. destruct (starts_with p (sp_data s)) eqn:E; [|reflexivity].
  apply starts_with_spec in E. destruct E as [r E].
  rewrite (ipr_ok s p r E). cbn [bind]. rewrite E, skipn_app, skipn_all, Nat.sub_diag. reflexivity.
Qed.

Lemma discard_ok s n :
  Forall (fun c => (c < 128)%N) (firstn n (sp_data s)) -> discard s n = Ok (p_discard s n).
Proof.
  intros H. unfold discard, p_discard.
  assert (Hb : forall l : text, Forall (fun c => (c < 128)%N) l -> blen l = length l).
  { induction 1 as [|c l Hc Hl IH]; [reflexivity|]. cbn [blen length]. rewrite IH. unfold clen.
    destruct (N.ltb_spec c 128); lia. }
  destruct (le_lt_dec n (length (sp_data s))) as [Hn|Hn].
  - assert (E : n = blen (firstn n (sp_data s))) by (rewrite Hb by exact H; rewrite firstn_length; lia).
    rewrite E at 1. rewrite (ipr_ok s _ (skipn n (sp_data s))); [reflexivity|]. symmetry. apply firstn_skipn.
  - rewrite firstn_all2 in * by lia. rewrite skipn_all2 by lia.
    unfold into_parse_result. rewrite Nat.min_l by (rewrite Hb by exact H; lia).
    rewrite (slice_to_ok s (sp_data s) []) by (rewrite app_nil_r; reflexivity). cbn [bind].
    rewrite (slice_from_ok s (sp_data s) []) by (rewrite app_nil_r; reflexivity). reflexivity.
Qed.

(** * Trimming of matched items *)

Lemma trim_after_ok m c :
  trim_after_start_matches m c =
  Ok (match sp_data (mi_after m) with
      | x :: r => if (x =? c)%N then mkmi (mi_item m) (skip (mi_after m) [x] r) else m
      | [] => m
      end).
Proof.
  unfold trim_after_start_matches. destruct (sp_data (mi_after m)) as [|x r] eqn:E; [reflexivity|].
  destruct (x =? c)%N; [|reflexivity].
  replace (blen (x :: r) - blen r) with (blen [x]) by (cbn [blen]; lia).
  rewrite (slice_from_ok _ [x] r) by exact E. reflexivity.
Qed.

Lemma strip_suffix_spec c t r : strip_suffix_c c t = Some r -> t = r ++ [c].
Proof.
  unfold strip_suffix_c. destruct (rev t) as [|x l] eqn:E; [discriminate|].
  destruct (N.eqb_spec x c) as [->|]; [|discriminate]. intros H. injection H as <-.
  rewrite <- (rev_involutive t), E. reflexivity.
Qed.

Lemma strip_suffix_none c t : strip_suffix_c c t = None -> forall r, t <> r ++ [c].
Proof.
  unfold strip_suffix_c. intros H r ->. rewrite rev_app_distr in H. cbn in H.
  rewrite N.eqb_refl in H. discriminate.
Qed.

Lemma strip_suffix_app c r : strip_suffix_c c (r ++ [c]) = Some r.
Proof. unfold strip_suffix_c. rewrite rev_app_distr. cbn. rewrite N.eqb_refl, rev_involutive. reflexivity. Qed.

Definition strip1 (c : char) (t : text) : text :=
  match strip_suffix_c c t with Some x => x | None => t end.

Lemma trim_item_end_ok m c :
  trim_item_end_matches m c =
  Ok (mkmi (with_data (mi_item m) (strip1 c (sp_data (mi_item m)))) (mi_after m)).
Proof.
  unfold trim_item_end_matches, strip1. destruct (strip_suffix_c c (sp_data (mi_item m))) as [r|] eqn:E.
  - apply strip_suffix_spec in E. rewrite (slice0_ok _ r [c]) by exact E. reflexivity.
  - rewrite with_data_self. destruct m; reflexivity.
Qed.

Lemma trim_item_spaces_ok m :
  trim_item_trailing_spaces m =
  Ok (mkmi (with_data (mi_item m) (trim_end_by (N.eqb SP) (sp_data (mi_item m)))) (mi_after m)).
Proof.
  unfold trim_item_trailing_spaces.
  destruct (trim_end_by_app (N.eqb SP) (sp_data (mi_item m))) as (w & Hw & _).
  rewrite (slice0_ok _ _ w) by exact Hw. reflexivity.
Qed.

(** * Lines *)

Lemma is_not_lf_neg c : negb (N.eqb LF c) = is_not_lf c.
Proof. unfold is_not_lf. rewrite N.eqb_sym. reflexivity. Qed.

Lemma span_while_lf t : span_while (fun c => negb (N.eqb LF c)) t = span_while is_not_lf t.
Proof. apply span_while_ext. exact is_not_lf_neg. Qed.

Lemma span_lf_tail t c r : snd (span_while is_not_lf t) = c :: r -> c = LF.
Proof.
  intros H. apply span_while_stop in H. unfold is_not_lf in H.
  destruct (N.eqb_spec c LF); [assumption|discriminate].
Qed.

Lemma take_line_ok s : take_line s = Ok (p_take_line s).
Proof.
  unfold take_line, p_take_line. rewrite position_spec, span_while_lf.
  pose proof (span_while_app is_not_lf (sp_data s)) as H.
  pose proof (span_lf_tail (sp_data s)) as Ht.
  destruct (span_while is_not_lf (sp_data s)) as [l r]; cbn in *. destruct r as [|c r].
  - rewrite app_nil_r in H. subst l. rewrite ipr_all. cbn [bind].
    rewrite trim_after_ok. cbn [psplit mi_after]. rewrite sp_data_skip. cbn [bind].
    rewrite trim_item_end_ok. reflexivity.
  - specialize (Ht c r eq_refl). subst c.
    rewrite (ipr_ok s l (LF :: r)) by (symmetry; exact H). cbn [bind].
    rewrite trim_after_ok. cbn [psplit mi_after mi_item]. rewrite sp_data_skip, N.eqb_refl. cbn [bind].
    rewrite trim_item_end_ok. cbn [mi_item mi_after]. rewrite skip_skip. reflexivity.
Qed.

Lemma take_normalized_line_ok s : take_normalized_line s = Ok (p_take_normalized_line s).
Proof.
  unfold take_normalized_line. rewrite take_line_ok. cbn [bind]. rewrite trim_item_spaces_ok.
  unfold p_take_normalized_line, p_take_line. destruct (span_while is_not_lf (sp_data s)). reflexivity.
Qed.

Lemma take_non_empty_line_ok s : take_non_empty_line s = Ok (p_take_non_empty_line s).
Proof.
  unfold take_non_empty_line, p_take_non_empty_line, split_at_match_non_empty.
  destruct (sp_data s) as [|c0 d] eqn:Ed; [reflexivity|].
  rewrite position_spec, span_while_lf.
  destruct (N.eqb_spec c0 LF) as [->|Hne].
  { cbn. reflexivity. }
  pose proof (span_while_app is_not_lf (c0 :: d)) as H.
  pose proof (span_lf_tail (c0 :: d)) as Ht.
  assert (Hc0 : is_not_lf c0 = true) by (unfold is_not_lf; destruct (N.eqb_spec c0 LF); [congruence|reflexivity]).
  assert (Hl : exists l', fst (span_while is_not_lf (c0 :: d)) = c0 :: l').
  { cbn. rewrite Hc0. destruct (span_while is_not_lf d). cbn. eauto. }
  unfold p_take_normalized_line, p_take_line. rewrite Ed.
  destruct (span_while is_not_lf (c0 :: d)) as [l r] eqn:Es. cbn [fst snd] in *.
  destruct Hl as [l' ->]. destruct r as [|c r].
  - rewrite app_nil_r in H. rewrite <- Ed, ipr_all. cbn [bind].
    rewrite trim_after_ok. cbn [psplit mi_after]. rewrite sp_data_skip. cbn [bind].
    rewrite trim_item_end_ok. cbn [bind]. rewrite trim_item_spaces_ok. cbn [bind mi_item mi_after with_data sp_data].
    rewrite Ed, H. unfold strip1, strip_cr. reflexivity.
  - specialize (Ht c r eq_refl). subst c.
    destruct (blen (c0 :: l')) as [|k] eqn:Eb; [pose proof (blen_cons_pos c0 l'); lia|].
    rewrite <- Eb, (ipr_ok s (c0 :: l') (LF :: r)) by (rewrite Ed; symmetry; exact H). cbn [bind].
    rewrite trim_after_ok. cbn [psplit mi_after mi_item]. rewrite sp_data_skip, N.eqb_refl. cbn [bind].
    rewrite trim_item_end_ok. cbn [bind]. rewrite trim_item_spaces_ok. cbn [bind mi_item mi_after].
    rewrite skip_skip. unfold strip1, strip_cr. reflexivity.
Qed.

Lemma take_empty_line_ok s : take_empty_line s = Ok (p_take_empty_line s).
Proof. unfold take_empty_line. rewrite take_line_ok. reflexivity. Qed.

Lemma p_take_line_after_len s : sp_data s <> [] ->
  length (sp_data (mi_after (p_take_line s))) < length (sp_data s).
Proof.
  intros Hne. unfold p_take_line.
  pose proof (span_while_app is_not_lf (sp_data s)) as H.
  destruct (span_while is_not_lf (sp_data s)) as [l r]. cbn [fst snd] in H. cbn [mi_after].
  rewrite <- H. destruct r as [|c r]; rewrite sp_data_skip, app_length; cbn [length].
  - destruct l; [|cbn; lia]. cbn in H. congruence.
  - lia.
Qed.

Lemma discard_empty_lines_go_ok fuel : forall s, length (sp_data s) <= fuel ->
  discard_empty_lines_go fuel s = Ok (p_discard_empty_lines_go fuel s).
Proof.
  induction fuel as [|f IH]; intros s Hf; cbn [discard_empty_lines_go p_discard_empty_lines_go].
  - destruct (sp_data s); [reflexivity|cbn in Hf; lia].
  - destruct (sp_data s) as [|c d] eqn:E; [reflexivity|]. rewrite take_empty_line_ok. cbn [bind].
    unfold p_take_empty_line. destruct (forallb _ _); [|reflexivity]. apply IH.
    pose proof (p_take_line_after_len s) as Hl. rewrite E in Hl. specialize (Hl ltac:(easy)). rewrite <- E in Hf.
    rewrite E in Hf. lia.
Qed.

Lemma discard_empty_lines_ok s : discard_empty_lines s = Ok (p_discard_empty_lines s).
Proof. apply discard_empty_lines_go_ok. lia. Qed.

(** Trailing trims. *)
Lemma trim_trailing_whitespace_ok s : trim_trailing_whitespace s = Ok (p_trim_trailing_whitespace s).
Proof.
  unfold trim_trailing_whitespace. destruct (trim_end_by_app is_ws (sp_data s)) as (w & Hw & _).
  apply (slice0_ok s _ w). exact Hw.
Qed.

Lemma trim_trailing_line_end_ok s : trim_trailing_line_end s = Ok (p_trim_trailing_line_end s).
Proof.
  unfold trim_trailing_line_end, p_trim_trailing_line_end.
  destruct (ends_with [CR; LF] (sp_data s)) eqn:E1.
  - apply ends_with_spec in E1. destruct E1 as [r E1]. rewrite E1, rev_app_distr. cbn [rev app].
    rewrite N.eqb_refl, blen_app. cbn [blen]. change (clen CR) with 1. change (clen LF) with 1.
    replace (blen r + (1 + (1 + 0)) - 2) with (blen r) by lia.
    rewrite (slice0_ok s r [CR; LF]) by exact E1.
    unfold strip_cr. rewrite rev_involutive, strip_suffix_app. reflexivity.
  - destruct (ends_with [LF] (sp_data s)) eqn:E2.
    + apply ends_with_spec in E2. destruct E2 as [r E2].
      rewrite E2 in *. rewrite rev_app_distr. cbn [rev app]. rewrite N.eqb_refl, blen_app. cbn [blen].
      change (clen LF) with 1. replace (blen r + (1 + 0) - 1) with (blen r) by lia.
      rewrite (slice0_ok s r [LF]) by exact E2. rewrite rev_involutive.
      unfold strip_cr. destruct (strip_suffix_c CR r) as [x|] eqn:E3; [|reflexivity].
      apply strip_suffix_spec in E3. exfalso.
      assert (Hc : ends_with [CR; LF] (r ++ [LF]) = true)
        by (apply ends_with_spec; exists x; rewrite E3, <- app_assoc; reflexivity).
      congruence.
    + destruct (rev (sp_data s)) as [|x r] eqn:E3; [reflexivity|].
      destruct (N.eqb_spec x LF) as [->|]; [|reflexivity].
      assert (Hc : ends_with [LF] (sp_data s) = true)
        by (apply ends_with_spec; exists (rev r); rewrite <- (rev_involutive (sp_data s)), E3; reflexivity).
      congruence.
Qed.

(** Names. *)
Lemma take_name_ok first more s : take_name first more s = Ok (p_take_name first more s).
Proof.
  unfold take_name, p_take_name. destruct (sp_data s) as [|c r] eqn:E; [reflexivity|].
  destruct (first c); [|reflexivity]. rewrite position_spec, span_while_negneg.
  pose proof (span_while_app more r) as H.
  destruct (span_while more r) as [a b]; cbn [fst snd] in *. destruct b as [|x b].
  - rewrite app_nil_r in H. subst a. rewrite <- E, ipr_all. cbn [bind]. rewrite E. reflexivity.
  - change (clen c + blen a) with (blen (c :: a)). rewrite (ipr_ok s (c :: a) (x :: b)); [reflexivity|].
    rewrite E, <- H. reflexivity.
Qed.

(** Quoted strings. *)
Lemma quoted_end_split delim : forall t b i,
  quoted_end delim b i t = match quoted_split delim b t with
                           | Some (x, _) => Some (i + blen x) | None => None end.
Proof.
  induction t as [|c t IH]; intros b i; [reflexivity|]. cbn [quoted_end quoted_split].
  destruct ((c =? delim)%N && negb b); [cbn; f_equal; lia|]. rewrite IH.
  destruct (quoted_split delim (c =? BSL)%N t) as [[x y]|]; [|reflexivity]. cbn [blen]. f_equal. lia.
Qed.

Lemma quoted_split_app delim : forall t b x y, quoted_split delim b t = Some (x, y) -> t = x ++ delim :: y.
Proof.
  induction t as [|c t IH]; intros b x y H; [discriminate|]. cbn [quoted_split] in H.
  destruct (N.eqb_spec c delim) as [->|Hn]; cbn [andb] in H.
  - destruct b; cbn [negb] in H; [|injection H as <- <-; reflexivity].
    destruct (quoted_split delim _ t) as [[x' y']|] eqn:E; [|discriminate]. injection H as <- <-.
    apply IH in E. cbn. congruence.
  - destruct (quoted_split delim _ t) as [[x' y']|] eqn:E; [|discriminate]. injection H as <- <-.
    apply IH in E. cbn. congruence.
Qed.

Lemma take_quoted_string_ok s : take_quoted_string s = Ok (p_take_quoted_string s).
Proof.
  unfold take_quoted_string, p_take_quoted_string. destruct (sp_data s) as [|c r] eqn:E; [reflexivity|].
  destruct ((c =? 39) || (c =? 34))%N eqn:Eq; [|reflexivity].
  rewrite quoted_end_split. destruct (quoted_split c false r) as [[a b]|] eqn:Es; [|reflexivity].
  apply quoted_split_app in Es.
  assert (Hc : clen c = 1) by (unfold clen; destruct (N.ltb_spec c 128); lia).
  replace (1 + blen a) with (blen ([c] ++ a)) by (cbn [app blen]; lia).
  replace 1 with (blen [c]) at 1 by (cbn [blen]; lia).
  rewrite (slice_ok s [c] a (c :: b)) by (rewrite E, Es; reflexivity). cbn [bind].
  replace (blen ([c] ++ a) + 1) with (blen (c :: a ++ [c])) by (cbn [app blen]; rewrite blen_app; cbn [blen]; lia).
  rewrite (slice_from_ok s (c :: a ++ [c]) b); [reflexivity|].
  rewrite E, Es. cbn. rewrite <- app_assoc. reflexivity.
Qed.

(** Continuation lines. *)

Lemma p_take_line_Sub s : SubM s (p_take_line s).
Proof.
  unfold p_take_line. pose proof (span_while_app is_not_lf (sp_data s)) as H.
  destruct (span_while is_not_lf (sp_data s)) as [l r]; cbn [fst snd] in H. split; cbn [mi_item mi_after].
  - unfold strip_cr. destruct (strip_suffix_c CR l) as [x|] eqn:E.
    + apply strip_suffix_spec in E. rewrite <- skip_nil. apply (Sub_intro s [] x ([CR] ++ r)).
      rewrite <- H, E, <- app_assoc. reflexivity.
    + rewrite <- skip_nil. apply (Sub_intro s [] l r). symmetry. exact H.
  - destruct r as [|c r].
    + apply (Sub_intro s l [] []). symmetry. exact H.
    + apply (Sub_intro s (l ++ [c]) r []). rewrite app_nil_r, <- app_assoc. symmetry. exact H.
Qed.

Lemma p_take_normalized_line_Sub s : SubM s (p_take_normalized_line s).
Proof.
  destruct (p_take_line_Sub s) as [Hi Ha]. split; [|exact Ha].
  unfold p_take_normalized_line. cbn [mi_item].
  apply (Sub_trans s (mi_item (p_take_line s))); [exact Hi|].
  destruct (trim_end_by_app (N.eqb SP) (sp_data (mi_item (p_take_line s)))) as (w & Hw & _).
  replace (with_data s (trim_end_by (N.eqb SP) (sp_data (mi_item (p_take_line s)))))
    with (skip (mi_item (p_take_line s)) [] (trim_end_by (N.eqb SP) (sp_data (mi_item (p_take_line s))))).
  - apply (Sub_intro _ [] _ w). exact Hw.
  - rewrite skip_nil. unfold p_take_line. destruct (span_while is_not_lf (sp_data s)). reflexivity.
Qed.

(** A suffix: what parsing functions return as [after]. *)
Definition Suffix (s s' : span) : Prop :=
  exists pre, sp_data s = pre ++ sp_data s' /\ s' = skip s pre (sp_data s').

Lemma Suffix_refl s : Suffix s s.
Proof. exists []. rewrite skip_nil, with_data_self. auto. Qed.

Lemma Suffix_trans a b c : Suffix a b -> Suffix b c -> Suffix a c.
Proof.
  intros (p & D & E) (q & D2 & E2). exists (p ++ q). split.
  - rewrite D, D2, app_assoc. reflexivity.
  - rewrite E2, E at 1. apply skip_skip.
Qed.

Lemma Suffix_intro s pre d : sp_data s = pre ++ d -> Suffix s (skip s pre d).
Proof. intros H. exists pre. rewrite sp_data_skip. auto. Qed.

Lemma Suffix_Sub s s' : Suffix s s' -> Sub s s'.
Proof. intros (p & D & E). exists p, []. rewrite app_nil_r. auto. Qed.

Lemma p_take_line_Suffix s : Suffix s (mi_after (p_take_line s)).
Proof.
  unfold p_take_line. pose proof (span_while_app is_not_lf (sp_data s)) as H.
  destruct (span_while is_not_lf (sp_data s)) as [l r]; cbn [fst snd] in H. cbn [mi_after].
  destruct r as [|c r].
  - apply Suffix_intro. symmetry. exact H.
  - apply Suffix_intro. rewrite <- app_assoc. symmetry. exact H.
Qed.

Lemma continuation_go_ok fuel : forall m, length (sp_data (mi_after m)) <= fuel ->
  exists m', continuation_go fuel m = Ok m' /\ mi_after m' = p_continuation_go fuel (mi_after m).
Proof.
  induction fuel as [|f IH]; intros m Hf; cbn [continuation_go p_continuation_go];
    unfold one_line_with_continuation; rewrite take_normalized_line_ok; cbn [bind].
  - destruct (ends_with [BSL] _) eqn:E; cbn [bind]; [|eauto].
    exfalso. assert (Hn : sp_data (mi_after m) = []) by (destruct (sp_data (mi_after m)); [reflexivity|cbn in Hf; lia]).
    unfold p_take_normalized_line, p_take_line in E. rewrite Hn in E. cbn in E. discriminate.
  - destruct (ends_with [BSL] _) eqn:E; cbn [bind]; [|eauto]. apply IH.
    cbn [p_take_normalized_line mi_after].
    destruct (sp_data (mi_after m)) as [|c d] eqn:Ed.
    { unfold p_take_normalized_line, p_take_line in E. rewrite Ed in E. cbn in E. discriminate. }
    pose proof (p_take_line_after_len (mi_after m)) as Hl. rewrite Ed in Hl. specialize (Hl ltac:(easy)). lia.
Qed.

Lemma p_continuation_go_Suffix fuel : forall s, Suffix s (p_continuation_go fuel s).
Proof.
  induction fuel as [|f IH]; intros s; cbn [p_continuation_go].
  - destruct (ends_with _ _); apply Suffix_refl.
  - destruct (ends_with _ _); [|apply Suffix_refl].
    eapply Suffix_trans; [apply p_take_line_Suffix|apply IH].
Qed.

Lemma take_line_with_continuation_ok s :
  take_line_with_continuation s = Ok (p_take_line_with_continuation s).
Proof.
  unfold take_line_with_continuation.
  change (into_parse_result s 0) with (into_parse_result s (blen [])).
  rewrite (ipr_ok s [] (sp_data s)) by reflexivity. cbn [bind].
  assert (E0 : mi_after (psplit s [] (sp_data s)) = s) by (cbn [psplit mi_after]; rewrite skip_nil; apply with_data_self).
  destruct (continuation_go_ok (length (sp_data s)) (psplit s [] (sp_data s))) as (m' & Hm & Ha).
  { rewrite E0. lia. }
  rewrite Hm. cbn [bind]. rewrite take_line_ok. cbn [bind]. rewrite Ha, E0.
  unfold p_take_line_with_continuation.
  set (last := p_continuation_go (length (sp_data s)) s).
  assert (Hs : Suffix s (mi_after (p_take_line last)))
    by (eapply Suffix_trans; [apply p_continuation_go_Suffix|apply p_take_line_Suffix]).
  set (after := mi_after (p_take_line last)) in *. destruct Hs as (pre & D & E).
  assert (Ho : sp_off after = sp_off s + blen pre) by (rewrite E; apply sp_off_skip).
  unfold checked_sub. rewrite Ho. destruct (Nat.leb_spec (sp_off s) (sp_off s + blen pre)); [|lia].
  cbn [bind]. replace (sp_off s + blen pre - sp_off s) with (blen pre) by lia.
  rewrite (ipr_ok s pre (sp_data after)) by exact D. cbn [bind].
  rewrite trim_item_end_ok. cbn [bind]. rewrite trim_item_end_ok. cbn [bind].
  rewrite trim_item_spaces_ok. cbn [bind mi_item mi_after psplit with_data sp_data].
  assert (Hpre : firstn (length (sp_data s) - length (sp_data after)) (sp_data s) = pre).
  { rewrite D, app_length. replace (length pre + _ - _) with (length pre) by lia.
    rewrite firstn_app, Nat.sub_diag, firstn_all. cbn. apply app_nil_r. }
  rewrite Hpre. unfold strip1, strip_suffix_c. cbv zeta. reflexivity.
Qed.

(** trim_remainder *)
Lemma trim_remainder_ok s after : Suffix s after -> trim_remainder s after = Ok (p_trim_remainder s after).
Proof.
  intros (pre & D & E). unfold trim_remainder, p_trim_remainder.
  assert (Ho : sp_off after = sp_off s + blen pre) by (rewrite E; apply sp_off_skip).
  assert (Hpre : firstn (length (sp_data s) - length (sp_data after)) (sp_data s) = pre).
  { rewrite D, app_length. replace (length pre + _ - _) with (length pre) by lia.
    rewrite firstn_app, Nat.sub_diag, firstn_all. cbn. apply app_nil_r. }
  rewrite Hpre, Ho, D, blen_app. rewrite Nat.min_r by lia.
  destruct (Nat.leb_spec (sp_off s + blen pre) (sp_off s)) as [H|H].
  - assert (Hp : pre = []) by (apply blen_0; lia). rewrite Hp.
    apply (slice0_ok s [] (sp_data s)). reflexivity.
  - replace (sp_off s + blen pre - sp_off s) with (blen pre) by lia.
    apply (slice0_ok s pre (sp_data after)). exact D.
Qed.

Lemma trim_remainder_Sub s after s' : trim_remainder s after = Ok s' -> Sub s s'.
Proof. unfold trim_remainder. destruct (_ <=? _); apply slice_Sub. Qed.

(** * Every operation gives sub-spans *)

Lemma p_take_while_Sub s p : SubM s (p_take_while s p).
Proof.
  unfold p_take_while. pose proof (span_while_app p (sp_data s)) as H.
  destruct (span_while p (sp_data s)) as [a b]; cbn [fst snd] in H. split; cbn.
  - rewrite <- skip_nil. apply (Sub_intro s [] a b). symmetry. exact H.
  - apply (Sub_intro s a b []). rewrite app_nil_r. symmetry. exact H.
Qed.

Lemma p_take_name_Sub first more s m : p_take_name first more s = Some m -> SubM s m.
Proof.
  unfold p_take_name. destruct (sp_data s) as [|c r] eqn:E; [discriminate|].
  destruct (first c); [|discriminate]. pose proof (span_while_app more r) as H.
  destruct (span_while more r) as [a b]; cbn [fst snd] in H. intros Hm. injection Hm as <-. split; cbn.
  - rewrite <- skip_nil. apply (Sub_intro s [] (c :: a) b). rewrite E, <- H. reflexivity.
  - apply (Sub_intro s (c :: a) b []). rewrite app_nil_r, E, <- H. reflexivity.
Qed.

Lemma p_discard_empty_lines_go_Suffix fuel : forall s, Suffix s (p_discard_empty_lines_go fuel s).
Proof.
  induction fuel as [|f IH]; intros s; cbn [p_discard_empty_lines_go].
  - destruct (sp_data s); apply Suffix_refl.
  - destruct (sp_data s); [apply Suffix_refl|]. unfold p_take_empty_line.
    destruct (forallb _ _); [|apply Suffix_refl]. eapply Suffix_trans; [apply p_take_line_Suffix|apply IH].
Qed.

Lemma p_take_line_cont_Sub s m : p_take_line_with_continuation s = Some m -> SubM s m.
Proof.
  unfold p_take_line_with_continuation.
  set (last := p_continuation_go (length (sp_data s)) s).
  assert (Hs : Suffix s (mi_after (p_take_line last)))
    by (eapply Suffix_trans; [apply p_continuation_go_Suffix|apply p_take_line_Suffix]).
  set (after := mi_after (p_take_line last)) in *. destruct Hs as (pre & D & E).
  assert (Hpre : firstn (length (sp_data s) - length (sp_data after)) (sp_data s) = pre).
  { rewrite D, app_length. replace (length pre + _ - _) with (length pre) by lia.
    rewrite firstn_app, Nat.sub_diag, firstn_all. cbn. apply app_nil_r. }
  rewrite Hpre. cbv zeta. fold (strip1 LF pre). fold (strip1 CR (strip1 LF pre)).
  set (d := trim_end_by (N.eqb SP) (strip1 CR (strip1 LF pre))).
  assert (Hd : exists w, pre = d ++ w).
  { assert (S1 : forall c t, exists w, t = strip1 c t ++ w).
    { intros c t. unfold strip1. destruct (strip_suffix_c c t) eqn:Es.
      - apply strip_suffix_spec in Es. eauto.
      - exists []. rewrite app_nil_r. reflexivity. }
    destruct (S1 LF pre) as [w1 H1]. destruct (S1 CR (strip1 LF pre)) as [w2 H2].
    destruct (trim_end_by_app (N.eqb SP) (strip1 CR (strip1 LF pre))) as (w3 & H3 & _).
    exists (w3 ++ w2 ++ w1). subst d. rewrite H1 at 1. rewrite H2 at 1. rewrite H3 at 1.
    rewrite <- !app_assoc. reflexivity. }
  destruct Hd as [w Hd]. intros H.
  assert (Hm : m = mkmi (with_data s d) (skip s pre (sp_data after))) by (destruct d; [discriminate|congruence]).
  subst m. split; cbn [mi_item mi_after].
  - rewrite <- skip_nil. apply (Sub_intro s [] d (w ++ sp_data after)). rewrite D, Hd, <- app_assoc. reflexivity.
  - apply (Sub_intro s pre (sp_data after) []). rewrite app_nil_r. exact D.
Qed.

Lemma both_Sub s m s' : SubM s m -> In s' (both m) -> Sub s s'.
Proof. intros [H1 H2] [E|[E|[]]]; subst; assumption. Qed.

Lemma op_results_Sub o s l s' : op_results o s = Ok l -> In s' l -> Sub s s'.
Proof.
  assert (One : forall (r : res span), (forall x, r = Ok x -> Sub s x) ->
                rmap (fun x => [x]) r = Ok l -> In s' l -> Sub s s').
  { intros r Hr H Hin. apply rmap_ok in H. destruct H as (x & Hx & ->). destruct Hin as [<-|[]]. auto. }
  assert (Two : forall (r : res (mitem span)), (forall x, r = Ok x -> SubM s x) ->
                rmap both r = Ok l -> In s' l -> Sub s s').
  { intros r Hr H Hin. apply rmap_ok in H. destruct H as (x & Hx & ->). eapply both_Sub; eauto. }
  assert (Opt : forall (r : res (option (mitem span))), (forall x, r = Ok (Some x) -> SubM s x) ->
                rmap both_o r = Ok l -> In s' l -> Sub s s').
  { intros r Hr H Hin. apply rmap_ok in H. destruct H as (x & Hx & ->).
    destruct x as [x|]; [|destruct Hin]. eapply both_Sub; eauto. }
  destruct o; cbn [op_results].
  - apply One. intros x. apply slice_Sub.
  - apply One. intros x. apply slice_from_Sub.
  - apply One. intros x. apply slice_to_Sub.
  - apply Two. intros x. apply ipr_Sub.
  - apply Opt. intros x H. unfold split_at_match_non_empty in H.
    destruct (position p (sp_data s)) as [[|k]|]; [discriminate| |].
    + apply bind_ok in H. destruct H as (y & Hy & H). injection H as <-. eapply ipr_Sub; eauto.
    + destruct (sp_data s); [discriminate|]. apply bind_ok in H. destruct H as (y & Hy & H). injection H as <-. eapply ipr_Sub; eauto.
  - apply Two. intros x H. rewrite take_while_ok in H. injection H as <-. apply p_take_while_Sub.
  - apply Opt. intros x H. unfold take_prefix in H. destruct (starts_with _ _); [|discriminate].
    apply bind_ok in H. destruct H as (y & Hy & H). injection H as <-. eapply ipr_Sub; eauto.
  - apply Opt. intros x H. rewrite take_required_whitespace_ok in H. injection H as H.
    unfold p_take_required_whitespace in H. destruct (sp_data _); [discriminate|]. injection H as <-. apply p_take_while_Sub.
  - apply One. intros x H. unfold discard in H. apply bind_ok in H. destruct H as (y & Hy & H). injection H as <-.
    apply ipr_Sub in Hy. apply Hy.
  - apply One. intros x H. rewrite discard_whitespace_ok in H. injection H as <-. apply p_take_while_Sub.
  - apply One. intros x H. rewrite discard_all_ok in H. injection H as <-. apply (Sub_intro s (sp_data s) [] []). rewrite app_nil_r. reflexivity.
  - apply One. intros x H. rewrite discard_empty_lines_ok in H. injection H as <-. apply Suffix_Sub, p_discard_empty_lines_go_Suffix.
  - apply One. intros x. apply slice_Sub.
  - apply One. intros x H. unfold trim_trailing_line_end in H.
    destruct (ends_with [CR; LF] _); [eapply slice_Sub; eauto|]. destruct (ends_with [LF] _); [eapply slice_Sub; eauto|].
    injection H as <-. apply Sub_refl.
  - apply Two. intros x H. rewrite take_line_ok in H. injection H as <-. apply p_take_line_Sub.
  - apply Two. intros x H. rewrite take_normalized_line_ok in H. injection H as <-. apply p_take_normalized_line_Sub.
  - apply Opt. intros x H. rewrite take_non_empty_line_ok in H. injection H as H. unfold p_take_non_empty_line in H.
    destruct (sp_data s); [discriminate|]. destruct (_ =? _)%N; [discriminate|].
    destruct (sp_data (mi_item _)); [discriminate|]. injection H as <-. apply p_take_normalized_line_Sub.
  - apply Opt. intros x H. rewrite take_empty_line_ok in H. injection H as H. unfold p_take_empty_line in H.
    destruct (forallb _ _); [|discriminate]. injection H as <-. apply p_take_line_Sub.
  - apply Opt. intros x H. rewrite take_line_with_continuation_ok in H. injection H as H. apply p_take_line_cont_Sub. exact H.
  - apply Opt. intros x H. unfold take_ident in H. rewrite take_name_ok in H. injection H as H. eapply p_take_name_Sub; eauto.
  - apply Opt. intros x H. unfold take_attr_name in H. rewrite take_name_ok in H. injection H as H. eapply p_take_name_Sub; eauto.
  - apply Opt. intros x H. unfold take_user_attr_name in H. rewrite take_name_ok in H. injection H as H. eapply p_take_name_Sub; eauto.
  - apply Opt. intros x H. rewrite take_quoted_string_ok in H. injection H as H. unfold p_take_quoted_string in H.
    destruct (sp_data s) as [|c r] eqn:E; [discriminate|]. destruct (_ || _); [|discriminate].
    destruct (quoted_split c false r) as [[a b]|] eqn:Es; [|discriminate]. injection H as <-. apply quoted_split_app in Es. split; cbn.
    + apply (Sub_intro s [c] a (c :: b)). rewrite E, Es. reflexivity.
    + apply (Sub_intro s (c :: a ++ [c]) b []). rewrite E, Es, app_nil_r. cbn. rewrite <- app_assoc. reflexivity.
  - apply One. intros x. apply trim_remainder_Sub.
Qed.

Lemma derives_Sub s s' : derives s s' -> Sub s s'.
Proof.
  induction 1 as [|s1 o l s2 _ IH Ho Hin]; [apply Sub_refl|].
  eapply Sub_trans; [exact IH|]. eapply op_results_Sub; eauto.
Qed.

Lemma located_derives d s s' : located d s -> derives s s' -> located d s'.
Proof. intros H D. eapply located_Sub; [exact H|]. apply derives_Sub, D. Qed.

(** * No panics *)

Lemma index_free_no_panic o s : index_free o -> exists l, op_results o s = Ok l.
Proof.
  destruct o; cbn [index_free]; intros H; try contradiction; cbn [op_results]; unfold rmap.
  - unfold split_at_match_non_empty. rewrite position_spec.
    pose proof (span_while_app (fun c => negb (p c)) (sp_data s)) as E.
    destruct (span_while _ (sp_data s)) as [a b]; cbn [fst snd] in *. destruct b as [|x b].
    + destruct (sp_data s) eqn:E2; [eexists; reflexivity|]. rewrite <- E2, ipr_all. eexists; reflexivity.
    + destruct (blen a) eqn:Eb; [eexists; reflexivity|]. rewrite <- Eb, (ipr_ok s a (x :: b)) by (symmetry; exact E).
      eexists; reflexivity.
  - rewrite take_while_ok. eexists; reflexivity.
  - rewrite take_prefix_ok. eexists; reflexivity.
  - rewrite take_required_whitespace_ok. eexists; reflexivity.
  - rewrite discard_whitespace_ok. eexists; reflexivity.
  - rewrite discard_all_ok. eexists; reflexivity.
  - rewrite discard_empty_lines_ok. eexists; reflexivity.
  - rewrite trim_trailing_whitespace_ok. eexists; reflexivity.
  - rewrite trim_trailing_line_end_ok. eexists; reflexivity.
  - rewrite take_line_ok. eexists; reflexivity.
  - rewrite take_normalized_line_ok. eexists; reflexivity.
  - rewrite take_non_empty_line_ok. eexists; reflexivity.
  - rewrite take_empty_line_ok. eexists; reflexivity.
  - rewrite take_line_with_continuation_ok. eexists; reflexivity.
  - unfold take_ident. rewrite take_name_ok. eexists; reflexivity.
  - unfold take_attr_name. rewrite take_name_ok. eexists; reflexivity.
  - unfold take_user_attr_name. rewrite take_name_ok. eexists; reflexivity.
  - rewrite take_quoted_string_ok. eexists; reflexivity.
Qed.

Lemma bsplit_boundary t n : (exists p, bsplit n t = Some p) <-> boundary t n.
Proof.
  split.
  - intros [[a b] H]. apply bsplit_some in H. destruct H as [-> ->]. exists a, b. rewrite blen_utf8. auto.
  - intros (a & b & -> & ->). rewrite blen_utf8, bsplit_app. eauto.
Qed.

Lemma ipr_panic_iff s n :
  (exists m, into_parse_result s n = Ok m) <-> (length (utf8_bytes (sp_data s)) <= n \/ boundary (sp_data s) n).
Proof.
  rewrite blen_utf8. unfold into_parse_result. split.
  - intros [m H]. destruct (le_lt_dec (blen (sp_data s)) n) as [Hn|Hn]; [left; exact Hn|]. right.
    rewrite Nat.min_r in H by lia. apply bind_ok in H. destruct H as (x & Hx & _).
    unfold slice_to in Hx. destruct (bsplit n (sp_data s)) eqn:E; [|discriminate]. apply bsplit_boundary. eauto.
  - intros [H|H].
    + rewrite Nat.min_l by lia. rewrite (slice_to_ok s (sp_data s) []) by (rewrite app_nil_r; reflexivity). cbn [bind].
      rewrite (slice_from_ok s (sp_data s) []) by (rewrite app_nil_r; reflexivity). eexists; reflexivity.
    + destruct H as (a & b & E & ->). rewrite blen_utf8. rewrite Nat.min_r by (rewrite E, blen_app; lia).
      rewrite (slice_to_ok s a b E). cbn [bind]. rewrite (slice_from_ok s a b E). eexists; reflexivity.
Qed.
