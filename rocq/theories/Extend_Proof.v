(** What comes after an empty line does not change the blocks before it. *)
From Verif Require Import Text TextFacts Maps Span_Model Span_Pure Span_Proof Span_Laws Span_Spec Catalog_Model Parser_Model Subs_Model Attrlist_Model Entry_Model
  Group_Model SecId_Model Header_Model Header_Spec Header_Proof Block_Model Block_Spec Block_Proof Spans_Proof Tree_Proof Pre_Spec Kind_Spec Kind_Proof Stuck_Spec Stuck_Proof Fate_Spec Fate_Proof Shift_Spec Shift_Proof Fast_Spec Fast_Proof Extend_Spec.

Section extended.
Variable z : text.
Hypothesis Hz : shown z.
Notation ext := (ext z).
Notation over := (ext_over z).
Notation near := (near z).
Definition am {A} (m : mitem A) : mitem A := mkmi (mi_item m) (ext (mi_after m)).

Lemma data_ext s : sp_data (ext s) = sp_data s ++ LF :: z. Proof. reflexivity. Qed.
Lemma data_over s : sp_data (over s) = z. Proof. apply sp_data_skip. Qed.
Lemma skip_ext s l r : skip (ext s) l (r ++ LF :: z) = ext (skip s l r).
Proof. unfold Extend_Spec.ext, with_data, skip, slice_internal. cbn [sp_data sp_line sp_col sp_off]. destruct (blen l =? 0); reflexivity. Qed.
Lemma ext_with s d : with_data (ext s) d = with_data s d. Proof. reflexivity. Qed.
Lemma well_suffix l r : well_ended (l ++ r) -> well_ended r.
Proof.
  intros [H|[H|(u & c & H & Hc)]].
  - apply app_eq_nil in H. destruct H as (_ & ->). left. reflexivity.
  - destruct l as [|x l]; [right; left; exact H|]. injection H as _ H. apply app_eq_nil in H. destruct H as (_ & ->). left. reflexivity.
  - destruct r as [|y r] using rev_ind; [left; reflexivity|]. rewrite app_assoc in H. change [c; LF] with ([c] ++ [LF]) in H. rewrite app_assoc in H. apply app_inj_tail in H. destruct H as (H & ->).
    clear IHr. destruct r as [|x r] using rev_ind; [right; left; reflexivity|]. clear IHr. rewrite app_assoc in H. apply app_inj_tail in H. destruct H as (_ & ->). right. right. exists r, c. split; [rewrite <- app_assoc; reflexivity|exact Hc].
Qed.
Lemma well_starts t : well_ended t -> starts_line t.
Proof. intros [->|[->|(u & c & -> & _)]]; [left; reflexivity|right; exists []; reflexivity|right; exists (u ++ [c]); rewrite <- app_assoc; reflexivity]. Qed.
Lemma well_after s a : well_ended (sp_data s) -> Suffix s a -> well_ended (sp_data a).
Proof. intros H (p & D & _). rewrite D in H. exact (well_suffix _ _ H). Qed.
Lemma line_ext s l r n : well_ended (sp_data s) -> sp_data s <> [] -> a_line (sp_data s) l r n -> a_line (sp_data (ext s)) l (r ++ LF :: z) n.
Proof. intros W N H. exact (a_line_more [] _ _ _ _ _ H N (or_intror (well_starts _ W))). Qed.
Lemma line_end s : sp_data s = [] -> a_line (sp_data (ext s)) [LF] z [].
Proof.
  intros D. rewrite data_ext, D. exists [], [LF]. repeat split; auto; [left; reflexivity|].
  exists [], []. repeat split; [right; split; [reflexivity|intros x; destruct x; discriminate]|intros ? []|intros y; destruct y; discriminate].
Qed.
Lemma ext_inj a b : ext a = ext b -> a = b.
Proof. destruct a, b. unfold Extend_Spec.ext, with_data. cbn. intros H. injection H as H -> -> ->. apply app_inv_tail in H. subst. reflexivity. Qed.
Lemma suffix_ext s a : Suffix s a -> Suffix (ext s) (ext a).
Proof. intros (p & D & E). exists p. rewrite !data_ext, D, <- app_assoc. split; [reflexivity|]. rewrite skip_ext. rewrite E at 1. reflexivity. Qed.
Lemma over_ext s a : Suffix s a -> sp_data a = [] -> Suffix (ext s) (over a).
Proof.
  intros (p & D & E) N. exists (p ++ [LF]). rewrite data_ext, data_over, D, N, app_nil_r, <- app_assoc. split; [reflexivity|]. rewrite E, N. unfold ext_over. rewrite skip_skip. unfold Extend_Spec.ext, with_data, skip, slice_internal. cbn [sp_data sp_line sp_col sp_off]. reflexivity.
Qed.
Lemma norm_ext s : well_ended (sp_data s) -> sp_data s <> [] -> take_normalized_line (ext s) = on_ok am (take_normalized_line s).
Proof. intros W N. destruct (take_norm s) as (l & r & n & H & ->). rewrite (take_norm_eq _ _ _ _ (line_ext _ _ _ _ W N H)), skip_ext. reflexivity. Qed.
Lemma norm_end s : sp_data s = [] -> take_normalized_line (ext s) = Ok (mkmi (with_data s []) (over s)) /\ take_normalized_line s = Ok (mkmi (with_data s []) s).
Proof.
  intros D. split; [rewrite (take_norm_eq _ _ _ _ (line_end s D)); unfold Extend_Spec.ext, with_data, ext_over, skip, slice_internal; reflexivity|]. rewrite take_normalized_line_ok. unfold p_take_normalized_line, p_take_line. rewrite D. cbn [span_while mi_item mi_after sp_data with_data]. f_equal. f_equal. rewrite skip_nil. rewrite <- D. apply with_data_self.
Qed.
Lemma norm_item s : well_ended (sp_data s) -> exists m m', take_normalized_line s = Ok m /\ take_normalized_line (ext s) = Ok m' /\ mi_item m' = mi_item m /\ near (mi_after m) (mi_after m').
Proof.
  intros W. destruct (sp_data s) eqn:D; [destruct (norm_end s D) as (-> & ->); do 2 eexists; repeat split; right; split; [exact D|reflexivity]|]. rewrite <- D in W. rewrite norm_ext; [|exact W|rewrite D; discriminate]. rewrite take_normalized_line_ok. do 2 eexists. repeat split. left. reflexivity.
Qed.
Lemma line_of s : well_ended (sp_data s) -> sp_data s <> [] -> take_line (ext s) = on_ok am (take_line s).
Proof.
  intros W N. rewrite !take_line_ok. cbn [on_ok]. f_equal. destruct (first_line (sp_data s)) as (x & e & r & D & Hx & He). rewrite (p_take_line_eq s x e r Hx He D).
  destruct He as [->|(-> & ->)].
  - rewrite (p_take_line_eq (ext s) x [LF] (r ++ LF :: z) Hx (or_introl eq_refl)) by (rewrite data_ext, D, <- app_assoc; reflexivity). rewrite skip_ext. reflexivity.
  - exfalso. rewrite !app_nil_r in D. destruct (well_starts _ W) as [K|(y & K)]; [exact (N K)|]. rewrite D in K. apply Hx. rewrite K. apply in_or_app. right. left. reflexivity.
Qed.
Lemma non_empty_ext s : well_ended (sp_data s) -> take_non_empty_line (ext s) = on_ok (option_map am) (take_non_empty_line s).
Proof.
  intros W. destruct (take_non_empty s) as [(l & r & n & H & Hn & N & ->)|(H & ->)]; destruct (take_non_empty (ext s)) as [(l' & r' & n' & H' & Hn' & N' & ->)|(H' & ->)]; cbn [on_ok option_map].
  - destruct (a_line_unique _ _ _ _ _ _ _ H' (line_ext _ _ _ _ W N H)) as (-> & -> & ->). rewrite skip_ext. reflexivity.
  - exfalso. destruct H' as [K|(l' & r' & K)]; [rewrite data_ext in K; destruct (sp_data s); discriminate K|]. destruct (a_line_unique _ _ _ _ _ _ _ K (line_ext _ _ _ _ W N H)) as (_ & _ & <-). exact (Hn eq_refl).
  - exfalso. destruct (sp_data s) eqn:D; [destruct (a_line_unique _ _ _ _ _ _ _ H' (line_end s D)) as (_ & _ & ->); exact (Hn' eq_refl)|]. destruct H as [K|(l0 & r0 & K)]; [discriminate K|]. rewrite <- D in *. assert (N : sp_data s <> []) by (rewrite D; discriminate). destruct (a_line_unique _ _ _ _ _ _ _ H' (line_ext _ _ _ _ W N K)) as (_ & _ & ->). exact (Hn' eq_refl).
  - reflexivity.
Qed.
Lemma over_stays a : p_discard_empty_lines (over a) = over a.
Proof. destruct Hz as (l & r & n & c & H & Hc & Hn). apply (discard_none _ l r n c); [rewrite data_over; exact H|exact Hc|exact Hn]. Qed.
Lemma discard_ext : forall k s, length (sp_data s) <= k -> well_ended (sp_data s) -> p_discard_empty_lines (ext s) = match sp_data (p_discard_empty_lines s) with [] => over (p_discard_empty_lines s) | _ => ext (p_discard_empty_lines s) end.
Proof.
  induction k as [|k IH]; intros s Hk W.
  - assert (D : sp_data s = []) by (destruct (sp_data s); [reflexivity|cbn in Hk; lia]). assert (E : p_discard_empty_lines s = s) by (unfold p_discard_empty_lines; rewrite D; cbn [length p_discard_empty_lines_go]; rewrite D; reflexivity). rewrite E, D.
    rewrite (discard_blank _ _ _ (line_end s D)) by (rewrite data_ext, D; discriminate). exact (over_stays s).
  - destruct (sp_data s) as [|c0 t0] eqn:D; [apply IH; rewrite D; [cbn; lia|exact W]|]. rewrite <- D in *. assert (N : sp_data s <> []) by (rewrite D; discriminate). pose proof (line_of s W N) as L. rewrite !take_line_ok in L. cbn [on_ok] in L. apply Ok_inj in L.
    assert (U : forall i, sp_data i <> [] -> p_discard_empty_lines i = match p_take_empty_line i with Some m => p_discard_empty_lines (mi_after m) | None => i end).
    { intros i Ni. unfold p_discard_empty_lines at 1. destruct (sp_data i) as [|y ys] eqn:Di; [contradiction|]. cbn [length p_discard_empty_lines_go]. rewrite Di. destruct (p_take_empty_line i) as [m|] eqn:Em; [|reflexivity]. apply discard_fuel; [|lia].
      unfold p_take_empty_line in Em. destruct (forallb _ _); [|discriminate Em]. injection Em as <-. pose proof (p_take_line_after_len i) as K. rewrite Di in K. specialize (K ltac:(discriminate)). cbn in K. lia. }
    rewrite (U (ext s)) by (rewrite data_ext; destruct (sp_data s); discriminate). rewrite (U s N). unfold p_take_empty_line. rewrite L. cbn [am mi_item mi_after]. destruct (forallb _ _).
    + cbn [mi_after]. apply IH; [pose proof (p_take_line_after_len s N); lia|]. exact (well_after _ _ W (p_take_line_Suffix s)).
    + rewrite D. reflexivity.
Qed.
Lemma discard_near s : well_ended (sp_data s) -> near (p_discard_empty_lines s) (p_discard_empty_lines (ext s)).
Proof. intros W. rewrite (discard_ext _ s (le_n _) W). destruct (sp_data (p_discard_empty_lines s)) eqn:D; [right; split; [exact D|reflexivity]|left; reflexivity]. Qed.
Lemma discard_nil a : sp_data a = [] -> p_discard_empty_lines a = a.
Proof. intros D. unfold p_discard_empty_lines. rewrite D. cbn [length p_discard_empty_lines_go]. rewrite D. reflexivity. Qed.
Lemma near_discard a a' : well_ended (sp_data a) -> near a a' -> near (p_discard_empty_lines a) (p_discard_empty_lines a').
Proof. intros W [->|(D & ->)]; [exact (discard_near a W)|]. rewrite (discard_nil a D), over_stays. right. auto. Qed.
Lemma remainder_ext s a : Suffix s a -> trim_remainder (ext s) (ext a) = trim_remainder s a.
Proof.
  intros H. rewrite (trim_remainder_ok _ _ H), (trim_remainder_ok _ _ (suffix_ext _ _ H)). f_equal. unfold p_trim_remainder. rewrite !data_ext, !app_length, ext_with. f_equal. destruct H as (p & D & _). rewrite D, <- app_assoc, !app_length.
  replace (length p + length (sp_data a) + length (LF :: z) - (length (sp_data a) + length (LF :: z))) with (length p) by lia. replace (length p + length (sp_data a) - length (sp_data a)) with (length p) by lia. rewrite !firstn_app, Nat.sub_diag. cbn [firstn]. reflexivity.
Qed.
Lemma remainder_near s a a' : Suffix s a -> near a a' -> exists x y, trim_remainder s a = Ok x /\ trim_remainder (ext s) a' = Ok y /\ p_trim_trailing_whitespace y = p_trim_trailing_whitespace x.
Proof.
  intros H [->|(D & ->)].
  - rewrite (remainder_ext _ _ H), (trim_remainder_ok _ _ H). eauto.
  - rewrite (trim_remainder_ok _ _ H), (trim_remainder_ok _ _ (over_ext _ _ H D)). do 2 eexists. split; [reflexivity|]. split; [reflexivity|]. unfold p_trim_remainder, p_trim_trailing_whitespace. cbn [sp_data with_data]. match goal with |- with_data _ ?a = with_data _ ?b => change (with_data s a = with_data s b) end. f_equal. rewrite data_ext, data_over, D, app_length. cbn [length]. rewrite Nat.sub_0_r, firstn_all.
    replace (length (sp_data s) + S (length z) - length z) with (length (sp_data s ++ [LF])) by (rewrite app_length; cbn; lia). replace (sp_data s ++ LF :: z) with ((sp_data s ++ [LF]) ++ z) by (rewrite <- app_assoc; reflexivity). rewrite firstn_app, firstn_all, Nat.sub_diag. cbn [firstn]. rewrite app_nil_r.
    unfold trim_end, trim_end_by. rewrite rev_app_distr. cbn [rev app]. unfold drop_while_c. cbn [span_while]. change (is_ws LF) with true. cbn beta iota. destruct (span_while is_ws (rev (sp_data s))). reflexivity.
Qed.
(** * Entries *)
Lemma well_line s l n : well_ended (sp_data s) -> a_line (sp_data s) l [] n -> ends_with [BSL] n = false.
Proof.
  intros W H. destruct (ends_with [BSL] n) eqn:K; [|reflexivity]. exfalso. apply ends_with_spec in K. destruct K as (y & ->).
  pose proof (a_line_app _ _ _ _ H) as D. rewrite app_nil_r in D. destruct H as (x & e & _ & Hl & Hx & He & Ht). destruct (trimmed_strip _ _ Ht) as (sps & Hs & Hsp).
  destruct W as [W|[W|(u & c & W & C1 & C2 & C3)]].
  - rewrite W in D. symmetry in D. rewrite Hl in D. apply app_eq_nil in D. destruct D as (-> & _). cbn in Hs. destruct y; discriminate Hs.
  - rewrite W, Hl in D. destruct x as [|x0 x]; [destruct y; discriminate Hs|]. injection D as <- _. apply Hx. left. reflexivity.
  - rewrite W, Hl in D. assert (Ex : x = u ++ [c]).
    { destruct He as [->|(-> & _)].
      - change [c; LF] with ([c] ++ [LF]) in D. rewrite app_assoc in D. apply app_inj_tail in D. symmetry. tauto.
      - exfalso. rewrite app_nil_r in D. apply Hx. rewrite <- D. apply in_or_app. right. right. left. reflexivity. }
    assert (Es : strip_cr x = x).
    { unfold strip_cr. destruct (strip_suffix_c CR x) eqn:K; [|reflexivity]. unfold strip_suffix_c in K. rewrite Ex, rev_app_distr in K. cbn [rev app] in K. destruct (N.eqb_spec c CR); [contradiction|discriminate K]. }
    rewrite Es, Ex in Hs. destruct sps as [|q sps] using rev_ind.
    + rewrite app_nil_r in Hs. apply app_inj_tail in Hs. destruct Hs as (_ & ->). exact (C3 eq_refl).
    + rewrite app_assoc in Hs. apply app_inj_tail in Hs. destruct Hs as (_ & ->). apply Forall_app in Hsp. destruct Hsp as (_ & Hsp). inversion Hsp as [|? ? K _]. first [exact (C1 K)|exact (C1 (eq_sym K))].
Qed.
Lemma cont_ext : forall f g s, length (sp_data s) <= f -> length (sp_data (ext s)) <= g -> well_ended (sp_data s) -> sp_data s <> [] ->
  p_continuation_go g (ext s) = ext (p_continuation_go f s) /\ sp_data (p_continuation_go f s) <> [].
Proof.
  induction f as [|f IH]; intros g s Hf Hg W N; [destruct (sp_data s); [contradiction|cbn in Hf; lia]|].
  destruct g as [|g]; [rewrite data_ext, app_length in Hg; cbn in Hg; lia|]. cbn [p_continuation_go]. pose proof (norm_ext s W N) as K. rewrite !take_normalized_line_ok in K. cbn [on_ok] in K. apply Ok_inj in K. rewrite K. cbn [am mi_item mi_after].
  destruct (take_norm s) as (l & r & n & H & E). rewrite take_normalized_line_ok in E. apply Ok_inj in E. rewrite E. cbn [mi_item mi_after with_data sp_data]. destruct (ends_with [BSL] n) eqn:B; [|split; [reflexivity|exact N]].
  assert (Nr : r <> []) by (intros ->; rewrite (well_line s l n W H) in B; discriminate B). pose proof (a_line_shorter _ _ _ _ H N). pose proof (a_line_app _ _ _ _ H) as D. apply IH; rewrite ?data_ext, sp_data_skip; [lia| | |exact Nr].
  - rewrite data_ext, app_length in Hg. rewrite app_length. lia.
  - rewrite D in W. exact (well_suffix _ _ W).
Qed.
Lemma continued_ext s : well_ended (sp_data s) -> sp_data s <> [] -> take_line_with_continuation (ext s) = on_ok (option_map am) (take_line_with_continuation s).
Proof.
  intros W N. rewrite !take_line_with_continuation_ok. cbn [on_ok]. f_equal. unfold p_take_line_with_continuation. destruct (cont_ext (length (sp_data s)) (length (sp_data (ext s))) s (le_n _) (le_n _) W N) as (-> & N2).
  set (la := p_continuation_go (length (sp_data s)) s) in *. pose proof (p_continuation_go_Suffix (length (sp_data s)) s) as Sx. fold la in Sx. pose proof (line_of la (well_after _ _ W Sx) N2) as K. rewrite !take_line_ok in K. cbn [on_ok] in K. apply Ok_inj in K. rewrite K. cbn [am mi_after].
  pose proof (Suffix_trans _ _ _ Sx (p_take_line_Suffix la)) as Sa. set (a := mi_after (p_take_line la)) in *. destruct Sa as (p & D & _). cbv zeta. rewrite !data_ext, !app_length.
  replace (length (sp_data s) + length (LF :: z) - (length (sp_data a) + length (LF :: z))) with (length (sp_data s) - length (sp_data a)) by lia.
  replace (firstn (length (sp_data s) - length (sp_data a)) (sp_data s ++ LF :: z)) with (firstn (length (sp_data s) - length (sp_data a)) (sp_data s)).
  2:{ rewrite firstn_app. replace (length (sp_data s) - length (sp_data a) - length (sp_data s)) with 0 by lia. cbn [firstn]. rewrite app_nil_r. reflexivity. }
  match goal with |- match ?d with _ => _ end = _ => destruct d; [reflexivity|] end. cbn [option_map am mi_item mi_after]. rewrite skip_ext. reflexivity.
Qed.
Lemma continued_suffix s m : take_line_with_continuation s = Ok (Some m) -> Suffix s (mi_after m).
Proof.
  rewrite take_line_with_continuation_ok. intros H. apply Ok_inj in H. unfold p_take_line_with_continuation in H. cbv zeta in H.
  pose proof (Suffix_trans _ _ _ (p_continuation_go_Suffix (length (sp_data s)) s) (p_take_line_Suffix (p_continuation_go (length (sp_data s)) s))) as Sa. set (a := mi_after (p_take_line (p_continuation_go (length (sp_data s)) s))) in *. destruct Sa as (p & D & _).
  match type of H with match ?d with _ => _ end = _ => destruct d; [discriminate H|] end. injection H as <-. cbn [mi_after]. apply Suffix_intro. rewrite D at 1 3. rewrite D, app_length. replace (length p + length (sp_data a) - length (sp_data a)) with (length p) by lia. rewrite firstn_app, firstn_all, Nat.sub_diag. cbn [firstn]. rewrite app_nil_r. reflexivity.
Qed.
Lemma entry_ext hdr s P : well_ended (sp_data s) -> sp_data s <> [] -> attribute_parse hdr (ext s) P = on_ok (option_map am) (attribute_parse hdr s P).
Proof.
  intros W N. unfold attribute_parse. rewrite (continued_ext s W N). destruct (take_line_with_continuation s) as [[m|]| |] eqn:Em; cbn [on_ok bind option_map]; try reflexivity. cbn [am mi_item mi_after]. pose proof (continued_suffix _ _ Em) as Sx. rewrite (remainder_ext _ _ Sx).
  repeat (rewrite on_ok_bind || (apply bind_more; intros) || match goal with |- match ?x with _ => _ end = _ => destruct x; [|reflexivity] end || reflexivity).
Qed.
(** * Metadata *)
Lemma starts_ext p t : ~ In LF p -> starts_with p (t ++ LF :: z) = starts_with p t.
Proof.
  revert t. induction p as [|c p IH]; intros t H; [destruct t; reflexivity|]. destruct t as [|d t]; cbn [app starts_with].
  - destruct (N.eqb_spec c LF) as [->|_]; [exfalso; apply H; left; reflexivity|reflexivity].
  - rewrite IH by (intros K; apply H; right; exact K). reflexivity.
Qed.
Definition xms (m : mdstate) : mdstate := mkms (ms_title m) (ms_anchor m) (ms_reftext m) (ms_attrlist m) (ext (ms_start m)) (ms_warnings m).
Definition xmd (m : metadata) : metadata := mkmd (md_title_source m) (md_title m) (md_anchor m) (md_reftext m) (md_attrlist m) (ext (md_source m)) (ext (md_start m)).
Ltac nolf := cbn; intuition discriminate.
Lemma title_step_ext m : well_ended (sp_data (ms_start m)) -> md_title_step (xms m) = on_ok (option_map xms) (md_title_step m).
Proof.
  intros W. unfold md_title_step. cbn [xms ms_title ms_start]. destruct (ms_title m); [reflexivity|]. destruct (sp_data (ms_start m)) as [|c0 t0] eqn:D.
  - destruct (norm_end _ D) as (-> & ->). reflexivity.
  - rewrite <- D in W. rewrite norm_ext; [|exact W|rewrite D; discriminate]. destruct (take_normalized_line (ms_start m)) as [mt| |]; cbn [on_ok bind]; [|reflexivity|reflexivity]. cbn [am mi_item mi_after]. destruct (_ && _); [|reflexivity].
    rewrite on_ok_bind. apply bind_more. intros ti. rewrite on_ok_bind. apply bind_more. intros w. destruct (is_nil _); reflexivity.
Qed.
Lemma anchor_line_ext s : well_ended (sp_data s) -> parse_maybe_block_anchor (ext s) = on_ok (fun r => (option_map am (fst r), snd r)) (parse_maybe_block_anchor s).
Proof.
  intros W. unfold parse_maybe_block_anchor. rewrite data_ext, starts_ext by nolf. destruct (starts_with (lit "[[") (sp_data s)) eqn:Es; [|reflexivity]. rewrite norm_ext; [|exact W|intros K; rewrite K in Es; discriminate Es].
  destruct (take_normalized_line s) as [mt| |]; cbn [on_ok bind]; [|reflexivity|reflexivity]. cbn [am mi_item mi_after]. destruct (ends_with _ _); [|reflexivity]. rewrite on_ok_bind. apply bind_more. intros e. rewrite on_ok_bind. apply bind_more. intros a. destruct (is_nil _); reflexivity.
Qed.
Lemma span_eqb_ext a b : span_eqb (ext a) (ext b) = span_eqb a b.
Proof.
  unfold span_eqb. rewrite !data_ext. cbn [Extend_Spec.ext with_data sp_line sp_col sp_off]. f_equal. f_equal. f_equal. destruct (text_eqb (sp_data a) (sp_data b)) eqn:K.
  - apply text_eqb_eq in K. rewrite K. apply text_eqb_refl.
  - destruct (text_eqb (sp_data a ++ LF :: z) (sp_data b ++ LF :: z)) eqn:K2; [|reflexivity]. apply text_eqb_eq in K2. apply app_inv_tail in K2. rewrite K2, text_eqb_refl in K. discriminate K.
Qed.
Lemma anchor_step_ext U m : well_ended (sp_data (ms_start m)) -> md_anchor_step U (xms m) = on_ok (fun r => (xms (fst r), snd r)) (md_anchor_step U m).
Proof.
  intros W. unfold md_anchor_step. cbn [xms ms_title ms_anchor ms_reftext ms_attrlist ms_start ms_warnings]. destruct (ms_anchor m) eqn:Ea; [unfold xms; cbn [on_ok fst snd]; rewrite Ea; reflexivity|]. rewrite (anchor_line_ext _ W). destruct (parse_maybe_block_anchor (ms_start m)) as [[[mi|] w]| |]; cbn [on_ok bind fst snd option_map]; try reflexivity.
  cbn [am mi_item mi_after]. rewrite on_ok_bind.
  match goal with |- bind ?x _ = bind ?y _ => assert (K : x = on_ok xms y) end.
  { destruct (position _ _); [|destruct (is_xml_name _ _); reflexivity]. rewrite on_ok_bind. apply bind_more. intros la. destruct (_ <? _); [|destruct (is_xml_name _ _); reflexivity]. rewrite on_ok_bind. apply bind_more. intros x. rewrite on_ok_bind. apply bind_more. intros y. destruct (is_xml_name _ _); reflexivity. }
  rewrite K. rewrite bind_on_ok. apply bind_more. intros m1. cbn [on_ok fst snd xms ms_start]. rewrite span_eqb_ext. reflexivity.
Qed.
Lemma list_line_ext E s P : well_ended (sp_data s) -> parse_maybe_attrlist_line E (ext s) P = on_ok (option_map (fun r => (am (fst r), snd r))) (parse_maybe_attrlist_line E s P).
Proof.
  intros W. unfold parse_maybe_attrlist_line. rewrite data_ext, starts_ext by nolf. destruct (starts_with (lit "[") (sp_data s)) eqn:Es; [|reflexivity]. rewrite norm_ext; [|exact W|intros K; rewrite K in Es; discriminate Es].
  destruct (take_normalized_line s) as [mt| |]; cbn [on_ok bind]; [|reflexivity|reflexivity]. cbn [am mi_item mi_after]. destruct (ends_with _ _); [|reflexivity]. rewrite on_ok_bind. apply bind_more. intros e. rewrite on_ok_bind. apply bind_more. intros a. destruct (_ || _); [reflexivity|]. rewrite on_ok_bind. apply bind_more. intros r. reflexivity.
Qed.
Lemma list_step_ext E P m : well_ended (sp_data (ms_start m)) -> md_attrlist_step E P (xms m) = on_ok (fun r => (xms (fst r), snd r)) (md_attrlist_step E P m).
Proof.
  intros W. unfold md_attrlist_step. cbn [xms ms_title ms_anchor ms_reftext ms_attrlist ms_start ms_warnings]. destruct (ms_attrlist m) eqn:Ea; [unfold xms; cbn [on_ok fst snd]; rewrite Ea; reflexivity|]. rewrite (list_line_ext E _ P W).
  destruct (parse_maybe_attrlist_line E (ms_start m) P) as [[r|]| |]; cbn [on_ok bind option_map fst snd]; try reflexivity; unfold xms; rewrite Ea; reflexivity.
Qed.
Lemma md_loop_ext E P : forall fuel m, well_ended (sp_data (ms_start m)) -> md_loop E P fuel (xms m) = on_ok xms (md_loop E P fuel m).
Proof.
  induction fuel as [|fuel IH]; intros m W; cbn [md_loop]; [reflexivity|]. rewrite (title_step_ext m W), bind_on_ok, on_ok_bind. destruct (md_title_step m) as [[m1|]| |] eqn:E1; cbn [bind option_map]; try reflexivity; [apply IH; exact (well_after _ _ W (title_step_Suffix _ _ E1))|].
  rewrite (anchor_step_ext _ m W), bind_on_ok, on_ok_bind. destruct (md_anchor_step (e_u E) m) as [[m2 b2]| |] eqn:E2; cbn [bind fst snd]; try reflexivity. pose proof (well_after _ _ W (anchor_step_Suffix _ _ _ E2)) as W2. cbn [fst] in W2. destruct b2; [apply IH; exact W2|].
  rewrite (list_step_ext E P m2 W2), bind_on_ok, on_ok_bind. destruct (md_attrlist_step E P m2) as [[m3 b3]| |] eqn:E3; cbn [bind fst snd]; try reflexivity. pose proof (well_after _ _ W2 (attrlist_step_Suffix _ _ _ _ E3)) as W3. destruct b3; [apply IH; exact W3|reflexivity].
Qed.
Lemma metadata_ext E s P : well_ended (sp_data s) -> sp_data (p_discard_empty_lines s) <> [] -> metadata_parse E (ext s) P = on_ok (fun r => (xmd (fst r), snd r)) (metadata_parse E s P).
Proof.
  intros W N. unfold metadata_parse. rewrite !discard_empty_lines_ok. cbn [bind]. rewrite (discard_ext _ s (le_n _) W). pose proof (well_after _ _ W (discard_empty_Suffix s)) as W1. destruct (sp_data (p_discard_empty_lines s)) as [|c0 t0] eqn:D; [contradiction|]. rewrite <- D in W1. set (q := p_discard_empty_lines s) in *.
  change (mkms None None None None (ext q) []) with (xms (mkms None None None None q [])). rewrite (md_loop_ext E P 4 (mkms None None None None q [])) by exact W1. rewrite bind_on_ok, on_ok_bind. apply bind_more. intros m. rewrite on_ok_bind. cbn [xms ms_title]. apply bind_more. intros t. reflexivity.
Qed.
Lemma metadata_over E a P : sp_data a = [] -> metadata_parse E (ext a) P = metadata_parse E (over a) P.
Proof.
  intros D. unfold metadata_parse. rewrite !discard_empty_lines_ok. cbn [bind]. rewrite over_stays. rewrite (discard_ext (length (sp_data a)) a (le_n _)) by (left; exact D). rewrite (discard_nil a D), D. reflexivity.
Qed.
(** * Kinds of blocks *)
Definition rel {A} (o o' : option (mitem A)) : Prop :=
  match o, o' with None, None => True | Some m, Some m' => mi_item m' = mi_item m /\ near (mi_after m) (mi_after m') | _, _ => False end.
Lemma span_while_ext p t : p LF = false -> fst (span_while p (t ++ LF :: z)) = fst (span_while p t).
Proof. intros H. induction t as [|c t IH]; cbn [app span_while]; [rewrite H; reflexivity|]. destruct (p c); [|reflexivity]. destruct (span_while p (t ++ LF :: z)), (span_while p t). cbn [fst] in *. rewrite IH. reflexivity. Qed.
Lemma white_ext s : exists a b, discard_whitespace s = Ok a /\ discard_whitespace (ext s) = Ok b /\ sp_col b = sp_col a.
Proof.
  rewrite !discard_whitespace_ok. do 2 eexists. split; [reflexivity|]. split; [reflexivity|]. unfold p_discard_whitespace, p_take_whitespace, p_take_while. pose proof (span_while_ext is_sp_tab (sp_data s) eq_refl) as K. rewrite data_ext. destruct (span_while is_sp_tab (sp_data s ++ LF :: z)) as [a b], (span_while is_sp_tab (sp_data s)) as [a' b']. cbn [fst] in K. subst a'.
  unfold psplit, skip, slice_internal. cbn [mi_after]. destruct (blen a =? 0); reflexivity.
Qed.
Lemma lines_ext k : forall f g s fl, length (sp_data s) <= f -> length (sp_data s) <= g -> well_ended (sp_data s) ->
  simple_lines g k (ext s) fl = on_ok (fun r => (fst r, ext (snd r))) (simple_lines f k s fl).
Proof.
  induction f as [|f IH]; intros g s fl Hf Hg W.
  - assert (D : sp_data s = []) by (destruct (sp_data s); [reflexivity|cbn in Hf; lia]). assert (K : take_non_empty_line s = Ok None) by (rewrite take_non_empty_line_ok; unfold p_take_non_empty_line; rewrite D; reflexivity).
    destruct g; cbn [simple_lines]; rewrite (non_empty_ext s W), K; reflexivity.
  - destruct g as [|g].
    { assert (D : sp_data s = []) by (destruct (sp_data s); [reflexivity|cbn in Hg; lia]). assert (K : take_non_empty_line s = Ok None) by (rewrite take_non_empty_line_ok; unfold p_take_non_empty_line; rewrite D; reflexivity). cbn [simple_lines]. rewrite (non_empty_ext s W), K. reflexivity. }
    cbn [simple_lines]. rewrite (non_empty_ext s W). destruct (take_non_empty s) as [(l & r & n & H & Hn & N & K)|(_ & K)]; rewrite K; cbn [on_ok bind option_map]; [|reflexivity]. cbn [am mi_item mi_after]. rewrite on_ok_bind. apply bind_more. intros st. destruct st; [reflexivity|].
    pose proof (a_line_shorter _ _ _ _ H N) as Hs. pose proof (well_after _ _ W (Suffix_intro s l r (a_line_app _ _ _ _ H))) as W1. destruct (is_comment_line _); [|rewrite on_ok_bind; apply bind_more; intros q]; apply IH; rewrite ?sp_data_skip in *; try lia; exact W1.
Qed.
Lemma lines_suffix f k s fl r : length (sp_data s) <= f -> simple_lines f k s fl = Ok r -> Suffix s (snd r).
Proof. intros Hf H. destruct (simple_lines_spec k f s fl Hf) as (ls & pre & rest & _ & D & K). rewrite K in H. apply Ok_inj in H. subst r. cbn [snd]. apply Suffix_intro. exact D. Qed.
Lemma parse_lines_ext E s a P o : well_ended (sp_data s) -> parse_lines E s a P = Ok o -> exists o', parse_lines E (ext s) a P = Ok o' /\ rel o o' /\ forall m, o = Some m -> Suffix s (mi_after m).
Proof.
  intros W H. unfold parse_lines in *. destruct (white_ext s) as (x & y & Ex & Ey & Exy). rewrite Ex in H. rewrite Ey. cbn [bind] in *. rewrite Exy. apply bind_ok in H. destruct H as (si & Esi & H). rewrite Esi. cbn [bind]. apply bind_ok in H. destruct H as (bs & Ebs & H). rewrite Ebs. cbn [bind].
  apply bind_ok in H. destruct H as (r & Er & H). rewrite (lines_ext si (length (sp_data s)) (length (sp_data (ext s))) s [] (le_n _)) by (try exact W; rewrite data_ext, app_length; lia). rewrite Er. cbn [on_ok bind fst snd]. pose proof (lines_suffix _ _ _ _ _ (le_n _) Er) as Sx. rewrite (remainder_ext _ _ Sx). cbn [Extend_Spec.ext with_data sp_col].
  apply bind_ok in H. destruct H as (s1 & E1 & H). rewrite E1. cbn [bind]. apply bind_ok in H. destruct H as (s2 & E2 & H). rewrite E2. cbn [bind]. destruct (is_nil _); [apply Ok_inj in H; subst o; exists None; split; [reflexivity|split; [exact I|discriminate]]|].
  apply bind_ok in H. destruct H as (g & Eg & H). rewrite Eg. cbn [bind]. apply bind_ok in H. destruct H as (t & Et & H). rewrite Et. cbn [bind]. rewrite discard_empty_lines_ok in *. cbn [bind] in *. apply Ok_inj in H. subst o.
  eexists. split; [reflexivity|]. split; [split; [reflexivity|]|].
  - cbn [mi_after]. exact (discard_near _ (well_after _ _ W Sx)).
  - intros m K. injection K as <-. cbn [mi_after]. exact (Suffix_trans _ _ _ Sx (discard_empty_Suffix _)).
Qed.
Lemma simple_ext E m P o : well_ended (sp_data (md_source m)) -> Suffix (md_source m) (md_start m) -> simple_parse E m P = Ok o -> exists o', simple_parse E (xmd m) P = Ok o' /\ rel o o'.
Proof.
  intros W Sm H. unfold simple_parse in *. cbn [xmd md_start md_attrlist md_source]. apply bind_ok in H. destruct H as (o1 & E1 & H). destruct (parse_lines_ext _ _ _ _ _ (well_after _ _ W Sm) E1) as (o2 & E2 & R & S2). rewrite E2. cbn [bind]. destruct o1 as [mi|], o2 as [mi'|]; try contradiction; [|apply Ok_inj in H; subst o; exists None; split; [reflexivity|exact I]].
  destruct R as (R1 & R2). specialize (S2 _ eq_refl). pose proof (Suffix_trans _ _ _ Sm S2) as S3. destruct (remainder_near _ _ _ S3 R2) as (x & y & Ex & Ey & Exy). rewrite Ex in H. rewrite Ey. cbn [bind] in *. rewrite trim_trailing_whitespace_ok in *. cbn [bind] in *. rewrite discard_empty_lines_ok in *. cbn [bind] in *. apply Ok_inj in H. subst o.
  eexists. split; [reflexivity|]. cbn [rel mi_item mi_after]. rewrite Exy, R1. split; [reflexivity|]. exact (near_discard _ _ (well_after _ _ W S3) R2).
Qed.
Lemma fast_ext E s P o : well_ended (sp_data s) -> simple_parse_fast E s P = Ok o -> exists o', simple_parse_fast E (ext s) P = Ok o' /\ rel o o'.
Proof.
  intros W H. unfold simple_parse_fast in *. apply bind_ok in H. destruct H as (o1 & E1 & H). destruct (parse_lines_ext _ _ _ _ _ W E1) as (o2 & E2 & R & S2). rewrite E2. cbn [bind]. destruct o1 as [mi|], o2 as [mi'|]; try contradiction; [|apply Ok_inj in H; subst o; exists None; split; [reflexivity|exact I]].
  destruct R as (R1 & R2). specialize (S2 _ eq_refl). rewrite discard_empty_lines_ok in *. cbn [bind] in *. apply Ok_inj in H. subst o. eexists. split; [reflexivity|]. cbn [rel mi_item mi_after]. rewrite R1. split; [reflexivity|]. exact (near_discard _ _ (well_after _ _ W S2) R2).
Qed.
Lemma find_ext d : forall f g s r l, length (sp_data s) <= f -> length (sp_data s) <= g -> well_ended (sp_data s) -> find_delimiter f d s = Ok (r, Some l) -> find_delimiter g d (ext s) = Ok (ext r, Some (am l)) /\ Suffix s r /\ sp_data r <> [] /\ take_normalized_line r = Ok l.
Proof.
  induction f as [|f IH]; intros g s r l Hf Hg W H; cbn [find_delimiter] in H; (destruct (sp_data s) as [|c0 t0] eqn:D; [discriminate H|]); [discriminate H|]. rewrite <- D in *. assert (N : sp_data s <> []) by (rewrite D; discriminate).
  destruct g as [|g]; [rewrite D in Hg; cbn in Hg; lia|]. cbn [find_delimiter]. rewrite data_ext. destruct (sp_data s ++ LF :: z) eqn:K; [destruct (sp_data s); discriminate K|]. clear K. rewrite (norm_ext s W N). destruct (take_norm s) as (l1 & r1 & n1 & Hl & E1). rewrite E1 in *. cbn [bind on_ok am mi_item mi_after] in *.
  destruct (text_eqb _ d); [apply Ok_inj in H; injection H as <- <-; split; [reflexivity|split; [apply Suffix_refl|split; [exact N|exact E1]]]|].
  pose proof (a_line_shorter _ _ _ _ Hl N) as Hs. pose proof (Suffix_intro s l1 r1 (a_line_app _ _ _ _ Hl)) as Sx. destruct (IH g (skip s l1 r1) r l) as (A & B & C); rewrite ?sp_data_skip; try lia; [pose proof (well_after _ _ W Sx) as W1; rewrite sp_data_skip in W1; exact W1|exact H|]. split; [exact A|]. split; [exact (Suffix_trans _ _ _ Sx B)|exact C].
Qed.
Lemma raw_ext E m P mi ws : well_ended (sp_data (md_source m)) -> Suffix (md_source m) (md_start m) -> raw_parse E m P = Ok (Some (mi, ws)) -> terminated ws -> exists mi', raw_parse E (xmd m) P = Ok (Some (mi', ws)) /\ rel (Some mi) (Some mi').
Proof.
  intros W Sm H T. pose proof (well_after _ _ W Sm) as W1. unfold raw_parse in *. cbn [xmd md_start md_attrlist md_source]. destruct (sp_data (md_start m)) as [|c0 t0] eqn:D; [destruct (norm_end _ D) as (_ & K); rewrite K in H; discriminate H|]. rewrite <- D in W1. rewrite norm_ext; [|exact W1|rewrite D; discriminate].
  apply bind_ok in H. destruct H as (de & Ed & H). rewrite Ed. cbn [on_ok bind am mi_item mi_after]. pose proof (take_norm_Suffix _ _ Ed) as Sd. destruct (blen _ <? 4); [discriminate H|]. destruct (raw_kind _) as [[mo [cx g]]|]; [|discriminate H]. apply bind_ok in H. destruct H as (v & Ev & H). rewrite Ev. cbn [bind]. destruct (negb v); [discriminate H|].
  apply bind_ok in H. destruct H as ([r o] & Er & H). apply bind_ok in H. destruct H as (c & Ec & H). apply bind_ok in H. destruct H as (c2 & Ec2 & H). cbn [fst snd] in *. destruct o as [li|].
  - assert (Hge : length (sp_data (mi_after de)) <= length (sp_data (ext (mi_after de)))) by (rewrite data_ext, app_length; lia). destruct (find_ext _ _ (length (sp_data (ext (mi_after de)))) _ _ _ (le_n _) Hge (well_after _ _ W1 Sd) Er) as (F1 & F2 & F3 & F4). rewrite F1. cbn [bind fst snd]. rewrite (remainder_ext _ _ F2), Ec. cbn [bind]. rewrite Ec2. cbn [bind].
    apply bind_ok in H. destruct H as (g2 & Eg & H). rewrite Eg. cbn [bind]. apply bind_ok in H. destruct H as (t & Et & H). rewrite Et. cbn [bind am mi_after]. rewrite remainder_ext by (eapply Suffix_trans; [exact Sm|]; eapply Suffix_trans; [exact Sd|]; eapply Suffix_trans; [exact F2|]; exact (take_norm_Suffix _ _ F4)).
    apply bind_ok in H. destruct H as (s1 & E1 & H). rewrite E1. cbn [bind]. apply bind_ok in H. destruct H as (s2 & E2 & H). rewrite E2. cbn [bind]. apply Ok_inj in H. injection H as <- <-. eexists. split; [reflexivity|]. split; [reflexivity|left; reflexivity].
  - exfalso. apply bind_ok in H. destruct H as (s1 & E1 & H). apply bind_ok in H. destruct H as (s2 & E2 & H). apply Ok_inj in H. injection H as _ <-. exact (T _ (or_introl eq_refl) eq_refl).
Qed.
Lemma raw_none E m P : well_ended (sp_data (md_start m)) -> raw_parse E m P = Ok None -> raw_parse E (xmd m) P = Ok None.
Proof.
  intros W1 H. unfold raw_parse in *. cbn [xmd md_start md_attrlist md_source]. destruct (norm_item _ W1) as (a & b & Ea & Eb & Ei & _). rewrite Ea in H. rewrite Eb. cbn [bind] in *. rewrite Ei. destruct (blen _ <? 4); [reflexivity|]. destruct (raw_kind _) as [[mo [cx g]]|]; [|reflexivity]. apply bind_ok in H. destruct H as (v & Ev & H). rewrite Ev. cbn [bind]. destruct (negb v); [reflexivity|].
  apply bind_ok in H. destruct H as ([r o] & Er & H). apply bind_ok in H. destruct H as (c & Ec & H). apply bind_ok in H. destruct H as (c2 & Ec2 & H). cbn [fst snd] in *. destruct o; repeat (apply bind_ok in H; destruct H as (? & _ & H)); discriminate H.
Qed.
Lemma compound_ext un un' m P mi w P1 : (forall s Q b, un s Q = Ok b -> un' s Q = Ok b) -> well_ended (sp_data (md_source m)) -> Suffix (md_source m) (md_start m) -> compound_parse un m P = Ok (Some (mi, (w, P1))) -> terminated w ->
  exists mi', compound_parse un' (xmd m) P = Ok (Some (mi', (w, P1))) /\ rel (Some mi) (Some mi').
Proof.
  intros Hu W Sm H T. pose proof (well_after _ _ W Sm) as W1. unfold compound_parse in *. cbn [xmd md_start md_attrlist md_source]. destruct (sp_data (md_start m)) as [|c0 t0] eqn:D; [destruct (norm_end _ D) as (_ & K); rewrite K in H; discriminate H|]. rewrite <- D in W1. rewrite norm_ext; [|exact W1|rewrite D; discriminate].
  apply bind_ok in H. destruct H as (de & Ed & H). rewrite Ed. cbn [on_ok bind am mi_item mi_after]. pose proof (take_norm_Suffix _ _ Ed) as Sd. destruct (compound_context _); [|discriminate H]. apply bind_ok in H. destruct H as (v & Ev & H). rewrite Ev. cbn [bind]. destruct (negb v); [discriminate H|].
  apply bind_ok in H. destruct H as ([r o] & Er & H). apply bind_ok in H. destruct H as (ins & Ei & H). apply bind_ok in H. destruct H as (b & Eb & H). apply bind_ok in H. destruct H as (ca & Eca & H). apply bind_ok in H. destruct H as (s1 & E1 & H). apply bind_ok in H. destruct H as (s2 & E2 & H). cbn [fst snd] in *. apply Ok_inj in H. injection H as <- Hw <-.
  destruct o as [li|].
  - assert (Hge : length (sp_data (mi_after de)) <= length (sp_data (ext (mi_after de)))) by (rewrite data_ext, app_length; lia). destruct (find_ext _ _ (length (sp_data (ext (mi_after de)))) _ _ _ (le_n _) Hge (well_after _ _ W1 Sd) Er) as (F1 & F2 & F3 & F4). rewrite F1. cbn [bind fst snd am mi_item mi_after].
    assert (Si : exists n, mi_item li = with_data r n /\ exists q, sp_data r = n ++ q). { destruct (take_norm r) as (l1 & r1 & n1 & Hl & K). rewrite F4 in K. apply Ok_inj in K. subst li. exists n1. split; [reflexivity|]. destruct (a_line_prefix _ _ _ _ Hl) as (q & Eq). exists (q ++ r1). rewrite (a_line_app _ _ _ _ Hl), Eq, <- app_assoc. reflexivity. }
    destruct Si as (n & En & q & Eq).
    assert (K1 : trim_remainder (ext (mi_after de)) (mi_item li) = Ok ins).
    { rewrite <- Ei. rewrite (trim_remainder_off (mi_after de) (mi_item li) r) by (rewrite En; reflexivity). rewrite (trim_remainder_off (ext (mi_after de)) (mi_item li) (ext r)) by (rewrite En; reflexivity). exact (remainder_ext _ _ F2). }
    rewrite K1. cbn [bind]. rewrite (Hu _ _ _ Eb). cbn [bind]. rewrite Eca. cbn [bind].
    rewrite discard_all_ok in Eca. apply Ok_inj in Eca. assert (So : sp_off ca = sp_off (skip r n q)) by (rewrite <- Eca, En; unfold p_discard_all; cbn [sp_data with_data]; rewrite !sp_off_skip; reflexivity).
    assert (K2 : trim_remainder (ext (md_source m)) ca = Ok s1).
    { rewrite <- E1. rewrite (trim_remainder_off (md_source m) ca (skip r n q) So). rewrite (trim_remainder_off (ext (md_source m)) ca (ext (skip r n q)) So). apply remainder_ext. eapply Suffix_trans; [exact Sm|]. eapply Suffix_trans; [exact Sd|]. eapply Suffix_trans; [exact F2|]. apply Suffix_intro. exact Eq. }
    rewrite K2. cbn [bind]. rewrite E2. cbn [bind]. rewrite Hw. eexists. split; [reflexivity|]. split; [reflexivity|left; reflexivity].
  - exfalso. assert (K : sp_data r = []).
    { clear -Er. revert Er. generalize (length (sp_data (mi_after de))) as f. generalize (mi_after de) as s. intros s f. revert s. induction f as [|f IH]; intros s H; cbn [find_delimiter] in H; (destruct (sp_data s) eqn:D; [apply Ok_inj in H; injection H as <-; exact D|]); [discriminate H|]. apply bind_ok in H. destruct H as (l1 & _ & H). destruct (text_eqb _ _); [apply Ok_inj in H; discriminate H|exact (IH _ H)]. }
    rewrite K in Hw. cbn [is_nil] in Hw. subst w. exact (T _ (or_introl eq_refl) eq_refl).
Qed.
Lemma compound_none un un' m P : well_ended (sp_data (md_start m)) -> compound_parse un m P = Ok None -> compound_parse un' (xmd m) P = Ok None.
Proof.
  intros W1 H. unfold compound_parse in *. cbn [xmd md_start md_attrlist md_source]. destruct (norm_item _ W1) as (a & b & Ea & Eb & Ei & _). rewrite Ea in H. rewrite Eb. cbn [bind] in *. rewrite Ei. destruct (compound_context _); [|reflexivity]. apply bind_ok in H. destruct H as (v & Ev & H). rewrite Ev. cbn [bind]. destruct (negb v); [reflexivity|].
  repeat (apply bind_ok in H; destruct H as (? & _ & H)); discriminate H.
Qed.
Lemma line_source_ext m a : Suffix (md_source m) a -> line_block_source (xmd m) (ext a) = line_block_source m a.
Proof. intros H. unfold line_block_source. cbn [xmd md_source]. rewrite (remainder_ext _ _ H). reflexivity. Qed.
Lemma media_ext E m P o w : well_ended (sp_data (md_source m)) -> Suffix (md_source m) (md_start m) -> sp_data (md_start m) <> [] -> media_parse E m P = Ok (o, w) -> exists o', media_parse E (xmd m) P = Ok (o', w) /\ rel o o'.
Proof.
  intros W Sm N H. pose proof (well_after _ _ W Sm) as W1. unfold media_parse in *. cbn [xmd md_start md_attrlist md_title_source md_title md_anchor]. rewrite (norm_ext _ W1 N). apply bind_ok in H. destruct H as (li & El & H). rewrite El. cbn [on_ok bind am mi_item mi_after]. pose proof (take_norm_Suffix _ _ El) as Sl.
  assert (F : forall x, Ok (@None (mitem block), x) = Ok (o, w) -> exists o' : option (mitem block), Ok (None, x) = Ok (o', w) /\ rel o o') by (intros x K; apply Ok_inj in K; injection K as <- <-; exists None; split; [reflexivity|exact I]).
  destruct (negb _); [exact (F _ H)|]. apply bind_ok in H. destruct H as (na & En & H). rewrite En. cbn [bind]. destruct na as [na|]; [|exact (F _ H)]. destruct (media_type_of _) as [ty|]; [|exact (F _ H)]. apply bind_ok in H. destruct H as (co & Ec & H). rewrite Ec. cbn [bind]. destruct co as [co|]; [|exact (F _ H)].
  apply bind_ok in H. destruct H as (ta & Et & H). rewrite Et. cbn [bind]. destruct (is_nil _); [exact (F _ H)|]. apply bind_ok in H. destruct H as (op & Eo & H). rewrite Eo. cbn [bind]. destruct op as [op|]; [|exact (F _ H)]. apply bind_ok in H. destruct H as (e & Ee & H). rewrite Ee. cbn [bind]. apply bind_ok in H. destruct H as (al & Eal & H). rewrite Eal. cbn [bind].
  apply bind_ok in H. destruct H as (a & Ea & H). rewrite Ea. cbn [bind]. pose proof (Suffix_trans _ _ _ Sm Sl) as S2. change (line_block_source _ (ext (mi_after li))) with (line_block_source (xmd m) (ext (mi_after li))). rewrite (line_source_ext m _ S2). apply bind_ok in H. destruct H as (s1 & E1 & H). rewrite E1. cbn [bind]. rewrite discard_empty_lines_ok in *. cbn [bind] in *. apply Ok_inj in H. injection H as <- <-.
  eexists. split; [reflexivity|]. split; [reflexivity|]. exact (discard_near _ (well_after _ _ W S2)).
Qed.
Lemma break_ext m o : well_ended (sp_data (md_source m)) -> Suffix (md_source m) (md_start m) -> sp_data (md_start m) <> [] -> break_parse m = Ok o -> exists o', break_parse (xmd m) = Ok o' /\ rel o o'.
Proof.
  intros W Sm N H. pose proof (well_after _ _ W Sm) as W1. unfold break_parse in *. cbn [xmd md_start md_attrlist md_title_source md_title md_anchor]. rewrite (norm_ext _ W1 N). apply bind_ok in H. destruct H as (li & El & H). rewrite El. cbn [on_ok bind am mi_item mi_after]. pose proof (take_norm_Suffix _ _ El) as Sl.
  destruct (break_type_of _); [|apply Ok_inj in H; subst o; exists None; split; [reflexivity|exact I]]. pose proof (Suffix_trans _ _ _ Sm Sl) as S2. change (line_block_source _ (ext (mi_after li))) with (line_block_source (xmd m) (ext (mi_after li))). rewrite (line_source_ext m _ S2). apply bind_ok in H. destruct H as (s1 & E1 & H). rewrite E1. cbn [bind]. rewrite discard_empty_lines_ok in *. cbn [bind] in *. apply Ok_inj in H. subst o.
  eexists. split; [reflexivity|]. split; [reflexivity|]. exact (discard_near _ (well_after _ _ W S2)).
Qed.
(** * Sections *)
Lemma title_line_ext s : well_ended (sp_data s) -> parse_title_line (ext s) = on_ok (fun r => (option_map am (fst r), snd r)) (parse_title_line s).
Proof.
  intros W. unfold parse_title_line. rewrite (non_empty_ext s W). destruct (take_non_empty s) as [(l & r & n & H & Hn & N & K)|(_ & K)]; rewrite K; cbn [on_ok bind option_map]; [|reflexivity]. rewrite (norm_ext s W N). cbn [am mi_item mi_after]. rewrite on_ok_bind. apply bind_more. intros c. destruct (fst c =? 1); [rewrite bind_on_ok, on_ok_bind; reflexivity|]. destruct (6 <? fst c); [rewrite bind_on_ok, on_ok_bind; reflexivity|].
  rewrite on_ok_bind. apply bind_more. intros [ti|]; [|reflexivity]. rewrite on_ok_bind. apply bind_more. intros le. reflexivity.
Qed.
Lemma stop_ext E d l s n : well_ended (sp_data s) -> sp_data (p_discard_empty_lines s) <> [] -> section_stop E d l (ext s) n = section_stop E d l s n.
Proof.
  intros W N. unfold section_stop. destruct d; [reflexivity|]. unfold peer_or_ancestor_section. rewrite (metadata_ext E s _ W N). destruct (metadata_parse E s parser_default) as [[m ws]| |] eqn:Em; cbn [on_ok bind fst snd]; try reflexivity. change (is_discrete (xmd m)) with (is_discrete m). apply bind_more. intros di. destruct di; [reflexivity|].
  destruct (metadata_Suffix _ _ _ _ _ Em) as (S1 & S2). assert (W1 : well_ended (sp_data (md_start m))) by (apply (well_after _ _ W); eapply Suffix_trans; [|exact S2]; rewrite S1; apply discard_empty_Suffix). cbn [xmd md_start]. rewrite (title_line_ext _ W1). rewrite bind_on_ok. apply bind_more. intros r. cbn [fst snd]. destruct (fst r) as [mi|]; [|reflexivity]. cbn [option_map am mi_item].
  destruct (n + 1 <? fst (mi_item mi)); [|reflexivity]. assert (N1 : sp_data s <> []) by (intros K; apply N; rewrite (discard_nil s K); exact K). rewrite (norm_ext s W N1). destruct (take_normalized_line s); reflexivity.
Qed.
Lemma over_moved a : over a = mv (sp_line a) (sp_off a + 1) (span_new z).
Proof. unfold ext_over, skip, slice_internal, mv, span_new. change (blen [LF]) with 1. change (count_lf [LF]) with 1. change (length (after_last_lf [LF])) with 0. cbn [Nat.eqb sp_data sp_line sp_col sp_off]. f_equal; lia. Qed.
Lemma stop_end E d l a n : chapter E z -> 1 <= l -> l <= n -> sp_data a = [] -> forall a', near a a' -> exists n', section_stop E d l a' n = Ok (true, (n', [])) /\ sp_data a' <> [].
Proof.
  intros (m & ws & mi & H1 & H2 & H3 & H4) Hl Hn D a' Ha. assert (Na : sp_data a' <> []).
  { destruct Ha as [->|(_ & ->)]; [rewrite data_ext; destruct (sp_data a); discriminate|]. rewrite data_over. destruct Hz as (x & y & k & c & K & Kc & _). intros K0. rewrite K0 in K. apply a_line_nil in K. subst k. destruct Kc. }
  unfold section_stop. destruct d; [exists n; split; [reflexivity|exact Na]|]. unfold peer_or_ancestor_section.
  assert (Em : metadata_parse E a' parser_default = metadata_parse E (over a) parser_default) by (destruct Ha as [->|(_ & ->)]; [exact (metadata_over E a _ D)|reflexivity]).
  rewrite Em, over_moved, mv_metadata, H1. cbn [on_ok bind fst snd]. exists 1. split; [|exact Na].
  rewrite mv_discrete, H2. cbn [bind mv_md md_start]. rewrite mv_title_line, H3. cbn [on_ok bind fst snd option_map mv_mi mi_item map]. rewrite H4. replace (n + 1 <? 1) with false by (symmetry; apply Nat.ltb_ge; lia). cbn [bind app]. replace (1 <=? l) with true by (symmetry; apply Nat.leb_le; lia). reflexivity.
Qed.
(** Warnings about the same; a warning about all the text from a place on is about more. *)
Lemma relw_refl ws : relw z ws ws.
Proof. induction ws; constructor; auto. Qed.
Lemma relw_app a b a' b' : relw z a a' -> relw z b b' -> relw z (a ++ b) (a' ++ b').
Proof. apply Forall2_app. Qed.
(** What is to be known of the loop inside a section. *)
Variable D0 : text.
Definition same_br (b b' : bres) : Prop := br_blocks b' = br_blocks b /\ relw z (br_warnings b) (br_warnings b') /\ br_stop_warnings b' = br_stop_warnings b /\ br_parser b' = br_parser b /\ near (br_after b) (br_after b').
Definition ext_until (E : env) (un un' : stop_fn -> nat -> span -> parser -> res bres) : Prop := forall d l n s P b, 1 <= l -> l <= n -> located D0 s -> well_ended (sp_data s) -> un (section_stop E d l) n s P = Ok b -> terminated (br_warnings b) ->
  chapter E z \/ sp_data (br_after b) <> [] -> exists b', un' (section_stop E d l) n (ext s) P = Ok b' /\ same_br b b'.
Definition mono_until (un un' : stop_fn -> nat -> span -> parser -> res bres) : Prop := forall f n s P b, un f n s P = Ok b -> un' f n s P = Ok b.
Definition suf_until (E : env) (un : stop_fn -> nat -> span -> parser -> res bres) : Prop := forall f n s P b, located D0 s -> un f n s P = Ok b -> Suffix s (br_after b).
Lemma terminated_app a b : terminated (a ++ b) -> terminated a /\ terminated b.
Proof. intros H. split; intros w K; apply H, in_or_app; auto. Qed.
Lemma title_line_level s mi ws : parse_title_line s = Ok (Some mi, ws) -> 1 <= fst (mi_item mi) /\ Suffix s (mi_after mi) /\ ws = [].
Proof.
  unfold parse_title_line. intros H. apply bind_ok in H. destruct H as (o & Eo & H). destruct o as [m|]; [|discriminate H]. apply bind_ok in H. destruct H as (c & Ec & H). destruct (fst c =? 1) eqn:C1; [apply bind_ok in H; destruct H as (? & _ & H); discriminate H|]. destruct (6 <? fst c); [apply bind_ok in H; destruct H as (? & _ & H); discriminate H|].
  apply bind_ok in H. destruct H as (ti & Et & H). destruct ti as [ti|]; [|discriminate H]. apply bind_ok in H. destruct H as (le & El & H). apply Ok_inj in H. injection H as <- <-. cbn [mi_item fst mi_after]. unfold checked_sub in El. destruct (Nat.leb_spec 1 (fst c)); [|discriminate El]. apply Ok_inj in El. apply Nat.eqb_neq in C1. split; [lia|]. split; [|reflexivity].
  destruct (take_non_empty s) as [(l & r & n & Hl & _ & _ & K)|(_ & K)]; rewrite K in Eo; [|discriminate Eo]. apply Ok_inj in Eo. injection Eo as <-. apply Suffix_intro. exact (a_line_app _ _ _ _ Hl).
Qed.
Lemma section_ext E un un' m P o w P1 : ext_until E un un' -> suf_until E un -> located D0 (md_source m) -> well_ended (sp_data (md_source m)) -> Suffix (md_source m) (md_start m) -> sp_data (p_discard_empty_lines (md_start m)) <> [] ->
  section_parse E un m P = Ok (o, (w, P1)) -> terminated w -> (forall mi, o = Some mi -> chapter E z \/ sp_data (mi_after mi) <> []) ->
  exists o' w', section_parse E un' (xmd m) P = Ok (o', (w', P1)) /\ rel o o' /\ relw z w w'.
Proof.
  intros Hu Hs L W Sm N H T C. pose proof (well_after _ _ W Sm) as W1. unfold section_parse in *. cbn [xmd md_start md_attrlist md_source]. change (is_discrete (xmd m)) with (is_discrete m). change (manual_id (xmd m)) with (manual_id m). apply bind_ok in H. destruct H as (di & Ed & H). 
  match goal with |- context [bind (is_discrete ?x) _] => change (is_discrete x) with (is_discrete m) end. rewrite Ed. cbn [bind]. rewrite discard_empty_lines_ok in *. cbn [bind] in *. rewrite (discard_ext _ _ (le_n _) W1). destruct (sp_data (p_discard_empty_lines (md_start m))) as [|c0 t0] eqn:D; [contradiction|]. clear N.
  pose proof (discard_empty_Suffix (md_start m)) as S0. pose proof (well_after _ _ W1 S0) as W2. set (q := p_discard_empty_lines (md_start m)) in *. rewrite (title_line_ext q W2). apply bind_ok in H. destruct H as ([lt lw] & El & H). rewrite El. cbn [on_ok bind fst snd] in *. destruct lt as [lt|]; cbn [option_map] in *.
  2:{ apply Ok_inj in H. injection H as <- <- <-. exists None. eexists. split; [reflexivity|]. split; [exact I|apply relw_refl]. }
  destruct (title_line_level _ _ _ El) as (L1 & S1 & ->). cbn [am mi_item mi_after]. apply bind_ok in H. destruct H as (bs & Ebs & H). rewrite Ebs. cbn [bind]. cbv zeta in *. apply bind_ok in H. destruct H as (b & Eb & H). apply bind_ok in H. destruct H as (src & Esrc & H). apply bind_ok in H. destruct H as (ti & Et & H). apply bind_ok in H. destruct H as (ba & Eba & H). apply bind_ok in H. destruct H as (ma & Ema & H). apply bind_ok in H. destruct H as (re & Ere & H). apply bind_ok in H. destruct H as (s2 & Es2 & H). apply Ok_inj in H. injection H as <- Hw HP.
  cbn [app] in Hw. assert (Tb : terminated (br_warnings b)). { rewrite <- Hw in T. apply terminated_app in T. destruct T as (_ & T). apply terminated_app in T. tauto. }
  pose proof (Suffix_trans _ _ _ Sm (Suffix_trans _ _ _ S0 S1)) as S2. destruct (Hu di (fst (mi_item lt)) (fst (mi_item lt)) (mi_after lt) _ b L1 (le_n _) (located_Suffix _ _ _ L S2) (well_after _ _ W2 S1) Eb Tb (C _ eq_refl)) as (b' & Eb' & B1 & B2 & B3 & B4 & B5). rewrite Eb'. cbn [bind]. rewrite B1, B3, B4.
  pose proof (Suffix_trans _ _ _ S2 (Hs _ _ _ _ _ (located_Suffix _ _ _ L S2) Eb)) as S3. destruct (remainder_near _ _ _ S3 B5) as (x & y & Ex & Ey & Exy). rewrite Ex in Esrc. apply Ok_inj in Esrc. subst x. rewrite Ey. cbn [bind]. rewrite Et. cbn [bind]. rewrite Eba. cbn [bind].
  match goal with |- context [bind (manual_id ?x) _] => change (manual_id x) with (manual_id m) end. rewrite Ema. cbn [bind]. rewrite (remainder_ext _ _ S2). match goal with |- context [section_reftext ?x ti] => change (section_reftext x ti) with (section_reftext m ti) end. rewrite Ere. cbn [bind]. rewrite trim_trailing_whitespace_ok in *. apply Ok_inj in Es2. subst s2. rewrite Exy. cbn [bind].
  rewrite <- Hw, <- HP. eexists _, _. split; [reflexivity|]. split; [split; [reflexivity|exact B5]|]. cbn [app]. repeat (apply relw_app; [apply relw_refl|]). exact B2.
Qed.
(** * Any block *)
Definition relp (r r' : pres) : Prop := relw z (pr_warnings r) (pr_warnings r') /\ pr_parser r' = pr_parser r /\ rel (pr_item r) (pr_item r').
Lemma finish_ext mi mi' ws ws' P r : rel (Some mi) (Some mi') -> relw z ws ws' -> finish mi ws P = Ok r -> exists r', finish mi' ws' P = Ok r' /\ relp r r'.
Proof.
  intros (R1 & R2) Rw H. unfold finish in *. rewrite R1. apply bind_ok in H. destruct H as (i & Ei & H). rewrite Ei. cbn [bind]. apply Ok_inj in H. subst r. eexists. split; [reflexivity|]. split; [apply relw_app; [exact Rw|apply relw_refl]|]. split; [reflexivity|split; assumption].
Qed.
Lemma last_ext E m ws ws' P r : relw z ws ws' -> well_ended (sp_data (md_source m)) -> Suffix (md_source m) (md_start m) -> last_resort E m ws P = Ok r -> exists r', last_resort E (xmd m) ws' P = Ok r' /\ relp r r'.
Proof.
  intros Rw W Sm H. unfold last_resort in *. apply bind_ok in H. destruct H as (o & Eo & H). destruct (simple_ext _ _ _ _ W Sm Eo) as (o' & -> & R). cbn [bind]. destruct o as [mi|], o' as [mi'|]; try contradiction; [exact (finish_ext _ _ _ _ _ _ R Rw H)|]. apply Ok_inj in H. subst r. eexists. split; [reflexivity|]. split; [exact Rw|split; [reflexivity|exact I]].
Qed.
Lemma no_block_ext E m ws ws' P r : relw z ws ws' -> well_ended (sp_data (md_source m)) -> Suffix (md_source m) (md_start m) -> no_block E m ws P = Ok r -> exists r', no_block E (xmd m) ws' P = Ok r' /\ relp r r'.
Proof.
  intros Rw W Sm H. unfold no_block in *. apply bind_ok in H. destruct H as (o & Eo & H). destruct (simple_ext _ _ _ _ W Sm Eo) as (o' & -> & R). cbn [bind]. change (md_is_empty (xmd m)) with (md_is_empty m). replace (is_some o') with (is_some o) by (destruct o, o'; try contradiction; reflexivity). destruct (_ && _).
  - change (orphan_metadata (xmd m)) with (xmd (orphan_metadata m)). apply (last_ext E (orphan_metadata m) (ws ++ [mkwarn (md_source m) WMissingBlockAfterTitleOrAttributeList])); [|exact W|apply Suffix_refl|exact H]. apply relw_app; [exact Rw|]. constructor; [|constructor]. split; [reflexivity|right; reflexivity].
  - exact (last_ext _ _ _ _ _ _ Rw W Sm H).
Qed.
Lemma starts_nonempty cs s m : take_normalized_line s = Ok m -> starts_with_any cs (sp_data (mi_item m)) = true -> sp_data s <> [] /\ p_discard_empty_lines s = s \/ has_char SP cs = true \/ has_char TAB cs = true.
Proof.
  intros H K. destruct (take_norm s) as (l & r & n & Hl & E). rewrite H in E. apply Ok_inj in E. subst m. cbn [mi_item sp_data with_data] in K. destruct n as [|c n]; [discriminate K|]. cbn [starts_with_any] in K. destruct (N.eqb_spec c SP) as [->|N1]; [auto|]. destruct (N.eqb_spec c TAB) as [->|N2]; [auto|]. left. split.
  - destruct (a_line_head _ _ _ _ _ Hl) as (y & ->). discriminate.
  - apply (discard_none s l r (c :: n) c Hl); [left; reflexivity|]. intros [->| ->]; congruence.
Qed.
Lemma break_try E m line ws ws' P r lm : relw z ws ws' -> well_ended (sp_data (md_source m)) -> Suffix (md_source m) (md_start m) -> take_normalized_line (md_start m) = Ok lm -> line = sp_data (mi_item lm) -> try_break E m line ws P = Ok r -> exists r', try_break E (xmd m) line ws' P = Ok r' /\ relp r r'.
Proof.
  intros Rw W Sm El Hl H. unfold try_break in *. apply bind_ok in H. destruct H as (o & Eo & H). destruct (starts_with_any _ line) eqn:K.
  - rewrite Hl in K. destruct (starts_nonempty _ _ _ El K) as [(N & _)|[F|F]]; [|discriminate F|discriminate F]. destruct (break_ext _ _ W Sm N Eo) as (o' & -> & R). cbn [bind]. destruct o as [mi|], o' as [mi'|]; try contradiction; [|exact (no_block_ext _ _ _ _ _ _ Rw W Sm H)]. apply Ok_inj in H. subst r. eexists. split; [reflexivity|]. split; [exact Rw|split; [reflexivity|exact R]].
  - apply Ok_inj in Eo. subst o. cbn [bind]. exact (no_block_ext _ _ _ _ _ _ Rw W Sm H).
Qed.
(** The last thing is not a section, or a section begins next. *)
Definition over_with (E : env) (r : pres) : Prop := chapter E z \/ (forall mi, pr_item r = Some mi -> sp_data (mi_after mi) <> [] \/ forall l t bs s m ty id n, mi_item mi <> BSection l t bs s m ty id n).
Lemma section_try E un un' m line ws ws' P r lm : ext_until E un un' -> suf_until E un -> located D0 (md_source m) -> relw z ws ws' -> well_ended (sp_data (md_source m)) -> Suffix (md_source m) (md_start m) -> take_normalized_line (md_start m) = Ok lm -> line = sp_data (mi_item lm) ->
  try_section E un m line ws P = Ok r -> terminated (pr_warnings r) -> over_with E r -> exists r', try_section E un' (xmd m) line ws' P = Ok r' /\ relp r r'.
Proof.
  intros Hu Hs L Rw W Sm El Hl H T Ov. unfold try_section in *. apply bind_ok in H. destruct H as ([o [w P1]] & Eo & H). cbn [fst snd] in *. destruct (starts_with_any _ line) eqn:K.
  - rewrite Hl in K. destruct (starts_nonempty _ _ _ El K) as [(N & Nd)|[F|F]]; [|discriminate F|discriminate F].
    destruct o as [mi|].
    + apply Ok_inj in H. subst r. cbn [pr_warnings pr_item] in *. apply terminated_app in T. destruct T as (_ & T).
      destruct (section_ext E un un' m P (Some mi) w P1 Hu Hs L W Sm) as (o' & w' & Es & R & R2); [rewrite Nd; exact N|exact Eo|exact T| |].
      { intros mi0 K0. injection K0 as <-. destruct Ov as [Ov|Ov]; [left; exact Ov|right]. destruct (Ov mi eq_refl) as [K1|K1]; [exact K1|]. exfalso. clear - Eo K1. unfold section_parse in Eo. repeat (apply bind_ok in Eo; destruct Eo as (? & _ & Eo)). destruct (fst _); [|discriminate Eo]. cbv zeta in Eo. repeat (apply bind_ok in Eo; destruct Eo as (? & _ & Eo)). apply Ok_inj in Eo. injection Eo as <- _ _. eapply K1. reflexivity. }
      rewrite Es. cbn [bind fst snd]. destruct o' as [mi'|]; [|contradiction]. eexists. split; [reflexivity|]. split; [apply relw_app; assumption|split; [reflexivity|exact R]].
    + assert (Tw : terminated w). { intros x Hx. clear - Eo Hx. unfold section_parse in Eo. apply bind_ok in Eo. destruct Eo as (? & _ & Eo). apply bind_ok in Eo. destruct Eo as (q & _ & Eo). apply bind_ok in Eo. destruct Eo as ([lt lw] & El & Eo). cbn [fst snd] in Eo. destruct lt; [cbv zeta in Eo; repeat (apply bind_ok in Eo; destruct Eo as (? & _ & Eo)); discriminate Eo|]. apply Ok_inj in Eo. injection Eo as <- _.
        unfold parse_title_line in El. apply bind_ok in El. destruct El as (o & _ & El). destruct o; [|apply Ok_inj in El; injection El as <-; destruct Hx]. apply bind_ok in El. destruct El as (c & _ & El). destruct (fst c =? 1); [apply bind_ok in El; destruct El as (? & _ & El); apply Ok_inj in El; injection El as <-; destruct Hx as [<-|[]]; discriminate|]. destruct (6 <? fst c); [apply bind_ok in El; destruct El as (? & _ & El); apply Ok_inj in El; injection El as <-; destruct Hx as [<-|[]]; discriminate|].
        apply bind_ok in El. destruct El as (o & _ & El). destruct o; [apply bind_ok in El; destruct El as (? & _ & El); discriminate El|]. apply Ok_inj in El. injection El as <-. destruct Hx. }
      destruct (section_ext E un un' m P None w P1 Hu Hs L W Sm) as (o' & w' & Es & R & R2); [rewrite Nd; exact N|exact Eo|exact Tw|intros ? K0; discriminate K0|]. rewrite Es. cbn [bind fst snd]. destruct o'; [contradiction|]. exact (break_try _ _ _ _ _ _ _ _ (relw_app _ _ _ _ Rw R2) W Sm El Hl H).
  - apply Ok_inj in Eo. injection Eo as <- <- <-. cbn [bind fst snd]. refine (break_try _ _ _ _ _ _ _ _ (relw_app _ _ _ _ Rw (relw_refl [])) W Sm El Hl H).
Qed.
Lemma media_try E un un' m line ws ws' P r lm : ext_until E un un' -> suf_until E un -> located D0 (md_source m) -> relw z ws ws' -> well_ended (sp_data (md_source m)) -> Suffix (md_source m) (md_start m) -> take_normalized_line (md_start m) = Ok lm -> line = sp_data (mi_item lm) ->
  try_media E un m line ws P = Ok r -> terminated (pr_warnings r) -> over_with E r -> exists r', try_media E un' (xmd m) line ws' P = Ok r' /\ relp r r'.
Proof.
  intros Hu Hs L Rw W Sm El Hl H T Ov. unfold try_media in *. apply bind_ok in H. destruct H as ([o w] & Eo & H). cbn [fst snd] in *. destruct (_ || _) eqn:K.
  - assert (N : sp_data (md_start m) <> []). { intros D. destruct (norm_end _ D) as (_ & E2). rewrite El in E2. apply Ok_inj in E2. subst lm. rewrite Hl in K. discriminate K. }
    destruct (media_ext _ _ _ _ _ W Sm N Eo) as (o' & -> & R). cbn [bind fst snd]. destruct o as [mi|], o' as [mi'|]; try contradiction; [exact (finish_ext _ _ _ _ _ _ R (relw_app _ _ _ _ Rw (relw_refl w)) H)|]. exact (section_try _ _ _ _ _ _ _ _ _ _ Hu Hs L Rw W Sm El Hl H T Ov).
  - apply Ok_inj in Eo. injection Eo as <- <-. cbn [bind fst snd]. exact (section_try _ _ _ _ _ _ _ _ _ _ Hu Hs L Rw W Sm El Hl H T Ov).
Qed.
Lemma finish_warnings mi ws P r : finish mi ws P = Ok r -> exists w2, pr_warnings r = ws ++ w2.
Proof. unfold finish. intros H. apply bind_ok in H. destruct H as (i & _ & H). apply Ok_inj in H. subst r. eexists. reflexivity. Qed.
Lemma with_metadata_ext E un un' m ws P r : ext_until E un un' -> suf_until E un -> mono_until un un' -> located D0 (md_source m) -> well_ended (sp_data (md_source m)) -> Suffix (md_source m) (md_start m) ->
  with_metadata E un m ws P = Ok r -> terminated (pr_warnings r) -> over_with E r -> exists r', with_metadata E un' (xmd m) ws P = Ok r' /\ relp r r'.
Proof.
  intros Hu Hs Hm L W Sm H T Ov. pose proof (well_after _ _ W Sm) as W1. unfold with_metadata in *. cbn [xmd md_attrlist]. apply bind_ok in H. destruct H as (bs & Ebs & H). rewrite Ebs. cbn [bind]. destruct (style_is _ _); [exact (last_ext _ _ _ _ _ _ (relw_refl ws) W Sm H)|].
  apply bind_ok in H. destruct H as (o & Eo & H). match goal with |- context [raw_parse E ?x P] => change x with (xmd m) end. destruct o as [[mi w]|].
  { cbn [fst snd] in H. destruct (finish_warnings _ _ _ _ H) as (w2 & Hw). assert (Tw : terminated w) by (rewrite Hw in T; apply terminated_app in T; destruct T as (T & _); apply terminated_app in T; tauto). destruct (raw_ext _ _ _ _ _ W Sm Eo Tw) as (mi' & -> & R). cbn [bind fst snd]. exact (finish_ext _ _ _ _ _ _ R (relw_refl _) H). }
  rewrite (raw_none _ _ _ W1 Eo). cbn [bind]. apply bind_ok in H. destruct H as (o & Ec & H). destruct o as [[mi [w P1]]|].
  { cbn [fst snd] in H. destruct (finish_warnings _ _ _ _ H) as (w2 & Hw). assert (Tw : terminated w) by (rewrite Hw in T; apply terminated_app in T; destruct T as (T & _); apply terminated_app in T; tauto). destruct (compound_ext (un never 0) (un' never 0) _ _ _ _ _ (fun s Q b => Hm never 0 s Q b) W Sm Ec Tw) as (mi' & -> & R). cbn [bind fst snd]. exact (finish_ext _ _ _ _ _ _ R (relw_refl _) H). }
  rewrite (compound_none (un never 0) (un' never 0) _ _ W1 Ec). cbn [bind]. apply bind_ok in H. destruct H as (li & El & H). cbn [xmd md_start]. destruct (norm_item _ W1) as (a & b & Ea & Eb & Ei & _). rewrite Eb. rewrite El in Ea. apply Ok_inj in Ea. subst a. cbn [bind]. rewrite Ei. exact (media_try _ _ _ _ _ _ _ _ _ _ Hu Hs L (relw_refl ws) W Sm El eq_refl H T Ov).
Qed.
Lemma finish_item_some mi ws P r : finish mi ws P = Ok r -> pr_item r = Some mi.
Proof. unfold finish. intros H. apply bind_ok in H. destruct H as (i & _ & H). apply Ok_inj in H. subst r. reflexivity. Qed.
Lemma block_ext E un un' s P r : ext_until E un un' -> suf_until E un -> mono_until un un' -> located D0 s -> well_ended (sp_data s) -> sp_data (p_discard_empty_lines s) <> [] ->
  block_parse_with E un s P = Ok r -> terminated (pr_warnings r) -> over_with E r -> exists r', block_parse_with E un' (ext s) P = Ok r' /\ relp r r'.
Proof.
  intros Hu Hs Hm L W Nd H T Ov. assert (N : sp_data s <> []) by (intros K; apply Nd; rewrite (discard_nil s K); exact K). unfold block_parse_with in *. rewrite (line_of s W N). apply bind_ok in H. destruct H as (fl & Ef & H). rewrite Ef. cbn [on_ok bind am mi_item].
  assert (Tf : try_fast (ext s) (mi_item fl) = try_fast s (mi_item fl)) by (unfold try_fast; rewrite data_ext; destruct (sp_data s); [contradiction|reflexivity]). rewrite Tf. apply bind_ok in H. destruct H as (fa & Efa & H). assert (F : exists fa', (if try_fast s (mi_item fl) then simple_parse_fast E (ext s) P else Ok None) = Ok fa' /\ rel fa fa').
  { destruct (try_fast _ _); [exact (fast_ext _ _ _ _ W Efa)|apply Ok_inj in Efa; subst fa; exists None; split; [reflexivity|exact I]]. }
  destruct F as (fa' & -> & R). cbn [bind]. destruct fa as [mi|], fa' as [mi'|]; try contradiction; [exact (finish_ext _ _ _ _ _ _ R (relw_refl _) H)|]. clear R Efa.
  apply bind_ok in H. destruct H as (en & Een & H). assert (F : (if try_entry (mi_item fl) then attribute_parse (apply_header_subs E) (ext s) P else Ok None) = Ok (option_map am en)).
  { destruct (try_entry _); [rewrite (entry_ext _ s P W N), Een; reflexivity|apply Ok_inj in Een; subst en; reflexivity]. }
  rewrite F. cbn [bind]. destruct en as [at_|]; cbn [option_map].
  { apply Ok_inj in H. subst r. eexists. split; [reflexivity|]. split; [apply relw_refl|]. split; [reflexivity|]. split; [reflexivity|left; reflexivity]. }
  rewrite (metadata_ext E s P W Nd). apply bind_ok in H. destruct H as ([m ws] & Em & H). rewrite Em. cbn [on_ok bind fst snd] in *. destruct (metadata_Suffix _ _ _ _ _ Em) as (S1 & S2). assert (W1 : well_ended (sp_data (md_source m))) by (rewrite S1; exact (well_after _ _ W (discard_empty_Suffix s))). assert (L1 : located D0 (md_source m)) by (rewrite S1; exact (located_Suffix _ _ _ L (discard_empty_Suffix s))). exact (with_metadata_ext _ _ _ _ _ _ _ Hu Hs Hm L1 W1 S2 H T Ov).
Qed.
(** * Blocks one after another *)
Lemma white_hollow : forall k t b, length t <= k -> blank t -> hollow b t.
Proof.
  induction k as [|k IH]; intros t b Hk Hb; [destruct t; [constructor; left; reflexivity|cbn in Hk; lia]|]. destruct (a_line_total t) as (l & r & n & Hl). destruct n as [|c n]; [constructor; right; eauto|].
  assert (Ht : t <> []) by (intros ->; apply a_line_nil in Hl; discriminate Hl). pose proof (a_line_app _ _ _ _ Hl) as D. assert (Hlb : blank l) by (rewrite D in Hb; apply Forall_app in Hb; tauto). apply (ho_line b t l r (c :: n)); [exact Ht|exact Hl|discriminate|exact (proj1 (line_blank _ _ _ _ Hl) Hlb)|].
  apply IH; [pose proof (a_line_nonempty _ _ _ _ Hl Ht); rewrite D, app_length in Hk; destruct l; [contradiction|cbn in Hk; lia]|rewrite D in Hb; apply Forall_app in Hb; tauto].
Qed.
Lemma discard_white s : sp_data (p_discard_empty_lines s) = [] -> blank (sp_data s).
Proof.
  intros Hd. destruct (discard_go_spec (length (sp_data s)) s (le_n _)) as (ls & tail & D & Hls & Ht). fold (p_discard_empty_lines s) in Ht.
  assert (Hbl : forall l, blank_line l -> blank l). { intros l (ws & cr & -> & Hw & Hc). apply Forall_app. split; [apply Forall_forall; intros c Hin; destruct (Hw c Hin) as [->| ->]; reflexivity|destruct Hc as [->| ->]; repeat constructor]. }
  rewrite D. apply Forall_app. split.
  - clear - Hls Hbl. induction ls as [|l ls IH]; [constructor|]. unfold unlines. cbn [map concat]. apply Forall_app. split; [|apply IH; intros x Hx; apply Hls; right; exact Hx]. apply Forall_app. split; [apply Hbl, Hls; left; reflexivity|repeat constructor].
  - destruct Ht as [(K & l & e & rest & Et & _ & _ & Hb)|(_ & Hb & _)]; [|exact (Hbl _ Hb)]. rewrite Hd in K. subst tail. constructor.
Qed.
Lemma white_dead E P s : sp_data s <> [] -> sp_data (p_discard_empty_lines s) = [] -> dead E P s.
Proof.
  intros Hs Hd. exists (p_discard_empty_lines s). split; [apply discard_empty_lines_ok|]. split; [right; exact (white_hollow _ _ _ (le_n _) (discard_white s Hd))|]. rewrite Hd. exists [], [], None. destruct (a_line_total []) as (l & r & n & Hl). pose proof (a_line_nil _ _ _ Hl) as K. subst n.
  split; [apply (plain_start _ _ _ _ _ Hl); intros c y K; discriminate K|]. split; [reflexivity|]. split; [constructor; left; reflexivity|right; split; reflexivity].
Qed.
(** Where no block is found the loop has no result, unless it stops there. *)
Lemma stop_white E d l s n st : sp_data (p_discard_empty_lines s) = [] -> section_stop E d l s n = Ok st -> d = true \/ fst st = false.
Proof.
  intros Hd H. destruct d; [left; reflexivity|right]. unfold section_stop, peer_or_ancestor_section in H. apply bind_ok in H. destruct H as ([m ws] & Em & H). cbn [fst] in H. apply bind_ok in H. destruct H as (di & _ & H). destruct di; [apply Ok_inj in H; subst st; reflexivity|].
  destruct (metadata_Suffix _ _ _ _ _ Em) as (S1 & S2). rewrite S1 in S2. assert (D1 : sp_data (md_start m) = []) by (destruct S2 as (p & D & _); rewrite Hd in D; symmetry in D; apply app_eq_nil in D; tauto). apply bind_ok in H. destruct H as (r & Er & H). destruct (fst r) as [mi|] eqn:F; [exfalso|apply Ok_inj in H; subst st; reflexivity].
  unfold parse_title_line in Er. apply bind_ok in Er. destruct Er as (o & Eo & Er). destruct o as [m0|]; [|apply Ok_inj in Er; subst r; discriminate F]. destruct (take_non_empty (md_start m)) as [(l1 & r1 & n1 & Hl1 & _ & K & _)|(_ & K)]; [contradiction|]. rewrite K in Eo. discriminate Eo.
Qed.
Lemma loop_white E d l : forall fuel n s P b, d = false -> sp_data s <> [] -> sp_data (p_discard_empty_lines s) = [] -> blocks_loop E fuel (section_stop E d l) n s P <> Ok b.
Proof.
  induction fuel as [|fuel IH]; intros n s P b Hd Hs Hw H; cbn [blocks_loop] in H; (destruct (sp_data s) as [|c t] eqn:Ds; [contradiction|]); [discriminate H|]. rewrite <- Ds in *. apply bind_ok in H. destruct H as (st & Est & H). destruct (stop_white _ _ _ _ _ _ Hw Est) as [K|K]; [congruence|]. rewrite K in H. apply bind_ok in H. destruct H as (r & Er & H).
  destruct (block_dead _ _ _ _ _ Hs Er) as (A & B). apply proj2 in A. specialize (A (white_dead _ _ _ Hs Hw)). rewrite A, (B A) in H. apply bind_ok in H. destruct H as (rest & Erest & _). exact (IH _ _ _ _ Hd Hs Hw Erest).
Qed.
Lemma stop_level E d l s n n' w : l <= n -> section_stop E d l s n = Ok (false, (n', w)) -> l <= n'.
Proof.
  intros Hn H. unfold section_stop in H. destruct d; [discriminate H|]. unfold peer_or_ancestor_section in H. apply bind_ok in H. destruct H as (m & _ & H). apply bind_ok in H. destruct H as (di & _ & H). destruct di; [apply Ok_inj in H; injection H as <- _; exact Hn|]. apply bind_ok in H. destruct H as (r & _ & H). destruct (fst r) as [mi|]; [|apply Ok_inj in H; injection H as <- _; exact Hn].
  apply bind_ok in H. destruct H as (x & _ & H). apply Ok_inj in H. injection H as H <- _. apply Nat.leb_gt in H. lia.
Qed.

Lemma until_mono E fuel : mono_until (parse_blocks_until E fuel) (parse_blocks_until E (S fuel)).
Proof. intros f n s P b H. apply (until_fuel E fuel (S fuel) f n s P (Ok b) H); [discriminate|lia]. Qed.
Lemma until_suf E fuel : suf_until E (parse_blocks_until E fuel).
Proof. intros f n s P b L H. exact (proj1 (until_ok D0 E fuel f n s P b L H)). Qed.
Lemma loop_ext E d l : forall fuel n s s' P b, 1 <= l -> l <= n -> located D0 s -> well_ended (sp_data s) -> near s s' -> blocks_loop E fuel (section_stop E d l) n s P = Ok b -> terminated (br_warnings b) ->
  chapter E z \/ sp_data (br_after b) <> [] -> exists b', blocks_loop E (S fuel) (section_stop E d l) n s' P = Ok b' /\ same_br b b'.
Proof.
  intros fuel. revert d l. induction fuel as [fuel IHs] using lt_wf_ind. intros d l n s s' P b Hl Hn L W Hs H T C. destruct (sp_data s) as [|c0 t0] eqn:Ds.
  - assert (b = mkbr [] s [] n [] P) as -> by (destruct fuel; cbn [blocks_loop] in H; rewrite Ds in H; apply Ok_inj in H; symmetry; exact H). cbn [br_after] in C. destruct C as [C|C]; [|rewrite Ds in C; contradiction]. destruct (stop_end E d l s n C Hl Hn Ds s' Hs) as (n' & Es & Ns). cbn [blocks_loop]. destruct (sp_data s') eqn:Ds'; [contradiction|]. rewrite Es. cbn [bind fst snd].
    eexists. split; [reflexivity|]. split; [reflexivity|]. split; [constructor|]. split; [reflexivity|]. split; [reflexivity|exact Hs].
  - rewrite <- Ds in *. assert (Ns : sp_data s <> []) by (rewrite Ds; discriminate). destruct Hs as [->|(K & _)]; [|contradiction]. destruct fuel as [|fuel]; [cbn [blocks_loop] in H; rewrite Ds in H; discriminate H|].
    assert (Ne : sp_data (ext s) <> []) by (rewrite data_ext, Ds; discriminate).
    assert (Stop : forall st, section_stop E d l s n = Ok st -> section_stop E d l (ext s) n = Ok st). 
    { intros st Est. destruct d; [exact Est|]. destruct (sp_data (p_discard_empty_lines s)) as [|c1 t1] eqn:Dd; [exfalso; exact (loop_white E false l _ _ _ _ _ eq_refl Ns Dd H)|]. rewrite stop_ext; [exact Est|exact W|rewrite Dd; discriminate]. }
    cbn [blocks_loop] in H. rewrite Ds in H. apply bind_ok in H. destruct H as ([st [n' w]] & Est & H). pose proof (Stop _ Est) as Est'. cbn [fst snd] in H. destruct st.
    { apply Ok_inj in H. subst b. cbn [blocks_loop]. destruct (sp_data (ext s)) eqn:De; [contradiction|]. rewrite Est'. cbn [bind fst snd]. eexists. split; [reflexivity|]. split; [reflexivity|]. split; [constructor|]. split; [reflexivity|]. split; [reflexivity|left; reflexivity]. }
    assert (Dd : sp_data (p_discard_empty_lines s) <> []). { intros Dd. destruct d; [discriminate Est|]. refine (loop_white E false l (S fuel) n s P b eq_refl Ns Dd _). cbn [blocks_loop]. rewrite Ds, Est. cbn [bind fst snd]. exact H. }
    apply bind_ok in H. destruct H as (r & Er & H). apply bind_ok in H. destruct H as (rest & Erest & H). apply Ok_inj in H. subst b. cbn [br_warnings br_after] in T, C. apply terminated_app in T. destruct T as (T1 & T2).
    assert (Hn' : l <= n') by exact (stop_level _ _ _ _ _ _ _ Hn Est).
    assert (Sa : Suffix s (match pr_item r with Some mi => mi_after mi | None => s end)). { destruct (pr_item r) as [mi|] eqn:Ei; [|apply Suffix_refl]. exact (proj1 (block_ok D0 E _ s P r mi (until_good E D0 fuel) L Er Ei)). }
    assert (Sb : Suffix (match pr_item r with Some mi => mi_after mi | None => s end) (br_after rest)) by exact (proj1 (blocks_ok D0 E _ _ _ _ _ _ (located_Suffix _ _ _ L Sa) Erest)).
    assert (Ov : over_with E r). { destruct C as [C|C]; [left; exact C|right]. intros mi Ei. left. rewrite Ei in Sb. intros K. apply C. destruct Sb as (p & Dp & _). rewrite K in Dp. symmetry in Dp. apply app_eq_nil in Dp. tauto. }
    assert (Hu : ext_until E (parse_blocks_until E fuel) (parse_blocks_until E (S fuel))).
    { intros d1 l1 n1 s1 P1 b1 Hl1 Hn1 L1 W1 H1 T0 C1. unfold parse_blocks_until in *. rewrite discard_empty_lines_ok in *. cbn [bind] in *. apply (IHs fuel (Nat.lt_succ_diag_r fuel) d1 l1 n1 (p_discard_empty_lines s1) _ P1 b1 Hl1 Hn1); [exact (located_Suffix _ _ _ L1 (discard_empty_Suffix s1))|exact (well_after _ _ W1 (discard_empty_Suffix s1))|exact (discard_near s1 W1)|exact H1|exact T0|exact C1]. }
    destruct (block_ext E _ _ s P r Hu (until_suf E fuel) (until_mono E fuel) L W Dd Er T1 Ov) as (r' & Er' & R1 & R2 & R3).
    assert (Na : near (match pr_item r with Some mi => mi_after mi | None => s end) (match pr_item r' with Some mi => mi_after mi | None => ext s end)) by (destruct (pr_item r), (pr_item r'); try contradiction; [exact (proj2 R3)|left; reflexivity]).
    destruct (IHs fuel (Nat.lt_succ_diag_r fuel) d l n' _ _ _ rest Hl Hn' (located_Suffix _ _ _ L Sa) (well_after _ _ W Sa) Na Erest T2 C) as (rest' & Erest' & B1 & B2 & B3 & B4 & B5).
    rewrite (loop_step E (S fuel) _ n (ext s) P n' w Ne Est'). unfold block_parse. rewrite Er'. cbn [bind]. rewrite R2, Erest'. cbn [bind]. eexists. split; [reflexivity|]. unfold same_br. cbn [br_blocks br_warnings br_stop_warnings br_parser br_after].
    split; [destruct (pr_item r), (pr_item r'); try contradiction; [rewrite (proj1 R3), B1; reflexivity|exact B1]|]. split; [exact (relw_app _ _ _ _ R1 B2)|]. split; [rewrite B3; reflexivity|]. split; [exact B4|exact B5].
Qed.
Lemma until_ext E fuel : ext_until E (parse_blocks_until E fuel) (parse_blocks_until E (S fuel)).
Proof.
  intros d1 l1 n1 s1 P1 b1 Hl1 Hn1 L1 W1 H1 T0 C1. unfold parse_blocks_until in *. rewrite discard_empty_lines_ok in *. cbn [bind] in *. apply (loop_ext E d1 l1 fuel n1 (p_discard_empty_lines s1) _ P1 b1 Hl1 Hn1); [exact (located_Suffix _ _ _ L1 (discard_empty_Suffix s1))|exact (well_after _ _ W1 (discard_empty_Suffix s1))|exact (discard_near s1 W1)|exact H1|exact T0|exact C1].
Qed.
(** Outside of sections the loop goes on with what comes next. *)
Lemma never_ext E : forall fuel n s s' P b, located D0 s -> well_ended (sp_data s) -> near s s' -> blocks_loop E fuel never n s P = Ok b -> terminated (br_warnings b) ->
  chapter E z \/ Forall no_section (br_blocks b) -> sp_data (br_after b) = [] /\ exists e, near (br_after b) e /\ forall F bz, blocks_loop E F never n e (br_parser b) = Ok bz ->
    exists b', blocks_loop E (fuel + F) never n s' P = Ok b' /\ br_blocks b' = br_blocks b ++ br_blocks bz /\ br_parser b' = br_parser bz /\ br_after b' = br_after bz /\ exists w, relw z (br_warnings b) w /\ br_warnings b' = w ++ br_warnings bz.
Proof.
  induction fuel as [|fuel IH]; intros n s s' P b L W Hs H T C; cbn [blocks_loop] in H; destruct (sp_data s) as [|c0 t0] eqn:Ds; try discriminate H.
  1,2: apply Ok_inj in H; subst b; cbn [br_after br_parser br_blocks br_warnings]; split; [exact Ds|]; exists s'; split; [exact Hs|]; intros F bz Hz'; exists bz; (split; [eapply loop_fuel; [exact Hz'|discriminate|lia]|]); split; [reflexivity|]; split; [reflexivity|]; split; [reflexivity|]; exists []; split; [constructor|reflexivity].
  rewrite <- Ds in *. assert (Ns : sp_data s <> []) by (rewrite Ds; discriminate). destruct Hs as [->|(K & _)]; [|contradiction].
  cbn [never bind fst snd] in H. apply bind_ok in H. destruct H as (r & Er & H). apply bind_ok in H. destruct H as (rest & Erest & H). apply Ok_inj in H. subst b. cbn [br_warnings br_blocks br_after br_parser] in *. apply terminated_app in T. destruct T as (T1 & T2).
  destruct (pr_item r) as [mi|] eqn:Ei.
  2:{ exfalso. destruct (block_dead _ _ _ _ _ Ns Er) as (A & B). rewrite (B Ei) in Erest. apply proj1 in A. specialize (A Ei). clear - Ns A Erest. revert n rest Erest. induction fuel as [|fuel IH]; intros n rest H; cbn [blocks_loop] in H; destruct (sp_data s) as [|c t] eqn:D; try contradiction; [discriminate H|]. rewrite <- D in *. cbn [never bind fst snd] in H. apply bind_ok in H. destruct H as (r & Er & H).
      destruct (block_dead _ _ _ _ _ Ns Er) as (A1 & B1). apply proj2 in A1. specialize (A1 A). rewrite A1, (B1 A1) in H. apply bind_ok in H. destruct H as (rest' & H & _). exact (IH _ _ H). }
  assert (Dd : sp_data (p_discard_empty_lines s) <> []). { intros Dd. destruct (block_dead _ _ _ _ _ Ns Er) as (A & _). apply proj2 in A. rewrite (A (white_dead E P s Ns Dd)) in Ei. discriminate Ei. }
  pose proof (proj1 (block_ok D0 E _ s P r mi (until_good E D0 fuel) L Er Ei)) as Sa. 
  assert (Ov : over_with E r). { destruct C as [C|C]; [left; exact C|right]. intros mi0 K. injection (eq_trans (eq_sym K) Ei) as ->. right. inversion C as [|? ? C1 _]. exact C1. }
  destruct (block_ext E _ _ s P r (until_ext E fuel) (until_suf E fuel) (until_mono E fuel) L W Dd Er T1 Ov) as (r' & Er' & R1 & R2 & R3). rewrite Ei in R3. destruct (pr_item r') as [mi'|] eqn:Ei'; [|contradiction]. destruct R3 as (R3 & R4).
  destruct (IH n (mi_after mi) (mi_after mi') (pr_parser r) rest (located_Suffix _ _ _ L Sa) (well_after _ _ W Sa) R4 Erest T2) as (De & e & He & Hr); [destruct C as [C|C]; [left; exact C|right; inversion C; assumption]|].
  split; [exact De|]. exists e. split; [exact He|]. intros F bz Hbz.
  (* one round more for what is inside of the block *)
  destruct F as [|F].
  { assert (Ez : sp_data e = []) by (destruct (sp_data e) eqn:K; [reflexivity|cbn [blocks_loop] in Hbz; rewrite K in Hbz; discriminate Hbz]). exfalso. destruct He as [->|(_ & ->)]; [rewrite data_ext in Ez; apply app_eq_nil in Ez; destruct Ez as (_ & Ez); discriminate Ez|]. rewrite data_over in Ez. destruct Hz as (x & y & k & c & K & Kc & _). rewrite Ez in K. apply a_line_nil in K. subst k. destruct Kc. }
  destruct (Hr (S F) bz Hbz) as (b' & Eb' & B1 & B2 & B3 & w & B4 & B5).
  assert (Ne : sp_data (ext s) <> []) by (rewrite data_ext, Ds; discriminate).
  rewrite Nat.add_succ_l, (loop_step E (fuel + S F) never n (ext s) P n [] Ne eq_refl). rewrite (block_fuel E (S fuel) (fuel + S F) (ext s) P (Ok r') Er' ltac:(discriminate) ltac:(lia)). cbn [bind]. rewrite Ei', R2, Eb'. cbn [bind]. eexists. split; [reflexivity|]. cbn [br_blocks br_parser br_after br_warnings]. split; [rewrite R3, B1; reflexivity|]. split; [exact B2|]. split; [exact B3|]. exists (pr_warnings r' ++ w). split; [exact (relw_app _ _ _ _ R1 B4)|rewrite B5; apply app_assoc].
Qed.
(** At the empty line the next text is read as where it begins, unless that is with an attribute entry. *)
Lemma settle E un a P c y : sp_data a = [] -> 1 <= sp_col a -> z = c :: y -> c <> 58%N -> block_parse_with E un (ext a) P = block_parse_with E un (over a) P.
Proof.
  intros D Hc Ez Nc. rewrite (shortcut E un (ext a) P Hc (or_intror (ex_intro _ [LF] (ex_intro _ z (line_end a D))))).
  assert (Hc2 : 1 <= sp_col (over a)) by (rewrite over_moved; cbn; lia). rewrite (shortcut E un (over a) P Hc2 (or_introl (over_stays a))). unfold long_way.
  assert (T1 : exists f1, take_line (ext a) = Ok f1 /\ try_entry (mi_item f1) = false).
  { destruct (first_line_sp _ _ _ _ (line_end a D)) as (f1 & w & E1 & E2 & F). exists f1. split; [exact E1|]. unfold try_entry. rewrite E2. cbn [app]. destruct w as [|x w]; [reflexivity|]. inversion F as [|? ? K _]. subst x. reflexivity. }
  assert (T2 : exists f2, take_line (over a) = Ok f2 /\ try_entry (mi_item f2) = false).
  { destruct (a_line_total (sp_data (over a))) as (l & r & n & Hl). destruct (first_line_sp _ _ _ _ Hl) as (f2 & w & E1 & E2 & F). exists f2. split; [exact E1|]. unfold try_entry. rewrite E2. destruct (starts_with (lit ":") (n ++ w)) eqn:K; [|reflexivity]. exfalso. apply starts_with_spec in K. destruct K as (k & K). destruct n as [|x n]; [cbn [app] in K; subst w; inversion F as [|? ? K1 _]; discriminate K1|].
    injection K as -> _. destruct (a_line_head _ _ _ _ _ Hl) as (u & Du). rewrite data_over, Ez in Du. injection Du as -> _. exact (Nc eq_refl). }
  destruct T1 as (f1 & E1 & E3), T2 as (f2 & E2 & E4). rewrite E1, E2. cbn [bind]. rewrite E3, E4. cbn [bind]. rewrite (metadata_over E a P D). reflexivity.
Qed.
Lemma never_none E : forall fuel n s P r un b, sp_data s <> [] -> block_parse_with E un s P = Ok r -> pr_item r = None -> blocks_loop E fuel never n s (pr_parser r) <> Ok b.
Proof.
  induction fuel as [|fuel IH]; intros n s P r un b Ns Er Ei H; cbn [blocks_loop] in H; destruct (sp_data s) as [|c t] eqn:D; try contradiction; [discriminate H|]. rewrite <- D in *. destruct (block_dead _ _ _ _ _ Ns Er) as (A & B). rewrite (B Ei) in H. apply proj1 in A. specialize (A Ei).
  cbn [never bind fst snd] in H. apply bind_ok in H. destruct H as (r2 & Er2 & H). destruct (block_dead _ _ _ _ _ Ns Er2) as (A1 & B1). apply proj2 in A1. specialize (A1 A). rewrite A1 in H. apply bind_ok in H. destruct H as (rest' & H & _). exact (IH _ _ _ _ _ _ Ns Er2 A1 H).
Qed.
Lemma settle_loop E F n a P b c y : sp_data a = [] -> 1 <= sp_col a -> z = c :: y -> c <> 58%N -> blocks_loop E F never n (over a) P = Ok b -> blocks_loop E F never n (ext a) P = Ok b.
Proof.
  intros D Hc Ez Nc H. assert (No : sp_data (over a) <> []) by (rewrite data_over, Ez; discriminate). assert (Ne : sp_data (ext a) <> []) by (rewrite data_ext, D; discriminate). destruct F as [|F]; [cbn [blocks_loop] in H; destruct (sp_data (over a)); [contradiction|discriminate H]|].
  rewrite (loop_step E F never n (over a) P n [] No eq_refl) in H. rewrite (loop_step E F never n (ext a) P n [] Ne eq_refl). unfold block_parse in *. rewrite (settle E _ a P c y D Hc Ez Nc). apply bind_ok in H. destruct H as (r & Er & H). rewrite Er. cbn [bind]. destruct (pr_item r) as [mi|] eqn:Ei; [exact H|]. exfalso. apply bind_ok in H. destruct H as (rest & H & _). exact (never_none _ _ _ _ _ _ _ _ No Er Ei H).
Qed.
End extended.
Theorem texts_in_turn E fuel F n t z c y P b bz : shown z -> z = c :: y -> c <> 58%N -> well_ended t -> parse_blocks_until E fuel never n (span_new t) P = Ok b -> terminated (br_warnings b) -> chapter E z \/ Forall no_section (br_blocks b) ->
  parse_blocks_until E F never n (span_new z) (br_parser b) = Ok bz ->
  exists b', parse_blocks_until E (fuel + F) never n (span_new (t ++ LF :: z)) P = Ok b' /\
    br_blocks b' = br_blocks b ++ map (mv_block (S (count_occ N.eq_dec t LF)) (blen t + 1)) (br_blocks bz) /\ br_parser b' = br_parser bz /\
    exists w, relw z (br_warnings b) w /\ br_warnings b' = w ++ map (mv_w (S (count_occ N.eq_dec t LF)) (blen t + 1)) (br_warnings bz).
Proof.
  intros Hz Ez Nc W H T C Hbz. unfold parse_blocks_until in *. rewrite discard_empty_lines_ok in *. cbn [bind] in *.
  assert (Hd : p_discard_empty_lines (span_new z) = span_new z). { destruct Hz as (l & r & k & x & Hl & Hx & Hn). exact (discard_none (span_new z) l r k x Hl Hx Hn). } rewrite Hd in Hbz.
  set (s := p_discard_empty_lines (span_new t)) in *. pose proof (discard_empty_Suffix (span_new t)) as S0. fold s in S0. pose proof (located_Suffix _ _ _ (located_new t) S0) as L. pose proof (well_after (span_new t) _ W S0) as Ws.
  pose proof (discard_near z Hz (span_new t) W) as Hn. fold s in Hn. change (Extend_Spec.ext z (span_new t)) with (span_new (t ++ LF :: z)) in Hn.
  destruct (never_ext z Hz t E fuel n s _ P b L Ws Hn H T C) as (De & e & He & Hr).
  pose proof (Suffix_trans _ _ _ S0 (proj1 (blocks_ok t E fuel never n s P b L H))) as Se. pose proof (located_Suffix _ _ _ (located_new t) Se) as Le.
  assert (Hq : br_after b = skip (span_new t) t []). { destruct Se as (p & Dp & Ep). rewrite De, app_nil_r in Dp. cbn [span_new sp_data] in Dp. subst p. rewrite De in Ep. exact Ep. }
  assert (Hl : sp_line (br_after b) = S (count_occ N.eq_dec t LF)). { rewrite Hq. pose proof (located_Suffix _ _ _ (located_new t) Se) as (x & v & Dx & K & _ & O). rewrite Hq in K, O, Dx. rewrite sp_data_skip in Dx. cbn [app] in Dx. rewrite sp_off_skip in O. cbn [span_new sp_off] in O. unfold spec_offset in O. 
    assert (Ex : x = t). { rewrite Dx in O |- *. rewrite blen_utf8, blen_app in O. assert (v = []) as -> by (apply blen_zero; lia). symmetry. apply app_nil_r. } rewrite Ex in K. exact K. }
  assert (Ho : sp_off (br_after b) = blen t) by (rewrite Hq, sp_off_skip; reflexivity).
  assert (Hloop : blocks_loop E F never n e (br_parser b) = Ok (mv_bres (S (count_occ N.eq_dec t LF)) (blen t + 1) bz)).
  { assert (K : blocks_loop E F never n (ext_over z (br_after b)) (br_parser b) = Ok (mv_bres (S (count_occ N.eq_dec t LF)) (blen t + 1) bz)).
    { rewrite over_moved, Hl, Ho, mv_loop by apply mv_never. rewrite Hbz. reflexivity. }
    destruct He as [->|(_ & ->)]; [|exact K]. exact (settle_loop z Hz E F n _ _ _ c y De (Total_Proof.located_col _ _ Le) Ez Nc K). }
  destruct (Hr F _ Hloop) as (b' & Eb & B1 & B2 & B3 & w & B4 & B5). exists b'. split; [exact Eb|]. split; [exact B1|]. split; [exact B2|]. exists w. split; [exact B4|exact B5].
Qed.
(** A text that begins with a title of the first level. *)
Lemma heading_chapter E z l r n title : a_line z l r n -> heading n 1 title -> chapter E z /\ shown z /\ exists c y, z = c :: y /\ c <> 58%N.
Proof.
  intros Hl Hh. destruct (form_head n (FHeading 1 title) Hh) as (c & y & En & Hc). subst n. assert (Hsp : ~ sp_tab c) by (destruct Hc as [<-|[<-|[]]]; intros [K|K]; discriminate K). destruct (a_line_head _ _ _ _ _ Hl) as (u & Du).
  assert (Sh : shown z) by (exists l, r, (c :: y), c; split; [exact Hl|split; [left; reflexivity|exact Hsp]]). split; [|split; [exact Sh|exists c, u; split; [exact Du|destruct Hc as [<-|[<-|[]]]; discriminate]]].
  destruct (title_line_heading (span_new z) l r _ 1 title Hl Hh) as (t & Et & _). exists (mkmd None None None None None (span_new z) (span_new z)), []. eexists. split; [|split; [reflexivity|split; [exact Et|reflexivity]]].
  apply (plain_metadata E (span_new z) _ l r (c :: y) Hl); [exact (discard_none (span_new z) l r _ c Hl (or_introl eq_refl) Hsp)| |]; intros k K; cbn [span_new sp_data] in K; rewrite Du in K; injection K as -> _; destruct Hc as [K|[K|[]]]; discriminate K.
Qed.
