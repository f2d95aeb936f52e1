(** Line endings do not matter. *)
From Verif Require Import Text TextFacts Maps Span_Model Span_Pure Span_Proof Span_Laws Span_Spec Catalog_Model Parser_Model Subs_Model Attrlist_Model Entry_Model
  Pre_Model SourceMap_Model Group_Model SecId_Model Header_Model Header_Spec Header_Proof Block_Model Block_Spec Block_Proof Spans_Proof Tree_Spec Tree_Proof Pre_Spec Kind_Spec Kind_Proof Stuck_Spec Stuck_Proof Fate_Spec Fate_Proof Doc_Model Shift_Spec Shift_Proof Crlf_Spec.
From Verif Require Macro_Proof.

(** * Texts *)
Lemma crlf_app a b : crlf (a ++ b) = crlf a ++ crlf b.
Proof. induction a as [|c a IH]; [reflexivity|]. cbn [app crlf]. rewrite IH. destruct (c =? LF)%N; reflexivity. Qed.
Lemma crlf_line x : ~ In LF x -> crlf x = x.
Proof. induction x as [|c x IH]; intros H; [reflexivity|]. cbn [crlf]. destruct (N.eqb_spec c LF) as [->|_]; [exfalso; apply H; left; reflexivity|]. rewrite IH; [reflexivity|]. intros K. apply H. right. exact K. Qed.
Lemma crlf_nil t : crlf t = [] -> t = [].
Proof. destruct t as [|c t]; [reflexivity|]. cbn [crlf]. destruct (c =? LF)%N; discriminate. Qed.
Lemma crlf_cons t : t <> [] -> crlf t <> []. Proof. intros H K. exact (H (crlf_nil _ K)). Qed.
Local Definition uncr (t : text) : text := filter (fun c => negb (c =? CR)%N) t.
Lemma un_crlf t : uncr (crlf t) = uncr t.
Proof. induction t as [|c t IH]; [reflexivity|]. cbn [crlf]. destruct (N.eqb_spec c LF) as [->|_]; unfold uncr in *; cbn [filter]; [change (CR =? CR)%N with true; change (LF =? CR)%N with false; cbn [negb filter]; change (LF =? CR)%N with false; cbn [negb]; rewrite IH; reflexivity|]. destruct (negb _); rewrite IH; reflexivity. Qed.
Lemma len_crlf t : length t <= length (crlf t).
Proof. induction t as [|c t IH]; cbn [crlf length]; [lia|]. destruct (c =? LF)%N; cbn [length]; lia. Qed.
Lemma blen_crlf t : blen (crlf t) = blen t + count_occ N.eq_dec t LF.
Proof. induction t as [|c t IH]; [reflexivity|]. cbn [crlf count_occ]. destruct (N.eq_dec c LF) as [->|Hc]; [change (LF =? LF)%N with true|destruct (N.eqb_spec c LF); [contradiction|]]; cbn [blen]; rewrite IH; [change (clen CR) with 1; lia|lia]. Qed.
Lemma crlf_inj : forall a b, ~ In CR a -> ~ In CR b -> crlf a = crlf b -> a = b.
Proof. intros a b Ha Hb H. apply (f_equal uncr) in H. rewrite !un_crlf in H. unfold uncr in H. assert (K : forall t : text, ~ In CR t -> filter (fun c => negb (c =? CR)%N) t = t). { induction t as [|c t IH]; intros Ht; [reflexivity|]. cbn [filter]. destruct (N.eqb_spec c CR) as [->|_]; [exfalso; apply Ht; left; reflexivity|]. cbn [negb]. rewrite IH; [reflexivity|]. intros K; apply Ht; right; exact K. } rewrite (K a Ha), (K b Hb) in H. exact H. Qed.
Lemma last_crlf t : forall x, crlf (t ++ [x]) = crlf t ++ (if (x =? LF)%N then [CR; LF] else [x]).
Proof. intros x. rewrite crlf_app. cbn [crlf]. destruct (x =? LF)%N; reflexivity. Qed.
Lemma trim_end_snoc t x : trim_end (t ++ [x]) = if is_ws x then trim_end t else t ++ [x].
Proof. unfold trim_end, trim_end_by, drop_while_c. rewrite rev_app_distr. cbn [rev app span_while]. destruct (is_ws x). - destruct (span_while is_ws (rev t)); reflexivity. - cbn [snd rev]. rewrite rev_involutive. reflexivity. Qed.
Lemma trim_end_crlf t : trim_end (crlf t) = crlf (trim_end t).
Proof.
  induction t as [|x t IH] using rev_ind; [reflexivity|]. rewrite last_crlf, trim_end_snoc. destruct (N.eqb_spec x LF) as [->|Hx].
  - change [CR; LF] with ([CR] ++ [LF]). rewrite app_assoc, !trim_end_snoc. change (is_ws LF) with true. change (is_ws CR) with true. cbn iota. exact IH.
  - rewrite trim_end_snoc. destruct (is_ws x); [exact IH|]. rewrite last_crlf. destruct (N.eqb_spec x LF); [contradiction|reflexivity].
Qed.
Lemma strip_cr_none x : ~ In CR x -> strip_cr x = x.
Proof. intros H. unfold strip_cr, strip_suffix_c. destruct (rev x) as [|c r] eqn:K; [reflexivity|]. destruct (N.eqb_spec c CR) as [->|_]; [|reflexivity]. exfalso. apply H. apply in_rev. rewrite K. left. reflexivity. Qed.
Lemma strip_cr_snoc x : strip_cr (x ++ [CR]) = x.
Proof. unfold strip_cr, strip_suffix_c. rewrite rev_app_distr. cbn [rev app]. change (CR =? CR)%N with true. cbn iota. apply rev_involutive. Qed.
Lemma starts_crlf p t : ~ In LF p -> ~ In CR p -> starts_with p (crlf t) = starts_with p t.
Proof.
  revert t. induction p as [|c p IH]; intros t H1 H2; [destruct t; reflexivity|]. destruct t as [|d t]; [reflexivity|]. cbn [crlf]. destruct (N.eqb_spec d LF) as [->|Hd]; cbn [starts_with].
  - destruct (N.eqb_spec c CR) as [->|_]; [exfalso; apply H2; left; reflexivity|]. destruct (N.eqb_spec c LF) as [->|_]; [exfalso; apply H1; left; reflexivity|]. reflexivity.
  - rewrite IH; [reflexivity| |]; intros K; [apply H1|apply H2]; right; exact K.
Qed.
Lemma skipn_crlf p t : ~ In LF p -> starts_with p t = true -> skipn (length p) (crlf t) = crlf (skipn (length p) t).
Proof. intros H K. apply starts_with_spec in K. destruct K as (r & ->). rewrite crlf_app, (crlf_line p H), !skipn_app, !skipn_all, Nat.sub_diag. reflexivity. Qed.
Lemma while_crlf p t : p LF = false -> p CR = false -> span_while p (crlf t) = (fst (span_while p t), crlf (snd (span_while p t))).
Proof. intros H1 H2. induction t as [|c t IH]; [reflexivity|]. cbn [crlf]. destruct (N.eqb_spec c LF) as [->|Hc]; cbn [span_while]; [rewrite H1, H2; reflexivity|]. destruct (p c) eqn:K. - rewrite IH. destruct (span_while p t). reflexivity. - cbn [fst snd crlf]. destruct (N.eqb_spec c LF); [contradiction|reflexivity]. Qed.
(** * Spans *)
Definition clean (s : span) : Prop := ~ In CR (sp_data s) /\ 1 <= sp_line s.
Definition cm {A} (f : A -> A) (m : mitem A) : mitem A := mkmi (f (mi_item m)) (cr (mi_after m)).
Lemma data_cr s : sp_data (cr s) = crlf (sp_data s). Proof. reflexivity. Qed.
Lemma cr_with s d : with_data (cr s) (crlf d) = cr (with_data s d). Proof. reflexivity. Qed.
Lemma with_line s d : ~ In LF d -> with_data (cr s) d = cr (with_data s d). Proof. intros H. rewrite <- cr_with, (crlf_line d H). reflexivity. Qed.
Lemma clean_suffix s a : clean s -> Suffix s a -> clean a.
Proof.
  intros (H1 & H2) (p & D & E). split; [intros K; apply H1; rewrite D; apply in_or_app; right; exact K|]. rewrite E. unfold skip, slice_internal. destruct (blen p =? 0); cbn [sp_line]; lia.
Qed.
Lemma count_crlf t : count_lf (crlf t) = count_lf t.
Proof. induction t as [|c t IH]; [reflexivity|]. cbn [crlf]. destruct (N.eqb_spec c LF) as [->|Hc]; cbn [count_lf]; [change (CR =? LF)%N with false; change (LF =? LF)%N with true; rewrite IH; reflexivity|]. rewrite IH. reflexivity. Qed.
Lemma after_crlf t : after_last_lf (crlf t) = after_last_lf t.
Proof.
  induction t as [|c t IH]; [reflexivity|]. cbn [crlf]. destruct (N.eqb_spec c LF) as [->|Hc]; cbn [after_last_lf count_lf].
  - change (CR =? LF)%N with false. change (LF =? LF)%N with true. cbn [Nat.add Nat.ltb Nat.leb]. exact IH.
  - destruct (N.eqb_spec c LF); [contradiction|]. rewrite count_crlf. destruct (Nat.ltb_spec 0 (count_lf t)) as [K|K]; [exact IH|]. rewrite crlf_line; [reflexivity|]. apply count_lf_0. lia.
Qed.
Lemma skip_cr s l r : 1 <= sp_line s -> skip (cr s) (crlf l) (crlf r) = cr (skip s l r).
Proof.
  intros H. unfold cr, skip, slice_internal. cbn [sp_data sp_line sp_col sp_off]. rewrite blen_crlf, <- count_lf_occ, count_crlf, after_crlf. destruct (Nat.eqb_spec (blen l) 0) as [K|K].
  - destruct l as [|c l]; [|pose proof (clen_pos c); cbn [blen] in K; lia]. cbn [count_lf Nat.add Nat.eqb blen sp_data sp_line sp_col sp_off]. reflexivity.
  - destruct (Nat.eqb_spec (blen l + count_lf l) 0); [lia|]. cbn [sp_data sp_line sp_col sp_off]. f_equal. lia.
Qed.
(** * Lines *)
Lemma tabs_crlf t : forallb is_sp_tab (crlf t) = forallb is_sp_tab t.
Proof. induction t as [|c t IH]; [reflexivity|]. cbn [crlf]. destruct (N.eqb_spec c LF) as [->|_]; cbn [forallb]; [reflexivity|]. rewrite IH. reflexivity. Qed.
Lemma line_cr t l r n : ~ In CR t -> a_line t l r n -> a_line (crlf t) (crlf l) (crlf r) n.
Proof.
  intros Hc (x & e & -> & -> & Hx & He & Ht). assert (Cx : ~ In CR x) by (intros K; apply Hc; rewrite <- app_assoc; apply in_or_app; left; exact K).
  exists (if is_nil e then x else x ++ [CR]), e. rewrite <- crlf_app. split; [reflexivity|]. destruct He as [->|(-> & ->)]; cbn [is_nil].
  - split; [rewrite crlf_app, (crlf_line x Hx), <- app_assoc; reflexivity|]. split; [intros K; apply in_app_or in K; destruct K as [K|[K|[]]]; [exact (Hx K)|discriminate K]|]. split; [left; reflexivity|].
    destruct Ht as (w & sps & Hw & Hn). exists x, sps. split; [left; reflexivity|]. destruct Hw as [Hw|(<- & _)]; [exfalso; apply Cx; rewrite Hw; apply in_or_app; right; left; reflexivity|]. exact Hn.
  - rewrite !app_nil_r. split; [exact (crlf_line x Hx)|]. split; [exact Hx|]. split; [right; split; reflexivity|]. exact Ht.
Qed.
Lemma norm_cr s : clean s -> take_normalized_line (cr s) = on_ok (cm cr) (take_normalized_line s).
Proof. intros (H1 & H2). destruct (take_norm s) as (l & r & n & H & ->). rewrite (take_norm_eq (cr s) _ _ _ (line_cr _ _ _ _ H1 H)), skip_cr by exact H2. rewrite with_line by exact (a_line_no_lf _ _ _ _ H). reflexivity. Qed.
Lemma line_of s : clean s -> take_line (cr s) = on_ok (cm cr) (take_line s).
Proof.
  intros (H1 & H2). rewrite !take_line_ok. cbn [on_ok]. f_equal. destruct (first_line (sp_data s)) as (x & e & r & D & Hx & He). rewrite (p_take_line_eq s x e r Hx He D). assert (Cx : ~ In CR x) by (intros K; apply H1; rewrite D; apply in_or_app; left; exact K).
  destruct He as [->|(-> & ->)].
  - rewrite (p_take_line_eq (cr s) (x ++ [CR]) [LF] (crlf r)); [|intros K; apply in_app_or in K; destruct K as [K|[K|[]]]; [exact (Hx K)|discriminate K]|left; reflexivity|rewrite data_cr, D, !crlf_app, (crlf_line x Hx), <- app_assoc; reflexivity].
    rewrite strip_cr_snoc, (with_line s x Hx), (strip_cr_none x Cx). unfold cm. cbn [mi_item mi_after]. f_equal. rewrite <- skip_cr by exact H2. rewrite crlf_app, (crlf_line x Hx), <- app_assoc. reflexivity.
  - rewrite (p_take_line_eq (cr s) x [] []); [|exact Hx|right; split; reflexivity|rewrite data_cr, D, !app_nil_r; apply crlf_line; exact Hx].
    rewrite (strip_cr_none x Cx), (with_line s x Hx). unfold cm. cbn [mi_item mi_after]. f_equal. rewrite <- skip_cr by exact H2. rewrite app_nil_r, (crlf_line x Hx). reflexivity.
Qed.
Lemma non_empty_cr s : clean s -> take_non_empty_line (cr s) = on_ok (option_map (cm cr)) (take_non_empty_line s).
Proof.
  intros (H1 & H2). destruct (take_non_empty s) as [(l & r & n & H & Hn & N & ->)|(H & ->)]; destruct (take_non_empty (cr s)) as [(l' & r' & n' & H' & Hn' & N' & ->)|(H' & ->)]; cbn [on_ok option_map].
  - destruct (a_line_unique _ _ _ _ _ _ _ H' (line_cr _ _ _ _ H1 H)) as (-> & -> & ->). rewrite skip_cr by exact H2. rewrite with_line by exact (a_line_no_lf _ _ _ _ H). reflexivity.
  - exfalso. destruct H' as [K|(l' & r' & K)]; [apply crlf_nil in K; exact (N K)|]. destruct (a_line_unique _ _ _ _ _ _ _ K (line_cr _ _ _ _ H1 H)) as (_ & _ & <-). exact (Hn eq_refl).
  - exfalso. destruct H as [K|(l0 & r0 & K)]; [rewrite data_cr, K in N'; exact (N' eq_refl)|]. destruct (a_line_unique _ _ _ _ _ _ _ H' (line_cr _ _ _ _ H1 K)) as (_ & _ & ->). exact (Hn' eq_refl).
  - reflexivity.
Qed.
Lemma discard_step i : sp_data i <> [] -> p_discard_empty_lines i = match p_take_empty_line i with Some m => p_discard_empty_lines (mi_after m) | None => i end.
Proof.
  intros Ni. unfold p_discard_empty_lines at 1. destruct (sp_data i) as [|y ys] eqn:Di; [contradiction|]. cbn [length p_discard_empty_lines_go]. rewrite Di. destruct (p_take_empty_line i) as [m|] eqn:Em; [|reflexivity]. apply discard_fuel; [|lia].
  unfold p_take_empty_line in Em. destruct (forallb _ _); [|discriminate Em]. injection Em as <-. pose proof (p_take_line_after_len i) as K. rewrite Di in K. specialize (K ltac:(discriminate)). cbn in K. lia.
Qed.
Lemma discard_cr : forall k s, length (sp_data s) <= k -> clean s -> p_discard_empty_lines (cr s) = cr (p_discard_empty_lines s).
Proof.
  induction k as [|k IH]; intros s Hk C; (destruct (sp_data s) as [|c0 t0] eqn:D; [unfold p_discard_empty_lines; rewrite data_cr, D; cbn [crlf length p_discard_empty_lines_go]; rewrite data_cr, D; reflexivity|]); [cbn in Hk; lia|]. rewrite <- D in *. assert (N : sp_data s <> []) by (rewrite D; discriminate).
  pose proof (line_of s C) as L. rewrite !take_line_ok in L. cbn [on_ok] in L. apply Ok_inj in L. rewrite (discard_step (cr s)) by (apply crlf_cons; exact N). rewrite (discard_step s N). unfold p_take_empty_line. rewrite L. cbn [cm mi_item mi_after]. rewrite data_cr, tabs_crlf. destruct (forallb _ _); [|reflexivity].
  cbn [mi_after]. apply IH; [pose proof (p_take_line_after_len s N); lia|]. exact (clean_suffix _ _ C (p_take_line_Suffix s)).
Qed.
Lemma empties_cr s : clean s -> p_discard_empty_lines (cr s) = cr (p_discard_empty_lines s). Proof. exact (discard_cr _ s (le_n _)). Qed.
Lemma suffix_cr s a : 1 <= sp_line s -> Suffix s a -> Suffix (cr s) (cr a).
Proof. intros H (p & D & E). exists (crlf p). rewrite !data_cr, D, crlf_app. split; [reflexivity|]. rewrite skip_cr by exact H. f_equal. exact E. Qed.
Lemma remainder_cr s a : 1 <= sp_line s -> Suffix s a -> trim_remainder (cr s) (cr a) = on_ok cr (trim_remainder s a).
Proof.
  intros H1 H. rewrite (trim_remainder_ok _ _ H), (trim_remainder_ok _ _ (suffix_cr _ _ H1 H)). cbn [on_ok]. f_equal. unfold p_trim_remainder. rewrite <- cr_with. f_equal. destruct H as (p & D & _). rewrite !data_cr, D, crlf_app, !app_length.
  replace (length (crlf p) + length (crlf (sp_data a)) - length (crlf (sp_data a))) with (length (crlf p)) by lia. replace (length p + length (sp_data a) - length (sp_data a)) with (length p) by lia. rewrite !firstn_app, !firstn_all, !Nat.sub_diag. cbn [firstn]. rewrite !app_nil_r. reflexivity.
Qed.
Lemma trim_white_cr s : trim_trailing_whitespace (cr s) = on_ok cr (trim_trailing_whitespace s).
Proof. rewrite !trim_trailing_whitespace_ok. cbn [on_ok]. f_equal. unfold p_trim_trailing_whitespace. rewrite data_cr, trim_end_crlf. reflexivity. Qed.
Lemma trim_line_cr s : ~ In CR (sp_data s) -> trim_trailing_line_end (cr s) = on_ok cr (trim_trailing_line_end s).
Proof.
  intros H. rewrite !trim_trailing_line_end_ok. cbn [on_ok]. f_equal. unfold p_trim_trailing_line_end. rewrite data_cr. destruct (sp_data s) as [|x t] eqn:D using rev_ind; [reflexivity|]. clear IHt. rewrite last_crlf, !rev_app_distr. cbn [rev app]. destruct (N.eqb_spec x LF) as [->|Hx].
  - cbn [rev app]. change (LF =? LF)%N with true. cbn iota. cbn [rev]. rewrite !rev_involutive, strip_cr_snoc, strip_cr_none; [reflexivity|]. intros K. apply H. apply in_or_app. left. exact K.
  - cbn [rev app]. destruct (N.eqb_spec x LF); [contradiction|reflexivity].
Qed.
(** * Entries *)
Lemma trim_sp_snoc t x : trim_end_by (N.eqb SP) (t ++ [x]) = if (SP =? x)%N then trim_end_by (N.eqb SP) t else t ++ [x].
Proof. unfold trim_end_by, drop_while_c. rewrite rev_app_distr. cbn [rev app span_while]. destruct (SP =? x)%N. - destruct (span_while (N.eqb SP) (rev t)); reflexivity. - cbn [snd rev]. rewrite rev_involutive. reflexivity. Qed.
Lemma trim_sp_crlf t : trim_end_by (N.eqb SP) (crlf t) = crlf (trim_end_by (N.eqb SP) t).
Proof.
  induction t as [|x t IH] using rev_ind; [reflexivity|]. rewrite last_crlf, trim_sp_snoc. destruct (N.eqb_spec x LF) as [->|Hx].
  - change [CR; LF] with ([CR] ++ [LF]). rewrite app_assoc, trim_sp_snoc. change (SP =? LF)%N with false. cbn iota. rewrite last_crlf, <- app_assoc. reflexivity.
  - rewrite trim_sp_snoc. destruct (SP =? x)%N; [exact IH|]. rewrite last_crlf. destruct (N.eqb_spec x LF); [contradiction|reflexivity].
Qed.
Definition strip_c (c : char) (t : text) : text := match strip_suffix_c c t with Some x => x | None => t end.
Lemma strip_c_snoc c t x : strip_c c (t ++ [x]) = if (x =? c)%N then t else t ++ [x].
Proof. unfold strip_c, strip_suffix_c. rewrite rev_app_distr. cbn [rev app]. destruct (x =? c)%N; [apply rev_involutive|reflexivity]. Qed.
Lemma strip_both t : ~ In CR t -> strip_c CR (strip_c LF (crlf t)) = crlf (strip_c CR (strip_c LF t)).
Proof.
  intros H. destruct t as [|x t] using rev_ind; [reflexivity|]. clear IHt. rewrite last_crlf. destruct (N.eqb_spec x LF) as [->|Hx].
  - change [CR; LF] with ([CR] ++ [LF]). rewrite app_assoc, !strip_c_snoc. change (LF =? LF)%N with true. cbn iota. rewrite strip_c_snoc. change (CR =? CR)%N with true. cbn iota. f_equal. symmetry. apply strip_cr_none. intros K. apply H. apply in_or_app. left. exact K.
  - rewrite !strip_c_snoc. destruct (N.eqb_spec x LF); [contradiction|]. rewrite !strip_c_snoc. destruct (N.eqb_spec x CR) as [->|_]; [exfalso; apply H; apply in_or_app; right; left; reflexivity|]. rewrite last_crlf. destruct (N.eqb_spec x LF); [contradiction|reflexivity].
Qed.
Lemma cont_cr : forall f g s, length (sp_data s) <= f -> length (sp_data (cr s)) <= g -> clean s -> p_continuation_go g (cr s) = cr (p_continuation_go f s).
Proof.
  induction f as [|f IH]; intros g s Hf Hg C; pose proof (norm_cr s C) as K; rewrite !take_normalized_line_ok in K; cbn [on_ok] in K; apply Ok_inj in K; destruct (take_norm s) as (l & r & n & H & E); rewrite take_normalized_line_ok in E; apply Ok_inj in E.
  - destruct (sp_data s) eqn:D; [|cbn in Hf; lia]. destruct g; cbn [p_continuation_go]; rewrite K, E; cbn [cm cr mv mi_item mi_after with_data sp_data]; rewrite ?(crlf_line n (a_line_no_lf _ _ _ _ H)); destruct (a_line_prefix _ _ _ _ H) as (w & Ew); pose proof (a_line_app _ _ _ _ H) as Da; symmetry in Da; apply app_eq_nil in Da; destruct Da as (-> & _); symmetry in Ew; apply app_eq_nil in Ew; destruct Ew as (-> & _); reflexivity.
  - destruct g as [|g].
    + assert (D : sp_data s = []) by (apply crlf_nil; rewrite <- data_cr; destruct (sp_data (cr s)); [reflexivity|cbn in Hg; lia]). cbn [p_continuation_go]; rewrite K, E; cbn [cm cr mv mi_item mi_after with_data sp_data]; rewrite ?(crlf_line n (a_line_no_lf _ _ _ _ H)); destruct (a_line_prefix _ _ _ _ H) as (w & Ew); pose proof (a_line_app _ _ _ _ H) as Da; rewrite D in Da; symmetry in Da; apply app_eq_nil in Da; destruct Da as (-> & _); symmetry in Ew; apply app_eq_nil in Ew; destruct Ew as (-> & _); reflexivity.
    + cbn [p_continuation_go]; rewrite K, E; cbn [cm cr mv mi_item mi_after with_data sp_data]; rewrite ?(crlf_line n (a_line_no_lf _ _ _ _ H)). destruct (ends_with [BSL] n) eqn:B; [|reflexivity]. assert (N : sp_data s <> []). { intros D. rewrite D in H. destruct (a_line_prefix _ _ _ _ H) as (w & Ew); pose proof (a_line_app _ _ _ _ H) as Da; symmetry in Da; apply app_eq_nil in Da; destruct Da as (-> & _); symmetry in Ew; apply app_eq_nil in Ew; destruct Ew as (-> & _). discriminate B. }
      pose proof (a_line_shorter _ _ _ _ H N) as L1. pose proof (a_line_shorter _ _ _ _ (line_cr _ _ _ _ (proj1 C) H) (crlf_cons _ N)) as L2. apply IH; [rewrite sp_data_skip; lia|rewrite data_cr, sp_data_skip; rewrite data_cr in Hg; lia|]. exact (clean_suffix _ _ C (Suffix_intro s l r (a_line_app _ _ _ _ H))).
Qed.
Lemma continued_cr s : clean s -> take_line_with_continuation (cr s) = on_ok (option_map (cm cr)) (take_line_with_continuation s).
Proof.
  intros C. rewrite !take_line_with_continuation_ok. cbn [on_ok]. f_equal. unfold p_take_line_with_continuation. rewrite (cont_cr (length (sp_data s)) (length (sp_data (cr s))) s (le_n _) (le_n _) C).
  set (la := p_continuation_go (length (sp_data s)) s) in *. pose proof (p_continuation_go_Suffix (length (sp_data s)) s) as Sx. fold la in Sx. pose proof (line_of la (clean_suffix _ _ C Sx)) as K. rewrite !take_line_ok in K. cbn [on_ok] in K. apply Ok_inj in K. rewrite K. cbn [cm mi_after].
  pose proof (Suffix_trans _ _ _ Sx (p_take_line_Suffix la)) as Sa. set (a := mi_after (p_take_line la)) in *. destruct Sa as (p & D & _). cbv zeta.
  assert (F1 : firstn (length (sp_data s) - length (sp_data a)) (sp_data s) = p) by (rewrite D, app_length; replace (length p + length (sp_data a) - length (sp_data a)) with (length p) by lia; rewrite firstn_app, firstn_all, Nat.sub_diag; cbn [firstn]; apply app_nil_r).
  assert (F2 : firstn (length (sp_data (cr s)) - length (sp_data (cr a))) (sp_data (cr s)) = crlf p) by (rewrite !data_cr, D, crlf_app, app_length; replace (length (crlf p) + length (crlf (sp_data a)) - length (crlf (sp_data a))) with (length (crlf p)) by lia; rewrite firstn_app, firstn_all, Nat.sub_diag; cbn [firstn]; apply app_nil_r).
  rewrite F1, F2. change (match strip_suffix_c LF (crlf p) with Some x => x | None => crlf p end) with (strip_c LF (crlf p)). change (match strip_suffix_c LF p with Some x => x | None => p end) with (strip_c LF p).
  change (match strip_suffix_c CR (strip_c LF (crlf p)) with Some x => x | None => strip_c LF (crlf p) end) with (strip_c CR (strip_c LF (crlf p))). change (match strip_suffix_c CR (strip_c LF p) with Some x => x | None => strip_c LF p end) with (strip_c CR (strip_c LF p)).
  rewrite strip_both by (intros Kc; apply (proj1 C); rewrite D; apply in_or_app; left; exact Kc). rewrite trim_sp_crlf. destruct (trim_end_by (N.eqb SP) (strip_c CR (strip_c LF p))) as [|d0 d] eqn:Ed; [reflexivity|]. assert (Nd : crlf (d0 :: d) <> []) by (apply crlf_cons; discriminate). rewrite data_cr. destruct (crlf (d0 :: d)) as [|e0 e] eqn:Ee; [contradiction|].
  cbn [option_map]. unfold cm. cbn [mi_item mi_after]. rewrite skip_cr by exact (proj2 C). rewrite <- Ee, cr_with. reflexivity.
Qed.
Lemma has_lf_crlf t : has_char LF (crlf t) = has_char LF t.
Proof. unfold has_char. induction t as [|c t IH]; [reflexivity|]. cbn [crlf]. destruct (N.eqb_spec c LF) as [->|Hc]; cbn [existsb]; [reflexivity|]. rewrite IH. reflexivity. Qed.
Lemma drop_cr_snoc x : drop_cr (x ++ [CR]) = x.
Proof. unfold drop_cr. rewrite rev_app_distr. cbn [rev app]. change (CR =? CR)%N with true. cbn iota. apply rev_involutive. Qed.
Lemma drop_cr_none x : ~ In CR x -> drop_cr x = x.
Proof. intros H. unfold drop_cr. destruct (rev x) as [|c r] eqn:K; [reflexivity|]. destruct (N.eqb_spec c CR) as [->|_]; [|reflexivity]. exfalso. apply H. apply in_rev. rewrite K. left. reflexivity. Qed.
Fixpoint crs (l : list text) : list text := match l with [] => [] | [x] => [x] | x :: r => (x ++ [CR]) :: crs r end.
Lemma split_crlf t : split_on LF (crlf t) = crs (split_on LF t) /\ split_on LF t <> [].
Proof.
  induction t as [|c t (IH & N)]; [split; [reflexivity|discriminate]|]. cbn [crlf split_on]. destruct (N.eqb_spec c LF) as [->|Hc].
  - cbn [split_on]. change (CR =? LF)%N with false. change (LF =? LF)%N with true. cbn iota. rewrite IH. split; [|discriminate]. destruct (split_on LF t) as [|y l]; [contradiction|]. reflexivity.
  - cbn [split_on]. destruct (N.eqb_spec c LF); [contradiction|]. rewrite IH. destruct (split_on LF t) as [|y l]; [contradiction|]. split; [|discriminate]. destruct l; reflexivity.
Qed.
Lemma lines_crlf t : ~ In CR t -> str_lines (crlf t) = str_lines t.
Proof.
  intros H. unfold str_lines. rewrite (proj1 (split_crlf t)). assert (K : Forall (fun x => ~ In CR x) (split_on LF t)) by (apply Forall_forall; intros x Hx Hc; apply H; exact (Macro_Proof.split_on_in _ _ _ _ Hx Hc)). induction (split_on LF t) as [|x l IH]; [reflexivity|]. inversion K as [|? ? K1 K2]. subst. destruct l as [|y l]; [reflexivity|].
  specialize (IH K2). assert (L : forall u r, r <> [] -> lines_of (u :: r) = drop_cr u :: lines_of r) by (intros u r Hr; destruct r; [contradiction|reflexivity]).
  change (crs (x :: y :: l)) with ((x ++ [CR]) :: crs (y :: l)). rewrite !L by (destruct l; discriminate). rewrite drop_cr_snoc, (drop_cr_none x K1), IH. reflexivity.
Qed.
Lemma fold_crlf v : ~ In CR v -> fold_value (crlf v) = fold_value v.
Proof. intros H. unfold fold_value. rewrite has_lf_crlf. destruct (has_char LF v) eqn:K; [rewrite (lines_crlf v H); reflexivity|]. rewrite crlf_line; [reflexivity|]. intros Hl. apply has_char_spec in Hl. rewrite Hl in K. discriminate K. Qed.
Lemma while_app p t a b : span_while p t = (a, b) -> t = a ++ b.
Proof. intros H. pose proof (span_while_app p t) as K. rewrite H in K. symmetry. exact K. Qed.
Lemma prefix_cr s p : clean s -> ~ In LF p -> ~ In CR p -> take_prefix (cr s) p = on_ok (option_map (cm cr)) (take_prefix s p).
Proof.
  intros C H1 H2. rewrite !take_prefix_ok. cbn [on_ok]. f_equal. unfold p_take_prefix. rewrite data_cr, starts_crlf by assumption. destruct (starts_with p (sp_data s)) eqn:K; [|reflexivity]. cbn [option_map]. f_equal. unfold psplit, cm. cbn [mi_item mi_after]. rewrite (with_line s p H1). f_equal. rewrite (skipn_crlf p _ H1 K), <- skip_cr by exact (proj2 C). rewrite (crlf_line p H1). reflexivity.
Qed.
Lemma bang_cr s : clean s -> starts_with (lit "!") (sp_data s) = true -> slice_from (cr s) 1 = on_ok cr (slice_from s 1).
Proof.
  intros C H. apply starts_with_spec in H. destruct H as (r & D). rewrite (slice_from_ok s [33%N] r D : slice_from s 1 = _). cbn [on_ok]. rewrite <- skip_cr by exact (proj2 C). apply (slice_from_ok (cr s) [33%N] (crlf r)). rewrite data_cr, D. reflexivity.
Qed.
Lemma name_cr s : clean s -> take_user_attr_name (cr s) = on_ok (option_map (cm cr)) (take_user_attr_name s).
Proof.
  intros C. unfold take_user_attr_name. rewrite !take_name_ok. cbn [on_ok]. f_equal. unfold p_take_name. rewrite data_cr. destruct (sp_data s) as [|c r] eqn:D; [reflexivity|]. cbn [crlf]. destruct (N.eqb_spec c LF) as [->|Hc]; [reflexivity|]. destruct (_ || _); [|reflexivity].
  rewrite while_crlf by reflexivity. destruct (span_while _ r) as [a b] eqn:Es. cbn [fst snd option_map]. f_equal. assert (Na : ~ In LF (c :: a)); [|unfold psplit, cm; cbn [mi_item mi_after]; rewrite with_line by exact Na; f_equal; rewrite <- skip_cr by exact (proj2 C); rewrite (crlf_line _ Na); reflexivity]. intros [K|K]; [exact (Hc K)|].
  clear - Es K. revert a b Es K. induction r as [|x r IH]; intros a b Es K; cbn [span_while] in Es; [injection Es as <- <-; destruct K|]. destruct (_ || _ || _) eqn:Ex; [|injection Es as <- <-; destruct K]. destruct (span_while _ r) as [a' b']. injection Es as <- <-. destruct K as [->|K]; [discriminate Ex|]. exact (IH _ _ eq_refl K).
Qed.
Lemma while_prefix p t a b : span_while p t = (a, b) -> p LF = false -> ~ In LF a.
Proof. revert a b. induction t as [|x t IH]; intros a b Es H K; cbn [span_while] in Es; [injection Es as <- <-; destruct K|]. destruct (p x) eqn:Ex; [|injection Es as <- <-; destruct K]. destruct (span_while p t) as [a' b']. injection Es as <- <-. destruct K as [->|K]; [rewrite H in Ex; discriminate Ex|]. exact (IH _ _ eq_refl H K). Qed.
Lemma white_cr s : clean s -> take_whitespace (cr s) = on_ok (cm cr) (take_whitespace s).
Proof.
  intros C. unfold take_whitespace. rewrite !take_while_ok. cbn [on_ok]. f_equal. unfold p_take_while. rewrite data_cr, while_crlf by reflexivity. destruct (span_while is_sp_tab (sp_data s)) as [a b] eqn:Es. cbn [fst snd]. pose proof (while_prefix _ _ _ _ Es eq_refl) as Na. unfold psplit, cm. cbn [mi_item mi_after]. rewrite (with_line _ _ Na). f_equal. rewrite <- skip_cr by exact (proj2 C). rewrite (crlf_line _ Na). reflexivity.
Qed.
Lemma sub_clean s a : clean s -> Sub s a -> clean a.
Proof. intros (H1 & H2) (p & q & D & E). split; [intros K; apply H1; rewrite D; apply in_or_app; right; apply in_or_app; left; exact K|]. rewrite E. unfold skip, slice_internal. destruct (blen p =? 0); cbn [sp_line]; lia. Qed.
Lemma continued_sub s m : take_line_with_continuation s = Ok (Some m) -> Sub s (mi_item m) /\ Suffix s (mi_after m).
Proof.
  rewrite take_line_with_continuation_ok. intros H. apply Ok_inj in H. split; [exact (proj1 (p_take_line_cont_Sub _ _ H))|]. unfold p_take_line_with_continuation in H. cbv zeta in H.
  pose proof (Suffix_trans _ _ _ (p_continuation_go_Suffix (length (sp_data s)) s) (p_take_line_Suffix (p_continuation_go (length (sp_data s)) s))) as Sa. set (a := mi_after (p_take_line (p_continuation_go (length (sp_data s)) s))) in *. destruct Sa as (p & D & _).
  match type of H with match ?d with _ => _ end = _ => destruct d; [discriminate H|] end. injection H as <-. cbn [mi_after]. apply Suffix_intro. rewrite D at 1 3. rewrite D, app_length. replace (length p + length (sp_data a) - length (sp_data a)) with (length p) by lia. rewrite firstn_app, firstn_all, Nat.sub_diag. cbn [firstn]. rewrite app_nil_r. reflexivity.
Qed.
Lemma prefix_clean s p m : clean s -> take_prefix s p = Ok (Some m) -> clean (mi_after m).
Proof. intros C H. rewrite take_prefix_ok in H. apply Ok_inj in H. unfold p_take_prefix in H. destruct (starts_with p (sp_data s)) eqn:K; [|discriminate H]. injection H as <-. cbn [psplit mi_after]. apply starts_with_spec in K. destruct K as (r & D). apply (clean_suffix s); [exact C|]. apply Suffix_intro. rewrite D, skipn_app, skipn_all, Nat.sub_diag. reflexivity. Qed.
Lemma from_clean s n a : clean s -> slice_from s n = Ok a -> clean a.
Proof. intros C H. exact (sub_clean _ _ C (slice_from_Sub _ _ _ H)). Qed.
Lemma name_clean s m : clean s -> take_user_attr_name s = Ok (Some m) -> clean (mi_after m).
Proof.
  intros C H. unfold take_user_attr_name in H. rewrite take_name_ok in H. apply Ok_inj in H. unfold p_take_name in H. destruct (sp_data s) as [|c r] eqn:D; [discriminate H|]. destruct (_ || _); [|discriminate H]. destruct (span_while _ r) as [a b] eqn:Es. injection H as <-. cbn [psplit mi_after]. apply (clean_suffix s); [exact C|]. apply Suffix_intro. rewrite D. cbn [app]. f_equal. exact (while_app _ _ _ _ Es).
Qed.
Lemma entry_cr hdr s P : clean s -> attribute_parse hdr (cr s) P = on_ok (option_map (cm cr_at)) (attribute_parse hdr s P).
Proof.
  intros C. unfold attribute_parse. rewrite (continued_cr s C). destruct (take_line_with_continuation s) as [[m|]| |] eqn:Em; cbn [on_ok bind option_map]; try reflexivity. cbn [cm mi_item mi_after]. destruct (continued_sub _ _ Em) as (Si & Sx). pose proof (sub_clean _ _ C Si) as Ci. rewrite (remainder_cr _ _ (proj2 C) Sx), (trim_remainder_ok _ _ Sx). cbn [on_ok bind].
  rewrite prefix_cr by (try exact Ci; cbn; intuition discriminate). destruct (take_prefix (mi_item m) (lit ":")) as [[c1|]| |] eqn:E1; cbn [on_ok bind option_map]; try reflexivity. cbn [cm mi_item mi_after]. pose proof (prefix_clean _ _ _ Ci E1) as C1.
  rewrite data_cr, starts_crlf by (cbn; intuition discriminate). set (u1 := starts_with (lit "!") (sp_data (mi_after c1))) in *.
  assert (K1 : (if u1 then slice_from (cr (mi_after c1)) 1 else Ok (cr (mi_after c1))) = on_ok cr (if u1 then slice_from (mi_after c1) 1 else Ok (mi_after c1))) by (destruct u1 eqn:Eu; [exact (bang_cr _ C1 Eu)|reflexivity]). rewrite K1.
  destruct (if u1 then slice_from (mi_after c1) 1 else Ok (mi_after c1)) as [l1| |] eqn:El; cbn [on_ok bind]; try reflexivity. assert (Cl : clean l1) by (destruct u1; [exact (from_clean _ _ _ C1 El)|apply Ok_inj in El; subst l1; exact C1]).
  rewrite (name_cr _ Cl). destruct (take_user_attr_name l1) as [[n|]| |] eqn:En; cbn [on_ok bind option_map]; try reflexivity. cbn [cm mi_item mi_after]. pose proof (name_clean _ _ Cl En) as Cn.
  rewrite data_cr, starts_crlf by (cbn; intuition discriminate). set (u2 := starts_with (lit "!") (sp_data (mi_after n)) && negb u1) in *.
  assert (K2 : (if u2 then slice_from (cr (mi_after n)) 1 else Ok (cr (mi_after n))) = on_ok cr (if u2 then slice_from (mi_after n) 1 else Ok (mi_after n))) by (destruct u2 eqn:Eu; [apply (bang_cr _ Cn); apply andb_true_iff in Eu; exact (proj1 Eu)|reflexivity]). rewrite K2.
  destruct (if u2 then slice_from (mi_after n) 1 else Ok (mi_after n)) as [l2| |] eqn:El2; cbn [on_ok bind]; try reflexivity. assert (Cl2 : clean l2) by (destruct u2; [exact (from_clean _ _ _ Cn El2)|apply Ok_inj in El2; subst l2; exact Cn]).
  rewrite prefix_cr by (try exact Cl2; cbn; intuition discriminate). destruct (take_prefix l2 (lit ":")) as [[c3|]| |] eqn:E3; cbn [on_ok bind option_map]; try reflexivity. cbn [cm mi_item mi_after]. pose proof (prefix_clean _ _ _ Cl2 E3) as C3.
  match goal with |- bind ?x _ = on_ok _ (bind ?y _) => assert (K : x = on_ok (fun v => (fst v, option_map cr (snd v))) y) end.
  { destruct (u1 || u2); [reflexivity|]. rewrite data_cr. destruct (sp_data (mi_after c3)) as [|d0 d] eqn:D3; [reflexivity|]. destruct (crlf (d0 :: d)) eqn:Dc; [apply crlf_nil in Dc; discriminate Dc|]. clear Dc. rewrite (white_cr _ C3). destruct (take_whitespace (mi_after c3)) as [w| |] eqn:Ew; cbn [on_ok bind]; try reflexivity. cbn [cm mi_after]. unfold from_raw_value. rewrite data_cr.
    rewrite fold_crlf. - destruct (fold_value _) as [v| |]; cbn [bind on_ok]; try reflexivity. destruct (hdr P v); reflexivity.
    - unfold take_whitespace in Ew. rewrite take_while_ok in Ew. apply Ok_inj in Ew. subst w. unfold p_take_while. destruct (span_while is_sp_tab (sp_data (mi_after c3))) as [a b] eqn:Es. cbn [psplit mi_after]. rewrite sp_data_skip. apply while_app in Es. intros Kc. apply (proj1 C3). rewrite Es. apply in_or_app. right. exact Kc. }
  rewrite K. rewrite bind_on_ok, on_ok_bind. apply bind_more. intros v. rewrite trim_white_cr, !trim_trailing_whitespace_ok. cbn [on_ok bind option_map fst snd]. reflexivity.
Qed.
(** * Within a line *)
Definition flat (s : span) : Prop := ~ In LF (sp_data s).
Lemma flat_mv s : flat s -> cr s = mv 0 (sp_line s - 1) s.
Proof. intros H. unfold cr, mv. rewrite (crlf_line _ H), Nat.add_0_r. reflexivity. Qed.
Lemma flat_data s : flat s -> sp_data (cr s) = sp_data s. Proof. intros H. rewrite data_cr. exact (crlf_line _ H). Qed.
Lemma no_lf_count t : ~ In LF t -> count_occ N.eq_dec t LF = 0. Proof. intros H. apply count_occ_not_In. exact H. Qed.
Lemma flat_sub s x : Sub s x -> flat s -> flat x /\ sp_line x = sp_line s.
Proof.
  intros (p & q & D & E) F. split; [intros K; apply F; rewrite D; apply in_or_app; right; apply in_or_app; left; exact K|]. rewrite E. unfold skip, slice_internal. assert (Fp : ~ In LF p) by (intros K; apply F; rewrite D; apply in_or_app; left; exact K).
  destruct (blen p =? 0); cbn [sp_line]; [reflexivity|]. clear - Fp.
  induction p as [|c p IH]; cbn [count_lf]; [lia|]. destruct (N.eqb_spec c LF) as [->|_]; [exfalso; apply Fp; left; reflexivity|]. apply IH. intros K. apply Fp. right. exact K.
Qed.
Lemma sub_mv s x : Sub s x -> flat s -> mv 0 (sp_line s - 1) x = cr x.
Proof. intros H F. destruct (flat_sub _ _ H F) as (Fx & <-). symmetry. exact (flat_mv x Fx). Qed.
Lemma sub_mvm s m : SubM s m -> flat s -> mv_mi 0 (sp_line s - 1) (mv 0 (sp_line s - 1)) m = cm cr m.
Proof. intros (H1 & H2) F. unfold mv_mi, cm. rewrite !(sub_mv s) by assumption. reflexivity. Qed.
Lemma slice_cr s a b : flat s -> slice (cr s) a b = on_ok cr (slice s a b).
Proof. intros F. rewrite (flat_mv s F), mv_slice. destruct (slice s a b) as [x| |] eqn:K; cbn [on_ok]; [|reflexivity|reflexivity]. rewrite (sub_mv s x (slice_Sub _ _ _ _ K) F). reflexivity. Qed.
Lemma slice_from_cr s a : flat s -> slice_from (cr s) a = on_ok cr (slice_from s a).
Proof. intros F. rewrite (flat_mv s F), mv_slice_from. destruct (slice_from s a) as [x| |] eqn:K; cbn [on_ok]; [|reflexivity|reflexivity]. rewrite (sub_mv s x (slice_from_Sub _ _ _ K) F). reflexivity. Qed.
Lemma slice_to_cr s a : flat s -> slice_to (cr s) a = on_ok cr (slice_to s a).
Proof. intros F. rewrite (flat_mv s F), mv_slice_to. destruct (slice_to s a) as [x| |] eqn:K; cbn [on_ok]; [|reflexivity|reflexivity]. rewrite (sub_mv s x (slice_to_Sub _ _ _ K) F). reflexivity. Qed.
Lemma discard_Sub s n x : discard s n = Ok x -> Sub s x.
Proof. unfold discard. intros H. apply bind_ok in H. destruct H as (m & K & H). injection H as <-. exact (proj2 (ipr_Sub _ _ _ K)). Qed.
Lemma discard1_cr s n : flat s -> discard (cr s) n = on_ok cr (discard s n).
Proof. intros F. rewrite (flat_mv s F), mv_discard. destruct (discard s n) as [x| |] eqn:K; cbn [on_ok]; [|reflexivity|reflexivity]. rewrite (sub_mv s x (discard_Sub _ _ _ K) F). reflexivity. Qed.
Lemma discard_all_Sub s x : discard_all s = Ok x -> Sub s x.
Proof. unfold discard_all. intros H. exact (discard_Sub _ _ _ H). Qed.
Definition cr_alr (r : mitem attrlist * list warning) := (mkmi (cr_al (mi_item (fst r))) (cr (mi_after (fst r))), map cr_w (snd r)).
Lemma attrlist_cr U norm P s c : flat s -> attrlist_parse U norm P (cr s) c = on_ok cr_alr (attrlist_parse U norm P s c).
Proof.
  intros F. unfold attrlist_parse. cbv zeta. rewrite (flat_data s F), on_ok_bind. apply bind_more; intros src. rewrite (flat_mv s F), mv_discard_all, <- (flat_mv s F), bind_on_ok, on_ok_bind. destruct (discard_all s) as [x| |] eqn:K; cbn [bind]; try reflexivity. rewrite (sub_mv s x (discard_all_Sub _ _ K) F).
  destruct (_ && _); rewrite on_ok_bind; apply bind_more; intros r; [reflexivity|]. cbn [on_ok]. unfold cr_alr. cbn [fst snd mi_item mi_after]. rewrite map_map. reflexivity.
Qed.
(** * Metadata *)
Definition cms (m : mdstate) : mdstate := mkms (option_map cr (ms_title m)) (option_map cr (ms_anchor m)) (option_map cr (ms_reftext m)) (option_map cr_al (ms_attrlist m)) (cr (ms_start m)) (map cr_w (ms_warnings m)).
Definition cmd (m : metadata) : metadata := mkmd (option_map cr (md_title_source m)) (md_title m) (option_map cr (md_anchor m)) (option_map cr (md_reftext m)) (option_map cr_al (md_attrlist m)) (cr (md_source m)) (cr (md_start m)).
Ltac nolf := cbn; intuition discriminate.
Lemma norm_flat s m : take_normalized_line s = Ok m -> flat (mi_item m).
Proof. intros K. destruct (take_norm s) as (l & r & n & H & E). rewrite E in K. injection K as <-. exact (a_line_no_lf _ _ _ _ H). Qed.
Lemma title_step_cr m : clean (ms_start m) -> md_title_step (cms m) = on_ok (option_map cms) (md_title_step m).
Proof.
  intros C. unfold md_title_step. cbn [cms ms_title ms_start]. destruct (ms_title m); [reflexivity|]. cbn [option_map]. rewrite (norm_cr _ C). destruct (take_normalized_line (ms_start m)) as [mt| |] eqn:Em; cbn [on_ok bind]; try reflexivity. pose proof (norm_flat _ _ Em) as F. cbn [cm mi_item mi_after]. rewrite (flat_data _ F). destruct (_ && _); [|reflexivity].
  rewrite (discard1_cr _ _ F), bind_on_ok, on_ok_bind. destruct (discard (mi_item mt) 1) as [ti| |] eqn:Ed; cbn [bind]; try reflexivity. destruct (flat_sub _ _ (discard_Sub _ _ _ Ed) F) as (Ft & _).
  rewrite (flat_mv ti Ft), mv_take_ws, bind_on_ok, on_ok_bind. apply bind_more. intros w. cbn [mv_mi mi_item mv sp_data]. destruct (is_nil _); [|reflexivity]. cbn [on_ok option_map]. unfold cms. cbn [option_map ms_title ms_anchor ms_reftext ms_attrlist ms_start ms_warnings]. rewrite (flat_mv ti Ft). reflexivity.
Qed.
Lemma anchor_line_cr s : clean s -> parse_maybe_block_anchor (cr s) = on_ok (fun r => (option_map (cm cr) (fst r), map cr_w (snd r))) (parse_maybe_block_anchor s).
Proof.
  intros C. unfold parse_maybe_block_anchor. rewrite data_cr, starts_crlf by nolf. destruct (starts_with (lit "[[") (sp_data s)) eqn:Es; [|reflexivity]. rewrite (norm_cr _ C). destruct (take_normalized_line s) as [mt| |] eqn:Em; cbn [on_ok bind]; try reflexivity. pose proof (norm_flat _ _ Em) as F. cbn [cm mi_item mi_after]. rewrite (flat_data _ F). destruct (ends_with _ _); [|reflexivity].
  rewrite on_ok_bind. apply bind_more. intros e. rewrite (slice_cr _ _ _ F), bind_on_ok, on_ok_bind. destruct (slice (mi_item mt) 2 e) as [a| |] eqn:Ea; cbn [bind]; try reflexivity. destruct (flat_sub _ _ (slice_Sub _ _ _ _ Ea) F) as (Fa & _). rewrite (flat_data _ Fa). destruct (is_nil _); reflexivity.
Qed.
Lemma anchor_line_flat s m w : parse_maybe_block_anchor s = Ok (Some m, w) -> flat (mi_item m).
Proof.
  unfold parse_maybe_block_anchor. destruct (starts_with _ _); [|discriminate]. destruct (take_normalized_line s) as [mt| |] eqn:Em; cbn [bind]; try discriminate. pose proof (norm_flat _ _ Em) as F. destruct (ends_with _ _); [|discriminate]. intros H. apply bind_ok in H. destruct H as (e & _ & H). apply bind_ok in H. destruct H as (a & Ea & H). destruct (is_nil _); [discriminate|]. injection H as <- <-. cbn [mi_item]. exact (proj1 (flat_sub _ _ (slice_Sub _ _ _ _ Ea) F)).
Qed.
Lemma span_eqb_cr a b : ~ In CR (sp_data a) -> ~ In CR (sp_data b) -> span_eqb (cr a) (cr b) = span_eqb a b.
Proof.
  intros Ca Cb. unfold span_eqb. rewrite !data_cr. cbn [cr sp_line sp_col sp_off]. assert (K : text_eqb (crlf (sp_data a)) (crlf (sp_data b)) = text_eqb (sp_data a) (sp_data b)).
  { destruct (text_eqb (sp_data a) (sp_data b)) eqn:K; [apply text_eqb_eq in K; rewrite K; apply text_eqb_refl|]. destruct (text_eqb (crlf _) _) eqn:K2; [|reflexivity]. apply text_eqb_eq in K2. apply crlf_inj in K2; [|exact Ca|exact Cb]. rewrite K2, text_eqb_refl in K. discriminate K. }
  rewrite K. destruct (text_eqb (sp_data a) (sp_data b)); [|reflexivity]. cbn [andb]. destruct (Nat.eqb_spec (sp_line a) (sp_line b)) as [->|_]; [|reflexivity]. cbn [andb]. f_equal. destruct (Nat.eqb_spec (sp_off a) (sp_off b)) as [->|N]; [apply Nat.eqb_refl|]. apply Nat.eqb_neq. lia.
Qed.
Lemma anchor_step_cr U m : clean (ms_start m) -> md_anchor_step U (cms m) = on_ok (fun r => (cms (fst r), snd r)) (md_anchor_step U m).
Proof.
  intros C. unfold md_anchor_step. cbn [cms ms_title ms_anchor ms_reftext ms_attrlist ms_start ms_warnings]. destruct (ms_anchor m) eqn:Ea; [unfold cms; cbn [on_ok fst snd option_map]; rewrite Ea; reflexivity|]. cbn [option_map]. rewrite (anchor_line_cr _ C). destruct (parse_maybe_block_anchor (ms_start m)) as [[[mi|] w]| |] eqn:El; cbn [on_ok bind fst snd option_map]; try reflexivity.
  2: { unfold cms. cbn [option_map ms_title ms_anchor ms_reftext ms_attrlist ms_start ms_warnings]. rewrite map_app. reflexivity. }
  pose proof (anchor_line_flat _ _ _ El) as F. cbn [cm mi_item mi_after]. rewrite on_ok_bind, (flat_data _ F).
  match goal with |- bind ?x _ = bind ?y _ => assert (K : x = on_ok cms y) end.
  { assert (Hb : forall b (a : span) (r : option span), 
      (if b : bool then mkms (option_map cr (ms_title m)) (Some (cr a)) (option_map cr r) (option_map cr_al (ms_attrlist m)) (cr (mi_after mi)) (map cr_w (ms_warnings m) ++ map cr_w w) else mkms (option_map cr (ms_title m)) None (option_map cr (ms_reftext m)) (option_map cr_al (ms_attrlist m)) (cr (ms_start m)) ((map cr_w (ms_warnings m) ++ map cr_w w) ++ [mkwarn (cr a) WInvalidBlockAnchorName]))
      = cms (if b then mkms (ms_title m) (Some a) r (ms_attrlist m) (mi_after mi) (ms_warnings m ++ w) else mkms (ms_title m) None (ms_reftext m) (ms_attrlist m) (ms_start m) ((ms_warnings m ++ w) ++ [mkwarn a WInvalidBlockAnchorName]))).
    { intros [] a r; unfold cms; cbn [option_map ms_title ms_anchor ms_reftext ms_attrlist ms_start ms_warnings]; rewrite !map_app; reflexivity. }
    destruct (position _ _) as [cp|]; [|cbn [on_ok]; rewrite <- Hb; reflexivity]. rewrite on_ok_bind. apply bind_more. intros la. destruct (_ <? _); [|cbn [on_ok]; rewrite <- Hb; reflexivity].
    rewrite (slice_to_cr _ _ F), bind_on_ok, on_ok_bind. destruct (slice_to (mi_item mi) cp) as [a| |] eqn:Es; cbn [bind]; try reflexivity. destruct (flat_sub _ _ (slice_to_Sub _ _ _ Es) F) as (Fa & _). rewrite (slice_from_cr _ _ F), bind_on_ok, on_ok_bind. apply bind_more. intros y. rewrite (flat_data _ Fa). cbn [on_ok]. rewrite <- Hb. reflexivity. }
  rewrite K. rewrite bind_on_ok.
  match goal with |- bind ?x _ = bind ?y _ => destruct x as [m1| |] eqn:E1; cbn [bind]; try reflexivity end. cbn [on_ok fst snd cms ms_start]. rewrite span_eqb_cr; [reflexivity| |exact (proj1 C)].
  pose proof (anchor_step_Suffix U m (m1, negb (span_eqb (ms_start m1) (ms_start m)))) as Sx. cbn [fst] in Sx. refine (proj1 (clean_suffix _ _ C (Sx _))). unfold md_anchor_step. rewrite Ea, El. cbn [bind fst snd]. rewrite E1. reflexivity.
Qed.
Lemma list_line_cr E s P : clean s -> parse_maybe_attrlist_line E (cr s) P = on_ok (option_map cr_alr) (parse_maybe_attrlist_line E s P).
Proof.
  intros C. unfold parse_maybe_attrlist_line. rewrite data_cr, starts_crlf by nolf. destruct (starts_with (lit "[") (sp_data s)) eqn:Es; [|reflexivity]. rewrite (norm_cr _ C). destruct (take_normalized_line s) as [mt| |] eqn:Em; cbn [on_ok bind]; try reflexivity. pose proof (norm_flat _ _ Em) as F. cbn [cm mi_item mi_after]. rewrite (flat_data _ F). destruct (ends_with _ _); [|reflexivity].
  rewrite on_ok_bind. apply bind_more. intros e. rewrite (slice_cr _ _ _ F), bind_on_ok, on_ok_bind. destruct (slice (mi_item mt) 1 e) as [a| |] eqn:Ea; cbn [bind]; try reflexivity. destruct (flat_sub _ _ (slice_Sub _ _ _ _ Ea) F) as (Fa & _). rewrite (flat_data _ Fa). destruct (_ || _); [reflexivity|]. rewrite (attrlist_cr _ _ _ _ _ Fa), bind_on_ok, on_ok_bind. apply bind_more. intros r. reflexivity.
Qed.
Lemma list_step_cr E P m : clean (ms_start m) -> md_attrlist_step E P (cms m) = on_ok (fun r => (cms (fst r), snd r)) (md_attrlist_step E P m).
Proof.
  intros C. unfold md_attrlist_step. cbn [cms ms_title ms_anchor ms_reftext ms_attrlist ms_start ms_warnings]. destruct (ms_attrlist m) eqn:Ea; [unfold cms; cbn [on_ok fst snd option_map]; rewrite Ea; reflexivity|]. cbn [option_map]. rewrite (list_line_cr E _ P C).
  destruct (parse_maybe_attrlist_line E (ms_start m) P) as [[r|]| |]; cbn [on_ok bind option_map fst snd]; try reflexivity; unfold cms; cbn [option_map ms_title ms_anchor ms_reftext ms_attrlist ms_start ms_warnings cr_alr fst snd mi_item mi_after]; rewrite ?Ea, ?map_app; reflexivity.
Qed.
Lemma md_loop_cr E P : forall fuel m, clean (ms_start m) -> md_loop E P fuel (cms m) = on_ok cms (md_loop E P fuel m).
Proof.
  induction fuel as [|fuel IH]; intros m W; cbn [md_loop]; [reflexivity|]. rewrite (title_step_cr m W), bind_on_ok, on_ok_bind. destruct (md_title_step m) as [[m1|]| |] eqn:E1; cbn [bind option_map]; try reflexivity; [apply IH; exact (clean_suffix _ _ W (title_step_Suffix _ _ E1))|].
  rewrite (anchor_step_cr _ m W), bind_on_ok, on_ok_bind. destruct (md_anchor_step (e_u E) m) as [[m2 b2]| |] eqn:E2; cbn [bind fst snd]; try reflexivity. pose proof (clean_suffix _ _ W (anchor_step_Suffix _ _ _ E2)) as W2. cbn [fst] in W2. destruct b2; [apply IH; exact W2|].
  rewrite (list_step_cr E P m2 W2), bind_on_ok, on_ok_bind. destruct (md_attrlist_step E P m2) as [[m3 b3]| |] eqn:E3; cbn [bind fst snd]; try reflexivity. pose proof (clean_suffix _ _ W2 (attrlist_step_Suffix _ _ _ _ E3)) as W3. destruct b3; [apply IH; exact W3|reflexivity].
Qed.
Lemma title_flat E P : forall fuel m m', md_loop E P fuel m = Ok m' -> (forall x, ms_title m = Some x -> flat x) -> forall x, ms_title m' = Some x -> flat x.
Proof.
  induction fuel as [|fuel IH]; intros m m' H F; cbn [md_loop] in H; [discriminate|]. apply bind_ok in H. destruct H as (o & E1 & H). destruct o as [m1|].
  - apply (IH _ _ H). intros x Hx. unfold md_title_step in E1. destruct (ms_title m) eqn:Et; [discriminate E1|]. apply bind_ok in E1. destruct E1 as (mt & Em & E1). destruct (_ && _); [|discriminate E1]. apply bind_ok in E1. destruct E1 as (ti & Ed & E1). apply bind_ok in E1. destruct E1 as (w & _ & E1). destruct (is_nil _); [|discriminate E1]. injection E1 as <-. cbn [ms_title] in Hx. injection Hx as <-. exact (proj1 (flat_sub _ _ (discard_Sub _ _ _ Ed) (norm_flat _ _ Em))).
  - apply bind_ok in H. destruct H as (a & E2 & H). assert (F2 : forall x, ms_title (fst a) = Some x -> flat x).
    { assert (T : ms_title (fst a) = ms_title m); [|rewrite T; exact F]. clear - E2. unfold md_anchor_step in E2. destruct (ms_anchor m); [injection E2 as <-; reflexivity|]. apply bind_ok in E2. destruct E2 as (aw & _ & E2). destruct (fst aw); [|injection E2 as <-; reflexivity]. apply bind_ok in E2. destruct E2 as (m1 & E1 & E2). injection E2 as <-. cbn [fst].
      destruct (position _ _); [|injection E1 as <-; destruct (is_xml_name _ _); reflexivity]. apply bind_ok in E1. destruct E1 as (la & _ & E1). destruct (_ <? _); [|injection E1 as <-; destruct (is_xml_name _ _); reflexivity]. apply bind_ok in E1. destruct E1 as (x & _ & E1). apply bind_ok in E1. destruct E1 as (y & _ & E1). injection E1 as <-; destruct (is_xml_name _ _); reflexivity. }
    destruct (snd a); [exact (IH _ _ H F2)|]. apply bind_ok in H. destruct H as (l & E3 & H). assert (F3 : forall x, ms_title (fst l) = Some x -> flat x).
    { assert (T : ms_title (fst l) = ms_title (fst a)); [|rewrite T; exact F2]. clear - E3. unfold md_attrlist_step in E3. destruct (ms_attrlist (fst a)); [injection E3 as <-; reflexivity|]. apply bind_ok in E3. destruct E3 as (o & _ & E3). injection E3 as <-. destruct o; reflexivity. }
    destruct (snd l); [exact (IH _ _ H F3)|]. injection H as <-. exact F3.
Qed.
Lemma metadata_cr E s P : clean s -> metadata_parse E (cr s) P = on_ok (fun r => (cmd (fst r), map cr_w (snd r))) (metadata_parse E s P).
Proof.
  intros C. unfold metadata_parse. rewrite !discard_empty_lines_ok. cbn [bind]. rewrite (empties_cr s C). pose proof (clean_suffix _ _ C (discard_empty_Suffix s)) as C1. set (q := p_discard_empty_lines s) in *.
  change (mkms None None None None (cr q) []) with (cms (mkms None None None None q [])). rewrite (md_loop_cr E P 4 (mkms None None None None q [])) by exact C1. rewrite bind_on_ok, on_ok_bind. destruct (md_loop E P 4 (mkms None None None None q [])) as [m| |] eqn:Em; cbn [bind]; try reflexivity. pose proof (title_flat E P _ _ _ Em ltac:(cbn [ms_title]; discriminate)) as F.
  rewrite on_ok_bind. cbn [cms ms_title]. destruct (ms_title m) as [x|] eqn:Et; cbn [option_map]; [rewrite (flat_data x (F x eq_refl))|reflexivity]. destruct (e_sub E P GNormal false (sp_data x)); reflexivity.
Qed.
(** * Kinds of blocks *)
Lemma style_cr a : style_of (option_map cr_al a) = style_of a. Proof. destruct a; reflexivity. Qed.
Lemma subs_cr E P g a t : apply_subs E P g (option_map cr_al a) t = apply_subs E P g a t. Proof. unfold apply_subs. destruct a; reflexivity. Qed.
Lemma override_cr g a : override_via_attrlist g (option_map cr_al a) = override_via_attrlist g a. Proof. destruct a; reflexivity. Qed.
Lemma discrete_cr m : is_discrete (cmd m) = is_discrete m. Proof. unfold is_discrete. cbn [cmd md_attrlist]. rewrite style_cr. reflexivity. Qed.
Lemma common_cr m : common_of (cmd m) = cr_cm (common_of m). Proof. reflexivity. Qed.
Lemma kept_cr n s : flat s -> kept_line n (cr s) = kept_line n s.
Proof. intros F. rewrite (flat_mv s F). apply mv_kept. Qed.
Lemma paragraph_cr k : forall f g s fl, length (sp_data s) <= f -> length (crlf (sp_data s)) <= g -> clean s ->
  simple_lines g k (cr s) fl = on_ok (fun r => (fst r, cr (snd r))) (simple_lines f k s fl).
Proof.
  induction f as [|f IH]; intros g s fl Hf Hg C.
  - assert (D : sp_data s = []) by (destruct (sp_data s); [reflexivity|cbn in Hf; lia]). assert (K : take_non_empty_line s = Ok None) by (rewrite take_non_empty_line_ok; unfold p_take_non_empty_line; rewrite D; reflexivity).
    destruct g; cbn [simple_lines]; rewrite (non_empty_cr s C), K; reflexivity.
  - destruct g as [|g].
    { assert (D : sp_data s = []) by (apply crlf_nil; destruct (crlf (sp_data s)); [reflexivity|cbn in Hg; lia]). assert (K : take_non_empty_line s = Ok None) by (rewrite take_non_empty_line_ok; unfold p_take_non_empty_line; rewrite D; reflexivity). cbn [simple_lines]. rewrite (non_empty_cr s C), K. reflexivity. }
    cbn [simple_lines]. rewrite (non_empty_cr s C). destruct (take_non_empty s) as [(l & r & n & H & Hn & N & K)|(_ & K)]; rewrite K; cbn [on_ok bind option_map]; [|reflexivity]. cbn [cm mi_item mi_after]. assert (F : flat (with_data s n)) by exact (a_line_no_lf _ _ _ _ H). rewrite (flat_data _ F). rewrite on_ok_bind. apply bind_more. intros st. destruct st; [reflexivity|].
    pose proof (a_line_shorter _ _ _ _ H N) as Hs. pose proof (a_line_shorter _ _ _ _ (line_cr _ _ _ _ (proj1 C) H) (crlf_cons _ N)) as Hs2. pose proof (clean_suffix _ _ C (Suffix_intro s l r (a_line_app _ _ _ _ H))) as C1. destruct (is_comment_line _); [|rewrite (kept_cr _ _ F), on_ok_bind; apply bind_more; intros q]; apply IH; rewrite ?sp_data_skip in *; try lia; exact C1.
Qed.
Lemma lines_suffix f k s fl r : length (sp_data s) <= f -> simple_lines f k s fl = Ok r -> Suffix s (snd r).
Proof. intros Hf H. destruct (simple_lines_spec k f s fl Hf) as (ls & pre & rest & _ & D & K). rewrite K in H. apply Ok_inj in H. subst r. cbn [snd]. apply Suffix_intro. exact D. Qed.
Definition cr_cs (c : content * simple_style) := (cr_ct (fst c), snd c).
Lemma parse_lines_cr E s a P : clean s -> parse_lines E (cr s) (option_map cr_al a) P = on_ok (option_map (fun m => mkmi (cr_cs (mi_item m)) (cr (mi_after m)))) (parse_lines E s a P).
Proof.
  intros C. unfold parse_lines. unfold discard_whitespace. rewrite (white_cr s C), !bind_on_ok, !bind_bind, on_ok_bind. apply bind_more. intros w. cbn [bind cm mi_after]. change (sp_col (cr (mi_after w))) with (sp_col (mi_after w)). change (sp_col (cr s)) with (sp_col s). rewrite on_ok_bind. apply bind_more. intros si. rewrite style_cr, on_ok_bind. apply bind_more. intros bs. cbv zeta.
  rewrite data_cr. rewrite (paragraph_cr si (length (sp_data s)) (length (crlf (sp_data s))) s [] (le_n _) (le_n _) C), bind_on_ok, on_ok_bind. destruct (simple_lines (length (sp_data s)) si s []) as [r| |] eqn:Er; cbn [bind]; try reflexivity. cbn [fst snd]. pose proof (lines_suffix _ _ _ _ _ (le_n _) Er) as Sx.
  rewrite (remainder_cr _ _ (proj2 C) Sx), bind_on_ok, on_ok_bind. apply bind_more. intros s1. rewrite trim_white_cr, bind_on_ok, on_ok_bind. apply bind_more. intros s2. rewrite data_cr. replace (is_nil (crlf (sp_data s2))) with (is_nil (sp_data s2)) by (destruct (sp_data s2) as [|c t] eqn:D2; [reflexivity|]; destruct (crlf (c :: t)) eqn:K; [apply crlf_nil in K; discriminate K|reflexivity]).
  destruct (is_nil _); [reflexivity|]. rewrite override_cr, on_ok_bind. apply bind_more. intros g. rewrite subs_cr, on_ok_bind. apply bind_more. intros t. rewrite !discard_empty_lines_ok. cbn [bind]. rewrite (empties_cr _ (clean_suffix _ _ C Sx)). reflexivity.
Qed.
Lemma parse_lines_Suffix E s a P m : parse_lines E s a P = Ok (Some m) -> Suffix s (mi_after m).
Proof.
  unfold parse_lines. intros H. apply bind_ok in H. destruct H as (w & _ & H). apply bind_ok in H. destruct H as (si & _ & H). apply bind_ok in H. destruct H as (bs & _ & H). apply bind_ok in H. destruct H as (r & Er & H). pose proof (lines_suffix _ _ _ _ _ (le_n _) Er) as Sx. apply bind_ok in H. destruct H as (s1 & _ & H). apply bind_ok in H. destruct H as (s2 & _ & H). destruct (is_nil _); [discriminate H|].
  apply bind_ok in H. destruct H as (g & _ & H). apply bind_ok in H. destruct H as (t & _ & H). rewrite discard_empty_lines_ok in H. cbn [bind] in H. apply Ok_inj in H. injection H as <-. cbn [mi_after]. exact (Suffix_trans _ _ _ Sx (discard_empty_Suffix _)).
Qed.
Definition cmb (m : mitem block) : mitem block := mkmi (cr_block (mi_item m)) (cr (mi_after m)).
Lemma simple_cr E m P : clean (md_source m) -> Suffix (md_source m) (md_start m) -> simple_parse E (cmd m) P = on_ok (option_map cmb) (simple_parse E m P).
Proof.
  intros C Sm. unfold simple_parse. cbn [cmd md_start md_attrlist md_source]. rewrite (parse_lines_cr E _ _ P (clean_suffix _ _ C Sm)), bind_on_ok, on_ok_bind. destruct (parse_lines E (md_start m) (md_attrlist m) P) as [[mi|]| |] eqn:El; cbn [bind option_map]; try reflexivity. cbn [mi_item mi_after]. pose proof (Suffix_trans _ _ _ Sm (parse_lines_Suffix _ _ _ _ _ El)) as S2.
  rewrite (remainder_cr _ _ (proj2 C) S2), bind_on_ok, on_ok_bind. apply bind_more. intros s1. rewrite trim_white_cr, bind_on_ok, on_ok_bind. apply bind_more. intros s2. rewrite !discard_empty_lines_ok. cbn [bind]. rewrite (empties_cr _ (clean_suffix _ _ C S2)). reflexivity.
Qed.
Lemma fast_cr E s P : clean s -> simple_parse_fast E (cr s) P = on_ok (option_map cmb) (simple_parse_fast E s P).
Proof.
  intros C. unfold simple_parse_fast. pose proof (parse_lines_cr E s None P C) as K. cbn [option_map] in K. rewrite K, bind_on_ok, on_ok_bind. destruct (parse_lines E s None P) as [[mi|]| |] eqn:El; cbn [bind option_map]; try reflexivity. cbn [mi_item mi_after]. rewrite !discard_empty_lines_ok. cbn [bind]. rewrite (empties_cr _ (clean_suffix _ _ C (parse_lines_Suffix _ _ _ _ _ El))). reflexivity.
Qed.
Lemma find_cr d : forall f g s, length (sp_data s) <= f -> length (crlf (sp_data s)) <= g -> clean s -> find_delimiter g d (cr s) = on_ok (fun r => (cr (fst r), option_map (cm cr) (snd r))) (find_delimiter f d s).
Proof.
  induction f as [|f IH]; intros g s Hf Hg C.
  - assert (D : sp_data s = []) by (destruct (sp_data s); [reflexivity|cbn in Hf; lia]). destruct g; cbn [find_delimiter]; rewrite data_cr, D; reflexivity.
  - destruct (sp_data s) as [|c0 t0] eqn:D; [destruct g; cbn [find_delimiter]; rewrite data_cr, D; reflexivity|]. rewrite <- D in *. assert (N : sp_data s <> []) by (rewrite D; discriminate). pose proof (crlf_cons _ N) as N2. destruct g as [|g]; [destruct (crlf (sp_data s)); [contradiction|cbn in Hg; lia]|].
    cbn [find_delimiter]. rewrite data_cr. destruct (crlf (sp_data s)) as [|c1 t1] eqn:D1; [contradiction|]. rewrite <- D1 in *. rewrite D. rewrite (norm_cr s C), bind_on_ok, on_ok_bind. destruct (take_norm s) as (l & r & n & H & E1). rewrite E1. cbn [bind cm mi_item mi_after].
    assert (F : flat (with_data s n)) by exact (a_line_no_lf _ _ _ _ H). rewrite (flat_data _ F). destruct (text_eqb _ _); [reflexivity|]. pose proof (a_line_shorter _ _ _ _ H N) as Hs. pose proof (a_line_shorter _ _ _ _ (line_cr _ _ _ _ (proj1 C) H) (crlf_cons _ N)) as Hs2. apply IH; rewrite ?sp_data_skip; try lia. exact (clean_suffix _ _ C (Suffix_intro s l r (a_line_app _ _ _ _ H))).
Qed.
(** Results of two runs that go the same way. *)
Definition sim {A B} (R : A -> B -> Prop) (x : res A) (y : res B) : Prop := match x, y with Ok a, Ok b => R a b | Panic, Panic | OutOfFuel, OutOfFuel => True | _, _ => False end.
Lemma sim_ok {A B} (f : B -> A) x : sim (fun a b => a = f b) (on_ok f x) x. Proof. destruct x; cbn; auto. Qed.
Lemma sim_refl {A} (x : res A) : sim eq x x. Proof. destruct x; cbn; auto. Qed.
Lemma sim_bind {A B C D} (R : A -> B -> Prop) (T : C -> D -> Prop) x y k h : sim R x y -> (forall a b, x = Ok a -> y = Ok b -> R a b -> sim T (k a) (h b)) -> sim T (bind x k) (bind y h).
Proof. destruct x, y; cbn; intros H K; try contradiction; auto. Qed.
Lemma sim_same {A C D} (T : C -> D -> Prop) (x : res A) k h : (forall a, x = Ok a -> sim T (k a) (h a)) -> sim T (bind x k) (bind x h).
Proof. destruct x; cbn; auto. Qed.
Lemma sim_map {A B C D} (f : B -> A) (T : C -> D -> Prop) x y k h : x = on_ok f y -> (forall b, y = Ok b -> sim T (k (f b)) (h b)) -> sim T (bind x k) (bind y h).
Proof. intros ->. destruct y; cbn; auto. Qed.
Lemma sim_weak {A B} (R T : A -> B -> Prop) x y : (forall a b, R a b -> T a b) -> sim R x y -> sim T x y.
Proof. destruct x, y; cbn; auto. Qed.
Definition tidy (m : metadata) : Prop := forall a, md_anchor m = Some a -> flat a.
Definition simb (m' m : mitem block) : Prop := hush (mi_item m') = cr_block (mi_item m) /\ mi_after m' = cr (mi_after m) /\ forall a, cm_anchor (block_common (mi_item m)) = Some a -> flat a.
Definition opt {A B} (R : A -> B -> Prop) (a : option A) (b : option B) : Prop := match a, b with Some a, Some b => R a b | None, None => True | _, _ => False end.
Lemma apply_bears E P g a x : bears_crlf E -> sim (fun _ _ => True) (apply_subs E P g a (crlf x)) (apply_subs E P g a x).
Proof. intros H. unfold apply_subs. apply sim_same. intros hb _. exact (H P g hb x). Qed.
Lemma raw_cr E m P : bears_crlf E -> tidy m -> clean (md_source m) -> Suffix (md_source m) (md_start m) -> sim (opt (fun r' r => simb (fst r') (fst r) /\ snd r' = map cr_w (snd r))) (raw_parse E (cmd m) P) (raw_parse E m P).
Proof.
  intros B T C Sm. pose proof (clean_suffix _ _ C Sm) as C1. unfold raw_parse. cbn [cmd md_start md_attrlist md_source]. apply (sim_map (cm cr)); [exact (norm_cr _ C1)|]. intros de Ed. cbv zeta. cbn [cm mi_item mi_after]. rewrite (flat_data _ (norm_flat _ _ Ed)). destruct (blen _ <? 4); [exact I|]. destruct (raw_kind _) as [[mo [cx g]]|]; [|exact I].
  apply sim_same. intros v _. destruct (negb v); [exact I|]. pose proof (take_norm_Suffix _ _ Ed) as Sd. pose proof (clean_suffix _ _ C1 Sd) as C2. rewrite data_cr. eapply sim_map; [exact (find_cr _ _ _ _ (le_n _) (le_n _) C2)|]. intros [r o] Er. destruct (find_delimiter_place _ _ _ _ Er) as (Sr & So). cbn [fst snd].
  apply (sim_map cr); [exact (remainder_cr _ _ (proj2 C2) Sr)|]. intros c Ec. assert (Cc : ~ In CR (sp_data c)) by exact (proj1 (sub_clean _ _ C2 (trim_remainder_Sub _ _ _ Ec))). apply (sim_map cr); [exact (trim_line_cr _ Cc)|]. intros c2 Ec2.
  pose proof (Suffix_trans _ _ _ Sm Sd) as S1. destruct o as [li|]; cbn [option_map].
  - rewrite override_cr. apply sim_same. intros g2 _. apply (sim_bind (fun _ _ => True)); [rewrite subs_cr, data_cr; exact (apply_bears _ _ _ _ _ B)|]. intros t' t _ _ _. cbn [cm mi_after]. pose proof (Suffix_trans _ _ _ S1 (Suffix_trans _ _ _ Sr (proj1 So))) as S2. apply (sim_map cr); [exact (remainder_cr _ _ (proj2 C) S2)|]. intros s1 E1. assert (Cs : ~ In CR (sp_data s1)) by exact (proj1 (sub_clean _ _ C (trim_remainder_Sub _ _ _ E1))). apply (sim_map cr); [exact (trim_line_cr _ Cs)|]. intros s2 _.
    cbn [sim opt fst snd]. split; [|reflexivity]. split; [reflexivity|split; [reflexivity|exact T]].
  - apply (sim_map cr); [exact (remainder_cr _ _ (proj2 C) (Suffix_trans _ _ _ S1 Sr))|]. intros s1 E1. assert (Cs : ~ In CR (sp_data s1)) by exact (proj1 (sub_clean _ _ C (trim_remainder_Sub _ _ _ E1))). apply (sim_map cr); [exact (trim_line_cr _ Cs)|]. intros s2 _. cbn [sim opt fst snd]. split; [|reflexivity]. split; [reflexivity|split; [reflexivity|exact T]].
Qed.
Section within.
Variable D0 : text.
Hypothesis HD : ~ In CR D0.
Lemma lc s : located D0 s -> clean s.
Proof.
  intros L. split.
  - intros K. apply HD. destruct L as (p & q & D & _). rewrite D. apply in_or_app. right. apply in_or_app. left. exact K.
  - destruct L as (p & q & D & L1 & _). rewrite L1. lia.
Qed.
Definition simr (b' b : bres) : Prop := map hush (br_blocks b') = map cr_block (br_blocks b) /\ br_after b' = cr (br_after b) /\ br_warnings b' = map cr_w (br_warnings b) /\ br_level b' = br_level b /\ br_stop_warnings b' = map cr_w (br_stop_warnings b) /\ br_parser b' = br_parser b.
Lemma find_line d : forall f s r l, find_delimiter f d s = Ok (r, Some l) -> take_normalized_line r = Ok l.
Proof.
  induction f as [|f IH]; intros s r l H; cbn [find_delimiter] in H; (destruct (sp_data s) eqn:D; [discriminate H|]); [discriminate H|]. apply bind_ok in H. destruct H as (x & Ex & H). destruct (text_eqb _ _); [apply Ok_inj in H; injection H as <- <-; exact Ex|exact (IH _ _ _ H)].
Qed.
Lemma discard_all_cr s : flat s -> discard_all (cr s) = on_ok cr (discard_all s).
Proof. intros F. rewrite (flat_mv s F), mv_discard_all. destruct (discard_all s) as [x| |] eqn:K; cbn [on_ok]; try reflexivity. rewrite (sub_mv s x (discard_all_Sub _ _ K) F). reflexivity. Qed.
Lemma with_self s : with_data s (sp_data s) = s. Proof. destruct s. reflexivity. Qed.
Lemma is_nil_crlf t : is_nil (crlf t) = is_nil t.
Proof. destruct t as [|c t]; [reflexivity|]. destruct (crlf (c :: t)) eqn:K; [apply crlf_nil in K; discriminate K|reflexivity]. Qed.
Lemma compound_cr un un' m P : (forall s Q, located D0 s -> sim simr (un' (cr s) Q) (un s Q)) -> tidy m -> located D0 (md_source m) -> Suffix (md_source m) (md_start m) ->
  sim (opt (fun r' r => simb (fst r') (fst r) /\ fst (snd r') = map cr_w (fst (snd r)) /\ snd (snd r') = snd (snd r))) (compound_parse un' (cmd m) P) (compound_parse un m P).
Proof.
  intros Hu T L Sm. pose proof (lc _ L) as C. pose proof (clean_suffix _ _ C Sm) as C1. unfold compound_parse. cbn [cmd md_start md_attrlist md_source]. apply (sim_map (cm cr)); [exact (norm_cr _ C1)|]. intros de Ed. cbv zeta. cbn [cm mi_item mi_after]. rewrite (flat_data _ (norm_flat _ _ Ed)). destruct (compound_context _) as [cx|]; [|exact I].
  apply sim_same. intros v _. destruct (negb v); [exact I|]. pose proof (take_norm_Suffix _ _ Ed) as Sd. pose proof (clean_suffix _ _ C1 Sd) as C2. rewrite data_cr. eapply sim_map; [exact (find_cr _ _ _ _ (le_n _) (le_n _) C2)|]. intros [r o] Er. destruct (find_delimiter_place _ _ _ _ Er) as (Sr & So). cbn [fst snd].
  assert (K : exists n q a, match o with Some line => mi_item line | None => r end = with_data r n /\ match o with Some line => mi_after line | None => r end = a /\ sp_data r = n ++ q /\ ~ In LF n /\ Suffix r a).
  { destruct o as [li|].
    - pose proof (find_line _ _ _ _ _ Er) as El. destruct (take_norm r) as (l1 & r1 & n1 & Hl & K). rewrite El in K. apply Ok_inj in K. subst li. destruct (a_line_prefix _ _ _ _ Hl) as (q & Eq). exists n1, (q ++ r1), (skip r l1 r1). repeat split; [rewrite (a_line_app _ _ _ _ Hl), Eq, <- app_assoc; reflexivity|exact (a_line_no_lf _ _ _ _ Hl)|exact (Suffix_intro _ _ _ (a_line_app _ _ _ _ Hl))].
    - assert (D : sp_data r = []). { clear -Er. revert Er. generalize (length (sp_data (mi_after de))) as f. generalize (mi_after de) as s. intros s f. revert s. induction f as [|f IH]; intros s H; cbn [find_delimiter] in H; (destruct (sp_data s) eqn:D; [apply Ok_inj in H; injection H as <-; exact D|]); [discriminate H|]. apply bind_ok in H. destruct H as (l1 & _ & H). destruct (text_eqb _ _); [apply Ok_inj in H; discriminate H|exact (IH _ H)]. }
      exists [], [], r. split; [rewrite <- (with_self r) at 1; rewrite D; reflexivity|]. split; [reflexivity|]. split; [exact D|]. split; [intros []|apply Suffix_refl]. }
  destruct K as (n & q & a & Kc & Ka & Dr & Hn & Sa).
  assert (Kc' : match option_map (cm cr) o with Some line => mi_item line | None => cr r end = cr (with_data r n)) by (rewrite <- Kc; destruct o; reflexivity).
  assert (Ka' : match option_map (cm cr) o with Some line => mi_after line | None => cr r end = cr a) by (rewrite <- Ka; destruct o; reflexivity).
  rewrite Kc', Ka', Kc, Ka. assert (F : flat (with_data r n)) by exact Hn.
  apply (sim_map cr).
  { rewrite (trim_remainder_off (cr (mi_after de)) (cr (with_data r n)) (cr r)) by reflexivity. rewrite (trim_remainder_off (mi_after de) (with_data r n) r) by reflexivity. exact (remainder_cr _ _ (proj2 C2) Sr). }
  intros ins Ei. pose proof (located_Suffix _ _ _ (located_Suffix _ _ _ L Sm) Sd) as L2. apply (sim_bind simr); [exact (Hu _ _ (located_Sub _ _ _ L2 (trim_remainder_Sub _ _ _ Ei)))|]. intros b' b _ _ (B1 & B2 & B3 & B4 & B5 & B6).
  apply (sim_map cr); [exact (discard_all_cr _ F)|]. intros ca Eca. rewrite discard_all_ok in Eca. apply Ok_inj in Eca. subst ca.
  apply (sim_map cr).
  { rewrite (trim_remainder_off (cr (md_source m)) (cr (p_discard_all (with_data r n))) (cr (skip r n q))) by (unfold p_discard_all, skip, slice_internal; cbn [sp_data with_data]; destruct (blen n =? 0); reflexivity).
    rewrite (trim_remainder_off (md_source m) (p_discard_all (with_data r n)) (skip r n q)) by (unfold p_discard_all, skip, slice_internal; cbn [sp_data with_data]; destruct (blen n =? 0); reflexivity).
    apply (remainder_cr _ _ (proj2 C)). eapply Suffix_trans; [exact Sm|]. eapply Suffix_trans; [exact Sd|]. eapply Suffix_trans; [exact Sr|]. apply Suffix_intro. exact Dr. }
  intros s1 _. apply (sim_map cr); [exact (trim_white_cr _)|]. intros s2 _. cbn [sim opt fst snd]. split; [split; [cbn [mi_item hush cr_block]; rewrite B1; reflexivity|split; [reflexivity|exact T]]|]. split; [|exact B6]. rewrite (flat_data _ F), B3. destruct (is_nil _); reflexivity.
Qed.
(** * Lines that are blocks *)
Definition firm (s : span) : Prop := match sp_data s with c :: _ => is_ws c = false | [] => True end.
Definition lead (m : metadata) : Prop := md_start m = md_source m \/ firm (md_source m).
Lemma firm_source m : lead m -> firm (md_start m) -> firm (md_source m).
Proof. intros [H|H]; [rewrite H; auto|auto]. Qed.
Lemma firm_trim c t : is_ws c = false -> trim (c :: t) = trim_end (c :: t).
Proof.
  intros H. unfold trim, trim_start, trim_start_by, drop_while_c. assert (K : exists r, trim_end (c :: t) = c :: r).
  { pose proof (trim_end_spec (c :: t)) as (z & Ez & Bz & Hz). destruct (trim_end (c :: t)) as [|x r]; [|injection Ez as <- _; eauto]. exfalso. cbn [app] in Ez. rewrite <- Ez in Bz. inversion Bz as [|? ? K _]. rewrite H in K. discriminate K. }
  destruct K as (r & ->). cbn [span_while]. rewrite H. reflexivity.
Qed.
Lemma line_source_cr m a : located D0 (md_source m) -> Suffix (md_source m) a -> firm (md_source m) -> line_block_source (cmd m) (cr a) = on_ok cr (line_block_source m a).
Proof.
  intros L Sa F. pose proof (lc _ L) as C. unfold line_block_source. cbn [cmd md_source]. rewrite (remainder_cr _ _ (proj2 C) Sa), bind_on_ok, on_ok_bind, (trim_remainder_ok _ _ Sa). cbn [bind]. unfold p_trim_remainder. set (d := firstn _ _).
  assert (Hd : exists q, sp_data (md_source m) = d ++ q) by (exists (skipn (length (sp_data (md_source m)) - length (sp_data a)) (sp_data (md_source m))); unfold d; symmetry; apply firstn_skipn). destruct Hd as (q & Dq). clearbody d.
  assert (Hf : trim d = trim_end d /\ trim (crlf d) = crlf (trim_end d)).
  { unfold firm in F. rewrite Dq in F. destruct d as [|c d]; [split; reflexivity|]. cbn [app] in F. split; [exact (firm_trim _ _ F)|]. cbn [crlf]. destruct (N.eqb_spec c LF) as [->|Hc]; [discriminate F|]. rewrite (firm_trim _ _ F), <- trim_end_crlf. cbn [crlf]. destruct (N.eqb_spec c LF); [contradiction|reflexivity]. }
  destruct Hf as (F1 & F2). cbn [with_data sp_data]. rewrite data_cr. cbn [with_data sp_data]. rewrite F1, F2. destruct (trim_end_spec d) as (z & Ez & _).
  pose proof (slice_ok (with_data (md_source m) d) [] (trim_end d) z) as K1. cbn [with_data sp_data app] in K1. specialize (K1 Ez). cbn [blen app] in K1.
  pose proof (slice_ok (cr (with_data (md_source m) d)) [] (crlf (trim_end d)) (crlf z)) as K2. cbn [with_data sp_data app] in K2. rewrite data_cr, <- crlf_app in K2. cbn [with_data sp_data] in K2. specialize (K2 (f_equal crlf Ez)). cbn [blen app] in K2.
  change (slice (with_data (md_source m) d) 0 (blen (trim_end d)) = Ok (skip (with_data (md_source m) d) [] (trim_end d))) in K1. change (slice (cr (with_data (md_source m) d)) 0 (blen (crlf (trim_end d))) = Ok (skip (cr (with_data (md_source m) d)) [] (crlf (trim_end d)))) in K2.
  etransitivity; [exact K2|]. etransitivity; [|symmetry; exact (f_equal (on_ok cr) K1)]. cbn [on_ok]. f_equal.
Qed.
Definition mvl (f : span -> res (option (mitem span))) : Prop := forall s, flat s -> f (cr s) = on_ok (option_map (cm cr)) (f s) /\ forall m, f s = Ok (Some m) -> SubM s m.
Lemma mvl_intro f : (forall o s, f (mv 0 o s) = on_ok (option_map (mv_mi 0 o (mv 0 o))) (f s)) -> (forall s m, f s = Ok (Some m) -> SubM s m) -> mvl f.
Proof. intros H1 H2 s F. split; [|exact (H2 s)]. rewrite (flat_mv s F), H1. destruct (f s) as [[m|]| |] eqn:K; cbn [on_ok option_map]; try reflexivity. rewrite (sub_mvm s m (H2 _ _ K) F). reflexivity. Qed.
Lemma mvl_ident : mvl take_ident.
Proof. apply mvl_intro; [intros; apply mv_ident|]. intros s m H. unfold take_ident in H. rewrite take_name_ok in H. apply Ok_inj in H. exact (p_take_name_Sub _ _ _ _ H). Qed.
Lemma mvl_prefix p : mvl (fun s => take_prefix s p).
Proof. apply mvl_intro; [intros; apply mv_take_prefix|]. intros s m H. rewrite take_prefix_ok in H. apply Ok_inj in H. unfold p_take_prefix in H. destruct (starts_with p (sp_data s)) eqn:K; [|discriminate H]. injection H as <-. apply starts_with_spec in K. destruct K as (r & D). split; cbn [psplit mi_item mi_after].
  - apply (Sub_intro s [] p r). exact D.
  - rewrite D, skipn_app, skipn_all, Nat.sub_diag. cbn [skipn app]. apply (Sub_intro s p r []). rewrite app_nil_r. exact D.
Qed.
Lemma mvl_req : mvl take_required_whitespace.
Proof. apply mvl_intro; [intros; apply mv_take_req|]. intros s m H. rewrite take_required_whitespace_ok in H. injection H as H. unfold p_take_required_whitespace in H. destruct (sp_data _); [discriminate|]. injection H as <-. apply p_take_while_Sub. Qed.
Lemma while_cr s p : flat s -> take_while (cr s) p = on_ok (cm cr) (take_while s p).
Proof. intros F. rewrite (flat_mv s F), mv_take_while, take_while_ok. cbn [on_ok]. rewrite (sub_mvm s _ (p_take_while_Sub s p) F). reflexivity. Qed.
Lemma media_cr E m P : located D0 (md_source m) -> Suffix (md_source m) (md_start m) -> firm (md_source m) -> media_parse E (cmd m) P = on_ok (fun r => (option_map cmb (fst r), map cr_w (snd r))) (media_parse E m P).
Proof.
  intros L Sm Fm. pose proof (lc _ L) as C. unfold media_parse. change (md_start (cmd m)) with (cr (md_start m)). rewrite (norm_cr _ (clean_suffix _ _ C Sm)), bind_on_ok, on_ok_bind. destruct (take_normalized_line (md_start m)) as [li| |] eqn:El; cbn [bind]; try reflexivity. pose proof (norm_flat _ _ El) as F. cbn [cm mi_item mi_after]. rewrite (flat_data _ F). destruct (negb _); [reflexivity|].
  destruct (mvl_ident _ F) as (K1 & K2). rewrite K1, bind_on_ok, on_ok_bind. destruct (take_ident (mi_item li)) as [[na|]| |] eqn:En; cbn [bind option_map]; try reflexivity. destruct (K2 _ eq_refl) as (Sn1 & Sn2). destruct (flat_sub _ _ Sn1 F) as (Fn1 & _). destruct (flat_sub _ _ Sn2 F) as (Fn2 & _). clear K1 K2. cbn [cm mi_item mi_after]. rewrite (flat_data _ Fn1). destruct (media_type_of _) as [ty|]; [|reflexivity].
  destruct (mvl_prefix (lit "::") _ Fn2) as (K1 & K2). cbv beta in *. rewrite K1, bind_on_ok, on_ok_bind. destruct (take_prefix (mi_after na) (lit "::")) as [[co|]| |] eqn:Ec; cbn [bind option_map]; try reflexivity. destruct (flat_sub _ _ (proj2 (K2 _ eq_refl)) Fn2) as (Fc & _). clear K1 K2. cbn [cm mi_item mi_after].
  rewrite (while_cr _ _ Fc), bind_on_ok, on_ok_bind, take_while_ok. cbn [bind]. destruct (p_take_while_Sub (mi_after co) (fun c => negb (c =? 91)%N)) as (St1 & St2). set (ta := p_take_while (mi_after co) _) in *. destruct (flat_sub _ _ St1 Fc) as (Ft1 & _). destruct (flat_sub _ _ St2 Fc) as (Ft2 & _). cbn [cm mi_item mi_after]. rewrite (flat_data _ Ft1). destruct (is_nil _); [reflexivity|].
  destruct (mvl_prefix (lit "[") _ Ft2) as (K1 & K2). cbv beta in *. rewrite K1, bind_on_ok, on_ok_bind. destruct (take_prefix (mi_after ta) (lit "[")) as [[op|]| |] eqn:Eo; cbn [bind option_map]; try reflexivity. destruct (flat_sub _ _ (proj2 (K2 _ eq_refl)) Ft2) as (Fo & _). clear K1 K2. cbn [cm mi_item mi_after]. rewrite (flat_data _ Fo), on_ok_bind. apply bind_more. intros e.
  rewrite (slice_cr _ _ _ Fo), bind_on_ok, on_ok_bind. destruct (slice (mi_after op) 0 e) as [al| |] eqn:Ea; cbn [bind]; try reflexivity. destruct (flat_sub _ _ (slice_Sub _ _ _ _ Ea) Fo) as (Fa & _). rewrite (attrlist_cr _ _ _ _ _ Fa), bind_on_ok, on_ok_bind. apply bind_more. intros a.
  pose proof (Suffix_trans _ _ _ Sm (take_norm_Suffix _ _ El)) as S2. rewrite (line_source_cr m _ L S2 Fm), bind_on_ok, on_ok_bind. apply bind_more. intros s1. rewrite !discard_empty_lines_ok. cbn [bind]. rewrite (empties_cr _ (clean_suffix _ _ C S2)). reflexivity.
Qed.
Lemma break_cr m : located D0 (md_source m) -> Suffix (md_source m) (md_start m) -> firm (md_source m) -> break_parse (cmd m) = on_ok (option_map cmb) (break_parse m).
Proof.
  intros L Sm Fm. pose proof (lc _ L) as C. unfold break_parse. change (md_start (cmd m)) with (cr (md_start m)). rewrite (norm_cr _ (clean_suffix _ _ C Sm)), bind_on_ok, on_ok_bind. destruct (take_normalized_line (md_start m)) as [li| |] eqn:El; cbn [bind]; try reflexivity. pose proof (norm_flat _ _ El) as F. cbn [cm mi_item mi_after]. rewrite (flat_data _ F). destruct (break_type_of _); [|reflexivity].
  pose proof (Suffix_trans _ _ _ Sm (take_norm_Suffix _ _ El)) as S2. rewrite (line_source_cr m _ L S2 Fm), bind_on_ok, on_ok_bind. apply bind_more. intros s1. rewrite !discard_empty_lines_ok. cbn [bind]. rewrite (empties_cr _ (clean_suffix _ _ C S2)). reflexivity.
Qed.
(** * Sections *)
Lemma count_cr mk : forall f s c, flat s -> count_marker f mk (cr s) c = on_ok (fun r => (fst r, cr (snd r))) (count_marker f mk s c) /\ forall r, count_marker f mk s c = Ok r -> flat (snd r).
Proof.
  induction f as [|f IH]; intros s c F; cbn [count_marker]; destruct (mvl_prefix mk _ F) as (K1 & K2); cbv beta in *; rewrite K1, bind_on_ok, on_ok_bind; destruct (take_prefix s mk) as [[m|]| |] eqn:Em; cbn [bind option_map]; try (split; [reflexivity|intros r K; first [discriminate K|apply Ok_inj in K; subst r; exact F]]).
  cbn [cm mi_after]. exact (IH _ _ (proj1 (flat_sub _ _ (proj2 (K2 _ eq_refl)) F))).
Qed.
Definition cr_lt (m : mitem (nat * span)) : mitem (nat * span) := mkmi (fst (mi_item m), cr (snd (mi_item m))) (cr (mi_after m)).
Lemma title_line_cr s : clean s -> parse_title_line (cr s) = on_ok (fun r => (option_map cr_lt (fst r), map cr_w (snd r))) (parse_title_line s).
Proof.
  intros C. unfold parse_title_line. rewrite (non_empty_cr s C), (norm_cr s C), !bind_on_ok, on_ok_bind. destruct (take_non_empty s) as [(l & r & n & H & Hn & N & K)|(_ & K)]; rewrite K; cbn [bind option_map]; [|reflexivity]. cbn [cm mi_item mi_after]. assert (F : flat (with_data s n)) by exact (a_line_no_lf _ _ _ _ H). rewrite (flat_data _ F).
  set (mk := if starts_with _ _ then _ else _). destruct (count_cr mk (length (sp_data (with_data s n))) _ 0 F) as (K1 & K2). rewrite K1, bind_on_ok, on_ok_bind. destruct (count_marker (length (sp_data (with_data s n))) mk (with_data s n) 0) as [c| |] eqn:Ec; cbn [bind]; try reflexivity. specialize (K2 _ eq_refl). cbn [fst snd]. destruct (fst c =? 1); [rewrite ?bind_on_ok, on_ok_bind; reflexivity|]. destruct (6 <? fst c); [rewrite ?bind_on_ok, on_ok_bind; reflexivity|].
  destruct (mvl_req _ K2) as (K3 & _). rewrite K3, bind_on_ok, on_ok_bind. apply bind_more. intros [ti|]; [|reflexivity]. cbn [option_map]. rewrite on_ok_bind. apply bind_more. intros le. reflexivity.
Qed.
Lemma title_line_flat s m w : parse_title_line s = Ok (Some m, w) -> flat (snd (mi_item m)) /\ Suffix s (mi_after m).
Proof.
  intros H. unfold parse_title_line in H. destruct (take_non_empty s) as [(l & r & n & Hl & Hn & N & K)|(_ & K)]; rewrite K in H; cbn [bind] in H; [|discriminate H]. cbn [mi_item mi_after] in H. assert (F : flat (with_data s n)) by exact (a_line_no_lf _ _ _ _ Hl). apply bind_ok in H. destruct H as (c & Ec & H). pose proof (proj2 (count_cr _ _ _ _ F) _ Ec) as Fc. destruct (fst c =? 1); [apply bind_ok in H; destruct H as (? & _ & H); discriminate H|]. destruct (6 <? fst c); [apply bind_ok in H; destruct H as (? & _ & H); discriminate H|].
  apply bind_ok in H. destruct H as (ti & Et & H). destruct ti as [ti|]; [|discriminate H]. apply bind_ok in H. destruct H as (le & El & H). apply Ok_inj in H. injection H as <- <-. cbn [mi_item snd mi_after]. split; [exact (proj1 (flat_sub _ _ (proj2 (proj2 (mvl_req _ Fc) _ Et)) Fc))|]. apply Suffix_intro. exact (a_line_app _ _ _ _ Hl).
Qed.
Definition cr_stop (f : stop_fn) : Prop := forall s n, located D0 s -> f (cr s) n = on_ok (fun r => (fst r, (fst (snd r), map cr_w (snd (snd r))))) (f s n).
Lemma never_cr : cr_stop never. Proof. intros s n _. reflexivity. Qed.
Lemma stop_cr E d l : cr_stop (section_stop E d l).
Proof.
  intros s n L. pose proof (lc _ L) as C. unfold section_stop. destruct d; [reflexivity|]. unfold peer_or_ancestor_section. rewrite (metadata_cr E s _ C), bind_on_ok, on_ok_bind. destruct (metadata_parse E s parser_default) as [[m ws]| |] eqn:Em; cbn [bind]; try reflexivity. cbn [fst snd]. rewrite discrete_cr, on_ok_bind. apply bind_more. intros di. destruct di; [reflexivity|].
  destruct (metadata_Suffix _ _ _ _ _ Em) as (S1 & S2). assert (C1 : clean (md_start m)) by (apply (clean_suffix _ _ C); eapply Suffix_trans; [|exact S2]; rewrite S1; apply discard_empty_Suffix). cbn [cmd md_start]. rewrite (title_line_cr _ C1), bind_on_ok, on_ok_bind. apply bind_more. intros r. cbn [fst snd]. destruct (fst r) as [mi|]; [|reflexivity]. cbn [option_map cr_lt mi_item fst].
  rewrite (norm_cr s C). destruct (n + 1 <? fst (mi_item mi)); [|cbn [bind on_ok]; cbn [fst snd]; rewrite !app_nil_r; reflexivity]. rewrite bind_on_ok, !bind_bind, on_ok_bind. apply bind_more. intros li. cbn [bind on_ok fst snd]. rewrite map_app. reflexivity.
Qed.
Definition cr_until (un un' : stop_fn -> nat -> span -> parser -> res bres) : Prop := forall f n s P, cr_stop f -> located D0 s -> sim simr (un' f n (cr s) P) (un f n s P).
Lemma manual_cr m : tidy m -> manual_id (cmd m) = manual_id m.
Proof.
  intros T. unfold manual_id. cbn [cmd md_attrlist md_anchor]. assert (K : option_map sp_data (option_map cr (md_anchor m)) = option_map sp_data (md_anchor m)) by (destruct (md_anchor m) as [a|] eqn:Ea; [cbn [option_map]; rewrite (flat_data a (T a Ea)); reflexivity|reflexivity]). rewrite K. destruct (md_attrlist m); reflexivity.
Qed.
Lemma reftext_cr m t : section_reftext (cmd m) t = section_reftext m t.
Proof. unfold section_reftext. cbn [cmd md_attrlist]. destruct (md_attrlist m); reflexivity. Qed.
Lemma register_cr b i ba r a P : section_register b i ba r (on_ok cr a) P = on_ok (fun x => (fst x, (fst (snd x), map cr_w (snd (snd x))))) (section_register b i ba r a P).
Proof.
  unfold section_register. destruct (p_catalog P); [|reflexivity]. destruct i.
  - destruct (fst _); [reflexivity|]. rewrite bind_on_ok, on_ok_bind. reflexivity.
  - destruct b; [|reflexivity]. rewrite on_ok_bind. reflexivity.
Qed.
Lemma section_cr E un un' m P : cr_until un un' -> good_until D0 un -> tidy m -> located D0 (md_source m) -> Suffix (md_source m) (md_start m) ->
  sim (fun r' r => opt simb (fst r') (fst r) /\ fst (snd r') = map cr_w (fst (snd r)) /\ snd (snd r') = snd (snd r)) (section_parse E un' (cmd m) P) (section_parse E un m P).
Proof.
  intros Hu G T L Sm. pose proof (lc _ L) as C. pose proof (clean_suffix _ _ C Sm) as C1. unfold section_parse. rewrite discrete_cr, (manual_cr m T). cbn [cmd md_start md_attrlist md_source]. apply sim_same. intros di _. rewrite !discard_empty_lines_ok. cbn [bind]. rewrite (empties_cr _ C1). pose proof (discard_empty_Suffix (md_start m)) as S0. set (q := p_discard_empty_lines (md_start m)) in *. pose proof (clean_suffix _ _ C1 S0) as Cq.
  eapply sim_map; [exact (title_line_cr _ Cq)|]. intros [lt lw] El. cbn [fst snd]. destruct lt as [lt|]; cbn [option_map]; [|cbn; auto]. destruct (title_line_flat _ _ _ El) as (Ft & S1). cbn [cr_lt mi_item mi_after fst snd]. rewrite style_cr. apply sim_same. intros bs _. cbv zeta. pose proof (Suffix_trans _ _ _ Sm (Suffix_trans _ _ _ S0 S1)) as S2. pose proof (located_Suffix _ _ _ L S2) as L2.
  apply (sim_bind simr); [exact (Hu _ _ _ _ (stop_cr E _ _) L2)|]. intros b' b _ Eb (B1 & B2 & B3 & B4 & B5 & B6). rewrite B2, B6. pose proof (Suffix_trans _ _ _ S2 (proj1 (G _ _ _ _ _ L2 Eb))) as S3. apply (sim_map cr); [exact (remainder_cr _ _ (proj2 C) S3)|]. intros s1 _. rewrite subs_cr, (flat_data _ Ft). apply sim_same. intros ti _. apply sim_same. intros ba _. apply sim_same. intros ma _.
  match goal with |- context [section_reftext ?x ti] => change (section_reftext x ti) with (section_reftext (cmd m) ti) end. rewrite reftext_cr, (remainder_cr _ _ (proj2 C) S2). eapply sim_map; [exact (register_cr _ _ _ _ _ _)|]. intros re _. cbn [fst snd]. apply (sim_map cr); [exact (trim_white_cr _)|]. intros s2 _. cbn [sim fst snd opt]. split; [split; [cbn [mi_item hush cr_block]; rewrite B1; reflexivity|split; [reflexivity|exact T]]|]. split; [|reflexivity]. rewrite B5, B3, !map_app. reflexivity.
Qed.
(** * Any block *)
Definition simp (r' r : pres) : Prop := opt simb (pr_item r') (pr_item r) /\ pr_warnings r' = map cr_w (pr_warnings r) /\ pr_parser r' = pr_parser r.
Lemma common_hush b : block_common (hush b) = block_common b. Proof. destruct b; reflexivity. Qed.
Lemma span_hush b : block_span (hush b) = block_span b. Proof. destruct b; reflexivity. Qed.
Lemma common_crb b : block_common (cr_block b) = cr_cm (block_common b). Proof. destruct b; reflexivity. Qed.
Lemma span_crb b : block_span (cr_block b) = cr (block_span b). Proof. destruct b; reflexivity. Qed.
Lemma id_hush b : block_id (hush b) = block_id b. Proof. unfold block_id. rewrite common_hush. apply bind_more. intros o. destruct b; reflexivity. Qed.
Lemma id_crb b : (forall a, cm_anchor (block_common b) = Some a -> flat a) -> block_id (cr_block b) = block_id b.
Proof.
  intros T. unfold block_id. rewrite common_crb. assert (K : common_id (cr_cm (block_common b)) = common_id (block_common b)).
  { unfold common_id. cbn [cr_cm cm_anchor cm_attrlist]. destruct (cm_anchor (block_common b)) as [a|]; cbn [option_map]; [rewrite (flat_data a (T a eq_refl)); reflexivity|]. destruct (cm_attrlist _); reflexivity. }
  rewrite K. apply bind_more. intros o. destruct b; reflexivity.
Qed.
Lemma finish_cr mi' mi ws P : simb mi' mi -> sim simp (finish mi' (map cr_w ws) P) (finish mi ws P).
Proof.
  intros (H1 & H2 & H3). unfold finish. rewrite <- (id_hush (mi_item mi')), <- (common_hush (mi_item mi')), <- (span_hush (mi_item mi')), H1, (id_crb _ H3), common_crb, span_crb. cbn [cr_cm cm_title]. apply sim_same. intros i _. cbn [sim]. assert (K : forall t s, register_block_id i t (cr s) P = (fst (register_block_id i t s P), map cr_w (snd (register_block_id i t s P)))).
  { intros t s. unfold register_block_id. destruct i; [|reflexivity]. destruct (p_catalog P); [|reflexivity]. cbn [fst snd]. destruct (fst _); reflexivity. }
  rewrite K. split; [cbn; split; [exact H1|split; [exact H2|exact H3]]|]. cbn [pr_warnings pr_parser fst snd]. rewrite map_app. split; reflexivity.
Qed.
Lemma cmb_simb mi : hush (cr_block (mi_item mi)) = cr_block (mi_item mi) -> (forall a, cm_anchor (block_common (mi_item mi)) = Some a -> flat a) -> simb (cmb mi) mi.
Proof. intros H1 H2. split; [exact H1|]. split; [reflexivity|exact H2]. Qed.
Lemma simple_result E m P mi : simple_parse E m P = Ok (Some mi) -> tidy m -> simb (cmb mi) mi.
Proof.
  intros H T. unfold simple_parse in H. apply bind_ok in H. destruct H as (o & _ & H). destruct o; [|discriminate H]. apply bind_ok in H. destruct H as (? & _ & H). apply bind_ok in H. destruct H as (? & _ & H). apply bind_ok in H. destruct H as (? & _ & H). apply Ok_inj in H. injection H as <-. apply cmb_simb; [reflexivity|exact T].
Qed.
Lemma last_cr E m ws P : tidy m -> located D0 (md_source m) -> Suffix (md_source m) (md_start m) -> sim simp (last_resort E (cmd m) (map cr_w ws) P) (last_resort E m ws P).
Proof.
  intros T L Sm. unfold last_resort. eapply sim_map; [exact (simple_cr E m P (lc _ L) Sm)|]. intros [mi|] Em; cbn [option_map]; [exact (finish_cr _ _ _ _ (simple_result _ _ _ _ Em T))|]. split; [exact I|split; reflexivity].
Qed.
Lemma is_some_map {A B} (f : A -> B) o : is_some (option_map f o) = is_some o. Proof. destruct o; reflexivity. Qed.
Lemma no_block_cr E m ws P : tidy m -> located D0 (md_source m) -> Suffix (md_source m) (md_start m) -> sim simp (no_block E (cmd m) (map cr_w ws) P) (no_block E m ws P).
Proof.
  intros T L Sm. unfold no_block. eapply sim_map; [exact (simple_cr E m P (lc _ L) Sm)|]. intros o _. rewrite is_some_map. replace (md_is_empty (cmd m)) with (md_is_empty m) by (unfold md_is_empty; cbn [cmd md_title md_attrlist]; rewrite is_some_map; reflexivity). destruct (_ && _); [|exact (last_cr _ _ _ _ T L Sm)].
  change (orphan_metadata (cmd m)) with (cmd (orphan_metadata m)). change [mkwarn (md_source (cmd m)) WMissingBlockAfterTitleOrAttributeList] with (map cr_w [mkwarn (md_source m) WMissingBlockAfterTitleOrAttributeList]). rewrite <- map_app. apply last_cr; [intros a K; discriminate K|exact L|apply Suffix_refl].
Qed.
Lemma firm_line cs s m : take_normalized_line s = Ok m -> starts_with_any cs (sp_data (mi_item m)) = true -> existsb is_ws cs = false -> firm s.
Proof.
  intros H K Hc. destruct (take_norm s) as (l & r & n & Hl & E). rewrite H in E. apply Ok_inj in E. subst m. cbn [mi_item sp_data with_data] in K. destruct n as [|c n]; [discriminate K|]. cbn [starts_with_any] in K. destruct (a_line_head _ _ _ _ _ Hl) as (y & D). unfold firm. rewrite D. destruct (is_ws c) eqn:W; [|reflexivity]. exfalso. apply has_char_spec in K. assert (existsb is_ws cs = true) by (apply existsb_exists; exists c; auto). congruence.
Qed.
Lemma try_break_cr E m ws P li : tidy m -> lead m -> located D0 (md_source m) -> Suffix (md_source m) (md_start m) -> take_normalized_line (md_start m) = Ok li -> sim simp (try_break E (cmd m) (sp_data (mi_item li)) (map cr_w ws) P) (try_break E m (sp_data (mi_item li)) ws P).
Proof.
  intros T Le L Sm El. unfold try_break. destruct (starts_with_any _ _) eqn:K; [|exact (no_block_cr _ _ _ _ T L Sm)]. pose proof (firm_source _ Le (firm_line _ _ _ El K eq_refl)) as F. eapply sim_map; [exact (break_cr m L Sm F)|]. intros [mi|] Em; cbn [option_map]; [|exact (no_block_cr _ _ _ _ T L Sm)]. split; [|split; reflexivity]. cbn [opt pr_item].
  unfold break_parse in Em. apply bind_ok in Em. destruct Em as (? & _ & Em). destruct (break_type_of _); [|discriminate Em]. apply bind_ok in Em. destruct Em as (? & _ & Em). apply bind_ok in Em. destruct Em as (? & _ & Em). apply Ok_inj in Em. injection Em as <-. apply cmb_simb; [reflexivity|exact T].
Qed.
Lemma try_section_cr E un un' m ws P li : cr_until un un' -> good_until D0 un -> tidy m -> lead m -> located D0 (md_source m) -> Suffix (md_source m) (md_start m) -> take_normalized_line (md_start m) = Ok li -> sim simp (try_section E un' (cmd m) (sp_data (mi_item li)) (map cr_w ws) P) (try_section E un m (sp_data (mi_item li)) ws P).
Proof.
  intros Hu G T Le L Sm El. unfold try_section.
  apply (sim_bind (fun r' r => opt simb (fst r') (fst r) /\ fst (snd r') = map cr_w (fst (snd r)) /\ snd (snd r') = snd (snd r))); [destruct (starts_with_any _ _); [exact (section_cr E _ _ _ _ Hu G T L Sm)|cbn; auto]|].
  intros r' r _ _ (R1 & R2 & R3). cbv zeta. rewrite R2, R3, <- map_app. destruct (fst r') as [mi'|], (fst r) as [mi|]; cbn [opt] in R1; try contradiction; [split; [exact R1|split; reflexivity]|]. exact (try_break_cr _ _ _ _ _ T Le L Sm El).
Qed.
Lemma try_media_cr E un un' m ws P li : cr_until un un' -> good_until D0 un -> tidy m -> lead m -> located D0 (md_source m) -> Suffix (md_source m) (md_start m) -> take_normalized_line (md_start m) = Ok li -> sim simp (try_media E un' (cmd m) (sp_data (mi_item li)) (map cr_w ws) P) (try_media E un m (sp_data (mi_item li)) ws P).
Proof.
  intros Hu G T Le L Sm El. unfold try_media. destruct (_ || _) eqn:K; [|exact (try_section_cr _ _ _ _ _ _ _ Hu G T Le L Sm El)].
  assert (F : firm (md_source m)). { apply (firm_source _ Le). apply (firm_line (lit "iv") _ _ El); [|reflexivity]. apply Bool.orb_true_iff in K. destruct K as [K|K]; [apply Bool.orb_true_iff in K; destruct K as [K|K]|]; apply starts_with_spec in K; destruct K as (y & ->); reflexivity. }
  eapply sim_map; [exact (media_cr E m P L Sm F)|]. intros [o w] Em. cbn [fst snd]. destruct o as [mi|]; cbn [option_map]; [|exact (try_section_cr _ _ _ _ _ _ _ Hu G T Le L Sm El)]. rewrite <- map_app. apply finish_cr.
  unfold media_parse in Em. apply bind_ok in Em. destruct Em as (? & _ & Em). destruct (negb _); [discriminate Em|]. apply bind_ok in Em. destruct Em as (na & _ & Em). destruct na; [|discriminate Em]. destruct (media_type_of _); [|discriminate Em]. apply bind_ok in Em. destruct Em as (co & _ & Em). destruct co; [|discriminate Em]. apply bind_ok in Em. destruct Em as (? & _ & Em). destruct (is_nil _); [discriminate Em|]. apply bind_ok in Em. destruct Em as (op & _ & Em). destruct op; [|discriminate Em]. repeat (apply bind_ok in Em; destruct Em as (? & _ & Em)). apply Ok_inj in Em. injection Em as <- _. apply cmb_simb; [reflexivity|exact T].
Qed.
Lemma with_metadata_cr E un un' m ws P : bears_crlf E -> cr_until un un' -> good_until D0 un -> tidy m -> lead m -> located D0 (md_source m) -> Suffix (md_source m) (md_start m) -> sim simp (with_metadata E un' (cmd m) (map cr_w ws) P) (with_metadata E un m ws P).
Proof.
  intros B Hu G T Le L Sm. unfold with_metadata. change (md_attrlist (cmd m)) with (option_map cr_al (md_attrlist m)). rewrite style_cr. apply sim_same. intros bs _. destruct (style_is _ _); [exact (last_cr _ _ _ _ T L Sm)|]. eapply sim_bind; [exact (raw_cr E m P B T (lc _ L) Sm)|]. intros o' o _ _ R. destruct o' as [r'|], o as [r|]; cbn [opt] in R; try contradiction; [destruct R as (R1 & ->); rewrite <- map_app; exact (finish_cr _ _ _ _ R1)|].
  eapply sim_bind; [exact (compound_cr (un never 0) (un' never 0) m P (fun s Q => Hu never 0 s Q never_cr) T L Sm)|]. clear R. intros o' o _ _ R. destruct o' as [r'|], o as [r|]; cbn [opt] in R; try contradiction; [destruct R as (R1 & -> & ->); rewrite <- map_app; exact (finish_cr _ _ _ _ R1)|].
  change (md_start (cmd m)) with (cr (md_start m)). eapply sim_map; [exact (norm_cr _ (clean_suffix _ _ (lc _ L) Sm))|]. intros li El. cbn [cm mi_item]. rewrite (flat_data _ (norm_flat _ _ El)). exact (try_media_cr _ _ _ _ _ _ _ Hu G T Le L Sm El).
Qed.

(** What is read before a block. *)
Lemma firm_of c s y : sp_data s = c :: y -> is_ws c = false -> firm s. Proof. intros D H. unfold firm. rewrite D. exact H. Qed.
Lemma firm_starts p c s : starts_with (c :: p) (sp_data s) = true -> is_ws c = false -> firm s.
Proof. intros H W. apply starts_with_spec in H. destruct H as (y & D). exact (firm_of c s _ D W). Qed.
Lemma title_step_lead m m1 : md_title_step m = Ok (Some m1) -> firm (ms_start m).
Proof.
  unfold md_title_step. destruct (ms_title m); [discriminate|]. intros H. apply bind_ok in H. destruct H as (mt & Em & H). destruct (_ && _) eqn:K; [|discriminate H]. apply Bool.andb_true_iff in K. destruct K as (K & _). apply (firm_line (lit ".") _ _ Em); [|reflexivity]. apply starts_with_spec in K. destruct K as (y & ->). reflexivity.
Qed.
Lemma anchor_step_lead U m m1 b : md_anchor_step U m = Ok (m1, b) -> (ms_start m1 = ms_start m \/ firm (ms_start m)) /\ forall a, ms_anchor m1 = Some a -> ms_anchor m = Some a \/ flat a.
Proof.
  unfold md_anchor_step. destruct (ms_anchor m) eqn:Ea; [intros H; apply Ok_inj in H; injection H as <- _; split; [auto|intros a K; left; congruence]|]. intros H. apply bind_ok in H. destruct H as ([o w] & El & H). cbn [fst snd] in *. destruct o as [mi|]; [|apply Ok_inj in H; injection H as <- _; cbn [ms_start ms_anchor]; split; [auto|discriminate]].
  assert (F : firm (ms_start m)). { unfold parse_maybe_block_anchor in El. destruct (starts_with (lit "[[") _) eqn:K; [|discriminate El]. exact (firm_starts _ _ _ K eq_refl). }
  pose proof (anchor_line_flat _ _ _ El) as Fm. split; [right; exact F|]. intros a Ha. right. apply bind_ok in H. destruct H as (m2 & E2 & H). apply Ok_inj in H. injection H as <- _.
  destruct (position _ _); [|apply Ok_inj in E2; subst m2; destruct (is_xml_name _ _); [injection Ha as <-; exact Fm|discriminate Ha]]. apply bind_ok in E2. destruct E2 as (la & _ & E2). destruct (_ <? _); [|apply Ok_inj in E2; subst m2; destruct (is_xml_name _ _); [injection Ha as <-; exact Fm|discriminate Ha]].
  apply bind_ok in E2. destruct E2 as (x & Ex & E2). apply bind_ok in E2. destruct E2 as (y & _ & E2). apply Ok_inj in E2; subst m2; destruct (is_xml_name _ _); [injection Ha as <-|discriminate Ha]. exact (proj1 (flat_sub _ _ (slice_to_Sub _ _ _ Ex) Fm)).
Qed.
Lemma list_step_lead E P m m1 b : md_attrlist_step E P m = Ok (m1, b) -> (ms_start m1 = ms_start m \/ firm (ms_start m)) /\ ms_anchor m1 = ms_anchor m.
Proof.
  unfold md_attrlist_step. destruct (ms_attrlist m); [intros H; apply Ok_inj in H; injection H as <- _; auto|]. intros H. apply bind_ok in H. destruct H as (o & El & H). apply Ok_inj in H. destruct o as [aw|]; injection H as <- _; cbn [ms_start ms_anchor]; [|auto]. split; [right|reflexivity]. unfold parse_maybe_attrlist_line in El. destruct (starts_with (lit "[") _) eqn:K; [|discriminate El]. exact (firm_starts _ _ _ K eq_refl).
Qed.
Lemma loop_lead E P : forall fuel m m', md_loop E P fuel m = Ok m' -> (ms_start m' = ms_start m \/ firm (ms_start m)) /\ forall a, ms_anchor m' = Some a -> ms_anchor m = Some a \/ flat a.
Proof.
  induction fuel as [|fuel IH]; intros m m' H; cbn [md_loop] in H; [discriminate|]. apply bind_ok in H. destruct H as (o & E1 & H). destruct o as [m1|].
  - split; [right; exact (title_step_lead _ _ E1)|]. intros a Ha. destruct (proj2 (IH _ _ H) a Ha) as [K|K]; [left|right; exact K]. unfold md_title_step in E1. destruct (ms_title m); [discriminate E1|]. apply bind_ok in E1. destruct E1 as (mt & Em & E1). destruct (_ && _); [|discriminate E1]. apply bind_ok in E1. destruct E1 as (ti & Ed & E1). apply bind_ok in E1. destruct E1 as (w & _ & E1). destruct (is_nil _); [|discriminate E1]. injection E1 as <-. exact K.
  - apply bind_ok in H. destruct H as ([m2 b2] & E2 & H). cbn [fst snd] in H. destruct (anchor_step_lead _ _ _ _ E2) as (A1 & A2).
    assert (N : forall m3, (ms_start m3 = ms_start m2 \/ firm (ms_start m2)) /\ (forall a, ms_anchor m3 = Some a -> ms_anchor m2 = Some a \/ flat a) -> (ms_start m3 = ms_start m \/ firm (ms_start m)) /\ forall a, ms_anchor m3 = Some a -> ms_anchor m = Some a \/ flat a).
    { intros m3 (N1 & N2). split; [destruct A1 as [A1|A1]; [rewrite <- A1; exact N1|right; exact A1]|]. intros a Ha. destruct (N2 a Ha) as [K|K]; [exact (A2 a K)|right; exact K]. }
    destruct b2; [exact (N _ (IH _ _ H))|]. apply bind_ok in H. destruct H as ([m3 b3] & E3 & H). cbn [fst snd] in H. destruct (list_step_lead _ _ _ _ _ E3) as (L1 & L2). apply N. destruct b3; [|apply Ok_inj in H; subst m'; split; [exact L1|intros a Ha; left; congruence]].
    destruct (IH _ _ H) as (I1 & I2). split; [destruct L1 as [L1|L1]; [rewrite <- L1; exact I1|right; exact L1]|]. intros a Ha. destruct (I2 a Ha) as [K|K]; [left; congruence|right; exact K].
Qed.
Lemma metadata_lead E s P m ws : metadata_parse E s P = Ok (m, ws) -> lead m /\ tidy m.
Proof.
  unfold metadata_parse. rewrite discard_empty_lines_ok. cbn [bind]. intros H. apply bind_ok in H. destruct H as (x & Ex & H). apply bind_ok in H. destruct H as (t & _ & H). apply Ok_inj in H. injection H as <- _. destruct (loop_lead _ _ _ _ _ Ex) as (A & B). cbn [ms_start ms_anchor] in *. split; [exact A|]. intros a Ha. destruct (B a Ha) as [K|K]; [discriminate K|exact K].
Qed.
Lemma name_flat s m : take_user_attr_name s = Ok (Some m) -> SubM s m /\ flat (mi_item m).
Proof.
  intros H. unfold take_user_attr_name in H. rewrite take_name_ok in H. apply Ok_inj in H. split; [exact (p_take_name_Sub _ _ _ _ H)|]. unfold p_take_name in H. destruct (sp_data s) as [|c r] eqn:D; [discriminate H|]. destruct (_ || _) eqn:Hc; [|discriminate H]. destruct (span_while _ r) as [a b] eqn:Es. injection H as <-. cbn [psplit mi_item]. unfold flat. cbn [sp_data with_data].
  intros [->|K]; [discriminate Hc|]. exact (while_prefix _ _ _ _ Es eq_refl K).
Qed.
Lemma entry_inv hdr s P m : attribute_parse hdr s P = Ok (Some m) -> flat (at_name (mi_item m)) /\ Suffix s (mi_after m) /\ exists l, take_line_with_continuation s = Ok (Some l) /\ forall v, at_value_source (mi_item m) = Some v -> Sub (mi_item l) v.
Proof.
  unfold attribute_parse. intros H. apply bind_ok in H. destruct H as (o & Eo & H). destruct o as [l|]; [|discriminate H]. pose proof (continued_sub _ _ Eo) as (_ & Sl). apply bind_ok in H. destruct H as (o & Ec & H). destruct o as [c|]; [|discriminate H]. apply bind_ok in H. destruct H as (li & El & H). apply bind_ok in H. destruct H as (o & En & H). destruct o as [na|]; [|discriminate H]. destruct (name_flat _ _ En) as (Sn & Fn). apply bind_ok in H. destruct H as (l2 & El2 & H). apply bind_ok in H. destruct H as (o & Ep & H). destruct o as [l3|]; [|discriminate H].
  apply bind_ok in H. destruct H as (v & Ev & H). apply bind_ok in H. destruct H as (s1 & _ & H). apply bind_ok in H. destruct H as (s2 & _ & H). apply Ok_inj in H. injection H as <-. cbn [mi_item at_name mi_after at_value_source]. split; [exact Fn|]. split; [exact Sl|]. exists l. split; [exact Eo|]. intros w Hw.
  assert (P1 : forall x p y, take_prefix x p = Ok (Some y) -> Sub x (mi_after y)). { intros x p y K. rewrite take_prefix_ok in K. apply Ok_inj in K. unfold p_take_prefix in K. destruct (starts_with p (sp_data x)) eqn:Ks; [|discriminate K]. injection K as <-. apply starts_with_spec in Ks. destruct Ks as (r & D). cbn [psplit mi_after]. rewrite D, skipn_app, skipn_all, Nat.sub_diag. cbn [skipn app]. apply (Sub_intro x p r []). rewrite app_nil_r. exact D. }
  assert (P2 : forall (b : bool) x y, (if b then slice_from x 1 else Ok x) = Ok y -> Sub x y) by (intros [] x y K; [exact (slice_from_Sub _ _ _ K)|apply Ok_inj in K; subst y; apply Sub_refl]).
  destruct (_ || _); [apply Ok_inj in Ev; subst v; discriminate Hw|]. destruct (match sp_data _ with [] => true | _ => false end); [apply Ok_inj in Ev; subst v; discriminate Hw|]. apply bind_ok in Ev. destruct Ev as (raw & Er & Ev). apply bind_ok in Ev. destruct Ev as (va & _ & Ev). apply Ok_inj in Ev. subst v. injection Hw as <-.
  unfold take_whitespace in Er. rewrite take_while_ok in Er. apply Ok_inj in Er. subst raw. eapply Sub_trans; [exact (P1 _ _ _ Ec)|]. eapply Sub_trans; [exact (P2 _ _ _ El)|]. eapply Sub_trans; [exact (proj2 Sn)|]. eapply Sub_trans; [exact (P2 _ _ _ El2)|]. eapply Sub_trans; [exact (P1 _ _ _ Ep)|]. exact (proj2 (p_take_while_Sub _ _)).
Qed.
Lemma continued_one s l : ~ In BSL (sp_data s) -> take_line_with_continuation s = Ok (Some l) -> flat (mi_item l) /\ exists x e r, sp_data s = x ++ e ++ r /\ ~ In LF x /\ eol e r /\ mi_after l = skip s (x ++ e) r.
Proof.
  intros B H. rewrite take_line_with_continuation_ok in H. apply Ok_inj in H. unfold p_take_line_with_continuation in H. cbv zeta in H.
  assert (K : forall f, p_continuation_go f s = s).
  { intros f. assert (E : ends_with [BSL] (sp_data (mi_item (p_take_normalized_line s))) = false).
    { destruct (take_norm s) as (x & r & n & Hl & E). rewrite take_normalized_line_ok in E. apply Ok_inj in E. rewrite E. cbn [mi_item with_data sp_data]. destruct (ends_with [BSL] n) eqn:Kn; [|reflexivity]. exfalso. apply B. apply ends_with_spec in Kn. destruct Kn as (y & ->). destruct (a_line_prefix _ _ _ _ Hl) as (w & Ew). rewrite (a_line_app _ _ _ _ Hl), Ew. rewrite <- !app_assoc. apply in_or_app. right. left. reflexivity. }
    destruct f; cbn [p_continuation_go]; rewrite E; reflexivity. }
  rewrite K in H. destruct (first_line (sp_data s)) as (x & e & r & D & Hx & He). rewrite (p_take_line_eq s x e r Hx He D) in H. cbn [mi_after] in H. rewrite sp_data_skip in H.
  assert (F1 : firstn (length (sp_data s) - length r) (sp_data s) = x ++ e) by (rewrite D, app_assoc, app_length; replace (length (x ++ e) + length r - length r) with (length (x ++ e)) by lia; rewrite firstn_app, firstn_all, Nat.sub_diag; cbn [firstn]; apply app_nil_r).
  rewrite F1 in H. change (match strip_suffix_c LF (x ++ e) with Some y => y | None => x ++ e end) with (strip_c LF (x ++ e)) in H. change (match strip_suffix_c CR (strip_c LF (x ++ e)) with Some y => y | None => strip_c LF (x ++ e) end) with (strip_c CR (strip_c LF (x ++ e))) in H.
  assert (I : forall c y w, In w (strip_c c y) -> In w y). { intros c y w. induction y as [|z y _] using rev_ind; [intros Kw; exact Kw|]. rewrite strip_c_snoc. destruct (z =? c)%N; [intros Kw; apply in_or_app; left; exact Kw|intros Kw; exact Kw]. }
  assert (Fl : ~ In LF (strip_c LF (x ++ e))). { destruct He as [->|[-> ->]]; [rewrite strip_c_snoc, N.eqb_refl; exact Hx|rewrite app_nil_r; intros Kw; exact (Hx (I _ _ _ Kw))]. }
  destruct (trim_end_by (N.eqb SP) (strip_c CR (strip_c LF (x ++ e)))) as [|d0 d] eqn:Ed; [discriminate H|]. injection H as <-. split; [|exists x, e, r; auto]. unfold flat. cbn [mi_item with_data sp_data]. intros Kw. apply Fl. apply (I CR). rewrite <- Ed in Kw. destruct (trim_end_by_app (N.eqb SP) (strip_c CR (strip_c LF (x ++ e)))) as (w & Ew & _). rewrite Ew. apply in_or_app. left. exact Kw.
Qed.
Lemma continued_flat s l : ~ In BSL (sp_data s) -> take_line_with_continuation s = Ok (Some l) -> flat (mi_item l).
Proof. intros B H. exact (proj1 (continued_one _ _ B H)). Qed.
Lemma body_cr U P a : flat (at_name a) -> set_attribute_from_body U P (cr_at a) = (fst (set_attribute_from_body U P a), map cr_w (snd (set_attribute_from_body U P a))).
Proof. intros F. unfold set_attribute_from_body. cbn [cr_at at_name at_value at_source]. rewrite (flat_data _ F). cbv zeta. set (b := match mget _ (p_attrs P) with Some _ => _ | None => _ end). destruct b; reflexivity. Qed.
Lemma line_flat s m : take_line s = Ok m -> flat (mi_item m).
Proof. rewrite take_line_ok. intros H. apply Ok_inj in H. subst m. destruct (first_line (sp_data s)) as (x & e & r & D & Hx & He). rewrite (p_take_line_eq s x e r Hx He D). unfold flat. cbn [mi_item with_data sp_data]. intros K. apply Hx. unfold strip_cr in K. destruct (strip_suffix_c CR x) eqn:E; [|exact K]. unfold strip_suffix_c in E. destruct (rev x) as [|c0 y] eqn:R; [discriminate E|]. destruct (c0 =? CR)%N; [|discriminate E]. injection E as <-. apply in_rev. rewrite R. right. apply in_rev. exact K. Qed.
Lemma block_cr E un un' s P : bears_crlf E -> cr_until un un' -> good_until D0 un -> located D0 s -> sim simp (block_parse_with E un' (cr s) P) (block_parse_with E un s P).
Proof.
  intros B Hu G L. pose proof (lc _ L) as C. unfold block_parse_with. eapply sim_map; [exact (line_of s C)|]. intros fl Ef. cbn [cm mi_item]. pose proof (line_flat _ _ Ef) as Ff.
  assert (Tf : try_fast (cr s) (cr (mi_item fl)) = try_fast s (mi_item fl)). { unfold try_fast. rewrite data_cr, (flat_data _ Ff). destruct (sp_data s) as [|c r] eqn:D; [reflexivity|]. cbn [crlf]. destruct (N.eqb_spec c LF) as [->|_]; reflexivity. }
  rewrite Tf. eapply (sim_map (option_map cmb)); [destruct (try_fast s (mi_item fl)); [exact (fast_cr E s P C)|reflexivity]|]. intros [mi|] Em; cbn [option_map].
  { change (@nil warning) with (map cr_w []) at 1. apply finish_cr. destruct (try_fast s (mi_item fl)); [|discriminate Em]. unfold simple_parse_fast in Em. apply bind_ok in Em. destruct Em as (o & _ & Em). destruct o; [|discriminate Em]. apply bind_ok in Em. destruct Em as (? & _ & Em). apply Ok_inj in Em. injection Em as <-. apply cmb_simb; [reflexivity|intros a K; discriminate K]. }
  assert (Te : try_entry (cr (mi_item fl)) = try_entry (mi_item fl)) by (unfold try_entry; rewrite (flat_data _ Ff); reflexivity). rewrite Te.
  eapply (sim_map (option_map (cm cr_at))); [destruct (try_entry (mi_item fl)); [exact (entry_cr _ s P C)|reflexivity]|]. intros [at_|] Ea; cbn [option_map].
  { destruct (try_entry (mi_item fl)); [|discriminate Ea]. destruct (entry_inv _ _ _ _ Ea) as (Fa & _). cbn [cm mi_item mi_after]. rewrite (body_cr _ _ _ Fa). cbn [fst snd]. split; [|split; reflexivity]. cbn [opt pr_item]. split; [reflexivity|]. split; [reflexivity|]. intros a K. discriminate K. }
  eapply sim_map; [exact (metadata_cr E s P C)|]. intros [m ws] Emd. cbn [fst snd]. destruct (metadata_Suffix _ _ _ _ _ Emd) as (S1 & S2). destruct (metadata_lead _ _ _ _ _ Emd) as (Le & T). apply with_metadata_cr; auto. rewrite S1. exact (located_Suffix _ _ _ L (discard_empty_Suffix s)).
Qed.
(** * Blocks one after another *)
Lemma loop_cr E (B : bears_crlf E) : forall fuel f n s P, cr_stop f -> located D0 s -> sim simr (blocks_loop E fuel f n (cr s) P) (blocks_loop E fuel f n s P).
Proof.
  induction fuel as [|fuel IH]; intros f n s P Hf L; cbn [blocks_loop]; rewrite data_cr; (destruct (sp_data s) as [|c t] eqn:D; [cbn [crlf]; unfold simr; cbn; auto 10|]); (destruct (crlf (c :: t)) eqn:Dc; [apply crlf_nil in Dc; discriminate Dc|]); [exact I|].
  eapply sim_map; [exact (Hf s n L)|]. intros st _. cbn [fst snd]. destruct (fst st); [unfold simr; cbn; auto 10|].
  assert (Hu : cr_until (fun stop level source P => src <- discard_empty_lines source ;; blocks_loop E fuel stop level src P) (fun stop level source P => src <- discard_empty_lines source ;; blocks_loop E fuel stop level src P)).
  { intros f1 n1 s1 P1 Hf1 L1. rewrite !discard_empty_lines_ok. cbn [bind]. rewrite (empties_cr _ (lc _ L1)). apply (IH _ _ _ _ Hf1). exact (located_Suffix _ _ _ L1 (discard_empty_Suffix s1)). }
  pose proof (until_ok D0 E fuel) as G. eapply sim_bind; [exact (block_cr E _ _ s P B Hu G L)|]. intros r' r _ Er (R1 & R2 & R3). cbv zeta. rewrite R3.
  assert (Ha : match pr_item r' with Some mi => mi_after mi | None => cr s end = cr match pr_item r with Some mi => mi_after mi | None => s end) by (destruct (pr_item r'), (pr_item r); cbn [opt] in R1; try contradiction; [exact (proj1 (proj2 R1))|reflexivity]). rewrite Ha.
  assert (La : located D0 match pr_item r with Some mi => mi_after mi | None => s end) by (destruct (pr_item r) as [mi|] eqn:Ei; [exact (located_Suffix _ _ _ L (proj1 (block_ok D0 E _ s P r mi G L Er Ei)))|exact L]).
  apply (sim_bind simr); [exact (IH _ _ _ _ Hf La)|]. intros b' b _ _ (B1 & B2 & B3 & B4 & B5 & B6). unfold simr. cbn [sim br_blocks br_after br_warnings br_level br_stop_warnings br_parser]. rewrite B2, B3, B4, B5, B6, R2, !map_app. repeat split; try reflexivity.
  destruct (pr_item r'), (pr_item r); cbn [opt] in R1; try contradiction; [|exact B1]. cbn [map]. rewrite B1, (proj1 R1). reflexivity.
Qed.
Lemma until_cr E fuel : bears_crlf E -> cr_until (parse_blocks_until E fuel) (parse_blocks_until E fuel).
Proof.
  intros B f n s P Hf L. unfold parse_blocks_until. rewrite !discard_empty_lines_ok. cbn [bind]. rewrite (empties_cr _ (lc _ L)). apply (loop_cr E B _ _ _ _ _ Hf). exact (located_Suffix _ _ _ L (discard_empty_Suffix s)).
Qed.
(** * The preamble *)
Lemma same_line a b : located D0 a -> located D0 b -> sp_off a = sp_off b -> sp_line a = sp_line b.
Proof.
  intros (x & y & Dx & Lx & _ & Ox) (u & v & Du & Lu & _ & Ou) K. unfold spec_offset in *. rewrite blen_utf8 in Ox, Ou. unfold spec_line in *. rewrite Lx, Lu. f_equal. f_equal.
  destruct (prefix_cut x (sp_data a ++ y) u (sp_data b ++ v)) as (m & Em & _); [congruence|lia|]. apply (f_equal blen) in Em as Eb. rewrite blen_app in Eb. assert (m = []) by (destruct m as [|c m]; [reflexivity|cbn [blen] in Eb; pose proof (clen_pos c); lia]). subst m. rewrite app_nil_r in Em. symmetry. exact Em.
Qed.
Lemma split_hush : forall l i b, preamble_split i b (map hush l) = preamble_split i b l.
Proof. induction l as [|x l IH]; intros i b; [reflexivity|]. destruct x; cbn [map hush preamble_split]; auto. Qed.
Lemma split_crb : forall l i b, preamble_split i b (map cr_block l) = preamble_split i b l.
Proof. induction l as [|x l IH]; intros i b; [reflexivity|]. destruct x; cbn [map cr_block preamble_split]; auto. Qed.
Lemma preamble_cr bs' bs ah z : map hush bs' = map cr_block bs -> Suffix (span_new D0) ah -> tree D0 (sp_off ah) bs z ->
  sim (fun x y => map hush x = map cr_block y) (make_preamble bs' (cr ah)) (make_preamble bs ah).
Proof.
  intros Hb S T. unfold make_preamble. assert (Ks : preamble_split 0 false bs' = preamble_split 0 false bs) by (rewrite <- split_hush, Hb; apply split_crb). rewrite Ks. destruct (preamble_split 0 false bs) as [i|]; [|exact Hb].
  pose proof (located_Suffix _ _ _ (located_new D0) S) as La. pose proof (lc _ La) as C. rewrite <- (firstn_skipn i bs) in T. destruct (tree_split _ _ _ _ _ T) as (m & T1 & _).
  assert (H1 : map hush (firstn i bs') = map cr_block (firstn i bs)) by (rewrite <- !firstn_map, Hb; reflexivity). assert (H2 : map hush (skipn i bs') = map cr_block (skipn i bs)) by (rewrite <- !skipn_map, Hb; reflexivity).
  set (l := firstn i bs) in *. set (l' := firstn i bs') in *. clearbody l l'. unfold preamble_from_blocks.
  apply (sim_bind (fun x y => hush x = cr_block y)).
  - apply (sim_map cr); [|intros p _; cbn [sim hush cr_block]; rewrite H1; reflexivity]. destruct (rev l) as [|b q] eqn:Er.
    + apply (f_equal (@rev block)) in Er. rewrite rev_involutive in Er. cbn [rev] in Er. subst l. destruct l'; [|discriminate H1]. cbn [rev]. exact (remainder_cr _ _ (proj2 C) (Suffix_refl _)).
    + assert (Hr : map hush (rev l') = map cr_block (b :: q)) by (rewrite map_rev, H1, <- map_rev, Er; reflexivity). destruct (rev l') as [|b' q']; [discriminate Hr|]. cbn [map] in Hr. injection Hr as Hbb _. assert (Sb : block_span b' = cr (block_span b)) by (rewrite <- span_hush, Hbb; apply span_crb).
      apply (f_equal (@rev block)) in Er. rewrite rev_involutive in Er. cbn [rev] in Er. subst l. destruct (tree_last _ _ _ _ _ T1) as (e & _ & _ & Lb & K4 & _). rewrite Sb, !discard_all_ok. cbn [bind].
      assert (Kd : p_discard_all (cr (block_span b)) = cr (p_discard_all (block_span b))) by (unfold p_discard_all; rewrite data_cr; change (@nil char) with (crlf []) at 1; apply skip_cr; exact (proj2 (lc _ Lb))). rewrite Kd.
      pose proof Lb as (x & y & D & _ & _ & Ho). unfold spec_offset in Ho. rewrite blen_utf8 in Ho. destruct (suffix_cut _ _ S) as (p & Dp & Eo & _). cbn [sp_data sp_off span_new] in Dp, Eo.
      destruct (prefix_cut p (sp_data ah) (x ++ sp_data (block_span b)) y) as (mid & Em & Dm); [rewrite <- app_assoc; congruence|rewrite blen_app; unfold start in K4; lia|]. apply (f_equal blen) in Em. rewrite !blen_app in Em.
      assert (Sm : Suffix ah (skip ah mid y)) by (apply Suffix_intro; exact Dm). assert (Of : sp_off (p_discard_all (block_span b)) = sp_off (skip ah mid y)) by (unfold p_discard_all; rewrite !sp_off_skip; lia).
      assert (Li : sp_line (p_discard_all (block_span b)) = sp_line (skip ah mid y)). { apply same_line; [|exact (located_Suffix _ _ _ La Sm)|exact Of]. apply (located_Sub _ _ _ Lb). exact (discard_all_Sub _ _ (discard_all_ok _)). }
      rewrite (trim_remainder_off (cr ah) _ (cr (skip ah mid y))) by (unfold cr; cbn [sp_off]; rewrite Of, Li; reflexivity). rewrite (trim_remainder_off ah _ (skip ah mid y) Of). exact (remainder_cr _ _ (proj2 C) Sm).
  - intros p' p _ _ Hp. cbn [sim map]. rewrite Hp, H2. reflexivity.
Qed.
(** * The header *)
Definition crh (h : hstate) : hstate :=
  mkhs (option_map cr (s_title_source h)) (s_title h) (map cr_at (s_attrs h)) (option_map cr_aul (s_author h)) (option_map cr_rev (s_revision h)) (map cr (s_comments h)) (map cr_w (s_warnings h)) (s_parser h).
Lemma author_name_of n : eq_ignore_ascii_case n (lit "author") = true -> author_name n.
Proof.
  intros H. apply text_eqb_eq in H. unfold author_name. change (map ascii_lower (lit "author")) with (lit "author") in H. revert H. generalize (lit "author"). induction n as [|x n IH]; intros [|c t] H; try discriminate H; [constructor|]. cbn [map] in H. injection H as H1 H2. constructor; [|exact (IH _ H2)]. unfold ascii_lower in H1. destruct (is_ascii_upper x); [right|left]; exact H1.
Qed.
Lemma author_entry_cr U a P : flat (at_name a) -> author_on_line a -> set_author_entry U (cr_at a) P = set_author_entry U a P.
Proof. intros F H. unfold set_author_entry. cbn [cr_at at_name at_value_source]. rewrite (flat_data _ F). destruct (eq_ignore_ascii_case _ _) eqn:K; [|reflexivity]. specialize (H (author_name_of _ K)). destruct (at_value_source a) as [v|]; [|reflexivity]. cbn [option_map]. rewrite (flat_data _ (H v eq_refl)). reflexivity. Qed.
Lemma from_header_cr U P a : flat (at_name a) -> set_attribute_from_header U P (cr_at a) = (fst (set_attribute_from_header U P a), map cr_w (snd (set_attribute_from_header U P a))).
Proof. intros F. unfold set_attribute_from_header. cbn [cr_at at_name at_value at_source]. rewrite (flat_data _ F). cbv zeta. set (b := match mget _ (p_attrs P) with Some _ => _ | None => _ end). destruct b; reflexivity. Qed.
Lemma some_map {A B} (f : A -> B) (x : option A) : is_some (option_map f x) = is_some x. Proof. destruct x; reflexivity. Qed.
Lemma ws1_cr s : flat s -> discard_whitespace (cr s) = on_ok cr (discard_whitespace s).
Proof.
  intros F. rewrite (flat_mv s F), mv_discard_ws. destruct (discard_whitespace s) as [x| |] eqn:K; cbn [on_ok]; [|reflexivity|reflexivity]. rewrite (sub_mv s x); [reflexivity| |exact F]. unfold discard_whitespace, take_whitespace in K. rewrite take_while_ok in K. cbn [bind] in K. apply Ok_inj in K. subst x. exact (proj2 (p_take_while_Sub _ _)).
Qed.
Ltac hs := unfold crh; cbn [s_title_source s_title s_attrs s_author s_revision s_comments s_warnings s_parser option_map]; rewrite ?map_app; reflexivity.
Definition step_entry (E : env) (s : span) (h : hstate) (m : mitem attribute) : Prop :=
  exists li, take_normalized_line s = Ok li /\ is_nil (sp_data (mi_item li)) = false /\ starts_with (lit "//") (sp_data (mi_item li)) && negb (starts_with (lit "///") (sp_data (mi_item li))) = false /\ header_attr E s (mi_item li) h = Ok (Some m).
Lemma header_step_cr E s h : clean s -> (forall m, step_entry E s h m -> author_on_line (mi_item m)) ->
  sim (fun r' r => r' = (crh (fst r), option_map cr (snd r))) (header_step E (cr s) (crh h)) (header_step E s h).
Proof.
  intros C Hc. unfold header_step. cbv zeta. eapply sim_map; [exact (norm_cr s C)|]. intros li El. cbn [cm mi_item mi_after]. pose proof (norm_flat _ _ El) as F. rewrite (flat_data _ F).
  destruct (is_nil _) eqn:K1; [cbn [crh s_title]; destruct (s_title h); reflexivity|]. destruct (_ && negb (starts_with (lit "///") _)) eqn:K2; [cbn [sim fst snd]; hs|].
  eapply (sim_map (option_map (cm cr_at))). { unfold header_attr. rewrite (flat_data _ F). cbn [crh s_parser]. destruct (starts_with (lit ":") (sp_data (mi_item li))); [exact (entry_cr _ s _ C)|reflexivity]. }
  intros [a|] Ea; cbn [option_map]; cbn [crh s_title_source s_title s_attrs s_author s_revision s_comments s_warnings s_parser].
  - assert (Hs : author_on_line (mi_item a)) by (apply Hc; exists li; auto). unfold header_attr in Ea. destruct (starts_with (lit ":") (sp_data (mi_item li))); [|discriminate Ea]. destruct (entry_inv _ _ _ _ Ea) as (Fa & _). cbn [cm mi_item mi_after]. rewrite (author_entry_cr _ _ _ Fa Hs). apply sim_same. intros P1 _. rewrite (from_header_cr _ _ _ Fa). cbn [sim fst snd]. hs.
  - rewrite !some_map. destruct (negb (is_some (s_title h)) && _).
    { apply (sim_map cr); [exact (discard1_cr _ _ F)|]. intros d Ed. pose proof (flat_sub _ _ (discard_Sub _ _ _ Ed) F) as Fd. apply (sim_map cr); [exact (ws1_cr _ (proj1 Fd))|]. intros ts Et.
      assert (Fs : flat ts). { apply (fun K => proj1 (flat_sub d ts K (proj1 Fd))). unfold discard_whitespace, take_whitespace in Et. rewrite take_while_ok in Et. cbn [bind] in Et. apply Ok_inj in Et. subst ts. exact (proj2 (p_take_while_Sub _ _)). }
      rewrite (flat_data _ Fs). apply sim_same. intros ti _. reflexivity. }
    destruct (is_some (s_title h) && negb (is_some (s_author h))). { unfold author_line_parse. rewrite (flat_data _ F), !bind_bind. apply sim_same. intros l _. reflexivity. }
    destruct (is_some (s_title h) && is_some (s_author h) && negb (is_some (s_revision h))). { unfold revision_parse. rewrite (flat_data _ F). cbv zeta. rewrite !bind_bind. apply sim_same. intros n _. rewrite !bind_bind. apply sim_same. intros d _. rewrite !bind_bind. apply sim_same. intros r _. reflexivity. }
    destruct (s_title h) eqn:T; cbn [is_some sim fst snd option_map]; [|reflexivity]. unfold crh. rewrite ?T. hs.
Qed.
Lemma header_loop_cr E (Q : span -> hstate -> Prop) : (forall s h m, Q s h -> step_entry E s h m -> author_on_line (mi_item m)) ->
  (forall s h h' s', sp_data s <> [] -> Q s h -> header_step E s h = Ok (h', Some s') -> Suffix s s' -> Q s' h') ->
  forall f f' s h ts, clean s -> Q s h -> inv E ts h -> length (sp_data s) <= f -> length (sp_data (cr s)) <= f' ->
  sim (fun r' r => r' = (crh (fst r), cr (snd r)) /\ Suffix s (snd r)) (header_loop E f' (cr s) (crh h)) (header_loop E f s h).
Proof.
  intros Q1 Q2. induction f as [|f IH]; intros f' s h ts C Hq Hi Hf Hf'.
  - destruct (sp_data s) as [|c t] eqn:D; [|cbn in Hf; lia]. destruct f'; cbn [header_loop]; rewrite data_cr, D; cbn [crlf sim fst snd]; split; try reflexivity; apply Suffix_refl.
  - destruct (sp_data s) as [|c t] eqn:D. { destruct f'; cbn [header_loop]; rewrite data_cr, D; cbn [crlf sim fst snd]; (split; [reflexivity|apply Suffix_refl]). } rewrite <- D in *. assert (Ne : sp_data s <> []) by (rewrite D; discriminate).
    assert (Nc : sp_data (cr s) <> []) by (apply crlf_cons; exact Ne). destruct f' as [|f']; [destruct (sp_data (cr s)); [contradiction|cbn in Hf'; lia]|]. cbn [header_loop]. destruct (sp_data (cr s)) as [|c1 t1] eqn:D1; [contradiction|]. destruct (sp_data s) as [|c2 t2] eqn:D2; [contradiction|]. rewrite <- D1 in *. rewrite <- D2 in *. clear D D1 D2 c t c1 t1 c2 t2.
    eapply sim_bind; [exact (header_step_cr E s h C (fun m => Q1 s h m Hq))|]. intros r' [h1 o] _ Es ->. cbn [fst snd]. destruct o as [s'|]; cbn [option_map]; [|cbn [sim fst snd]; split; [reflexivity|apply Suffix_refl]].
    destruct (header_step_spec E s h ts h1 _ Ne Hi Es) as (kk & r & Hk & Hr & Hs & _ & _ & _ & S). pose proof (hline_shorter _ _ _ Hk Ne) as Lr.
    assert (X : exists ts1, inv E ts1 h1) by (destruct kk; [destruct S as [_ S]|..|destruct S as (_ & _ & S)]; eauto). destruct X as (ts1 & X).
    assert (L' : length (sp_data (cr s')) < length (sp_data (cr s))). { destruct Hs as (pre & Dp & _). rewrite !data_cr, Dp, crlf_app, app_length. destruct pre as [|c0 pre]; [cbn [app] in Dp; rewrite Dp, Hr in Lr; lia|]. assert (Np : crlf (c0 :: pre) <> []) by (apply crlf_cons; discriminate). destruct (crlf (c0 :: pre)); [contradiction|cbn [length]; lia]. }
    eapply sim_weak; [|apply (IH f' s' h1 ts1 (clean_suffix _ _ C Hs) (Q2 _ _ _ _ Ne Hq Es Hs) X); [rewrite Hr; lia|lia]]. intros a b (K1 & K2). split; [exact K1|]. exact (Suffix_trans _ _ _ Hs K2).
Qed.
Definition crr (r : mitem header * (list warning * parser)) : mitem header * (list warning * parser) := (mkmi (cr_header (mi_item (fst r))) (cr (mi_after (fst r))), (map cr_w (fst (snd r)), snd (snd r))).
Lemma header_parse_cr E (Q : span -> hstate -> Prop) s P : (forall s h m, Q s h -> step_entry E s h m -> author_on_line (mi_item m)) ->
  (forall s h h' s', sp_data s <> [] -> Q s h -> header_step E s h = Ok (h', Some s') -> Suffix s s' -> Q s' h') ->
  clean s -> Q s (hs_new P) -> sim (fun r' r => r' = crr r) (header_parse E (cr s) P) (header_parse E s P).
Proof.
  intros Q1 Q2 C Hq. unfold header_parse. rewrite !discard_empty_lines_ok. cbn [bind]. rewrite (empties_cr _ C). change (hs_new P) with (crh (hs_new P)) at 1.
  eapply sim_bind; [exact (header_loop_cr E Q Q1 Q2 _ _ s (hs_new P) [] C Hq (inv_new E P) (le_n _) (le_n _))|]. intros r' [h x] _ El (-> & Sx). cbn [fst snd] in *. rewrite !discard_empty_lines_ok. cbn [bind]. rewrite (empties_cr _ (clean_suffix _ _ C Sx)).
  assert (Kr : trim_remainder (cr (p_discard_empty_lines s)) (cr x) = on_ok cr (trim_remainder (p_discard_empty_lines s) x)).
  { pose proof (discard_empty_Suffix s) as Sd. pose proof (clean_suffix _ _ C Sd) as Cd. destruct (Suffix_comparable s _ _ Sd Sx) as [K|K]; [exact (remainder_cr _ _ (proj2 Cd) K)|].
    rewrite (trim_remainder_eq s _ _ Sd Sx), (trim_remainder_eq (cr s) (cr (p_discard_empty_lines s)) (cr x)) by (apply suffix_cr; [exact (proj2 C)|assumption]). cbn [on_ok]. f_equal. unfold p_trim_remainder. destruct K as (pre & Dk & _).
    assert (L1 : length (sp_data (p_discard_empty_lines s)) - length (sp_data x) = 0) by (rewrite Dk, app_length; lia). assert (L2 : length (sp_data (cr (p_discard_empty_lines s))) - length (sp_data (cr x)) = 0) by (rewrite !data_cr, Dk, crlf_app, app_length; lia). rewrite L1, L2. cbn [firstn]. change (@nil N) with (crlf []) at 1. apply cr_with. }
  eapply sim_map; [exact Kr|]. intros a _. eapply sim_map; [exact (trim_white_cr a)|]. intros b _. reflexivity.
Qed.
Lemma document_cr E (Q : span -> hstate -> Prop) fuel sm P : bears_crlf E -> (forall s h m, Q s h -> step_entry E s h m -> author_on_line (mi_item m)) ->
  (forall s h h' s', sp_data s <> [] -> Q s h -> header_step E s h = Ok (h', Some s') -> Suffix s s' -> Q s' h') -> Q (span_new D0) (hs_new P) ->
  sim (fun r' r => hush_doc (fst r') = cr_doc (fst r) /\ snd r' = snd r) (document_parse E fuel (crlf D0) sm P) (document_parse E fuel D0 sm P).
Proof.
  intros B Q1 Q2 Hq. unfold document_parse. cbv zeta. change (span_new (crlf D0)) with (cr (span_new D0)). pose proof (lc _ (located_new D0)) as C. eapply sim_bind; [exact (header_parse_cr E Q _ P Q1 Q2 C Hq)|]. intros r' h _ Eh ->. unfold crr. cbn [fst snd mi_item mi_after].
  assert (S0 : Suffix (span_new D0) (mi_after (fst h))). { destruct h as [[hd after] [ws Ph]]. destruct (header_parse_spec _ _ _ _ _ _ _ Eh) as (x & src & _ & _ & _ & _ & _ & S1 & _ & _ & _ & _ & _ & _ & _ & _ & Ea & _). cbn [fst mi_after]. rewrite Ea. eapply Suffix_trans; [exact S1|apply discard_empty_Suffix]. }
  pose proof (located_Suffix _ _ _ (located_new D0) S0) as La. eapply sim_bind; [exact (until_cr E fuel B never 0 _ _ never_cr La)|]. intros b' b _ Eb (B1 & B2 & B3 & B4 & B5 & B6). destruct (until_ok D0 E fuel _ _ _ _ _ La Eb) as (_ & Tb).
  eapply sim_bind; [exact (preamble_cr _ _ _ _ B1 S0 Tb)|]. intros p' p _ _ Hp. eapply sim_map; [exact (trim_white_cr _)|]. intros x _. cbn [sim fst snd]. rewrite B6. split; [|reflexivity]. unfold hush_doc, cr_doc. cbn [d_header d_blocks d_source d_warnings d_source_map d_catalog]. rewrite Hp, B3, map_app. reflexivity.
Qed.
Lemma entry_of_step E s h m : step_entry E s h m -> attribute_parse (apply_header_subs E) s (s_parser h) = Ok (Some m).
Proof. intros (li & _ & _ & _ & H). unfold header_attr in H. destruct (starts_with _ _); [exact H|discriminate H]. Qed.
Lemma no_backslash_document E fuel sm P : bears_crlf E -> ~ In BSL D0 -> sim (fun r' r => hush_doc (fst r') = cr_doc (fst r) /\ snd r' = snd r) (document_parse E fuel (crlf D0) sm P) (document_parse E fuel D0 sm P).
Proof.
  intros B N. apply (document_cr E (fun s _ => ~ In BSL (sp_data s))); [exact B| | |exact N].
  - intros s h m Hq K _ v Hv. destruct (entry_inv _ _ _ _ (entry_of_step _ _ _ _ K)) as (_ & _ & l & El & Sv). exact (proj1 (flat_sub _ _ (Sv v Hv) (continued_flat _ _ Hq El))).
  - intros s h h' s' _ Hq _ (pre & D & _) K. apply Hq. rewrite D. apply in_or_app. right. exact K.
Qed.
Lemma entry_stays E s h m r : step_entry E s h m -> header_step E s h = Ok r -> In (mi_item m) (s_attrs (fst r)).
Proof.
  intros (li & El & K1 & K2 & Ea) H. unfold header_step in H. rewrite El in H. cbn [bind] in H. rewrite K1, K2, Ea in H. cbn [bind] in H. apply bind_ok in H. destruct H as (P1 & _ & H). apply Ok_inj in H. subst r. cbn [fst s_attrs]. apply in_or_app. right. left. reflexivity.
Qed.
Lemma step_attrs E s h r : header_step E s h = Ok r -> incl (s_attrs h) (s_attrs (fst r)).
Proof.
  unfold header_step. cbv zeta. intros H. apply bind_ok in H. destruct H as (li & _ & H). destruct (is_nil _); [apply Ok_inj in H; subst r; apply incl_refl|]. destruct (_ && negb (starts_with (lit "///") _)); [apply Ok_inj in H; subst r; apply incl_refl|].
  apply bind_ok in H. destruct H as (oa & _ & H). destruct oa as [a|]. { apply bind_ok in H. destruct H as (P & _ & H). apply Ok_inj in H. subst r. cbn [fst s_attrs]. apply incl_appl, incl_refl. }
  destruct (negb (is_some (s_title h)) && _). { apply bind_ok in H. destruct H as (d & _ & H). apply bind_ok in H. destruct H as (t & _ & H). apply bind_ok in H. destruct H as (t' & _ & H). apply Ok_inj in H. subst r. apply incl_refl. }
  destruct (is_some (s_title h) && negb (is_some (s_author h))). { apply bind_ok in H. destruct H as (d & _ & H). apply Ok_inj in H. subst r. apply incl_refl. }
  destruct (is_some (s_title h) && is_some (s_author h) && negb (is_some (s_revision h))). { apply bind_ok in H. destruct H as (d & _ & H). apply Ok_inj in H. subst r. apply incl_refl. }
  apply Ok_inj in H. subst r. cbn [fst]. destruct (is_some _); apply incl_refl.
Qed.
Lemma loop_attrs E : forall f s h r, header_loop E f s h = Ok r -> incl (s_attrs h) (s_attrs (fst r)).
Proof.
  induction f as [|f IH]; intros s h r H; cbn [header_loop] in H; (destruct (sp_data s); [apply Ok_inj in H; subst r; apply incl_refl|]); [discriminate H|]. apply bind_ok in H. destruct H as (x & Ex & H). pose proof (step_attrs _ _ _ _ Ex) as K. destruct (snd x); [|apply Ok_inj in H; subst r; exact K]. exact (incl_tran K (IH _ _ _ H)).
Qed.
Lemma authors_document E fuel sm P d P' : bears_crlf E -> document_parse E fuel D0 sm P = Ok (d, P') -> Forall author_on_line (h_attrs (d_header d)) ->
  exists d', document_parse E fuel (crlf D0) sm P = Ok (d', P') /\ hush_doc d' = cr_doc d.
Proof.
  intros B H F. assert (K : sim (fun r' r => hush_doc (fst r') = cr_doc (fst r) /\ snd r' = snd r) (document_parse E fuel (crlf D0) sm P) (document_parse E fuel D0 sm P)).
  - apply (document_cr E (fun s h => exists f r, header_loop E f s h = Ok r /\ Forall author_on_line (s_attrs (fst r)))); [exact B| | |].
    + intros s h m (f & r & Hr & Fr) Hs. destruct f; cbn [header_loop] in Hr; (destruct (sp_data s) eqn:D; [exfalso; destruct Hs as (li & El & K1 & _); destruct (take_norm s) as (l & r0 & n & Hl & E0); rewrite E0 in El; apply Ok_inj in El; subst li; cbn [mi_item with_data sp_data] in K1; rewrite D in Hl; pose proof (a_line_app _ _ _ _ Hl) as Ka; destruct (a_line_prefix _ _ _ _ Hl) as (w & Ew); destruct l; [destruct n; [discriminate K1|discriminate Ew]|discriminate Ka]|]); [discriminate Hr|].
      apply bind_ok in Hr. destruct Hr as (x & Ex & Hr). pose proof (entry_stays _ _ _ _ _ Hs Ex) as Ki. rewrite Forall_forall in Fr. apply Fr. destruct (snd x); [exact (loop_attrs _ _ _ _ _ Hr _ Ki)|apply Ok_inj in Hr; subst r; exact Ki].
    + intros s h h' s' Ne (f & r & Hr & Fr) Es _. destruct f; cbn [header_loop] in Hr; (destruct (sp_data s) eqn:D; [contradiction|]); [discriminate Hr|]. rewrite Es in Hr. cbn [bind fst snd] in Hr. exists f, r. auto.
    + unfold document_parse in H. cbv zeta in H. apply bind_ok in H. destruct H as (h & Eh & H). apply bind_ok in H. destruct H as (b & _ & H). apply bind_ok in H. destruct H as (bs & _ & H). apply bind_ok in H. destruct H as (x & _ & H). apply Ok_inj in H. injection H as <- _. cbn [d_header] in F.
      unfold header_parse in Eh. apply bind_ok in Eh. destruct Eh as (o & _ & Eh). apply bind_ok in Eh. destruct Eh as (r & Er & Eh). apply bind_ok in Eh. destruct Eh as (y & _ & Eh). apply bind_ok in Eh. destruct Eh as (z & _ & Eh). apply bind_ok in Eh. destruct Eh as (w & _ & Eh). apply Ok_inj in Eh. subst h. cbn [fst mi_item h_attrs] in F. eauto.
  - rewrite H in K. destruct (document_parse E fuel (crlf D0) sm P) as [[d' P'']| |]; cbn [sim fst snd] in K; try contradiction. destruct K as (K & ->). eauto.
Qed.
End within.
(** * The lines put together *)
Lemma contains_crlf p : ~ In LF p -> ~ In CR p -> forall t, contains (LF :: p) (crlf t) = contains (LF :: p) t.
Proof.
  intros H1 H2. assert (Kp : crlf p = p) by (apply crlf_line; exact H1).
  assert (K : forall t, (exists a b, crlf t = a ++ (LF :: p) ++ b) <-> (exists a b, t = a ++ (LF :: p) ++ b)).
  { intros t. split.
    - induction t as [|c t IH]; intros (a & b & E); [destruct a; discriminate E|]. cbn [crlf] in E. destruct (N.eqb_spec c LF) as [->|Hc].
      + destruct a as [|a0 a]; [discriminate E|]. cbn [app] in E. injection E as <- E. destruct a as [|a1 a]; cbn [app] in E.
        * injection E as E. assert (Q : starts_with p (crlf t) = true) by (apply starts_with_spec; exists b; exact E). rewrite starts_crlf in Q by assumption. apply starts_with_spec in Q. destruct Q as (q & ->). exists [], q. reflexivity.
        * injection E as <- E. destruct IH as (a2 & b2 & ->); [exists a, b; exact E|]. exists (LF :: a2), b2. reflexivity.
      + destruct a as [|a0 a]; cbn [app] in E; [injection E as E0 _; contradiction|]. injection E as <- E. destruct IH as (a2 & b2 & ->); [exists a, b; exact E|]. exists (c :: a2), b2. reflexivity.
    - intros (a & b & ->). exists (crlf a ++ [CR]), (crlf b). rewrite !crlf_app. cbn [crlf app]. change (LF =? LF)%N with true. rewrite Kp, <- !app_assoc. reflexivity. }
  intros t. destruct (contains (LF :: p) t) eqn:Et.
  - apply contains_spec in Et. apply (proj2 (K t)) in Et. apply contains_spec. exact Et.
  - destruct (contains (LF :: p) (crlf t)) eqn:Ec; [|reflexivity]. apply contains_spec in Ec. apply (proj1 (K t)) in Ec. rewrite (proj2 (contains_spec _ _) Ec) in Et. discriminate Et.
Qed.
Lemma no_directive_crlf t : no_directive (crlf t) = no_directive t.
Proof. unfold no_directive. rewrite !starts_crlf, !contains_crlf by (cbn; intuition discriminate). reflexivity. Qed.
Lemma entry_source_flat hdr s P m : ~ In BSL (sp_data s) -> attribute_parse hdr s P = Ok (Some m) -> flat (at_source (mi_item m)).
Proof.
  unfold attribute_parse. intros B H. apply bind_ok in H. destruct H as (o & Eo & H). destruct o as [l|]; [|discriminate H]. destruct (continued_one _ _ B Eo) as (_ & x & e & r & D & Hx & He & Ea). apply bind_ok in H. destruct H as (o & Ec & H). destruct o as [c|]; [|discriminate H]. apply bind_ok in H. destruct H as (li & El & H). apply bind_ok in H. destruct H as (o & En & H). destruct o as [na|]; [|discriminate H]. apply bind_ok in H. destruct H as (l2 & El2 & H). apply bind_ok in H. destruct H as (o & Ep & H). destruct o as [l3|]; [|discriminate H].
  apply bind_ok in H. destruct H as (v & Ev & H). apply bind_ok in H. destruct H as (s1 & E1 & H). apply bind_ok in H. destruct H as (s2 & E2 & H). apply Ok_inj in H. injection H as <-. cbn [mi_item at_source].
  rewrite Ea in E1. rewrite (trim_to s (x ++ e) r) in E1 by (try (rewrite <- app_assoc; exact D); apply sp_off_skip). apply Ok_inj in E1. subst s1. rewrite trim_trailing_whitespace_ok in E2. apply Ok_inj in E2. subst s2. unfold p_trim_trailing_whitespace, flat. cbn [sp_data with_data].
  intros K. unfold trim_end in K. destruct (trim_end_by_app is_ws (x ++ e)) as (w & Ew & _ & Hl). set (q := trim_end_by is_ws (x ++ e)) in *. clearbody q. destruct He as [->|[-> ->]].
  - destruct w as [|w0 w] using rev_ind; [|clear IHw; rewrite app_assoc in Ew; apply app_inj_tail in Ew; destruct Ew as (Ew & _); apply Hx; rewrite Ew; apply in_or_app; left; exact K]. rewrite app_nil_r in Ew. specialize (Hl x LF (eq_sym Ew)). discriminate Hl.
  - rewrite app_nil_r in Ew. apply Hx. rewrite Ew. apply in_or_app. left. exact K.
Qed.
Lemma pre_cr U hdr norm ifh : forall f file rep s st, clean s -> ~ In BSL (sp_data s) -> pre_loop U hdr norm ifh f file rep (cr s) st = pre_loop U hdr norm ifh f file rep s st.
Proof.
  induction f as [|f IH]; intros file rep s st C B; [reflexivity|]. cbn [pre_loop]. rewrite data_cr. destruct (sp_data s) as [|c0 t0] eqn:D; [reflexivity|]. assert (Nc : crlf (c0 :: t0) <> []) by (apply crlf_cons; discriminate). destruct (crlf (c0 :: t0)); [contradiction|]. rewrite <- D in B. clear D Nc.
  rewrite (line_of s C), bind_on_ok. destruct (take_line s) as [mi| |] eqn:El; cbn [bind]; try reflexivity. cbn [cm mi_item mi_after]. pose proof (line_flat _ _ El) as F. rewrite (flat_data _ F). change (sp_line (cr (mi_item mi))) with (sp_line (mi_item mi)).
  assert (Sm : Suffix s (mi_after mi)) by (rewrite take_line_ok in El; apply Ok_inj in El; subst mi; apply p_take_line_Suffix).
  assert (Go : forall file rep st a, Suffix s a -> pre_loop U hdr norm ifh f file rep (cr a) st = pre_loop U hdr norm ifh f file rep a st) by (intros file1 rep1 st1 a Sa; apply IH; [exact (clean_suffix _ _ C Sa)|]; destruct Sa as (p & D & _); intros K; apply B; rewrite D; apply in_or_app; right; exact K).
  assert (Ta : try_attribute hdr st (sp_data (mi_item mi)) (cr s) = on_ok (option_map (cm cr_at)) (try_attribute hdr st (sp_data (mi_item mi)) s)) by (unfold try_attribute; destruct (_ && _ && _); [exact (entry_cr _ s _ C)|reflexivity]). rewrite Ta, bind_on_ok.
  destruct (try_attribute hdr st (sp_data (mi_item mi)) s) as [[at_|]| |] eqn:Et; cbn [bind option_map]; try reflexivity.
  - assert (Ea : attribute_parse hdr s (ps_parser st) = Ok (Some at_)) by (unfold try_attribute in Et; destruct (_ && _ && _); [exact Et|discriminate Et]). destruct (entry_inv _ _ _ _ Ea) as (Fn & Sa & _). cbn [cm mi_item mi_after]. rewrite (Go _ _ _ _ Sa). f_equal. unfold emit_attribute. rewrite (body_cr _ _ _ Fn). cbn [fst cr_at at_source]. rewrite (flat_data _ (entry_source_flat _ _ _ _ B Ea)). reflexivity.
  - destruct (try_include U norm st (sp_data (mi_item mi))) as [[[target al]|]| |]; cbn [bind]; try reflexivity; [|exact (Go _ _ _ _ Sm)]. destruct (ifh file target al (ps_parser st)); [|exact (Go _ _ _ _ Sm)]. destruct (pre_loop U hdr norm ifh f (Some target) false _ st); cbn [bind]; try reflexivity. exact (Go _ _ _ _ Sm).
Qed.
Lemma preprocess_cr U hdr norm ifh f t P : ~ In CR t -> ~ In BSL t ->
  (no_directive t = true /\ p_primary P = None /\ preprocess U hdr norm ifh f t P = Ok (t, []) /\ preprocess U hdr norm ifh f (crlf t) P = Ok (crlf t, [])) \/
  (no_directive t = false \/ p_primary P <> None) /\ preprocess U hdr norm ifh f (crlf t) P = preprocess U hdr norm ifh f t P.
Proof.
  intros C B. unfold preprocess. rewrite no_directive_crlf. destruct (no_directive t); cbn [andb].
  - destruct (p_primary P) eqn:Ep; [right|left; auto]. split; [right; discriminate|]. unfold process_adoc_include. change (span_new (crlf t)) with (cr (span_new t)). rewrite pre_cr; [reflexivity| |exact B]. exact (lc t C _ (located_new t)).
  - right. split; [left; reflexivity|]. unfold process_adoc_include. change (span_new (crlf t)) with (cr (span_new t)). rewrite pre_cr; [reflexivity| |exact B]. exact (lc t C _ (located_new t)).
Qed.
