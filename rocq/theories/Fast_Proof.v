(** The short cut for paragraphs makes no difference (C125). *)
From Verif Require Import Text TextFacts Maps Span_Model Span_Pure Span_Proof Span_Laws Span_Spec Catalog_Model Parser_Model Subs_Model Attrlist_Model Entry_Model
  Group_Model SecId_Model Header_Model Header_Spec Header_Proof Block_Model Block_Spec Block_Proof Spans_Proof Tree_Proof Pre_Spec Meta_Spec Kind_Spec Kind_Proof Total_Proof Stuck_Spec Stuck_Proof Fate_Spec Fate_Proof Fast_Spec.

Lemma discarded_white s : exists w, sp_data s = w ++ sp_data (p_discard_empty_lines s) /\ blank w.
Proof.
  destruct (discard_go_spec (length (sp_data s)) s (le_n _)) as (ls & tail & D & Hls & Ht). fold (p_discard_empty_lines s) in Ht.
  assert (Hbl : forall l, blank_line l -> blank l). { intros l (ws & cr & -> & Hw & Hc). apply Forall_app. split; [apply Forall_forall; intros c Hin; destruct (Hw c Hin) as [->| ->]; reflexivity|destruct Hc as [->| ->]; repeat constructor]. }
  assert (Hu : blank (unlines ls)). { clear - Hls Hbl. induction ls as [|l ls IH]; [constructor|]. unfold unlines. cbn [map concat]. apply Forall_app. split; [|apply IH; intros x Hx; apply Hls; right; exact Hx]. apply Forall_app. split; [apply Hbl, Hls; left; reflexivity|repeat constructor]. }
  destruct Ht as [(K & _)|(K & Hb & _)]; rewrite K; [exists (unlines ls); auto|]. exists (sp_data s). rewrite app_nil_r. split; [reflexivity|]. rewrite D. apply Forall_app. split; [exact Hu|exact (Hbl _ Hb)].
Qed.
Lemma trim_end_more x w : blank w -> trim_end (x ++ w) = trim_end x.
Proof.
  intros Hw. destruct (trim_end_spec x) as (y & Ex & Hy & Hl). rewrite Ex at 1. rewrite <- app_assoc. apply trim_end_by_unique; [apply Forall_app; split; assumption|exact Hl].
Qed.
(** A paragraph without metadata is the same block both ways. *)
Lemma simple_both E s P : simple_parse E (mkmd None None None None None s s) P = simple_parse_fast E s P.
Proof.
  unfold simple_parse, simple_parse_fast. cbn [md_start md_source md_attrlist]. destruct (parse_lines E s None P) as [[mi|]| |] eqn:H; try reflexivity. cbn [bind]. rewrite discard_empty_lines_ok. cbn [bind].
  destruct (parse_lines_inv _ _ _ _ _ H) as (pre & rest & D & _ & Eo & Ea). destruct (discarded_white (skip s pre rest)) as (w & Dw & Bw). rewrite sp_data_skip in Dw. rewrite <- Ea in Dw.
  assert (Sa : Suffix s (mi_after mi)). { rewrite Ea. eapply Suffix_trans; [apply Suffix_intro; exact D|apply discard_empty_Suffix]. }
  assert (D2 : sp_data s = (pre ++ w) ++ sp_data (mi_after mi)) by (rewrite D, Dw, <- app_assoc; reflexivity). rewrite (trim_remainder_ok _ _ Sa). cbn [bind]. rewrite trim_trailing_whitespace_ok. cbn [bind].
  assert (Et : p_trim_trailing_whitespace (p_trim_remainder s (mi_after mi)) = with_data s (trim_end pre)).
  { unfold p_trim_remainder, p_trim_trailing_whitespace. rewrite D2, app_length. replace (length (pre ++ w) + length (sp_data (mi_after mi)) - length (sp_data (mi_after mi))) with (length (pre ++ w)) by lia. rewrite firstn_app, Nat.sub_diag, firstn_all. cbn [firstn sp_data with_data]. rewrite app_nil_r, (trim_end_more pre w Bw). reflexivity. }
  rewrite Et, <- Eo. reflexivity.
Qed.
Lemma plain_metadata E s P l r n : a_line (sp_data s) l r n -> p_discard_empty_lines s = s -> (forall y, sp_data s <> 46%N :: y) -> (forall y, sp_data s <> 91%N :: y) -> metadata_parse E s P = Ok (mkmd None None None None None s s, []).
Proof.
  intros H Hd N1 N2. unfold metadata_parse. rewrite discard_empty_lines_ok. cbn [bind]. rewrite Hd. cbn [md_loop]. unfold md_title_step at 1. cbn [ms_title ms_start]. rewrite (take_norm_eq _ _ _ _ H). cbn [bind mi_item with_data sp_data].
  assert (E3 : starts_with (lit ".") n && negb (starts_with (lit "..") n) = false). { destruct n as [|c n]; [reflexivity|]. destruct (a_line_head _ _ _ _ _ H) as (y & Dy). cbn [starts_with lit]. destruct (starts_with (lit ".") (c :: n)) eqn:K; [|reflexivity]. apply starts_with_spec in K. destruct K as (k & K). injection K as -> _. exfalso. exact (N1 _ Dy). }
  rewrite E3. cbn [bind]. unfold md_anchor_step. cbn [ms_anchor ms_start]. unfold parse_maybe_block_anchor.
  assert (E4 : starts_with (lit "[[") (sp_data s) = false). { destruct (starts_with (lit "[[") (sp_data s)) eqn:K; [|reflexivity]. apply starts_with_spec in K. destruct K as (k & K). exfalso. exact (N2 _ K). }
  rewrite E4. cbn [bind fst snd ms_warnings app ms_title ms_reftext ms_attrlist ms_start]. unfold md_attrlist_step. cbn [ms_attrlist ms_start]. unfold parse_maybe_attrlist_line.
  assert (E5 : starts_with (lit "[") (sp_data s) = false). { destruct (starts_with (lit "[") (sp_data s)) eqn:K; [|reflexivity]. apply starts_with_spec in K. destruct K as (k & K). exfalso. exact (N2 _ K). }
  rewrite E5. reflexivity.
Qed.
Lemma unmarked s fl : try_fast s fl = true -> exists c t, sp_data s = c :: t /\ ~ In c (lit ".#=/-+*_[:'<") /\ contains (lit "::") (sp_data fl) = false.
Proof.
  unfold try_fast. destruct (sp_data s) as [|c t]; [discriminate|]. intros H. apply andb_true_iff in H. destruct H as (H1 & H2). apply negb_true_iff in H1, H2. exists c, t. split; [reflexivity|]. split; [|exact H2]. intros K. unfold is_marker, has_char in H1. rewrite (proj2 (existsb_exists _ _)) in H1; [discriminate H1|]. exists c. split; [exact K|apply N.eqb_refl].
Qed.
Lemma no_marker c y cs : ~ In c (lit ".#=/-+*_[:'<") -> (forall x, In x cs -> In x (lit ".#=/-+*_[:'<")) -> starts_with_any cs (c :: y) = false.
Proof. intros H Hc. unfold starts_with_any, has_char. destruct (existsb (N.eqb c) cs) eqn:K; [|reflexivity]. apply existsb_exists in K. destruct K as (x & Hx & K). apply N.eqb_eq in K. subst x. exfalso. exact (H (Hc _ Hx)). Qed.
(** The long way is the same as the short cut where that is taken. *)
Lemma fast_long E un s P fl : take_line s = Ok fl -> p_discard_empty_lines s = s -> try_fast s (mi_item fl) = true -> 
  long_way E un s P = (o <- simple_parse_fast E s P ;; match o with Some mi => finish mi [] P | None => long_way E un s P end).
Proof.
  intros Efl Hd Hf. destruct (a_line_total (sp_data s)) as (l & r & n & Hl). destruct (first_line_sp _ _ _ _ Hl) as (fl2 & z & Ef & Ez & Fz). rewrite Efl in Ef. apply Ok_inj in Ef. subst fl2.
  destruct (unmarked _ _ Hf) as (c & t & D & Hc & Hcc). destruct (fast_line (e_u E) s (mi_item fl) Hf) as (l1 & r1 & n1 & Hl1 & _ & Hform); [eauto 10|]. destruct (a_line_unique _ _ _ _ _ _ _ Hl1 Hl) as (-> & -> & ->). clear Hl1.
  assert (Hn : forall c' y, n = c' :: y -> c' = c) by (intros c' y ->; destruct (a_line_head _ _ _ _ _ Hl) as (k & Dk); congruence).
  assert (En : try_entry (mi_item fl) = false). { unfold try_entry. destruct (starts_with (lit ":") (sp_data (mi_item fl))) eqn:K; [|reflexivity]. exfalso. apply starts_with_spec in K. destruct K as (k & K). assert (c = 58%N). { rewrite Ez in K. destruct n as [|c' n]; [|injection K as -> _; symmetry; exact (Hn _ _ eq_refl)]. cbn [app] in K. subst z. inversion Fz as [|? ? F _]. discriminate F. } subst c. apply Hc. cbn. tauto. }
  assert (N46 : forall y, sp_data s <> 46%N :: y) by (intros y K; rewrite D in K; injection K as -> _; apply Hc; cbn; tauto). assert (N91 : forall y, sp_data s <> 91%N :: y) by (intros y K; rewrite D in K; injection K as -> _; apply Hc; cbn; tauto).
  assert (W : with_metadata E un (mkmd None None None None None s s) [] P = (o <- simple_parse_fast E s P ;; match o with Some mi => finish mi [] P | None => Ok (mkpr None [] P) end)).
  { unfold with_metadata. cbn [md_attrlist style_of bind style_is md_start]. rewrite (raw_parse_none E (mkmd None None None None None s s) P l r n Hl); [|intros K; exact (Hform _ (raw_delim_form _ K))]. cbn [bind]. rewrite (compound_parse_none (un never 0) (mkmd None None None None None s s) P l r n Hl); [|intros K; exact (Hform _ (compound_delim_form _ K))]. cbn [bind]. rewrite (take_norm_eq _ _ _ _ Hl). cbn [bind mi_item sp_data with_data].
    unfold try_media. assert (Im : forall w, (exists u, w = u ++ lit "::") -> starts_with w n = false). { intros w (u & ->). destruct (starts_with (u ++ lit "::") n) eqn:K; [|reflexivity]. apply starts_with_spec in K. destruct K as (k & K). exfalso. rewrite (proj2 (contains_spec (lit "::") _)) in Hcc; [discriminate Hcc|]. exists u, (k ++ z). rewrite Ez, K, <- !app_assoc. reflexivity. }
    rewrite (Im (lit "image::") (ex_intro _ (lit "image") eq_refl)), (Im (lit "video::") (ex_intro _ (lit "video") eq_refl)). cbn [orb bind fst snd].
    assert (Sw : forall cs, (forall x, In x cs -> In x (lit ".#=/-+*_[:'<")) -> starts_with_any cs n = false) by (intros cs Hcs; destruct n as [|c' n]; [reflexivity|]; rewrite (Hn _ _ eq_refl); exact (no_marker _ _ _ Hc Hcs)).
    unfold try_section. rewrite (Sw (lit "=#")) by (intros x Hx; cbn in Hx |- *; tauto). cbn [bind fst snd app]. unfold try_break. rewrite (Sw (lit "'-*<")) by (intros x Hx; cbn in Hx |- *; tauto). cbn [bind]. unfold no_block, last_resort. rewrite simple_both. destruct (simple_parse_fast E s P) as [[mi|]| |]; reflexivity. }
  unfold long_way. rewrite Efl. cbn [bind]. rewrite En. cbn [bind]. rewrite (plain_metadata E s P l r n Hl Hd N46 N91). cbn [bind fst snd]. rewrite W. destruct (simple_parse_fast E s P) as [[mi|]| |]; reflexivity.
Qed.

(** At the beginning of an empty line there is no paragraph. *)
Lemma empty_fast E s P l r : 1 <= sp_col s -> a_line (sp_data s) l r [] -> simple_parse_fast E s P = Ok None.
Proof.
  intros Hc H. unfold simple_parse_fast, parse_lines. rewrite discard_whitespace_ok. cbn [bind]. assert (Hs : exists k, sp_col (p_discard_whitespace s) = sp_col s + k).
  { assert (Hk : exists k, indented (sp_data s) k). { exists (length (fst (span_while is_sp_tab (sp_data s)))). exists (fst (span_while is_sp_tab (sp_data s))), (snd (span_while is_sp_tab (sp_data s))). split; [symmetry; apply span_while_app|]. split; [|split; [reflexivity|]].
      - apply Forall_forall. intros c Hin. pose proof (span_while_all is_sp_tab (sp_data s)) as F. rewrite Forall_forall in F. specialize (F c Hin). unfold is_sp_tab in F. apply orb_true_iff in F. destruct F as [F|F]; apply N.eqb_eq in F; [left|right]; exact F.
      - intros c y K. intros [->| ->]; pose proof (span_while_stop is_sp_tab (sp_data s) _ _ K) as F; discriminate F. }
    destruct Hk as (k & Hk). destruct (discard_ws_col s k Hk) as (saw & Es & Ec). rewrite discard_whitespace_ok in Es. apply Ok_inj in Es. rewrite Es. eauto. }
  destruct Hs as (k & Hk). rewrite Hk. unfold checked_sub. destruct (Nat.leb_spec 1 (sp_col s + k)); [|lia]. cbn [bind style_of]. destruct (take_non_empty s) as [(l1 & r1 & n1 & H1 & H2 & _)|(_ & Et)]; [exfalso; destruct (a_line_unique _ _ _ _ _ _ _ H H1) as (_ & _ & K); congruence|].
  assert (Es : simple_lines (length (sp_data s)) (sp_col s + k - 1) s [] = Ok ([], s)) by (destruct (length (sp_data s)); cbn [simple_lines]; rewrite Et; reflexivity). rewrite Es. cbn [bind fst snd]. rewrite (trim_to s [] (sp_data s) s eq_refl) by (unfold blen; cbn; lia). cbn [bind]. rewrite trim_trailing_whitespace_ok. reflexivity.
Qed.
Theorem shortcut E un s P : 1 <= sp_col s -> p_discard_empty_lines s = s \/ (exists l r, a_line (sp_data s) l r []) -> block_parse_with E un s P = long_way E un s P.
Proof.
  intros Hc Hs. unfold block_parse_with. destruct (take_line s) as [fl| |] eqn:Efl; [|unfold long_way; rewrite Efl; reflexivity|unfold long_way; rewrite Efl; reflexivity]. cbn [bind].
  assert (Hl : forall K, (fast <- Ok None ;; match fast with Some mi => finish mi [] P | None => K end) = K) by reflexivity.
  destruct (try_fast s (mi_item fl)) eqn:Hf.
  - destruct Hs as [Hs|(l & r & Hs)].
    + rewrite (fast_long E un s P fl Efl Hs Hf). destruct (simple_parse_fast E s P) as [[mi|]| |]; try reflexivity. cbn [bind]. unfold long_way. rewrite Efl. reflexivity.
    + rewrite (empty_fast E s P l r Hc Hs). cbn [bind]. unfold long_way. rewrite Efl. reflexivity.
  - cbn [bind]. unfold long_way. rewrite Efl. reflexivity.
Qed.
(** * All blocks *)
Lemma bind_same {A B} (a a' : res A) (k k' : A -> res B) : a = a' -> (forall x, a' = Ok x -> k x = k' x) -> bind a k = bind a' k'.
Proof. intros -> H. destruct a'; cbn [bind]; [apply H; reflexivity|reflexivity|reflexivity]. Qed.
Definition agree_in (s : span) (u v : stop_fn -> nat -> span -> parser -> res bres) : Prop := forall f n s' P, Sub s s' -> u f n s' P = v f n s' P.
Lemma agree_sub s s1 u v : agree_in s u v -> Sub s s1 -> agree_in s1 u v.
Proof. intros H S f n s' P S'. apply H. exact (Sub_trans _ _ _ S S'). Qed.
Lemma compound_same u v m P : agree_in (md_start m) u v -> compound_parse (u never 0) m P = compound_parse (v never 0) m P.
Proof.
  intros H. unfold compound_parse. destruct (take_norm (md_start m)) as (l & r & n & Hl & E). rewrite E. cbn [bind mi_item mi_after sp_data with_data]. destruct (compound_context n); [|reflexivity]. apply bind_same; [reflexivity|]. intros b _. destruct (negb b); [reflexivity|].
  destruct (find_delimiter_spec n (length (sp_data (skip (md_start m) l r))) (skip (md_start m) l r) (le_n _)) as (c & o & _ & Ho). pose proof (a_line_app _ _ _ _ Hl) as D.
  assert (S : forall x, r = c ++ x -> Sub (md_start m) (with_data (skip (md_start m) l r) c)). { intros x Dx. rewrite with_data_skip. apply Sub_intro with (post := x). rewrite D, Dx. reflexivity. }
  destruct o as [r'|].
  - destruct Ho as (k & Dk & _ & _ & ->). rewrite sp_data_skip in Dk. cbn [bind fst snd mi_item]. rewrite (trim_to (skip (md_start m) l r) c (k ++ r')) by (rewrite ?sp_data_skip, ?sp_off_skip; auto). cbn [bind]. rewrite (H never 0 _ P (S _ Dk)). reflexivity.
  - destruct Ho as (Dc & ->). rewrite sp_data_skip in Dc. cbn [bind fst snd]. rewrite (trim_to (skip (md_start m) l r) c []) by (rewrite ?sp_data_skip, ?sp_off_skip, ?app_nil_r; auto). cbn [bind]. rewrite (H never 0 _ P (S [] ltac:(rewrite app_nil_r; symmetry; exact Dc))). reflexivity.
Qed.
Lemma section_same E u v m P : agree_in (md_start m) u v -> section_parse E u m P = section_parse E v m P.
Proof.
  intros H. unfold section_parse. apply bind_same; [reflexivity|]. intros d _. apply bind_same; [reflexivity|]. intros q Eq. rewrite discard_empty_lines_ok in Eq. apply Ok_inj in Eq. subst q. apply bind_same; [reflexivity|]. intros [lt lw] El. cbn [fst snd]. destruct lt as [lt|]; [|reflexivity]. apply bind_same; [reflexivity|]. intros bs _. cbv zeta. apply bind_same; [|reflexivity].
  apply H. apply Suffix_Sub. eapply Suffix_trans; [apply discard_empty_Suffix|]. exact (proj2 (title_place _ _ _ El)).
Qed.
Lemma with_metadata_same E u v m ws P : agree_in (md_start m) u v -> with_metadata E u m ws P = with_metadata E v m ws P.
Proof.
  intros H. unfold with_metadata. apply bind_same; [reflexivity|]. intros bs _. destruct (style_is _ _); [reflexivity|]. apply bind_same; [reflexivity|]. intros o _. destruct o; [reflexivity|]. apply bind_same; [apply compound_same, H|]. intros o _. destruct o; [reflexivity|]. apply bind_same; [reflexivity|]. intros li _.
  unfold try_media. apply bind_same; [reflexivity|]. intros o _. destruct (fst o); [reflexivity|]. unfold try_section. apply bind_same; [|reflexivity]. destruct (starts_with_any _ _); [apply section_same, H|reflexivity].
Qed.
Lemma long_same E u v s P : agree_in s u v -> long_way E u s P = long_way E v s P.
Proof.
  intros H. unfold long_way. apply bind_same; [reflexivity|]. intros fl _. apply bind_same; [reflexivity|]. intros en _. destruct en; [reflexivity|]. apply bind_same; [reflexivity|]. intros [m ws] Em. cbn [fst snd]. apply with_metadata_same. destruct (metadata_Suffix _ _ _ _ _ Em) as (S1 & S2). apply (agree_sub s); [exact H|]. apply Suffix_Sub. eapply Suffix_trans; [|exact S2]. rewrite S1. apply discard_empty_Suffix.
Qed.
(** No white space but spaces and line feeds. *)
Lemma sub_in s s' : Sub s s' -> forall c, In c (sp_data s') -> In c (sp_data s).
Proof. intros (pre & post & D & _) c H. rewrite D. apply in_or_app. right. apply in_or_app. left. exact H. Qed.
Lemma spaces_line t l r n : (forall c, In c t -> is_ws c = true -> c = SP \/ c = LF) -> a_line t l r n -> n = [] \/ exists c, In c n /\ ~ sp_tab c.
Proof.
  intros Ht H. destruct n as [|x n] using rev_ind; [left; reflexivity|right]. clear IHn. pose proof (a_line_app _ _ _ _ H) as D. destruct H as (y & e & _ & -> & Hy & _ & Hn). exists x. split; [apply in_or_app; right; left; reflexivity|].
  destruct (trimmed_prefix _ _ Hn) as (w & Ew). assert (Hx : In x y) by (rewrite Ew; apply in_or_app; left; apply in_or_app; right; left; reflexivity). assert (Hx2 : In x t) by (rewrite D; apply in_or_app; left; apply in_or_app; left; exact Hx).
  destruct Hn as (? & ? & _ & _ & _ & Hn). intros [->| ->]; [exact (Hn n eq_refl)|]. destruct (Ht _ Hx2 eq_refl); discriminate.
Qed.
Theorem loop_long E D : forall fuel f n s P, located D s -> (forall c, In c (sp_data s) -> is_ws c = true -> c = SP \/ c = LF) -> blocks_loop E fuel f n s P = long_loop E fuel f n s P.
Proof.
  induction fuel as [|fuel IH]; intros f n s P L Ht; cbn [blocks_loop long_loop]; destruct (sp_data s) as [|c0 t0] eqn:Ds; try reflexivity. rewrite <- Ds in *. apply bind_same; [reflexivity|]. intros st _. destruct (fst st); [reflexivity|].
  assert (B : block_parse_with E (fun stop level source P => src <- discard_empty_lines source ;; blocks_loop E fuel stop level src P) s P = long_way E (fun stop level source P => src <- discard_empty_lines source ;; long_loop E fuel stop level src P) s P).
  { rewrite shortcut.
    - apply long_same. intros f' n' s' P' S. rewrite discard_empty_lines_ok. cbn [bind]. apply IH; [exact (located_Suffix _ _ _ (located_Sub _ _ _ L S) (discard_empty_Suffix s'))|]. intros c Hc. apply Ht. apply (sub_in _ _ S). exact (sub_in _ _ (Suffix_Sub _ _ (discard_empty_Suffix s')) _ Hc).
    - exact (located_col _ _ L).
    - destruct (a_line_total (sp_data s)) as (l & r & k & Hl). destruct (spaces_line _ _ _ _ Ht Hl) as [->|(c & Hc & Hn)]; [right; eauto|left]. exact (discard_none s l r k c Hl Hc Hn). }
  apply bind_same; [exact B|]. intros r Er. apply bind_same; [|reflexivity]. rewrite <- B in Er.
  assert (Sa : Suffix s (match pr_item r with Some mi => mi_after mi | None => s end)). { destruct (pr_item r) as [mi|] eqn:Ei; [|apply Suffix_refl]. exact (proj1 (block_ok D E _ s P r mi (until_good E D fuel) L Er Ei)). }
  apply IH; [exact (located_Suffix _ _ _ L Sa)|]. intros c Hc. apply Ht. exact (sub_in _ _ (Suffix_Sub _ _ Sa) _ Hc).
Qed.
