(** Every parser gives the same, moved, for the same text further down. *)
From Verif Require Import Text TextFacts Maps Span_Model Span_Pure Span_Proof Span_Laws Catalog_Model Parser_Model Subs_Model Attrlist_Model Entry_Model
  Group_Model SecId_Model Header_Model Block_Model Doc_Model Shift_Spec.
From Verif Require Import Span_Spec Block_Spec Block_Proof Header_Proof Spans_Proof.

Lemma on_ok_bind {A B C} (f : B -> C) (x : res A) (g : A -> res B) : on_ok f (bind x g) = bind x (fun a => on_ok f (g a)).
Proof. destruct x; reflexivity. Qed.
Lemma bind_on_ok {A B C} (f : A -> B) (x : res A) (g : B -> res C) : bind (on_ok f x) g = bind x (fun a => g (f a)).
Proof. destruct x; reflexivity. Qed.
Lemma bind_more {A B} (x : res A) (g h : A -> res B) : (forall a, g a = h a) -> bind x g = bind x h.
Proof. intros H. destruct x; cbn [bind]; auto. Qed.
Lemma bind_rel {A B C} (f : A -> B) (x' : res B) (x : res A) (g : B -> res C) (h : A -> res C) : x' = on_ok f x -> (forall a, g (f a) = h a) -> bind x' g = bind x h.
Proof. intros -> H. destruct x; cbn [bind on_ok]; auto. Qed.
Lemma bind_bind {A B C} (x : res A) (g : A -> res B) (h : B -> res C) : bind (bind x g) h = bind x (fun a => bind (g a) h).
Proof. destruct x; reflexivity. Qed.
Lemma on_ok_ok {A B} (f : A -> B) a : on_ok f (Ok a) = Ok (f a). Proof. reflexivity. Qed.
Lemma on_ok_if {A B} (f : A -> B) (b : bool) x y : on_ok f (if b then x else y) = if b then on_ok f x else on_ok f y.
Proof. destruct b; reflexivity. Qed.
Lemma on_ok_on_ok {A B C} (f : B -> C) (g : A -> B) x : on_ok f (on_ok g x) = on_ok (fun a => f (g a)) x.
Proof. destruct x; reflexivity. Qed.

Section moved.
Variables k o : nat.
Notation mv := (mv k o).
Notation mvm := (mv_mi k o mv).
Ltac simp := cbn [Shift_Spec.mv mv_mi mv_al mv_w mv_ct mv_at mv_md mv_cm sp_data sp_line sp_col sp_off mi_item mi_after fst snd on_ok option_map bind w_source w_type map app
  al_attrs al_anchor al_source ct_original ct_rendered at_name at_value_source at_value at_source md_title_source md_title md_anchor md_reftext md_attrlist md_source md_start
  cm_title_source cm_title cm_anchor cm_reftext cm_attrlist] in *.
Ltac brk := match goal with |- context [match ?x with _ => _ end] => is_var x; destruct x | |- context [match ?x with _ => _ end] => destruct x eqn:? end.
Ltac step := first [reflexivity | progress simp | rewrite on_ok_bind | rewrite bind_on_ok | progress autorewrite with sh | (apply bind_more; intros ?)].
Ltac go := repeat step; repeat (brk; repeat step).

Lemma mv_slice_internal s pre d : slice_internal (mv s) pre d = mv (slice_internal s pre d).
Proof. unfold slice_internal. destruct (blen pre =? 0); simp; [reflexivity|]. unfold Shift_Spec.mv; simp. f_equal; lia. Qed.
Hint Rewrite mv_slice_internal : sh.
Lemma mv_slice s a b : slice (mv s) a b = on_ok mv (slice s a b).
Proof. unfold slice. go. Qed.
Lemma mv_slice_from s a : slice_from (mv s) a = on_ok mv (slice_from s a).
Proof. unfold slice_from. go. Qed.
Lemma mv_slice_to s a : slice_to (mv s) a = on_ok mv (slice_to s a).
Proof. unfold slice_to. go. Qed.
Hint Rewrite mv_slice mv_slice_from mv_slice_to : sh.
Lemma mv_into s n : into_parse_result (mv s) n = on_ok mvm (into_parse_result s n).
Proof. unfold into_parse_result. go. Qed.
Hint Rewrite mv_into : sh.
Lemma mv_split s p : split_at_match_non_empty (mv s) p = on_ok (option_map mvm) (split_at_match_non_empty s p).
Proof. unfold split_at_match_non_empty. go. Qed.
Lemma mv_trim_after m c : trim_after_start_matches (mvm m) c = on_ok mvm (trim_after_start_matches m c).
Proof. unfold trim_after_start_matches. go. Qed.
Lemma mv_trim_item m c : trim_item_end_matches (mvm m) c = on_ok mvm (trim_item_end_matches m c).
Proof. unfold trim_item_end_matches. go. Qed.
Lemma mv_trim_spaces m : trim_item_trailing_spaces (mvm m) = on_ok mvm (trim_item_trailing_spaces m).
Proof. unfold trim_item_trailing_spaces. go. Qed.
Lemma mv_take_while s p : take_while (mv s) p = on_ok mvm (take_while s p).
Proof. unfold take_while. go. Qed.
Lemma mv_take_prefix s p : take_prefix (mv s) p = on_ok (option_map mvm) (take_prefix s p).
Proof. unfold take_prefix. go. Qed.
Hint Rewrite mv_split mv_trim_after mv_trim_item mv_trim_spaces mv_take_while mv_take_prefix : sh.
Lemma mv_take_ws s : take_whitespace (mv s) = on_ok mvm (take_whitespace s).
Proof. unfold take_whitespace. go. Qed.
Lemma mv_take_req s : take_required_whitespace (mv s) = on_ok (option_map mvm) (take_required_whitespace s).
Proof. unfold take_required_whitespace. go. Qed.
Lemma mv_discard s n : discard (mv s) n = on_ok mv (discard s n).
Proof. unfold discard. go. Qed.
Hint Rewrite mv_take_ws mv_take_req mv_discard : sh.
Lemma mv_discard_ws s : discard_whitespace (mv s) = on_ok mv (discard_whitespace s).
Proof. unfold discard_whitespace. go. Qed.
Lemma mv_discard_all s : discard_all (mv s) = on_ok mv (discard_all s).
Proof. unfold discard_all. go. Qed.
Lemma mv_trim_tw s : trim_trailing_whitespace (mv s) = on_ok mv (trim_trailing_whitespace s).
Proof. unfold trim_trailing_whitespace. go. Qed.
Lemma mv_trim_le s : trim_trailing_line_end (mv s) = on_ok mv (trim_trailing_line_end s).
Proof. unfold trim_trailing_line_end. go. Qed.
Lemma mv_take_line s : take_line (mv s) = on_ok mvm (take_line s).
Proof. unfold take_line. simp. destruct (position (N.eqb LF) (sp_data s)); rewrite mv_into, bind_on_ok, on_ok_bind; apply bind_more; intros a; rewrite mv_trim_after, bind_on_ok, on_ok_bind; apply bind_more; intros b; apply mv_trim_item. Qed.
Hint Rewrite mv_discard_ws mv_discard_all mv_trim_tw mv_trim_le mv_take_line : sh.
Lemma mv_norm_line s : take_normalized_line (mv s) = on_ok mvm (take_normalized_line s).
Proof. unfold take_normalized_line. go. Qed.
Lemma mv_non_empty s : take_non_empty_line (mv s) = on_ok (option_map mvm) (take_non_empty_line s).
Proof. unfold take_non_empty_line. go. Qed.
Lemma mv_empty s : take_empty_line (mv s) = on_ok (option_map mvm) (take_empty_line s).
Proof. unfold take_empty_line. go. Qed.
Hint Rewrite mv_norm_line mv_non_empty mv_empty : sh.
Lemma mv_empties_go f : forall s, discard_empty_lines_go f (mv s) = on_ok mv (discard_empty_lines_go f s).
Proof. induction f as [|f IH]; intros s; cbn [discard_empty_lines_go]; go; apply IH. Qed.
Lemma mv_empties s : discard_empty_lines (mv s) = on_ok mv (discard_empty_lines s).
Proof. apply mv_empties_go. Qed.
Lemma mv_one_cont s : one_line_with_continuation (mv s) = on_ok (option_map mvm) (one_line_with_continuation s).
Proof. unfold one_line_with_continuation. go. Qed.
Hint Rewrite mv_empties mv_one_cont : sh.
Lemma mv_cont_go f : forall m, continuation_go f (mvm m) = on_ok mvm (continuation_go f m).
Proof. induction f as [|f IH]; intros m; cbn [continuation_go]; go; apply IH. Qed.
Hint Rewrite mv_cont_go : sh.
Lemma mv_checked a b : checked_sub (a + o) (b + o) = checked_sub a b.
Proof. unfold checked_sub. replace (b + o <=? a + o) with (b <=? a); [replace (a + o - (b + o)) with (a - b) by lia; reflexivity|]. destruct (Nat.leb_spec b a), (Nat.leb_spec (b + o) (a + o)); lia || reflexivity. Qed.
Hint Rewrite mv_checked : sh.
Lemma mv_line_cont s : take_line_with_continuation (mv s) = on_ok (option_map mvm) (take_line_with_continuation s).
Proof. unfold take_line_with_continuation. go. Qed.
Lemma mv_name a b s : take_name a b (mv s) = on_ok (option_map mvm) (take_name a b s).
Proof. unfold take_name. go. Qed.
Lemma mv_ident s : take_ident (mv s) = on_ok (option_map mvm) (take_ident s).
Proof. apply mv_name. Qed.
Lemma mv_user_name s : take_user_attr_name (mv s) = on_ok (option_map mvm) (take_user_attr_name s).
Proof. apply mv_name. Qed.
Lemma mv_remainder s t : trim_remainder (mv s) (mv t) = on_ok mv (trim_remainder s t).
Proof.
  unfold trim_remainder. simp. replace (Nat.min (sp_off s + o + blen (sp_data s)) (sp_off t + o)) with (Nat.min (sp_off s + blen (sp_data s)) (sp_off t) + o) by lia. set (m := Nat.min _ _).
  replace (m + o <=? sp_off s + o) with (m <=? sp_off s) by (destruct (Nat.leb_spec m (sp_off s)), (Nat.leb_spec (m + o) (sp_off s + o)); lia || reflexivity). replace (m + o - (sp_off s + o)) with (m - sp_off s) by lia. go.
Qed.
Hint Rewrite mv_line_cont mv_ident mv_user_name mv_remainder : sh.
(** Attribute lists and attribute entries. *)
Lemma mv_warns s l : map (mkwarn (mv s)) l = map (mv_w k o) (map (mkwarn s) l).
Proof. rewrite map_map. reflexivity. Qed.
Lemma mv_attrlist U norm P s c : attrlist_parse U norm P (mv s) c = on_ok (fun r => (mv_mi k o (mv_al k o) (fst r), map (mv_w k o) (snd r))) (attrlist_parse U norm P s c).
Proof. unfold attrlist_parse. simp. rewrite on_ok_bind. apply bind_more; intros src. rewrite mv_discard_all, bind_on_ok, on_ok_bind. apply bind_more; intros a. destruct (_ && _); rewrite on_ok_bind; apply bind_more; intros r; [reflexivity|]. cbn [on_ok fst snd]. rewrite mv_warns. reflexivity. Qed.
Lemma mv_raw_value hdr s P : from_raw_value hdr (mv s) P = from_raw_value hdr s P. Proof. reflexivity. Qed.
Hint Rewrite mv_attrlist mv_raw_value : sh.
Lemma mv_entry hdr s P : attribute_parse hdr (mv s) P = on_ok (option_map (mv_mi k o (mv_at k o))) (attribute_parse hdr s P).
Proof.
  unfold attribute_parse. rewrite mv_line_cont, bind_on_ok, on_ok_bind. apply bind_more; intros [al|]; [|reflexivity]. simp. rewrite mv_take_prefix, bind_on_ok, on_ok_bind. apply bind_more; intros [co|]; [|reflexivity]. simp.
  set (u := starts_with (lit "!") (sp_data (mi_after co))). rewrite on_ok_bind. apply (bind_rel mv); [destruct u; [apply mv_slice_from|reflexivity]|intros li].
  rewrite mv_user_name, bind_on_ok, on_ok_bind. apply bind_more; intros [nm|]; [|reflexivity]. simp. set (u2 := _ && negb u). rewrite on_ok_bind. apply (bind_rel mv); [destruct u2; [apply mv_slice_from|reflexivity]|intros l2].
  rewrite mv_take_prefix, bind_on_ok, on_ok_bind. apply bind_more; intros [l3|]; [|reflexivity]. simp. rewrite on_ok_bind. apply (bind_rel (fun v => (fst v, option_map mv (snd v)))); [|intros v; go].
  destruct (u || u2); [reflexivity|]. destruct (sp_data (mi_after l3)); [reflexivity|]. go.
Qed.
Hint Rewrite mv_entry : sh.
(** Metadata. *)
Notation mvw := (mv_w k o).
Notation mva := (mv_al k o).
Definition mv_ms (m : mdstate) : mdstate :=
  mkms (option_map mv (ms_title m)) (option_map mv (ms_anchor m)) (option_map mv (ms_reftext m)) (option_map mva (ms_attrlist m)) (mv (ms_start m)) (map mvw (ms_warnings m)).
Ltac simp2 := simp; cbn [mv_ms ms_title ms_anchor ms_reftext ms_attrlist ms_start ms_warnings] in *.
Lemma eqb_plus a b c : (a + c =? b + c) = (a =? b).
Proof. destruct (Nat.eqb_spec a b), (Nat.eqb_spec (a + c) (b + c)); lia || reflexivity. Qed.
Lemma mv_eqb a b : span_eqb (mv a) (mv b) = span_eqb a b.
Proof. unfold span_eqb. simp. rewrite !eqb_plus. reflexivity. Qed.
Lemma mv_block_anchor s : parse_maybe_block_anchor (mv s) = on_ok (fun r => (option_map mvm (fst r), map mvw (snd r))) (parse_maybe_block_anchor s).
Proof. unfold parse_maybe_block_anchor. go. Qed.
Lemma mv_attrlist_line E s P : parse_maybe_attrlist_line E (mv s) P = on_ok (option_map (fun r => (mv_mi k o mva (fst r), map mvw (snd r)))) (parse_maybe_attrlist_line E s P).
Proof. unfold parse_maybe_attrlist_line. go. Qed.
Hint Rewrite mv_eqb mv_block_anchor mv_attrlist_line : sh.
Lemma mv_title_step m : md_title_step (mv_ms m) = on_ok (option_map mv_ms) (md_title_step m).
Proof. unfold md_title_step. simp2. destruct (ms_title m); simp2; [reflexivity|]. repeat (simp2; go). Qed.
Lemma mv_anchor_step U m : md_anchor_step U (mv_ms m) = on_ok (fun r => (mv_ms (fst r), snd r)) (md_anchor_step U m).
Proof.
  unfold md_anchor_step. simp2. destruct (ms_anchor m) eqn:A; simp2; [destruct m; simp2; subst; reflexivity|]. rewrite mv_block_anchor, bind_on_ok, on_ok_bind. apply bind_more; intros [[mi|] w]; simp2.
  - rewrite on_ok_bind. apply (bind_rel mv_ms).
    + destruct (position _ _); [rewrite on_ok_bind; apply bind_more; intros la; destruct (_ <? la)|].
      * rewrite mv_slice_to, bind_on_ok, on_ok_bind. apply bind_more; intros an. rewrite mv_slice_from, bind_on_ok, on_ok_bind. apply bind_more; intros rf. simp2. destruct (is_xml_name _ _); unfold mv_ms; cbn [ms_title ms_anchor ms_reftext ms_attrlist ms_start ms_warnings]; rewrite ?map_app; reflexivity.
      * simp2. destruct (is_xml_name _ _); unfold mv_ms; cbn [ms_title ms_anchor ms_reftext ms_attrlist ms_start ms_warnings]; rewrite ?map_app; reflexivity.
      * simp2. destruct (is_xml_name _ _); unfold mv_ms; cbn [ms_title ms_anchor ms_reftext ms_attrlist ms_start ms_warnings]; rewrite ?map_app; reflexivity.
    + intros m'. simp2. rewrite mv_eqb. reflexivity.
  - unfold mv_ms; cbn [ms_title ms_anchor ms_reftext ms_attrlist ms_start ms_warnings]; rewrite ?map_app; reflexivity.
Qed.
Lemma mv_attrlist_step E P m : md_attrlist_step E P (mv_ms m) = on_ok (fun r => (mv_ms (fst r), snd r)) (md_attrlist_step E P m).
Proof.
  unfold md_attrlist_step. simp2. destruct (ms_attrlist m) eqn:A; simp2; [destruct m; simp2; subst; reflexivity|]. rewrite mv_attrlist_line, bind_on_ok, on_ok_bind. apply bind_more; intros [[a w]|]; simp2; [|destruct m; simp2; subst; reflexivity].
  unfold mv_ms; cbn [ms_title ms_anchor ms_reftext ms_attrlist ms_start ms_warnings]; rewrite ?map_app; reflexivity.
Qed.
Hint Rewrite mv_title_step mv_anchor_step mv_attrlist_step : sh.
Lemma mv_md_loop E P f : forall m, md_loop E P f (mv_ms m) = on_ok mv_ms (md_loop E P f m).
Proof. induction f as [|f IH]; intros m; cbn [md_loop]; go; apply IH. Qed.
Lemma mv_metadata E s P : metadata_parse E (mv s) P = on_ok (fun r => (mv_md k o (fst r), map mvw (snd r))) (metadata_parse E s P).
Proof.
  unfold metadata_parse. rewrite mv_empties, bind_on_ok, on_ok_bind. apply bind_more; intros s0. change (mkms None None None None (mv s0) []) with (mv_ms (mkms None None None None s0 [])). rewrite mv_md_loop, bind_on_ok, on_ok_bind.
  apply bind_more; intros m. simp2. destruct (ms_title m); simp2; rewrite ?on_ok_bind; [|reflexivity]. rewrite !bind_bind. apply bind_more; intros t. reflexivity.
Qed.
Lemma mv_style a : style_of (option_map mva a) = style_of a. Proof. destruct a; reflexivity. Qed.
Lemma mv_hb a : hardbreaks (option_map mva a) = hardbreaks a. Proof. destruct a; reflexivity. Qed.
Lemma mv_subs E P g a t : apply_subs E P g (option_map mva a) t = apply_subs E P g a t. Proof. unfold apply_subs. rewrite mv_hb. reflexivity. Qed.
Lemma mv_override g a : override_via_attrlist g (option_map mva a) = override_via_attrlist g a. Proof. destruct a; reflexivity. Qed.
Lemma mv_discrete m : is_discrete (mv_md k o m) = is_discrete m. Proof. unfold is_discrete. simp. rewrite mv_style. reflexivity. Qed.
Lemma mv_common m : common_of (mv_md k o m) = mv_cm k o (common_of m). Proof. reflexivity. Qed.
Hint Rewrite mv_metadata mv_style mv_hb mv_subs mv_override mv_discrete mv_common : sh.
(** Paragraphs. *)
Lemma mv_kept n s : kept_line n (mv s) = kept_line n s.
Proof. unfold kept_line. apply (bind_rel mv); [simp; destruct (0 <? n); [|reflexivity]; destruct (position _ _); [|reflexivity]; go|]. intros a. rewrite mv_trim_tw, bind_on_ok. reflexivity. Qed.
Hint Rewrite mv_kept : sh.
Lemma mv_lines f n : forall s l, simple_lines f n (mv s) l = on_ok (fun r => (fst r, mv (snd r))) (simple_lines f n s l).
Proof.
  induction f as [|f IH]; intros s l; cbn [simple_lines]; rewrite mv_non_empty, bind_on_ok, on_ok_bind; apply bind_more; intros [li|]; simp; try reflexivity; rewrite on_ok_bind; apply bind_more; intros [|]; try reflexivity.
  destruct (is_comment_line _); [apply IH|]. rewrite mv_kept, on_ok_bind. apply bind_more; intros x. apply IH.
Qed.
Hint Rewrite mv_lines : sh.
Lemma mv_parse_lines E s a P : parse_lines E (mv s) (option_map mva a) P = on_ok (option_map (mv_mi k o (fun c => (mv_ct k o (fst c), snd c)))) (parse_lines E s a P).
Proof. unfold parse_lines. go. Qed.
Lemma mv_parse_lines_none E s P : parse_lines E (mv s) None P = on_ok (option_map (mv_mi k o (fun c => (mv_ct k o (fst c), snd c)))) (parse_lines E s None P).
Proof. exact (mv_parse_lines E s None P). Qed.
Notation mvb := (mv_block k o).
Notation mvmb := (mv_mi k o mvb).
Hint Rewrite mv_parse_lines mv_parse_lines_none : sh.
Lemma mv_simple E m P : simple_parse E (mv_md k o m) P = on_ok (option_map mvmb) (simple_parse E m P).
Proof. unfold simple_parse. go. Qed.
Lemma mv_fast E s P : simple_parse_fast E (mv s) P = on_ok (option_map mvmb) (simple_parse_fast E s P).
Proof. unfold simple_parse_fast. go. Qed.
Hint Rewrite mv_simple mv_fast : sh.
(** Delimited blocks. *)
Lemma mv_find f d : forall s, find_delimiter f d (mv s) = on_ok (fun r => (mv (fst r), option_map mvm (snd r))) (find_delimiter f d s).
Proof. induction f as [|f IH]; intros s; cbn [find_delimiter]; go; apply IH. Qed.
Hint Rewrite mv_find : sh.
Lemma mv_raw E m P : raw_parse E (mv_md k o m) P = on_ok (option_map (fun r => (mvmb (fst r), map mvw (snd r)))) (raw_parse E m P).
Proof.
  unfold raw_parse. simp. rewrite mv_norm_line, bind_on_ok, on_ok_bind. apply bind_more; intros de. simp. destruct (_ <? 4); [reflexivity|]. destruct (raw_kind _) as [[mo [cx g]]|]; [|reflexivity]. rewrite on_ok_bind. apply bind_more; intros [|]; [|reflexivity]. cbn [negb].
  rewrite mv_find, bind_on_ok, on_ok_bind. apply bind_more; intros [nx li]. simp. rewrite mv_remainder, bind_on_ok, on_ok_bind. apply bind_more; intros c. rewrite mv_trim_le, bind_on_ok, on_ok_bind. apply bind_more; intros c1. destruct li; simp; go.
Qed.
Definition mv_stop (f : stop_fn) : Prop := forall s n, f (mv s) n = on_ok (fun r => (fst r, (fst (snd r), map mvw (snd (snd r))))) (f s n).
Notation mvr := (mv_bres k o).
Definition mv_until (un : stop_fn -> nat -> span -> parser -> res bres) : Prop := forall f n s P, mv_stop f -> un f n (mv s) P = on_ok mvr (un f n s P).
Lemma mv_never : mv_stop never. Proof. intros s n. reflexivity. Qed.
Lemma mv_nil {A B} (f : A -> B) (l : list A) : is_nil (map f l) = is_nil l. Proof. destruct l; reflexivity. Qed.
Lemma mv_compound un m P : (forall s P, un (mv s) P = on_ok mvr (un s P)) ->
  compound_parse un (mv_md k o m) P = on_ok (option_map (fun r => (mvmb (fst r), (map mvw (fst (snd r)), snd (snd r))))) (compound_parse un m P).
Proof.
  intros Hu. unfold compound_parse. simp. rewrite mv_norm_line, bind_on_ok, on_ok_bind. apply bind_more; intros de. simp. destruct (compound_context _) as [cx|]; [|reflexivity]. rewrite on_ok_bind. apply bind_more; intros [|]; [|reflexivity]. cbn [negb].
  rewrite mv_find, bind_on_ok, on_ok_bind. apply bind_more; intros [nx li]. simp.
  assert (C : (match option_map mvm li with Some line => mi_item line | None => mv nx end) = mv (match li with Some line => mi_item line | None => nx end)) by (destruct li; reflexivity).
  assert (A : (match option_map mvm li with Some line => mi_after line | None => mv nx end) = mv (match li with Some line => mi_after line | None => nx end)) by (destruct li; reflexivity).
  rewrite C, A. clear C A. set (cl := match li with Some line => mi_item line | None => nx end). set (af := match li with Some line => mi_after line | None => nx end).
  rewrite mv_remainder, bind_on_ok, on_ok_bind. apply bind_more; intros ins. rewrite Hu, bind_on_ok, on_ok_bind. apply bind_more; intros b. rewrite mv_discard_all, bind_on_ok, on_ok_bind. apply bind_more; intros ca.
  rewrite mv_remainder, bind_on_ok, on_ok_bind. apply bind_more; intros src. rewrite mv_trim_tw, bind_on_ok, on_ok_bind. apply bind_more; intros src1. simp. cbn [mv_bres br_blocks br_warnings br_parser]. destruct (is_nil (sp_data cl)); reflexivity.
Qed.
(** Media blocks and breaks. *)
Lemma mv_line_source m s : line_block_source (mv_md k o m) (mv s) = on_ok mv (line_block_source m s).
Proof. unfold line_block_source. go. Qed.
Hint Rewrite mv_line_source : sh.
Lemma mv_media E m P : media_parse E (mv_md k o m) P = on_ok (fun r => (option_map mvmb (fst r), map mvw (snd r))) (media_parse E m P).
Proof. unfold media_parse. go. Qed.
Lemma mv_break m : break_parse (mv_md k o m) = on_ok (option_map mvmb) (break_parse m).
Proof. unfold break_parse. go. Qed.
Hint Rewrite mv_raw mv_media mv_break : sh.
(** Sections. *)
Lemma mv_count f mk : forall s c, count_marker f mk (mv s) c = on_ok (fun r => (fst r, mv (snd r))) (count_marker f mk s c).
Proof. induction f as [|f IH]; intros s c; cbn [count_marker]; go; apply IH. Qed.
Hint Rewrite mv_count : sh.
Lemma mv_title_line s : parse_title_line (mv s) = on_ok (fun r => (option_map (mv_mi k o (fun x => (fst x, mv (snd x)))) (fst r), map mvw (snd r))) (parse_title_line s).
Proof. unfold parse_title_line. go. Qed.
Hint Rewrite mv_title_line : sh.
Lemma mv_peer E l : mv_stop (peer_or_ancestor_section E l).
Proof.
  intros s n. unfold peer_or_ancestor_section. rewrite mv_metadata, bind_on_ok, on_ok_bind. apply bind_more; intros md. simp. rewrite mv_discrete, on_ok_bind. apply bind_more; intros [|]; [reflexivity|]. rewrite mv_title_line, bind_on_ok, on_ok_bind. apply bind_more; intros [[mi|] w]; simp; [|reflexivity].
  rewrite on_ok_bind. apply (bind_rel (map mvw)); [destruct (_ <? _); [go|reflexivity]|]. intros a. simp. rewrite map_app. reflexivity.
Qed.
Lemma mv_section_stop E d l : mv_stop (section_stop E d l).
Proof. intros s n. unfold section_stop. destruct d; [reflexivity|apply mv_peer]. Qed.
Lemma mv_manual m : manual_id (mv_md k o m) = manual_id m.
Proof. unfold manual_id. simp. destruct (md_attrlist m), (md_anchor m); reflexivity. Qed.
Lemma mv_reftext m t : section_reftext (mv_md k o m) t = section_reftext m t.
Proof. unfold section_reftext. simp. destruct (md_attrlist m); reflexivity. Qed.
Lemma mv_register b i ba r a P : section_register b i ba r (on_ok mv a) P = on_ok (fun x => (fst x, (fst (snd x), map mvw (snd (snd x))))) (section_register b i ba r a P).
Proof. unfold section_register. destruct (p_catalog P); [|reflexivity]. destruct i; [destruct (fst _); [reflexivity|go]|destruct b; [go|reflexivity]]. Qed.
Lemma mv_section E un m P : mv_until un -> section_parse E un (mv_md k o m) P = on_ok (fun r => (option_map mvmb (fst r), (map mvw (fst (snd r)), snd (snd r)))) (section_parse E un m P).
Proof.
  intros Hu. unfold section_parse. rewrite mv_discrete, on_ok_bind. apply bind_more; intros di. simp. rewrite mv_empties, bind_on_ok, on_ok_bind. apply bind_more; intros s. rewrite mv_title_line, bind_on_ok, on_ok_bind. apply bind_more; intros [[mi|] w]; simp; [|reflexivity].
  rewrite mv_style, on_ok_bind. apply bind_more; intros bs. set (tp := section_type_of _ _ _ _). set (np := if _ && _ && _ then _ else _). rewrite Hu by apply mv_section_stop. rewrite bind_on_ok, on_ok_bind. apply bind_more; intros b. cbn [mv_bres br_blocks br_after br_warnings br_stop_warnings br_parser].
  rewrite mv_remainder, bind_on_ok, on_ok_bind. apply bind_more; intros src. rewrite mv_subs, on_ok_bind. apply bind_more; intros ti. rewrite on_ok_bind. apply bind_more; intros ba. rewrite mv_manual, on_ok_bind. apply bind_more; intros ma.
  rewrite mv_reftext, mv_remainder, mv_register, bind_on_ok, on_ok_bind. apply bind_more; intros rg. rewrite mv_trim_tw, bind_on_ok, on_ok_bind. apply bind_more; intros src1. simp. rewrite !map_app. reflexivity.
Qed.
(** Any block. *)
Lemma mv_block_common b : block_common (mvb b) = mv_cm k o (block_common b). Proof. destruct b; reflexivity. Qed.
Lemma mv_block_span b : block_span (mvb b) = mv (block_span b). Proof. destruct b; reflexivity. Qed.
Lemma mv_common_id m : common_id (mv_cm k o m) = common_id m. Proof. unfold common_id. simp. destruct (cm_anchor m); [reflexivity|]. destruct (cm_attrlist m); reflexivity. Qed.
Lemma mv_block_id b : block_id (mvb b) = block_id b.
Proof. unfold block_id. rewrite mv_block_common, mv_common_id. apply bind_more; intros i. destruct b; reflexivity. Qed.
Lemma mv_reg i t s P : register_block_id i t (mv s) P = (fst (register_block_id i t s P), map mvw (snd (register_block_id i t s P))).
Proof. unfold register_block_id. destruct i, (p_catalog P); try reflexivity. cbn [fst snd]. destruct (fst _); reflexivity. Qed.
Notation mvp := (mv_pres k o).
Lemma mv_finish mi w P : finish (mvmb mi) (map mvw w) P = on_ok mvp (finish mi w P).
Proof. unfold finish. simp. rewrite mv_block_id, on_ok_bind. apply bind_more; intros i. rewrite mv_block_common, mv_block_span. cbn [mv_cm cm_title]. rewrite mv_reg. cbn [on_ok fst snd]. unfold mv_pres. cbn [pr_item pr_warnings pr_parser]. rewrite map_app. reflexivity. Qed.
Lemma mv_last E m w P : last_resort E (mv_md k o m) (map mvw w) P = on_ok mvp (last_resort E m w P).
Proof. unfold last_resort. rewrite mv_simple, bind_on_ok, on_ok_bind. apply bind_more; intros [mi|]; simp; [apply mv_finish|reflexivity]. Qed.
Lemma mv_empty_md m : md_is_empty (mv_md k o m) = md_is_empty m. Proof. unfold md_is_empty. simp. destruct (md_attrlist m); reflexivity. Qed.
Lemma mv_no_block E m w P : no_block E (mv_md k o m) (map mvw w) P = on_ok mvp (no_block E m w P).
Proof.
  unfold no_block. rewrite mv_simple, bind_on_ok, on_ok_bind. apply bind_more; intros s. rewrite mv_empty_md. replace (is_some (option_map mvmb s)) with (is_some s) by (destruct s; reflexivity). destruct (_ && _); [|apply mv_last].
  change (orphan_metadata (mv_md k o m)) with (mv_md k o (orphan_metadata m)). replace (map mvw w ++ _) with (map mvw (w ++ [mkwarn (md_source m) WMissingBlockAfterTitleOrAttributeList])) by (rewrite map_app; reflexivity). apply mv_last.
Qed.
Lemma mv_try_break E m l w P : try_break E (mv_md k o m) l (map mvw w) P = on_ok mvp (try_break E m l w P).
Proof. unfold try_break. rewrite on_ok_bind. apply (bind_rel (option_map mvmb)); [destruct (starts_with_any _ _); [apply mv_break|reflexivity]|]. intros [mi|]; simp; [reflexivity|apply mv_no_block]. Qed.
Lemma mv_try_section E un m l w P : mv_until un -> try_section E un (mv_md k o m) l (map mvw w) P = on_ok mvp (try_section E un m l w P).
Proof.
  intros Hu. unfold try_section. rewrite on_ok_bind. apply (bind_rel (fun r => (option_map mvmb (fst r), (map mvw (fst (snd r)), snd (snd r))))); [destruct (starts_with_any _ _); [apply mv_section, Hu|reflexivity]|].
  intros [[mi|] [w' P']]; simp; rewrite <- map_app; [reflexivity|apply mv_try_break].
Qed.
Lemma mv_try_media E un m l w P : mv_until un -> try_media E un (mv_md k o m) l (map mvw w) P = on_ok mvp (try_media E un m l w P).
Proof.
  intros Hu. unfold try_media. rewrite on_ok_bind. apply (bind_rel (fun r => (option_map mvmb (fst r), map mvw (snd r)))); [destruct (_ || _); [apply mv_media|reflexivity]|].
  intros [[mi|] w']; simp; [rewrite <- map_app; apply mv_finish|apply mv_try_section, Hu].
Qed.
Lemma mv_with_metadata E un m w P : mv_until un -> with_metadata E un (mv_md k o m) (map mvw w) P = on_ok mvp (with_metadata E un m w P).
Proof.
  intros Hu. unfold with_metadata. simp. rewrite mv_style, on_ok_bind. apply bind_more; intros bs. destruct (style_is _ _); [apply mv_last|]. rewrite mv_raw, bind_on_ok, on_ok_bind. apply bind_more; intros [[r w']|]; simp; [rewrite <- map_app; apply mv_finish|].
  rewrite mv_compound by (intros; apply Hu, mv_never). rewrite bind_on_ok, on_ok_bind. apply bind_more; intros [[r [w' P']]|]; simp; [rewrite <- map_app; apply mv_finish|].
  rewrite mv_norm_line, bind_on_ok, on_ok_bind. apply bind_more; intros li. apply mv_try_media, Hu.
Qed.
Lemma mv_body U P a : set_attribute_from_body U P (mv_at k o a) = (fst (set_attribute_from_body U P a), map mvw (snd (set_attribute_from_body U P a))).
Proof. unfold set_attribute_from_body. simp. set (b := match _ with Some _ => _ | None => _ end). destruct b; reflexivity. Qed.
Lemma mv_block_parse E un s P : mv_until un -> block_parse_with E un (mv s) P = on_ok mvp (block_parse_with E un s P).
Proof.
  intros Hu. unfold block_parse_with. rewrite mv_take_line, bind_on_ok, on_ok_bind. apply bind_more; intros fl. change (try_fast (mv s) (mi_item (mvm fl))) with (try_fast s (mi_item fl)). change (try_entry (mi_item (mvm fl))) with (try_entry (mi_item fl)).
  rewrite on_ok_bind. apply (bind_rel (option_map mvmb)); [destruct (try_fast _ _); [apply mv_fast|reflexivity]|]. intros [mi|]; simp; [exact (mv_finish mi [] P)|].
  rewrite on_ok_bind. apply (bind_rel (option_map (mv_mi k o (mv_at k o)))); [destruct (try_entry _); [apply mv_entry|reflexivity]|]. intros [a|]; simp.
  - rewrite mv_body. reflexivity.
  - rewrite mv_metadata, bind_on_ok, on_ok_bind. apply bind_more; intros md. apply mv_with_metadata, Hu.
Qed.
Lemma mv_loop E fuel : forall f n s P, mv_stop f -> blocks_loop E fuel f n (mv s) P = on_ok mvr (blocks_loop E fuel f n s P).
Proof.
  induction fuel as [|fuel IH]; intros f n s P Hf; cbn [blocks_loop]; change (sp_data (mv s)) with (sp_data s); destruct (sp_data s) as [|c d] eqn:D; try reflexivity.
  rewrite Hf, bind_on_ok, on_ok_bind. apply bind_more; intros st. simp. destruct (fst st); [reflexivity|]. rewrite mv_block_parse.
  - rewrite bind_on_ok, on_ok_bind. apply bind_more; intros r. cbn [mv_pres pr_item pr_warnings pr_parser]. replace (match option_map mvmb (pr_item r) with Some mi => mi_after mi | None => mv s end) with (mv (match pr_item r with Some mi => mi_after mi | None => s end)) by (destruct (pr_item r); reflexivity).
    rewrite IH by exact Hf. rewrite bind_on_ok, on_ok_bind. apply bind_more; intros rest. cbn [on_ok mv_bres br_blocks br_after br_warnings br_level br_stop_warnings br_parser]. unfold mv_bres. cbn [br_blocks br_after br_warnings br_level br_stop_warnings br_parser]. rewrite !map_app. destruct (pr_item r); reflexivity.
  - intros f' n' s' P' Hf'. rewrite mv_empties, bind_on_ok, on_ok_bind. apply bind_more; intros s0. apply IH, Hf'.
Qed.
Lemma mv_blocks E fuel : mv_until (parse_blocks_until E fuel).
Proof. intros f n s P Hf. unfold parse_blocks_until. rewrite mv_empties, bind_on_ok, on_ok_bind. apply bind_more; intros s0. apply mv_loop, Hf. Qed.
(** The header. *)
Definition mv_hs (h : hstate) : hstate :=
  mkhs (option_map mv (s_title_source h)) (s_title h) (map (mv_at k o) (s_attrs h)) (option_map (mv_aul k o) (s_author h)) (option_map (mv_rev k o) (s_revision h)) (map mv (s_comments h)) (map mvw (s_warnings h)) (s_parser h).
Ltac simp3 := simp; cbn [mv_hs s_title_source s_title s_attrs s_author s_revision s_comments s_warnings s_parser] in *.
Lemma mv_is_some {A B} (f : A -> B) (x : option A) : is_some (option_map f x) = is_some x. Proof. destruct x; reflexivity. Qed.
Lemma mv_authors U s P : author_line_parse U (mv s) P = on_ok (fun r => (mv_aul k o (fst r), snd r)) (author_line_parse U s P).
Proof. unfold author_line_parse. simp. rewrite on_ok_bind. apply bind_more; intros l. reflexivity. Qed.
Lemma mv_revision E s P : revision_parse E (mv s) P = on_ok (fun r => (mv_rev k o (fst r), snd r)) (revision_parse E s P).
Proof. unfold revision_parse. simp. rewrite !on_ok_bind. apply bind_more; intros n. rewrite !on_ok_bind. apply bind_more; intros d. rewrite !on_ok_bind. apply bind_more; intros r. reflexivity. Qed.
Lemma mv_author_entry U a P : set_author_entry U (mv_at k o a) P = set_author_entry U a P.
Proof. unfold set_author_entry. simp. destruct (eq_ignore_ascii_case _ _); [|reflexivity]. destruct (at_value_source a); reflexivity. Qed.
Lemma mv_from_header U P a : set_attribute_from_header U P (mv_at k o a) = (fst (set_attribute_from_header U P a), map mvw (snd (set_attribute_from_header U P a))).
Proof. unfold set_attribute_from_header. simp. set (b := match mget _ (p_attrs P) with Some _ => _ | None => _ end). destruct b; reflexivity. Qed.
Lemma mv_header_step E s h : header_step E (mv s) (mv_hs h) = on_ok (fun r => (mv_hs (fst r), option_map mv (snd r))) (header_step E s h).
Proof.
  unfold header_step. rewrite mv_norm_line, bind_on_ok, on_ok_bind. apply bind_more; intros li. simp3. destruct (is_nil _); [destruct (s_title h); reflexivity|].
  destruct (_ && negb (starts_with (lit "///") _)). { cbn [on_ok fst snd]. unfold mv_hs. cbn [s_title_source s_title s_attrs s_author s_revision s_comments s_warnings s_parser]. rewrite map_app. reflexivity. }
  rewrite on_ok_bind. apply (bind_rel (option_map (mv_mi k o (mv_at k o)))).
  { unfold header_attr. simp3. destruct (starts_with _ _); [apply mv_entry|reflexivity]. }
  intros [a|]; simp3.
  - rewrite mv_author_entry, on_ok_bind. apply bind_more; intros P1. rewrite mv_from_header. simp. unfold mv_hs. cbn [s_title_source s_title s_attrs s_author s_revision s_comments s_warnings s_parser]. rewrite !map_app. reflexivity.
  - rewrite !mv_is_some. destruct (negb _ && _).
    { rewrite mv_discard, bind_on_ok, on_ok_bind. apply bind_more; intros d. rewrite mv_discard_ws, bind_on_ok, on_ok_bind. apply bind_more; intros ts. simp. rewrite on_ok_bind. apply bind_more; intros ti. reflexivity. }
    destruct (is_some (s_title h) && negb (is_some (s_author h))). { rewrite mv_authors, bind_on_ok, on_ok_bind. apply bind_more; intros ap. reflexivity. }
    destruct (is_some (s_title h) && is_some (s_author h) && negb (is_some (s_revision h))). { rewrite mv_revision, bind_on_ok, on_ok_bind. apply bind_more; intros rp. reflexivity. }
    destruct (s_title h) eqn:T; cbn [is_some on_ok fst snd option_map]; [|reflexivity]. unfold mv_hs. cbn [s_title_source s_title s_attrs s_author s_revision s_comments s_warnings s_parser]. rewrite map_app. reflexivity.
Qed.
Lemma mv_header_loop E f : forall s h, header_loop E f (mv s) (mv_hs h) = on_ok (fun r => (mv_hs (fst r), mv (snd r))) (header_loop E f s h).
Proof.
  induction f as [|f IH]; intros s h; cbn [header_loop]; change (sp_data (mv s)) with (sp_data s); destruct (sp_data s) eqn:D; try reflexivity.
  rewrite mv_header_step, bind_on_ok, on_ok_bind. apply bind_more; intros r. simp. destruct (snd r); [apply IH|reflexivity].
Qed.
Lemma mv_preamble bs s : make_preamble (map mvb bs) (mv s) = on_ok (map mvb) (make_preamble bs s).
Proof.
  unfold make_preamble. assert (K : forall l i b, preamble_split i b (map mvb l) = preamble_split i b l). { induction l as [|x l IH]; intros i b; [reflexivity|]. destruct x; cbn [map mv_block preamble_split]; auto. }
  rewrite K. destruct (preamble_split 0 false bs) as [i|]; [|reflexivity]. rewrite firstn_map, skipn_map, on_ok_bind. apply (bind_rel mvb); [|intros p; reflexivity].
  unfold preamble_from_blocks. rewrite <- map_rev, on_ok_bind. apply (bind_rel mv); [|intros p; reflexivity]. destruct (rev (firstn i bs)) as [|b l]; cbn [map]; [apply mv_remainder|]. rewrite mv_block_span, mv_discard_all, bind_on_ok, on_ok_bind. apply bind_more; intros a. apply mv_remainder.
Qed.
End moved.

(** * Blank lines before a document *)
Lemma blank_a_line n e x : e = [] \/ e = [CR] -> a_line (repeat SP n ++ e ++ LF :: x) (repeat SP n ++ e ++ [LF]) x [].
Proof.
  intros He. exists (repeat SP n ++ e), [LF]. rewrite <- !app_assoc. split; [reflexivity|]. split; [reflexivity|]. split.
  { intros H. apply in_app_iff in H. destruct H as [H|H]; [apply repeat_spec in H; discriminate H|]. destruct He as [->| ->]; [destruct H|destruct H as [H|[]]; discriminate H]. }
  split; [left; reflexivity|]. exists (repeat SP n), (repeat SP n). split; [|split; [reflexivity|split; [intros c; apply repeat_spec|intros y H; destruct y; discriminate H]]].
  destruct He as [->| ->]; [right|left; reflexivity]. rewrite app_nil_r. split; [reflexivity|]. intros y H. assert (K : In CR (repeat SP n)) by (rewrite H; apply in_app_iff; right; left; reflexivity). apply repeat_spec in K. discriminate K.
Qed.
Lemma after_blank s n e x : e = [] \/ e = [CR] -> sp_col s = 1 -> sp_data s = repeat SP n ++ e ++ LF :: x ->
  skip s (repeat SP n ++ e ++ [LF]) x = mkspan x (sp_line s + 1) 1 (sp_off s + blen (repeat SP n ++ e ++ [LF])).
Proof.
  intros He Hc Hd. assert (C : forall m y, count_lf (repeat SP m ++ y) = count_lf y) by (induction m as [|m IH]; intros y; cbn [repeat app count_lf]; [reflexivity|rewrite IH; reflexivity]).
  assert (L : forall y, 0 < count_lf y -> forall m, after_last_lf (repeat SP m ++ y) = after_last_lf y). { intros y Hy. induction m as [|m IH]; cbn [repeat app after_last_lf]; [reflexivity|]. change (SP =? LF)%N with false. cbv iota. rewrite C. destruct (Nat.ltb_spec 0 (count_lf y)); [exact IH|lia]. }
  assert (B : blen (repeat SP n ++ e ++ [LF]) <> 0). { rewrite !blen_app. change (blen [LF]) with 1. lia. }
  unfold skip, slice_internal. destruct (Nat.eqb_spec (blen (repeat SP n ++ e ++ [LF])) 0) as [Z|_]; [contradiction|]. rewrite C, L by (destruct He as [->| ->]; cbn; lia). destruct He as [->| ->]; reflexivity.
Qed.
Lemma discard_moved x m : blank_lines x m -> forall s t, sp_col s = 1 -> sp_data s = x ++ t -> p_discard_empty_lines s = p_discard_empty_lines (mkspan t (sp_line s + m) 1 (sp_off s + blen x)).
Proof.
  intros H. induction H as [|n e x m He H IH]; intros s t Hc Hd.
  - cbn [app] in Hd. f_equal. destruct s as [d l c o]. cbn in *. subst. f_equal; cbn; lia.
  - rewrite <- !app_assoc in Hd. cbn [app] in Hd. rewrite (discard_blank s (repeat SP n ++ e ++ [LF]) (x ++ t)); [|rewrite Hd; apply blank_a_line, He|rewrite Hd; intros K; apply app_eq_nil in K; destruct K as [_ K]; apply app_eq_nil in K; destruct K as [_ K]; discriminate K].
    rewrite (after_blank _ _ _ _ He Hc Hd). rewrite (IH (mkspan (x ++ t) _ 1 _) t eq_refl eq_refl). cbn [sp_line sp_off]. f_equal. f_equal; [lia|]. change (LF :: x) with ([LF] ++ x). rewrite !blen_app. lia.
Qed.
Lemma header_fuel E : forall f g s h ts, inv E ts h -> length (sp_data s) <= f -> length (sp_data s) <= g -> header_loop E f s h = header_loop E g s h.
Proof.
  induction f as [|f IH]; intros g s h ts Hi Hf Hg.
  - destruct (sp_data s) eqn:D; [|cbn in Hf; lia]. destruct g; cbn [header_loop]; rewrite D; reflexivity.
  - destruct g as [|g]; cbn [header_loop]; destruct (sp_data s) as [|c t] eqn:D; try reflexivity; [cbn in Hg; lia|]. rewrite <- D in *. assert (Ne : sp_data s <> []) by (rewrite D; discriminate). clear D c t.
    destruct (header_step E s h) as [[h1 o]| |] eqn:Es; cbn [bind fst snd]; [|reflexivity|reflexivity]. destruct o as [s'|]; [|reflexivity].
    destruct (header_step_spec E s h ts h1 _ Ne Hi Es) as (kk & r & Hk & Hr & Hs & _ & _ & _ & S). pose proof (hline_shorter _ _ _ Hk Ne) as Lr.
    assert (X : exists ts1, inv E ts1 h1) by (destruct kk; [destruct S as [_ S]|..|destruct S as (_ & _ & S)]; eauto). destruct X as (ts1 & X). apply (IH g s' h1 ts1 X); rewrite Hr; lia.
Qed.
Lemma header_blank E P x m : blank_lines x m -> forall s t f, sp_col s = 1 -> sp_data s = x ++ t -> length (sp_data s) <= f ->
  header_loop E f s (hs_new P) = header_loop E (length t) (mkspan t (sp_line s + m) 1 (sp_off s + blen x)) (hs_new P).
Proof.
  intros H. induction H as [|n e x m He H IH]; intros s t f Hc Hd Hf.
  - cbn [app] in Hd. replace (mkspan t (sp_line s + 0) 1 (sp_off s + blen [])) with s by (destruct s as [d l c o]; cbn in *; subst; f_equal; cbn; lia). apply (header_fuel E _ _ _ _ [] (inv_new E P)); [exact Hf|rewrite Hd; apply le_n].
  - rewrite <- !app_assoc in Hd. cbn [app] in Hd. destruct f as [|f]; [rewrite Hd, !app_length in Hf; cbn in Hf; lia|]. cbn [header_loop]. destruct (sp_data s) as [|c d] eqn:D; [destruct n; [destruct He as [->| ->]|]; discriminate Hd|]. rewrite <- D in *. clear D c d.
    pose proof (blank_a_line n e (x ++ t) He) as Hl. rewrite <- Hd in Hl. unfold header_step. rewrite (take_norm_eq _ _ _ _ Hl). cbn [bind mi_item mi_after]. cbn [with_data sp_data is_nil hs_new s_title is_some fst snd bind]. change (mkhs None None [] None None [] [] P) with (hs_new P).
    rewrite (after_blank _ _ _ _ He Hc Hd). rewrite (IH (mkspan (x ++ t) _ 1 _) t f eq_refl eq_refl). 2:{ cbn [sp_data]. rewrite Hd, !app_length in Hf. cbn [length] in Hf. lia. } cbn [sp_line sp_off]. f_equal. f_equal; [lia|]. change (LF :: x) with ([LF] ++ x). rewrite !blen_app. lia.
Qed.
Lemma moved_start t a b : mkspan t (sp_line (span_new t) + a) 1 (sp_off (span_new t) + b) = mv a b (span_new t). Proof. reflexivity. Qed.
Lemma header_further E P x m t : blank_lines x m ->
  header_parse E (span_new (x ++ t)) P = on_ok (fun r => (mv_mi m (blen x) (mv_header m (blen x)) (fst r), (map (mv_w m (blen x)) (fst (snd r)), snd (snd r)))) (header_parse E (span_new t) P).
Proof.
  intros H. unfold header_parse. rewrite !discard_empty_lines_ok. cbn [bind]. rewrite (discard_moved x m H (span_new (x ++ t)) t eq_refl eq_refl).
  rewrite (header_blank E P x m H (span_new (x ++ t)) t _ eq_refl eq_refl (le_n _)). change (mkspan t (sp_line (span_new (x ++ t)) + m) 1 (sp_off (span_new (x ++ t)) + blen x)) with (mv m (blen x) (span_new t)).
  change (hs_new P) with (mv_hs m (blen x) (hs_new P)) at 1. rewrite mv_header_loop, bind_on_ok, on_ok_bind. apply bind_more; intros r. cbn [fst snd].
  assert (D : p_discard_empty_lines (mv m (blen x) (span_new t)) = mv m (blen x) (p_discard_empty_lines (span_new t))). { pose proof (mv_empties m (blen x) (span_new t)) as K. rewrite !discard_empty_lines_ok in K. cbn [on_ok] in K. apply Ok_inj in K. exact K. }
  rewrite D. rewrite mv_empties, bind_on_ok, on_ok_bind. apply bind_more; intros af. rewrite mv_remainder, bind_on_ok, on_ok_bind. apply bind_more; intros src. rewrite mv_trim_tw, bind_on_ok, on_ok_bind. apply bind_more; intros src1. reflexivity.
Qed.
Lemma trim_whole t : trim_trailing_whitespace (span_new t) = Ok (mkspan (trim_end t) 1 1 0).
Proof. rewrite trim_trailing_whitespace_ok. reflexivity. Qed.
Theorem document_further E fuel x m t sm P : blank_lines x m ->
  document_parse E fuel (x ++ t) sm P = on_ok (fun r => (mv_doc m (blen x) (x ++ t) (fst r), snd r)) (document_parse E fuel t sm P).
Proof.
  intros H. unfold document_parse. rewrite (header_further E P x m t H), bind_on_ok, on_ok_bind. apply bind_more; intros h. cbn [fst snd mv_mi mi_item mi_after]. rewrite (mv_blocks m (blen x) E fuel never 0 _ _ (mv_never _ _)), bind_on_ok, on_ok_bind. apply bind_more; intros b.
  cbn [mv_bres br_blocks br_warnings br_parser]. rewrite mv_preamble, bind_on_ok, on_ok_bind. apply bind_more; intros bs. rewrite !trim_whole. cbn [bind]. cbv zeta. cbn [on_ok fst snd]. unfold mv_doc. cbn [d_header d_blocks d_warnings d_source_map d_catalog]. rewrite ?map_app. reflexivity.
Qed.
(** A place at the beginning of a line is the beginning of a document, moved. *)
Lemma place_moved D s : located D s -> sp_col s = 1 -> s = mv (sp_line s - 1) (sp_off s) (span_new (sp_data s)).
Proof. intros (a & b & _ & L & _ & _) C. unfold spec_line in L. destruct s as [d l c o]. cbn in *. subst c. unfold mv. cbn. f_equal; lia. Qed.
