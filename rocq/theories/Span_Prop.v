(** C01-C09: theorems about source spans.  Definitions used in the statements are in
    [Span_Spec] (specification) and [Span_Model] (the code). *)
From Verif Require Import Text TextFacts Span_Model Span_Pure Span_Spec Span_Proof Span_Laws.

(** A document with multi-byte characters, CRLF and blank lines, used in the examples:
    "é x\r\n\n  y\n". *)
Definition ex_doc : text := [233; 32; 120; 13; 10; 10; 32; 32; 121; 10]%N.

(** C01. Whatever chain of operations is applied to the span of a whole document, the
    resulting span is a piece of the document and its coordinates are exact. *)
Theorem C01_span_coordinates_exact :
  forall (d : text) (s : span), derives (span_new d) s -> located d s.
Proof. intros d s. apply located_derives, located_new. Qed.
(** The same from any span that is already exact. *)
Theorem C01_span_coordinates_preserved :
  forall (d : text) (s s' : span), located d s -> derives s s' -> located d s'.
Proof. exact located_derives. Qed.
(** Take a line, then one more, then a word: line 3, column 3, offset 9. *)
Example C01_example : derives (span_new ex_doc) (mkspan [121%N] 3 3 9).
Proof.
  assert (H1 : derives (span_new ex_doc) (mkspan [10; 32; 32; 121; 10]%N 2 1 6)).
  { apply derives_step with (s1 := span_new ex_doc) (o := OTakeLine)
      (l := [mkspan [233; 32; 120]%N 1 1 0; mkspan [10; 32; 32; 121; 10]%N 2 1 6]);
      [apply derives_refl|vm_compute; reflexivity|right; left; reflexivity]. }
  assert (H2 : derives (span_new ex_doc) (mkspan [32; 32; 121; 10]%N 3 1 7)).
  { apply derives_step with (o := ODiscardEmptyLines) (l := [mkspan [32; 32; 121; 10]%N 3 1 7]) (1 := H1);
      [vm_compute; reflexivity|left; reflexivity]. }
  assert (H3 : derives (span_new ex_doc) (mkspan [121; 10]%N 3 3 9)).
  { apply derives_step with (o := ODiscardWs) (l := [mkspan [121; 10]%N 3 3 9]) (1 := H2);
      [vm_compute; reflexivity|left; reflexivity]. }
  apply derives_step with (o := OTakeLine) (l := [mkspan [121]%N 3 3 9; mkspan [] 4 1 11]) (1 := H3);
    [vm_compute; reflexivity|left; reflexivity].
Qed.

(** C02. Reading partitions the text. *)
Theorem C02_take_line_partition : forall s m, take_line s = Ok m ->
  exists cr e, sp_data s = sp_data (mi_item m) ++ cr ++ e ++ sp_data (mi_after m) /\
    opt_cr cr /\ eol e (sp_data (mi_after m)) /\ ~ In LF (sp_data (mi_item m)).
Proof. exact take_line_partition. Qed.
Theorem C02_take_normalized_line_partition : forall s m, take_normalized_line s = Ok m ->
  exists sps cr e, sp_data s = sp_data (mi_item m) ++ sps ++ cr ++ e ++ sp_data (mi_after m) /\
    spaces sps /\ opt_cr cr /\ eol e (sp_data (mi_after m)) /\ ~ In LF (sp_data (mi_item m)) /\
    (forall x, sp_data (mi_item m) <> x ++ [SP]).
Proof. exact take_normalized_line_partition. Qed.
Theorem C02_take_non_empty_line_partition : forall s m, take_non_empty_line s = Ok (Some m) ->
  take_normalized_line s = Ok m /\ sp_data (mi_item m) <> [].
Proof. exact take_non_empty_line_partition. Qed.
Theorem C02_take_non_empty_line_none : forall s, take_non_empty_line s = Ok None ->
  exists m, take_normalized_line s = Ok m /\ sp_data (mi_item m) = [].
Proof. exact take_non_empty_line_none. Qed.
Theorem C02_take_while_partition : forall s p m, take_while s p = Ok m ->
  sp_data s = sp_data (mi_item m) ++ sp_data (mi_after m) /\
  (forall c, In c (sp_data (mi_item m)) -> p c = true) /\
  (forall c r, sp_data (mi_after m) = c :: r -> p c = false).
Proof. exact take_while_partition. Qed.
Theorem C02_take_prefix_partition : forall s p m, take_prefix s p = Ok (Some m) ->
  sp_data (mi_item m) = p /\ sp_data s = p ++ sp_data (mi_after m).
Proof. exact take_prefix_partition. Qed.
Theorem C02_split_partition : forall s n m, into_parse_result s n = Ok m ->
  sp_data s = sp_data (mi_item m) ++ sp_data (mi_after m) /\
  length (utf8_bytes (sp_data (mi_item m))) = Nat.min n (length (utf8_bytes (sp_data s))).
Proof. exact ipr_partition. Qed.
Example C02_example :
  exists m, take_line (span_new ex_doc) = Ok m /\ sp_data (mi_item m) = [233; 32; 120]%N /\
  (exists m', take_normalized_line (span_new ex_doc) = Ok m') /\
  (exists m', take_non_empty_line (span_new ex_doc) = Ok (Some m')) /\
  take_non_empty_line (span_new [LF]) = Ok None /\
  (exists m', take_while (span_new ex_doc) is_not_lf = Ok m') /\
  (exists m', take_prefix (span_new ex_doc) [233]%N = Ok (Some m')) /\
  (exists m', into_parse_result (span_new ex_doc) 2 = Ok m').
Proof. vm_compute. repeat (eexists || split). Qed.

(** C03. No operation that finds its own byte index ever panics. *)
Theorem C03_index_free_operations_never_panic :
  forall (o : span_op) (s : span), index_free o -> exists l, op_results o s = Ok l.
Proof. exact index_free_no_panic. Qed.
(** The index-taking primitive panics exactly on an index inside a character. *)
Theorem C03_split_panics_iff_inside_character : forall s n,
  (exists m, into_parse_result s n = Ok m) <->
  (length (utf8_bytes (sp_data s)) <= n \/ boundary (sp_data s) n).
Proof. exact ipr_panic_iff. Qed.
(** [trim_remainder] never panics on two spans of one document. *)
Theorem C03_trim_remainder_never_panics : forall d s a,
  located d s -> located d a -> exists t, trim_remainder s a = Ok t.
Proof.
  intros d s a (b & h & D & _ & _ & O) (b' & h' & D' & _ & _ & O').
  eexists. exact (trim_remainder_spec d s a b h b' h' D D' O O').
Qed.
Example C03_example : index_free OTakeNonEmptyLine /\
  into_parse_result (span_new ex_doc) 1 = Panic /\ located ex_doc (span_new ex_doc).
Proof. split; [exact I|]. split; [vm_compute; reflexivity|apply located_new]. Qed.

(** C04. Reading lines until the end yields the lines of the document: [ps] are the complete
    lines, [last] what follows the last LF. *)
Theorem C04_lines_read_are_the_lines : forall s ps last,
  (forall p, In p ps -> ~ In LF p) -> ~ In LF last -> sp_data s = unlines ps ++ last ->
  exists ls, reads take_line s ls /\ (forall ls', reads take_line s ls' -> ls' = ls) /\
    Forall2 minus_cr (ps ++ match last with [] => [] | _ => [last] end) ls.
Proof.
  intros s ps last H1 H2 H3. pose proof (reads_take_line ps last s H1 H2 H3) as H.
  eexists. split; [exact H|]. split; [intros ls' H'; exact (reads_det _ _ _ _ H' H)|].
  generalize (ps ++ match last with [] => [] | _ => [last] end). intros l.
  induction l; constructor; [apply strip_cr_minus|assumption].
Qed.
Theorem C04_normalized_lines_read_are_the_lines : forall s ps last,
  (forall p, In p ps -> ~ In LF p) -> ~ In LF last -> sp_data s = unlines ps ++ last ->
  exists ls, reads take_normalized_line s ls /\
    (forall ls', reads take_normalized_line s ls' -> ls' = ls) /\
    Forall2 trimmed_line (ps ++ match last with [] => [] | _ => [last] end) ls.
Proof.
  intros s ps last H1 H2 H3. pose proof (reads_take_normalized_line ps last s H1 H2 H3) as H.
  eexists. split; [exact H|]. split; [intros ls' H'; exact (reads_det _ _ _ _ H' H)|].
  generalize (ps ++ match last with [] => [] | _ => [last] end). intros l.
  induction l; constructor; [apply norm_trimmed|assumption].
Qed.
(** Every document has such a decomposition. *)
Theorem C04_every_document_has_lines : forall t, exists ps last, t = unlines ps ++ last /\
  (forall p, In p ps -> ~ In LF p) /\ ~ In LF last.
Proof. exact decompose_lines. Qed.
Example C04_example :
  ex_doc = unlines [[233; 32; 120; 13]; []; [32; 32; 121]]%N ++ [] /\
  reads take_line (span_new ex_doc) [[233; 32; 120]; []; [32; 32; 121]]%N.
Proof.
  split; [reflexivity|].
  apply (reads_take_line [[233; 32; 120; 13]; []; [32; 32; 121]]%N [] (span_new ex_doc)).
  - intros p [<-|[<-|[<-|[]]]] H; cbn in H; unfold LF in H; intuition discriminate.
  - easy.
  - reflexivity.
Qed.

(** C05. Blank lines are skipped, and nothing else. *)
Theorem C05_skipping_blank_lines : forall s, exists r, discard_empty_lines s = Ok r /\
  exists ls tail, sp_data s = unlines ls ++ tail /\
    (forall l, In l ls -> blank_line l /\ ~ In LF l) /\
    ((sp_data r = tail /\ exists l e rest, tail = l ++ e ++ rest /\ ~ In LF l /\ eol e rest /\ ~ blank_line l) \/
     (sp_data r = [] /\ blank_line tail /\ ~ In LF tail)).
Proof. intros s. rewrite discard_empty_lines_ok. eexists. split; [reflexivity|]. apply discard_go_spec. lia. Qed.
Theorem C05_skipping_is_idempotent : forall s t,
  discard_empty_lines s = Ok t -> discard_empty_lines t = Ok t.
Proof. exact discard_empty_lines_idem. Qed.
Example C05_example :
  exists t, discard_empty_lines (span_new [32; 9; 13; 10; 10; 97; 10]%N) = Ok t /\ sp_data t = [97; 10]%N.
Proof. vm_compute. eexists. split; reflexivity. Qed.

(** C06. The logical line. *)
Theorem C06_line_continuation : forall s, exists c r, logical (sp_data s) c r /\
  exists d, stripped c d /\ take_line_with_continuation s =
      Ok (match d with [] => None | _ => Some (mkmi (with_data s d) (skip s c r)) end).
Proof.
  intros s. destruct (logical_total (sp_data s)) as (c & r & H). exists c, r. split; [exact H|].
  apply take_line_cont_spec, H.
Qed.
(** Progress: a logical line that is returned is not empty, and the rest is shorter. *)
Theorem C06_line_continuation_progress : forall s m,
  take_line_with_continuation s = Ok (Some m) -> length (sp_data (mi_after m)) < length (sp_data s).
Proof.
  intros s m H. destruct (C06_line_continuation s) as (c & r & Hl & d & (sps & cr & lf & E & _) & Hd).
  rewrite H in Hd. apply Ok_inj in Hd. destruct d as [|x d]; [discriminate|]. injection Hd as ->.
  cbn [mi_after]. rewrite sp_data_skip. apply logical_app in Hl. rewrite Hl, E, !app_length. cbn. lia.
Qed.
Example C06_example : exists m, take_line_with_continuation
    (span_new [97; 32; 92; 10; 98; 92; 32; 13; 10; 99; 10; 100]%N) = Ok (Some m) /\
  sp_data (mi_item m) = [97; 32; 92; 10; 98; 92; 32; 13; 10; 99]%N /\ sp_data (mi_after m) = [100]%N.
Proof. vm_compute. eexists. repeat split. Qed.

(** C07. Quoted values. *)
Theorem C07_quoted_value_iff : forall s v r,
  (exists m, take_quoted_string s = Ok (Some m) /\ sp_data (mi_item m) = v /\ sp_data (mi_after m) = r) <->
  exists q, (q = 39%N \/ q = 34%N) /\ sp_data s = q :: v ++ q :: r /\ no_unescaped q v /\
    (forall z, v <> z ++ [BSL]).
Proof. exact take_quoted_iff. Qed.
Example C07_example : exists m, take_quoted_string (span_new [34; 97; 92; 34; 39; 34; 98]%N) = Ok (Some m) /\
  sp_data (mi_item m) = [97; 92; 34; 39]%N /\ sp_data (mi_after m) = [98]%N.
Proof. vm_compute. eexists. repeat split. Qed.

(** C08. Names. [allowed_first], [allowed] per kind of name. *)
Definition ascii_letter (c : N) : Prop := (97 <= c <= 122 \/ 65 <= c <= 90)%N.
Definition ascii_digit (c : N) : Prop := (48 <= c <= 57)%N.
Definition underscore (c : N) : Prop := c = 95%N.
Definition hyphen (c : N) : Prop := c = 45%N.

(** [reads_name first more take]: [take] reads the longest non-empty run. *)
Definition reads_name (first more : N -> Prop) (take : span -> res (option (mitem span))) : Prop :=
  forall s, (exists m, take s = Ok (Some m) /\
      exists c a, sp_data (mi_item m) = c :: a /\ first c /\ (forall x, In x a -> more x) /\
        sp_data s = sp_data (mi_item m) ++ sp_data (mi_after m) /\
        (forall x u, sp_data (mi_after m) = x :: u -> ~ more x)) \/
    (take s = Ok None /\ forall c t, sp_data s = c :: t -> ~ first c).

Lemma reads_name_from (first more : N -> Prop) bf bm :
  (forall c, bf c = true <-> first c) -> (forall c, bm c = true <-> more c) ->
  reads_name first more (take_name bf bm).
Proof.
  intros Hf Hm s. pose proof (take_name_spec bf bm s) as H. destruct (sp_data s) as [|c t] eqn:D.
  - right. split; [exact H|discriminate].
  - destruct (bf c) eqn:E.
    + left. destruct H as (a & b & -> & Ha & Hb & H). eexists. split; [exact H|]. cbn [mi_item mi_after with_data sp_data].
      rewrite sp_data_skip. exists c, a. split; [reflexivity|]. split; [apply Hf, E|].
      split; [intros x Hx; apply Hm; rewrite Forall_forall in Ha; auto|]. split; [reflexivity|].
      intros x u Hx Hc. apply Hb in Hx. apply Hm in Hc. congruence.
    + right. split; [exact H|]. intros c' t' Hc Hc'. injection Hc as -> ->. apply Hf in Hc'. congruence.
Qed.

Lemma ascii_alpha_iff c : is_ascii_alpha c = true <-> ascii_letter c.
Proof. unfold is_ascii_alpha, is_ascii_lower, is_ascii_upper, ascii_letter. lia. Qed.
Lemma ascii_alnum_iff c : is_ascii_alnum c = true <-> ascii_letter c \/ ascii_digit c.
Proof. unfold is_ascii_alnum, is_ascii_alpha, is_ascii_digit, is_ascii_lower, is_ascii_upper, ascii_letter, ascii_digit. lia. Qed.

Theorem C08_ident :
  reads_name (fun c => ascii_letter c \/ underscore c)
             (fun c => (ascii_letter c \/ ascii_digit c) \/ underscore c) take_ident.
Proof.
  apply reads_name_from; intros c; rewrite orb_true_iff, N.eqb_eq.
  - rewrite ascii_alpha_iff. reflexivity.
  - rewrite ascii_alnum_iff. reflexivity.
Qed.
Theorem C08_attr_name :
  reads_name (fun c => ascii_letter c \/ ascii_digit c)
             (fun c => (ascii_letter c \/ ascii_digit c) \/ hyphen c) take_attr_name.
Proof.
  apply reads_name_from; intros c; rewrite ?orb_true_iff, ?N.eqb_eq, ascii_alnum_iff; reflexivity.
Qed.
Theorem C08_user_attr_name :
  reads_name (fun c => (ascii_letter c \/ ascii_digit c) \/ underscore c)
             (fun c => ((ascii_letter c \/ ascii_digit c) \/ underscore c) \/ hyphen c) take_user_attr_name.
Proof.
  apply reads_name_from; intros c; rewrite ?orb_true_iff, ?N.eqb_eq, ascii_alnum_iff; reflexivity.
Qed.
(** XML names ([attribute-entry ids and references]): colon, underscore and letters, then also digits,
    periods, hyphens and the middle dot; the Greek question mark is never allowed. *)
Definition xml_first (U : unicode) (c : N) : Prop := c = 58%N \/ c = 95%N \/ (c <> 894%N /\ is_alpha U c = true).
Definition xml_more (U : unicode) (c : N) : Prop :=
  c = 58%N \/ c = 95%N \/ c = 46%N \/ c = 45%N \/ c = 183%N \/ (c <> 894%N /\ is_alnum U c = true).
Theorem C08_xml_name : forall U t,
  is_xml_name U t = true <-> exists c a, t = c :: a /\ xml_first U c /\ Forall (xml_more U) a.
Proof.
  intros U [|c a]; [split; [discriminate|intros (c & a & H & _); discriminate]|]. unfold is_xml_name. rewrite andb_true_iff, forallb_forall.
  assert (H1 : (if ((c =? 58) || (c =? 95))%N then true else if (c =? 894)%N then false else is_alpha U c) = true <-> xml_first U c).
  { unfold xml_first. destruct (N.eqb_spec c 58) as [->|H58]; [cbn [orb]; tauto|]. destruct (N.eqb_spec c 95) as [->|H95]; [cbn [orb]; tauto|]. cbn [orb].
    destruct (N.eqb_spec c 894) as [->|H894]; [|tauto]. split; [discriminate|]. intros [H|[H|[H _]]]; [discriminate|discriminate|contradiction]. }
  assert (H2 : forall x, (if ((x =? 58) || (x =? 95) || (x =? 46) || (x =? 45) || (x =? 183))%N then true else if (x =? 894)%N then false else is_alnum U x) = true <-> xml_more U x).
  { intros x. unfold xml_more. destruct (N.eqb_spec x 58) as [->|?]; [cbn [orb]; tauto|]. destruct (N.eqb_spec x 95) as [->|?]; [cbn [orb]; tauto|].
    destruct (N.eqb_spec x 46) as [->|?]; [cbn [orb]; tauto|]. destruct (N.eqb_spec x 45) as [->|?]; [cbn [orb]; tauto|]. destruct (N.eqb_spec x 183) as [->|?]; [cbn [orb]; tauto|].
    cbn [orb]. destruct (N.eqb_spec x 894) as [->|?]; [|tauto]. split; [discriminate|]. intros H. repeat (destruct H as [H|H]; [discriminate|]). destruct H as [H _]. contradiction. }
  rewrite H1. split.
  - intros [Ha Hb]. exists c, a. split; [reflexivity|]. split; [exact Ha|]. apply Forall_forall. intros x Hx. apply H2, Hb, Hx.
  - intros (c' & a' & E & Ha & Hb). injection E as <- <-. split; [exact Ha|]. rewrite Forall_forall in Hb. intros x Hx. apply H2, Hb, Hx.
Qed.
Example C08_xml_example : is_xml_name ascii_only (lit "a:b-9.") = true /\ is_xml_name ascii_only (lit "9a") = false.
Proof. vm_compute. split; reflexivity. Qed.
Example C08_example : exists m, take_attr_name (span_new (lit "ab-9_:")) = Ok (Some m) /\
  sp_data (mi_item m) = lit "ab-9" /\ take_attr_name (span_new (lit "-a")) = Ok None.
Proof. vm_compute. eexists. repeat split. Qed.

(** C09. [s] begins after the text [bs] of the document [d], the resume position [a] after [ba]:
    the block text is the part of [s] that lies before [a] (natural-number subtraction: nothing
    when [a] is not after [s]). *)
Theorem C09_block_text_ends_at_resume_position : forall d s a bs hs ba ha,
  d = bs ++ sp_data s ++ hs -> d = ba ++ sp_data a ++ ha ->
  spec_offset bs (sp_off s) -> spec_offset ba (sp_off a) ->
  exists t, trim_remainder s a = Ok t /\
    sp_data t = firstn (length ba - length bs) (sp_data s) /\
    sp_line t = sp_line s /\ sp_col t = sp_col s /\ sp_off t = sp_off s.
Proof.
  intros d s a bs hs ba ha H1 H2 H3 H4. eexists. split; [eapply trim_remainder_spec; eassumption|]. repeat split.
Qed.
Example C09_example :
  exists t, trim_remainder (span_new ex_doc) (mkspan [10; 32; 32; 121; 10]%N 2 1 6) = Ok t /\
    sp_data t = [233; 32; 120; 13; 10]%N.
Proof. vm_compute. eexists. split; reflexivity. Qed.

Print Assumptions C01_span_coordinates_exact.
Print Assumptions C01_span_coordinates_preserved.
Print Assumptions C02_take_line_partition.
Print Assumptions C02_take_normalized_line_partition.
Print Assumptions C02_take_non_empty_line_partition.
Print Assumptions C02_take_non_empty_line_none.
Print Assumptions C02_take_while_partition.
Print Assumptions C02_take_prefix_partition.
Print Assumptions C02_split_partition.
Print Assumptions C03_index_free_operations_never_panic.
Print Assumptions C03_split_panics_iff_inside_character.
Print Assumptions C03_trim_remainder_never_panics.
Print Assumptions C04_lines_read_are_the_lines.
Print Assumptions C04_normalized_lines_read_are_the_lines.
Print Assumptions C04_every_document_has_lines.
Print Assumptions C05_skipping_blank_lines.
Print Assumptions C05_skipping_is_idempotent.
Print Assumptions C06_line_continuation.
Print Assumptions C06_line_continuation_progress.
Print Assumptions C07_quoted_value_iff.
Print Assumptions C08_ident.
Print Assumptions C08_attr_name.
Print Assumptions C08_user_attr_name.
Print Assumptions C08_xml_name.
Print Assumptions C09_block_text_ends_at_resume_position.
