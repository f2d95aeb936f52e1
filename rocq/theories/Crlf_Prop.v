(** Line endings do not matter (C126). *)
From Verif Require Import Text TextFacts Span_Model Span_Pure Span_Proof Span_Laws Span_Spec Parser_Model SourceMap_Model Pre_Model Header_Model Header_Spec Block_Model Block_Spec Block_Proof Doc_Model Header_Prop Block_Prop
  Fate_Spec Fate_Proof Fate_Prop Crlf_Spec Crlf_Proof.

(** The blocks of a text are those of the text with a carriage return before every line feed: the same kinds, titles, ids, numbers,
    attributes and shown texts, only further down by one byte for every line before; and parsing goes wrong or does not end for the
    one if it does for the other.  What is left out is the shown text of verbatim blocks. *)
Theorem C126_blocks : forall E fuel n t P, bears_crlf E -> ~ In CR t ->
  match parse_blocks_until E fuel never n (span_new (crlf t)) P, parse_blocks_until E fuel never n (span_new t) P with
  | Ok b', Ok b => map hush (br_blocks b') = map cr_block (br_blocks b) /\ br_after b' = cr (br_after b) /\ br_warnings b' = map cr_w (br_warnings b) /\ br_parser b' = br_parser b
  | Panic, Panic | OutOfFuel, OutOfFuel => True
  | _, _ => False
  end.
Proof.
  intros E fuel n t P B C. pose proof (until_cr t C E fuel B never n (span_new t) P (never_cr t) (located_new t)) as K. change (cr (span_new t)) with (span_new (crlf t)) in K.
  destruct (parse_blocks_until E fuel never n (span_new (crlf t)) P), (parse_blocks_until E fuel never n (span_new t) P); cbn [sim] in K; auto. destruct K as (K1 & K2 & K3 & _ & _ & K4). auto.
Qed.
(** The same for a document with a header, unless an [:author:] entry goes on over several lines. *)
Theorem C126_document : forall E fuel t sm P d P', bears_crlf E -> ~ In CR t -> document_parse E fuel t sm P = Ok (d, P') -> Forall author_on_line (h_attrs (d_header d)) ->
  exists d', document_parse E fuel (crlf t) sm P = Ok (d', P') /\ hush_doc d' = cr_doc d.
Proof. intros E fuel t sm P d P' B C H F. exact (authors_document t C E fuel sm P d P' B H F). Qed.
(** A document without backslashes has the same fate with the one line endings as with the other. *)
Theorem C126_fates : forall E fuel t sm P, bears_crlf E -> ~ In CR t -> ~ In BSL t ->
  match document_parse E fuel (crlf t) sm P, document_parse E fuel t sm P with
  | Ok (d', P'), Ok (d, P1) => hush_doc d' = cr_doc d /\ P' = P1
  | Panic, Panic | OutOfFuel, OutOfFuel => True
  | _, _ => False
  end.
Proof.
  intros E fuel t sm P B C N. pose proof (no_backslash_document t C E fuel sm P B N) as K. destruct (document_parse E fuel (crlf t) sm P) as [[d' P']| |], (document_parse E fuel t sm P) as [[d P1]| |]; cbn [sim fst snd] in K; auto.
Qed.
(** The preprocessor either leaves the text as it is or takes the carriage returns out: it does the one if no line begins like a
    directive and the source has no name, otherwise the other. *)
Theorem C126_preprocessor : forall U hdr norm ifh fuel t P, ~ In CR t -> ~ In BSL t ->
  (no_directive t = true /\ p_primary P = None /\ preprocess U hdr norm ifh fuel t P = Ok (t, []) /\ preprocess U hdr norm ifh fuel (crlf t) P = Ok (crlf t, [])) \/
  (no_directive t = false \/ p_primary P <> None) /\ preprocess U hdr norm ifh fuel (crlf t) P = preprocess U hdr norm ifh fuel t P.
Proof. exact preprocess_cr. Qed.
(** The whole of it: a text without backslashes, of any line endings, given to the parser. *)
Theorem C126_parse : forall E ifh pf fuel t P, bears_crlf E -> ~ In CR t -> ~ In BSL t ->
  match parser_parse E ifh pf fuel (crlf t) P, parser_parse E ifh pf fuel t P with
  | Ok (d', P'), Ok (d, P1) => P' = P1 /\ (d' = d \/ hush_doc d' = cr_doc d)
  | Panic, Panic | OutOfFuel, OutOfFuel => True
  | _, _ => False
  end.
Proof.
  intros E ifh pf fuel t P B C N. unfold parser_parse. destruct (preprocess_cr (e_u E) (apply_header_subs E) (norm_of E) ifh pf t P C N) as [(_ & _ & -> & ->)|(_ & ->)].
  - cbn [bind fst snd]. pose proof (C126_fates E fuel t [] (begin_parse P) B C N) as K. destruct (document_parse E fuel (crlf t) [] (begin_parse P)) as [[d' P']| |], (document_parse E fuel t [] (begin_parse P)) as [[d P1]| |]; auto. destruct K; auto.
  - destruct (preprocess _ _ _ _ pf t P) as [p| |]; cbn [bind]; auto. destruct (document_parse E fuel (fst p) (snd p) (begin_parse P)) as [[d P1]| |]; auto.
Qed.
(** * A case *)
Lemma total_bears E : total_env E -> bears_crlf E.
Proof. intros T P g hb x. destruct (T P g hb (crlf x)) as (o & ->), (T P g hb x) as (o' & ->). exact I. Qed.
Definition crlf_text : text := lines [lit "= Title"; lit "Ann Lee"; lit ":a: 1"; []; lit "Two lines +"; lit "of *text*."; []; lit "== One"; []; lit "===="; lit ".List"; lit "----"; lit "code"; lit "----"; lit "===="; []; lit "[#x]"; lit "End {a}"].
Example crlf_meets : bears_crlf E1 /\ ~ In CR crlf_text /\ ~ In BSL crlf_text /\ no_directive crlf_text = true /\
  exists d P', document_parse E1 30 crlf_text [] (begin_parse parser_default) = Ok (d, P') /\ length (d_blocks d) = 2 /\ Forall author_on_line (h_attrs (d_header d)) /\ length (h_attrs (d_header d)) = 1.
Proof.
  split; [exact (total_bears _ E1_total)|]. assert (K : forallb (fun c => negb (c =? CR)%N && negb (c =? BSL)%N) crlf_text = true) by (vm_compute; reflexivity). rewrite forallb_forall in K.
  split; [intros H; specialize (K _ H); discriminate K|]. split; [intros H; specialize (K _ H); discriminate K|]. split; [vm_compute; reflexivity|]. eexists _, _. split; [vm_compute; reflexivity|]. cbn [d_blocks d_header h_attrs length]. split; [reflexivity|]. split; [|reflexivity].
  constructor; [|constructor]. intros H. cbn [at_name sp_data] in H. inversion H as [|? ? ? ? K1 K2]; subst. inversion K2.
Qed.
Example crlf_case : exists d' P', document_parse E1 30 (crlf crlf_text) [] (begin_parse parser_default) = Ok (d', P').
Proof.
  destruct crlf_meets as (B & C & _ & _ & d & P' & H & _ & F & _). destruct (C126_document E1 30 crlf_text [] (begin_parse parser_default) d P' B C H F) as (d' & K & _). eauto.
Qed.
(** * What does matter *)
(** What a block shows. *)
Definition shows (b : block) : list text := match b with BRaw c _ _ _ _ _ => [ct_rendered c] | _ => [] end.
Definition doc_shows (r : res (document * parser)) : list text := match r with Ok (d, _) => flat_map shows (d_blocks d) | _ => [] end.
Definition hard_text : text := lines [lit "[subs=normal]"; lit "----"; lit "a +"; lit "b"; lit "----"].
(** A hard line break in a verbatim block with substitutions is lost; and the carriage returns are in the shown text. *)
Theorem C126_verbatim_refuted : exists t, ~ In CR t /\ doc_shows (document_parse E0 20 t [] (begin_parse parser_default)) = [lit "a<br>" ++ [LF] ++ lit "b"] /\
  doc_shows (document_parse E0 20 (crlf t) [] (begin_parse parser_default)) = [lit "a +" ++ [CR; LF] ++ lit "b"].
Proof.
  exists hard_text. split; [|split; vm_compute; reflexivity]. assert (K : forallb (fun c => negb (c =? CR)%N) hard_text = true) by (vm_compute; reflexivity). rewrite forallb_forall in K. intros H. specialize (K _ H). discriminate K.
Qed.
(** A line anywhere in the text that begins with [if] makes the carriage returns go away. *)
Theorem C126_if_refuted : exists t u, doc_shows (parser_parse E0 (fun _ _ _ _ => None) 20 20 (crlf t) parser_default) = [lit "a" ++ [CR; LF] ++ lit "b"] /\
  doc_shows (parser_parse E0 (fun _ _ _ _ => None) 20 20 (crlf (t ++ u)) parser_default) = [lit "a" ++ [LF] ++ lit "b"].
Proof. exists (lines [lit "----"; lit "a"; lit "b"; lit "----"; []]), (lines [[]; lit "if not"]). split; vm_compute; reflexivity. Qed.
(** The author given over two lines gets another name. *)
Definition author_text : text := lines [lit "= T"; lit ":author: Ann \"; lit "Lee"; []].
Definition first_name (r : res (document * parser)) : option text := match r with Ok (_, P) => as_maybe_str (attribute_value P (lit "firstname")) | _ => None end.
Theorem C126_author_refuted : exists t, ~ In CR t /\ exists x, first_name (document_parse E0 20 t [] (begin_parse parser_default)) = Some x /\
  exists y, first_name (document_parse E0 20 (crlf t) [] (begin_parse parser_default)) = Some y /\ x <> y.
Proof.
  exists author_text. split. { assert (K : forallb (fun c => negb (c =? CR)%N) author_text = true) by (vm_compute; reflexivity). rewrite forallb_forall in K. intros H. specialize (K _ H). discriminate K. }
  eexists. split; [vm_compute; reflexivity|]. eexists. split; [vm_compute; reflexivity|]. discriminate.
Qed.
Print Assumptions C126_blocks.
Print Assumptions C126_document.
Print Assumptions C126_fates.
Print Assumptions C126_preprocessor.
Print Assumptions C126_parse.
Print Assumptions C126_verbatim_refuted.
Print Assumptions C126_if_refuted.
Print Assumptions C126_author_refuted.
