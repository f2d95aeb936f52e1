(** C22, C68, C69: ids generated for sections. *)
From Verif Require Import Text TextFacts Span_Laws Regex Regex_Scan Parser_Model SecId_Model SecId_Spec SecId_Proof.

(** The settings, read independently of the model of the generator. *)
Definition setting (P : parser) (name v : text) : Prop :=
  attribute_value P name = VValue v \/ (v = [] /\ forall w, attribute_value P name <> VValue w).
Lemma setting_eq P name v : setting P name v -> value_text (attribute_value P name) = v.
Proof. intros [->|[-> H]]; [reflexivity|]. destruct (attribute_value P name) as [t| |]; [destruct (H t eq_refl)|reflexivity|reflexivity]. Qed.
Definition with_setting (P : parser) (name v : text) : parser := with_attrs P ((name, mkav AnyValue Anywhere (VValue v)) :: p_attrs P).

(** * C22 *)
(** An id is always made; it is the prefix followed by word characters and separators, with no two
    separators next to each other and none at the end (nor at the beginning, without a prefix). *)
Theorem C22_section_id_shape : forall U title P prefix sep,
  setting P (lit "idprefix") prefix -> setting P (lit "idseparator") sep ->
  exists core, generate_section_id U title P = Ok (prefix ++ core) /\
    (forall x, In x core -> is_word U x = true \/ exists s, sep = x :: s) /\
    (forall c s, sep = c :: s -> (~ exists a b, core = a ++ c :: c :: b) /\ (~ exists a, core = a ++ [c]) /\ (prefix = [] -> ~ exists b, core = c :: b)).
Proof.
  intros U title P prefix sep Hp Hs. apply setting_eq in Hp, Hs. destruct (section_id_of U title P) as (g & Sg & E). rewrite Hp, Hs in E.
  assert (W : forall x, In x g -> x <> 32%N -> x <> 46%N -> x <> 45%N -> is_word U x = true).
  { intros x Hx H1 H2 H3. pose proof (scans_ok _ _ _ _ Sg) as F. rewrite Forall_forall in F. specialize (F x Hx). unfold c_id in F.
    apply N.eqb_neq in H1, H2, H3. change SP with 32%N in F. rewrite H1, H2, H3 in F. destruct (is_word U x); [reflexivity|discriminate F]. }
  unfold id_of in E. destruct sep as [|c s].
  - exists (breaks_to [] g). split; [exact E|]. split; [|discriminate]. intros x Hx. apply breaks_in in Hx. destruct Hx as [[]|(Hx & H1 & H2 & H3)]. left. auto.
  - cbv zeta in E. set (t := chop_end c (squeeze c (breaks_to [c] g))) in *.
    destruct (chop_end_shape c (squeeze c (breaks_to [c] g)) (squeeze_nd c _)) as (S1 & S2 & S3). fold t in S1, S2, S3.
    assert (Hin : forall x, In x t -> is_word U x = true \/ exists s', c :: s = x :: s').
    { intros x Hx. apply S3, squeeze_in, breaks_in in Hx. destruct Hx as [[->|[]]|(Hx & H1 & H2 & H3)]; [right; eauto|left; auto]. }
    destruct prefix as [|p0 pre].
    + destruct (chop_start_shape c t S1 S2) as (T1 & T2 & T3 & T4). exists (chop_start c t). split; [exact E|]. split; [intros x Hx; apply Hin, T4, Hx|].
      intros c' s' K. injection K as <- <-. split; [exact T1|]. split; [intros [a Ha]; exact (T3 a Ha)|]. intros _ [b Hb]. exact (T2 b Hb).
    + exists t. split; [exact E|]. split; [exact Hin|]. intros c' s' K. injection K as <- <-.
      split; [exact S1|]. split; [intros [a Ha]; exact (S2 a Ha)|]. discriminate.
Qed.
Example C22_case : setting parser_default (lit "idprefix") (lit "_") /\ setting parser_default (lit "idseparator") (lit "_") /\
  generate_section_id ascii_only (lit "Wiley &amp; Sons, Inc.") parser_default = Ok (lit "_wiley_sons_inc").
Proof. split; [left; reflexivity|]. split; [left; reflexivity|vm_compute; reflexivity]. Qed.

(** * C68: repeated separators are condensed *)
(** The documentation prepends the prefix before separators are condensed: ".NET" should have the id
    "_net".  Here the prefix is put in front at the end, so the separator is doubled. *)
Theorem C68_no_doubled_separator_refuted : exists title id c s a b,
  setting parser_default (lit "idseparator") (c :: s) /\ generate_section_id ascii_only title parser_default = Ok id /\ id = a ++ c :: c :: b.
Proof. exists (lit ".NET"), (lit "__net"), 95%N, [], [], (lit "net"). split; [left; reflexivity|]. split; [vm_compute|]; reflexivity. Qed.
(** It happens exactly when the prefix ends and the rest begins with the separator, or within the prefix. *)
Theorem C68_where_separators_double : forall U title P prefix sep c s,
  setting P (lit "idprefix") prefix -> setting P (lit "idseparator") sep -> sep = c :: s ->
  forall id a b, generate_section_id U title P = Ok id -> id = a ++ c :: c :: b ->
  (exists b', prefix = a ++ c :: c :: b') \/ (exists core, prefix = a ++ [c] /\ id = prefix ++ c :: core).
Proof.
  intros U title P prefix sep c s Hp Hs -> id a b E Eid. destruct (C22_section_id_shape U title P prefix (c :: s) Hp Hs) as (core & E' & _ & Hd).
  rewrite E in E'. apply Ok_inj in E'. destruct (Hd c s eq_refl) as (D1 & _ & _). rewrite Eid in *.
  clear - E' D1. revert prefix E'. induction a as [|x a IH]; intros [|y pre] E'; cbn [app] in E'.
  - exfalso. apply D1. exists [], b. symmetry. exact E'.
  - injection E' as E1 E2. subst y. destruct pre as [|z pre]; cbn [app] in E2.
    + right. exists b. split; reflexivity.
    + injection E2 as E3 E4. subst z. left. exists pre. reflexivity.
  - exfalso. apply D1. exists (x :: a), b. symmetry. exact E'.
  - injection E' as E1 E2. subst y. destruct (IH pre E2) as [(b' & Hb)|(co & Hb & Hc)].
    + left. exists b'. rewrite Hb. reflexivity.
    + right. exists co. rewrite Hb in *. split; [reflexivity|]. cbn [app]. rewrite Hc. reflexivity.
Qed.
Example C68_case : generate_section_id ascii_only (lit ".NET") parser_default = Ok ([] ++ 95%N :: 95%N :: lit "net").
Proof. vm_compute. reflexivity. Qed.

(** * C69: tags and character references are removed *)
(** The last alternative of the regular expression takes the mark that opens a tag or a character
    reference when another character to be removed stands before it: the name is left in the id. *)
Theorem C69_markup_removed_refuted : exists a w b id id',
  char_ref (c_digit ascii_only) w /\ generate_section_id ascii_only (a ++ w ++ b) parser_default = Ok id /\
  generate_section_id ascii_only (a ++ b) parser_default = Ok id' /\ id <> id'.
Proof.
  exists (lit "Foo ("), (lit "&amp;"), (lit ")"), (lit "_foo_amp"), (lit "_foo"). split; [|split; [vm_compute; reflexivity|split; [vm_compute; reflexivity|discriminate]]].
  exists (lit "amp"). split; [reflexivity|]. left. exists (lit "amp"), []. split; [reflexivity|]. split; [|split; [cbn; lia|split; [constructor|cbn; lia]]].
  repeat (constructor; [unfold lower_letter; split; vm_compute; discriminate|]). constructor.
Qed.
Theorem C69_tags_removed_refuted : exists a w b id id',
  tag w /\ generate_section_id ascii_only (a ++ w ++ b) parser_default = Ok id /\
  generate_section_id ascii_only (a ++ b) parser_default = Ok id' /\ id <> id'.
Proof.
  exists (lit "("), (lit "<em>"), (lit "x</em>)"), (lit "_emx"), (lit "_x"). split; [|split; [vm_compute; reflexivity|split; [vm_compute; reflexivity|discriminate]]].
  exists (lit "em"). split; [reflexivity|]. split; [discriminate|]. cbn. intros [H|[H|[]]]; discriminate H.
Qed.
(** When no removed character stands directly before a tag or a character reference, the id is that
    of the documented process. *)
Theorem C69_section_id_of_cleaned_title : forall U title P prefix sep g,
  setting P (lit "idprefix") prefix -> setting P (lit "idseparator") sep ->
  cleaned (c_digit U) (fun c => (c =? 32)%N || is_word U c || (c =? 45)%N || (c =? 46)%N) (to_lowercase U title) g ->
  generate_section_id U title P = Ok (id_of prefix sep g).
Proof.
  intros U title P prefix sep g Hp Hs Hg. apply setting_eq in Hp, Hs. destruct (section_id_of U title P) as (g' & Sg & E). rewrite Hp, Hs in E.
  rewrite E. f_equal. f_equal. pose proof (scans_cleaned U (length (to_lowercase U title)) None _ g (le_n _) Hg) as S2.
  apply replace_all_pure_scans in Sg; [|apply sec_never_empty]. apply replace_all_pure_scans in S2; [|apply sec_never_empty].
  rewrite Sg in S2. apply Ok_inj in S2. exact S2.
Qed.
Example C69_case : cleaned (c_digit ascii_only) (fun c => (c =? 32)%N || is_word ascii_only c || (c =? 45)%N || (c =? 46)%N)
  (to_lowercase ascii_only (lit "A <b>B</b>&amp; C!")) (lit "a b c").
Proof.
  change (to_lowercase ascii_only (lit "A <b>B</b>&amp; C!")) with (lit "a " ++ lit "<b>" ++ lit "b" ++ lit "</b>" ++ lit "&amp;" ++ lit " c!").
  do 2 (apply cl_keep; [reflexivity|]).
  apply cl_tag; [exists (lit "b"); split; [reflexivity|]; split; [discriminate|cbn; intros [H|[]]; discriminate H]|].
  apply cl_keep; [reflexivity|].
  apply cl_tag; [exists (lit "/b"); split; [reflexivity|]; split; [discriminate|cbn; intros [H|[H|[]]]; discriminate H]|].
  apply cl_ref.
  - exists (lit "amp"). split; [reflexivity|]. left. exists (lit "amp"), []. split; [reflexivity|]. split; [|split; [cbn; lia|split; [constructor|cbn; lia]]].
    repeat (constructor; [unfold lower_letter; split; vm_compute; discriminate|]). constructor.
  - intros v r E (x & -> & _). discriminate E.
  - do 2 (apply cl_keep; [reflexivity|]). apply cl_drop; [reflexivity|discriminate|discriminate|intros r; split; discriminate|constructor].
Qed.
Print Assumptions C22_section_id_shape.
Print Assumptions C68_no_doubled_separator_refuted.
Print Assumptions C68_where_separators_double.
Print Assumptions C69_markup_removed_refuted.
Print Assumptions C69_tags_removed_refuted.
Print Assumptions C69_section_id_of_cleaned_title.
