(** C116: authors whose text has attribute references. *)
From Verif Require Import Text TextFacts Maps Span_Model Span_Proof Span_Laws Regex Parser_Model Subs_Model Subs_Spec Subs_Proof Macro_Spec Header_Model Header_Spec Header_Proof Header_Prop Author_Spec Author_Proof.

(** Every author text, with or without references, means exactly what the specification says. *)
Theorem C116_author : forall U P t o, spaces_apart U -> (author_parse U t P = Ok o <-> author_in U (value_of P) t o).
Proof.
  intros U P t o Sp. split; [apply author_parse_sound, Sp|]. intros H. destruct (author_parse_total U P t) as (o' & E). rewrite E. f_equal. symmetry. eapply author_in_det; [exact Sp|exact H|apply author_parse_sound; assumption].
Qed.
(** References in an address are replaced after the text is taken apart. *)
Theorem C116_address : forall U P t s full f m l e x, spaces_apart U -> bare t s -> ~ lone_ref s -> author_text U s full f m l (Some e) -> ~ several e -> expands (value_of P) e x ->
  author_parse U t P = Ok (Some (parted full f m l (Some x))).
Proof. intros U P t s full f m l e x Sp B R X Ns Ex. apply C116_author; [exact Sp|]. apply (ai_parts U _ t s full f m l (Some e) _ B R X). exists x. split; [exact Ex|]. right. split; [intros (K & _); contradiction|reflexivity]. Qed.
(** One reference is the whole name, however many words its value has. *)
Theorem C116_one_reference : forall U P n v, spaces_apart U -> is_name n -> value_of P n = Some v -> author_parse U (ref n) P = Ok (Some (whole v)).
Proof.
  intros U P n v Sp Hn Hv. apply C116_author; [exact Sp|]. apply (ai_ref U _ (ref n) (ref n) v).
  - split; [exists [], []; rewrite app_nil_r; repeat split; constructor|]. split.
    + intros c r E. unfold ref in E. injection E as <- _. reflexivity.
    + intros r c E. unfold ref in E. rewrite app_assoc in E. apply app_last_eq in E. destruct E as [_ E]. rewrite <- E. reflexivity.
  - exists n. split; [reflexivity|]. destruct Hn as (c & r & -> & H1 & F). intros [K|K]; [subst c; unfold name_first in H1; lia|]. rewrite Forall_forall in F. apply F in K. unfold name_char, name_first in K. lia.
  - rewrite <- (app_nil_r v), <- (app_nil_r (ref n)). apply ex_value; [exact Hn|exact Hv|constructor].
Qed.

Definition own_attr (v : text) : attr_value := mkav AnyValue Anywhere (VValue v).
Definition with_names : parser := with_attrs parser_default (mput (lit "ab") (own_attr (lit "Ann Lee")) (mput (lit "sp") (own_attr (lit "<X & Y>")) (mput (lit "at") (own_attr (lit "a@b.org")) (p_attrs parser_default)))).
Example C116_example : spaces_apart ascii_only /\
  author_parse ascii_only (lit " {ab} ") with_names = Ok (Some (mkauthor (lit "Ann Lee") (lit "Ann Lee") None None None)) /\
  author_parse ascii_only (lit "Ann_M Lee <{at}>") with_names = Ok (Some (mkauthor (lit "Ann M Lee") (lit "Ann M") None (Some (lit "Lee")) (Some (lit "a@b.org")))) /\
  author_parse ascii_only (lit "A, {sp}") with_names = Ok (Some (mkauthor (lit "A, &lt;X &amp; Y&gt;") (lit "A, &lt;X &amp; Y&gt;") None None None)).
Proof. split; [intros c _; split; reflexivity|]. split; [|split]; vm_compute; reflexivity. Qed.

(** Expected: references in the author line are not replaced until after it is parsed (author-line.adoc), so what is in
    a value is not taken apart.  But where the line has not the form of an author, its references are replaced
    first, and the words of a value become first and middle name. *)
Theorem C116_values_are_not_taken_apart_refuted : exists t, no_parts ascii_only t /\ ~ lone_ref t /\
  author_parse ascii_only t with_names = Ok (Some (mkauthor (lit "Ann Lee Moss") (lit "Ann") (Some (lit "Lee")) (Some (lit "Moss")) None)).
Proof.
  exists (lit "{ab} Moss"). split; [|split; [|vm_compute; reflexivity]].
  - destruct (parts_dec ascii_only (lit "{ab} Moss")) as [(full & f & m & l & e & X)|N]; [|exact N]. destruct (author_captures _ _ _ _ _ _ _ X) as (mt & M & _). vm_compute in M. discriminate M.
  - intros (m & E & _). change (lit "{ab} Moss") with (lit "{ab} Mos" ++ [115%N]) in E. rewrite app_assoc in E. apply app_last_eq in E. destruct E as [_ E]. discriminate E.
Qed.
(** Expected: a name in which a character reference is kept whole by {empty} is not processed, but assigned to
    [author] and [firstname] as a whole (multiple-authors.adoc).  But it is taken apart. *)
Theorem C116_kept_whole_refuted : author_parse ascii_only (lit "AsciiDoc&#174;{empty} WG") parser_default =
  Ok (Some (mkauthor (lit "AsciiDoc&#174; WG") (lit "AsciiDoc&#174;") None (Some (lit "WG")) None)).
Proof. vm_compute. reflexivity. Qed.
(** Expected: the special characters in a value are treated alike, whatever else is on the line.  But whether they are
    replaced depends on how many references there are; and when they are, what they are replaced by counts as a name. *)
Theorem C116_special_characters_refuted :
  author_parse ascii_only (lit "{sp}") with_names = Ok (Some (mkauthor (lit "<X & Y>") (lit "<X & Y>") None None None)) /\
  author_parse ascii_only (lit "{sp}{empty}") with_names = Ok (Some (mkauthor (lit "&lt;X &amp; Y&gt;") (lit "&lt;X") (Some (lit "&amp;")) (Some (lit "Y&gt;")) None)).
Proof. split; vm_compute; reflexivity. Qed.

Print Assumptions C116_author.
