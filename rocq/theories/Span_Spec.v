(** Specification of source coordinates, independent of the code: it recounts from the
    beginning of the document. *)
From Verif Require Import Text Span_Model.

(** UTF-8 encoding of one code point (RFC 3629) and of a text. *)
Definition utf8 (c : N) : list N :=
  (if c <? 128 then [c]
   else if c <? 2048 then [192 + c / 64; 128 + c mod 64]
   else if c <? 65536 then [224 + c / 4096; 128 + (c / 64) mod 64; 128 + c mod 64]
   else [240 + c / 262144; 128 + (c / 4096) mod 64; 128 + (c / 64) mod 64; 128 + c mod 64])%N.
Definition utf8_bytes (t : text) : list N := flat_map utf8 t.

(** 1-based line of the position just after [before]. *)
Definition spec_line (before : text) (n : nat) : Prop :=
  n = 1 + count_occ N.eq_dec before LF.
(** 1-based column, in characters. *)
Definition spec_col (before : text) (n : nat) : Prop :=
  exists full cur, before = full ++ cur /\ ~ In LF cur /\
    (full = [] \/ exists f, full = f ++ [LF]) /\ n = 1 + length cur.
(** 0-based byte offset in the UTF-8 encoding. *)
Definition spec_offset (before : text) (n : nat) : Prop := n = length (utf8_bytes before).

(** [located d s]: the span [s] is a piece of the document [d] and says truthfully where. *)
Definition located (d : text) (s : span) : Prop :=
  exists before behind, d = before ++ sp_data s ++ behind /\
    spec_line before (sp_line s) /\ spec_col before (sp_col s) /\ spec_offset before (sp_off s).

(** The operations on spans used by the parser, as data, so that chains of them can be
    quantified over. Operations with a byte index may panic. *)
Inductive span_op :=
| OSlice (a b : nat) | OSliceFrom (a : nat) | OSliceTo (b : nat)
| OIntoParseResult (n : nat)
| OSplitNonEmpty (p : char -> bool)
| OTakeWhile (p : char -> bool)
| OTakePrefix (p : text)
| OTakeRequiredWs
| ODiscard (n : nat) | ODiscardWs | ODiscardAll | ODiscardEmptyLines
| OTrimTrailingWs | OTrimTrailingLineEnd
| OTakeLine | OTakeNormalizedLine | OTakeNonEmptyLine | OTakeEmptyLine
| OTakeLineCont
| OTakeIdent | OTakeAttrName | OTakeUserAttrName
| OTakeQuoted
| OTrimRemainder (after : span).

Definition both (m : mitem span) : list span := [mi_item m; mi_after m].
Definition both_o (m : option (mitem span)) : list span :=
  match m with Some m => both m | None => [] end.
Definition rmap {A B} (f : A -> B) (r : res A) : res B := x <- r ;; Ok (f x).

(** All spans that an operation gives back. *)
Definition op_results (o : span_op) (s : span) : res (list span) :=
  match o with
  | OSlice a b => rmap (fun x => [x]) (slice s a b)
  | OSliceFrom a => rmap (fun x => [x]) (slice_from s a)
  | OSliceTo b => rmap (fun x => [x]) (slice_to s b)
  | OIntoParseResult n => rmap both (into_parse_result s n)
  | OSplitNonEmpty p => rmap both_o (split_at_match_non_empty s p)
  | OTakeWhile p => rmap both (take_while s p)
  | OTakePrefix p => rmap both_o (take_prefix s p)
  | OTakeRequiredWs => rmap both_o (take_required_whitespace s)
  | ODiscard n => rmap (fun x => [x]) (discard s n)
  | ODiscardWs => rmap (fun x => [x]) (discard_whitespace s)
  | ODiscardAll => rmap (fun x => [x]) (discard_all s)
  | ODiscardEmptyLines => rmap (fun x => [x]) (discard_empty_lines s)
  | OTrimTrailingWs => rmap (fun x => [x]) (trim_trailing_whitespace s)
  | OTrimTrailingLineEnd => rmap (fun x => [x]) (trim_trailing_line_end s)
  | OTakeLine => rmap both (take_line s)
  | OTakeNormalizedLine => rmap both (take_normalized_line s)
  | OTakeNonEmptyLine => rmap both_o (take_non_empty_line s)
  | OTakeEmptyLine => rmap both_o (take_empty_line s)
  | OTakeLineCont => rmap both_o (take_line_with_continuation s)
  | OTakeIdent => rmap both_o (take_ident s)
  | OTakeAttrName => rmap both_o (take_attr_name s)
  | OTakeUserAttrName => rmap both_o (take_user_attr_name s)
  | OTakeQuoted => rmap both_o (take_quoted_string s)
  | OTrimRemainder after => rmap (fun x => [x]) (trim_remainder s after)
  end.

(** [derives s s']: [s'] is obtained from [s] by some finite chain of operations. *)
Inductive derives (s : span) : span -> Prop :=
| derives_refl : derives s s
| derives_step s1 o l s2 :
    derives s s1 -> op_results o s1 = Ok l -> In s2 l -> derives s s2.

(** Operations whose indices are computed by the code itself (no caller-supplied byte
    index): these must never panic. *)
Definition index_free (o : span_op) : Prop :=
  match o with
  | OSlice _ _ | OSliceFrom _ | OSliceTo _ | OIntoParseResult _ | ODiscard _ | OTrimRemainder _ => False
  | _ => True
  end.

(** A byte index is a character boundary of a text. *)
Definition boundary (t : text) (n : nat) : Prop :=
  exists a b, t = a ++ b /\ n = length (utf8_bytes a).

(** * Lines *)

(** An end of line in the input: LF, or the end of the input. *)
Definition eol (e rest : text) : Prop := e = [LF] \/ (e = [] /\ rest = []).

(** [minus_cr l r]: [r] is [l] without one final CR, if there is one. *)
Definition minus_cr (l r : text) : Prop :=
  l = r ++ [CR] \/ (l = r /\ forall x, l <> x ++ [CR]).

Definition spaces (t : text) : Prop := forall c, In c t -> c = SP.
Definition opt_cr (t : text) : Prop := t = [] \/ t = [CR].
Definition opt_lf (t : text) : Prop := t = [] \/ t = [LF].

(** Reading a whole text line by line with some line reader. *)
Inductive reads (take : span -> res (mitem span)) : span -> list text -> Prop :=
| reads_nil s : sp_data s = [] -> reads take s []
| reads_cons s m ls : sp_data s <> [] -> take s = Ok m -> reads take (mi_after m) ls ->
    reads take s (sp_data (mi_item m) :: ls).

(** The text made of complete lines. *)
Definition unlines (ls : list text) : text := concat (map (fun l => l ++ [LF]) ls).

(** A line (without LF) of spaces and tabs only, but for one final CR. *)
Definition blank_line (l : text) : Prop :=
  exists ws cr, l = ws ++ cr /\ (forall c, In c ws -> c = SP \/ c = TAB) /\ opt_cr cr.

(** A physical line ends in a backslash, trailing spaces and CR ignored. *)
Definition continued (l : text) : Prop :=
  exists x sps cr, l = x ++ [BSL] ++ sps ++ cr /\ spaces sps /\ opt_cr cr.

(** [logical input consumed rest]: the logical line at the beginning of [input] is [consumed]. *)
Inductive logical : text -> text -> text -> Prop :=
| logical_end l e rest : ~ In LF l -> eol e rest -> ~ continued l ->
    logical (l ++ e ++ rest) (l ++ e) rest
| logical_more l e rest consumed rest' : ~ In LF l -> eol e rest -> continued l ->
    logical rest consumed rest' -> logical (l ++ e ++ rest) (l ++ e ++ consumed) rest'.

(** [stripped c d]: [d] is [c] without its final LF, then CR, then all spaces at the end. *)
Definition stripped (c d : text) : Prop := exists sps cr lf, c = d ++ sps ++ cr ++ lf /\
  (lf = [LF] \/ (lf = [] /\ forall x, c <> x ++ [LF])) /\
  (cr = [CR] \/ (cr = [] /\ forall x, d ++ sps <> x ++ [CR])) /\
  Forall (eq SP) sps /\ forall x, d <> x ++ [SP].

(** [t] has no occurrence of [q] that is not immediately preceded by a backslash. *)
Definition no_unescaped (q : N) (t : text) : Prop :=
  forall x y, t = x ++ q :: y -> exists z, x = z ++ [BSL].
