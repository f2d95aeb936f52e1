(** Model of [parser/src/span/*.rs]: spans with line, column and byte offset, and the
    byte-indexed operations on them.  A byte index that is out of range or inside a
    character is a [Panic], as in Rust. *)
From Verif Require Import Text.

(** span/mod.rs:28-60 [struct Span]. *)
Record span := mkspan { sp_data : text; sp_line : nat; sp_col : nat; sp_off : nat }.

(** span/mod.rs:62-72 [Span::new]. *)
Definition span_new (d : text) : span := mkspan d 1 1 0.
(** span/mod.rs (derive/impl Default): the empty span. *)
Definition span_default : span := mkspan [] 1 1 0.

(** span/matched_item.rs:5-12 [struct MatchedItem]. *)
Record mitem (A : Type) := mkmi { mi_item : A; mi_after : span }.
Arguments mkmi {A} _ _.
Arguments mi_item {A} _.
Arguments mi_after {A} _.

(** span/slice.rs:50-57: number of LF bytes in the skipped text. *)
Fixpoint count_lf (t : text) : nat :=
  match t with [] => 0 | c :: r => (if (c =? LF)%N then 1 else 0) + count_lf r end.

(** span/slice.rs:58-60: the characters after the last LF of the skipped text (the whole of
    it when there is none).  Rust locates the last LF by byte index and counts the
    characters from there; LF is a single byte in UTF-8 and never part of another
    character, so working on characters is the same. *)
Fixpoint after_last_lf (t : text) : text :=
  match t with
  | [] => []
  | c :: r => if (c =? LF)%N then after_last_lf r
              else if 0 <? count_lf r then after_last_lf r else c :: r
  end.

(** span/slice.rs:37-73 [slice_internal].  The Rust function recovers the skipped prefix
    from the two pointers; here it is passed explicitly as [pre]. *)
Definition slice_internal (s : span) (pre d : text) : span :=
  if blen pre =? 0 then mkspan d (sp_line s) (sp_col s) (sp_off s)
  else
    let lines_to_add := count_lf pre in
    let col := length (after_last_lf pre) in
    mkspan d (sp_line s + lines_to_add)
           (if lines_to_add =? 0 then sp_col s + col else col + 1)
           (sp_off s + blen pre).

(** span/slice.rs:10-12 [slice(a..b)]: panics unless a <= b <= len, both on boundaries. *)
Definition slice (s : span) (a b : nat) : res span :=
  match bsplit b (sp_data s) with
  | None => Panic
  | Some (p, _) =>
      match bsplit a p with
      | None => Panic
      | Some (pre, d) => Ok (slice_internal s pre d)
      end
  end.
(** span/slice.rs:15-17 [slice_from(a..)]. *)
Definition slice_from (s : span) (a : nat) : res span :=
  match bsplit a (sp_data s) with
  | None => Panic
  | Some (pre, d) => Ok (slice_internal s pre d)
  end.
(** span/slice.rs:20-22 [slice_to(..b)]. *)
Definition slice_to (s : span) (b : nat) : res span :=
  match bsplit b (sp_data s) with
  | None => Panic
  | Some (d, _) => Ok (slice_internal s [] d)
  end.

(** span/slice.rs:25-35 [position]: byte index of the first matching character. *)
Fixpoint position (p : char -> bool) (t : text) : option nat :=
  match t with
  | [] => None
  | c :: r => if p c then Some 0
              else match position p r with Some i => Some (clen c + i) | None => None end
  end.

(** span/split.rs:6-14 [into_parse_result]. *)
Definition into_parse_result (s : span) (at_index : nat) : res (mitem span) :=
  let at_index := Nat.min (blen (sp_data s)) at_index in
  item <- slice_to s at_index ;;
  after <- slice_from s at_index ;;
  Ok (mkmi item after).

(** span/split.rs:24-39 [split_at_match_non_empty]. *)
Definition split_at_match_non_empty (s : span) (p : char -> bool) : res (option (mitem span)) :=
  match position p (sp_data s) with
  | Some 0 => Ok None
  | Some n => mi <- into_parse_result s n ;; Ok (Some mi)
  | None =>
      match sp_data s with
      | [] => Ok None
      | _ => mi <- into_parse_result s (blen (sp_data s)) ;; Ok (Some mi)
      end
  end.

(** span/matched_item.rs:17-28 [trim_after_start_matches]: drops ONE leading [c] of [after]. *)
Definition trim_after_start_matches (m : mitem span) (c : char) : res (mitem span) :=
  match sp_data (mi_after m) with
  | x :: rest =>
      if (x =? c)%N then
        let prefix_len := blen (sp_data (mi_after m)) - blen rest in
        after <- slice_from (mi_after m) prefix_len ;;
        Ok (mkmi (mi_item m) after)
      else Ok m
  | [] => Ok m
  end.

(** [str::strip_suffix(char)]. *)
Definition strip_suffix_c (c : char) (t : text) : option text :=
  match rev t with
  | x :: r => if (x =? c)%N then Some (rev r) else None
  | [] => None
  end.

(** span/matched_item.rs:32-42 [trim_item_end_matches]: drops ONE trailing [c] of [item]. *)
Definition trim_item_end_matches (m : mitem span) (c : char) : res (mitem span) :=
  match strip_suffix_c c (sp_data (mi_item m)) with
  | Some source =>
      item <- slice (mi_item m) 0 (blen source) ;;
      Ok (mkmi item (mi_after m))
  | None => Ok m
  end.

(** span/matched_item.rs:45-52 [trim_item_trailing_spaces]. *)
Definition trim_item_trailing_spaces (m : mitem span) : res (mitem span) :=
  let source := trim_end_by (N.eqb SP) (sp_data (mi_item m)) in
  item <- slice (mi_item m) 0 (blen source) ;;
  Ok (mkmi item (mi_after m)).

(** span/take.rs:35-43 [take_while]. *)
Definition take_while (s : span) (p : char -> bool) : res (mitem span) :=
  match position (fun c => negb (p c)) (sp_data s) with
  | Some n => into_parse_result s n
  | None => into_parse_result s (blen (sp_data s))
  end.

Definition is_sp_tab (c : char) : bool := (c =? SP)%N || (c =? TAB)%N.
Definition is_sp_tab_lf (c : char) : bool := (c =? SP)%N || (c =? TAB)%N || (c =? LF)%N.

(** span/take.rs:8-14 [take_prefix]. *)
Definition take_prefix (s : span) (prefix : text) : res (option (mitem span)) :=
  if starts_with prefix (sp_data s) then
    mi <- into_parse_result s (blen prefix) ;; Ok (Some mi)
  else Ok None.
(** span/take.rs:17-19 [take_whitespace]. *)
Definition take_whitespace (s : span) : res (mitem span) := take_while s is_sp_tab.
(** span/take.rs:22-24 [take_whitespace_with_newline]. *)
Definition take_whitespace_with_newline (s : span) : res (mitem span) := take_while s is_sp_tab_lf.
(** span/take.rs:29-32 [take_required_whitespace]. *)
Definition take_required_whitespace (s : span) : res (option (mitem span)) :=
  mi <- take_while s is_sp_tab ;;
  Ok (match sp_data (mi_item mi) with [] => None | _ => Some mi end).

(** span/discard.rs:6-8 [discard]. *)
Definition discard (s : span) (n : nat) : res span :=
  mi <- into_parse_result s n ;; Ok (mi_after mi).
(** span/discard.rs:12-14 [discard_whitespace]. *)
Definition discard_whitespace (s : span) : res span :=
  mi <- take_whitespace s ;; Ok (mi_after mi).
(** span/discard.rs:17-19 [discard_all]. *)
Definition discard_all (s : span) : res span := discard s (blen (sp_data s)).

(** span/trim.rs:6-9 [trim_trailing_whitespace]. *)
Definition trim_trailing_whitespace (s : span) : res span :=
  slice s 0 (blen (trim_end (sp_data s))).
(** span/trim.rs:13-21 [trim_trailing_line_end]. *)
Definition trim_trailing_line_end (s : span) : res span :=
  if ends_with [CR; LF] (sp_data s) then slice s 0 (blen (sp_data s) - 2)
  else if ends_with [LF] (sp_data s) then slice s 0 (blen (sp_data s) - 1)
  else Ok s.

(** span/line.rs:9-17 [take_line]. [find] of a character is [position] of equality. *)
Definition take_line (s : span) : res (mitem span) :=
  line <- match position (N.eqb LF) (sp_data s) with
          | Some index => into_parse_result s index
          | None => into_parse_result s (blen (sp_data s))
          end ;;
  line <- trim_after_start_matches line LF ;;
  trim_item_end_matches line CR.

(** span/line.rs:26-28 [take_normalized_line]. *)
Definition take_normalized_line (s : span) : res (mitem span) :=
  line <- take_line s ;; trim_item_trailing_spaces line.

(** span/line.rs:41-49 [take_non_empty_line]. *)
Definition take_non_empty_line (s : span) : res (option (mitem span)) :=
  o <- split_at_match_non_empty s (N.eqb LF) ;;
  match o with
  | None => Ok None
  | Some mi =>
      mi <- trim_after_start_matches mi LF ;;
      mi <- trim_item_end_matches mi CR ;;
      mi <- trim_item_trailing_spaces mi ;;
      Ok (match sp_data (mi_item mi) with [] => None | _ => Some mi end)
  end.

(** span/line.rs:57-65 [take_empty_line].  The Rust code tests bytes; space and tab are
    single bytes, so testing characters is the same. *)
Definition take_empty_line (s : span) : res (option (mitem span)) :=
  l <- take_line s ;;
  Ok (if forallb is_sp_tab (sp_data (mi_item l)) then Some l else None).

(** span/line.rs:70-81 [discard_empty_lines]: the [while] loop, with fuel. *)
Fixpoint discard_empty_lines_go (fuel : nat) (i : span) : res span :=
  match sp_data i with
  | [] => Ok i
  | _ =>
      match fuel with
      | 0 => OutOfFuel
      | S f =>
          o <- take_empty_line i ;;
          match o with
          | Some line => discard_empty_lines_go f (mi_after line)
          | None => Ok i
          end
      end
  end.
Definition discard_empty_lines (s : span) : res span :=
  discard_empty_lines_go (length (sp_data s)) s.

(** span/line.rs:119-126 [one_line_with_continuation]. *)
Definition one_line_with_continuation (s : span) : res (option (mitem span)) :=
  line <- take_normalized_line s ;;
  Ok (if ends_with [BSL] (sp_data (mi_item line)) then Some line else None).

(** span/line.rs:103-105: the [while let] loop, with fuel. *)
Fixpoint continuation_go (fuel : nat) (mi : mitem span) : res (mitem span) :=
  o <- one_line_with_continuation (mi_after mi) ;;
  match o with
  | None => Ok mi
  | Some new_pr => match fuel with 0 => OutOfFuel | S f => continuation_go f new_pr end
  end.

(** [usize] subtraction: panics below zero (debug build). *)
Definition checked_sub (a b : nat) : res nat := if b <=? a then Ok (a - b) else Panic.

(** span/line.rs:100-117 [take_line_with_continuation]. *)
Definition take_line_with_continuation (s : span) : res (option (mitem span)) :=
  mi <- into_parse_result s 0 ;;
  mi <- continuation_go (length (sp_data s)) mi ;;
  mi <- take_line (mi_after mi) ;;
  len <- checked_sub (sp_off (mi_after mi)) (sp_off s) ;;
  mi <- into_parse_result s len ;;
  mi <- trim_item_end_matches mi LF ;;
  mi <- trim_item_end_matches mi CR ;;
  mi <- trim_item_trailing_spaces mi ;;
  Ok (match sp_data (mi_item mi) with [] => None | _ => Some mi end).

(** Common shape of span/primitives.rs:15-30, 38-53 and 74-89: a first character in [first],
    then the longest run of characters in [more]. *)
Definition take_name (first more : char -> bool) (s : span) : res (option (mitem span)) :=
  match sp_data s with
  | [] => Ok None
  | c :: r =>
      if first c then
        mi <- match position (fun c => negb (more c)) r with
              | Some i => into_parse_result s (clen c + i)
              | None => into_parse_result s (blen (sp_data s))
              end ;;
        Ok (Some mi)
      else Ok None
  end.
Definition UND : char := 95%N.
Definition DASH : char := 45%N.
(** span/primitives.rs:15-30 [take_ident]. *)
Definition take_ident : span -> res (option (mitem span)) :=
  take_name (fun c => is_ascii_alpha c || (c =? UND)%N)
            (fun c => is_ascii_alnum c || (c =? UND)%N).
(** span/primitives.rs:38-53 [take_attr_name]. *)
Definition take_attr_name : span -> res (option (mitem span)) :=
  take_name is_ascii_alnum (fun c => is_ascii_alnum c || (c =? DASH)%N).
(** span/primitives.rs:74-89 [take_user_attr_name]. *)
Definition take_user_attr_name : span -> res (option (mitem span)) :=
  take_name (fun c => is_ascii_alnum c || (c =? UND)%N)
            (fun c => is_ascii_alnum c || (c =? UND)%N || (c =? DASH)%N).

(** span/primitives.rs:94-118 [is_xml_name]. U+037E is the Greek question mark, U+00B7 the
    middle dot. *)
Definition is_xml_name (U : unicode) (t : text) : bool :=
  match t with
  | [] => false
  | c :: r =>
      (if ((c =? 58) || (c =? 95))%N then true
       else if (c =? 894)%N then false else is_alpha U c)
      && forallb (fun c => if ((c =? 58) || (c =? 95) || (c =? 46) || (c =? 45) || (c =? 183))%N
                           then true
                           else if (c =? 894)%N then false else is_alnum U c) r
  end.

(** span/primitives.rs:145-153: the scan for the closing delimiter; [index] is the byte index
    of the head of [t]. *)
Fixpoint quoted_end (delim : char) (prev_bsl : bool) (index : nat) (t : text) : option nat :=
  match t with
  | [] => None
  | c :: r =>
      if (c =? delim)%N && negb prev_bsl then Some index
      else quoted_end delim (c =? BSL)%N (index + clen c) r
  end.
(** span/primitives.rs:132-157 [take_quoted_string]. *)
Definition take_quoted_string (s : span) : res (option (mitem span)) :=
  match sp_data s with
  | [] => Ok None
  | c :: r =>
      if ((c =? 39) || (c =? 34))%N then
        match quoted_end c false 1 r with
        | Some index =>
            item <- slice s 1 index ;;
            after <- slice_from s (index + 1) ;;
            Ok (Some (mkmi item after))
        | None => Ok None
        end
      else Ok None
  end.

(** span/primitives.rs:163-173 [trim_remainder]. *)
Definition trim_remainder (s after : span) : res span :=
  let offset := Nat.min (sp_off s + blen (sp_data s)) (sp_off after) in
  if offset <=? sp_off s then slice s 0 0
  else slice s 0 (offset - sp_off s).
