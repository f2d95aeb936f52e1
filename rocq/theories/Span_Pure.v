(** Character-level forms of the span operations of [Span_Model].  They are total; the
    theorems of [Span_Proof] show that each byte-level operation of the code returns
    [Ok] of the corresponding form, so the higher levels of the model use these. *)
From Verif Require Import Text Span_Model.

(** The same position, other (shorter) data. *)
Definition with_data (s : span) (d : text) : span :=
  mkspan d (sp_line s) (sp_col s) (sp_off s).
(** The position after skipping [pre] (this is span/slice.rs:37-73). *)
Definition skip (s : span) (pre d : text) : span := slice_internal s pre d.

Definition psplit (s : span) (a b : text) : mitem span := mkmi (with_data s a) (skip s a b).

(** span/take.rs:35-43. *)
Definition p_take_while (s : span) (p : char -> bool) : mitem span :=
  let '(a, b) := span_while p (sp_data s) in psplit s a b.
Definition p_take_whitespace (s : span) : mitem span := p_take_while s is_sp_tab.
Definition p_take_whitespace_with_newline (s : span) : mitem span := p_take_while s is_sp_tab_lf.
Definition p_take_required_whitespace (s : span) : option (mitem span) :=
  let mi := p_take_whitespace s in
  match sp_data (mi_item mi) with [] => None | _ => Some mi end.
Definition p_discard_whitespace (s : span) : span := mi_after (p_take_whitespace s).

(** span/take.rs:8-14. *)
Definition p_take_prefix (s : span) (prefix : text) : option (mitem span) :=
  if starts_with prefix (sp_data s)
  then Some (psplit s prefix (skipn (length prefix) (sp_data s))) else None.

(** [discard(n)] where the first [n] characters are ASCII. *)
Definition p_discard (s : span) (n : nat) : span :=
  skip s (firstn n (sp_data s)) (skipn n (sp_data s)).
(** span/discard.rs:17-19. *)
Definition p_discard_all (s : span) : span := skip s (sp_data s) [].

Definition is_not_lf (c : char) : bool := negb (c =? LF)%N.
Definition strip_cr (l : text) : text :=
  match strip_suffix_c CR l with Some x => x | None => l end.

(** span/line.rs:9-17. *)
Definition p_take_line (s : span) : mitem span :=
  let '(l, r) := span_while is_not_lf (sp_data s) in
  mkmi (with_data s (strip_cr l))
       (match r with [] => skip s l [] | c :: r' => skip s (l ++ [c]) r' end).
(** span/line.rs:26-28. *)
Definition p_take_normalized_line (s : span) : mitem span :=
  let m := p_take_line s in
  mkmi (with_data s (trim_end_by (N.eqb SP) (sp_data (mi_item m)))) (mi_after m).
(** span/line.rs:41-49. *)
Definition p_take_non_empty_line (s : span) : option (mitem span) :=
  match sp_data s with
  | [] => None
  | c :: _ =>
      if (c =? LF)%N then None
      else let m := p_take_normalized_line s in
           match sp_data (mi_item m) with [] => None | _ => Some m end
  end.
(** span/line.rs:57-65. *)
Definition p_take_empty_line (s : span) : option (mitem span) :=
  let l := p_take_line s in
  if forallb is_sp_tab (sp_data (mi_item l)) then Some l else None.
(** span/line.rs:70-81. *)
Fixpoint p_discard_empty_lines_go (fuel : nat) (i : span) : span :=
  match sp_data i, fuel with
  | [], _ | _, 0 => i
  | _, S f =>
      match p_take_empty_line i with
      | Some line => p_discard_empty_lines_go f (mi_after line)
      | None => i
      end
  end.
Definition p_discard_empty_lines (s : span) : span :=
  p_discard_empty_lines_go (length (sp_data s)) s.

(** span/line.rs:100-126.  [p_cont_rest] is the text left after the logical line. *)
Fixpoint p_continuation_go (fuel : nat) (s : span) : span :=
  let line := p_take_normalized_line s in
  if ends_with [BSL] (sp_data (mi_item line)) then
    match fuel with 0 => s | S f => p_continuation_go f (mi_after line) end
  else s.
Definition p_take_line_with_continuation (s : span) : option (mitem span) :=
  let last := p_continuation_go (length (sp_data s)) s in
  let after := mi_after (p_take_line last) in
  let n := length (sp_data s) - length (sp_data after) in
  let raw := firstn n (sp_data s) in
  let strip c t := match strip_suffix_c c t with Some x => x | None => t end in
  let d := trim_end_by (N.eqb SP) (strip CR (strip LF raw)) in
  match d with [] => None | _ => Some (mkmi (with_data s d) (skip s raw (sp_data after))) end.

(** span/primitives.rs:15-89. *)
Definition p_take_name (first more : char -> bool) (s : span) : option (mitem span) :=
  match sp_data s with
  | [] => None
  | c :: r =>
      if first c then
        let '(a, b) := span_while more r in Some (psplit s (c :: a) b)
      else None
  end.
Definition p_take_ident : span -> option (mitem span) :=
  p_take_name (fun c => is_ascii_alpha c || (c =? UND)%N)
              (fun c => is_ascii_alnum c || (c =? UND)%N).
Definition p_take_attr_name : span -> option (mitem span) :=
  p_take_name is_ascii_alnum (fun c => is_ascii_alnum c || (c =? DASH)%N).
Definition p_take_user_attr_name : span -> option (mitem span) :=
  p_take_name (fun c => is_ascii_alnum c || (c =? UND)%N)
              (fun c => is_ascii_alnum c || (c =? UND)%N || (c =? DASH)%N).

(** span/primitives.rs:132-157. *)
Fixpoint quoted_split (delim : char) (prev_bsl : bool) (t : text) : option (text * text) :=
  match t with
  | [] => None
  | c :: r =>
      if (c =? delim)%N && negb prev_bsl then Some ([], r)
      else match quoted_split delim (c =? BSL)%N r with
           | Some (a, b) => Some (c :: a, b)
           | None => None
           end
  end.
Definition p_take_quoted_string (s : span) : option (mitem span) :=
  match sp_data s with
  | [] => None
  | c :: r =>
      if ((c =? 39) || (c =? 34))%N then
        match quoted_split c false r with
        | Some (a, b) => Some (mkmi (skip s [c] a) (skip s (c :: a ++ [c]) b))
        | None => None
        end
      else None
  end.

(** span/trim.rs:6-9. *)
Definition p_trim_trailing_whitespace (s : span) : span := with_data s (trim_end (sp_data s)).
(** span/trim.rs:13-21. *)
Definition p_trim_trailing_line_end (s : span) : span :=
  match rev (sp_data s) with
  | x :: r => if (x =? LF)%N then with_data s (strip_cr (rev r)) else s
  | [] => s
  end.

(** span/primitives.rs:163-173, for an [after] whose data is a suffix of the data of [s]
    (the only use in the parser). *)
Definition p_trim_remainder (s after : span) : span :=
  with_data s (firstn (length (sp_data s) - length (sp_data after)) (sp_data s)).
