(** Model of [parser/src/internal/regex.rs]: replacement with a look-ahead after each match. *)
From Verif Require Import Text Regex Span_Model Attrlist_Model.

(** internal/regex.rs:53-59 [LookaheadResult]. *)
Inductive look_result := LContinue | LSkipAheadAndRetry (n : nat).
(** What the [for] loop leaves: either it ran to the end with [(last_match, new)], or it asked for a
    retry with the new haystack and [(last_match, new)]. *)
Inductive look_step := LDone (last : nat) (new : text) | LRetry (haystack : text) (last : nat) (new : text).

Section Look.
  Context (U : unicode) (r : re) (rep : mtch -> text -> res (look_result * text)).

  (** internal/regex.rs:24-43: the [for] loop; [pos] is the end of the previous match. [rep] gets
      the match (with the text after it) and [new] and gives the new [new]. *)
  Fixpoint look_for (haystack : text) (l : list (text * mtch)) (pos last : nat) (new : text) : res look_step :=
    match l with
    | [] => Ok (LDone last new)
    | (p, m) :: l' =>
        let start := pos + blen p in
        let end_ := start + blen (m_text m) in
        piece <- str_range last start haystack ;;
        o <- rep m (new ++ piece) ;;
        match fst o with
        | LContinue => look_for haystack l' end_ end_ (snd o)
        | LSkipAheadAndRetry n =>
            match n with
            | 0 => Panic
            | _ => h <- str_from (start + n) haystack ;; Ok (LRetry h last (snd o))
            end
        end
    end.
  (** internal/regex.rs:15-49: the ['retry] loop, with fuel. *)
  Fixpoint look_loop (fuel : nat) (haystack : text) (last : nat) (new : text) : res text :=
    match fuel with
    | 0 => OutOfFuel
    | S f =>
        let l := fst (find_all U r haystack) in
        match new, l with
        | [], [] => Ok haystack
        | _, _ =>
            o <- look_for haystack l 0 last new ;;
            match o with
            | LRetry h last new => look_loop f h last new
            | LDone last new => e <- str_from last haystack ;; Ok (new ++ e)
            end
        end
    end.
  (** internal/regex.rs:7-50 [replace_with_lookahead]. *)
  Definition replace_with_lookahead (haystack : text) : res text :=
    look_loop (S (blen haystack)) haystack 0 [].
End Look.
