(** Model of parser/source_map.rs. *)
From Verif Require Import Text.

(** parser/source_map.rs:22 [SourceLine]. *)
Record source_line := mksl { sl_file : option text; sl_line : nat }.
(** parser/source_map.rs:10 [SourceMap]. *)
Definition source_map := list (nat * source_line).
(** parser/source_map.rs:25-29 [append]. *)
Definition sm_append (m : source_map) (line : nat) (s : source_line) : source_map := m ++ [(line, s)].

(** core [slice::binary_search_by_key]: the loop of the standard library (branch-free version).
    [inl i] is [Ok(i)], [inr i] is [Err(i)]. *)
Fixpoint bsearch_loop (fuel : nat) (key : nat -> nat) (k base size : nat) : res nat :=
  match fuel with
  | 0 => OutOfFuel
  | S f =>
      if size <=? 1 then Ok base
      else
        let half := Nat.div size 2 in
        let mid := base + half in
        bsearch_loop f key k (if k <? key mid then base else mid) (size - half)
  end.
Definition binary_search (key : nat -> nat) (k len : nat) : res (nat + nat) :=
  if len =? 0 then Ok (inr 0)
  else
    base <- bsearch_loop (S len) key k 0 len ;;
    Ok (if key base =? k then inl base else inr (if key base <? k then S base else base)).
(** parser/source_map.rs:34-43 [original_file_and_line].  [v.1 + key - k] is computed left to right. *)
Definition sm_key (m : source_map) (i : nat) : nat := match nth_error m i with Some (k, _) => k | None => 0 end.
Definition original_file_and_line (m : source_map) (key : nat) : res (option source_line) :=
  r <- binary_search (sm_key m) key (length m) ;;
  match r with
  | inl i => Ok (match nth_error m i with Some (_, v) => Some v | None => None end)
  | inr 0 => Ok (Some (mksl None key))
  | inr (S i) =>
      match nth_error m i with
      | Some (k, v) => if sl_line v + key <? k then Panic else Ok (Some (mksl (sl_file v) (sl_line v + key - k)))
      | None => Ok None
      end
  end.
