(** Text as lists of Unicode scalar values, and the functions of the Rust
    standard library that the parser applies to text.

    A Rust [&str] is modelled by the list of its characters ([char::from]), each
    a code point in [N].  Byte indices are obtained by summing UTF-8 lengths. *)
From Coq Require Import Ascii String.
Export String.StringSyntax.
From Coq Require Export List Arith NArith Lia Bool.
Export ListNotations.
From Coq Require Export ZifyBool ZifyNat ZifyN.

Notation char := N (only parsing).
Notation text := (list N) (only parsing).

(** ASCII literals. *)
Definition lit (s : string) : text := map N_of_ascii (list_ascii_of_string s).
Arguments lit s%string_scope.

Definition LF : char := 10%N.
Definition CR : char := 13%N.
Definition TAB : char := 9%N.
Definition SP : char := 32%N.
Definition BSL : char := 92%N.

(** Outcome of code that may panic, or that runs out of fuel (used to express
    divergence of a Rust loop). *)
Inductive res (A : Type) : Type :=
| Ok (a : A)
| Panic
| OutOfFuel.
Arguments Ok {A} a.
Arguments Panic {A}.
Arguments OutOfFuel {A}.

Definition bind {A B} (r : res A) (k : A -> res B) : res B :=
  match r with Ok a => k a | Panic => Panic | OutOfFuel => OutOfFuel end.
Notation "x <- e ;; k" := (bind e (fun x => k))
  (at level 61, e at next level, right associativity).

Definition of_option {A} (o : option A) : res A :=
  match o with Some a => Ok a | None => Panic end.

(** [char::len_utf8] of the Rust standard library. *)
Definition clen (c : char) : nat :=
  if (c <? 128)%N then 1
  else if (c <? 2048)%N then 2
  else if (c <? 65536)%N then 3
  else 4.

(** [str::len]: number of bytes. *)
Fixpoint blen (t : text) : nat :=
  match t with [] => 0 | c :: r => clen c + blen r end.

(** [str::split_at]: cut at a byte index; [None] when the index is beyond the end
    or not on a character boundary (Rust panics). *)
Fixpoint bsplit (n : nat) (t : text) : option (text * text) :=
  match n with
  | 0 => Some ([], t)
  | S _ =>
      match t with
      | [] => None
      | c :: r =>
          if clen c <=? n then
            match bsplit (n - clen c) r with
            | Some (a, b) => Some (c :: a, b)
            | None => None
            end
          else None
      end
  end.

Fixpoint text_eqb (a b : text) : bool :=
  match a, b with
  | [], [] => true
  | x :: a', y :: b' => (x =? y)%N && text_eqb a' b'
  | _, _ => false
  end.

(** [str::starts_with(&str)] and [str::ends_with(&str)]. *)
Fixpoint starts_with (p t : text) : bool :=
  match p, t with
  | [], _ => true
  | x :: p', y :: t' => (x =? y)%N && starts_with p' t'
  | _ :: _, [] => false
  end.
Definition ends_with (p t : text) : bool := starts_with (rev p) (rev t).

(** [str::contains(&str)]. *)
Fixpoint contains (p t : text) : bool :=
  starts_with p t || match t with [] => false | _ :: t' => contains p t' end.
(** [str::contains(char)]. *)
Definition has_char (c : char) (t : text) : bool := existsb (N.eqb c) t.

(** Longest prefix satisfying a predicate, and the rest. *)
Fixpoint span_while (p : char -> bool) (t : text) : text * text :=
  match t with
  | [] => ([], [])
  | c :: r => if p c then let '(a, b) := span_while p r in (c :: a, b) else ([], t)
  end.
Definition take_while_c p t := fst (span_while p t).
Definition drop_while_c p t := snd (span_while p t).

(** [str::trim_end_matches(pred)] and [str::trim_start_matches(pred)]. *)
Definition trim_end_by (p : char -> bool) (t : text) : text :=
  rev (drop_while_c p (rev t)).
Definition trim_start_by (p : char -> bool) (t : text) : text := drop_while_c p t.

(** [char::is_whitespace]: the complete list of code points with the Unicode
    property White_Space. *)
Definition is_ws (c : char) : bool :=
  ((9 <=? c) && (c <=? 13) || (c =? 32) || (c =? 133) || (c =? 160) || (c =? 5760)
   || (8192 <=? c) && (c <=? 8202) || (c =? 8232) || (c =? 8233) || (c =? 8239)
   || (c =? 8287) || (c =? 12288))%N.
(** [str::trim_end], [str::trim_start], [str::trim]. *)
Definition trim_end t := trim_end_by is_ws t.
Definition trim_start t := trim_start_by is_ws t.
Definition trim t := trim_start (trim_end t).

(** ASCII classes: [char::is_ascii_alphabetic] etc. *)
Definition is_ascii_digit (c : char) : bool := ((48 <=? c) && (c <=? 57))%N.
Definition is_ascii_upper (c : char) : bool := ((65 <=? c) && (c <=? 90))%N.
Definition is_ascii_lower (c : char) : bool := ((97 <=? c) && (c <=? 122))%N.
Definition is_ascii_alpha (c : char) : bool := is_ascii_upper c || is_ascii_lower c.
Definition is_ascii_alnum (c : char) : bool := is_ascii_alpha c || is_ascii_digit c.

(** Unicode classes outside ASCII are an argument of the model.  Inside ASCII they
    are computed. *)
Record unicode := {
  u_alpha : char -> bool;       (* char::is_alphabetic *)
  u_numeric : char -> bool;     (* char::is_numeric; is_alphanumeric = alpha || numeric *)
  u_word : char -> bool;        (* regex class \w *)
  u_nd : char -> bool;          (* regex classes \d, \p{Nd}, \p{digit} *)
  u_letter : char -> bool;      (* regex class \p{L} *)
  u_lower : char -> text;       (* char::to_lowercase *)
  u_upper : char -> text        (* char::to_uppercase *)
}.
Definition is_alpha (U : unicode) (c : char) : bool :=
  if (c <? 128)%N then is_ascii_alpha c else u_alpha U c.
Definition is_numeric (U : unicode) (c : char) : bool :=
  if (c <? 128)%N then is_ascii_digit c else u_numeric U c.
Definition is_alnum (U : unicode) (c : char) : bool := is_alpha U c || is_numeric U c.
Definition is_word (U : unicode) (c : char) : bool :=
  if (c <? 128)%N then is_ascii_alnum c || (c =? 95)%N else u_word U c.
Definition lower_c (U : unicode) (c : char) : text :=
  if is_ascii_upper c then [(c + 32)%N]
  else if (c <? 128)%N then [c] else u_lower U c.
(** [str::to_lowercase] (the final-sigma rule of Rust is subsumed by the
    abstract table only for single characters; it concerns U+03A3 alone). *)
Definition to_lowercase (U : unicode) (t : text) : text := flat_map (lower_c U) t.

(** A table with no letters outside ASCII, for concrete computations. *)
Definition ascii_only : unicode :=
  {| u_alpha := fun _ => false; u_numeric := fun _ => false; u_word := fun _ => false; u_nd := fun _ => false; u_letter := fun _ => false;
     u_lower := fun c => [c]; u_upper := fun c => [c] |}.

(** [str::split(char)]. *)
Fixpoint split_on (c : char) (t : text) : list text :=
  match t with
  | [] => [[]]
  | x :: r =>
      if (x =? c)%N then [] :: split_on c r
      else match split_on c r with
           | [] => [[x]]
           | l :: ls => (x :: l) :: ls
           end
  end.

(** [str::replace(char, &str)]. *)
Definition replace_char (c : char) (by_ : text) (t : text) : text :=
  flat_map (fun x => if (x =? c)%N then by_ else [x]) t.

(** [str::replace(&str, &str)] for a non-empty pattern [p]. Scans left to right,
    non-overlapping.  [skip] counts characters of the current match left to drop. *)
Fixpoint replace_go (p by_ : text) (skip : nat) (t : text) : text :=
  match t with
  | [] => []
  | c :: r =>
      match skip with
      | S k => replace_go p by_ k r
      | 0 => if starts_with p t then by_ ++ replace_go p by_ (length p - 1) r
             else c :: replace_go p by_ 0 r
      end
  end.
Definition replace_str (p by_ t : text) : text := replace_go p by_ 0 t.

(** Joining with a separator: [[T]::join]. *)
Fixpoint join (sep : text) (l : list text) : text :=
  match l with
  | [] => []
  | [a] => a
  | a :: r => a ++ sep ++ join sep r
  end.

(** Decimal rendering of a number ([format!("{n}")]), least significant digit last. *)
Fixpoint digits_go (fuel : nat) (n : nat) (acc : text) : text :=
  match fuel with
  | 0 => acc
  | S f =>
      let acc' := (48 + N.of_nat (Nat.modulo n 10))%N :: acc in
      if n <? 10 then acc' else digits_go f (Nat.div n 10) acc'
  end.
Definition show_nat (n : nat) : text := digits_go (S n) n [].

(** Slicing [&t[n..]] and [&t[..n]]: panics when [n] is out of range or inside a character. *)
Definition str_from (n : nat) (t : text) : res text :=
  match bsplit n t with Some (_, b) => Ok b | None => Panic end.
Definition str_to (n : nat) (t : text) : res text :=
  match bsplit n t with Some (a, _) => Ok a | None => Panic end.

(** [str::lines]: pieces ended by LF, without it and without a CR before it; a last piece not
    ended by LF is kept as it is, unless it is empty. *)
Definition drop_cr (t : text) : text :=
  match rev t with c :: r => if (c =? CR)%N then rev r else t | [] => t end.
Fixpoint lines_of (l : list text) : list text :=
  match l with
  | [] => []
  | [last] => match last with [] => [] | _ => [last] end
  | x :: r => drop_cr x :: lines_of r
  end.
Definition str_lines (t : text) : list text := lines_of (split_on LF t).
