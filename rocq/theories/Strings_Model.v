(** Model of parser/src/strings.rs: [InlineStr] and [CowStr]. *)
From Verif Require Import Text Span_Spec.

(** strings.rs:33 [MAX_INLINE_STR_LEN] on a 64-bit target: 3 * 8 - 2. *)
Definition MAX_INLINE_STR_LEN : nat := 3 * 8 - 2.

(** strings.rs:40-46 [InlineStr].  [inner] is the array of bytes, [len] the [u8]. *)
Record inline_str := mkinline { in_inner : list N; in_len : N }.

(** [std::str::from_utf8]: the strict decoder of the standard library (no overlong forms,
    no surrogates, nothing above U+10FFFF); [None] is [Err]. *)
Definition is_cont (b : N) : bool := ((128 <=? b) && (b <=? 191))%N.
Fixpoint from_utf8 (bs : list N) : option (list N) :=
  match bs with
  | [] => Some []
  | b0 :: r0 =>
      if (b0 <? 128)%N then option_map (cons b0) (from_utf8 r0)
      else match r0 with
      | [] => None
      | b1 :: r1 =>
          if negb (is_cont b1) then None
          else if ((194 <=? b0) && (b0 <=? 223))%N then
            option_map (cons ((b0 - 192) * 64 + (b1 - 128))%N) (from_utf8 r1)
          else match r1 with
          | [] => None
          | b2 :: r2 =>
              if negb (is_cont b2) then None
              else if ((224 <=? b0) && (b0 <=? 239))%N then
                let c := ((b0 - 224) * 4096 + (b1 - 128) * 64 + (b2 - 128))%N in
                if ((2048 <=? c) && negb ((55296 <=? c) && (c <=? 57343)))%N
                then option_map (cons c) (from_utf8 r2) else None
              else match r2 with
              | [] => None
              | b3 :: r3 =>
                  if negb (is_cont b3) then None
                  else if ((240 <=? b0) && (b0 <=? 244))%N then
                    let c := ((b0 - 240) * 262144 + (b1 - 128) * 4096 + (b2 - 128) * 64 + (b3 - 128))%N in
                    if ((65536 <=? c) && (c <=? 1114111))%N
                    then option_map (cons c) (from_utf8 r3) else None
                  else None
              end
          end
      end
  end.

(** [inner[..len].copy_from_slice(src)] into an array of zeros. *)
Definition zero_padded (src : list N) : list N :=
  src ++ repeat 0%N (MAX_INLINE_STR_LEN - length src).

(** strings.rs:60-67 [From<char> for InlineStr].  [encode_utf8] panics when the buffer is too
    small, which cannot happen (at most 4 bytes). *)
Definition inline_from_char (c : char) : inline_str :=
  mkinline (zero_padded (utf8 c)) (N.of_nat (clen c) mod 256)%N.

(** strings.rs:75-89 [TryFrom<&str> for InlineStr]; [None] is [Err(StringTooLongError)]. *)
Definition inline_try_from (s : text) : option inline_str :=
  let len := length (utf8_bytes s) in
  if len <=? MAX_INLINE_STR_LEN
  then Some (mkinline (zero_padded (utf8_bytes s)) (N.of_nat len mod 256)%N)
  else None.

(** strings.rs:91-98 [Deref for InlineStr].  The slice [inner[..len]] panics when [len] exceeds
    the array. *)
Definition inline_deref (i : inline_str) : res text :=
  let len := N.to_nat (in_len i) in
  if len <=? length (in_inner i)
  then Ok (match from_utf8 (firstn len (in_inner i)) with Some t => t | None => [] end)
  else Panic.

(** strings.rs:68-72 [PartialEq for InlineStr]. *)
Definition inline_eq (a b : inline_str) : res bool :=
  x <- inline_deref a ;; y <- inline_deref b ;; Ok (text_eqb x y).

(** strings.rs:124-132 [CowStr]; strings of the standard library are texts. *)
Inductive cowstr := Boxed (s : text) | Borrowed (s : text) | Inlined (i : inline_str).

(** [std::borrow::Cow<str>]. *)
Inductive cow := CowBorrowed (s : text) | CowOwned (s : text).

(** strings.rs:203-213 [Deref for CowStr]. *)
Definition cow_deref (c : cowstr) : res text :=
  match c with Boxed s => Ok s | Borrowed s => Ok s | Inlined i => inline_deref i end.

(** strings.rs:146-157 [Clone for CowStr]. *)
Definition cow_clone (c : cowstr) : cowstr :=
  match c with
  | Boxed s => match inline_try_from s with Some i => Inlined i | None => Boxed s end
  | Borrowed s => Borrowed s
  | Inlined i => Inlined i
  end.

(** strings.rs:159-163 [PartialEq for CowStr]. *)
Definition cow_eq (a b : cowstr) : res bool :=
  x <- cow_deref a ;; y <- cow_deref b ;; Ok (text_eqb x y).
(** strings.rs:140-144 [Hash for CowStr]: the hash of the text, for any hash function. *)
Definition cow_hash {H} (hash : text -> H) (a : cowstr) : res H :=
  x <- cow_deref a ;; Ok (hash x).

(** strings.rs:165-201: conversions. *)
Definition cow_from_str (s : text) : cowstr := Borrowed s.
Definition cow_from_string (s : text) : cowstr := Boxed s.
Definition cow_from_char (c : char) : cowstr := Inlined (inline_from_char c).
Definition cow_from_cow (c : cow) : cowstr :=
  match c with CowBorrowed s => Borrowed s | CowOwned s => Boxed s end.
Definition cow_into_cow (c : cowstr) : res cow :=
  match c with
  | Boxed s => Ok (CowOwned s)
  | Inlined i => s <- inline_deref i ;; Ok (CowOwned s)
  | Borrowed s => Ok (CowBorrowed s)
  end.
(** strings.rs:223-232 [into_string]; strings.rs:234-238 [Display] writes the same text. *)
Definition cow_into_string (c : cowstr) : res text := cow_deref c.
