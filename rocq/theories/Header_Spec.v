(** Specification of the document header (docs/modules/document/pages/header.adoc, revision-line.adoc,
    author-line.adoc, multiple-authors.adoc). *)
From Verif Require Import Text Span_Model Span_Spec Span_Laws Entry_Spec.

(** [x] is [t] without the white space at its two ends. *)
Definition blank (t : text) : Prop := Forall (fun c => is_ws c = true) t.
Definition bare (t x : text) : Prop :=
  (exists a b, t = a ++ x ++ b /\ blank a /\ blank b) /\
  (forall c r, x = c :: r -> is_ws c = false) /\ (forall r c, x = r ++ [c] -> is_ws c = false).
(** [t] cut at its first [c]. *)
Definition cut (c : char) (t l : text) (r : option text) : Prop :=
  match r with
  | Some x => t = l ++ c :: x /\ ~ In c l
  | None => t = l /\ ~ In c t
  end.
Definition decimal (c : char) : Prop := (48 <= c /\ c <= 57)%N.
(** [n] is [s] from its first decimal digit on. *)
Definition number_in (s n : text) : Prop :=
  exists p, s = p ++ n /\ Forall (fun c => ~ decimal c) p /\ (n = [] \/ exists d r, n = d :: r /\ decimal d).
(** A version number on its own: the letter [v] and a digit ([\d], any decimal digit of Unicode). *)
Definition a_digit (U : unicode) (c : char) : Prop := decimal c \/ (128 <= c)%N /\ u_nd U c = true.
Definition standalone (U : unicode) (s : text) : Prop := exists d r, s = 118%N :: d :: r /\ a_digit U d.
Definition opt_bare (o x : option text) : Prop :=
  match o, x with Some t, Some y => bare t y | None, None => True | _, _ => False end.

(** A revision line: "number, date: remark", each of them but one optional. *)
Inductive revision (U : unicode) (t : text) : option text -> text -> option text -> Prop :=
| rev_dated left right r num date n s d :
    cut 58%N t left right -> opt_bare right r ->
    cut 44%N left num (Some date) -> bare num s -> number_in s n -> bare date d ->
    revision U t (Some n) d r
| rev_version left right r n s :
    cut 58%N t left right -> opt_bare right r ->
    ~ In 44%N left -> bare left s -> standalone U s -> number_in s n ->
    revision U t (Some n) [] r
| rev_date left right r s :
    cut 58%N t left right -> opt_bare right r ->
    ~ In 44%N left -> bare left s -> ~ standalone U s ->
    revision U t None s r.
Definition otext (o : option text) : text := match o with Some t => t | None => [] end.

(** An author: up to three names and an address.  A name begins with a word character or one of [& # ;]
    and goes on with these, [-], ['] and [.]; the names are separated by spaces. *)
Definition word_char (U : unicode) (c : char) : Prop :=
  (decimal c \/ (65 <= c /\ c <= 90) \/ (97 <= c /\ c <= 122) \/ c = 95 \/ In c (lit "&#;"))%N \/
  ((128 <= c)%N /\ (u_letter U c = true \/ u_numeric U c = true)).
Definition a_name (U : unicode) (w : text) : Prop :=
  exists c r, w = c :: r /\ word_char U c /\ Forall (fun d => word_char U d \/ In d (lit "-'.")) r.
Definition gap (t : text) : Prop := t <> [] /\ Forall (eq SP) t.
Inductive address : text -> option text -> Prop :=
| ad_none : address [] None
| ad_some g e : gap g -> e <> [] -> ~ In 62%N e -> address (g ++ lit "<" ++ e ++ lit ">") (Some e).
(** [author_text U t full first middle last email]. *)
Inductive author_text (U : unicode) : text -> text -> text -> option text -> option text -> option text -> Prop :=
| at_one f x e : a_name U f -> address x e -> author_text U (f ++ x) f f None None e
| at_two f g l x e : a_name U f -> gap g -> a_name U l -> address x e ->
    author_text U (f ++ g ++ l ++ x) (f ++ g ++ l) f None (Some l) e
| at_three f g m h l x e : a_name U f -> gap g -> a_name U m -> gap h -> a_name U l -> address x e ->
    author_text U (f ++ g ++ m ++ h ++ l ++ x) (f ++ g ++ m ++ h ++ l) f (Some m) (Some l) e.
(** Underscores stand for spaces within a name. *)
Definition spaced (t : text) : text := map (fun c => if (c =? 95)%N then SP else c) t.
(** What is shown for a special character. *)
Definition entity (c : char) : text :=
  if (c =? 60)%N then lit "&lt;" else if (c =? 62)%N then lit "&gt;" else if (c =? 38)%N then lit "&amp;" else [c].
(** White space is neither a letter nor a number (a fact of Unicode). *)
Definition spaces_apart (U : unicode) : Prop := forall c, is_ws c = true -> u_letter U c = false /\ u_numeric U c = false.
(** The attribute that tells something about the [i]-th author (from 0): the first has no number. *)
Definition nth_name (base : text) (i : nat) : text := match i with 0 => base | S _ => base ++ lit "_" ++ show_nat (S i) end.
(** Pieces between occurrences of "; ", each cut at the first one. *)
Inductive pieces_of : text -> list text -> Prop :=
| po_last t : (forall a b, t <> a ++ lit "; " ++ b) -> pieces_of t [t]
| po_cut a b l : (forall x y, a ++ lit ";" <> x ++ lit "; " ++ y) -> pieces_of b l -> pieces_of (a ++ lit "; " ++ b) (a :: l).

(** * Lines of the header *)
Inductive hkind := HBlank | HComment (n : text) | HEntry (n : text) | HText (n : text).
Definition a_comment (n : text) : Prop := exists r, n = lit "//" ++ r /\ forall q, r <> lit "/" ++ q.
Definition an_entry (t n r : text) : Prop := exists c d u x, logical t c r /\ stripped c d /\ entry_line d n u x.
(** [hline t k r]: what stands first in [t] is a line of kind [k], and [r] comes after it.  Spaces at the
    end of a line do not count; an attribute entry takes its continuation lines with it. *)
Inductive hline : text -> hkind -> text -> Prop :=
| hl_blank l e r : ~ In LF l -> eol e r -> trimmed_line l [] -> hline (l ++ e ++ r) HBlank r
| hl_comment l e r n : ~ In LF l -> eol e r -> trimmed_line l n -> a_comment n -> hline (l ++ e ++ r) (HComment n) r
| hl_entry t n r : an_entry t n r -> hline t (HEntry n) r
| hl_text l e r n : ~ In LF l -> eol e r -> trimmed_line l n -> n <> [] -> ~ a_comment n ->
    (forall m q, ~ an_entry (l ++ e ++ r) m q) -> hline (l ++ e ++ r) (HText n) r.
Definition a_title (n : text) : Prop := exists x, n = lit "= " ++ x.
(** The header: [header_run ts t ks ts' rest w]: with the title, author and revision lines [ts] already
    read, the lines [ks] of [t] belong to the header too, which then has the lines [ts']; [rest] is what
    comes after; [w] says whether the header lacks the blank line that should end it. *)
Inductive header_run : list text -> text -> list hkind -> list text -> text -> bool -> Prop :=
| hr_end ts : header_run ts [] [] ts [] false
| hr_skip t r ks ts' rest w : t <> [] -> hline t HBlank r -> header_run [] r ks ts' rest w -> header_run [] t (HBlank :: ks) ts' rest w
| hr_blank ts t r : ts <> [] -> t <> [] -> hline t HBlank r -> header_run ts t [] ts t false
| hr_comment ts t n r ks ts' rest w : hline t (HComment n) r -> header_run ts r ks ts' rest w -> header_run ts t (HComment n :: ks) ts' rest w
| hr_entry ts t n r ks ts' rest w : hline t (HEntry n) r -> header_run ts r ks ts' rest w -> header_run ts t (HEntry n :: ks) ts' rest w
| hr_title t n r ks ts' rest w : hline t (HText n) r -> a_title n -> header_run [n] r ks ts' rest w -> header_run [] t (HText n :: ks) ts' rest w
| hr_line ts t n r ks ts' rest w : hline t (HText n) r -> length ts = 1 \/ length ts = 2 ->
    header_run (ts ++ [n]) r ks ts' rest w -> header_run ts t (HText n :: ks) ts' rest w
| hr_no_title t n r : hline t (HText n) r -> ~ a_title n -> header_run [] t [] [] t false
| hr_full ts t n r : hline t (HText n) r -> length ts = 3 -> header_run ts t [] ts t true.
Definition comments_of (ks : list hkind) : list text := flat_map (fun k => match k with HComment n => [n] | _ => [] end) ks.
Definition entries_of (ks : list hkind) : list text := flat_map (fun k => match k with HEntry n => [n] | _ => [] end) ks.
