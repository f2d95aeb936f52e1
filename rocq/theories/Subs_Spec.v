(** Specifications for the basic substitution steps.  They mention text only. *)
From Verif Require Import Text Regex Regex_Proof Regex_Lang.

(** Decoding of the three entities written by the special-character step. *)
Fixpoint decode (t : text) : text :=
  match t with
  | 38%N :: 108%N :: 116%N :: 59%N :: r => 60%N :: decode r             (* &lt; *)
  | 38%N :: 103%N :: 116%N :: 59%N :: r => 62%N :: decode r             (* &gt; *)
  | 38%N :: 97%N :: 109%N :: 112%N :: 59%N :: r => 38%N :: decode r     (* &amp; *)
  | c :: r => c :: decode r
  | [] => []
  end.
Definition starts_entity (t : text) : Prop :=
  exists r, t = lit "&lt;" ++ r \/ t = lit "&gt;" ++ r \/ t = lit "&amp;" ++ r.

(** A reference to an attribute: '{', a name, '}'. *)
Definition name_first (c : char) : Prop :=
  (65 <= c <= 90 \/ 97 <= c <= 122 \/ 48 <= c <= 57 \/ c = 95)%N.
Definition name_char (c : char) : Prop := (name_first c \/ c = 45)%N.
Definition is_name (n : text) : Prop := exists c r, n = c :: r /\ name_first c /\ Forall name_char r.
Definition ref (n : text) : text := lit "{" ++ n ++ lit "}".
Definition starts_ref (t : text) : Prop := exists n r, is_name n /\ t = ref n ++ r.

(** Expansion of references, left to right.  [value n] is [None] when there is no attribute [n]. *)
Inductive expands (value : text -> option text) : text -> text -> Prop :=
| ex_nil : expands value [] []
| ex_value n v r o : is_name n -> value n = Some v -> expands value r o -> expands value (ref n ++ r) (v ++ o)
| ex_escaped n v r o : is_name n -> value n = Some v -> expands value r o -> expands value (BSL :: ref n ++ r) (ref n ++ o)
| ex_unknown n r o : is_name n -> value n = None -> expands value r o -> expands value (ref n ++ r) (ref n ++ o)
| ex_unknown_escaped n r o : is_name n -> value n = None -> expands value r o -> expands value (BSL :: ref n ++ r) (BSL :: ref n ++ o)
| ex_char c t o : ~ starts_ref (c :: t) -> ~ (c = BSL /\ starts_ref t) -> expands value t o -> expands value (c :: t) (c :: o).

(** The lines of a text: what lies between LF characters. *)
Inductive lines_are : text -> list text -> Prop :=
| la_last l : ~ In LF l -> lines_are l [l]
| la_cons l t ls : ~ In LF l -> lines_are t ls -> lines_are (l ++ LF :: t) (l :: ls).
(** Line [l'] is line [l] with its final " +" turned into a line break, or [l] itself when it has none. *)
Definition plus_broken (l l' : text) : Prop :=
  (exists a, l = a ++ lit " +" /\ l' = a ++ lit "<br>") \/ ((forall a, l <> a ++ lit " +") /\ l' = l).
(** Line [l'] is line [l] ended by a line break, a final " +" being dropped. *)
Definition hard_broken (l l' : text) : Prop :=
  (exists a, l = a ++ lit " +" /\ l' = a ++ lit "<br>") \/ ((forall a, l <> a ++ lit " +") /\ l' = l ++ lit "<br>").
(** Line [l'] is line [l] without a final carriage return. *)
Definition no_cr (l l' : text) : Prop := l = l' ++ [CR] \/ ((forall a, l <> a ++ [CR]) /\ l' = l).

(** ** Character replacements *)
(** Rules: [prev v rest y] - after the character [prev] and before [rest], [v] becomes [y]. *)
Definition rule := option char -> text -> text -> text -> Prop.
(** A literal [w] becomes [x]; with a backslash before it, only the backslash goes. *)
Definition r_literal (w x : text) : rule := fun _ v _ y => (v = w /\ y = x) \/ (v = BSL :: w /\ y = w).
(** An em dash with a blank or a text boundary on both sides. *)
Definition r_dash_spaces : rule := fun prev v rest y => exists a b, v = a ++ lit "--" ++ b /\
  ((a = [SP] \/ a = [LF] \/ (a = [] /\ prev = None)) /\ y = lit "&#8201;&#8212;&#8201;" \/ a = [BSL] /\ y = lit "--" ++ b) /\
  (b = [SP] \/ b = [LF] \/ (b = [] /\ rest = [])).
(** An em dash after a word character. *)
Definition r_dash_word (U : unicode) : rule := fun _ v _ y => exists c, is_word U c = true /\
  (v = c :: lit "--" /\ y = c :: lit "&#8212;&#8203;" \/ v = c :: BSL :: lit "--" /\ y = c :: lit "--").
(** An apostrophe inside an ASCII word. *)
Definition r_apostrophe : rule := fun _ v _ y => exists a b, is_ascii_alnum a = true /\ is_ascii_alpha b = true /\
  (v = [a; 39%N; b] /\ y = a :: lit "&#8217;" ++ [b] \/ v = [a; BSL; 39%N; b] /\ y = [a; 39%N; b]).
(** An entity whose ampersand has been escaped by the special-character step. *)
Definition entity_name (U : unicode) (n : text) : Prop :=
  (exists l d, n = l ++ d /\ 2 <= length l /\ Forall (fun c => is_ascii_alpha c = true) l /\ length d <= 2 /\ Forall (fun c => c_digit U c = true) d) \/
  (exists d, n = lit "#" ++ d /\ 2 <= length d <= 6 /\ Forall (fun c => c_digit U c = true) d) \/
  (exists d, n = lit "#x" ++ d /\ 2 <= length d <= 5 /\
     Forall (fun c => c_digit U c = true \/ (97 <= c <= 102)%N \/ (65 <= c <= 70)%N) d).
Definition r_entity (U : unicode) : rule := fun _ v _ y => exists n, entity_name U n /\
  (v = lit "&amp;" ++ n ++ lit ";" /\ y = lit "&" ++ n ++ lit ";" \/
   v = BSL :: lit "&amp;" ++ n ++ lit ";" /\ y = lit "&amp;" ++ n ++ lit ";").
(** The replacements, in the order in which they are made, each over the whole text. *)
Definition replacement_rules (U : unicode) : list rule :=
  [r_literal (lit "(C)") (lit "&#169;"); r_literal (lit "(R)") (lit "&#174;"); r_literal (lit "(TM)") (lit "&#8482;");
   r_dash_spaces; r_dash_word U; r_literal (lit "...") (lit "&#8230;&#8203;"); r_literal (lit "`'") (lit "&#8217;");
   r_apostrophe; r_literal (lit "-&gt;") (lit "&#8594;"); r_literal (lit "=&gt;") (lit "&#8658;");
   r_literal (lit "&lt;-") (lit "&#8592;"); r_literal (lit "&lt;=") (lit "&#8656;"); r_entity U].
Fixpoint passes (l : list rule) (t o : text) : Prop :=
  match l with [] => o = t | R :: l' => exists t', rewritten R None t t' /\ passes l' t' o end.
