(** Specification of section ids (docs/modules/sections/pages/auto-ids.adoc). *)
From Verif Require Import Text.

(** Runs of [c] are condensed to one. *)
Fixpoint squeeze (c : char) (t : text) : text :=
  match t with
  | [] => []
  | x :: r => if (x =? c)%N then match squeeze c r with (y :: _) as s => if (y =? c)%N then s else x :: s | [] => [x] end else x :: squeeze c r
  end.
(** One [c] taken off the end / the beginning. *)
Definition chop_end (c : char) (t : text) : text := match rev t with x :: r => if (x =? c)%N then rev r else t | [] => t end.
Definition chop_start (c : char) (t : text) : text := match t with x :: r => if (x =? c)%N then r else t | [] => t end.
(** Spaces, periods and hyphens are replaced by the separator. *)
Definition breaks_to (sep : text) (t : text) : text := flat_map (fun c => if (c =? 32)%N || (c =? 46)%N || (c =? 45)%N then sep else [c]) t.
(** From the cleaned title to the id. *)
Definition id_of (prefix sep cleaned : text) : text :=
  match sep with
  | [] => prefix ++ breaks_to [] cleaned
  | c :: _ =>
      let core := chop_end c (squeeze c (breaks_to [c] cleaned)) in
      prefix ++ (match prefix with [] => chop_start c core | _ => core end)
  end.

(** A tag; a character reference; a tag written with character references. *)
Definition tag (w : text) : Prop := exists x, w = lit "<" ++ x ++ lit ">" /\ x <> [] /\ ~ In 62%N x.
Definition lower_letter (c : char) : Prop := (97 <= c /\ c <= 122)%N.
Section Refs.
Context (digit : char -> bool).
Definition hex_digit (c : char) : Prop := digit c = true \/ (97 <= c /\ c <= 102)%N.
Definition char_ref (w : text) : Prop := exists x, w = lit "&" ++ x ++ lit ";" /\
  ((exists a d, x = a ++ d /\ Forall lower_letter a /\ 2 <= length a /\ Forall (fun c => digit c = true) d /\ length d <= 2) \/
   (exists d, x = lit "#" ++ d /\ Forall (fun c => digit c = true) d /\ 2 <= length d <= 5) \/
   (exists h, x = lit "#x" ++ h /\ Forall hex_digit h /\ 2 <= length h <= 4)).
End Refs.
Definition escaped_tag (w : text) : Prop := exists x, w = lit "&lt;" ++ x ++ lit "&gt;" /\ ~ In 38%N x.
(** What the documentation says is removed from the title.  [ok c]: word character, space, hyphen or
    period.  The last clause asks that no markup follows directly. *)
Inductive cleaned (digit ok : char -> bool) : text -> text -> Prop :=
| cl_nil : cleaned digit ok [] []
| cl_tag w r o : tag w -> cleaned digit ok r o -> cleaned digit ok (w ++ r) o
| cl_escaped w r o : escaped_tag w -> cleaned digit ok r o -> cleaned digit ok (w ++ r) o
| cl_ref w r o : char_ref digit w -> (forall v s, w ++ r = v ++ s -> ~ escaped_tag v) -> cleaned digit ok r o -> cleaned digit ok (w ++ r) o
| cl_keep c r o : ok c = true -> cleaned digit ok r o -> cleaned digit ok (c :: r) (c :: o)
| cl_drop c r o : ok c = false -> c <> 60%N -> c <> 38%N -> (forall s, r <> 60%N :: s /\ r <> 38%N :: s) -> cleaned digit ok r o -> cleaned digit ok (c :: r) o.
