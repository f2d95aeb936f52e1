(** Specification for document attributes and section numbers. *)
From Verif Require Import Text Maps Span_Model Parser_Model.

(** Attribute entries of a document, in order, with the place where they stand. *)
Inductive place := InHeader | InBody.
Record entry := mkentry { en_place : place; en_attr : attribute }.
Definition apply_entry (U : unicode) (p : parser) (e : entry) : parser * list warning :=
  match en_place e with
  | InHeader => set_attribute_from_header U p (en_attr e)
  | InBody => set_attribute_from_body U p (en_attr e)
  end.
Fixpoint run_entries (U : unicode) (p : parser) (es : list entry) : parser * list warning :=
  match es with
  | [] => (p, [])
  | e :: r => let '(p1, w1) := apply_entry U p e in
              let '(p2, w2) := run_entries U p1 r in (p2, w1 ++ w2)
  end.

(** The attribute an entry is about: its name in lower case ("hardbreaks" is an alias). *)
Definition entry_name (U : unicode) (e : entry) : text := remap_attr_name U (sp_data (at_name (en_attr e))).
Definition about (U : unicode) (n : text) (e : entry) : bool := text_eqb (entry_name U e) n.

(** Current modification context of an attribute. *)
Definition ctx_of (p : parser) (n : text) : option mod_ctx := option_map av_ctx (mget n (p_attrs p)).

(** The contexts in which a single entry is permitted. *)
Definition allowed (c : option mod_ctx) (pl : place) : bool :=
  match c, pl with
  | None, _ | Some Anywhere, _ => true
  | Some ApiOnly, _ => false
  | Some ApiOrHeader, InHeader => true
  | Some ApiOrHeader, InBody => false
  | Some ApiOrDocumentBody, InBody => true
  | Some ApiOrDocumentBody, InHeader => false
  end.

(** Which entries about an attribute are permitted, given its initial context: all, none, or those
    from the first one at the right place on (the first permitted write lifts the restriction). *)
Fixpoint from_first (pl : place) (es : list entry) : list entry :=
  match es with
  | [] => []
  | e :: r => match en_place e, pl with
              | InHeader, InHeader | InBody, InBody => es
              | _, _ => from_first pl r
              end
  end.
Definition permitted (c : option mod_ctx) (es : list entry) : list entry :=
  match c with
  | None | Some Anywhere => es
  | Some ApiOnly => []
  | Some ApiOrHeader => from_first InHeader es
  | Some ApiOrDocumentBody => from_first InBody es
  end.

(** The value read when [v] was written: the default, if any, when merely set. *)
Definition read_as (p : parser) (n : text) (v : ivalue) : ivalue :=
  match v with
  | VSet => match mget n (p_defaults p) with Some d => VValue d | None => VSet end
  | _ => v
  end.

Definition locked_warning (n : text) (w : warning) : bool :=
  match w_type w with WAttributeValueIsLocked m => text_eqb m n | _ => false end.

(** Section numbers: what the next number must be. *)
Definition next_number (prev : list nat) (level : nat) (new : list nat) : Prop :=
  (length prev < level /\ new = prev ++ repeat 1 (level - length prev)) \/
  (level <= length prev /\ exists a x b, prev = a ++ x :: b /\ length a + 1 = level /\ new = a ++ [x + 1]).
(** Lexicographic order on number components. *)
Inductive lex_lt : list nat -> list nat -> Prop :=
| lex_nil y l : lex_lt [] (y :: l)
| lex_head x y a b : x < y -> lex_lt (x :: a) (y :: b)
| lex_tail x a b : lex_lt a b -> lex_lt (x :: a) (x :: b).
(** The numbers given to a sequence of headings. *)
Fixpoint numbers (n : section_number) (levels : list nat) : list section_number :=
  match levels with
  | [] => []
  | l :: r => let n' := assign_next_number n l in n' :: numbers n' r
  end.
