(** Model of parser/src/document/catalog.rs. *)
From Verif Require Import Text Maps.

(** catalog.rs:163-173 [RefType]. *)
Inductive reftype := RAnchor | RSection | RBibliography.
(** catalog.rs:186-196 [RefEntry]. *)
Record refentry := mkref { re_id : text; re_reftext : option text; re_type : reftype }.
(** catalog.rs:12-18 [Catalog]. *)
Record catalog := mkcat { cat_refs : tmap refentry; cat_reftexts : tmap text }.
(** catalog.rs:21-26 [new]. *)
Definition catalog_new : catalog := mkcat [] [].

(** catalog.rs:119-121 [contains_id]; 114-116 [get_ref]; 124-126 [resolve_id]; 143-150. *)
Definition contains_id (c : catalog) (id : text) : bool := mhas id (cat_refs c).
Definition get_ref (c : catalog) (id : text) : option refentry := mget id (cat_refs c).
Definition resolve_id (c : catalog) (r : text) : option text := mget r (cat_reftexts c).
Definition catalog_len (c : catalog) : nat := mlen (cat_refs c).
Definition catalog_is_empty (c : catalog) : bool := match cat_refs c with [] => true | _ => false end.

(** The insertion shared by catalog.rs:48-62 and 97-109. *)
Definition insert_ref (c : catalog) (id : text) (reftext : option text) (ty : reftype) : catalog :=
  mkcat (mput id (mkref id reftext ty) (cat_refs c))
        (match reftext with
         | Some r => mput_new r id (cat_reftexts c)
         | None => cat_reftexts c
         end).

(** catalog.rs:38-64 [register_ref]; the flag says [Ok]. *)
Definition register_ref (c : catalog) (id : text) (reftext : option text) (ty : reftype) : bool * catalog :=
  if mhas id (cat_refs c) then (false, c) else (true, insert_ref c id reftext ty).

(** catalog.rs:88: [format!("{}-{}", base_id, counter)].  [counter] is an [i32] in the code; its
    overflow (after two thousand million equal ids) is not modelled. *)
Definition candidate (base : text) (counter : nat) : text := base ++ [45%N] ++ show_nat counter.

(** catalog.rs:86-94: the loop, with fuel. *)
Fixpoint unique_go (fuel : nat) (c : catalog) (base : text) (counter : nat) : res text :=
  match fuel with
  | 0 => OutOfFuel
  | S f =>
      if negb (contains_id c (candidate base counter)) then Ok (candidate base counter)
      else unique_go f c base (S counter)
  end.

(** catalog.rs:78-111 [generate_and_register_unique_id]. *)
Definition generate_unique (c : catalog) (base : text) (reftext : option text) (ty : reftype)
  : res (text * catalog) :=
  id <- (if negb (contains_id c base) then Ok base
         else unique_go (S (length (cat_refs c))) c base 2) ;;
  Ok (id, insert_ref c id reftext ty).
