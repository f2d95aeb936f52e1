(** Specification of what becomes of a text in the loop over the blocks (C120). *)
From Verif Require Import Text Span_Model Span_Pure Span_Spec Parser_Model Group_Model Header_Model Block_Spec Block_Model Pre_Spec Begin_Spec Stuck_Spec.

(** The inline layer gives a result on every text. *)
Definition total_env (E : env) : Prop := forall P g hb t, exists o, e_sub E P g hb t = Ok o.
(** The closures that the loop is given: outside of sections, and in one. *)
Definition stop_of (E : env) (f : stop_fn) : Prop := f = never \/ exists d l, f = section_stop E d l.
(** [dead E P s]: no block is found at [s]. *)
Definition dead (E : env) (P : parser) (s : span) : Prop :=
  exists s0, discard_empty_lines s = Ok s0 /\ (s0 = s \/ hollow false (sp_data s)) /\ nowhere E P (sp_data s0).
(** [ended D s]: the piece [s] goes to the end of the document, or to a line with the delimiter of a block that it is in. *)
Definition ended (D : text) (s : span) : Prop :=
  exists x y, D = x ++ sp_data s ++ y /\ sp_off s = blen x /\ (y = [] \/ (starts_line (x ++ sp_data s) /\ exists l r n, a_line y l r n /\ compound_delimiter n)).
(** A place in the document, at the beginning of a line. *)
Definition place (D : text) (s : span) : Prop := located D s /\ begins s /\ ended D s.
(** [opens E s P f n s' P']: the block at [s] has blocks inside, which are read from [s'] on: whatever goes wrong there
    goes wrong with the block. *)
Definition opens (E : env) (s : span) (P : parser) (f : stop_fn) (n : nat) (s' : span) (P' : parser) : Prop :=
  (forall un, un f n s' P' = Panic -> block_parse_with E un s P = Panic) /\
  (forall un, un f n s' P' = OutOfFuel -> block_parse_with E un s P = OutOfFuel).
(** [goes_wrong E D f n s P k]: in the document [D], the loop from [s] on comes to a place where the closure panics ([k = true]), or to one where
    no block is found ([k = false]): at [s], in the block there, or after it. *)
Inductive goes_wrong (E : env) (D : text) : stop_fn -> nat -> span -> parser -> bool -> Prop :=
| gw_panic f n s P : sp_data s <> [] -> f s n = Panic -> goes_wrong E D f n s P true
| gw_dead f n s P n' w : sp_data s <> [] -> f s n = Ok (false, (n', w)) -> dead E P s -> goes_wrong E D f n s P false
| gw_inside f n s P n' w f1 n1 s1 P1 s2 k : sp_data s <> [] -> f s n = Ok (false, (n', w)) -> stop_of E f1 -> place D s1 -> opens E s P f1 n1 s1 P1 ->
    discard_empty_lines s1 = Ok s2 -> goes_wrong E D f1 n1 s2 P1 k -> goes_wrong E D f n s P k
| gw_later f n s P n' w fuel r mi k : sp_data s <> [] -> f s n = Ok (false, (n', w)) -> block_parse E fuel s P = Ok r -> pr_item r = Some mi ->
    goes_wrong E D f n' (mi_after mi) (pr_parser r) k -> goes_wrong E D f n s P k.
