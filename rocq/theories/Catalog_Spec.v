(** Specification of the catalog: a log of successful registrations. *)
From Verif Require Import Text Maps Catalog_Model.

(** * Specification: the list of successful registrations, oldest first. *)
Definition log := list (text * option text * reftype).
Definition log_ids (l : log) : list text := map (fun e => fst (fst e)) l.

Inductive cat_op :=
| OpRegister (id : text) (reftext : option text) (ty : reftype)
| OpGenerate (base : text) (reftext : option text) (ty : reftype).

(** What an operation reports: whether the registration succeeded, or the generated id. *)
Inductive cat_out := OutRegister (ok : bool) | OutGenerate (id : text).

(** [gen_id l base id]: [id] is the id to be generated for [base]. *)
Definition gen_id (l : log) (base id : text) : Prop :=
  ~ In id (log_ids l) /\
  ((~ In base (log_ids l) /\ id = base) \/
   (In base (log_ids l) /\ exists n, 2 <= n /\ id = base ++ [45%N] ++ show_nat n /\
      forall m, 2 <= m < n -> In (base ++ [45%N] ++ show_nat m) (log_ids l))).

Inductive spec_step : log -> cat_op -> cat_out -> log -> Prop :=
| spec_register_ok l id rt ty : ~ In id (log_ids l) ->
    spec_step l (OpRegister id rt ty) (OutRegister true) (l ++ [(id, rt, ty)])
| spec_register_dup l id rt ty : In id (log_ids l) ->
    spec_step l (OpRegister id rt ty) (OutRegister false) l
| spec_generate l base rt ty id : gen_id l base id ->
    spec_step l (OpGenerate base rt ty) (OutGenerate id) (l ++ [(id, rt, ty)]).

Inductive spec_run : list cat_op -> list cat_out -> log -> Prop :=
| spec_run_nil : spec_run [] [] []
| spec_run_snoc ops outs l o out l' : spec_run ops outs l -> spec_step l o out l' ->
    spec_run (ops ++ [o]) (outs ++ [out]) l'.

(** The first registration with an id, and the first with a reference text. *)
Fixpoint first_with_id (id : text) (l : log) : option (option text * reftype) :=
  match l with
  | [] => None
  | (i, rt, ty) :: r => if list_eq_dec N.eq_dec i id then Some (rt, ty) else first_with_id id r
  end.
Fixpoint first_with_reftext (t : text) (l : log) : option text :=
  match l with
  | [] => None
  | (i, Some rt, _) :: r => if list_eq_dec N.eq_dec rt t then Some i else first_with_reftext t r
  | (_, None, _) :: r => first_with_reftext t r
  end.

(** * The code run on a sequence of operations *)
Definition step (c : catalog) (o : cat_op) : res (cat_out * catalog) :=
  match o with
  | OpRegister id rt ty => let '(ok, c') := register_ref c id rt ty in Ok (OutRegister ok, c')
  | OpGenerate base rt ty => r <- generate_unique c base rt ty ;; Ok (OutGenerate (fst r), snd r)
  end.
Fixpoint run_from (c : catalog) (ops : list cat_op) : res (list cat_out * catalog) :=
  match ops with
  | [] => Ok ([], c)
  | o :: r => x <- step c o ;; y <- run_from (snd x) r ;; Ok (fst x :: fst y, snd y)
  end.
Definition run (ops : list cat_op) := run_from catalog_new ops.

