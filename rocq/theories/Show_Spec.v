(** Specification of what is written about warnings and catalogs (C133). *)
From Verif Require Import Text Maps Catalog_Model.

(** From what is written, with anything after it, one can tell what was written and where it ends. *)
Definition self_ending {A} (show : A -> text) : Prop := forall a b x y, show a ++ x = show b ++ y -> a = b /\ x = y.
(** The same map. *)
Definition same_map {V} (m m' : tmap V) : Prop := forall k, mget k m = mget k m'.
(** The lexicographic order of texts. *)
Inductive before : text -> text -> Prop :=
| be_end c y : before [] (c :: y)
| be_here c d x y : (c < d)%N -> before (c :: x) (d :: y)
| be_more c x y : before x y -> before (c :: x) (c :: y).
(** Each before all that come after it. *)
Fixpoint ascending (l : list text) : Prop := match l with [] => True | x :: r => (forall y, In y r -> before x y) /\ ascending r end.
