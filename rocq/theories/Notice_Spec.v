(** Specification of the warnings about a written document (C113).  Source: docs/modules/sections/pages/titles-and-levels.adoc
    (levels must not be skipped, there are five of them), docs/modules/attributes/pages/id.adoc. *)
From Verif Require Import Text Span_Model Parser_Model Subs_Model Block_Model Round_Spec.

(** How often the first character of a line is repeated at its beginning, if it is a mark of headings. *)
Fixpoint same_marks (c : char) (x : text) : nat := match x with d :: y => if (d =? c)%N then S (same_marks c y) else 0 | [] => 0 end.
Definition mark_count (x : text) : nat := match x with c :: _ => if (c =? 61)%N || (c =? 35)%N then same_marks c x else 0 | [] => 0 end.
(** A line with one mark or with more than six is noticed, whatever comes after the marks. *)
Definition heading_notes (x : text) : list warning_type :=
  let n := mark_count x in
  if n =? 1 then [WLevel0SectionHeadingNotSupported] else if 6 <? n then [WSectionHeadingLevelExceedsMaximum (n - 1)] else [].
(** So is a line in double brackets that is no anchor, where there is none yet. *)
Definition anchor_notes (m : top) (x : text) : list warning_type :=
  match t_id m with
  | Some _ => []
  | None => if text_eqb x (lit "[[]]") then [WEmptyBlockAnchorName]
            else if (4 <? length x) && starts_with (lit "[[") x && ends_with (lit "]]") x then [WInvalidBlockAnchorName] else []
  end.
(** What is noticed by a section of level [k] that looks at the blocks in it, one after the other, for its end. *)
Fixpoint looking (k : nat) (ns : list node) : list warning_type :=
  match ns with
  | [] => []
  | n :: r =>
      match n with
      | NSection _ _ j _ _ => (if k + 1 <? j then [WSectionHeadingLevelSkipped k j] else []) ++ looking j r
      | NText _ ls => heading_notes (hd [] ls) ++ looking k r
      | NBox _ d _ => heading_notes d ++ looking k r
      | _ => looking k r
      end
  end.
(** All that is noticed in a block, in the order of the warnings. *)
Fixpoint notes (n : node) : list warning_type :=
  match n with
  | NText m ls => anchor_notes m (hd [] ls) ++ heading_notes (hd [] ls)
  | NBox _ _ ns => flat_map notes ns
  | NSection _ _ k _ ns => looking k ns ++ flat_map notes ns
  | NRaw _ _ _ | NBreak _ _ | NMedia _ _ _ _ => []
  end.
(** The ids that are written in a document. *)
Definition top_ids (m : top) : list text := match t_id m with Some x => [x] | None => [] end.
Fixpoint ids (n : node) : list text :=
  match n with
  | NText m _ | NRaw m _ _ | NBreak m _ | NMedia m _ _ _ => top_ids m
  | NBox m _ ns | NSection m _ _ _ ns => top_ids m ++ flat_map ids ns
  end.
(** Media with no attributes. *)
Fixpoint bare (n : node) : Prop :=
  match n with
  | NMedia _ _ _ attrs => attrs = []
  | NBox _ _ ns | NSection _ _ _ _ ns => fold_right (fun x p => bare x /\ p) True ns
  | _ => True
  end.
Definition other_than_ids (w : warning_type) : bool := match w with WDuplicateId _ => false | _ => true end.

(** * Documents about which there is nothing to say *)
(** Levels that are not skipped: each section is one deeper than the one it is in, or than one of the sections before it there. *)
Fixpoint levels_step (k : nat) (ns : list node) : Prop :=
  match ns with
  | [] => True
  | n :: r => match node_level n with Some j => j <= k + 1 /\ levels_step j r | None => levels_step k r end
  end.
(** No paragraph begins with one mark or with a line in double brackets, and the delimiters of example blocks are short. *)
Fixpoint unremarkable (n : node) : Prop :=
  match n with
  | NText m ls => (forall c y, hd [] ls = c :: y -> ~ In c (lit "=#[")) 
  | NBox _ d ns => (length d <= 6 \/ forall y, d <> 61%N :: y) /\ fold_right (fun x p => unremarkable x /\ p) True ns
  | NSection _ _ k _ ns => levels_step k ns /\ fold_right (fun x p => unremarkable x /\ p) True ns
  | _ => True
  end.
