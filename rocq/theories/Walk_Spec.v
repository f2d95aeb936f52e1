(** Specification of what a document's blocks say in document order: section numbers and section types
    (C81, C82). *)
From Verif Require Import Text Span_Model Maps Catalog_Model Catalog_Spec Subs_Model Parser_Model Parser_Spec Attrlist_Model Block_Model.

(** What happens on a walk through the document, every block before the blocks in it. *)
Inductive event := EEntry (a : attribute) | ESection (level : nat) (ty : section_type) (n : option section_number).
Fixpoint events (b : block) : list event :=
  match b with
  | BAttribute a => [EEntry a]
  | BSection level _ bs _ _ ty _ n => ESection level ty n :: flat_map events bs
  | BCompound bs _ _ _ | BPreamble bs _ => flat_map events bs
  | _ => []
  end.
(** The attribute entries met. *)
Definition entries (l : list event) : list entry :=
  flat_map (fun e => match e with EEntry a => [mkentry InBody a] | _ => [] end) l.
(** The last number of a section of the type [ty], or [n0] if there is none. *)
Definition same_type (a b : section_type) : bool :=
  match a, b with SNormal, SNormal | SAppendix, SAppendix | SDiscrete, SDiscrete => true | _, _ => false end.
Fixpoint last_number (ty : section_type) (n0 : list nat) (l : list event) : list nat :=
  match l with
  | [] => n0
  | ESection _ ty' (Some n) :: r => last_number ty (if same_type ty ty' then sn_comps n else n0) r
  | _ :: r => last_number ty n0 r
  end.
(** The walk [l], from the parser's state [P], numbers sections as it should: a section has a number
    unless it is discrete, too deep, or numbering is off at that place; and the number is the one after
    the last number of a section of the same type. *)
Definition first_number (P : parser) (ty : section_type) : list nat :=
  match ty with SNormal => sn_comps (p_last P) | SAppendix => sn_comps (p_last_app P) | SDiscrete => [] end.
Definition numbered (U : unicode) (P : parser) (l : list event) : Prop :=
  forall pre level ty n post, l = pre ++ ESection level ty n :: post ->
    match n with
    | None => ty = SDiscrete \/ p_levels P < level \/ is_attribute_set (fst (run_entries U P (entries pre))) (lit "sectnums") = false
    | Some n => ty <> SDiscrete /\ level <= p_levels P /\ is_attribute_set (fst (run_entries U P (entries pre))) (lit "sectnums") = true /\
        sn_type n = ty /\ length (sn_comps n) = level /\ next_number (last_number ty (first_number P ty) pre) level (sn_comps n)
    end.
(** The state of a parser as the code leaves it. *)
Definition sane (P : parser) : Prop := p_topmost P <> SDiscrete /\ sn_type (p_last P) = SNormal /\ sn_type (p_last_app P) = SAppendix.

(** ** Section types *)
Definition block_style (b : block) : option text :=
  match style_of (cm_attrlist (block_common b)) with Ok o => o | _ => None end.
Definition discrete_style (b : block) : bool := style_is (block_style b) (lit "discrete") || style_is (block_style b) (lit "float").
(** [well_typed top b]: a heading with the style "discrete" or "float" has the type of discrete headings,
    no blocks, and no number.  A section of level 1 is an appendix if that is its style.  A deeper section
    has the type of the section it is in; [top] is the type around [b]. *)
Fixpoint well_typed (top : section_type) (b : block) : Prop :=
  match b with
  | BSection level _ bs _ _ ty _ n =>
      if discrete_style b then ty = SDiscrete /\ bs = [] /\ n = None
      else ty = (if level =? 1 then if style_is (block_style b) (lit "appendix") then SAppendix else SNormal else top) /\ fold_right (fun x p => well_typed ty x /\ p) True bs
  | BCompound bs _ _ _ | BPreamble bs _ => fold_right (fun x p => well_typed top x /\ p) True bs
  | _ => True
  end.
(** There is a section of level 1 in the block. *)
Fixpoint has_chapter (b : block) : bool :=
  match b with
  | BSection level _ bs _ _ _ _ _ => ((level =? 1) && negb (discrete_style b)) || existsb has_chapter bs
  | BCompound bs _ _ _ | BPreamble bs _ => existsb has_chapter bs
  | _ => false
  end.
(** No section of level 1 is in another section. *)
Fixpoint chapters_apart (b : block) : bool :=
  match b with
  | BSection _ _ bs _ _ _ _ _ => negb (existsb has_chapter bs)
  | BCompound bs _ _ _ | BPreamble bs _ => forallb chapters_apart bs
  | _ => true
  end.

(** ** Ids *)
(** The id under which a block is registered: for a section, the id in its attribute list, or its anchor,
    or the id that is generated for it; for a block of another kind, its anchor or the id in its attribute
    list; none for breaks and attribute entries. *)
Definition attr_id (m : common) : option text :=
  match cm_attrlist m with Some a => match al_id a with Ok o => o | _ => None end | None => None end.
Definition or_else (a b : option text) : option text := match a with Some _ => a | None => b end.
Definition registered (b : block) : option text :=
  let m := block_common b in
  match b with
  | BSection _ _ _ _ _ _ id _ => or_else (or_else (attr_id m) (option_map sp_data (cm_anchor m))) id
  | BBreak _ _ _ | BAttribute _ | BPreamble _ _ => None
  | _ => or_else (option_map sp_data (cm_anchor m)) (attr_id m)
  end.
(** The registration of a block: its id, the text for references to it, and its kind. *)
Definition reference (b : block) : log :=
  match registered b with
  | None => []
  | Some i =>
      match b with
      | BSection _ title _ _ m _ _ _ =>
          [(i, Some (match cm_attrlist m with
                     | Some a => match named_attribute a (lit "reftext") with Some e => ea_value e | None => ct_rendered title end
                     | None => ct_rendered title
                     end), RSection)]
      | _ => [(i, cm_title (block_common b), RAnchor)]
      end
  end.
(** All the registrations of a block and the blocks in it, in the order in which they end. *)
Fixpoint references (b : block) : log :=
  match b with BSection _ _ bs _ _ _ _ _ | BCompound bs _ _ _ | BPreamble bs _ => flat_map references bs | _ => [] end ++ reference b.
(** The registrations that come first for their id. *)
Fixpoint keep_first (seen : log) (l : log) : log :=
  match l with
  | [] => seen
  | e :: r => keep_first (if in_dec (list_eq_dec N.eq_dec) (fst (fst e)) (log_ids seen) then seen else seen ++ [e]) r
  end.
Definition duplicate_warning (w : warning) : bool := match w_type w with WDuplicateId _ => true | _ => false end.
Definition duplicates (ws : list warning) : nat := length (filter duplicate_warning ws).
