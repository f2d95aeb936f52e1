(** Specification of the places that a document gives for its parts (C118). *)
From Verif Require Import Text Span_Model Span_Spec Parser_Model Attrlist_Model Header_Model Header_Spec Block_Model Tree_Spec.

(** Where a span ends. *)
Definition upto (s : span) : nat := sp_off s + blen (sp_data s).
(** [x] is a place in the text [d] that lies in [s], or goes over its end by white space at most. *)
Definition held (d : text) (s x : span) : Prop :=
  located d x /\ sp_off s <= sp_off x /\ (upto x <= upto s \/ white d (upto s) (upto x)).

Definition given {A} (o : option A) : list A := match o with Some x => [x] | None => [] end.
(** The places in the lines above a block: its title, its anchor, the text of the anchor, its attribute list. *)
Definition above (b : block) : list span :=
  let m := block_common b in
  given (cm_title_source m) ++ given (cm_anchor m) ++ given (cm_reftext m) ++ map al_source (given (cm_attrlist m)).
(** The places in the block itself: its content, the target and the attributes of a media block, the title
    of a section, the name and the value of an attribute entry. *)
Definition inner (b : block) : list span :=
  match b with
  | BSimple c _ _ _ | BRaw c _ _ _ _ _ | BSection _ c _ _ _ _ _ _ => [ct_original c]
  | BMedia _ target a _ _ => [target; al_source a]
  | BAttribute a => at_name a :: given (at_value_source a)
  | BCompound _ _ _ _ | BPreamble _ _ | BBreak _ _ _ => []
  end.
(** A paragraph that has the text of an anchor but not the anchor. *)
Definition stray (b : block) (x : span) : Prop :=
  cm_reftext (block_common b) = Some x /\ cm_anchor (block_common b) = None /\ exists c s st m, b = BSimple c s st m.
(** The places in a header. *)
Definition header_spans (h : header) : list span :=
  given (h_title_source h) ++ h_comments h ++ flat_map (fun a => [at_source a; at_name a] ++ given (at_value_source a)) (h_attrs h) ++
  map aul_source (given (h_author h)) ++ map rv_source (given (h_revision h)).
