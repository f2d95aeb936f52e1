(** Specification of the substitutions of blocks (docs/modules/subs/pages/apply-subs-to-blocks.adoc,
    docs/modules/pass/pages/pass-block.adoc). *)
From Verif Require Import Text Span_Model Subs_Model Attrlist_Model Render_Model Parser_Model Group_Model Group_Spec Block_Model Block_Spec Header_Model.

(** A list of substitutions is the word of a group, or items of which each is known; items with a sign change the
    default. *)
Definition understood (default : group) (s : text) (g : group) : Prop :=
  word_group (trim s) g \/ (~ is_word_group (trim s) /\ exists l, itemised (trim s) l /\ g = GCustom (meaning (steps_of default) l)).
(** The group of a block: from the attribute [subs] if its list is understood, else none for the style [pass], else the
    default of the block. *)
Definition chosen (default : group) (style subs : option text) (g : group) : Prop :=
  (exists s, subs = Some s /\ understood default s g) \/
  ((forall s g', subs = Some s -> ~ understood default s g') /\ ((style = Some (lit "pass") /\ g = GNone) \/ (style <> Some (lit "pass") /\ g = default))).
Definition list_style (a : option attrlist) (s : option text) : Prop := style_of a = Ok s.
Definition list_subs (a : option attrlist) : option text := match a with Some a => named_value a (lit "subs") | None => None end.
(** The default of a delimited block. *)
Inductive raw_default : text -> group -> Prop :=
| rd_comment : raw_default (lit "comment") GNone
| rd_listing : raw_default (lit "listing") GVerbatim
| rd_literal : raw_default (lit "literal") GVerbatim
| rd_pass : raw_default (lit "pass") GPass.

(** What the text of a block is, given its source. *)
Definition rendered_as (E : env) (default : group) (cm : common) (g : group) (source text_ : text) : Prop :=
  exists P style, list_style (cm_attrlist cm) style /\ chosen default style (list_subs (cm_attrlist cm)) g /\ apply_subs E P g (cm_attrlist cm) source = Ok text_.
Definition block_text (E : env) (ws : list warning) (b : block) : Prop :=
  match b with
  | BSimple c _ _ cm => exists k ls pre rest g, paragraph k false (pre ++ rest) ls rest /\ sp_data (ct_original c) = trim_end pre /\
      rendered_as E GNormal cm g (join [LF] ls) (ct_rendered c)
  | BRaw c _ cx _ cm g => exists default, raw_default cx default /\
      (rendered_as E default cm g (sp_data (ct_original c)) (ct_rendered c) \/
       (g = default /\ ct_rendered c = sp_data (ct_original c) /\ exists s, In (mkwarn s WUnterminatedDelimitedBlock) ws))
  | BSection _ title _ _ cm _ _ _ => exists P, apply_subs E P GTitle (cm_attrlist cm) (sp_data (ct_original title)) = Ok (ct_rendered title)
  | _ => True
  end.
