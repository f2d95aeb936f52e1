(** What is written about places, warnings, strings, values, section numbers and source maps (C134). [represents] is in [Strings_Proof],
    [self_ending] in [Show_Spec]. *)
From Verif Require Import Text TextFacts Maps Catalog_Model Span_Model Parser_Model Block_Model SourceMap_Model Strings_Model Strings_Proof Show_Model Show_Spec Show_Proof Tell_Model Tell_Proof.

(** The names and brackets that are written. *)
Example C134_forms : forall pc, pc = (fun c => (32 <=? c) && (c <=? 126))%N ->
  show_warning pc (mkwarn (mkspan (lit "a") 1 2 3) (WSectionHeadingLevelSkipped 1 3)) = lit "Warning { source: Span { data: " ++ [34%N] ++ lit "a" ++ [34%N] ++ lit ", line: 1, col: 2, offset: 3 }, warning: WarningType::SectionHeadingLevelSkipped(1, 3) }" /\
  show_slice show_nat [] = lit "&[]" /\
  show_value pc (VValue (lit "x")) = lit "InterpretedValue::Value(" ++ [34%N] ++ lit "x" ++ [34%N] ++ lit ")" /\ show_value pc VSet = lit "InterpretedValue::Set" /\ show_value pc VUnset = lit "InterpretedValue::Unset" /\
  debug_section_number (mksn SAppendix [1; 12]) = lit "SectionNumber { section_type: SectionType::Appendix, components: &[1, 12] }" /\
  show_section_type SNormal = lit "SectionType::Normal" /\ show_section_type SDiscrete = lit "SectionType::Discrete" /\
  show_source_map pc [(1, mksl None 1); (4, mksl (Some (lit "b")) 2)] = lit "SourceMap(&[(1, SourceLine(None, 1)), (4, SourceLine(Some(" ++ [34%N] ++ lit "b" ++ [34%N] ++ lit "), 2))])" /\
  show_cow pc (Boxed (lit "a")) = lit "CowStr::Boxed(" ++ [34%N] ++ lit "a" ++ [34%N] ++ lit ")" /\ show_cow pc (Borrowed []) = lit "CowStr::Borrowed(" ++ [34%N; 34%N] ++ lit ")" /\
  show_cow pc (cow_from_char 97%N) = lit "CowStr::Inlined(InlineStr { inner: [97, 0, 0, 0, 0, 0, 0, 0, 0, 0, 0, 0, 0, 0, 0, 0, 0, 0, 0, 0, 0, 0], len: 1 })" /\
  pretty_cow pc (cow_from_char 97%N) = Ok ([34%N] ++ lit "a" ++ [34%N]).
Proof. intros pc ->. vm_compute. repeat split. Qed.

(** Each of them can be read back, whatever comes after it and whichever characters are taken to be printable: *)
Theorem C134_places : forall pc, self_ending (show_span pc).
Proof. exact span_ends. Qed.
Theorem C134_warnings : forall pc, self_ending (show_warning pc) /\ self_ending (show_slice (show_warning pc)).
Proof. intros pc. split; [exact (warning_ends pc)|exact (warnings_end pc)]. Qed.
Theorem C134_values : forall pc, self_ending (show_value pc).
Proof. exact value_ends. Qed.
Theorem C134_numbers : self_ending debug_section_number.
Proof. exact section_number_ends. Qed.
Theorem C134_source_maps : forall pc, self_ending (show_source_map pc).
Proof. exact source_map_ends. Qed.
Theorem C134_kinds : self_ending show_style /\ self_ending show_break /\ self_ending show_media /\ self_ending show_model /\ self_ending show_section_type.
Proof. repeat split; destruct a, b; try reflexivity; try (exfalso; discriminate H); apply app_inv_head in H; exact H. Qed.
Example C134_kind_names : map show_style [StParagraph; StLiteral; StListing; StSource] = map (fun x => lit "SimpleBlockStyle::" ++ x) [lit "Paragraph"; lit "Literal"; lit "Listing"; lit "Source"] /\
  map show_break [BThematic; BPage] = map (fun x => lit "BreakType::" ++ x) [lit "Thematic"; lit "Page"] /\ map show_media [MImage; MVideo; MAudio] = map (fun x => lit "MediaType::" ++ x) [lit "Image"; lit "Video"; lit "Audio"] /\
  map show_model [CmCompound; CmSimple; CmVerbatim; CmRaw; CmEmpty] = map (fun x => lit "ContentModel::" ++ x) [lit "Compound"; lit "Simple"; lit "Verbatim"; lit "Raw"; lit "Empty"].
Proof. vm_compute. repeat split. Qed.
(** a slice of anything of which that holds and which does not begin as the end of a slice, *)
Theorem C134_slices : forall A (show : A -> text), self_ending show -> (forall a x y, show a ++ x <> lit "]" ++ y) -> self_ending (show_slice show).
Proof. intros A show H N a b x y K. unfold show_slice in K. rewrite <- !app_assoc in K. apply app_inv_head in K. exact (list_ends show (self_before _ H) N a b x y K). Qed.
(** and a string, with the way in which it is kept; *)
Theorem C134_strings : forall pc, self_ending (show_cow pc).
Proof. exact cow_ends. Qed.
(** but with [#] only the text is written, so that two strings are written in the same way just if they are equal, and never with a
    panic. *)
Theorem C134_pretty : forall pc a b ta tb, scalars ta -> scalars tb -> represents a ta -> represents b tb ->
  pretty_cow pc a = Ok (quoted pc ta) /\ (pretty_cow pc a = pretty_cow pc b <-> cow_eq a b = Ok true).
Proof.
  intros pc a b ta tb Ha Hb Ra Rb. unfold pretty_cow, cow_eq. rewrite (rep_deref a ta Ha Ra), (rep_deref b tb Hb Rb). cbn [bind]. split; [reflexivity|]. split.
  - intros H. injection H as H. assert (K : quoted pc ta ++ [] = quoted pc tb ++ []) by (unfold quoted; rewrite H; reflexivity). destruct (quoted_ends pc _ _ _ _ K) as (-> & _). destruct (text_eqb_spec tb tb); [reflexivity|congruence].
  - intros H. injection H as H. destruct (text_eqb_spec ta tb) as [->|N]; [reflexivity|discriminate H].
Qed.
(** Without [#] equal strings can be written in two ways, even a string and its copy; *)
Theorem C134_equal_strings_refuted : exists a, cow_eq a (cow_clone a) = Ok true /\ forall pc, show_cow pc a <> show_cow pc (cow_clone a).
Proof. exists (Boxed (lit "a")). split; [vm_compute; reflexivity|]. intros pc H. assert (K : show_cow pc (Boxed (lit "a")) ++ [] = show_cow pc (cow_clone (Boxed (lit "a"))) ++ []) by (rewrite H; reflexivity). apply cow_ends in K. destruct K as (K & _). vm_compute in K. discriminate K. Qed.
(** and so can two source maps that give the same answer for every line. *)
Theorem C134_equal_maps_refuted : exists m m', (forall k, original_file_and_line m k = original_file_and_line m' k) /\ forall pc, show_source_map pc m <> show_source_map pc m'.
Proof.
  exists [], [(1, mksl None 1)]. split.
  - intros [|[|k]]; try reflexivity. all: cbn; try reflexivity.
  - intros pc H. assert (K : show_source_map pc [] ++ [] = show_source_map pc [(1, mksl None 1)] ++ []) by (rewrite H; reflexivity). apply source_map_ends in K. destruct K as (K & _). discriminate K.
Qed.
(** A boxed and an inline string with the same text, written in two ways and in one. *)
Example C134_example : let pc := (fun _ => true) in represents (Boxed [97%N]) [97%N] /\ represents (cow_from_char 97%N) [97%N] /\ scalars [97%N] /\
  show_cow pc (Boxed [97%N]) <> show_cow pc (cow_from_char 97%N) /\ pretty_cow pc (Boxed [97%N]) = pretty_cow pc (cow_from_char 97%N) /\
  (forall w x y, show_warning pc w ++ x <> lit "]" ++ y).
Proof. cbv zeta. split; [constructor|]. split; [apply from_char_rep|]. split; [repeat constructor; unfold scalar; lia|]. split; [vm_compute; discriminate|]. split; [vm_compute; reflexivity|]. intros w x y H. discriminate H. Qed.

Print Assumptions C134_places.
Print Assumptions C134_warnings.
Print Assumptions C134_values.
Print Assumptions C134_kinds.
Print Assumptions C134_numbers.
Print Assumptions C134_source_maps.
Print Assumptions C134_slices.
Print Assumptions C134_strings.
Print Assumptions C134_pretty.
Print Assumptions C134_equal_strings_refuted.
Print Assumptions C134_equal_maps_refuted.
