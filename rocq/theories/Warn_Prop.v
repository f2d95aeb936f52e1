(** Properties of the warnings of a document: where they point (C106), and which ids are reported (C107). *)
From Verif Require Import Text TextFacts Maps Span_Model Span_Spec Catalog_Model Catalog_Spec Catalog_Proof Parser_Model Parser_Spec
  Subs_Model Group_Model Header_Model Header_Prop Block_Model Block_Spec Doc_Model Block_Prop Walk_Spec Walk_Proof Warn_Spec Warn_Proof.
From Coq Require Import Permutation.

(** ** C106: the places of the warnings *)
(** Every warning of a document has the source span of what it is about, with the right offset, line and
    column: the attribute list or the anchor between its brackets, the delimiter line, the heading line
    with as many marks as are reported, the attribute entry with the locked name. *)
Theorem C106_places : forall E fuel t sm P d P', document_parse E fuel t sm P = Ok (d, P') -> Forall (tells (e_u E) t) (d_warnings d).
Proof. intros E fuel t sm P d P' H. exact (proj1 (document_told _ _ _ _ _ _ _ H)). Qed.
Definition kinds (r : res (document * parser)) : list (warning_type * (nat * text)) :=
  match r with Ok (d, _) => map (fun w => (w_type w, (sp_line (w_source w), sp_data (w_source w)))) (d_warnings d) | _ => [] end.
(** A paragraph that begins with highlighted text is reported as a heading of level 0. *)
Theorem C106_highlighted_text_refuted : exists t d P, t = lit "#mark# text" /\ parse_with E0 30 t = Ok (d, P) /\
  kinds (Ok (d, P)) = [(WLevel0SectionHeadingNotSupported, (1, t))] /\
  exists c src st m, d_blocks d = [BSimple c src st m] /\ ct_rendered c = lit "<mark>mark</mark> text".
Proof. exists (lit "#mark# text"). do 2 eexists. split; [reflexivity|]. split; [vm_compute; reflexivity|]. split; [vm_compute; reflexivity|]. do 4 eexists. split; reflexivity. Qed.
(** The delimiter of an example block in a section is reported as a heading that is too deep. *)
Theorem C106_example_delimiter_refuted : exists t d P, t = lines [lit "== S"; []; lit "======="; lit "x"; lit "======="] /\ parse_with E0 30 t = Ok (d, P) /\
  kinds (Ok (d, P)) = [(WSectionHeadingLevelExceedsMaximum 6, (3, lit "======="))] /\
  exists level title bs src m ty id n src2 m2, d_blocks d = [BSection level title [BCompound bs (lit "example") src2 m2] src m ty id n].
Proof. exists (lines [lit "== S"; []; lit "======="; lit "x"; lit "======="]). do 2 eexists. split; [reflexivity|]. split; [vm_compute; reflexivity|]. split; [vm_compute; reflexivity|]. do 10 eexists. reflexivity. Qed.
(** The warning about an attribute list without a block has all the rest of the document. *)
Theorem C106_missing_block_refuted : exists t d P, t = lines [lit "[abc]"; []; lit "x"; []; lit "y"] /\ parse_with E0 30 t = Ok (d, P) /\
  kinds (Ok (d, P)) = [(WMissingBlockAfterTitleOrAttributeList, (1, t))] /\ length (d_blocks d) = 3.
Proof. exists (lines [lit "[abc]"; []; lit "x"; []; lit "y"]). do 2 eexists. split; [reflexivity|]. split; [vm_compute; reflexivity|]. split; vm_compute; reflexivity. Qed.
(** The warnings are not in the order of the document. *)
Theorem C106_order_refuted : exists t d P, t = lines [lit "== S"; []; lit "[[]]"; lit "x"; []; lit "====== T"] /\ parse_with E0 30 t = Ok (d, P) /\
  kinds (Ok (d, P)) = [(WSectionHeadingLevelSkipped 1 5, (6, lit "====== T")); (WEmptyBlockAnchorName, (3, []))].
Proof. exists (lines [lit "== S"; []; lit "[[]]"; lit "x"; []; lit "====== T"]). do 2 eexists. split; [reflexivity|]. split; [vm_compute; reflexivity|]. vm_compute. reflexivity. Qed.
(** What is wrong with a block macro is not reported: the line is a paragraph. *)
Theorem C106_block_macro_refuted : exists t d P, t = lit "image::[]" /\ parse_with E0 30 t = Ok (d, P) /\ d_warnings d = [] /\ exists c src st m, d_blocks d = [BSimple c src st m].
Proof. exists (lit "image::[]"). do 2 eexists. split; [reflexivity|]. split; [vm_compute; reflexivity|]. split; [reflexivity|]. do 4 eexists. reflexivity. Qed.
Example C106_example : kinds (parse_with E0 60 (lines [lit "= T"; lit "A B"; lit "1.0"; lit "junk"; []; lit "[[]]"; lit "x"; []; lit "[[9]]"; lit "y"; []; lit "[a=""b]"; lit "x"; []; lit "----"; lit "z"])) =
  [(WDocumentHeaderNotTerminated, (4, lit "junk")); (WEmptyBlockAnchorName, (6, [])); (WInvalidBlockAnchorName, (9, lit "9"));
   (WAttributeValueMissingTerminatingQuote, (12, lit "a=""b")); (WUnterminatedDelimitedBlock, (15, lit "----"))].
Proof. vm_compute. reflexivity. Qed.
Print Assumptions C106_places.

(** ** C107: duplicate ids *)
(** The ids reported as duplicates are those of the blocks whose id was registered before, each at the
    place where the block starts; nothing else is reported, and nothing twice. *)
Theorem C107_duplicates : forall E fuel t sm P d P' c, p_catalog P = Some c -> agrees c [] -> document_parse E fuel t sm P = Ok (d, P') ->
  Permutation (reported (d_warnings d)) (repeats [] (flat_map placed (d_blocks d))).
Proof. intros E fuel t sm P d P' c Hc A H. exact (proj2 (document_told _ _ _ _ _ _ _ H) c Hc A). Qed.
Notation count_id i l := (count_occ (list_eq_dec N.eq_dec) (map fst l) i).
Lemma count_repeats i l : forall seen, count_id i (repeats seen l) = if in_dec (list_eq_dec N.eq_dec) i seen then count_id i l else pred (count_id i l).
Proof.
  induction l as [|[j o] l IH]; intros seen; [cbn; destruct (in_dec _ _ _); reflexivity|]. cbn [repeats map fst count_occ]. rewrite map_app, count_occ_app, IH. destruct (list_eq_dec N.eq_dec j i) as [->|Nj].
  - destruct (in_dec _ i (i :: seen)) as [_|K]; [|destruct K; left; reflexivity]. destruct (in_dec _ i seen); cbn [map fst count_occ]; [destruct (list_eq_dec N.eq_dec i i); [reflexivity|contradiction]|reflexivity].
  - assert (Z : count_id i (if in_dec (list_eq_dec N.eq_dec) j seen then [(j, o)] else []) = 0).
    { destruct (in_dec _ j seen); [|reflexivity]. cbn [map fst count_occ]. destruct (list_eq_dec N.eq_dec j i); [contradiction|reflexivity]. }
    rewrite Z. cbn [Nat.add]. destruct (in_dec _ i (j :: seen)) as [[K|K]|K], (in_dec _ i seen) as [K2|K2]; try reflexivity; try congruence; try contradiction. exfalso. apply K. right. exact K2.
Qed.
(** So an id that n blocks have is reported n - 1 times; in particular an id is reported exactly when two
    blocks have it. *)
Theorem C107_counts : forall E fuel t sm P d P' c i, p_catalog P = Some c -> agrees c [] -> document_parse E fuel t sm P = Ok (d, P') ->
  count_id i (reported (d_warnings d)) = pred (count_id i (flat_map placed (d_blocks d))).
Proof.
  intros E fuel t sm P d P' c i Hc A H. pose proof (Permutation_map fst (C107_duplicates _ _ _ _ _ _ _ _ Hc A H)) as K.
  rewrite (proj1 (Permutation_count_occ (list_eq_dec N.eq_dec) _ _) K i). exact (count_repeats i _ []).
Qed.
(** The ids are those of C84. *)
Theorem C107_ids : forall l, map fst (flat_map placed l) = log_ids (flat_map references l).
Proof. intros l. symmetry. apply placed_all. Qed.
(** A duplicate id given to a break is not reported, and neither is one given to an image macro or in
    the text of a paragraph. *)
Theorem C107_breaks_refuted : exists t d P, t = lines [lit "[#a]"; lit "x"; []; lit "[#a]"; lit "'''"] /\ parse_with E0 30 t = Ok (d, P) /\ map block_id (d_blocks d) = [Ok (Some (lit "a")); Ok (Some (lit "a"))] /\ d_warnings d = [].
Proof. exists (lines [lit "[#a]"; lit "x"; []; lit "[#a]"; lit "'''"]). do 2 eexists. split; [reflexivity|]. split; [vm_compute; reflexivity|]. split; vm_compute; reflexivity. Qed.
Theorem C107_inline_anchors_refuted : exists t d P c1 c2 s1 s2 st1 st2 m1 m2, t = lines [lit "[[a]]x"; []; lit "[[a]]y"] /\ parse_with E0 30 t = Ok (d, P) /\
  d_blocks d = [BSimple c1 s1 st1 m1; BSimple c2 s2 st2 m2] /\ ct_rendered c1 = lit "<a id=""a""></a>x" /\ ct_rendered c2 = lit "<a id=""a""></a>y" /\ d_warnings d = [].
Proof. exists (lines [lit "[[a]]x"; []; lit "[[a]]y"]). do 10 eexists. split; [reflexivity|]. split; [vm_compute; reflexivity|]. split; [reflexivity|]. repeat split; vm_compute; reflexivity. Qed.
(** The block that comes first in the document can be the one that is reported: a section is registered
    after the blocks in it. *)
Theorem C107_section_reported_refuted : exists t d P, t = lines [lit "[#a]"; lit "== S"; []; lit "[#a]"; lit "x"] /\ parse_with E0 30 t = Ok (d, P) /\
  kinds (Ok (d, P)) = [(WDuplicateId (lit "a"), (1, lines [lit "[#a]"; lit "== S"; []]))].
Proof. exists (lines [lit "[#a]"; lit "== S"; []; lit "[#a]"; lit "x"]). do 2 eexists. split; [reflexivity|]. split; [vm_compute; reflexivity|]. vm_compute. reflexivity. Qed.
Example C107_example : exists d P, parse_with E0 40 (lines [lit "[#a]"; lit "one"; []; lit "== S"; []; lit "[#a]"; lit "two"; []; lit "[[a]]"; lit "----"; lit "x"; lit "----"]) = Ok (d, P) /\
  flat_map placed (d_blocks d) = [(lit "a", 0); (lit "a", 16); (lit "a", 26); (lit "_s", 10)] /\ reported (d_warnings d) = [(lit "a", 16); (lit "a", 26)].
Proof. do 2 eexists. split; [vm_compute; reflexivity|]. split; vm_compute; reflexivity. Qed.
Print Assumptions C107_counts.
