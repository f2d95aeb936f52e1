(** Blocks begin where lines begin (C121). *)
From Verif Require Import Text TextFacts Span_Model Span_Spec Span_Laws Parser_Model Header_Model Block_Model Doc_Model Tree_Spec Tree_Proof Tree_Prop Pre_Spec Header_Prop Block_Prop Begin_Spec Begin_Proof.

(** Every block of a document begins at the beginning of a line. *)
Theorem C121_blocks_begin_lines : forall E fuel t sm P d P' b, document_parse E fuel t sm P = Ok (d, P') -> below (d_blocks d) b -> sp_data (block_span b) <> [] -> line_begins t (block_span b).
Proof. intros E fuel t sm P d P' b H Hb Hn. exact (document_begins E fuel t sm P d P' H b Hb Hn). Qed.
(** So does what comes after a block, and what comes after the metadata lines. *)
Theorem C121_goes_on_at_a_line : forall D E fuel s P r mi, located D s -> begins s -> block_parse E fuel s P = Ok r -> pr_item r = Some mi -> begins (mi_after mi).
Proof. intros D E fuel s P r mi L B H Hi. exact (proj1 (block_begins D E _ s P r mi (until_ok D E fuel) (until_begins D E fuel) L B H Hi)). Qed.
Theorem C121_metadata_is_lines : forall E s P m ws, begins s -> metadata_parse E s P = Ok (m, ws) -> begins (md_source m) /\ begins (md_start m).
Proof. exact metadata_begins. Qed.
(** The header is whole lines. *)
Theorem C121_header_is_lines : forall E t P h, header_parse E (span_new t) P = Ok h -> begins (mi_after (fst h)) /\ begins (h_source (mi_item (fst h))).
Proof. exact header_begins. Qed.

(** A document with blocks in blocks. *)
Example C121_example : exists d P, parse_with E0 30 sample_tree = Ok (d, P) /\ map (fun b => (sp_line (block_span b), sp_col (block_span b))) (d_blocks d ++ flat_map nested_blocks (d_blocks d)) = [(1, 1); (9, 1); (1, 1); (3, 1); (11, 1)].
Proof. eexists. eexists. split; [vm_compute; reflexivity|]. vm_compute. reflexivity. Qed.

Print Assumptions C121_blocks_begin_lines.
Print Assumptions C121_goes_on_at_a_line.
Print Assumptions C121_metadata_is_lines.
Print Assumptions C121_header_is_lines.
