(** Properties of where blocks lie: C34, C36. *)
From Verif Require Import Text TextFacts Maps Span_Model Span_Pure Span_Proof Span_Laws Span_Spec Catalog_Model Parser_Model SourceMap_Model Subs_Model Attrlist_Model
  Entry_Model Pre_Model Group_Model SecId_Model Header_Model Header_Spec Header_Proof Header_Prop Block_Model Block_Spec Block_Proof Doc_Model Block_Prop Tree_Spec Tree_Proof.
From Coq Require Import Sorted.

(** ** C34: progress *)
(** What is left after a block is a strictly shorter suffix. *)
Theorem C34_progress : forall D E fuel s P r mi, located D s -> block_parse E fuel s P = Ok r -> pr_item r = Some mi ->
  exists pre, sp_data s = pre ++ sp_data (mi_after mi) /\ pre <> [] /\ located D (mi_after mi).
Proof.
  intros D E fuel s P r mi L H Hi. destruct (block_ok D E _ s P r mi (until_ok D E fuel) L H Hi) as (S & Hl & _). pose proof (located_Suffix _ _ _ L S) as La. destruct S as (pre & D1 & _). exists pre. split; [exact D1|].
  split; [|exact La]. intros ->. cbn [app] in D1. rewrite D1 in Hl. lia.
Qed.
(** So there are no more blocks, with the blocks in them, than characters. *)
Theorem C34_blocks_bounded : forall D E fuel f n s P b, located D s -> parse_blocks_until E fuel f n s P = Ok b ->
  count_all (br_blocks b) + length (sp_data (br_after b)) <= length (sp_data s).
Proof.
  intros D E fuel f n s P b L H. unfold parse_blocks_until in H. rewrite discard_empty_lines_ok in H. cbn [bind] in H. pose proof (discard_empty_Suffix s) as S.
  pose proof (blocks_few D E fuel _ _ _ _ _ (located_Suffix _ _ _ L S) H). apply suffix_len in S. lia.
Qed.
(** The preamble is a block for which there is no text of its own. *)
Theorem C34_document_bounded : forall E fuel t sm P d P', document_parse E fuel t sm P = Ok (d, P') -> count_all (d_blocks d) <= S (length t).
Proof. exact document_few. Qed.
Definition sample_tree : text := lines [lit "one"; []; lit "===="; lit "two"; []; lit "three"; lit "===="; []; lit "== Four"; []; lit "five"].
Example C34_example : exists d P, parse_with E0 30 sample_tree = Ok (d, P) /\ count_all (d_blocks d) = 7 /\ map nested_blocks (d_blocks d) <> [[]; []].
Proof. eexists. eexists. split; [vm_compute; reflexivity|]. split; [vm_compute; reflexivity|]. vm_compute. discriminate. Qed.

(** ** C36: order and nesting *)
(** Spans lie in the text, in order, without overlapping; the spans of the blocks in a block begin inside
    its span and go over its end by white space at most. *)
Theorem C36_order : forall E fuel t sm P d P', document_parse E fuel t sm P = Ok (d, P') -> tree t 0 (d_blocks d) (blen t).
Proof. exact document_ok. Qed.
(** What [tree] says of siblings and of the blocks in a block. *)
Lemma tree_all_after d a bs z : tree d a bs z -> Forall (fun b => a <= start b /\ stop b <= z /\ located d (block_span b)) bs.
Proof.
  induction 1 as [|a b bs e m z L Hab W _ _ Hm T IH]; [constructor|]. destruct W as (p & w & q & _ & _ & E1 & E2). assert (Hse : stop b <= e) by lia.
  pose proof (tree_le _ _ _ _ T). constructor; [split; [exact Hab|split; [lia|exact L]]|]. eapply Forall_impl; [|exact IH]. cbn. intros c (K1 & K2 & K3). split; [unfold start, stop in *; lia|auto].
Qed.
Theorem C36_siblings_in_order : forall E fuel t sm P d P', document_parse E fuel t sm P = Ok (d, P') ->
  ForallOrdPairs (fun b c => stop b <= start c) (d_blocks d).
Proof.
  intros E fuel t sm P d P' H. apply document_ok in H. induction H as [|a b bs e m z L Hab W _ _ Hm T IH]; constructor; auto.
  destruct W as (p & w & q & _ & _ & E1 & E2). eapply Forall_impl; [|exact (tree_all_after _ _ _ _ T)]. cbn. intros c (K & _). lia.
Qed.
(** A block in the tree, however deep. *)
Inductive below : list block -> block -> Prop :=
| bl_here l b : In b l -> below l b
| bl_in l b c : In b l -> below (nested_blocks b) c -> below l c.
Lemma tree_in d a bs z b : tree d a bs z -> In b bs -> exists e, tree d (start b) (nested_blocks b) e /\ white d (stop b) e /\ located d (block_span b).
Proof.
  induction 1 as [|a b' bs e m z L Hab W N _ Hm T IH]; intros Hin; [destruct Hin|]. destruct Hin as [->|Hin]; [exists e; auto|exact (IH Hin)].
Qed.
Theorem C36_nested : forall E fuel t sm P d P' b c, document_parse E fuel t sm P = Ok (d, P') -> below (d_blocks d) b -> In c (nested_blocks b) ->
  located t (block_span c) /\ start b <= start c /\ (stop c <= stop b \/ white t (stop b) (stop c)) /\ ForallOrdPairs (fun x y => stop x <= start y) (nested_blocks b).
Proof.
  intros E fuel t sm P d P' b c H Hb Hc. apply document_ok in H.
  assert (G : forall l, below l b -> forall a z, tree t a l z -> exists e, tree t (start b) (nested_blocks b) e /\ white t (stop b) e).
  { clear. induction 1 as [l b Hin|l b c Hin _ IH]; intros a z T; destruct (tree_in _ _ _ _ _ T Hin) as (e & K1 & K2 & _); [eauto|exact (IH _ _ K1)]. }
  destruct (G _ Hb _ _ H) as (e & T & W). pose proof (proj1 (Forall_forall _ _) (tree_all_after _ _ _ _ T) c Hc) as (K1 & K2 & K3). split; [exact K3|]. split; [exact K1|]. split.
  - destruct (le_lt_dec (stop c) (stop b)) as [|Hlt]; [left; assumption|right]. destruct W as (p & w & q & D & Bw & E1 & E2). destruct K3 as (x & y & Dc & _ & _ & Ho). unfold spec_offset in Ho. rewrite blen_utf8 in Ho.
    destruct (prefix_cut p (w ++ q) (x ++ sp_data (block_span c)) y) as (m & Em & Er); [rewrite <- app_assoc; congruence|rewrite blen_app; unfold stop in *; lia|].
    apply (f_equal blen) in Em. rewrite !blen_app in Em. destruct (prefix_cut m y w q) as (m2 & -> & _); [symmetry; exact Er|unfold stop in *; lia|].
    exists p, m, (m2 ++ q). split; [rewrite <- app_assoc in D; exact D|]. split; [apply Forall_app in Bw; apply Bw|]. unfold stop in *. lia.
  - clear - T. induction T as [|a b' bs e m z L Hab W _ _ Hm T IH]; constructor; auto.
    destruct W as (p & w & q & _ & _ & E1 & E2). eapply Forall_impl; [|exact (tree_all_after _ _ _ _ T)]. cbn. intros y (K & _). lia.
Qed.
Example C36_example : exists d P b c, parse_with E0 30 sample_tree = Ok (d, P) /\ In b (d_blocks d) /\ In c (nested_blocks b) /\ start b <= start c /\ stop c <= stop b /\ 0 < start c.
Proof.
  destruct (parse_with E0 30 sample_tree) as [[d P]| |] eqn:Ep; [|vm_compute in Ep; discriminate Ep|vm_compute in Ep; discriminate Ep]. vm_compute in Ep. injection Ep as <- <-.
  do 4 eexists. split; [reflexivity|]. cbn [d_blocks]. split; [right; left; reflexivity|]. split; [left; reflexivity|]. vm_compute. auto 60.
Qed.
(** The white space is really there: the span of a section without the blank lines at its end is shorter
    than that of the unterminated listing in it. *)
Definition sticks_out : text := lines [lit "== S"; []; lit "----"; lit "foo"; []; []; []].
Theorem C36_nested_refuted : exists t d P b c, parse_with E0 30 t = Ok (d, P) /\ In b (d_blocks d) /\ In c (nested_blocks b) /\ stop b < stop c.
Proof.
  exists sticks_out. destruct (parse_with E0 30 sticks_out) as [[d P]| |] eqn:Ep; [|vm_compute in Ep; discriminate Ep|vm_compute in Ep; discriminate Ep]. vm_compute in Ep. injection Ep as <- <-.
  do 4 eexists. split; [reflexivity|]. cbn [d_blocks]. split; [left; reflexivity|]. split; [left; reflexivity|]. vm_compute. auto 60.
Qed.

Print Assumptions C34_progress.
Print Assumptions C34_blocks_bounded.
Print Assumptions C34_document_bounded.
Print Assumptions C36_order.
Print Assumptions C36_siblings_in_order.
Print Assumptions C36_nested.
Print Assumptions C36_nested_refuted.
