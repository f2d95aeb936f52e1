(** Proofs about the tags in a whole document (C117). *)
From Verif Require Import Text TextFacts Maps Span_Model Span_Pure Span_Proof Span_Laws Span_Spec Parser_Model Parser_Spec Regex Subs_Model Subs_Spec Subs_Proof Subs_Prop Attrlist_Model
  Entry_Model Entry_Proof Group_Model Group_Spec Group_Proof Header_Model Header_Spec Header_Proof Header_Prop Block_Model Block_Spec Block_Proof Shape_Proof Doc_Model Tree_Prop Walk_Spec Walk_Proof Walk_Prop Total_Spec
  Safe_Spec Safe_Proof Safe_Class Tags_Spec Tags_Proof BlockSubs_Spec BlockSubs_Proof Author_Spec Author_Proof Author_Prop Attrs_Spec Attrs_Proof Inert_Spec Subs_Chars Quote_Plain.

(** * Values *)
Lemma class_extracts U x C t : text_class x C -> C t -> extract_from U t = Ok ([], t).
Proof.
  intros [|] H.
  - destruct H as (H1 & H2). apply without_off in H1. apply nothing_extracted; [apart_from H1|apart_from H1| |left; apart_from H1].
    right. intros c K. exfalso. apply (fine_not _ _ 91%N H1 eq_refl). destruct K as (x0 & y & ->). apply in_app_iff. right. right. left. reflexivity.
  - destruct H as (H1 & H2 & H3). apply without_off in H1. apply nothing_extracted; [apart_from H1|apart_from H1|left; apart_from H1|]. right. apply H3; vm_compute; auto.
Qed.
Lemma no_angle_made t : ~ In 60%N t -> made_of own_tags t.
Proof. induction t as [|c t IH]; intros H; [constructor|]. apply mo_char; [intros ->; apply H; left; reflexivity|]. apply IH. intros K. apply H. right. exact K. Qed.
Lemma inert_nil x : inert x []. Proof. split; [intros []|intros c _ []]. Qed.
Lemma inert_clean x v : inert x v -> clean x v. Proof. intros (H1 & H2). split; [apply no_angle_made, H1|exact H2]. Qed.
Lemma inert_value x P n v : inert_parser x P -> value_of P n = Some v -> inert x v.
Proof. intros (H & _) E. unfold value_of in E. destruct (has_attribute P n); [|discriminate E]. injection E as <-. destruct (attribute_value P n) as [w| |] eqn:Ew; [exact (H n w Ew)|apply inert_nil|apply inert_nil]. Qed.
Lemma inert_values x P : inert_parser x P -> clean_values x P.
Proof. intros H n v E. apply inert_clean. exact (inert_value x P n v H E). Qed.
Lemma header_inert x C U fs P f t o : text_class x C -> inert_parser x P -> C t -> apply_group U fs P (S f) GHeader false t = Ok o -> inert x o.
Proof.
  intros X V Ct H. split; [|destruct X; [exact (proj2 (unbracketed_value U fs P f t o Ct (inert_values _ _ V) H))|exact (proj2 (worded_value U fs P f t o Ct (inert_values _ _ V) H))]].
  pose proof (class_extracts U x C t X Ct) as Hx. rewrite apply_group_S in H. change (extracts GHeader) with true in H. cbn iota in H. rewrite Hx in H. cbn [bind fst snd] in H.
  assert (H' : apply_steps U fs P false (steps_of GHeader) t = Ok o) by (destruct (apply_steps U fs P false (steps_of GHeader) t); [exact H|discriminate H|discriminate H]). clear H. rename H' into H.
  cbn [steps_of apply_steps apply_step] in H. rewrite apply_special_characters_eq in H. cbn [bind] in H. apply bind_ok in H. destruct H as (v & H1 & H2). apply Ok_inj in H2. subst v.
  apply C39_references_are_expanded_exactly in H1. assert (Z : without [60%N] o); [|apply (Z 60%N); left; reflexivity].
  apply (expands_without (value_of P) [60%N] _ _ H1); [intros n w K c [<-|[]]; exact (proj1 (inert_value _ _ _ _ V K))|intros c [<-|[]]; apply escaped_free].
Qed.
Lemma class_made x C U fs P f g hb t o : text_class x C -> inert_parser x P -> C t -> In g tagged_groups -> apply_group U fs P (S f) g hb t = Ok o -> made_of own_tags o.
Proof. intros [|] V Ct Hg H; [exact (unbracketed_made U fs P f g hb t o Ct (inert_values _ _ V) Hg H)|exact (worded_made U fs P f g hb t o Ct (inert_values _ _ V) Hg H)]. Qed.
Lemma verbatim_made U fs P f hb t o : apply_group U fs P (S f) GVerbatim hb t = Ok o -> ~ In 60%N o.
Proof.
  intros H. rewrite apply_group_S in H. change (extracts GVerbatim) with false in H. cbn iota in H. cbn [steps_of apply_steps apply_step] in H. rewrite apply_special_characters_eq in H. cbn [bind] in H. apply Ok_inj in H. subst o. apply escaped_free.
Qed.
(** ** The classes are closed under what the parser does with texts *)
Lemma class_piece x C a b c : text_class x C -> C (a ++ b ++ c) -> C b.
Proof.
  assert (W : forall y, without y (a ++ b ++ c) -> without y b) by (intros y H d Hd K; apply (H d Hd); rewrite !in_app_iff; auto).
  assert (N : forall y z, no_pair y z (a ++ b ++ c) -> no_pair y z b) by (intros y z H d e Hd He K; apply (H d e Hd He), infix_l, infix_r, K).
  intros [|] H; [destruct H as (H1 & H2); split; [exact (W _ H1)|exact (N _ _ H2)]|destruct H as (H1 & H2 & H3); split; [exact (W _ H1)|split; [exact (N _ _ H2)|exact (N _ _ H3)]]].
Qed.
Lemma class_nil x C : text_class x C -> C [].
Proof. intros [|]; [split|split; [|split]]; try (intros c _ []); intros c d _ _; apply nil_infix. Qed.
(** A character that stands in none of the conditions can be put between two texts. *)
Definition neutral (c : char) : Prop := c = SP \/ c = LF.
Lemma pair_between c d e a b : infix [c; d] (a ++ [e] ++ b) -> infix [c; d] a \/ infix [c; d] b \/ d = e \/ c = e.
Proof.
  intros (x & y & E). revert a E. induction x as [|z x IH]; intros a E.
  - destruct a as [|a0 [|a1 a]]; cbn in E; injection E; intros; subst; auto. left. exists [], a. reflexivity.
  - destruct a as [|a0 a]; cbn in E.
    + injection E as _ E. right. left. exists x, y. exact E.
    + injection E as -> E. destruct (IH a E) as [H|[H|[H|H]]]; auto. left. apply (infix_l _ [z]). exact H.
Qed.
Lemma class_between x C e a b : text_class x C -> neutral e -> C a -> C b -> C (a ++ [e] ++ b).
Proof.
  intros X Ne.
  assert (W : forall y, ~ In SP y -> ~ In LF y -> without y a -> without y b -> without y (a ++ [e] ++ b)).
  { intros y N1 N2 Ha Hb d Hd K. rewrite !in_app_iff in K. destruct K as [K|[[K|[]]|K]]; [exact (Ha d Hd K)| |exact (Hb d Hd K)]. subst d. destruct Ne as [->| ->]; contradiction. }
  assert (N : forall y z, ~ In SP y -> ~ In LF y -> ~ In SP z -> ~ In LF z -> no_pair y z a -> no_pair y z b -> no_pair y z (a ++ [e] ++ b)).
  { intros y z N1 N2 N3 N4 Ha Hb c d Hc Hd K. destruct (pair_between _ _ _ _ _ K) as [K1|[K1|[K1|K1]]]; [exact (Ha c d Hc Hd K1)|exact (Hb c d Hc Hd K1)| |]; subst; destruct Ne as [->| ->]; contradiction. }
  destruct X; intros Ha Hb.
  - destruct Ha as (A1 & A2), Hb as (B1 & B2). split; [apply W|apply N]; try assumption; vm_compute; intuition discriminate.
  - destruct Ha as (A1 & A2 & A3), Hb as (B1 & B2 & B3). split; [apply W|split; apply N]; try assumption; vm_compute; intuition discriminate.
Qed.
Definition keeps (Q : text -> Prop) : Prop := (forall a b c, Q (a ++ b ++ c) -> Q b) /\ Q [] /\ forall e a b, neutral e -> Q a -> Q b -> Q (a ++ [e] ++ b).
Lemma class_keeps x C : text_class x C -> keeps C.
Proof. intros X. split; [intros a b c; exact (class_piece x C a b c X)|]. split; [exact (class_nil x C X)|]. intros e a b; exact (class_between x C e a b X). Qed.
Section Keeps.
  Context (Q : text -> Prop) (K : keeps Q).
  Lemma keeps_pre a b : Q (a ++ b) -> Q a. Proof. destruct K as (K1 & _). apply (K1 [] a b). Qed.
  Lemma keeps_suf a b : Q (a ++ b) -> Q b. Proof. destruct K as (K1 & _). intros H. apply (K1 a b []). rewrite app_nil_r. exact H. Qed.
  Lemma keeps_trim_end p t : Q t -> Q (trim_end_by p t).
  Proof. intros H. destruct (trim_end_by_app p t) as (w & E & _). rewrite E in H. exact (keeps_pre _ _ H). Qed.
  Lemma keeps_trim_start p t : Q t -> Q (trim_start_by p t).
  Proof. unfold trim_start_by. intros H. rewrite <- (take_drop_while p t) in H. exact (keeps_suf _ _ H). Qed.
  Lemma keeps_split t : Q t -> Forall Q (split_on LF t).
  Proof.
    intros H. rewrite <- (join_split LF t) in H. revert H. generalize (split_on LF t). induction l as [|x l IH]; [constructor|]. destruct l as [|y l]; intros H; [constructor; [exact H|constructor]|].
    change (join [LF] (x :: y :: l)) with (x ++ [LF] ++ join [LF] (y :: l)) in H. constructor; [exact (keeps_pre _ _ H)|]. apply IH. exact (keeps_suf _ _ (keeps_suf _ _ H)).
  Qed.
  Lemma keeps_lines t : Q t -> Forall Q (str_lines t).
  Proof.
    intros H. apply keeps_split in H. unfold str_lines. induction H as [|x l Hx S IH]; [constructor|]. destruct l as [|y l]; [destruct x as [|x0 x]; cbn; [constructor|constructor; [exact Hx|constructor]]|].
    change (lines_of (x :: y :: l)) with (drop_cr x :: lines_of (y :: l)). constructor; [|exact IH]. destruct (drop_cr_spec x) as [E|[_ E]]; [rewrite E in Hx; exact (keeps_pre _ _ Hx)|rewrite E; exact Hx].
  Qed.
  Lemma keeps_fold t o : Q t -> fold_value t = Ok o -> Q o.
  Proof.
    destruct K as (K1 & K2 & K3). intros H E. unfold fold_value in E. destruct (has_char LF t); [|apply Ok_inj in E; subst; exact H]. destruct (checked_sub _ 1) as [n| |] eqn:En; cbn [bind] in E; try discriminate E. apply Ok_inj in E. subst o.
    apply keeps_lines in H. assert (Hn : length (str_lines t) = S n) by (unfold checked_sub in En; destruct (_ <=? _) eqn:Ele in En; [apply Nat.leb_le in Ele; apply Ok_inj in En; lia|discriminate En]). clear En.
    assert (G : forall l k, Forall Q l -> k + length l = S n -> Q (fold_lines_go k n l)); [|apply G; [exact H|exact Hn]]. clear H Hn.
    induction l as [|x l IH]; intros k Hl Hk; cbn [fold_lines_go]; [exact K2|]. cbn [length] in Hk. specialize (IH (S k) (Forall_inv_tail Hl) ltac:(lia)). apply Forall_inv in Hl. rename Hl into Hx.
    unfold fold_line. cbv zeta. match goal with |- context [ends_with _ ?y] => assert (Hy : Q y) by (repeat apply keeps_trim_end; apply keeps_trim_start; destruct (0 <? k); [apply keeps_trim_start|]; exact Hx); set (z := y) in * end.
    clearbody z. destruct (ends_with _ z); [rewrite <- app_assoc; apply K3; [right; reflexivity|repeat apply keeps_trim_end; exact Hy|exact IH]|].
    destruct (k <? n) eqn:Ekn; [rewrite <- app_assoc; apply K3; [left; reflexivity|exact Hy|exact IH]|]. apply Nat.ltb_ge in Ekn. destruct l as [|y l]; [cbn [fold_lines_go]; rewrite app_nil_r; exact Hy|cbn [length] in Hk; lia].
  Qed.
  Lemma keeps_join ls : Forall Q ls -> Q (join [LF] ls).
  Proof.
    destruct K as (K1 & K2 & K3). induction 1 as [|x l Hx S IH]; [exact K2|]. destruct l as [|y l]; [exact Hx|]. change (join [LF] (x :: y :: l)) with (x ++ [LF] ++ join [LF] (y :: l)). apply K3; [right; reflexivity|exact Hx|exact IH].
  Qed.
End Keeps.
(** ** Paragraphs *)
Definition solid_end (y : text) : Prop := forall r c, y = r ++ [c] -> is_ws c = false.
Lemma paragraph_pieces k b t ls rest : paragraph k b t ls rest -> exists pre, t = pre ++ rest /\ Forall (fun y => solid_end y /\ infix y pre) ls.
Proof.
  induction 1 as [b t H|t l r n H1 H2|b t l r n ls rest H1 H2 H (pre & E & F)|b t l r n y ls rest H0 H1 H2 H3 H4 H5 H (pre & E & F)].
  - exists []. split; [reflexivity|constructor].
  - exists []. split; [reflexivity|constructor].
  - pose proof (a_line_app _ _ _ _ H1) as Et. exists (l ++ pre). split; [rewrite Et, E, app_assoc; reflexivity|]. eapply Forall_impl; [|exact F]. cbn. intros y (A & B). split; [exact A|apply infix_l, B].
  - pose proof (a_line_app _ _ _ _ H1) as Et. exists (l ++ pre). split; [rewrite Et, E, app_assoc; reflexivity|]. constructor; [|eapply Forall_impl; [|exact F]; cbn; intros z (A & B); split; [exact A|apply infix_l, B]].
    destruct H5 as (w & z & En & _ & _ & _ & Hy). split; [exact Hy|]. apply infix_r. destruct (a_line_prefix _ _ _ _ H1) as (v & ->). apply infix_r. exists w, z. exact En.
Qed.
Lemma trim_end_keeps y pre : solid_end y -> infix y pre -> y = [] \/ infix y (trim_end pre).
Proof.
  intros Hy (a & z & E). destruct (rev_cons_inv y) as [->|(r & c & ->)]; [auto|]. right. specialize (Hy r c eq_refl).
  destruct (trim_end_by_app is_ws pre) as (w & Ew & Fw & _). change (trim_end_by is_ws pre) with (trim_end pre) in Ew.
  assert (Eq : (a ++ r) ++ c :: z = trim_end pre ++ w) by (rewrite <- Ew, E, <- !app_assoc; reflexivity). clear E Ew. rewrite Forall_forall in Fw.
  destruct (app_eq_app _ _ _ _ Eq) as (x & [(_ & Ex)|(Ex & Ez)]).
  - assert (is_ws c = true) by (apply Fw; rewrite Ex; apply in_app_iff; right; left; reflexivity). congruence.
  - destruct x as [|d x]; cbn [app] in Ez; [assert (is_ws c = true) by (apply Fw; rewrite <- Ez; left; reflexivity); congruence|]. injection Ez as <- Ez. exists a, x. rewrite Ex, <- !app_assoc. reflexivity.
Qed.
Lemma keeps_paragraph Q k pre ls rest : keeps Q -> paragraph k false (pre ++ rest) ls rest -> Q (trim_end pre) -> Q (join [LF] ls).
Proof.
  intros K H Hq. apply (keeps_join Q K). destruct (paragraph_pieces _ _ _ _ _ H) as (p' & E & F). apply app_inv_tail in E. subst p'. eapply Forall_impl; [|exact F]. cbn. intros y (A & B).
  destruct (trim_end_keeps y pre A B) as [->|(a & z & E)]; [apply K|]. rewrite E in Hq. destruct K as (K & _). exact (K _ _ _ Hq).
Qed.
(** ** Authors *)
Definition angles (t : text) : nat := count_occ N.eq_dec t 60%N.
Definition inert_opt (x : text) (o : option text) : Prop := forall v, o = Some v -> inert x v.
Definition inert_author (x : text) (a : author) : Prop :=
  inert x (au_name a) /\ inert x (au_first a) /\ inert_opt x (au_middle a) /\ inert_opt x (au_last a) /\ inert_opt x (au_email a).
Lemma angles_none t : ~ In 60%N t <-> angles t = 0. Proof. unfold angles. apply count_occ_not_In. Qed.
Lemma angles_app a b : angles (a ++ b) = angles a + angles b. Proof. apply count_occ_app. Qed.
Lemma without_app x (a b : text) : without x (a ++ b) <-> without x a /\ without x b.
Proof. split; [intros K; split; intros c Hc Hi; apply (K c Hc); rewrite in_app_iff; auto|intros (K1 & K2) c Hc Hi; apply in_app_iff in Hi; destruct Hi as [Hi|Hi]; [exact (K1 c Hc Hi)|exact (K2 c Hc Hi)]]. Qed.
Lemma inert_app x a b : inert x (a ++ b) <-> inert x a /\ inert x b.
Proof. unfold inert. rewrite without_app, in_app_iff. tauto. Qed.
Lemma name_angle U w : a_name U w -> ~ In 60%N w.
Proof.
  intros (c & r & -> & Hc & F). assert (W : ~ word_char U 60%N). { intros [K|(K & _)]; [|lia]. unfold decimal in K. destruct K as [K|[K|[K|[K|K]]]]; try lia. vm_compute in K. intuition discriminate. }
  intros [->|K]; [contradiction|]. rewrite Forall_forall in F. destruct (F _ K) as [K1|K1]; [contradiction|]. vm_compute in K1. intuition discriminate.
Qed.
Lemma gap_angle g : gap g -> ~ In 60%N g.
Proof. intros (_ & F) K. rewrite Forall_forall in F. specialize (F _ K). discriminate F. Qed.
Lemma address_inert x s e : address s e -> without x s -> angles s <= 1 -> inert_opt x e.
Proof.
  intros H W A v ->. inversion H as [|g e' Hg He Hn Es Ee]. subst. rewrite !without_app in W. rewrite !angles_app in A. change (angles (lit "<")) with 1 in A. split; [apply angles_none; lia|apply W].
Qed.
Lemma parts_inert x U s full f m l e : author_text U s full f m l e -> without x s -> angles s <= 1 -> inert x full /\ inert x f /\ inert_opt x m /\ inert_opt x l /\ inert_opt x e.
Proof.
  assert (N : forall v, a_name U v -> without x v -> inert x v) by (intros v Hv Wv; split; [exact (name_angle U v Hv)|exact Wv]).
  assert (G : forall v, gap v -> without x v -> inert x v) by (intros v Hv Wv; split; [exact (gap_angle v Hv)|exact Wv]).
  intros H W A. destruct H; rewrite !without_app in W; rewrite !angles_app in A; rewrite ?inert_app; unfold inert_opt at 1 2.
  all: assert (Hx : inert_opt x e) by (eapply address_inert; [eassumption|apply W|lia]).
  all: repeat match goal with |- _ /\ _ => split end; try exact Hx; try (intros v Ev; first [discriminate Ev|injection Ev as <-]); try (apply N; [assumption|apply W]); try (apply G; [assumption|apply W]).
Qed.
Lemma expands_angles V t o : expands V t o -> (forall n v, V n = Some v -> ~ In 60%N v) -> angles o <= angles t /\ (In 62%N t -> In 62%N o).
Proof.
  intros H HV. assert (R : forall n, is_name n -> angles (ref n) = 0 /\ ~ In 62%N (ref n)).
  { intros n (c & r & -> & Hc & F). assert (G : forall d, d = 60%N \/ d = 62%N -> ~ In d (ref (c :: r))).
    { intros d Hd K. unfold ref in K. rewrite !in_app_iff in K. assert (Nn : name_char c /\ Forall name_char r) by (split; [left; exact Hc|exact F]). destruct Nn as (Nc & Nr). rewrite Forall_forall in Nr.
      assert (Nd : ~ name_char d) by (unfold name_char, name_first; intros; lia).
      destruct K as [[K|[]]|[[K|K]|[K|[]]]]; [destruct Hd as [->| ->]; discriminate K|subst; contradiction|apply Nd, Nr, K|destruct Hd as [->| ->]; discriminate K]. }
    split; [apply angles_none, G; auto|apply G; auto]. }
  induction H as [|n v r o Hn Hv H IH|n v r o Hn Hv H IH|n r o Hn Hv H IH|n r o Hn Hv H IH|c t o H1 H2 H IH].
  - auto.
  - destruct (R n Hn) as (R1 & R2), IH as (I1 & I2). rewrite !angles_app, !in_app_iff. pose proof (proj1 (angles_none v) (HV n v Hv)). split; [lia|tauto].
  - destruct (R n Hn) as (R1 & R2), IH as (I1 & I2). change (BSL :: ref n ++ r) with ([BSL] ++ ref n ++ r). rewrite !angles_app, !in_app_iff. change (angles [BSL]) with 0. split; [lia|]. intros [[K|[]]|K]; [discriminate K|tauto].
  - destruct (R n Hn) as (R1 & R2), IH as (I1 & I2). rewrite !angles_app, !in_app_iff. split; [lia|tauto].
  - destruct (R n Hn) as (R1 & R2), IH as (I1 & I2). change (BSL :: ref n ++ r) with ([BSL] ++ ref n ++ r). change (BSL :: ref n ++ o) with ([BSL] ++ ref n ++ o). rewrite !angles_app, !in_app_iff. split; [lia|tauto].
  - destruct IH as (I1 & I2). change (c :: t) with ([c] ++ t). change (c :: o) with ([c] ++ o). rewrite !angles_app, !in_app_iff. split; [lia|tauto].
Qed.
Lemma entity_inert x C t : text_class x C -> without x t -> inert x (flat_map entity t).
Proof.
  intros X W. assert (G : forall c, In c t -> inert x (entity c)).
  { intros c Hc. unfold entity. destruct (N.eqb_spec c 60); [destruct X; split; [vm_compute; intuition discriminate|intros d Hd; destruct Hd as [<-|[]]; vm_compute; intuition discriminate|vm_compute; intuition discriminate|intros d Hd; destruct Hd as [<-|[]]; vm_compute; intuition discriminate]|].
    destruct (N.eqb_spec c 62); [destruct X; split; [vm_compute; intuition discriminate|intros d Hd; destruct Hd as [<-|[]]; vm_compute; intuition discriminate|vm_compute; intuition discriminate|intros d Hd; destruct Hd as [<-|[]]; vm_compute; intuition discriminate]|].
    destruct (N.eqb_spec c 38); [destruct X; split; [vm_compute; intuition discriminate|intros d Hd; destruct Hd as [<-|[]]; vm_compute; intuition discriminate|vm_compute; intuition discriminate|intros d Hd; destruct Hd as [<-|[]]; vm_compute; intuition discriminate]|].
    split; [intros [K|[]]; congruence|intros d Hd [<-|[]]; exact (W _ Hd Hc)]. }
  clear W. induction t as [|c t IH]; [apply inert_nil|]. cbn [flat_map]. apply inert_app. split; [apply G; left; reflexivity|apply IH; intros d Hd; apply G; right; exact Hd].
Qed.
Lemma spaced_inert x C t : text_class x C -> inert x t -> inert x (spaced t).
Proof.
  intros X (H1 & H2). unfold spaced. split.
  - rewrite in_map_iff. intros (c & E & Hc). destruct (N.eqb_spec c 95); [discriminate E|]. subst c. contradiction.
  - intros d Hd. rewrite in_map_iff. intros (c & E & Hc). destruct (N.eqb_spec c 95); [|subst c; exact (H2 _ Hd Hc)]. subst d. destruct X; destruct Hd as [Hd|[]]; discriminate Hd.
Qed.
Lemma spaced_opt_inert x C o : text_class x C -> inert_opt x o -> inert_opt x (option_map spaced o).
Proof. intros X H v E. destruct o as [w|]; [|discriminate E]. injection E as <-. apply (spaced_inert x C _ X), H. reflexivity. Qed.
Lemma whole_inert x C n : text_class x C -> inert x n -> inert_author x (Author_Spec.whole n).
Proof. intros X H. pose proof (spaced_inert x C n X H) as K. unfold inert_author, Author_Spec.whole, inert_opt. cbn [au_name au_first au_middle au_last au_email]. repeat match goal with |- _ /\ _ => split end; try exact K; intros; discriminate. Qed.
Lemma parted_inert x C full f m l e : text_class x C -> inert x full -> inert x f -> inert_opt x m -> inert_opt x l -> inert_opt x e -> inert_author x (parted full f m l e).
Proof.
  intros X H1 H2 H3 H4 H5. unfold inert_author, parted. cbn [au_name au_first au_middle au_last au_email]. split; [exact (spaced_inert x C _ X H1)|]. split; [exact (spaced_inert x C _ X H2)|]. split; [exact (spaced_opt_inert x C _ X H3)|].
  split; [exact (spaced_opt_inert x C _ X H4)|exact H5].
Qed.
Lemma signed_facts x s : signed x s -> without x s /\ angles s <= 1 /\ (In 60%N s -> In 62%N s).
Proof.
  intros (W & [N|(a & m & -> & N)]); (split; [exact W|]); [split; [rewrite (proj1 (angles_none _) N); lia|intros K; contradiction]|].
  rewrite in_app_iff in N. rewrite !angles_app, (proj1 (angles_none a)), (proj1 (angles_none m)) by tauto. split; [vm_compute; lia|]. intros _. rewrite !in_app_iff. right. right. right. left. reflexivity.
Qed.
Lemma filled_facts x C V s y : text_class x C -> (forall n v, V n = Some v -> inert x v) -> filled V s y -> without x s -> angles s <= 1 -> (In 60%N s -> In 62%N s) -> without x y /\ angles y <= 1 /\ (In 60%N y -> In 62%N y).
Proof.
  intros X HV (z & Hz & D) W A I. pose proof (expands_without V x s z Hz (fun n v K => proj2 (HV n v K)) W) as Wz. destruct (expands_angles V s z Hz (fun n v K => proj1 (HV n v K))) as (Az & Iz).
  destruct D as [(_ & _ & ->)|(_ & ->)].
  - destruct (entity_inert x C z X Wz) as (E1 & E2). split; [exact E2|]. split; [rewrite (proj1 (angles_none _) E1); lia|intros K; contradiction].
  - split; [exact Wz|]. split; [lia|]. intros K. apply Iz, I. destruct (in_dec N.eq_dec 60%N s) as [K1|K1]; [exact K1|]. apply angles_none in K1. exfalso. revert K. apply angles_none. lia.
Qed.
Lemma used_inert x C y a : text_class x C -> used_whole y a -> without x y -> (In 60%N y -> In 62%N y) -> inert_author x a.
Proof.
  intros X [(B & ->)|(B & ->)] W I; apply (whole_inert x C _ X); [exact (entity_inert x C y X W)|]. split; [|exact W]. intros K. apply B. split; [exact K|exact (I K)].
Qed.
Lemma author_inert x C U P t a : text_class x C -> spaces_apart U -> inert_parser x P -> (forall s, bare t s -> signed x s) -> author_parse U t P = Ok (Some a) -> inert_author x a.
Proof.
  intros X Sp V S H. apply (C116_author U P t (Some a) Sp) in H. assert (HV : forall n v, value_of P n = Some v -> inert x v) by (intros n v; apply inert_value, V). remember (Some a) as o eqn:Eo. destruct H as [t B|t s y B L Hy|t s full f m l e e' B L T F|t s y full f m l e B L N I F T|t s y b B L N I F N2 W|t s b B Ns N I W]; [discriminate Eo|..]; injection Eo as <-; specialize (S _ B); destruct (signed_facts _ _ S) as (W1 & W2 & W3).
  - apply (whole_inert x C _ X). assert (N0 : ~ In 60%N s). { destruct S as (_ & [N|(p & m & E & _)]); [exact N|]. destruct L as (q & E2 & _). rewrite E in E2. rewrite !app_assoc in E2. apply app_last_eq in E2. destruct E2 as [_ E2]. discriminate E2. }
    split; [|exact (expands_without _ x s y Hy (fun n v K => proj2 (HV n v K)) W1)]. apply angles_none. destruct (expands_angles _ s y Hy (fun n v K => proj1 (HV n v K))) as (K & _). apply angles_none in N0. lia.
  - destruct (parts_inert x U s full f m l e T W1 W2) as (P1 & P2 & P3 & P4 & P5). apply (parted_inert x C); try assumption. intros v ->. destruct e as [e|]; [|destruct F]. cbn [filled_opt] in F. destruct (P5 e eq_refl) as (E1 & E2).
    destruct F as (z & Hz & D). pose proof (expands_without _ x e z Hz (fun n v K => proj2 (HV n v K)) E2) as Wz. destruct D as [(_ & _ & ->)|(_ & ->)]; [exact (entity_inert x C z X Wz)|]. split; [|exact Wz]. apply angles_none. destruct (expands_angles _ e z Hz (fun n v K => proj1 (HV n v K))) as (K & _). apply angles_none in E1. lia.
  - destruct (filled_facts x C _ s y X HV F W1 W2 W3) as (Y1 & Y2 & _). destruct (parts_inert x U y full f m l e T Y1 Y2) as (P1 & P2 & P3 & P4 & P5). apply (parted_inert x C); assumption.
  - destruct (filled_facts x C _ s y X HV F W1 W2 W3) as (Y1 & Y2 & Y3). exact (used_inert x C y b X W Y1 Y3).
  - exact (used_inert x C s b X W W1 W3).
Qed.
(** ** The header *)
Definition inert_deed (x : text) (d : deed) : Prop :=
  match d with DImplied _ v => inert x v | DEntry e => forall v, at_value (en_attr e) = VValue v -> inert x v end.
Lemma led_inert x U P l Q : inert_parser x P -> led U P l Q -> (forall d, In d l -> inert_deed x d) -> inert_parser x Q.
Proof.
  intros (V & D) (L1 & L2) H. split; [|intros n v; rewrite L1; apply D]. intros n v E. assert (E1 : snd (now Q n) = VValue v) by exact E. rewrite L2 in E1. clear E.
  assert (G : forall s, (forall w, snd s = VValue w -> inert x w) -> forall w, snd (fate U (read_as P n) n s l) = VValue w -> inert x w).
  { clear E1 L2. induction l as [|d l IH]; intros s Hs; [exact Hs|]. cbn [fate fold_left] in *. apply IH; [intros d' Hd; apply H; right; exact Hd|]. intros w Ew. specialize (H d (or_introl eq_refl)). destruct d as [e|m u]; cbn [after inert_deed] in *.
    - destruct (text_eqb n _ && _); [|exact (Hs w Ew)]. cbn [snd] in Ew. destruct (at_value (en_attr e)) as [z| |] eqn:Ea; cbn [read_as] in Ew; [injection Ew as <-; exact (H z eq_refl)|destruct (mget n (p_defaults P)) as [z|] eqn:Ed; [injection Ew as <-; exact (D n z Ed)|discriminate Ew]|discriminate Ew].
    - destruct (text_eqb n m); [|exact (Hs w Ew)]. cbn [snd] in Ew. injection Ew as <-. exact H. }
  refine (G (now P n) _ v E1). intros w Ew. exact (V n w Ew).
Qed.
Lemma letter_inert x o : inert_opt x o -> inert x (letter_of o).
Proof. intros H. destruct o as [[|c v]|]; try apply inert_nil. cbn [letter_of]. specialize (H _ eq_refl). change (c :: v) with ([c] ++ v) in H. apply inert_app in H. apply H. Qed.
Lemma initials_inert x a : inert_author x a -> inert x (initials_of a).
Proof. intros (_ & H1 & H2 & H3 & _). unfold initials_of. rewrite !inert_app. split; [apply letter_inert; intros v E; injection E as <-; exact H1|]. split; apply letter_inert; assumption. Qed.
Lemma maybe_inert x n o d : inert_opt x o -> In d (maybe n o) -> inert_deed x d.
Proof. intros H Hd. destruct o as [v|]; [|destruct Hd]. destruct Hd as [<-|[]]. exact (H v eq_refl). Qed.
Lemma authored_inert x i a d : inert_author x a -> In d (authored i a) -> inert_deed x d.
Proof.
  intros H Hd. pose proof (initials_inert x a H) as I. destruct H as (H0 & H1 & H2 & H3 & H4). unfold authored in Hd. rewrite !in_app_iff in Hd. destruct Hd as [[<-|[<-|[<-|[]]]]|[K|[K|K]]]; [exact H0|exact I|exact H1|..]; (eapply maybe_inert; [|exact K]; assumption).
Qed.
Lemma named_inert x a d : inert_author x a -> In d (named a) -> inert_deed x d.
Proof.
  intros H Hd. pose proof (initials_inert x a H) as I. destruct H as (H0 & H1 & H2 & H3 & H4). unfold named in Hd. rewrite !in_app_iff in Hd. destruct Hd as [[<-|[]]|[K|[K|[[<-|[]]|K]]]]; first [exact H1|exact I|eapply maybe_inert; [|exact K]; assumption].
Qed.
Lemma inert_infix x a b c : inert x (a ++ b ++ c) -> inert x b.
Proof. rewrite !inert_app. tauto. Qed.
Lemma inert_sub x (a b : text) : inert x b -> (forall c, In c a -> In c b) -> inert x a.
Proof. intros (H1 & H2) I. split; [intros K; exact (H1 (I _ K))|intros c Hc K; exact (H2 c Hc (I _ K))]. Qed.

Lemma bare_in t s c : bare t s -> In c s -> In c t.
Proof. intros ((a & b & -> & _) & _) H. rewrite !in_app_iff. auto. Qed.
Lemma revision_inert x U t n d r : inert x t -> revision U t n d r -> inert_opt x n /\ inert x d /\ inert_opt x r.
Proof.
  intros H R. assert (Z : forall right left o, cut 58%N t left right -> opt_bare right o -> inert_opt x o).
  { intros right left o C B v ->. destruct right as [w|]; [|destruct B]. destruct C as (-> & _). apply (inert_sub x v _ H). intros c Hc. apply in_app_iff. right. right. exact (bare_in _ _ _ B Hc). }
  assert (L : forall left right c, cut 58%N t left right -> In c left -> In c t) by (intros left [w|] c (-> & _) Hc; [apply in_app_iff; auto|exact Hc]).
  destruct R as [left right r num date n s d C B (-> & _) B1 (p & -> & _) B2|left right r n s C B _ B1 _ (p & -> & _)|left right r s C B _ B1 _].
  - split; [intros v E; injection E as <-; apply (inert_sub x n _ H); intros c Hc; apply (L _ _ _ C); apply in_app_iff; left; apply (bare_in _ _ _ B1); apply in_app_iff; auto|]. split; [|exact (Z _ _ _ C B)].
    apply (inert_sub x d _ H). intros c Hc. apply (L _ _ _ C). apply in_app_iff. right. right. exact (bare_in _ _ _ B2 Hc).
  - split; [intros v E; injection E as <-; apply (inert_sub x n _ H); intros c Hc; apply (L _ _ _ C); apply (bare_in _ _ _ B1); apply in_app_iff; auto|]. split; [apply inert_nil|exact (Z _ _ _ C B)].
  - split; [discriminate|]. split; [|exact (Z _ _ _ C B)]. apply (inert_sub x s _ H). intros c Hc. apply (L _ _ _ C), (bare_in _ _ _ B1 Hc).
Qed.
Lemma header_parts_inert x C U fs f P hd l : text_class x C -> spaces_apart U -> inert_parser x P -> header_parts (env_of U fs (S f)) P hd l -> inert_header x C hd ->
  forall pre post, l = pre ++ post -> forall d, In d (flat_map deeds pre) -> inert_deed x d.
Proof.
  intros X Sp V (Pe & Pt & Pa & Pr & R) (H1 & H2 & H3 & H4) pre. induction pre as [|p pre IH] using rev_ind; intros post D d Hd; [destruct Hd|].
  rewrite <- app_assoc in D. rewrite flat_map_app, in_app_iff in Hd. destruct Hd as [Hd|Hd]; [exact (IH _ D d Hd)|]. cbn [flat_map] in Hd. rewrite app_nil_r in Hd.
  destruct (R _ _ _ D) as (Q & L & Rp). cbn [e_u env_of] in *. assert (VQ : inert_parser x Q) by (apply (led_inert x U P _ Q V L), (IH _ D)).
  destruct p as [t|as_|n dt r|a who]; cbn [part_read deeds] in *.
  - destruct Rp as (sp & E & Es). destruct Hd as [<-|[]]. exact (header_inert x C U fs Q f _ _ X VQ (H1 _ E) Es).
  - destruct Rp as (al & ts & E & <- & Ep & A). specialize (H3 _ E). cbn [e_u env_of] in A. assert (F : Forall (inert_author x) (aul_authors al)).
    { assert (Ts : forall t, In t ts -> forall s, bare t s -> signed x s) by (intros t Ht s; exact (H3 ts t s Ep Ht)). clear - X Sp VQ A Ts. induction A as [|t ts l Ea A IH|t a ts l Ea A IH]; [constructor|apply IH; intros u Hu; apply Ts; right; exact Hu|].
      constructor; [refine (author_inert x C U Q t a X Sp VQ _ Ea); apply Ts; left; reflexivity|apply IH; intros u Hu; apply Ts; right; exact Hu]. }
    clear - F Hd. revert Hd. generalize 0. induction F as [|a l Ha F IH]; intros i Hd; [destruct Hd|]. cbn [all_authored] in Hd. apply in_app_iff in Hd. destruct Hd as [Hd|Hd]; [exact (authored_inert x i a d Ha Hd)|exact (IH _ Hd)].
  - destruct Rp as (v & E & Rv). destruct (revision_inert x U _ _ _ _ (H4 _ E) Rv) as (I1 & I2 & I3). rewrite !in_app_iff in Hd. destruct Hd as [Hd|[[<-|[]]|Hd]]; [eapply maybe_inert; [|exact Hd]; assumption|exact I2|eapply maybe_inert; [|exact Hd]; assumption].
  - assert (Ia : In a (h_attrs hd)). { rewrite <- Pe, D. unfold entries_in. rewrite flat_map_app. apply in_app_iff. right. left. reflexivity. }
    destruct Rp as (Rn & Re). apply in_app_iff in Hd. destruct Hd as [Hd|[<-|[]]].
    + destruct who as [w|]; [|destruct Hd]. apply (named_inert x w d); [|exact Hd]. destruct Rn as (N1 & N2). assert (Ae : author_entry a) by (unfold author_entry; match goal with |- ?u = ?v => destruct (list_eq_dec N.eq_dec u v) as [K|K]; [exact K|] end; specialize (N2 K); discriminate N2).
      specialize (N1 Ae). destruct (at_value_source a) as [raw|] eqn:Ev; [|discriminate N1]. exact (author_inert x C U Q _ w X Sp VQ (proj2 (H2 a raw Ia Ev) Ae) N1).
    + cbn [inert_deed en_attr]. intros v Ev. unfold entry_read in Re. rewrite Ev in Re. destruct Re as (raw & t & E1 & E2 & E3). exact (header_inert x C U fs Q f t v X VQ (keeps_fold C (class_keeps x C X) _ _ (proj1 (H2 a raw Ia E1)) E2) E3).
Qed.
Lemma header_title_inert x C U fs f P hd l : text_class x C -> spaces_apart U -> inert_parser x P -> header_parts (env_of U fs (S f)) P hd l -> inert_header x C hd -> inert_opt x (h_title hd).
Proof.
  intros X Sp V Hp Hi t Et. assert (It : In t (titles_in l)) by (destruct Hp as (_ & Pt & _); rewrite Pt, Et; left; reflexivity). unfold titles_in in It. apply in_flat_map in It. destruct It as (p & Hp1 & Ht). destruct p; try contradiction. destruct Ht as [->|[]].
  apply in_split in Hp1. destruct Hp1 as (pre & post & D). apply (header_parts_inert x C U fs f P hd l X Sp V Hp Hi (pre ++ [PTitle t]) post) with (d := DImplied (lit "doctitle") t); [rewrite D, <- app_assoc; reflexivity|]. rewrite flat_map_app, in_app_iff. right. left. reflexivity.
Qed.
Lemma header_inert_all x C U fs f s P hd af ws P' : text_class x C -> spaces_apart U -> inert_parser x P -> header_parse (env_of U fs (S f)) s P = Ok (mkmi hd af, (ws, P')) -> inert_header x C hd ->
  inert_parser x P' /\ inert_opt x (h_title hd) /\ forall a v, In a (h_attrs hd) -> at_value a = VValue v -> inert x v.
Proof.
  intros X Sp V H Hi. destruct (header_led _ _ _ _ _ _ _ H) as (l & Hp & L). pose proof (header_parts_inert x C U fs f P hd l X Sp V Hp Hi l [] (eq_sym (app_nil_r l))) as G. split; [exact (led_inert x _ P _ P' V L G)|]. split; [exact (header_title_inert x C U fs f P hd l X Sp V Hp Hi)|].
  intros a v Ha Ev. destruct Hp as (Pe & _). rewrite <- Pe in Ha. unfold entries_in in Ha. apply in_flat_map in Ha. destruct Ha as (p & Hp1 & Ha). destruct p as [| | |a' who]; try contradiction. destruct Ha as [->|[]].
  refine (G (DEntry (mkentry InHeader a)) _ v Ev). apply in_flat_map. exists (PEntry a who). split; [exact Hp1|]. cbn [deeds]. apply in_app_iff. right. left. reflexivity.
Qed.
(** ** The body *)
Lemma inert_same x P Q : inert_parser x P -> p_attrs P = p_attrs Q -> p_defaults P = p_defaults Q -> inert_parser x Q.
Proof. intros V A D. apply (led_inert x ascii_only P [] Q V (led_nil ascii_only P Q A D)). intros d []. Qed.
Lemma inert_core x P Q : core P Q -> inert_parser x P -> inert_parser x Q.
Proof. intros (A & B & _) V. exact (inert_same x P Q V A B). Qed.
Definition own_part (b : block) : Prop :=
  (forall t, cm_title (block_common b) = Some t -> made_of own_tags t) /\
  match b with
  | BSimple c _ _ _ => made_of own_tags (ct_rendered c)
  | BSection _ title _ _ _ _ _ _ => made_of own_tags (ct_rendered title)
  | BAttribute a => forall v, at_value a = VValue v -> ~ In 60%N v
  | _ => True
  end.
Definition R_own (x : text) (C : text -> Prop) (P : parser) (l : list block) (_ : list warning) (P' : parser) : Prop :=
  (forall b, below l b -> inert_block C b) -> inert_parser x P -> inert_parser x P' /\ forall b, below l b -> own_part b.
Lemma below_app l1 l2 b : below (l1 ++ l2) b <-> below l1 b \/ below l2 b.
Proof.
  split.
  - intros H. inversion H as [? ? Hb|? c ? Hc Hb]; subst; [apply in_app_iff in Hb; destruct Hb; [left|right]; apply bl_here; assumption|]. apply in_app_iff in Hc. destruct Hc; [left|right]; exact (bl_in _ _ _ ltac:(eassumption) Hb).
  - intros [H|H]; inversion H as [? ? Hb|? c ? Hc Hb]; subst; [apply bl_here|apply (bl_in _ c)|apply bl_here|apply (bl_in _ c)]; try apply in_app_iff; auto.
Qed.
Lemma below_nil b : ~ below [] b. Proof. intros H. inversion H; contradiction. Qed.
Lemma below_one y b : below [y] b <-> b = y \/ below (nested_blocks y) b.
Proof.
  split.
  - intros H. inversion H as [? ? Hi|? c ? Hi Hb]; subst; destruct Hi as [<-|[]]; auto.
  - intros [->|H]; [apply bl_here; left; reflexivity|apply (bl_in _ y); [left; reflexivity|exact H]].
Qed.
Lemma below_self y : below [y] y. Proof. apply bl_here. left. reflexivity. Qed.
Lemma title_read E s P m ws : metadata_parse E s P = Ok (m, ws) -> forall t, md_title m = Some t -> exists sp, md_title_source m = Some sp /\ e_sub E P GNormal false (sp_data sp) = Ok t.
Proof.
  unfold metadata_parse. intros H. apply bind_ok in H. destruct H as (s1 & _ & H). apply bind_ok in H. destruct H as (ms & _ & H). apply bind_ok in H. destruct H as (ti & Et & H). apply Ok_inj in H. injection H as <- _. cbn [md_title md_title_source].
  intros t ->. destruct (ms_title ms) as [sp|]; [|discriminate Et]. apply bind_ok in Et. destruct Et as (u & Eu & Et). apply Ok_inj in Et. injection Et as <-. eauto.
Qed.
Lemma subs_made x C U fs f P g a t o : text_class x C -> inert_parser x P -> C t -> In g tagged_groups -> apply_subs (env_of U fs (S f)) P g a t = Ok o -> made_of own_tags o.
Proof. intros X V Ct Hg H. unfold apply_subs in H. apply bind_ok in H. destruct H as (hb & _ & H). exact (class_made x C U fs P f g hb t o X V Ct Hg H). Qed.
Lemma own_step x C U fs f : text_class x C -> step_good (env_of U fs (S f)) (R_own x C).
Proof.
  intros X un s P r _ G Sh HC V. set (E := env_of U fs (S f)) in *.
  assert (Z : forall y Q, nested_blocks y = [] -> inert_parser x Q -> own_part y -> inert_parser x Q /\ forall b, below [y] b -> own_part b).
  { intros y Q Hy HQ Ho. split; [exact HQ|]. intros b Hb. apply below_one in Hb. rewrite Hy in Hb. destruct Hb as [->|Hb]; [exact Ho|destruct (below_nil _ Hb)]. }
  assert (T : forall m ws, metadata_parse E s P = Ok (m, ws) -> (forall sp, md_title_source m = Some sp -> C (sp_data sp)) -> forall t, md_title m = Some t -> made_of own_tags t).
  { intros m ws Em Hc t Et. destruct (title_read _ _ _ _ _ Em t Et) as (sp & E1 & E2). refine (class_made x C U fs P f GNormal false _ t X V (Hc _ E1) _ E2). left. reflexivity. }
  assert (Pa : forall s0 a Q y, inert_parser x Q -> parse_lines E s0 a Q = Ok (Some y) -> C (sp_data (ct_original (fst (mi_item y)))) ->
    (forall style g, list_style a style -> chosen GNormal style (list_subs a) g -> In g [GNormal; GTitle; GHeader]) -> made_of own_tags (ct_rendered (fst (mi_item y)))).
  { intros s0 a Q y VQ H Hc Hu. apply parse_lines_text in H. destruct H as (k & ls & pre & rest & g & st & A & B & D & F & K). rewrite B in Hc. pose proof (keeps_paragraph C k pre ls rest (class_keeps x C X) A Hc) as Hj.
    refine (subs_made x C U fs f Q g a _ _ X VQ Hj _ K). specialize (Hu st g D F). exact Hu. }
  destruct Sh as [a af Q|mj r0 Q Hf|m ws r0 Em Sh].
  - cbn [pr_item pr_parser mi_item] in *. pose proof (HC _ (below_self _)) as (_ & Ha). assert (I : forall v, at_value a = VValue v -> inert x v).
    { intros v Ev. pose proof (entry_is_read E s P _ Q) as Re. cbn [mi_item] in Re. unfold entry_read in Re. rewrite Ev in Re. destruct Re as (raw & t & E1 & E2 & E3). exact (header_inert x C U fs P f t v X V (keeps_fold C (class_keeps x C X) _ _ (Ha raw E1) E2) E3). }
    apply Z; [reflexivity| |split; [discriminate|intros v Ev; exact (proj1 (I v Ev))]].
    refine (led_inert x U P [DEntry (mkentry InBody a)] _ V (led_entry U P (mkentry InBody a)) _). intros d [<-|[]]. exact I.
  - destruct (finish_core _ _ _ _ Hf) as (Co & _). apply (inert_core x _ _ Co) in V as V1. destruct (finish_inv _ _ _ _ Hf) as (i & _ & ->). cbn [pr_item pr_parser] in *. unfold simple_parse_fast in Q. apply bind_ok in Q. destruct Q as (o & Eo & Q). destruct o as [y|]; [|discriminate Q]. apply bind_ok in Q. destruct Q as (af & _ & Q). apply Ok_inj in Q. injection Q as <-. cbn [mi_item] in *.
    pose proof (HC _ (below_self _)) as (_ & Hc & Hu). apply Z; [reflexivity|exact V1|]. split; [discriminate|]. exact (Pa _ _ _ _ V Eo Hc Hu).
  - specialize (T m ws Em). destruct Sh as [w _|m' mj w r0 Hm _ Es Hf|mj w r0 Es Hf|mj w P1 r0 Es Hf|mj w r0 Es Hf|mj w P1 Es|mj w _ Es]; try (destruct (finish_core _ _ _ _ Hf) as (Co & _); destruct (finish_inv _ _ _ _ Hf) as (i & _ & ->)); cbn [pr_item pr_parser] in *.
    + split; [exact V|]. intros b Hb. destruct (below_nil _ Hb).
    + apply (inert_core x _ _ Co) in V as V1. unfold simple_parse in Es. apply bind_ok in Es. destruct Es as (o & Eo & Es). destruct o as [y|]; [|discriminate Es]. apply bind_ok in Es. destruct Es as (s1 & _ & Es). apply bind_ok in Es. destruct Es as (s2 & _ & Es). apply bind_ok in Es. destruct Es as (af & _ & Es). apply Ok_inj in Es. injection Es as <-. cbn [mi_item] in *.
      pose proof (HC _ (below_self _)) as (Ht & Hc & Hu). cbn [block_common common_of cm_title_source] in Ht. apply Z; [reflexivity|exact V1|]. split; [|exact (Pa _ _ _ _ V Eo Hc Hu)].
      cbn [block_common common_of cm_title]. destruct Hm as [->| ->]; [exact (T Ht)|discriminate].
    + apply (inert_core x _ _ Co) in V as V1. destruct (Shape_Proof.raw_inv _ _ _ _ _ Es) as (c & mo & cx & sr & g & Ei). rewrite Ei in *. pose proof (HC _ (below_self _)) as (Ht & _). apply Z; [reflexivity|exact V1|]. split; [exact (T Ht)|exact I].
    + destruct (compound_inv _ _ _ _ _ _ Es) as (ins & b & cx & src & dl & Eu & Ei & -> & _ & Hw). rewrite Ei in *. pose proof (HC _ (below_self _)) as (Ht & _).
      destruct (G _ _ _ _ _ Eu) as (V1 & Hb); [intros y Hy; apply HC, below_one; right; exact Hy|exact V|]. split; [exact (inert_core x _ _ Co V1)|]. intros y Hy. apply below_one in Hy. destruct Hy as [->|Hy]; [split; [exact (T Ht)|exact I]|exact (Hb y Hy)].
    + apply (inert_core x _ _ Co) in V as V1. destruct (media_inv _ _ _ _ _ Es) as (t & tg & a & sr & Ei). rewrite Ei in *. pose proof (HC _ (below_self _)) as (Ht & _). apply Z; [reflexivity|exact V1|]. split; [exact (T Ht)|exact I].
    + destruct (Shape_Proof.section_inv _ _ _ _ _ _ _ Es) as [(dd & lv & ti & rest & lw & bs' & b & sr & t & base & mn & reg & s2 & _ & _ & _ & Eu & _ & Et & _ & _ & Hr & Ep & Ei & _)]. subst mj. cbn [mi_item] in *. pose proof (HC _ (below_self _)) as (Ht & Hc).
      destruct (G _ _ _ _ _ Eu) as (V1 & Hb); [intros y Hy; apply HC, below_one; right; exact Hy| |].
      { refine (inert_same x P _ V _ _); unfold section_type_of, assign_section_number; repeat match goal with |- context [if ?c then _ else _] => destruct c end; cbn [fst snd]; repeat match goal with |- context [match ?c with SNormal => _ | SAppendix => _ | SDiscrete => _ end] => destruct c end; reflexivity. }
      split.
      * assert (Rc : p_attrs (br_parser b) = p_attrs (fst (snd reg)) /\ p_defaults (br_parser b) = p_defaults (fst (snd reg))).
        { unfold section_register in Hr. destruct (p_catalog (br_parser b)); [|apply Ok_inj in Hr; subst reg; split; reflexivity]. destruct mn; [cbv zeta in Hr; match type of Hr with (if ?b then _ else _) = _ => destruct b end; [apply Ok_inj in Hr; subst reg; split; reflexivity|apply bind_ok in Hr; destruct Hr as (? & _ & Hr); apply Ok_inj in Hr; subst reg; split; reflexivity]|].
          destruct (is_attribute_set P _); [apply bind_ok in Hr; destruct Hr as (? & _ & Hr)|]; apply Ok_inj in Hr; subst reg; split; reflexivity. }
        destruct Rc as (R1 & R2). subst P1. apply (inert_same x _ _ V1); destruct ((lv =? 1) && negb dd); assumption.
      * intros y Hy. apply below_one in Hy. destruct Hy as [->|Hy]; [|exact (Hb y Hy)]. split; [exact (T Ht)|]. refine (subs_made x C U fs f _ GTitle _ _ _ X V1 Hc _ Et). right. left. reflexivity.
    + destruct (break_inv _ _ Es) as (t & sr & Ei). rewrite Ei in *. pose proof (HC _ (below_self _)) as (Ht & _). apply Z; [reflexivity|exact V|]. split; [exact (T Ht)|exact I].
Qed.
Lemma below_preamble bs ah bs' b : make_preamble bs ah = Ok bs' -> below bs b -> below bs' b.
Proof.
  intros Em Hb. destruct (C87_preamble _ _ _ Em) as (C1 & C2). destruct (forallb (fun x => negb (is_section x)) bs) eqn:F; [rewrite (C2 eq_refl); exact Hb|].
  assert (G : exists l1 x l2, bs = l1 ++ x :: l2 /\ is_section x = true /\ forallb (fun x => negb (is_section x)) l1 = true).
  { clear - F. induction bs as [|y l IH]; [discriminate F|]. cbn [forallb] in F. destruct (is_section y) eqn:Ey; cbn [negb andb] in F; [exists [], y, l; auto|]. destruct (IH F) as (l1 & x & l2 & -> & A & B). exists (y :: l1), x, l2. cbn [forallb]. rewrite Ey. auto. }
  destruct G as (l1 & x & l2 & -> & Hx & H1). specialize (C1 _ _ _ eq_refl Hx H1). destruct (forallb is_entry l1); [subst bs'; exact Hb|]. destruct C1 as (src & ->).
  apply below_app in Hb. change (BPreamble l1 src :: x :: l2) with ([BPreamble l1 src] ++ x :: l2). apply below_app. destruct Hb as [Hb|Hb]; [left; apply below_one; right; exact Hb|right; exact Hb].
Qed.
Lemma document_inert x C U fs f fuel t sm P d P' : text_class x C -> spaces_apart U -> inert_parser x P -> document_parse (env_of U fs (S f)) fuel t sm P = Ok (d, P') -> inert_header x C (d_header d) ->
  (forall b, below (d_blocks d) b -> inert_block C b) -> inert_parser x P' /\ (forall v, h_title (d_header d) = Some v -> inert x v) /\ (forall a v, In a (h_attrs (d_header d)) -> at_value a = VValue v -> inert x v) /\
  forall b, below (d_blocks d) b -> own_tags_only (d_warnings d) b.
Proof.
  intros X Sp V H Hh Hb. pose proof (fun b => document_texts _ _ _ _ _ _ _ b H) as Tx. set (E := env_of U fs (S f)) in *.
  unfold document_parse in H. apply bind_ok in H. destruct H as ([[hd af] [ws P1]] & Eh & H). apply bind_ok in H. destruct H as (br & Eb & H). apply bind_ok in H. destruct H as (bs & Em & H). apply bind_ok in H. destruct H as (s & _ & H). apply Ok_inj in H. injection H as <- <-. cbn [d_blocks d_warnings d_header mi_item mi_after fst snd] in *.
  destruct (header_inert_all x C U fs f _ P hd af ws P1 X Sp V Eh Hh) as (V1 & Ht & Ha).
  match type of Eb with parse_blocks_until _ _ _ _ _ ?Q = _ => assert (V2 : inert_parser x Q) by (apply (inert_same x P1 _ V1); reflexivity) end.
  pose proof (until_induction E (R_own x C)) as Un. destruct (Un ltac:(intros Q _ VQ; split; [exact VQ|intros b Kb; destruct (below_nil _ Kb)])
    ltac:(intros Q l1 w1 Q1 l2 w2 Q2 H1 H2 Hc VQ; destruct (H1 (fun b Kb => Hc b (proj2 (below_app _ _ _) (or_introl Kb))) VQ) as (A1 & A2); destruct (H2 (fun b Kb => Hc b (proj2 (below_app _ _ _) (or_intror Kb))) A1) as (B1 & B2); split; [exact B1|intros b Kb; apply below_app in Kb; destruct Kb as [Kb|Kb]; [exact (A2 b Kb)|exact (B2 b Kb)]])
    (own_step x C U fs f X) _ _ _ _ _ _ Eb (fun b Kb => Hb b (below_preamble _ _ _ _ Em Kb)) V2) as (V3 & Ho).
  split; [exact V3|]. split; [exact Ht|]. split; [exact Ha|]. intros b Kb. destruct (preamble_below _ _ _ _ Em Kb) as [K|(l & src & ->)]; [|split; [discriminate|exact I]].
  destruct (Ho b K) as (O1 & O2). split; [exact O1|]. specialize (Tx b Kb). destruct b; try exact O2; try exact I. cbn [block_text] in Tx. intros -> Nw. destruct Tx as (df & _ & [(Q & st & _ & _ & Es)|(_ & _ & s1 & K1)]); [|destruct (Nw s1 K1)].
  unfold apply_subs in Es. apply bind_ok in Es. destruct Es as (hb & _ & Es). exact (verbatim_made U fs Q f hb _ _ Es).
Qed.
Lemma stored_inert x P : forallb (fun v => negb (has_char 60%N v) && forallb (fun c => negb (has_char c v)) x) (stored P) = true -> inert_parser x P.
Proof.
  intros H. rewrite forallb_forall in H. assert (G : forall v, In v (stored P) -> inert x v).
  { intros v Hv. specialize (H v Hv). apply andb_true_iff in H. destruct H as (H1 & H2). apply negb_true_iff in H1. split; [apply not_in_compute, H1|]. intros c Hc. rewrite forallb_forall in H2. specialize (H2 c Hc). apply negb_true_iff in H2. apply not_in_compute, H2. }
  assert (Hd : forall n v, mget n (p_defaults P) = Some v -> inert x v). { intros n v E. apply G. apply in_app_iff. right. apply mget_in in E. apply in_map_iff. exists (n, v). auto. }
  split; [|exact Hd]. intros n v E. unfold attribute_value in E. destruct (mget n (p_attrs P)) as [av|] eqn:Ea; [|discriminate E].
  destruct (av_value av) as [w| |] eqn:Ew; [|destruct (mget n (p_defaults P)) as [d|] eqn:Ed; [injection E as <-; exact (Hd n d Ed)|discriminate E]|discriminate E]. injection E as <-.
  apply G, in_app_iff. left. apply in_flat_map. exists (n, av). split; [exact (mget_in _ _ _ Ea)|]. cbn [snd]. rewrite Ew. left. reflexivity.
Qed.
Lemma default_inert x C : text_class x C -> inert_parser x parser_default.
Proof. intros [|]; apply stored_inert; vm_compute; reflexivity. Qed.
