(** Proofs about the kinds of blocks. *)
From Verif Require Import Text TextFacts Maps Span_Model Span_Pure Span_Proof Span_Laws Span_Spec Span_Prop Parser_Model Subs_Model Attrlist_Model
  Group_Model Header_Model Header_Spec Block_Model Block_Spec Block_Proof Tree_Proof Total_Proof Shape_Proof Meta_Spec Meta_Proof Kind_Spec.

(** * Forms *)
Lemma repeat_hd (c : char) n x y : 1 <= n -> repeat c n = x :: y -> x = c.
Proof. destruct n; [lia|]. intros _ H. injection H as <- _. reflexivity. Qed.
Lemma repeated_hd c n : repeated c n -> exists y, n = c :: y.
Proof. intros (k & L & ->). destruct k; [lia|]. cbn [repeat]. eauto. Qed.
Lemma raw_form_delim n cx mo : has_form n (FRaw cx mo) -> raw_delimiter n.
Proof. intros (c & Hc & H). exists c. split; [|exact H]. cbn in Hc |- *. destruct Hc as [K|[K|[K|[K|[]]]]]; injection K as <- _ _; auto. Qed.
Lemma compound_form_delim n cx : has_form n (FCompound cx) -> compound_delimiter n.
Proof. intros [(-> & _)|(c & Hc & H)]; [left; reflexivity|]. right. exists c. split; [|exact H]. cbn in Hc |- *. destruct Hc as [K|[K|[K|[]]]]; injection K as <- _; auto. Qed.
Lemma raw_delim_form n : raw_delimiter n -> has_form n (FRaw (fst (snd (kind_of n))) (fst (kind_of n))).
Proof.
  intros (c & Hc & H). exists c. split; [|exact H]. destruct (repeated_hd _ _ H) as (y & ->). cbn in Hc. destruct Hc as [<-|[<-|[<-|[<-|[]]]]]; cbn; auto.
Qed.
Lemma compound_delim_form n : compound_delimiter n -> has_form n (FCompound (context_of n)).
Proof.
  intros [->|(c & Hc & H)]; [left; split; reflexivity|]. right. exists c. split; [|exact H]. destruct (repeated_hd _ _ H) as (y & ->). cbn in Hc. destruct Hc as [<-|[<-|[<-|[]]]]; cbn; auto.
Qed.
Lemma raw_form_unique n cx mo cx' mo' : has_form n (FRaw cx mo) -> has_form n (FRaw cx' mo') -> cx = cx' /\ mo = mo'.
Proof.
  intros (c & Hc & H) (c' & Hc' & H'). destruct (repeated_hd _ _ H) as (y & ->). destruct (repeated_hd _ _ H') as (y' & K). injection K as <- _. cbn in Hc, Hc'.
  destruct Hc as [K|[K|[K|[K|[]]]]], Hc' as [K'|[K'|[K'|[K'|[]]]]]; injection K as <- <- <-; try discriminate K'; injection K' as <- <-; auto.
Qed.
Lemma compound_form_unique n cx cx' : has_form n (FCompound cx) -> has_form n (FCompound cx') -> cx = cx'.
Proof.
  intros [(-> & ->)|(c & Hc & H)] [(E' & ->)|(c' & Hc' & H')]; try reflexivity.
  - destruct (repeated_hd _ _ H') as (y & K). injection K as <- _. cbn in Hc'. destruct Hc' as [K|[K|[K|[]]]]; discriminate K.
  - subst n. destruct (repeated_hd _ _ H) as (y & K). injection K as <- _. cbn in Hc. destruct Hc as [K|[K|[K|[]]]]; discriminate K.
  - destruct (repeated_hd _ _ H) as (y & ->). destruct (repeated_hd _ _ H') as (y' & K). injection K as <- _. cbn in Hc, Hc'. destruct Hc as [K|[K|[K|[]]]], Hc' as [K'|[K'|[K'|[]]]]; injection K as <- <-; try discriminate K'; injection K' as <-; reflexivity.
Qed.
Lemma form_head n f : has_form n f -> exists c y, n = c :: y /\ In c (match f with FRaw _ _ => lit "/-.+" | FCompound _ => lit "-=*_" | FMedia MImage _ => lit "i" | FMedia MVideo _ => lit "v" | FMedia MAudio _ => [] | FHeading _ _ => lit "=#" | FThematic => lit "'-*" | FPage => lit "<" end).
Proof.
  destruct f as [cx mo|cx|ty target|level title| |].
  1: intros H; apply raw_form_delim in H. 2: intros H; apply compound_form_delim in H. 3-6: cbn [has_form].
  - revert H. destruct n as [|c y]; [intros (c & _ & k & L & D); destruct k; [lia|discriminate D]|]. intros H. exists c, y. split; [reflexivity|]. exact (raw_delimiter_head _ _ H).
  - revert H. destruct n as [|c y]; [intros [D|(c & _ & k & L & D)]; [discriminate D|destruct k; [lia|discriminate D]]|]. intros H. exists c, y. split; [reflexivity|]. exact (compound_delimiter_head _ _ H).
  - intros (_ & _ & name & attrs & [D|[D|[]]] & ->); injection D as <- <-; do 2 eexists; (split; [reflexivity|left; reflexivity]).
  - intros (c & ws & Hc & _ & -> & _). exists c. eexists. split; [reflexivity|exact Hc].
  - intros [<-|[<-|[<-|[<-|[<-|[]]]]]]; do 2 eexists; (split; [reflexivity|cbn; auto]).
  - intros ->. do 2 eexists. split; [reflexivity|left; reflexivity].
Qed.
Lemma repeat_app_inv (c : char) : forall n m x y, repeat c n ++ x = repeat c m ++ y -> (forall z, x <> c :: z) -> (forall z, y <> c :: z) -> n = m /\ x = y.
Proof.
  induction n as [|n IH]; intros [|m] x y H Hx Hy; cbn in H.
  - auto.
  - destruct (Hx _ H).
  - destruct (Hy _ (eq_sym H)).
  - injection H as H. destruct (IH _ _ _ H Hx Hy) as (-> & ->). auto.
Qed.
Lemma blank_cut a b x y : Forall sp_tab a -> Forall sp_tab b -> (forall c z, x = c :: z -> ~ sp_tab c) -> (forall c z, y = c :: z -> ~ sp_tab c) -> a ++ x = b ++ y -> a = b /\ x = y.
Proof.
  revert b. induction a as [|c a IH]; intros [|d b] Ha Hb Hx Hy H; cbn in H.
  - auto.
  - inversion Hb; subst. destruct (Hx _ _ eq_refl); assumption.
  - inversion Ha; subst. destruct (Hy _ _ eq_refl); assumption.
  - inversion Ha; inversion Hb; subst. injection H as <- H. destruct (IH b) as (-> & ->); auto.
Qed.
Lemma heading_unique n l1 t1 l2 t2 : heading n l1 t1 -> heading n l2 t2 -> l1 = l2 /\ t1 = t2.
Proof.
  intros (c & ws & Hc & L & -> & Hn & Fw & Ht) (c' & ws' & Hc' & L' & D & Hn' & Fw' & Ht').
  assert (c = c') as <- by (cbn in D; injection D as D _; exact D).
  assert (G : forall ws (t : text), ws <> [] -> Forall sp_tab ws -> forall z, ws ++ t <> c :: z).
  { intros [|w ws0] t0 K F z D0; [contradiction|]. injection D0 as -> _. inversion F as [|? ? Fc _]; subst. destruct Hc as [<-|[<-|[]]]; destruct Fc as [Fc|Fc]; discriminate Fc. }
  apply repeat_app_inv in D; [|exact (G _ _ Hn Fw)|exact (G _ _ Hn' Fw')]. destruct D as (D1 & D2). injection D1 as ->. apply blank_cut in D2; auto. destruct D2 as (_ & ->). auto.
Qed.
Lemma target_unique (t1 t2 a1 a2 : text) : ~ In 91%N t1 -> ~ In 91%N t2 -> t1 ++ lit "[" ++ a1 = t2 ++ lit "[" ++ a2 -> t1 = t2.
Proof.
  change (lit "[") with [91%N]. revert t2. induction t1 as [|x t1 IH]; intros [|y t2] H1 H2 H; cbn in H.
  - reflexivity.
  - injection H as H _. subst y. destruct H2. left. reflexivity.
  - injection H as H _. subst x. destruct H1. left. reflexivity.
  - injection H as H H'. subst y. f_equal. apply (IH t2); auto; intros K; [apply H1|apply H2]; right; exact K.
Qed.
Lemma not_head (P : Prop) (c : char) l1 l2 : In c l1 -> In c l2 -> forallb (fun x => negb (existsb (N.eqb x) l2)) l1 = true -> P.
Proof. intros H1 H2 F. exfalso. rewrite forallb_forall in F. specialize (F c H1). rewrite (proj2 (existsb_exists _ _)) in F; [discriminate F|]. exists c. split; [exact H2|apply N.eqb_refl]. Qed.
Lemma thematic_not n : In n thematic_lines -> (raw_delimiter n -> False) /\ (compound_delimiter n -> False).
Proof.
  intros H. split.
  - intros K. destruct (raw_delimiter_b n) as (b & Eb & Hb). apply Hb in K. subst b. destruct H as [<-|[<-|[<-|[<-|[<-|[]]]]]]; vm_compute in Eb; discriminate Eb.
  - intros K. destruct (compound_delimiter_b n) as (b & Eb & Hb). apply Hb in K. subst b. destruct H as [<-|[<-|[<-|[<-|[<-|[]]]]]]; vm_compute in Eb; discriminate Eb.
Qed.
Lemma repeated_all c n : repeated c n -> Forall (eq c) n.
Proof. intros (k & _ & ->). apply Forall_forall. intros x Hx. symmetry. exact (repeat_spec _ _ _ Hx). Qed.
Lemma heading_not n level title : heading n level title -> (raw_delimiter n -> False) /\ (compound_delimiter n -> False).
Proof.
  intros (c & ws & Hc & L & D & Hn & Fw & _). destruct ws as [|w ws]; [contradiction|]. inversion Fw as [|? ? Fc _]; subst.
  assert (Iw : In w (repeat c (Datatypes.S level) ++ (w :: ws) ++ title)) by (apply in_app_iff; right; left; reflexivity).
  assert (Ic : In c (repeat c (Datatypes.S level) ++ (w :: ws) ++ title)) by (left; reflexivity).
  assert (G : forall d, repeated d (repeat c (Datatypes.S level) ++ (w :: ws) ++ title) -> False).
  { intros d K. apply repeated_all in K. rewrite Forall_forall in K. pose proof (K _ Iw) as K1. pose proof (K _ Ic) as K2. assert (K3 : w = c) by congruence. destruct Hc as [<-|[<-|[]]]; destruct Fc as [Fc|Fc]; rewrite Fc in K3; discriminate K3. }
  split; [intros (d & _ & K); exact (G d K)|intros [K|(d & _ & K)]; [|exact (G d K)]]. destruct level; [lia|]. destruct Hc as [<-|[<-|[]]]; discriminate K.
Qed.
Theorem forms_exclusive n f g : has_form n f -> has_form n g -> f = g.
Proof.
  intros Hf Hg. destruct (form_head _ _ Hf) as (c & y & D & Hc). destruct (form_head _ _ Hg) as (c' & y' & D' & Hc'). rewrite D in D'. injection D' as <- <-.
  destruct f as [cx mo|cx|ty target|level title| |], g as [cx' mo'|cx'|ty' target'|level' title'| |]; try reflexivity;
    try solve [destruct (raw_form_unique _ _ _ _ _ Hf Hg) as (-> & ->); reflexivity]; try solve [rewrite (compound_form_unique _ _ _ Hf Hg); reflexivity];
    try apply raw_form_delim in Hf; try apply raw_form_delim in Hg; try apply compound_form_delim in Hf; try apply compound_form_delim in Hg;
    try solve [eapply not_head; [exact Hc|exact Hc'|reflexivity]];
    try solve [destruct ty; (eapply not_head; [exact Hc|exact Hc'|reflexivity])]; try solve [destruct ty'; (eapply not_head; [exact Hc|exact Hc'|reflexivity])]; try cbn [has_form] in Hf; try cbn [has_form] in Hg.
  all: try solve [exfalso; exact (raw_not_compound _ Hf Hg)]; try solve [exfalso; exact (raw_not_compound _ Hg Hf)].
  all: try solve [exfalso; apply heading_not in Hf; tauto]; try solve [exfalso; apply heading_not in Hg; tauto]; try solve [exfalso; apply thematic_not in Hf; tauto]; try solve [exfalso; apply thematic_not in Hg; tauto].
  - destruct Hf as (_ & Ht & name & attrs & Hn & Dn), Hg as (_ & Ht' & name' & attrs' & Hn' & Dn'). rewrite Dn in Dn'. destruct Hn as [K|[K|[]]], Hn' as [K'|[K'|[]]]; injection K as <- <-; injection K' as <- <-; try discriminate Dn';
      apply app_inv_head in Dn'; apply app_inv_head in Dn'; rewrite (target_unique _ _ _ _ Ht Ht' Dn'); reflexivity.
  - destruct (heading_unique _ _ _ _ _ Hf Hg) as (-> & ->). reflexivity.
Qed.

(** * The parsers of each form *)
Definition form_name (ty : media_type) : text := media_name ty.
Lemma media_some E m P l r n mi w : a_line (sp_data (md_start m)) l r n -> starts_with (lit "image::") n || starts_with (lit "video::") n || starts_with (lit "video::") n = true -> media_parse E m P = Ok (Some mi, w) ->
  exists ty t a src cm, mi_item mi = BMedia ty t a src cm /\ has_form n (FMedia ty (sp_data t)).
Proof.
  intros Hl Hst H. unfold media_parse in H. rewrite (take_norm_eq _ _ _ _ Hl) in H. cbn [bind mi_item mi_after sp_data with_data] in H. destruct (ends_with (lit "]") n) eqn:Ee; cbn [negb] in H; [|discriminate H].
  apply orb_true_iff in Hst. assert (Hst' : starts_with (lit "image::") n = true \/ starts_with (lit "video::") n = true) by (destruct Hst as [Hst|Hst]; [apply orb_true_iff in Hst; exact Hst|auto]). clear Hst.
  assert (Hn : exists ty y, In (ty, media_name ty) [(MImage, lit "image"); (MVideo, lit "video")] /\ n = media_name ty ++ lit "::" ++ y).
  { destruct Hst' as [K|K]; apply starts_with_spec in K; destruct K as (y & ->); [exists MImage|exists MVideo]; exists y; (split; [cbn; auto|reflexivity]). }
  clear Hst'. destruct Hn as (ty & y & Hty & ->).
  assert (Ei : take_ident (with_data (md_start m) (media_name ty ++ lit "::" ++ y)) = Ok (Some (mkmi (with_data (md_start m) (media_name ty)) (skip (md_start m) (media_name ty) (lit "::" ++ y))))).
  { unfold take_ident. rewrite take_name_ok. destruct ty; reflexivity. }
  rewrite Ei in H. cbn [bind mi_item mi_after sp_data with_data] in H. assert (Em : media_type_of (media_name ty) = Some ty) by (destruct ty; reflexivity). rewrite Em in H.
  rewrite take_prefix_ok in H. unfold p_take_prefix in H. rewrite sp_data_skip in H. rewrite (proj2 (starts_with_spec (lit "::") _)) in H by eauto.
  change (skipn (length (lit "::")) (lit "::" ++ y)) with y in H. cbn [bind mi_after psplit] in H. rewrite skip_skip, take_while_ok in H. unfold p_take_while in H. rewrite sp_data_skip in H.
  pose proof (span_while_app (fun c => negb (c =? 91)%N) y) as Da. pose proof (span_while_all (fun c => negb (c =? 91)%N) y) as Fa. pose proof (span_while_stop (fun c => negb (c =? 91)%N) y) as Fb.
  destruct (span_while (fun c => negb (c =? 91)%N) y) as [tg b] eqn:Es. cbn [fst snd] in Da, Fa, Fb. cbn [bind mi_item mi_after psplit sp_data with_data] in H. destruct (is_nil tg) eqn:En; [discriminate H|].
  rewrite take_prefix_ok in H. unfold p_take_prefix in H. rewrite with_data_skip, skip_skip, sp_data_skip in H. destruct (starts_with (lit "[") b) eqn:Eb; cbn [bind] in H; [|discriminate H].
  apply bind_ok in H. destruct H as (e & _ & H). apply bind_ok in H. destruct H as (al & _ & H). apply bind_ok in H. destruct H as (a & _ & H). apply bind_ok in H. destruct H as (src & _ & H). apply bind_ok in H. destruct H as (af & _ & H).
  apply Ok_inj in H. injection H as <- _. cbn [mi_item]. do 5 eexists. split; [reflexivity|]. rewrite sp_data_skip. cbn [has_form]. split; [destruct tg; [discriminate En|discriminate]|]. split.
  - intros K. rewrite Forall_forall in Fa. specialize (Fa _ K). cbn in Fa. discriminate Fa.
  - apply starts_with_spec in Eb. destruct Eb as (q & ->). subst y. exists (media_name ty). apply ends_with_spec in Ee. destruct Ee as (z & Ez).
    destruct q as [|q0 q] using rev_ind.
    { exfalso. rewrite app_nil_r, !app_assoc in Ez. apply app_inj_tail in Ez. destruct Ez as (_ & Ez). discriminate Ez. }
    clear IHq. rewrite !app_assoc in Ez. apply app_inj_tail in Ez. destruct Ez as (_ & ->). exists q. split; [exact Hty|]. reflexivity.
Qed.
Lemma media_none E m P l r n w : a_line (sp_data (md_start m)) l r n -> media_parse E m P = Ok (None, w) -> forall ty target, ~ has_form n (FMedia ty target).
Proof.
  intros Hl H ty target (Ht & Hb & name & attrs & Hn & ->). assert (name = media_name ty) as -> by (destruct Hn as [K|[K|[]]]; injection K as <- <-; reflexivity).
  unfold media_parse in H. rewrite (take_norm_eq _ _ _ _ Hl) in H. cbn [bind mi_item mi_after sp_data with_data] in H. set (line := media_name ty ++ lit "::" ++ target ++ lit "[" ++ attrs ++ lit "]") in *.
  assert (Ee : ends_with (lit "]") line = true) by (apply ends_with_spec; exists (media_name ty ++ lit "::" ++ target ++ lit "[" ++ attrs); unfold line; rewrite <- !app_assoc; reflexivity).
  rewrite Ee in H. cbn [negb] in H.
  assert (Ei : take_ident (with_data (md_start m) line) = Ok (Some (mkmi (with_data (md_start m) (media_name ty)) (skip (md_start m) (media_name ty) (lit "::" ++ target ++ lit "[" ++ attrs ++ lit "]"))))).
  { unfold take_ident. rewrite take_name_ok. unfold line. destruct ty; reflexivity. }
  rewrite Ei in H. cbn [bind mi_item mi_after sp_data with_data] in H. assert (Em : media_type_of (media_name ty) = Some ty) by (destruct ty; reflexivity). rewrite Em in H.
  rewrite take_prefix_ok in H. unfold p_take_prefix in H. rewrite sp_data_skip in H. rewrite (proj2 (starts_with_spec (lit "::") _)) in H by eauto.
  change (skipn (length (lit "::")) (lit "::" ++ target ++ lit "[" ++ attrs ++ lit "]")) with (target ++ lit "[" ++ attrs ++ lit "]") in H.
  cbn [bind mi_after psplit] in H. rewrite skip_skip, take_while_ok in H. unfold p_take_while in H. rewrite sp_data_skip in H.
  change (lit "[" ++ attrs ++ lit "]") with (91%N :: attrs ++ lit "]") in H. rewrite (span_until _ _ _ Hb) in H. cbn [bind mi_item mi_after psplit sp_data with_data] in H.
  rewrite with_data_skip, skip_skip in H. assert (En : is_nil target = false) by (destruct target; [contradiction|reflexivity]). rewrite En in H.
  rewrite take_prefix_ok in H. unfold p_take_prefix in H. rewrite sp_data_skip in H. change (lit "[") with [91%N] in H. cbn [starts_with N.eqb Pos.eqb andb bind length skipn mi_after psplit] in H.
  apply bind_ok in H. destruct H as (e & _ & H). apply bind_ok in H. destruct H as (al & _ & H). apply bind_ok in H. destruct H as (a & _ & H). apply bind_ok in H. destruct H as (src & _ & H). apply bind_ok in H. destruct H as (af & _ & H).
  apply Ok_inj in H. discriminate H.
Qed.
Lemma break_some m l r n mi : a_line (sp_data (md_start m)) l r n -> break_parse m = Ok (Some mi) -> exists f, block_form (mi_item mi) = Some f /\ has_form n f.
Proof.
  intros Hl H. unfold break_parse in H. rewrite (take_norm_eq _ _ _ _ Hl) in H. cbn [bind mi_item mi_after sp_data with_data] in H. unfold break_type_of in H.
  match type of H with context [if ?b then Some BThematic else _] => destruct b eqn:Eb end.
  - apply bind_ok in H. destruct H as (src & _ & H). apply bind_ok in H. destruct H as (af & _ & H). apply Ok_inj in H. injection H as <-. exists FThematic. split; [reflexivity|]. apply existsb_exists in Eb. destruct Eb as (x & Hx & K). apply text_eqb_eq in K. subst x. exact Hx.
  - destruct (text_eqb n (lit "<<<")) eqn:Ep; [|discriminate H]. apply bind_ok in H. destruct H as (src & _ & H). apply bind_ok in H. destruct H as (af & _ & H). apply Ok_inj in H. injection H as <-. exists FPage. split; [reflexivity|]. apply text_eqb_eq in Ep. exact Ep.
Qed.
Lemma break_none m l r n : a_line (sp_data (md_start m)) l r n -> break_parse m = Ok None -> ~ has_form n FThematic /\ ~ has_form n FPage.
Proof.
  intros Hl H. unfold break_parse in H. rewrite (take_norm_eq _ _ _ _ Hl) in H. cbn [bind mi_item mi_after sp_data with_data] in H. unfold break_type_of in H.
  match type of H with context [if ?b then Some BThematic else _] => destruct b eqn:Eb end.
  - apply bind_ok in H. destruct H as (src & _ & H). apply bind_ok in H. destruct H as (af & _ & H). discriminate H.
  - destruct (text_eqb n (lit "<<<")) eqn:Ep; [apply bind_ok in H; destruct H as (src & _ & H); apply bind_ok in H; destruct H as (af & _ & H); discriminate H|]. split.
    + intros K. assert (X : existsb (text_eqb n) [lit "'''"; lit "---"; lit "- - -"; lit "***"; lit "* * *"] = true) by (apply existsb_exists; exists n; split; [exact K|apply text_eqb_refl]). rewrite X in Eb. discriminate Eb.
    + intros ->. discriminate Ep.
Qed.
Lemma section_some E un m P l r n mi w P1 : a_line (sp_data (md_start m)) l r n -> starts_with_any (lit "=#") n = true -> section_parse E un m P = Ok (Some mi, (w, P1)) -> exists f, block_form (mi_item mi) = Some f /\ has_form n f.
Proof.
  intros Hl Hs H. destruct (section_inv _ _ _ _ _ _ _ H) as [(dd & level & title & rest & lw & bs & b & src & t & base & mn & reg & s2 & _ & Et & _ & _ & _ & _ & _ & _ & _ & _ & -> & _)].
  destruct n as [|c y]; [discriminate Hs|]. assert (Hc : ~ sp_tab c). { cbn in Hs. intros [->| ->]; discriminate Hs. }
  rewrite (discard_none _ _ _ _ c Hl) in Et by (cbn; auto). destruct (title_line_some _ _ _ Et) as (l' & r' & n' & ti & Hl' & Hh & _ & E1 & _). destruct (a_line_unique _ _ _ _ _ _ _ Hl Hl') as (_ & _ & <-). cbn [mi_item fst snd] in *.
  cbn [mi_item block_form ct_original]. exists (FHeading level (sp_data title)). split; [reflexivity|]. rewrite E1. exact Hh.
Qed.
Lemma section_no E un m P l r n w P1 : a_line (sp_data (md_start m)) l r n -> section_parse E un m P = Ok (None, (w, P1)) -> forall level title, ~ has_form n (FHeading level title).
Proof.
  intros Hl H level title Hh. cbn [has_form] in Hh. unfold section_parse in H. apply bind_ok in H. destruct H as (dd & _ & H). rewrite discard_empty_lines_ok in H. cbn [bind] in H.
  destruct (form_head n (FHeading level title) Hh) as (c & y & -> & Hc). assert (Hsp : ~ sp_tab c) by (destruct Hc as [<-|[<-|[]]]; intros [K|K]; discriminate K).
  rewrite (discard_none _ _ _ _ c Hl) in H by (cbn; auto). destruct (title_line_heading _ _ _ _ _ _ Hl Hh) as (t & Et & _). rewrite Et in H. cbn [bind fst snd] in H.
  apply bind_ok in H. destruct H as (bs & _ & H). apply bind_ok in H. destruct H as (b & _ & H). apply bind_ok in H. destruct H as (s1 & _ & H). apply bind_ok in H. destruct H as (t2 & _ & H). apply bind_ok in H. destruct H as (ba & _ & H).
  apply bind_ok in H. destruct H as (mn & _ & H). apply bind_ok in H. destruct H as (rg & _ & H). apply bind_ok in H. destruct H as (s2 & _ & H). apply Ok_inj in H. discriminate H.
Qed.
Lemma raw_some_kind E m P l r n mi w : a_line (sp_data (md_start m)) l r n -> raw_parse E m P = Ok (Some (mi, w)) -> exists c src g, mi_item mi = BRaw c (fst (kind_of n)) (fst (snd (kind_of n))) src (common_of m) g.
Proof.
  intros Hl H. unfold raw_parse in H. rewrite (take_norm_eq _ _ _ _ Hl) in H. cbn [bind mi_item mi_after sp_data with_data] in H. destruct (blen n <? 4); [discriminate H|].
  destruct (raw_kind n) as [[mo [cx g]]|] eqn:Ek; [|discriminate H]. destruct (raw_delimiter_b n) as (b & Eb & Hb). rewrite Eb in H. cbn [bind] in H. destruct b; [|discriminate H]. cbn [negb] in H. rewrite (raw_kind_delim n (proj1 Hb eq_refl)) in Ek. injection Ek as E1. rewrite E1. cbn [fst snd].
  apply bind_ok in H. destruct H as (rr & _ & H). apply bind_ok in H. destruct H as (c0 & _ & H). apply bind_ok in H. destruct H as (c & _ & H). destruct (snd rr) as [line|].
  - apply bind_ok in H. destruct H as (g' & _ & H). apply bind_ok in H. destruct H as (t & _ & H). apply bind_ok in H. destruct H as (s1 & _ & H). apply bind_ok in H. destruct H as (s2 & _ & H). apply Ok_inj in H. injection H as <- _. cbn [mi_item]. eauto 10.
  - apply bind_ok in H. destruct H as (s1 & _ & H). apply bind_ok in H. destruct H as (s2 & _ & H). apply Ok_inj in H. injection H as <- _. cbn [mi_item]. eauto 10.
Qed.
Lemma compound_some_kind un m P l r n mi w P1 : a_line (sp_data (md_start m)) l r n -> compound_parse un m P = Ok (Some (mi, (w, P1))) -> exists bs src, mi_item mi = BCompound bs (context_of n) src (common_of m).
Proof.
  intros Hl H. unfold compound_parse in H. rewrite (take_norm_eq _ _ _ _ Hl) in H. cbn [bind mi_item mi_after sp_data with_data] in H. destruct (compound_context n) as [cx|] eqn:Ek; [|discriminate H].
  destruct (compound_delimiter_b n) as (b & Eb & Hb). rewrite Eb in H. cbn [bind] in H. destruct b; [|discriminate H]. cbn [negb] in H. rewrite (compound_context_delim n (proj1 Hb eq_refl)) in Ek. injection Ek as <-.
  apply bind_ok in H. destruct H as (rr & _ & H). apply bind_ok in H. destruct H as (ins & _ & H). apply bind_ok in H. destruct H as (b & _ & H). apply bind_ok in H. destruct H as (ca & _ & H). apply bind_ok in H. destruct H as (s1 & _ & H).
  apply bind_ok in H. destruct H as (s2 & _ & H). apply Ok_inj in H. injection H as <- _ _. cbn [mi_item]. eauto.
Qed.
Lemma raw_some_form E m P l r n mi w : a_line (sp_data (md_start m)) l r n -> raw_parse E m P = Ok (Some (mi, w)) -> raw_delimiter n.
Proof. intros Hl H. destruct (raw_delimiter_b n) as (b & Eb & Hb). destruct b; [apply Hb; reflexivity|]. rewrite (raw_parse_none E m P l r n Hl) in H; [discriminate H|]. intros K. apply Hb in K. discriminate K. Qed.
Lemma compound_some_form un m P l r n z : a_line (sp_data (md_start m)) l r n -> compound_parse un m P = Ok (Some z) -> compound_delimiter n.
Proof. intros Hl H. destruct (compound_delimiter_b n) as (b & Eb & Hb). destruct b; [apply Hb; reflexivity|]. rewrite (compound_parse_none un m P l r n Hl) in H; [discriminate H|]. intros K. apply Hb in K. discriminate K. Qed.
Lemma raw_none_form E m P l r n : a_line (sp_data (md_start m)) l r n -> raw_parse E m P = Ok None -> ~ raw_delimiter n.
Proof.
  intros Hl H Hd. unfold raw_parse in H. rewrite (take_norm_eq _ _ _ _ Hl) in H. cbn [bind mi_item mi_after sp_data with_data] in H.
  assert (L : blen n <? 4 = false) by (apply Nat.ltb_ge; destruct Hd as (c & _ & K); exact (repeated_long _ _ K)). rewrite L in H. rewrite (raw_kind_delim n Hd) in H. destruct (kind_of n) as [mo [cx g]].
  destruct (raw_delimiter_b n) as (b & Eb & Hb). assert (b = true) as -> by (apply Hb; exact Hd). rewrite Eb in H. cbn [bind negb] in H.
  apply bind_ok in H. destruct H as (q & _ & H). apply bind_ok in H. destruct H as (c0 & _ & H). apply bind_ok in H. destruct H as (c & _ & H). destruct (snd q) as [line|].
  - apply bind_ok in H. destruct H as (g' & _ & H). apply bind_ok in H. destruct H as (t & _ & H). apply bind_ok in H. destruct H as (s1 & _ & H). apply bind_ok in H. destruct H as (s2 & _ & H). discriminate H.
  - apply bind_ok in H. destruct H as (s1 & _ & H). apply bind_ok in H. destruct H as (s2 & _ & H). discriminate H.
Qed.
Lemma compound_none_form un m P l r n : a_line (sp_data (md_start m)) l r n -> compound_parse un m P = Ok None -> ~ compound_delimiter n.
Proof.
  intros Hl H Hd. unfold compound_parse in H. rewrite (take_norm_eq _ _ _ _ Hl) in H. cbn [bind mi_item mi_after sp_data with_data] in H. rewrite (compound_context_delim n Hd) in H.
  destruct (compound_delimiter_b n) as (b & Eb & Hb). assert (b = true) as -> by (apply Hb; exact Hd). rewrite Eb in H. cbn [bind negb] in H.
  apply bind_ok in H. destruct H as (q & _ & H). apply bind_ok in H. destruct H as (ins & _ & H). apply bind_ok in H. destruct H as (b & _ & H). apply bind_ok in H. destruct H as (ca & _ & H). apply bind_ok in H. destruct H as (s1 & _ & H).
  apply bind_ok in H. destruct H as (s2 & _ & H). discriminate H.
Qed.

(** * Paragraphs *)
Lemma style_eq o x : style_is o x = true <-> o = Some x.
Proof. destruct o as [y|]; cbn; [|split; discriminate]. split; [intros H; apply text_eqb_eq in H; subst; reflexivity|intros H; injection H as ->; apply text_eqb_refl]. Qed.
Lemma simple_style_spec k bs : para_style bs k (simple_style_of (negb (k =? 0)) bs).
Proof.
  unfold simple_style_of. destruct (style_is bs (lit "normal")) eqn:E1; [apply ps_normal, style_eq, E1|]. destruct (style_is bs (lit "literal")) eqn:E2; [apply ps_literal, style_eq, E2|].
  destruct (style_is bs (lit "listing")) eqn:E3; [apply ps_listing, style_eq, E3|]. destruct (style_is bs (lit "source")) eqn:E4; [apply ps_source, style_eq, E4|].
  assert (N : forall x, bs = Some x -> ~ In x [lit "normal"; lit "literal"; lit "listing"; lit "source"]).
  { intros x -> K. destruct K as [<-|[<-|[<-|[<-|[]]]]]; discriminate. }
  destruct (Nat.eqb_spec k 0) as [Hk|Hk]; cbn [negb]; [apply ps_plain; assumption|apply ps_indented; assumption].
Qed.
Lemma parse_lines_style E s a P x : parse_lines E s a P = Ok (Some x) -> exists k bs, indented (sp_data s) k /\ style_of a = Ok bs /\ para_style bs k (snd (mi_item x)).
Proof.
  intros H. destruct (indented_total (sp_data s)) as (k & Hk). unfold parse_lines in H. destruct (discard_ws_col s k Hk) as (saw & Es & Ec). rewrite Es in H. cbn [bind] in H. rewrite Ec in H.
  apply bind_ok in H. destruct H as (si & _ & H). apply bind_ok in H. destruct H as (bs & Eb & H). apply bind_ok in H. destruct H as (q & _ & H). apply bind_ok in H. destruct H as (s1 & _ & H). apply bind_ok in H. destruct H as (s2 & _ & H).
  destruct (is_nil _); [discriminate H|]. apply bind_ok in H. destruct H as (g & _ & H). apply bind_ok in H. destruct H as (t & _ & H). apply bind_ok in H. destruct H as (af & _ & H). apply Ok_inj in H. injection H as <-. cbn [mi_item snd].
  exists k, bs. split; [exact Hk|]. split; [exact Eb|]. replace (sp_col s + k =? sp_col s) with (k =? 0) by (destruct (Nat.eqb_spec k 0), (Nat.eqb_spec (sp_col s + k) (sp_col s)); (reflexivity || lia)). apply simple_style_spec.
Qed.
Lemma trim_end_nil_blank u : trim_end u = [] -> blank u.
Proof. intros H. destruct (trim_end_spec u) as (z & Ez & Hz). rewrite H in Ez. cbn in Ez. rewrite Ez. exact (proj1 Hz). Qed.
Lemma parse_lines_nothing E s a P l r n : a_line (sp_data s) l r n -> parse_lines E s a P = Ok None -> blank n.
Proof.
  intros Hl H. unfold parse_lines in H. apply bind_ok in H. destruct H as (saw & _ & H). apply bind_ok in H. destruct H as (si & _ & H). apply bind_ok in H. destruct H as (bs & _ & H).
  destruct (simple_lines_spec si (length (sp_data s)) s [] (le_n _)) as (ls & pre & rest & Hp & D & E1). rewrite E1 in H. cbn [bind fst snd] in H. rewrite (trim_to s pre rest) in H by (rewrite ?sp_off_skip; auto). cbn [bind] in H.
  rewrite trim_trailing_whitespace_ok in H. cbn [bind] in H. unfold p_trim_trailing_whitespace in H. cbn [sp_data with_data] in H. destruct (trim_end pre) as [|x y] eqn:Et; cbn [is_nil] in H.
  2:{ apply bind_ok in H. destruct H as (g & _ & H). apply bind_ok in H. destruct H as (t & _ & H). apply bind_ok in H. destruct H as (af & _ & H). discriminate H. }
  apply trim_end_nil_blank in Et. cbn [started] in Hp. clear H E1. assert (G : pre = [] \/ exists p2, pre = l ++ p2).
  { inversion Hp as [b t0 K|t0 l' r' n' Hl' K|b t0 l' r' n' ls' rest' Hl' Hc Hp'|b t0 l' r' n' y ls' rest' Ht Hl' Hn Hc Hb Hu Hp']; subst.
    - left. apply (f_equal (@length N)) in D. rewrite app_length in D. destruct pre; [reflexivity|cbn in D; lia].
    - right. destruct (a_line_unique _ _ _ _ _ _ _ Hl Hl') as (<- & <- & <-). destruct (paragraph_app _ _ _ _ _ Hp') as (p2 & D2). exists p2. rewrite (a_line_app _ _ _ _ Hl), D2, app_assoc in D. apply app_inv_tail in D. auto.
    - right. destruct (a_line_unique _ _ _ _ _ _ _ Hl Hl') as (<- & <- & <-). destruct (paragraph_app _ _ _ _ _ Hp') as (p2 & D2). exists p2. rewrite (a_line_app _ _ _ _ Hl), D2, app_assoc in D. apply app_inv_tail in D. auto. }
  destruct (a_line_prefix _ _ _ _ Hl) as (w & Ew). destruct G as [->|(p2 & ->)].
  - cbn in D. subst rest. inversion Hp as [b t0 K|t0 l' r' n' Hl' K|b t0 l' r' n' ls' rest' Hl' Hc Hp'|b t0 l' r' n' y ls' rest' Ht Hl' Hn Hc Hb Hu Hp']; subst.
    + destruct K as [K|(l' & r' & K)]; [rewrite K in Hl; apply a_line_nil in Hl; subst n; constructor|]. destruct (a_line_unique _ _ _ _ _ _ _ Hl K) as (_ & _ & ->). constructor.
    + exfalso. destruct (paragraph_app _ _ _ _ _ Hp') as (p2 & D2). pose proof (a_line_app _ _ _ _ Hl') as D3. rewrite D2 in D3. apply (f_equal (@length N)) in D3. rewrite !app_length in D3. assert (l' = []) by (destruct l'; [reflexivity|cbn in D3; lia]). subst l'.
      destruct (a_line_prefix _ _ _ _ Hl') as (w' & Ew'). destruct n'; [|discriminate Ew']. apply comment_b in Hc. discriminate Hc.
    + exfalso. destruct (paragraph_app _ _ _ _ _ Hp') as (p2 & D2). pose proof (a_line_app _ _ _ _ Hl') as D3. rewrite D2 in D3. apply (f_equal (@length N)) in D3. rewrite !app_length in D3. assert (l' = []) by (destruct l'; [reflexivity|cbn in D3; lia]). subst l'.
      destruct (a_line_prefix _ _ _ _ Hl') as (w' & Ew'). destruct n'; [contradiction|discriminate Ew'].
  - rewrite Ew in Et. unfold blank in Et. rewrite !Forall_app in Et. unfold blank. tauto.
Qed.
Lemma simple_md_style E m P mi : simple_parse E m P = Ok (Some mi) -> exists c src st k bs, mi_item mi = BSimple c src st (common_of m) /\ indented (sp_data (md_start m)) k /\ style_of (md_attrlist m) = Ok bs /\ para_style bs k st.
Proof.
  unfold simple_parse. intros H. apply bind_ok in H. destruct H as (o & Eo & H). destruct o as [x|]; [|discriminate H]. apply bind_ok in H. destruct H as (s1 & _ & H). apply bind_ok in H. destruct H as (s2 & _ & H). apply bind_ok in H. destruct H as (af & _ & H).
  apply Ok_inj in H. injection H as <-. cbn [mi_item]. destruct (parse_lines_style _ _ _ _ _ Eo) as (k & bs & A & B & C). eauto 12.
Qed.
Lemma simple_fast_style E s P mi : simple_parse_fast E s P = Ok (Some mi) -> exists c src st k, mi_item mi = BSimple c src st no_common /\ indented (sp_data s) k /\ para_style None k st.
Proof.
  unfold simple_parse_fast. intros H. apply bind_ok in H. destruct H as (o & Eo & H). destruct o as [x|]; [|discriminate H]. apply bind_ok in H. destruct H as (af & _ & H).
  apply Ok_inj in H. injection H as <-. cbn [mi_item]. destruct (parse_lines_style _ _ _ _ _ Eo) as (k & bs & A & B & C). injection B as <-. eauto 12.
Qed.
Lemma simple_md_none E m P l r n : a_line (sp_data (md_start m)) l r n -> simple_parse E m P = Ok None -> blank n.
Proof.
  intros Hl H. unfold simple_parse in H. apply bind_ok in H. destruct H as (o & Eo & H). destruct o as [x|]; [|exact (parse_lines_nothing _ _ _ _ _ _ _ Hl Eo)].
  apply bind_ok in H. destruct H as (s1 & _ & H). apply bind_ok in H. destruct H as (s2 & _ & H). apply bind_ok in H. destruct H as (af & _ & H). discriminate H.
Qed.

(** * All blocks *)
Definition orphan (m : metadata) (n : text) (b : block) (ws : list warning) : Prop :=
  blank n /\ (md_title m <> None \/ md_attrlist m <> None) /\ In (mkwarn (md_source m) WMissingBlockAfterTitleOrAttributeList) ws /\
  exists c src st k, b = BSimple c src st (mkcm None None None (md_reftext m) None) /\ indented (sp_data (md_source m)) k /\ para_style None k st.
Lemma last_resort_fits E m ws P r mi n style : style_of (md_attrlist m) = Ok style -> (style = Some (lit "literal") \/ forall f, ~ has_form n f) -> last_resort E m ws P = Ok r -> pr_item r = Some mi ->
  kind_fits style (sp_data (md_start m)) n (mi_item mi).
Proof.
  intros Es Hf H Hi. unfold last_resort in H. apply bind_ok in H. destruct H as (o & Eo & H). destruct o as [x|]; [|apply Ok_inj in H; subst r; discriminate Hi].
  destruct (finish_inv _ _ _ _ H) as (id & _ & ->). cbn [pr_item] in Hi. injection Hi as ->. destruct (simple_md_style _ _ _ _ Eo) as (c & src & st & k & bs & E1 & Hk & Eb & Hp). rewrite Es in Eb. injection Eb as <-.
  unfold kind_fits. rewrite E1. cbn [block_form]. split; [|exact Hf]. do 5 eexists. split; [reflexivity|]. split; [exact Hk|exact Hp].
Qed.
Lemma last_resort_orphan E m ws P r mi : last_resort E (orphan_metadata m) ws P = Ok r -> pr_item r = Some mi ->
  (forall w, In w ws -> In w (pr_warnings r)) /\ exists c src st k, mi_item mi = BSimple c src st (mkcm None None None (md_reftext m) None) /\ indented (sp_data (md_source m)) k /\ para_style None k st.
Proof.
  intros H Hi. unfold last_resort in H. apply bind_ok in H. destruct H as (o & Eo & H). destruct o as [x|]; [|apply Ok_inj in H; subst r; discriminate Hi].
  destruct (finish_inv _ _ _ _ H) as (id & _ & ->). cbn [pr_item pr_warnings] in *. injection Hi as ->. split; [intros w Hw; apply in_app_iff; auto|]. destruct (simple_md_style _ _ _ _ Eo) as (c & src & st & k & bs & E1 & Hk & Eb & Hp). injection Eb as <-. eauto 10.
Qed.
Lemma not_any n c cs : starts_with_any cs n = false -> (exists y, n = c :: y) -> ~ In c cs.
Proof. intros H (y & ->) K. cbn in H. unfold has_char in H. rewrite (proj2 (existsb_exists _ _)) in H; [discriminate H|]. exists c. split; [exact K|apply N.eqb_refl]. Qed.
Lemma section_kind E un m ws P r mi l r' n style : a_line (sp_data (md_start m)) l r' n -> style_of (md_attrlist m) = Ok style -> style <> Some (lit "literal") ->
  ~ raw_delimiter n -> ~ compound_delimiter n -> (forall ty target, ~ has_form n (FMedia ty target)) -> try_section E un m n ws P = Ok r -> pr_item r = Some mi ->
  kind_fits style (sp_data (md_start m)) n (mi_item mi) \/ orphan m n (mi_item mi) (pr_warnings r).
Proof.
  intros Hl Es Nl N1 N2 N3 H Hi.
  assert (Fit : forall f, block_form (mi_item mi) = Some f -> has_form n f -> kind_fits style (sp_data (md_start m)) n (mi_item mi)) by (intros f E1 Hf; unfold kind_fits; rewrite E1; auto).
  unfold try_section in H. apply bind_ok in H. destruct H as ([o [w P1]] & Eo & H). cbn [fst snd] in H.
  assert (X : (exists x, o = Some x /\ exists f, block_form (mi_item x) = Some f /\ has_form n f) \/ (o = None /\ forall level title, ~ has_form n (FHeading level title))).
  { match type of Eo with (if ?b then _ else _) = _ => destruct b eqn:Eb end.
    - destruct o as [x|]; [left; exists x; split; [reflexivity|exact (section_some _ _ _ _ _ _ _ _ _ _ Hl Eb Eo)]|right; split; [reflexivity|exact (section_no _ _ _ _ _ _ _ _ _ Hl Eo)]].
    - injection Eo as <- _ _. right. split; [reflexivity|]. intros level title Hf. destruct (form_head _ _ Hf) as (c & y & Ec & Hc). exact (not_any _ c _ Eb (ex_intro _ y Ec) Hc). }
  destruct X as [(x & -> & f & E1 & Hf)|(-> & N4)]; [apply Ok_inj in H; subst r; cbn [pr_item] in Hi; injection Hi as ->; left; exact (Fit f E1 Hf)|]. clear Eo.
  unfold try_break in H. apply bind_ok in H. destruct H as (o & Eo & H).
  assert (X : (exists x, o = Some x /\ exists f, block_form (mi_item x) = Some f /\ has_form n f) \/ (o = None /\ ~ has_form n FThematic /\ ~ has_form n FPage)).
  { match type of Eo with (if ?b then _ else _) = _ => destruct b eqn:Eb end.
    - destruct o as [x|]; [left; exists x; split; [reflexivity|exact (break_some _ _ _ _ _ Hl Eo)]|right; split; [reflexivity|exact (break_none _ _ _ _ Hl Eo)]].
    - injection Eo as <-. right. split; [reflexivity|]. split; intros Hf; destruct (form_head _ _ Hf) as (c & y & Ec & Hc); apply (not_any _ c _ Eb (ex_intro _ y Ec)); cbn in *; tauto. }
  destruct X as [(x & -> & f & E1 & Hf)|(-> & N5 & N6)]; [apply Ok_inj in H; subst r; cbn [pr_item] in Hi; injection Hi as ->; left; exact (Fit f E1 Hf)|]. clear Eo.
  assert (N : forall f, ~ has_form n f) by (intros [cx mo|cx|ty target|level title| |]; auto; try (intros Hf; apply N1; exact (raw_form_delim _ _ _ Hf)); try (intros Hf; apply N2; exact (compound_form_delim _ _ Hf)); apply N3 || apply N4).
  unfold no_block in H. apply bind_ok in H. destruct H as (so & Eso & H). destruct (negb (is_some so) && negb (md_is_empty m)) eqn:Eb.
  - apply andb_true_iff in Eb. destruct Eb as (B1 & B2). destruct so; [discriminate B1|]. right. split; [exact (simple_md_none _ _ _ _ _ _ Hl Eso)|]. split.
    { unfold md_is_empty in B2. destruct (md_title m); [left; discriminate|]. destruct (md_attrlist m); [right; discriminate|discriminate B2]. }
    destruct (last_resort_orphan _ _ _ _ _ _ H Hi) as (Hw & Ho). split; [apply Hw; apply in_app_iff; right; left; reflexivity|exact Ho].
  - left. exact (last_resort_fits E m _ _ r mi n style Es (or_intror N) H Hi).
Qed.
Lemma md_kind E un m ws P r mi l r' n : a_line (sp_data (md_start m)) l r' n -> with_metadata E un m ws P = Ok r -> pr_item r = Some mi ->
  exists style, style_of (md_attrlist m) = Ok style /\ (kind_fits style (sp_data (md_start m)) n (mi_item mi) \/ orphan m n (mi_item mi) (pr_warnings r)).
Proof.
  intros Hl H Hi. unfold with_metadata in H. apply bind_ok in H. destruct H as (style & Es & H). exists style. split; [exact Es|].
  destruct (style_is style (lit "literal")) eqn:El.
  { apply style_eq in El. left. apply (last_resort_fits E m ws P r mi n style Es); auto. }
  assert (Nl : style <> Some (lit "literal")) by (intros K; apply style_eq in K; rewrite K in El; discriminate El). clear El.
  assert (Fit : forall f, block_form (mi_item mi) = Some f -> has_form n f -> kind_fits style (sp_data (md_start m)) n (mi_item mi)) by (intros f E1 Hf; unfold kind_fits; rewrite E1; auto).
  apply bind_ok in H. destruct H as (o & Eo & H). destruct o as [[x w]|].
  { destruct (finish_inv _ _ _ _ H) as (id & _ & ->). cbn [pr_item fst] in Hi. injection Hi as ->. destruct (raw_some_kind _ _ _ _ _ _ _ _ Hl Eo) as (c & src & g & E1). left. eapply Fit; [rewrite E1; reflexivity|exact (raw_delim_form _ (raw_some_form _ _ _ _ _ _ _ _ Hl Eo))]. }
  pose proof (raw_none_form _ _ _ _ _ _ Hl Eo) as N1. clear Eo.
  apply bind_ok in H. destruct H as (o & Eo & H). destruct o as [[x [w P1]]|].
  { destruct (finish_inv _ _ _ _ H) as (id & _ & ->). cbn [pr_item fst] in Hi. injection Hi as ->. destruct (compound_some_kind _ _ _ _ _ _ _ _ _ Hl Eo) as (bs & src & E1). left. eapply Fit; [rewrite E1; reflexivity|exact (compound_delim_form _ (compound_some_form _ _ _ _ _ _ _ Hl Eo))]. }
  pose proof (compound_none_form _ _ _ _ _ _ Hl Eo) as N2. clear Eo.
  rewrite (take_norm_eq _ _ _ _ Hl) in H. cbn [bind mi_item sp_data with_data] in H. unfold try_media in H. apply bind_ok in H. destruct H as ([o w3] & Eo & H). cbn [fst snd] in H.
  match type of Eo with (if ?b then _ else _) = _ => destruct b eqn:Eb end.
  - destruct o as [x|].
    + destruct (finish_inv _ _ _ _ H) as (id & _ & ->). cbn [pr_item fst] in Hi. injection Hi as ->. destruct (media_some _ _ _ _ _ _ _ _ Hl Eb Eo) as (ty & t & a & src & cm & E1 & Hf). left. apply (Fit (FMedia ty (sp_data t))); [rewrite E1; reflexivity|exact Hf].
    + exact (section_kind E un m ws P r mi l r' n style Hl Es Nl N1 N2 (media_none _ _ _ _ _ _ _ Hl Eo) H Hi).
  - injection Eo as <- <-. refine (section_kind E un m ws P r mi l r' n style Hl Es Nl N1 N2 _ H Hi).
    intros ty target (_ & _ & name & attrs & [K|[K|[]]] & ->); injection K as <- <-; discriminate Eb.
Qed.
Lemma first_line_sp s l r n : a_line (sp_data s) l r n -> exists mi z, take_line s = Ok mi /\ sp_data (mi_item mi) = n ++ z /\ Forall (eq SP) z.
Proof.
  intros (x & e & D & -> & Hx & He & Ht). rewrite <- app_assoc in D. rewrite take_line_ok, (p_take_line_eq s x e r Hx He D). destruct (trimmed_strip _ _ Ht) as (z & Ez & Fz).
  do 2 eexists. split; [reflexivity|]. split; [exact Ez|exact Fz].
Qed.
(** The line at the start of a block with no metadata. *)
Lemma fast_line U s mi : try_fast s mi = true -> (exists l r n z, a_line (sp_data s) l r n /\ sp_data mi = n ++ z) -> exists l r n, a_line (sp_data s) l r n /\ meta_lines U [] (sp_data s) [] (sp_data s) /\ forall f, ~ has_form n f.
Proof.
  intros H (l & r & n & z & Hl & Ez). exists l, r, n. split; [exact Hl|]. unfold try_fast in H. destruct (sp_data s) as [|c t] eqn:D; [discriminate H|]. apply andb_true_iff in H. destruct H as (H1 & H2). apply negb_true_iff in H1, H2. rewrite <- D in *.
  assert (Hd : forall c' y, n = c' :: y -> ~ In c' (lit ".#=/-+*_[:'<")).
  { intros c' y -> K. destruct (a_line_head _ _ _ _ _ Hl) as (w & Ew). rewrite D in Ew. injection Ew as <- _. unfold is_marker, has_char in H1. rewrite (proj2 (existsb_exists _ _)) in H1; [discriminate H1|]. exists c. split; [exact K|apply N.eqb_refl]. }
  split.
  - eapply me_end; [exact Hl|]. intros i Hi. exfalso. destruct i as [x|x y|x].
    + destruct Hi as (Hi & _). apply (Hd _ _ Hi). cbn. auto.
    + apply anchor_brackets in Hi. destruct Hi as (w & Hi). apply (Hd _ _ Hi). cbn. tauto.
    + destruct Hi as (Hi & _). apply (Hd _ _ Hi). cbn. tauto.
  - intros f Hf. destruct (form_head _ _ Hf) as (c' & y & Ec & Hc). apply (Hd _ _ Ec). destruct f as [cx mo|cx|ty target|level title| |]; try solve [cbn in Hc |- *; tauto]. exfalso. destruct Hf as (_ & _ & name & attrs & Hn & Dn).
    rewrite Ez in H2. rewrite (proj2 (contains_spec (lit "::") _)) in H2; [discriminate H2|]. exists name, (target ++ lit "[" ++ attrs ++ lit "]" ++ z). rewrite Dn, <- !app_assoc. reflexivity.
Qed.
(** The declared style: the one of the attribute list among the metadata lines. *)
Definition declared (E : env) (P : parser) (is_ : list item) (style : option text) : Prop :=
  match the_list is_ with
  | None => style = None
  | Some x => exists sp a ws, sp_data sp = x /\ attrlist_parse (e_u E) (norm_of E P) P sp CtxBlock = Ok (a, ws) /\ al_block_style (mi_item a) = Ok style
  end.
Lemma parse_lines_empty E s a P l r o : a_line (sp_data s) l r [] -> parse_lines E s a P = Ok o -> o = None.
Proof.
  intros Hl H. unfold parse_lines in H. apply bind_ok in H. destruct H as (saw & _ & H). apply bind_ok in H. destruct H as (si & _ & H). apply bind_ok in H. destruct H as (bs & _ & H).
  destruct (simple_lines_spec si (length (sp_data s)) s [] (le_n _)) as (ls & pre & rest & Hp & D & E1). rewrite E1 in H. cbn [bind fst snd started] in H, Hp.
  assert (Hq : paragraph si false (sp_data s) [] (sp_data s)) by (constructor; right; eauto). destruct (paragraph_unique _ _ _ _ _ Hq _ _ Hp) as (_ & <-).
  assert (pre = []) as -> by (apply (f_equal (@length N)) in D; rewrite app_length in D; destruct pre; [reflexivity|cbn in D; lia]).
  rewrite (trim_to s [] (sp_data s)) in H by (rewrite ?sp_off_skip; auto). cbn [bind] in H. rewrite trim_trailing_whitespace_ok in H. cbn in H. injection H as <-. reflexivity.
Qed.
Theorem block_kind E un s s0 P r mi : discard_empty_lines s = Ok s0 -> s0 = s \/ (exists l r, a_line (sp_data s) l r []) -> block_parse_with E un s P = Ok r -> pr_item r = Some mi ->
  (exists a y, mi_item mi = BAttribute a /\ s0 = s /\ sp_data s = lit ":" ++ y) \/
  exists is_ rest l r' n style, meta_lines (e_u E) [] (sp_data s0) is_ rest /\ a_line rest l r' n /\ declared E P is_ style /\
    (kind_fits style rest n (mi_item mi) \/
     (blank n /\ (the_title is_ <> None \/ the_list is_ <> None) /\ In (mkwarn s0 WMissingBlockAfterTitleOrAttributeList) (pr_warnings r) /\
      exists c src st cm k, mi_item mi = BSimple c src st cm /\ indented (sp_data s0) k /\ para_style None k st)).
Proof.
  intros Hd He H Hi. unfold block_parse_with in H. destruct (a_line_total (sp_data s)) as (l & r0 & n & Hl). destruct (first_line_sp _ _ _ _ Hl) as (fl & z & Ef & Ez & Fz). rewrite Ef in H. cbn [bind] in H.
  apply bind_ok in H. destruct H as (fast & Efa & H). destruct fast as [x|].
  { destruct (try_fast s (mi_item fl)) eqn:Et; [|discriminate Efa]. destruct (finish_inv _ _ _ _ H) as (id & _ & ->). cbn [pr_item] in Hi. injection Hi as ->. right.
    destruct He as [->|(l2 & r2 & He)].
    2:{ exfalso. unfold simple_parse_fast in Efa. apply bind_ok in Efa. destruct Efa as (o & Eo & Efa). rewrite (parse_lines_empty _ _ _ _ _ _ _ He Eo) in Efa. discriminate Efa. }
    destruct (fast_line (e_u E) s (mi_item fl) Et) as (l1 & r1 & n1 & A & B & C); [eauto 10|]. destruct (simple_fast_style _ _ _ _ Efa) as (c & src & st & k & E1 & Hk & Hp).
    exists [], (sp_data s), l1, r1, n1, None. split; [exact B|]. split; [exact A|]. split; [reflexivity|]. left. unfold kind_fits. rewrite E1. cbn [block_form]. split; [|auto]. do 5 eexists. split; [reflexivity|]. split; [exact Hk|exact Hp]. }
  apply bind_ok in H. destruct H as (en & Ee & H). destruct en as [at_|].
  { left. apply Ok_inj in H. subst r. cbn [pr_item] in Hi. injection Hi as <-. destruct (try_entry (mi_item fl)) eqn:Et; [|discriminate Ee]. cbn [mi_item]. unfold try_entry in Et. apply andb_true_iff in Et. destruct Et as (Et & _). rewrite Ez in Et. apply starts_with_spec in Et. destruct Et as (y & Et).
    destruct n as [|c n'].
    - exfalso. cbn [app] in Et. subst z. inversion Fz as [|? ? K _]. discriminate K.
    - exists (mi_item at_). destruct (a_line_head _ _ _ _ _ Hl) as (w & Ew). injection Et as -> _. exists w. split; [reflexivity|]. split; [|exact Ew]. destruct He as [He|(l2 & r2 & He)]; [exact He|]. destruct (a_line_unique _ _ _ _ _ _ _ Hl He) as (_ & _ & K). discriminate K. }
  apply bind_ok in H. destruct H as ([m ws] & Em & H). cbn [fst snd] in H. right.
  destruct (metadata_lines _ _ _ _ _ Em) as (is_ & ws1 & ws2 & D0 & ML & T1 & _ & _ & AL & TI & _). rewrite Hd in D0. injection D0 as D0. rewrite <- D0 in ML.
  destruct (a_line_total (sp_data (md_start m))) as (l1 & r1 & n1 & Hl1). destruct (md_kind _ _ _ _ _ _ _ _ _ _ Hl1 H Hi) as (style & Es & K).
  exists is_, (sp_data (md_start m)), l1, r1, n1, style. split; [exact ML|]. split; [exact Hl1|]. split.
  { unfold declared. destruct (md_attrlist m) as [a|]; cbn [style_of] in Es.
    - destruct AL as (sp & after & -> & _ & Hp). exists sp. eexists _, ws1. split; [reflexivity|]. split; [exact Hp|exact Es].
    - destruct AL as (-> & _). injection Es as <-. reflexivity. }
  destruct K as [K|(K1 & K2 & K3 & c & src & st & k & K4 & K5 & K6)]; [left; exact K|right]. split; [exact K1|]. split.
  { destruct K2 as [K2|K2]; [left; destruct (the_title is_); [discriminate|contradiction]|right]. destruct (md_attrlist m) as [a|]; [|contradiction]. destruct AL as (sp & after & -> & _). discriminate. }
  rewrite <- D0 in K3, K5. split; [exact K3|]. eauto 10.
Qed.
