(** Documents in which no block is followed directly by blank lines that the parser does not skip are parsed. *)
From Verif Require Import Text TextFacts Maps Span_Model Span_Pure Span_Proof Span_Laws Span_Spec Catalog_Model Catalog_Proof Parser_Model Subs_Model Attrlist_Model Attrlist_Proof
  Attrlist_Laws Attrlist_Prop Render_Proof Render_Model Entry_Spec Entry_Model Entry_Proof Group_Model Group_Proof SecId_Model SecId_Proof Header_Model Header_Spec Header_Proof Block_Model Block_Spec Block_Proof SourceMap_Model Doc_Model Tree_Spec Tree_Proof Total_Spec.

(** * The class *)
Section Class.
Context (A : classes).
Inductive tcase (p : bool) (r n : text) : Prop :=
| tc_blank : n = [] -> tame A false r -> tcase p r n
| tc_text : text_line n -> tame A false r -> c_text A n -> tcase p r n
| tc_paragraph : text_line n -> ~ ends_block n -> tame A true r -> c_text A n -> tcase p r n
| tc_indented c y : p = true -> n = c :: y -> sp_tab c -> (exists x, In x y /\ is_ws x = false) -> tame A true r -> c_text A n -> tcase p r n
| tc_comment : a_comment n -> (forall l' r' n', a_line r l' r' n' -> ~ raw_delimiter n' /\ ~ compound_delimiter n') -> tame A true r -> tcase p r n
| tc_colon : colon_line n -> r = [] \/ solid r -> tame A false r -> c_text A n -> tcase p r n
| tc_meta : title_line n \/ (bracket_line n /\ c_meta A n) -> solid r -> tame A false r -> c_text A n -> tcase p r n
| tc_raw c r' : raw_delimiter n -> enclosed n r c (Some r') -> r' = [] \/ solid r' -> tame A false r' -> c_raw A c -> tcase p r n
| tc_raw_open c : raw_delimiter n -> enclosed n r c None -> tcase p r n
| tc_compound c r' : compound_delimiter n -> enclosed n r c (Some r') -> tame A false c -> r' = [] \/ solid r' -> tame A false r' -> tcase p r n
| tc_compound_open : compound_delimiter n -> enclosed n r r None -> tame A false r -> tcase p r n.
Ltac same_line H H' := let A := fresh in let B := fresh in let C := fresh in destruct (a_line_unique _ _ _ _ _ _ _ H H') as (A & B & C); try subst; clear H'.
Lemma tame_inv p t l r n : tame A p t -> t <> [] -> a_line t l r n -> tcase p r n.
Proof.
  intros T Ht. destruct T; [contradiction|..]; match goal with K : a_line _ _ _ _ |- _ -> _ => let H := fresh in intros H; same_line H K end.
  - apply tc_blank; auto.
  - apply tc_text; auto.
  - apply tc_paragraph; auto.
  - eapply tc_indented; eauto.
  - apply tc_comment; auto.
  - apply tc_colon; auto.
  - apply tc_meta; auto.
  - eapply tc_raw; eauto.
  - eapply tc_raw_open; eauto.
  - eapply tc_compound; eauto.
  - eapply tc_compound_open; eauto.
Qed.
Lemma solid_cons c y : is_ws c = false -> solid (c :: y).
Proof. intros H. exists c, y. auto. Qed.
Lemma raw_solid n : raw_delimiter n -> solid n.
Proof. intros (c & Hc & (k & Hk & ->)). destruct k; [lia|]. apply solid_cons. cbn in Hc. destruct Hc as [<-|[<-|[<-|[<-|[]]]]]; reflexivity. Qed.
Lemma compound_solid n : compound_delimiter n -> solid n.
Proof. intros [->|(c & Hc & (k & Hk & ->))]; [apply solid_cons; reflexivity|]. destruct k; [lia|]. apply solid_cons. cbn in Hc. destruct Hc as [<-|[<-|[<-|[]]]]; reflexivity. Qed.
Lemma tcase_solid p r n : tcase p r n -> n <> [] -> (exists c y, n = c :: y /\ sp_tab c /\ p = true) \/ solid n.
Proof.
  intros [| | |c y| | |[(y & -> & _)|(((y & ->) & _) & _)]| | | | ] Hn; try (right; match goal with K : text_line _ |- _ => apply K end).
  - contradiction.
  - left. exists c, y. auto.
  - right. destruct H as (q & -> & _). apply solid_cons. reflexivity.
  - right. destruct H as ((y & ->) & _). apply solid_cons. reflexivity.
  - right. apply solid_cons. reflexivity.
  - right. apply solid_cons. reflexivity.
  - right. apply raw_solid. assumption.
  - right. apply raw_solid. assumption.
  - right. apply compound_solid. assumption.
  - right. apply compound_solid. assumption.
Qed.
Lemma solid_line t l r n : a_line t l r n -> solid n -> solid t.
Proof. intros H (c & y & -> & Hc). destruct (a_line_head _ _ _ _ _ H) as (z & ->). apply solid_cons. exact Hc. Qed.
Lemma ws_no_end c y sps : is_ws c = false -> c :: y = sps -> ~ Forall sp_tab sps.
Proof. intros Hc <- F. apply Forall_inv in F. apply ws_sp_tab in F. congruence. Qed.
(** A text that begins with something that is not white space begins with a line that does. *)
Lemma solid_first t : solid t -> exists l r c y, a_line t l r (c :: y) /\ is_ws c = false.
Proof.
  intros (c & y & -> & Hc). destruct (a_line_total (c :: y)) as (l & r & n & H). destruct n as [|d z].
  - exfalso. destruct H as (x & e & D & -> & Hx & He & Ht). destruct (trimmed_strip _ _ Ht) as (sps & Es & Fs). cbn [app] in Es.
    destruct x as [|x0 x'].
    + destruct He as [->|[-> ->]]; cbn [app] in D; [injection D as -> _; discriminate Hc|discriminate D].
    + cbn [app] in D. injection D as <- D. destruct (strip_cr_opt (c :: x')) as (cr & Ecr & Hcr). rewrite Es in Ecr.
      destruct sps as [|s1 sps]; [|cbn [app] in Ecr; injection Ecr as <- _; inversion Fs; subst; discriminate Hc].
      cbn [app] in Ecr. destruct Hcr as [->| ->]; [discriminate Ecr|]. injection Ecr as -> _. discriminate Hc.
  - exists l, r, d, z. split; [exact H|]. destruct (a_line_head _ _ _ _ _ H) as (q & Eq). injection Eq as -> _. exact Hc.
Qed.
Lemma tame_false p t : tame A p t -> (forall l r c y, a_line t l r (c :: y) -> ~ sp_tab c) -> tame A false t.
Proof.
  intros T H. destruct T; try solve [econstructor; eassumption].
  exfalso. exact (H _ _ _ _ H0 H1).
Qed.
Lemma boundary_not_indented c y : boundary_line (c :: y) -> ~ sp_tab c.
Proof.
  intros B K. apply ws_sp_tab in K. destruct B as [E|[(x & E)|[R|C]]].
  - injection E as -> _. discriminate K.
  - injection E as -> _. discriminate K.
  - apply raw_solid in R. destruct R as (d & z & E & Hd). injection E as <- _. congruence.
  - apply compound_solid in C. destruct C as (d & z & E & Hd). injection E as <- _. congruence.
Qed.
Lemma comment_text n : a_comment n -> ~ title_line n /\ (forall y, n <> lit "[" ++ y) /\ (forall y, n <> lit ":" ++ y) /\ ~ raw_delimiter n /\ ~ compound_delimiter n.
Proof.
  intros (r & -> & Hr). split; [intros (y & E & _); discriminate E|]. split; [intros y E; discriminate E|]. split; [intros y E; discriminate E|]. split.
  - intros (c & _ & (k & Hk & E)). do 4 (destruct k; [lia|]). cbn [repeat] in E. change (lit "//") with [47%N; 47%N] in E. cbn [app] in E. injection E as E1 E2 E3. subst c r. apply (Hr (47%N :: repeat 47%N k)). reflexivity.
  - intros [E|(c & Hc & (k & Hk & E))]; [discriminate E|]. destruct k; [lia|]. cbn [repeat] in E. change (lit "//") with [47%N; 47%N] in E. cbn [app] in E. injection E as <- _. cbn in Hc. destruct Hc as [X|[X|[X|[]]]]; discriminate X.
Qed.
Definition no_delimiter (t : text) : Prop := forall l r n, a_line t l r n -> ~ raw_delimiter n /\ ~ compound_delimiter n.
Lemma tame_paragraph k b t ls rest : paragraph k b t ls rest -> forall p, tame A p t -> (b = false -> no_delimiter t) -> tame A false rest.
Proof.
  induction 1 as [b t Ht|t l r n Hl Hb|b t l r n ls rest Hl Hc Hp IH|b t l r n y ls rest Hne Hl Hn Hnc Hb Hu Hp IH]; intros p T Hd.
  - destruct t as [|c0 t0]; [constructor|]. destruct Ht as [Ht|(l & r & Hl)]; [discriminate Ht|]. apply (tame_false _ _ T). intros l' r' c y H'. destruct (a_line_unique _ _ _ _ _ _ _ Hl H') as (_ & _ & E). discriminate E.
  - apply (tame_false _ _ T). intros l' r' c y H'. destruct (a_line_unique _ _ _ _ _ _ _ Hl H') as (_ & _ & E). subst n. exact (boundary_not_indented _ _ Hb).
  - assert (Hne : t <> []) by (intros ->; apply a_line_nil in Hl; subst n; apply comment_not_nil in Hc; contradiction).
    destruct (comment_text _ Hc) as (C1 & C2 & C3 & C4 & C5).
    destruct (tame_inv _ _ _ _ _ T Hne Hl) as [Hn0 _|Hx _|Hx _ _|c y Hp0 En Hs _ _|_ Hnd Hr|((y & E) & _) _ _|[Hx|(((y & E) & _) & _)] _ _|c r' Hx _ _ _|c Hx _|c r' Hx _ _ _ _|Hx _ _]; try contradiction.
    + subst n. exfalso. apply comment_not_nil in Hc. contradiction.
    + exfalso. apply Hx, Hc.
    + exfalso. apply Hx, Hc.
    + exfalso. destruct Hc as (q & E & _). rewrite En in E. injection E as -> _. destruct Hs as [X|X]; discriminate X.
    + exact (IH _ Hr (fun _ => Hnd)).
    + exfalso. exact (C3 y E).
    + exfalso. exact (C2 y E).
  - assert (Hdel : ~ raw_delimiter n /\ ~ compound_delimiter n).
    { destruct b; [|exact (Hd eq_refl _ _ _ Hl)]. specialize (Hb eq_refl). split; intros K; apply Hb; unfold boundary_line; auto. }
    destruct Hdel as (D1 & D2).
    destruct (tame_inv _ _ _ _ _ T Hne Hl) as [Hn0 _|_ Hr|_ _ Hr|c z Hp0 En Hs _ Hr|Hx _ _|_ _ Hr|_ _ Hr|c r' Hx _ _ _|c Hx _|c r' Hx _ _ _ _|Hx _ _]; try contradiction;
      first [exact (IH _ Hr ltac:(discriminate))|idtac].
Qed.
Lemma tame_lines k b t ls rest : paragraph k b t ls rest -> forall p, tame A p t -> (b = false -> no_delimiter t) -> Forall (c_text A) ls.
Proof.
  induction 1 as [b t Ht|t l r n Hl Hb|b t l r n ls rest Hl Hc Hp IH|b t l r n y ls rest Hne Hl Hn Hnc Hb Hu Hp IH]; intros p T Hd; [constructor|constructor| |].
  - assert (Hne : t <> []) by (intros ->; apply a_line_nil in Hl; subst n; apply comment_not_nil in Hc; contradiction).
    destruct (comment_text _ Hc) as (C1 & C2 & C3 & C4 & C5).
    destruct (tame_inv _ _ _ _ _ T Hne Hl) as [Hn0 _|Hx _|Hx _ _|c y Hp0 En Hs _ _|_ Hnd Hr|((y & E) & _) _ _|[Hx|(((y & E) & _) & _)] _ _|c r' Hx _ _ _|c Hx _|c r' Hx _ _ _ _|Hx _ _]; try contradiction.
    + subst n. exfalso. apply comment_not_nil in Hc. contradiction.
    + exfalso. apply Hx, Hc.
    + exfalso. apply Hx, Hc.
    + exfalso. destruct Hc as (q & E & _). rewrite En in E. injection E as -> _. destruct Hs as [X|X]; discriminate X.
    + exact (IH _ Hr (fun _ => Hnd)).
    + exfalso. exact (C3 y E).
    + exfalso. exact (C2 y E).
  - assert (Hdel : ~ raw_delimiter n /\ ~ compound_delimiter n).
    { destruct b; [|exact (Hd eq_refl _ _ _ Hl)]. specialize (Hb eq_refl). split; intros K; apply Hb; unfold boundary_line; auto. }
    destruct Hdel as (D1 & D2).
    assert (Hy : c_text A n -> c_text A y) by (destruct Hu as (w & q & -> & K); intros F; apply (c_suffix A) in F; refine (c_trim A _ _ _ F); apply K).
    destruct (tame_inv _ _ _ _ _ T Hne Hl) as [Hn0 _|_ Hr F|_ _ Hr F|c z Hp0 En Hs _ Hr F|Hx _ _|_ _ Hr F|_ _ Hr F|c r' Hx _ _ _|c Hx _|c r' Hx _ _ _ _|Hx _ _]; try contradiction;
      (constructor; [exact (Hy F)|exact (IH _ Hr ltac:(discriminate))]).
Qed.
Lemma tame_strip p t l r n : tame A p t -> t <> [] -> a_line t l r n -> n = [] -> tame A false r.
Proof.
  intros T Hne H ->. destruct (tame_inv _ _ _ _ _ T Hne H) as [_ Hr|Hx _|Hx _ _|c y _ E _ _ _|Hx _ _|((y & E) & _) _ _|[(y & E & _)|(((y & E) & _) & _)] _ _|c r' Hx _ _ _|c Hx _|c r' Hx _ _ _ _|Hx _ _].
  - exact Hr.
  - destruct Hx as ((c & y & E & _) & _). discriminate E.
  - destruct Hx as ((c & y & E & _) & _). discriminate E.
  - discriminate E.
  - apply comment_not_nil in Hx. contradiction.
  - discriminate E.
  - discriminate E.
  - discriminate E.
  - apply raw_delim_nonempty in Hx. contradiction.
  - apply raw_delim_nonempty in Hx. contradiction.
  - apply compound_delim_nonempty in Hx. contradiction.
  - apply compound_delim_nonempty in Hx. contradiction.
Qed.
Lemma norm_prefix_blank x n : trimmed_line x n -> blank_line x -> Forall sp_tab n.
Proof.
  intros Ht Hb. destruct (trimmed_strip _ _ Ht) as (sps & Es & _). apply blank_line_dec in Hb. rewrite Es, forallb_app in Hb. apply andb_prop in Hb. destruct Hb as (Hb & _). rewrite forallb_forall in Hb.
  apply Forall_forall. intros c Hc. apply is_sp_tab_spec, Hb, Hc.
Qed.
(** Skipping blank lines keeps to the class, and gets to a line that is not blank. *)
Definition ready (t : text) : Prop := (t = [] \/ solid t) /\ tame A false t.
Lemma tame_unlines : forall ls p tail, tame A p (unlines ls ++ tail) -> (forall l, In l ls -> blank_line l /\ ~ In LF l) -> ls <> [] -> tame A false tail.
Proof.
  induction ls as [|l ls IH]; intros p tail T Hls Hne; [contradiction|]. destruct (Hls l (or_introl eq_refl)) as (Hb & Hlf).
  assert (Ha : a_line (unlines (l :: ls) ++ tail) (l ++ [LF]) (unlines ls ++ tail) (trim_end_by (N.eqb SP) (strip_cr l))).
  { exists l, [LF]. split; [unfold unlines; cbn [map concat]; rewrite <- !app_assoc; reflexivity|]. split; [reflexivity|]. split; [exact Hlf|]. split; [left; reflexivity|apply norm_trimmed]. }
  assert (Hn : Forall sp_tab (trim_end_by (N.eqb SP) (strip_cr l))) by (exact (norm_prefix_blank _ _ (norm_trimmed l) Hb)).
  set (n := trim_end_by (N.eqb SP) (strip_cr l)) in *. clearbody n.
  assert (Htne : unlines (l :: ls) ++ tail <> []) by (unfold unlines; cbn [map concat]; destruct l; discriminate).
  assert (Hr : tame A false (unlines ls ++ tail)).
  { destruct n as [|c y]; [exact (tame_strip _ _ _ _ _ T Htne Ha eq_refl)|].
    pose proof (tame_inv _ _ _ _ _ T Htne Ha) as C. exfalso. destruct (tcase_solid _ _ _ C ltac:(discriminate)) as [(c' & y' & E & Hs & Hp)|(c' & y' & E & Hs)].
    - injection E as <- <-. destruct C as [E|((d & q & E & Hd) & _)|((d & q & E & Hd) & _)|d q _ E _ (x & Hx & Hw)|(q & E & _)|((q & E) & _)|[(q & E & _)|(((q & E) & _) & _)]|d q Hx|d Hx|d q Hx|Hx]; try discriminate E.
      + injection E as <- _. apply Forall_inv in Hn. apply ws_sp_tab in Hn. congruence.
      + injection E as <- _. apply Forall_inv in Hn. apply ws_sp_tab in Hn. congruence.
      + injection E as <- <-. inversion Hn as [|? ? _ Fy]; subst. rewrite Forall_forall in Fy. specialize (Fy _ Hx). apply ws_sp_tab in Fy. congruence.
      + injection E as -> _. destruct Hs as [X|X]; discriminate X.
      + injection E as -> _. destruct Hs as [X|X]; discriminate X.
      + injection E as -> _. destruct Hs as [X|X]; discriminate X.
      + injection E as -> _. destruct Hs as [X|X]; discriminate X.
      + apply raw_solid in Hx. destruct Hx as (d' & z & E & Hd). injection E as <- _. apply ws_sp_tab in Hs. congruence.
      + apply raw_solid in Hx. destruct Hx as (d' & z & E & Hd). injection E as <- _. apply ws_sp_tab in Hs. congruence.
      + apply compound_solid in Hx. destruct Hx as (d' & z & E & Hd). injection E as <- _. apply ws_sp_tab in Hs. congruence.
      + apply compound_solid in Hx. destruct Hx as (d' & z & E & Hd). injection E as <- _. apply ws_sp_tab in Hs. congruence.
    - injection E as <- <-. apply Forall_inv in Hn. apply ws_sp_tab in Hn. congruence. }
  destruct ls as [|l2 ls]; [exact Hr|]. apply (IH _ _ Hr); [intros q Hq; apply Hls; right; exact Hq|discriminate].
Qed.
Lemma tame_ready t l r x e n : tame A false t -> t = x ++ e ++ r -> ~ In LF x -> eol e r -> ~ blank_line x -> a_line t l r n -> solid t.
Proof.
  intros T D Hx He Hb H. destruct n as [|c y].
  - exfalso. apply Hb. destruct H as (x' & e' & D' & -> & Hx' & He' & Ht). rewrite <- app_assoc in D'. rewrite D in D'. destruct (line_unique _ _ _ _ _ _ D' Hx Hx' He He') as (<- & <- & _).
    destruct (trimmed_strip _ _ Ht) as (sps & Es & Fs). apply blank_line_dec. rewrite Es. cbn [app]. apply forallb_forall. intros c Hc. rewrite Forall_forall in Fs. rewrite <- (Fs c Hc). reflexivity.
  - assert (Hne : t <> []) by (intros ->; apply a_line_nil in H; discriminate H). destruct (tcase_solid _ _ _ (tame_inv _ _ _ _ _ T Hne H) ltac:(discriminate)) as [(c' & y' & _ & _ & K)|S]; [discriminate K|].
    exact (solid_line _ _ _ _ H S).
Qed.
Lemma discard_ready s : tame A false (sp_data s) -> ready (sp_data (p_discard_empty_lines s)).
Proof.
  intros T. destruct (discard_go_spec (length (sp_data s)) s (le_n _)) as (ls & tail & D & Hls & Ht). fold (p_discard_empty_lines s) in Ht.
  assert (Tt : tame A false tail). { destruct ls as [|l ls]; [cbn [unlines concat map app] in D; rewrite <- D; exact T|]. rewrite D in T. exact (tame_unlines _ _ _ T Hls ltac:(discriminate)). }
  destruct Ht as [(E & x & e & rest & Et & Hx & He & Hb)|(E & _ & _)]; rewrite E; [|split; [left; reflexivity|constructor]].
  split; [right|exact Tt]. apply (tame_ready tail (x ++ e) rest x e (trim_end_by (N.eqb SP) (strip_cr x)) Tt Et Hx He Hb).
  exists x, e. rewrite <- app_assoc. auto using norm_trimmed.
Qed.

(** * The style of an attribute list *)
Definition written (src : text) (a : element_attribute) : Prop :=
  ea_idx a = [] \/ ((exists ws, parse_shorthand_items (ea_value a) = Ok (ea_idx a, ws)) /\ (infix (ea_value a) src \/ exists r, ea_value a = 34%N :: r)).
Lemma infix_refl t : infix t t.
Proof. exists [], []. rewrite app_nil_r. reflexivity. Qed.
Lemma infix_trans a b c : infix a b -> infix b c -> infix a c.
Proof. intros (x & y & ->) (x' & y' & ->). exists (x' ++ x), (y ++ y'). rewrite <- !app_assoc. reflexivity. Qed.
Lemma infix_suffix u t a : infix a t -> infix a (u ++ t).
Proof. intros (x & y & ->). exists (u ++ x), y. rewrite <- !app_assoc. reflexivity. Qed.
Lemma written_suffix u t a : written t a -> written (u ++ t) a.
Proof. intros [H|(H1 & [H2|H2])]; [left; exact H|right; split; [exact H1|left; apply infix_suffix, H2]|right; auto]. Qed.
Lemma unquoted_head c r : c <> SP -> c <> COMMA -> exists z, fst (t_unquoted (c :: r)) = c :: z.
Proof.
  intros H1 H2. unfold t_unquoted. cbn [span_while]. unfold not_comma at 1. rewrite (proj2 (N.eqb_neq _ _) H2). cbn [negb]. destruct (span_while not_comma r) as [a b]. cbn [fst].
  destruct (trim_end_by_app (N.eqb SP) (c :: a)) as (w & Ew & Fw & _). destruct (trim_end_by (N.eqb SP) (c :: a)) as [|d z]; [|cbn [app] in Ew; injection Ew as <- _; eauto].
  exfalso. cbn [app] in Ew. subst w. apply Forall_inv in Fw. apply N.eqb_eq in Fw. congruence.
Qed.
Lemma replace_head q r : q <> BSL -> exists z, replace_str [BSL; q] [q] (q :: r) = q :: z.
Proof.
  intros H. unfold replace_str. cbn [replace_go length]. 
  match goal with |- context [starts_with ?p ?t] => assert (starts_with p t = false) as -> end.
  { cbn [starts_with]. destruct (N.eqb_spec BSL q); [congruence|reflexivity]. }
  eauto.
Qed.
Lemma t_parse_written norm ctx psh t r : ~ In 39%N t -> t_parse norm ctx psh t = Ok r -> written t (mkea (ta_name r) (ta_value r) (ta_idx r)).
Proof.
  intros Hq H. unfold t_parse in H. apply bind_ok in H. destruct H as (v & Ev & H). apply bind_ok in H. destruct H as (sh & Esh & H). apply Ok_inj in H. subst r. cbn [ta_name ta_value ta_idx].
  destruct (t_name_suffix t) as [u1 H1]. destruct (dw_suffix is_sp_tab_lf (snd (t_name t))) as [u2 H2]. set (after := dw is_sp_tab_lf (snd (t_name t))) in *. clearbody after.
  assert (Ht : t = (u1 ++ u2) ++ after) by (rewrite H1 at 1; rewrite H2, <- app_assoc; reflexivity).
  destruct (fst (t_name t)) as [nm|]; [apply Ok_inj in Esh; subst sh; left; reflexivity|].
  destruct (fst (snd (t_value after psh))) eqn:Ep; [|apply Ok_inj in Esh; subst sh; left; reflexivity].
  destruct sh as [idx ws]. right. cbn [ea_value ea_idx fst]. split; [eauto|]. clear Esh.
  destruct after as [|c q].
  - cbn [hd_error ea_finish_value] in Ev. apply Ok_inj in Ev. subst v. left. exists [], t. reflexivity.
  - cbn [hd_error ea_finish_value] in Ev. destruct (is_quote c) eqn:Eq.
    + assert (c = 34%N) as ->. { apply is_quote_iff in Eq. destruct Eq as [-> | ->]; [exfalso; apply Hq; rewrite Ht; apply in_app_iff; right; left; reflexivity|reflexivity]. }
      right. cbn [t_value] in Ev, Ep. rewrite Eq in Ev, Ep. destruct (quoted_split 34%N false q) as [[v' rest]|]; [discriminate Ep|]. cbn [fst] in Ev.
      destruct (unquoted_head 34%N q) as (z & Ez); [discriminate|discriminate|]. rewrite Ez in Ev. destruct (replace_head 34%N z) as (z' & Ez'); [discriminate|]. rewrite Ez' in Ev. destruct ctx; apply Ok_inj in Ev; subst v; eauto.
    + apply Ok_inj in Ev. subst v. left. destruct (t_value_within (c :: q) psh) as (pre & post & E). exists ((u1 ++ u2) ++ pre), post. rewrite Ht, E at 1. rewrite <- !app_assoc. reflexivity.
Qed.
Lemma t_loop_written norm ctx src : ~ In 39%N src -> forall fuel t attrs psh ws r, (exists u, src = u ++ t) -> Forall (written src) attrs ->
  t_loop norm fuel ctx attrs psh ws t = Ok r -> Forall (written src) (fst r).
Proof.
  intros Hq. induction fuel as [|f IH]; intros t attrs psh ws r (u & Hu) Ha H; cbn [t_loop] in H; [discriminate H|]. apply bind_ok in H. destruct H as (x & Ex & H).
  assert (Hqt : ~ In 39%N t) by (intros K; apply Hq; rewrite Hu; apply in_app_iff; right; exact K).
  pose proof (t_parse_written _ _ _ _ _ Hqt Ex) as W. apply (written_suffix u) in W. rewrite <- Hu in W. destruct (t_parse_suffix _ _ _ _ _ Ex) as [u' Hu'].
  set (attr := mkea (ta_name x) (ta_value x) (ta_idx x)) in *. destruct (unnamed attr && is_nil (ea_value attr) && is_nil (ta_rest x) && is_nil attrs); [apply Ok_inj in H; subst r; exact Ha|].
  set (attrs' := if unnamed attr || negb (text_eqb (ea_value attr) (lit "None")) then attrs ++ [attr] else attrs) in *.
  assert (Ha' : Forall (written src) attrs') by (unfold attrs'; destruct (unnamed attr || negb (text_eqb (ea_value attr) (lit "None"))); [apply Forall_app; auto|exact Ha]). clearbody attrs'.
  destruct (dw_suffix is_sp_tab (ta_rest x)) as [w Hw1]. destruct (dw is_sp_tab (ta_rest x)) as [|c t1]; [apply Ok_inj in H; subst r; exact Ha'|].
  destruct (c =? COMMA)%N; [|apply Ok_inj in H; subst r; exact Ha']. destruct (dw_suffix is_sp_tab t1) as [w2 Hw2]. 
  assert (Hs : src = (u ++ u' ++ w ++ [c] ++ w2) ++ dw is_sp_tab t1) by (rewrite Hu, Hu', Hw1, Hw2 at 1; rewrite <- !app_assoc; reflexivity).
  destruct (dw is_sp_tab t1) as [|d t2]; [eapply IH; [|exact Ha'|exact H]; eauto|]. destruct (d =? COMMA)%N; (eapply IH; [|exact Ha'|exact H]).
  - exists ((u ++ u' ++ w ++ [c] ++ w2) ++ [d]). rewrite <- app_assoc. exact Hs.
  - eauto.
Qed.
Lemma style_written U norm P s ctx m ws st : ~ In 123%N (sp_data s) -> ~ In 39%N (sp_data s) -> attrlist_parse U norm P s ctx = Ok (m, ws) ->
  al_block_style (mi_item m) = Ok (Some st) -> infix st (sp_data s) \/ exists y, st = 34%N :: y.
Proof.
  intros Hb Hq H Hst. rewrite attrlist_parse_eq in H. unfold src_of in H. rewrite (proj2 (has_char_false 123%N (sp_data s)) Hb) in H. cbn [andb bind] in H.
  destruct (starts_with (lit "[") (sp_data s) && ends_with (lit "]") (sp_data s)).
  - apply bind_ok in H. destruct H as (a & _ & H). apply Ok_inj in H. injection H as <- _. discriminate Hst.
  - apply bind_ok in H. destruct H as (r & Er & H). apply Ok_inj in H. injection H as <- _. cbn [mi_item] in Hst.
    pose proof (t_loop_written norm ctx (sp_data s) Hq _ _ _ _ _ _ (ex_intro _ [] eq_refl) ltac:(constructor) Er) as W.
    unfold al_block_style in Hst. destruct (nth_attribute _ 1) as [e|] eqn:En; [|discriminate Hst]. apply nth_attribute_in in En. cbn [al_attrs] in En. rewrite Forall_forall in W. destruct En as [En _]. specialize (W _ En).
    unfold ea_block_style, shorthand_items in Hst. destruct W as [W|((ws' & Ep) & W)]; [rewrite W in Hst; discriminate Hst|].
    destruct (parse_shorthand_items_eq (ea_value e)) as (idx & Ei & Hi). rewrite Ep in Ei. apply Ok_inj in Ei. injection Ei as <- _. rewrite Hi in Hst. cbn [bind] in Hst. apply Ok_inj in Hst.
    destruct (grp_spec (ea_value e)) as (Gv & Gn & Gc). unfold sh_items in Hst. set (run := fst (grp (ea_value e))) in *. set (cs := snd (grp (ea_value e))) in *. clearbody run cs.
    assert (K : infix st (ea_value e) /\ forall c r, ea_value e = c :: r -> is_sp_tab c = false -> exists y, st = c :: y).
    { cbn [flat_map] in Hst. unfold keep1 at 1 in Hst. destruct (dw_suffix is_sp_tab run) as (w & Hw).
      assert (Cs : forall c cs', flat_map keep1 cs = c :: cs' -> existsb is_shorthand_delimiter c = true).
      { clear - Gc. intros c cs' Hc. assert (Hin : In c (flat_map keep1 cs)) by (rewrite Hc; left; reflexivity). apply in_flat_map in Hin. destruct Hin as (x & Hx & Hk). rewrite Forall_forall in Gc.
        destruct (Gc _ Hx) as (d & r & -> & Hd & _). unfold keep1 in Hk. destruct (_ || _ || _); [destruct Hk|]. destruct (trim_end (d :: r)) as [|y z] eqn:Et; [destruct Hk|]. destruct Hk as [<-|[]].
        destruct (trim_end_spec (d :: r)) as (q & Eq & _). rewrite Et in Eq. cbn [app] in Eq. injection Eq as <- _. cbn [existsb]. rewrite Hd. reflexivity. }
      assert (Hno : forall X Y : Prop, (match flat_map keep1 cs with [] => None | v :: _ => if existsb is_shorthand_delimiter v then None else Some v end) = Some st -> X).
      { intros X Y Hx. exfalso. destruct (flat_map keep1 cs) as [|v l] eqn:Ef; [discriminate Hx|]. rewrite (Cs v l eq_refl) in Hx. discriminate Hx. }
      destruct (text_eqb (dw is_sp_tab run) [HASH] || text_eqb (dw is_sp_tab run) [DOT] || text_eqb (dw is_sp_tab run) [PERCENT]); [apply (Hno _ True); exact Hst|].
      destruct (trim_end (dw is_sp_tab run)) as [|y z] eqn:Et; [apply (Hno _ True); exact Hst|]. cbn [app] in Hst. destruct (existsb is_shorthand_delimiter (y :: z)); [discriminate Hst|]. injection Hst as <-.
      destruct (trim_end_spec (dw is_sp_tab run)) as (q & Eq & _). rewrite Et in Eq. split.
      - exists w, (q ++ concat cs). rewrite Gv. rewrite Hw at 1. rewrite Eq at 1. rewrite <- !app_assoc. reflexivity.
      - intros c q0 Ec Hc. rewrite Gv in Ec. destruct run as [|c' run']; [cbn in Eq; discriminate Eq|]. cbn [app] in Ec. injection Ec as -> _. unfold dw in Eq. cbn [span_while] in Eq. rewrite Hc in Eq. cbn [snd app] in Eq. injection Eq as <- _. eauto. }
    destruct K as (K1 & K2). destruct W as [W|(r' & W)]; [left; exact (infix_trans _ _ _ K1 W)|right; exact (K2 _ _ W eq_refl)].
Qed.

(** * The names of an attribute list *)
Definition name_written (src : text) (a : element_attribute) : Prop := forall nm, ea_name a = Some nm -> infix nm src.
Lemma t_name_infix t nm : fst (t_name t) = Some nm -> infix nm t.
Proof.
  destruct t as [|c r]; [discriminate|]. unfold t_name. destruct (is_ascii_alnum c); [|discriminate]. pose proof (span_while_app attr_more r) as H. destruct (span_while attr_more r) as [a b]. cbn in H.
  destruct (dw is_sp_tab_lf b) as [|e b']; [discriminate|]. destruct (e =? 61)%N; [|discriminate]. destruct (dw is_sp_tab_lf b') as [|d v]; [discriminate|]. destruct (d =? COMMA)%N; [discriminate|].
  cbn [fst]. intros K. injection K as <-. exists [], b. cbn. rewrite H. reflexivity.
Qed.
Lemma t_loop_names norm ctx src : forall fuel t attrs psh ws r, (exists u, src = u ++ t) -> Forall (name_written src) attrs ->
  t_loop norm fuel ctx attrs psh ws t = Ok r -> Forall (name_written src) (fst r).
Proof.
  induction fuel as [|f IH]; intros t attrs psh ws r (u & Hu) Ha H; cbn [t_loop] in H; [discriminate H|]. apply bind_ok in H. destruct H as (x & Ex & H).
  destruct (t_parse_suffix _ _ _ _ _ Ex) as [u' Hu'].
  assert (W : name_written src (mkea (ta_name x) (ta_value x) (ta_idx x))).
  { intros nm Hnm. cbn [ea_name] in Hnm. rewrite Hu. apply infix_suffix, t_name_infix. unfold t_parse in Ex. apply bind_ok in Ex. destruct Ex as (v & _ & Ex). apply bind_ok in Ex. destruct Ex as (sh & _ & Ex). apply Ok_inj in Ex. subst x. exact Hnm. }
  set (attr := mkea (ta_name x) (ta_value x) (ta_idx x)) in *. destruct (unnamed attr && is_nil (ea_value attr) && is_nil (ta_rest x) && is_nil attrs); [apply Ok_inj in H; subst r; exact Ha|].
  set (attrs' := if unnamed attr || negb (text_eqb (ea_value attr) (lit "None")) then attrs ++ [attr] else attrs) in *.
  assert (Ha' : Forall (name_written src) attrs') by (unfold attrs'; destruct (unnamed attr || negb (text_eqb (ea_value attr) (lit "None"))); [apply Forall_app; auto|exact Ha]). clearbody attrs'.
  destruct (dw_suffix is_sp_tab (ta_rest x)) as [w Hw1]. destruct (dw is_sp_tab (ta_rest x)) as [|c t1]; [apply Ok_inj in H; subst r; exact Ha'|].
  destruct (c =? COMMA)%N; [|apply Ok_inj in H; subst r; exact Ha']. destruct (dw_suffix is_sp_tab t1) as [w2 Hw2]. 
  assert (Hs : src = (u ++ u' ++ w ++ [c] ++ w2) ++ dw is_sp_tab t1) by (rewrite Hu, Hu', Hw1, Hw2 at 1; rewrite <- !app_assoc; reflexivity).
  destruct (dw is_sp_tab t1) as [|d t2]; [eapply IH; [|exact Ha'|exact H]; eauto|]. destruct (d =? COMMA)%N; (eapply IH; [|exact Ha'|exact H]).
  - exists ((u ++ u' ++ w ++ [c] ++ w2) ++ [d]). rewrite <- app_assoc. exact Hs.
  - eauto.
Qed.
Lemma named_written U norm P s ctx m ws nm : ~ In 123%N (sp_data s) -> ~ In 39%N (sp_data s) -> attrlist_parse U norm P s ctx = Ok (m, ws) ->
  named_value (mi_item m) nm <> None -> infix nm (sp_data s).
Proof.
  intros Hb Hq H Hnm. rewrite attrlist_parse_eq in H. unfold src_of in H. rewrite (proj2 (has_char_false 123%N (sp_data s)) Hb) in H. cbn [andb bind] in H.
  destruct (starts_with (lit "[") (sp_data s) && ends_with (lit "]") (sp_data s)).
  - apply bind_ok in H. destruct H as (a & _ & H). apply Ok_inj in H. injection H as <- _. contradiction Hnm. reflexivity.
  - apply bind_ok in H. destruct H as (r & Er & H). apply Ok_inj in H. injection H as <- _. cbn [mi_item] in Hnm.
    pose proof (t_loop_names norm ctx (sp_data s) _ _ _ _ _ _ (ex_intro _ [] eq_refl) ltac:(constructor) Er) as W.
    unfold named_value, named_attribute in Hnm. cbn [al_attrs] in Hnm. destruct (find _ (fst r)) as [e|] eqn:Ef; [|contradiction Hnm; reflexivity]. apply find_some in Ef. destruct Ef as (Ein & En).
    rewrite Forall_forall in W. destruct (ea_name e) as [n0|] eqn:Enm; [|discriminate En]. destruct (text_eqb_spec n0 nm) as [->|_]; [|discriminate En]. exact (W _ Ein _ Enm).
Qed.

Lemma t_parse_quiet norm norm' ctx psh t : ~ In 39%N t -> t_parse norm ctx psh t = t_parse norm' ctx psh t.
Proof.
  intros Hq. unfold t_parse. cbv zeta. destruct (t_name_suffix t) as [u1 H1]. destruct (dw_suffix is_sp_tab_lf (snd (t_name t))) as [u2 H2]. set (after := dw is_sp_tab_lf (snd (t_name t))) in *. clearbody after.
  assert (E : ea_finish_value norm ctx (hd_error after) (fst (fst (t_value after psh))) = ea_finish_value norm' ctx (hd_error after) (fst (fst (t_value after psh)))); [|rewrite E; reflexivity].
  destruct after as [|c y]; [reflexivity|]. cbn [hd_error ea_finish_value]. destruct (is_quote c); [|reflexivity]. destruct ctx; [|reflexivity]. destruct (N.eqb_spec c SQUOTE) as [->|_]; [|reflexivity].
  exfalso. apply Hq. rewrite H1, H2. rewrite !in_app_iff. right. right. left. reflexivity.
Qed.
Lemma t_loop_quiet norm norm' ctx fuel : forall t attrs psh ws, ~ In 39%N t -> t_loop norm fuel ctx attrs psh ws t = t_loop norm' fuel ctx attrs psh ws t.
Proof.
  induction fuel as [|f IH]; intros t attrs psh ws Hq; cbn [t_loop]; [reflexivity|]. rewrite (t_parse_quiet norm norm' ctx psh t Hq). destruct (t_parse norm' ctx psh t) as [x| |] eqn:Ex; cbn [bind]; try reflexivity.
  destruct (t_parse_suffix _ _ _ _ _ Ex) as [u' Hu'].
  assert (Hr : forall y, (exists w, ta_rest x = w ++ y) -> ~ In 39%N y) by (intros y (w & Ew) K; apply Hq; rewrite Hu', Ew, !in_app_iff; auto).
  match goal with |- context [if ?b then _ else _] => destruct b end; [reflexivity|]. destruct (dw_suffix is_sp_tab (ta_rest x)) as [w Hw1]. destruct (dw is_sp_tab (ta_rest x)) as [|c t1]; [reflexivity|].
  destruct (c =? COMMA)%N; [|reflexivity]. destruct (dw_suffix is_sp_tab t1) as [w2 Hw2]. destruct (dw is_sp_tab t1) as [|d t2]; [apply IH; intros []|].
  destruct (d =? COMMA)%N; apply IH, Hr; rewrite Hw1, Hw2.
  - exists (w ++ [c] ++ w2 ++ [d]). rewrite <- !app_assoc. reflexivity.
  - exists (w ++ [c] ++ w2). rewrite <- !app_assoc. reflexivity.
Qed.
(** Without single quotes nothing is substituted in an attribute list. *)
Lemma attrlist_quiet U norm norm' P s ctx : ~ In 123%N (sp_data s) -> ~ In 39%N (sp_data s) -> attrlist_parse U norm P s ctx = attrlist_parse U norm' P s ctx.
Proof.
  intros Hb Hq. rewrite !attrlist_parse_eq. unfold src_of. rewrite (proj2 (has_char_false 123%N (sp_data s)) Hb). cbn [andb bind].
  destruct (starts_with (lit "[") (sp_data s) && ends_with (lit "]") (sp_data s)); [reflexivity|]. rewrite (t_loop_quiet norm norm'); [reflexivity|exact Hq].
Qed.

(** * Metadata *)
Lemma meta_next t l r n : tame A false t -> t <> [] -> a_line t l r n -> (title_line n \/ exists y, n = lit "[" ++ y) -> solid r /\ tame A false r /\ (title_line n \/ (bracket_line n /\ c_meta A n)) /\ c_text A n.
Proof.
  intros T Hne H K. destruct (tame_inv _ _ _ _ _ T Hne H) as [Hx _|Hx _|Hx _ _|c y E _ _ _ _|Hx _ _|((y & E) & _) _ _|M S1 T1|c r' Hx _ _ _|c Hx _|c r' Hx _ _ _ _|Hx _ _]; try (split; [assumption|]; split; [assumption|]; split; assumption); exfalso.
  - subst n. destruct K as [(y & E & _)|(y & E)]; discriminate E.
  - destruct Hx as (_ & H1 & H2 & _). destruct K as [K|(y & E)]; [exact (H1 K)|exact (H2 y E)].
  - destruct Hx as (_ & H1 & H2 & _). destruct K as [K|(y & E)]; [exact (H1 K)|exact (H2 y E)].
  - discriminate E.
  - destruct (comment_text n Hx) as (H1 & H2 & _). destruct K as [K|(y & E)]; [exact (H1 K)|exact (H2 y E)].
  - subst n. destruct K as [(z & E & _)|(z & E)]; discriminate E.
  - destruct Hx as (d & Hd & (k & Hk & E)). do 4 (destruct k; [lia|]). destruct K as [(z & Ez & Hz)|(z & Ez)]; rewrite E in Ez; cbn in Ez; injection Ez as -> Ez.
    + destruct (Hz _ _ (eq_sym Ez)) as (H1 & _). contradiction.
    + cbn in Hd. destruct Hd as [Hd|[Hd|[Hd|[Hd|[]]]]]; discriminate Hd.
  - destruct Hx as (d & Hd & (k & Hk & E)). do 4 (destruct k; [lia|]). destruct K as [(z & Ez & Hz)|(z & Ez)]; rewrite E in Ez; cbn in Ez; injection Ez as -> Ez.
    + destruct (Hz _ _ (eq_sym Ez)) as (H1 & _). contradiction.
    + cbn in Hd. destruct Hd as [Hd|[Hd|[Hd|[Hd|[]]]]]; discriminate Hd.
  - destruct K as [(z & E & _)|(z & E)]; rewrite E in Hx; apply compound_delimiter_head in Hx; cbn in Hx; destruct Hx as [Hx|[Hx|[Hx|[Hx|[]]]]]; discriminate Hx.
  - destruct K as [(z & E & _)|(z & E)]; rewrite E in Hx; apply compound_delimiter_head in Hx; cbn in Hx; destruct Hx as [Hx|[Hx|[Hx|[Hx|[]]]]]; discriminate Hx.
Qed.
Definition good_al (a : attrlist) : Prop := Forall wf_ea (al_attrs a) /\ al_block_style a <> Ok (Some (lit "literal")) /\ (named_value a (lit "subs") <> None -> exists n, c_meta A n /\ infix (lit "subs") n).
Definition good_opt (o : option attrlist) : Prop := forall a, o = Some a -> good_al a.
Definition md_ok (m : mdstate) : Prop := solid (sp_data (ms_start m)) /\ tame A false (sp_data (ms_start m)) /\ good_opt (ms_attrlist m) /\ forall t, ms_title m = Some t -> c_text A (sp_data t).
Definition unset {A} (o : option A) : nat := match o with Some _ => 0 | None => 1 end.
Definition md_left (m : mdstate) : nat := unset (ms_title m) + unset (ms_anchor m) + unset (ms_attrlist m).
Lemma solid_nonempty t : solid t -> t <> [].
Proof. intros (c & y & -> & _). discriminate. Qed.
Lemma title_step_total m : md_ok m -> exists o, md_title_step m = Ok o /\ forall m', o = Some m' -> md_ok m' /\ md_left m' < md_left m.
Proof.
  intros (S1 & T1 & G & Gt). unfold md_title_step. destruct (ms_title m) eqn:Et; [exists None; split; [reflexivity|intros m' K; discriminate K]|].
  destruct (take_norm (ms_start m)) as (l & r & n & Hl & ->). cbn [bind mi_item mi_after sp_data with_data].
  destruct (starts_with (lit ".") n) eqn:E1; [|exists None; split; [reflexivity|intros m' K; discriminate K]]. destruct (starts_with (lit "..") n) eqn:E2; [exists None; split; [reflexivity|intros m' K; discriminate K]|]. cbn [andb negb].
  apply starts_with_spec in E1. destruct E1 as (y & En).
  assert (Ed : discard (with_data (ms_start m) n) 1 = Ok (skip (with_data (ms_start m) n) (lit ".") y)).
  { unfold discard. change 1 with (blen (lit ".")). rewrite (ipr_ok (with_data (ms_start m) n) (lit ".") y En). reflexivity. }
  rewrite Ed. cbn [bind]. unfold take_whitespace. rewrite take_while_ok. cbn [bind]. unfold p_take_while. rewrite sp_data_skip.
  destruct (span_while is_sp_tab y) as [a b] eqn:Ey. unfold psplit. cbn [mi_item sp_data with_data]. destruct a as [|a0 a]; cbn [is_nil]; [|exists None; split; [reflexivity|intros m' K; discriminate K]].
  eexists. split; [reflexivity|]. intros m' K. injection K as <-. cbn [ms_start ms_attrlist ms_title ms_anchor]. unfold md_left. cbn [ms_title ms_anchor ms_attrlist]. rewrite Et. cbn [unset]. split; [|lia].
  destruct (meta_next _ _ _ _ T1 (solid_nonempty _ S1) Hl) as (S2 & T2 & _ & Fn).
  - left. exists y. split; [exact En|]. intros c z ->. split.
    + intros ->. rewrite En in E2. discriminate E2.
    + intros K. apply is_sp_tab_spec in K. cbn [span_while] in Ey. rewrite K in Ey. destruct (span_while is_sp_tab z). discriminate Ey.
  - split; [|split; [|split]]; cbn [ms_start ms_attrlist ms_title]; rewrite ?sp_data_skip; try assumption. intros t K. injection K as <-. rewrite ?sp_data_skip. rewrite En in Fn. exact (c_suffix A _ _ Fn).
Qed.
Lemma span_eqb_refl s : span_eqb s s = true.
Proof. unfold span_eqb. rewrite text_eqb_refl, !Nat.eqb_refl. reflexivity. Qed.
Lemma ends_cut p q (n : text) x y : n = p ++ x -> n = y ++ q -> length p <= length y \/ (forall c, In c p -> ~ In c q) -> p <> [] -> exists mid, n = p ++ mid ++ q.
Proof.
  intros H1 H2 K Hp. destruct (Nat.leb_spec (length p) (length y)) as [Hl|Hl].
  - exists (skipn (length p) y). assert (firstn (length p) y = p) as Ep.
    { transitivity (firstn (length p) n); [rewrite H2, firstn_app; replace (length p - length y) with 0 by lia; cbn [firstn]; rewrite app_nil_r; reflexivity|rewrite H1, firstn_app, firstn_all, Nat.sub_diag; cbn [firstn]; apply app_nil_r]. }
    rewrite H2 at 1. rewrite <- (firstn_skipn (length p) y) at 1. rewrite Ep, <- app_assoc. reflexivity.
  - exfalso. destruct K as [K|K]; [lia|]. destruct q as [|c q'].
    + rewrite app_nil_r in H2. rewrite H2 in H1. apply (f_equal (@length _)) in H1. rewrite app_length in H1. lia.
    + apply (K c); [|left; reflexivity]. assert (E : nth_error n (length y) = Some c) by (rewrite H2, nth_error_app2, Nat.sub_diag by lia; reflexivity).
      rewrite H1, nth_error_app1 in E by lia. exact (nth_error_In _ _ E).
Qed.
Lemma block_anchor_total s : exists o w, parse_maybe_block_anchor s = Ok (o, w) /\
  forall mi, o = Some mi -> sp_data (mi_item mi) <> [] /\ exists l r n, a_line (sp_data s) l r n /\ (exists y, n = lit "[" ++ y) /\ mi_after mi = skip s l r.
Proof.
  unfold parse_maybe_block_anchor. destruct (starts_with (lit "[[") (sp_data s)) eqn:E1; [|do 2 eexists; split; [reflexivity|intros mi K; discriminate K]].
  destruct (take_norm s) as (l & r & n & Hl & ->). cbn [bind mi_item mi_after sp_data with_data].
  destruct (ends_with (lit "]]") n) eqn:E2; [|do 2 eexists; split; [reflexivity|intros mi K; discriminate K]].
  apply starts_with_spec in E1. destruct E1 as (q & Eq). apply ends_with_spec in E2. destruct E2 as (z & Ez).
  assert (En : exists x, n = lit "[[" ++ x).
  { destruct (a_line_prefix _ _ _ _ Hl) as (w & Ew). pose proof (a_line_app _ _ _ _ Hl) as D. rewrite Eq, Ew, Ez in D. clear - D Ez.
    destruct z as [|z0 [|z1 z]]; cbn in D; [discriminate D|discriminate D|]. injection D as <- <- _. rewrite Ez. eexists. reflexivity. }
  destruct En as (x & Ex). destruct (ends_cut _ _ n x z Ex Ez) as (mid & Em); [right; intros c Hc Hc'; cbn in Hc, Hc'; destruct Hc as [<-|[<-|[]]], Hc' as [Hc'|[Hc'|[]]]; discriminate Hc'|discriminate|].
  assert (Eb : checked_sub (blen n) 2 = Ok (blen (lit "[[" ++ mid))).
  { rewrite Em, !blen_app. unfold checked_sub. change (blen (lit "]]")) with 2. change (blen (lit "[[")) with 2. replace (2 <=? 2 + (blen mid + 2)) with true by (symmetry; apply Nat.leb_le; lia). f_equal. lia. }
  rewrite Eb. cbn [bind]. change 2 with (blen (lit "[[")) at 1. rewrite (slice_ok (with_data s n) (lit "[[") mid (lit "]]") Em). cbn [bind]. rewrite sp_data_skip.
  destruct mid as [|c mid]; cbn [is_nil]; [do 2 eexists; split; [reflexivity|intros mi K; discriminate K]|].
  do 2 eexists. split; [reflexivity|]. intros mi K. injection K as <-. cbn [mi_item mi_after]. split; [rewrite sp_data_skip; discriminate|]. exists l, r, n. split; [exact Hl|]. split; [|reflexivity]. exists (91%N :: x). exact Ex.
Qed.
Lemma anchor_step_total U m : md_ok m -> exists m' b, md_anchor_step U m = Ok (m', b) /\ md_ok m' /\ md_left m' <= md_left m /\ (b = true -> md_left m' < md_left m).
Proof.
  intros M. pose proof M as (S1 & T1 & G & Gt). unfold md_anchor_step. destruct (ms_anchor m) eqn:Ea; [exists m, false; split; [reflexivity|split; [exact M|split; [lia|discriminate]]]|].
  destruct (block_anchor_total (ms_start m)) as (o & w & -> & Ho). cbn [bind fst snd].
  assert (Hstay : forall w', md_ok (mkms (ms_title m) None (ms_reftext m) (ms_attrlist m) (ms_start m) w') /\ md_left (mkms (ms_title m) None (ms_reftext m) (ms_attrlist m) (ms_start m) w') <= md_left m).
  { intros w'. split; [split; [|split; [|split]]; assumption|]. unfold md_left. cbn [ms_title ms_anchor ms_attrlist]. rewrite Ea. lia. }
  destruct o as [mi|]; [|do 2 eexists; split; [reflexivity|]; destruct (Hstay (ms_warnings m ++ w)); split; [assumption|split; [assumption|discriminate]]].
  destruct (Ho _ eq_refl) as (Hne & l & r & n & Hl & Hb & Hafter). rewrite Hafter. destruct (meta_next _ _ _ _ T1 (solid_nonempty _ S1) Hl (or_intror Hb)) as (S2 & T2 & _ & _).
  set (goal := fun m0 : mdstate => (md_ok m0 /\ md_left m0 < md_left m) \/ (md_ok m0 /\ md_left m0 <= md_left m /\ ms_start m0 = ms_start m)).
  assert (Hmove : forall a rt w', goal (mkms (ms_title m) (Some a) rt (ms_attrlist m) (skip (ms_start m) l r) w')).
  { intros a rt w'. left. split; [split; [|split; [|split]]; cbn [ms_start ms_attrlist ms_title]; rewrite ?sp_data_skip; assumption|]. unfold md_left. cbn [ms_title ms_anchor ms_attrlist]. rewrite Ea. cbn [unset]. lia. }
  assert (Hst : forall w', goal (mkms (ms_title m) None (ms_reftext m) (ms_attrlist m) (ms_start m) w')) by (intros w'; right; destruct (Hstay w'); auto).
  assert (Hfin : forall e, (exists m0, e = Ok m0 /\ goal m0) -> exists m' b, (m0 <- e ;; Ok (m0, negb (span_eqb (ms_start m0) (ms_start m)))) = Ok (m', b) /\ md_ok m' /\ md_left m' <= md_left m /\ (b = true -> md_left m' < md_left m)).
  { intros e (m0 & -> & Hg). cbn [bind]. exists m0. eexists. split; [reflexivity|]. destruct Hg as [(H1 & H2)|(H1 & H2 & H3)]; split; auto; split; auto; [lia|]. rewrite H3, span_eqb_refl. discriminate. }
  assert (Hif : forall (b : bool) m1 m2, goal m1 -> goal m2 -> exists m0, Ok (if b then m1 else m2) = Ok m0 /\ goal m0) by (intros [|] m1 m2 H1 H2; eauto).
  apply Hfin. clear Hfin. rewrite position_spec. pose proof (span_while_app (fun c => negb (COMMA =? c)%N) (sp_data (mi_item mi))) as Dsp. pose proof (span_while_stop (fun c => negb (COMMA =? c)%N) (sp_data (mi_item mi))) as Dst.
  destruct (span_while (fun c => negb (COMMA =? c)%N) (sp_data (mi_item mi))) as [a b] eqn:Es. cbn [fst snd] in *. symmetry in Dsp. destruct b as [|c b]; [apply Hif; auto|].
  specialize (Dst _ _ eq_refl). apply negb_false_iff, N.eqb_eq in Dst. subst c.
  assert (Hc : checked_sub (blen (sp_data (mi_item mi))) 1 = Ok (blen (sp_data (mi_item mi)) - 1)).
  { unfold checked_sub. replace (1 <=? blen (sp_data (mi_item mi))) with true; [reflexivity|]. symmetry. apply Nat.leb_le. rewrite Dsp, blen_app. cbn [blen]. pose proof (clen_pos COMMA). lia. }
  rewrite Hc. cbn [bind]. destruct (blen a <? blen (sp_data (mi_item mi)) - 1); [|apply Hif; auto].
  rewrite (slice_to_ok _ _ _ Dsp). cbn [bind]. replace (blen a + 1) with (blen (a ++ [COMMA])) by (rewrite blen_app; reflexivity). rewrite (slice_from_ok (mi_item mi) (a ++ [COMMA]) b) by (rewrite Dsp, <- app_assoc; reflexivity). cbn [bind]. apply Hif; auto.
Qed.
Lemma attrlist_step_total E P m : md_ok m -> exists m' b, md_attrlist_step E P m = Ok (m', b) /\ md_ok m' /\ md_left m' <= md_left m /\ (b = true -> md_left m' < md_left m).
Proof.
  intros M. pose proof M as (S1 & T1 & G & Gt). unfold md_attrlist_step. destruct (ms_attrlist m) eqn:Ea; [exists m, false; split; [reflexivity|split; [exact M|split; [lia|discriminate]]]|].
  assert (Hstay : exists m' b, Ok (m, false) = Ok (m', b) /\ md_ok m' /\ md_left m' <= md_left m /\ (b = true -> md_left m' < md_left m)) by (exists m, false; split; [reflexivity|split; [exact M|split; [lia|discriminate]]]).
  unfold parse_maybe_attrlist_line. destruct (starts_with (lit "[") (sp_data (ms_start m))) eqn:E1; [|exact Hstay].
  destruct (take_norm (ms_start m)) as (l & r & n & Hl & ->). cbn [bind mi_item mi_after sp_data with_data].
  destruct (ends_with (lit "]") n) eqn:E2; [|exact Hstay].
  apply starts_with_spec in E1. destruct E1 as (q & Eq). apply ends_with_spec in E2. destruct E2 as (z & Ez).
  assert (En : exists x, n = lit "[" ++ x).
  { destruct (a_line_prefix _ _ _ _ Hl) as (w & Ew). pose proof (a_line_app _ _ _ _ Hl) as D. rewrite Eq, Ew, Ez in D. clear - D Ez.
    destruct z as [|z0 z]; cbn in D; [discriminate D|]. injection D as <- _. rewrite Ez. eexists. reflexivity. }
  destruct En as (x & Ex). destruct (ends_cut _ _ n x z Ex Ez) as (mid & Em); [right; intros c Hc Hc'; cbn in Hc, Hc'; destruct Hc as [<-|[]], Hc' as [Hc'|[]]; discriminate Hc'|discriminate|].
  assert (Eb : checked_sub (blen n) 1 = Ok (blen (lit "[" ++ mid))).
  { rewrite Em, !blen_app. unfold checked_sub. change (blen (lit "]")) with 1. change (blen (lit "[")) with 1. replace (1 <=? 1 + (blen mid + 1)) with true by (symmetry; apply Nat.leb_le; lia). f_equal. lia. }
  rewrite Eb. cbn [bind]. change 1 with (blen (lit "[")) at 1. rewrite (slice_ok (with_data (ms_start m) n) (lit "[") mid (lit "]") Em). cbn [bind]. rewrite sp_data_skip.
  destruct (starts_with [SP] mid || starts_with [TAB] mid || starts_with (lit "[") mid && ends_with (lit "]") mid); [exact Hstay|].
  set (src := skip (with_data (ms_start m) n) (lit "[") mid). assert (Dsrc : sp_data src = mid) by apply sp_data_skip. clearbody src.
  destruct (meta_next _ _ _ _ T1 (solid_nonempty _ S1) Hl (or_intror (ex_intro _ x Ex))) as (S2 & T2 & Hb & _).
  destruct Hb as [(y & Ey & _)|((_ & Hb1 & Hb2 & Hb3) & Hmeta)]; [exfalso; rewrite Ey in Ex; discriminate Ex|].
  assert (Hin : forall c, In c mid -> In c n) by (intros c K; rewrite Em; apply in_app_iff; right; apply in_app_iff; left; exact K).
  rewrite (attrlist_quiet _ (norm_of E P) (fun t => Ok t)) by (rewrite Dsrc; auto).
  destruct (attrlist_total (e_u E) (fun t => Ok t) P src CtxBlock total_id) as (a & ws & Eal). rewrite Eal. cbn [bind fst snd mi_item mi_after].
  do 2 eexists. split; [reflexivity|]. unfold md_left. cbn [ms_title ms_anchor ms_attrlist]. rewrite Ea. cbn [unset]. split; [|split; [lia|intros _; lia]].
  split; [|split; [|split]]; cbn [ms_start ms_attrlist ms_title]; rewrite ?sp_data_skip; try assumption. intros al K. injection K as <-. split; [exact (parse_wf _ _ _ _ _ _ _ total_id Eal)|].
  assert (Hsub : forall x, infix x (sp_data src) -> infix x n) by (intros q0 Hq0; eapply infix_trans; [exact Hq0|]; rewrite Dsrc, Em; exists (lit "["), (lit "]"); reflexivity).
  split; [|intros Hsn; exists n; split; [exact Hmeta|]; apply Hsub; eapply named_written; [| |exact Eal|exact Hsn]; rewrite Dsrc; auto].
  intros Hst.
  assert (Hw : infix (lit "literal") (sp_data src) \/ exists y, lit "literal" = 34%N :: y).
  { eapply style_written; [| |exact Eal|exact Hst]; rewrite Dsrc; auto. }
  destruct Hw as [Hw|(y & Hy)]; [|discriminate Hy]. apply Hb3. eapply infix_trans; [exact Hw|]. rewrite Dsrc, Em. exists (lit "["), (lit "]"). reflexivity.
Qed.
Lemma md_loop_total E P : forall fuel m, md_ok m -> md_left m < fuel -> exists m', md_loop E P fuel m = Ok m' /\ md_ok m'.
Proof.
  induction fuel as [|fuel IH]; intros m M Hf; [lia|]. cbn [md_loop]. destruct (title_step_total m M) as (o & -> & Ho). cbn [bind]. destruct o as [m1|].
  { destruct (Ho _ eq_refl) as (M1 & H1). apply IH; [exact M1|lia]. }
  destruct (anchor_step_total (e_u E) m M) as (m1 & b1 & -> & M1 & L1 & B1). cbn [bind fst snd]. destruct b1; [specialize (B1 eq_refl); apply IH; [exact M1|lia]|].
  destruct (attrlist_step_total E P m1 M1) as (m2 & b2 & -> & M2 & L2 & B2). cbn [bind fst snd]. destruct b2; [specialize (B2 eq_refl); apply IH; [exact M2|lia]|]. eauto.
Qed.
Lemma discard_solid s : solid (sp_data s) -> p_discard_empty_lines s = s.
Proof. intros H. destruct (solid_first _ H) as (l & r & c & y & Hl & Hc). apply (discard_none s l r (c :: y) c Hl); [left; reflexivity|]. intros K. apply ws_sp_tab in K. congruence. Qed.
Lemma metadata_tame E s P : (forall t, c_text A t -> exists o, e_sub E P GNormal false t = Ok o) -> solid (sp_data s) -> tame A false (sp_data s) -> exists m ws, metadata_parse E s P = Ok (m, ws) /\
  md_source m = s /\ Suffix s (md_start m) /\ solid (sp_data (md_start m)) /\ tame A false (sp_data (md_start m)) /\ good_opt (md_attrlist m).
Proof.
  intros He Hs Ht. unfold metadata_parse. rewrite discard_empty_lines_ok, (discard_solid _ Hs). cbn [bind].
  destruct (md_loop_total E P 4 (mkms None None None None s [])) as (m' & Em & S1 & T1 & G1 & G2); [split; [exact Hs|split; [exact Ht|split; intros a K; discriminate K]]|cbn; lia|].
  rewrite Em. cbn [bind]. pose proof (md_loop_Suffix _ _ _ _ _ Em) as Sx. cbn [ms_start] in Sx.
  destruct (ms_title m') as [t|].
  - destruct (He (sp_data t) (G2 _ eq_refl)) as (o & Eo). rewrite Eo. cbn [bind]. do 2 eexists. split; [reflexivity|]. cbn [md_source md_start md_attrlist]. auto 7.
  - cbn [bind]. do 2 eexists. split; [reflexivity|]. cbn [md_source md_start md_attrlist]. auto 7.
Qed.

(** * The pieces of a block *)
(** The groups that can be asked for: the given ones, and any if an attribute list can have [subs]. *)
Definition asked (l : list group) (g : group) : Prop := In g l \/ exists n, c_meta A n /\ infix (lit "subs") n.
Definition text_groups : list group := [GNormal; GTitle; GHeader; GNone].
Definition raw_groups : list group := [GVerbatim; GPass; GNone].
Definition esub_on (E : env) : Prop :=
  (forall P g hb t, asked text_groups g -> c_text A t -> exists o, e_sub E P g hb t = Ok o) /\
  (forall P g hb t, asked raw_groups g -> c_raw A t -> exists o, e_sub E P g hb t = Ok o).
Lemma join_class ls : Forall (c_text A) ls -> c_text A (join [LF] ls).
Proof. induction 1 as [|x l Hx Hl IH]; [exact (c_nil A)|]. destruct l as [|y l]; [exact Hx|]. exact (c_lines A _ _ Hx IH). Qed.
Lemma apply_subs_total E P g a t : (forall hb, exists o, e_sub E P g hb t = Ok o) -> good_opt a -> exists o, apply_subs E P g a t = Ok o.
Proof.
  intros He Ha. unfold apply_subs, hardbreaks. destruct a as [a|]; [|cbn [bind]; apply He]. destruct (Ha a eq_refl) as (W & _). destruct (accessors_total a W) as (_ & _ & (l & El) & _).
  unfold al_has_option. rewrite El. cbn [bind]. apply He.
Qed.
Lemma style_total a : good_opt a -> exists o, style_of a = Ok o /\ o <> Some (lit "literal").
Proof.
  intros Ha. destruct a as [a|]; [|exists None; split; [reflexivity|discriminate]]. destruct (Ha a eq_refl) as (W & L & _). destruct (accessors_total a W) as (_ & _ & _ & (o & Eo)). exists o. split; [exact Eo|]. congruence.
Qed.
Lemma override_total l g a : In GNone l -> In g l -> good_opt a -> exists o, override_via_attrlist g a = Ok o /\ asked l o.
Proof.
  intros Hn Hg Ha. unfold override_via_attrlist. destruct a as [a|]; [|exists g; split; [reflexivity|left; exact Hg]]. destruct (Ha a eq_refl) as (W & L & Sb). destruct (accessors_total a W) as (_ & _ & _ & (o & Eo)).
  assert (Es : exists o, opt_bind (nth_attribute a 1) ea_block_style = Ok o) by (unfold al_block_style in Eo; destruct (nth_attribute a 1); cbn [opt_bind]; eauto). destruct Es as (st & ->). cbn [bind].
  destruct (named_value a (lit "subs")) as [t|]; cbn [opt_bind bind].
  - rewrite from_custom_string_eq. cbn [bind]. eexists. split; [reflexivity|]. right. apply Sb. discriminate.
  - eexists. split; [reflexivity|]. left. destruct st as [st|]; [|exact Hg]. destruct (text_eqb st (lit "pass")); assumption.
Qed.
Lemma common_id_total m : good_opt (cm_attrlist m) -> exists o, common_id m = Ok o.
Proof.
  intros Ha. unfold common_id. destruct (cm_anchor m); [eauto|]. destruct (cm_attrlist m) as [a|]; [|eauto]. destruct (Ha a eq_refl) as (W & _). exact (proj1 (accessors_total a W)).
Qed.
Lemma finish_total mi ws P : good_opt (cm_attrlist (block_common (mi_item mi))) -> exists r, finish mi ws P = Ok r /\ pr_item r = Some mi.
Proof.
  intros Ha. unfold finish, block_id. destruct (common_id_total _ Ha) as (o & ->). cbn [bind]. eexists. split; reflexivity.
Qed.
Lemma good_none : good_opt None.
Proof. intros a K. discriminate K. Qed.
Lemma solid_no_indent s : solid (sp_data s) -> indented (sp_data s) 0.
Proof. intros (c & y & D & Hc). exists [], (c :: y). split; [exact D|]. split; [constructor|]. split; [reflexivity|]. intros c' y' K. injection K as <- _. intros K. apply ws_sp_tab in K. congruence. Qed.
Lemma trim_end_solid t : solid t -> trim_end t <> [].
Proof.
  intros (c & y & -> & Hc) E. destruct (trim_end_spec (c :: y)) as (z & Ez & Bz & _). rewrite E in Ez. cbn [app] in Ez. rewrite <- Ez in Bz. apply Forall_inv in Bz. congruence.
Qed.
Lemma paragraph_head k t ls rest pre : paragraph k false t ls rest -> t = pre ++ rest -> solid t -> solid pre.
Proof.
  intros H D S1. destruct (solid_first _ S1) as (l0 & r0 & c & y & Hl0 & Hc). revert D. inversion H as [? ? Ht|? ? ? ? ? ?|? ? l r n ? ? Hl _ Hp|? ? l r n ? ? ? _ Hl _ _ _ _ Hp]; subst; intros D.
  - exfalso. destruct Ht as [Ht|(l' & r' & Ht)]; [rewrite Ht in Hl0; apply a_line_nil in Hl0; discriminate Hl0|]. destruct (a_line_unique _ _ _ _ _ _ _ Hl0 Ht) as (_ & _ & K). discriminate K.
  - destruct (a_line_unique _ _ _ _ _ _ _ Hl0 Hl) as (<- & <- & <-). destruct (paragraph_app _ _ _ _ _ Hp) as (q & Eq). pose proof (a_line_app _ _ _ _ Hl) as Da. rewrite D, Eq, app_assoc in Da. apply app_inv_tail in Da. subst pre.
    destruct (a_line_prefix _ _ _ _ Hl) as (w & ->). apply solid_cons. exact Hc.
  - destruct (a_line_unique _ _ _ _ _ _ _ Hl0 Hl) as (<- & <- & <-). destruct (paragraph_app _ _ _ _ _ Hp) as (q & Eq). pose proof (a_line_app _ _ _ _ Hl) as Da. rewrite D, Eq, app_assoc in Da. apply app_inv_tail in Da. subst pre.
    destruct (a_line_prefix _ _ _ _ Hl) as (w & ->). apply solid_cons. exact Hc.
Qed.
Lemma parse_lines_total E s a P : esub_on E -> good_opt a -> 1 <= sp_col s -> solid (sp_data s) -> tame A false (sp_data s) -> no_delimiter (sp_data s) ->
  exists mi, parse_lines E s a P = Ok (Some mi) /\ ready (sp_data (mi_after mi)) /\ Suffix s (mi_after mi).
Proof.
  intros He Ha Hcol Hs Ht Hd. unfold parse_lines. destruct (discard_ws_col s 0 (solid_no_indent s Hs)) as (saw & -> & Ecol). cbn [bind]. rewrite Ecol, Nat.add_0_r.
  assert (Ec : checked_sub (sp_col s) 1 = Ok (sp_col s - 1)) by (unfold checked_sub; rewrite (proj2 (Nat.leb_le 1 (sp_col s)) Hcol); reflexivity). rewrite Ec. cbn [bind].
  destruct (style_total a Ha) as (bs & -> & _). cbn [bind].
  destruct (simple_lines_spec (sp_col s - 1) (length (sp_data s)) s [] (le_n _)) as (ls & pre & rest & Hp & D & ->). cbn [bind fst snd app started] in *.
  rewrite (trim_to s pre rest (skip s pre rest) D (sp_off_skip _ _ _)). cbn [bind]. rewrite trim_trailing_whitespace_ok. cbn [bind].
  pose proof (trim_end_solid _ (paragraph_head _ _ _ _ _ Hp D Hs)) as Hne. unfold p_trim_trailing_whitespace. cbn [sp_data with_data].
  destruct (trim_end pre) as [|c0 t0] eqn:Et; [contradiction|]. cbn [is_nil].
  destruct (override_total text_groups GNormal a ltac:(cbn; auto) ltac:(cbn; auto) Ha) as (g & -> & Hg). cbn [bind].
  destruct (apply_subs_total E P g a (join [LF] ls) (fun hb => proj1 He P g hb _ Hg (join_class _ (tame_lines _ _ _ _ _ Hp false Ht (fun _ => Hd)))) Ha) as (o & ->). cbn [bind]. rewrite discard_empty_lines_ok. cbn [bind].
  eexists. split; [reflexivity|]. cbn [mi_after]. split.
  - apply discard_ready. rewrite sp_data_skip. exact (tame_paragraph _ _ _ _ _ Hp false Ht (fun _ => Hd)).
  - eapply Suffix_trans; [apply Suffix_intro; exact D|apply discard_empty_Suffix].
Qed.
Lemma simple_total E m P : esub_on E -> good_opt (md_attrlist m) -> 1 <= sp_col (md_start m) -> Suffix (md_source m) (md_start m) ->
  solid (sp_data (md_start m)) -> tame A false (sp_data (md_start m)) -> no_delimiter (sp_data (md_start m)) ->
  exists mi, simple_parse E m P = Ok (Some mi) /\ ready (sp_data (mi_after mi)) /\ block_common (mi_item mi) = common_of m.
Proof.
  intros He Ha Hcol S1 Hs Ht Hd. unfold simple_parse. destruct (parse_lines_total E _ _ P He Ha Hcol Hs Ht Hd) as (x & -> & R & S2). cbn [bind].
  destruct (suffix_cut _ _ (Suffix_trans _ _ _ S1 S2)) as (pre & _ & _ & ->). cbn [bind]. rewrite trim_trailing_whitespace_ok, discard_empty_lines_ok. cbn [bind].
  eexists. split; [reflexivity|]. cbn [mi_after mi_item block_common]. split; [|reflexivity]. apply discard_ready, R.
Qed.
Lemma text_next t l r n : tame A false t -> t <> [] -> a_line t l r n -> ~ raw_delimiter n -> ~ compound_delimiter n -> ~ a_comment n -> c_text A n.
Proof.
  intros T Hne H H1 H2 H3. destruct (tame_inv _ _ _ _ _ T Hne H) as [K _|_ _ F|_ _ _ F|c y E _ _ _ _|K _ _|_ _ _ F|_ _ _ F|c r' K _ _ _|c K _|c r' K _ _ _ _|K _ _]; try assumption; try contradiction. subst n. exact (c_nil A).
Qed.
Lemma raw_cases t l r n : tame A false t -> t <> [] -> a_line t l r n -> raw_delimiter n ->
  (exists c r', enclosed n r c (Some r') /\ (r' = [] \/ solid r') /\ tame A false r' /\ c_raw A c) \/ exists c, enclosed n r c None.
Proof.
  intros T Hne H Hr. destruct (tame_inv _ _ _ _ _ T Hne H) as [Hx _|Hx _|Hx _ _|c y E _ _ _ _|Hx _ _|((y & E) & _) _ _|M S1 T1|c r' Hx H1 H2 H3|c Hx H1|c r' Hx _ _ _ _|Hx _ _].
  8: left; eauto 8. 8: right; eauto. all: exfalso.
  - subst n. exact (raw_delim_nonempty _ Hr eq_refl).
  - exact (proj1 (proj2 (proj2 (proj2 (proj2 Hx)))) Hr).
  - exact (proj1 (proj2 (proj2 (proj2 (proj2 Hx)))) Hr).
  - discriminate E.
  - destruct (comment_text _ Hx) as (_ & _ & _ & K & _). exact (K Hr).
  - subst n. apply raw_delimiter_head in Hr. cbn in Hr. destruct Hr as [Hr|[Hr|[Hr|[Hr|[]]]]]; discriminate Hr.
  - destruct M as [(y & E & Hy)|(((y & E) & _) & _)].
    + destruct Hr as (d & Hd & (k & Hk & Ek)). do 4 (destruct k; [lia|]). rewrite E in Ek. cbn in Ek. injection Ek as <- Ek. destruct (Hy _ _ Ek) as (K & _). contradiction.
    + subst n. apply raw_delimiter_head in Hr. cbn in Hr. destruct Hr as [Hr|[Hr|[Hr|[Hr|[]]]]]; discriminate Hr.
  - exact (raw_not_compound _ Hr Hx).
  - exact (raw_not_compound _ Hr Hx).
Qed.
Lemma compound_cases t l r n : tame A false t -> t <> [] -> a_line t l r n -> compound_delimiter n ->
  (exists c r', enclosed n r c (Some r') /\ tame A false c /\ (r' = [] \/ solid r') /\ tame A false r') \/ (enclosed n r r None /\ tame A false r).
Proof.
  intros T Hne H Hr. destruct (tame_inv _ _ _ _ _ T Hne H) as [Hx _|Hx _|Hx _ _|c y E _ _ _ _|Hx _ _|((y & E) & _) _ _|M S1 T1|c r' Hx H1 H2 H3|c Hx H1|c r' Hx H1 H2 H3 H4|Hx H1 H2].
  10: left; eauto 6. 10: right; eauto. all: exfalso.
  - subst n. exact (compound_delim_nonempty _ Hr eq_refl).
  - exact (proj1 (proj2 (proj2 (proj2 (proj2 (proj2 Hx))))) Hr).
  - exact (proj1 (proj2 (proj2 (proj2 (proj2 (proj2 Hx))))) Hr).
  - discriminate E.
  - destruct (comment_text _ Hx) as (_ & _ & _ & _ & K). exact (K Hr).
  - subst n. apply compound_delimiter_head in Hr. cbn in Hr. destruct Hr as [Hr|[Hr|[Hr|[Hr|[]]]]]; discriminate Hr.
  - destruct M as [(y & E & _)|(((y & E) & _) & _)]; subst n; apply compound_delimiter_head in Hr; cbn in Hr; destruct Hr as [Hr|[Hr|[Hr|[Hr|[]]]]]; discriminate Hr.
  - exact (raw_not_compound _ Hx Hr).
  - exact (raw_not_compound _ Hx Hr).
Qed.
Lemma ends_next t l r n : tame A false t -> t <> [] -> a_line t l r n -> ends_block n -> ~ a_comment n -> ~ raw_delimiter n -> ~ compound_delimiter n -> tame A false r.
Proof.
  intros T Hne H He H1 H2 H3. destruct (tame_inv _ _ _ _ _ T Hne H) as [_ K|_ K|_ K _|c y E _ _ _ _|K _ _|_ _ K|_ _ K|c r' K _ _ _|c K _|c r' K _ _ _ _|K _ _]; try assumption; try contradiction. discriminate E.
Qed.
Lemma colon_next t l r n y : tame A false t -> t <> [] -> a_line t l r n -> n = lit ":" ++ y -> (r = [] \/ solid r) /\ tame A false r /\ (forall z, n <> z ++ [BSL]) /\ c_text A n.
Proof.
  intros T Hne H En. destruct (tame_inv _ _ _ _ _ T Hne H) as [Hx _|Hx _|Hx _ _|c y' E _ _ _ _|Hx _ _|(_ & K) K1 K2|M S1 T1|c r' Hx H1 H2 H3|c Hx H1|c r' Hx H1 H2 H3 H4|Hx H1 H2].
  6: auto. all: exfalso.
  - subst n. discriminate Hx.
  - exact (proj1 (proj2 (proj2 (proj2 Hx))) _ En).
  - exact (proj1 (proj2 (proj2 (proj2 Hx))) _ En).
  - discriminate E.
  - destruct (comment_text _ Hx) as (_ & _ & K & _). exact (K _ En).
  - destruct M as [(z & E & _)|(((z & E) & _) & _)]; subst n; discriminate E.
  - rewrite En in Hx. apply raw_delimiter_head in Hx. cbn in Hx. destruct Hx as [Hr|[Hr|[Hr|[Hr|[]]]]]; discriminate Hr.
  - rewrite En in Hx. apply raw_delimiter_head in Hx. cbn in Hx. destruct Hx as [Hr|[Hr|[Hr|[Hr|[]]]]]; discriminate Hr.
  - rewrite En in Hx. apply compound_delimiter_head in Hx. cbn in Hx. destruct Hx as [Hr|[Hr|[Hr|[Hr|[]]]]]; discriminate Hr.
  - rewrite En in Hx. apply compound_delimiter_head in Hx. cbn in Hx. destruct Hx as [Hr|[Hr|[Hr|[Hr|[]]]]]; discriminate Hr.
Qed.
Lemma logical_line t c r l r' n : logical t c r -> a_line t l r' n -> (forall z, n <> z ++ [BSL]) -> r = r' /\ c = l.
Proof.
  intros H (x & e & D & -> & Hx & He & Ht) Hn. revert D. inversion H as [l0 e0 rest H1 H2 H3 E1 E2 E3|l0 e0 rest consumed rest' H1 H2 H3 H4 E1 E2 E3]; subst; intros D.
  - rewrite <- app_assoc in D. destruct (line_unique _ _ _ _ _ _ D H1 Hx H2 He) as (-> & -> & ->). auto.
  - exfalso. rewrite <- app_assoc in D. destruct (line_unique _ _ _ _ _ _ D H1 Hx H2 He) as (-> & -> & ->). apply continued_dec in H3. apply ends_with_spec in H3. destruct H3 as (z & Ez).
    apply (Hn z). rewrite <- Ez. destruct Ht as (y & sps & Hm & Ey & Hsp & Hlast). rewrite (minus_cr_unique _ _ _ (strip_cr_minus x) Hm), Ey. symmetry. apply trim_end_by_unique; [apply Forall_forall; intros k Hk; rewrite (Hsp k Hk); apply N.eqb_refl|].
    intros b k Eb. apply N.eqb_neq. intros <-. exact (Hlast _ Eb).
Qed.
Lemma line_trimmed t l r n : a_line t l r n -> trim_end_by (N.eqb SP) (strip1 CR (strip1 LF l)) = n.
Proof.
  intros (x & e & -> & -> & Hx & He & y & sps & Hm & Ey & Hsp & Hlast). symmetry. apply stripped_eq. subst y.
  assert (Hsf : Forall (eq SP) sps) by (apply Forall_forall; intros k Hk; symmetry; exact (Hsp k Hk)).
  assert (Hlx : forall q, x <> q ++ [LF]) by (intros q ->; apply Hx, in_app_iff; right; left; reflexivity).
  destruct Hm as [-> | (-> & Hm)]; destruct He as [-> | (-> & _)].
  - exists sps, [CR], [LF]. rewrite <- !app_assoc. split; [reflexivity|]. split; [left; reflexivity|]. split; [left; reflexivity|]. split; assumption.
  - exists sps, [CR], []. rewrite <- !app_assoc. split; [reflexivity|]. split; [right; split; [reflexivity|]; rewrite app_nil_r; intros q K; apply (Hlx q); rewrite <- K, <- app_assoc; reflexivity|]. split; [left; reflexivity|]. split; assumption.
  - exists sps, [], [LF]. rewrite <- !app_assoc. split; [reflexivity|]. split; [left; reflexivity|]. split; [right; split; [reflexivity|exact Hm]|]. split; assumption.
  - exists sps, [], []. rewrite <- !app_assoc. split; [reflexivity|]. split; [right; split; [reflexivity|]; rewrite app_nil_r; intros q K; apply (Hlx q); rewrite <- K; reflexivity|]. split; [right; split; [reflexivity|exact Hm]|]. split; assumption.
Qed.
Lemma entry_total E s P : esub_on E -> solid (sp_data s) -> tame A false (sp_data s) -> (exists y, sp_data s = lit ":" ++ y) ->
  exists o, attribute_parse (apply_header_subs E) s P = Ok o /\ forall mi, o = Some mi -> ready (sp_data (mi_after mi)).
Proof.
  intros He Hs Ht (y0 & Ey). destruct (solid_first _ Hs) as (l & r & c & y & Hl & Hc). destruct (a_line_head _ _ _ _ _ Hl) as (z & Ez). rewrite Ey in Ez. injection Ez as <- _.
  destruct (colon_next _ _ _ _ y Ht (solid_nonempty _ Hs) Hl eq_refl) as (R1 & R2 & Hn & Fn). destruct (logical_total (sp_data s)) as (c & r' & Hlog). destruct (logical_line _ _ _ _ _ _ Hlog Hl Hn) as (-> & ->).
  destruct (attribute_parse_eq (apply_header_subs E) s P _ _ Hlog) as (pre & vs & -> & _). rewrite (line_trimmed _ _ _ _ Hl). destruct (e_parse _) as [[n [u rest]]|] eqn:Ep; [|exists None; split; [reflexivity|intros mi K; discriminate K]].
  assert (Ev : exists v, e_value (apply_header_subs E) P u rest = Ok v).
  { unfold e_value. destruct u; [eauto|]. destruct rest as [|x rest]; [eauto|]. destruct (fold_value_total (e_raw (x :: rest))) as (o & Eo). rewrite Eo. cbn [bind]. unfold apply_header_subs.
    assert (Fo : c_text A o).
    { assert (Fe : c_text A (e_raw (x :: rest))) by (apply e_parse_iff, entry_rest in Ep; destruct Ep as (q & Eq); rewrite Eq in Fn; apply (c_suffix A) in Fn; unfold e_raw; rewrite <- (span_while_app is_sp_tab (x :: rest)) in Fn; exact (c_suffix A _ _ Fn)).
      enough (Nl : ~ In LF (e_raw (x :: rest))) by (rewrite (fold_value_single _ Nl) in Eo; apply Ok_inj in Eo; subst o; exact Fe).
      intros K. assert (K2 : In LF (58%N :: y)); [|exact (a_line_no_lf _ _ _ _ Hl K2)].
      apply e_parse_iff, entry_rest in Ep. destruct Ep as (q & Eq). rewrite Eq. apply in_app_iff. right. rewrite <- (span_while_app is_sp_tab (x :: rest)). apply in_app_iff. right. exact K. }
    destruct (proj1 He P GHeader false o (or_introl (or_intror (or_intror (or_introl eq_refl)))) Fo) as (o' & ->). cbn [bind]. eauto. }
  destruct Ev as (v & ->). cbn [bind]. eexists. split; [reflexivity|]. intros mi K. injection K as <-. cbn [mi_after]. rewrite sp_data_skip. split; assumption.
Qed.

(** * Lines that are blocks *)
Lemma line_source_total m l r n : Suffix (md_source m) (md_start m) -> solid (sp_data (md_source m)) -> a_line (sp_data (md_start m)) l r n ->
  exists src, line_block_source m (skip (md_start m) l r) = Ok src.
Proof.
  intros S1 (c0 & y0 & D0 & Hc0) Hl. pose proof (Suffix_trans _ _ _ S1 (suffix_line _ _ _ _ Hl)) as S2. destruct (suffix_cut _ _ S2) as (q & Dq & Eq & _). rewrite sp_data_skip in Dq.
  eexists. apply (line_block_source_ok m q _ r Dq Eq). intros c y ->. rewrite Dq in D0. cbn [app] in D0. injection D0 as -> _. exact Hc0.
Qed.
Lemma take_ident_total s : exists o, take_ident s = Ok o /\ forall mi, o = Some mi -> exists a b, sp_data s = a ++ b /\ mi = psplit s a b.
Proof.
  unfold take_ident. rewrite take_name_ok. eexists. split; [reflexivity|]. intros mi. unfold p_take_name. destruct (sp_data s) as [|c t]; [discriminate|]. 
  match goal with |- context [if ?b then _ else _] => destruct b end; [|discriminate]. match goal with |- context [span_while ?p t] => pose proof (span_while_app p t) as D; destruct (span_while p t) as [a b] end. cbn [fst snd] in D.
  intros K. injection K as <-. exists (c :: a), b. rewrite <- D. split; reflexivity.
Qed.
Lemma media_total E m P l r n : esub_on E -> good_opt (md_attrlist m) -> Suffix (md_source m) (md_start m) -> solid (sp_data (md_source m)) -> a_line (sp_data (md_start m)) l r n -> tame A false r ->
  exists o w, media_parse E m P = Ok (o, w) /\ forall mi, o = Some mi -> ready (sp_data (mi_after mi)) /\ good_opt (cm_attrlist (block_common (mi_item mi))).
Proof.
  intros He Ha S1 Hs Hl Ht. assert (Hno : forall w : list warning, exists o w', Ok (None, w) = Ok (o, w') /\ forall mi : mitem block, o = Some mi -> ready (sp_data (mi_after mi)) /\ good_opt (cm_attrlist (block_common (mi_item mi)))) by (intros w; do 2 eexists; split; [reflexivity|intros mi K; discriminate K]).
  unfold media_parse. rewrite (take_norm_eq _ _ _ _ Hl). cbn [bind mi_item mi_after sp_data with_data]. destruct (ends_with (lit "]") n) eqn:Ee; cbn [negb]; [|apply Hno].
  apply ends_with_spec in Ee. destruct Ee as (z & Ez).
  destruct (take_ident_total (with_data (md_start m) n)) as (o & -> & Ho). cbn [bind]. destruct o as [name|]; [|apply Hno]. destruct (Ho _ eq_refl) as (a & b & D1 & ->). cbn [sp_data with_data] in D1. cbn [psplit mi_item mi_after].
  destruct (media_type_of _) as [ty|]; [|apply Hno]. rewrite take_prefix_ok. unfold p_take_prefix. rewrite sp_data_skip. destruct (starts_with (lit "::") b) eqn:E2; cbn [bind]; [|apply Hno].
  apply starts_with_spec in E2. destruct E2 as (b2 & E2). rewrite E2. change (skipn (length (lit "::")) (lit "::" ++ b2)) with b2. cbn [psplit mi_item mi_after].
  rewrite take_while_ok. unfold p_take_while. rewrite sp_data_skip. pose proof (span_while_app (fun c => negb (c =? 91)%N) b2) as D3. destruct (span_while (fun c => negb (c =? 91)%N) b2) as [tg b3]. cbn [fst snd bind psplit mi_item mi_after sp_data with_data] in *.
  destruct (is_nil tg); [apply Hno|]. rewrite take_prefix_ok. unfold p_take_prefix. rewrite sp_data_skip. destruct (starts_with (lit "[") b3) eqn:E4; cbn [bind]; [|apply Hno].
  apply starts_with_spec in E4. destruct E4 as (b4 & E4). rewrite E4. change (skipn (length (lit "[")) (lit "[" ++ b4)) with b4. cbn [psplit mi_item mi_after]. rewrite sp_data_skip.
  assert (K : exists x, b4 = x ++ lit "]").
  { rewrite <- D3, E4 in E2. rewrite E2 in D1. rewrite Ez in D1. clear - D1. destruct (rev_cons_inv b4) as [->|(x & c & ->)].
    - exfalso. rewrite !app_assoc in D1. change (lit "]") with [93%N] in D1. rewrite app_nil_r in D1. change (lit "[") with [91%N] in D1. apply app_last_eq in D1. destruct D1 as [_ D1]. discriminate D1.
    - exists x. rewrite !app_assoc in D1. change (lit "]") with [93%N] in D1 |- *. apply app_last_eq in D1. destruct D1 as [_ <-]. reflexivity. }
  destruct K as (x & Ex).
  assert (Eb : checked_sub (blen b4) 1 = Ok (blen x)). { rewrite Ex, blen_app. change (blen (lit "]")) with 1. unfold checked_sub. replace (1 <=? blen x + 1) with true by (symmetry; apply Nat.leb_le; lia). f_equal. lia. }
  rewrite Eb. cbn [bind]. match goal with |- context [slice ?s 0 (blen x)] => rewrite (slice0_ok s x (lit "]")) by (rewrite sp_data_skip; exact Ex) end. cbn [bind].
  match goal with |- context [attrlist_parse ?u ?nn ?p ?s ?c] => rewrite (attrlist_parse_inline u nn (fun t => Ok t)); destruct (attrlist_total u (fun t => Ok t) p s c total_id) as (al & ws & ->) end. cbn [bind].
  destruct (line_source_total m l r n S1 Hs Hl) as (src & ->). cbn [bind]. rewrite discard_empty_lines_ok. cbn [bind]. do 2 eexists. split; [reflexivity|]. intros mi K. injection K as <-. cbn [mi_item mi_after block_common cm_attrlist]. split; [|exact Ha].
  apply discard_ready. rewrite sp_data_skip. exact Ht.
Qed.
Lemma break_total m l r n : Suffix (md_source m) (md_start m) -> solid (sp_data (md_source m)) -> a_line (sp_data (md_start m)) l r n -> (break_line n -> tame A false r) ->
  exists o, break_parse m = Ok o /\ forall mi, o = Some mi -> ready (sp_data (mi_after mi)).
Proof.
  intros S1 Hs Hl Ht. unfold break_parse. rewrite (take_norm_eq _ _ _ _ Hl). cbn [bind mi_item mi_after sp_data with_data]. destruct (break_type_of n) as [ty|] eqn:Eb; [|exists None; split; [reflexivity|intros mi K; discriminate K]].
  destruct (line_source_total m l r n S1 Hs Hl) as (src & ->). cbn [bind]. rewrite discard_empty_lines_ok. cbn [bind]. eexists. split; [reflexivity|]. intros mi K. injection K as <-. cbn [mi_after]. apply discard_ready. rewrite sp_data_skip. apply Ht.
  unfold break_type_of in Eb. unfold break_line. destruct (existsb _ _) eqn:Ex.
  - apply existsb_exists in Ex. destruct Ex as (x & Hx & Exx). apply text_eqb_eq in Exx. subst x. cbn [In] in Hx |- *. tauto.
  - destruct (text_eqb_spec n (lit "<<<")) as [->|_]; [|discriminate Eb]. cbn [In]. tauto.
Qed.

(** * Sections *)
Definition good_stop (f : stop_fn) : Prop := forall s n, solid (sp_data s) -> tame A false (sp_data s) -> exists r, f s n = Ok r.
Lemma never_good : good_stop never.
Proof. intros s n _ _. eexists. reflexivity. Qed.
Lemma discrete_total m : good_opt (md_attrlist m) -> exists d, is_discrete m = Ok d.
Proof. intros Ha. unfold is_discrete. destruct (style_total _ Ha) as (o & -> & _). cbn [bind]. eauto. Qed.
Lemma solid_not_indented t : solid t -> forall l r c y, a_line t l r (c :: y) -> ~ sp_tab c.
Proof. intros (c0 & y0 & -> & Hc) l r c y H K. destruct (a_line_head _ _ _ _ _ H) as (z & Ez). injection Ez as -> _. apply ws_sp_tab in K. congruence. Qed.
Lemma section_stop_good E d level : esub_on E -> good_stop (section_stop E d level).
Proof.
  intros He s n Hs Ht. unfold section_stop. destruct d; [eauto|]. unfold peer_or_ancestor_section. destruct (metadata_tame E s parser_default (fun t => proj1 He _ GNormal false t (or_introl (or_introl eq_refl))) Hs Ht) as (m & ws & -> & _ & _ & Hs1 & _ & Ha). cbn [bind fst].
  destruct (discrete_total m Ha) as (d & ->). cbn [bind]. destruct d; [eauto|]. destruct (title_line_total (md_start m) (solid_not_indented _ Hs1)) as (o & w & ->). cbn [bind fst snd]. destruct o as [mi|]; [|eauto].
  destruct (n + 1 <? fst (mi_item mi)); [|cbn [bind]; eauto]. destruct (take_norm s) as (l & r & k & _ & ->). cbn [bind]. eauto.
Qed.
Definition total_until (D : text) (N : nat) (un : stop_fn -> nat -> span -> parser -> res bres) : Prop :=
  forall f n s P, good_stop f -> located D s -> tame A false (sp_data s) -> length (sp_data s) < N -> exists b, un f n s P = Ok b /\ ready (sp_data (br_after b)).
Lemma register_total sectids manual base rt at_ P : (exists s, at_ = Ok s) -> exists r, section_register sectids manual base rt at_ P = Ok r.
Proof.
  intros (s & ->). unfold section_register. destruct (p_catalog P) as [c|]; [|eauto]. destruct manual as [i|].
  - destruct (fst (register_ref c i (Some rt) RSection)); cbn [bind]; eauto.
  - destruct sectids; [|eauto]. destruct (generate_any c base (Some rt) RSection) as (i & c' & -> & _). cbn [bind]. eauto.
Qed.
Lemma section_total D E un m P : esub_on E -> good_opt (md_attrlist m) -> located D (md_source m) -> Suffix (md_source m) (md_start m) ->
  solid (sp_data (md_start m)) -> good_until D un -> total_until D (length (sp_data (md_source m))) un ->
  (forall l r n k t, a_line (sp_data (md_start m)) l r n -> heading n k t -> tame A false r /\ c_text A n) ->
  exists o w, section_parse E un m P = Ok (o, w) /\ forall mi, o = Some mi -> ready (sp_data (mi_after mi)).
Proof.
  intros He Ha L S1 Hs G T Ht. unfold section_parse. destruct (discrete_total m Ha) as (d & ->). cbn [bind]. rewrite discard_empty_lines_ok, (discard_solid _ Hs). cbn [bind].
  destruct (title_line_total (md_start m) (solid_not_indented _ Hs)) as (o & w & Etl). rewrite Etl. cbn [bind fst snd]. destruct o as [lt|]; [|do 2 eexists; split; [reflexivity|intros mi K; discriminate K]].
  destruct (style_total _ Ha) as (bs & -> & _). cbn [bind]. apply title_line_some in Etl. destruct Etl as (l & r & n & t & Hl & Hn & _ & Et & Ea & _).
  assert (Ft : c_text A t) by (destruct (Ht _ _ _ _ _ Hl Hn) as (_ & F); destruct Hn as (cc & w0 & _ & _ & Enn & _); rewrite Enn in F; apply (c_suffix A) in F; exact (c_suffix A _ _ F)).
  assert (S2 : Suffix (md_source m) (mi_after lt)) by (rewrite Ea; eapply Suffix_trans; [exact S1|exact (suffix_line _ _ _ _ Hl)]).
  match goal with |- context [un ?f ?n0 ?s ?p] => destruct (T f n0 s p) as (b & Eb & Rb) end.
  - apply section_stop_good, He.
  - exact (located_Suffix _ _ _ L S2).
  - rewrite Ea, sp_data_skip. exact (proj1 (Ht _ _ _ _ _ Hl Hn)).
  - rewrite Ea, sp_data_skip. pose proof (strict_line _ _ _ _ Hl (heading_nonempty _ _ _ Hn)). pose proof (suffix_len _ _ S1). lia.
  - rewrite Eb. cbn [bind]. destruct (G _ _ _ _ _ (located_Suffix _ _ _ L S2) Eb) as (Sb & _). destruct (suffix_cut _ _ (Suffix_trans _ _ _ S2 Sb)) as (q & _ & _ & ->). cbn [bind].
    destruct (apply_subs_total E (br_parser b) GTitle (md_attrlist m) (sp_data (snd (mi_item lt))) (fun hb => proj1 He _ GTitle hb _ (or_introl (or_intror (or_introl eq_refl))) (eq_ind_r (c_text A) Ft Et)) Ha) as (title & ->). cbn [bind].
    destruct (section_id_of (e_u E) title (br_parser b)) as (g & _ & ->). cbn [bind].
    assert (Em : exists o, manual_id m = Ok o). { unfold manual_id. destruct (md_attrlist m) as [a|]; [|cbn [bind]; eauto]. destruct (Ha a eq_refl) as (W & _). destruct (accessors_total a W) as ((i & ->) & _). cbn [bind]. eauto. }
    destruct Em as (manual & ->). cbn [bind]. match goal with |- context [section_register ?a1 ?a2 ?a3 ?a4 ?a5 ?a6] => destruct (register_total a1 a2 a3 a4 a5 a6) as (reg & ->) end.
    { destruct (suffix_cut _ _ S2) as (q2 & _ & _ & K). eauto. }
    cbn [bind]. rewrite trim_trailing_whitespace_ok. cbn [bind]. do 2 eexists. split; [reflexivity|]. intros mi K. injection K as <-. exact Rb.
Qed.

(** * Any block *)
Lemma located_col d s : located d s -> 1 <= sp_col s.
Proof. intros (a & b & _ & _ & K & _). destruct K as (x & y & _ & _ & _ & ->). lia. Qed.
Lemma no_block_total E m ws P : esub_on E -> good_opt (md_attrlist m) -> 1 <= sp_col (md_start m) -> Suffix (md_source m) (md_start m) ->
  solid (sp_data (md_start m)) -> tame A false (sp_data (md_start m)) -> no_delimiter (sp_data (md_start m)) ->
  exists r mi, no_block E m ws P = Ok r /\ pr_item r = Some mi /\ ready (sp_data (mi_after mi)).
Proof.
  intros He Ha Hc S1 Hs Ht Hd. unfold no_block, last_resort. destruct (simple_total E m P He Ha Hc S1 Hs Ht Hd) as (mi & Em & R & Cm). rewrite Em. cbn [bind is_some negb andb].
  destruct (finish_total mi ws P) as (r & -> & Er); [rewrite Cm; exact Ha|]. exists r, mi. auto.
Qed.
Lemma heading_ends n k t : heading n k t -> ends_block n /\ ~ a_comment n.
Proof.
  intros (c & w & Hc & Hl & -> & _). cbn in Hc. split.
  - destruct Hc as [<-|[<-|[]]]; [left|right; left]; eexists; reflexivity.
  - intros (r & E & _). destruct Hc as [<-|[<-|[]]]; discriminate E.
Qed.
Lemma break_ends n : break_line n -> ends_block n /\ ~ a_comment n.
Proof.
  intros H. split; [right; right; right; exact H|]. intros (r & -> & _). unfold break_line in H. cbn [In] in H. repeat (destruct H as [H|H]; [discriminate H|]). exact H.
Qed.
Lemma block_total D E un s P : esub_on E -> located D s -> solid (sp_data s) -> tame A false (sp_data s) -> good_until D un -> total_until D (length (sp_data s)) un ->
  exists r mi, block_parse_with E un s P = Ok r /\ pr_item r = Some mi /\ ready (sp_data (mi_after mi)).
Proof.
  intros He L Hs Ht G T. unfold block_parse_with. destruct (solid_first _ Hs) as (l & r & c & y & Hl & Hc). destruct (first_line_of _ _ _ _ Hl) as (fl & z & Efl & Dfl). rewrite Efl. cbn [bind].
  destruct (a_line_head _ _ _ _ _ Hl) as (t0 & D0).
  assert (Hmark : is_marker c = false -> no_delimiter (sp_data s)).
  { intros K l' r' n' H'. destruct (a_line_unique _ _ _ _ _ _ _ Hl H') as (_ & _ & <-). split; intros X.
    - apply raw_delimiter_head in X. cbn in X. destruct X as [X|[X|[X|[X|[]]]]]; subst c; discriminate K.
    - apply compound_delimiter_head in X. cbn in X. destruct X as [X|[X|[X|[X|[]]]]]; subst c; discriminate K. }
  destruct (try_fast s (mi_item fl)) eqn:Ef.
  { unfold try_fast in Ef. rewrite D0 in Ef. apply andb_prop in Ef. destruct Ef as (Ef & _). apply negb_true_iff in Ef. unfold simple_parse_fast.
    destruct (parse_lines_total E s None P He good_none (located_col _ _ L) Hs Ht (Hmark Ef)) as (x & -> & R & _). cbn [bind]. rewrite discard_empty_lines_ok. cbn [bind].
    match goal with |- context [finish ?mi0 ?w0 ?p0] => destruct (finish_total mi0 w0 p0 good_none) as (rr & -> & Er); exists rr, mi0 end. split; [reflexivity|]. split; [exact Er|]. cbn [mi_after]. apply discard_ready, R. }
  cbn [bind].
  assert (He2 : exists o, (if try_entry (mi_item fl) then attribute_parse (apply_header_subs E) s P else Ok None) = Ok o /\ forall mi, o = Some mi -> ready (sp_data (mi_after mi))).
  { destruct (try_entry (mi_item fl)) eqn:Et; [|exists None; split; [reflexivity|intros mi K; discriminate K]]. apply entry_total; auto. unfold try_entry in Et. apply andb_prop in Et. destruct Et as (Et & _). apply starts_with_spec in Et. destruct Et as (q & Eq).
    rewrite Dfl in Eq. cbn [app] in Eq. change (lit ":") with [58%N] in Eq |- *. cbn [app] in Eq. injection Eq as -> _. exists t0. exact D0. }
  destruct He2 as (o & -> & Ho). cbn [bind]. destruct o as [attr|].
  { do 2 eexists. split; [reflexivity|]. split; [reflexivity|]. cbn [mi_after]. exact (Ho _ eq_refl). }
  destruct (metadata_tame E s P (fun t => proj1 He _ GNormal false t (or_introl (or_introl eq_refl))) Hs Ht) as (m & ws & -> & Es & S1 & Hs1 & Ht1 & Ha). cbn [bind fst snd].
  clear Hmark Ef Ho D0 Dfl Efl fl z t0 Hl Hc l r c y. assert (S2 : Suffix (md_source m) (md_start m)) by (rewrite Es; exact S1). pose proof (located_Suffix _ _ _ L S1) as L1.
  unfold with_metadata. destruct (style_total _ Ha) as (bs & -> & Hlit). cbn [bind]. assert (Hst : style_is bs (lit "literal") = false).
  { unfold style_is. destruct bs as [b|]; [|reflexivity]. destruct (text_eqb_spec b (lit "literal")) as [->|_]; [contradiction|reflexivity]. }
  rewrite Hst. destruct (solid_first _ Hs1) as (l & r & c & y & Hl & Hc). set (n := c :: y) in *. pose proof (solid_nonempty _ Hs1) as Hne.
  destruct (raw_delimiter_b n) as (br & _ & Hbr). destruct br.
  { assert (Hraw : raw_delimiter n) by (apply Hbr; reflexivity). destruct (raw_cases _ _ _ _ Ht1 Hne Hl Hraw) as [(cc & r' & He1 & R1 & R2 & Fc)|(cc & He1)].
    - destruct (trim_line_end (with_data s cc)) as (x & Hx & _). cbn [sp_data with_data] in Hx. assert (Hkg : In (snd (snd (kind_of n))) raw_groups) by (pose proof Hraw as (ch & Hch & kk & Hkk & Enn); destruct kk as [|kk]; [lia|]; rewrite Enn; cbn in Hch; destruct Hch as [<-|[<-|[<-|[<-|[]]]]]; cbn; auto).
      destruct (override_total raw_groups (snd (snd (kind_of n))) (md_attrlist m) ltac:(cbn; auto) Hkg Ha) as (g & Eg & Hg). assert (Fx : c_raw A x) by (destruct Hx as [(e0 & K & Km)|(K & _)]; [rewrite K in Fc; apply (c_prefix A) in Fc; match goal with M : minus_cr _ _ |- _ => destruct M as [Ke | (Ke & _)]; rewrite Ke in Fc; [exact (c_prefix A _ _ Fc)|exact Fc] end|subst x; exact Fc]).
      destruct (apply_subs_total E P g (md_attrlist m) x (fun hb => proj2 He P g hb _ Hg Fx) Ha) as (tt & Ett).
      destruct (raw_parse_found E m P l r n cc r' x g tt Hl Hraw He1 Hx Eg Ett S2) as (src & k & _ & _ & _ & _ & ->). cbn [bind fst snd].
      match goal with |- context [finish ?mi0 ?w0 ?p0] => destruct (finish_total mi0 w0 p0) as (rr & -> & Er); [exact Ha|]; exists rr, mi0 end. split; [reflexivity|]. split; [exact Er|]. cbn [mi_after]. rewrite sp_data_skip. split; assumption.
    - destruct (trim_line_end (with_data s cc)) as (x & Hx & _). cbn [sp_data with_data] in Hx.
      destruct (raw_parse_open E m P l r n cc x Hl Hraw He1 Hx S2) as (src & _ & _ & _ & _ & ->). cbn [bind fst snd].
      match goal with |- context [finish ?mi0 ?w0 ?p0] => destruct (finish_total mi0 w0 p0) as (rr & -> & Er); [exact Ha|]; exists rr, mi0 end. split; [reflexivity|]. split; [exact Er|]. cbn [mi_after]. rewrite sp_data_skip. split; [left; reflexivity|constructor]. }
  assert (Hraw : ~ raw_delimiter n) by (intros K; apply Hbr in K; discriminate K). rewrite (raw_parse_none E m P l r n Hl Hraw). cbn [bind].
  destruct (compound_delimiter_b n) as (bc & _ & Hbc). destruct bc.
  { assert (Hcomp : compound_delimiter n) by (apply Hbc; reflexivity). pose proof (a_line_shorter _ _ _ _ Hl Hne) as Hlen. pose proof (suffix_len _ _ S1) as Hlen1.
    destruct (compound_cases _ _ _ _ Ht1 Hne Hl Hcomp) as [(cc & r' & He1 & R0 & R1 & R2)|(He1 & R0)].
    - destruct (find_delimiter_spec n (length r) (span_new r) (le_n _)) as (c' & o' & He2 & Ho'). cbn [sp_data span_new] in *. destruct (enclosed_unique _ _ _ _ He1 _ _ He2) as (<- & <-). destruct Ho' as (k & Dk & _).
      assert (Dm : sp_data (md_start m) = l ++ cc ++ k ++ r') by (rewrite (a_line_app _ _ _ _ Hl), Dk; reflexivity).
      destruct (T never 0 (skip (md_start m) l cc) P never_good) as (b & Eb & Rb).
      + apply (located_Sub _ _ _ L1). apply Sub_intro with (post := k ++ r'). exact Dm.
      + rewrite sp_data_skip. exact R0.
      + rewrite sp_data_skip. rewrite Dk, !app_length in Hlen. lia.
      + destruct (compound_parse_found (un never 0) m P l r n cc r' b Hl Hcomp He1 S2 Eb) as (k' & w' & pre & _ & _ & _ & ->). cbn [bind fst snd].
        match goal with |- context [finish ?mi0 ?w0 ?p0] => destruct (finish_total mi0 w0 p0) as (rr & -> & Er); [exact Ha|]; exists rr, mi0 end. split; [reflexivity|]. split; [exact Er|]. cbn [mi_after]. rewrite sp_data_skip. split; assumption.
    - destruct (T never 0 (skip (md_start m) l r) P never_good) as (b & Eb & Rb).
      + exact (located_Suffix _ _ _ L1 (suffix_line _ _ _ _ Hl)).
      + rewrite sp_data_skip. exact R0.
      + rewrite sp_data_skip. lia.
      + destruct (compound_parse_open (un never 0) m P l r n r b Hl Hcomp He1 S2 Eb) as (_ & ->). cbn [bind fst snd].
        match goal with |- context [finish ?mi0 ?w0 ?p0] => destruct (finish_total mi0 w0 p0) as (rr & -> & Er); [exact Ha|]; exists rr, mi0 end. split; [reflexivity|]. split; [exact Er|]. cbn [mi_after]. rewrite sp_data_skip. split; [left; reflexivity|constructor]. }
  assert (Hcomp : ~ compound_delimiter n) by (intros K; apply Hbc in K; discriminate K). rewrite (compound_parse_none _ m P l r n Hl Hcomp). cbn [bind].
  rewrite (take_norm_eq _ _ _ _ Hl). cbn [bind mi_item sp_data with_data]. assert (Hd : no_delimiter (sp_data (md_start m))) by (intros l' r' n' H'; destruct (a_line_unique _ _ _ _ _ _ _ Hl H') as (_ & _ & <-); auto).
  assert (Hends : ends_block n -> ~ a_comment n -> tame A false r) by (intros K1 K2; exact (ends_next _ _ _ _ Ht1 Hne Hl K1 K2 Hraw Hcomp)).
  assert (Hs2 : solid (sp_data (md_source m))) by (rewrite Es; exact Hs).
  assert (section_or_less : forall P ws, exists rr mi, try_section E un m n ws P = Ok rr /\ pr_item rr = Some mi /\ ready (sp_data (mi_after mi))).
  { clear ws P. intros P ws. unfold try_section.
    assert (break_or_less : forall P ws, exists rr mi, try_break E m n ws P = Ok rr /\ pr_item rr = Some mi /\ ready (sp_data (mi_after mi))).
    { clear ws P. intros P ws. unfold try_break.
      assert (Hbk : exists o, (if starts_with_any (lit "'-*<") n then break_parse m else Ok None) = Ok o /\ forall mi, o = Some mi -> ready (sp_data (mi_after mi))).
      { destruct (starts_with_any (lit "'-*<") n); [|exists None; split; [reflexivity|intros mi K; discriminate K]]. apply (break_total m l r n S2 Hs2 Hl). intros K. apply break_ends in K. apply Hends; apply K. }
      destruct Hbk as (o & -> & Ho). cbn [bind]. destruct o as [mi|]; [do 2 eexists; split; [reflexivity|]; split; [reflexivity|]; exact (Ho _ eq_refl)|].
      apply no_block_total; auto. exact (located_col _ _ L1). }
    destruct (starts_with_any (lit "=#") n); [|cbn [bind fst snd]; apply break_or_less].
    destruct (section_total D E un m P He Ha) as (o & w & -> & Ho); auto.
    - rewrite Es. exact L.
    - rewrite Es. exact T.
    - intros l' r' n' k t H' Hh. destruct (a_line_unique _ _ _ _ _ _ _ Hl H') as (_ & <- & <-). apply heading_ends in Hh. split; [apply Hends; apply Hh|]. exact (text_next _ _ _ _ Ht1 Hne Hl Hraw Hcomp (proj2 Hh)).
    - cbn [bind fst snd]. destruct o as [mi|]; [do 2 eexists; split; [reflexivity|]; split; [reflexivity|]; exact (Ho _ eq_refl)|apply break_or_less]. }
  unfold try_media. destruct (starts_with (lit "image::") n || starts_with (lit "video::") n || starts_with (lit "video::") n) eqn:Em.
  { assert (Kn : tame A false r).
    { assert (K : exists q x, (x = lit "image" \/ x = lit "video") /\ n = x ++ lit "::" ++ q).
      { rewrite <- orb_assoc, orb_diag in Em. apply orb_prop in Em. destruct Em as [K|K]; apply starts_with_spec in K; destruct K as (q & K); exists q; [exists (lit "image")|exists (lit "video")]; split; [left; reflexivity|exact K|right; reflexivity|exact K]. }
      destruct K as (q & x & Kx & Kn). apply Hends; [right; right; left; exists x, q; exact Kn|]. intros (q' & K' & _). rewrite Kn in K'. destruct Kx as [-> | ->]; discriminate K'. }
    destruct (media_total E m P l r n He Ha S2 Hs2 Hl Kn) as (o & w & -> & Ho). cbn [bind fst snd]. destruct o as [mi|].
    { destruct (Ho _ eq_refl) as (R & Cm). destruct (finish_total mi (ws ++ w) P Cm) as (rr & -> & Er). exists rr, mi. auto. }
    clear Em Ho. apply section_or_less. }
  cbn [bind fst snd]. apply section_or_less.
Qed.

(** * The loop *)
Lemma loop_total D E : esub_on E -> forall fuel f n s P, good_stop f -> located D s -> ready (sp_data s) -> length (sp_data s) <= fuel ->
  exists b, blocks_loop E fuel f n s P = Ok b /\ ready (sp_data (br_after b)).
Proof.
  intros He. induction fuel as [|fuel IH]; intros f n s P Hf L R Hlen; cbn [blocks_loop].
  - destruct (sp_data s) eqn:Ds; [|cbn in Hlen; lia]. eexists. split; [reflexivity|]. cbn [br_after]. rewrite Ds. exact R.
  - destruct (sp_data s) as [|c0 t0] eqn:Ds; [eexists; split; [reflexivity|]; cbn [br_after]; rewrite Ds; exact R|].
    rewrite <- Ds in R, Hlen. destruct R as (R1 & R2). destruct R1 as [R1|R1]; [rewrite R1 in Ds; discriminate Ds|].
    destruct (Hf s n R1 R2) as (st & ->). cbn [bind]. destruct (fst st); [eexists; split; [reflexivity|]; cbn [br_after]; split; auto|].
    set (un := fun stop level source P => src <- discard_empty_lines source ;; blocks_loop E fuel stop level src P).
    assert (G : good_until D un) by (intros f' n' s' P' b' L' Hb; exact (until_ok D E fuel f' n' s' P' b' L' Hb)).
    assert (T : total_until D (length (sp_data s)) un).
    { intros f' n' s' P' Hf' L' Ht' Hlen'. unfold un. rewrite discard_empty_lines_ok. cbn [bind]. pose proof (discard_empty_Suffix s') as Sx. pose proof (suffix_len _ _ Sx).
      apply IH; [exact Hf'|exact (located_Suffix _ _ _ L' Sx)|apply discard_ready, Ht'|lia]. }
    destruct (block_total D E un s P He L R1 R2 G T) as (r & mi & Er & Ei & Rm). rewrite Er. cbn [bind]. rewrite Ei.
    destruct (block_ok D E un s P r mi G L Er Ei) as (A1 & A2 & _).
    destruct (IH f (fst (snd st)) (mi_after mi) (pr_parser r) Hf (located_Suffix _ _ _ L A1) Rm ltac:(lia)) as (b & -> & Rb). cbn [bind]. eexists. split; [reflexivity|]. exact Rb.
Qed.
Lemma until_total D E fuel f n s P : esub_on E -> good_stop f -> located D s -> tame A false (sp_data s) -> length (sp_data s) <= fuel ->
  exists b, parse_blocks_until E fuel f n s P = Ok b /\ Suffix s (br_after b) /\ tree D (sp_off s) (br_blocks b) (sp_off (br_after b)).
Proof.
  intros He Hf L Ht Hlen. pose proof (discard_empty_Suffix s) as Sx. pose proof (suffix_len _ _ Sx).
  destruct (loop_total D E He fuel f n (p_discard_empty_lines s) P Hf (located_Suffix _ _ _ L Sx) (discard_ready _ Ht) ltac:(lia)) as (b & Eb & _).
  assert (Eu : parse_blocks_until E fuel f n s P = Ok b) by (unfold parse_blocks_until; rewrite discard_empty_lines_ok; exact Eb). exists b. split; [exact Eu|]. exact (until_ok D E fuel _ _ _ _ _ L Eu).
Qed.
End Class.
