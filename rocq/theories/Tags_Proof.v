(** Proofs for C114: an automaton that reads tags; every step of the substitutions leads it to the same state. *)
From Verif Require Import Text TextFacts Maps Span_Model Span_Laws Span_Proof Look_Proof Render_Model Quote_Proof Parser_Model Regex Regex_Lang Subs_Proof Subs_Chars Subs_Spec Group_Spec Attrlist_Model Subs_Model Subs_Prop Quote_Model Quote_Spec Quote_Prop
  Macro_Model Macro_Spec Macro_Proof Auto_Spec Auto_Proof Auto_Prop Inline_Spec Inline_Proof Inline_Prop Url_Proof Url_Prop Image_Spec Image_Proof Image_Prop Group_Model Group_Proof Group_Prop Order_Spec Order_Prop Total_Spec Safe_Spec Safe_Proof Safe_Class Tags_Spec.

Section Reader.
  Variable T : list text.
  (** The state is the part of a tag that has been read. *)
  Definition next_state (s : text) (c : char) : option text :=
    match s with
    | [] => if (c =? 60)%N then Some [c] else Some []
    | _ => let u := s ++ [c] in if existsb (text_eqb u) T then Some [] else if existsb (starts_with u) T then Some u else None
    end.
  Fixpoint run (s t : text) : option text := match t with [] => Some s | c :: r => match next_state s c with Some s' => run s' r | None => None end end.
  Definition idle (c : char) : bool := forallb (fun w => negb (has_char c w)) T && negb (c =? 60)%N.
  Definition no_end (c : char) : bool := forallb (fun w => negb (last w 0%N =? c)%N) T.
  Lemma run_app a : forall s b s', run s (a ++ b) = Some s' <-> exists s1, run s a = Some s1 /\ run s1 b = Some s'.
  Proof.
    induction a as [|c a IH]; intros s b s'; cbn [app run]. { split; [intros H; exists s; auto|intros (s1 & E & H); injection E as <-; exact H]. }
    destruct (next_state s c); [apply IH|]. split; [discriminate|intros (s1 & E & _); discriminate E].
  Qed.
  Lemma idle_char s c s' : idle c = true -> next_state s c = Some s' -> s = [] /\ s' = [].
  Proof.
    intros Hc H. apply andb_true_iff in Hc. destruct Hc as (Hc & Hl). apply negb_true_iff in Hl. rewrite forallb_forall in Hc. destruct s as [|d s]; cbn [next_state] in H; [rewrite Hl in H; injection H as <-; auto|]. exfalso.
    assert (K : forall w, In w T -> In c w -> False). { intros w Hw Hi. specialize (Hc w Hw). apply negb_true_iff in Hc. apply has_char_false in Hc. contradiction. }
    destruct (existsb (text_eqb ((d :: s) ++ [c])) T) eqn:E1.
    - apply existsb_exists in E1. destruct E1 as (w & Hw & E). apply text_eqb_eq in E. apply (K w Hw). rewrite <- E, in_app_iff. right. left. reflexivity.
    - destruct (existsb (starts_with ((d :: s) ++ [c])) T) eqn:E2; [|discriminate H]. apply existsb_exists in E2. destruct E2 as (w & Hw & E). apply starts_with_spec in E. destruct E as (z & E). apply (K w Hw). rewrite E, !in_app_iff. left. right. left. reflexivity.
  Qed.
  Lemma idle_text w : Forall (fun c => idle c = true) w -> forall s s', run s w = Some s' -> w <> [] -> s = [] /\ s' = [].
  Proof.
    induction 1 as [|c w Hc F IH]; intros s s' H N; [contradiction|]. cbn [run] in H. destruct (next_state s c) as [s1|] eqn:E; [|discriminate H]. apply (idle_char _ _ _ Hc) in E. destruct E as (-> & ->). split; [reflexivity|].
    destruct w as [|d w]; [injection H as <-; reflexivity|]. apply (IH _ _ H). discriminate.
  Qed.
  Lemma no_end_char s c : no_end c = true -> next_state s c = Some [] -> s = [].
  Proof.
    intros Hc H. destruct s as [|d s]; [reflexivity|]. exfalso. cbn [next_state] in H. destruct (existsb (text_eqb ((d :: s) ++ [c])) T) eqn:E1.
    - apply existsb_exists in E1. destruct E1 as (w & Hw & E). apply text_eqb_eq in E. unfold no_end in Hc. rewrite forallb_forall in Hc. specialize (Hc w Hw). rewrite <- E, last_last, N.eqb_refl in Hc. discriminate Hc.
    - destruct (existsb (starts_with ((d :: s) ++ [c])) T); [|discriminate H]. destruct s; discriminate H.
  Qed.
  Lemma no_end_text w : Forall (fun c => no_end c = true) w -> forall s, run s w = Some [] -> s = [].
  Proof.
    induction 1 as [|c w Hc F IH]; intros s H; [injection H as ->; reflexivity|]. cbn [run] in H. destruct (next_state s c) as [s1|] eqn:E; [|discriminate H]. apply IH in H. subst s1. exact (no_end_char _ _ Hc E).
  Qed.
  Lemma run_free t : ~ In 60%N t -> run [] t = Some [].
  Proof. induction t as [|c t IH]; intros H; [reflexivity|]. cbn [run next_state]. destruct (N.eqb_spec c 60) as [->|N]; [destruct H; left; reflexivity|]. apply IH. intros K. apply H. right. exact K. Qed.
  Lemma run_free_end t s : ~ In 60%N t -> run [] t = Some s -> s = [].
  Proof. intros H E. rewrite (run_free t H) in E. injection E as <-. reflexivity. Qed.
  (** Whole texts are the ones made of the tags. *)
  Definition whole (t : text) : Prop := run [] t = Some [].
  Hypothesis good : forallb (fun w => match run [] w with Some [] => true | _ => false end) T = true.
  Lemma tag_whole w : In w T -> whole w.
  Proof. intros H. rewrite forallb_forall in good. specialize (good w H). unfold whole. destruct (run [] w) as [[|? ?]|]; (reflexivity || discriminate good). Qed.
  Lemma whole_app a b : whole a -> whole b -> whole (a ++ b).
  Proof. intros A B. apply run_app. exists []. auto. Qed.
  Lemma made_whole t : made_of T t -> whole t.
  Proof.
    induction 1 as [|c t Hc H IH|w t Hw H IH]; [reflexivity| |exact (whole_app _ _ (tag_whole w Hw) IH)]. unfold whole. cbn [run next_state]. apply N.eqb_neq in Hc. rewrite Hc. exact IH.
  Qed.
  Lemma whole_made_gen : forall t s, run s t = Some [] -> match s with [] => made_of T t | _ => exists w r, In w T /\ s ++ t = w ++ r /\ made_of T r end.
  Proof.
    induction t as [|c t IH]; intros s H. { injection H as ->. constructor. }
    cbn [run] in H. destruct s as [|d s].
    - cbn [next_state] in H. destruct (N.eqb_spec c 60) as [->|N].
      + apply IH in H. destruct H as (w & r & Hw & E & Hr). cbn [app] in E. rewrite E. apply mo_tag; assumption.
      + apply IH in H. apply mo_char; assumption.
    - cbn [next_state] in H. destruct (existsb (text_eqb ((d :: s) ++ [c])) T) eqn:E1.
      + apply existsb_exists in E1. destruct E1 as (w & Hw & E). apply text_eqb_eq in E. apply IH in H. exists w, t. split; [exact Hw|]. split; [|exact H]. rewrite <- E, <- app_assoc. reflexivity.
      + destruct (existsb (starts_with ((d :: s) ++ [c])) T); [|discriminate H]. apply IH in H. cbn [app] in H. destruct H as (w & r & Hw & E & Hr). exists w, r. split; [exact Hw|]. split; [|exact Hr]. rewrite <- E. cbn [app]. rewrite <- app_assoc. reflexivity.
  Qed.
  Lemma whole_made t : whole t -> made_of T t. Proof. exact (whole_made_gen t []). Qed.

  (** * Replacing *)
  Definition alike (w x : text) : Prop := forall s s', run s w = Some s' -> run s x = Some s'.
  Lemma alike_app w x w' x' : alike w x -> alike w' x' -> alike (w ++ w') (x ++ x').
  Proof. intros A B s s' H. apply run_app in H. destruct H as (s1 & H1 & H2). apply run_app. exists s1. auto. Qed.
  Lemma alike_refl w : alike w w. Proof. intros s s' H. exact H. Qed.
  Lemma alike_idle w x : w <> [] -> Forall (fun c => idle c = true) w -> whole x -> alike w x.
  Proof. intros N F X s s' H. destruct (idle_text w F _ _ H N) as (-> & ->). exact X. Qed.
  Lemma rewritten_run (R : rule) (C : char -> Prop) : (forall prev w rest x, R prev w rest x -> Forall C w -> alike w x) -> forall prev t o, rewritten R prev t o -> Forall C t -> alike t o.
  Proof.
    intros HR prev t o H. induction H as [prev|prev w r x o Hr H IH|prev c t o Hn H IH]; intros F; [apply alike_refl| |].
    - apply Forall_app in F. destruct F as (F1 & F2). exact (alike_app _ _ _ _ (HR _ _ _ _ Hr F1) (IH F2)).
    - exact (alike_app [c] [c] t o (alike_refl _) (IH (Forall_inv_tail F))).
  Qed.
  Lemma replaced_run (F : option char -> text -> text -> Prop) (G : rule) (C : char -> Prop) : (forall prev w rest x, G prev w rest x -> Forall C w -> alike w x) -> forall prev t o, Inline_Spec.replaced F G prev t o -> Forall C t -> alike t o.
  Proof.
    intros HG prev t o H. induction H as [prev|prev w r x o Hf Hg H IH|prev c t o Hn H IH]; intros Fc; [apply alike_refl| |].
    - apply Forall_app in Fc. destruct Fc as (F1 & F2). exact (alike_app _ _ _ _ (HG _ _ _ _ Hg F1) (IH F2)).
    - exact (alike_app [c] [c] t o (alike_refl _) (IH (Forall_inv_tail Fc))).
  Qed.
End Reader.
(** * The formatting marks *)
Notation idles T := (Forall (fun c => idle T c = true)).
Lemma idles_b T w : forallb (idle T) w = true -> idles T w. Proof. intros H. apply Forall_forall, forallb_forall, H. Qed.
Lemma marks_good : forallb (fun w => match run mark_tags [] w with Some [] => true | _ => false end) mark_tags = true. Proof. vm_compute. reflexivity. Qed.
Lemma own_good : forallb (fun w => match run own_tags [] w with Some [] => true | _ => false end) own_tags = true. Proof. vm_compute. reflexivity. Qed.
Lemma mark_idle tf : In tf marks -> idles mark_tags (op_of (snd tf)) /\ idles mark_tags (cl_of (snd tf)) /\ idles mark_tags [BSL].
Proof.
  intros H. assert (K : forallb (fun tf => forallb (idle mark_tags) (op_of (snd tf)) && forallb (idle mark_tags) (cl_of (snd tf)) && forallb (idle mark_tags) [BSL]) marks = true) by (vm_compute; reflexivity).
  rewrite forallb_forall in K. specialize (K tf H). rewrite !andb_true_iff in K. destruct K as ((K1 & K2) & K3). split; [|split]; apply idles_b; assumption.
Qed.
Lemma wraps_whole ty o c : wraps ty = Some (o, c) -> whole mark_tags o /\ whole mark_tags c.
Proof. intros H. destruct ty; try discriminate H; injection H as <- <-; split; vm_compute; reflexivity. Qed.
Lemma mark_run ok B (A : apart ok B) U P tf prev w rest x : In tf marks -> mark_rule U P (fst tf) (snd tf) prev w rest x -> Forall (fun c => ok c = true) w -> calm B w -> alike mark_tags w x.
Proof.
  intros Hin (lead & attrs & body & [(_ & Hl & _ & Hb & _) _] & -> & Hx) F C.
  destruct (mark_facts tf Hin) as (o & c & Ew & _ & _ & _ & _ & _ & _ & No & Nc & Hh & _). destruct (mark_idle tf Hin) as (I1 & I2 & I3). destruct (wraps_whole _ _ _ Ew) as (Wo & Wc).
  assert (attrs = None) as -> by exact (no_attrs _ _ A _ _ _ _ Hh No F C). unfold mark_src in *. cbn [attrs_src app] in *. intros s s' H.
  apply run_app in H. destruct H as (s1 & H1 & H). apply run_app in H. destruct H as (s2 & H2 & H). apply run_app in H. destruct H as (s3 & H3 & H4). destruct (idle_text _ _ I1 _ _ H2 No) as (-> & ->). destruct (idle_text _ _ I2 _ _ H4 Nc) as (-> & ->).
  destruct Hx as [(-> & Hx)|(_ & Hx)].
  - assert (x = op_of (snd tf) ++ body ++ cl_of (snd tf)) as -> by (destruct (snd tf); exact Hx). destruct (idle_text _ _ I3 _ _ H1) as (-> & _); [discriminate|]. apply run_app. exists []. split; [exact H2|]. apply run_app. exists []. auto.
  - rewrite Hx, (element_wraps _ _ _ _ Ew). apply run_app. exists []. split; [exact H1|]. apply whole_app; [exact Wo|]. apply whole_app; assumption.
Qed.
Lemma rewritten_run_calm T ok B (R : rule) : (forall prev w rest x, R prev w rest x -> Forall (fun c => ok c = true) w -> calm B w -> alike T w x) ->
  forall prev t o, rewritten R prev t o -> Forall (fun c => ok c = true) t -> calm B t -> alike T t o.
Proof.
  intros HR prev t o H. induction H as [prev|prev w r x o Hr H IH|prev c t o Hn H IH]; intros F C; [apply alike_refl| |].
  - apply Forall_app in F. destruct F as (F1 & F2). apply calm_app in C. destruct C as (C1 & C2 & _). exact (alike_app _ _ _ _ _ (HR _ _ _ _ Hr F1 C1) (IH F2 C2)).
  - change (c :: t) with ([c] ++ t) in C. apply calm_app in C. exact (alike_app _ [c] [c] t o (alike_refl _ _) (IH (Forall_inv_tail F) (proj1 (proj2 C)))).
Qed.
Lemma quotes_whole ok B (A : apart ok B) U P t o : Forall (fun c => ok c = true) t -> calm B t -> apply_quotes U P t = Ok o -> whole mark_tags t -> whole mark_tags o /\ Forall (fun c => ok c = true) o /\ calm B o.
Proof.
  assert (G : forall l, (forall tf, In tf l -> In tf marks) -> forall t, Forall (fun c => ok c = true) t -> calm B t -> exists o, formatted U P l t o /\ alike mark_tags t o /\ Forall (fun c => ok c = true) o /\ calm B o).
  { induction l as [|tf l IH]; intros Hl u F C; [exists u; split; [constructor|]; split; [apply alike_refl|auto]|]. pose proof (Hl tf (or_introl eq_refl)) as Htf.
    assert (Qu : quiet u) by (intros a c b E; repeat split; intros ->; match goal with E : u = _ ++ 96%N :: ?d :: _ |- _ => assert (B 96%N d = false) by exact (C _ _ _ _ E); assert (B 96%N d = true) by (apply (ap_quiet _ _ A); vm_compute; auto); congruence end).
    assert (K : exists o, rewritten (mark_rule U P (fst tf) (snd tf)) None u o).
    { destruct (looks_ahead tf) eqn:El.
      - assert (tf = mono) as -> by (revert El; clear -Htf; unfold marks in Htf; cbn [In] in Htf; repeat (destruct Htf as [<-|Htf]; [cbn; intros E; try discriminate E; reflexivity|]); destruct Htf).
        destruct (mono_total U P u Qu) as (x & Ho). exists x. apply mono_iff; assumption.
      - destruct (apply_mark_total U P tf u (marks_wf _ Htf) El) as (x & Ho). exists x. apply apply_mark_iff; [apply marks_wf, Htf|exact El|exact Ho]. }
    destruct K as (x & Ho). destruct (rewritten_keeps ok B (mark_rule U P (fst tf) (snd tf)) (fun p w r x => mark_keeps ok B A U P tf p w r x Htf) _ _ _ Ho F C) as (F' & C').
    pose proof (rewritten_run_calm mark_tags ok B _ (fun p w r x => mark_run ok B A U P tf p w r x Htf) _ _ _ Ho F C) as L1.
    destruct (IH (fun y H => Hl y (or_intror H)) x F' C') as (o' & Hf & L2 & F'' & C''). exists o'. split; [econstructor; eauto|]. split; [intros s s' H; apply L2, L1, H|auto]. }
  intros F C H W. destruct (G marks (fun _ H => H) t F C) as (o' & Ho & L & F' & C'). rewrite (C42_whole_step _ _ _ _ Ho) in H. apply Ok_inj in H. subst o'. split; [exact (L _ _ W)|auto].
Qed.
(** * Attribute references *)
Lemma more_tags t : whole mark_tags t -> whole own_tags t.
Proof.
  intros H. apply whole_made in H. apply made_whole; [exact own_good|]. induction H as [|c t Hc H IH|w t Hw H IH]; [constructor|constructor; assumption|]. apply mo_tag; [|exact IH]. unfold own_tags. apply in_app_iff. auto.
Qed.
Lemma expands_alike value t o : expands value t o -> (forall n v, value n = Some v -> whole own_tags v) -> alike own_tags t o.
Proof.
  intros H V. assert (I1 : idle own_tags 123%N = true /\ idle own_tags 125%N = true /\ idle own_tags BSL = true) by (vm_compute; auto). destruct I1 as (I1 & I2 & I3).
  assert (Rf : forall n s s', run own_tags s (ref n) = Some s' -> s = [] /\ s' = []).
  { intros n s s' E. unfold ref in E. apply run_app in E. destruct E as (s1 & E1 & E). apply run_app in E. destruct E as (s2 & E2 & E3). apply idle_text in E1; [|repeat constructor; exact I1|discriminate]. apply idle_text in E3; [|repeat constructor; exact I2|discriminate]. split; [apply E1|apply E3]. }
  assert (Bs : forall n x, alike own_tags (ref n) x -> alike own_tags (BSL :: ref n) x).
  { intros n x K s s' E. apply (run_app own_tags [BSL]) in E. destruct E as (s1 & E1 & E). apply idle_text in E1; [|repeat constructor; exact I3|discriminate]. destruct E1 as (-> & ->). exact (K _ _ E). }
  induction H as [|n v r o Hn Hv H IH|n v r o Hn Hv H IH|n r o Hn Hv H IH|n r o Hn Hv H IH|c t o H1 H2 H IH].
  - apply alike_refl.
  - apply alike_app; [|exact IH]. intros s s' E. apply Rf in E. destruct E as (-> & ->). exact (V n v Hv).
  - change (BSL :: ref n ++ r) with ((BSL :: ref n) ++ r). apply alike_app; [apply Bs, alike_refl|exact IH].
  - apply alike_app; [apply alike_refl|exact IH].
  - change (BSL :: ref n ++ r) with ((BSL :: ref n) ++ r). change (BSL :: ref n ++ o) with ((BSL :: ref n) ++ o). apply alike_app; [apply alike_refl|exact IH].
  - apply (alike_app own_tags [c] [c]); [apply alike_refl|exact IH].
Qed.
Lemma expands_without value x t o : expands value t o -> (forall n v, value n = Some v -> without x v) -> without x t -> without x o.
Proof.
  intros H V. assert (G : forall a b : text, without x (a ++ b) <-> without x a /\ without x b). { intros a b. split; [intros K; split; intros c Hc Hi; apply (K c Hc); rewrite in_app_iff; auto|intros (K1 & K2) c Hc Hi; apply in_app_iff in Hi; destruct Hi as [Hi|Hi]; [exact (K1 c Hc Hi)|exact (K2 c Hc Hi)]]. }
  assert (Gc : forall c (b : text), without x (c :: b) <-> without x [c] /\ without x b) by (intros c b; apply (G [c] b)).
  induction H as [|n v r o Hn Hv H IH|n v r o Hn Hv H IH|n r o Hn Hv H IH|n r o Hn Hv H IH|c t o H1 H2 H IH]; intros W.
  - exact W.
  - apply G in W. apply G. split; [exact (V n v Hv)|]. apply IH, W.
  - apply Gc in W. destruct W as (_ & W). apply G in W. apply G. split; [apply W|apply IH, W].
  - apply G in W. apply G. split; [apply W|apply IH, W].
  - apply Gc in W. destruct W as (W0 & W). apply G in W. apply Gc. split; [exact W0|]. apply G. split; [apply W|apply IH, W].
  - apply Gc in W. apply Gc. split; [apply W|apply IH, W].
Qed.
(** * Character replacements *)
Ltac idle_goal := apply idles_b; vm_compute; reflexivity.
Lemma literal_alike w0 x0 prev w rest x : w0 <> [] -> whole own_tags x0 -> (forall s s', run own_tags s w0 = Some s' -> s = [] /\ s' = []) -> r_literal w0 x0 prev w rest x -> alike own_tags w x.
Proof.
  intros N W I [(-> & ->)|(-> & ->)] s s' H.
  - destruct (I _ _ H) as (-> & ->). exact W.
  - apply (run_app own_tags [BSL]) in H. destruct H as (s1 & H1 & H). apply idle_text in H1; [|idle_goal|discriminate]. destruct H1 as (-> & ->). exact H.
Qed.
(** A text that begins and ends with characters of no tag. *)
Lemma bounded_idle a m b s s' : idles own_tags a -> a <> [] -> idles own_tags b -> b <> [] -> run own_tags s (a ++ m ++ b) = Some s' -> s = [] /\ s' = [].
Proof.
  intros F1 N1 F2 N2 H. apply run_app in H. destruct H as (s1 & H1 & H). apply run_app in H. destruct H as (s2 & H2 & H3). split; [exact (proj1 (idle_text _ _ F1 _ _ H1 N1))|exact (proj2 (idle_text _ _ F2 _ _ H3 N2))].
Qed.
Lemma dash_spaces_alike prev w rest x : r_dash_spaces prev w rest x -> alike own_tags w x.
Proof.
  intros (a & b & -> & [(Ha & ->)|(-> & ->)] & Hb) s s' H.
  - apply run_app in H. destruct H as (s1 & H1 & H). apply run_app in H. destruct H as (s2 & H2 & H3). apply idle_text in H2; [|idle_goal|discriminate]. destruct H2 as (-> & ->).
    assert (s = []) as ->. { apply (no_end_text own_tags a); [|exact H1]. destruct Ha as [->|[->|(-> & _)]]; repeat constructor. }
    assert (s' = []) as ->. { apply (run_free_end own_tags b); [|exact H3]. destruct Hb as [->|[->|(-> & _)]]; intros K; cbn in K; intuition discriminate. }
    vm_compute. reflexivity.
  - apply run_app in H. destruct H as (s1 & H1 & H). apply idle_text in H1; [|idle_goal|discriminate]. destruct H1 as (-> & ->). exact H.
Qed.
Lemma dash_word_alike U prev w rest x : r_dash_word U prev w rest x -> alike own_tags w x.
Proof.
  intros (c & _ & [(-> & ->)|(-> & ->)]).
  - apply (alike_app own_tags [c] [c] (lit "--")); [apply alike_refl|]. apply alike_idle; [discriminate|idle_goal|vm_compute; reflexivity].
  - apply (alike_app own_tags [c] [c] (BSL :: lit "--")); [apply alike_refl|]. apply alike_idle; [discriminate|idle_goal|vm_compute; reflexivity].
Qed.
Lemma apostrophe_alike prev w rest x : r_apostrophe prev w rest x -> alike own_tags w x.
Proof.
  intros (a & b & _ & _ & [(-> & ->)|(-> & ->)]).
  - apply (alike_app own_tags [a] [a] [39%N; b]); [apply alike_refl|]. apply (alike_app own_tags [39%N] (lit "&#8217;") [b] [b]); [apply alike_idle; [discriminate|idle_goal|vm_compute; reflexivity]|apply alike_refl].
  - apply (alike_app own_tags [a] [a] [BSL; 39%N; b]); [apply alike_refl|]. apply (alike_app own_tags [BSL; 39%N] [39%N] [b] [b]); [apply alike_idle; [discriminate|idle_goal|vm_compute; reflexivity]|apply alike_refl].
Qed.
Lemma entity_chars U n : entity_name U n -> ~ In 60%N n.
Proof.
  assert (D : forall d, Forall (fun c => c_digit U c = true) d -> ~ In 60%N d). { intros d F H. rewrite Forall_forall in F. specialize (F _ H). vm_compute in F. discriminate F. }
  intros [(l & d & -> & _ & F & _ & Fd)|[(d & -> & _ & Fd)|(d & -> & _ & Fd)]]; rewrite in_app_iff; intros [K|K]; try exact (D _ Fd K).
  - rewrite Forall_forall in F. specialize (F _ K). discriminate F.
  - cbn in K. intuition discriminate.
  - cbn in K. intuition discriminate.
  - rewrite Forall_forall in Fd. specialize (Fd _ K). destruct Fd as [Fd|[Fd|Fd]]; [vm_compute in Fd; discriminate Fd|lia|lia].
Qed.
Lemma entity_alike U prev w rest x : r_entity U prev w rest x -> alike own_tags w x.
Proof.
  intros (n & Hn & [(-> & ->)|(-> & ->)]) s s' H.
  - change (lit "&amp;" ++ n ++ lit ";") with (lit "&" ++ (lit "amp;" ++ n) ++ lit ";") in H. apply bounded_idle in H; try discriminate; try idle_goal. destruct H as (-> & ->).
    apply run_free. rewrite !in_app_iff. intros [K|[K|K]]; [cbn in K; intuition discriminate|exact (entity_chars U n Hn K)|cbn in K; intuition discriminate].
  - apply (run_app own_tags [BSL]) in H. destruct H as (s1 & H1 & H). apply idle_text in H1; [|idle_goal|discriminate]. destruct H1 as (-> & ->). exact H.
Qed.
Ltac by_run := let s := fresh "s" in let s' := fresh "s'" in let H := fresh "H" in intros s s' H.
Lemma replacement_alike U R prev w rest x : In R (replacement_rules U) -> R prev w rest x -> alike own_tags w x.
Proof.
  assert (I0 : forall w0, w0 <> [] -> forallb (idle own_tags) w0 = true -> forall s s', run own_tags s w0 = Some s' -> s = [] /\ s' = []) by (intros w0 N F s s' H; exact (idle_text _ _ (idles_b _ _ F) _ _ H N)).
  assert (I1 : forall a b, a <> [] -> b <> [] -> forallb (idle own_tags) a = true -> forallb (idle own_tags) b = true -> forall m s s', run own_tags s (a ++ m ++ b) = Some s' -> s = [] /\ s' = []).
  { intros a b N1 N2 F1 F2 m s s' H. exact (bounded_idle a m b s s' (idles_b _ _ F1) N1 (idles_b _ _ F2) N2 H). }
  intros Hin Hx. unfold replacement_rules in Hin. cbn [In] in Hin.
  repeat (destruct Hin as [<-|Hin]; [first [exact (dash_spaces_alike _ _ _ _ Hx)|exact (dash_word_alike _ _ _ _ _ Hx)|exact (apostrophe_alike _ _ _ _ Hx)|exact (entity_alike _ _ _ _ _ Hx)|
    refine (literal_alike _ _ _ _ _ _ _ _ _ Hx); [discriminate|vm_compute; reflexivity|]]|]); [..|destruct Hin].
  - apply (I1 (lit "(") (lit ")")) with (m := lit "C"); try discriminate; vm_compute; reflexivity.
  - apply (I1 (lit "(") (lit ")")) with (m := lit "R"); try discriminate; vm_compute; reflexivity.
  - apply (I1 (lit "(") (lit ")")) with (m := lit "TM"); try discriminate; vm_compute; reflexivity.
  - apply I0; [discriminate|vm_compute; reflexivity].
  - apply I0; [discriminate|vm_compute; reflexivity].
  - apply (I1 (lit "-") (lit ";")) with (m := lit "&gt"); try discriminate; vm_compute; reflexivity.
  - intros s s' H. change (lit "=&gt;") with (lit "=" ++ lit "&gt;") in H. apply run_app in H. destruct H as (s1 & H1 & H2). apply (I1 (lit "&") (lit ";")) with (m := lit "gt") in H2; try discriminate; try (vm_compute; reflexivity). destruct H2 as (-> & ->).
    split; [|reflexivity]. apply (no_end_text own_tags (lit "=")); [repeat constructor|exact H1].
  - apply (I1 (lit "&") (lit "-")) with (m := lit "lt;"); try discriminate; vm_compute; reflexivity.
  - intros s s' H. change (lit "&lt;=") with ((lit "&" ++ lit "lt" ++ lit ";") ++ lit "=") in H. apply run_app in H. destruct H as (s1 & H1 & H2). apply (I1 (lit "&") (lit ";")) with (m := lit "lt") in H1; try discriminate; try (vm_compute; reflexivity). destruct H1 as (-> & ->).
    split; [reflexivity|]. apply (run_free_end own_tags (lit "=")); [intros K; cbn in K; intuition discriminate|exact H2].
Qed.
Lemma passes_alike U : forall l, (forall R, In R l -> In R (replacement_rules U)) -> forall t o, passes l t o -> alike own_tags t o.
Proof.
  induction l as [|R l IH]; intros Hl t o H; [cbn in H; subst; apply alike_refl|]. destruct H as (u & Hr & H).
  pose proof (rewritten_run own_tags R (fun _ => True) (fun p w r x Hx _ => replacement_alike U R p w r x (Hl R (or_introl eq_refl)) Hx) _ _ _ Hr (proj2 (Forall_forall _ _) (fun _ _ => I))) as L1.
  intros s s' E. exact (IH (fun y K => Hl y (or_intror K)) u o H _ _ (L1 _ _ E)).
Qed.
(** What is new in the text is an entity. *)
Definition entity_char (c : char) : bool := has_char c (lit "&#0123456789;").
Lemma replacement_without U R k prev w rest x : entity_char k = false -> In R (replacement_rules U) -> R prev w rest x -> ~ In k w -> ~ In k x.
Proof.
  intros Hk Hin Hx Hw. assert (Ke : forall e, forallb entity_char e = true -> ~ In k e) by (intros e He Hi; rewrite forallb_forall in He; specialize (He _ Hi); congruence).
  assert (Lit : forall w0 x0, forallb entity_char x0 = true -> r_literal w0 x0 prev w rest x -> ~ In k x) by (intros w0 x0 He [(-> & ->)|(-> & ->)]; [exact (Ke _ He)|intros K; apply Hw; right; exact K]).
  unfold replacement_rules in Hin. cbn [In] in Hin.
  destruct Hin as [<-|[<-|[<-|[<-|[<-|[<-|[<-|[<-|[<-|[<-|[<-|[<-|[<-|[]]]]]]]]]]]]]]; try (refine (Lit _ _ _ Hx); reflexivity).
  - destruct Hx as (a & b & -> & [(_ & ->)|(-> & ->)] & _); [exact (Ke (lit "&#8201;&#8212;&#8201;") eq_refl)|]. intros K. apply Hw. apply in_app_iff. right. exact K.
  - destruct Hx as (c & _ & [(-> & ->)|(-> & ->)]); intros [K|K]; [apply Hw; left; exact K|exact (Ke (lit "&#8212;&#8203;") eq_refl K)|apply Hw; left; exact K|apply Hw; right; right; exact K].
  - destruct Hx as (a & b & _ & _ & [(-> & ->)|(-> & ->)]); intros [K|K]; [apply Hw; left; exact K| |apply Hw; left; exact K|apply Hw; right; right; exact K].
    apply in_app_iff in K. destruct K as [K|K]; [exact (Ke (lit "&#8217;") eq_refl K)|apply Hw; right; right; exact K].
  - destruct Hx as (n & _ & [(-> & ->)|(-> & ->)]); rewrite ?in_app_iff; intros K; apply Hw; [|right; rewrite !in_app_iff; exact K]. rewrite !in_app_iff. destruct K as [[<-|[]]|K]; [left; left; reflexivity|right; exact K].
Qed.
Lemma passes_without U k : entity_char k = false -> forall l, (forall R, In R l -> In R (replacement_rules U)) -> forall t o, passes l t o -> ~ In k t -> ~ In k o.
Proof.
  intros Hk. induction l as [|R l IH]; intros Hl t o H N; [cbn in H; subst; exact N|]. destruct H as (u & Hr & H). refine (IH (fun y K => Hl y (or_intror K)) u o H _).
  assert (HR : forall p w r x, R p w r x -> ~ In k w -> ~ In k x) by (intros p w r x Hx; exact (replacement_without U R k p w r x Hk (Hl R (or_introl eq_refl)) Hx)).
  clear - Hr HR N. induction Hr as [prev|prev w r x o Hx H IH|prev c t o Hn H IH]; [exact N| |].
  - rewrite in_app_iff in *. intros [K|K]; [exact (HR _ _ _ _ Hx (fun Z => N (or_introl Z)) K)|exact (IH (fun Z => N (or_intror Z)) K)].
  - intros [K|K]; [apply N; left; exact K|exact (IH (fun Z => N (or_intror Z)) K)].
Qed.
(** * Macros *)
Lemma word_no_end U c : is_word U c = true -> no_end own_tags c = true /\ c <> 60%N.
Proof.
  intros H. assert (N : forall k, (k < 128)%N -> is_word U k = false -> c <> k) by (intros k _ K ->; congruence).
  pose proof (N 62%N ltac:(lia) eq_refl) as N1. pose proof (N 34%N ltac:(lia) eq_refl) as N2. split; [|exact (N 60%N ltac:(lia) eq_refl)].
  unfold no_end. apply forallb_forall. intros w Hw. apply negb_true_iff, N.eqb_neq. assert (E : last w 0%N = 62%N \/ last w 0%N = 34%N). { vm_compute in Hw. repeat (destruct Hw as [<-|Hw]; [auto|]). destruct Hw. }
  destruct E as [E|E]; rewrite E; congruence.
Qed.
Lemma local_free U l : local_rest U l -> Forall (fun c => no_end own_tags c = true) l /\ ~ In 60%N l.
Proof.
  induction 1 as [|c t Hc H (F & N)|t H (F & N)]; [split; [constructor|intros []]| |].
  - assert (K : no_end own_tags c = true /\ c <> 60%N). { destruct Hc as [Hc|Hc]; [exact (word_no_end U c Hc)|]. cbn in Hc. destruct Hc as [<-|[<-|[<-|[<-|[]]]]]; split; (reflexivity || discriminate). }
    split; [constructor; [apply K|exact F]|]. intros [E|E]; [destruct K; congruence|exact (N E)].
  - split; [apply Forall_app; split; [repeat constructor|exact F]|]. rewrite in_app_iff. intros [E|E]; [cbn in E; intuition discriminate|exact (N E)].
Qed.
Lemma address_free U m : address U m -> ~ In 60%N m.
Proof.
  intros (c & l & h & d & s & -> & Hc & Hl & Hh & Hd & Hs & _). rewrite !in_app_iff. intros [K|[K|[K|[K|[K|[K|K]]]]]].
  - destruct K as [->|[]]. discriminate Hc.
  - exact (proj2 (local_free U l Hl) K).
  - cbn in K. intuition discriminate.
  - destruct K as [->|[]]. discriminate Hh.
  - rewrite Forall_forall in Hd. destruct (Hd _ K) as [E|E]; [discriminate E|cbn in E; intuition discriminate].
  - cbn in K. intuition discriminate.
  - rewrite Forall_forall in Hs. specialize (Hs _ K). discriminate Hs.
Qed.
Lemma address_run U m s s' : address U m -> run own_tags s m = Some s' -> s = [] /\ s' = [].
Proof.
  intros Ha H. pose proof (address_free U m Ha) as N. destruct Ha as (c & l & h & d & z & -> & Hc & Hl & _).
  assert (E0 : s = []).
  { apply run_app in H. destruct H as (s1 & H1 & H). apply run_app in H. destruct H as (s2 & H2 & H). apply run_app in H. destruct H as (s3 & H3 & _). apply idle_text in H3; [|idle_goal|discriminate]. destruct H3 as (-> & _).
    apply (no_end_text own_tags _ (proj1 (local_free U l Hl))) in H2. subst s1. apply (no_end_text own_tags [c]); [repeat constructor; exact (proj1 (word_no_end U c Hc))|exact H1]. }
  subst s. split; [reflexivity|]. exact (run_free_end own_tags _ _ N H).
Qed.
Lemma own_in w : existsb (text_eqb w) own_tags = true -> whole own_tags w.
Proof. intros H. apply existsb_exists in H. destruct H as (v & Hv & E). apply text_eqb_eq in E. subst v. exact (tag_whole own_tags own_good w Hv). Qed.
Lemma free_whole t : ~ In 60%N t -> whole own_tags t. Proof. apply run_free. Qed.
Ltac tag_goal := apply own_in; vm_compute; reflexivity.
Ltac free_goal := apply free_whole; let K := fresh in intros K; cbn in K; intuition discriminate.
Ltac whole_goal := repeat first [assumption|tag_goal|free_goal|apply whole_app].
Lemma email_alike U prev w rest x : r_email U prev w rest x -> alike own_tags w x.
Proof.
  intros (m & (Ha & _) & [(-> & ->)|[(-> & ->)|(c & _ & -> & ->)]]); [| |apply alike_refl].
  - intros s s' H. destruct (address_run U m _ _ Ha H) as (-> & ->). unfold mail_link. change (lit "<a href=" ++ [34%N] ++ lit "mailto:" ++ m ++ [34%N] ++ lit ">" ++ m ++ lit "</a>") with ((lit "<a href=" ++ [34%N]) ++ lit "mailto:" ++ m ++ [34%N] ++ lit ">" ++ m ++ lit "</a>").
    pose proof (free_whole m (address_free U m Ha)). whole_goal.
  - intros s s' H. apply (run_app own_tags [BSL]) in H. destruct H as (s1 & H1 & H). apply idle_text in H1; [|idle_goal|discriminate]. destruct H1 as (-> & ->). exact H.
Qed.
Lemma drop_escape w : alike own_tags (BSL :: w) w.
Proof. intros s s' H. apply (run_app own_tags [BSL]) in H. destruct H as (s1 & H1 & H). apply idle_text in H1; [|idle_goal|discriminate]. destruct H1 as (-> & ->). exact H. Qed.
(** Anchors. *)
Lemma id_free U i : id_text U i -> ~ In 60%N i.
Proof.
  intros (c & r & -> & Hc & F) [K|K].
  - subst c. destruct Hc as [Hc|Hc]; [discriminate Hc|cbn in Hc; intuition discriminate].
  - rewrite Forall_forall in F. destruct (F _ K) as [E|[E|E]]; [discriminate E|discriminate E|cbn in E; intuition discriminate].
Qed.
Lemma anchor_alike U prev w rest x : anchor_out U prev w rest x -> alike own_tags w x.
Proof.
  intros (i & b & (Hi & Hb) & [(-> & ->)|(-> & ->)]); [|apply drop_escape]. intros s s' H.
  assert (E : s = [] /\ s' = []).
  { destruct Hb as [->|[(l & -> & _)|(l & -> & _)]].
    - apply (bounded_idle (lit "[[") i (lit "]]")) in H; [exact H|idle_goal|discriminate|idle_goal|discriminate].
    - change (lit "[[" ++ i ++ lit "," ++ l ++ lit "]]") with (lit "[[" ++ i ++ (lit "," ++ l) ++ lit "]]") in H. rewrite (app_assoc i) in H. apply bounded_idle in H; [exact H|idle_goal|discriminate|idle_goal|discriminate].
    - change (lit "anchor:" ++ i ++ lit "[" ++ l ++ lit "]") with (lit "anchor" ++ lit ":" ++ i ++ (lit "[" ++ l) ++ lit "]") in H. rewrite (app_assoc i) in H. apply run_app in H. destruct H as (s1 & H1 & H). apply bounded_idle in H; [|idle_goal|discriminate|idle_goal|discriminate]. destruct H as (-> & ->). split; [|reflexivity].
      apply (no_end_text own_tags (lit "anchor")); [repeat constructor|exact H1]. }
  destruct E as (-> & ->). unfold anchor_link. change (lit "<a id=" ++ [34%N] ++ i ++ [34%N] ++ lit "></a>") with ((lit "<a id=" ++ [34%N]) ++ i ++ ([34%N] ++ lit ">") ++ lit "</a>").
  pose proof (free_whole i (id_free U i Hi)). whole_goal.
Qed.
(** URLs without a text in brackets. *)
Lemma scheme_run s0 s s' : In s0 url_schemes -> run own_tags s s0 = Some s' -> s = [] /\ s' = [].
Proof.
  intros Hs H. assert (Ks : exists x, s0 = x ++ lit ":" ++ lit "//" /\ Forall (fun c => no_end own_tags c = true) x) by (destruct Hs as [<-|[<-|[<-|[<-|[<-|[]]]]]]; [exists (lit "http")|exists (lit "https")|exists (lit "file")|exists (lit "ftp")|exists (lit "irc")]; (split; [reflexivity|repeat constructor])).
  destruct Ks as (x & -> & F). apply run_app in H. destruct H as (s1 & H1 & H). apply run_app in H. destruct H as (s2 & H2 & H). apply idle_text in H2; [|idle_goal|discriminate]. destruct H2 as (-> & ->). split; [exact (no_end_text own_tags x F _ H1)|].
  apply (run_free_end own_tags (lit "//")); [intros K; cbn in K; intuition discriminate|exact H].
Qed.
Lemma shown_whole U h target t : shown U h target t -> whole own_tags target -> whole own_tags t.
Proof.
  unfold shown. destruct h; [|intros ->; auto]. intros [(k & -> & (c & r & s & -> & _ & _ & _ & Hs))|(-> & _)]; [|auto]. intros W.
  assert (W' : whole own_tags ((c :: r) ++ lit ":" ++ s ++ t)). { replace ((c :: r) ++ lit ":" ++ s ++ t) with ((c :: r ++ lit ":" ++ s) ++ t); [exact W|]. cbn [app]. rewrite <- app_assoc. reflexivity. }
  apply run_app in W'. destruct W' as (s1 & _ & W'). apply run_app in W'. destruct W' as (s2 & H2 & W'). apply idle_text in H2; [|idle_goal|discriminate]. destruct H2 as (-> & ->). apply run_app in W'. destruct W' as (s3 & H3 & W').
  apply run_free_end in H3; [subst s3; exact W'|]. destruct Hs as [->|([->| ->] & _)]; intros K; cbn in K; intuition discriminate.
Qed.
Lemma link_whole U P h target l : whole own_tags target -> bare_link U (reads U P) h target l -> whole own_tags l.
Proof.
  intros W (t & Ht & ->). rewrite plain_link. apply shown_whole in Ht; [|exact W].
  change (lit "<a" ++ attr (lit "href") target ++ class_attr [lit "bare"] ++ lit ">" ++ t ++ lit "</a>") with ((lit "<a href=" ++ [34%N]) ++ (target ++ [34%N]) ++ attr (lit "class") (lit "bare") ++ lit ">" ++ t ++ lit "</a>").
  whole_goal.
Qed.
Lemma url_alike U P prev w rest x : url_out U (reads U P) (hides P) prev w rest x -> Forall (fun c => c <> 91%N) w -> alike own_tags w x.
Proof.
  intros (p & e & s & f & (Hp & He & Hs & b & Ew & Hf) & Hx) F. destruct f as [T L|T|T].
  - exfalso. destruct Hf as (-> & _). rewrite Forall_forall in F. apply (F 91%N); [|reflexivity]. subst w. rewrite !in_app_iff. cbn. tauto.
  - destruct Hf as ((-> & _) & _). destruct Hx as [(-> & ->)|[(_ & -> & ->)|(-> & -> & Hl)]]; [apply drop_escape| |].
    + subst w. apply alike_app; [apply alike_refl|apply drop_escape].
    + subst w. intros s0 s1 H. cbn [app] in H. apply run_app in H. destruct H as (s2 & H2 & H). apply run_app in H. destruct H as (s3 & H3 & H). destruct (scheme_run s _ _ Hs H3) as (-> & ->).
      apply run_app in H. destruct H as (s4 & H4 & H5). change (lit "&gt;") with (lit "&" ++ lit "gt" ++ lit ";") in H5. apply bounded_idle in H5; [|idle_goal|discriminate|idle_goal|discriminate]. destruct H5 as (-> & ->).
      change angle with (lit "&" ++ lit "lt" ++ lit ";") in H2. apply bounded_idle in H2; [|idle_goal|discriminate|idle_goal|discriminate]. destruct H2 as (-> & _).
      refine (link_whole _ _ _ _ _ _ Hl). apply run_app. exists []. auto.
  - destruct Hf as (-> & (a & z & -> & Fb & _) & _). destruct Hx as [(-> & ->)|[(_ & -> & ->)|[(-> & _ & ->)|(-> & _ & _ & tg & tl & l & Ht & Hl & ->)]]]; [apply drop_escape| |apply alike_refl|].
    + subst w. apply alike_app; [apply alike_refl|apply drop_escape].
    + subst w. apply alike_app; [apply alike_refl|]. cbn [app]. intros s0 s1 H. assert (Ns : ~ In 60%N (a ++ [z])). { intros K. rewrite Forall_forall in Fb. destruct (Fb _ K) as (_ & Q). apply Q. cbn. auto. }
      apply run_app in H. destruct H as (s2 & H2 & H). destruct (scheme_run s _ _ Hs H2) as (-> & ->). apply (run_free_end own_tags _ _ Ns) in H. subst s1.
      assert (Nt : ~ In 60%N (s ++ a ++ [z])). { rewrite in_app_iff. intros [K|K]; [|exact (Ns K)]. destruct Hs as [<-|[<-|[<-|[<-|[<-|[]]]]]]; cbn in K; intuition discriminate. }
      assert (E : s ++ a ++ [z] = tg ++ tl) by (destruct Ht as [(c & _ & [(E & ->)|(E & -> & _)])|(-> & -> & _)]; [exact E|exact E|rewrite app_nil_r; reflexivity]). rewrite E in Nt. rewrite in_app_iff in Nt.
      apply whole_app; [refine (link_whole _ _ _ _ _ _ Hl)|]; apply free_whole; tauto.
Qed.
Lemma macros_whole U fs P t o : ~ In 91%N t \/ ~ In 58%N t -> apply_macros U fs P t = Ok o -> whole own_tags t -> whole own_tags o.
Proof.
  intros Hc H W. apply C108_macros in H. destruct H as (t1 & t2 & t3 & t4 & H1 & H2 & H3 & H4 & H5).
  assert (Oc : forall w c, In c w -> occurs w t -> In c t) by (intros w c Hw (a & b & ->); rewrite !in_app_iff; auto).
  assert (Tr : Forall (fun _ : char => True) t3) by (apply Forall_forall; auto).
  assert (t1 = t) as ->. { destruct H1 as [((B1 & [B2|B2]) & _)|(_ & E)]; [| |exact E]; exfalso; (destruct Hc as [Hc|Hc]; [exact (Hc B1)|]); apply Hc; refine (Oc _ 58%N _ B2); cbn; tauto. }
  assert (t3 = t2) as ->. { destruct H3 as [((B1 & [B2|B2]) & _)|(_ & E)]; [| |exact E]; exfalso; (destruct Hc as [Hc|Hc]; [exact (Hc B1)|]); apply Hc; refine (Oc _ 58%N _ B2); cbn; tauto. }
  assert (W2 : whole own_tags t2).
  { destruct H2 as [(B & H2)|(_ & ->)]; [|exact W]. destruct Hc as [Hc|Hc]; [|exfalso; apply Hc; apply (Oc (lit "://")); [cbn; tauto|exact B]].
    refine (replaced_run own_tags _ _ (fun c => c <> 91%N) _ _ _ _ H2 _ _ _ W); [intros prev w rest x Hx F; exact (url_alike U P prev w rest x Hx F)|]. apply Forall_forall. intros c K ->. exact (Hc K). }
  assert (W4 : whole own_tags t4).
  { destruct H4 as [(_ & H4)|(_ & ->)]; [|exact W2]. refine (rewritten_run own_tags _ (fun _ => True) _ _ _ _ H4 _ _ _ W2); [intros prev w rest x Hx _; exact (email_alike U prev w rest x Hx)|]. apply Forall_forall. auto. }
  destruct H5 as [(_ & H5)|(_ & ->)]; [|exact W4]. refine (replaced_run own_tags _ _ (fun _ => True) _ _ _ _ H5 _ _ _ W4); [intros prev w rest x Hx _; exact (anchor_alike U prev w rest x Hx)|]. apply Forall_forall. auto.
Qed.
(** * Post replacements *)
Lemma lines_whole t ls : lines_are t ls -> whole own_tags t -> Forall (whole own_tags) ls.
Proof.
  induction 1 as [l Hl|l t ls Hl H IH]; intros W; [repeat constructor; exact W|]. change (l ++ LF :: t) with (l ++ [LF] ++ t) in W. apply run_app in W. destruct W as (s1 & H1 & W). apply run_app in W. destruct W as (s2 & H2 & W).
  apply idle_text in H2; [|idle_goal|discriminate]. destruct H2 as (-> & ->). constructor; [exact H1|exact (IH W)].
Qed.
Lemma whole_lines t ls : lines_are t ls -> Forall (whole own_tags) ls -> whole own_tags t.
Proof.
  induction 1 as [l Hl|l t ls Hl H IH]; intros F; [exact (Forall_inv F)|]. change (l ++ LF :: t) with (l ++ [LF] ++ t). apply whole_app; [exact (Forall_inv F)|]. apply whole_app; [free_goal|]. exact (IH (Forall_inv_tail F)).
Qed.
Lemma plus_whole a : whole own_tags (a ++ lit " +") -> whole own_tags (a ++ lit "<br>").
Proof.
  intros W. apply run_app in W. destruct W as (s1 & H1 & W). change (lit " +") with ([SP] ++ lit "+") in W. apply run_app in W. destruct W as (s2 & H2 & W). apply idle_text in W; [|idle_goal|discriminate]. destruct W as (-> & _).
  apply (no_end_text own_tags [SP]) in H2; [|repeat constructor]. subst s1. apply whole_app; [exact H1|tag_goal].
Qed.
Lemma plus_broken_whole l l' : plus_broken l l' -> whole own_tags l -> whole own_tags l'.
Proof. intros [(a & -> & ->)|(_ & ->)]; [apply plus_whole|auto]. Qed.
Lemma hard_broken_whole l l' : hard_broken l l' -> whole own_tags l -> whole own_tags l'.
Proof. intros [(a & -> & ->)|(_ & ->)] W; [exact (plus_whole _ W)|]. apply whole_app; [exact W|tag_goal]. Qed.
Lemma no_cr_whole l l' : no_cr l l' -> whole own_tags l -> whole own_tags l'.
Proof. intros [->|(_ & ->)] W; [|exact W]. apply run_app in W. destruct W as (s1 & H1 & H2). apply idle_text in H2; [|idle_goal|discriminate]. destruct H2 as (-> & _). exact H1. Qed.
Lemma forall2_whole (R : text -> text -> Prop) ls ls' : (forall l l', R l l' -> whole own_tags l -> whole own_tags l') -> Forall2 R ls ls' -> Forall (whole own_tags) ls -> Forall (whole own_tags) ls'.
Proof. intros H. induction 1 as [|l l' ls ls' Hl HF IH]; intros F; constructor; [exact (H _ _ Hl (Forall_inv F))|exact (IH (Forall_inv_tail F))]. Qed.
Lemma lines_end t ls : lines_are t (ls ++ [[]]) -> ls <> [] -> exists u, t = u ++ [LF] /\ lines_are u ls.
Proof.
  revert t. induction ls as [|l ls IH]; intros t H N; [contradiction|]. cbn [app] in H. inversion H as [l0 Hl E1 E2|l0 t0 ls0 Hl Ht E1 E2]; subst. { destruct ls; discriminate. }
  destruct ls as [|l2 ls]. { cbn [app] in Ht. inversion Ht as [l0 Hl' E1 E2|l0 t1 ls0 Hl' Ht' E1 E2]; subst; [|inversion Ht']. exists l. split; [reflexivity|]. constructor. exact Hl. }
  destruct (IH t0 Ht) as (u & -> & Hu); [discriminate|]. exists (l ++ LF :: u). split; [rewrite <- app_assoc; reflexivity|]. constructor; assumption.
Qed.
Lemma post_whole U P hb t o : apply_post_replacements U P hb t = Ok o -> whole own_tags t -> whole own_tags o.
Proof.
  intros H W. destruct (in_dec N.eq_dec LF t) as [Hl|Hl]; [|rewrite (post_plain_single U P hb t Hl) in H; apply Ok_inj in H; subst o; exact W].
  destruct (is_attribute_set P (lit "hardbreaks-option") || hb) eqn:EP.
  - destruct (lines_are_total t) as (ls & Hls). assert (N : ls <> []) by (intros ->; inversion Hls). destruct (exists_last N) as (init & lst & ->). destruct lst as [|c lst].
    + destruct init as [|i0 init]. { cbn [app] in Hls. inversion Hls as [l0 K E1 E2|l0 t0 ls0 K Ht E1 E2]; subst; [destruct Hl|inversion Ht]. }
      destruct (lines_end t _ Hls ltac:(discriminate)) as (u & -> & Hu). assert (Ni : i0 :: init <> []) by discriminate. destruct (exists_last Ni) as (init' & l' & Ei). rewrite Ei in *.
      assert (Wu : whole own_tags u). { apply run_app in W. destruct W as (s1 & H1 & H2). apply idle_text in H2; [|idle_goal|discriminate]. destruct H2 as (-> & _). exact H1. }
      destruct (post_hard_nl U P hb u init' l' EP Hu) as (o' & mid & lst' & ls' & Ho & Hlo & H1 & H2 & H3). rewrite Ho in H. apply Ok_inj in H. subst o'. apply (whole_lines _ _ Hlo). pose proof (lines_whole _ _ Hu Wu) as F. apply Forall_app in F. destruct F as (F1 & F2).
      apply Forall_app. split; [exact (forall2_whole _ _ _ hard_broken_whole H3 (forall2_whole _ _ _ no_cr_whole H2 F1))|repeat constructor; exact (no_cr_whole _ _ H1 (Forall_inv F2))].
    + destruct (post_hard U P hb t init (c :: lst) EP Hl Hls ltac:(discriminate)) as (o' & mid & ls' & Ho & Hlo & H2 & H3). rewrite Ho in H. apply Ok_inj in H. subst o'. apply (whole_lines _ _ Hlo). pose proof (lines_whole _ _ Hls W) as F. apply Forall_app in F. destruct F as (F1 & F2).
      apply Forall_app. split; [exact (forall2_whole _ _ _ hard_broken_whole H3 (forall2_whole _ _ _ no_cr_whole H2 F1))|exact F2].
  - apply orb_false_iff in EP. destruct EP as (EP & ->). apply (post_plain U P t o EP Hl) in H. destruct H as (ls & ls' & H1 & H2 & H3). apply (whole_lines _ _ H2). exact (forall2_whole _ _ _ plus_broken_whole H3 (lines_whole _ _ H1 W)).
Qed.
(** * The groups *)
Definition tagged_groups : list group := [GNormal; GTitle; GHeader].
Lemma escaped_free t : ~ In 60%N (flat_map esc t).
Proof.
  rewrite in_flat_map. intros (c & _ & K). unfold esc in K. repeat match type of K with context [if ?b then _ else _] => destruct b eqn:?; [cbn in K; intuition discriminate|] end.
  destruct K as [K|[]]. subst c. discriminate.
Qed.
Lemma steps_whole ok B (A : apart ok B) k U fs P f g hb t o : In g tagged_groups -> (k = 91%N \/ k = 58%N) -> ok k = false -> entity_char k = false ->
  (forall c, In c (lit "<>&") -> ok c = true -> calmb B (esc c) && forallb ok (esc c) = true) -> Forall (fun c => ok c = true) t -> calm B t ->
  (forall n v, value_of P n = Some v -> whole own_tags v /\ ~ In k v) -> extract_from U t = Ok ([], t) ->
  apply_group U fs P (S f) g hb t = Ok o -> whole own_tags o.
Proof.
  intros Hg Hk Ok1 Ek He F C Hv Hx H. rewrite apply_group_S in H. assert (Eg : extracts g = true) by (destruct Hg as [<-|[<-|[<-|[]]]]; reflexivity). rewrite Eg, Hx in H. cbn [bind fst snd] in H.
  assert (H' : apply_steps U fs P hb (steps_of g) t = Ok o) by (destruct (apply_steps U fs P hb (steps_of g) t); [exact H|discriminate H|discriminate H]). clear H. rename H' into H.
  destruct (escape_step ok B ok t A (fun _ K => K) He F C) as (F1 & C1). pose proof (escaped_free t) as N1. set (u := flat_map esc t) in *.
  assert (Hat : forall w v, apply_attributes U P w = Ok v -> whole own_tags w -> ~ In k w -> whole own_tags v /\ ~ In k v).
  { intros w v Hw W Nw. apply C39_references_are_expanded_exactly in Hw. split; [exact (expands_alike _ _ _ Hw (fun n x K => proj1 (Hv n x K)) _ _ W)|].
    assert (Z : without [k] v). { apply (expands_without (value_of P) [k] w v Hw); [intros n x K c [<-|[]]; exact (proj2 (Hv n x K))|intros c [<-|[]]; exact Nw]. } apply (Z k). left. reflexivity. }
  assert (Nk : forall w, Forall (fun c => ok c = true) w -> ~ In k w) by (intros w Fw; exact (fine_not ok w k Fw Ok1)).
  assert (G : g = GHeader \/ steps_of g = normal_steps) by (destruct Hg as [<-|[<-|[<-|[]]]]; auto). destruct G as [->|G].
  - cbn [steps_of apply_steps apply_step] in H. rewrite apply_special_characters_eq in H. cbn [bind] in H. fold u in H. apply bind_ok in H. destruct H as (v & H1 & H2). apply Ok_inj in H2. subst v. exact (proj1 (Hat _ _ H1 (free_whole u N1) (Nk u F1))).
  - rewrite G in H. cbn [normal_steps apply_steps apply_step] in H. rewrite apply_special_characters_eq in H. cbn [bind] in H. fold u in H.
    apply bind_ok in H. destruct H as (v1 & H1 & H). apply bind_ok in H. destruct H as (v2 & H2 & H). apply bind_ok in H. destruct H as (v3 & H3 & H). apply bind_ok in H. destruct H as (v4 & H4 & H). apply bind_ok in H. destruct H as (v5 & H5 & H). apply Ok_inj in H. subst v5.
    destruct (quotes_whole ok B A U P u v1 F1 C1 H1 (run_free mark_tags u N1)) as (W1 & F2 & C2). apply more_tags in W1. destruct (Hat _ _ H2 W1 (Nk v1 F2)) as (W2 & N2).
    apply apply_character_replacements_iff in H3. pose proof (passes_without U k Ek _ (fun _ K => K) _ _ H3 N2) as N3. pose proof (passes_alike U _ (fun _ K => K) _ _ H3 _ _ W2) as W3.
    refine (post_whole U P hb v4 o H5 (macros_whole U fs P v3 v4 _ H4 W3)). destruct Hk as [->| ->]; [left|right]; exact N3.
Qed.
Lemma apart_unbracketed : apart (off (lit "[+$")) b_back.
Proof.
  split.
  - intros c. split; no_such b_back.
  - intros c d [H|H]; each b_back.
  - left. intros d. no_such b_back.
  - intros c d Hd H. each b_back; yesc.
  - yesc.
  - left. yesc.
  - right. intros d. transitivity false; [no_such b_back|symmetry; no_such b_back].
  - intros d H. vm_compute in H. repeat (destruct H as [<-|H]; [yesc|]). destruct H.
Qed.
Lemma apart_worded : apart (off (lit ":+$")) b_words.
Proof.
  split.
  - intros c. split; no_such b_words.
  - intros c d [H|H]; each b_words.
  - left. intros d. no_such b_words.
  - intros c d Hd H. each b_words; yesc.
  - yesc.
  - right. intros d H. vm_compute in H. repeat (destruct H as [<-|H]; [yesc|]). destruct H.
  - right. intros d. transitivity false; [no_such b_words|symmetry; no_such b_words].
  - intros d H. vm_compute in H. repeat (destruct H as [<-|H]; [yesc|]). destruct H.
Qed.
Lemma unbracketed_made U fs P f g hb t o : unbracketed t -> clean_values (lit "[") P -> In g tagged_groups -> apply_group U fs P (S f) g hb t = Ok o -> made_of own_tags o.
Proof.
  intros (H1 & H2) Hv Hg H. apply without_off in H1. apply (whole_made own_tags).
  apply (steps_whole (off (lit "[+$")) b_back apart_unbracketed 91%N U fs P f g hb t o Hg (or_introl eq_refl) eq_refl eq_refl); try assumption.
  - intros c Hc _. vm_compute in Hc. repeat (destruct Hc as [<-|Hc]; [yesc|]). destruct Hc.
  - apply calm_infix. intros c d K. unfold b_back. exact (pair_calm _ _ _ _ _ H2 K).
  - intros n v Hn. destruct (Hv n v Hn) as (M & N). split; [exact (made_whole own_tags own_good v M)|apply N; left; reflexivity].
  - apply nothing_extracted; [apart_from H1|apart_from H1| |left; apart_from H1].
    right. intros c K. exfalso. apply (fine_not _ _ 91%N H1 eq_refl). destruct K as (x & y & ->). apply in_app_iff. right. right. left. reflexivity.
Qed.
Lemma worded_made U fs P f g hb t o : worded t -> clean_values (lit ":") P -> In g tagged_groups -> apply_group U fs P (S f) g hb t = Ok o -> made_of own_tags o.
Proof.
  intros (H1 & H2 & H3) Hv Hg H. apply without_off in H1. apply (whole_made own_tags).
  apply (steps_whole (off (lit ":+$")) b_words apart_worded 58%N U fs P f g hb t o Hg (or_intror eq_refl) eq_refl eq_refl); try assumption.
  - intros c Hc _. vm_compute in Hc. repeat (destruct Hc as [<-|Hc]; [yesc|]). destruct Hc.
  - apply calm_infix. intros c d K. unfold b_words, b_back, b_brack. rewrite (pair_calm _ _ _ _ _ H2 K), (pair_calm _ _ _ _ _ H3 K). reflexivity.
  - intros n v Hn. destruct (Hv n v Hn) as (M & N). split; [exact (made_whole own_tags own_good v M)|apply N; left; reflexivity].
  - apply nothing_extracted; [apart_from H1|apart_from H1|left; apart_from H1|]. right. apply H3; vm_compute; auto.
Qed.
(** * Values *)
Definition clean (x v : text) : Prop := made_of own_tags v /\ without x v.
Lemma clean_nil x : clean x []. Proof. split; [constructor|intros c _ []]. Qed.
Lemma clean_put x P n av : clean_values x P -> clean_defaults x P -> (forall v, av_value av = VValue v -> clean x v) -> clean_values x (with_attrs P (mput n av (p_attrs P))) /\ clean_defaults x (with_attrs P (mput n av (p_attrs P))).
Proof.
  intros Hv Hd Ha. split; [|exact Hd]. intros k v H. unfold value_of in H. destruct (has_attribute _ k) eqn:Eh; [|discriminate H]. injection H as <-. unfold attribute_value. cbn [with_attrs p_attrs p_defaults]. rewrite mget_mput.
  destruct (text_eqb k n) eqn:Ek.
  - destruct (av_value av) as [w| |] eqn:Ew; [exact (Ha w eq_refl)|destruct (mget k (p_defaults P)) as [d|] eqn:Ed; [exact (Hd k d Ed)|exact (clean_nil x)]|exact (clean_nil x)].
  - unfold has_attribute in Eh. cbn [with_attrs p_attrs] in Eh. assert (Eh' : has_attribute P k = true). { unfold has_attribute, mhas in *. rewrite mget_mput, Ek in Eh. exact Eh. }
    change (clean x (match attribute_value P k with VValue v => v | _ => [] end)). apply (Hv k). unfold value_of. rewrite Eh'. reflexivity.
Qed.
Lemma header_without ok B (A : apart ok B) k U fs P f t o : ok k = false ->
  (forall c, In c (lit "<>&") -> ok c = true -> calmb B (esc c) && forallb ok (esc c) = true) -> Forall (fun c => ok c = true) t -> calm B t ->
  (forall n v, value_of P n = Some v -> ~ In k v) -> extract_from U t = Ok ([], t) -> apply_group U fs P (S f) GHeader false t = Ok o -> ~ In k o.
Proof.
  intros Ok1 He F C Hv Hx H. rewrite apply_group_S in H. change (extracts GHeader) with true in H. cbn iota in H. rewrite Hx in H. cbn [bind fst snd] in H.
  assert (H' : apply_steps U fs P false (steps_of GHeader) t = Ok o) by (destruct (apply_steps U fs P false (steps_of GHeader) t); [exact H|discriminate H|discriminate H]). clear H. rename H' into H.
  destruct (escape_step ok B ok t A (fun _ K => K) He F C) as (F1 & C1).
  cbn [steps_of apply_steps apply_step] in H. rewrite apply_special_characters_eq in H. cbn [bind] in H. apply bind_ok in H. destruct H as (v & H1 & H2). apply Ok_inj in H2. subst v.
  apply C39_references_are_expanded_exactly in H1. assert (Z : without [k] o); [|apply (Z k); left; reflexivity].
  apply (expands_without (value_of P) [k] _ _ H1); [intros n x K c [<-|[]]; exact (Hv n x K)|intros c [<-|[]]; exact (fine_not ok _ k F1 Ok1)].
Qed.
Lemma unbracketed_value U fs P f t o : unbracketed t -> clean_values (lit "[") P -> apply_group U fs P (S f) GHeader false t = Ok o -> clean (lit "[") o.
Proof.
  intros Ht Hv H. split; [refine (unbracketed_made U fs P f GHeader false t o Ht Hv _ H); cbn; auto|]. destruct Ht as (H1 & H2). apply without_off in H1. intros c [<-|[]].
  apply (header_without (off (lit "[+$")) b_back apart_unbracketed 91%N U fs P f t o eq_refl); try assumption.
  - intros c Hc _. vm_compute in Hc. repeat (destruct Hc as [<-|Hc]; [yesc|]). destruct Hc.
  - apply calm_infix. intros c d K. unfold b_back. exact (pair_calm _ _ _ _ _ H2 K).
  - intros n v Hn. destruct (Hv n v Hn) as (_ & N). apply N. left. reflexivity.
  - apply nothing_extracted; [apart_from H1|apart_from H1| |left; apart_from H1].
    right. intros c K. exfalso. apply (fine_not _ _ 91%N H1 eq_refl). destruct K as (x & y & ->). apply in_app_iff. right. right. left. reflexivity.
Qed.
Lemma worded_value U fs P f t o : worded t -> clean_values (lit ":") P -> apply_group U fs P (S f) GHeader false t = Ok o -> clean (lit ":") o.
Proof.
  intros Ht Hv H. split; [refine (worded_made U fs P f GHeader false t o Ht Hv _ H); cbn; auto|]. destruct Ht as (H1 & H2 & H3). apply without_off in H1. intros c [<-|[]].
  apply (header_without (off (lit ":+$")) b_words apart_worded 58%N U fs P f t o eq_refl); try assumption.
  - intros c Hc _. vm_compute in Hc. repeat (destruct Hc as [<-|Hc]; [yesc|]). destruct Hc.
  - apply calm_infix. intros c d K. unfold b_words, b_back, b_brack. rewrite (pair_calm _ _ _ _ _ H2 K), (pair_calm _ _ _ _ _ H3 K). reflexivity.
  - intros n v Hn. destruct (Hv n v Hn) as (_ & N). apply N. left. reflexivity.
  - apply nothing_extracted; [apart_from H1|apart_from H1|left; apart_from H1|]. right. apply H3; vm_compute; auto.
Qed.
Lemma entered_clean x U (C : text -> Prop) (sub : parser -> text -> text -> Prop) P Q : (forall P t o, clean_values x P -> C t -> sub P t o -> clean x o) ->
  entered U C sub P Q -> clean_values x P -> clean_defaults x P -> clean_values x Q /\ clean_defaults x Q.
Proof.
  intros Hs. induction 1 as [P|P Q a H IH Ha|P Q a H IH Ha]; intros Hv Hd; [auto| |]; destruct (IH Hv Hd) as (V & D); clear IH.
  - unfold set_attribute_from_header. match goal with |- context [if ?b then _ else _] => destruct b end; [cbn [fst]; auto|]. cbn [fst]. apply clean_put; [exact V|exact D|]. cbn [av_value]. intros v Ev.
    destruct (at_value a) as [w| |]; [|match type of Ev with context [mget ?n ?m] => destruct (mget n m) as [d|] eqn:Ed; [|discriminate Ev] end|discriminate Ev]; injection Ev as <-; [|exact (D _ _ Ed)].
    destruct Ha as (t & Ct & Hsub). exact (Hs Q t w V Ct Hsub).
  - unfold set_attribute_from_body. match goal with |- context [if ?b then _ else _] => destruct b end; [cbn [fst]; auto|]. cbn [fst]. apply clean_put; [exact V|exact D|]. cbn [av_value]. intros v Ev. rewrite Ev in Ha. destruct Ha as (t & Ct & Hsub). exact (Hs Q t v V Ct Hsub).
Qed.
(** The parser at the beginning. *)
Definition cleanb (x v : text) : bool := match run own_tags [] v with Some [] => true | _ => false end && forallb (fun c => negb (has_char c v)) x.
Lemma cleanb_clean x v : cleanb x v = true -> clean x v.
Proof.
  intros H. apply andb_true_iff in H. destruct H as (H1 & H2). split.
  - apply whole_made. unfold whole. destruct (run own_tags [] v) as [[|? ?]|]; (reflexivity || discriminate H1).
  - intros c Hc. rewrite forallb_forall in H2. specialize (H2 c Hc). apply negb_true_iff, has_char_false in H2. exact H2.
Qed.
Definition stored (P : parser) : list text := flat_map (fun kv => match av_value (snd kv) with VValue v => [v] | _ => [] end) (p_attrs P) ++ map snd (p_defaults P).
Lemma stored_clean x P : forallb (cleanb x) (stored P) = true -> clean_values x P /\ clean_defaults x P.
Proof.
  intros H. rewrite forallb_forall in H. assert (Hd : clean_defaults x P). { intros n v E. apply cleanb_clean, H. apply in_app_iff. right. apply mget_in in E. apply in_map_iff. exists (n, v). auto. }
  split; [|exact Hd]. intros n v E. unfold value_of in E. destruct (has_attribute P n); [|discriminate E]. injection E as <-. unfold attribute_value. destruct (mget n (p_attrs P)) as [av|] eqn:Ea; [|exact (clean_nil x)].
  destruct (av_value av) as [w| |] eqn:Ew; [|destruct (mget n (p_defaults P)) as [d|] eqn:Ed; [exact (Hd n d Ed)|exact (clean_nil x)]|exact (clean_nil x)].
  apply cleanb_clean, H. apply in_app_iff. left. apply in_flat_map. exists (n, av). split; [exact (mget_in _ _ _ Ea)|]. cbn [snd]. rewrite Ew. left. reflexivity.
Qed.
Lemma default_clean x : x = lit "[" \/ x = lit ":" -> clean_values x parser_default /\ clean_defaults x parser_default.
Proof. intros [->| ->]; apply stored_clean; vm_compute; reflexivity. Qed.
