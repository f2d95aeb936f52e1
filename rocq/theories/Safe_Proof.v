(** Proofs for C109: what each substitution does to the pairs of neighbouring characters of a text. *)
From Verif Require Import Text TextFacts Maps Span_Model Span_Proof Span_Laws Parser_Model Regex Regex_Proof Regex_Scan Regex_Lang Regex_Lazy Subs_Model Subs_Spec Subs_Proof Subs_Chars Subs_Prop
  Attrlist_Model Render_Model Quote_Model Quote_Spec Quote_Proof Quote_Prop Macro_Model Macro_Spec Macro_Proof Macro_Prop Group_Model Group_Spec Group_Proof Header_Spec Total_Spec Safe_Spec.

(** ** Pairs of neighbours *)
Definition calm (B : char -> char -> bool) (t : text) : Prop := forall a c d b, t = a ++ c :: d :: b -> B c d = false.
Fixpoint calmb (B : char -> char -> bool) (t : text) : bool :=
  match t with c :: ((d :: _) as r) => negb (B c d) && calmb B r | _ => true end.
Lemma calm_cons B c d t : calm B (c :: d :: t) <-> B c d = false /\ calm B (d :: t).
Proof.
  split.
  - intros H. split; [apply (H [] c d t eq_refl)|]. intros a x y b E. apply (H (c :: a) x y b). cbn [app]. rewrite <- E. reflexivity.
  - intros [H1 H2] a x y b E. destruct a as [|z a]; [injection E as -> -> _; exact H1|]. injection E as _ E. exact (H2 _ _ _ _ E).
Qed.
Lemma calmb_spec B t : calmb B t = true -> calm B t.
Proof.
  induction t as [|c t IH]; intros H; [intros [|? ?] x y b E; discriminate E|]. destruct t as [|d t]; [intros [|? [|? ?]] x y b E; discriminate E|].
  cbn [calmb] in H. apply andb_true_iff in H. destruct H as [H1 H2]. apply calm_cons. split; [destruct (B c d); [discriminate H1|reflexivity]|apply IH, H2].
Qed.
Lemma last_cons (c : char) t x : last (c :: t) x = last t c.
Proof. revert c x. induction t as [|d t IH]; intros c x; [reflexivity|]. change (last (c :: d :: t) x) with (last (d :: t) x). rewrite !IH. reflexivity. Qed.
Lemma last_app a b (x : char) : b <> [] -> last (a ++ b) x = last b x.
Proof. induction a as [|c a IH]; intros H; [reflexivity|]. cbn [app]. rewrite <- (IH H). destruct (a ++ b) eqn:E; [destruct a; [cbn in E; subst; contradiction|discriminate E]|]. reflexivity. Qed.
Lemma last_any t (x y : char) : t <> [] -> last t x = last t y.
Proof. destruct t as [|c t]; [contradiction|]. intros _. rewrite !last_cons. reflexivity. Qed.
Lemma split_last (t : text) : t <> [] -> exists a, t = a ++ [last t 0%N].
Proof. intros H. destruct (exists_last H) as (a & c & ->). exists a. rewrite last_app by discriminate. reflexivity. Qed.
Lemma calm_app B a b : calm B (a ++ b) <-> calm B a /\ calm B b /\ (a <> [] -> b <> [] -> B (last a 0%N) (hd 0%N b) = false).
Proof.
  induction a as [|c a IH]; [cbn; split; [intros H; repeat split; [intros [|? ?] ? ? ? E; discriminate E|exact H|contradiction]|tauto]|].
  destruct a as [|d a].
  - destruct b as [|d b]; [cbn; split; [intros H; repeat split; [exact H|intros [|? ?] ? ? ? E; discriminate E|contradiction]|tauto]|].
    cbn [app last hd]. rewrite calm_cons. split; [intros [H1 H2]; repeat split; [intros [|? [|? ?]] ? ? ? E; discriminate E|exact H2|intros _ _; exact H1]|]. intros (_ & H2 & H3). split; [apply H3; discriminate|exact H2].
  - change ((c :: d :: a) ++ b) with (c :: d :: (a ++ b)). rewrite !calm_cons. change (d :: a ++ b) with ((d :: a) ++ b). rewrite IH. change (last (c :: d :: a) 0%N) with (last (d :: a) 0%N).
    split; [intros (H1 & H2 & H3 & H4); repeat split; auto; intros _; apply H4; discriminate|]. intros ((H1 & H2) & H3 & H4). repeat split; auto. intros _. apply H4. discriminate.
Qed.
Lemma calm_infix B t : calm B t <-> forall c d, infix [c; d] t -> B c d = false.
Proof. split; [intros H c d (x & y & E); exact (H _ _ _ _ E)|]. intros H a c d b E. apply H. exists a, b. exact E. Qed.

Definition heads : text := lit "*`_#^~'" ++ [34%N].
Definition drops : text := heads ++ lit "(.-=&".
Definition outs : list text :=
  [lit "<strong>"; lit "</strong>"; lit "<em>"; lit "</em>"; lit "<code>"; lit "</code>"; lit "<sup>"; lit "</sup>"; lit "<sub>"; lit "</sub>"; lit "<mark>"; lit "</mark>"; lit "&#8220;"; lit "&#8221;"; lit "&#8216;"; lit "&#8217;";
    lit "&#169;"; lit "&#174;"; lit "&#8482;"; lit "&#8201;&#8212;&#8201;"; lit "&#8212;&#8203;"; lit "&#8230;&#8203;"; lit "&#8594;"; lit "&#8658;"; lit "&#8592;"; lit "&#8656;"].
(** What the forbidden characters and pairs must be like, for the substitutions not to produce any. *)
Record apart (ok : char -> bool) (B : char -> char -> bool) : Prop := mkapart {
  ap_tags : forall c, B c 60%N = false /\ B c 38%N = false;
  ap_close : forall c d, B 62%N d = true \/ B 59%N d = true -> c <> LF -> c <> 91%N -> B c d = true;
  ap_dash : (forall d, B 59%N d = false) \/ B 45%N LF = true;
  ap_drop : forall c d, In d drops -> B c d = true -> B c BSL = true;
  ap_outs : forallb (fun o => calmb B o && forallb ok o) outs = true;
  ap_attrs : ok 91%N = false \/ forall d, In d heads -> B 93%N d = true;
  ap_entity : B 38%N 97%N = true \/ forall d, B 38%N d = B 59%N d;
  ap_quiet : forall d, In d (lit "'`" ++ [34%N]) -> B 96%N d = true }.

Section Keeping.
  Variables (ok : char -> bool) (B : char -> char -> bool).
  Hypothesis A : apart ok B.
  Notation fine := (Forall (fun c => ok c = true)).
  Definition keeps (w x : text) : Prop :=
    w <> [] /\ x <> [] /\ fine x /\ calm B x /\ (forall c, B c (hd 0%N x) = true -> B c (hd 0%N w) = true) /\ (forall d, B (last x 0%N) d = true -> B (last w 0%N) d = true).
  Inductive pieced : text -> text -> Prop :=
  | pc_nil : pieced [] []
  | pc_step w x t o : keeps w x -> pieced t o -> pieced (w ++ t) (x ++ o).
  Lemma pieced_calm t o : pieced t o -> calm B t -> fine o /\ calm B o /\ (t = [] <-> o = []) /\ (forall c, B c (hd 0%N o) = true -> B c (hd 0%N t) = true).
  Proof.
    induction 1 as [|w x t o (Nw & Nx & F & C & Hh & Hl) Hp IH]; [intros H; repeat split; auto; constructor|]. intros H. apply calm_app in H. destruct H as (C1 & C2 & C3).
    destruct (IH C2) as (F' & C' & E' & H'). split; [apply Forall_app; auto|]. split.
    - apply calm_app. split; [exact C|]. split; [exact C'|]. intros _ No. assert (Nt : t <> []) by (intros K; apply No, E', K). specialize (C3 Nw Nt).
      destruct (B (last x 0%N) (hd 0%N o)) eqn:Eb; [|reflexivity]. apply Hl in Eb. apply H' in Eb. congruence.
    - destruct w as [|c w]; [contradiction|]. destruct x as [|d x]; [contradiction|]. split; [split; discriminate|]. exact Hh.
  Qed.
  Lemma keeps_same c : ok c = true -> keeps [c] [c].
  Proof. intros H. split; [discriminate|]. split; [discriminate|]. split; [repeat constructor; exact H|]. split; [|auto]. intros [|? [|? ?]] ? ? ? E; discriminate E. Qed.
  Lemma rewritten_pieced (R : rule) : (forall prev w rest x, R prev w rest x -> fine w -> calm B w -> keeps w x) ->
    forall prev t o, rewritten R prev t o -> fine t -> calm B t -> pieced t o.
  Proof.
    intros H prev t o Hr. induction Hr as [prev|prev w r x o Hx Hr IH|prev c t o Hn Hr IH]; intros F C; [constructor| |].
    - apply Forall_app in F. destruct F as [F1 F2]. apply calm_app in C. destruct C as (C1 & C2 & _). constructor; [exact (H _ _ _ _ Hx F1 C1)|auto].
    - change (c :: t) with ([c] ++ t) in *. change (c :: o) with ([c] ++ o). apply Forall_app in F. destruct F as [F1 F2]. apply calm_app in C. destruct C as (C1 & C2 & _).
      constructor; [apply keeps_same, (Forall_inv F1)|auto].
  Qed.
  Lemma rewritten_keeps (R : rule) : (forall prev w rest x, R prev w rest x -> fine w -> calm B w -> keeps w x) ->
    forall prev t o, rewritten R prev t o -> fine t -> calm B t -> fine o /\ calm B o.
  Proof. intros H prev t o Hr F C. destruct (pieced_calm _ _ (rewritten_pieced R H prev t o Hr F C) C) as (F' & C' & _). auto. Qed.
  Lemma out_fine o : In o outs -> fine o /\ calm B o.
  Proof.
    intros H. pose proof (ap_outs _ _ A) as K. rewrite forallb_forall in K. specialize (K o H). apply andb_true_iff in K. destruct K as [K1 K2]. split; [apply Forall_forall, forallb_forall, K2|apply calmb_spec, K1].
  Qed.
  Lemma no_close c d : B 62%N d = true \/ B 59%N d = true -> B c d = false -> c = LF \/ c = 91%N.
  Proof. intros H K. destruct (N.eq_dec c LF) as [->|N1]; [auto|]. destruct (N.eq_dec c 91%N) as [->|N2]; [auto|]. rewrite (ap_close _ _ A c d H N1 N2) in K. discriminate K. Qed.
  (** A text put between two tags. *)
  Lemma keeps_wrap lead op body cl o c : In o outs -> In c outs -> (length lead <= 1) -> op <> [] -> body <> [] -> cl <> [] ->
    In (hd 0%N o) [60%N; 38%N] -> In (hd 0%N c) [60%N; 38%N] -> In (last o 0%N) [62%N; 59%N] -> In (last c 0%N) [62%N; 59%N] ->
    last op 0%N <> LF -> last op 0%N <> 91%N -> last cl 0%N <> LF -> last cl 0%N <> 91%N ->
    fine (lead ++ op ++ body ++ cl) -> calm B (lead ++ op ++ body ++ cl) -> keeps (lead ++ op ++ body ++ cl) (lead ++ o ++ body ++ c).
  Proof.
    intros Ho Hc Hlen No Nb Nc Ho1 Hc1 Ho2 Hc2 Lo1 Lo2 Lc1 Lc2 F C. destruct (out_fine o Ho) as [Fo Co]. destruct (out_fine c Hc) as [Fc Cc].
    assert (No' : o <> []) by (intros ->; destruct Ho1 as [K|[K|[]]]; discriminate K). assert (Nc' : c <> []) by (intros ->; destruct Hc1 as [K|[K|[]]]; discriminate K).
    rewrite !Forall_app in F. destruct F as (F1 & F2 & F3 & F4).
    apply calm_app in C. destruct C as (C1 & C & C2). apply calm_app in C. destruct C as (C3 & C & C4). apply calm_app in C. destruct C as (C5 & C6 & C7).
    assert (T : forall x d, In d [60%N; 38%N] -> B x d = false) by (intros x d [<-|[<-|[]]]; apply (ap_tags _ _ A)).
    assert (Hh : forall u v, hd 0%N (o ++ u) = hd 0%N o /\ hd 0%N (c ++ v) = hd 0%N c) by (intros; destruct o, c; try contradiction; auto).
    split; [destruct lead, op; try contradiction; discriminate|]. split; [destruct lead, o; try contradiction; discriminate|]. split; [rewrite !Forall_app; auto|]. split.
    - apply calm_app. split; [exact C1|]. split; [|intros _ _; apply T; rewrite (proj1 (Hh _ [])); exact Ho1].
      apply calm_app. split; [exact Co|]. split; [|intros _ _].
      + apply calm_app. split; [exact C5|]. split; [exact Cc|]. intros _ _. apply T. exact Hc1.
      + assert (Eh : hd 0%N (body ++ c) = hd 0%N body) by (destruct body; [contradiction|reflexivity]). rewrite Eh. destruct (B (last o 0%N) (hd 0%N body)) eqn:Eb; [|reflexivity].
        assert (K : B (last op 0%N) (hd 0%N body) = false) by (replace (hd 0%N body) with (hd 0%N (body ++ cl)) by (destruct body; [contradiction|reflexivity]); apply C4; [exact No|destruct body; discriminate || contradiction]).
        assert (Kc : B 62%N (hd 0%N body) = true \/ B 59%N (hd 0%N body) = true) by (destruct Ho2 as [E|[E|[]]]; rewrite <- E in Eb; auto). destruct (no_close _ _ Kc K); contradiction.
    - split.
      + intros x Hx. destruct lead as [|y lead]; [|exact Hx]. cbn [app] in *. exfalso. rewrite (proj1 (Hh _ [])) in Hx. rewrite (T _ _ Ho1) in Hx. discriminate Hx.
      + intros d Hd. rewrite !app_assoc in Hd. rewrite last_app in Hd by exact Nc'. rewrite !app_assoc. rewrite last_app by exact Nc.
        apply (ap_close _ _ A); auto. destruct Hc2 as [E|[E|[]]]; rewrite <- E in Hd; auto.
  Qed.
  (** A backslash dropped. *)
  Lemma keeps_drop v : v <> [] -> In (hd 0%N v) drops -> fine (BSL :: v) -> calm B (BSL :: v) -> keeps (BSL :: v) v.
  Proof.
    intros N H F C. change (BSL :: v) with ([BSL] ++ v) in *. apply calm_app in C. apply Forall_app in F. split; [discriminate|]. split; [exact N|]. split; [apply F|]. split; [apply C|].
    split; [intros c K; exact (ap_drop _ _ A c _ H K)|]. intros d. rewrite last_app by exact N. auto.
  Qed.
  (** Text replaced by an entity. *)
  Lemma keeps_out w x : w <> [] -> In x outs -> In (hd 0%N x) [60%N; 38%N] -> In (last x 0%N) [62%N; 59%N] -> last w 0%N <> LF -> last w 0%N <> 91%N -> keeps w x.
  Proof.
    intros N H H1 H2 L1 L2. destruct (out_fine x H) as [F C]. assert (Nx : x <> []) by (intros ->; destruct H1 as [K|[K|[]]]; discriminate K). split; [exact N|]. split; [exact Nx|]. split; [exact F|]. split; [exact C|].
    split; [intros c K; exfalso; destruct H1 as [E|[E|[]]]; rewrite <- E in K; destruct (ap_tags _ _ A c); congruence|]. intros d K. apply (ap_close _ _ A); auto. destruct H2 as [E|[E|[]]]; rewrite <- E in K; auto.
  Qed.
  (** *** Formatting marks *)
  Lemma no_attrs f lead attrs body : In (hd 0%N (op_of f)) heads -> op_of f <> [] -> fine (mark_src f lead attrs body) -> calm B (mark_src f lead attrs body) -> attrs = None.
  Proof.
    intros Hh No F C. destruct attrs as [a|]; [|reflexivity]. exfalso. unfold mark_src, attrs_src in *. destruct (ap_attrs _ _ A) as [K|K].
    - rewrite !Forall_app in F. destruct F as (_ & (F & _) & _). apply Forall_inv in F. change (ok 91%N = true) in F. congruence.
    - specialize (K _ Hh). assert (K' : B 93%N (hd 0%N (op_of f)) = false); [|congruence]. destruct (op_of f) as [|d op] eqn:Eo; [contradiction|]. cbn [hd].
      apply (C (lead ++ lit "[" ++ a) 93%N d (op ++ body ++ cl_of f)). rewrite <- !app_assoc. reflexivity.
  Qed.
  Definition wraps (ty : quote_type) : option (text * text) :=
    match ty with
    | QStrong => Some (lit "<strong>", lit "</strong>") | QEmphasis => Some (lit "<em>", lit "</em>") | QMonospaced => Some (lit "<code>", lit "</code>")
    | QSuperscript => Some (lit "<sup>", lit "</sup>") | QSubscript => Some (lit "<sub>", lit "</sub>") | QMark => Some (lit "<mark>", lit "</mark>")
    | QDoubleQuote => Some (lit "&#8220;", lit "&#8221;") | QSingleQuote => Some (lit "&#8216;", lit "&#8217;") | QUnquoted => None
    end.
  Lemma element_wraps ty o c body : wraps ty = Some (o, c) -> element ty None [] body = o ++ body ++ c.
  Proof. destruct ty; intros H; try discriminate H; injection H as <- <-; reflexivity. Qed.
  Lemma body_nonempty f body : body_ok f body -> body <> [].
  Proof. destruct f as [e o c|b m]; cbn [body_ok]; [intros (c0 & _ & [->|(m & d & -> & _)]); discriminate|tauto]. Qed.
  Lemma lead_short U f prev lead : lead_ok U f prev lead -> length lead <= 1.
  Proof. destruct f as [e o c|b m]; cbn [lead_ok]; [intros [(-> & _)|(x & -> & _)]|intros [->| ->]]; cbn; lia. Qed.
  Lemma mark_facts tf : In tf marks -> exists o c, wraps (fst tf) = Some (o, c) /\ In o outs /\ In c outs /\ In (hd 0%N o) [60%N; 38%N] /\ In (hd 0%N c) [60%N; 38%N] /\
    In (last o 0%N) [62%N; 59%N] /\ In (last c 0%N) [62%N; 59%N] /\ op_of (snd tf) <> [] /\ cl_of (snd tf) <> [] /\ In (hd 0%N (op_of (snd tf))) heads /\
    last (op_of (snd tf)) 0%N <> LF /\ last (op_of (snd tf)) 0%N <> 91%N /\ last (cl_of (snd tf)) 0%N <> LF /\ last (cl_of (snd tf)) 0%N <> 91%N.
  Proof.
    intros H. unfold marks in H. cbn [In] in H.
    repeat (destruct H as [<-|H]; [do 2 eexists; split; [reflexivity|]; repeat split; try discriminate; vm_compute; auto 30|]). destruct H.
  Qed.
  Lemma mark_keeps U P tf prev w rest x : In tf marks -> mark_rule U P (fst tf) (snd tf) prev w rest x -> fine w -> calm B w -> keeps w x.
  Proof.
    intros Hin (lead & attrs & body & [(_ & Hl & _ & Hb & _) _] & -> & Hx) F C.
    destruct (mark_facts tf Hin) as (o & c & Ew & Ho & Hc & Ho1 & Hc1 & Ho2 & Hc2 & No & Nc & Hh & Lo1 & Lo2 & Lc1 & Lc2).
    assert (attrs = None) as -> by exact (no_attrs _ _ _ _ Hh No F C). pose proof (body_nonempty _ _ Hb) as Nb. unfold mark_src in *. cbn [attrs_src app] in *.
    destruct Hx as [(-> & Hx)|(_ & Hx)].
    - assert (x = op_of (snd tf) ++ body ++ cl_of (snd tf)) as -> by (destruct (snd tf); exact Hx). apply keeps_drop; [|rewrite <- app_comm_cons in *|exact F|exact C].
      + destruct (op_of (snd tf)); [contradiction|discriminate].
      + apply in_app_iff. left. destruct (op_of (snd tf)); [contradiction|exact Hh].
    - rewrite Hx, (element_wraps _ _ _ _ Ew). apply keeps_wrap; auto. exact (lead_short _ _ _ _ Hl).
  Qed.
  (** *** Character replacements *)
  Lemma keeps_id p : p <> [] -> fine p -> calm B p -> keeps p p.
  Proof. intros N F C. repeat split; auto. Qed.
  Lemma keeps_app w x w' x' : keeps w x -> keeps w' x' -> calm B (w ++ w') -> keeps (w ++ w') (x ++ x').
  Proof.
    intros (N1 & N2 & F & C & H & L) (N1' & N2' & F' & C' & H' & L') K. apply calm_app in K. destruct K as (_ & _ & K). specialize (K N1 N1').
    split; [destruct w; [contradiction|discriminate]|]. split; [destruct x; [contradiction|discriminate]|]. split; [apply Forall_app; auto|]. split.
    - apply calm_app. split; [exact C|]. split; [exact C'|]. intros _ _. destruct (B (last x 0%N) (hd 0%N x')) eqn:E; [|reflexivity]. apply L, H' in E. congruence.
    - split; [destruct w, x; try contradiction; exact H|]. intros d. rewrite !last_app by assumption. apply L'.
  Qed.
  Lemma literal_keeps w0 x0 prev w rest x : w0 <> [] -> In (hd 0%N w0) drops -> In x0 outs -> In (hd 0%N x0) [60%N; 38%N] -> In (last x0 0%N) [62%N; 59%N] -> last w0 0%N <> LF -> last w0 0%N <> 91%N ->
    r_literal w0 x0 prev w rest x -> fine w -> calm B w -> keeps w x.
  Proof. intros N H O1 O2 O3 L1 L2 [(-> & ->)|(-> & ->)] F C; [apply keeps_out; assumption|apply keeps_drop; assumption]. Qed.
  Lemma dash_spaces_keeps prev w rest x : r_dash_spaces prev w rest x -> fine w -> calm B w -> keeps w x.
  Proof.
    intros (a & b & -> & [(_ & ->)|(-> & ->)] & Hb) F C.
    - assert (Nw : a ++ lit "--" ++ b <> []) by (destruct a; discriminate).
      destruct Hb as [->|[->|(-> & _)]]; [apply keeps_out; try exact Nw; try (vm_compute; auto 30; fail); rewrite app_assoc, last_app by discriminate; discriminate| |
        apply keeps_out; try exact Nw; try (vm_compute; auto 30; fail); rewrite last_app by discriminate; discriminate].
      destruct (ap_dash _ _ A) as [K|K].
      + destruct (out_fine (lit "&#8201;&#8212;&#8201;")) as [Fo Co]; [vm_compute; auto 30|]. split; [exact Nw|]. split; [discriminate|]. split; [exact Fo|]. split; [exact Co|].
        split; [intros c Kc; change (B c 38%N = true) in Kc; destruct (ap_tags _ _ A c); congruence|]. intros d Kd. change (B 59%N d = true) in Kd. rewrite K in Kd. discriminate Kd.
      + exfalso. assert (B 45%N LF = false); [|congruence]. apply (C (a ++ lit "-") 45%N LF []). rewrite <- app_assoc. reflexivity.
    - apply keeps_drop; [discriminate|vm_compute; auto 30|exact F|exact C].
  Qed.
  Lemma dash_word_keeps U prev w rest x : r_dash_word U prev w rest x -> fine w -> calm B w -> keeps w x.
  Proof.
    intros (c & _ & [(-> & ->)|(-> & ->)]) F C.
    - apply (keeps_app [c] [c] (lit "--") (lit "&#8212;&#8203;")); [apply keeps_same, (Forall_inv F)|apply keeps_out; try discriminate; vm_compute; auto 30|exact C].
    - apply (keeps_app [c] [c] (BSL :: lit "--") (lit "--")); [apply keeps_same, (Forall_inv F)|apply keeps_drop; [discriminate|vm_compute; auto 30|exact (Forall_inv_tail F)|]|exact C].
      apply (calm_app B [c]) in C. apply C.
  Qed.
  Lemma apostrophe_keeps prev w rest x : r_apostrophe prev w rest x -> fine w -> calm B w -> keeps w x.
  Proof.
    intros (a & b & _ & _ & [(-> & ->)|(-> & ->)]) F C; pose proof (Forall_inv F) as Fa; apply (calm_app B [a]) in C as C1; destruct C1 as (_ & C1 & _); apply Forall_inv_tail in F as F1.
    - apply (keeps_app [a] [a] [39%N; b] (lit "&#8217;" ++ [b])); [apply keeps_same, Fa| |exact C]. apply (keeps_app [39%N] (lit "&#8217;") [b] [b]); [apply keeps_out; try discriminate; vm_compute; auto 30|apply keeps_same, (Forall_inv (Forall_inv_tail F1))|exact C1].
    - apply (keeps_app [a] [a] [BSL; 39%N; b] [39%N; b]); [apply keeps_same, Fa| |exact C]. apply keeps_drop; [discriminate|vm_compute; auto 30|exact F1|exact C1].
  Qed.
  Lemma entity_keeps U prev w rest x : r_entity U prev w rest x -> fine w -> calm B w -> keeps w x.
  Proof.
    intros (n & _ & [(-> & ->)|(-> & ->)]) F C; [|apply keeps_drop; [discriminate|vm_compute; auto 30|exact F|exact C]].
    destruct (ap_entity _ _ A) as [K|K]; [exfalso; assert (B 38%N 97%N = false); [|congruence]; apply (C [] 38%N 97%N (lit "mp;" ++ n ++ lit ";")); reflexivity|].
    apply Forall_app in F as F1. destruct F1 as [F1 F2]. apply calm_app in C as C1. destruct C1 as (C1 & C2 & _).
    apply keeps_app; [|apply keeps_id; [destruct n; discriminate|exact F2|exact C2]|exact C]. split; [discriminate|]. split; [discriminate|]. split; [constructor; [exact (Forall_inv F1)|constructor]|].
    split; [apply calmb_spec; reflexivity|]. split; [auto|]. intros d Hd. change (B 38%N d = true) in Hd. change (B 59%N d = true). rewrite <- K. exact Hd.
  Qed.
  Lemma replacement_keeps U R prev w rest x : In R (replacement_rules U) -> R prev w rest x -> fine w -> calm B w -> keeps w x.
  Proof.
    intros Hin Hx F C. unfold replacement_rules in Hin. cbn [In] in Hin.
    repeat (destruct Hin as [<-|Hin]; [first [exact (dash_spaces_keeps _ _ _ _ Hx F C)|exact (dash_word_keeps _ _ _ _ _ Hx F C)|exact (apostrophe_keeps _ _ _ _ Hx F C)|exact (entity_keeps _ _ _ _ _ Hx F C)|
      refine (literal_keeps _ _ _ _ _ _ _ _ _ _ _ _ _ Hx F C); try discriminate; vm_compute; auto 30]|]). destruct Hin.
  Qed.
  (** *** The steps *)
  Lemma quotes_step U P t : fine t -> calm B t -> exists o, apply_quotes U P t = Ok o /\ fine o /\ calm B o.
  Proof.
    assert (G : forall l, (forall tf, In tf l -> In tf marks) -> forall t, fine t -> calm B t -> exists o, formatted U P l t o /\ fine o /\ calm B o).
    { induction l as [|tf l IH]; intros Hl u F C; [exists u; split; [constructor|auto]|]. pose proof (Hl tf (or_introl eq_refl)) as Htf.
      assert (Q : quiet u) by (intros a c b E; repeat split; intros ->; match goal with E : u = _ ++ 96%N :: ?d :: _ |- _ => assert (B 96%N d = false) by exact (C _ _ _ _ E); assert (B 96%N d = true) by (apply (ap_quiet _ _ A); vm_compute; auto); congruence end).
      assert (K : exists o, rewritten (mark_rule U P (fst tf) (snd tf)) None u o).
      { destruct (looks_ahead tf) eqn:El.
        - assert (tf = mono) as -> by (revert El; clear -Htf; unfold marks in Htf; cbn [In] in Htf; repeat (destruct Htf as [<-|Htf]; [cbn; intros E; try discriminate E; reflexivity|]); destruct Htf).
          destruct (mono_total U P u Q) as (o & Ho). exists o. apply mono_iff; assumption.
        - destruct (apply_mark_total U P tf u (marks_wf _ Htf) El) as (o & Ho). exists o. apply apply_mark_iff; [apply marks_wf, Htf|exact El|exact Ho]. }
      destruct K as (o & Ho). destruct (rewritten_keeps (mark_rule U P (fst tf) (snd tf)) (fun p w r x => mark_keeps U P tf p w r x Htf) _ _ _ Ho F C) as (F' & C').
      destruct (IH (fun y H => Hl y (or_intror H)) o F' C') as (o' & Hf & F'' & C''). exists o'. split; [econstructor; eauto|auto]. }
    intros F C. destruct (G marks (fun _ H => H) t F C) as (o & Ho & F' & C'). exists o. split; [apply C42_whole_step, Ho|auto].
  Qed.
  Lemma replacements_step U t : fine t -> calm B t -> exists o, apply_character_replacements U t = Ok o /\ fine o /\ calm B o.
  Proof.
    intros F C. destruct (apply_character_replacements_total U t) as (o & Ho). exists o. split; [exact Ho|]. apply apply_character_replacements_iff in Ho. revert Ho.
    assert (G : forall l, (forall R, In R l -> In R (replacement_rules U)) -> forall t, fine t -> calm B t -> passes l t o -> fine o /\ calm B o); [|exact (G _ (fun _ H => H) t F C)].
    clear t F C. induction l as [|R l IH]; intros Hl u F C H; [cbn in H; subst; auto|]. destruct H as (u' & Hr & H).
    destruct (rewritten_keeps R (fun p w r x => replacement_keeps U R p w r x (Hl R (or_introl eq_refl))) _ _ _ Hr F C) as (F' & C'). apply (IH (fun y K => Hl y (or_intror K)) u' F' C' H).
  Qed.
End Keeping.

(** ** Patterns that match nowhere *)
Lemma replace_all_none {St} U r (rep : St -> mtch -> text -> res (St * text)) s h : (forall pv a x m, h = a ++ x -> match_here U r pv x = Some m -> False) -> replace_all U r rep s h = Ok (s, h).
Proof.
  intros H. unfold replace_all. destruct (find_all U r h) as [l e] eqn:E. destruct l as [|[p m] l]; [reflexivity|]. exfalso. unfold find_all in E.
  destruct (find_all_go_in _ _ _ _ _ _ _ _ _ _ E (or_introl eq_refl)) as (pv & a & x & Ex & Hm). exact (H _ _ _ _ Ex Hm).
Qed.
Lemma replace_all_pure_none U r rep h : (forall pv a x m, h = a ++ x -> match_here U r pv x = Some m -> False) -> replace_all_pure U r rep h = Ok h.
Proof. intros H. unfold replace_all_pure. rewrite replace_all_none by exact H. reflexivity. Qed.
Lemma match_in U r pv h a x m : h = a ++ x -> match_here U r pv x = Some m -> exists b, h = a ++ m_text m ++ b.
Proof. intros -> H. apply match_here_text in H. destruct H as [H _]. exists (m_after m). rewrite <- H. reflexivity. Qed.
Fixpoint of_chars (q : char -> Prop) (r : re) : Prop :=
  match r with
  | Eps | Assert _ => True
  | Chr p => forall c, p c = true -> q c
  | Seq a b | Alt a b => of_chars q a /\ of_chars q b
  | Star _ a | Grp _ a => of_chars q a
  end.
Lemma lang_of_chars U q r : of_chars q r -> forall pv w rest caps, lang U r pv w rest caps -> Forall q w.
Proof.
  induction r as [|p|a IHa b IHb|a IHa b IHb|g a IHa|i a IHa|a]; intros H pv w rest caps L; cbn [of_chars] in H.
  - destruct L as [-> _]. constructor.
  - destruct L as (c & -> & Hc & _). repeat constructor. apply H, Hc.
  - destruct H, L as (w1 & w2 & c1 & c2 & -> & _ & L1 & L2). apply Forall_app. eauto.
  - destruct H, L as [L|L]; eauto.
  - cbn [lang] in L. induction L as [|pv w1 w2 rest c1 c2 L1 Hw L2 IH]; [constructor|]. apply Forall_app. eauto.
  - destruct L as (c & _ & L). eauto.
  - destruct L as [-> _]. constructor.
Qed.
Definition inner (c : char) : Prop := c <> LF /\ c <> 91%N.
(** A passthrough macro has a bracket directly after its name or the list of substitutions. *)
Lemma pass_bracket U pv w rest caps : lang U INLINE_PASS_MACRO pv w rest caps -> In 43%N w \/ In 36%N w \/ exists p c q, w = p ++ c :: 91%N :: q /\ inner c /\ In 58%N w.
Proof.
  intros L. unfold INLINE_PASS_MACRO in L. cbn [Seqs] in L. apply lang_alt in L. destruct L as [L|L].
  - apply lang_seq in L. destruct L as (w1 & w2 & c1 & c2 & -> & _ & _ & L). apply lang_seq in L. destruct L as (w3 & w4 & c3 & c4 & -> & _ & _ & L). cbn [Alts] in L.
    assert (K : In 43%N w4 \/ In 36%N w4) by (apply lang_alt in L; destruct L as [L|L]; [|apply lang_alt in L; destruct L as [L|L]]; apply delimited_shape in L; destruct L as (body & -> & _); [left|left|right]; left; reflexivity).
    rewrite !in_app_iff. tauto.
  - right. right. apply lang_seq in L. destruct L as (w1 & w2 & c1 & c2 & -> & _ & _ & L). apply lang_seq in L. destruct L as (w3 & w4 & c3 & c4 & -> & _ & L3 & L). apply -> lang_lit in L3. destruct L3 as [-> _].
    apply lang_seq in L. destruct L as (w5 & w6 & c5 & c6 & -> & _ & L5 & L). apply lang_seq in L. destruct L as (w7 & w8 & c7 & c8 & -> & _ & L7 & _). apply -> lang_lit1 in L7. destruct L7 as [-> _].
    assert (F : Forall inner w5).
    { unfold Opt in L5. apply lang_alt in L5. destruct L5 as [L5|L5]; [|apply -> lang_eps in L5; destruct L5 as [-> _]; constructor]. apply -> lang_grp in L5. destruct L5 as (c & _ & L5).
      refine (lang_of_chars U inner _ _ _ _ _ _ L5). cbn [of_chars Plus Many Lit1 c_is c_range]. unfold inner, c_is, c_range. repeat split; intros ->; match goal with K : _ = true |- _ => vm_compute in K; discriminate K end. }
    assert (F' : Forall inner (lit "pass:" ++ w5)) by (apply Forall_app; split; [repeat constructor; discriminate|exact F]). assert (N : lit "pass:" ++ w5 <> []) by discriminate. destruct (split_last _ N) as (a & Ea).
    assert (Hl : inner (last (lit "pass:" ++ w5) 0%N)) by (rewrite Ea in F'; apply Forall_app in F'; destruct F' as [_ F']; apply Forall_inv in F'; exact F').
    exists (w1 ++ a), (last (lit "pass:" ++ w5) 0%N), w8. split; [|split; [exact Hl|apply in_app_iff; right; do 4 right; left; reflexivity]].
    change (w1 ++ lit "pass:" ++ w5 ++ [91%N] ++ w8 = (w1 ++ a) ++ last (lit "pass:" ++ w5) 0%N :: 91%N :: w8). rewrite (app_assoc (lit "pass:")). rewrite Ea at 1. rewrite <- !app_assoc. reflexivity.
Qed.
Lemma image_bracket U pv w rest caps : lang U INLINE_IMAGE_MACRO pv w rest caps -> exists p c q, w = p ++ c :: 91%N :: q /\ inner c.
Proof.
  intros L. unfold INLINE_IMAGE_MACRO in L. cbn [Seqs] in L. apply lang_seq in L. destruct L as (w1 & w2 & c1 & c2 & -> & _ & _ & L). apply lang_seq in L. destruct L as (w3 & w4 & c3 & c4 & -> & _ & _ & L).
  apply lang_seq in L. destruct L as (w5 & w6 & c5 & c6 & -> & _ & _ & L). apply lang_seq in L. destruct L as (w7 & w8 & c7 & c8 & -> & _ & L7 & L). apply -> lang_lit1 in L7. destruct L7 as [-> _].
  apply lang_seq in L. destruct L as (w9 & wa & c9 & ca & -> & _ & L9 & L). apply lang_seq in L. destruct L as (wb & wc & cb & cc & -> & _ & Lb & _). apply -> lang_lit1 in Lb. destruct Lb as [-> _].
  unfold Opt in L9. apply lang_alt in L9. destruct L9 as [L9|L9].
  - apply -> lang_grp in L9. destruct L9 as (c & _ & L9). cbn [Seqs] in L9. apply lang_seq in L9. destruct L9 as (x1 & x2 & ? & ? & -> & _ & _ & L9). apply lang_seq in L9. destruct L9 as (x3 & x4 & ? & ? & -> & _ & _ & (d & -> & Hd & _)).
    exists (w1 ++ w3 ++ w5 ++ [58%N] ++ x1 ++ x3), d, wc. split; [rewrite <- !app_assoc; reflexivity|]. apply negb_true_iff, orb_false_iff in Hd. destruct Hd as [H1 H2]. split; intros ->; discriminate.
  - apply -> lang_eps in L9. destruct L9 as [-> _]. exists (w1 ++ w3 ++ w5), 58%N, wc. split; [rewrite <- !app_assoc; reflexivity|split; discriminate].
Qed.
(** ** Nothing to extract *)
Lemma not_contains (c : char) p t : In c p -> ~ In c t -> contains p t = false.
Proof. intros Hc H. destruct (contains p t) eqn:E; [|reflexivity]. apply contains_spec in E. destruct E as (a & b & ->). exfalso. apply H. rewrite !in_app_iff. auto. Qed.
Lemma nothing_extracted U t : ~ In 43%N t -> ~ In 36%N t -> ~ In 58%N t \/ line_brackets t -> ~ In 91%N t \/ ~ infix (lit "]`") t -> extract_from U t = Ok ([], t).
Proof.
  intros H1 H2 H3 H4. unfold extract_from. assert (E1 : (if contains (lit "++") t || contains (lit "$$") t || contains (lit "ss:") t then replace_all U INLINE_PASS_MACRO pass_macro_replacer [] t else Ok ([], t)) = Ok ([], t)).
  { match goal with |- context [if ?b then _ else _] => destruct b end; [|reflexivity]. apply replace_all_none. intros pv a x m Ex Hm. destruct (match_in _ _ _ _ _ _ _ Ex Hm) as (b & Et).
    apply match_here_lang in Hm. destruct Hm as (_ & _ & L). assert (K : forall c, In c (m_text m) -> In c t) by (intros c Hc; rewrite Et, !in_app_iff; auto).
    apply pass_bracket in L. destruct L as [L|[L|(p & c & q & Ew & [Hc1 Hc2] & L)]]; [apply H1, K, L|apply H2, K, L|]. destruct H3 as [H3|H3]; [apply H3, K, L|].
    destruct (H3 c) as [E|E]; [|contradiction|contradiction]. exists (a ++ p), (q ++ b). rewrite Et, Ew, <- !app_assoc. reflexivity. }
  rewrite E1. cbn [bind fst snd]. match goal with |- context [if ?b then _ else _] => destruct b end; [|reflexivity]. apply replace_all_none. intros pv a x m Ex Hm. destruct (match_in _ _ _ _ _ _ _ Ex Hm) as (b & Et).
  assert (K : forall c, In c (m_text m) -> In c t) by (intros c Hc; rewrite Et, !in_app_iff; auto).
  apply inline_pass_shape in Hm. destruct Hm as [(at_ & q & Ew & _)|[(at_ & es & q & Ew & _)|(e & q & Ew & _)]].
  - destruct H4 as [H4|H4]; [apply H4, K; rewrite Ew; left; reflexivity|]. apply H4. exists (a ++ lit "[" ++ at_), (q ++ lit "`" ++ b). rewrite Et, Ew, <- !app_assoc. reflexivity.
  - apply H1, K. rewrite Ew, !in_app_iff. right. right. right. right. left. left. reflexivity.
  - apply H1, K. rewrite Ew, !in_app_iff. right. left. left. reflexivity.
Qed.
(** ** Macros *)
Lemma no_images U fs P t : line_brackets t -> replace_all_pure U INLINE_IMAGE_MACRO (image_macro_replacer U fs P) t = Ok t.
Proof.
  intros H. apply replace_all_pure_none. intros pv a x m Ex Hm. destruct (match_in _ _ _ _ _ _ _ Ex Hm) as (b & Et). apply match_here_lang in Hm. destruct Hm as (_ & _ & L).
  apply image_bracket in L. destruct L as (p & c & q & Ew & [H1 H2]). destruct (H c) as [E|E]; [|contradiction|contradiction]. exists (a ++ p), (q ++ b). rewrite Et, Ew, <- !app_assoc. reflexivity.
Qed.
Lemma last_macros U P (b1 b2 : bool) t : exists o, (t4 <- (if b1 then replace_all_pure U (INLINE_EMAIL U) (email_replacer U P) t else Ok t) ;; if b2 then replace_all_pure U (INLINE_ANCHOR U) anchor_replacer t4 else Ok t4) = Ok o.
Proof.
  assert (K : exists t4, (if b1 then replace_all_pure U (INLINE_EMAIL U) (email_replacer U P) t else Ok t) = Ok t4) by (destruct b1; [apply C47_emails|eauto]).
  destruct K as [t4 ->]. cbn [bind]. destruct b2; [apply C47_anchors|eauto].
Qed.
Lemma no_infix p t : ~ infix p t -> contains p t = false.
Proof. intros H. destruct (contains p t) eqn:E; [|reflexivity]. apply contains_spec in E. destruct (H E). Qed.
Lemma infix_sub p q t : infix p q -> infix q t -> infix p t.
Proof. intros (a & b & ->) (x & y & ->). exists (x ++ a), (b ++ y). rewrite <- !app_assoc. reflexivity. Qed.
Lemma macros_prose U fs P t : line_brackets t -> ~ infix (lit ":/") t -> ~ infix [58%N; LF] t -> exists o, apply_macros U fs P t = Ok o.
Proof.
  intros H1 H2 H3. unfold apply_macros. assert (E0 : contains (lit "://") t = false) by (apply no_infix; intros K; apply H2; revert K; apply infix_sub; exists [], (lit "/"); reflexivity). rewrite E0.
  match goal with |- context [bind (if ?b then replace_all_pure U INLINE_IMAGE_MACRO ?r t else Ok t) _] => assert (Ei : (if b then replace_all_pure U INLINE_IMAGE_MACRO r t else Ok t) = Ok t) by (destruct b; [apply no_images, H1|reflexivity]); rewrite Ei; clear Ei end. cbn [bind].
  rewrite andb_false_r. cbn [bind]. match goal with |- context [bind (if ?b then replace_all_pure U INLINE_LINK_MACRO ?r t else Ok t) _] => assert (Ei : exists o, (if b then replace_all_pure U INLINE_LINK_MACRO r t else Ok t) = Ok o) end.
  { match goal with |- context [if ?b then _ else _] => destruct b end; [|eauto]. apply C47_link_macros. intros c.
    assert (K : forall x, ~ occurs (x ++ lit ":" ++ [c] ++ lit "[") t).
    { intros x Ho. assert (E : c = LF \/ c = 91%N) by (apply H1; revert Ho; apply infix_sub; exists (x ++ lit ":"), []; rewrite <- app_assoc; reflexivity). destruct E as [->| ->].
      - apply H3. revert Ho. apply infix_sub. exists x, (lit "["). reflexivity.
      - assert (E : 58%N = LF \/ 58%N = 91%N); [|destruct E; discriminate]. apply H1. revert Ho. apply infix_sub. exists x, (lit "["). reflexivity. }
    split; [apply (K (lit "link"))|apply (K (lit "mailto"))]. }
  destruct Ei as (t3 & ->). cbn [bind]. apply last_macros.
Qed.
Lemma macros_lines U fs P t : line_brackets t -> ~ infix (lit "k:") t -> ~ infix (lit "o:") t -> ~ infix (lit "&g") t -> exists o, apply_macros U fs P t = Ok o.
Proof.
  intros H1 H2 H3 H4. unfold apply_macros. 
  match goal with |- context [bind (if ?b then replace_all_pure U INLINE_IMAGE_MACRO ?r t else Ok t) _] => assert (Ei : (if b then replace_all_pure U INLINE_IMAGE_MACRO r t else Ok t) = Ok t) by (destruct b; [apply no_images, H1|reflexivity]); rewrite Ei; clear Ei end. cbn [bind].
  assert (E1 : contains (lit "link:") t = false) by (apply no_infix; intros K; apply H2; revert K; apply infix_sub; exists (lit "lin"), []; reflexivity).
  assert (E2 : contains (lit "ilto:") t = false) by (apply no_infix; intros K; apply H3; revert K; apply infix_sub; exists (lit "ilt"), []; reflexivity). rewrite E1, E2. cbn [orb]. rewrite andb_false_r.
  match goal with |- context [bind (if ?b then replace_all_pure U INLINE_LINK ?r t else Ok t) _] => assert (Ei : exists o, (if b then replace_all_pure U INLINE_LINK r t else Ok t) = Ok o) end.
  { match goal with |- context [if ?b then _ else _] => destruct b end; [|eauto]. apply C47_urls. intros K. apply H4. revert K. apply infix_sub. exists [], (lit "t;"). reflexivity. }
  destruct Ei as (t2 & ->). cbn [bind]. apply last_macros.
Qed.
(** ** The groups *)
Lemma escape_step ok B ok0 t : apart ok B -> (forall c, ok0 c = true -> ok c = true) -> (forall c, In c (lit "<>&") -> ok0 c = true -> calmb B (esc c) && forallb ok (esc c) = true) ->
  Forall (fun c => ok0 c = true) t -> calm B t -> Forall (fun c => ok c = true) (flat_map esc t) /\ calm B (flat_map esc t).
Proof.
  intros A H1 H2 F C. assert (Hp : pieced ok B t (flat_map esc t)).
  { clear C. induction F as [|c t Hc F IH]; [constructor|]. change (c :: t) with ([c] ++ t). cbn [flat_map]. change (flat_map esc ([c] ++ t)) with (esc c ++ flat_map esc t). constructor; [|exact IH].
    assert (G : In c (lit "<>&") -> hd 0%N (esc c) = 38%N -> last (esc c) 0%N = 59%N -> c <> LF -> c <> 91%N -> esc c <> [] -> keeps ok B [c] (esc c)).
    { intros Hin E1 E2 N1 N2 N3. specialize (H2 c Hin Hc). apply andb_true_iff in H2. destruct H2 as [K1 K2]. split; [discriminate|]. split; [exact N3|]. split; [apply Forall_forall, forallb_forall, K2|]. split; [apply calmb_spec, K1|].
      split; [intros x Kx; rewrite E1 in Kx; destruct (ap_tags _ _ A x); congruence|]. intros d Kd. rewrite E2 in Kd. cbn [last]. apply (ap_close _ _ A); auto. }
    destruct (esc_cases c) as [(-> & E)|[(-> & E)|[(-> & E)|(_ & _ & _ & E)]]]; [apply G; (discriminate || (vm_compute; auto))|apply G; (discriminate || (vm_compute; auto))|apply G; (discriminate || (vm_compute; auto))|]. rewrite E. apply keeps_same, H1, Hc. }
  destruct (pieced_calm ok B _ _ Hp C) as (F' & C' & _). auto.
Qed.
Lemma normal_total ok B ok0 U fs P f hb t : apart ok B -> ok 123%N = false -> (forall c, ok0 c = true -> ok c = true) -> (forall c, In c (lit "<>&") -> ok0 c = true -> calmb B (esc c) && forallb ok (esc c) = true) ->
  (forall P u, Forall (fun c => ok c = true) u -> calm B u -> exists o, apply_macros U fs P u = Ok o) -> Forall (fun c => ok0 c = true) t -> calm B t -> extract_from U t = Ok ([], t) ->
  forall g, In g [GNormal; GTitle; GHeader; GNone] -> exists o, apply_group U fs P (S f) g hb t = Ok o.
Proof.
  intros A Hb Hok Hesc Hm F C He g Hg. destruct (escape_step ok B ok0 t A Hok Hesc F C) as (F1 & C1).
  assert (Hn : exists o, apply_steps U fs P hb normal_steps t = Ok o).
  { unfold normal_steps. cbn [apply_steps apply_step]. rewrite apply_special_characters_eq. cbn [bind]. destruct (quotes_step ok B A U P _ F1 C1) as (t2 & -> & F2 & C2). cbn [bind].
    rewrite C39_text_without_references_is_unchanged by (intros Hin; rewrite Forall_forall in F2; specialize (F2 _ Hin); congruence). cbn [bind].
    destruct (replacements_step ok B A U _ F2 C2) as (t3 & -> & F3 & C3). cbn [bind]. destruct (Hm P t3 F3 C3) as (t4 & ->). cbn [bind]. destruct (post_total U P hb t4) as (t5 & ->). cbn [bind]. eauto. }
  assert (Hh : exists o, apply_steps U fs P hb [SSpecialCharacters; SAttributeReferences] t = Ok o).
  { cbn [apply_steps apply_step]. rewrite apply_special_characters_eq. cbn [bind]. destruct (apply_attributes_total U P (flat_map esc t)) as (o & ->). cbn [bind]. eauto. }
  rewrite apply_group_S. destruct Hg as [<-|[<-|[<-|[<-|[]]]]].
  - change (extracts GNormal) with true. cbv iota. rewrite He. cbn [bind fst snd]. change (steps_of GNormal) with normal_steps. destruct Hn as (o & ->). cbn [bind]. eauto.
  - change (extracts GTitle) with true. cbv iota. rewrite He. cbn [bind fst snd]. change (steps_of GTitle) with normal_steps. destruct Hn as (o & ->). cbn [bind]. eauto.
  - change (extracts GHeader) with true. cbv iota. rewrite He. cbn [bind fst snd]. change (steps_of GHeader) with [SSpecialCharacters; SAttributeReferences]. destruct Hh as (o & ->). cbn [bind]. eauto.
  - exists t. reflexivity.
Qed.
