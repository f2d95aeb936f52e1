(** The patterns of the quotes step against [Quote_Spec]. *)
From Verif Require Import Text TextFacts Maps Span_Model Span_Pure Span_Proof Span_Laws Parser_Model Regex Regex_Proof Regex_Scan Regex_Lang Regex_Lazy
  Attrlist_Model Attrlist_Laws Look_Model Look_Proof Render_Model Quote_Model Quote_Spec Render_Proof.

Definition gn (f : form) : nat := match f with FConstrained _ _ _ => 2 | FUnconstrained _ _ => 1 end.
Definition body_re (f : form) : re :=
  match f with
  | FConstrained _ _ _ => Alt (Chr c_nonspace) (Seqs [Chr c_nonspace; ManyL (Chr c_any); Chr c_nonspace])
  | FUnconstrained b _ => PlusL (Chr (if b then c_any else c_nonspace))
  end.
Definition end_re (f : form) : re :=
  match f with FConstrained _ _ c => Seqs [Lit c; Assert AEndHalf] | FUnconstrained _ m => Lit m end.
Definition core_re (f : form) : re := Seq (Grp (S (gn f)) (body_re f)) (end_re f).
Definition tail_re (f : form) : re := Seq (OptAttrs (gn f)) (Seq (Lit (op_of f)) (core_re f)).
Definition lead_re (U : unicode) (f : form) : re :=
  match f with
  | FConstrained e _ _ => Grp 1 (Alt (Assert ABegin) (Chr (c_not (c_or (is_word U) (c_in (lit "&;:}" ++ e))))))
  | FUnconstrained _ _ => Opt (Lit1 BSL)
  end.
Definition re_of (U : unicode) (f : form) : re := Seq (lead_re U f) (tail_re f).
Lemma re_of_constrained U e o c : re_of U (FConstrained e o c) = constrained_re U e o c.
Proof. reflexivity. Qed.
Lemma re_of_unconstrained U m : re_of U (FUnconstrained true m) = unconstrained_re m.
Proof. reflexivity. Qed.
Lemma re_of_script U m : re_of U (FUnconstrained false m) = script_re m.
Proof. reflexivity. Qed.

(** The opening mark is not empty and starts neither with a bracket nor a backslash; the closing mark
    is not empty. *)
Definition wf_form (f : form) : Prop :=
  (exists c r, op_of f = c :: r /\ c <> 91%N /\ c <> 92%N) /\ cl_of f <> [].

Definition attrs_cap (n : nat) (o : option text) : list (nat * text) := match o with Some a => [(n, a)] | None => [] end.
Lemma c_in_iff t c : c_in t c = true <-> In c t.
Proof. unfold c_in. apply has_char_spec. Qed.
Lemma lang_optattrs U n prev w rest caps : lang U (OptAttrs n) prev w rest caps <->
  exists o, w = attrs_src o /\ attrs_ok o /\ caps = attrs_cap n o.
Proof.
  assert (Hc : forall c, c_not (c_in (lit "[]")) c = true <-> c <> 91%N /\ c <> 93%N).
  { intros c. unfold c_not. rewrite negb_true_iff. split.
    - intros H. split; intros ->; cbn in H; discriminate.
    - intros [H1 H2]. destruct (c_in (lit "[]") c) eqn:E; [|reflexivity]. apply c_in_iff in E. cbn in E. destruct E as [E|[E|[]]]; congruence. }
  unfold OptAttrs, Opt. rewrite lang_alt, lang_eps. split.
  - intros [H|[-> ->]]; [|exists None; repeat split]. cbn [Seqs] in H. apply lang_seq in H. destruct H as (w1 & w2 & c1 & c2 & -> & -> & L1 & L2). apply lang_lit1 in L1. destruct L1 as [-> ->].
    apply lang_seq in L2. destruct L2 as (w3 & w4 & c3 & c4 & -> & -> & L3 & L4). apply lang_lit1 in L4. destruct L4 as [-> ->]. apply lang_grp in L3. destruct L3 as (c5 & -> & L3).
    apply lang_seq in L3. destruct L3 as (a & b & ca & cb & -> & -> & La & Lb). apply -> lang_chr in La. destruct La as (c & -> & Hcc & ->). apply lang_many_chr in Lb. destruct Lb as [Fb ->].
    exists (Some ([c] ++ b)). repeat split; [discriminate| |]; intros E; subst; rewrite Forall_forall in Fb; destruct H as [H|H]; subst; try (apply Hc in Hcc; destruct Hcc; congruence); apply Fb, Hc in H; destruct H; congruence.
  - intros ([a|] & -> & Ha & ->); [|right; split; reflexivity]. left. destruct Ha as [Hne Ha]. cbn [Seqs attrs_src attrs_cap].
    apply lang_seq. exists [91%N], (a ++ [93%N]), [], [(n, a)]. repeat split; [apply lang_lit1; auto|].
    apply lang_seq. exists a, [93%N], [(n, a)], []. repeat split; [|apply lang_lit1; auto]. apply lang_grp. exists []. split; [reflexivity|].
    destruct a as [|c a]; [contradiction|]. apply lang_seq. exists [c], a, [], []. repeat split.
    + apply lang_chr. exists c. repeat split. apply Hc, Ha. left. reflexivity.
    + apply lang_many_chr. split; [|reflexivity]. apply Forall_forall. intros x Hx. apply Hc, Ha. right. exact Hx.
Qed.
Lemma nonspace_iff c : c_nonspace c = true <-> is_ws c = false.
Proof. unfold c_nonspace. apply negb_true_iff. Qed.
Lemma lang_body U f prev w rest caps : lang U (body_re f) prev w rest caps <-> body_ok f w /\ caps = [].
Proof.
  destruct f as [e o c|b m]; cbn [body_re body_ok].
  - rewrite lang_alt. split.
    + intros [H|H].
      * apply -> lang_chr in H. destruct H as (x & -> & Hx & ->). apply nonspace_iff in Hx. split; [|reflexivity]. eauto.
      * cbn [Seqs] in H. apply lang_seq in H. destruct H as (w1 & w2 & c1 & c2 & -> & -> & L1 & L2). apply -> lang_chr in L1. destruct L1 as (x & -> & Hx & ->). apply nonspace_iff in Hx.
        apply lang_seq in L2. destruct L2 as (w3 & w4 & c3 & c4 & -> & -> & L3 & L4). apply lang_many_chr in L3. destruct L3 as [_ ->]. apply -> lang_chr in L4. destruct L4 as (y & -> & Hy & ->). apply nonspace_iff in Hy.
        split; [|reflexivity]. exists x. split; [exact Hx|]. right. exists w3, y. auto.
    + intros [(x & Hx & [->|(m & d & -> & Hd)]) ->].
      * left. apply lang_chr. exists x. rewrite nonspace_iff. auto.
      * right. apply nonspace_iff in Hx, Hd. cbn [Seqs]. apply lang_seq. exists [x], (m ++ [d]), [], []. repeat split; [apply lang_chr; eauto|].
        apply lang_seq. exists m, [d], [], []. repeat split; [apply lang_many_chr; split; [|reflexivity]|apply lang_chr; eauto]. apply Forall_forall. reflexivity.
  - assert (Hp : forall c, (if b then c_any else c_nonspace) c = true <-> b = true \/ is_ws c = false).
    { intros c. destruct b; [split; auto|]. rewrite nonspace_iff. split; [auto|]. intros [H|H]; [discriminate|exact H]. }
    unfold PlusL. rewrite lang_seq. split.
    + intros (w1 & w2 & c1 & c2 & -> & -> & L1 & L2). apply -> lang_chr in L1. destruct L1 as (x & -> & Hx & ->). apply lang_many_chr in L2. destruct L2 as [F ->]. split; [|reflexivity]. split; [discriminate|].
      destruct b; [auto|]. right. rewrite Forall_forall in F. intros c [<-|Hc]; [apply nonspace_iff, Hx|]. apply nonspace_iff, F, Hc.
    + intros [[Hne H] ->]. destruct w as [|x w]; [contradiction|]. exists [x], w, [], []. repeat split.
      * apply lang_chr. exists x. repeat split. apply Hp. destruct H as [H|H]; [auto|]. right. apply H. left. reflexivity.
      * apply lang_many_chr. split; [|reflexivity]. apply Forall_forall. intros y Hy. apply Hp. destruct H as [H|H]; [auto|]. right. apply H. right. exact Hy.
Qed.
Lemma lang_end U f prev w rest caps : lang U (end_re f) prev w rest caps <-> w = cl_of f /\ after_ok U f rest /\ caps = [].
Proof.
  destruct f as [e o c|b m]; cbn [end_re cl_of after_ok].
  - cbn [Seqs]. rewrite lang_seq. assert (Hh : forall pv, at_check U AEndHalf pv rest = true <-> forall c r, rest = c :: r -> is_word U c = false).
    { intros pv. unfold at_check, check. cbn [s_rest]. rewrite negb_true_iff. destruct rest as [|x r]; cbn; split; intros H; try reflexivity; try discriminate; [intros y z E; injection E as <- _; exact H|apply (H x r eq_refl)]. }
    split.
    + intros (w1 & w2 & c1 & c2 & -> & -> & L1 & L2). apply lang_lit in L1. destruct L1 as [-> ->]. apply lang_assert in L2. destruct L2 as (-> & -> & L2). rewrite app_nil_r. pose proof (proj1 (Hh _) L2). auto.
    + intros (-> & Ha & ->). exists c, [], [], []. rewrite app_nil_r. repeat split; [apply lang_lit; auto|]. apply Hh, Ha.
  - rewrite lang_lit. intuition.
Qed.
Lemma end_fixed U f : fixed_len U (end_re f) (length (cl_of f)).
Proof. intros prev w rest c L. apply lang_end in L. destruct L as [-> _]. reflexivity. Qed.
Lemma core_shortest U f : shortest U (core_re f).
Proof.
  destruct f as [e o c|b m]; [apply (shortest_body U c_any c_nonspace 3 _ (length c))|apply (shortest_plus U _ 2 _ (length m))].
  - apply (end_fixed U (FConstrained e o c)).
  - apply (end_fixed U (FUnconstrained b m)).
Qed.
Lemma lang_core U f prev w rest caps : lang U (core_re f) prev w rest caps <->
  exists body, w = body ++ cl_of f /\ body_ok f body /\ after_ok U f rest /\ caps = [(S (gn f), body)].
Proof.
  unfold core_re. rewrite lang_seq. split.
  - intros (w1 & w2 & c1 & c2 & -> & -> & L1 & L2). apply lang_grp in L1. destruct L1 as (c3 & -> & L1). apply lang_body in L1. destruct L1 as [Hb ->]. apply lang_end in L2. destruct L2 as (-> & Ha & ->).
    exists w1. auto.
  - intros (body & -> & Hb & Ha & ->). exists body, (cl_of f), [(S (gn f), body)], []. repeat split; [|apply lang_end; auto]. apply lang_grp. exists []. split; [reflexivity|]. apply lang_body. auto.
Qed.

Definition tail_at (U : unicode) (f : form) (t : text) (attrs : option text) (body rest : text) : Prop :=
  t = attrs_src attrs ++ op_of f ++ body ++ cl_of f ++ rest /\ attrs_ok attrs /\ body_ok f body /\ after_ok U f rest.
Lemma attrs_unique f a1 a2 x1 x2 : wf_form f -> attrs_ok a1 -> attrs_ok a2 ->
  attrs_src a1 ++ op_of f ++ x1 = attrs_src a2 ++ op_of f ++ x2 -> a1 = a2 /\ x1 = x2.
Proof.
  intros [(c & r & Eo & N1 & N2) _] H1 H2 E. rewrite Eo in E. destruct a1 as [a1|], a2 as [a2|]; cbn [attrs_src] in E.
  - cbn [app lit] in E. injection E as E. rewrite <- !app_assoc in E. destruct H1 as [_ H1], H2 as [_ H2].
    assert (G : forall a1 a2 y1 y2, (forall c, In c a1 -> c <> 91%N /\ c <> 93%N) -> (forall c, In c a2 -> c <> 91%N /\ c <> 93%N) -> a1 ++ 93%N :: y1 = a2 ++ 93%N :: y2 -> a1 = a2 /\ y1 = y2).
    { clear. induction a1 as [|x a1 IH]; intros [|y a2] y1 y2 H1 H2 E; cbn in E.
      - injection E as ->. auto.
      - injection E as <- E. destruct (H2 93%N) as [_ N]; [left; reflexivity|congruence].
      - injection E as -> E. destruct (H1 93%N) as [_ N]; [left; reflexivity|congruence].
      - injection E as -> E. destruct (IH a2 y1 y2) as [-> ->]; auto; intros z Hz; [apply H1|apply H2]; right; exact Hz. }
    destruct (G a1 a2 _ _ H1 H2 E) as [-> E2]. split; [reflexivity|]. injection E2 as E2. apply app_inv_head in E2. exact E2.
  - cbn in E. injection E as E _. congruence.
  - cbn in E. injection E as E _. congruence.
  - cbn in E. injection E as E. apply app_inv_head in E. auto.
Qed.
Definition tail_caps (f : form) (attrs : option text) (body : text) : list (nat * text) := (S (gn f), body) :: attrs_cap (gn f) attrs.

Lemma lang_tail U f prev w rest caps : lang U (tail_re f) prev w rest caps <->
  exists attrs body, w = attrs_src attrs ++ op_of f ++ body ++ cl_of f /\ attrs_ok attrs /\ body_ok f body /\ after_ok U f rest /\ caps = tail_caps f attrs body.
Proof.
  unfold tail_re. rewrite lang_seq. split.
  - intros (w1 & w2 & c1 & c2 & -> & -> & L1 & L2). apply lang_optattrs in L1. destruct L1 as (o & -> & Ho & ->). apply lang_seq in L2. destruct L2 as (w3 & w4 & c3 & c4 & -> & -> & L3 & L4).
    apply lang_lit in L3. destruct L3 as [-> ->]. apply lang_core in L4. destruct L4 as (body & -> & Hb & Ha & ->). exists o, body. auto.
  - intros (o & body & -> & Ho & Hb & Ha & ->). exists (attrs_src o), (op_of f ++ body ++ cl_of f), (attrs_cap (gn f) o), [(S (gn f), body)]. repeat split; [apply lang_optattrs; eauto|].
    apply lang_seq. exists (op_of f), (body ++ cl_of f), [], [(S (gn f), body)]. repeat split; [apply lang_lit; auto|]. apply lang_core. eauto.
Qed.
Lemma rmatch_tail {A} U f (k : st -> A) s x : wf_form f -> rmatch U (tail_re f) (fun s' => Some (k s')) s = Some x ->
  exists attrs body rest, tail_at U f (s_rest s) attrs body rest /\ x = k (ext s (attrs_src attrs ++ op_of f ++ body ++ cl_of f) rest (tail_caps f attrs body)) /\
    forall attrs' body' rest', tail_at U f (s_rest s) attrs' body' rest' -> length body <= length body'.
Proof.
  intros W H. unfold tail_re in H. apply rmatch_seq_lang in H. destruct H as (w1 & r1 & c1 & E1 & L1 & H). apply lang_optattrs in L1. destruct L1 as (attrs & -> & Ho & ->).
  apply rmatch_seq_lang in H. destruct H as (w2 & r2 & c2 & E2 & L2 & H). apply lang_lit in L2. destruct L2 as [-> ->]. cbn [s_rest ext] in E2. subst r1. rewrite ext_ext in H. cbn [app] in H.
  apply core_shortest in H. destruct H as (w & rest & c & E & L & -> & Hmin). cbn [s_rest s_prev ext] in E, L, Hmin. apply lang_core in L. destruct L as (body & -> & Hb & Ha & ->). subst r2.
  rewrite ext_ext. rewrite <- !app_assoc in E1. exists attrs, body, rest. split; [repeat split; auto|]. split.
  - unfold tail_caps. rewrite <- !app_assoc. reflexivity.
  - intros attrs' body' rest' (E' & Ho' & Hb' & Ha'). rewrite E1 in E'. apply attrs_unique in E'; [|assumption|assumption|assumption]. destruct E' as [-> E'].
    specialize (Hmin (body' ++ cl_of f) rest' [(S (gn f), body')]). rewrite !app_length in Hmin. enough (length body + length (cl_of f) <= length body' + length (cl_of f)) by lia.
    apply Hmin; [rewrite <- !app_assoc; exact E'|]. apply lang_core. eauto.
Qed.
Lemma rmatch_tail_none {A} U f (k : st -> A) s attrs body rest : tail_at U f (s_rest s) attrs body rest -> rmatch U (tail_re f) (fun s' => Some (k s')) s <> None.
Proof.
  intros (E & Ho & Hb & Ha). apply (lang_rmatch U _ k s (attrs_src attrs ++ op_of f ++ body ++ cl_of f) rest (tail_caps f attrs body)); [rewrite E, <- !app_assoc; reflexivity|].
  apply lang_tail. eauto 10.
Qed.

Definition caps_of (f : form) (lead : text) (attrs : option text) (body : text) : list (nat * text) :=
  tail_caps f attrs body ++ match f with FConstrained _ _ _ => [(1, lead)] | _ => [] end.
Lemma lead_char U e c : c_not (c_or (is_word U) (c_in (lit "&;:}" ++ e))) c = true <-> is_word U c = false /\ ~ In c (lit "&;:}" ++ e).
Proof.
  unfold c_not, c_or. rewrite negb_true_iff, orb_false_iff. split; intros [H1 H2]; (split; [exact H1|]).
  - intros H. apply c_in_iff in H. congruence.
  - destruct (c_in (lit "&;:}" ++ e) c) eqn:E; [|reflexivity]. apply c_in_iff in E. contradiction.
Qed.
Lemma lang_lead U f prev w rest caps : lang U (lead_re U f) prev w rest caps <-> lead_ok U f prev w /\ caps = match f with FConstrained _ _ _ => [(1, w)] | _ => [] end.
Proof.
  destruct f as [e o c|b m]; cbn [lead_re lead_ok].
  - rewrite lang_grp. split.
    + intros (c' & -> & L). apply lang_alt in L. destruct L as [L|L].
      * apply lang_assert in L. destruct L as (-> & -> & L). split; [|reflexivity]. left. split; [reflexivity|]. unfold at_check in L. cbn in L. destruct prev; [discriminate|reflexivity].
      * apply -> lang_chr in L. destruct L as (x & -> & Hx & ->). apply lead_char in Hx. split; [|reflexivity]. right. eauto.
    + intros [[[-> ->]|(x & -> & Hx)] ->]; exists []; (split; [reflexivity|]); apply lang_alt; [left; apply lang_assert; auto|right; apply lang_chr; exists x; rewrite lead_char; auto].
  - rewrite lang_opt_lit1. unfold BSL. intuition.
Qed.
Lemma lang_form U f prev w rest caps : lang U (re_of U f) prev w rest caps <->
  exists lead attrs body, w = mark_src f lead attrs body /\ mark_at U f prev (w ++ rest) lead attrs body rest /\ caps = caps_of f lead attrs body.
Proof.
  unfold re_of. rewrite lang_seq. split.
  - intros (w1 & w2 & c1 & c2 & -> & -> & L1 & L2). apply lang_lead in L1. destruct L1 as [Hl ->]. apply lang_tail in L2. destruct L2 as (o & body & -> & Ho & Hb & Ha & ->).
    exists w1, o, body. repeat split; auto.
  - intros (lead & o & body & -> & (_ & Hl & Ho & Hb & Ha) & ->). exists lead, (attrs_src o ++ op_of f ++ body ++ cl_of f), (match f with FConstrained _ _ _ => [(1, lead)] | _ => [] end), (tail_caps f o body).
    repeat split; [apply lang_lead; auto|apply lang_tail; eauto 10].
Qed.

Lemma mark_tail U f prev t lead attrs body rest : mark_at U f prev t lead attrs body rest <->
  exists u, t = lead ++ u /\ lead_ok U f prev lead /\ tail_at U f u attrs body rest.
Proof.
  unfold mark_at, tail_at, mark_src. rewrite <- !app_assoc. split.
  - intros (-> & Hl & Ho & Hb & Ha). eexists. repeat split; eauto.
  - intros (u & -> & Hl & -> & Ho & Hb & Ha). repeat split; auto.
Qed.
Lemma ext_start prev t w rest c : t = w ++ rest -> s_pos (ext (mkst 0 prev t []) w rest c) = length w /\ firstn (length w) t = w.
Proof. intros ->. split; [reflexivity|apply firstn_len]. Qed.
Lemma match_chosen U f prev t m : wf_form f -> match_here U (re_of U f) prev t = Some m ->
  exists lead attrs body, chosen U f prev t lead attrs body (m_after m) /\ m_text m = mark_src f lead attrs body /\ m_caps m = caps_of f lead attrs body.
Proof.
  intros W H. unfold match_here in H. set (k := fun s' => mkm (firstn (s_pos s') t) (s_caps s') (s_prev s') (s_rest s')) in H. set (s0 := mkst 0 prev t []) in H.
  assert (Fin : forall lead u cl, t = lead ++ u -> lead_ok U f prev lead -> cl = match f with FConstrained _ _ _ => [(1, lead)] | _ => [] end ->
    rmatch U (tail_re f) (fun s' => Some (k s')) (ext s0 lead u cl) = Some m ->
    (forall lead' attrs' body' rest', mark_at U f prev t lead' attrs' body' rest' -> length lead <= length lead' /\ (length lead = length lead' -> lead = lead')) ->
    exists lead attrs body, chosen U f prev t lead attrs body (m_after m) /\ m_text m = mark_src f lead attrs body /\ m_caps m = caps_of f lead attrs body).
  { intros lead u cl Et Hl -> Hm Hmin. apply rmatch_tail in Hm; [|exact W]. cbn [s_rest ext] in Hm. destruct Hm as (attrs & body & rest & Ht & -> & Hs). rewrite ext_ext.
    exists lead, attrs, body. unfold k. cbn [m_after m_text m_caps s_rest s_caps s_pos ext]. split; [|split].
    - split; [apply mark_tail; eauto|]. intros lead' attrs' body' rest' H'. destruct (Hmin _ _ _ _ H') as [L1 L2]. destruct (Nat.eq_dec (length lead) (length lead')) as [El|]; [|lia].
      right. split; [exact El|]. specialize (L2 El). subst lead'. apply mark_tail in H'. destruct H' as (u' & E' & _ & H'). rewrite Et in E'. apply app_inv_head in E'. subst u'. apply (Hs _ _ _ H').
    - destruct Ht as (Eu & _). cbn [s_pos s0]. change (mark_src f lead attrs body) with (lead ++ attrs_src attrs ++ op_of f ++ body ++ cl_of f).
      rewrite Et, Eu. replace (lead ++ attrs_src attrs ++ op_of f ++ body ++ cl_of f ++ rest) with ((lead ++ attrs_src attrs ++ op_of f ++ body ++ cl_of f) ++ rest) by (rewrite <- !app_assoc; reflexivity). apply firstn_len.
    - unfold caps_of. rewrite app_nil_r. reflexivity. }
  assert (Hop : forall u attrs body rest, tail_at U f u attrs body rest -> exists c r, u = c :: r /\ c <> 92%N).
  { intros u attrs body rest (E & _). destruct W as [(c & r & Eo & _ & Nc) _]. rewrite Eo in E. destruct attrs as [a|]; cbn in E; eexists _, _; (split; [exact E|]); [discriminate|exact Nc]. }
  unfold re_of in H. destruct f as [e o c|b mk].
  - change (match (if check U ABegin s0 then rmatch U (tail_re (FConstrained e o c)) (fun s' => Some (k s')) (set_cap 1 s0 s0) else None) with Some x => Some x | None =>
        match s_rest s0 with x :: t' => if c_not (c_or (is_word U) (c_in (lit "&;:}" ++ e))) x then rmatch U (tail_re (FConstrained e o c)) (fun s' => Some (k s')) (set_cap 1 s0 (advance s0 x t')) else None | [] => None end end = Some m) in H.
    set (f := FConstrained e o c) in *.
    assert (E0 : set_cap 1 s0 s0 = ext s0 [] t [(1, [])]) by reflexivity.
    assert (N0 : (if check U ABegin s0 then rmatch U (tail_re f) (fun s' => Some (k s')) (set_cap 1 s0 s0) else None) = None -> forall a b r, ~ mark_at U f prev t [] a b r).
    { intros Hn a b r Hm. apply mark_tail in Hm. destruct Hm as (u & Eu & Hl & Ht). cbn [app] in Eu. subst u. destruct Hl as [[_ Ep]|(x & Ex & _)]; [|discriminate].
      assert (Ec : check U ABegin s0 = true) by (unfold check, s0; cbn; rewrite Ep; reflexivity). rewrite Ec, E0 in Hn. revert Hn. eapply rmatch_tail_none. exact Ht. }
    destruct (if check U ABegin s0 then rmatch U (tail_re f) (fun s' => Some (k s')) (set_cap 1 s0 s0) else None) as [y|] eqn:E1.
    + injection H as ->. destruct (check U ABegin s0) eqn:Ec; [|discriminate]. rewrite E0 in E1. apply (Fin [] t [(1, [])] eq_refl); [left; split; [reflexivity|]|reflexivity|exact E1|].
      * unfold check, s0 in Ec. cbn in Ec. destruct prev; [discriminate|reflexivity].
      * intros lead' a b r _. split; [cbn; lia|]. destruct lead'; [reflexivity|discriminate].
    + specialize (N0 eq_refl). unfold s0 in H at 1. cbn [s_rest] in H. destruct t as [|x t']; [discriminate|]. destruct (c_not _ x) eqn:Ex; [|discriminate]. apply lead_char in Ex.
      apply (Fin [x] t' [(1, [x])] eq_refl); [right; eauto|reflexivity|exact H|]. intros lead' a b r Hm. pose proof Hm as Hm'. destruct Hm as (Et & [[-> _]|(x' & -> & _)] & _).
      * exfalso. apply (N0 _ _ _ Hm').
      * split; [cbn; lia|]. intros _. cbn in Et. injection Et as -> _. reflexivity.
  - set (f := FUnconstrained b mk) in *. apply rmatch_seq_lang in H. destruct H as (w & r & c & E & L & H). apply lang_lead in L. destruct L as [Hl ->]. cbn [s_rest s0] in E.
    apply (Fin w r _ E Hl eq_refl H). intros lead' a' b' r' Hm. apply rmatch_tail in H; [|exact W]. destruct H as (a0 & b0 & r0 & Ht & _). cbn [s_rest ext] in Ht.
    apply Hop in Ht. destruct Ht as (x & y & -> & Nx). apply mark_tail in Hm. destruct Hm as (u & Eu & Hl' & Ht). apply Hop in Ht. destruct Ht as (x' & y' & -> & Nx').
    rewrite E in Eu. cbn [lead_ok f] in Hl, Hl'. destruct Hl as [->| ->], Hl' as [->| ->]; cbn in Eu; injection Eu as E1 E2; try congruence; cbn; auto.
Qed.

(** ** The rule leaves no choice *)
Lemma app_same_length {A} (a b c d : list A) : a ++ b = c ++ d -> length a = length c -> a = c /\ b = d.
Proof.
  revert c. induction a as [|x a IH]; intros [|y c] E L; try discriminate L; [auto|]. cbn in E. injection E as -> E. cbn in L. destruct (IH c E ltac:(lia)) as [-> ->]. auto.
Qed.
Lemma chosen_unique U f prev t l1 a1 b1 r1 l2 a2 b2 r2 : wf_form f -> chosen U f prev t l1 a1 b1 r1 -> chosen U f prev t l2 a2 b2 r2 ->
  l1 = l2 /\ a1 = a2 /\ b1 = b2 /\ r1 = r2.
Proof.
  intros W [M1 H1] [M2 H2]. pose proof (H1 _ _ _ _ M2) as L1. pose proof (H2 _ _ _ _ M1) as L2. destruct M1 as (E1 & _ & A1 & _), M2 as (E2 & _ & A2 & _).
  rewrite E1 in E2. unfold mark_src in E2. rewrite <- !app_assoc in E2. apply app_same_length in E2; [|lia]. destruct E2 as [-> E2]. apply attrs_unique in E2; try assumption. destruct E2 as [-> E2].
  apply app_same_length in E2; [|lia]. destruct E2 as [-> E2]. apply app_inv_head in E2. auto.
Qed.
Lemma mark_rule_ok U P ty f : wf_form f -> rule_ok (mark_rule U P ty f).
Proof.
  intros W. split.
  - intros prev w r x (lead & attrs & body & _ & -> & _). unfold mark_src. destruct W as [(c & q & -> & _) _]. destruct lead; [|discriminate]. destruct attrs; discriminate.
  - intros prev w1 r1 x1 w2 r2 x2 (l1 & a1 & b1 & C1 & -> & X1) (l2 & a2 & b2 & C2 & -> & X2) E. rewrite E in C1. destruct (chosen_unique _ _ _ _ _ _ _ _ _ _ _ _ W C1 C2) as (-> & -> & -> & ->).
    split; [reflexivity|]. destruct X1 as [[L1 X1]|[L1 X1]], X2 as [[L2 X2]|[L2 X2]]; try contradiction.
    + destruct f, a2; congruence.
    + destruct a2 as [a|]; [|congruence]. destruct X1 as (al & id & roles & st & H1 & H2 & H3 & H4 & ->), X2 as (al' & id' & roles' & st' & H1' & H2' & H3' & H4' & ->).
      rewrite H1 in H1'. apply Ok_inj in H1'. subst al'. rewrite H2 in H2'. apply Ok_inj in H2'. subst id'. rewrite H3 in H3'. apply Ok_inj in H3'. subst roles'. rewrite H4 in H4'. apply Ok_inj in H4'. subst st'. reflexivity.
Qed.

(** ** The replacer *)
Definition scope_of (f : form) : quote_scope := match f with FConstrained _ _ _ => Constrained | FUnconstrained _ _ => Unconstrained end.
Definition rejecting (ty : quote_type) (f : form) (m : mtch) : bool :=
  is_monospaced ty && is_constrained (scope_of f) && match m_after m with c :: _ => c_in (DQ ++ lit "'`") c | [] => false end.
(** What the replacer would append if there were nothing behind the match. *)
Definition quoted (U : unicode) (P : parser) (ty : quote_type) (f : form) (m : mtch) : res text :=
  r <- quote_replacer U P ty (scope_of f) (mkm (m_text m) (m_caps m) (m_prev m) []) [] ;; Ok (snd r).
Lemma bind_bind {A B C} (r : res A) (k : A -> res B) (l : B -> res C) : bind (bind r k) l = bind r (fun a => bind (k a) l).
Proof. destruct r; reflexivity. Qed.
Lemma bind_ext {A B} (r : res A) (k l : A -> res B) : (forall a, k a = l a) -> bind r k = bind r l.
Proof. intros H. destruct r; cbn; auto. Qed.
Lemma quote_replacer_pure U P ty f m d : rejecting ty f m = false ->
  quote_replacer U P ty (scope_of f) m d = (x <- quoted U P ty f m ;; Ok (LContinue, d ++ x)).
Proof.
  intros H. unfold quoted, quote_replacer. unfold rejecting in H. rewrite H. cbn [m_after m_text]. rewrite andb_false_r. cbv zeta.
  change (cap (mkm (m_text m) (m_caps m) (m_prev m) [])) with (cap m). change (cap_idx (mkm (m_text m) (m_caps m) (m_prev m) [])) with (cap_idx m).
  destruct f as [e o c|b mk]; cbn [scope_of]; destruct (starts_with [BSL] (m_text m));
    repeat match goal with |- context [match cap m ?n with _ => _ end] => destruct (cap m n) end; rewrite ?bind_bind;
    repeat (apply bind_ext; intros ?; rewrite ?bind_bind); cbn [bind snd app]; rewrite <- ?app_assoc; reflexivity.
Qed.

Lemma al_id_none a : al_id a = Ok None -> opt_bind (nth_attribute a 1) ea_id = Ok None.
Proof.
  unfold al_id, opt_bind. destruct (al_anchor a); [discriminate|]. destruct (nth_attribute a 1) as [e|]; [|auto].
  destruct (ea_id e) as [[i|]| |]; cbn [bind]; try discriminate; auto.
Qed.
Lemma render_none ty body : render_quoted ty None None body = Ok (element ty None [] body).
Proof. destruct ty; reflexivity. Qed.
Lemma render_some ty a id roles style body : al_id a = Ok id -> al_roles a = Ok roles -> al_block_style a = Ok style ->
  render_quoted ty (Some a) id body = Ok (element ty id (match style with Some s => [s] | None => [] end ++ roles) body).
Proof.
  intros Hi Hr Hs. unfold render_quoted. rewrite Hr. cbn [bind opt_bind]. change (opt_bind (nth_attribute a 1) ea_block_style) with (al_block_style a). rewrite Hs. cbn [bind].
  assert (E : (match id with Some i => Ok (Some i) | None => opt_bind (nth_attribute a 1) ea_id end) = Ok id) by (destruct id; [reflexivity|apply al_id_none, Hi]).
  rewrite E. cbn [bind]. f_equal. destruct style as [s|]; cbn [app]; destruct ty, id, roles; reflexivity.
Qed.
Lemma starts_bsl f lead attrs body U prev : wf_form f -> lead_ok U f prev lead -> starts_with [BSL] (mark_src f lead attrs body) = true <-> lead = [92%N].
Proof.
  intros [(c & q & Eo & N1 & N2) _] Hl. unfold mark_src. rewrite Eo. split; [|intros ->; reflexivity].
  assert (Hh : forall x (y : text), starts_with [BSL] (x :: y) = true -> x = 92%N) by (intros x y H; apply starts_with_spec in H; destruct H as [r H]; injection H as -> _; reflexivity).
  intros H. assert (D : lead = [] \/ exists x, lead = [x]) by (destruct f; [destruct Hl as [[-> _]|(x & -> & _)]; eauto|destruct Hl as [->| ->]; eauto]).
  destruct D as [->|(x & ->)].
  - exfalso. destruct attrs as [a|]; cbn [attrs_src app lit] in H; apply Hh in H; [discriminate H|congruence].
  - cbn [app] in H. apply Hh in H. congruence.
Qed.
Lemma quoted_ok U P ty f prev t m : wf_form f -> match_here U (re_of U f) prev t = Some m ->
  exists x, quoted U P ty f m = Ok x /\ mark_rule U P ty f prev (m_text m) (m_after m) x.
Proof.
  intros W Hm. pose proof (match_here_text _ _ _ _ _ Hm) as [Et _]. apply match_chosen in Hm; [|exact W]. destruct Hm as (lead & attrs & body & Hc & Ew & Ec).
  rewrite Et in Hc. enough (G : exists x, quoted U P ty f m = Ok x /\ replaced U P ty f lead attrs body x).
  { destruct G as (x & Hx & Rx). exists x. split; [exact Hx|]. exists lead, attrs, body. auto. }
  assert (Hl : lead_ok U f prev lead) by (destruct Hc as [(_ & Hl & _) _]; exact Hl).
  pose proof (starts_bsl f lead attrs body U prev W Hl) as Hb. rewrite <- Ew in Hb. unfold quoted, quote_replacer. cbn [m_after m_text]. rewrite andb_false_r. cbv zeta.
  change (cap (mkm (m_text m) (m_caps m) (m_prev m) [])) with (cap m). change (cap_idx (mkm (m_text m) (m_caps m) (m_prev m) [])) with (cap_idx m).
  assert (C1 : cap m (gn f) = attrs) by (unfold cap; rewrite Ec; destruct f, attrs; reflexivity).
  assert (C2 : cap_idx m (S (gn f)) = Ok body) by (unfold cap_idx, cap; rewrite Ec; destruct f, attrs; reflexivity).
  assert (C3 : match f with FConstrained _ _ _ => cap m 1 = Some lead | _ => True end) by (unfold cap; rewrite Ec; destruct f, attrs; exact I || reflexivity).
  destruct (starts_with [BSL] (m_text m)) eqn:Es.
  - pose proof (proj1 Hb eq_refl) as El. assert (Ed : str_from 1 (m_text m) = Ok (attrs_src attrs ++ op_of f ++ body ++ cl_of f)).
    { rewrite Ew. unfold mark_src. rewrite El. change 1 with (blen [92%N]). apply str_from_at. }
    destruct f as [e o c|b mk]; cbn [scope_of gn] in *.
    + rewrite C1. destruct attrs as [a|].
      * rewrite C2. cbn [bind]. rewrite render_none. cbn [bind snd app]. eexists. split; [reflexivity|]. left. split; [exact El|reflexivity].
      * rewrite Ed. cbn [bind snd app]. eexists. split; [reflexivity|]. left. split; [exact El|reflexivity].
    + rewrite Ed. cbn [bind snd app]. eexists. split; [reflexivity|]. left. split; [exact El|]. destruct attrs; reflexivity.
  - assert (El : lead <> [92%N]) by (intros E; apply Hb in E; discriminate E).
    assert (Core : forall pre, exists x, (at_ <- quote_attrs U P ty attrs ;; id <- opt_bind (fst at_) al_id ;; bd <- Ok body ;; q <- render_quoted (snd at_) (fst at_) id bd ;; Ok (pre ++ q)) = Ok (pre ++ x) /\
       match attrs with None => x = element ty None [] body
       | Some a => exists al id roles style, inline_attrlist U P a = Ok al /\ al_id al = Ok id /\ al_roles al = Ok roles /\ al_block_style al = Ok style /\
           x = element (match ty with QMark => QUnquoted | _ => ty end) id (match style with Some s => [s] | None => [] end ++ roles) body end).
    { intros pre. unfold quote_attrs. destruct attrs as [a|].
      - destruct (inline_attrlist_ok U P a) as (al & Ea & Wa). rewrite Ea. cbn [bind fst snd opt_bind]. destruct (accessors_total al Wa) as ((id & Hi) & (roles & Hr) & _ & (style & Hs)). rewrite Hi. cbn [bind].
        rewrite (render_some _ al id roles style body Hi Hr Hs). cbn [bind]. eexists. split; [reflexivity|]. exists al, id, roles, style. auto.
      - cbn [bind fst snd opt_bind]. rewrite render_none. cbn [bind]. eexists. split; reflexivity. }
    destruct f as [e o c|b mk]; cbn [scope_of gn] in *.
    + destruct (Core lead) as (x & Hx & Dx). exists (lead ++ x). split.
      * rewrite C1, C3, C2. rewrite <- Hx. rewrite !bind_bind. apply bind_ext. intros at_. rewrite !bind_bind. apply bind_ext. intros id. cbn [bind]. rewrite !bind_bind. apply bind_ext. intros q. reflexivity.
      * right. split; [exact El|]. destruct attrs as [a|]; [destruct Dx as (al & id & roles & st & ? & ? & ? & ? & ->); exists al, id, roles, st; auto|rewrite Dx; reflexivity].
    + assert (lead = []) as -> by (destruct Hl as [->| ->]; congruence). destruct (Core []) as (x & Hx & Dx). exists x. split.
      * rewrite C1, C2. change x with ([] ++ x). rewrite <- Hx. rewrite !bind_bind. apply bind_ext. intros at_. rewrite !bind_bind. apply bind_ext. intros id. cbn [bind]. rewrite !bind_bind. apply bind_ext. intros q. reflexivity.
      * right. split; [exact El|]. destruct attrs as [a|]; [destruct Dx as (al & id & roles & st & ? & ? & ? & ? & ->); exists al, id, roles, st; auto|rewrite Dx; reflexivity].
Qed.

(** ** Steps *)
Definition entry (U : unicode) (tf : quote_type * form) : quote_sub := mkqs (fst tf) (scope_of (snd tf)) (re_of U (snd tf)).
Lemma table_eq U : QUOTE_SUBS U = map (entry U) marks.
Proof. reflexivity. Qed.
Lemma marks_wf tf : In tf marks -> wf_form (snd tf).
Proof.
  unfold marks. cbn [In]. intros H. repeat (destruct H as [<-|H]; [split; [eexists _, _; split; [reflexivity|split; discriminate]|discriminate]|]). destruct H.
Qed.
Definition apply_mark (U : unicode) (P : parser) (tf : quote_type * form) (t : text) : res text :=
  replace_with_lookahead U (re_of U (snd tf)) (quote_replacer U P (fst tf) (scope_of (snd tf))) t.
Lemma rule_match U P ty f prev w rest x : mark_rule U P ty f prev w rest x -> match_here U (re_of U f) prev (w ++ rest) <> None.
Proof.
  intros (lead & attrs & body & [M _] & Ew & _). destruct (lang_match U (re_of U f) prev w rest (caps_of f lead attrs body)) as [m Hm]; [|congruence].
  apply lang_form. exists lead, attrs, body. auto.
Qed.
(** Marks that look at no text behind them. *)
Definition looks_ahead (tf : quote_type * form) : bool := is_monospaced (fst tf) && is_constrained (scope_of (snd tf)).
Lemma apply_mark_iff U P tf t o : wf_form (snd tf) -> looks_ahead tf = false -> apply_mark U P tf t = Ok o <-> rewritten (mark_rule U P (fst tf) (snd tf)) None t o.
Proof.
  destruct tf as [ty f]. cbn [fst snd]. intros W H. unfold apply_mark. cbn [fst snd].
  assert (Hr : forall m, rejecting ty f m = false) by (intros m; unfold rejecting, looks_ahead in *; cbn [fst snd] in H; rewrite H; reflexivity).
  rewrite (look_pure U _ _ (quoted U P ty f)) by (intros m d; apply quote_replacer_pure, Hr).
  apply preferred_rewritten; [apply mark_rule_ok, W| |apply rule_match]. intros prev u m Hm. apply (quoted_ok U P ty f prev u m W Hm).
Qed.
Lemma apply_mark_total U P tf t : wf_form (snd tf) -> looks_ahead tf = false -> exists o, apply_mark U P tf t = Ok o.
Proof.
  destruct tf as [ty f]. cbn [fst snd]. intros W H. unfold apply_mark. cbn [fst snd].
  assert (Hr : forall m, rejecting ty f m = false) by (intros m; unfold rejecting, looks_ahead in *; cbn [fst snd] in H; rewrite H; reflexivity).
  rewrite (look_pure U _ _ (quoted U P ty f)) by (intros m d; apply quote_replacer_pure, Hr).
  apply (preferred_total U _ _ (mark_rule U P ty f)). intros prev u m Hm. apply (quoted_ok U P ty f prev u m W Hm).
Qed.

(** The constrained monospaced mark, in quiet texts. *)
Lemma segmented_in U r prev t l e : segmented U r prev t l e -> forall p m, In (p, m) l -> exists a, t = a ++ m_text m ++ m_after m.
Proof.
  induction 1 as [|prev p m l e Hm Hf Hs IH]; intros q n Hin; [destruct Hin|]. destruct Hin as [E|Hin].
  - injection E as <- <-. exists p. reflexivity.
  - destruct (IH _ _ Hin) as [a Ha]. exists (p ++ m_text m ++ a). rewrite Ha, <- !app_assoc. reflexivity.
Qed.
Lemma mono_wf : wf_form (snd mono).
Proof. apply (marks_wf mono). unfold marks, mono. cbn [In]. do 5 right. left. reflexivity. Qed.
Lemma mono_quiet U P t : quiet t -> apply_mark U P mono t = replace_all_pure U (re_of U (snd mono)) (quoted U P (fst mono) (snd mono)) t.
Proof.
  intros Q. unfold apply_mark. apply look_pure_in. intros p m d Hin. apply quote_replacer_pure.
  assert (NE : never_empty U (re_of U (snd mono))) by (eapply (preferred_nonempty U _ (quoted U P (fst mono) (snd mono)) (mark_rule U P (fst mono) (snd mono))); [apply mark_rule_ok, mono_wf|intros prev u m' Hm'; apply (quoted_ok U P _ _ _ _ _ mono_wf Hm')]).
  pose proof (find_all_segmented U _ t NE) as S. destruct (segmented_in _ _ _ _ _ _ S _ _ Hin) as [a Ha]. destruct (segmented_matches _ _ _ _ _ _ S _ _ Hin) as (pv & x & Hm).
  apply match_chosen in Hm; [|apply mono_wf]. destruct Hm as (lead & attrs & body & _ & Ew & _). unfold rejecting. destruct (m_after m) as [|c r]; [apply andb_false_r|].
  rewrite Ew in Ha. specialize (Q (a ++ lead ++ attrs_src attrs ++ lit "`" ++ body) c r). destruct Q as (Q1 & Q2 & Q3).
  { rewrite Ha. unfold mark_src. cbn [op_of cl_of snd mono]. rewrite <- !app_assoc. reflexivity. }
  cbn [fst snd mono is_monospaced scope_of is_constrained andb]. destruct (c_in (DQ ++ lit "'`") c) eqn:Ec; [|reflexivity]. exfalso. apply c_in_iff in Ec. cbn in Ec. destruct Ec as [E|[E|[E|[]]]]; [apply Q1|apply Q2|apply Q3]; symmetry; exact E.
Qed.
Lemma mono_iff U P t o : quiet t -> apply_mark U P mono t = Ok o <-> rewritten (mark_rule U P (fst mono) (snd mono)) None t o.
Proof.
  intros Q. rewrite (mono_quiet U P t Q). apply preferred_rewritten; [apply mark_rule_ok, mono_wf| |apply rule_match]. intros prev u m Hm. apply (quoted_ok U P _ _ prev u m mono_wf Hm).
Qed.
Lemma mono_total U P t : quiet t -> exists o, apply_mark U P mono t = Ok o.
Proof.
  intros Q. rewrite (mono_quiet U P t Q). apply (preferred_total U _ _ (mark_rule U P (fst mono) (snd mono))). intros prev u m Hm. apply (quoted_ok U P _ _ prev u m mono_wf Hm).
Qed.

(** ** The whole step *)
Lemma quotes_loop_eq U P l t : quotes_loop U P (map (entry U) l) t =
  match l with [] => Ok t | tf :: l' => t' <- apply_mark U P tf t ;; quotes_loop U P (map (entry U) l') t' end.
Proof. destruct l; reflexivity. Qed.
Lemma rejected_nf U P ty f pv x m d : wf_form f -> match_here U (re_of U f) pv x = Some m -> quote_replacer U P ty (scope_of f) m d <> OutOfFuel.
Proof.
  intros W Hm. destruct (rejecting ty f m) eqn:E.
  - unfold quote_replacer. unfold rejecting in E. rewrite E. pose proof (str_to_nf (if starts_with [BSL] (m_text m) then 2 else 1) (m_text m)) as N.
    destruct (str_to _ (m_text m)); cbn; congruence.
  - rewrite (quote_replacer_pure U P ty f m d E). destruct (quoted_ok U P ty f pv x m W Hm) as (y & -> & _). discriminate.
Qed.
Lemma apply_quotes_ends U P t : apply_quotes U P t <> OutOfFuel.
Proof.
  unfold apply_quotes. destruct (is_match U QUOTED_TEXT_SNIFF t); [|discriminate]. rewrite table_eq.
  assert (G : forall l, (forall tf, In tf l -> wf_form (snd tf)) -> forall t, quotes_loop U P (map (entry U) l) t <> OutOfFuel).
  { induction l as [|tf l IH]; intros Hl u; rewrite quotes_loop_eq; [discriminate|].
    assert (N : apply_mark U P tf u <> OutOfFuel) by (apply look_ends; intros pv x m d; apply rejected_nf, Hl; left; reflexivity).
    destruct (apply_mark U P tf u) as [u'| |]; cbn [bind]; [|discriminate|congruence]. apply IH. intros tf' H. apply Hl. right. exact H. }
  apply G, marks_wf.
Qed.

(** A text without any mark character is not touched. *)
Lemma sniff_false U t : is_match U QUOTED_TEXT_SNIFF t = false -> forall c, In c t -> ~ In c (lit "*_`#^~").
Proof.
  unfold is_match. destruct (search U QUOTED_TEXT_SNIFF None t) as [[]|] eqn:E; [discriminate|]. intros _ c Hc Hm. apply in_split in Hc. destruct Hc as (a & b & ->).
  pose proof (search_none U _ _ _ E) as N. specialize (N a (c :: b) eq_refl). unfold match_here, QUOTED_TEXT_SNIFF in N. cbn [rmatch s_rest] in N.
  apply c_in_iff in Hm. rewrite Hm in N. discriminate.
Qed.
Lemma rule_has_op U P ty f prev w rest x : mark_rule U P ty f prev w rest x -> exists a b, w = a ++ op_of f ++ b.
Proof. intros (lead & attrs & body & _ & -> & _). unfold mark_src. exists (lead ++ attrs_src attrs), (body ++ cl_of f). rewrite <- !app_assoc. reflexivity. Qed.
