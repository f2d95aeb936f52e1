(** One mark in a text that is plain otherwise. *)
From Verif Require Import Text TextFacts Maps Span_Model Span_Proof Span_Laws Parser_Model Regex Regex_Proof Regex_Scan Regex_Lang Regex_Lazy
  Attrlist_Model Look_Model Render_Model Quote_Model Quote_Spec Quote_Proof.

(** ** Rewriting at one place *)
Section OnePlace.
  Variable R : option char -> text -> text -> text -> Prop.
  Lemma rewritten_prefix A : forall prev t o, (forall a b, A = a ++ b -> b <> [] -> forall w r x, b ++ t = w ++ r -> ~ R (prev_of prev a) w r x) ->
    rewritten R (prev_of prev A) t o -> rewritten R prev (A ++ t) (A ++ o).
  Proof.
    induction A as [|c A IH]; intros prev t o H S; [exact S|]. cbn [app]. apply rw_char.
    - intros w r x E. apply (H [] (c :: A) eq_refl ltac:(discriminate) w r x E).
    - apply IH; [|rewrite <- prev_of_cons in S; exact S]. intros a b E Hb w r x E' HR. apply (H (c :: a) b ltac:(rewrite E; reflexivity) Hb w r x E'). rewrite <- prev_of_cons. exact HR.
  Qed.
  Lemma rewritten_one T A W B x : T = A ++ W ++ B -> W <> [] -> R (prev_of None A) W B x ->
    (forall a w r y, T = a ++ w ++ r -> R (prev_of None a) w r y -> a = A) -> rewritten R None T (A ++ x ++ B).
  Proof.
    intros -> HW HR Hu. apply rewritten_prefix.
    - intros a b E Hb w r y E' HR'. assert (Ea : a = A) by (apply (Hu a w r y); [rewrite E, <- app_assoc, E'; reflexivity|exact HR']). subst a.
      apply (f_equal (@length char)) in E. rewrite app_length in E. destruct b; [contradiction|cbn in E; lia].
    - apply rw_step; [exact HR|]. rewrite prev_of_app. rewrite <- (app_nil_r B) at 1. rewrite <- (app_nil_r B) at 2. apply rewritten_prefix; [|constructor].
      intros a b E Hb w r y E' HR'. rewrite app_nil_r in E'. rewrite prev_of_app in HR'. assert (Ea : (A ++ W) ++ a = A) by (apply (Hu _ w r y); [rewrite E, E', <- !app_assoc; reflexivity|exact HR']).
      apply (f_equal (@length char)) in Ea. rewrite !app_length in Ea. destruct W; [contradiction|cbn in Ea; lia].
  Qed.
  Lemma rewritten_none t o prev : (forall a w r y, t = a ++ w ++ r -> ~ R (prev_of prev a) w r y) -> rewritten R prev t o -> o = t.
  Proof.
    intros H S. induction S as [prev|prev w r x o HR S IH|prev c t o Hn S IH]; [reflexivity| |].
    - exfalso. apply (H [] w r x eq_refl HR).
    - f_equal. apply IH. intros a w r y E HR. apply (H (c :: a) w r y); [rewrite E; reflexivity|]. rewrite <- prev_of_cons. exact HR.
  Qed.
End OnePlace.

(** ** Where marks can be *)
Lemma zone (a o w c b : text) i z : nth_error (a ++ o ++ w ++ c ++ b) i = Some z -> In z (o ++ c) -> (forall y, In y (a ++ w ++ b) -> ~ In y (o ++ c)) ->
  length a <= i < length a + length o \/ length a + length o + length w <= i < length a + length o + length w + length c.
Proof.
  intros H Hz Hn. assert (N : forall y, In y a \/ In y w \/ In y b -> y <> z) by (intros y Hy ->; apply (Hn z); [rewrite !in_app_iff; tauto|exact Hz]).
  destruct (le_lt_dec (length a) i) as [L1|L1]; [|rewrite nth_error_app1 in H by lia; apply nth_error_In in H; exfalso; apply (N z); auto].
  rewrite nth_error_app2 in H by lia. destruct (le_lt_dec (length o) (i - length a)) as [L2|L2]; [|left; lia].
  rewrite nth_error_app2 in H by lia. destruct (le_lt_dec (length w) (i - length a - length o)) as [L3|L3]; [|rewrite nth_error_app1 in H by lia; apply nth_error_In in H; exfalso; apply (N z); auto].
  rewrite nth_error_app2 in H by lia. destruct (le_lt_dec (length c) (i - length a - length o - length w)) as [L4|L4]; [|right; lia].
  rewrite nth_error_app2 in H by lia. apply nth_error_In in H. exfalso. apply (N z); auto.
Qed.
Lemma nth_mid (x o y : text) i : i < length o -> exists z, nth_error (x ++ o ++ y) (length x + i) = Some z /\ In z o.
Proof.
  intros H. rewrite nth_error_app2 by lia. rewrite nth_error_app1 by lia. replace (length x + i - length x) with i by lia.
  destruct (nth_error o i) as [z|] eqn:E; [exists z; split; [reflexivity|eapply nth_error_In, E]|]. apply nth_error_None in E. lia.
Qed.
Lemma only_place (a o w c b x body y : text) L : length o = L -> length c = L -> 1 <= L <= 2 -> w <> [] -> body <> [] ->
  (forall z, In z (a ++ w ++ b) -> ~ In z (o ++ c)) -> x ++ o ++ body ++ c ++ y = a ++ o ++ w ++ c ++ b -> x = a /\ body = w /\ y = b.
Proof.
  intros Lo Lc HL Hw Hb Hn E.
  assert (Z : forall i z, nth_error (x ++ o ++ body ++ c ++ y) i = Some z -> In z (o ++ c) ->
    length a <= i < length a + L \/ length a + L + length w <= i < length a + L + length w + L) by (intros i z H1 H2; rewrite E in H1; pose proof (zone _ _ _ _ _ _ _ H1 H2 Hn); lia).
  assert (Po : forall i, i < L -> length a <= length x + i < length a + L \/ length a + L + length w <= length x + i < length a + L + length w + L).
  { intros i Hi. destruct (nth_mid x o (body ++ c ++ y) i ltac:(lia)) as (z & H1 & H2). apply (Z _ z H1). apply in_app_iff. auto. }
  assert (Pc : forall i, i < L -> length a <= length x + L + length body + i < length a + L \/ length a + L + length w <= length x + L + length body + i < length a + L + length w + L).
  { intros i Hi. destruct (nth_mid (x ++ o ++ body) c y i ltac:(lia)) as (z & H1 & H2). rewrite <- !app_assoc in H1. rewrite !app_length, Lo in H1.
    replace (length x + (L + length body) + i) with (length x + L + length body + i) in H1 by lia. apply (Z _ z H1). apply in_app_iff. auto. }
  assert (Wl : 1 <= length w) by (destruct w; [contradiction|cbn; lia]). assert (Bl : 1 <= length body) by (destruct body; [contradiction|cbn; lia]).
  pose proof (Po 0 ltac:(lia)) as P0. pose proof (Po (L - 1) ltac:(lia)) as P1. pose proof (Pc 0 ltac:(lia)) as Q0. pose proof (Pc (L - 1) ltac:(lia)) as Q1.
  assert (length x = length a) as Ex by lia. apply app_same_length in E; [|exact Ex]. destruct E as [-> E]. apply app_inv_head in E. apply app_same_length in E; [|lia]. destruct E as [-> E].
  apply app_inv_head in E. auto.
Qed.

(** ** The mark itself *)
Definition specials : text := lit "*_`#^~[]\'" ++ [34%N].
Definition mark_chars : text := lit "*_`#^~'" ++ [34%N].
Definition shape (f : form) : Prop := exists L, length (op_of f) = L /\ length (cl_of f) = L /\ 1 <= L <= 2 /\
  (forall c, In c (op_of f ++ cl_of f) -> In c mark_chars) /\ match f with FConstrained e _ _ => forall c, In c e -> In c specials | _ => True end.
Lemma marks_shape tf : In tf marks -> shape (snd tf).
Proof.
  unfold marks. cbn [In]. intros H. repeat (destruct H as [<-|H]; [eexists; split; [reflexivity|]; split; [reflexivity|]; split; [cbn; lia|]; split; [intros c Hc; cbn in Hc |- *; intuition|try exact I; intros c Hc; cbn in Hc |- *; intuition]|]). destruct H.
Qed.
Lemma mark_char_special c : In c mark_chars -> In c specials /\ c <> 91%N /\ c <> 92%N.
Proof. intros H. cbn in H. split; [cbn; intuition|]. split; intros ->; cbn in H; repeat (destruct H as [H|H]; [discriminate H|]); destruct H. Qed.
Lemma special_bracket : In 91%N specials. Proof. cbn. intuition. Qed.
Lemma special_bsl : In 92%N specials. Proof. cbn. intuition. Qed.

Section Plain.
  Context (U : unicode) (P : parser) (ty : quote_type) (f : form) (a w b : text).
  Hypothesis W : wf_form f.
  Hypothesis Sh : shape f.
  Hypothesis Pa : plain a.
  Hypothesis Pw : plain w.
  Hypothesis Pb : plain b.
  Hypothesis F : fits U f a w b.
  Let T := a ++ op_of f ++ w ++ cl_of f ++ b.

  Lemma T_not_special c : In c T -> In c specials -> In c (op_of f ++ cl_of f).
  Proof. unfold T. rewrite !in_app_iff. intros [H|[H|[H|[H|H]]]] Hs; auto; exfalso; [apply (Pa c)|apply (Pw c)|apply (Pb c)]; assumption. Qed.
  Lemma T_no_bracket : ~ In 91%N T.
  Proof. intros H. apply T_not_special in H; [|apply special_bracket]. destruct Sh as (L & _ & _ & _ & Hm & _). apply Hm, mark_char_special in H. tauto. Qed.
  Lemma T_no_bsl : ~ In 92%N T.
  Proof. intros H. apply T_not_special in H; [|apply special_bsl]. destruct Sh as (L & _ & _ & _ & Hm & _). apply Hm, mark_char_special in H. tauto. Qed.
  Lemma outside z : In z (a ++ w ++ b) -> ~ In z (op_of f ++ cl_of f).
  Proof.
    intros Hz Hm. destruct Sh as (L & _ & _ & _ & Hs & _). apply Hs, mark_char_special in Hm. destruct Hm as [Hm _].
    rewrite !in_app_iff in Hz. destruct Hz as [H|[H|H]]; [apply (Pa z)|apply (Pw z)|apply (Pb z)]; assumption.
  Qed.
  Lemma w_nonempty : w <> [].
  Proof. destruct F as [Hb _]. destruct f; cbn in Hb; [destruct Hb as (c & _ & [->|(m & d & -> & _)]); discriminate|apply Hb]. Qed.
  Lemma body_nonempty body : body_ok f body -> body <> [].
  Proof. destruct f; cbn; [intros (c & _ & [->|(m & d & -> & _)]); discriminate|intros [H _]; exact H]. Qed.
  Lemma place a' t lead attrs body rest : T = a' ++ t -> mark_at U f (prev_of None a') t lead attrs body rest ->
    a' ++ lead = a /\ attrs = None /\ body = w /\ rest = b.
  Proof.
    intros ET (Et & _ & _ & Hb & _). assert (attrs = None) as ->.
    { destruct attrs as [s|]; [|reflexivity]. exfalso. apply T_no_bracket. rewrite ET, Et. unfold mark_src. cbn [attrs_src]. rewrite !in_app_iff. right. left. right. left. left. left. reflexivity. }
    rewrite Et in ET. unfold mark_src in ET. cbn [attrs_src app] in ET. rewrite <- !app_assoc in ET. destruct Sh as (L & L1 & L2 & L3 & _).
    assert (E : (a' ++ lead) ++ op_of f ++ body ++ cl_of f ++ rest = a ++ op_of f ++ w ++ cl_of f ++ b) by (rewrite <- app_assoc; symmetry; exact ET).
    destruct (only_place a (op_of f) w (cl_of f) b (a' ++ lead) body rest L L1 L2 L3 w_nonempty (body_nonempty _ Hb) outside E) as (E1 & E2 & E3). auto.
  Qed.
  Lemma lead_place : exists A l0, a = A ++ l0 /\ lead_ok U f (prev_of None A) l0 /\ l0 <> [92%N] /\
    forall a' l, a' ++ l = a -> lead_ok U f (prev_of None a') l -> l = l0.
  Proof.
    assert (Nb : forall l x, a = x ++ l -> l <> [92%N]) by (intros l x E ->; apply (Pa 92%N); [rewrite E; apply in_app_iff; right; left; reflexivity|apply special_bsl]).
    destruct F as (_ & _ & Hf). destruct Sh as (L & _ & _ & _ & _ & Hx). destruct f as [e o c|bl m]; cbn [lead_ok].
    - destruct Hf as [->|(a0 & c0 & -> & Hc & Hn)].
      + exists [], []. split; [reflexivity|]. split; [left; split; reflexivity|]. split; [discriminate|]. intros a' l E _. apply app_eq_nil in E. apply E.
      + exists a0, [c0]. split; [reflexivity|]. split; [right; exists c0; split; [reflexivity|]; split; [exact Hc|]; rewrite in_app_iff; intros [H|H]; [contradiction|]; apply (Pa c0); [apply in_app_iff; right; left; reflexivity|apply Hx, H]|].
        split; [apply (Nb [c0] a0 eq_refl)|]. intros a' l E [[-> Ep]|(c1 & -> & _)].
        * exfalso. rewrite app_nil_r in E. subst a'. rewrite <- prev_of_app in Ep. discriminate Ep.
        * apply app_inj_tail in E. destruct E as [_ ->]. reflexivity.
    - exists a, []. rewrite app_nil_r. split; [reflexivity|]. split; [left; reflexivity|]. split; [discriminate|]. intros a' l E [->| ->]; [reflexivity|].
      exfalso. apply (Nb [92%N] a'); [symmetry; exact E|reflexivity].
  Qed.
  Lemma step_one : rewritten (mark_rule U P ty f) None T (a ++ element ty None [] w ++ b).
  Proof.
    destruct lead_place as (A & l0 & Ea & Hl & Nl & Hu). destruct F as (Hb & Haf & _).
    assert (ET : T = A ++ mark_src f l0 None w ++ b) by (unfold T, mark_src; cbn [attrs_src app]; rewrite Ea, <- !app_assoc; reflexivity).
    assert (M : mark_at U f (prev_of None A) (mark_src f l0 None w ++ b) l0 None w b) by (split; [reflexivity|]; split; [exact Hl|]; split; [exact I|]; split; assumption).
    replace (a ++ element ty None [] w ++ b) with (A ++ (l0 ++ element ty None [] w) ++ b) by (rewrite Ea, <- !app_assoc; reflexivity).
    apply rewritten_one with (W := mark_src f l0 None w); [exact ET| | |].
    - unfold mark_src. destruct W as [(c & q & -> & _) _]. destruct l0; discriminate.
    - exists l0, None, w. split; [|split; [reflexivity|]].
      + split; [exact M|]. intros l' at' b' r' M'. destruct (place A _ l' at' b' r' ET M') as (El & -> & -> & ->). destruct M' as (_ & Hl' & _). rewrite (Hu A l' El Hl'). right. split; [reflexivity|lia].
      + right. split; [exact Nl|reflexivity].
    - intros a' w' r' y E' (l & at' & bd & [M' _] & _ & _). destruct (place a' _ l at' bd r' E' M') as (El & _). destruct M' as (_ & Hl' & _). rewrite (Hu a' l El Hl') in El. rewrite <- El in Ea. apply app_inv_tail in Ea. exact Ea.
  Qed.
End Plain.

(** ** All steps *)
Lemma quiet_absent t : ~ In 96%N t -> quiet t.
Proof. intros H a c b ->. exfalso. apply H. apply in_app_iff. right. left. reflexivity. Qed.
Lemma rewritten_never (R : option char -> text -> text -> text -> Prop) t : (forall a w r y, t = a ++ w ++ r -> ~ R (prev_of None a) w r y) -> rewritten R None t t.
Proof.
  intros H. rewrite <- (app_nil_r t) at 1. rewrite <- (app_nil_r t) at 2. apply rewritten_prefix; [|constructor]. intros a b E Hb w r x E' HR. rewrite app_nil_r in E'.
  apply (H a w r x); [rewrite E, E'; reflexivity|exact HR].
Qed.
Lemma mark_never U P tf t : In tf marks -> (looks_ahead tf = true -> quiet t) -> (forall a b, t <> a ++ op_of (snd tf) ++ b) -> apply_mark U P tf t = Ok t.
Proof.
  intros Hin Q H. assert (S : rewritten (mark_rule U P (fst tf) (snd tf)) None t t).
  { apply rewritten_never. intros a w r y E HR. apply rule_has_op in HR. destruct HR as (x & z & ->). apply (H (a ++ x) (z ++ r)). rewrite E, <- !app_assoc. reflexivity. }
  destruct (looks_ahead tf) eqn:El; [|apply apply_mark_iff; [apply marks_wf, Hin|exact El|exact S]].
  assert (tf = mono) as ->. { revert El. unfold marks in Hin. cbn [In] in Hin. repeat (destruct Hin as [<-|Hin]; [cbn; intros E; try discriminate E; reflexivity|]). destruct Hin. }
  apply mono_iff; auto.
Qed.
Lemma mark_absent U P tf c t : In tf marks -> In c (op_of (snd tf)) -> ~ In c t -> (looks_ahead tf = true -> c = 96%N) -> apply_mark U P tf t = Ok t.
Proof. intros Hin Hc Hn Q. apply mark_never; [exact Hin|intros E; specialize (Q E); subst c; apply quiet_absent, Hn|]. intros a b ->. apply Hn. rewrite !in_app_iff. auto. Qed.

Lemma no_double (c : char) a w b x y : w <> [] -> ~ In c a -> ~ In c w -> ~ In c b -> a ++ [c] ++ w ++ [c] ++ b <> x ++ [c; c] ++ y.
Proof.
  intros Hw Ha Hww Hb E. assert (Hn : forall z, In z (a ++ w ++ b) -> ~ In z ([c] ++ [c])) by (intros z Hz [<-|[<-|[]]]; rewrite !in_app_iff in Hz; tauto).
  assert (Z : forall i, i < 2 -> length a <= length x + i < length a + 1 \/ length a + 1 + length w <= length x + i < length a + 1 + length w + 1).
  { intros i Hi. destruct (nth_mid x [c; c] y i Hi) as (z & H1 & H2). rewrite <- E in H1. apply (zone a [c] w [c] b _ z H1); [exact H2|exact Hn]. }
  pose proof (Z 0 ltac:(lia)). pose proof (Z 1 ltac:(lia)). assert (1 <= length w) by (destruct w; [contradiction|cbn; lia]). lia.
Qed.
Lemma loop_split U P l1 tf l2 t t' : (forall tf', In tf' l1 -> apply_mark U P tf' t = Ok t) -> apply_mark U P tf t = Ok t' ->
  (forall tf', In tf' l2 -> apply_mark U P tf' t' = Ok t') -> quotes_loop U P (map (entry U) (l1 ++ tf :: l2)) t = Ok t'.
Proof.
  assert (Id : forall l u, (forall tf', In tf' l -> apply_mark U P tf' u = Ok u) -> quotes_loop U P (map (entry U) l) u = Ok u).
  { induction l as [|x l IH]; intros u H; rewrite quotes_loop_eq; [reflexivity|]. rewrite (H x) by (left; reflexivity). cbn [bind]. apply IH. intros y Hy. apply H. right. exact Hy. }
  intros H1 Ht H2. induction l1 as [|x l1 IH]; cbn [app]; rewrite quotes_loop_eq.
  - rewrite Ht. cbn [bind]. apply Id, H2.
  - rewrite (H1 x) by (left; reflexivity). cbn [bind]. apply IH. intros y Hy. apply H1. right. exact Hy.
Qed.
Definition open_of (ty : quote_type) : text :=
  match ty with QStrong => lit "<strong>" | QEmphasis => lit "<em>" | QMonospaced => lit "<code>" | QSuperscript => lit "<sup>" | QSubscript => lit "<sub>"
  | QDoubleQuote => lit "&#8220;" | QSingleQuote => lit "&#8216;" | QMark => lit "<mark>" | QUnquoted => [] end.
Definition close_of (ty : quote_type) : text :=
  match ty with QStrong => lit "</strong>" | QEmphasis => lit "</em>" | QMonospaced => lit "</code>" | QSuperscript => lit "</sup>" | QSubscript => lit "</sub>"
  | QDoubleQuote => lit "&#8221;" | QSingleQuote => lit "&#8217;" | QMark => lit "</mark>" | QUnquoted => [] end.
Lemma element_parts ty w : element ty None [] w = open_of ty ++ w ++ close_of ty.
Proof. destruct ty; try reflexivity. cbn. rewrite app_nil_r. reflexivity. Qed.
Lemma not_in_compute c t : has_char c t = false -> ~ In c t.
Proof. intros H Hin. apply has_char_spec in Hin. congruence. Qed.

Section All.
  Context (U : unicode) (P : parser) (a w b : text).
  Hypothesis Pa : plain a.
  Hypothesis Pw : plain w.
  Hypothesis Pb : plain b.
  Lemma surround_not_in c x y : In c specials -> has_char c x = false -> has_char c y = false -> ~ In c (a ++ x ++ w ++ y ++ b).
  Proof.
    intros Hs Hx Hy. apply not_in_compute in Hx, Hy. rewrite !in_app_iff. intros [H|[H|[H|[H|H]]]]; auto; [apply (Pa c)|apply (Pw c)|apply (Pb c)]; assumption.
  Qed.
  (** The highlight marks do not see the entities of curly quotes. *)
  Lemma entity_marks ty tf x1 x2 y1 y2 : In ty [QDoubleQuote; QSingleQuote] -> In tf [(QMark, FUnconstrained true (lit "##")); (QMark, FConstrained [] (lit "#") (lit "#"))] ->
    open_of ty = [38%N; 35%N] ++ x1 :: x2 -> close_of ty = [38%N; 35%N] ++ y1 :: y2 -> has_char 35%N (x1 :: x2) = false -> has_char 35%N (y1 :: y2) = false ->
    has_char 91%N (x1 :: x2) = false -> has_char 91%N (y1 :: y2) = false ->
    apply_mark U P tf (a ++ open_of ty ++ w ++ close_of ty ++ b) = Ok (a ++ open_of ty ++ w ++ close_of ty ++ b).
  Proof.
    intros _ Hin -> -> Hx Hy Hbx Hby. set (t := a ++ ([38%N; 35%N] ++ x1 :: x2) ++ w ++ ([38%N; 35%N] ++ y1 :: y2) ++ b).
    assert (Et : t = (a ++ [38%N]) ++ [35%N] ++ ((x1 :: x2) ++ w ++ [38%N]) ++ [35%N] ++ ((y1 :: y2) ++ b)) by (unfold t; rewrite <- !app_assoc; reflexivity).
    apply not_in_compute in Hx, Hy. assert (S35 : In 35%N specials) by (cbn; intuition).
    assert (N1 : ~ In 35%N (a ++ [38%N])) by (rewrite in_app_iff; intros [H|[H|[]]]; [apply (Pa _ H S35)|discriminate H]).
    assert (N2 : ~ In 35%N ((x1 :: x2) ++ w ++ [38%N])) by (rewrite !in_app_iff; intros [H|[H|[H|[]]]]; [auto|apply (Pw _ H S35)|discriminate H]).
    assert (N3 : ~ In 35%N ((y1 :: y2) ++ b)) by (rewrite in_app_iff; intros [H|H]; [auto|apply (Pb _ H S35)]).
    destruct Hin as [<-|[<-|[]]].
    - apply mark_never; [unfold marks; cbn [In]; do 8 right; left; reflexivity|discriminate|]. intros x y. rewrite Et. apply no_double; auto. discriminate.
    - apply apply_mark_iff; [apply (marks_wf (QMark, FConstrained [] (lit "#") (lit "#"))); unfold marks; cbn [In]; do 9 right; left; reflexivity|reflexivity|]. cbn [fst snd].
      apply rewritten_never. intros p q r y E (lead & attrs & body & [M _] & _). destruct M as (Eq & Hl & _ & Hb & _).
      assert (Nbr : ~ In 91%N t). { unfold t. apply surround_not_in; [apply special_bracket| |]; cbn [app has_char existsb N.eqb Pos.eqb orb] in *; assumption. }
      assert (attrs = None) as ->. { destruct attrs as [s|]; [|reflexivity]. exfalso. apply Nbr. rewrite E, Eq. unfold mark_src. cbn [attrs_src]. rewrite !in_app_iff. right. left. right. left. left. left. reflexivity. }
      rewrite Eq in E. unfold mark_src in E. cbn [attrs_src app op_of cl_of] in E.
      assert (E2 : (p ++ lead) ++ [35%N] ++ body ++ [35%N] ++ r = (a ++ [38%N]) ++ [35%N] ++ ((x1 :: x2) ++ w ++ [38%N]) ++ [35%N] ++ ((y1 :: y2) ++ b)).
      { rewrite <- Et, E. rewrite <- !app_assoc. reflexivity. }
      apply (only_place _ _ _ _ _ _ _ _ 1) in E2; [|reflexivity|reflexivity|lia|discriminate| |].
      2:{ destruct Hb as (c & _ & [->|(m & d & -> & _)]); discriminate. }
      2:{ intros z Hz [<-|[<-|[]]]; rewrite !in_app_iff in Hz; rewrite in_app_iff in N1, N3; rewrite !in_app_iff in N2; tauto. }
      destruct E2 as [E2 _]. destruct Hl as [[-> Ep]|(c & -> & _ & Hc)].
      + rewrite app_nil_r in E2. subst p. rewrite <- prev_of_app in Ep. discriminate Ep.
      + apply app_inj_tail in E2. destruct E2 as [_ ->]. apply Hc. left. reflexivity.
  Qed.

  Ltac inn := solve [cbn; repeat (first [left; reflexivity|right])].
  Ltac absent c := eapply (mark_absent U P _ c); [unfold marks; inn|inn|apply surround_not_in; [inn|reflexivity|reflexivity]|intros E; cbn in E; first [discriminate E|reflexivity]].
  Ltac absents := first [absent 42%N|absent 95%N|absent 96%N|absent 35%N|absent 94%N|absent 126%N|absent 34%N|absent 39%N].
  Ltac doubled c := apply mark_never; [unfold marks; inn|intros E; discriminate E|intros x y; cbn [op_of snd]; apply (no_double c); [assumption|intros H; apply (Pa _ H); inn|intros H; apply (Pw _ H); inn|intros H; apply (Pb _ H); inn]].
  Ltac each := let H := fresh in intros tf' H; cbn [In] in H; repeat (destruct H as [<-|H]; [solve [absents|doubled 42%N|doubled 96%N|doubled 95%N|doubled 35%N|eapply entity_marks; [right; left; reflexivity|inn|reflexivity|reflexivity|reflexivity|reflexivity|reflexivity|reflexivity]|eapply entity_marks; [left; reflexivity|inn|reflexivity|reflexivity|reflexivity|reflexivity|reflexivity|reflexivity]]|]); destruct H.
  Lemma all_steps tf : In tf marks -> fits U (snd tf) a w b ->
    quotes_loop U P (QUOTE_SUBS U) (a ++ op_of (snd tf) ++ w ++ cl_of (snd tf) ++ b) = Ok (a ++ open_of (fst tf) ++ w ++ close_of (fst tf) ++ b).
  Proof.
    intros Hin Hf. pose proof (w_nonempty U (snd tf) a w b (marks_wf tf Hin) (marks_shape tf Hin) Pw Hf) as Hw.
    pose proof (step_one U P (fst tf) (snd tf) a w b (marks_wf tf Hin) (marks_shape tf Hin) Pa Pw Pb Hf) as S1. rewrite element_parts, <- !app_assoc in S1.
    assert (Hm : (looks_ahead tf = true -> quiet (a ++ op_of (snd tf) ++ w ++ cl_of (snd tf) ++ b)) -> apply_mark U P tf (a ++ op_of (snd tf) ++ w ++ cl_of (snd tf) ++ b) = Ok (a ++ open_of (fst tf) ++ w ++ close_of (fst tf) ++ b)).
    { intros Q. destruct (looks_ahead tf) eqn:El; [|apply apply_mark_iff; [apply marks_wf, Hin|exact El|exact S1]].
      assert (tf = mono) as ->. { revert El. clear -Hin. unfold marks in Hin. cbn [In] in Hin. repeat (destruct Hin as [<-|Hin]; [cbn; intros E; try discriminate E; reflexivity|]). destruct Hin. }
      apply mono_iff; auto. }
    clear S1. rewrite table_eq. unfold marks in Hin |- *. cbn [In] in Hin.
    destruct Hin as [<-|[<-|[<-|[<-|[<-|[<-|[<-|[<-|[<-|[<-|[<-|[<-|[]]]]]]]]]]]]].
    all: cbn [fst snd op_of cl_of] in *.
    - apply (loop_split U P []); [intros ? []|apply Hm; intros E; discriminate E|each].
    - apply (loop_split U P [_]); [each|apply Hm; intros E; discriminate E|each].
    - apply (loop_split U P [_; _]); [each|apply Hm; intros E; discriminate E|each].
    - apply (loop_split U P [_; _; _]); [each|apply Hm; intros E; discriminate E|each].
    - apply (loop_split U P [_; _; _; _]); [each|apply Hm; intros E; discriminate E|each].
    - apply (loop_split U P [_; _; _; _; _]); [each|apply Hm; intros _|each].
      intros p c q E. assert (Hc : forall z, In z (a ++ w ++ b) -> z <> 34%N /\ z <> 39%N /\ z <> 96%N).
      { intros z Hz. rewrite !in_app_iff in Hz. assert (Hz' : ~ In z specials) by (destruct Hz as [H|[H|H]]; [apply (Pa z H)|apply (Pw z H)|apply (Pb z H)]). repeat split; intros ->; apply Hz'; cbn; tauto. }
      assert (Hn : nth_error (a ++ [96%N] ++ w ++ [96%N] ++ b) (S (length p)) = Some c).
      { change (a ++ [96%N] ++ w ++ [96%N] ++ b) with (a ++ lit "`" ++ w ++ lit "`" ++ b). rewrite E, nth_error_app2 by lia. replace (S (length p) - length p) with 1 by lia. reflexivity. }
      assert (Hp : nth_error (a ++ [96%N] ++ w ++ [96%N] ++ b) (length p) = Some 96%N).
      { change (a ++ [96%N] ++ w ++ [96%N] ++ b) with (a ++ lit "`" ++ w ++ lit "`" ++ b). rewrite E, nth_error_app2 by lia. rewrite Nat.sub_diag. reflexivity. }
      apply zone in Hp; [|left; reflexivity|intros z Hz [E1|[E1|[]]]; subst z; destruct (Hc 96%N Hz) as (_ & _ & N); congruence].
      assert (Wl : 1 <= length w) by (destruct w; [contradiction|cbn; lia]). cbn [length] in Hp.
      destruct Hp as [Hp|Hp]; [assert (Ep : length p = length a) by lia|assert (Ep : length p = length a + 1 + length w) by lia]; rewrite Ep in Hn.
      + rewrite nth_error_app2 in Hn by lia. replace (S (length a) - length a) with 1 in Hn by lia. cbn [app nth_error] in Hn.
        destruct w as [|w0 w']; [contradiction|]. cbn in Hn. injection Hn as ->. apply Hc. rewrite !in_app_iff. right. left. left. reflexivity.
      + assert (Hb : In c b). { rewrite !app_assoc in Hn. rewrite nth_error_app2 in Hn by (rewrite !app_length; cbn [length]; lia). eapply nth_error_In, Hn. }
        apply Hc. rewrite !in_app_iff. auto.
    - apply (loop_split U P [_; _; _; _; _; _]); [each|apply Hm; intros E; discriminate E|each].
    - apply (loop_split U P [_; _; _; _; _; _; _]); [each|apply Hm; intros E; discriminate E|each].
    - apply (loop_split U P [_; _; _; _; _; _; _; _]); [each|apply Hm; intros E; discriminate E|each].
    - apply (loop_split U P [_; _; _; _; _; _; _; _; _]); [each|apply Hm; intros E; discriminate E|each].
    - apply (loop_split U P [_; _; _; _; _; _; _; _; _; _]); [each|apply Hm; intros E; discriminate E|each].
    - apply (loop_split U P [_; _; _; _; _; _; _; _; _; _; _]); [each|apply Hm; intros E; discriminate E|each].
  Qed.
End All.

Ltac inn := solve [cbn; repeat (first [left; reflexivity|right])].
Lemma sniff_true U t c : In c t -> In c (lit "*_`#^~") -> is_match U QUOTED_TEXT_SNIFF t = true.
Proof. intros H1 H2. destruct (is_match U QUOTED_TEXT_SNIFF t) eqn:E; [reflexivity|]. destruct (sniff_false U t E c H1 H2). Qed.
Lemma plain_mark U P tf a w b : In tf marks -> plain a -> plain w -> plain b -> fits U (snd tf) a w b ->
  apply_quotes U P (a ++ op_of (snd tf) ++ w ++ cl_of (snd tf) ++ b) = Ok (a ++ element (fst tf) None [] w ++ b).
Proof.
  intros Hin Pa Pw Pb F. rewrite element_parts, <- !app_assoc. unfold apply_quotes.
  assert (E : is_match U QUOTED_TEXT_SNIFF (a ++ op_of (snd tf) ++ w ++ cl_of (snd tf) ++ b) = true).
  { assert (H : exists c, In c (op_of (snd tf)) /\ In c (lit "*_`#^~")).
    { unfold marks in Hin. cbn [In] in Hin. repeat (destruct Hin as [<-|Hin]; [first [exists 42%N; split; inn|exists 95%N; split; inn|exists 96%N; split; inn|exists 35%N; split; inn|exists 94%N; split; inn|exists 126%N; split; inn]|]). destruct Hin. }
    destruct H as (c & H1 & H2). apply (sniff_true U _ c); [|exact H2]. rewrite !in_app_iff. auto. }
  rewrite E. apply all_steps; assumption.
Qed.
