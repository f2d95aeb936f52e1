(** Proofs about the catalog. *)
From Coq Require Import FinFun.
From Verif Require Import Text TextFacts Maps Catalog_Model Catalog_Spec.

Lemma NoDup_snoc {A} (l : list A) x : NoDup l -> ~ In x l -> NoDup (l ++ [x]).
Proof. intros H1 H2. apply (NoDup_Add (a := x) (l := l)); [|split; assumption]. rewrite <- (app_nil_r l) at 1. apply Add_app. Qed.

Record agrees (c : catalog) (l : log) : Prop := {
  ag_refs : cat_refs c = map (fun e => (fst (fst e), mkref (fst (fst e)) (snd (fst e)) (snd e))) l;
  ag_texts : forall t, mget t (cat_reftexts c) = first_with_reftext t l;
  ag_nodup : NoDup (log_ids l)
}.

Lemma agrees_keys c l : agrees c l -> mkeys (cat_refs c) = log_ids l.
Proof. intros [E _ _]. rewrite E. unfold mkeys, log_ids. rewrite map_map. reflexivity. Qed.

Lemma agrees_has c l id : agrees c l -> (mhas id (cat_refs c) = true <-> In id (log_ids l)).
Proof. intros A. rewrite mhas_in, (agrees_keys c l A). reflexivity. Qed.

Lemma first_with_reftext_app t l1 l2 : first_with_reftext t (l1 ++ l2) =
  match first_with_reftext t l1 with Some x => Some x | None => first_with_reftext t l2 end.
Proof.
  induction l1 as [|[[i [rt|]] ty] l1 IH]; cbn; [reflexivity| |exact IH].
  destruct (list_eq_dec N.eq_dec rt t); [reflexivity|exact IH].
Qed.

Lemma insert_agrees c l id rt ty : agrees c l -> ~ In id (log_ids l) ->
  agrees (insert_ref c id rt ty) (l ++ [(id, rt, ty)]).
Proof.
  intros A Hn. pose proof (agrees_keys c l A) as K. destruct A as [E T D]. constructor.
  - cbn [insert_ref cat_refs]. rewrite mput_fresh by (apply mget_none; congruence). rewrite E, map_app. reflexivity.
  - intros t. cbn [insert_ref cat_reftexts]. rewrite first_with_reftext_app, <- T.
    destruct rt as [r|]; cbn [first_with_reftext].
    + unfold mput_new, mhas. destruct (mget r (cat_reftexts c)) as [x|] eqn:Er.
      * destruct (mget t (cat_reftexts c)) eqn:Et; [reflexivity|]. destruct (list_eq_dec N.eq_dec r t); congruence.
      * rewrite mget_mput. destruct (text_eqb_spec t r) as [->|Hne].
        -- rewrite Er. destruct (list_eq_dec N.eq_dec r r); congruence.
        -- destruct (mget t (cat_reftexts c)); [reflexivity|]. destruct (list_eq_dec N.eq_dec r t); congruence.
    + destruct (mget t (cat_reftexts c)); reflexivity.
  - unfold log_ids. rewrite map_app. cbn. apply NoDup_snoc; assumption.
Qed.

Lemma unique_go_ok fuel : forall c base n id, unique_go fuel c base n = Ok id ->
  exists k, n <= k /\ id = candidate base k /\ contains_id c id = false /\
    forall m, n <= m < k -> contains_id c (candidate base m) = true.
Proof.
  induction fuel as [|f IH]; intros c base n id H; [discriminate|]. cbn [unique_go] in H.
  destruct (contains_id c (candidate base n)) eqn:E; cbn [negb] in H.
  - destruct (IH c base (S n) id H) as (k & Hk & -> & Hc & Hm). exists k. repeat split; [lia|exact Hc|].
    intros m Hm'. destruct (Nat.eq_dec m n) as [->|]; [exact E|]. apply Hm. lia.
  - injection H as <-. exists n. repeat split; [lia|exact E|]. intros m Hm. lia.
Qed.

Lemma unique_go_not_panic fuel : forall c base n, unique_go fuel c base n <> Panic.
Proof.
  induction fuel as [|f IH]; intros c base n; cbn [unique_go]; [discriminate|].
  destruct (contains_id c (candidate base n)); cbn [negb]; [apply IH|discriminate].
Qed.

Lemma unique_go_fuel fuel : forall c base n, unique_go fuel c base n = OutOfFuel ->
  forall m, n <= m < n + fuel -> contains_id c (candidate base m) = true.
Proof.
  induction fuel as [|f IH]; intros c base n H m Hm; [lia|]. cbn [unique_go] in H.
  destruct (contains_id c (candidate base n)) eqn:E; cbn [negb] in H; [|discriminate].
  destruct (Nat.eq_dec m n) as [->|]; [exact E|]. apply (IH c base (S n) H). lia.
Qed.

Lemma candidate_inj base n m : candidate base n = candidate base m -> n = m.
Proof. unfold candidate. intros H. apply app_inv_head in H. injection H as H. apply show_nat_inj, H. Qed.

Lemma unique_go_total c base n : unique_go (S (length (cat_refs c))) c base n <> OutOfFuel.
Proof.
  intros H. pose proof (unique_go_fuel _ _ _ _ H) as Hall.
  set (k := S (length (cat_refs c))) in *.
  assert (Hd : NoDup (map (candidate base) (seq n k))).
  { apply FinFun.Injective_map_NoDup; [|apply seq_NoDup]. intros x y. apply candidate_inj. }
  assert (Hi : incl (map (candidate base) (seq n k)) (mkeys (cat_refs c))).
  { intros x Hx. apply in_map_iff in Hx. destruct Hx as (m & <- & Hm). apply in_seq in Hm. apply mhas_in, Hall. lia. }
  pose proof (NoDup_incl_length Hd Hi) as Hl. unfold mkeys in Hl. rewrite !map_length, seq_length in Hl. unfold k in Hl. lia.
Qed.

Lemma generate_spec c l base rt ty : agrees c l ->
  exists id, generate_unique c base rt ty = Ok (id, insert_ref c id rt ty) /\ gen_id l base id.
Proof.
  intros A. unfold generate_unique. destruct (contains_id c base) eqn:E; cbn [negb].
  - destruct (unique_go (S (length (cat_refs c))) c base 2) as [id| |] eqn:G.
    + exists id. split; [reflexivity|]. apply unique_go_ok in G. destruct G as (k & Hk & -> & Hc & Hm).
      assert (B : In base (log_ids l)) by (apply (agrees_has c l base A); exact E).
      split.
      * intros Hin. apply (agrees_has c l _ A) in Hin. unfold contains_id in Hc. congruence.
      * right. split; [exact B|]. exists k. split; [exact Hk|]. split; [reflexivity|].
        intros m Hm'. apply (agrees_has c l _ A). apply Hm. exact Hm'.
    + exfalso. apply (unique_go_not_panic _ _ _ _ G).
    + exfalso. apply (unique_go_total _ _ _ G).
  - cbn [bind]. exists base. split; [reflexivity|].
    assert (B : ~ In base (log_ids l)) by (intros Hin; apply (agrees_has c l base A) in Hin; unfold contains_id in E; congruence).
    split; [exact B|]. left. auto.
Qed.

Lemma step_spec c l o : agrees c l ->
  exists out c' l', step c o = Ok (out, c') /\ spec_step l o out l' /\ agrees c' l'.
Proof.
  intros A. destruct o as [id rt ty|base rt ty]; cbn [step].
  - unfold register_ref. destruct (mhas id (cat_refs c)) eqn:E.
    + exists (OutRegister false), c, l. split; [reflexivity|]. split; [|exact A]. constructor. apply (agrees_has c l id A), E.
    + assert (Hn : ~ In id (log_ids l)) by (intros H; apply (agrees_has c l id A) in H; congruence).
      exists (OutRegister true), (insert_ref c id rt ty), (l ++ [(id, rt, ty)]). split; [reflexivity|].
      split; [constructor; exact Hn|apply insert_agrees; assumption].
  - destruct (generate_spec c l base rt ty A) as (id & G & Hg). rewrite G. cbn [bind fst snd].
    exists (OutGenerate id), (insert_ref c id rt ty), (l ++ [(id, rt, ty)]). split; [reflexivity|].
    split; [constructor; exact Hg|apply insert_agrees; [exact A|apply Hg]].
Qed.

Lemma agrees_new : agrees catalog_new [].
Proof. constructor; [reflexivity|reflexivity|constructor]. Qed.

Lemma run_from_snoc c ops o : run_from c (ops ++ [o]) =
  (x <- run_from c ops ;; y <- step (snd x) o ;; Ok (fst x ++ [fst y], snd y)).
Proof.
  revert c. induction ops as [|p ops IH]; intros c; cbn [app run_from].
  - cbn [bind fst snd]. destruct (step c o) as [[a b]| |]; reflexivity.
  - destruct (step c p) as [[a b]| |]; cbn [bind]; try reflexivity. cbn [fst snd]. rewrite IH.
    destruct (run_from b ops) as [[u v]| |]; cbn [bind]; try reflexivity. cbn [fst snd].
    destruct (step v o) as [[p' q]| |]; reflexivity.
Qed.

Lemma run_spec ops : exists outs c l, run ops = Ok (outs, c) /\ spec_run ops outs l /\ agrees c l.
Proof.
  unfold run. induction ops as [|o ops IH] using rev_ind.
  - exists [], catalog_new, []. split; [reflexivity|]. split; [constructor|apply agrees_new].
  - destruct IH as (outs & c & l & R & S & A). destruct (step_spec c l o A) as (out & c' & l' & E & S' & A').
    exists (outs ++ [out]), c', l'. rewrite run_from_snoc, R. cbn [bind snd fst]. rewrite E. cbn [bind fst snd].
    split; [reflexivity|]. split; [econstructor; eassumption|exact A'].
Qed.

Lemma agrees_get c l id : agrees c l ->
  get_ref c id = match first_with_id id l with Some (rt, ty) => Some (mkref id rt ty) | None => None end.
Proof.
  intros A. unfold get_ref. rewrite (ag_refs c l A). clear A. induction l as [|[[i rt] ty] l IH]; [reflexivity|].
  cbn [map mget first_with_id fst snd]. destruct (text_eqb_spec id i) as [->|Hn].
  - destruct (list_eq_dec N.eq_dec i i); [reflexivity|congruence].
  - destruct (list_eq_dec N.eq_dec i id); [congruence|exact IH].
Qed.

Lemma gen_id_det l base a b : gen_id l base a -> gen_id l base b -> a = b.
Proof.
  intros (Ha & [[A1 ->]|[A1 (n & Hn & -> & An)]]) (Hb & [[B1 ->]|[B1 (m & Hm & -> & Bm)]]); try congruence; try contradiction.
  destruct (lt_eq_lt_dec n m) as [[H|H]|H]; [|congruence|].
  - exfalso. apply Ha. apply Bm. lia.
  - exfalso. apply Hb. apply An. lia.
Qed.

Lemma spec_step_det l o out1 l1 out2 l2 : spec_step l o out1 l1 -> spec_step l o out2 l2 -> out1 = out2 /\ l1 = l2.
Proof.
  intros H1 H2. destruct H1 as [l id rt ty Hn|l id rt ty Hi|l base rt ty id Hg]; inversion H2; subst; try contradiction; auto.
  assert (E : id = id0) by (eapply gen_id_det; eassumption). subst. auto.
Qed.

Lemma spec_run_det ops : forall outs1 l1 outs2 l2,
  spec_run ops outs1 l1 -> spec_run ops outs2 l2 -> outs1 = outs2 /\ l1 = l2.
Proof.
  induction ops as [|o ops IH] using rev_ind; intros outs1 l1 outs2 l2 H1 H2.
  - inversion H1; [|destruct ops; discriminate]. inversion H2; [|destruct ops; discriminate]. auto.
  - inversion H1 as [E|ops1 o1 a1 b1 c1 d1 R1 S1 E1 E2 E3]; [destruct ops; discriminate|].
    inversion H2 as [E|ops2 o2 a2 b2 c2 d2 R2 S2 F1 F2 F3]; [destruct ops; discriminate|]. subst.
    apply app_inj_tail in E1, F1. destruct E1 as [-> ->], F1 as [-> ->].
    destruct (IH _ _ _ _ R1 R2) as [-> ->]. destruct (spec_step_det _ _ _ _ _ _ S1 S2) as [-> ->]. auto.
Qed.

Lemma generate_any c base rt ty :
  exists id c', generate_unique c base rt ty = Ok (id, c') /\
    contains_id c id = false /\ get_ref c' id = Some (mkref id rt ty) /\
    (forall id', id' <> id -> get_ref c' id' = get_ref c id') /\
    (contains_id c base = false -> id = base) /\
    (contains_id c base = true -> exists n, 2 <= n /\ id = base ++ lit "-" ++ show_nat n /\
       forall m, 2 <= m < n -> contains_id c (base ++ lit "-" ++ show_nat m) = true).
Proof.
  assert (G : exists id, generate_unique c base rt ty = Ok (id, insert_ref c id rt ty) /\ contains_id c id = false /\
    (contains_id c base = false -> id = base) /\
    (contains_id c base = true -> exists n, 2 <= n /\ id = base ++ lit "-" ++ show_nat n /\
       forall m, 2 <= m < n -> contains_id c (base ++ lit "-" ++ show_nat m) = true)).
  { unfold generate_unique. destruct (contains_id c base) eqn:E; cbn [negb].
    - destruct (unique_go (S (length (cat_refs c))) c base 2) as [id| |] eqn:G.
      + exists id. apply unique_go_ok in G. destruct G as (k & Hk & -> & Hc & Hm). repeat split; [exact Hc|discriminate|].
        intros _. exists k. repeat split; [exact Hk|exact Hm].
      + exfalso. apply (unique_go_not_panic _ _ _ _ G).
      + exfalso. apply (unique_go_total _ _ _ G).
    - exists base. repeat split; [exact E|discriminate]. }
  destruct G as (id & G & H1 & H2 & H3). exists id, (insert_ref c id rt ty). split; [exact G|]. split; [exact H1|].
  unfold get_ref. cbn [insert_ref cat_refs]. split; [apply mget_mput_same|]. split; [intros id' Hn; apply mget_mput_other, Hn|auto].
Qed.
