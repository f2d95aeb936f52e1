(** Proofs about what is written about warnings and catalogs (C133). *)
From Coq Require Import Permutation.
From Verif Require Import Text TextFacts Maps Catalog_Model Span_Model Parser_Model Show_Model Show_Spec.

(** * Written texts *)
Lemma upto (c : N) : forall a b x y, ~ In c a -> ~ In c b -> a ++ c :: x = b ++ c :: y -> a = b /\ x = y.
Proof.
  induction a as [|d a IH]; intros [|e b] x y Ha Hb H; cbn [app] in H.
  - injection H as H. auto.
  - exfalso. injection H as H _. apply Hb. left. symmetry. exact H.
  - exfalso. injection H as H _. apply Ha. left. exact H.
  - injection H as <- H. destruct (IH b x y) as (-> & ->); [intros K; apply Ha; right; exact K|intros K; apply Hb; right; exact K|exact H|auto].
Qed.
Definition unhexd (c : char) : N := if (c <? 58)%N then (c - 48)%N else (c - 87)%N.
Definition hex_val (t : text) : N := fold_left (fun a d => (a * 16 + unhexd d)%N) t 0%N.
Lemma unhexd_hexd n : (n < 16)%N -> unhexd (hexd n) = n.
Proof. intros H. unfold unhexd, hexd. destruct (N.ltb_spec n 10); [destruct (N.ltb_spec (48 + n) 58); lia|destruct (N.ltb_spec (87 + n) 58); lia]. Qed.
Lemma hex_go_val : forall f n, (n < 16 ^ N.of_nat f)%N -> hex_val (hex_go f n) = n.
Proof.
  induction f as [|f IH]; intros n H; cbn [hex_go].
  - cbn in H. unfold hex_val. cbn. lia.
  - destruct (N.ltb_spec n 16) as [K|K].
    + unfold hex_val. cbn [fold_left]. rewrite unhexd_hexd by exact K. lia.
    + unfold hex_val. rewrite fold_left_app. cbn [fold_left]. fold (hex_val (hex_go f (n / 16)%N)). rewrite IH, unhexd_hexd; [|apply N.mod_lt; lia|].
      * rewrite N.mul_comm. symmetry. apply N.div_mod. lia.
      * apply N.div_lt_upper_bound; [lia|]. rewrite Nat2N.inj_succ, N.pow_succ_r' in H. exact H.
Qed.
Lemma hex_val_hex n : hex_val (hex n) = n.
Proof.
  apply hex_go_val. rewrite Nat2N.inj_succ, N2Nat.id, N.pow_succ_r'. pose proof (N.size_gt n). pose proof (N.pow_le_mono_l 2 16 (N.size n)). lia.
Qed.
Lemma hex_no_brace n : ~ In 125%N (hex n).
Proof.
  unfold hex. generalize (S (N.to_nat (N.size n))). intros f. revert n. assert (D : forall n, (n < 16)%N -> hexd n <> 125%N) by (intros n H; unfold hexd; destruct (N.ltb_spec n 10); lia).
  induction f as [|f IH]; intros n; cbn [hex_go]; [intros []|]. destruct (N.ltb_spec n 16) as [K|K].
  - intros [E|[]]. exact (D n K E).
  - intros E. apply in_app_or in E. destruct E as [E|[E|[]]]; [exact (IH _ E)|]. apply (D (n mod 16)%N); [apply N.mod_lt; lia|exact E].
Qed.
Lemma hex_ends : self_ending (fun n => hex n ++ [125%N]).
Proof.
  intros a b x y H. rewrite <- !app_assoc in H. cbn [app] in H. destruct (upto _ _ _ _ _ (hex_no_brace a) (hex_no_brace b) H) as (E & ->). split; [|reflexivity]. rewrite <- (hex_val_hex a), E. apply hex_val_hex.
Qed.
Definition short_escape (c k : char) : Prop := In (c, k) [(0, 48); (9, 116); (13, 114); (10, 110); (34, 34); (92, 92)]%N.
Lemma esc_cases pc c : (esc_char pc c = [c] /\ c <> 34%N /\ c <> 92%N) \/ (exists k, esc_char pc c = [92%N; k] /\ short_escape c k) \/ esc_char pc c = [92; 117; 123]%N ++ hex c ++ [125%N].
Proof.
  unfold esc_char, short_escape. destruct (N.eqb_spec c 0) as [->|]; [right; left; eexists; split; [reflexivity|cbn; auto]|]. destruct (N.eqb_spec c 9) as [->|]; [right; left; eexists; split; [reflexivity|cbn; auto]|].
  destruct (N.eqb_spec c 13) as [->|]; [right; left; eexists; split; [reflexivity|cbn; auto]|]. destruct (N.eqb_spec c 10) as [->|]; [right; left; eexists; split; [reflexivity|cbn; auto]|].
  destruct (N.eqb_spec c 34) as [->|]; [right; left; eexists; split; [reflexivity|cbn; tauto]|]. destruct (N.eqb_spec c 92) as [->|]; [right; left; eexists; split; [reflexivity|cbn; tauto]|]. destruct (pc c); [left; auto|right; right; reflexivity].
Qed.
Lemma short_not_u c k : short_escape c k -> k <> 117%N.
Proof. intros H ->. unfold short_escape in H. cbn [In] in H. repeat (destruct H as [H|H]; [discriminate H|]). exact H. Qed.
Lemma short_inj c d k : short_escape c k -> short_escape d k -> c = d.
Proof.
  unfold short_escape. cbn [In]. intros H1 H2. repeat (destruct H1 as [H1|H1]; [injection H1 as <- <-; repeat (destruct H2 as [H2|H2]; [injection H2; congruence|]); destruct H2|]). destruct H1.
Qed.
Lemma esc_ends pc : self_ending (esc_char pc).
Proof.
  intros c d x y H. destruct (esc_cases pc c) as [(E1 & N1 & N2)|[(k & E1 & K1)|E1]], (esc_cases pc d) as [(E2 & M1 & M2)|[(k2 & E2 & K2)|E2]]; rewrite E1, E2 in H; cbn [app] in H.
  - injection H as <- <-. auto.
  - exfalso. injection H as H _. congruence.
  - exfalso. injection H as H _. congruence.
  - exfalso. injection H as H _. congruence.
  - injection H as <- <-. split; [exact (short_inj _ _ _ K1 K2)|reflexivity].
  - exfalso. injection H as H _. exact (short_not_u _ _ K1 H).
  - exfalso. injection H as H _. congruence.
  - exfalso. injection H as H _. exact (short_not_u _ _ K2 (eq_sym H)).
  - injection H as H. exact (hex_ends c d x y H).
Qed.
Lemma esc_not_quote pc c x y : esc_char pc c ++ x <> 34%N :: y.
Proof. intros H. destruct (esc_cases pc c) as [(E1 & N1 & N2)|[(k & E1 & K1)|E1]]; rewrite E1 in H; cbn [app] in H; injection H as H _; congruence. Qed.
Lemma quoted_ends pc : self_ending (quoted pc).
Proof.
  intros a b x y H. unfold quoted in H. cbn [app] in H. injection H as H. rewrite <- !app_assoc in H. cbn [app] in H. revert b H. induction a as [|c a IH]; intros [|d b] H; cbn [flat_map app] in H.
  - injection H as H. auto.
  - exfalso. rewrite <- app_assoc in H. symmetry in H. exact (esc_not_quote _ _ _ _ H).
  - exfalso. rewrite <- app_assoc in H. exact (esc_not_quote _ _ _ _ H).
  - rewrite <- !app_assoc in H. destruct (esc_ends pc _ _ _ _ H) as (-> & H2). destruct (IH _ H2) as (-> & ->). auto.
Qed.
Lemma quoted_inj pc a b : quoted pc a = quoted pc b -> a = b.
Proof. intros H. apply (quoted_ends pc a b [] []). rewrite H. reflexivity. Qed.
Lemma show_digits n : Forall (fun c => 48 <= c <= 57)%N (show_nat n).
Proof.
  unfold show_nat. generalize (S n) as f. intros f. revert n. assert (G : forall f n acc, Forall (fun c => 48 <= c <= 57)%N acc -> Forall (fun c => 48 <= c <= 57)%N (digits_go f n acc)); [|intros n; apply G; constructor].
  clear f. induction f as [|f IH]; intros n acc H; cbn [digits_go]; [exact H|]. assert (K : Forall (fun c => 48 <= c <= 57)%N ((48 + N.of_nat (n mod 10))%N :: acc)) by (constructor; [pose proof (Nat.mod_upper_bound n 10 ltac:(lia)); lia|exact H]). destruct (n <? 10); [exact K|apply IH, K].
Qed.
Lemma digits_no c n : ~ (48 <= c <= 57)%N -> ~ In c (show_nat n).
Proof. intros H K. pose proof (show_digits n) as F. rewrite Forall_forall in F. exact (H (F _ K)). Qed.
Lemma number_upto c a b x y : ~ (48 <= c <= 57)%N -> show_nat a ++ c :: x = show_nat b ++ c :: y -> a = b /\ x = y.
Proof. intros Hc H. destruct (upto c _ _ _ _ (digits_no c a Hc) (digits_no c b Hc) H) as (E & ->). split; [exact (show_nat_inj _ _ E)|reflexivity]. Qed.

(** * Warnings *)
Ltac apart H := repeat match type of H with context [quoted ?p ?t] => let q := fresh "q" in generalize dependent (quoted p t); intros q H end; repeat match type of H with context [show_nat ?t] => let q := fresh "q" in generalize dependent (show_nat t); intros q H end; vm_compute in H; discriminate H.
Lemma message_inj pc w w' : message pc w = message pc w' -> w = w'.
Proof.
  intros H. destruct w, w'; cbn [message] in H; try reflexivity; try (exfalso; clear -H; apart H).
  - apply app_inv_head in H. destruct (quoted_ends pc _ _ _ _ H) as (-> & _). reflexivity.
  - apply app_inv_head in H. destruct (quoted_ends pc _ _ _ _ H) as (-> & _). reflexivity.
  - apply app_inv_head in H. destruct (number_upto 44%N _ _ _ _ ltac:(lia) H) as (-> & H2). injection H2 as H2. destruct (number_upto 41%N _ _ _ _ ltac:(lia) H2) as (-> & _). reflexivity.
  - apply app_inv_head in H. destruct (number_upto 41%N _ _ _ _ ltac:(lia) H) as (-> & _). reflexivity.
Qed.
Lemma debug_warning_inj pc w w' : debug_warning pc w = debug_warning pc w' -> w = w'.
Proof.
  intros H. unfold debug_warning in H. apply app_inv_head in H. destruct w, w'; try reflexivity; try (exfalso; clear -H; apart H).
  - apply app_inv_head in H. destruct (quoted_ends pc _ _ _ _ H) as (-> & _). reflexivity.
  - apply app_inv_head in H. destruct (quoted_ends pc _ _ _ _ H) as (-> & _). reflexivity.
  - apply app_inv_head in H. destruct (number_upto 44%N _ _ _ _ ltac:(lia) H) as (-> & H2). injection H2 as H2. destruct (number_upto 41%N _ _ _ _ ltac:(lia) H2) as (-> & _). reflexivity.
  - apply app_inv_head in H. destruct (number_upto 41%N _ _ _ _ ltac:(lia) H) as (-> & _). reflexivity.
Qed.

(** * Order *)
Lemma before_irrefl x : ~ before x x.
Proof. induction x as [|c x IH]; intros H; inversion H; subst; [lia|exact (IH H1)]. Qed.
Lemma before_trans x y z : before x y -> before y z -> before x z.
Proof.
  intros H. revert z. induction H as [c y|c d x y K|c x y H IH]; intros z H2; inversion H2; subst; try (constructor; fail); try (apply be_here; lia); try (apply be_here; assumption).
  apply be_more, IH. assumption.
Qed.
Lemma leb_spec a : forall b, if text_leb a b then a = b \/ before a b else before b a.
Proof.
  induction a as [|x a IH]; intros [|y b]; cbn [text_leb]; [left; reflexivity|right; constructor|constructor|].
  destruct (N.ltb_spec x y) as [K|K]; [right; apply be_here, K|]. destruct (N.ltb_spec y x) as [K2|K2]; [apply be_here, K2|]. assert (x = y) as -> by lia. specialize (IH b). destruct (text_leb a b); [destruct IH as [->|IH]; [left; reflexivity|right; apply be_more, IH]|apply be_more, IH].
Qed.
Section sorting.
Context {V : Type} (pc : char -> bool).
Implicit Types m l : list (text * V).
Notation key := (fun e : text * V => quoted pc (fst e)).
Lemma sort_in_perm x l : Permutation (x :: l) (sort_in pc x l).
Proof. induction l as [|y l IH]; cbn [sort_in]; [reflexivity|]. destruct (text_leb _ _); [reflexivity|]. rewrite perm_swap. apply perm_skip, IH. Qed.
Lemma sort_perm m : Permutation m (sort_keys pc m).
Proof. unfold sort_keys. induction m as [|x m IH]; cbn [fold_right]; [constructor|]. rewrite <- sort_in_perm. apply perm_skip, IH. Qed.
Lemma sort_in_asc x l : ascending (map key l) -> ~ In (fst x) (map fst l) -> ascending (map key (sort_in pc x l)).
Proof.
  induction l as [|y l IH]; intros H N; cbn [sort_in map ascending]; [split; [intros y []|exact I]|]. destruct H as (H1 & H2). pose proof (leb_spec (quoted pc (fst x)) (quoted pc (fst y))) as L. destruct (text_leb _ _).
  - assert (B : before (quoted pc (fst x)) (quoted pc (fst y))) by (destruct L as [L|L]; [exfalso; apply N; left; symmetry; exact (quoted_inj _ _ _ L)|exact L]). cbn [map ascending]. split; [|split; assumption]. intros z [<-|Hz]; [exact B|]. exact (before_trans _ _ _ B (H1 _ Hz)).
  - cbn [map ascending]. split; [|apply IH; [exact H2|intros K; apply N; right; exact K]]. intros z Hz. apply in_map_iff in Hz. destruct Hz as (e & <- & He). apply (Permutation_in _ (Permutation_sym (sort_in_perm x l))) in He. destruct He as [<-|He]; [exact L|]. apply H1. exact (in_map key _ _ He).
Qed.
Lemma sort_asc m : NoDup (map fst m) -> ascending (map key (sort_keys pc m)).
Proof.
  unfold sort_keys. induction m as [|x m IH]; intros H; cbn [fold_right map]; [exact I|]. inversion H as [|? ? Hn Hd]; subst. apply sort_in_asc; [apply IH, Hd|]. intros K. apply Hn. apply (Permutation_in (fst x) (Permutation_map fst (Permutation_sym (sort_perm m)))). exact K.
Qed.
Lemma asc_unique l : forall l', ascending (map key l) -> ascending (map key l') -> Permutation l l' -> l = l'.
Proof.
  induction l as [|a l IH]; intros [|b l'] H H' P; [reflexivity|apply Permutation_nil_cons in P; destruct P|symmetry in P; apply Permutation_nil_cons in P; destruct P|]. cbn [map ascending] in H, H'. destruct H as (H1 & H2), H' as (H1' & H2').
  assert (a = b) as ->; [|f_equal; apply IH; [exact H2|exact H2'|exact (Permutation_cons_inv P)]].
  destruct (Permutation_in a P (or_introl eq_refl)) as [E|Ia]; [symmetry; exact E|]. destruct (Permutation_in b (Permutation_sym P) (or_introl eq_refl)) as [E|Ib]; [exact E|].
  exfalso. exact (before_irrefl _ (before_trans _ _ _ (H1 _ (in_map key _ _ Ib)) (H1' _ (in_map key _ _ Ia)))).
Qed.
Lemma sort_order m m' : NoDup (map fst m) -> Permutation m m' -> sort_keys pc m = sort_keys pc m'.
Proof.
  intros N P. apply asc_unique; [apply sort_asc, N|apply sort_asc; exact (Permutation_NoDup (Permutation_map fst P) N)|]. rewrite <- !sort_perm. exact P.
Qed.
(** * Maps *)
Variable sv : V -> text.
Hypothesis Hs : self_ending sv.
Lemma entry_ends : self_ending (show_entry pc sv).
Proof.
  intros (k & v) (k' & v') x y H. unfold show_entry in H. cbn [fst snd] in H. rewrite <- !app_assoc in H. apply app_inv_head in H. destruct (quoted_ends pc _ _ _ _ H) as (-> & H2). apply app_inv_head in H2. destruct (Hs _ _ _ _ H2) as (-> & H3). apply app_inv_head in H3. auto.
Qed.
Lemma join_ends l : forall l' x y, join (lit ", ") (map (show_entry pc sv) l) ++ lit "])" ++ x = join (lit ", ") (map (show_entry pc sv) l') ++ lit "])" ++ y -> l = l' /\ x = y.
Proof.
  assert (Ne : forall e r, exists z, show_entry pc sv e ++ r = 40%N :: z) by (intros e r; eexists; reflexivity).
  induction l as [|a l IH]; intros [|b l'] x y H.
  - apply app_inv_head in H. apply app_inv_head in H. auto.
  - exfalso. cbn [map join] in H. destruct l'; cbn [map] in H; [destruct (Ne b (lit "])" ++ y)) as (z & Ez); rewrite Ez in H|rewrite <- app_assoc in H; match type of H with _ = ?e ++ ?r => destruct (Ne b r) as (z & Ez) end; rewrite Ez in H]; discriminate H.
  - exfalso. cbn [map join] in H. destruct l; cbn [map] in H; [destruct (Ne a (lit "])" ++ x)) as (z & Ez); rewrite Ez in H|rewrite <- app_assoc in H; match type of H with ?e ++ ?r = _ => destruct (Ne a r) as (z & Ez) end; rewrite Ez in H]; discriminate H.
  - assert (J : forall c r, join (lit ", ") (map (show_entry pc sv) (c :: r)) = show_entry pc sv c ++ match r with [] => [] | _ => lit ", " ++ join (lit ", ") (map (show_entry pc sv) r) end) by (intros c [|d r]; cbn [map join]; [rewrite app_nil_r|]; reflexivity).
    rewrite !J, <- !app_assoc in H. destruct (entry_ends _ _ _ _ H) as (-> & H2). destruct l as [|a2 l], l' as [|b2 l'].
    + cbn [app] in H2. apply app_inv_head in H2. auto.
    + exfalso. discriminate H2.
    + exfalso. discriminate H2.
    + rewrite <- !app_assoc in H2. apply app_inv_head in H2. destruct (IH (b2 :: l') x y H2) as (E & ->). rewrite E. auto.
Qed.
Lemma map_ends m m' x y : show_map pc sv m ++ x = show_map pc sv m' ++ y -> Permutation m m' /\ x = y.
Proof.
  intros H. unfold show_map in H. rewrite <- !app_assoc in H. apply app_inv_head in H. destruct (join_ends _ _ _ _ H) as (E & ->). split; [|reflexivity]. rewrite (sort_perm m), (sort_perm m'), E. reflexivity.
Qed.
End sorting.
Lemma mget_perm {V} (m m' : tmap V) : NoDup (map fst m) -> Permutation m m' -> same_map m m'.
Proof.
  intros N P k. assert (N' : NoDup (map fst m')) by exact (Permutation_NoDup (Permutation_map fst P) N).
  assert (G : forall (n : tmap V) v, NoDup (map fst n) -> In (k, v) n -> mget k n = Some v).
  { induction n as [|(k1 & v1) n IH]; intros v Hn Hi; [destruct Hi|]. cbn [mget]. inversion Hn as [|? ? Hx Hd]; subst. destruct Hi as [Hi|Hi]; [injection Hi as -> ->; rewrite text_eqb_refl; reflexivity|]. destruct (text_eqb_spec k k1) as [->|_]; [exfalso; apply Hx; exact (in_map fst _ _ Hi)|exact (IH v Hd Hi)]. }
  destruct (mget k m) as [v|] eqn:E1; [symmetry; apply G; [exact N'|exact (Permutation_in _ P (mget_in _ _ _ E1))]|]. destruct (mget k m') as [v|] eqn:E2; [|reflexivity]. rewrite <- E1. apply G; [exact N|exact (Permutation_in _ (Permutation_sym P) (mget_in _ _ _ E2))].
Qed.
Lemma same_perm {V} (m m' : tmap V) : NoDup (map fst m) -> NoDup (map fst m') -> same_map m m' -> Permutation m m'.
Proof.
  intros N N' H. assert (D : forall n : tmap V, NoDup (map fst n) -> NoDup n) by (intros n; apply NoDup_map_inv). assert (G : forall (n : tmap V) k v, NoDup (map fst n) -> In (k, v) n -> mget k n = Some v).
  { induction n as [|(k1 & v1) n IH]; intros k v Hn Hi; [destruct Hi|]. cbn [mget]. inversion Hn as [|? ? Hx Hd]; subst. destruct Hi as [Hi|Hi]; [injection Hi as -> ->; rewrite text_eqb_refl; reflexivity|]. destruct (text_eqb_spec k k1) as [->|_]; [exfalso; apply Hx; exact (in_map fst _ _ Hi)|exact (IH k v Hd Hi)]. }
  apply NoDup_Permutation; [apply D, N|apply D, N'|]. intros (k & v). split; intros K; apply mget_in; [rewrite <- H|rewrite H]; apply G; assumption.
Qed.
(** * Catalogs *)
Lemma show_ref_ends pc : self_ending (show_ref pc).
Proof.
  intros [i t r] [i' t' r'] x y H. unfold show_ref in H. cbn [re_id re_reftext re_type] in H. rewrite <- !app_assoc in H. apply app_inv_head in H. destruct (quoted_ends pc _ _ _ _ H) as (-> & H2). apply app_inv_head in H2.
  assert (K : t = t' /\ lit ", ref_type: " ++ show_reftype r ++ lit " }" ++ x = lit ", ref_type: " ++ show_reftype r' ++ lit " }" ++ y).
  { destruct t, t'; cbn [show_opt] in H2; [|discriminate H2|discriminate H2|apply app_inv_head in H2; auto]. rewrite <- !app_assoc in H2. apply app_inv_head in H2. destruct (quoted_ends pc _ _ _ _ H2) as (-> & H3). apply app_inv_head in H3. auto. }
  destruct K as (-> & K). apply app_inv_head in K. destruct r, r'; try discriminate K; apply app_inv_head in K; apply app_inv_head in K; auto.
Qed.
Lemma show_catalog_perm pc c c' : show_catalog pc c = show_catalog pc c' -> Permutation (cat_refs c) (cat_refs c') /\ Permutation (cat_reftexts c) (cat_reftexts c').
Proof.
  intros H. unfold show_catalog in H. apply app_inv_head in H. destruct (map_ends pc _ (show_ref_ends pc) _ _ _ _ H) as (P1 & H2). apply app_inv_head in H2. destruct (map_ends pc _ (quoted_ends pc) _ _ _ _ H2) as (P2 & _). auto.
Qed.
