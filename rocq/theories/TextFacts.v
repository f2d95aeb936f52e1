(** Lemmas about [Text]. *)
From Verif Require Import Text.

Lemma clen_pos c : 1 <= clen c.
Proof. unfold clen. repeat destruct (N.ltb _ _); lia. Qed.

Lemma blen_app a b : blen (a ++ b) = blen a + blen b.
Proof. induction a as [|c a IH]; cbn [blen app]; lia. Qed.

Lemma blen_0 t : blen t = 0 -> t = [].
Proof. destruct t as [|c t]; [easy|]. cbn [blen]. pose proof (clen_pos c). lia. Qed.

Lemma blen_cons_pos c t : 1 <= blen (c :: t).
Proof. cbn [blen]. pose proof (clen_pos c). lia. Qed.

Lemma length_le_blen t : length t <= blen t.
Proof. induction t as [|c t IH]; cbn [length blen]; [lia|]. pose proof (clen_pos c). lia. Qed.

Lemma bsplit_nil n : bsplit (S n) [] = None.
Proof. reflexivity. Qed.

Lemma bsplit_cons n c r :
  bsplit n (c :: r) =
  match n with
  | 0 => Some ([], c :: r)
  | S _ => if clen c <=? n then
             match bsplit (n - clen c) r with
             | Some (a, b) => Some (c :: a, b) | None => None end
           else None
  end.
Proof. destruct n; reflexivity. Qed.

Lemma bsplit_app a b : bsplit (blen a) (a ++ b) = Some (a, b).
Proof.
  induction a as [|c a IH]; [destruct b; reflexivity|].
  cbn [app]. rewrite bsplit_cons. cbn [blen]. pose proof (clen_pos c) as Hc.
  destruct (clen c + blen a) as [|k] eqn:E; [lia|].
  destruct (Nat.leb_spec (clen c) (S k)); [|lia].
  replace (S k - clen c) with (blen a) by lia. rewrite IH. reflexivity.
Qed.

Lemma bsplit_some t : forall n a b, bsplit n t = Some (a, b) -> t = a ++ b /\ n = blen a.
Proof.
  induction t as [|c t IH]; intros n a b H.
  - destruct n; [|discriminate]. injection H as <- <-. auto.
  - rewrite bsplit_cons in H. destruct n as [|n].
    + injection H as <- <-. auto.
    + destruct (Nat.leb_spec (clen c) (S n)) as [Hle|]; [|discriminate].
      destruct (bsplit (S n - clen c) t) as [[a' b']|] eqn:E; [|discriminate].
      injection H as <- <-. apply IH in E. destruct E as [-> E]. split; [reflexivity|].
      cbn [blen]. lia.
Qed.

Lemma text_eqb_spec a b : reflect (a = b) (text_eqb a b).
Proof.
  revert b. induction a as [|x a IH]; destruct b as [|y b]; cbn [text_eqb];
    try (constructor; congruence).
  destruct (N.eqb_spec x y) as [->|Hn]; cbn [andb].
  - destruct (IH b) as [->|Hn]; constructor; congruence.
  - constructor; congruence.
Qed.

Lemma text_eqb_refl a : text_eqb a a = true.
Proof. destruct (text_eqb_spec a a); congruence. Qed.

Lemma text_eqb_eq a b : text_eqb a b = true <-> a = b.
Proof. destruct (text_eqb_spec a b); split; congruence. Qed.

Lemma text_eqb_neq a b : text_eqb a b = false <-> a <> b.
Proof. destruct (text_eqb_spec a b); split; congruence. Qed.

Lemma starts_with_spec p t : starts_with p t = true <-> exists r, t = p ++ r.
Proof.
  revert t. induction p as [|x p IH]; intros t; cbn [starts_with].
  - split; [intros _; exists t; reflexivity|reflexivity].
  - destruct t as [|y t].
    + split; [discriminate|intros [r H]; discriminate].
    + rewrite andb_true_iff, N.eqb_eq, IH. split.
      * intros [-> [r ->]]. exists r. reflexivity.
      * intros [r H]. injection H as -> ->. split; [reflexivity|]. exists r; reflexivity.
Qed.

Lemma ends_with_spec p t : ends_with p t = true <-> exists r, t = r ++ p.
Proof.
  unfold ends_with. rewrite starts_with_spec. split; intros [r H].
  - exists (rev r). apply (f_equal (@rev N)) in H. rewrite rev_involutive, rev_app_distr, rev_involutive in H.
    exact H.
  - exists (rev r). rewrite H. apply rev_app_distr.
Qed.

Lemma contains_spec p t : contains p t = true <-> exists a b, t = a ++ p ++ b.
Proof.
  induction t as [|c t IH]; cbn [contains]; rewrite orb_true_iff, starts_with_spec.
  - split.
    + intros [[r H]|H]; [|discriminate]. exists [], r. exact H.
    + intros (a & b & H). left. destruct a; [|discriminate]. exists b. exact H.
  - rewrite IH. split.
    + intros [[r H]|(a & b & ->)]; [exists [], r; exact H|]. exists (c :: a), b. reflexivity.
    + intros (a & b & H). destruct a as [|x a]; [left; exists b; exact H|].
      right. injection H as -> ->. exists a, b. reflexivity.
Qed.

Lemma has_char_spec c t : has_char c t = true <-> In c t.
Proof.
  unfold has_char. rewrite existsb_exists. split.
  - intros (x & Hx & E). apply N.eqb_eq in E. congruence.
  - intros H. exists c. split; [exact H|apply N.eqb_refl].
Qed.

Lemma has_char_false c t : has_char c t = false <-> ~ In c t.
Proof. rewrite <- has_char_spec. destruct (has_char c t); intuition congruence. Qed.

Lemma has_char_app c a b : has_char c (a ++ b) = has_char c a || has_char c b.
Proof. apply existsb_app. Qed.

(** [span_while] *)
Lemma span_while_app p t : fst (span_while p t) ++ snd (span_while p t) = t.
Proof.
  induction t as [|c t IH]; [reflexivity|]. cbn [span_while].
  destruct (p c); [|reflexivity]. destruct (span_while p t); cbn in *. congruence.
Qed.

Lemma span_while_all p t : Forall (fun c => p c = true) (fst (span_while p t)).
Proof.
  induction t as [|c t IH]; [constructor|]. cbn [span_while].
  destruct (p c) eqn:E; [|constructor]. destruct (span_while p t); cbn in *. constructor; auto.
Qed.

Lemma span_while_stop p t c r : snd (span_while p t) = c :: r -> p c = false.
Proof.
  induction t as [|x t IH]; cbn [span_while]; [discriminate|].
  destruct (p x) eqn:E; cbn.
  - destruct (span_while p t); cbn in *. auto.
  - intros H. injection H as -> _. exact E.
Qed.

Lemma span_while_prefix p a b :
  Forall (fun c => p c = true) a ->
  (match b with [] => True | c :: _ => p c = false end) ->
  span_while p (a ++ b) = (a, b).
Proof.
  induction a as [|c a IH]; intros Ha Hb.
  - destruct b as [|c b]; [reflexivity|]. cbn. rewrite Hb. reflexivity.
  - inversion Ha as [|? ? Hc Ha']; subst. cbn. rewrite Hc, (IH Ha' Hb). reflexivity.
Qed.

Lemma take_drop_while p t : take_while_c p t ++ drop_while_c p t = t.
Proof. apply span_while_app. Qed.

(** Trimming at the end. *)
Lemma trim_end_by_app p t :
  exists w, t = trim_end_by p t ++ w /\ Forall (fun c => p c = true) w /\
    (forall a c, trim_end_by p t = a ++ [c] -> p c = false).
Proof.
  unfold trim_end_by, drop_while_c. exists (rev (fst (span_while p (rev t)))). split; [|split].
  - rewrite <- rev_app_distr, span_while_app, rev_involutive. reflexivity.
  - apply Forall_rev, span_while_all.
  - intros a c H. apply (f_equal (@rev N)) in H. rewrite rev_involutive, rev_app_distr in H.
    cbn in H. eapply span_while_stop; eauto.
Qed.

Lemma trim_end_by_unique p a w :
  Forall (fun c => p c = true) w -> (forall b c, a = b ++ [c] -> p c = false) ->
  trim_end_by p (a ++ w) = a.
Proof.
  intros Hw Ha. unfold trim_end_by, drop_while_c. rewrite rev_app_distr, span_while_prefix.
  - cbn. apply rev_involutive.
  - apply Forall_rev, Hw.
  - destruct (rev a) as [|c r] eqn:E; [exact I|]. apply (Ha (rev r) c).
    rewrite <- (rev_involutive a), E. reflexivity.
Qed.

Lemma rev_cons_inv {A} (l : list A) : l = [] \/ exists a x, l = a ++ [x].
Proof.
  destruct (rev l) as [|x r] eqn:E.
  - left. rewrite <- (rev_involutive l), E. reflexivity.
  - right. exists (rev r), x. rewrite <- (rev_involutive l), E. reflexivity.
Qed.

Lemma app_last_eq {A} (a b : list A) x y : a ++ [x] = b ++ [y] -> a = b /\ x = y.
Proof. apply app_inj_tail. Qed.

Lemma trim_end_by_id p t : (forall b c, t = b ++ [c] -> p c = false) -> trim_end_by p t = t.
Proof. intros H. rewrite <- (app_nil_r t) at 1. apply trim_end_by_unique; [constructor|exact H]. Qed.

Lemma trim_end_by_idem p t : trim_end_by p (trim_end_by p t) = trim_end_by p t.
Proof. apply trim_end_by_id. destruct (trim_end_by_app p t) as (w & _ & _ & H). exact H. Qed.

(** Splitting. *)
Lemma split_on_nonempty c t : split_on c t <> [].
Proof. destruct t as [|x t]; cbn; [easy|]. destruct (x =? c)%N; [easy|]. destruct (split_on c t); easy. Qed.

Lemma join_cons2 sep a b l : join sep (a :: b :: l) = a ++ sep ++ join sep (b :: l).
Proof. reflexivity. Qed.

Lemma join_split c t : join [c] (split_on c t) = t.
Proof.
  induction t as [|x t IH]; [reflexivity|]. cbn [split_on].
  pose proof (split_on_nonempty c t) as Hne.
  destruct (N.eqb_spec x c) as [->|Hn].
  - destruct (split_on c t) as [|l ls]; [easy|]. rewrite join_cons2, IH. reflexivity.
  - destruct (split_on c t) as [|l ls]; [easy|]. destruct ls as [|m ls].
    + cbn in *. congruence.
    + rewrite join_cons2 in *. cbn. f_equal. exact IH.
Qed.

Lemma split_on_no_sep c t : Forall (fun l => ~ In c l) (split_on c t).
Proof.
  induction t as [|x t IH]; cbn [split_on]; [repeat constructor; easy|].
  destruct (N.eqb_spec x c) as [->|Hn]; [constructor; easy|].
  destruct (split_on c t) as [|l ls]; inversion IH as [|? ? H1 H2]; subst; constructor; auto.
  - cbn. intros [E|[]]. congruence.
  - cbn. intros [E|E]; [congruence|auto].
Qed.

Lemma split_on_app_no_sep c a t :
  ~ In c a ->
  split_on c (a ++ t) = match split_on c t with [] => [a] | l :: ls => (a ++ l) :: ls end.
Proof.
  intros Ha. induction a as [|x a IH].
  - cbn. pose proof (split_on_nonempty c t). destruct (split_on c t); easy.
  - cbn [app split_on]. destruct (N.eqb_spec x c) as [->|Hn]; [exfalso; apply Ha; left; reflexivity|].
    rewrite IH by (intros H; apply Ha; right; exact H). destruct (split_on c t); reflexivity.
Qed.

(** Decimal rendering is injective. *)
Fixpoint digits_val (t : text) (acc : nat) : nat :=
  match t with [] => acc | c :: r => digits_val r (acc * 10 + (N.to_nat c - 48)) end.

Lemma digits_go_val fuel : forall n acc a0, n < fuel ->
  digits_val (digits_go fuel n acc) a0 = digits_val acc (a0 * 10 ^ (length (digits_go fuel n acc) - length acc) + n).
Proof.
  induction fuel as [|f IH]; intros n acc a0 Hn; [lia|]. cbn [digits_go].
  destruct (Nat.ltb_spec n 10) as [Hlt|Hge].
  - cbn [digits_val length]. replace (S (length acc) - length acc) with 1 by lia.
    rewrite Nat.mod_small by lia. f_equal. cbn [Nat.pow]. lia.
  - assert (Hd : n / 10 < f) by (apply Nat.div_lt_upper_bound; lia).
    rewrite IH by exact Hd. set (d := digits_go f (n / 10) _).
    assert (Hlen : length acc + 1 <= length d).
    { subst d. clear. revert n acc. induction f as [|f IH]; intros n acc; cbn [digits_go length]; [lia|].
      destruct (n / 10 <? 10) eqn:E; cbn [length]; [lia|].
      specialize (IH (n / 10) ((48 + N.of_nat (n mod 10))%N :: acc)). cbn [length] in IH.
      assert (G : forall f n acc, length acc <= length (digits_go f n acc)).
      { clear. induction f as [|f IH]; intros n acc; cbn [digits_go]; [lia|].
        destruct (n <? 10); cbn [length]; [lia|]. specialize (IH (n / 10) ((48 + N.of_nat (n mod 10))%N :: acc)).
        cbn [length] in IH. lia. }
      specialize (G f (n / 10 / 10) ((48 + N.of_nat ((n / 10) mod 10))%N :: (48 + N.of_nat (n mod 10))%N :: acc)).
      cbn [length] in G. lia. }
    cbn [digits_val length]. f_equal.
    replace (length d - length acc) with (S (length d - S (length acc))) by lia.
    cbn [Nat.pow]. pose proof (Nat.div_mod n 10). lia.
Qed.

Lemma show_nat_val n : digits_val (show_nat n) 0 = n.
Proof. unfold show_nat. rewrite digits_go_val by lia. reflexivity. Qed.

Lemma show_nat_inj n m : show_nat n = show_nat m -> n = m.
Proof. intros H. rewrite <- (show_nat_val n), <- (show_nat_val m), H. reflexivity. Qed.

Lemma Some_inj {A} (a b : A) : Some a = Some b -> a = b.
Proof. intros H. congruence. Qed.

Lemma replace_go_one c y t : replace_go [c] y 0 t = flat_map (fun x => if (c =? x)%N then y else [x]) t.
Proof.
  induction t as [|x t IH]; [reflexivity|]. cbn [replace_go starts_with flat_map]. rewrite andb_true_r. destruct (c =? x)%N; cbn [length Nat.sub]; rewrite IH; reflexivity.
Qed.
Lemma in_cut_unique (x : char) a1 b1 a2 b2 : a1 ++ x :: b1 = a2 ++ x :: b2 -> ~ In x a1 -> ~ In x a2 -> a1 = a2.
Proof.
  revert a2. induction a1 as [|c a1 IH]; intros a2 H N1 N2; destruct a2 as [|d a2]; cbn in H; [reflexivity| | |].
  - injection H as -> H. exfalso. apply N2. left. reflexivity.
  - injection H as -> H. exfalso. apply N1. left. reflexivity.
  - injection H as -> H. f_equal. apply IH; [exact H| |]; intros Hin; [apply N1|apply N2]; right; exact Hin.
Qed.
Lemma not_in_b c t : existsb (N.eqb c) t = false -> ~ In c t.
Proof. intros H Hi. assert (existsb (N.eqb c) t = true); [|congruence]. apply existsb_exists. exists c. split; [exact Hi|apply N.eqb_refl]. Qed.
