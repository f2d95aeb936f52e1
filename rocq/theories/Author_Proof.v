(** Proofs about authors with references. *)
From Verif Require Import Text TextFacts Maps Span_Model Span_Proof Span_Laws Regex Parser_Model Subs_Model Subs_Spec Subs_Proof Macro_Spec Header_Model Header_Spec Header_Proof Header_Prop Author_Spec.

Lemma count_char_one c t : count_char c t = 1 <-> exists a b, t = a ++ c :: b /\ ~ In c a /\ ~ In c b.
Proof.
  unfold count_char. induction t as [|x t IH]; cbn [filter].
  - split; [discriminate|]. intros ([|? ?] & b & E & _); discriminate E.
  - destruct (c =? x)%N eqn:E; cbn [length].
    + apply N.eqb_eq in E. subst x. split.
      * intros H. exists [], t. split; [reflexivity|]. split; [intros []|]. intros Hi. assert (L : In c (filter (N.eqb c) t)) by (apply filter_In; split; [exact Hi|apply N.eqb_refl]). destruct (filter (N.eqb c) t); [destruct L|discriminate H].
      * intros (a & b & Eq & Na & Nb). destruct a as [|y a]; [injection Eq as ->|injection Eq as -> Eq; destruct Na; left; reflexivity]. change (S (count_char c b) = 1). rewrite (count_zero _ _ Nb). reflexivity.
    + apply N.eqb_neq in E. rewrite IH. split; intros (a & b & Eq & Na & Nb).
      * subst t. exists (x :: a), b. split; [reflexivity|]. split; [intros [->|K]; [congruence|contradiction]|exact Nb].
      * destruct a as [|y a]; injection Eq as -> Eq; [congruence|]. exists a, b. split; [exact Eq|]. split; [intros K; apply Na; right; exact K|exact Nb].
Qed.
Lemma count_char_several c t : 1 < count_char c t <-> exists x y z, t = x ++ c :: y ++ c :: z.
Proof.
  unfold count_char. assert (P : forall t, 0 < length (filter (N.eqb c) t) <-> exists y z, t = y ++ c :: z).
  { clear. intros t. split.
    - intros H. destruct (filter (N.eqb c) t) as [|d r] eqn:E; [cbn in H; lia|]. assert (I : In d (filter (N.eqb c) t)) by (rewrite E; left; reflexivity). apply filter_In in I. destruct I as [I K]. apply N.eqb_eq in K. subst d. apply in_split in I. exact I.
    - intros (y & z & ->). rewrite filter_app, app_length. cbn [filter]. rewrite N.eqb_refl. cbn [length]. lia. }
  induction t as [|x t IH]; cbn [filter].
  - split; [cbn; lia|]. intros ([|? ?] & y & z & E); discriminate E.
  - destruct (c =? x)%N eqn:E; cbn [length].
    + apply N.eqb_eq in E. subst x. rewrite <- Nat.succ_lt_mono, P. split.
      * intros (y & z & ->). exists [], y, z. reflexivity.
      * intros (a & y & z & Eq). destruct a as [|b a]; [injection Eq as Eq; exists y, z; exact Eq|injection Eq as _ Eq]. exists (a ++ c :: y), z. rewrite Eq, <- app_assoc. reflexivity.
    + apply N.eqb_neq in E. rewrite IH. split; intros (a & y & z & Eq).
      * subst t. exists (x :: a), y, z. reflexivity.
      * destruct a as [|b a]; injection Eq as -> Eq; [congruence|]. exists a, y, z. exact Eq.
Qed.
Lemma single_spec s : bare s s -> (is_single_attribute s = true <-> lone_ref s).
Proof.
  intros B. apply bare_trim in B. unfold is_single_attribute. rewrite <- B, !andb_true_iff, starts_with_spec, ends_with_spec, Nat.eqb_eq, count_char_one. split.
  - intros (((r & E1) & (q & E2)) & a & b & E & Na & Nb). assert (a = []) as ->. { destruct a as [|x a]; [reflexivity|]. rewrite E1 in E. injection E as <- _. destruct Na. left. reflexivity. }
    cbn [app] in E. rewrite E1 in E. injection E as ->. destruct q as [|d q]; [rewrite E1 in E2; discriminate E2|]. exists q. split; [|intros K; apply Nb; rewrite E1 in E2; cbn [app] in E2; injection E2 as _ ->; apply in_or_app; left; exact K].
    rewrite E1 in E2. cbn [app] in E2. injection E2 as <- E2. rewrite E1, E2. reflexivity.
  - intros (m & -> & N). split; [split|]; [eexists; reflexivity|exists (lit "{" ++ m); rewrite <- app_assoc; reflexivity|].
    exists [], (m ++ lit "}"). split; [reflexivity|]. split; [intros []|]. rewrite in_app_iff. intros [K|[K|[]]]; [contradiction|discriminate K].
Qed.
Lemma several_spec s : 1 < count_char 123%N s <-> several s.
Proof. rewrite count_char_several. unfold several. cbn [lit app]. reflexivity. Qed.
Lemma risky_spec x : (has_char 60%N x && has_char 62%N x) || (has_char 38%N x && negb (contains (lit "&amp;") x)) = true <-> risky x.
Proof.
  unfold risky, bracketed. rewrite orb_true_iff, !andb_true_iff, negb_true_iff, !has_char_spec. split; (intros [H|(H1 & H2)]; [left; exact H|right; split; [exact H1|]]).
  - intros a b E. assert (contains (lit "&amp;") x = true) by (apply contains_spec; eauto). congruence.
  - apply not_true_iff_false. rewrite contains_spec. intros (a & b & E). exact (H2 a b E).
Qed.
Lemma author_subs_spec U P s y : apply_author_subs U P s = Ok y <-> filled (value_of P) s y.
Proof.
  unfold apply_author_subs, filled. destruct (apply_attributes_total U P s) as (x & Ex). rewrite Ex. cbn [bind].
  assert (D : forall x', expands (value_of P) s x' <-> x' = x) by (intros x'; rewrite <- (apply_attributes_iff U), Ex; split; [intros K; apply Ok_inj in K; auto|intros ->; reflexivity]).
  assert (C : negb (is_single_attribute s) && (1 <? count_char 123%N s) && ((has_char 60%N x && has_char 62%N x) || (has_char 38%N x && negb (contains (lit "&amp;") x))) = true <-> several s /\ risky x).
  { rewrite !andb_true_iff, <- risky_spec, <- several_spec, Nat.ltb_lt, negb_true_iff. split; [intros ((_ & K1) & K2); auto|]. intros (K1 & K2). split; [split; [|exact K1]|exact K2].
    unfold is_single_attribute. destruct (count_char 123%N s =? 1) eqn:E; [apply Nat.eqb_eq in E; lia|]. apply andb_false_r. }
  match goal with |- (if ?b then _ else _) = _ <-> _ => destruct b eqn:Eb end.
  - assert (K := proj1 C eq_refl). rewrite apply_special_characters_eq. split.
    + intros H. apply Ok_inj in H. subst y. exists x. split; [apply D; reflexivity|]. left. destruct K. auto.
    + intros (x' & Hx & H). apply D in Hx. subst x'. destruct H as [(_ & _ & ->)|(N & _)]; [reflexivity|contradiction].
  - assert (K : ~ (several s /\ risky x)) by (intros K; apply C in K; discriminate K). split.
    + intros H. apply Ok_inj in H. subst y. exists x. split; [apply D; reflexivity|]. right. auto.
    + intros (x' & Hx & H). apply D in Hx. subst x'. destruct H as [(K1 & K2 & _)|(_ & ->)]; [destruct (K (conj K1 K2))|reflexivity].
Qed.
Lemma author_text_det U s full f m l e full' f' m' l' e' : spaces_apart U -> author_text U s full f m l e -> author_text U s full' f' m' l' e' ->
  full = full' /\ f = f' /\ m = m' /\ l = l' /\ e = e'.
Proof.
  intros Sp H H'. pose proof (author_full _ _ _ _ _ _ _ Sp H) as F. rewrite (author_full _ _ _ _ _ _ _ Sp H') in F.
  destruct (author_captures _ _ _ _ _ _ _ H) as (mt & M & C1 & C4 & C23). destruct (author_captures _ _ _ _ _ _ _ H') as (mt' & M' & C1' & C4' & C23'). rewrite M in M'. injection M' as <-.
  rewrite C1 in C1'. injection C1' as ->. rewrite C4 in C4'. rewrite C23 in C23'. split; [auto|]. split; [reflexivity|].
  assert (Y : m <> None -> l <> None) by (destruct H; congruence). assert (Y' : m' <> None -> l' <> None) by (destruct H'; congruence).
  destruct m as [m|], l as [l|], m' as [m'|], l' as [l'|]; try (destruct (Y ltac:(discriminate)); reflexivity); try (destruct (Y' ltac:(discriminate)); reflexivity); try discriminate C23'; try (injection C23' as -> ->); try (injection C23' as ->); auto.
Qed.
Lemma parts_dec U s : (exists full f m l e, author_text U s full f m l e) \/ no_parts U s.
Proof.
  destruct (captures U (AUTHOR U) s) as [mt|] eqn:M; [left; rewrite search_author in M; exact (author_match_inv U s mt M)|]. right. intros full f m l e X. destruct (author_captures _ _ _ _ _ _ _ X) as (mt' & M' & _). congruence.
Qed.
Lemma captures_none U s : no_parts U s -> captures U (AUTHOR U) s = None.
Proof. intros N. destruct (captures U (AUTHOR U) s) as [mt|] eqn:M; [|reflexivity]. rewrite search_author in M. destruct (author_match_inv U s mt M) as (full & f & m & l & e & X). destruct (N _ _ _ _ _ X). Qed.
Lemma names_unbraced U s full f m l e : author_text U s full f m l e -> forall x, x = f \/ m = Some x \/ l = Some x -> ~ In 123%N x.
Proof.
  intros H x Hx. assert (N : a_name U x). { destruct H; destruct Hx as [->|[Hx|Hx]]; try discriminate Hx; try (injection Hx as <-); assumption. }
  apply (name_not U x 123%N N). reflexivity.
Qed.
Lemma bracketed_spec x : has_char 60%N x && has_char 62%N x = true <-> bracketed x.
Proof. rewrite andb_true_iff, !has_char_spec. reflexivity. Qed.
Lemma encode_spec U x : exists n, encode_brackets U x = Ok n /\ used_whole x (single_name n).
Proof.
  unfold encode_brackets, single_name, used_whole, whole. destruct (has_char 60%N x && has_char 62%N x) eqn:E.
  - rewrite apply_special_characters_eq. eexists. split; [reflexivity|]. left. split; [apply bracketed_spec, E|]. rewrite replace_underscores_eq. reflexivity.
  - eexists. split; [reflexivity|]. right. split; [intros K; apply bracketed_spec in K; congruence|]. rewrite replace_underscores_eq. reflexivity.
Qed.
Lemma mk_parts full f (m l e : option text) (x y : option text) : (x, y) = match m, l with Some m, Some l => (Some m, Some l) | None, Some l => (Some l, None) | _, _ => (None, None) end -> (m <> None -> l <> None) ->
  mk_author (spaced full) (spaced f) (option_map replace_underscores x) (option_map replace_underscores y) e = parted full f m l e.
Proof. intros E N. unfold parted. assert (RU : forall o, option_map replace_underscores o = option_map spaced o) by (intros [o|]; cbn; rewrite ?replace_underscores_eq; reflexivity). rewrite !RU. destruct m as [m|], l as [l|]; injection E as -> ->; try reflexivity. destruct (N ltac:(discriminate)); reflexivity. Qed.
Lemma author_parse_sound U P t o : spaces_apart U -> author_parse U t P = Ok o -> author_in U (value_of P) t o.
Proof.
  intros Sp H. pose proof (trim_bare t) as B. unfold author_parse in H. assert (B2 : bare (trim t) (trim t)). { split; [exists [], []; rewrite app_nil_r; repeat split; constructor|exact (proj2 B)]. }
  destruct (trim t) as [|c0 s0] eqn:Es; [apply Ok_inj in H; subst o; apply ai_none; exact B|]. rewrite <- Es in H, B, B2. assert (Ne : trim t <> []) by (rewrite Es; discriminate). clear Es c0 s0. set (s := trim t) in *. clearbody s.
  destruct (is_single_attribute s) eqn:E1.
  - assert (Ct : count_char 123%N s = 1) by (unfold is_single_attribute in E1; rewrite !andb_true_iff, Nat.eqb_eq in E1; tauto). apply single_spec in E1; [|exact B2]. apply bind_ok in H. destruct H as (x & Hx & H). apply Ok_inj in H. subst o. unfold single_name. rewrite replace_underscores_eq. apply (ai_ref U _ t s x B E1).
    apply author_subs_spec in Hx. destruct Hx as (x' & K & [(Sv & _)|(_ & ->)]); [|exact K]. exfalso. apply several_spec in Sv. lia.
  - assert (N1 : ~ lone_ref s) by (intros K; apply single_spec in K; [congruence|exact B2]). destruct (parts_dec U s) as [(full & f & m & l & e & X)|N].
    + destruct (author_captures _ _ _ _ _ _ _ X) as (mt & M & C1 & C4 & C23). rewrite M in H. unfold cap_idx in H. rewrite C1 in H. cbn [of_option bind] in H. pose proof (names_unbraced _ _ _ _ _ _ _ X) as NU.
      rewrite author_subs_plain in H by (apply NU; auto). cbn [bind] in H.
      assert (SO : forall x, x = None \/ x = m \/ x = l -> subs_author_opt U P x = Ok x).
      { intros [x|] Hx; [|reflexivity]. cbn [subs_author_opt]. rewrite author_subs_plain; [reflexivity|]. apply NU. destruct Hx as [Hx|[Hx|Hx]]; [discriminate Hx|auto..]. }
      assert (K2 : cap mt 2 = None \/ cap mt 2 = m \/ cap mt 2 = l) by (destruct m, l; injection C23 as X2 X3; rewrite ?X2, ?X3; auto). assert (K3 : cap mt 3 = None \/ cap mt 3 = m \/ cap mt 3 = l) by (destruct m, l; injection C23 as X2 X3; rewrite ?X2, ?X3; auto).
      rewrite (SO _ K2), (SO _ K3) in H. cbn [bind] in H. rewrite C4 in H. rewrite (author_full _ _ _ _ _ _ _ Sp X), !replace_underscores_eq in H. assert (Ne' : m <> None -> l <> None) by (destruct X; congruence). apply bind_ok in H. destruct H as (e' & He & H).
      rewrite (mk_parts full f m l _ _ _ C23 Ne') in H. apply Ok_inj in H. subst o. apply (ai_parts U _ t s full f m l e e' B N1 X).
      destruct e as [e|]; cbn [subs_author_opt] in He; [|apply Ok_inj in He; subst e'; exact I]. apply bind_ok in He. destruct He as (y & Hy & He). apply Ok_inj in He. subst e'. cbn [filled_opt]. apply author_subs_spec in Hy. exact Hy.
    + rewrite (captures_none U s N) in H. destruct (has_char 123%N s) eqn:Eb.
      * apply has_char_spec in Eb. apply bind_ok in H. destruct H as (x & Hx & H). apply author_subs_spec in Hx. destruct (parts_dec U x) as [(full & f & m & l & e & X)|Nx].
        -- destruct (author_captures _ _ _ _ _ _ _ X) as (mt & M & C1 & C4 & C23). rewrite M in H. unfold cap_idx in H. rewrite C1 in H. cbn [of_option bind] in H. rewrite C4, (author_full _ _ _ _ _ _ _ Sp X), !replace_underscores_eq in H. assert (Ne' : m <> None -> l <> None) by (destruct X; congruence).
           rewrite (mk_parts full f m l _ _ _ C23 Ne') in H. apply Ok_inj in H. subst o. eapply ai_filled; eassumption.
        -- rewrite (captures_none U x Nx) in H. destruct (encode_spec U x) as (n & En & W). rewrite En in H. cbn [bind] in H. apply Ok_inj in H. subst o. eapply ai_other; eassumption.
      * apply has_char_false in Eb. destruct (encode_spec U s) as (n & En & W). rewrite En in H. cbn [bind] in H. apply Ok_inj in H. subst o. eapply ai_whole; eassumption.
Qed.
Lemma filled_det P s y y' : filled (value_of P) s y -> filled (value_of P) s y' -> y = y'.
Proof. intros H H'. apply (author_subs_spec ascii_only) in H, H'. rewrite H in H'. apply Ok_inj in H'. exact H'. Qed.
Lemma expands_det P s y y' : expands (value_of P) s y -> expands (value_of P) s y' -> y = y'.
Proof. intros H H'. apply (apply_attributes_iff ascii_only) in H, H'. rewrite H in H'. apply Ok_inj in H'. exact H'. Qed.
Lemma used_whole_det x a a' : used_whole x a -> used_whole x a' -> a = a'.
Proof. intros [(H & ->)|(H & ->)] [(H' & ->)|(H' & ->)]; try reflexivity; contradiction. Qed.
Lemma author_in_det U P t o o' : spaces_apart U -> author_in U (value_of P) t o -> author_in U (value_of P) t o' -> o = o'.
Proof.
  intros Sp H H'.
  assert (NR : forall s, lone_ref s -> s <> []) by (intros s (m & -> & _); discriminate). assert (RB : forall s, lone_ref s -> In 123%N s) by (intros s (m & -> & _); left; reflexivity).
  assert (NP : forall s full f m l e, author_text U s full f m l e -> s <> []) by (intros; eapply author_nonempty; eassumption).
  assert (NB : forall s, In 123%N s -> s <> []) by (intros s K ->; exact K).
  destruct H as [t B|t s x B R X|t s full f m l e e' B R X F|t s x full f m l e B R N I F X|t s x a B R N I F N2 W|t s a B Ns N I W];
  destruct H' as [t B'|t s' x' B' R' X'|t s' full' f' m' l' e2 e2' B' R' X' F'|t s' x' full' f' m' l' e2 B' R' N' I' F' X'|t s' x' a' B' R' N' I' F' N2' W'|t s' a' B' Ns' N' I' W'];
  apply bare_trim in B, B'; try reflexivity; try (rewrite <- B in B'; subst s'); try subst s;
  try (exfalso; solve [eapply NR; eauto | eapply NP; eauto | eapply NB; eauto | eapply R; eauto | eapply R'; eauto | eapply N; eauto | eapply N'; eauto | apply I; apply RB; assumption | apply I'; apply RB; assumption | contradiction | congruence]).
  all: try (subst s'; exfalso; solve [eapply NR; eauto | eapply NP; eauto | eapply NB; eauto | congruence]).
  - rewrite (expands_det _ _ _ _ X X'). reflexivity.
  - destruct (author_text_det _ _ _ _ _ _ _ _ _ _ _ _ Sp X X') as (-> & -> & -> & -> & ->). do 2 f_equal. destruct e2 as [e2|], e' as [e'|], e2' as [e2'|]; cbn [filled_opt] in F, F'; try contradiction; [|reflexivity]. f_equal. eapply filled_det; eassumption.
  - rewrite (filled_det _ _ _ _ F F') in X. destruct (author_text_det _ _ _ _ _ _ _ _ _ _ _ _ Sp X X') as (-> & -> & -> & -> & ->). reflexivity.
  - rewrite (filled_det _ _ _ _ F F') in X. destruct (N2' _ _ _ _ _ X).
  - rewrite <- (filled_det _ _ _ _ F F') in X'. destruct (N2 _ _ _ _ _ X').
  - rewrite <- (filled_det _ _ _ _ F F') in W'. f_equal. eapply used_whole_det; eassumption.
  - f_equal. eapply used_whole_det; eassumption.
Qed.
