(** Declarative semantics of regular expressions, and the laws of matching and replacing. *)
From Verif Require Import Text TextFacts Regex.

Inductive den (U : unicode) : re -> st -> st -> Prop :=
| d_eps s : den U Eps s s
| d_chr p s c t : s_rest s = c :: t -> p c = true -> den U (Chr p) s (advance s c t)
| d_seq a b s s1 s2 : den U a s s1 -> den U b s1 s2 -> den U (Seq a b) s s2
| d_alt_l a b s s1 : den U a s s1 -> den U (Alt a b) s s1
| d_alt_r a b s s1 : den U b s s1 -> den U (Alt a b) s s1
| d_star_nil g a s : den U (Star g a) s s
| d_star_cons g a s s1 s2 : den U a s s1 -> s_pos s < s_pos s1 -> den U (Star g a) s1 s2 -> den U (Star g a) s s2
| d_grp n a s s1 : den U a s s1 -> den U (Grp n a) s (set_cap n s s1)
| d_assert a s : check U a s = true -> den U (Assert a) s s.

(** States of one text. *)
Definition moves (s s' : st) : Prop :=
  exists a, s_rest s = a ++ s_rest s' /\ s_pos s' = s_pos s + length a /\
    s_prev s' = match a with [] => s_prev s | _ => hd_error (rev a) end.

Lemma moves_refl s : moves s s.
Proof. exists []. repeat split. cbn. lia. Qed.
Lemma moves_trans a b c : moves a b -> moves b c -> moves a c.
Proof.
  intros (x & H1 & H2 & H3) (y & H4 & H5 & H6). exists (x ++ y). split; [rewrite H1, H4, app_assoc; reflexivity|].
  split; [rewrite app_length; lia|]. rewrite H6, H3. rewrite rev_app_distr.
  destruct y as [|y0 y]; [rewrite app_nil_r; destruct x; reflexivity|].
  assert (E : rev (y0 :: y) <> []) by (cbn; destruct (rev y); discriminate).
  destruct (rev (y0 :: y)) as [|z zs] eqn:R; [contradiction|].
  destruct x; cbn; reflexivity.
Qed.
Lemma moves_advance s c t : s_rest s = c :: t -> moves s (advance s c t).
Proof. intros H. exists [c]. cbn. split; [exact H|]. split; [lia|reflexivity]. Qed.
Lemma moves_set_cap n s s1 : moves s s1 -> moves s (set_cap n s s1).
Proof. intros (a & H1 & H2 & H3). exists a. cbn. auto. Qed.

Lemma den_moves U r s s' : den U r s s' -> moves s s'.
Proof.
  induction 1; try apply moves_refl; try assumption.
  - apply moves_advance. assumption.
  - eapply moves_trans; eassumption.
  - eapply moves_trans; eassumption.
Qed.

Lemma moves_length s s' : moves s s' -> s_pos s' + length (s_rest s') = s_pos s + length (s_rest s).
Proof. intros (a & H1 & H2 & _). rewrite H1, app_length. lia. Qed.

(** The loop of a repetition, named. *)
Definition star_loop {A} (body : (st -> option A) -> st -> option A) (g : bool) (k : st -> option A) : nat -> st -> option A :=
  fix loop (n : nat) (s : st) {struct n} : option A :=
  match n with
  | 0 => k s
  | S n' =>
      if g then
        match body (fun s' => if s_pos s <? s_pos s' then loop n' s' else None) s with
        | Some x => Some x
        | None => k s
        end
      else
        match k s with
        | Some x => Some x
        | None => body (fun s' => if s_pos s <? s_pos s' then loop n' s' else None) s
        end
  end.
Lemma star_loop_S {A} (body : (st -> option A) -> st -> option A) g k n s :
  star_loop body g k (S n) s =
  if g then
    match body (fun s' => if s_pos s <? s_pos s' then star_loop body g k n s' else None) s with
    | Some x => Some x
    | None => k s
    end
  else
    match k s with
    | Some x => Some x
    | None => body (fun s' => if s_pos s <? s_pos s' then star_loop body g k n s' else None) s
    end.
Proof. reflexivity. Qed.
Lemma rmatch_star {A} U g a (k : st -> option A) s :
  rmatch U (Star g a) k s = star_loop (rmatch U a) g k (S (length (s_rest s))) s.
Proof. reflexivity. Qed.

Lemma rmatch_sound {A} U r : forall (k : st -> option A) s x, rmatch U r k s = Some x -> exists s', den U r s s' /\ k s' = Some x.
Proof.
  induction r as [|p|a IHa b IHb|a IHa b IHb|g a IHa|n a IHa|a]; intros k s x H.
  - exists s. split; [constructor|exact H].
  - cbn in H. destruct (s_rest s) as [|c t] eqn:E; [discriminate|]. destruct (p c) eqn:Ep; [|discriminate].
    eexists. split; [apply d_chr; eassumption|exact H].
  - cbn in H. apply IHa in H. destruct H as (s1 & D1 & H). apply IHb in H. destruct H as (s2 & D2 & H).
    exists s2. split; [econstructor; eassumption|exact H].
  - cbn in H. destruct (rmatch U a k s) eqn:E.
    + injection H as <-. apply IHa in E. destruct E as (s1 & D & E). exists s1. split; [apply d_alt_l, D|exact E].
    + apply IHb in H. destruct H as (s1 & D & H). exists s1. split; [apply d_alt_r, D|exact H].
  - rewrite rmatch_star in H. remember (S (length (s_rest s))) as n eqn:En. clear En. revert s H.
    induction n as [|n IHn]; intros s H; [exists s; split; [constructor|exact H]|].
    rewrite star_loop_S in H. destruct g.
    + destruct (rmatch U a _ s) eqn:E.
      * injection H as <-. apply IHa in E. destruct E as (s1 & D & E). destruct (s_pos s <? s_pos s1) eqn:L; [|discriminate].
        apply IHn in E. destruct E as (s2 & D2 & E). exists s2. split; [|exact E].
        eapply d_star_cons; [exact D|lia|exact D2].
      * exists s. split; [constructor|exact H].
    + destruct (k s) eqn:E.
      * injection H as <-. exists s. split; [constructor|exact E].
      * apply IHa in H. destruct H as (s1 & D & H). destruct (s_pos s <? s_pos s1) eqn:L; [|discriminate].
        apply IHn in H. destruct H as (s2 & D2 & H). exists s2. split; [|exact H].
        eapply d_star_cons; [exact D|lia|exact D2].
  - cbn in H. apply IHa in H. destruct H as (s1 & D & H). eexists. split; [constructor; exact D|exact H].
  - cbn in H. destruct (check U a s) eqn:E; [|discriminate]. exists s. split; [constructor; exact E|exact H].
Qed.

Lemma den_star_ind' U g a (P : st -> st -> Prop) :
  (forall s, P s s) ->
  (forall s s1 s2, den U a s s1 -> s_pos s < s_pos s1 -> den U (Star g a) s1 s2 -> P s1 s2 -> P s s2) ->
  forall s s', den U (Star g a) s s' -> P s s'.
Proof.
  intros H1 H2 s s' D. remember (Star g a) as r eqn:E. revert E. induction D; intros E; try discriminate E.
  - apply H1.
  - injection E as -> ->. eapply H2; eauto.
Qed.

Lemma rmatch_complete {A} U r : forall (k : st -> option A) s s',
  den U r s s' -> k s' <> None -> rmatch U r k s <> None.
Proof.
  induction r as [|p|a IHa b IHb|a IHa b IHb|g a IHa|n a IHa|a]; intros k s s' D H.
  - inversion D; subst. exact H.
  - inversion D as [|? ? c t Hr Hp| | | | | | |]; subst. cbn [rmatch]. rewrite Hr, Hp. exact H.
  - inversion D; subst. cbn. eapply IHa; [eassumption|]. eapply IHb; eassumption.
  - cbn. destruct (rmatch U a k s) eqn:E; [discriminate|]. inversion D; subst.
    + exfalso. eapply IHa; eassumption.
    + eapply IHb; eassumption.
  - rewrite rmatch_star. assert (L : length (s_rest s) < S (length (s_rest s))) by lia. revert L.
    generalize (S (length (s_rest s))) as n. revert H. pattern s, s'. eapply den_star_ind'; [| |exact D].
    + intros s0 H [|n] L; [lia|]. rewrite star_loop_S. destruct g.
      * destruct (rmatch U a _ s0); [discriminate|exact H].
      * destruct (k s0); [discriminate|contradiction].
    + intros s0 s1 s2 D1 Hlt D2 IH H [|n] L; [lia|]. rewrite star_loop_S.
      assert (R : rmatch U a (fun s'0 => if s_pos s0 <? s_pos s'0 then star_loop (rmatch U a) g k n s'0 else None) s0 <> None).
      { eapply IHa; [exact D1|]. destruct (s_pos s0 <? s_pos s1) eqn:E; [|lia]. apply IH; [exact H|].
        pose proof (moves_length _ _ (den_moves _ _ _ _ D1)). lia. }
      destruct g.
      * destruct (rmatch U a _ s0); [discriminate|contradiction].
      * destruct (k s0); [discriminate|exact R].
  - inversion D; subst. cbn. eapply IHa; [eassumption|]. exact H.
  - inversion D as [| | | | | | | |? ? Hc]; subst. cbn. rewrite Hc. exact H.
Qed.

(** Match at a position. *)
Lemma firstn_len {A} (a b : list A) : firstn (length a) (a ++ b) = a.
Proof. rewrite firstn_app, firstn_all, Nat.sub_diag. cbn. apply app_nil_r. Qed.

Lemma match_here_sound U r prev t m : match_here U r prev t = Some m ->
  exists s', den U r (mkst 0 prev t []) s' /\ t = m_text m ++ m_after m /\ m_after m = s_rest s' /\ m_caps m = s_caps s' /\
    m_prev m = s_prev s' /\ length (m_text m) = s_pos s' /\
    m_prev m = match m_text m with [] => prev | _ => hd_error (rev (m_text m)) end.
Proof.
  intros H. apply rmatch_sound in H. destruct H as (s' & D & H). injection H as <-. exists s'. cbn [m_text m_after m_caps m_prev].
  destruct (den_moves _ _ _ _ D) as (a & H1 & H2 & H3). cbn in H1, H2, H3.
  assert (E : firstn (s_pos s') t = a) by (rewrite H1, H2; apply firstn_len). rewrite E.
  repeat split; auto.
Qed.

Lemma match_here_none U r prev t s' : match_here U r prev t = None -> ~ den U r (mkst 0 prev t []) s'.
Proof. intros H D. unfold match_here in H. eapply rmatch_complete in H; [exact H|exact D|discriminate]. Qed.

Lemma match_here_some U r prev t s' : den U r (mkst 0 prev t []) s' -> exists m, match_here U r prev t = Some m.
Proof. intros D. destruct (match_here U r prev t) eqn:E; [eexists; reflexivity|]. exfalso. eapply match_here_none; eassumption. Qed.

(** Leftmost search. *)
Definition prev_of (prev : option char) (a : text) : option char := match a with [] => prev | _ => hd_error (rev a) end.
Lemma prev_of_cons prev c a : prev_of (Some c) a = prev_of prev (c :: a).
Proof. unfold prev_of. destruct a as [|x a]; [reflexivity|]. cbn [rev]. destruct (rev a ++ [x]) eqn:E; [destruct (rev a); discriminate|]. reflexivity. Qed.
Lemma prev_of_app prev a b : prev_of (prev_of prev a) b = prev_of prev (a ++ b).
Proof. revert prev. induction a as [|c a IH]; intros prev; [reflexivity|]. rewrite <- prev_of_cons, IH. rewrite prev_of_cons with (prev := prev). reflexivity. Qed.

Lemma search_sound U r t : forall prev p m, search U r prev t = Some (p, m) ->
  t = p ++ m_text m ++ m_after m /\
  match_here U r (prev_of prev p) (m_text m ++ m_after m) = Some m /\
  (forall a b, p = a ++ b -> b <> [] -> match_here U r (prev_of prev a) (b ++ m_text m ++ m_after m) = None).
Proof.
  induction t as [|c t IH]; intros prev p m H; cbn [search] in H.
  - destruct (match_here U r prev []) eqn:E; [|discriminate]. injection H as <- <-.
    destruct (match_here_sound _ _ _ _ _ E) as (s' & _ & Ht & _). split; [exact Ht|]. cbn [prev_of]. rewrite <- Ht. split; [exact E|].
    intros a b Hab Hb. symmetry in Hab. apply app_eq_nil in Hab. destruct Hab; contradiction.
  - destruct (match_here U r prev (c :: t)) eqn:E.
    + injection H as <- <-. destruct (match_here_sound _ _ _ _ _ E) as (s' & _ & Ht & _). split; [exact Ht|]. cbn [prev_of]. rewrite <- Ht.
      split; [exact E|]. intros a b Hab Hb. symmetry in Hab. apply app_eq_nil in Hab. destruct Hab; contradiction.
    + destruct (search U r (Some c) t) as [[p' m']|] eqn:Es; [|discriminate]. injection H as <- <-.
      apply IH in Es. destruct Es as (H1 & H2 & H3). split; [rewrite H1 at 1; reflexivity|].
      rewrite <- prev_of_cons. split; [exact H2|]. intros a b Hab Hb. destruct a as [|c' a].
      * cbn in Hab. subst b. cbn [prev_of app]. rewrite <- H1. exact E.
      * cbn in Hab. injection Hab as <- Hab. rewrite <- prev_of_cons. apply H3; assumption.
Qed.

Lemma search_none U r t : forall prev, search U r prev t = None ->
  forall a b, t = a ++ b -> match_here U r (prev_of prev a) b = None.
Proof.
  induction t as [|c t IH]; intros prev H a b Hab; cbn [search] in H.
  - symmetry in Hab. apply app_eq_nil in Hab. destruct Hab as [-> ->]. cbn. destruct (match_here U r prev []); [discriminate|reflexivity].
  - destruct (match_here U r prev (c :: t)) eqn:E; [discriminate|].
    destruct (search U r (Some c) t) as [[p' m']|] eqn:Es; [discriminate|].
    destruct a as [|c' a]; cbn in Hab; [subst b; exact E|]. injection Hab as <- Hab. rewrite <- prev_of_cons. apply IH; assumption.
Qed.

(** The first position where there is a match is the one found. *)
Lemma search_first U r prev a b m :
  match_here U r (prev_of prev a) b = Some m ->
  (forall x y, a = x ++ y -> y <> [] -> match_here U r (prev_of prev x) (y ++ b) = None) ->
  search U r prev (a ++ b) = Some (a, m).
Proof.
  revert prev. induction a as [|c a IH]; intros prev H Hn.
  - cbn [app]. cbn [prev_of] in H. destruct b; cbn [search]; rewrite H; reflexivity.
  - cbn [app search]. assert (Hn0 : match_here U r prev (c :: a ++ b) = None) by (apply (Hn [] (c :: a) eq_refl); discriminate). rewrite Hn0, IH.
    + reflexivity.
    + rewrite prev_of_cons with (prev := prev). exact H.
    + intros x y Hxy Hy. rewrite prev_of_cons with (prev := prev). apply Hn; [rewrite Hxy; reflexivity|exact Hy].
Qed.

(** Successive matches: the segments partition the text, in order. *)
Definition seg_text (l : list (text * mtch)) : text := concat (map (fun pm => fst pm ++ m_text (snd pm)) l).
Lemma find_all_go_partition fuel U r : forall ne prev t l e,
  find_all_go fuel U r ne prev t = (l, e) -> t = seg_text l ++ e.
Proof.
  induction fuel as [|f IH]; intros ne prev t l e H; cbn [find_all_go] in H; [injection H as <- <-; reflexivity|].
  destruct (search U r prev t) as [[p m]|] eqn:Es; [|injection H as <- <-; reflexivity].
  destruct (ne && _).
  - destruct t as [|c t]; [injection H as <- <-; reflexivity|].
    destruct (find_all_go f U r false (Some c) t) as [[|[p' m'] l'] e'] eqn:Ef; injection H as <- <-;
      apply IH in Ef; rewrite Ef at 1; reflexivity.
  - destruct (find_all_go f U r true (m_prev m) (m_after m)) as [l' e'] eqn:Ef. injection H as <- <-.
    apply IH in Ef. apply search_sound in Es. destruct Es as (H1 & _). rewrite H1, Ef at 1.
    unfold seg_text. cbn [map concat fst snd]. rewrite !app_assoc. reflexivity.
Qed.
Lemma find_all_partition U r h l e : find_all U r h = (l, e) -> h = seg_text l ++ e.
Proof. apply find_all_go_partition. Qed.

(** [r] matches no empty text. *)
Definition never_empty (U : unicode) (r : re) : Prop :=
  forall prev t m, match_here U r prev t = Some m -> m_text m <> [].

(** Declarative description of the successive matches of a pattern that matches no empty text. *)
Inductive segmented (U : unicode) (r : re) : option char -> text -> list (text * mtch) -> text -> Prop :=
| seg_end prev t : (forall a b, t = a ++ b -> match_here U r (prev_of prev a) b = None) -> segmented U r prev t [] t
| seg_cons prev p m l e :
    match_here U r (prev_of prev p) (m_text m ++ m_after m) = Some m ->
    (forall a b, p = a ++ b -> b <> [] -> match_here U r (prev_of prev a) (b ++ m_text m ++ m_after m) = None) ->
    segmented U r (prev_of prev (p ++ m_text m)) (m_after m) l e ->
    segmented U r prev (p ++ m_text m ++ m_after m) ((p, m) :: l) e.

Lemma find_all_go_segmented U r (NE : never_empty U r) fuel : forall ne prev t, length t < fuel ->
  segmented U r prev t (fst (find_all_go fuel U r ne prev t)) (snd (find_all_go fuel U r ne prev t)).
Proof.
  induction fuel as [|f IH]; intros ne prev t L; [lia|]. cbn [find_all_go].
  destruct (search U r prev t) as [[p m]|] eqn:Es.
  - apply search_sound in Es. destruct Es as (H1 & H2 & H3).
    pose proof (NE _ _ _ H2) as Hne.
    assert (Hb : ne && match p, m_text m with [], [] => true | _, _ => false end = false).
    { destruct ne; [|reflexivity]. destruct p, (m_text m); try reflexivity. contradiction. }
    rewrite Hb.
    assert (Lm : length (m_after m) < f).
    { rewrite H1 in L. rewrite !app_length in L. destruct (m_text m); [contradiction|]. cbn in L. lia. }
    specialize (IH true (m_prev m) (m_after m) Lm). destruct (find_all_go f U r true (m_prev m) (m_after m)) as [l e]. cbn [fst snd] in *.
    rewrite H1. constructor; [exact H2|exact H3|].
    destruct (match_here_sound _ _ _ _ _ H2) as (s' & _ & _ & _ & _ & _ & _ & Hp).
    rewrite <- prev_of_app. change (m_prev m = prev_of (prev_of prev p) (m_text m)) in Hp. rewrite <- Hp. exact IH.
  - cbn [fst snd]. constructor. intros a b. apply search_none, Es.
Qed.
Lemma find_all_segmented U r h : never_empty U r ->
  segmented U r None h (fst (find_all U r h)) (snd (find_all U r h)).
Proof. intros NE. apply find_all_go_segmented; [exact NE|lia]. Qed.

Lemma segmented_text U r prev t l e : segmented U r prev t l e -> t = seg_text l ++ e.
Proof.
  induction 1; [reflexivity|]. rewrite IHsegmented at 1. unfold seg_text. cbn [map concat fst snd]. rewrite !app_assoc. reflexivity.
Qed.

(** Segmentation is determined by the text. *)
Lemma segmented_det U r prev t l e : segmented U r prev t l e -> forall l' e', segmented U r prev t l' e' -> l = l' /\ e = e'.
Proof.
  induction 1 as [prev t Hn|prev p m l e Hm Hf Hs IH]; intros l' e' H'.
  - inversion H'; subst.
    + auto.
    + exfalso. rewrite (Hn p (m_text m ++ m_after m) eq_refl) in H. discriminate H.
  - remember (p ++ m_text m ++ m_after m) as t eqn:Et. inversion H' as [? ? Hn|? p' m' l1 e1 Hm' Hf' Hs']; subst.
    + exfalso. rewrite (Hn p _ eq_refl) in Hm. discriminate Hm.
    + pose proof (search_first U r prev p _ m Hm Hf) as S1. pose proof (search_first U r prev p' _ m' Hm' Hf') as S2.
      rewrite H0 in S2. rewrite S1 in S2. injection S2 as <- <-. destruct (IH _ _ Hs') as [-> ->]. auto.
Qed.

Lemma find_all_unique U r h l e : never_empty U r -> segmented U r None h l e -> find_all U r h = (l, e).
Proof.
  intros NE S. pose proof (find_all_segmented U r h NE) as S0. destruct (find_all U r h) as [l0 e0]. cbn [fst snd] in S0.
  destruct (segmented_det _ _ _ _ _ _ S0 _ _ S) as [-> ->]. reflexivity.
Qed.

(** Replacement with a pure replacer. *)
Fixpoint rmap_all {A B} (f : A -> res B) (l : list A) : res (list B) :=
  match l with [] => Ok [] | a :: r => b <- f a ;; bs <- rmap_all f r ;; Ok (b :: bs) end.
Definition fill (l : list (text * mtch)) (reps : list text) (e : text) : text :=
  concat (map (fun x => fst (fst x) ++ snd x) (combine l reps)) ++ e.
Lemma replace_fold_pure (rep : mtch -> res text) l : forall dest,
  replace_fold (fun (s : unit) m d => t <- rep m ;; Ok (s, d ++ t)) l tt dest =
  (ts <- rmap_all (fun pm => rep (snd pm)) l ;; Ok (tt, dest ++ concat (map (fun x => fst (fst x) ++ snd x) (combine l ts)))).
Proof.
  induction l as [|[p m] l IH]; intros dest; [cbn; rewrite app_nil_r; reflexivity|].
  cbn [replace_fold rmap_all snd]. destruct (rep m) as [t| |]; try reflexivity. cbn [bind fst snd]. rewrite IH.
  destruct (rmap_all _ l) as [ts| |]; try reflexivity. cbn [bind combine map concat fst snd]. rewrite !app_assoc. reflexivity.
Qed.
Lemma replace_all_pure_eq U r rep h :
  replace_all_pure U r rep h =
  let '(l, e) := find_all U r h in (ts <- rmap_all (fun pm => rep (snd pm)) l ;; Ok (fill l ts e)).
Proof.
  unfold replace_all_pure, replace_all. pose proof (find_all_partition U r h) as P. destruct (find_all U r h) as [[|pm l] e].
  - cbn. unfold fill. cbn. rewrite (P [] e eq_refl). reflexivity.
  - rewrite replace_fold_pure. destruct (rmap_all _ (pm :: l)) as [ts| |]; reflexivity.
Qed.
