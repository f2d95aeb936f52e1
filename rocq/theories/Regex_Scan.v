(** Scanner form of [replace_all] for patterns that match no empty text, and closed forms of the
    matcher on repetitions of one character class. *)
From Verif Require Import Text TextFacts Regex Regex_Proof.

(** Left-to-right scanning: at each position either the pattern matches and the match is replaced,
    or the character is copied. *)
Inductive scans (U : unicode) (r : re) (rep : mtch -> res text) : option char -> text -> text -> Prop :=
| sc_end prev : match_here U r prev [] = None -> scans U r rep prev [] []
| sc_skip prev c t o : match_here U r prev (c :: t) = None -> scans U r rep (Some c) t o -> scans U r rep prev (c :: t) (c :: o)
| sc_match prev t m x o : match_here U r prev t = Some m -> rep m = Ok x -> scans U r rep (m_prev m) (m_after m) o ->
    scans U r rep prev t (x ++ o).

Lemma fill_cons p m l x ts e : fill ((p, m) :: l) (x :: ts) e = p ++ x ++ fill l ts e.
Proof. unfold fill. cbn [combine map concat fst snd]. rewrite !app_assoc. reflexivity. Qed.

Lemma match_here_text U r prev t m : match_here U r prev t = Some m -> t = m_text m ++ m_after m /\ m_prev m = prev_of prev (m_text m).
Proof. intros H. apply match_here_sound in H. destruct H as (s' & _ & H1 & _ & _ & _ & _ & H2). split; assumption. Qed.

Lemma scans_segmented U r rep prev t o : scans U r rep prev t o ->
  exists l e ts, segmented U r prev t l e /\ rmap_all (fun pm => rep (snd pm)) l = Ok ts /\ o = fill l ts e.
Proof.
  induction 1 as [prev Hn|prev c t o Hn Hs IH|prev t m x o Hm Hx Hs IH].
  - exists [], [], []. split; [|split; reflexivity]. constructor. intros a b Hab. symmetry in Hab.
    apply app_eq_nil in Hab. destruct Hab as [-> ->]. exact Hn.
  - destruct IH as (l & e & ts & S & R & ->). inversion S as [? ? Hnone|? p m l1 e1 Hm Hf Hs1]; subst.
    + exists [], (c :: e), []. split; [|split; reflexivity]. constructor. intros [|c' a] b Hab; cbn in Hab; [subst b; exact Hn|].
      injection Hab as <- Hab. rewrite <- prev_of_cons. apply Hnone, Hab.
    + exists ((c :: p, m) :: l1), e, ts. split; [|split].
      * change (c :: p ++ m_text m ++ m_after m) with ((c :: p) ++ m_text m ++ m_after m). constructor.
        -- rewrite <- prev_of_cons. exact Hm.
        -- intros [|c' a] b Hab Hb; cbn in Hab; [subst b; exact Hn|]. injection Hab as <- Hab. rewrite <- prev_of_cons. apply Hf; assumption.
        -- cbn [app]. rewrite <- prev_of_cons. exact Hs1.
      * exact R.
      * cbn [rmap_all snd] in R. destruct (rep m) as [y| |]; try discriminate R. cbn [bind] in R.
        destruct (rmap_all _ l1) as [ys| |]; try discriminate R. injection R as <-. rewrite !fill_cons. reflexivity.
  - destruct IH as (l & e & ts & S & R & ->). destruct (match_here_text _ _ _ _ _ Hm) as [Ht Hp].
    exists (([], m) :: l), e, (x :: ts). split; [|split].
    + rewrite Ht. change (m_text m ++ m_after m) with ([] ++ m_text m ++ m_after m). constructor.
      * cbn [prev_of]. rewrite <- Ht. exact Hm.
      * intros a b Hab Hb. symmetry in Hab. apply app_eq_nil in Hab. destruct Hab; contradiction.
      * cbn [app]. rewrite <- Hp. exact S.
    + cbn [rmap_all snd]. rewrite Hx. cbn [bind]. rewrite R. reflexivity.
    + rewrite fill_cons. reflexivity.
Qed.

Lemma scans_skip_all U r rep p : forall prev t o,
  (forall a b, p = a ++ b -> b <> [] -> match_here U r (prev_of prev a) (b ++ t) = None) ->
  scans U r rep (prev_of prev p) t o -> scans U r rep prev (p ++ t) (p ++ o).
Proof.
  induction p as [|c p IH]; intros prev t o Hn S; [exact S|]. cbn [app]. apply sc_skip.
  - apply (Hn [] (c :: p) eq_refl). discriminate.
  - apply IH; [|rewrite <- prev_of_cons in S; exact S]. intros a b Hab Hb. rewrite prev_of_cons with (prev := prev). apply Hn; [rewrite Hab; reflexivity|exact Hb].
Qed.

Lemma segmented_scans U r rep prev t l e : segmented U r prev t l e -> forall ts,
  rmap_all (fun pm => rep (snd pm)) l = Ok ts -> scans U r rep prev t (fill l ts e).
Proof.
  induction 1 as [prev t Hn|prev p m l e Hm Hf Hs IH]; intros ts R.
  - cbn in R. injection R as <-. unfold fill. cbn. revert prev Hn. induction t as [|c t IHt]; intros prev Hn.
    + constructor. apply (Hn [] [] eq_refl).
    + apply sc_skip; [apply (Hn [] _ eq_refl)|]. apply IHt. intros a b Hab. rewrite prev_of_cons with (prev := prev). apply Hn. rewrite Hab. reflexivity.
  - cbn [rmap_all snd] in R. destruct (rep m) as [x| |] eqn:Ex; try discriminate R. cbn [bind] in R.
    destruct (rmap_all _ l) as [ys| |] eqn:Ey; try discriminate R. injection R as <-. rewrite fill_cons.
    apply scans_skip_all; [exact Hf|]. eapply sc_match; [exact Hm|exact Ex|].
    destruct (match_here_text _ _ _ _ _ Hm) as [_ Hp]. rewrite Hp, prev_of_app. apply IH. reflexivity.
Qed.

(** [replace_all] is the scanner. *)
Lemma replace_all_pure_scans U r rep h o : never_empty U r ->
  (replace_all_pure U r rep h = Ok o <-> scans U r rep None h o).
Proof.
  intros NE. rewrite replace_all_pure_eq. pose proof (find_all_segmented U r h NE) as S. destruct (find_all U r h) as [l e]. cbn [fst snd] in S. split.
  - intros H. destruct (rmap_all _ l) as [ts| |] eqn:R; try discriminate H. cbn [bind] in H. apply (f_equal (fun x => match x with Ok y => y | _ => o end)) in H.
    subst o. eapply segmented_scans; eassumption.
  - intros Sc. apply scans_segmented in Sc. destruct Sc as (l' & e' & ts & S' & R & ->).
    destruct (segmented_det _ _ _ _ _ _ S _ _ S') as [<- <-]. rewrite R. reflexivity.
Qed.

Lemma rmap_all_total {A B} (f : A -> res B) (g : A -> B) l : (forall a, f a = Ok (g a)) -> rmap_all f l = Ok (map g l).
Proof. intros H. induction l as [|a l IH]; [reflexivity|]. cbn. rewrite H, IH. reflexivity. Qed.
Lemma rmap_all_ok {A B} (f : A -> res B) l : (forall a, In a l -> exists b, f a = Ok b) -> exists bs, rmap_all f l = Ok bs.
Proof.
  induction l as [|a l IH]; intros H; [exists []; reflexivity|]. destruct (H a (or_introl eq_refl)) as [b Hb].
  destruct IH as [bs Hbs]; [intros x Hx; apply H; right; exact Hx|]. exists (b :: bs). cbn. rewrite Hb, Hbs. reflexivity.
Qed.

(** Every match reported by [find_all] is a match somewhere in the text. *)
Lemma segmented_matches U r prev t l e : segmented U r prev t l e -> forall p m, In (p, m) l ->
  exists pv x, match_here U r pv x = Some m.
Proof.
  induction 1 as [|prev p m l e Hm Hf Hs IH]; intros q n Hin; [destruct Hin|]. destruct Hin as [E|Hin].
  - injection E as <- <-. eauto.
  - eapply IH, Hin.
Qed.
Lemma find_all_go_matches U r fuel : forall ne prev t l e p m, find_all_go fuel U r ne prev t = (l, e) -> In (p, m) l ->
  exists pv x, match_here U r pv x = Some m.
Proof.
  induction fuel as [|f IH]; intros ne prev t l e p m H Hin; cbn [find_all_go] in H; [injection H as <- <-; destruct Hin|].
  destruct (search U r prev t) as [[q n]|] eqn:Es; [|injection H as <- <-; destruct Hin].
  destruct (ne && _).
  - destruct t as [|c t]; [injection H as <- <-; destruct Hin|].
    destruct (find_all_go f U r false (Some c) t) as [[|[p' m'] l'] e'] eqn:Ef; injection H as <- <-; [destruct Hin|].
    destruct Hin as [E|Hin]; [injection E as <- <-; eapply IH; [exact Ef|left; reflexivity]|]. eapply IH; [exact Ef|right; exact Hin].
  - destruct (find_all_go f U r true (m_prev n) (m_after n)) as [l' e'] eqn:Ef. injection H as <- <-. destruct Hin as [E|Hin].
    + injection E as <- <-. apply search_sound in Es. destruct Es as (_ & Hm & _). eauto.
    + eapply IH; eassumption.
Qed.
(** If the replacer never fails on a match, [replace_all] succeeds. *)
Lemma replace_all_pure_ok U r rep h :
  (forall pv x m, match_here U r pv x = Some m -> exists t, rep m = Ok t) -> exists o, replace_all_pure U r rep h = Ok o.
Proof.
  intros H. rewrite replace_all_pure_eq. destruct (find_all U r h) as [l e] eqn:Ef.
  destruct (rmap_all_ok (fun pm => rep (snd pm)) l) as [ts Hts].
  - intros [p m] Hin. destruct (find_all_go_matches _ _ _ _ _ _ _ _ _ _ Ef Hin) as (pv & x & Hm). apply (H _ _ _ Hm).
  - exists (fill l ts e). cbv beta in Hts. rewrite Hts. reflexivity.
Qed.

(** A scan has one result. *)
Lemma scans_det U r rep prev t o : scans U r rep prev t o -> forall o', scans U r rep prev t o' -> o = o'.
Proof.
  induction 1 as [prev Hn|prev c t o Hn Hs IH|prev t m x o Hm Hx Hs IH]; intros o' H'.
  - inversion H' as [| |? ? m x o1 Hm _ _]; [reflexivity|congruence].
  - inversion H' as [|? ? ? o1 _ Hs1|? ? m x o1 Hm _ _]; [f_equal; apply IH, Hs1|congruence].
  - inversion H' as [? Hn|? ? ? o1 Hn _|? ? m' x' o1 Hm' Hx' Hs']; subst; try congruence.
    rewrite Hm in Hm'. injection Hm' as <-. rewrite Hx in Hx'. apply (f_equal (fun r => match r with Ok y => y | _ => x end)) in Hx'. subst x'. f_equal. apply IH, Hs'.
Qed.

(** ** Closed forms *)
(** The state [n] characters further. *)
Definition jump (s : st) (n : nat) : st :=
  mkst (s_pos s + n) (prev_of (s_prev s) (firstn n (s_rest s))) (skipn n (s_rest s)) (s_caps s).
Fixpoint first_some {B A} (f : B -> option A) (l : list B) : option A :=
  match l with [] => None | b :: r => match f b with Some x => Some x | None => first_some f r end end.
Lemma first_some_app {B A} (f : B -> option A) l1 l2 :
  first_some f (l1 ++ l2) = match first_some f l1 with Some x => Some x | None => first_some f l2 end.
Proof. induction l1 as [|b l1 IH]; [reflexivity|]. cbn. destruct (f b); [reflexivity|exact IH]. Qed.
Lemma first_some_map {C B A} (g : C -> B) (f : B -> option A) l : first_some f (map g l) = first_some (fun c => f (g c)) l.
Proof. induction l as [|c l IH]; [reflexivity|]. cbn. destruct (f (g c)); [reflexivity|exact IH]. Qed.
Lemma first_some_ext {B A} (f g : B -> option A) l : (forall b, In b l -> f b = g b) -> first_some f l = first_some g l.
Proof.
  induction l as [|b l IH]; intros H; [reflexivity|]. cbn. rewrite (H b (or_introl eq_refl)), IH; [reflexivity|].
  intros x Hx. apply H. right. exact Hx.
Qed.
Lemma first_some_none {B A} (f : B -> option A) l : (forall b, In b l -> f b = None) -> first_some f l = None.
Proof. induction l as [|b l IH]; intros H; [reflexivity|]. cbn. rewrite (H b (or_introl eq_refl)). apply IH. intros x Hx. apply H. right. exact Hx. Qed.
Lemma first_some_in {B A} (f : B -> option A) l x : first_some f l = Some x -> exists b, In b l /\ f b = Some x.
Proof.
  induction l as [|b l IH]; intros H; [discriminate|]. cbn in H. destruct (f b) eqn:E.
  - injection H as ->. exists b. split; [left; reflexivity|exact E].
  - destruct (IH H) as (y & Hy & Ey). exists y. split; [right; exact Hy|exact Ey].
Qed.

Lemma jump_0 s : jump s 0 = s.
Proof. destruct s. unfold jump. cbn. rewrite Nat.add_0_r. reflexivity. Qed.
Lemma jump_S s c t n : s_rest s = c :: t -> jump (advance s c t) n = jump s (S n).
Proof.
  intros H. unfold jump, advance. cbn [s_pos s_prev s_rest s_caps]. rewrite H. cbn [firstn skipn]. f_equal; [lia|]. apply prev_of_cons.
Qed.

Definition run_len (p : char -> bool) (t : text) : nat := length (fst (span_while p t)).
Lemma run_len_cons p c t : run_len p (c :: t) = if p c then S (run_len p t) else 0.
Proof. unfold run_len. cbn. destruct (p c); [|reflexivity]. destruct (span_while p t). reflexivity. Qed.

Lemma star_loop_chr_greedy {A} U p (k : st -> option A) : forall n s, length (s_rest s) < n ->
  star_loop (rmatch U (Chr p)) true k n s = first_some (fun i => k (jump s i)) (rev (seq 0 (S (run_len p (s_rest s))))).
Proof.
  induction n as [|n IH]; intros s L; [lia|]. rewrite star_loop_S. cbn [rmatch]. destruct (s_rest s) as [|c t] eqn:E.
  - cbn. rewrite jump_0. destruct (k s); reflexivity.
  - rewrite run_len_cons. destruct (p c) eqn:Ep.
    + assert (Hlt : s_pos s <? s_pos (advance s c t) = true) by (apply Nat.ltb_lt; cbn; lia). rewrite Hlt.
      rewrite IH by (cbn; cbn in L; lia). cbn [s_rest advance].
      change (seq 0 (S (S (run_len p t)))) with (0 :: seq 1 (S (run_len p t))).
      cbn [rev]. rewrite first_some_app. rewrite <- seq_shift, <- map_rev, first_some_map.
      rewrite (first_some_ext (fun c0 => k (jump s (S c0))) (fun i => k (jump (advance s c t) i))) by (intros b _; rewrite (jump_S _ _ _ _ E); reflexivity).
      destruct (first_some _ _); [reflexivity|]. cbn. rewrite jump_0. destruct (k s); reflexivity.
    + cbn. rewrite jump_0. destruct (k s); reflexivity.
Qed.
Lemma rmatch_many_chr {A} U p (k : st -> option A) s :
  rmatch U (Many (Chr p)) k s = first_some (fun i => k (jump s i)) (rev (seq 0 (S (run_len p (s_rest s))))).
Proof. unfold Many. rewrite rmatch_star. apply star_loop_chr_greedy. lia. Qed.

Lemma star_loop_chr_lazy {A} U p (k : st -> option A) : forall n s, length (s_rest s) < n ->
  star_loop (rmatch U (Chr p)) false k n s = first_some (fun i => k (jump s i)) (seq 0 (S (run_len p (s_rest s)))).
Proof.
  induction n as [|n IH]; intros s L; [lia|]. rewrite star_loop_S. cbn [rmatch]. destruct (s_rest s) as [|c t] eqn:E.
  - cbn. rewrite jump_0. destruct (k s); reflexivity.
  - rewrite run_len_cons. destruct (p c) eqn:Ep.
    + assert (Hlt : s_pos s <? s_pos (advance s c t) = true) by (apply Nat.ltb_lt; cbn; lia). rewrite Hlt.
      rewrite IH by (cbn; cbn in L; lia). cbn [s_rest advance].
      change (seq 0 (S (S (run_len p t)))) with (0 :: seq 1 (S (run_len p t))). cbn [first_some].
      rewrite jump_0. destruct (k s); [reflexivity|]. rewrite <- seq_shift, first_some_map.
      apply first_some_ext. intros b _. rewrite (jump_S _ _ _ _ E). reflexivity.
    + cbn. rewrite jump_0. destruct (k s); reflexivity.
Qed.
Lemma rmatch_manyl_chr {A} U p (k : st -> option A) s :
  rmatch U (ManyL (Chr p)) k s = first_some (fun i => k (jump s i)) (seq 0 (S (run_len p (s_rest s)))).
Proof. unfold ManyL. rewrite rmatch_star. apply star_loop_chr_lazy. lia. Qed.

(** Greedy repetition whose continuation cannot succeed inside the run: only the longest run counts. *)
Lemma rmatch_many_chr_longest {A} U p (k : st -> option A) s :
  (forall i, i < run_len p (s_rest s) -> k (jump s i) = None) ->
  rmatch U (Many (Chr p)) k s = k (jump s (run_len p (s_rest s))).
Proof.
  intros H. rewrite rmatch_many_chr. rewrite seq_S, rev_app_distr. cbn [app rev first_some]. cbn [Nat.add].
  destruct (k (jump s (run_len p (s_rest s)))); [reflexivity|]. apply first_some_none.
  intros b Hb. apply in_rev, in_seq in Hb. apply H. lia.
Qed.

Lemma lit_rmatch {A} U (w : text) (k : st -> option A) : forall s, w <> [] ->
  rmatch U (Lit w) k s = if starts_with w (s_rest s) then k (jump s (length w)) else None.
Proof.
  induction w as [|c w IH]; intros s Hw; [contradiction|].
  assert (E1 : forall k' : st -> option A, rmatch U (Lit1 c) k' s = match s_rest s with x :: t => if (c =? x)%N then k' (advance s x t) else None | [] => None end) by reflexivity.
  destruct w as [|d w].
  - cbn [Lit]. rewrite E1. destruct (s_rest s) as [|x t] eqn:E; cbn [starts_with]; [reflexivity|].
    destruct (c =? x)%N; cbn [andb]; [|reflexivity]. cbn [starts_with length]. rewrite <- (jump_S _ _ _ _ E), jump_0. reflexivity.
  - change (Lit (c :: d :: w)) with (Seq (Lit1 c) (Lit (d :: w))).
    change (rmatch U (Seq (Lit1 c) (Lit (d :: w))) k s) with (rmatch U (Lit1 c) (rmatch U (Lit (d :: w)) k) s). rewrite E1.
    destruct (s_rest s) as [|x t] eqn:E; [reflexivity|]. cbn [starts_with].
    destruct (c =? x)%N; cbn [andb]; [|reflexivity]. rewrite IH by discriminate. cbn [s_rest advance starts_with length].
    rewrite (jump_S _ _ _ _ E). reflexivity.
Qed.

(** ** Syntactic criteria *)
(** [r] consumes at least one character. *)
Fixpoint nonnull (r : re) : bool :=
  match r with
  | Chr _ => true
  | Seq a b => nonnull a || nonnull b
  | Alt a b => nonnull a && nonnull b
  | Grp _ a => nonnull a
  | Eps | Star _ _ | Assert _ => false
  end.
Lemma nonnull_den U r s s' : den U r s s' -> nonnull r = true -> s_pos s < s_pos s'.
Proof.
  induction 1 as [|p s c t Hr Hp|a b s s1 s2 D1 IH1 D2 IH2|a b s s1 D IH|a b s s1 D IH| | |n a s s1 D IH|]; cbn [nonnull]; intros N; try discriminate N.
  - cbn. lia.
  - apply den_moves in D1, D2. destruct D1 as (x & _ & E1 & _), D2 as (y & _ & E2 & _).
    apply orb_true_iff in N. destruct N as [N|N]; [specialize (IH1 N)|specialize (IH2 N)]; lia.
  - apply andb_true_iff in N. apply IH, N.
  - apply andb_true_iff in N. apply IH, N.
  - cbn. apply IH, N.
Qed.
Lemma nonnull_never_empty U r : nonnull r = true -> never_empty U r.
Proof.
  intros N prev t m H E. apply match_here_sound in H. destruct H as (s' & D & _ & _ & _ & _ & L & _).
  apply (nonnull_den _ _ _ _ D) in N. rewrite E in L. cbn in N, L. lia.
Qed.

(** Group [n] takes part in every match of [r]. *)
Fixpoint must_cap (n : nat) (r : re) : bool :=
  match r with
  | Seq a b => must_cap n a || must_cap n b
  | Alt a b => must_cap n a && must_cap n b
  | Grp k a => (n =? k) || must_cap n a
  | Chr _ | Eps | Star _ _ | Assert _ => false
  end.
Lemma den_caps U r s s' : den U r s s' -> exists l, s_caps s' = l ++ s_caps s.
Proof.
  induction 1 as [s|p s c t Hr Hp|a b s s1 s2 D1 [l1 E1] D2 [l2 E2]|a b s s1 D IH|a b s s1 D IH|g a s|g a s s1 s2 D1 [l1 E1] L D2 [l2 E2]|n a s s1 D [l E]|a s H];
    try (exists []; reflexivity); try assumption.
  - exists (l2 ++ l1). rewrite E2, E1, app_assoc. reflexivity.
  - exists (l2 ++ l1). rewrite E2, E1, app_assoc. reflexivity.
  - cbn. rewrite E. eexists (_ :: l). reflexivity.
Qed.
Lemma get_cap_app n l1 l2 : get_cap n (l1 ++ l2) = match get_cap n l1 with Some t => Some t | None => get_cap n l2 end.
Proof. induction l1 as [|[i t] l1 IH]; [reflexivity|]. cbn. destruct (n =? i); [reflexivity|exact IH]. Qed.
Lemma get_cap_keep U r s s' n : den U r s s' -> get_cap n (s_caps s) <> None -> get_cap n (s_caps s') <> None.
Proof. intros D H. destruct (den_caps _ _ _ _ D) as [l E]. rewrite E, get_cap_app. destruct (get_cap n l); [discriminate|exact H]. Qed.
Lemma must_cap_den U n r s s' : den U r s s' -> must_cap n r = true -> get_cap n (s_caps s') <> None.
Proof.
  induction 1 as [s|p s c t Hr Hp|a b s s1 s2 D1 IH1 D2 IH2|a b s s1 D IH|a b s s1 D IH|g a s|g a s s1 s2 D1 IH1 L D2 IH2|k a s s1 D IH|a s H]; cbn [must_cap]; intros N; try discriminate N.
  - apply orb_true_iff in N. destruct N as [N|N]; [|apply IH2, N]. eapply get_cap_keep; [exact D2|apply IH1, N].
  - apply andb_true_iff in N. apply IH, N.
  - apply andb_true_iff in N. apply IH, N.
  - cbn. destruct (n =? k); [discriminate|]. apply IH, N.
Qed.
Lemma must_cap_idx U n r prev t m : must_cap n r = true -> match_here U r prev t = Some m -> exists x, cap_idx m n = Ok x /\ cap m n = Some x.
Proof.
  intros N H. apply match_here_sound in H. destruct H as (s' & D & _ & _ & E & _). apply (must_cap_den _ n) in D; [|exact N].
  unfold cap_idx, cap. rewrite E. destruct (get_cap n (s_caps s')) as [x|]; [|contradiction]. exists x. split; reflexivity.
Qed.

(** ** Inversion of the declarative semantics *)
Lemma den_chr_inv U p s s' : den U (Chr p) s s' -> exists c t, s_rest s = c :: t /\ p c = true /\ s' = advance s c t.
Proof. intros D. inversion D as [|? ? c t Hr Hp| | | | | | |]; subst. eauto. Qed.
Lemma den_seq_inv U a b s s' : den U (Seq a b) s s' -> exists s1, den U a s s1 /\ den U b s1 s'.
Proof. intros D. inversion D; subst. eauto. Qed.
Lemma den_alt_inv U a b s s' : den U (Alt a b) s s' -> den U a s s' \/ den U b s s'.
Proof. intros D. inversion D; subst; auto. Qed.
Lemma den_eps_inv U s s' : den U Eps s s' -> s' = s.
Proof. intros D. inversion D; subst; auto. Qed.
Lemma den_assert_inv U a s s' : den U (Assert a) s s' -> s' = s /\ check U a s = true.
Proof. intros D. inversion D; subst; auto. Qed.
Lemma den_grp_inv U n a s s' : den U (Grp n a) s s' -> exists s1, den U a s s1 /\ s' = set_cap n s s1.
Proof. intros D. inversion D; subst; eauto. Qed.
Lemma den_star_chr_inv U g p s s' : den U (Star g (Chr p)) s s' ->
  exists n, n <= length (s_rest s) /\ Forall (fun c => p c = true) (firstn n (s_rest s)) /\ s' = jump s n.
Proof.
  intros D. pattern s, s'. eapply den_star_ind'; [| |exact D].
  - intros s0. exists 0. rewrite jump_0. repeat split; [lia|constructor].
  - intros s0 s1 s2 D1 _ _ (n & L & F & ->). apply den_chr_inv in D1. destruct D1 as (c & t & Hr & Hp & ->).
    exists (S n). rewrite Hr. cbn [firstn length]. cbn in L. split; [lia|]. split; [constructor; assumption|]. apply jump_S, Hr.
Qed.
Lemma den_star_chr U g p s n : n <= length (s_rest s) -> Forall (fun c => p c = true) (firstn n (s_rest s)) -> den U (Star g (Chr p)) s (jump s n).
Proof.
  revert s. induction n as [|n IH]; intros s L F; [rewrite jump_0; constructor|].
  destruct (s_rest s) as [|c t] eqn:E; [cbn in L; lia|]. cbn in F. inversion F; subst.
  eapply d_star_cons; [apply d_chr; eassumption|cbn; lia|]. rewrite <- (jump_S _ _ _ _ E). apply IH; cbn; [cbn in L; lia|assumption].
Qed.
Lemma skipn_add {A} n m : forall l : list A, skipn m (skipn n l) = skipn (n + m) l.
Proof. induction n as [|n IH]; intros l; [reflexivity|]. destruct l as [|x l]; [cbn; apply skipn_nil|]. cbn. apply IH. Qed.
Lemma jump_jump s n m : n <= length (s_rest s) -> jump (jump s n) m = jump s (n + m).
Proof.
  intros L. unfold jump. cbn [s_pos s_prev s_rest s_caps]. f_equal; [lia| |apply skipn_add].
  rewrite prev_of_app. f_equal. rewrite <- (firstn_skipn n (s_rest s)) at 3. rewrite firstn_app, firstn_length, Nat.min_l by lia.
  rewrite firstn_firstn. replace (Init.Nat.min (n + m) n) with n by lia. replace (n + m - n) with m by lia. reflexivity.
Qed.
Lemma lit_cons2 c d w : Lit (c :: d :: w) = Seq (Lit1 c) (Lit (d :: w)).
Proof. reflexivity. Qed.
Lemma den_lit1_inv U c s s' : den U (Lit1 c) s s' -> exists t, s_rest s = c :: t /\ s' = advance s c t.
Proof. intros D. apply den_chr_inv in D. destruct D as (x & t & Hr & Hp & ->). apply N.eqb_eq in Hp. subst x. eauto. Qed.
Lemma den_lit_inv U w : forall s s', w <> [] -> den U (Lit w) s s' -> exists t, s_rest s = w ++ t /\ s' = jump s (length w).
Proof.
  induction w as [|c w IH]; intros s s' Hw D; [contradiction|]. destruct w as [|d w].
  - cbn [Lit] in D. apply den_lit1_inv in D. destruct D as (t & E & ->). exists t. split; [exact E|]. cbn [length]. rewrite <- (jump_S _ _ _ _ E), jump_0. reflexivity.
  - rewrite lit_cons2 in D. apply den_seq_inv in D. destruct D as (s1 & D1 & D2). apply den_lit1_inv in D1. destruct D1 as (t & E & ->).
    apply IH in D2; [|discriminate]. destruct D2 as (t' & E' & ->). exists t'. cbn [s_rest advance] in E'. split; [rewrite E, E'; reflexivity|].
    cbn [length]. apply jump_S, E.
Qed.
Lemma den_lit1 U c s t : s_rest s = c :: t -> den U (Lit1 c) s (advance s c t).
Proof. intros E. apply d_chr; [exact E|]. apply N.eqb_refl. Qed.
Lemma den_lit U w : forall s t, w <> [] -> s_rest s = w ++ t -> den U (Lit w) s (jump s (length w)).
Proof.
  induction w as [|c w IH]; intros s t Hw E; [contradiction|]. destruct w as [|d w].
  - cbn [Lit length]. rewrite <- (jump_S _ _ _ _ E), jump_0. apply den_lit1, E.
  - rewrite lit_cons2. cbn [app] in E. econstructor; [apply den_lit1, E|]. cbn [length]. rewrite <- (jump_S _ _ _ _ E). eapply IH; [discriminate|reflexivity].
Qed.
(** Two derivations with the same final state give the same match. *)
Lemma match_here_eq U r prev t : forall m s', match_here U r prev t = Some m -> 
  (forall s1, den U r (mkst 0 prev t []) s1 -> s1 = s') -> m = mkm (firstn (s_pos s') t) (s_caps s') (s_prev s') (s_rest s').
Proof.
  intros m s' H Hu. apply rmatch_sound in H. destruct H as (s1 & D & H). apply Hu in D. subst s1. injection H as <-. reflexivity.
Qed.
Lemma match_here_unique U r prev t s' : den U r (mkst 0 prev t []) s' -> (forall s1, den U r (mkst 0 prev t []) s1 -> s1 = s') ->
  match_here U r prev t = Some (mkm (firstn (s_pos s') t) (s_caps s') (s_prev s') (s_rest s')).
Proof.
  intros D Hu. destruct (match_here_some _ _ _ _ _ D) as [m Hm]. rewrite Hm. f_equal. eapply match_here_eq; eassumption.
Qed.
Lemma match_here_no U r prev t : (forall s', ~ den U r (mkst 0 prev t []) s') -> match_here U r prev t = None.
Proof.
  intros H. destruct (match_here U r prev t) as [m|] eqn:E; [|reflexivity]. apply match_here_sound in E. destruct E as (s' & D & _). destruct (H _ D).
Qed.
