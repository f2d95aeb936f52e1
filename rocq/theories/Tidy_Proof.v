(** The lines over which parsing goes wrong (C122). *)
From Verif Require Import Text TextFacts Span_Model Span_Pure Span_Proof Span_Spec Span_Laws Parser_Model Group_Model Header_Model Header_Spec Block_Model Block_Spec Block_Proof Doc_Model Tree_Spec Tree_Proof
  Header_Proof Pre_Spec Meta_Spec Total_Proof Kind_Proof Spans_Proof Begin_Spec Begin_Proof Stuck_Spec Stuck_Proof Fate_Spec Fate_Proof Tidy_Spec.

(** * Lines of the document *)
Lemma place_at D s : place D s -> sp_data s <> [] -> exists x y, D = x ++ sp_data s ++ y /\ starts_line x /\ (y = [] \/ (starts_line (x ++ sp_data s) /\ exists l r n, a_line y l r n /\ compound_delimiter n)).
Proof.
  intros (L & B & x & y & Dx & Ho & Hy) Hn. destruct (place_line _ _ L B Hn) as (x' & y' & Dx' & Hx & Ho' & _). exists x, y. split; [exact Dx|]. split; [|exact Hy].
  assert (K : x' = x); [|rewrite <- K; exact Hx]. rewrite Dx' in Dx. destruct (prefix_cmp _ _ _ _ Dx ltac:(lia)) as (e & ->). rewrite blen_app in Ho. assert (e = []) as -> by (apply blen_zero; lia). symmetry. apply app_nil_r.
Qed.
Lemma starts_app x p : starts_line x -> starts_line p -> starts_line (x ++ p).
Proof. intros Hx [->|(q & ->)]; [rewrite app_nil_r; exact Hx|right; exists (x ++ q); apply app_assoc]. Qed.
Lemma lift_line D s p l r n : place D s -> sp_data s = p ++ l ++ r -> starts_line p -> l <> [] -> a_line (l ++ r) l r n ->
  exists x y, a_line_of D x l (r ++ y) n /\ (y = [] \/ exists l r n, a_line y l r n /\ compound_delimiter n).
Proof.
  intros H Ds Hp Hl Ha. assert (Hn : sp_data s <> []) by (rewrite Ds; intros K; apply app_eq_nil in K; destruct K as (_ & K); apply app_eq_nil in K; destruct K as (K & _); exact (Hl K)).
  destruct (place_at _ _ H Hn) as (x & y & Dx & Hx & Hy). exists (x ++ p), y. split; [|destruct Hy as [K|(_ & K)]; [left|right]; exact K].
  split; [rewrite Dx, Ds, <- !app_assoc; reflexivity|]. split; [exact (starts_app _ _ Hx Hp)|]. split; [exact Hl|]. rewrite app_assoc. apply (a_line_more (x ++ p)); [exact Ha| |].
  - intros K. apply app_eq_nil in K. destruct K as (K & _). exact (Hl K).
  - destruct Hy as [Hy|(Hy & _)]; [left; exact Hy|right]. rewrite <- app_assoc, <- Ds. exact Hy.
Qed.
Lemma first_of t l r n : a_line t l r n -> t <> [] -> t = [] ++ l ++ r /\ starts_line [] /\ l <> [] /\ a_line (l ++ r) l r n.
Proof. intros H Ht. pose proof (a_line_app _ _ _ _ H) as D. split; [exact D|]. split; [left; reflexivity|]. split; [exact (a_line_nonempty _ _ _ _ H Ht)|]. rewrite <- D. exact H. Qed.
Lemma meta_item U : forall seen t is_ rest i, meta_lines U seen t is_ rest -> In i is_ -> exists p l r n, t = p ++ l ++ r /\ starts_line p /\ l <> [] /\ a_line (l ++ r) l r n /\ item_line U n i.
Proof.
  intros seen t is_ rest i H. induction H as [seen t l r n j is_ rest Hl Hi Hs Hm IH|seen t l r n Hl Hs]; [|intros []].
  assert (Ht : t <> []). { intros ->. apply a_line_nil in Hl. destruct (item_not_blank _ _ _ Hi) as (c & y & -> & _). discriminate Hl. }
  destruct (first_of _ _ _ _ Hl Ht) as (D & H0 & Hne & Hl'). intros [->|Hin]; [exists [], l, r, n; auto|]. destruct (IH Hin) as (p & l' & r' & n' & Dr & Hp & Hne' & Ha & Hi'). exists (l ++ p), l', r', n'.
  split; [rewrite D, Dr, <- app_assoc; reflexivity|]. split; [|auto]. destruct Hl as (z & e & _ & -> & _ & [->|(-> & ->)] & _); [right|].
  - destruct Hp as [->|(q & ->)]; [exists z; apply app_nil_r|exists ((z ++ [LF]) ++ q); apply app_assoc].
  - exfalso. symmetry in Dr. apply app_eq_nil in Dr. destruct Dr as (_ & Dr). apply app_eq_nil in Dr. destruct Dr as (Dr & _). exact (Hne' Dr).
Qed.
Lemma open_bracket U n i : item_line U n i -> (exists y, n = 91%N :: y) \/ exists x, i = ITitle x.
Proof. destruct i as [x|id [rt|]|x]; cbn [item_line]; [right; eauto|intros (_ & _ & ->)|intros (_ & ->)|intros (-> & _)]; left; eexists; reflexivity. Qed.

(** * The lines that are discarded *)
Lemma discard_all s : sp_data s <> [] -> sp_data (p_discard_empty_lines s) = [] -> exists p l n, sp_data s = p ++ l ++ [] /\ starts_line p /\ l <> [] /\ a_line (l ++ []) l [] n /\ blank n.
Proof.
  intros Hs Hd. destruct (discard_go_spec (length (sp_data s)) s (le_n _)) as (ls & tail & D & Hls & Ht). fold (p_discard_empty_lines s) in Ht.
  assert (Hbl : forall l, blank_line l -> blank l). { intros l (ws & cr & -> & Hw & Hc). apply Forall_app. split; [apply Forall_forall; intros c Hin; destruct (Hw c Hin) as [->| ->]; reflexivity|destruct Hc as [->| ->]; repeat constructor]. }
  destruct Ht as [(K & l & e & rest & Et & _ & _ & Hb)|(_ & Hb & Hn)].
  { exfalso. rewrite Hd in K. subst tail. symmetry in Et. apply app_eq_nil in Et. destruct Et as (-> & _). apply Hb. exists [], []. split; [reflexivity|]. split; [intros c []|left; reflexivity]. }
  assert (Fin : forall p l e, sp_data s = p ++ (l ++ e) -> starts_line p -> ~ In LF l -> (e = [LF] \/ (e = [] /\ l <> [])) -> blank l -> exists p l n, sp_data s = p ++ l ++ [] /\ starts_line p /\ l <> [] /\ a_line (l ++ []) l [] n /\ blank n).
  { intros p l e D2 Hp Hl He Hb2. destruct (a_line_total (l ++ e)) as (l' & r' & n & Ha). pose proof (a_line_app _ _ _ _ Ha) as Da.
    assert (l' = l ++ e /\ r' = []) as (-> & ->).
    { destruct Ha as (z & e' & _ & -> & Hz & He' & _). destruct He as [->|(-> & _)].
      - destruct He' as [->|(-> & ->)]; [|rewrite !app_nil_r in Da; exfalso; apply Hz; rewrite <- Da; apply in_or_app; right; left; reflexivity].
        rewrite <- app_assoc in Da. assert (K : l = z /\ [] = r'). { revert z Hz Da. clear - Hl. induction l as [|c l IH]; intros [|d z] Hz Da; cbn in Da; [injection Da as <-; auto|injection Da as <- _; exfalso; apply Hz; left; reflexivity|injection Da as -> _; exfalso; apply Hl; left; reflexivity|].
          injection Da as <- Da. destruct (IH (fun K => Hl (or_intror K)) z (fun K => Hz (or_intror K)) Da) as (-> & <-). auto. }
        destruct K as (-> & <-). auto.
      - rewrite app_nil_r in *. destruct He' as [->|(-> & ->)]; [exfalso; apply Hl; rewrite Da; apply in_or_app; left; apply in_or_app; right; left; reflexivity|]. rewrite !app_nil_r in *. auto. }
    rewrite app_nil_r in Da. exists p, (l ++ e), n. split; [rewrite app_nil_r; exact D2|]. split; [exact Hp|]. split; [destruct He as [->|(-> & He)]; [intros K; apply app_eq_nil in K; destruct K as (_ & K); discriminate K|rewrite app_nil_r; exact He]|]. split; [rewrite app_nil_r; exact Ha|].
    apply (line_blank _ _ _ _ Ha), Forall_app. split; [exact Hb2|destruct He as [->|(-> & _)]; repeat constructor]. }
  destruct tail as [|c y].
  - rewrite app_nil_r in D. destruct ls as [|l0 ls0] using rev_ind; [exfalso; exact (Hs D)|]. clear IHls0. destruct (Hls l0) as (Hb0 & Hn0); [apply in_or_app; right; left; reflexivity|].
    apply (Fin (unlines ls0) l0 [LF]); [|destruct ls0 as [|l1 ls1] using rev_ind; [left; reflexivity|right; exists (unlines ls1 ++ l1); unfold unlines; rewrite map_app, concat_app; cbn [map concat]; rewrite app_nil_r; apply app_assoc]|exact Hn0|left; reflexivity|exact (Hbl _ Hb0)].
    rewrite D. unfold unlines. rewrite map_app, concat_app. cbn [map concat]. rewrite app_nil_r. reflexivity.
  - apply (Fin (unlines ls) (c :: y) []); [rewrite app_nil_r; exact D| |exact Hn|right; split; [reflexivity|discriminate]|exact (Hbl _ Hb)].
    destruct ls as [|l1 ls1] using rev_ind; [left; reflexivity|right; exists (unlines ls1 ++ l1); unfold unlines; rewrite map_app, concat_app; cbn [map concat]; rewrite app_nil_r; apply app_assoc].
Qed.
Lemma discard_first s l r n : sp_data (p_discard_empty_lines s) <> [] -> a_line (sp_data (p_discard_empty_lines s)) l r n -> n <> [].
Proof.
  intros Hs Ha ->. pose proof (discard_blank _ _ _ Ha Hs) as K. pose proof (discard_empty_lines_idem s _ (discard_empty_lines_ok s)) as I. rewrite discard_empty_lines_ok in I. apply Ok_inj in I. rewrite I in K.
  pose proof (suffix_len _ _ (discard_empty_Suffix (skip (p_discard_empty_lines s) l r))) as Len. rewrite <- K, sp_data_skip in Len. pose proof (a_line_app _ _ _ _ Ha) as D. pose proof (a_line_nonempty _ _ _ _ Ha Hs) as Hl.
  rewrite D, app_length in Len. destruct l; [contradiction|cbn in Len; lia].
Qed.

(** * Where no block is *)
Definition odd_line (D : text) : Prop :=
  (exists x l r y, a_line_of D x l r (91%N :: y)) \/ (exists x l r n, a_line_of D x l r n /\ n <> [] /\ blank n) \/ (exists x l r, a_line_of D x l r [] /\ trailing r).
Lemma dead_line E D P s : place D s -> sp_data s <> [] -> dead E P s -> odd_line D.
Proof.
  intros H Hs (s0 & Hd & Hh & is_ & rest & style & Hm & Hst & Hr & Halt). rewrite discard_empty_lines_ok in Hd. apply Ok_inj in Hd. subst s0.
  assert (H0 : place D (p_discard_empty_lines s)). { destruct H as (L & B & N0). pose proof (discard_empty_Suffix s) as S0. split; [exact (located_Suffix _ _ _ L S0)|]. split; [exact (discard_begins _ B)|exact (ended_suffix _ _ _ N0 S0)]. }
  assert (White : forall s p l r n, place D s -> sp_data s = p ++ l ++ r -> starts_line p -> l <> [] -> a_line (l ++ r) l r n -> n <> [] -> blank n -> odd_line D).
  { intros s1 p l r n Hp D1 Hq Hl Ha Hn Hb. destruct (lift_line _ _ _ _ _ _ Hp D1 Hq Hl Ha) as (x & y & K & _). right. left. exists x, l, (r ++ y), n. auto. }
  destruct is_ as [|i is_].
  - destruct (sp_data (p_discard_empty_lines s)) as [|c0 t0] eqn:D0.
    + destruct (discard_all s Hs D0) as (p & l & n & D1 & Hp & Hl & Ha & Hb). destruct n as [|c n]; [|apply (White s p l [] (c :: n)); auto; discriminate].
      destruct (lift_line _ _ _ _ _ _ H D1 Hp Hl Ha) as (x & y & K & Hy). right. right. exists x, l, y. split; [exact K|exact Hy].
    + assert (Hne : sp_data (p_discard_empty_lines s) <> []) by (rewrite D0; discriminate). rewrite <- D0 in Hm. assert (rest = sp_data (p_discard_empty_lines s)) as -> by (inversion Hm; reflexivity).
      inversion Hr as [b t [K|(l & r & K)]|t l r n K1 K2|b t l r n K1 K2 K3 K4 K5]; subst.
      * exfalso. exact (Hne K).
      * exfalso. exact (discard_first _ _ _ _ Hne K eq_refl).
      * destruct (first_of _ _ _ _ K2 K1) as (D1 & Hp & Hl & Ha). exact (White _ [] l r n H0 D1 Hp Hl Ha K3 K4).
  - assert (Hi : exists j, In j (i :: is_) /\ forall x, j <> ITitle x).
    { assert (Hl : the_list (i :: is_) <> None -> exists j, In j (i :: is_) /\ forall x, j <> ITitle x).
      { unfold the_list. intros K. destruct (flat_map _ (i :: is_)) as [|x xs] eqn:Ef; [contradiction K; reflexivity|]. assert (Hin : In x (flat_map (fun i => match i with IList x => [x] | _ => [] end) (i :: is_))) by (rewrite Ef; left; reflexivity).
        apply in_flat_map in Hin. destruct Hin as (j & Hj & Hx). exists j. split; [exact Hj|]. intros z ->. destruct Hx. }
      destruct Halt as [->|(Ht & Hl2)].
      - apply Hl. unfold declared in Hst. destruct (the_list (i :: is_)); [discriminate|discriminate Hst].
      - exists i. split; [left; reflexivity|]. intros x ->. discriminate Ht. }
    destruct Hi as (j & Hj & Hnt). destruct (meta_item _ _ _ _ _ _ Hm Hj) as (p & l & r & n & D1 & Hp & Hl & Ha & Hit). destruct (open_bracket _ _ _ Hit) as [(y & ->)|(x & K)]; [|exfalso; exact (Hnt _ K)].
    destruct (lift_line _ _ _ _ _ _ H0 D1 Hp Hl Ha) as (x & y' & K & _). left. exists x, l, (r ++ y'), y. exact K.
Qed.
