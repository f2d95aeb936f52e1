(** Proofs about web paths. *)
From Verif Require Import Text TextFacts Span_Laws Parser_Proof Regex Regex_Proof Regex_Scan Regex_Lang Path_Model.

(** A segment that needs no more work. *)
Definition clean (fs : char) (s : text) : Prop :=
  ~ In 47%N s /\ ~ In SP s /\ s <> lit "." /\ s <> lit ".." /\ (fs = BSL -> ~ In BSL s).

Lemma posixify_bsl fs p : fs = BSL -> ~ In BSL (posixify fs p).
Proof.
  intros ->. unfold posixify. rewrite N.eqb_refl. cbn [andb]. destruct (has_char BSL p) eqn:E; [|apply has_char_false, E].
  unfold replace_char. intros H. apply in_flat_map in H. destruct H as (x & _ & H). destruct (N.eqb_spec x BSL) as [Hx|Hx]; cbn in H; [destruct H as [H|[]]; discriminate H|destruct H as [H|[]]; congruence].
Qed.
Lemma posixify_id fs p : (fs = BSL -> ~ In BSL p) -> posixify fs p = p.
Proof.
  intros H. unfold posixify. destruct (N.eqb_spec fs BSL) as [E|E]; [|reflexivity]. cbn [andb]. destruct (has_char BSL p) eqn:Hc; [|reflexivity]. apply has_char_spec in Hc. destruct (H E Hc).
Qed.
Lemma uri_sniff_text U prev w rest caps : lang U (URI_SNIFF U) prev w rest caps -> ~ In SP w /\ ~ In BSL w.
Proof.
  unfold URI_SNIFF. cbn [Seqs]. intros L.
  apply lang_seq in L. destruct L as (w0 & w1 & c0 & c1 & -> & -> & L0 & L). apply lang_assert in L0. destruct L0 as (-> & -> & _). cbn [app].
  apply lang_seq in L. destruct L as (w2 & w3 & c2 & c3 & -> & -> & (a & -> & Ha & ->) & L).
  apply lang_seq in L. destruct L as (w4 & w5 & c4 & c5 & -> & -> & L4 & L).
  apply lang_seq in L. destruct L as (w6 & w7 & c6 & c7 & -> & -> & L6 & L7). apply lang_lit1 in L6. destruct L6 as [-> ->].
  unfold Plus in L4. apply lang_seq in L4. destruct L4 as (w8 & w9 & c8 & c9 & -> & -> & (b & -> & Hb & ->) & L9). apply lang_many_chr in L9. destruct L9 as [F9 ->].
  assert (K7 : Forall (fun c => c = 47%N) w7).
  { change (Lit1 47%N) with (Chr (c_is 47%N)) in L7. apply lang_upto_chr in L7. destruct L7 as (F & _ & _). eapply Forall_impl; [|exact F]. intros c Hc. unfold c_is in Hc. apply N.eqb_eq in Hc. auto. }
  assert (G : forall x, x = SP \/ x = BSL -> ~ In x ([a] ++ ([b] ++ w9) ++ [58%N] ++ w7)).
  { intros x Hx Hi. assert (Nx : is_alpha U x = false /\ (is_alpha U x || is_numeric U x || c_in (lit ".+-") x = false) /\ x <> 58%N /\ x <> 47%N) by (destruct Hx as [->| ->]; repeat split; discriminate).
    destruct Nx as (N1 & N2 & N3 & N4). rewrite Forall_forall in F9, K7. cbn [app In] in Hi. destruct Hi as [Hi|[Hi|Hi]]; [subst; congruence|subst; congruence|].
    apply in_app_or in Hi. destruct Hi as [Hi|[Hi|Hi]]; [apply F9 in Hi; congruence|congruence|apply K7 in Hi; congruence]. }
  split; apply G; auto.
Qed.
Lemma captures_begin U r h m : captures U (Seq (Assert ABegin) r) h = Some m -> exists w rest, h = w ++ rest /\ m_text m = w /\ lang U (Seq (Assert ABegin) r) None w rest (m_caps m).
Proof.
  unfold captures. destruct (search U _ None h) as [[p m']|] eqn:E; [|discriminate]. intros H. injection H as ->.
  apply search_sound in E. destruct E as (Eh & Em & _). pose proof (match_here_lang _ _ _ _ _ Em) as (_ & _ & L).
  pose proof L as L2. apply lang_seq in L2. destruct L2 as (w0 & w1 & c0 & c1 & _ & _ & L0 & _). apply lang_assert in L0. destruct L0 as (_ & _ & H).
  assert (Hp : p = []).
  { destruct p as [|c p]; [reflexivity|]. unfold at_check in H. cbn [check s_prev] in H. unfold prev_of in H. destruct (rev (c :: p)) as [|d q] eqn:Er; [|discriminate H]. apply (f_equal (@length N)) in Er. rewrite rev_length in Er. discriminate Er. }
  subst p. exists (m_text m), (m_after m). split; [exact Eh|auto].
Qed.
Lemma extract_ok U s : exists t pre, extract_uri_prefix U s = Ok (t, pre) /\ s = match pre with Some p => p | None => [] end ++ t /\
  (forall p, pre = Some p -> ~ In SP p /\ ~ In BSL p).
Proof.
  unfold extract_uri_prefix. destruct (has_char 58%N s); [|exists s, None; repeat split; discriminate].
  destruct (captures U (URI_SNIFF U) s) as [m|] eqn:E; [|exists s, None; repeat split; discriminate].
  apply captures_begin in E. destruct E as (w & rest & -> & Ew & L). exists rest, (Some w). unfold str_from. rewrite Ew, bsplit_app. cbn [bind]. split; [reflexivity|]. split; [reflexivity|].
  intros p Hp. injection Hp as <-. eapply (uri_sniff_text U None w rest). exact L.
Qed.

(** The loop. *)
Definition rooted (root : option text) : bool := match root with Some r => negb (text_eqb r (lit "./")) | None => false end.
Definition dotdots (l : list text) : Prop := Forall (fun s => s = lit "..") l.
Definition no_dotdot (l : list text) : Prop := Forall (fun s => s <> lit "..") l.
(** Reversed: clean segments on top of parent references, none of these below a root. *)
Definition res_inv (root : option text) (r : list text) : Prop := exists hi lo, r = hi ++ lo /\ no_dotdot hi /\ dotdots lo /\ (rooted root = true -> lo = []).
Lemma is_dotdot_spec s : is_dotdot s = true <-> s = lit "..".
Proof. apply text_eqb_eq. Qed.
Lemma resolve_step_inv root r s : res_inv root r -> res_inv root (resolve_step root r s).
Proof.
  intros (hi & lo & -> & Hh & Hl & Hr). unfold resolve_step. destruct (is_dotdot s) eqn:E.
  - apply is_dotdot_spec in E. subst s. destruct hi as [|h hi]; cbn [app].
    + destruct lo as [|l lo].
      * destruct root as [r|]; [destruct (negb (text_eqb r (lit "./"))) eqn:En|].
        -- exists [], []. repeat split; constructor.
        -- exists [], [lit ".."]. repeat split; [constructor|repeat constructor|]. cbn [rooted]. rewrite En. discriminate.
        -- exists [], [lit ".."]. repeat split; [constructor|repeat constructor|]. discriminate.
      * inversion Hl; subst. change (is_dotdot (lit "..")) with true. exists [], (lit ".." :: lit ".." :: lo). split; [reflexivity|]. split; [constructor|]. split; [constructor; auto|]. intros K. discriminate (Hr K).
    + inversion Hh; subst. assert (E : is_dotdot h = false) by (destruct (is_dotdot h) eqn:E; [apply is_dotdot_spec in E; contradiction|reflexivity]). rewrite E.
      exists hi, lo. repeat split; assumption.
  - exists (s :: hi), lo. repeat split; [constructor; [|exact Hh]|exact Hl|exact Hr]. intros ->. discriminate E.
Qed.
Lemma resolve_inv root segs : forall r, res_inv root r -> res_inv root (fold_left (resolve_step root) segs r).
Proof. induction segs as [|s segs IH]; intros r H; [exact H|]. cbn [fold_left]. apply IH, resolve_step_inv, H. Qed.
Lemma resolve_in root segs : forall r x, In x (fold_left (resolve_step root) segs r) -> In x r \/ In x segs.
Proof.
  induction segs as [|s segs IH]; intros r x H; [auto|]. cbn [fold_left] in H. apply IH in H. destruct H as [H|H]; [|right; right; exact H].
  unfold resolve_step in H. destruct (is_dotdot s).
  - destruct r as [|l r]; [destruct root as [q|]; [destruct (negb _)|]; cbn in H |- *; intuition|]. destruct (is_dotdot l); cbn in H |- *; intuition.
  - cbn in H |- *. intuition.
Qed.
Lemma resolve_id root l : res_inv root l -> fold_left (resolve_step root) (rev l) [] = l.
Proof.
  induction l as [|s l IH]; intros H; [reflexivity|]. cbn [rev]. rewrite fold_left_app. cbn [fold_left].
  assert (Hl : res_inv root l).
  { destruct H as (hi & lo & E & Hh & Hlo & Hr). destruct hi as [|h hi]; cbn in E.
    - destruct lo as [|x lo]; [discriminate E|]. injection E as -> ->. exists [], lo. inversion Hlo; subst. repeat split; [constructor|assumption|]. intros K. discriminate (Hr K).
    - injection E as -> ->. inversion Hh; subst. exists hi, lo. auto. }
  rewrite IH by exact Hl. unfold resolve_step. destruct (is_dotdot s) eqn:E; [|reflexivity]. apply is_dotdot_spec in E. subst s.
  destruct H as (hi & lo & E & Hh & Hlo & Hr). destruct hi as [|h hi]; cbn in E; [|injection E as <- _; inversion Hh; subst; contradiction].
  destruct lo as [|x lo]; [discriminate E|]. injection E as <- <-. inversion Hlo as [|? ? Hx Hlo']; subst. destruct l as [|y l].
  - destruct root as [r|]; [|reflexivity]. destruct (negb (text_eqb r (lit "./"))) eqn:En; [|reflexivity]. assert (K : rooted (Some r) = true) by exact En. discriminate (Hr K).
  - inversion Hlo'; subst. reflexivity.
Qed.

(** Blanks. *)
Definition unspace (t : text) : text := replace_str (lit " ") (lit "%20") t.
Lemma unspace_flat t : unspace t = flat_map (fun x => if (SP =? x)%N then lit "%20" else [x]) t.
Proof. unfold unspace, replace_str. change (lit " ") with [SP]. apply replace_go_one. Qed.
Lemma unspace_app a b : unspace (a ++ b) = unspace a ++ unspace b.
Proof. rewrite !unspace_flat. apply flat_map_app. Qed.
Lemma unspace_join l : unspace (join (lit "/") l) = join (lit "/") (map unspace l).
Proof.
  induction l as [|a l IH]; [reflexivity|]. destruct l as [|b l]; [reflexivity|]. cbn [map]. rewrite !join_cons2, !unspace_app. f_equal. f_equal. exact IH.
Qed.
Lemma unspace_in x t : In x (unspace t) -> x <> SP /\ (In x t \/ x = 37%N \/ x = 50%N \/ x = 48%N).
Proof.
  rewrite unspace_flat. intros H. apply in_flat_map in H. destruct H as (y & Hy & H). destruct (N.eqb_spec SP y) as [<-|Hn]; cbn in H.
  - destruct H as [<-|[<-|[<-|[]]]]; split; auto; discriminate.
  - destruct H as [<-|[]]. split; [congruence|auto].
Qed.
Lemma unspace_dots t w : ~ In SP w -> ~ In 37%N w -> unspace t = w -> t = w.
Proof.
  intros H1 H2 E. rewrite unspace_flat in E. revert w H1 H2 E. induction t as [|c t IH]; intros w H1 H2 E; cbn [flat_map] in E; [exact E|].
  destruct (N.eqb_spec SP c) as [<-|Hn]; [exfalso; apply H2; rewrite <- E; left; reflexivity|]. cbn in E. destruct w as [|d w]; [discriminate E|]. injection E as <- E.
  f_equal. apply IH; [intros Hi; apply H1; right; exact Hi|intros Hi; apply H2; right; exact Hi|exact E].
Qed.
Lemma unspace_id t : ~ In SP t -> unspace t = t.
Proof. rewrite unspace_flat. induction t as [|c t IH]; intros H; [reflexivity|]. cbn [flat_map]. destruct (N.eqb_spec SP c) as [<-|Hn]; [exfalso; apply H; left; reflexivity|]. cbn. f_equal. apply IH. intros Hi. apply H. right. exact Hi. Qed.

Definition root_text (root : option text) : text := match root with Some r => r | None => [] end.
Lemma partition_ok fs path : exists segs root, partition_path fs path = Ok (segs, root) /\
  (root = None \/ root = Some (lit "/") \/ root = Some (lit "./")) /\
  Forall (fun s => ~ In 47%N s /\ s <> lit "." /\ (fs = BSL -> ~ In BSL s)) segs.
Proof.
  unfold partition_path. set (p := posixify fs path).
  assert (Hp : fs = BSL -> ~ In BSL p) by (intros E; apply posixify_bsl, E).
  assert (F : forall t, (fs = BSL -> ~ In BSL t) -> Forall (fun s => ~ In 47%N s /\ s <> lit "." /\ (fs = BSL -> ~ In BSL s)) (filter (fun s => negb (text_eqb s (lit "."))) (split_on 47%N t))).
  { intros t Ht. apply Forall_forall. intros s Hs. apply filter_In in Hs. destruct Hs as [Hs Hn].
    split; [pose proof (split_on_no_sep 47%N t) as K; rewrite Forall_forall in K; apply K, Hs|]. split; [apply text_eqb_neq; destruct (text_eqb s (lit ".")); [discriminate Hn|reflexivity]|].
    intros E Hi. apply (Ht E). rewrite <- (join_split 47%N t). clear -Hs Hi. induction (split_on 47%N t) as [|a l IH]; [destruct Hs|]. destruct l as [|b l].
    - destruct Hs as [->|[]]. exact Hi.
    - rewrite join_cons2. apply in_or_app. destruct Hs as [->|Hs]; [left; exact Hi|right; apply in_or_app; right; apply IH, Hs]. }
  destruct (is_web_root p) eqn:E1.
  - apply starts_with_spec in E1. destruct E1 as [r Er]. unfold str_from. rewrite Er, bsplit_app. cbn [bind]. eexists _, _. split; [reflexivity|]. split; [auto|]. apply F. intros E Hi. apply (Hp E). rewrite Er. apply in_or_app. auto.
  - destruct (starts_with (lit "./") p) eqn:E2.
    + apply starts_with_spec in E2. destruct E2 as [r Er]. unfold str_from. rewrite Er, bsplit_app. cbn [bind]. eexists _, _. split; [reflexivity|]. split; [auto|]. apply F. intros E Hi. apply (Hp E). rewrite Er. apply in_or_app. auto.
    + cbn [bind]. eexists _, _. split; [reflexivity|]. split; [auto|]. apply F, Hp.
Qed.
Lemma dotdots_repeat l : dotdots l -> l = repeat (lit "..") (length l).
Proof. induction 1 as [|s l -> H IH]; [reflexivity|]. cbn. f_equal. exact IH. Qed.
(** The result of resolution, after the prefix. *)
Lemma web_path_ok U fs target start : exists pre root n segs,
  web_path U fs target start = Ok (pre ++ root_text root ++ join (lit "/") (repeat (lit "..") n ++ segs)) /\
  (start = None -> pre = []) /\ ~ In SP pre /\ (fs = BSL -> ~ In BSL pre) /\
  (root = None \/ root = Some (lit "/") \/ root = Some (lit "./")) /\ (root = Some (lit "/") -> n = 0) /\ Forall (clean fs) segs.
Proof.
  unfold web_path. set (t := posixify fs target).
  assert (K : exists t' pre, (match option_map (posixify fs) start with None => Ok (t, None) | Some start0 => if is_web_root t then Ok (t, None) else extract_uri_prefix U (start0 ++ (if ends_with (lit "/") start0 then [] else lit "/") ++ t) end) = Ok (t', pre) /\
     (start = None -> pre = None) /\ (forall p, pre = Some p -> ~ In SP p /\ ~ In BSL p)).
  { destruct start as [s|]; cbn [option_map]; [|exists t, None; repeat split; discriminate]. destruct (is_web_root t); [exists t, None; repeat split; discriminate|].
    destruct (extract_ok U (posixify fs s ++ (if ends_with (lit "/") (posixify fs s) then [] else lit "/") ++ t)) as (t' & pre & E & _ & H). exists t', pre. split; [exact E|]. split; [discriminate|exact H]. }
  destruct K as (t' & pre & -> & Hn & Hpre). cbn [bind fst snd].
  destruct (partition_ok fs t') as (segs & root & -> & Hroot & F). cbn [bind fst snd].
  assert (I : res_inv root (fold_left (resolve_step root) segs [])) by (apply resolve_inv; exists [], []; repeat split; constructor).
  destruct I as (hi & lo & E & Hh & Hl & Hr).
  assert (Fh : Forall (fun s => ~ In 47%N s /\ s <> lit "." /\ (fs = BSL -> ~ In BSL s)) hi).
  { rewrite Forall_forall in F |- *. intros s Hs. apply F. destruct (resolve_in root segs [] s) as [[]|Hi]; [rewrite E; apply in_or_app; auto|exact Hi]. }
  exists (root_text pre), root, (length lo), (map unspace (rev hi)). split.
  - f_equal. unfold join_path. fold (root_text root) (root_text pre). f_equal. fold (unspace (root_text root ++ join (lit "/") (rev (fold_left (resolve_step root) segs [])))).
    rewrite unspace_app. f_equal; [destruct Hroot as [->|[->| ->]]; reflexivity|]. rewrite unspace_join, E, rev_app_distr, map_app. do 2 f_equal.
    rewrite (dotdots_repeat lo Hl) at 1. clear. induction (length lo) as [|n IH]; [reflexivity|]. cbn [repeat rev]. rewrite map_app, IH. cbn [map]. change (unspace (lit "..")) with (lit ".."). clear. induction n; [reflexivity|]. cbn [repeat app]. f_equal. exact IHn.
  - split; [intros Hs; rewrite (Hn Hs); reflexivity|]. split; [destruct pre as [p|]; [apply (Hpre p eq_refl)|auto]|]. split; [intros _; destruct pre as [p|]; [apply (Hpre p eq_refl)|auto]|].
    split; [exact Hroot|]. split; [intros ->; rewrite (Hr eq_refl); reflexivity|].
    apply Forall_forall. intros s Hs. apply in_map_iff in Hs. destruct Hs as (x & <- & Hx). apply in_rev in Hx. rewrite Forall_forall in Fh. destruct (Fh x Hx) as (A & B & C). unfold no_dotdot in Hh. rewrite Forall_forall in Hh. pose proof (Hh x Hx) as D.
    repeat split.
    + intros Hi. apply unspace_in in Hi. destruct Hi as [_ [Hi|[Hi|[Hi|Hi]]]]; [auto|discriminate Hi..].
    + intros Hi. apply unspace_in in Hi. destruct Hi as [Hi _]. congruence.
    + intros Hu. apply unspace_dots in Hu; [contradiction|apply not_in_b; reflexivity|apply not_in_b; reflexivity].
    + intros Hu. apply unspace_dots in Hu; [contradiction|apply not_in_b; reflexivity|apply not_in_b; reflexivity].
    + intros Ef Hi. apply unspace_in in Hi. destruct Hi as [_ [Hi|[Hi|[Hi|Hi]]]]; [apply (C Ef Hi)|discriminate Hi..].
Qed.

(** Resolving twice. *)
Definition plain_seg (fs : char) (s : text) : Prop := ~ In 47%N s /\ ~ In SP s /\ s <> lit "." /\ (fs = BSL -> ~ In BSL s).
Lemma join_not_in (c : char) l : c <> 47%N -> Forall (fun s => ~ In c s) l -> ~ In c (join (lit "/") l).
Proof.
  intros Hc F. induction F as [|s l Hs F IH]; [auto|]. destruct l as [|b l]; [exact Hs|]. rewrite join_cons2. intros Hi. apply in_app_or in Hi. destruct Hi as [Hi|Hi]; [auto|]. apply in_app_or in Hi. destruct Hi as [[Hi|[]]|Hi]; [apply Hc; symmetry; exact Hi|auto].
Qed.
Lemma filter_dots fs l : Forall (plain_seg fs) l -> filter (fun s => negb (text_eqb s (lit "."))) l = l.
Proof. induction 1 as [|s l (A & B & C & D) F IH]; [reflexivity|]. cbn [filter]. destruct (text_eqb_spec s (lit ".")); [contradiction|]. cbn [negb]. f_equal. exact IH. Qed.
Lemma split_segs fs l : l <> [] -> Forall (plain_seg fs) l -> split_on 47%N (join (lit "/") l) = l.
Proof. intros H F. apply split_join; [exact H|]. eapply Forall_impl; [|exact F]. intros s (A & _). exact A. Qed.
Lemma rel_no_root fs s l : Forall (plain_seg fs) (s :: l) -> s <> [] -> is_web_root (join (lit "/") (s :: l)) = false /\ starts_with (lit "./") (join (lit "/") (s :: l)) = false.
Proof.
  intros F Hs. inversion F as [|? ? (A & B & C & D) F']; subst. destruct s as [|c s]; [contradiction|].
  assert (E : exists u, join (lit "/") ((c :: s) :: l) = c :: s ++ u /\ (u = [] \/ exists v, u = 47%N :: v)).
  { destruct l as [|b l]; [exists []; cbn; rewrite app_nil_r; auto|]. rewrite join_cons2. eexists. split; [reflexivity|]. right. eexists. reflexivity. }
  destruct E as (u & -> & Hu). unfold is_web_root. cbn [starts_with lit map]. split.
  - change (starts_with (lit "/") (c :: s ++ u)) with ((47 =? c)%N && true). destruct (N.eqb_spec 47 c) as [<-|]; [exfalso; apply A; left; reflexivity|reflexivity].
  - change (starts_with (lit "./") (c :: s ++ u)) with ((46 =? c)%N && starts_with (lit "/") (s ++ u)). destruct (N.eqb_spec 46 c) as [<-|]; [|reflexivity]. cbn [andb].
    destruct s as [|d s]; [contradiction C; reflexivity|]. cbn [app]. change (starts_with (lit "/") (d :: s ++ u)) with ((47 =? d)%N && true). destruct (N.eqb_spec 47 d) as [<-|]; [exfalso; apply A; right; left; reflexivity|reflexivity].
Qed.
Lemma web_path_of_parts U fs root l : l <> [] -> Forall (plain_seg fs) l -> res_inv root (rev l) ->
  (root = Some (lit "/") \/ root = Some (lit "./") \/ (root = None /\ (hd [] l <> [] \/ l = [[]]))) ->
  web_path U fs (root_text root ++ join (lit "/") l) None = Ok (root_text root ++ join (lit "/") l).
Proof.
  intros Hne F I Hroot. set (o := root_text root ++ join (lit "/") l).
  assert (Hb : fs = BSL -> ~ In BSL o).
  { intros E Hi. apply in_app_or in Hi. destruct Hi as [Hi|Hi]; [destruct Hroot as [->|[->|[-> _]]]; cbn in Hi; [destruct Hi as [Hi|[]]; discriminate Hi|destruct Hi as [Hi|[Hi|[]]]; discriminate Hi|destruct Hi]|].
    revert Hi. apply join_not_in; [discriminate|]. eapply Forall_impl; [|exact F]. intros s (_ & _ & _ & D). auto. }
  assert (Hp : partition_path fs o = Ok (l, root)).
  { unfold partition_path. rewrite (posixify_id fs o Hb). unfold o. destruct Hroot as [->|[->|[-> Hs]]]; cbn [root_text].
    - unfold is_web_root. assert (Es : starts_with (lit "/") (lit "/" ++ join (lit "/") l) = true) by (apply starts_with_spec; eauto). rewrite Es. unfold str_from. rewrite bsplit_app. cbn [bind]. rewrite (split_segs fs), (filter_dots fs) by assumption. reflexivity.
    - assert (E0 : is_web_root (lit "./" ++ join (lit "/") l) = false) by reflexivity. rewrite E0. assert (Es : starts_with (lit "./") (lit "./" ++ join (lit "/") l) = true) by (apply starts_with_spec; eauto). rewrite Es. unfold str_from. rewrite bsplit_app. cbn [bind]. rewrite (split_segs fs), (filter_dots fs) by assumption. reflexivity.
    - cbn [app]. assert (Er : is_web_root (join (lit "/") l) = false /\ starts_with (lit "./") (join (lit "/") l) = false).
      { destruct Hs as [Hs| ->]; [|split; reflexivity]. destruct l as [|s l]; [contradiction|]. apply (rel_no_root fs); assumption. }
      destruct Er as [-> ->]. cbn [bind]. rewrite (split_segs fs), (filter_dots fs) by assumption. reflexivity. }
  unfold web_path. cbn [option_map bind fst snd]. rewrite (posixify_id fs o Hb). rewrite Hp. cbn [bind fst snd].
  rewrite <- (rev_involutive l) at 1. rewrite resolve_id by exact I. rewrite rev_involutive. cbn [app]. f_equal. unfold join_path. fold (root_text root). fold o. fold (unspace o).
  apply unspace_id. intros Hi. apply in_app_or in Hi. destruct Hi as [Hi|Hi]; [destruct Hroot as [->|[->|[-> _]]]; cbn in Hi; [destruct Hi as [Hi|[]]; discriminate Hi|destruct Hi as [Hi|[Hi|[]]]; discriminate Hi|destruct Hi]|].
  revert Hi. apply join_not_in; [discriminate|]. eapply Forall_impl; [|exact F]. intros s (_ & B & _). exact B.
Qed.
Lemma web_path_idem U fs target o : web_path U fs target None = Ok o -> web_path U fs o None = Ok o.
Proof.
  intros H. destruct (web_path_ok U fs target None) as (pre & root & n & segs & E & Hpre & _ & _ & Hroot & Hn & F). rewrite (Hpre eq_refl) in E. rewrite E in H. apply Ok_inj in H. subst o. clear E Hpre pre target. cbn [app].
  assert (F2 : Forall (plain_seg fs) (repeat (lit "..") n ++ segs)).
  { apply Forall_app. split.
    - apply Forall_forall. intros s Hs. apply repeat_spec in Hs. subst s. repeat split; try (apply not_in_b; reflexivity); try discriminate. intros _. apply not_in_b. reflexivity.
    - eapply Forall_impl; [|exact F]. intros s (A & B & C & D & G). repeat split; auto. }
  assert (I : res_inv root (rev (repeat (lit "..") n ++ segs))).
  { exists (rev segs), (repeat (lit "..") n). split; [rewrite rev_app_distr; f_equal; clear; induction n as [|n IH]; [reflexivity|]; cbn [repeat rev]; rewrite IH; clear; induction n as [|n IH]; [reflexivity|]; cbn; f_equal; exact IH|].
    split; [apply Forall_rev; eapply Forall_impl; [|exact F]; intros s (A & B & C & D & G); exact D|]. split; [apply Forall_forall; intros s Hs; apply repeat_spec in Hs; exact Hs|].
    intros K. destruct Hroot as [->|[->| ->]]; [discriminate K|rewrite (Hn eq_refl); reflexivity|discriminate K]. }
  destruct (repeat (lit "..") n ++ segs) as [|s l] eqn:El.
  - (* nothing left: the text is the root alone *)
    cbn [join]. rewrite app_nil_r.
    assert (K : web_path U fs (root_text root ++ join (lit "/") [[]]) None = Ok (root_text root ++ join (lit "/") [[]])).
    { apply web_path_of_parts; [discriminate|constructor; [|constructor]; repeat split; try (apply not_in_b; reflexivity); auto; discriminate|exists [[]], []; repeat split; repeat constructor; discriminate|].
      destruct Hroot as [->|[->| ->]]; auto 10. }
    cbn [join] in K. rewrite app_nil_r in K. exact K.
  - destruct Hroot as [->|[->| ->]].
    + destruct s as [|c s].
      * destruct l as [|s2 l]; [apply web_path_of_parts; auto; discriminate|].
        (* a first empty segment makes the result absolute *)
        cbn [root_text app]. rewrite join_cons2. cbn [app].
        assert (Hn0 : n = 0) by (destruct n; [reflexivity|discriminate El]). subst n. cbn [repeat app] in El. subst segs.
        apply (web_path_of_parts U fs (Some (lit "/")) (s2 :: l)); [discriminate|inversion F2; assumption| |auto].
        exists (rev (s2 :: l)), []. split; [rewrite app_nil_r; reflexivity|]. split; [|split; [constructor|auto]].
        apply Forall_rev. inversion F; subst. eapply Forall_impl; [|eassumption]. intros x (A & B & C & D & G). exact D.
      * apply web_path_of_parts; auto; [discriminate|]. right. right. split; [reflexivity|]. left. discriminate.
    + apply web_path_of_parts; auto. discriminate.
    + apply web_path_of_parts; auto. discriminate.
Qed.
