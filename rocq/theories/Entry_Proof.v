(** Attribute entries: the byte-level model on characters. *)
From Verif Require Import Text TextFacts Span_Model Span_Pure Span_Spec Span_Proof Span_Laws Parser_Model Parser_Proof Regex_Proof Entry_Model Entry_Spec.

Definition e_first (c : char) : bool := is_ascii_alnum c || (c =? UND)%N.
Definition e_more (c : char) : bool := is_ascii_alnum c || (c =? UND)%N || (c =? DASH)%N.
Definition e_name (t : text) : option (text * text) :=
  match t with [] => None | c :: r => if e_first c then let '(a, b) := span_while e_more r in Some (c :: a, b) else None end.
Definition e_colon (t : text) : option text := match t with c :: r => if (c =? 58)%N then Some r else None | [] => None end.
Definition e_bang (t : text) : option text := match t with c :: r => if (c =? 33)%N then Some r else None | [] => None end.
(** Prefix length before the name, name, unset, rest. *)
Definition e_parse (d : text) : option (text * (bool * text)) :=
  match e_colon d with
  | None => None
  | Some t =>
      let b := e_bang t in
      match e_name (match b with Some t1 => t1 | None => t end) with
      | None => None
      | Some (n, t2) =>
          match b, e_bang t2 with
          | None, Some t3 => match e_colon t3 with Some rest => Some (n, (true, rest)) | None => None end
          | None, None => match e_colon t2 with Some rest => Some (n, (false, rest)) | None => None end
          | Some _, _ => match e_colon t2 with Some rest => Some (n, (true, rest)) | None => None end
          end
      end
  end.

Lemma e_first_iff c : e_first c = true <-> word_first c.
Proof. unfold e_first, word_first, is_ascii_alnum, is_ascii_alpha, is_ascii_upper, is_ascii_lower, is_ascii_digit, UND. lia. Qed.
Lemma e_more_iff c : e_more c = true <-> (word_first c \/ c = 45%N).
Proof. unfold e_more, word_first, is_ascii_alnum, is_ascii_alpha, is_ascii_upper, is_ascii_lower, is_ascii_digit, UND, DASH. lia. Qed.
Lemma e_name_some t n r : e_name t = Some (n, r) -> t = n ++ r /\ user_name n /\ (match r with c :: _ => e_more c = false | [] => True end).
Proof.
  destruct t as [|c t]; [discriminate|]. cbn [e_name]. destruct (e_first c) eqn:E; [|discriminate]. pose proof (span_while_app e_more t) as H. pose proof (span_while_all e_more t) as Ha.
  pose proof (span_while_stop e_more t) as Hs. destruct (span_while e_more t) as [a b]. cbn [fst snd] in *. intros X. apply Some_inj in X. injection X as <- <-.
  split; [cbn; rewrite H; reflexivity|]. split.
  - exists c, a. split; [reflexivity|]. split; [apply e_first_iff, E|]. eapply Forall_impl; [|exact Ha]. intros d Hd. apply e_more_iff, Hd.
  - destruct b as [|x b]; [exact I|]. apply (Hs x b eq_refl).
Qed.
Lemma e_name_user n r : user_name n -> (match r with c :: _ => e_more c = false | [] => True end) -> e_name (n ++ r) = Some (n, r).
Proof.
  intros (c & m & -> & Hc & Hm) Hr. cbn [app e_name]. apply e_first_iff in Hc. rewrite Hc. rewrite span_while_prefix; [reflexivity| |exact Hr].
  eapply Forall_impl; [|exact Hm]. intros d Hd. apply e_more_iff, Hd.
Qed.
Lemma e_parse_iff d n u rest : e_parse d = Some (n, (u, rest)) <-> entry_line d n u rest.
Proof.
  split.
  - unfold e_parse. destruct d as [|c t]; [discriminate|]. cbn [e_colon]. destruct (N.eqb_spec c 58) as [->|]; [|discriminate]. cbv zeta.
    assert (Eb : forall x y, e_bang x = Some y -> x = 33%N :: y) by (intros [|a x] y H; [discriminate|]; cbn in H; destruct (N.eqb_spec a 33) as [->|]; [apply Some_inj in H; subst; reflexivity|discriminate]).
    assert (Ec : forall x y, e_colon x = Some y -> x = 58%N :: y) by (intros [|a x] y H; [discriminate|]; cbn in H; destruct (N.eqb_spec a 58) as [->|]; [apply Some_inj in H; subst; reflexivity|discriminate]).
    destruct (e_bang t) as [t1|] eqn:B.
    + apply Eb in B. subst t. destruct (e_name t1) as [[m t2]|] eqn:N1; [|discriminate]. apply e_name_some in N1. destruct N1 as (-> & Hu & _).
      destruct (e_colon t2) as [r|] eqn:C; [|destruct (e_bang t2); discriminate]. apply Ec in C. subst t2. intros H.
      assert (H' : Some (m, (true, r)) = Some (n, (u, rest))) by (destruct (e_bang (58%N :: r)); exact H). apply Some_inj in H'. injection H' as -> <- ->. apply el_before, Hu.
    + destruct (e_name t) as [[m t2]|] eqn:N1; [|discriminate]. apply e_name_some in N1. destruct N1 as (-> & Hu & _).
      destruct (e_bang t2) as [t3|] eqn:B2.
      * apply Eb in B2. subst t2. destruct (e_colon t3) as [r|] eqn:C; [|discriminate]. apply Ec in C. subst t3. intros H. apply Some_inj in H. injection H as -> <- ->. apply (el_after n rest Hu).
      * destruct (e_colon t2) as [r|] eqn:C; [|discriminate]. apply Ec in C. subst t2. intros H. apply Some_inj in H. injection H as -> <- ->. apply (el_set n rest Hu).
  - intros H. destruct H as [n rest Hu|n rest Hu|n rest Hu]; unfold e_parse.
    + change (lit ":" ++ n ++ lit ":" ++ rest) with (58%N :: n ++ 58%N :: rest). cbn [e_colon]. rewrite N.eqb_refl. cbv zeta.
      assert (B : e_bang (n ++ 58%N :: rest) = None).
      { destruct Hu as (c & r & -> & Hc & _). cbn. destruct (N.eqb_spec c 33) as [->|]; [unfold word_first in Hc; lia|reflexivity]. }
      rewrite B. cbv iota. rewrite e_name_user by (exact Hu || reflexivity). reflexivity.
    + change (lit ":!" ++ n ++ lit ":" ++ rest) with (58%N :: 33%N :: n ++ 58%N :: rest). cbn [e_colon e_bang]. rewrite !N.eqb_refl. cbv zeta iota. change (e_bang (33%N :: n ++ 58%N :: rest)) with (Some (n ++ 58%N :: rest)). cbv iota.
      rewrite e_name_user by (exact Hu || reflexivity). reflexivity.
    + change (lit ":" ++ n ++ lit "!:" ++ rest) with (58%N :: n ++ 33%N :: 58%N :: rest). cbn [e_colon]. rewrite N.eqb_refl. cbv zeta.
      assert (B : e_bang (n ++ 33%N :: 58%N :: rest) = None).
      { destruct Hu as (c & r & -> & Hc & _). cbn. destruct (N.eqb_spec c 33) as [->|]; [unfold word_first in Hc; lia|reflexivity]. }
      rewrite B. cbv iota. rewrite e_name_user by (exact Hu || reflexivity). reflexivity.
Qed.

(** The raw value: the text after the colon without leading blanks. *)
Definition e_raw (rest : text) : text := snd (span_while is_sp_tab rest).
Definition e_value (hdr : parser -> text -> res text) (P : parser) (u : bool) (rest : text) : res ivalue :=
  if u then Ok VUnset
  else match rest with
       | [] => Ok VSet
       | _ => t <- fold_value (e_raw rest) ;; o <- hdr P t ;; Ok (VValue o)
       end.

Lemma take_cont_eq s c r : logical (sp_data s) c r -> let d := trim_end_by (N.eqb SP) (strip1 CR (strip1 LF c)) in
  take_line_with_continuation s = Ok (match d with [] => None | _ => Some (mkmi (with_data s d) (skip s c r)) end).
Proof.
  intros H. pose proof (logical_app _ _ _ H) as D.
  pose proof (p_continuation_spec _ _ _ H (length (sp_data s)) s eq_refl (le_n _)) as Ha.
  assert (Hpre : firstn (length (sp_data s) - length r) (sp_data s) = c).
  { rewrite D, app_length. replace (length c + _ - _) with (length c) by lia. apply firstn_len. }
  cbv zeta. rewrite take_line_with_continuation_ok. unfold p_take_line_with_continuation. rewrite Ha. cbv zeta. rewrite Hpre. fold (strip1 LF c). fold (strip1 CR (strip1 LF c)).
  destruct (trim_end_by (N.eqb SP) (strip1 CR (strip1 LF c))); reflexivity.
Qed.

Lemma e_colon_some t r : e_colon t = Some r -> t = 58%N :: r.
Proof. destruct t as [|y u]; [discriminate|]. cbn. destruct (N.eqb_spec y 58) as [->|]; [|discriminate]. intros H. apply Some_inj in H. subst. reflexivity. Qed.
Lemma p_take_prefix_colon s : p_take_prefix s (lit ":") =
  match e_colon (sp_data s) with Some r => Some (psplit s [58%N] r) | None => None end.
Proof.
  unfold p_take_prefix. destruct (sp_data s) as [|x t]; [reflexivity|]. cbn [e_colon]. change (starts_with (lit ":") (x :: t)) with (((58 =? x) && true)%N%bool). rewrite N.eqb_sym.
  destruct (N.eqb_spec x 58) as [->|]; [|reflexivity]. reflexivity.
Qed.
Lemma starts_bang t : starts_with (lit "!") t = match e_bang t with Some _ => true | None => false end.
Proof. destruct t as [|x t]; [reflexivity|]. cbn [e_bang]. change (starts_with (lit "!") (x :: t)) with (((33 =? x) && true)%N%bool). rewrite N.eqb_sym. destruct (x =? 33)%N; reflexivity. Qed.
Lemma slice_bang s t : e_bang (sp_data s) = Some t -> slice_from s 1 = Ok (skip s [33%N] t).
Proof.
  intros H. apply (slice_from_ok s [33%N] t). destruct (sp_data s) as [|x u]; [discriminate|]. cbn in H. destruct (N.eqb_spec x 33) as [->|]; [|discriminate]. apply Some_inj in H. subst. reflexivity.
Qed.
Lemma take_user_eq s : take_user_attr_name s = Ok (match e_name (sp_data s) with Some (n, r) => Some (psplit s n r) | None => None end).
Proof.
  unfold take_user_attr_name. rewrite take_name_ok. unfold p_take_name, e_name. destruct (sp_data s) as [|c r]; [reflexivity|].
  change (is_ascii_alnum c || (c =? UND)%N) with (e_first c). destruct (e_first c); [|reflexivity].
  change (fun c : N => is_ascii_alnum c || (c =? UND)%N || (c =? DASH)%N) with e_more. destruct (span_while e_more r). reflexivity.
Qed.

(** The parser on the logical line. *)
Lemma attribute_parse_eq hdr s P c r : logical (sp_data s) c r ->
  let d := trim_end_by (N.eqb SP) (strip1 CR (strip1 LF c)) in
  exists pre vs, attribute_parse hdr s P =
    match e_parse d with
    | None => Ok None
    | Some (n, (u, rest)) =>
        v <- e_value hdr P u rest ;;
        Ok (Some (mkmi (mkattr (skip s pre n) vs v (with_data s (trim_end c))) (skip s c r)))
    end /\
    (forall n u rest, e_parse d = Some (n, (u, rest)) ->
       (exists post, d = pre ++ n ++ post /\ (pre = lit ":" \/ pre = lit ":!")) /\
       (vs = None <-> u = true \/ rest = []) /\
       (forall x, vs = Some x -> sp_data x = e_raw rest /\ exists pre', d = pre' ++ e_raw rest /\ x = skip s pre' (e_raw rest))).
Proof.
  intros H. pose proof (take_cont_eq s c r H) as E. cbv zeta in *. set (d := trim_end_by (N.eqb SP) (strip1 CR (strip1 LF c))) in *.
  unfold attribute_parse. rewrite E. cbn [bind]. clear E. destruct d as [|x0 d0] eqn:Ed.
  { exists [], None. split; [reflexivity|]. intros n u rest X. discriminate. }
  rewrite <- Ed in *. cbn [mi_item mi_after]. rewrite take_prefix_ok, p_take_prefix_colon. cbn [bind]. cbn [with_data sp_data]. unfold e_parse.
  destruct (e_colon d) as [t|] eqn:C.
  2:{ exists [], None. split; [reflexivity|]. intros n u rest X. discriminate. }
  assert (Dt : d = 58%N :: t) by (destruct d as [|y u]; [discriminate|]; cbn in C; destruct (N.eqb_spec y 58) as [->|]; [apply Some_inj in C; subst; reflexivity|discriminate]).
  set (s0 := with_data s d) in *. assert (D0 : sp_data s0 = d) by reflexivity.
  cbn [psplit mi_after]. set (s1 := skip s0 [58%N] t). assert (D1 : sp_data s1 = t) by (apply sp_data_skip). rewrite D1, starts_bang.
  set (t1 := match e_bang t with Some t1 => t1 | None => t end).
  set (p1 := match e_bang t with Some _ => [58%N; 33%N] | None => [58%N] end).
  assert (L1 : (if match e_bang t with Some _ => true | None => false end then slice_from s1 1 else Ok s1) = Ok (skip s0 p1 t1)).
  { unfold t1, p1. destruct (e_bang t) as [tb|] eqn:B; [|reflexivity]. rewrite (slice_bang s1 tb) by (rewrite D1; exact B). unfold s1. rewrite skip_skip. reflexivity. }
  assert (P1 : d = p1 ++ t1).
  { unfold p1, t1. rewrite Dt. destruct t as [|y u]; [reflexivity|]. cbn [e_bang]. destruct (N.eqb_spec y 33) as [->|]; reflexivity. }
  rewrite L1. cbn [bind]. rewrite take_user_eq, sp_data_skip. cbn [bind]. cbv zeta. fold t1.
  destruct (e_name t1) as [[n t2]|] eqn:N1.
  2:{ exists [], None. split; [reflexivity|]. intros n u rest X. discriminate. }
  apply e_name_some in N1. destruct N1 as (Dn & Hu & _). cbn [psplit mi_after mi_item]. rewrite !skip_skip, sp_data_skip, starts_bang, with_data_skip.
  set (b1 := match e_bang t with Some _ => true | None => false end).
  set (b2 := (match e_bang t2 with Some _ => true | None => false end) && negb b1).
  set (t3 := if b2 then match e_bang t2 with Some x => x | None => t2 end else t2).
  set (p3 := p1 ++ n ++ (if b2 then [33%N] else [])).
  assert (L2 : (if b2 then slice_from (skip s0 (p1 ++ n) t2) 1 else Ok (skip s0 (p1 ++ n) t2)) = Ok (skip s0 p3 t3)).
  { unfold t3, p3. destruct b2 eqn:B2; [|rewrite app_nil_r; reflexivity]. destruct (e_bang t2) as [tb|] eqn:B; [|discriminate].
    rewrite (slice_bang _ tb) by (rewrite sp_data_skip; exact B). rewrite skip_skip, <- app_assoc. reflexivity. }
  assert (P3 : d = p3 ++ t3).
  { rewrite P1, Dn. unfold p3, t3. destruct b2 eqn:B2; [|rewrite app_nil_r, <- app_assoc; reflexivity]. destruct t2 as [|y u]; [discriminate|]. unfold b2 in B2. cbn [e_bang] in *.
    destruct (N.eqb_spec y 33) as [->|]; [|discriminate]. rewrite <- !app_assoc. reflexivity. }
  rewrite L2. cbn [bind]. rewrite take_prefix_ok, p_take_prefix_colon, sp_data_skip. cbn [bind].
  assert (Eq : (match e_bang t with
                | Some _ => match e_colon t2 with Some rest => Some (n, (true, rest)) | None => None end
                | None => match e_bang t2 with
                          | Some t3 => match e_colon t3 with Some rest => Some (n, (true, rest)) | None => None end
                          | None => match e_colon t2 with Some rest => Some (n, (false, rest)) | None => None end
                          end
                end) = match e_colon t3 with Some rest => Some (n, (b1 || b2, rest)) | None => None end).
  { unfold t3, b2, b1. destruct (e_bang t); cbn [negb andb orb]; [rewrite andb_false_r; reflexivity|]. rewrite andb_true_r. destruct (e_bang t2); reflexivity. }
  rewrite Eq. clear Eq. destruct (e_colon t3) as [rest|] eqn:C3.
  2:{ exists [], None. split; [reflexivity|]. intros n' u rest X. discriminate. }
  assert (D3 : t3 = 58%N :: rest) by (apply e_colon_some, C3).
  cbn [psplit mi_after]. rewrite skip_skip, sp_data_skip.
  assert (Tr : trim_remainder s (skip s c r) = Ok (with_data s c)).
  { pose proof (logical_app _ _ _ H) as D. rewrite trim_remainder_ok by (exists c; split; [rewrite sp_data_skip; exact D|rewrite sp_data_skip; reflexivity]).
    unfold p_trim_remainder. rewrite sp_data_skip, D, app_length. replace (length c + length r - length r) with (length c) by lia. rewrite firstn_len. reflexivity. }
  exists p1. assert (Hpre : exists post, d = p1 ++ n ++ post /\ (p1 = lit ":" \/ p1 = lit ":!")).
  { exists t2. split; [rewrite P1, Dn; reflexivity|]. unfold p1. destruct (e_bang t); auto. }
  assert (Sk : forall a x, skip s0 a x = skip s a x) by reflexivity.
  destruct (b1 || b2) eqn:BB.
  - exists None. split.
    + cbn [bind e_value]. rewrite Tr. cbn [bind]. rewrite trim_trailing_whitespace_ok. reflexivity.
    + intros n' u rest' X. apply Some_inj in X. injection X as <- <- <-. split; [exact Hpre|]. split; [split; auto|]. discriminate.
  - destruct rest as [|y rest].
    + exists None. split.
      * cbn [bind e_value]. rewrite Tr. cbn [bind]. rewrite trim_trailing_whitespace_ok. reflexivity.
      * intros n' u rest' X. apply Some_inj in X. injection X as <- <- <-. split; [exact Hpre|]. split; [split; auto|]. discriminate.
    + set (w := fst (span_while is_sp_tab (y :: rest))). assert (Hw : y :: rest = w ++ e_raw (y :: rest)) by (unfold w, e_raw; rewrite span_while_app; reflexivity).
      assert (TW : take_whitespace (skip s0 (p3 ++ [58%N]) (y :: rest)) = Ok (psplit (skip s0 (p3 ++ [58%N]) (y :: rest)) w (e_raw (y :: rest)))).
      { unfold take_whitespace. rewrite take_while_ok. unfold p_take_while. rewrite sp_data_skip. unfold w, e_raw. destruct (span_while is_sp_tab (y :: rest)). reflexivity. }
      exists (Some (skip s ((p3 ++ [58%N]) ++ w) (e_raw (y :: rest)))). split.
      * rewrite TW. cbn [bind psplit mi_after]. unfold from_raw_value, e_value. rewrite !skip_skip, sp_data_skip. destruct (fold_value (e_raw (y :: rest))) as [f| |]; [|reflexivity|reflexivity]. cbn [bind].
        destruct (hdr P f) as [o| |]; [|reflexivity|reflexivity]. cbn [bind fst snd]. rewrite Tr. cbn [bind]. rewrite trim_trailing_whitespace_ok. reflexivity.
      * intros n' u rest' X. apply Some_inj in X. injection X as <- <- <-. split; [exact Hpre|]. split; [split; [discriminate|intros [X|X]; discriminate]|].
        intros x X. apply Some_inj in X. subst x. rewrite sp_data_skip. split; [reflexivity|]. exists ((p3 ++ [58%N]) ++ w). split; [|reflexivity].
        rewrite P3, D3, <- !app_assoc. cbn [app]. rewrite <- Hw. reflexivity.
Qed.

(** * Folding of wrapped values *)
Lemma fold_value_single t : ~ In LF t -> fold_value t = Ok t.
Proof. intros H. unfold fold_value. apply has_char_false in H. rewrite H. reflexivity. Qed.
Lemma fold_value_total t : exists o, fold_value t = Ok o.
Proof.
  unfold fold_value. destruct (has_char LF t) eqn:E; [|eauto]. unfold checked_sub. destruct (1 <=? length (str_lines t)) eqn:L; [cbn [bind]; eauto|].
  exfalso. apply has_char_spec in E. unfold str_lines in L. assert (H : exists a b r, split_on LF t = a :: b :: r).
  { clear L. apply in_split in E. destruct E as (x & y & ->). revert y. induction x as [|c x IH]; intros y; cbn [app split_on].
    - rewrite N.eqb_refl. destruct (split_on LF y) as [|a l] eqn:Es; [|eauto]. destruct y as [|z y]; cbn in Es; [discriminate|]. destruct (z =? LF)%N; [discriminate|]. destruct (split_on LF y); discriminate.
    - destruct (IH y) as (a & b & r & ->). destruct (c =? LF)%N; eauto. }
  destruct H as (a & b & r & H). rewrite H in L. cbn [lines_of length] in L. apply Nat.leb_gt in L. lia.
Qed.

Fixpoint plines (indent : text) (segs : list (text * (bool * text))) (lst : text) : list text :=
  match segs with [] => [indent ++ lst] | (v, (h, i)) :: r => (indent ++ v ++ wrap_mark h) :: plines i r lst end.
Lemma plines_cons indent segs lst : exists a l, plines indent segs lst = a :: l.
Proof. destruct segs as [|[v [h i]] segs]; cbn; eauto. Qed.
Lemma plines_join segs : forall indent lst, indent ++ print_wrapped segs lst = join [LF] (plines indent segs lst).
Proof.
  induction segs as [|[v [h i]] segs IH]; intros indent lst; [reflexivity|]. cbn [print_wrapped plines]. destruct (plines_cons i segs lst) as (a & l & E). rewrite E, join_cons2, <- E, <- IH.
  rewrite <- !app_assoc. reflexivity.
Qed.
Lemma wrap_mark_lf h : ~ In LF (wrap_mark h).
Proof. destruct h; cbn; intros H; repeat (destruct H as [H|H]; [discriminate|]); exact H. Qed.
Definition segs_ok (segs : list (text * (bool * text))) : Prop := Forall (fun s => segment_ok (fst s) /\ Forall (eq SP) (snd (snd s))) segs.
Lemma spaces_lf i : Forall (eq SP) i -> ~ In LF i.
Proof. intros H Hin. rewrite Forall_forall in H. apply H in Hin. discriminate. Qed.
Lemma plines_lf segs : forall indent lst, Forall (eq SP) indent -> segs_ok segs -> segment_ok lst -> Forall (fun l => ~ In LF l) (plines indent segs lst).
Proof.
  induction segs as [|[v [h i]] segs IH]; intros indent lst Hi Hs Hl; cbn [plines].
  - constructor; [|constructor]. rewrite in_app_iff. intros [H|H]; [apply (spaces_lf _ Hi H)|]. destruct Hl as [Hl _]. contradiction.
  - inversion Hs as [|? ? [H1 H2] Hs']; subst. cbn in H1, H2. constructor; [|apply IH; assumption]. rewrite !in_app_iff. intros [H|[H|H]]; [apply (spaces_lf _ Hi H)|destruct H1; contradiction|apply (wrap_mark_lf h H)].
Qed.
Lemma wrap_mark_last h : exists x, wrap_mark h = x ++ [SP; BSL].
Proof. destruct h; [exists (lit " +")|exists []]; reflexivity. Qed.
Lemma drop_cr_id t : (forall x, t <> x ++ [CR]) -> drop_cr t = t.
Proof. intros H. unfold drop_cr. destruct (rev t) as [|c r] eqn:E; [reflexivity|]. destruct (N.eqb_spec c CR) as [->|]; [|reflexivity]. exfalso. apply (H (rev r)). rewrite <- (rev_involutive t), E. reflexivity. Qed.
Lemma plines_lines segs : forall indent lst, lst <> [] -> lines_of (plines indent segs lst) = plines indent segs lst.
Proof.
  induction segs as [|[v [h i]] segs IH]; intros indent lst Hl; cbn [plines].
  - cbn [lines_of]. destruct (indent ++ lst) eqn:E; [|reflexivity]. apply app_eq_nil in E. destruct E; contradiction.
  - destruct (plines_cons i segs lst) as (a & l & E). rewrite E. change (lines_of ((indent ++ v ++ wrap_mark h) :: a :: l)) with (drop_cr (indent ++ v ++ wrap_mark h) :: lines_of (a :: l)). rewrite <- E, IH by exact Hl. f_equal.
    apply drop_cr_id. intros x Hx. destruct (wrap_mark_last h) as [y Hy]. rewrite Hy in Hx. change [SP; BSL] with ([SP] ++ [BSL]) in Hx. rewrite !app_assoc in Hx. apply app_inj_tail in Hx. destruct Hx as [_ Hx]. discriminate.
Qed.

Lemma trim_start_spaces i v : Forall (eq SP) i -> (forall r, v <> SP :: r) -> trim_start_by (N.eqb SP) (i ++ v) = v.
Proof.
  intros Hi Hv. unfold trim_start_by, drop_while_c. rewrite span_while_prefix; [reflexivity| |].
  - eapply Forall_impl; [|exact Hi]. intros c <-. reflexivity.
  - destruct v as [|c r]; [exact I|]. destruct (N.eqb_spec SP c) as [<-|]; [exfalso; apply (Hv r eq_refl)|reflexivity].
Qed.
Lemma trim_start_none c v : (forall r, v <> c :: r) -> trim_start_by (N.eqb c) v = v.
Proof.
  intros Hv. unfold trim_start_by, drop_while_c. destruct v as [|x r]; [reflexivity|]. cbn [span_while]. destruct (N.eqb_spec c x) as [<-|]; [exfalso; apply (Hv r eq_refl)|reflexivity].
Qed.
Lemma trim_end_none c v : (forall x, v <> x ++ [c]) -> trim_end_by (N.eqb c) v = v.
Proof. intros H. apply trim_end_by_id. intros b x E. destruct (N.eqb_spec c x) as [<-|]; [exfalso; apply (H b E)|reflexivity]. Qed.
Lemma trim_end_one c v w : Forall (eq c) w -> (forall x, v <> x ++ [c]) -> trim_end_by (N.eqb c) (v ++ w) = v.
Proof.
  intros Hw H. apply trim_end_by_unique; [eapply Forall_impl; [|exact Hw]; intros x <-; apply N.eqb_refl|]. intros b x E. destruct (N.eqb_spec c x) as [<-|]; [exfalso; apply (H b E)|reflexivity].
Qed.
Lemma no_plus v : (forall x, v <> x ++ [43%N]) -> ends_with [43%N] v = false.
Proof. intros H. destruct (ends_with [43%N] v) eqn:E; [|reflexivity]. apply ends_with_spec in E. destruct E as [r E]. exfalso. apply (H r E). Qed.
Lemma last_ne (x y : list N) a b : a <> b -> x ++ [a] <> y ++ [b].
Proof. intros H E. apply app_inj_tail in E. destruct E as [_ E]. contradiction. Qed.

Lemma fold_line_wrap count last i v h : count < last -> (count = 0 -> i = []) -> Forall (eq SP) i -> segment_ok v ->
  fold_line count last (i ++ v ++ wrap_mark h) = v ++ (if h then [LF] else [SP]).
Proof.
  intros Hc H0 Hi (Hlf & Hsp & Hcr & He). unfold fold_line.
  assert (Nv : forall c, In c [SP; BSL; 43%N] -> forall x, v <> x ++ [c]).
  { intros c Hin x E. destruct (He _ _ E) as (E1 & E2 & E3). cbn in Hin. destruct Hin as [<-|[<-|[<-|[]]]]; contradiction. }
  (* leading spaces: an empty segment may lose the space of its mark *)
  assert (L1 : exists y, (if 0 <? count then trim_start_by (N.eqb SP) (i ++ v ++ wrap_mark h) else i ++ v ++ wrap_mark h) = y /\
     ((y = v ++ wrap_mark h) \/ (v = [] /\ y = (if h then lit "+ \" else lit "\")))).
  { destruct count as [|count]; cbn [Nat.ltb Nat.leb].
    - rewrite (H0 eq_refl). eexists. split; [reflexivity|]. left. reflexivity.
    - eexists. split; [reflexivity|]. destruct v as [|c v].
      + right. split; [reflexivity|]. destruct h; cbn [app wrap_mark].
        * change (lit " + \") with ([SP] ++ lit "+ \"). rewrite app_assoc. apply trim_start_spaces; [apply Forall_app; split; [exact Hi|repeat constructor]|discriminate].
        * change (lit " \") with ([SP] ++ lit "\"). rewrite app_assoc. apply trim_start_spaces; [apply Forall_app; split; [exact Hi|repeat constructor]|discriminate].
      + left. apply trim_start_spaces; [exact Hi|]. intros r E. cbn in E. injection E as -> E. apply (Hsp v eq_refl). }
  destruct L1 as (y & -> & Hy). cbv zeta.
  assert (L2 : trim_start_by (N.eqb CR) y = y).
  { apply trim_start_none. intros r E. destruct Hy as [->|[-> ->]]; [|destruct h; discriminate]. destruct v as [|c v]; [destruct h; discriminate|]. cbn in E. injection E as -> E. apply (Hcr v eq_refl). }
  rewrite L2.
  assert (L3 : exists p, Forall (eq SP) p /\ trim_end_by (N.eqb SP) (trim_end_by (N.eqb BSL) (trim_end_by (N.eqb SP) y)) = v ++ (if h then p ++ [43%N] else [])).
  { destruct Hy as [->|[-> ->]].
    - exists [SP]. split; [repeat constructor|]. destruct h.
      + change (wrap_mark true) with (lit " +" ++ [SP] ++ [BSL]). rewrite !app_assoc.
        rewrite (trim_end_none SP (_ ++ [BSL])) by (intros x; apply last_ne; discriminate). rewrite (trim_end_one BSL) by (repeat constructor || (intros x; apply last_ne; discriminate)).
        rewrite (trim_end_one SP); [rewrite <- app_assoc; reflexivity|repeat constructor|]. intros x. change (lit " +") with ([SP] ++ [43%N]). rewrite app_assoc. apply last_ne. discriminate.
      + change (wrap_mark false) with ([SP] ++ [BSL]). rewrite !app_assoc.
        rewrite (trim_end_none SP (_ ++ [BSL])) by (intros x; apply last_ne; discriminate). rewrite (trim_end_one BSL) by (repeat constructor || (intros x; apply last_ne; discriminate)).
        rewrite (trim_end_one SP); [rewrite app_nil_r; reflexivity|repeat constructor|]. apply Nv. cbn. auto.
    - exists []. split; [constructor|]. destruct h; reflexivity. }
  destruct L3 as (p & Hp & ->). destruct h.
  - assert (Ew : ends_with [43%N] (v ++ p ++ [43%N]) = true) by (apply ends_with_spec; exists (v ++ p); rewrite <- app_assoc; reflexivity).
    rewrite Ew. f_equal. rewrite app_assoc. rewrite (trim_end_one 43%N); [apply trim_end_one; [exact Hp|apply Nv; cbn; auto]|repeat constructor|].
    intros x E. destruct p as [|z p _] using rev_ind; [rewrite app_nil_r in E; revert E; apply Nv; cbn; auto|]. rewrite app_assoc in E. revert E. apply Forall_app in Hp. destruct Hp as [_ Hp]. inversion Hp; subst. apply last_ne. discriminate.
  - rewrite app_nil_r, no_plus by (apply Nv; cbn; auto). assert (E : (count <? last) = true) by (apply Nat.ltb_lt; exact Hc). rewrite E. reflexivity.
Qed.
Lemma fold_line_last count i v : (count = 0 -> i = []) -> Forall (eq SP) i -> segment_ok v -> fold_line count count (i ++ v) = v.
Proof.
  intros H0 Hi (Hlf & Hsp & Hcr & He). unfold fold_line.
  assert (Nv : forall c, In c [SP; BSL; 43%N] -> forall x, v <> x ++ [c]).
  { intros c Hin x E. destruct (He _ _ E) as (E1 & E2 & E3). cbn in Hin. destruct Hin as [<-|[<-|[<-|[]]]]; contradiction. }
  assert (L1 : (if 0 <? count then trim_start_by (N.eqb SP) (i ++ v) else i ++ v) = v).
  { destruct count as [|count]; cbn [Nat.ltb Nat.leb]; [rewrite (H0 eq_refl); reflexivity|]. apply trim_start_spaces; assumption. }
  rewrite L1. cbv zeta. rewrite (trim_start_none CR) by exact Hcr. rewrite (trim_end_none SP v) by (apply Nv; cbn; auto). rewrite (trim_end_none BSL v) by (apply Nv; cbn; auto). rewrite (trim_end_none SP v) by (apply Nv; cbn; auto).
  rewrite no_plus by (apply Nv; cbn; auto). rewrite Nat.ltb_irrefl. reflexivity.
Qed.
Lemma fold_plines segs : forall indent lst count last, (count = 0 -> indent = []) -> Forall (eq SP) indent -> segs_ok segs -> segment_ok lst -> last = count + length segs ->
  fold_lines_go count last (plines indent segs lst) = unwrapped segs lst.
Proof.
  induction segs as [|[v [h i]] segs IH]; intros indent lst count last H0 Hi Hs Hl E; cbn [plines fold_lines_go unwrapped].
  - cbn in E. replace last with count by lia. rewrite fold_line_last by assumption. apply app_nil_r.
  - inversion Hs as [|? ? [H1 H2] Hs']; subst. cbn in H1, H2. cbn [length]. rewrite fold_line_wrap by (assumption || lia). rewrite (IH i lst (S count)) by (assumption || lia || discriminate). rewrite <- app_assoc. reflexivity.
Qed.
Lemma plines_length segs : forall indent lst, length (plines indent segs lst) = S (length segs).
Proof. induction segs as [|[v [h i]] segs IH]; intros indent lst; cbn; [reflexivity|]. rewrite IH. reflexivity. Qed.
Lemma fold_value_wrapped segs lst : segs_ok segs -> segment_ok lst -> lst <> [] -> fold_value (print_wrapped segs lst) = Ok (unwrapped segs lst).
Proof.
  intros Hs Hl Hn. destruct segs as [|s segs].
  - cbn. apply fold_value_single. apply Hl.
  - pose proof (plines_join (s :: segs) [] lst) as J. cbn [app] in J. unfold fold_value. assert (E : has_char LF (print_wrapped (s :: segs) lst) = true).
    { apply has_char_spec. destruct s as [v [h i]]. cbn [print_wrapped]. rewrite !in_app_iff. right. right. left. left. reflexivity. }
    rewrite E. unfold str_lines. rewrite J, split_join; [|destruct (plines_cons [] (s :: segs) lst) as (a & l & ->); discriminate|apply plines_lf; [constructor|exact Hs|exact Hl]].
    rewrite plines_lines by exact Hn. rewrite plines_length. unfold checked_sub. cbn [Nat.leb bind]. rewrite (fold_plines (s :: segs) [] lst 0); auto.
Qed.
