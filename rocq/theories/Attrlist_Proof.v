(** Facts about the model of attribute lists: text-level forms of its functions. *)
From Verif Require Import Text TextFacts Span_Model Span_Pure Span_Spec Span_Proof Span_Laws Maps Catalog_Model Parser_Model Regex Subs_Model Subs_Proof Attrlist_Model.

Lemma pwhile_at s p : exists a b, span_while p (sp_data s) = (a, b) /\ sp_data s = a ++ b /\
  p_take_while s p = mkmi (with_data s a) (skip s a b).
Proof.
  unfold p_take_while. pose proof (span_while_app p (sp_data s)) as H. destruct (span_while p (sp_data s)) as [a b].
  exists a, b. cbn in H. auto.
Qed.

Lemma discard_blen s pre t : sp_data s = pre ++ t -> discard s (blen pre) = Ok (skip s pre t).
Proof. intros H. unfold discard. rewrite (ipr_ok s pre t H). reflexivity. Qed.

Lemma cowstr_ok src b s : Sub (span_new src) s -> cowstr_from_source_and_span src b s = Ok (sp_data s).
Proof.
  intros (pre & post & D & E). unfold cowstr_from_source_and_span. destruct b; [|reflexivity].
  rewrite E at 1. rewrite sp_off_skip. cbn [span_new sp_off Nat.add].
  rewrite (discard_blen (span_new src) pre (sp_data s ++ post) D). cbn [bind].
  rewrite (slice_to_ok _ (sp_data s) post) by apply sp_data_skip. cbn [bind]. reflexivity.
Qed.

(** * Text-level forms *)

Definition dw (p : char -> bool) (t : text) : text := snd (span_while p t).
Definition attr_more (c : char) : bool := is_ascii_alnum c || (c =? DASH)%N.

Definition t_name (t : text) : option text * text :=
  match t with
  | [] => (None, t)
  | c :: r =>
      if is_ascii_alnum c then
        let '(a, b) := span_while attr_more r in
        match dw is_sp_tab_lf b with
        | e :: b' =>
            if (e =? 61)%N then
              match dw is_sp_tab_lf b' with
              | [] => (None, t)
              | d :: v => if (d =? COMMA)%N then (None, t) else (Some (c :: a), d :: v)
              end
            else (None, t)
        | [] => (None, t)
        end
      else (None, t)
  end.

Definition not_comma (c : char) : bool := negb (c =? COMMA)%N.
Definition t_unquoted (t : text) : text * text :=
  let '(a, b) := span_while not_comma t in (trim_end_by (N.eqb SP) a, b).
(** Raw value, rest, new [parse_shorthand], warnings. *)
Definition t_value (t : text) (psh : bool) : (text * text) * (bool * list warning_type) :=
  match t with
  | c :: r =>
      if is_quote c then
        match quoted_split c false r with
        | Some (v, rest) => ((v, rest), (false, []))
        | None => (t_unquoted t, (psh, [WAttributeValueMissingTerminatingQuote]))
        end
      else (t_unquoted t, (psh, []))
  | [] => (t_unquoted t, (psh, []))
  end.

Lemma dw_suffix p t : exists u, t = u ++ dw p t.
Proof. exists (fst (span_while p t)). symmetry. apply span_while_app. Qed.

Lemma dw_idem p t : dw p (dw p t) = dw p t.
Proof.
  unfold dw. destruct (snd (span_while p t)) as [|c r] eqn:E; [reflexivity|].
  apply span_while_stop in E. cbn. rewrite E. reflexivity.
Qed.

Lemma t_name_suffix t : exists u, t = u ++ snd (t_name t).
Proof.
  destruct t as [|c r]; [exists []; reflexivity|]. unfold t_name.
  destruct (is_ascii_alnum c); [|exists []; reflexivity].
  pose proof (span_while_app attr_more r) as H. destruct (span_while attr_more r) as [a b]. cbn in H.
  destruct (dw_suffix is_sp_tab_lf b) as [w Hw]. destruct (dw is_sp_tab_lf b) as [|e b']; [exists []; reflexivity|].
  destruct (e =? 61)%N; [|exists []; reflexivity]. destruct (dw_suffix is_sp_tab_lf b') as [w' Hw'].
  destruct (dw is_sp_tab_lf b') as [|d v]; [exists []; reflexivity|]. destruct (d =? COMMA)%N; [exists []; reflexivity|].
  exists (c :: a ++ w ++ e :: w'). cbn [snd]. subst b'. subst b. rewrite <- H. cbn. rewrite <- !app_assoc. reflexivity.
Qed.

Lemma t_unquoted_suffix t : exists u, t = u ++ snd (t_unquoted t).
Proof. unfold t_unquoted. pose proof (span_while_app not_comma t) as H. destruct (span_while not_comma t) as [a b]. exists a. symmetry. exact H. Qed.

Lemma t_value_suffix t psh : exists u, t = u ++ snd (fst (t_value t psh)).
Proof.
  destruct t as [|c r]; [exists []; reflexivity|]. unfold t_value. destruct (is_quote c); [|apply t_unquoted_suffix].
  destruct (quoted_split c false r) as [[v rest]|] eqn:E; [|apply t_unquoted_suffix].
  apply quoted_split_app in E. exists (c :: v ++ [c]). cbn [fst snd]. rewrite E. cbn. rewrite <- app_assoc. reflexivity.
Qed.

(** * The span-level functions are these *)

Lemma skip_at s a d b e : skip (skip s a d) b e = skip s (a ++ b) e.
Proof. apply skip_skip. Qed.

Lemma ea_parse_name_eq s : exists u v,
  ea_parse_name s = Ok (option_map (fun n => with_data s n) (fst (t_name (sp_data s))), skip s u v) /\
  sp_data s = u ++ v /\ v = snd (t_name (sp_data s)) /\
  (forall n, fst (t_name (sp_data s)) = Some n -> exists w, sp_data s = n ++ w).
Proof.
  unfold ea_parse_name, take_attr_name. rewrite take_name_ok. cbn [bind]. unfold p_take_name, t_name.
  destruct (sp_data s) as [|c r] eqn:D; cbn [fst snd option_map].
  - exists [], []. rewrite skip_nil. replace (with_data s []) with s by (rewrite <- D, with_data_self; reflexivity).
    split; [reflexivity|]. split; [reflexivity|]. split; [reflexivity|discriminate].
  - assert (B : exists u v, Ok (@None span, s) = Ok (None, skip s u v) /\ c :: r = u ++ v /\ v = c :: r /\
                  (forall n, @None text = Some n -> exists w, c :: r = n ++ w)).
    { exists [], (c :: r). rewrite skip_nil. replace (with_data s (c :: r)) with s by (rewrite <- D, with_data_self; reflexivity).
      split; [reflexivity|]. split; [reflexivity|]. split; [reflexivity|discriminate]. }
    destruct (is_ascii_alnum c); [|exact B].
    fold attr_more. pose proof (span_while_app attr_more r) as H. change (fun c0 => is_ascii_alnum c0 || (c0 =? DASH)%N) with attr_more.
    destruct (span_while attr_more r) as [a b]. cbn in H. cbn [psplit mi_after].
    unfold take_whitespace_with_newline at 1. rewrite take_while_ok. cbn [bind].
    destruct (pwhile_at (skip s (c :: a) b) is_sp_tab_lf) as (w & b1 & E1 & D1 & ->). rewrite sp_data_skip in E1, D1.
    replace (dw is_sp_tab_lf b) with b1 by (unfold dw; rewrite E1; reflexivity). cbn [mi_after]. rewrite take_prefix_ok. unfold p_take_prefix.
    rewrite !sp_data_skip, !skip_at.
    destruct b1 as [|e b']; [exact B|]. unfold starts_with. change (lit "=") with [61%N].
    cbn [starts_with]. rewrite (N.eqb_sym 61 e). destruct (N.eqb_spec e 61) as [->|]; cbn [andb]; [|exact B].
    cbn [bind psplit mi_after length skipn]. unfold take_whitespace_with_newline. rewrite take_while_ok. cbn [bind].
    rewrite skip_at.
    destruct (pwhile_at (skip s (((c :: a) ++ w) ++ [61%N]) b') is_sp_tab_lf) as (w2 & b2 & E2 & D2 & ->). rewrite sp_data_skip in E2, D2.
    replace (dw is_sp_tab_lf b') with b2 by (unfold dw; rewrite E2; reflexivity). cbn [mi_after]. rewrite sp_data_skip.
    destruct b2 as [|d v]; [exact B|]. destruct (d =? COMMA)%N; [exact B|].
    cbn [fst snd option_map mi_item psplit]. rewrite skip_at. eexists _, (d :: v). split; [reflexivity|]. split; [|split; [reflexivity|]].
    + rewrite <- H, D1, D2. cbn. rewrite <- !app_assoc. cbn. rewrite <- ?app_assoc. reflexivity.
    + intros n Hn. injection Hn as <-. exists b. rewrite <- H. reflexivity.
Qed.

Lemma ea_unquoted_eq s : exists u, ea_unquoted s = Ok (mkmi (with_data s (fst (t_unquoted (sp_data s)))) (skip s u (snd (t_unquoted (sp_data s))))) /\
  sp_data s = u ++ snd (t_unquoted (sp_data s)) /\ exists w, sp_data s = fst (t_unquoted (sp_data s)) ++ w.
Proof.
  unfold ea_unquoted. rewrite take_while_ok. cbn [bind]. rewrite trim_item_spaces_ok.
  destruct (pwhile_at s (fun c => negb (c =? COMMA)%N)) as (a & b & E & D & ->). cbn [mi_item mi_after].
  unfold t_unquoted, not_comma. rewrite E. exists a. split; [reflexivity|]. split; [exact D|]. cbn [fst].
  destruct (trim_end_by_app (N.eqb SP) a) as (w & Hw & _). exists (w ++ b). rewrite D, Hw at 1. rewrite <- app_assoc. reflexivity.
Qed.

Lemma ea_parse_value_eq s psh : exists m,
  ea_parse_value s psh = Ok (m, snd (t_value (sp_data s) psh)) /\ Sub s (mi_item m) /\ Suffix s (mi_after m) /\
  sp_data (mi_item m) = fst (fst (t_value (sp_data s) psh)) /\ sp_data (mi_after m) = snd (fst (t_value (sp_data s) psh)).
Proof.
  assert (B : forall x : bool * list warning_type, exists m, (v <- ea_unquoted s ;; Ok (v, x)) = Ok (m, x) /\ Sub s (mi_item m) /\ Suffix s (mi_after m) /\
     sp_data (mi_item m) = fst (t_unquoted (sp_data s)) /\ sp_data (mi_after m) = snd (t_unquoted (sp_data s))).
  { intros x. destruct (ea_unquoted_eq s) as (u & -> & D & w & Dw). cbn [bind]. eexists. split; [reflexivity|]. cbn [mi_item mi_after].
    split; [|split; [apply Suffix_intro; exact D|split; [reflexivity|apply sp_data_skip]]].
    rewrite <- skip_nil. apply (Sub_intro s [] _ w). exact Dw. }
  unfold ea_parse_value, t_value. destruct (sp_data s) as [|c r] eqn:D; [apply (B (psh, []))|].
  destruct (is_quote c) eqn:Q; [|apply (B (psh, []))].
  rewrite take_quoted_string_ok. unfold p_take_quoted_string. rewrite D. unfold is_quote in Q.
  change 39%N with SQUOTE. change 34%N with DQUOTE. rewrite Q. cbn [bind].
  destruct (quoted_split c false r) as [[a b]|] eqn:E; cbn [bind]; [|apply (B (psh, [WAttributeValueMissingTerminatingQuote]))].
  apply quoted_split_app in E. eexists. split; [reflexivity|]. cbn [mi_item mi_after fst snd]. rewrite !sp_data_skip.
  split; [apply (Sub_intro s [c] a (c :: b)); rewrite D, E; reflexivity|]. split; [|auto].
  apply Suffix_intro. rewrite D, E. cbn. rewrite <- app_assoc. reflexivity.
Qed.

(** The whole of one attribute: name, value, shorthand (indices and warnings), warnings, rest. *)
Record t_attr := mkta { ta_name : option text; ta_value : text; ta_idx : list nat; ta_warn : list warning_type; ta_rest : text }.
Definition t_parse (norm : text -> res text) (ctx : attrlist_context) (psh : bool) (t : text) : res t_attr :=
  let na := t_name t in
  let after := dw is_sp_tab_lf (snd na) in
  let v := t_value after psh in
  value <- ea_finish_value norm ctx (hd_error after) (fst (fst v)) ;;
  sh <- match fst na with
        | None => if fst (snd v) then parse_shorthand_items value else Ok ([], [])
        | Some _ => Ok ([], [])
        end ;;
  Ok (mkta (fst na) value (fst sh) (snd (snd v) ++ snd sh) (snd (fst v))).

Lemma t_parse_suffix norm ctx psh t r : t_parse norm ctx psh t = Ok r -> exists u, t = u ++ ta_rest r.
Proof.
  intros H. unfold t_parse in H. apply bind_ok in H. destruct H as (v & _ & H). apply bind_ok in H. destruct H as (sh & _ & H).
  apply Ok_inj in H. subst r. cbn [ta_rest]. destruct (t_name_suffix t) as [u1 H1]. destruct (dw_suffix is_sp_tab_lf (snd (t_name t))) as [u2 H2].
  destruct (t_value_suffix (dw is_sp_tab_lf (snd (t_name t))) psh) as [u3 H3]. exists (u1 ++ u2 ++ u3).
  rewrite H1, H2, H3 at 1. rewrite <- !app_assoc. reflexivity.
Qed.

Lemma Suffix_off s s' pre : Suffix s s' -> sp_data s = pre ++ sp_data s' -> sp_off s' = sp_off s + blen pre.
Proof.
  intros (p & D & ->) E. rewrite sp_off_skip. rewrite sp_data_skip in *. rewrite D in E. apply app_inv_tail in E. subst. reflexivity.
Qed.

Lemma ea_parse_eq norm src b pre t psh ctx : src = pre ++ t ->
  ea_parse norm src b (blen pre) psh ctx =
  (r <- t_parse norm ctx psh t ;; Ok (mkea (ta_name r) (ta_value r) (ta_idx r), (blen src - blen (ta_rest r), ta_warn r))).
Proof.
  intros Hs. unfold ea_parse, t_parse. rewrite (discard_blen (span_new src) pre t Hs). cbn [bind].
  set (s := skip (span_new src) pre t).
  assert (Ss : Sub (span_new src) s) by (apply (Sub_intro _ pre t []); rewrite app_nil_r; exact Hs).
  assert (Sf : Suffix (span_new src) s) by (apply Suffix_intro; exact Hs).
  assert (Ds : sp_data s = t) by apply sp_data_skip.
  destruct (ea_parse_name_eq s) as (u & v & -> & Dv & Ev & Hn). rewrite Ds in *. cbn [bind fst snd].
  unfold take_whitespace_with_newline. rewrite take_while_ok. cbn [bind].
  destruct (pwhile_at (skip s u v) is_sp_tab_lf) as (w & x & E1 & D1 & ->). rewrite sp_data_skip in E1, D1. cbn [mi_after].
  rewrite skip_skip. set (s2 := skip s (u ++ w) x).
  assert (D2 : sp_data s2 = x) by apply sp_data_skip.
  assert (F2 : Suffix s s2) by (apply Suffix_intro; rewrite Ds, Dv, D1, app_assoc; reflexivity).
  destruct (ea_parse_value_eq s2 psh) as (m & -> & Sm & Fm & Dm & Em). rewrite D2 in *. cbn [bind fst snd].
  rewrite cowstr_ok by (eapply Sub_trans; [exact Ss|eapply Sub_trans; [apply Suffix_Sub; exact F2|exact Sm]]).
  cbn [bind]. rewrite Dm. rewrite <- Ev. replace (dw is_sp_tab_lf v) with x by (unfold dw; rewrite E1; reflexivity).
  destruct (ea_finish_value norm ctx (hd_error x) (fst (fst (t_value x psh)))) as [val| |]; [|reflexivity|reflexivity]. cbn [bind].
  assert (Hoff : sp_off (mi_after m) = blen src - blen (snd (fst (t_value x psh)))).
  { assert (F : Suffix (span_new src) (mi_after m)) by (eapply Suffix_trans; [exact Sf|eapply Suffix_trans; [exact F2|exact Fm]]).
    destruct F as (p & Dp & Ep). rewrite Ep, sp_off_skip. cbn [span_new sp_off sp_data] in *. rewrite Em in Dp. rewrite Dp, blen_app. lia. }
  rewrite Hoff.
  destruct (fst (t_name t)) as [n|] eqn:En; cbn [option_map].
  - cbn [bind fst snd]. destruct (Hn n eq_refl) as [w' Hw'].
    rewrite cowstr_ok by (eapply Sub_trans; [exact Ss|]; rewrite <- skip_nil; apply (Sub_intro s [] n w'); rewrite Ds; exact Hw').
    cbn [bind with_data sp_data]. reflexivity.
  - destruct (if fst (snd (t_value x psh)) then parse_shorthand_items val else Ok ([], [])) as [sh| |]; reflexivity.
Qed.

(** * Shorthand *)

(** The run before the first delimiter, and the pieces that begin with a delimiter. *)
Fixpoint grp (t : text) : text * list text :=
  match t with
  | [] => ([], [])
  | c :: r => let '(run, cs) := grp r in
              if is_shorthand_delimiter c then ([], (c :: run) :: cs) else (c :: run, cs)
  end.
Definition no_delim (t : text) : Prop := Forall (fun c => is_shorthand_delimiter c = false) t.
Definition is_chunk (t : text) : Prop := exists d r, t = d :: r /\ is_shorthand_delimiter d = true /\ no_delim r.

Lemma grp_spec t : t = fst (grp t) ++ concat (snd (grp t)) /\ no_delim (fst (grp t)) /\ Forall is_chunk (snd (grp t)).
Proof.
  induction t as [|c t (H1 & H2 & H3)]; cbn [grp]; [repeat split; constructor|].
  destruct (grp t) as [run cs]; cbn [fst snd] in *. destruct (is_shorthand_delimiter c) eqn:E; cbn [fst snd concat app].
  - split; [congruence|]. split; [constructor|]. constructor; [exists c, run; auto|exact H3].
  - split; [congruence|]. split; [constructor; auto|exact H3].
Qed.

Lemma grp_run run t : no_delim run -> grp (run ++ t) = (run ++ fst (grp t), snd (grp t)).
Proof.
  induction 1 as [|c run Hc _ IH]; cbn [app grp]; [destruct (grp t); reflexivity|]. rewrite IH, Hc. reflexivity.
Qed.
Lemma grp_unique run cs : no_delim run -> Forall is_chunk cs -> grp (run ++ concat cs) = (run, cs).
Proof.
  intros Hr Hc. rewrite grp_run by exact Hr. assert (E : grp (concat cs) = ([], cs)).
  { induction Hc as [|c cs (d & r & -> & Hd & Hn) _ IH]; [reflexivity|]. cbn [concat app grp]. rewrite grp_run by exact Hn. rewrite IH, Hd. cbn. rewrite app_nil_r. reflexivity. }
  rewrite E. cbn. rewrite app_nil_r. reflexivity.
Qed.

Fixpoint offsets (n : nat) (cs : list text) : list nat :=
  match cs with [] => [] | c :: r => n :: offsets (n + blen c) r end.
Definition empties (cs : list text) : list warning_type :=
  flat_map (fun c => if length c =? 1 then [WEmptyShorthandItem] else []) cs.

Lemma delim_clen d : is_shorthand_delimiter d = true -> clen d = 1.
Proof.
  unfold is_shorthand_delimiter. destruct (N.eqb_spec d HASH) as [->|]; [reflexivity|].
  destruct (N.eqb_spec d PERCENT) as [->|]; [reflexivity|]. destruct (N.eqb_spec d DOT) as [->|]; [reflexivity|discriminate].
Qed.

Lemma position_run r t : no_delim r -> position is_shorthand_delimiter (r ++ t) = option_map (Nat.add (blen r)) (position is_shorthand_delimiter t).
Proof.
  induction 1 as [|c r Hc _ IH]; cbn [app position blen]; [destruct (position _ t); reflexivity|].
  rewrite Hc, IH. destruct (position _ t); cbn; [rewrite Nat.add_assoc|]; reflexivity.
Qed.

Lemma shorthand_loop_eq cs : Forall is_chunk cs -> forall src pre fuel, src = pre ++ concat cs -> length (concat cs) <= fuel ->
  shorthand_loop fuel (skip (span_new src) pre (concat cs)) = Ok (offsets (blen pre) cs, empties cs).
Proof.
  induction 1 as [|c cs (d & r & -> & Hd & Hn) Hcs IH]; intros src pre fuel Hs Hf.
  - destruct fuel; cbn [shorthand_loop]; rewrite sp_data_skip; reflexivity.
  - destruct fuel as [|f]; [cbn in Hf; lia|]. cbn [shorthand_loop]. rewrite sp_data_skip. cbn [concat app].
    set (t := concat cs) in *. change (concat ((d :: r) :: cs)) with (d :: r ++ t) in *.
    pose proof (delim_clen d Hd) as Hc1.
    set (s := skip (span_new src) pre (d :: r ++ t)).
    assert (Ed : discard s 1 = Ok (skip s [d] (r ++ t))).
    { replace 1 with (blen [d]) by (cbn; lia). apply discard_blen. apply sp_data_skip. }
    rewrite Ed. cbn [bind]. rewrite !sp_data_skip. rewrite position_run by exact Hn.
    assert (Ho : sp_off s = blen pre) by (unfold s; rewrite sp_off_skip; reflexivity).
    assert (Hf' : length t <= f) by (cbn in Hf; rewrite app_length in Hf; lia).
    assert (IH1 := IH src (pre ++ d :: r) f). rewrite blen_app in IH1. cbn [blen] in IH1.
    assert (Hs1 : src = (pre ++ d :: r) ++ t) by (rewrite <- app_assoc; exact Hs). specialize (IH1 Hs1 Hf').
    cbn [offsets empties flat_map length blen].
    destruct cs as [|c2 cs'] eqn:Ecs.
    + cbn [concat] in t. subst t. cbn [position option_map]. rewrite app_nil_r. destruct r as [|x r'].
      * unfold s. rewrite skip_skip. cbn [app].
        rewrite IH1. cbn [bind fst snd]. rewrite sp_off_skip. reflexivity.
      * rewrite discard_all_ok. cbn [bind]. unfold p_discard_all, s. rewrite sp_data_skip, skip_skip.
        rewrite app_nil_r. rewrite IH1. cbn [bind fst snd]. rewrite sp_off_skip. reflexivity.
    + inversion Hcs as [|z1 z2 (d2 & r2 & E2 & Hd2 & _) _]; subst c2. subst t. cbn [concat app position] in *. rewrite Hd2. cbn [option_map]. rewrite Nat.add_0_r.
      destruct r as [|x r'].
      * cbn [blen app]. unfold s. rewrite skip_skip. rewrite IH1. cbn [bind fst snd]. rewrite sp_off_skip. reflexivity.
      * assert (Hb : 0 < blen (x :: r')) by (cbn [blen]; unfold clen; destruct (x <? 128)%N, (x <? 2048)%N, (x <? 65536)%N; lia).
        destruct (blen (x :: r')) as [|k] eqn:Ek; [lia|]. replace (S k + 1) with (blen (d :: x :: r')) by (cbn [blen] in *; lia).
        rewrite (ipr_ok s (d :: x :: r') (d2 :: r2 ++ concat cs')) by apply sp_data_skip. cbn [bind psplit mi_after].
        unfold s. rewrite skip_skip. rewrite IH1. cbn [bind fst snd]. rewrite sp_off_skip. cbn [blen]. reflexivity.
Qed.

(** The items kept: not a lone delimiter, blanks at the end dropped, not empty. *)
Definition keep1 (c : text) : list text :=
  if text_eqb c [HASH] || text_eqb c [DOT] || text_eqb c [PERCENT] then []
  else match trim_end c with [] => [] | i => [i] end.
Lemma items_eq cs : forall pre v, v = pre ++ concat cs ->
  shorthand_items_go v (offsets (blen pre) cs) = Ok (flat_map keep1 cs).
Proof.
  induction cs as [|c cs IH]; intros pre v Hv; cbn [offsets shorthand_items_go flat_map]; [reflexivity|].
  assert (Hi : (match offsets (blen pre + blen c) cs with next :: _ => str_range (blen pre) next v | [] => str_from (blen pre) v end) = Ok c).
  { destruct cs as [|c2 cs2]; cbn [offsets].
    - cbn [concat] in Hv. rewrite app_nil_r in Hv. unfold str_from. rewrite Hv, bsplit_app. reflexivity.
    - unfold str_range, str_to, str_from. rewrite Hv, <- blen_app. change (concat (c :: c2 :: cs2)) with (c ++ concat (c2 :: cs2)).
      rewrite app_assoc, bsplit_app. cbn [bind of_option]. rewrite bsplit_app. reflexivity. }
  rewrite Hi. cbn [bind]. rewrite <- blen_app, (IH (pre ++ c) v) by (rewrite Hv; cbn; rewrite <- app_assoc; reflexivity).
  cbn [bind]. unfold keep1. destruct (text_eqb c [HASH] || text_eqb c [DOT] || text_eqb c [PERCENT]); [reflexivity|].
  destruct (trim_end c); reflexivity.
Qed.

Definition sh_items (v : text) : list text := flat_map keep1 (dw is_sp_tab (fst (grp v)) :: snd (grp v)).
Lemma position_none r : no_delim r -> position is_shorthand_delimiter r = None.
Proof. intros H. rewrite <- (app_nil_r r), position_run by exact H. reflexivity. Qed.
Lemma parse_shorthand_items_eq v : exists idx,
  parse_shorthand_items v = Ok (idx, empties (snd (grp v))) /\ shorthand_items_go v idx = Ok (sh_items v).
Proof.
  destruct (grp_spec v) as (Hv & Hn & Hc). unfold sh_items. destruct (grp v) as [run cs] eqn:E; cbn [fst snd] in *.
  unfold parse_shorthand_items, split_at_match_non_empty. cbn [span_new sp_data].
  assert (Hp : position is_shorthand_delimiter v = match cs with [] => None | _ => Some (blen run) end).
  { rewrite Hv, position_run by exact Hn. destruct cs as [|c cs]; [reflexivity|]. inversion Hc as [|? ? (d & r & -> & Hd & _) _]; subst. cbn. rewrite Hd. cbn. rewrite Nat.add_0_r. reflexivity. }
  rewrite Hp. clear Hp. destruct run as [|x run'].
  - cbn [app] in Hv. assert (B : shorthand_loop (length v) (span_new v) = Ok (offsets 0 cs, empties cs)).
    { rewrite <- (with_data_self (span_new v)). rewrite <- skip_nil. cbn [span_new sp_data]. rewrite Hv at 3.
      apply (shorthand_loop_eq cs Hc v [] (length v)); [exact Hv|rewrite <- Hv; lia]. }
    assert (I : shorthand_items_go v (offsets 0 cs) = Ok (flat_map keep1 (dw is_sp_tab [] :: cs))) by (apply (items_eq cs [] v Hv)).
    destruct cs as [|c cs]; cbn [blen].
    + cbn in Hv. subst v. exists []. split; reflexivity.
    + cbn [bind]. exists (offsets 0 (c :: cs)). split; [exact B|exact I].
  - set (run := x :: run') in *. destruct (span_while is_sp_tab run) as [w st] eqn:Ew.
    pose proof (span_while_app is_sp_tab run) as Ha. rewrite Ew in Ha. cbn in Ha. unfold dw. rewrite Ew. cbn [snd].
    exists (blen w :: offsets (blen run) cs). split.
    + assert (G : (o <- (mi <- into_parse_result (span_new v) (blen run) ;; Ok (Some mi)) ;;
         match o with Some block_style_pr => d <- discard_whitespace (mi_item block_style_pr) ;; r <- shorthand_loop (length v) (mi_after block_style_pr) ;; Ok (sp_off d :: fst r, snd r)
                    | None => shorthand_loop (length v) (span_new v) end) = Ok (blen w :: offsets (blen run) cs, empties cs)).
      { rewrite (ipr_ok (span_new v) run (concat cs)) by exact Hv. cbn [bind psplit mi_item mi_after].
        rewrite discard_whitespace_ok. cbn [bind]. unfold p_discard_whitespace, p_take_whitespace, p_take_while. cbn [with_data sp_data]. rewrite Ew. cbn [psplit mi_after].
        rewrite sp_off_skip. cbn [with_data sp_off span_new Nat.add].
        rewrite (shorthand_loop_eq cs Hc v run (length v)); [reflexivity|exact Hv|]. rewrite Hv, app_length. lia. }
      destruct cs as [|c cs].
      * cbn [concat] in Hv. rewrite app_nil_r in Hv. rewrite Hv in G |- *. unfold run at 1 2 3 in G. unfold run at 1 2. exact G.
      * assert (Hb : blen run <> 0) by (unfold run; cbn [blen]; unfold clen; destruct (x <? 128)%N, (x <? 2048)%N, (x <? 65536)%N; lia).
        destruct (blen run) as [|k] eqn:Ek; [lia|]. exact G.
    + change (blen w :: offsets (blen run) cs) with (blen w :: offsets (blen run) cs). rewrite <- Ha, blen_app.
      apply (items_eq (st :: cs) w v). rewrite Hv, <- Ha. cbn. rewrite <- app_assoc. reflexivity.
Qed.

(** * The loop *)

Fixpoint t_loop (norm : text -> res text) (fuel : nat) (ctx : attrlist_context) (attributes : list element_attribute)
    (psh : bool) (ws : list warning_type) (t : text) : res (list element_attribute * (list warning_type * text)) :=
  match fuel with
  | 0 => OutOfFuel
  | S f =>
      r <- t_parse norm ctx psh t ;;
      let attr := mkea (ta_name r) (ta_value r) (ta_idx r) in
      let ws := ws ++ ta_warn r in
      let psh := if unnamed attr then false else psh in
      if unnamed attr && is_nil (ea_value attr) && is_nil (ta_rest r) && is_nil attributes
      then Ok (attributes, (ws, t))
      else
        let attributes := if unnamed attr || negb (text_eqb (ea_value attr) (lit "None")) then attributes ++ [attr] else attributes in
        match dw is_sp_tab (ta_rest r) with
        | c :: t1 =>
            if (c =? COMMA)%N then
              match dw is_sp_tab t1 with
              | d :: t2 => if (d =? COMMA)%N then t_loop norm f ctx attributes psh (ws ++ [WEmptyAttributeValue]) t2
                           else t_loop norm f ctx attributes psh ws (d :: t2)
              | [] => t_loop norm f ctx attributes psh ws []
              end
            else Ok (attributes, (ws, c :: t1))
        | [] => Ok (attributes, (ws, []))
        end
  end.

Lemma attrlist_loop_eq norm src b ctx : forall fuel pre t attrs psh ws, src = pre ++ t ->
  attrlist_loop norm fuel src b ctx attrs psh ws (blen pre) =
  (r <- t_loop norm fuel ctx attrs psh ws t ;; Ok (fst r, (fst (snd r), blen src - blen (snd (snd r))))).
Proof.
  induction fuel as [|f IH]; intros pre t attrs psh ws Hs; [reflexivity|]. cbn [attrlist_loop t_loop].
  rewrite (ea_parse_eq norm src b pre t psh ctx Hs). destruct (t_parse norm ctx psh t) as [r| |] eqn:E; [|reflexivity|reflexivity].
  cbn [bind fst snd]. apply t_parse_suffix in E. destruct E as [u Hu].
  set (attr := mkea (ta_name r) (ta_value r) (ta_idx r)).
  assert (D : src = (pre ++ u) ++ ta_rest r) by (rewrite <- app_assoc, <- Hu; exact Hs).
  assert (Ho : blen src - blen (ta_rest r) = blen (pre ++ u)) by (rewrite D, (blen_app _ (ta_rest r)); lia).
  rewrite Ho, (discard_blen (span_new src) (pre ++ u) (ta_rest r) D). cbn [bind]. rewrite sp_data_skip.
  destruct (unnamed attr && is_nil (ea_value attr) && is_nil (ta_rest r) && is_nil attrs).
  { cbn [bind fst snd]. repeat f_equal. rewrite Hs, blen_app. lia. }
  set (psh' := if unnamed attr then false else psh).
  set (attrs' := if unnamed attr || negb (text_eqb (ea_value attr) (lit "None")) then attrs ++ [attr] else attrs).
  unfold take_whitespace at 1. rewrite take_while_ok. cbn [bind].
  destruct (pwhile_at (skip (span_new src) (pre ++ u) (ta_rest r)) is_sp_tab) as (w & x & E1 & D1 & ->). rewrite sp_data_skip in E1, D1. cbn [mi_after].
  rewrite skip_skip. replace (dw is_sp_tab (ta_rest r)) with x by (unfold dw; rewrite E1; reflexivity).
  rewrite take_prefix_ok. unfold p_take_prefix. rewrite sp_data_skip. change (lit ",") with [COMMA].
  assert (D2 : src = ((pre ++ u) ++ w) ++ x) by (rewrite D, D1, <- !app_assoc; reflexivity).
  assert (B : sp_off (skip (span_new src) ((pre ++ u) ++ w) x) = blen src - blen x).
  { rewrite sp_off_skip. cbn [span_new sp_off Nat.add]. rewrite D2, (blen_app _ x). lia. }
  destruct x as [|c t1]; cbn [starts_with bind fst snd].
  { rewrite B. reflexivity. }
  rewrite (N.eqb_sym COMMA c). destruct (N.eqb_spec c COMMA) as [->|Hc]; cbn [andb bind fst snd]; [|rewrite B; reflexivity].
  cbn [psplit mi_after skipn length]. rewrite skip_skip.
  unfold take_whitespace. rewrite take_while_ok. cbn [bind].
  destruct (pwhile_at (skip (span_new src) (((pre ++ u) ++ w) ++ [COMMA]) t1) is_sp_tab) as (w2 & y & E2 & D3 & ->). rewrite sp_data_skip in E2, D3. cbn [mi_after].
  rewrite skip_skip, sp_data_skip. replace (dw is_sp_tab t1) with y by (unfold dw; rewrite E2; reflexivity).
  set (p2 := (((pre ++ u) ++ w) ++ [COMMA]) ++ w2).
  assert (D4 : src = p2 ++ y) by (unfold p2; rewrite D2, D3, <- !app_assoc; reflexivity).
  destruct y as [|d t2].
  { cbn [starts_with]. rewrite sp_off_skip. cbn [span_new sp_off Nat.add]. apply IH. exact D4. }
  cbn [starts_with]. rewrite (N.eqb_sym COMMA d). destruct (N.eqb_spec d COMMA) as [->|Hd]; cbn [andb].
  - replace (discard (skip (span_new src) p2 (COMMA :: t2)) 1) with (Ok (skip (span_new src) (p2 ++ [COMMA]) t2)).
    + cbn [bind]. rewrite sp_off_skip. cbn [span_new sp_off Nat.add]. apply IH. rewrite D4, <- app_assoc. reflexivity.
    + symmetry. change 1 with (blen [COMMA]). rewrite (discard_blen _ [COMMA] t2) by apply sp_data_skip. rewrite skip_skip. reflexivity.
  - rewrite sp_off_skip. cbn [span_new sp_off Nat.add]. apply IH. exact D4.
Qed.
