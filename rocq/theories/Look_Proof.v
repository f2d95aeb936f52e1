(** [replace_with_lookahead]: with a replacer that never asks for a retry it is [replace_all]; it always
    ends; and what a retry does. *)
From Verif Require Import Text TextFacts Span_Model Span_Proof Span_Laws Regex Regex_Proof Regex_Scan Attrlist_Model Look_Model.

Lemma str_from_at a b : str_from (blen a) (a ++ b) = Ok b.
Proof. unfold str_from. rewrite bsplit_app. reflexivity. Qed.
Lemma str_to_at a b : str_to (blen a) (a ++ b) = Ok a.
Proof. unfold str_to. rewrite bsplit_app. reflexivity. Qed.
Lemma str_range_at a b c : str_range (blen a) (blen a + blen b) (a ++ b ++ c) = Ok b.
Proof. unfold str_range. rewrite <- blen_app, app_assoc, str_to_at. cbn [bind]. apply str_from_at. Qed.

Lemma fill_end l ts e : fill l ts e = fill l ts [] ++ e.
Proof. unfold fill. rewrite app_nil_r. reflexivity. Qed.
Lemma seg_text_cons p m l : seg_text ((p, m) :: l) = (p ++ m_text m) ++ seg_text l.
Proof. reflexivity. Qed.

Section Pure.
  Context (U : unicode) (r : re) (rep : mtch -> text -> res (look_result * text)) (f : mtch -> res text).
  Lemma look_for_pure h l : (forall p m d, In (p, m) l -> rep m d = (x <- f m ;; Ok (LContinue, d ++ x))) ->
    forall pre e new, h = pre ++ seg_text l ++ e ->
    look_for rep h l (blen pre) (blen pre) new =
    (ts <- rmap_all (fun pm => f (snd pm)) l ;; Ok (LDone (blen (pre ++ seg_text l)) (new ++ fill l ts []))).
  Proof.
    induction l as [|[p m] l IH]; intros H pre e new E.
    - cbn. unfold fill. cbn. rewrite !app_nil_r. reflexivity.
    - cbn [look_for rmap_all snd]. rewrite seg_text_cons in *.
      assert (R : str_range (blen pre) (blen pre + blen p) h = Ok p) by (rewrite E, <- !app_assoc; apply str_range_at). rewrite R. cbn [bind].
      rewrite (H p m) by (left; reflexivity). destruct (f m) as [x| |]; [|reflexivity|reflexivity]. cbn [bind fst snd].
      replace (blen pre + blen p + blen (m_text m)) with (blen (pre ++ p ++ m_text m)) by (rewrite !blen_app; lia).
      rewrite (IH (fun p0 m0 d Hin => H p0 m0 d (or_intror Hin)) (pre ++ p ++ m_text m) e) by (rewrite E, <- !app_assoc; reflexivity).
      destruct (rmap_all (fun pm => f (snd pm)) l) as [ts| |]; [|reflexivity|reflexivity]. cbn [bind]. rewrite fill_cons, <- !app_assoc. reflexivity.
  Qed.
  Lemma look_pure_in h : (forall p m d, In (p, m) (fst (find_all U r h)) -> rep m d = (x <- f m ;; Ok (LContinue, d ++ x))) ->
    replace_with_lookahead U r rep h = replace_all_pure U r f h.
  Proof.
    intros H. rewrite replace_all_pure_eq. unfold replace_with_lookahead. cbn [look_loop].
    pose proof (find_all_partition U r h) as Pt. destruct (find_all U r h) as [l e]. cbn [fst] in H |- *. specialize (Pt l e eq_refl).
    destruct l as [|pm l].
    - cbn. unfold fill. cbn. rewrite Pt. reflexivity.
    - change 0 with (blen []). rewrite (look_for_pure h (pm :: l) H [] e []) by exact Pt.
      destruct (rmap_all (fun pm0 => f (snd pm0)) (pm :: l)) as [ts| |]; [|reflexivity|reflexivity]. cbn [bind]. cbn [app].
      rewrite Pt at 1. rewrite str_from_at. cbn [bind]. rewrite (fill_end _ ts e). reflexivity.
  Qed.
  Lemma look_pure h : (forall m d, rep m d = (x <- f m ;; Ok (LContinue, d ++ x))) -> replace_with_lookahead U r rep h = replace_all_pure U r f h.
  Proof. intros H. apply look_pure_in. auto. Qed.
End Pure.

Lemma str_from_len n t x : str_from n t = Ok x -> blen t = n + blen x.
Proof.
  unfold str_from. destruct (bsplit n t) as [[a b]|] eqn:E; [|discriminate]. cbn. intros H. apply Ok_inj in H. subst b.
  apply bsplit_some in E. destruct E as [-> E]. rewrite blen_app. lia.
Qed.
Lemma str_from_nf n t : str_from n t <> OutOfFuel.
Proof. unfold str_from. destruct (bsplit n t) as [[]|]; discriminate. Qed.
Lemma str_to_nf n t : str_to n t <> OutOfFuel.
Proof. unfold str_to. destruct (bsplit n t) as [[]|]; discriminate. Qed.
Lemma str_range_nf a b t : str_range a b t <> OutOfFuel.
Proof. unfold str_range. pose proof (str_to_nf b t). destruct (str_to b t); [apply str_from_nf|discriminate|contradiction]. Qed.

(** The loop always ends. *)
Section Ends.
  Context (U : unicode) (r : re) (rep : mtch -> text -> res (look_result * text)).
  Hypothesis Hrep : forall pv x m d, match_here U r pv x = Some m -> rep m d <> OutOfFuel.
  Lemma look_for_ends h l : (forall p m, In (p, m) l -> exists pv x, match_here U r pv x = Some m) -> forall pos last new,
    match look_for rep h l pos last new with
    | OutOfFuel => False | Panic => True | Ok (LDone _ _) => True | Ok (LRetry h' _ _) => blen h' < blen h
    end.
  Proof.
    induction l as [|[p m] l IH]; intros Hl pos last new; [exact I|]. cbn [look_for].
    pose proof (str_range_nf last (pos + blen p) h) as F. destruct (str_range last (pos + blen p) h) as [pc| |]; [|exact I|congruence]. cbn [bind].
    destruct (Hl p m (or_introl eq_refl)) as (pv & x & Hm). pose proof (Hrep pv x m (new ++ pc) Hm) as G. destruct (rep m (new ++ pc)) as [[[|n] d]| |]; [| |exact I|congruence]; cbn [bind fst snd].
    - apply IH. intros q k Hin. apply (Hl q k). right. exact Hin.
    - destruct n as [|n]; [exact I|]. pose proof (str_from_nf (pos + blen p + S n) h) as K. destruct (str_from (pos + blen p + S n) h) as [h'| |] eqn:E; [|exact I|congruence].
      cbn [bind]. apply str_from_len in E. lia.
  Qed.
  Lemma look_loop_ends : forall fuel h last new, blen h < fuel -> look_loop U r rep fuel h last new <> OutOfFuel.
  Proof.
    induction fuel as [|fuel IH]; intros h last new L; [lia|]. cbn [look_loop].
    assert (G : (o <- look_for rep h (fst (find_all U r h)) 0 last new ;;
            match o with LRetry h0 last0 new0 => look_loop U r rep fuel h0 last0 new0 | LDone last0 new0 => e <- str_from last0 h ;; Ok (new0 ++ e) end) <> OutOfFuel).
    { pose proof (look_for_ends h (fst (find_all U r h))) as E. specialize (fun H => E H 0 last new).
      assert (Hl : forall p m, In (p, m) (fst (find_all U r h)) -> exists pv x, match_here U r pv x = Some m).
      { intros p m Hin. unfold find_all in Hin. destruct (find_all_go _ U r false None h) as [l e] eqn:Ef. eapply find_all_go_matches; eassumption. }
      specialize (E Hl). destruct (look_for rep h (fst (find_all U r h)) 0 last new) as [[ls nw|h' ls nw]| |]; cbn [bind].
      - pose proof (str_from_nf ls h) as F. destruct (str_from ls h); cbn; congruence.
      - apply IH. lia.
      - discriminate.
      - contradiction. }
    destruct new; [destruct (fst (find_all U r h)); [discriminate|exact G]|exact G].
  Qed.
  Lemma look_ends h : replace_with_lookahead U r rep h <> OutOfFuel.
  Proof. apply look_loop_ends. lia. Qed.
End Ends.
