(** Proofs about including a file and writing its text there (C130). *)
From Verif Require Import Text TextFacts Maps Span_Model Span_Pure Span_Spec Span_Proof Span_Laws Parser_Model Subs_Model Attrlist_Model SourceMap_Model Entry_Model Entry_Spec Entry_Proof Regex Pre_Model Pre_Proof
  Header_Model Block_Model Doc_Model Seen_Spec Seen_Proof Shift_Spec Paste_Spec.

(** All but the source map and the number of the line. *)
Definition core (s : pre_state) : parser * bool * bool * text := (ps_parser s, ps_in_header s, ps_can_attr s, ps_out s).
Lemma core_inv s t : core s = core t -> ps_parser s = ps_parser t /\ ps_in_header s = ps_in_header t /\ ps_can_attr s = ps_can_attr t /\ ps_out s = ps_out t.
Proof. unfold core. intros H. injection H. auto. Qed.
Lemma core_report file rep n s : core (report file rep n s) = core s.
Proof. unfold report. destruct rep; reflexivity. Qed.
Lemma on_ok_core (r1 r2 : res pre_state) s1 : on_ok core r1 = on_ok core r2 -> r1 = Ok s1 -> exists s2, r2 = Ok s2 /\ core s2 = core s1.
Proof. intros H ->. cbn [on_ok] in H. destruct r2 as [s2| |]; try discriminate H. apply Ok_inj in H. eauto. Qed.
Lemma line_split (t : text) : exists x e r, t = x ++ e ++ r /\ ~ In LF x /\ eol e r.
Proof.
  induction t as [|c t (x & e & r & -> & H & He)]; [exists [], [], []; split; [reflexivity|]; split; [intros []|right; auto]|].
  destruct (N.eq_dec c LF) as [->|Nc]; [exists [], [LF], (x ++ e ++ r); split; [reflexivity|]; split; [intros []|left; reflexivity]|]. exists (c :: x), e, r. split; [reflexivity|]. split; [intros [K|K]; [congruence|contradiction]|exact He].
Qed.
Section pasted.
Context (U : unicode) (hdr norm : parser -> text -> res text) (ifh : include_handler).
Notation loop := (pre_loop U hdr norm ifh).
Lemma try_include_core s1 s2 l : ps_parser s1 = ps_parser s2 -> try_include U norm s1 l = try_include U norm s2 l.
Proof. intros H. unfold try_include. rewrite H. reflexivity. Qed.
Lemma body_same P a1 a2 : sp_data (at_name a1) = sp_data (at_name a2) -> at_value a1 = at_value a2 -> fst (set_attribute_from_body U P a1) = fst (set_attribute_from_body U P a2).
Proof. intros H1 H2. unfold set_attribute_from_body. rewrite H1, H2. cbv zeta. set (b := match mget _ _ with Some _ => _ | None => _ end). destruct b; reflexivity. Qed.
(** The same text at two places. *)
Lemma entry_same s1 s2 P : sp_data s1 = sp_data s2 ->
  (attribute_parse hdr s1 P = Panic /\ attribute_parse hdr s2 P = Panic) \/ (attribute_parse hdr s1 P = OutOfFuel /\ attribute_parse hdr s2 P = OutOfFuel) \/ (attribute_parse hdr s1 P = Ok None /\ attribute_parse hdr s2 P = Ok None) \/
  exists m1 m2, attribute_parse hdr s1 P = Ok (Some m1) /\ attribute_parse hdr s2 P = Ok (Some m2) /\ sp_data (mi_after m1) = sp_data (mi_after m2) /\
    sp_data (at_name (mi_item m1)) = sp_data (at_name (mi_item m2)) /\ at_value (mi_item m1) = at_value (mi_item m2) /\ sp_data (at_source (mi_item m1)) = sp_data (at_source (mi_item m2)).
Proof.
  intros H. destruct (logical_total (sp_data s1)) as (c & r & L). destruct (attribute_parse_eq hdr s1 P c r L) as (p1 & v1 & E1 & _). rewrite H in L. destruct (attribute_parse_eq hdr s2 P c r L) as (p2 & v2 & E2 & _). cbv zeta in E1, E2. rewrite E1, E2.
  destruct (e_parse _) as [[n [u rest]]|]; [|auto]. destruct (e_value hdr P u rest) as [v| |]; cbn [bind]; [|auto|auto]. right. right. right. eexists _, _. split; [reflexivity|]. split; [reflexivity|]. cbn [mi_after mi_item at_name at_value at_source]. rewrite !sp_data_skip. repeat split.
Qed.
Lemma same_loop f : forall file rep1 rep2 s1 s2 st1 st2, sp_data s1 = sp_data s2 -> core st1 = core st2 -> on_ok core (loop f file rep1 s1 st1) = on_ok core (loop f file rep2 s2 st2).
Proof.
  induction f as [|f IH]; intros file rep1 rep2 s1 s2 st1 st2 D C; [reflexivity|]. destruct (core_inv _ _ C) as (C1 & C2 & C3 & C4). cbn [pre_loop]. rewrite <- D. destruct (sp_data s1) as [|c0 t0] eqn:D1; [cbn [on_ok]; rewrite C; reflexivity|].
  destruct (line_split (c0 :: t0)) as (x & e & r & Dx & Hx & He). rewrite !take_line_ok. rewrite (p_take_line_eq s1 x e r Hx He) by congruence. rewrite (p_take_line_eq s2 x e r Hx He) by congruence. cbn [bind mi_item mi_after with_data sp_data sp_line]. cbv zeta.
  unfold try_attribute. rewrite <- C3, <- C1. rewrite <- (try_include_core st1 st2 _ C1).
  assert (Rest : on_ok core (inc <- try_include U norm st1 (strip_cr x) ;; match inc with
      | Some (target, al) => match ifh file target al (ps_parser st1) with
          | Some t => s' <- loop f (Some target) false (span_new t) st1 ;; loop f file false (skip s1 (x ++ e) r) s'
          | None => loop f file rep1 (skip s1 (x ++ e) r) (emit_unresolved file (strip_cr x) st1) end
      | None => loop f file true (skip s1 (x ++ e) r) (emit_line (strip_cr x) (report file rep1 (sp_line s1) st1)) end) =
    on_ok core (inc <- try_include U norm st1 (strip_cr x) ;; match inc with
      | Some (target, al) => match ifh file target al (ps_parser st1) with
          | Some t => s' <- loop f (Some target) false (span_new t) st2 ;; loop f file false (skip s2 (x ++ e) r) s'
          | None => loop f file rep2 (skip s2 (x ++ e) r) (emit_unresolved file (strip_cr x) st2) end
      | None => loop f file true (skip s2 (x ++ e) r) (emit_line (strip_cr x) (report file rep2 (sp_line s2) st2)) end)).
  { destruct (try_include U norm st1 (strip_cr x)) as [[[target al]|]| |]; cbn [bind]; try reflexivity.
    - destruct (ifh file target al (ps_parser st1)) as [t|].
      + pose proof (IH (Some target) false false (span_new t) (span_new t) st1 st2 eq_refl C) as K. destruct (loop f (Some target) false (span_new t) st1) as [a| |], (loop f (Some target) false (span_new t) st2) as [b| |]; cbn [on_ok] in K; try discriminate K; cbn [bind]; try reflexivity. apply Ok_inj in K. apply IH; [rewrite !sp_data_skip; reflexivity|exact K].
      + apply IH; [rewrite !sp_data_skip; reflexivity|]. unfold core, emit_unresolved. cbn [ps_parser ps_in_header ps_can_attr ps_out]. rewrite C1, C2, C3, C4. reflexivity.
    - apply IH; [rewrite !sp_data_skip; reflexivity|]. destruct (core_inv (report file rep1 (sp_line s1) st1) (report file rep2 (sp_line s2) st2)) as (K1 & K2 & K3 & K4); [rewrite !core_report; exact C|]. unfold core, emit_line. cbn [ps_parser ps_in_header ps_can_attr ps_out]. rewrite K1, K2, K3, K4. reflexivity. }
  destruct (ps_can_attr st1 && starts_with (lit ":") (strip_cr x) && _); [|exact Rest].
  destruct (entry_same s1 s2 (ps_parser st1)) as [(-> & ->)|[(-> & ->)|[(-> & ->)|(m1 & m2 & -> & -> & A1 & A2 & A3 & A4)]]]; [congruence|reflexivity|reflexivity|exact Rest|]. cbn [bind]. apply IH; [exact A1|].
  destruct (core_inv (report file rep1 (sp_line s1) st1) (report file rep2 (sp_line s2) st2)) as (K1 & K2 & K3 & K4); [rewrite !core_report; exact C|]. unfold core, emit_attribute. cbn [ps_parser ps_in_header ps_can_attr ps_out]. rewrite K1, K2, K3, K4, A4. rewrite (body_same _ _ _ A2 A3). reflexivity.
Qed.
(** What a line does that is no directive. *)
Definition line_core (l : text) (c : parser * bool * bool * text) : res (parser * bool * bool * text) :=
  let '(P, h, a, o) := c in
  let lined := (P, (match l with [] => false | _ => h end), (match l with [] => true | _ => if h then a else false end), o ++ l ++ [LF]) in
  if a && starts_with (lit ":") l && (ends_with (lit ":") l || contains (lit ": ") l)
  then match e_parse (trim_end_by (N.eqb SP) l) with
       | None => Ok lined
       | Some (n, (u, rest)) => v <- e_value hdr P u rest ;; Ok (with_entry U P n v, h, a, o ++ trim_end l ++ [LF])
       end
  else Ok lined.
Lemma plain_step l : plain_line l ->  forall r file rep s st, sp_data s = l ++ LF :: r ->
  match line_core l (core st) with
  | Ok c' => exists st', core st' = c' /\ forall f, loop (S f) file rep s st = loop f file true (skip s (l ++ [LF]) r) st'
  | Panic => forall f, loop (S f) file rep s st = Panic
  | OutOfFuel => forall f, loop (S f) file rep s st = OutOfFuel
  end.
Proof.
  intros Hl r file rep s st D. pose proof (take_here l r s Hl D) as TH. pose proof (entry_here hdr l r s Hl D (ps_parser st)) as (pre & vs & EH). destruct (core_inv _ _ (core_report file rep (sp_line s) st)) as (R1 & R2 & R3 & R4).
  assert (Ti : try_include U norm st l = Ok None). { unfold try_include. destruct (starts_with (lit "include::") l) eqn:K; [|reflexivity]. apply starts_with_spec in K. destruct K as (d & K). exfalso. exact (proj2 (proj2 (proj2 Hl)) d K). }
  assert (Ne : sp_data s <> []) by (rewrite D; destruct l; discriminate).
  assert (Un : forall f, loop (S f) file rep s st = (attr <- try_attribute hdr st l s ;; match attr with Some attr => loop f file true (mi_after attr) (emit_attribute U (mi_item attr) (report file rep (sp_line s) st)) | None => loop f file true (skip s (l ++ [LF]) r) (emit_line l (report file rep (sp_line s) st)) end)).
  { intros f. cbn [pre_loop]. destruct (sp_data s) as [|c0 t0]; [contradiction|]. rewrite TH. cbn [bind mi_item mi_after with_data sp_data sp_line]. cbv zeta. rewrite Ti. cbn [bind]. reflexivity. }
  assert (Em : core (emit_line l (report file rep (sp_line s) st)) = (ps_parser st, (match l with [] => false | _ => ps_in_header st end), (match l with [] => true | _ => if ps_in_header st then ps_can_attr st else false end), ps_out st ++ l ++ [LF])).
  { unfold core, emit_line. cbn [ps_parser ps_in_header ps_can_attr ps_out]. rewrite R1, R2, R3, R4. destruct l; reflexivity. }
  unfold line_core, core. unfold try_attribute in Un. destruct (ps_can_attr st && starts_with (lit ":") l && (ends_with (lit ":") l || contains (lit ": ") l)).
  2: { eexists. split; [exact Em|]. intros f. rewrite Un. reflexivity. }
  rewrite EH in Un. destruct (e_parse (trim_end_by (N.eqb SP) l)) as [[n [u rest]]|]; [|eexists; split; [exact Em|]; intros f; rewrite Un; reflexivity].
  destruct (e_value hdr (ps_parser st) u rest) as [v| |]; cbn [bind] in *; [|exact Un|exact Un]. eexists. split; [|intros f; rewrite Un; reflexivity]. unfold core, emit_attribute. cbn [mi_item ps_parser ps_in_header ps_can_attr ps_out at_source with_data sp_data]. rewrite R1, R2, R3, R4. unfold with_entry.
  rewrite (body_same (ps_parser st) _ (mkattr (span_new n) None v (span_new []))); [reflexivity|cbn [at_name]; apply sp_data_skip|reflexivity].
Qed.
Fixpoint lines_core (ls : list text) (c : parser * bool * bool * text) : res (parser * bool * bool * text) :=
  match ls with [] => Ok c | l :: r => c' <- line_core l c ;; lines_core r c' end.
Lemma plain_run ls : Forall plain_line ls -> forall rest file rep s st, sp_data s = on_lines ls ++ rest ->
  match lines_core ls (core st) with
  | Ok c' => exists rep' st', core st' = c' /\ forall f, loop (length ls + f) file rep s st = loop f file rep' (skip s (on_lines ls) rest) st'
  | Panic => forall f, loop (length ls + f) file rep s st = Panic
  | OutOfFuel => forall f, loop (length ls + f) file rep s st = OutOfFuel
  end.
Proof.
  intros F. induction F as [|l ls Hl F IH]; intros rest file rep s st D; cbn [lines_core].
  - exists rep, st. split; [reflexivity|]. intros f. cbn [length on_lines app Nat.add] in *. rewrite <- D. destruct s; reflexivity.
  - cbn [on_lines] in D. rewrite <- app_assoc in D. cbn [app] in D. pose proof (plain_step l Hl (on_lines ls ++ rest) file rep s st D) as K. destruct (line_core l (core st)) as [c'| |]; cbn [bind]; [|intros f; apply K|intros f; apply K].
    destruct K as (st1 & C1 & K). specialize (IH rest file true (skip s (l ++ [LF]) (on_lines ls ++ rest)) st1 (sp_data_skip _ _ _)). rewrite C1 in IH. destruct (lines_core ls c') as [c2| |].
    + destruct IH as (rep' & st' & C2 & IH). exists rep', st'. split; [exact C2|]. intros f. cbn [length Nat.add]. rewrite K, IH, on_lines_skip. reflexivity.
    + intros f. cbn [length Nat.add]. rewrite K. apply IH.
    + intros f. cbn [length Nat.add]. rewrite K. apply IH.
Qed.
Definition ends_in (file : option text) (rep : bool) (s : span) (st : pre_state) (c : parser * bool * bool * text) : Prop := exists f st', loop f file rep s st = Ok st' /\ core st' = c.
Lemma ends_same file rep1 rep2 s1 s2 st1 st2 c : sp_data s1 = sp_data s2 -> core st1 = core st2 -> ends_in file rep1 s1 st1 c -> ends_in file rep2 s2 st2 c.
Proof. intros D C (f & st' & H & <-). destruct (on_ok_core _ _ _ (same_loop f file rep1 rep2 s1 s2 st1 st2 D C) H) as (x & Hx & Cx). exists f, x. auto. Qed.
(** Lines without directives first. *)
Lemma ends_lines ls rest file rep s st c : Forall plain_line ls -> sp_data s = on_lines ls ++ rest ->
  ends_in file rep s st c <-> exists c1, lines_core ls (core st) = Ok c1 /\ exists rep' st' s', core st' = c1 /\ sp_data s' = rest /\ ends_in file rep' s' st' c.
Proof.
  intros F D. pose proof (plain_run ls F rest file rep s st D) as K. split.
  - intros (f & x & H & Cx). pose proof (pre_loop_mono U hdr norm ifh f (length ls + f) file rep s st x H ltac:(lia)) as H2. destruct (lines_core ls (core st)) as [c1| |]; [|rewrite K in H2; discriminate H2|rewrite K in H2; discriminate H2].
    exists c1. split; [reflexivity|]. destruct K as (rep' & st' & C1 & K). rewrite K in H2. exists rep', st', (skip s (on_lines ls) rest). split; [exact C1|]. split; [apply sp_data_skip|]. exists f, x. auto.
  - intros (c1 & E1 & rep2 & st2 & s2 & C2 & D2 & (f & x & H & Cx)). rewrite E1 in K. destruct K as (rep' & st' & C1 & K).
    destruct (ends_same file rep2 rep' s2 (skip s (on_lines ls) rest) st2 st' c) as (f' & y & H' & Cy); [rewrite sp_data_skip; exact D2|congruence|exists f, x; auto|]. exists (length ls + f'), y. rewrite K. auto.
Qed.
(** The directive. *)
Lemma ends_directive d target al fs rest file rep s st c : directs U norm d target al -> file_has ifh file target al fs -> Forall plain_line fs -> sp_data s = d ++ LF :: rest ->
  ends_in file rep s st c <-> exists c1, lines_core fs (core st) = Ok c1 /\ exists rep' st' s', core st' = c1 /\ sp_data s' = rest /\ ends_in file rep' s' st' c.
Proof.
  intros (N1 & N2 & T) Hf F D. pose proof (plain_run fs F [] (Some target) false (span_new (on_lines fs)) st (eq_sym (app_nil_r _))) as K.
  assert (Sd : starts_with (lit "include::") d = true). { specialize (T st). unfold try_include in T. destruct (starts_with (lit "include::") d); [reflexivity|discriminate T]. }
  assert (Ta : try_attribute hdr st d s = Ok None). { apply starts_with_spec in Sd. destruct Sd as (x & ->). unfold try_attribute. change (starts_with (lit ":") (lit "include::" ++ x)) with false. rewrite andb_false_r. reflexivity. }
  assert (Un : forall f, loop (S f) file rep s st = (s' <- loop f (Some target) false (span_new (on_lines fs)) st ;; loop f file false (skip s (d ++ [LF]) rest) s')).
  { intros f. cbn [pre_loop]. destruct (sp_data s) as [|c0 t0] eqn:E0; [destruct d; discriminate D|]. rewrite <- E0 in D. rewrite take_line_ok, (p_take_line_eq s d [LF] rest N1 (or_introl eq_refl) D), (strip_no_cr d N2). cbn [bind mi_item mi_after with_data sp_data]. cbv zeta. rewrite Ta. cbn [bind]. rewrite T. cbn [bind]. rewrite Hf. reflexivity. }
  split.
  - intros (f & x & H & Cx). destruct f as [|f]; [discriminate H|]. pose proof (pre_loop_mono U hdr norm ifh (S f) (S (length fs + S f)) file rep s st x H ltac:(lia)) as H2. rewrite Un in H2.
    destruct (lines_core fs (core st)) as [c1| |]; [|rewrite K in H2; discriminate H2|rewrite K in H2; discriminate H2]. destruct K as (rep' & st' & C1 & K). rewrite K in H2. cbn [pre_loop] in H2. rewrite sp_data_skip in H2. cbn [bind] in H2.
    exists c1. split; [reflexivity|]. exists false, st', (skip s (d ++ [LF]) rest). split; [exact C1|]. split; [apply sp_data_skip|]. exists (length fs + S f), x. auto.
  - intros (c1 & E1 & rep2 & st2 & s2 & C2 & D2 & H). rewrite E1 in K. destruct K as (rep' & st' & C1 & K).
    destruct (ends_same file rep2 false s2 (skip s (d ++ [LF]) rest) st2 st' c) as (f & y & H' & Cy); [rewrite sp_data_skip; exact D2|congruence|exact H|]. exists (S (length fs + S f)), y. rewrite Un, K. cbn [pre_loop]. rewrite sp_data_skip. cbn [bind]. split; [|exact Cy]. exact (pre_loop_mono U hdr norm ifh f (length fs + S f) file false _ st' y H' ltac:(lia)).
Qed.
(** The whole text. *)
Lemma expands_ends P source out : looked_at P source -> expands U hdr norm ifh P source out <-> exists c, ends_in (p_primary P) (match p_primary P with None => true | Some _ => false end) (span_new source) (pre_new P) c /\ snd c = out.
Proof.
  intros L. assert (Nd : no_directive source && match p_primary P with None => true | _ => false end = false). { destruct L as [L|L]; [destruct (p_primary P); [apply andb_false_r|contradiction]|rewrite L; reflexivity]. }
  unfold expands, preprocess. rewrite Nd. unfold process_adoc_include. split.
  - intros (f & m & H). apply bind_ok in H. destruct H as (x & Hx & H). apply Ok_inj in H. injection H as <- <-. exists (core x). split; [exists f, x; auto|reflexivity].
  - intros (c & (f & x & H & <-) & <-). exists f, (ps_map x). rewrite H. reflexivity.
Qed.
Lemma on_lines_app a b : on_lines (a ++ b) = on_lines a ++ on_lines b.
Proof. induction a as [|l a IH]; [reflexivity|]. cbn [app on_lines]. rewrite IH, <- app_assoc. reflexivity. Qed.
Lemma directive_seen a d r target al : directs U norm d target al -> no_directive (on_lines a ++ d ++ r) = false.
Proof.
  intros (_ & _ & T). assert (Sd : starts_with (lit "include::") d = true). { specialize (T (pre_new parser_default)). unfold try_include in T. destruct (starts_with (lit "include::") d); [reflexivity|discriminate T]. }
  apply starts_with_spec in Sd. destruct Sd as (x & ->). unfold no_directive. destruct a as [|l a] using rev_ind.
  - cbn [on_lines app]. change (starts_with (lit "include::") ((lit "include::" ++ x) ++ r)) with true. reflexivity.
  - clear IHa. assert (K : contains (LF :: lit "include::") (on_lines (a ++ [l]) ++ (lit "include::" ++ x) ++ r) = true). { apply contains_spec. exists (on_lines a ++ l), (x ++ r). rewrite on_lines_app. cbn [on_lines]. rewrite <- !app_assoc. reflexivity. }
    rewrite K. rewrite !andb_false_r. reflexivity.
Qed.
Lemma paste_expands P a d target al fs rest out : directs U norm d target al -> file_has ifh (p_primary P) target al fs -> Forall plain_line a -> Forall plain_line fs ->
  looked_at P (on_lines a ++ on_lines fs ++ rest) ->
  expands U hdr norm ifh P (on_lines a ++ d ++ LF :: rest) out <-> expands U hdr norm ifh P (on_lines a ++ on_lines fs ++ rest) out.
Proof.
  intros Hd Hf Fa Ff L. rewrite (expands_ends P (on_lines a ++ d ++ LF :: rest)) by (right; exact (directive_seen a d (LF :: rest) target al Hd)). rewrite expands_ends by exact L.
  assert (G : forall c, ends_in (p_primary P) (match p_primary P with None => true | Some _ => false end) (span_new (on_lines a ++ d ++ LF :: rest)) (pre_new P) c <->
                        ends_in (p_primary P) (match p_primary P with None => true | Some _ => false end) (span_new (on_lines a ++ on_lines fs ++ rest)) (pre_new P) c).
  { intros c. rewrite (ends_lines a (d ++ LF :: rest) _ _ (span_new (on_lines a ++ d ++ LF :: rest)) _ c Fa eq_refl), (ends_lines a (on_lines fs ++ rest) _ _ (span_new (on_lines a ++ on_lines fs ++ rest)) _ c Fa eq_refl).
    split; intros (c1 & E1 & rep & st & s & C1 & Ds & H); exists c1; (split; [exact E1|]).
    - apply (ends_directive d target al fs rest _ _ _ _ _ Hd Hf Ff Ds) in H. exists rep, st, (span_new (on_lines fs ++ rest)). split; [exact C1|]. split; [reflexivity|]. apply (ends_lines fs rest _ _ (span_new (on_lines fs ++ rest)) _ _ Ff eq_refl). exact H.
    - apply (ends_lines fs rest _ _ _ _ _ Ff Ds) in H. exists rep, st, (span_new (d ++ LF :: rest)). split; [exact C1|]. split; [reflexivity|]. apply (ends_directive d target al fs rest _ _ (span_new (d ++ LF :: rest)) _ _ Hd Hf Ff eq_refl). exact H. }
  split; intros (c & H & E); exists c; (split; [apply G; exact H|exact E]).
Qed.
End pasted.
Lemma document_map E fuel t m m' P d P' : document_parse E fuel t m P = Ok (d, P') -> exists d', document_parse E fuel t m' P = Ok (d', P') /\ same_but_map d d'.
Proof.
  unfold document_parse. intros H. apply bind_ok in H. destruct H as (h & -> & H). cbn [bind]. apply bind_ok in H. destruct H as (b & -> & H). cbn [bind]. apply bind_ok in H. destruct H as (bs & -> & H). cbn [bind]. apply bind_ok in H. destruct H as (s & -> & H). cbn [bind]. apply Ok_inj in H. injection H as <- <-.
  eexists. split; [reflexivity|]. exists m'. reflexivity.
Qed.
Section book.
Context (U : unicode) (hdr norm : parser -> text -> res text) (ifh : include_handler) (P : parser).
Lemma written_cases ps rest : Forall (part_meant U norm ifh (p_primary P)) ps -> written ps rest = pasted ps rest \/ forall acc, no_directive (on_lines acc ++ written ps rest) = false.
Proof.
  intros F. induction F as [|p ps Hp F IH]; [left; reflexivity|]. destruct p as [ls|d target al ls]; cbn [written pasted].
  - destruct IH as [->|IH]; [left; reflexivity|]. right. intros acc. rewrite app_assoc, <- on_lines_app. apply IH.
  - right. intros acc. exact (directive_seen U norm acc d (LF :: written ps rest) target al (proj1 Hp)).
Qed.
Lemma book_expands ps rest out : Forall (part_meant U norm ifh (p_primary P)) ps -> forall acc, Forall plain_line acc -> looked_at P (on_lines acc ++ pasted ps rest) ->
  expands U hdr norm ifh P (on_lines acc ++ written ps rest) out <-> expands U hdr norm ifh P (on_lines acc ++ pasted ps rest) out.
Proof.
  intros F. induction F as [|p ps Hp F IH]; intros acc Ha L; [reflexivity|]. destruct p as [ls|d target al ls]; cbn [written pasted part_meant] in *.
  - rewrite !app_assoc, <- on_lines_app in *. apply IH; [apply Forall_app; auto|exact L].
  - destruct Hp as (Hd & Hf & Fl). assert (L2 : looked_at P (on_lines (acc ++ ls) ++ written ps rest)). { destruct (written_cases ps rest F) as [->|K]; [rewrite on_lines_app, <- app_assoc; exact L|right; apply K]. }
    rewrite (paste_expands U hdr norm ifh P acc d target al ls (written ps rest) out Hd Hf Ha Fl) by (rewrite on_lines_app, <- app_assoc in L2; exact L2).
    rewrite !app_assoc, <- on_lines_app in *. apply IH; [apply Forall_app; auto|exact L].
Qed.
End book.
