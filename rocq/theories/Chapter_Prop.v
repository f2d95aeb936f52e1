(** The text of a section (C132). *)
From Verif Require Import Text TextFacts Maps Span_Model Span_Pure Span_Proof Span_Laws Span_Spec Parser_Model Subs_Model Attrlist_Model Group_Model Header_Model Header_Proof Block_Model Block_Spec Block_Proof Doc_Model Access_Model Header_Prop Block_Prop
  Tree_Proof Begin_Spec Begin_Proof Round_Spec Round_Proof Shift_Spec Shift_Proof Fate_Spec Fate_Proof Fate_Prop Again_Spec Again_Proof Chapter_Spec Chapter_Proof.

(** As long as no title in the text is of the level of the section or above, the loop that reads the text of a section is that of a document:
    what it gives is what the text would give as a document of its own. *)
Lemma tail_new t : tail_of t (p_discard_empty_lines (span_new t)).
Proof.
  split; [exact (located_Suffix _ _ _ (located_new t) (discard_empty_Suffix _))|]. split; [apply discard_begins; intros _; reflexivity|apply discard_empty_Suffix].
Qed.
Theorem C132_loop : forall E fuel lv t n n' P b, deeper lv t -> parse_blocks_until E fuel (section_stop E false lv) n (span_new t) P = Ok b ->
  exists b', parse_blocks_until E fuel never n' (span_new t) P = Ok b' /\ same_blocks b b'.
Proof. intros E fuel lv t n n' P b Hd H. unfold parse_blocks_until in *. rewrite discard_empty_lines_ok in *. cbn [bind] in *. exact (section_free E t lv Hd fuel n n' _ P b (tail_new t) H). Qed.
(** The other way round, if no line begins with a blank. *)
Theorem C132_loop_back : forall E fuel lv t n n' P b, total_env E -> flush t -> deeper lv t -> parse_blocks_until E fuel never n' (span_new t) P = Ok b ->
  exists b', parse_blocks_until E fuel (section_stop E false lv) n (span_new t) P = Ok b' /\ same_blocks b b'.
Proof. intros E fuel lv t n n' P b He Hf Hd H. unfold parse_blocks_until in *. rewrite discard_empty_lines_ok in *. cbn [bind] in *. exact (free_section E t lv He Hf Hd fuel n' n _ P b (tail_new t) H). Qed.

(** A section that begins with a title and goes on to the end has in it the blocks that its text has as a document of its own, one line and the length
    of the title further on, except for the numbers of the sections; and its title is rendered with the attributes that this text leaves. *)
Definition is_chapter (E : env) (h : text) (lv : nat) (title : text) (b : bres) (q : block) : Prop :=
  exists x bs src ty id num, q = BSection lv x (map (mv_block 1 (S (blen h))) bs) src no_common ty id num /\ map unnum_block bs = map unnum_block (br_blocks b) /\
    sp_data (ct_original x) = title /\ e_sub E (br_parser b) GTitle false title = Ok (ct_rendered x).
Theorem C132_section : forall E fuel h n lv title body P r, sub_reads_attrs E -> ~ In LF h -> trimmed_line h n -> heading n lv title -> deeper lv body ->
  block_parse E fuel (span_new (h ++ LF :: body)) P = Ok r ->
  exists b q after, parse_blocks_until E fuel never 0 (span_new body) P = Ok b /\ pr_item r = Some (mkmi q after) /\ is_chapter E h lv title b q /\ sp_data after = [] /\ same_attrs (pr_parser r) (br_parser b).
Proof.
  intros E fuel h n lv title body P r BE H1 H2 Hh Hd H. destruct (section_of_text E fuel h n lv title body P r BE H1 H2 Hh Hd H) as (b & bs & x & src & ty & id & num & after & A1 & A2 & A3 & A4 & A5 & A6 & A7).
  exists b, (BSection lv x (map (mv_block 1 (S (blen h))) bs) src no_common ty id num), after. split; [exact A1|]. split; [exact A2|]. split; [|auto]. exists x, bs, src, ty, id, num. auto.
Qed.
(** The same for a document. *)
Theorem C132_text : forall E fuel k h n lv title body P r, sub_reads_attrs E -> ~ In LF h -> trimmed_line h n -> heading n lv title -> deeper lv body ->
  parse_blocks_until E (S fuel) never k (span_new (h ++ LF :: body)) P = Ok r ->
  exists b q, parse_blocks_until E fuel never 0 (span_new body) P = Ok b /\ br_blocks r = [q] /\ is_chapter E h lv title b q /\ same_attrs (br_parser r) (br_parser b).
Proof.
  intros E fuel k h n lv title body P r BE H1 H2 Hh Hd H. unfold parse_blocks_until in H at 1. rewrite discard_empty_lines_ok in H. cbn [bind] in H.
  assert (Hl : a_line (sp_data (span_new (h ++ LF :: body))) (h ++ [LF]) body n). { exists h, [LF]. split; [cbn; rewrite <- app_assoc; reflexivity|]. split; [reflexivity|]. split; [exact H1|]. split; [left; reflexivity|exact H2]. }
  destruct (heading_first _ _ _ Hh) as (c & y & En & Hc). rewrite (discard_none _ _ body n c Hl ltac:(rewrite En; left; reflexivity) ltac:(destruct Hc as [->| ->]; intros [K|K]; discriminate K)) in H.
  cbn [blocks_loop] in H. destruct (sp_data (span_new (h ++ LF :: body))) as [|c0 t0] eqn:Ds; [cbn in Ds; destruct h; discriminate Ds|]. unfold never at 1 in H. cbn [bind fst snd] in H. apply bind_ok in H. destruct H as (r0 & Er & H). apply bind_ok in H. destruct H as (x & Ex & H). apply Ok_inj in H. subst r.
  destruct (C132_section E fuel h n lv title body P r0 BE H1 H2 Hh Hd Er) as (b & q & after & B1 & B2 & B3 & B4 & B5). rewrite B2 in Ex. cbn [mi_after] in Ex.
  assert (Nx : x = mkbr [] after [] k [] (pr_parser r0)). { destruct fuel; cbn [blocks_loop] in Ex; rewrite B4 in Ex; apply Ok_inj in Ex; subst x; reflexivity. }
  exists b, q. split; [exact B1|]. cbn [br_blocks br_parser]. rewrite B2, Nx. cbn [br_blocks br_parser mi_item app]. auto.
Qed.
(** * Cases *)
(** A way to see that the titles of a text are deep enough: each line that begins with a mark begins with more of them than that. *)
Definition deep_line (lv : nat) (x : text) : bool :=
  match x with c :: _ => negb (existsb (N.eqb c) (lit "=#")) || text_eqb (firstn (S (S lv)) x) (repeat c (S (S lv))) | [] => true end.
Lemma deep_line_level lv x n k title : deep_line lv x = true -> trimmed_line x n -> heading n k title -> lv < k.
Proof.
  intros H Ht (c & ws & Hc & _ & -> & Hw & Fw & _). destruct (trimmed_strip _ _ Ht) as (z & Ez & _).
  destruct (Nat.lt_ge_cases lv k) as [|K]; [assumption|exfalso]. destruct ws as [|w ws]; [congruence|]. inversion Fw as [|? ? Hb _]; subst.
  assert (Ex : exists z', x = repeat c (S k) ++ w :: z').
  { destruct Ht as (y & sps & Hm & Ey & _). assert (Exy : exists e, x = y ++ e) by (destruct Hm as [Hm|(Hm & _)]; [exists [CR]; exact Hm|exists []; rewrite app_nil_r; exact Hm]). destruct Exy as (e & ->). rewrite Ey. exists (ws ++ title ++ sps ++ e). rewrite <- !app_assoc. reflexivity. }
  destruct Ex as (z' & ->). unfold deep_line in H. cbn [repeat app] in H.
  assert (Kc : existsb (N.eqb c) (lit "=#") = true) by (cbn in Hc; destruct Hc as [<-|[<-|[]]]; reflexivity). rewrite Kc in H. cbn [negb orb] in H. apply text_eqb_eq in H.
  change (c :: repeat c k ++ w :: z') with (repeat c (S k) ++ w :: z') in H. assert (N : nth_error (firstn (S (S lv)) (repeat c (S k) ++ w :: z')) (S k) = nth_error (repeat c (S (S lv))) (S k)) by (rewrite H; reflexivity).
  rewrite (nth_error_repeat c) in N by lia. rewrite firstn_app, nth_error_app2 in N by (rewrite firstn_length, repeat_length; lia). rewrite firstn_length, repeat_length in N. replace (S k - Nat.min (S (S lv)) (S k)) with 0 in N by lia. replace (S (S lv) - S k) with (S (lv - k)) in N by lia.
  cbn in N. injection N as ->. cbn in Hc. destruct Hc as [<-|[<-|[]]]; destruct Hb as [Hb|Hb]; discriminate Hb.
Qed.
Lemma first_line_off x p q rest : ~ In LF x -> x ++ LF :: rest = p ++ LF :: q -> exists p2, line_starts p2 /\ rest = p2 ++ q.
Proof.
  revert p. induction x as [|c x IHx]; intros [|c' p] Hx D; cbn [app] in *.
  - injection D as D. exists []. split; [left; reflexivity|exact D].
  - injection D as <- D. exists (p ++ [LF]). split; [right; eexists; reflexivity|]. rewrite <- app_assoc. exact D.
  - exfalso. injection D as D _. apply Hx. left. exact D.
  - injection D as <- D. exact (IHx p ltac:(intros K; apply Hx; right; exact K) D).
Qed.
Lemma flush_lines ls : Forall (fun x => ~ In LF x /\ match x with c :: _ => ~ sp_tab c | [] => True end) ls -> flush (unlines ls).
Proof.
  induction 1 as [|x ls (Hx & Hd) _ IH]; intros p c q D Hp.
  - exfalso. destruct p; discriminate D.
  - rewrite unlines_cons in D. destruct Hp as [->|(p' & ->)].
    + destruct x as [|c' x]; cbn [app] in D; injection D as <- _; [intros [K|K]; discriminate K|exact Hd].
    + rewrite <- app_assoc in D. cbn [app] in D. destruct (first_line_off x p' (c :: q) (unlines ls) Hx D) as (p2 & Hp2 & D2). exact (IH p2 c q D2 Hp2).
Qed.
Lemma deeper_lines lv ls : Forall (fun x => ~ In LF x /\ deep_line lv x = true) ls -> deeper lv (unlines ls).
Proof.
  induction 1 as [|x ls (Hx & Hd) _ IH]; intros p q l r n k title D Hp (y & e & Eq & El & Hy & He & Ht) Hh.
  - exfalso. symmetry in D. apply app_eq_nil in D. destruct D as (_ & ->). symmetry in Eq. apply app_eq_nil in Eq. destruct Eq as (-> & ->). symmetry in El. apply app_eq_nil in El. destruct El as (-> & _). apply (deep_line_level 5 [] n k title eq_refl Ht) in Hh as K. destruct Hh as (_ & _ & _ & L & _). lia.
  - rewrite unlines_cons in D. destruct Hp as [->|(p' & ->)].
    + cbn [app] in D. rewrite Eq, El, <- app_assoc in D. assert (y = x) as ->; [|exact (deep_line_level lv x n k title Hd Ht Hh)].
      assert (He2 : (exists w, e ++ r = LF :: w) \/ e ++ r = []) by (destruct He as [->|(-> & ->)]; [left; eexists; reflexivity|right; reflexivity]).
      clear -D Hx Hy He2. revert y D Hy. induction x as [|c x IH]; intros [|c' y] D Hy; cbn [app] in D.
      * reflexivity.
      * exfalso. injection D as D _. apply Hy. left. symmetry. exact D.
      * exfalso. destruct He2 as [(w & Ew)|Ew]; rewrite Ew in D; [injection D as D _; apply Hx; left; exact D|discriminate D].
      * injection D as <- D. f_equal. apply IH; [intros K; apply Hx; right; exact K|exact D|intros K; apply Hy; right; exact K].
    + rewrite <- app_assoc in D. cbn [app] in D. destruct (first_line_off x p' q (unlines ls) Hx D) as (p2 & Hp2 & D2). exact (IH p2 q l r n k title D2 Hp2 (ex_intro _ y (ex_intro _ e (conj Eq (conj El (conj Hy (conj He Ht)))))) Hh).
Qed.
Definition chapter_lines : list text := [[]; lit ":a: b"; []; lit "[[x]]"; lit "{a}"; []; lit "=== Sub"; []; lit "----"; lit " y"; lit "----"; []; lit "==== Deep"; []; lit "z"].
Definition chapter_shape (t : text) : res (list nat * option text) := match parse_blocks_until E0 40 never 0 (span_new t) parser_default with Ok b => Ok (map (fun b => length (nested_blocks b)) (br_blocks b), as_maybe_str (attribute_value (br_parser b) (lit "a"))) | Panic => Panic | OutOfFuel => OutOfFuel end.
Example chapter_meets : deeper 1 (unlines chapter_lines) /\ heading (lit "== Title {a}") 1 (lit "Title {a}") /\ trimmed_line (lit "== Title {a}") (lit "== Title {a}") /\ ~ In LF (lit "== Title {a}") /\
  chapter_shape (unlines chapter_lines) = Ok ([0; 0; 2], Some (lit "b")) /\ chapter_shape (lit "== Title {a}" ++ LF :: unlines chapter_lines) = Ok ([3], Some (lit "b")).
Proof.
  split; [apply deeper_lines; unfold chapter_lines; repeat (apply Forall_cons; [split; [cbn; intuition discriminate|vm_compute; reflexivity]|]); apply Forall_nil|].
  split; [exists 61%N, (lit " "); split; [left; reflexivity|]; split; [lia|]; split; [reflexivity|]; split; [discriminate|]; split; [constructor; [left; reflexivity|constructor]|intros x y K [->| ->]; discriminate K]|].
  split; [exists (lit "== Title {a}"), []; split; [right; split; [reflexivity|]; intros y K; apply (f_equal (@rev N)) in K; rewrite rev_app_distr in K; discriminate K|]; split; [reflexivity|]; split; [intros c []|intros y K; apply (f_equal (@rev N)) in K; rewrite rev_app_distr in K; discriminate K]|].
  split; [cbn; intuition discriminate|]. split; vm_compute; reflexivity.
Qed.
Definition flush_chapter : list text := [[]; lit ":a: b"; []; lit "{a}"; []; lit "=== Sub"; []; lit "----"; lit "y"; lit "----"].
Example back_meets : total_env E1 /\ flush (unlines flush_chapter) /\ deeper 1 (unlines flush_chapter) /\ chapter_shape (unlines flush_chapter) = Ok ([0; 0; 1], Some (lit "b")).
Proof.
  split; [exact E1_total|]. split; [apply flush_lines; unfold flush_chapter; repeat (apply Forall_cons; [split; [cbn; intuition discriminate|first [exact I|intros [K|K]; discriminate K]]|]); apply Forall_nil|].
  split; [apply deeper_lines; unfold flush_chapter; repeat (apply Forall_cons; [split; [cbn; intuition discriminate|vm_compute; reflexivity]|]); apply Forall_nil|vm_compute; reflexivity].
Qed.
(** * Where it makes a difference *)
(** A line that begins with a blank is a literal paragraph in a document of its own; in a section the parser breaks down. *)
Theorem C132_indented_refuted : exists body, chapter_shape body = Ok ([0], None) /\ chapter_shape (lit "== S" ++ LF :: body) = Panic.
Proof. exists (unlines [[]; lit " x"]). split; vm_compute; reflexivity. Qed.
(** A title in the text that is of the level of the section ends it. *)
Theorem C132_title_refuted : exists body, chapter_shape body = Ok ([0; 1], None) /\ chapter_shape (lit "== S" ++ LF :: body) = Ok ([1; 1], None).
Proof. exists (unlines [[]; lit "x"; []; lit "== T"; []; lit "y"]). split; vm_compute; reflexivity. Qed.
Print Assumptions C132_loop.
Print Assumptions C132_loop_back.
Print Assumptions C132_section.
Print Assumptions C132_text.
Print Assumptions C132_indented_refuted.
Print Assumptions C132_title_refuted.
