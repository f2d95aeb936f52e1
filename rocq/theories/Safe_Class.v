(** The classes of [Safe_Spec]: they are closed, and the substitutions give a result on them. *)
From Verif Require Import Text TextFacts Maps Span_Model Span_Proof Span_Laws Parser_Model Regex Subs_Proof Subs_Prop
  Quote_Model Macro_Model Macro_Prop Group_Model Group_Proof Header_Spec Block_Spec Total_Spec Safe_Spec Safe_Proof.

Definition pairs (x y : text) (c d : char) : bool := has_char c x && has_char d y.
Definition off (x : text) (c : char) : bool := negb (has_char c x).
Definition b_back : char -> char -> bool := pairs (lit "`") (lit "'`\" ++ [34%N]).
Definition b_brack : char -> char -> bool := pairs (lit "]") (lit "*_`#^~'\" ++ [34%N]).
Definition b_line (c d : char) : bool := (d =? 91)%N && negb (c =? LF)%N && negb (c =? 91)%N.
Definition b_words c d := b_back c d || b_brack c d.
Definition b_links c d := b_back c d || pairs (lit "&") (lit "ga") c d.
Definition b_prose c d := b_back c d || b_brack c d || b_line c d || pairs (lit ":") (lit "/") c d || pairs (lit "-:") [LF] c d.
Definition b_lines c d := b_back c d || b_brack c d || b_line c d || pairs (lit "ko") (lit ":") c d || pairs (lit "-") [LF] c d || pairs (lit "&") (lit "ga") c d.

Lemma pairs_iff x y c d : pairs x y c d = true <-> In c x /\ In d y.
Proof. unfold pairs. rewrite andb_true_iff, !has_char_spec. reflexivity. Qed.
Lemma off_iff x c : off x c = true <-> ~ In c x.
Proof. unfold off. rewrite negb_true_iff, has_char_false. reflexivity. Qed.
Lemma line_iff c d : b_line c d = true <-> d = 91%N /\ c <> LF /\ c <> 91%N.
Proof. unfold b_line. rewrite !andb_true_iff, !negb_true_iff, N.eqb_eq, !N.eqb_neq. tauto. Qed.
Ltac opened H := match type of H with
  | (_ || _) = true => apply orb_true_iff in H; destruct H as [H|H]; opened H
  | b_back _ _ = true => unfold b_back in H; opened H
  | b_brack _ _ = true => unfold b_brack in H; opened H
  | pairs _ _ _ _ = true => apply pairs_iff in H; let H1 := fresh in let H2 := fresh in destruct H as [H1 H2]; cbv in H1; cbv in H2; repeat (destruct H1 as [H1|H1]); try contradiction; repeat (destruct H2 as [H2|H2]); try contradiction; try (symmetry in H1); try (symmetry in H2); try subst; try discriminate
  | b_line _ _ = true => apply line_iff in H; destruct H as (H & ? & ?); try subst; try discriminate
  end.
Ltac no_such B := match goal with |- B ?c ?d = false => let E := fresh in destruct (B c d) eqn:E; [exfalso; unfold B in E; opened E|reflexivity] end.
Ltac each B := match goal with H : B _ _ = true |- _ => unfold B in H; opened H end.
Ltac yes B := unfold B, b_back, b_brack; repeat rewrite orb_true_iff; rewrite ?pairs_iff, ?line_iff; cbv [In lit]; auto 30.
Ltac yesc := vm_compute; reflexivity.
Lemma apart_words : apart (off (lit "{+$:")) b_words.
Proof.
  split.
  - intros c. split; no_such b_words.
  - intros c d [H|H]; each b_words.
  - left. intros d. no_such b_words.
  - intros c d Hd H. each b_words; yesc.
  - yesc.
  - right. intros d H. vm_compute in H. repeat (destruct H as [<-|H]; [yesc|]). destruct H.
  - right. intros d. transitivity false; [no_such b_words|symmetry; no_such b_words].
  - intros d H. vm_compute in H. repeat (destruct H as [<-|H]; [yesc|]). destruct H.
Qed.
Lemma apart_links : apart (off (lit "[{+$")) b_links.
Proof.
  split.
  - intros c. split; no_such b_links.
  - intros c d [H|H]; each b_links.
  - left. intros d. no_such b_links.
  - intros c d Hd H. each b_links; try yesc; vm_compute in Hd; repeat (destruct Hd as [Hd|Hd]; [discriminate Hd|]); destruct Hd.
  - yesc.
  - left. yesc.
  - left. yesc.
  - intros d H. vm_compute in H. repeat (destruct H as [<-|H]; [yesc|]). destruct H.
Qed.
Lemma line_true B c : (forall c d, b_line c d = true -> B c d = true) -> c <> LF -> c <> 91%N -> B c 91%N = true.
Proof. intros H H1 H2. apply H, line_iff. auto. Qed.
Lemma apart_prose : apart (off (lit "{+$")) b_prose.
Proof.
  assert (L : forall c d, b_line c d = true -> b_prose c d = true) by (intros c d H; unfold b_prose; rewrite H, !orb_true_r; reflexivity).
  split.
  - intros c. split; no_such b_prose.
  - intros c d [H|H] H1 H2; each b_prose; apply line_true; auto.
  - right. yesc.
  - intros c d Hd H. each b_prose; try yesc; vm_compute in Hd; repeat (destruct Hd as [Hd|Hd]; [discriminate Hd|]); destruct Hd.
  - yesc.
  - right. intros d H. vm_compute in H. repeat (destruct H as [<-|H]; [yesc|]). destruct H.
  - right. intros d. destruct (N.eq_dec d 91%N) as [->|N]; [yesc|]. transitivity false; [no_such b_prose; contradiction|symmetry; no_such b_prose; contradiction].
  - intros d H. vm_compute in H. repeat (destruct H as [<-|H]; [yesc|]). destruct H.
Qed.
Lemma apart_lines : apart (off (lit "{+$")) b_lines.
Proof.
  assert (L : forall c d, b_line c d = true -> b_lines c d = true) by (intros c d H; unfold b_lines; rewrite H, !orb_true_r; reflexivity).
  split.
  - intros c. split; no_such b_lines.
  - intros c d [H|H] H1 H2; each b_lines; apply line_true; auto.
  - right. yesc.
  - intros c d Hd H. each b_lines; try yesc; vm_compute in Hd; repeat (destruct Hd as [Hd|Hd]; [discriminate Hd|]); destruct Hd.
  - yesc.
  - right. intros d H. vm_compute in H. repeat (destruct H as [<-|H]; [yesc|]). destruct H.
  - left. yesc.
  - intros d H. vm_compute in H. repeat (destruct H as [<-|H]; [yesc|]). destruct H.
Qed.

(** ** The classes are closed *)
Definition closed (Q : text -> Prop) : Prop := Q [] /\ (forall a b, Q (a ++ b) -> Q b) /\ (forall a z, blank z -> Q (a ++ z) -> Q a) /\ (forall a b, Q a -> Q b -> Q (a ++ [LF] ++ b)).
Lemma closed_and Q R : closed Q -> closed R -> closed (fun t => Q t /\ R t).
Proof. intros (Q1 & Q2 & Q3 & Q4) (R1 & R2 & R3 & R4). repeat split; try assumption; try (apply Q2 with a, H); try (apply R2 with a, H); try (apply Q3 with z; [assumption|apply H0]); try (apply R3 with z; [assumption|apply H0]); try (apply Q4; [apply H|apply H0]); try (apply R4; [apply H|apply H0]). Qed.
Lemma nil_infix c t : ~ infix (c :: t) [].
Proof. intros (x & y & E). destruct x; discriminate E. Qed.
Lemma infix_l p a b : infix p b -> infix p (a ++ b).
Proof. intros (x & y & ->). exists (a ++ x), y. rewrite <- app_assoc. reflexivity. Qed.
Lemma infix_r p a b : infix p a -> infix p (a ++ b).
Proof. intros (x & y & ->). exists x, (y ++ b). rewrite <- !app_assoc. reflexivity. Qed.
Lemma pair_join c d a b : infix [c; d] (a ++ [LF] ++ b) -> infix [c; d] a \/ infix [c; d] b \/ (d = LF /\ exists a', a = a' ++ [c]) \/ c = LF.
Proof.
  intros (x & y & E). revert a E. induction x as [|e x IH]; intros a E.
  - destruct a as [|a0 [|a1 a]]; cbn in E; injection E; intros; subst; auto 6.
    + right. right. left. split; [reflexivity|]. exists []. reflexivity.
    + left. exists [], a. reflexivity.
  - destruct a as [|a0 a].
    + cbn in E. injection E as _ E. right. left. exists x, y. exact E.
    + cbn [app] in E. injection E as -> E. destruct (IH a E) as [H|[H|[(H1 & a' & H2)|H]]]; auto.
      * left. apply (infix_l _ [e]). exact H.
      * right. right. left. split; [exact H1|]. exists (e :: a'). rewrite H2. reflexivity.
Qed.
Lemma closed_without x : ~ In LF x -> closed (without x).
Proof.
  intros N. split; [intros c _ []|]. split; [intros a b H c Hc K; apply (H c Hc), in_app_iff; auto|]. split; [intros a z _ H c Hc K; apply (H c Hc), in_app_iff; auto|].
  intros a b Ha Hb c Hc K. rewrite !in_app_iff in K. destruct K as [K|[[K|[]]|K]]; [exact (Ha c Hc K)|subst; contradiction|exact (Hb c Hc K)].
Qed.
Lemma closed_pair x y : ~ In LF x -> ~ In LF y -> closed (no_pair x y).
Proof.
  intros N1 N2. split; [intros c d _ _; apply nil_infix|]. split; [intros a b H c d Hc Hd K; apply (H c d Hc Hd), infix_l, K|]. split; [intros a z _ H c d Hc Hd K; apply (H c d Hc Hd), infix_r, K|].
  intros a b Ha Hb c d Hc Hd K. destruct (pair_join _ _ _ _ K) as [K1|[K1|[(-> & _)| ->]]]; [exact (Ha c d Hc Hd K1)|exact (Hb c d Hc Hd K1)|contradiction|contradiction].
Qed.
Lemma closed_line : closed line_brackets.
Proof.
  split; [intros c H; destruct (nil_infix _ _ H)|]. split; [intros a b H c K; apply H, infix_l, K|]. split; [intros a z _ H c K; apply H, infix_r, K|].
  intros a b Ha Hb c K. destruct (pair_join _ _ _ _ K) as [K1|[K1|[(K1 & _)| ->]]]; [exact (Ha c K1)|exact (Hb c K1)|discriminate K1|auto].
Qed.
Lemma closed_ends x : ~ In LF x -> closed (no_line_ends x).
Proof.
  intros N. split; [split; [intros c _; apply nil_infix|intros [|? ?] c z E; discriminate E]|]. split; [|split].
  - intros a b [H1 H2]. split; [intros c Hc K; apply (H1 c Hc), infix_l, K|]. intros a' c z -> Hc. apply (H2 (a ++ a') c z); [rewrite <- app_assoc; reflexivity|exact Hc].
  - intros a z Hz [H1 H2]. split; [intros c Hc K; apply (H1 c Hc), infix_r, K|]. intros a' c z' -> Hc Hb. apply (H2 a' c (z' ++ z)); [rewrite <- app_assoc; reflexivity|exact Hc|apply Forall_app; split; assumption].
  - intros a b [A1 A2] [B1 B2]. split.
    + intros c Hc K. destruct (pair_join _ _ _ _ K) as [K1|[K1|[(_ & a' & ->)| ->]]]; [exact (A1 c Hc K1)|exact (B1 c Hc K1)| |contradiction]. apply (A2 a' c [] eq_refl Hc). constructor.
    + intros a' c z E Hc Hz. revert a' E. assert (G : forall a', a ++ [LF] ++ b = a' ++ c :: z -> (exists z', a = a' ++ c :: z' /\ z = z' ++ [LF] ++ b) \/ (exists a'', b = a'' ++ c :: z) \/ c = LF).
      { clear -c z. induction a as [|e a IH]; intros a' E; destruct a' as [|e' a']; cbn in E; injection E; intros; subst; auto.
        - right. left. exists a'. reflexivity.
        - left. exists a. auto.
        - destruct (IH a' H) as [(z' & -> & ->)|[K|K]]; auto. left. exists z'. auto. }
      intros a' E. destruct (G a' E) as [(z' & Ea & Ez)|[(a'' & Eb)| ->]]; [|exact (B2 _ _ _ Eb Hc Hz)|contradiction]. apply (A2 _ _ _ Ea Hc). rewrite Ez in Hz. apply Forall_app in Hz. apply Hz.
Qed.
Ltac closing := match goal with
  | |- closed (fun t => @?Q t /\ @?R t) => apply (closed_and Q R); closing
  | |- closed (fun t => without _ t) => apply closed_without; vm_compute; intuition discriminate
  | |- closed (fun t => no_pair _ _ t) => apply closed_pair; vm_compute; intuition discriminate
  | |- closed (fun t => line_brackets t) => apply closed_line
  | |- closed (fun t => no_line_ends _ t) => apply closed_ends; vm_compute; intuition discriminate
  end.
Lemma closed_words : closed safe_words.
Proof. unfold safe_words, lone_backticks, lone_brackets. closing. Qed.
Lemma closed_links : closed safe_links.
Proof. unfold safe_links, lone_backticks. closing. Qed.
Lemma closed_prose : closed safe_prose.
Proof. unfold safe_prose, lone_backticks, lone_brackets. closing. Qed.
Lemma closed_lines : closed safe_lines.
Proof. unfold safe_lines, lone_backticks, lone_brackets. closing. Qed.
(** Raw blocks may contain anything; no attribute list asks for its own substitutions. *)
Definition no_subs (n : text) : Prop := ~ infix (lit "subs") n.
Definition class_of (Q : text -> Prop) (H : closed Q) : classes :=
  mkclasses Q (fun _ => True) no_subs (proj1 H) (proj1 (proj2 H)) (proj1 (proj2 (proj2 H))) (proj2 (proj2 (proj2 H))) (fun _ _ _ => I).
Definition words_class : classes := class_of safe_words closed_words.
Definition links_class : classes := class_of safe_links closed_links.
Definition prose_class : classes := class_of safe_prose closed_prose.
Definition lines_class : classes := class_of safe_lines closed_lines.

(** ** The groups of a text give a result on them *)
Lemma without_off x t : without x t <-> Forall (fun c => off x c = true) t.
Proof. rewrite Forall_forall. split; intros H c Hc; [apply off_iff; intros K; exact (H c K Hc)|]. intros K. specialize (H c K). apply off_iff in H. contradiction. Qed.
Lemma pair_calm x y t c d : no_pair x y t -> infix [c; d] t -> pairs x y c d = false.
Proof. intros H K. destruct (pairs x y c d) eqn:E; [|reflexivity]. apply pairs_iff in E. destruct E as [E1 E2]. destruct (H c d E1 E2 K). Qed.
Lemma line_calm t c d : line_brackets t -> infix [c; d] t -> b_line c d = false.
Proof. intros H K. destruct (b_line c d) eqn:E; [|reflexivity]. apply line_iff in E. destruct E as (-> & E1 & E2). destruct (H c K); contradiction. Qed.
Lemma ends_calm x t c d : no_line_ends x t -> infix [c; d] t -> pairs x [LF] c d = false.
Proof. intros [H _] K. destruct (pairs x [LF] c d) eqn:E; [|reflexivity]. apply pairs_iff in E. destruct E as [E1 [<-|[]]]. destruct (H c E1 K). Qed.
Lemma calm_line B t : (forall c d, b_line c d = true -> B c d = true) -> calm B t -> line_brackets t.
Proof.
  intros H C c K. apply calm_infix with (c := c) (d := 91%N) in C; [|exact K]. destruct (N.eq_dec c LF) as [->|N1]; [auto|]. destruct (N.eq_dec c 91%N) as [->|N2]; [auto|].
  rewrite (line_true B c H N1 N2) in C. discriminate C.
Qed.
Lemma calm_no B t c d : B c d = true -> calm B t -> ~ infix [c; d] t.
Proof. intros H C K. apply calm_infix with (c := c) (d := d) in C; [congruence|exact K]. Qed.
Lemma fine_not (ok : char -> bool) (t : text) (c : char) : Forall (fun c => ok c = true) t -> ok c = false -> ~ In c t.
Proof. intros F H K. rewrite Forall_forall in F. specialize (F c K). congruence. Qed.
Ltac apart_from F := refine (fine_not _ _ _ F _); reflexivity.
Lemma words_total U fs P f hb t g : safe_words t -> In g [GNormal; GTitle; GHeader; GNone] -> exists o, apply_group U fs P (S f) g hb t = Ok o.
Proof.
  intros (H1 & H2 & H3). apply without_off in H1. apply (normal_total _ _ (off (lit "{+$:")) U fs P f hb t apart_words); auto.
  - intros c Hc _. vm_compute in Hc. repeat (destruct Hc as [<-|Hc]; [yesc|]). destruct Hc.
  - intros P' u F _. apply C47_without_colons. apart_from F.
  - apply calm_infix. intros c d K. unfold b_words, b_back, b_brack. rewrite (pair_calm _ _ _ _ _ H2 K), (pair_calm _ _ _ _ _ H3 K). reflexivity.
  - apply nothing_extracted; [apart_from H1|apart_from H1|left; apart_from H1|]. right. apply H3; vm_compute; auto.
Qed.
Lemma links_total U fs P f hb t g : safe_links t -> In g [GNormal; GTitle; GHeader; GNone] -> exists o, apply_group U fs P (S f) g hb t = Ok o.
Proof.
  intros (H1 & H2). apply without_off in H1. assert (C : calm b_links t).
  { apply calm_infix. intros c d K. unfold b_links, b_back. rewrite (pair_calm _ _ _ _ _ H2 K). cbn [orb]. destruct (pairs (lit "&") (lit "ga") c d) eqn:E; [|reflexivity]. apply pairs_iff in E. destruct E as [[<-|[]] _].
    destruct (fine_not _ _ 38%N H1 eq_refl). destruct K as (x & y & ->). apply in_app_iff. right. left. reflexivity. }
  apply (normal_total _ _ (off (lit "[{+$>&")) U fs P f hb t apart_links); auto.
  - intros c K. apply off_iff in K. apply off_iff. intros H. apply K. vm_compute in H |- *. intuition.
  - intros c Hc K. vm_compute in Hc. destruct Hc as [<-|[<-|[<-|[]]]]; [yesc|discriminate K|discriminate K].
  - intros P' u F Cu. apply C47_without_brackets; [apart_from F|]. intros K. apply (calm_no b_links u 38%N 103%N eq_refl Cu). revert K. apply infix_sub. exists [], (lit "t;"). reflexivity.
  - apply nothing_extracted; [apart_from H1|apart_from H1| |left; apart_from H1].
    right. intros c K. exfalso. apply (fine_not _ _ 91%N H1 eq_refl). destruct K as (x & y & ->). apply in_app_iff. right. right. left. reflexivity.
Qed.
Lemma prose_total U fs P f hb t g : safe_prose t -> In g [GNormal; GTitle; GHeader; GNone] -> exists o, apply_group U fs P (S f) g hb t = Ok o.
Proof.
  intros (H1 & H2 & H3 & H4 & H5 & H6). apply without_off in H1. assert (L : forall c d, b_line c d = true -> b_prose c d = true) by (intros c d H; unfold b_prose; rewrite H, !orb_true_r; reflexivity).
  apply (normal_total _ _ (off (lit "{+$")) U fs P f hb t apart_prose); auto.
  - intros c Hc _. vm_compute in Hc. repeat (destruct Hc as [<-|Hc]; [yesc|]). destruct Hc.
  - intros P' u F C. apply macros_prose; [exact (calm_line _ _ L C)|apply (calm_no b_prose u 58%N 47%N eq_refl C)|apply (calm_no b_prose u 58%N LF eq_refl C)].
  - apply calm_infix. intros c d K. unfold b_prose, b_back, b_brack. rewrite (pair_calm _ _ _ _ _ H2 K), (pair_calm _ _ _ _ _ H3 K), (line_calm _ _ _ H4 K), (pair_calm _ _ _ _ _ H5 K), (ends_calm _ _ _ _ H6 K). reflexivity.
  - apply nothing_extracted; [apart_from H1|apart_from H1|right; exact H4|]. right. apply H3; vm_compute; auto.
Qed.
Lemma lines_total U fs P f hb t g : safe_lines t -> In g [GNormal; GTitle; GHeader; GNone] -> exists o, apply_group U fs P (S f) g hb t = Ok o.
Proof.
  intros (H1 & H2 & H3 & H4 & H5 & H6). apply without_off in H1. assert (L : forall c d, b_line c d = true -> b_lines c d = true) by (intros c d H; unfold b_lines; rewrite H, !orb_true_r; reflexivity).
  apply (normal_total _ _ (off (lit "{+$>&")) U fs P f hb t apart_lines); auto.
  - intros c K. apply off_iff in K. apply off_iff. intros H. apply K. vm_compute in H |- *. intuition.
  - intros c Hc K. vm_compute in Hc. destruct Hc as [<-|[<-|[<-|[]]]]; [yesc|discriminate K|discriminate K].
  - intros P' u F C. apply macros_lines; [exact (calm_line _ _ L C)|apply (calm_no b_lines u 107%N 58%N eq_refl C)|apply (calm_no b_lines u 111%N 58%N eq_refl C)|apply (calm_no b_lines u 38%N 103%N eq_refl C)].
  - apply calm_infix. intros c d K. unfold b_lines, b_back, b_brack. rewrite (pair_calm _ _ _ _ _ H2 K), (pair_calm _ _ _ _ _ H3 K), (line_calm _ _ _ H4 K), (pair_calm _ _ _ _ _ H5 K), (ends_calm _ _ _ _ H6 K). cbn [orb].
    destruct (pairs (lit "&") (lit "ga") c d) eqn:E; [|reflexivity]. apply pairs_iff in E. destruct E as [[<-|[]] _]. destruct (fine_not _ _ 38%N H1 eq_refl). destruct K as (x & y & ->). apply in_app_iff. right. left. reflexivity.
  - apply nothing_extracted; [apart_from H1|apart_from H1|right; exact H4|]. right. apply H3; vm_compute; auto.
Qed.
