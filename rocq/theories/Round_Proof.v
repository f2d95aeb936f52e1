(** Proofs about documents that are read back (C112). *)
From Verif Require Import Text TextFacts Maps Span_Model Span_Pure Span_Proof Span_Laws Span_Spec Catalog_Model Parser_Model Subs_Model Attrlist_Model Attrlist_Proof
  Entry_Model Group_Model SecId_Model Header_Model Header_Spec Header_Proof Block_Model Block_Spec Block_Proof Shape_Proof Meta_Spec Meta_Proof Kind_Spec Kind_Proof
  Walk_Spec Outline_Spec Tree_Spec Tree_Proof Outline_Proof Total_Spec Total_Proof Doc_Model Walk_Proof Walk_Prop Header_Prop Parser_Spec Attrs_Spec Attrs_Proof Round_Spec.

(** * Induction over written documents *)
Lemma node_ind' (Q : node -> Prop) : (forall m ls, Q (NText m ls)) -> (forall m d ls, Q (NRaw m d ls)) -> (forall m d ns, Forall Q ns -> Q (NBox m d ns)) ->
  (forall m l, Q (NBreak m l)) -> (forall m ty t a, Q (NMedia m ty t a)) -> (forall m c k t ns, Forall Q ns -> Q (NSection m c k t ns)) -> forall n, Q n.
Proof.
  intros H1 H2 H3 H4 H5 H6. fix F 1. intros [m ls|m d ls|m d ns|m l|m ty t a|m c k t ns]; [apply H1|apply H2|apply H3|apply H4|apply H5|apply H6].
  - induction ns as [|x ns IH]; constructor; [apply F|exact IH].
  - induction ns as [|x ns IH]; constructor; [apply F|exact IH].
Qed.
Definition top_of (n : node) : top := match n with NText m _ | NRaw m _ _ | NBox m _ _ | NBreak m _ | NMedia m _ _ _ | NSection m _ _ _ _ => m end.
(** The lines after the title and the id: the first one and the others. *)
Definition head_line (n : node) : text :=
  match n with
  | NText _ ls => hd [] ls
  | NRaw _ d _ | NBox _ d _ => d
  | NBreak _ l => l
  | NMedia _ ty t a => media_word ty ++ lit "::" ++ t ++ lit "[" ++ a ++ lit "]"
  | NSection _ c k t _ => heading_line c k t
  end.
Definition more_lines (n : node) : list text :=
  match n with
  | NText _ ls => tl ls ++ [[]]
  | NRaw _ d ls => ls ++ [d]
  | NBox _ d ns => flat_map write ns ++ [d]
  | NBreak _ _ | NMedia _ _ _ _ => [[]]
  | NSection _ _ _ _ ns => [] :: flat_map write ns
  end.
Lemma write_parts U n : fits U n -> write n = top_lines (top_of n) ++ head_line n :: more_lines n.
Proof. destruct n as [m [|x ls]|m d ls|m d ns|m l|m ty t a|m c k t ns]; intros H; try reflexivity. destruct H as (_ & []). Qed.
Lemma fits_top U n : fits U n -> top_fits U (top_of n).
Proof. destruct n; intros H; apply H. Qed.
Lemma fits_all U ns : fold_right (fun x p => fits U x /\ p) True ns -> Forall (fits U) ns.
Proof. induction ns as [|n ns IH]; cbn [fold_right]; [constructor|]. intros (A & B). constructor; auto. Qed.

(** * Lines *)
Lemma tidy_end x : (forall y c, x = y ++ [c] -> is_ws c = false) -> trimmed_line x x.
Proof.
  intros H. exists x, []. split; [right; split; [reflexivity|]; intros y K; apply H in K; discriminate K|]. split; [symmetry; apply app_nil_r|]. split; [intros c []|]. intros y K. apply H in K. discriminate K.
Qed.
Lemma tidy_trimmed x : tidy x -> trimmed_line x x.
Proof. intros (_ & _ & H). apply tidy_end, H. Qed.
Lemma nil_trimmed : trimmed_line [] [].
Proof. apply tidy_end. intros y c K. destruct y; discriminate K. Qed.
Lemma a_line_lf x n r : ~ In LF x -> trimmed_line x n -> a_line (x ++ LF :: r) (x ++ [LF]) r n.
Proof. intros H1 H2. exists x, [LF]. split; [rewrite <- app_assoc; reflexivity|]. split; [reflexivity|]. split; [exact H1|]. split; [left; reflexivity|exact H2]. Qed.
Lemma a_line_tidy x r : tidy x -> a_line (x ++ LF :: r) (x ++ [LF]) r x.
Proof. intros H. apply a_line_lf; [apply H|apply tidy_trimmed, H]. Qed.
Lemma a_line_empty r : a_line (LF :: r) [LF] r [].
Proof. exact (a_line_lf [] [] r (fun H => H) nil_trimmed). Qed.
Lemma unlines_cons x ls : unlines (x :: ls) = x ++ LF :: unlines ls.
Proof. unfold unlines. cbn [map concat]. rewrite <- app_assoc. reflexivity. Qed.
Lemma unlines_app a b : unlines (a ++ b) = unlines a ++ unlines b.
Proof. unfold unlines. rewrite map_app, concat_app. reflexivity. Qed.
Lemma unlines_end ls : ls <> [] -> exists q, unlines ls = q ++ [LF].
Proof.
  intros H. destruct (exists_last H) as (a & x & ->). rewrite unlines_app, unlines_cons. exists (unlines a ++ x). rewrite <- app_assoc. reflexivity.
Qed.
Lemma unlines_join ls : ls <> [] -> unlines ls = join [LF] ls ++ [LF].
Proof.
  induction ls as [|x ls IH]; [contradiction|]. intros _. rewrite unlines_cons. destruct ls as [|y ls]; [reflexivity|]. rewrite IH by discriminate. cbn [join]. rewrite <- !app_assoc. reflexivity.
Qed.
Lemma delim_tidy c n : is_ws c = false -> c <> LF -> 1 <= n -> tidy (repeat c n).
Proof.
  intros Hc Hl Hn. split; [destruct n; [lia|discriminate]|]. split; [intros K; apply repeat_spec in K; congruence|]. intros y x K.
  assert (In x (repeat c n)) by (rewrite K; apply in_app_iff; right; left; reflexivity). apply repeat_spec in H. congruence.
Qed.
Lemma raw_tidy d : raw_delimiter d -> tidy d.
Proof. intros (c & Hc & (n & Hn & ->)). apply delim_tidy; [| |lia]; cbn in Hc; destruct Hc as [<-|[<-|[<-|[<-|[]]]]]; (reflexivity || discriminate). Qed.
Lemma compound_tidy d : compound_delimiter d -> tidy d.
Proof.
  intros [->|(c & Hc & (n & Hn & ->))]; [exact (delim_tidy 45%N 2 eq_refl ltac:(discriminate) ltac:(lia))|].
  apply delim_tidy; [| |lia]; cbn in Hc; destruct Hc as [<-|[<-|[<-|[]]]]; (reflexivity || discriminate).
Qed.
Lemma tidy_app a x : ~ In LF a -> tidy x -> tidy (a ++ x).
Proof.
  intros Ha (H1 & H2 & H3). split; [destruct a, x; (contradiction || discriminate)|]. split; [rewrite in_app_iff; tauto|]. intros y c K. destruct (exists_last H1) as (q & d & ->). rewrite app_assoc in K. apply app_inj_tail in K. destruct K as (_ & <-). exact (H3 q d eq_refl).
Qed.
Lemma break_tidy l : break_line l -> tidy l.
Proof.
  intros H. cbn in H. assert (G : forall t, forallb (fun c => negb (c =? LF)%N) t = true -> negb (is_ws (last t SP)) = true -> tidy t).
  { intros t A B. destruct t as [|c0 t0]; [discriminate B|]. split; [discriminate|]. split.
    - intros K. rewrite forallb_forall in A. apply A in K. rewrite N.eqb_refl in K. discriminate K.
    - intros y c K. rewrite K, last_last in B. apply negb_true_iff in B. exact B. }
  destruct H as [<-|[<-|[<-|[<-|[<-|[<-|[]]]]]]]; apply G; reflexivity.
Qed.
Lemma bracket_tidy : tidy (lit "]").
Proof. split; [discriminate|]. split; [intros [K|[]]; discriminate K|]. intros y c K. change (lit "]") with ([] ++ [93%N]) in K. apply app_inj_tail in K. destruct K as (_ & <-). reflexivity. Qed.

(** * The first line of a block *)
Lemma item_head U n i : item_line U n i -> (exists y, n = 46%N :: y /\ forall z, y <> 46%N :: z) \/ exists y, n = 91%N :: y.
Proof.
  destruct i as [x|x [rt|]|x]; cbn [item_line].
  - intros (-> & H). left. exists x. split; [reflexivity|]. intros z ->. destruct (H _ _ eq_refl) as (K & _). apply K. reflexivity.
  - intros (_ & _ & ->). right. eexists. reflexivity.
  - intros (_ & ->). right. eexists. reflexivity.
  - intros (-> & _). right. eexists. reflexivity.
Qed.
Lemma no_item U n : (forall y, n <> 91%N :: y) -> (forall y, n = 46%N :: y -> exists z, y = 46%N :: z) -> forall i, ~ item_line U n i.
Proof.
  intros H1 H2 i K. destruct (item_head _ _ _ K) as [(y & E & F)|(y & E)]; [|exact (H1 _ E)]. destruct (H2 _ E) as (z & ->). exact (F z eq_refl).
Qed.
Lemma head_facts U n : fits U n -> tidy (head_line n) /\ solid (head_line n) /\ (forall i, ~ item_line U (head_line n) i) /\ forall y, head_line n <> lit ":" ++ y.
Proof.
  destruct n as [m [|x ls]|m d ls|m d ns|m l|m ty t a|m c k t ns]; cbn [fits head_line hd]; intros H.
  - destruct H as (_ & []).
  - destruct H as (_ & (A & B & C & D & F & _) & _). auto.
  - destruct H as (_ & Hd & _). split; [apply raw_tidy, Hd|]. split; [apply raw_solid, Hd|]. destruct Hd as (c & Hc & (k & Hk & ->)). destruct k as [|[|k]]; [lia|lia|]. cbn [repeat]. cbn in Hc. split.
    + apply no_item; [intros y K|intros y K]; injection K as K1 K2; [subst c; destruct Hc as [K|[K|[K|[K|[]]]]]; discriminate K|]. subst. eauto.
    + intros y K. injection K as K1 _. subst c. destruct Hc as [K|[K|[K|[K|[]]]]]; discriminate K.
  - destruct H as (_ & Hd & _). split; [apply compound_tidy, Hd|]. split; [apply compound_solid, Hd|]. destruct Hd as [->|(c & Hc & (k & Hk & ->))].
    + split; [apply no_item|]; intros y K; discriminate K.
    + destruct k as [|[|k]]; [lia|lia|]. cbn [repeat]. cbn in Hc. split; [apply no_item|]; intros y K; injection K as K1 K2; subst c; destruct Hc as [K|[K|[K|[]]]]; discriminate K.
  - destruct H as (_ & Hl). split; [apply break_tidy, Hl|]. cbn in Hl. destruct Hl as [<-|[<-|[<-|[<-|[<-|[<-|[]]]]]]]; (split; [eapply solid_cons; reflexivity|split; [apply no_item|]; intros y K; discriminate K]).
  - destruct H as (_ & Hty & Ht & H1 & H2 & H3). split.
    { rewrite (app_assoc (lit "[")), (app_assoc t), (app_assoc (lit "::")), (app_assoc (media_word ty)). apply tidy_app; [|exact bracket_tidy].
      rewrite !in_app_iff. intros [K|[K|[K|[K|K]]]]; try contradiction.
      - destruct Hty as [<-|[<-|[]]]; cbn in K; repeat (destruct K as [K|K]; [discriminate K|]); destruct K.
      - cbn in K. destruct K as [K|[K|[]]]; discriminate K.
      - cbn in K. destruct K as [K|[]]; discriminate K. }
    destruct Hty as [<-|[<-|[]]]; (split; [eapply solid_cons; reflexivity|split; [apply no_item|]; intros y K; discriminate K]).
  - destruct H as (_ & Hc & Hk & Ht & _). split.
    { unfold heading_line. apply tidy_app; [|apply (tidy_app (lit " ")); [intros [K|[]]; discriminate K|exact Ht]]. intros K. apply repeat_spec in K. subst c. destruct Hc as [K|[K|[]]]; discriminate K. }
    unfold heading_line. cbn [repeat app]. cbn in Hc. destruct Hc as [<-|[<-|[]]]; (split; [eapply solid_cons; reflexivity|split; [apply no_item|]; intros y K; discriminate K]).
Qed.
Lemma head_heading U m c k t ns : fits U (NSection m c k t ns) -> heading (heading_line c k t) k t.
Proof.
  intros (_ & Hc & Hk & Ht & Hs & _). exists c, (lit " "). split; [exact Hc|]. split; [exact Hk|]. split; [reflexivity|]. split; [discriminate|]. split; [repeat constructor|]. exact Hs.
Qed.
Lemma no_heading U n : fits U n -> node_level n = None -> forall k t, ~ heading (head_line n) k t.
Proof.
  destruct n as [m [|x ls]|m d ls|m d ns|m l|m ty t a|m c k t ns]; cbn [fits head_line hd node_level]; intros H E k0 t0 Hh; try discriminate E.
  - destruct H as (_ & []).
  - destruct H as (_ & (_ & _ & _ & _ & _ & F) & _). exact (proj1 F (FHeading k0 t0) Hh).
  - destruct H as (_ & Hd & _). exact (proj1 (heading_not _ _ _ Hh) Hd).
  - destruct H as (_ & Hd & _). exact (proj2 (heading_not _ _ _ Hh) Hd).
  - destruct H as (_ & Hl). destruct Hh as (c & ws & Hc & _ & El & _). cbn in Hc, Hl. subst l. cbn [repeat app] in Hl. destruct Hl as [K|[K|[K|[K|[K|[K|[]]]]]]]; injection K as K _; subst c; destruct Hc as [K|[K|[]]]; discriminate K.
  - destruct H as (_ & Hty & _). destruct Hh as (c & ws & Hc & _ & El & _). cbn in Hc. destruct Hty as [<-|[<-|[]]]; cbn [repeat app] in El; injection El as K _; subst c; destruct Hc as [K|[K|[]]]; discriminate K.
Qed.
(** A written block begins with something that is not white space. *)
Lemma write_solid U n rest : fits U n -> solid (unlines (write n) ++ rest).
Proof.
  intros H. rewrite (write_parts U n H), unlines_app, unlines_cons. destruct (head_facts U n H) as (_ & (c & y & E & Hc) & _). destruct (top_of n) as [[x|] [i|]]; cbn [top_lines t_title t_id app];
  rewrite ?unlines_cons; try (eapply solid_cons; reflexivity). unfold unlines at 1. cbn [map concat app]. rewrite E. eapply solid_cons. exact Hc.
Qed.
Lemma body_cons n ns : body (n :: ns) = unlines (write n) ++ body ns.
Proof. unfold body. cbn [flat_map]. apply unlines_app. Qed.
Lemma body_ready U ns rest : Forall (fits U) ns -> rest = [] \/ solid rest -> body ns ++ rest = [] \/ solid (body ns ++ rest).
Proof. destruct ns as [|n ns]; [auto|]. intros F _. inversion F; subst. right. rewrite body_cons, <- app_assoc. eapply write_solid. eassumption. Qed.

(** * The lines above a block *)
Definition items (m : top) : list item := match t_title m with Some x => [ITitle x] | None => [] end ++ match t_id m with Some x => [IAnchor x None] | None => [] end.
Lemma items_title m : the_title (items m) = t_title m.
Proof. destruct m as [[x|] [i|]]; reflexivity. Qed.
Lemma items_anchor m : the_anchor (items m) = t_id m.
Proof. destruct m as [[x|] [i|]]; reflexivity. Qed.
Lemma items_list m : the_list (items m) = None.
Proof. destruct m as [[x|] [i|]]; reflexivity. Qed.
Lemma title_tidy x : tidy x -> tidy (lit "." ++ x).
Proof. intros H. apply tidy_app; [intros [K|[]]; discriminate K|exact H]. Qed.
Lemma anchor_tidy x : ~ In LF x -> tidy (lit "[[" ++ x ++ lit "]]").
Proof.
  intros H. change (lit "]]") with (lit "]" ++ lit "]"). rewrite (app_assoc x), (app_assoc (lit "[[")). apply tidy_app; [|exact bracket_tidy]. rewrite !in_app_iff. intros [K|[K|K]]; [| contradiction|]; cbn in K; repeat (destruct K as [K|K]; [discriminate K|]); destruct K.
Qed.
Lemma top_meta U m x r seen : top_fits U m -> tidy x -> (forall i, ~ item_line U x i) -> seen = [] ->
  meta_lines U seen (unlines (top_lines m) ++ x ++ LF :: r) (items m) (x ++ LF :: r).
Proof.
  intros (H1 & H2) Hx Hi ->. assert (En : forall s, meta_lines U s (x ++ LF :: r) [] (x ++ LF :: r)).
  { intros s. eapply me_end; [apply a_line_tidy, Hx|]. intros i K. destruct (Hi i K). }
  assert (An : forall s i, t_id m = Some i -> existsb (same_kind (IAnchor i None)) s = false -> meta_lines U s (unlines [lit "[[" ++ i ++ lit "]]"] ++ x ++ LF :: r) [IAnchor i None] (x ++ LF :: r)).
  { intros s i E Hs. destruct (H2 _ E) as (Hn & Hl). rewrite unlines_cons. cbn [app]. unfold unlines. cbn [map concat app]. rewrite <- !app_assoc. cbn [app]. eapply me_line; [| |exact Hs|apply En].
    - assert (A : a_line ((lit "[[" ++ i ++ lit "]]") ++ LF :: (x ++ LF :: r)) ((lit "[[" ++ i ++ lit "]]") ++ [LF]) (x ++ LF :: r) (lit "[[" ++ i ++ lit "]]")) by (apply a_line_tidy, anchor_tidy, Hl). rewrite <- !app_assoc in A. exact A.
    - cbn [item_line]. auto. }
  destruct m as [[t|] [i|]]; cbn [items top_lines t_title t_id app] in *.
  - rewrite unlines_cons. cbn [app]. destruct (H1 _ eq_refl) as (Ht & Hf).
    assert (A : a_line ((lit "." ++ t) ++ LF :: (unlines [lit "[[" ++ i ++ lit "]]"] ++ x ++ LF :: r)) ((lit "." ++ t) ++ [LF]) (unlines [lit "[[" ++ i ++ lit "]]"] ++ x ++ LF :: r) (lit "." ++ t)) by (apply a_line_tidy, title_tidy, Ht).
    eapply me_line; [rewrite <- !app_assoc; rewrite <- !app_assoc in A; exact A|split; [reflexivity|exact Hf]|reflexivity|]. apply (An [ITitle t] i); reflexivity.
  - rewrite unlines_cons. cbn [app]. destruct (H1 _ eq_refl) as (Ht & Hf).
    assert (A : a_line ((lit "." ++ t) ++ LF :: (x ++ LF :: r)) ((lit "." ++ t) ++ [LF]) (x ++ LF :: r) (lit "." ++ t)) by (apply a_line_tidy, title_tidy, Ht).
    eapply me_line; [rewrite <- !app_assoc; exact A|split; [reflexivity|exact Hf]|reflexivity|]. apply En.
  - apply An; reflexivity.
  - apply En.
Qed.
Lemma write_meta U n rest : fits U n -> meta_lines U [] (unlines (write n) ++ rest) (items (top_of n)) (unlines (head_line n :: more_lines n) ++ rest).
Proof.
  intros H. rewrite (write_parts U n H), unlines_app, <- app_assoc, unlines_cons, <- app_assoc. cbn [app]. destruct (head_facts U n H) as (A & _ & B & _). apply top_meta; auto. exact (fits_top U n H).
Qed.

(** ** The attributes stay as they are *)
Definition R_attrs (P : parser) (bs : list block) (_ : list warning) (P' : parser) : Prop := entries (flat_map events bs) = [] -> p_attrs P' = p_attrs P.
Lemma entries_app a b : entries (a ++ b) = entries a ++ entries b. Proof. apply flat_map_app. Qed.
Lemma section_attrs E un m ws P mi w P1 : until_good R_attrs un -> section_parse E un m P = Ok (Some mi, (w, P1)) -> R_attrs P [mi_item mi] (ws ++ w) P1.
Proof.
  intros G H K. destruct (section_inv _ _ _ _ _ _ _ H) as [(di & level & title & rest & lw & bs & b & src & t & base & man & reg & src2 & Hd & Hl & Hs & Hu & _ & _ & _ & Hm & Hr & -> & -> & ->)].
  cbn [mi_item flat_map events] in K. rewrite app_nil_r in K. set (tp := section_type_of di level bs P) in *. match type of Hu with un _ _ _ (snd ?n) = _ => set (np := n) in * end.
  assert (Tp : p_attrs (snd tp) = p_attrs P). { unfold tp, section_type_of. destruct di; [|destruct (level =? 1)]; reflexivity. }
  assert (Np : p_attrs (snd np) = p_attrs P). { rewrite <- Tp. unfold np. match goal with |- context [if ?b then _ else _] => destruct b end; [|reflexivity]. cbv zeta. unfold assign_section_number. destruct (p_topmost (snd tp)); reflexivity. }
  assert (Rp : p_attrs (fst (snd reg)) = p_attrs (br_parser b)).
  { unfold section_register in Hr. destruct (p_catalog (br_parser b)); [|apply Ok_inj in Hr; subst reg; reflexivity]. destruct man as [i|].
    - cbv zeta in Hr. match type of Hr with (if ?b then _ else _) = _ => destruct b end; [apply Ok_inj in Hr; subst reg; reflexivity|]. apply bind_ok in Hr. destruct Hr as (s & _ & Hr). apply Ok_inj in Hr. subst reg. reflexivity.
    - match type of Hr with (if ?b then _ else _) = _ => destruct b end; [apply bind_ok in Hr; destruct Hr as (s & _ & Hr)|]; apply Ok_inj in Hr; subst reg; reflexivity. }
  rewrite <- Np, <- (G _ _ _ _ _ Hu K), <- Rp. destruct ((level =? 1) && negb di); reflexivity.
Qed.
Lemma attrs_nil P : R_attrs P [] [] P. Proof. intros _. reflexivity. Qed.
Lemma attrs_app P l1 w1 P1 l2 w2 P2 : R_attrs P l1 w1 P1 -> R_attrs P1 l2 w2 P2 -> R_attrs P (l1 ++ l2) (w1 ++ w2) P2.
Proof. intros H1 H2 K. rewrite flat_map_app, entries_app in K. apply app_eq_nil in K. destruct K as (K1 & K2). rewrite (H2 K2). exact (H1 K1). Qed.
Lemma step_attrs E : step_good E R_attrs.
Proof.
  apply step_cases.
  - intros P w _. reflexivity.
  - intros P mi w r _ Hf _. symmetry. apply (finish_core _ _ _ _ Hf).
  - intros P a K. discriminate K.
  - intros P ty src cm w _. reflexivity.
  - intros P bs cx src cm w0 w w1 P1 af r H Hw Hf K. cbn [flat_map events] in K. rewrite app_nil_r in K. rewrite <- (H K). symmetry. apply (finish_core _ _ _ _ Hf).
  - intros un m ws P mi w P1 _ G H. exact (section_attrs E un m ws P mi w P1 G H).
Qed.
Lemma loop_attrs E fuel : until_good R_attrs (fun f n s P => blocks_loop E fuel f n s P).
Proof. apply blocks_induction; [apply attrs_nil|intros P l1 w1 P1 l2 w2 P2; apply attrs_app|apply step_attrs]. Qed.

Section Reading.
Context (E : env) (f : group -> text -> text) (Q : parser -> Prop).
(** [Q] is about which attributes are set, apart from those that the header sets. *)
Context (QI : forall P P', (forall n, ~ implied_name n -> is_attribute_set P' n = is_attribute_set P n) -> Q P -> Q P') (QD : Q parser_default).
Lemma QA P P' : p_attrs P' = p_attrs P -> Q P -> Q P'.
Proof. intros H. apply QI. intros n _. exact (set_by_attrs _ _ n H). Qed.
Lemma QL P l P' : entries_in l = [] -> led (e_u E) P (flat_map deeds l) P' -> Q P -> Q P'.
Proof. intros H (_ & L). apply QI. intros n Hn. specialize (L n). rewrite fate_entries, H in L by exact Hn. injection L as _ L. unfold is_attribute_set. unfold attribute_value in L.
  destruct (mget n (p_attrs P')) as [[a' c' v']|], (mget n (p_attrs P)) as [[a c v]|]; cbn in L |- *; [destruct v', v|destruct v'|destruct v|]; try reflexivity; repeat match type of L with context [match ?x with Some _ => _ | None => _ end] => destruct x end; discriminate L.
Qed.
(** What the substitutions make of the texts. *)
Definition agree (l : list (group * text)) : Prop := forall g x, In (g, x) l -> forall P t, Q P -> e_sub E P g false x = Ok t -> t = f g x.
Lemma agree_app a b : agree (a ++ b) -> agree a /\ agree b.
Proof. intros H. split; intros g x K; apply H, in_app_iff; auto. Qed.
Lemma texts_top n : incl (top_texts (top_of n)) (texts n).
Proof. destruct n; cbn [texts top_of]; try apply incl_refl; apply incl_appl, incl_refl. Qed.
Lemma agree_incl a b : incl a b -> agree b -> agree a.
Proof. intros H K g x I. apply K, H, I. Qed.
Lemma written_metadata n s P m ws rest : fits (e_u E) n -> Q P -> agree (texts n) -> sp_data s = unlines (write n) ++ rest -> metadata_parse E s P = Ok (m, ws) ->
  md_source m = s /\ sp_data (md_start m) = unlines (head_line n :: more_lines n) ++ rest /\ md_attrlist m = None /\
  md_title m = option_map (f GNormal) (t_title (top_of n)) /\ option_map sp_data (md_anchor m) = t_id (top_of n) /\ Suffix s (md_start m).
Proof.
  intros H Qp Ha D Em. pose proof (write_solid _ _ rest H) as Hs. rewrite <- D in Hs. destruct (metadata_Suffix _ _ _ _ _ Em) as (Es & Ss). rewrite (discard_solid _ Hs) in Es.
  destruct (metadata_lines _ _ _ _ _ Em) as (is_ & ws1 & ws2 & _ & Hm & _ & Ean & _ & Eal & Et & _). rewrite Es, D in Hm.
  destruct (meta_lines_unique _ _ _ _ _ Hm _ _ (write_meta _ n rest H)) as (-> & Er). rewrite items_title in Et. rewrite items_anchor in Ean. rewrite items_list in Eal.
  split; [exact Es|]. split; [exact Er|]. split; [destruct (md_attrlist m); [destruct Eal as (sp & af & K & _); discriminate K|reflexivity]|]. split; [|split; [exact Ean|rewrite <- Es; exact Ss]].
  destruct (t_title (top_of n)) as [x|] eqn:Ex; [|exact Et]. destruct Et as (t & K & ->). cbn [option_map]. f_equal. apply (Ha GNormal x) with (P := P); [|exact Qp|exact K]. apply texts_top. unfold top_texts. rewrite Ex. left. reflexivity.
Qed.

(** ** Places *)
Definition begins (s : span) : Prop := sp_data s <> [] -> sp_col s = 1.
Lemma discard_one s rest : sp_data s = LF :: rest -> rest = [] \/ solid rest -> p_discard_empty_lines s = skip s [LF] rest.
Proof.
  intros D Hr. unfold p_discard_empty_lines. rewrite D. cbn [length p_discard_empty_lines_go]. rewrite D. cbv iota. unfold p_take_empty_line.
  rewrite (p_take_line_eq s [] [LF] rest (fun H => H) (or_introl eq_refl) D). cbn [mi_item mi_after with_data sp_data]. change (strip_cr []) with (@nil char). cbn [forallb app].
  destruct Hr as [->|Hr]; [reflexivity|]. pose proof (discard_solid (skip s [LF] rest)) as K. rewrite sp_data_skip in K. specialize (K Hr). unfold p_discard_empty_lines in K. rewrite sp_data_skip in K. exact K.
Qed.
Lemma skip_begins s q r : begins (skip s (q ++ [LF]) r).
Proof.
  intros _. unfold skip. rewrite slice_internal_eq. cbn [sp_col]. rewrite count_lf_app. replace (count_lf [LF]) with 1 by reflexivity. replace (count_lf q + 1 =? 0) with false by (symmetry; apply Nat.eqb_neq; lia).
  rewrite (after_last_lf_app_some q [LF]); [reflexivity|cbn; lia].
Qed.
Lemma suffix_begins s a q : Suffix s a -> sp_data s = q ++ [LF] ++ sp_data a -> begins a.
Proof. intros (pre & D & ->) D2. rewrite sp_data_skip in D2. rewrite D, app_assoc in D2. apply app_inv_tail in D2. subst pre. apply skip_begins. Qed.

(** ** Paragraphs *)
Lemma para_next r rest : Forall next_line_fits r -> paragraph 0 true (unlines r ++ LF :: rest) r (LF :: rest).
Proof.
  induction r as [|x r IH]; intros F; [apply pg_end; right; do 2 eexists; apply a_line_empty|]. inversion F as [|? ? (Ht & Hc & Hb) F2]; subst. rewrite unlines_cons, <- app_assoc. cbn [app].
  eapply pg_line with (n := x); [destruct x; discriminate|apply a_line_tidy, Ht|apply Ht|exact Hc|intros _; exact Hb| |apply IH, F2].
  exists [], []. rewrite app_nil_r. split; [reflexivity|]. split; [constructor|]. split; [left; reflexivity|]. split; [constructor|]. intros y c K. exact (proj2 (proj2 Ht) y c K).
Qed.
Lemma para_written U x r rest : first_line_fits U x -> Forall next_line_fits r -> paragraph 0 false (unlines (x :: r) ++ LF :: rest) (x :: r) (LF :: rest).
Proof.
  intros (Ht & _ & Hc & _) F. rewrite unlines_cons, <- app_assoc. cbn [app].
  eapply pg_line with (n := x); [destruct x; discriminate|apply a_line_tidy, Ht|apply Ht|exact Hc|intros K; discriminate K| |apply para_next, F].
  exists [], []. rewrite app_nil_r. split; [reflexivity|]. split; [constructor|]. split; [left; reflexivity|]. split; [constructor|]. intros y c K. exact (proj2 (proj2 Ht) y c K).
Qed.

(** ** The parts of a block that was read *)
Lemma discard_ready s : sp_data s = [] \/ solid (sp_data s) -> p_discard_empty_lines s = s.
Proof. intros [D|H]; [|apply discard_solid, H]. unfold p_discard_empty_lines. rewrite D. cbn [length p_discard_empty_lines_go]. rewrite D. reflexivity. Qed.
Lemma tidy_prefix x q : tidy x -> trim_end (x ++ q) <> [].
Proof.
  intros (H1 & _ & H3) K. destruct (exists_last H1) as (y & c & ->). pose proof (H3 y c eq_refl) as Hc. destruct (trim_end_spec ((y ++ [c]) ++ q)) as (z & Ez & Fz & _). rewrite K in Ez. cbn [app] in Ez.
  unfold blank in Fz. rewrite Forall_forall in Fz. rewrite (Fz c) in Hc; [discriminate Hc|]. rewrite <- Ez, !in_app_iff. left. right. left. reflexivity.
Qed.
Lemma lines_read s P mi x r rest : first_line_fits (e_u E) x -> Forall next_line_fits r -> Q P -> agree [(GNormal, join [LF] (x :: r))] -> begins s -> sp_data s = unlines (x :: r) ++ LF :: rest -> rest = [] \/ solid rest ->
  parse_lines E s None P = Ok (Some mi) -> ct_rendered (fst (mi_item mi)) = f GNormal (join [LF] (x :: r)) /\ snd (mi_item mi) = StParagraph /\ sp_data (mi_after mi) = rest /\ Suffix s (mi_after mi).
Proof.
  intros Hx Hr Qp Ha Hb D Hrest H. unfold parse_lines in H. assert (Hne : sp_data s <> []) by (rewrite D, unlines_cons; destruct x; discriminate). specialize (Hb Hne).
  assert (Hk : indented (sp_data s) 0).
  { destruct Hx as (_ & (c & y & E1 & Hc) & _). exists [], (sp_data s). split; [reflexivity|]. split; [constructor|]. split; [reflexivity|]. intros c0 y0 E2. rewrite D, unlines_cons, E1 in E2. injection E2 as <- _. intros [->| ->]; discriminate Hc. }
  destruct (discard_ws_col s 0 Hk) as (saw & Ew & Ecol). rewrite Ew in H. cbn [bind] in H. rewrite Ecol, Hb in H.
  replace (checked_sub (1 + 0) 1) with (Ok 0) in H by reflexivity. cbn [bind style_of] in H.
  pose proof (para_written _ x r rest Hx Hr) as Hp. rewrite <- D in Hp.
  destruct (simple_lines_spec 0 (length (sp_data s)) s [] (le_n _)) as (ls' & pre' & rest' & Hp' & D' & Es). cbn [started app] in *. rewrite Es in H.
  destruct (paragraph_unique _ _ _ _ _ Hp _ _ Hp') as (<- & <-). assert (pre' = unlines (x :: r)) as -> by (rewrite D in D'; apply app_inv_tail in D'; congruence).
  cbn [bind fst snd] in H. rewrite (trim_to s (unlines (x :: r)) (LF :: rest)) in H by (rewrite ?sp_off_skip; auto). cbn [bind] in H. rewrite trim_trailing_whitespace_ok in H. cbn [bind] in H. unfold p_trim_trailing_whitespace in H.
  cbn [sp_data with_data] in H. rewrite with_data_with_data in H. destruct (trim_end (unlines (x :: r))) as [|c0 y0] eqn:Et. { exfalso. rewrite unlines_cons in Et. exact (tidy_prefix x _ (proj1 Hx) Et). }
  cbn [is_nil override_via_attrlist bind] in H. apply bind_ok in H. destruct H as (t & Ets & H). rewrite discard_empty_lines_ok in H. cbn [bind] in H. apply Ok_inj in H. injection H as <-. cbn [mi_item mi_after fst snd ct_rendered].
  split; [|split; [reflexivity|]]. { apply (Ha GNormal _ (or_introl eq_refl) P); [exact Qp|]. exact Ets. }
  rewrite (discard_one _ rest (sp_data_skip _ _ _) Hrest). rewrite skip_skip. split; [apply sp_data_skip|]. exists (unlines (x :: r) ++ [LF]). rewrite sp_data_skip. split; [|reflexivity]. rewrite D, <- app_assoc. reflexivity.
Qed.
Definition read_as (n : node) (s : span) (mi : mitem block) (rest : text) : Prop := piece_of (mi_item mi) = meant f n /\ sp_data (mi_after mi) = rest /\ Suffix s (mi_after mi).
Lemma text_body m x r rest : unlines (more_lines (NText m (x :: r))) ++ rest = unlines r ++ LF :: rest.
Proof. cbn [more_lines tl]. rewrite unlines_app, <- app_assoc. reflexivity. Qed.
(** What is known at the first line of a block. *)
Record at_block (n : node) (s : span) (m : metadata) (rest : text) : Prop := mkab {
  ab_source : md_source m = s; ab_data : sp_data (md_start m) = unlines (head_line n :: more_lines n) ++ rest; ab_list : md_attrlist m = None;
  ab_title : md_title m = option_map (f GNormal) (t_title (top_of n)); ab_anchor : option_map sp_data (md_anchor m) = t_id (top_of n);
  ab_suffix : Suffix s (md_start m); ab_begins : begins (md_start m) }.
Lemma fast_read m x r s P mi rest : fits (e_u E) (NText m (x :: r)) -> Q P -> agree (texts (NText m (x :: r))) -> top_lines m = [] -> begins s -> sp_data s = unlines (write (NText m (x :: r))) ++ rest -> rest = [] \/ solid rest ->
  simple_parse_fast E s P = Ok (Some mi) -> read_as (NText m (x :: r)) s mi rest.
Proof.
  intros (_ & Hx & Hr) Qp Ha Et Hb D Hrest H. unfold simple_parse_fast in H. apply bind_ok in H. destruct H as (o & Eo & H). destruct o as [q|]; [|discriminate H]. rewrite discard_empty_lines_ok in H. cbn [bind] in H. apply Ok_inj in H. injection H as <-.
  change (write (NText m (x :: r))) with (top_lines m ++ (x :: r) ++ [[]]) in D. rewrite Et, app_nil_l, unlines_app, <- app_assoc in D.
  assert (Ha' : agree [(GNormal, join [LF] (x :: r))]) by (apply (agree_incl _ _ (fun z K => in_or_app (top_texts m) _ z (or_intror K)) Ha)).
  destruct (lines_read s P q x r rest Hx Hr Qp Ha' Hb D Hrest Eo) as (K1 & K2 & K3 & K4). split; [|split]; cbn [mi_item mi_after].
  - cbn [piece_of]. rewrite K2. cbn [block_common meant]. destruct m as [[a|] [b|]]; try discriminate Et. unfold the_id. cbn [block_common no_common cm_title cm_anchor option_map t_title t_id]. rewrite K1. reflexivity.
  - rewrite discard_ready by (rewrite K3; exact Hrest). exact K3.
  - rewrite discard_ready by (rewrite K3; exact Hrest). exact K4.
Qed.
Lemma suffix_trans a b c : Suffix a b -> Suffix b c -> Suffix a c.
Proof. apply Suffix_trans. Qed.
Lemma text_read n x r s m P mi rest : n = NText (top_of n) (x :: r) -> fits (e_u E) n -> Q P -> agree (texts n) -> at_block n s m rest -> rest = [] \/ solid rest ->
  simple_parse E m P = Ok (Some mi) -> read_as n s mi rest.
Proof.
  intros En Hf Qp Ha [B1 B2 B3 B4 B5 B6 B7] Hrest H. unfold simple_parse in H. rewrite B3 in H. apply bind_ok in H. destruct H as (o & Eo & H). destruct o as [q|]; [|discriminate H].
  apply bind_ok in H. destruct H as (s1 & _ & H). apply bind_ok in H. destruct H as (s2 & _ & H). rewrite discard_empty_lines_ok in H. cbn [bind] in H. apply Ok_inj in H. injection H as <-.
  rewrite En in Hf, Ha, B2. destruct Hf as (_ & Hx & Hr). cbn [head_line hd] in B2. rewrite unlines_cons, <- app_assoc in B2. cbn [app] in B2. rewrite text_body in B2. change (x ++ LF :: unlines r ++ LF :: rest) with (x ++ [LF] ++ unlines r ++ LF :: rest) in B2.
  assert (D : sp_data (md_start m) = unlines (x :: r) ++ LF :: rest) by (rewrite B2, unlines_cons, <- app_assoc; reflexivity).
  assert (Ha' : agree [(GNormal, join [LF] (x :: r))]) by (apply (agree_incl _ _ (fun z K => in_or_app (top_texts _) _ z (or_intror K)) Ha)).
  destruct (lines_read _ P q x r rest Hx Hr Qp Ha' B7 D Hrest Eo) as (K1 & K2 & K3 & K4). split; [|split]; cbn [mi_item mi_after].
  - rewrite En. cbn [piece_of]. rewrite K2. cbn [block_common meant]. unfold the_id. cbn [block_common cm_anchor cm_title common_of]. rewrite B4, B5, K1. reflexivity.
  - rewrite discard_ready by (rewrite K3; exact Hrest). exact K3.
  - rewrite discard_ready by (rewrite K3; exact Hrest). exact (suffix_trans _ _ _ B6 K4).
Qed.
(** ** Lines of their own *)
Lemma media_after Ev m P mi w l r n : a_line (sp_data (md_start m)) l r n -> media_parse Ev m P = Ok (Some mi, w) -> mi_after mi = p_discard_empty_lines (skip (md_start m) l r).
Proof.
  intros Hl H. unfold media_parse in H. rewrite (take_norm_eq _ _ _ _ Hl) in H. cbn [bind mi_item mi_after] in H. destruct (negb _); [discriminate H|]. apply bind_ok in H. destruct H as (o & _ & H). destruct o as [nm|]; [|discriminate H]. destruct (media_type_of _) as [ty|]; [|discriminate H].
  apply bind_ok in H. destruct H as (o & _ & H). destruct o as [co|]; [|discriminate H]. apply bind_ok in H. destruct H as (tg & _ & H). destruct (is_nil _); [discriminate H|]. apply bind_ok in H. destruct H as (o & _ & H). destruct o as [ob|]; [|discriminate H].
  apply bind_ok in H. destruct H as (e & _ & H). apply bind_ok in H. destruct H as (al & _ & H). apply bind_ok in H. destruct H as (a & _ & H). apply bind_ok in H. destruct H as (src & _ & H). rewrite discard_empty_lines_ok in H. cbn [bind] in H.
  apply Ok_inj in H. injection H as <- _. reflexivity.
Qed.
Lemma break_after m mi l r n : a_line (sp_data (md_start m)) l r n -> break_parse m = Ok (Some mi) -> mi_after mi = p_discard_empty_lines (skip (md_start m) l r).
Proof.
  intros Hl H. unfold break_parse in H. rewrite (take_norm_eq _ _ _ _ Hl) in H. cbn [bind mi_item mi_after] in H. destruct (break_type_of _) as [ty|]; [|discriminate H]. apply bind_ok in H. destruct H as (src & _ & H). rewrite discard_empty_lines_ok in H. cbn [bind] in H.
  apply Ok_inj in H. injection H as <-. reflexivity.
Qed.
Lemma single_after n s m rest : more_lines n = [[]] -> tidy (head_line n) -> at_block n s m rest -> rest = [] \/ solid rest ->
  exists l r, a_line (sp_data (md_start m)) l r (head_line n) /\ sp_data (p_discard_empty_lines (skip (md_start m) l r)) = rest /\ Suffix s (p_discard_empty_lines (skip (md_start m) l r)).
Proof.
  intros Em Ht [B1 B2 B3 B4 B5 B6 B7] Hr. rewrite Em, !unlines_cons in B2. cbn [app] in B2. rewrite <- app_assoc in B2. cbn [app] in B2. change (unlines []) with (@nil char) in B2. cbn [app] in B2.
  exists (head_line n ++ [LF]), (LF :: rest). split; [rewrite B2; apply a_line_tidy, Ht|]. rewrite (discard_one _ rest (sp_data_skip _ _ _) Hr), skip_skip. split; [apply sp_data_skip|]. apply (suffix_trans _ _ _ B6).
  eexists. rewrite sp_data_skip. split; [|reflexivity]. rewrite B2, <- !app_assoc. reflexivity.
Qed.

(** ** Delimited blocks *)
Lemma trimmed_total x : exists n, trimmed_line x n.
Proof.
  destruct (trim_end_by_app (N.eqb SP) (strip_cr x)) as (z & Hz & Fz & Lz). exists (trim_end_by (N.eqb SP) (strip_cr x)), (strip_cr x), z. split; [apply strip_cr_minus|]. split; [exact Hz|].
  split; [intros c Hc; rewrite Forall_forall in Fz; apply Fz in Hc; apply N.eqb_eq in Hc; auto|]. intros y K. apply Lz in K. discriminate K.
Qed.
Lemma enclosed_lines d ls rest : tidy d -> Forall (fun x => ~ In LF x /\ ~ line_reads d x) ls -> enclosed d (unlines (ls ++ [d]) ++ rest) (unlines ls) (Some rest).
Proof.
  intros Hd F. induction F as [|x ls (H1 & H2) F IH]; cbn [app].
  - rewrite unlines_cons, <- app_assoc. cbn [app]. eapply en_here; [destruct d; discriminate|]. exact (a_line_tidy d rest Hd).
  - rewrite !unlines_cons, <- app_assoc. cbn [app]. change (x ++ LF :: unlines ls) with (x ++ [LF] ++ unlines ls). rewrite app_assoc. destruct (trimmed_total x) as (n & Hn).
    eapply en_more; [destruct x; discriminate|apply (a_line_lf x n _ H1 Hn)| |exact IH]. intros ->. exact (H2 Hn).
Qed.
Lemma raw_run m P mi w l r d c r' x : a_line (sp_data (md_start m)) l r d -> raw_delimiter d -> enclosed d r c (Some r') -> without_eol c x -> md_attrlist m = None ->
  raw_parse E m P = Ok (Some (mi, w)) -> exists t, e_sub E P (snd (snd (kind_of d))) false x = Ok t.
Proof.
  intros H Hd He Hx Hg K. unfold raw_parse in K. rewrite (take_norm_eq _ _ _ _ H) in K. cbn [bind mi_item mi_after sp_data with_data] in K.
  destruct (raw_delimiter_b d) as (b & Eb & Hb). assert (b = true) as -> by (apply Hb; exact Hd).
  assert (H4 : (blen d <? 4) = false) by (apply Nat.ltb_ge; destruct Hd as (q & _ & Hq); exact (repeated_long _ _ Hq)). rewrite H4 in K.
  rewrite (raw_kind_delim d Hd) in K. destruct (kind_of d) as [model [context g0]] eqn:Ek. cbn [fst snd] in *. rewrite Eb in K. cbn [bind negb] in K.
  destruct (find_delimiter_spec d (length (sp_data (skip (md_start m) l r))) (skip (md_start m) l r) (le_n _)) as (c' & o' & He' & Ho).
  rewrite sp_data_skip in He'. destruct (enclosed_unique _ _ _ _ He _ _ He') as (-> & <-). destruct Ho as (k & Dk & Hk & Hne & Ef). rewrite Ef in K. rewrite sp_data_skip in Dk.
  cbn [bind fst snd] in K. rewrite (trim_to (skip (md_start m) l r) c' (k ++ r')) in K by (rewrite ?sp_data_skip, ?sp_off_skip; auto). cbn [bind] in K.
  rewrite (trim_line_end_eq (with_data (skip (md_start m) l r) c') x Hx) in K. cbn [bind] in K. rewrite Hg in K. cbn [override_via_attrlist bind sp_data with_data] in K. apply bind_ok in K. destruct K as (t & Et & _). exists t. exact Et.
Qed.
Lemma compound_run un m P mi w l r d c r' : a_line (sp_data (md_start m)) l r d -> compound_delimiter d -> enclosed d r c (Some r') ->
  compound_parse un m P = Ok (Some (mi, w)) -> exists b, un (skip (md_start m) l c) P = Ok b.
Proof.
  intros H Hd He K. unfold compound_parse in K. rewrite (take_norm_eq _ _ _ _ H) in K. cbn [bind mi_item mi_after sp_data with_data] in K.
  destruct (compound_delimiter_b d) as (v & Eb & Hb). assert (v = true) as -> by (apply Hb; exact Hd).
  rewrite (compound_context_delim d Hd), Eb in K. cbn [bind negb] in K.
  destruct (find_delimiter_spec d (length (sp_data (skip (md_start m) l r))) (skip (md_start m) l r) (le_n _)) as (c' & o' & He' & Ho).
  rewrite sp_data_skip in He'. destruct (enclosed_unique _ _ _ _ He _ _ He') as (-> & <-). destruct Ho as (k & Dk & Hk & Hne & Ef). rewrite Ef in K. rewrite sp_data_skip in Dk.
  cbn [bind fst snd mi_item mi_after] in K. rewrite (trim_to (skip (md_start m) l r) c' (k ++ r')) in K by (rewrite ?sp_data_skip, ?sp_off_skip; auto). cbn [bind] in K.
  rewrite with_data_skip in K. apply bind_ok in K. destruct K as (b & K & _). exists b. exact K.
Qed.
Lemma raw_kinds d : raw_delimiter d -> fst (snd (kind_of d)) = fst (raw_meaning d) /\ snd (snd (kind_of d)) = snd (raw_meaning d).
Proof. intros (c & Hc & H). destruct (repeated_hd _ _ H) as (y & ->). cbn in Hc. destruct Hc as [<-|[<-|[<-|[<-|[]]]]]; split; reflexivity. Qed.
Lemma box_kinds d : compound_delimiter d -> context_of d = box_meaning d.
Proof. intros [->|(c & Hc & H)]; [reflexivity|]. destruct (repeated_hd _ _ H) as (y & ->). cbn in Hc. destruct Hc as [<-|[<-|[<-|[]]]]; reflexivity. Qed.
Lemma join_no_cr ls : Forall (fun x => ~ In CR x) ls -> ~ In CR (join [LF] ls).
Proof.
  induction 1 as [|x ls H F IH]; [intros []|]. destruct ls as [|y ls]; [exact H|]. change (join [LF] (x :: y :: ls)) with (x ++ [LF] ++ join [LF] (y :: ls)). rewrite !in_app_iff. intros [K|[[K|[]]|K]]; [exact (H K)|discriminate K|exact (IH K)].
Qed.
Lemma lines_without_eol ls : Forall (fun x => ~ In CR x) ls -> without_eol (unlines ls) (join [LF] ls).
Proof.
  intros F. destruct ls as [|x ls]; [right; split; [reflexivity|]; intros [|? ?]; discriminate|]. left. exists (join [LF] (x :: ls)). split; [apply unlines_join; discriminate|]. right. split; [reflexivity|].
  intros y K. apply (join_no_cr _ F). rewrite K. apply in_app_iff. right. left. reflexivity.
Qed.
Lemma raw_read m0 d ls s m P mi w rest : fits (e_u E) (NRaw m0 d ls) -> Q P -> agree (texts (NRaw m0 d ls)) -> at_block (NRaw m0 d ls) s m rest ->
  raw_parse E m P = Ok (Some (mi, w)) -> read_as (NRaw m0 d ls) s mi rest /\ w = [].
Proof.
  intros (_ & Hd & F) Qp Ha [B1 B2 B3 B4 B5 B6 B7] H. cbn [head_line more_lines top_of] in *. rewrite unlines_cons, <- app_assoc in B2. cbn [app] in B2.
  assert (Hl : a_line (sp_data (md_start m)) (d ++ [LF]) (unlines (ls ++ [d]) ++ rest) d) by (rewrite B2; apply a_line_tidy, raw_tidy, Hd).
  assert (He : enclosed d (unlines (ls ++ [d]) ++ rest) (unlines ls) (Some rest)) by (apply enclosed_lines; [apply raw_tidy, Hd|]; eapply Forall_impl; [|exact F]; intros x (K1 & _ & K2); auto).
  assert (Hx : without_eol (unlines ls) (join [LF] ls)) by (apply lines_without_eol; eapply Forall_impl; [|exact F]; intros x (_ & K & _); exact K).
  destruct (raw_run m P mi w _ _ d _ rest _ Hl Hd He Hx B3 H) as (t & Et). destruct (raw_kinds d Hd) as (K1 & K2).
  destruct (raw_parse_found E m P _ _ d _ rest _ (snd (snd (kind_of d))) t Hl Hd He Hx) as (src & k & D & _ & _ & _ & Er); [rewrite B3; reflexivity|rewrite B3; exact Et|rewrite B1; exact B6|].
  rewrite Er in H. apply Ok_inj in H. injection H as <- <-. split; [|reflexivity]. split; [|split]; cbn [mi_item mi_after].
  - cbn [piece_of ct_rendered]. unfold the_id. cbn [block_common cm_title cm_anchor common_of]. rewrite B4, B5, K1. cbn [meant]. f_equal. rewrite <- K2. apply (Ha (snd (snd (kind_of d))) _) with (P := P); [|exact Qp|exact Et].
    cbn [texts]. rewrite K2. apply in_app_iff. right. left. reflexivity.
  - apply sp_data_skip.
  - apply (suffix_trans _ _ _ B6). eexists. rewrite sp_data_skip. split; [|reflexivity]. rewrite D, <- !app_assoc. reflexivity.
Qed.
Lemma write_no_lf n : fits (e_u E) n -> Forall (fun x => ~ In LF x) (write n).
Proof.
  assert (T : forall m, top_fits (e_u E) m -> Forall (fun x => ~ In LF x) (top_lines m)).
  { intros m (H1 & H2). unfold top_lines. apply Forall_app. split; [destruct (t_title m) as [x|]|destruct (t_id m) as [x|]]; constructor; try constructor.
    - exact (proj1 (proj2 (title_tidy x (proj1 (H1 x eq_refl))))).
    - exact (proj1 (proj2 (anchor_tidy x (proj2 (H2 x eq_refl))))). }
  assert (N : ~ In LF (@nil char)) by (intros []).
  induction n as [m ls|m d ls|m d ns IH|m l|m ty t a|m c k t ns IH] using node_ind'; cbn [fits write]; intros H.
  - destruct H as (H0 & H). destruct ls as [|x r]; [contradiction|]. destruct H as ((Hx & _) & Hr). apply Forall_app. split; [apply T, H0|]. cbn [app]. constructor; [apply Hx|]. apply Forall_app. split; [|repeat constructor; exact N].
    eapply Forall_impl; [|exact Hr]. intros y (K & _). apply K.
  - destruct H as (H0 & Hd & F). pose proof (proj1 (proj2 (raw_tidy d Hd))) as Kd. apply Forall_app. split; [apply T, H0|]. cbn [app]. constructor; [exact Kd|]. apply Forall_app. split; [|repeat constructor; exact Kd]. eapply Forall_impl; [|exact F]. intros y (K & _). exact K.
  - destruct H as (H0 & Hd & _ & _ & F). pose proof (proj1 (proj2 (compound_tidy d Hd))) as Kd. apply Forall_app. split; [apply T, H0|]. cbn [app]. constructor; [exact Kd|]. apply Forall_app. split; [|repeat constructor; exact Kd].
    apply fits_all in F. apply Forall_flat_map. rewrite Forall_forall in IH, F |- *. intros x Hx. apply IH; [exact Hx|]. apply F, Hx.
  - destruct H as (H0 & Hd). apply Forall_app. split; [apply T, H0|]. constructor; [apply (break_tidy l Hd)|repeat constructor; exact N].
  - pose proof (head_facts (e_u E) (NMedia m ty t a) H) as (Ht & _). destruct H as (H0 & _). apply Forall_app. split; [apply T, H0|]. constructor; [apply Ht|repeat constructor; exact N].
  - pose proof (head_facts (e_u E) (NSection m c k t ns) H) as (Ht & _). destruct H as (H0 & _ & _ & _ & _ & _ & F). apply Forall_app. split; [apply T, H0|]. cbn [app]. constructor; [apply Ht|]. constructor; [exact N|].
    apply fits_all in F. apply Forall_flat_map. rewrite Forall_forall in IH, F |- *. intros x Hx. apply IH; [exact Hx|]. apply F, Hx.
Qed.

(** ** Blocks with blocks in them *)
(** What follows the blocks of a section of the level [lo]: nothing, or a section that is not deeper. *)
Definition next_is (lo : nat) (rest : text) : Prop := rest = [] \/ exists n k r, fits (e_u E) n /\ agree (texts n) /\ node_level n = Some k /\ k <= lo /\ rest = unlines (write n) ++ r.
Definition mode (stop : stop_fn) (lo : nat) (rest : text) : Prop := (stop = never /\ rest = []) \/ (stop = section_stop E false lo /\ next_is lo rest).
Definition un_reads (un : stop_fn -> nat -> span -> parser -> res bres) : Prop := forall stop lo k ns s P b rest, mode stop lo rest -> sp_data (p_discard_empty_lines s) = body ns ++ rest -> begins (p_discard_empty_lines s) ->
  in_order lo ns -> Forall (fits (e_u E)) ns -> agree (flat_map texts ns) -> Q P -> un stop k s P = Ok b ->
  map piece_of (br_blocks b) = map (meant f) ns /\ sp_data (br_after b) = rest /\ Suffix s (br_after b).
Lemma next_ready lo rest : next_is lo rest -> rest = [] \/ solid rest.
Proof. intros [->|(n & k & r & H & _ & _ & _ & ->)]; [left; reflexivity|right; exact (write_solid _ n r H)]. Qed.
Lemma mode_ready stop lo rest : mode stop lo rest -> rest = [] \/ solid rest.
Proof. intros [(_ & ->)|(_ & H)]; [left; reflexivity|exact (next_ready _ _ H)]. Qed.
Lemma box_read un m0 d ns s m P mi w rest : un_reads un -> fits (e_u E) (NBox m0 d ns) -> Q P -> agree (texts (NBox m0 d ns)) -> at_block (NBox m0 d ns) s m rest ->
  compound_parse (un never 0) m P = Ok (Some (mi, w)) -> read_as (NBox m0 d ns) s mi rest.
Proof.
  intros Hu (_ & Hd & Fd & Ho & F) Qp Ha [B1 B2 B3 B4 B5 B6 B7] H. apply fits_all in F. cbn [head_line more_lines top_of] in *. rewrite unlines_cons, <- app_assoc in B2. cbn [app] in B2.
  assert (Hl : a_line (sp_data (md_start m)) (d ++ [LF]) (unlines (flat_map write ns ++ [d]) ++ rest) d) by (rewrite B2; apply a_line_tidy, compound_tidy, Hd).
  assert (He : enclosed d (unlines (flat_map write ns ++ [d]) ++ rest) (body ns) (Some rest)).
  { apply enclosed_lines; [apply compound_tidy, Hd|]. rewrite Forall_forall in Fd |- *. intros x Hx. split; [|apply Fd, Hx]. apply in_flat_map in Hx. destruct Hx as (n & Hn & Hx). rewrite Forall_forall in F.
    pose proof (write_no_lf n (F n Hn)) as K. rewrite Forall_forall in K. exact (K x Hx). }
  destruct (compound_run (un never 0) m P mi w _ _ d _ rest Hl Hd He H) as (b & Eb).
  destruct (compound_parse_found (un never 0) m P _ _ d _ rest b Hl Hd He) as (k & w' & pre & D & _ & _ & Er); [rewrite B1; exact B6|exact Eb|].
  assert (Hn : p_discard_empty_lines (skip (md_start m) (d ++ [LF]) (body ns)) = skip (md_start m) (d ++ [LF]) (body ns)).
  { apply discard_ready. rewrite sp_data_skip. rewrite <- (app_nil_r (body ns)). apply (body_ready _ _ _ F). left. reflexivity. }
  destruct (Hu never 0 0 ns (skip (md_start m) (d ++ [LF]) (body ns)) P b [] (or_introl (conj eq_refl eq_refl))) as (K1 & K2 & K3); [rewrite Hn, sp_data_skip, app_nil_r; reflexivity|rewrite Hn; apply skip_begins|exact Ho|exact F|exact (proj2 (agree_app _ _ Ha))|exact Qp|exact Eb|].
  rewrite Er in H. apply Ok_inj in H. injection H as <- <-. split; [|split]; cbn [mi_item mi_after].
  - cbn [piece_of]. unfold the_id. cbn [block_common cm_title cm_anchor common_of]. rewrite B4, B5, (box_kinds d Hd), K1. reflexivity.
  - apply sp_data_skip.
  - apply (suffix_trans _ _ _ B6). eexists. rewrite sp_data_skip. split; [|reflexivity]. rewrite D, <- !app_assoc. reflexivity.
Qed.
Lemma piece_entries n : forall b, piece_of b = meant f n -> entries (events b) = [].
Proof.
  induction n as [m ls|m d ls|m d ns IH|m l|m ty t a|m c k t ns IH] using node_ind'; intros b K; destruct b as [c1 c2 [] c4|ty1 c1 c2 c3 c4|lv h bs c1 c2 c3 c4 c5|c1 c2 c3 c4 c5 c6|bs c1 c2 c3|bs c1|ty1 c1 c2|a1]; cbn [piece_of meant] in K; try discriminate K; try reflexivity.
  - injection K as _ _ _ K. cbn [events]. revert bs K. induction IH as [|n ns Hn F IH2]; intros [|b bs] K; try discriminate K; [reflexivity|]. cbn [map] in K. injection K as K1 K2. cbn [flat_map]. rewrite entries_app, (Hn b K1), (IH2 bs K2). reflexivity.
  - injection K as _ _ _ _ K. cbn [events]. change (entries (flat_map events bs) = []). revert bs K. induction IH as [|n ns Hn F IH2]; intros [|b bs] K; try discriminate K; [reflexivity|]. cbn [map] in K. injection K as K1 K2. cbn [flat_map]. rewrite entries_app, (Hn b K1), (IH2 bs K2). reflexivity.
Qed.
Lemma no_entries ns : forall bs, map piece_of bs = map (meant f) ns -> entries (flat_map events bs) = [].
Proof. induction ns as [|n ns IH]; intros [|b bs] K; try discriminate K; [reflexivity|]. cbn [map] in K. injection K as K1 K2. cbn [flat_map]. rewrite entries_app, (piece_entries n b K1), (IH bs K2). reflexivity. Qed.
Lemma section_read un m0 c lv t ns s m P mi w P1 rest : un_reads un -> until_good R_attrs un -> fits (e_u E) (NSection m0 c lv t ns) -> Q P -> agree (texts (NSection m0 c lv t ns)) -> at_block (NSection m0 c lv t ns) s m rest -> next_is lv rest ->
  section_parse E un m P = Ok (Some mi, (w, P1)) -> read_as (NSection m0 c lv t ns) s mi rest.
Proof.
  intros Hu Hg Hf Qp Ha [B1 B2 B3 B4 B5 B6 B7] Hrest H. pose proof (head_facts _ _ Hf) as (Ht & Hso & _). pose proof (head_heading _ _ _ _ _ _ Hf) as Hh. cbn [head_line] in *.
  destruct Hf as (_ & _ & _ & _ & _ & Ho & F). apply fits_all in F.
  destruct (section_inv _ _ _ _ _ _ _ H) as [(dd & level & title & rest' & lw & bs & b & src & tt & base & mn & reg & s2 & Ed & Et & _ & Eb & _ & Es & _ & _ & _ & _ & -> & _)].
  unfold is_discrete in Ed. rewrite B3 in Ed. cbn [style_of bind] in Ed. apply Ok_inj in Ed. change (false = dd) in Ed. subst dd. cbn [more_lines] in B2. rewrite unlines_cons, <- app_assoc in B2. cbn [app] in B2.
  assert (Hl : a_line (sp_data (md_start m)) (heading_line c lv t ++ [LF]) (unlines ([] :: flat_map write ns) ++ rest) (heading_line c lv t)) by (rewrite B2; apply a_line_tidy, Ht).
  rewrite discard_ready in Et. 2: { right. rewrite B2. destruct Hso as (x & y & E1 & Hx). rewrite E1. cbn [app]. exact (solid_cons x _ Hx). }
  destruct (title_line_heading _ _ _ _ _ _ Hl Hh) as (t' & Et' & E1 & _). rewrite Et' in Et. apply Ok_inj in Et. injection Et as <- <- <- <-.
  rewrite unlines_cons in *. cbn [app] in *. change (unlines (flat_map write ns)) with (body ns) in *.
  set (r0 := skip (md_start m) (heading_line c lv t ++ [LF]) (LF :: body ns ++ rest)) in *.
  assert (Er : p_discard_empty_lines r0 = skip r0 [LF] (body ns ++ rest)). { apply discard_one; [apply sp_data_skip|]. apply (body_ready _ _ _ F), (next_ready _ _ Hrest). }
  match type of Eb with un _ _ _ ?p = _ => set (P0 := p) in * end.
  assert (Qp0 : Q P0). { refine (QA P P0 _ Qp). unfold P0. match goal with |- context [if ?b then _ else _] => destruct b end; cbn [snd]; [unfold assign_section_number; match goal with |- context [match ?b with SNormal => _ | _ => _ end] => destruct b end|]; unfold section_type_of; destruct (lv =? 1); reflexivity. }
  destruct (Hu (section_stop E false lv) lv lv ns r0 P0 b rest (or_intror (conj eq_refl Hrest))) as (K1 & K2 & K3).
  { rewrite Er. apply sp_data_skip. }
  { rewrite Er. apply (skip_begins r0 [] _). }
  { exact Ho. } { exact F. } { exact (proj2 (agree_app _ _ (proj2 (agree_app _ _ Ha)))). } { exact Qp0. } { exact Eb. }
  split; [|split]; cbn [mi_item mi_after].
  - cbn [piece_of ct_rendered]. unfold the_id. cbn [block_common cm_title cm_anchor common_of]. rewrite B4, B5, K1. cbn [meant top_of]. f_equal. apply (Ha GTitle t) with (P := br_parser b); [apply in_app_iff; right; left; reflexivity|exact (QA _ _ (Hg _ _ _ _ _ Eb (no_entries _ _ K1)) Qp0)|]. rewrite B3, E1 in Es. exact Es.
  - exact K2.
  - apply (suffix_trans _ _ _ B6). refine (suffix_trans _ r0 _ _ K3). exact (suffix_line _ _ _ _ Hl).
Qed.
(** ** The form of the first line *)
Definition form_of (n : node) : option form :=
  match n with
  | NText _ _ => None
  | NRaw _ d _ => Some (FRaw (fst (snd (kind_of d))) (fst (kind_of d)))
  | NBox _ d _ => Some (FCompound (context_of d))
  | NBreak _ l => Some (if text_eqb l (lit "<<<") then FPage else FThematic)
  | NMedia _ ty t _ => Some (FMedia ty t)
  | NSection _ _ level title _ => Some (FHeading level title)
  end.
Lemma form_fits n : fits (e_u E) n -> match form_of n with Some fo => has_form (head_line n) fo | None => forall fo, ~ has_form (head_line n) fo end.
Proof.
  destruct n as [m [|x ls]|m d ls|m d ns|m l|m ty t a|m c k t ns]; cbn [form_of]; intros H.
  - destruct H as (_ & []).
  - destruct H as (_ & (_ & _ & _ & _ & _ & H & _) & _). exact H.
  - apply raw_delim_form, H.
  - apply compound_delim_form, H.
  - destruct H as (_ & H). cbn [head_line]. destruct (text_eqb l (lit "<<<")) eqn:El; [apply text_eqb_eq in El; exact El|]. cbn [has_form]. assert (l <> lit "<<<") by (intros ->; discriminate El). unfold break_line in H. cbn [In] in H |- *. unfold thematic_lines. cbn [In]. intuition congruence.
  - destruct H as (_ & Hty & Hn & _ & Hb & _). cbn [has_form head_line]. split; [exact Hn|]. split; [exact Hb|]. exists (media_word ty), a. split; [|reflexivity]. cbn in Hty. destruct Hty as [<-|[<-|[]]]; cbn; auto.
  - exact (head_heading _ _ _ _ _ _ H).
Qed.

(** ** One block *)
Lemma written_at n s P m ws rest : fits (e_u E) n -> Q P -> agree (texts n) -> begins s -> sp_data s = unlines (write n) ++ rest -> metadata_parse E s P = Ok (m, ws) -> at_block n s m rest.
Proof.
  intros H Qp Ha Hb D Em. destruct (written_metadata n s P m ws rest H Qp Ha D Em) as (B1 & B2 & B3 & B4 & B5 & B6). constructor; auto.
  rewrite (write_parts _ n H), unlines_app, <- app_assoc in D. destruct (top_lines (top_of n)) as [|x q] eqn:Et.
  - destruct B6 as (pre & Dp & Ep). change (unlines [] ++ unlines (head_line n :: more_lines n) ++ rest) with ([] ++ unlines (head_line n :: more_lines n) ++ rest) in D. rewrite D, B2 in Dp. apply app_inv_tail in Dp. subst pre.
    assert (Hn : sp_data s <> []) by (rewrite D, unlines_cons; destruct (head_line n); discriminate). intros _. rewrite Ep, skip_nil. exact (Hb Hn).
  - destruct (unlines_end (x :: q)) as (y & Ey); [discriminate|]. apply (suffix_begins s _ y B6). rewrite D, B2, Ey, <- app_assoc. reflexivity.
Qed.
Lemma first_written n rest : fits (e_u E) n -> exists w r, unlines (write n) ++ rest = w ++ LF :: r /\ tidy w /\ forall y, w <> lit ":" ++ y.
Proof.
  intros H. rewrite (write_parts _ n H). destruct (head_facts _ n H) as (H1 & _ & _ & H4). destruct (fits_top _ n H) as (T1 & T2). unfold top_lines. destruct (t_title (top_of n)) as [x|] eqn:Ex.
  - cbn [app]. rewrite unlines_cons, <- app_assoc. do 2 eexists. split; [reflexivity|]. split; [apply title_tidy, T1; reflexivity|]. intros y K. discriminate K.
  - destruct (t_id (top_of n)) as [x|] eqn:Ei; cbn [app]; rewrite unlines_cons, <- app_assoc; do 2 eexists; (split; [reflexivity|]).
    + split; [apply anchor_tidy, T2; reflexivity|]. intros y K. discriminate K.
    + auto.
Qed.
Lemma head_at n s m rest : fits (e_u E) n -> at_block n s m rest -> exists r, a_line (sp_data (md_start m)) (head_line n ++ [LF]) r (head_line n).
Proof. intros H B. rewrite (ab_data _ _ _ _ B), unlines_cons, <- app_assoc. eexists. apply a_line_tidy. exact (proj1 (head_facts _ n H)). Qed.
Lemma solid_not_blank x : solid x -> ~ blank x.
Proof. intros (c & y & -> & Hc) B. inversion B as [|? ? K _]; subst. congruence. Qed.
Lemma text_path un n s m ws P r mi rest : fits (e_u E) n -> form_of n = None -> at_block n s m rest -> with_metadata E un m ws P = Ok r -> pr_item r = Some mi -> simple_parse E m P = Ok (Some mi).
Proof.
  intros H Ef B K Hi. destruct (head_at n s m rest H B) as (q & Hl). pose proof (form_fits n H) as NF. rewrite Ef in NF. destruct (head_facts _ n H) as (_ & Hso & _).
  unfold with_metadata in K. rewrite (ab_list _ _ _ _ B) in K. cbn [style_of bind style_is] in K.
  rewrite (raw_parse_none E m P _ _ _ Hl) in K by (intros Z; exact (NF _ (raw_delim_form _ Z))). cbn [bind] in K. rewrite (compound_parse_none _ m P _ _ _ Hl) in K by (intros Z; exact (NF _ (compound_delim_form _ Z))). cbn [bind] in K.
  rewrite (take_norm_eq _ _ _ _ Hl) in K. cbn [bind mi_item sp_data with_data] in K. unfold try_media in K. apply bind_ok in K. destruct K as ([o w] & Eo & K). cbn [fst snd] in K. destruct o as [x|].
  { exfalso. match type of Eo with (if ?b then _ else _) = _ => destruct b eqn:Eb end; [|discriminate Eo]. destruct (media_some _ _ _ _ _ _ _ _ Hl Eb Eo) as (ty & t & a & sr & cm & _ & Z). exact (NF _ Z). }
  unfold try_section in K. apply bind_ok in K. destruct K as ([o2 [w2 P2]] & Eo2 & K). cbn [fst snd] in K. destruct o2 as [x|].
  { exfalso. destruct (starts_with_any (lit "=#") (head_line n)) eqn:Es; [|discriminate Eo2]. destruct (section_some _ _ _ _ _ _ _ _ _ _ Hl Es Eo2) as (fo & _ & Z). exact (NF _ Z). }
  assert (P2 = P) as ->. { destruct (starts_with_any (lit "=#") (head_line n)); [exact (section_none _ _ _ _ _ _ Eo2)|apply Ok_inj in Eo2; congruence]. }
  unfold try_break in K. apply bind_ok in K. destruct K as (o3 & Eo3 & K). destruct o3 as [x|].
  { exfalso. destruct (starts_with_any (lit "'-*<") (head_line n)); [|discriminate Eo3]. destruct (break_some _ _ _ _ _ Hl Eo3) as (fo & _ & Z). exact (NF _ Z). }
  unfold no_block in K. apply bind_ok in K. destruct K as (o4 & Eo4 & K). destruct o4 as [x|]; [|exfalso; exact (solid_not_blank _ Hso (simple_md_none _ _ _ _ _ _ Hl Eo4))]. cbn [is_some negb andb] in K.
  unfold last_resort in K. rewrite Eo4 in K. cbn [bind] in K. destruct (finish_inv _ _ _ _ K) as (id & _ & ->). cbn [pr_item] in Hi. injection Hi as <-. exact Eo4.
Qed.
Lemma written_step un n s P r rest : un_reads un -> until_good R_attrs un -> fits (e_u E) n -> Q P -> agree (texts n) -> begins s -> sp_data s = unlines (write n) ++ rest -> rest = [] \/ solid rest -> (forall k, node_level n = Some k -> next_is k rest) ->
  block_parse_with E un s P = Ok r -> exists mi, pr_item r = Some mi /\ read_as n s mi rest.
Proof.
  intros Hu Hg H Qp Ha Hb D Hrest Hnx K. destruct (head_facts _ n H) as (Ht & Hso & _ & _). destruct (pr_item r) as [mi|] eqn:Hi.
  2: { exfalso. destruct (block_path_none _ _ _ _ _ K Hi) as (m & ws & Em & Ew). pose proof (written_at n s P m ws rest H Qp Ha Hb D Em) as B. destruct (head_at n s m rest H B) as (q & Hl). exact (solid_not_blank _ Hso (md_none _ _ _ _ _ _ _ _ _ Hl Ew Hi)). }
  exists mi. split; [reflexivity|]. destruct (first_written n rest H) as (w0 & r0 & E0 & Hw0 & Hc0). assert (Hl0 : a_line (sp_data s) (w0 ++ [LF]) r0 w0) by (rewrite D, E0; apply a_line_tidy, Hw0).
  destruct (first_line_sp s _ _ _ Hl0) as (fl & z & Ef & Ez & Fz).
  destruct (block_path _ _ _ _ _ _ K Hi) as [(fl' & Ef' & Et & Es)|[(a & fl' & Ef' & Et & _)|(m & ws & Em & Ew)]].
  - rewrite Ef in Ef'. apply Ok_inj in Ef'. subst fl'. destruct (fast_line (e_u E) s (mi_item fl) Et) as (l & r1 & x & Hl & Hm & NF); [exists (w0 ++ [LF]), r0, w0, z; auto|].
    pose proof (write_meta _ n rest H) as Hm2. rewrite D in Hm. destruct (meta_lines_unique _ _ _ _ _ Hm _ _ Hm2) as (Ei & _).
    assert (Etop : top_lines (top_of n) = []). { unfold items in Ei. unfold top_lines. destruct (t_title (top_of n)); [discriminate Ei|]. destruct (t_id (top_of n)); [discriminate Ei|reflexivity]. }
    assert (Hlh : exists r2, a_line (sp_data s) (head_line n ++ [LF]) r2 (head_line n)). { rewrite D, (write_parts _ n H), Etop. cbn [app]. rewrite unlines_cons, <- app_assoc. eexists. apply a_line_tidy, Ht. }
    destruct Hlh as (r2 & Hlh). destruct (a_line_unique _ _ _ _ _ _ _ Hl Hlh) as (_ & _ & ->). pose proof (form_fits n H) as FF. destruct (form_of n) as [fo|] eqn:Efo; [destruct (NF _ FF)|].
    destruct n as [m0 [|x ls]|m0 d ls|m0 d ns|m0 l0|m0 ty t a|m0 c k t ns]; try discriminate Efo; [destruct H as (_ & [])|]. exact (fast_read m0 x ls s P mi rest H Qp Ha Etop Hb D Hrest Es).
  - exfalso. rewrite Ef in Ef'. apply Ok_inj in Ef'. subst fl'. unfold try_entry in Et. apply andb_true_iff in Et. destruct Et as (Et & _). rewrite Ez in Et. apply starts_with_spec in Et. destruct Et as (y & Ey).
    destruct w0 as [|c w]; [destruct (proj1 Hw0 eq_refl)|]. cbn [app] in Ey. injection Ey as -> _. exact (Hc0 w eq_refl).
  - pose proof (written_at n s P m ws rest H Qp Ha Hb D Em) as B. destruct (head_at n s m rest H B) as (q & Hl).
    assert (Hform : block_form (mi_item mi) = form_of n).
    { destruct (md_kind _ _ _ _ _ _ _ _ _ _ Hl Ew Hi) as (style & Est & [Kf|(Kb & _)]); [|destruct (solid_not_blank _ Hso Kb)]. rewrite (ab_list _ _ _ _ B) in Est. apply Ok_inj in Est. subst style.
      pose proof (form_fits n H) as FF. unfold kind_fits in Kf. destruct (block_form (mi_item mi)) as [fo|].
      - destruct Kf as (_ & Kf). destruct (form_of n) as [fo'|]; [f_equal; exact (forms_exclusive _ _ _ Kf FF)|destruct (FF _ Kf)].
      - destruct Kf as (_ & [Kf|Kf]); [discriminate Kf|]. destruct (form_of n) as [fo'|]; [destruct (Kf _ FF)|reflexivity]. }
    destruct n as [m0 [|x ls]|m0 d ls|m0 d ns|m0 l0|m0 ty t a|m0 c k t ns].
    { destruct H as (_ & []). }
    { exact (text_read _ x ls s m P mi rest eq_refl H Qp Ha B Hrest (text_path un _ s m ws P r mi rest H eq_refl B Ew Hi)). }
    all: pose proof (md_shape _ _ _ _ _ _ Ew) as Sh; destruct Sh as [w _|m' mj w rr _ _ Es Hf|mj w rr Es Hf|mj w P1 rr Es Hf|mj w rr Es Hf|mj w P1 Es|mj w _ Es]; cbn [pr_item] in Hi; try discriminate Hi;
      try (destruct (finish_inv _ _ _ _ Hf) as (i & _ & ->); cbn [pr_item] in Hi); injection Hi as ->.
    all: try solve [destruct (Shape_Proof.simple_inv _ _ _ _ Es) as (c1 & c2 & c3 & Z); rewrite Z in Hform; discriminate Hform].
    all: try solve [destruct (Shape_Proof.raw_inv _ _ _ _ _ Es) as (c1 & c2 & c3 & c4 & c5 & Z); rewrite Z in Hform; cbn in Hform; try destruct (text_eqb _ _); discriminate Hform].
    all: try solve [destruct (Shape_Proof.compound_inv _ _ _ _ _ _ Es) as (c1 & c2 & c3 & c4 & c5 & _ & Z & _); rewrite Z in Hform; cbn in Hform; try destruct (text_eqb _ _); discriminate Hform].
    all: try solve [destruct (Shape_Proof.media_inv _ _ _ _ _ Es) as (c1 & c2 & c3 & c4 & Z); rewrite Z in Hform; cbn in Hform; try destruct (text_eqb _ _); discriminate Hform].
    all: try solve [destruct (Shape_Proof.break_inv _ _ Es) as (c1 & c2 & Z); rewrite Z in Hform; cbn in Hform; destruct c1; discriminate Hform].
    all: try solve [destruct (Shape_Proof.section_inv _ _ _ _ _ _ _ Es) as [(c1 & c2 & c3 & c4 & c5 & c6 & c7 & c8 & c9 & c10 & c11 & c12 & c13 & _ & _ & _ & _ & _ & _ & _ & _ & _ & _ & Z & _)]; rewrite Z in Hform; cbn in Hform; try destruct (text_eqb _ _); discriminate Hform].
    + exact (proj1 (raw_read m0 d ls s m P mi w rest H Qp Ha B Es)).
    + exact (box_read un m0 d ns s m P mi _ rest Hu H Qp Ha B Es).
    + destruct (single_after (NBreak m0 l0) s m rest eq_refl Ht B Hrest) as (l & r1 & Hl1 & K1 & K2). rewrite <- (break_after m mi _ _ _ Hl1 Es) in K1, K2. split; [|auto]. destruct (Shape_Proof.break_inv _ _ Es) as (ty & sr & Z). rewrite Z in *. cbn [piece_of]. unfold the_id. cbn [block_common cm_title cm_anchor].
      rewrite (ab_title _ _ _ _ B), (ab_anchor _ _ _ _ B). cbn [meant top_of]. f_equal. cbn [form_of block_form] in Hform. destruct ty, (text_eqb l0 (lit "<<<")); (reflexivity || discriminate Hform).
    + destruct (single_after (NMedia m0 ty t a) s m rest eq_refl Ht B Hrest) as (l & r1 & Hl1 & K1 & K2). rewrite <- (media_after _ m P mi w _ _ _ Hl1 Es) in K1, K2. split; [|auto]. destruct (Shape_Proof.media_inv _ _ _ _ _ Es) as (ty' & tg & al & sr & Z). rewrite Z in *. cbn [piece_of]. unfold the_id. cbn [block_common cm_title cm_anchor].
      rewrite (ab_title _ _ _ _ B), (ab_anchor _ _ _ _ B). cbn [form_of block_form] in Hform. injection Hform as -> ->. reflexivity.
    + exact (section_read un m0 c k t ns s m P mi w P1 rest Hu Hg H Qp Ha B (Hnx k eq_refl) Es).
Qed.

(** ** All the blocks *)
Lemma stop_written n lo s k st rest : fits (e_u E) n -> agree (texts n) -> sp_data s = unlines (write n) ++ rest -> section_stop E false lo s k = Ok st ->
  (fst st = true <-> exists j, node_level n = Some j /\ j <= lo).
Proof.
  intros H Ha D K. unfold section_stop in K. destruct (peer_spec _ _ _ _ _ K) as (m & ws & o & l & r & x & Em & Eo & Hl & Hst). destruct (written_metadata n s _ m ws rest H QD Ha D Em) as (_ & B2 & B3 & _).
  rewrite B3 in Eo. apply Ok_inj in Eo. subst o. rewrite B2, unlines_cons, <- app_assoc in Hl. cbn [app] in Hl. destruct (a_line_unique _ _ _ _ _ _ _ Hl (a_line_tidy _ _ (proj1 (head_facts _ n H)))) as (_ & _ & ->).
  rewrite Hst. split.
  - intros (_ & lev & title & Hh & Hle). destruct (node_level n) as [j|] eqn:En; [|destruct (no_heading _ n H En _ _ Hh)]. destruct n; try discriminate En. injection En as ->. destruct (heading_unique _ _ _ _ _ Hh (head_heading _ _ _ _ _ _ H)) as (-> & _). eauto.
  - intros (j & En & Hle). split; [reflexivity|]. destruct n; try discriminate En. injection En as ->. exists j, title. split; [exact (head_heading _ _ _ _ _ _ H)|exact Hle].
Qed.
Lemma write_end n : fits (e_u E) n -> exists q, unlines (write n) = q ++ [LF].
Proof. intros H. apply unlines_end. rewrite (write_parts _ n H). intros K. apply app_eq_nil in K. destruct K as (_ & K). discriminate K. Qed.
Lemma loop_reads : forall fuel stop lo k ns s P b rest, mode stop lo rest -> sp_data s = body ns ++ rest -> begins s ->
  in_order lo ns -> Forall (fits (e_u E)) ns -> agree (flat_map texts ns) -> Q P -> blocks_loop E fuel stop k s P = Ok b ->
  map piece_of (br_blocks b) = map (meant f) ns /\ sp_data (br_after b) = rest /\ Suffix s (br_after b).
Proof.
  assert (SR : forall s, Suffix s s). { intros s. exists []. rewrite skip_nil. destruct s. split; reflexivity. }
  induction fuel as [|fuel IH]; intros stop lo k ns s P b rest Hm D Hb Ho F Ha Qp H.
  - cbn [blocks_loop] in H. destruct (sp_data s) as [|c y] eqn:Ds; [|discriminate H]. apply Ok_inj in H. subst b. cbn [br_blocks br_after]. symmetry in D. apply app_eq_nil in D. destruct D as (D1 & D2).
    destruct ns as [|n ns]; [rewrite Ds; auto|]. exfalso. rewrite body_cons in D1. destruct (write_end n (Forall_inv F)) as (q & Eq). rewrite Eq in D1. destruct q; discriminate D1.
  - cbn [blocks_loop] in H. destruct ns as [|n ns].
    + cbn [body flat_map] in D. change (sp_data s = rest) in D. destruct (sp_data s) as [|c y] eqn:Ds. { apply Ok_inj in H. subst b. cbn [br_blocks br_after]. rewrite Ds. auto. }
      destruct Hm as [(_ & ->)|(-> & [->|(n & j & r & Hn & Han & Ej & Hle & Er)])]; [discriminate D|discriminate D|]. apply bind_ok in H. destruct H as (st & Est & H). rewrite <- D in Er. rewrite <- Ds in Er.
      assert (Et : fst st = true) by (apply (stop_written n lo s k st r Hn Han Er Est); eauto). rewrite Et in H. apply Ok_inj in H. subst b. cbn [br_blocks br_after]. rewrite Ds. auto.
    + rewrite body_cons, <- app_assoc in D. pose proof (Forall_inv F) as Hn. pose proof (Forall_inv_tail F) as F2. destruct (agree_app _ _ Ha) as (Han & Ha2). destruct (write_end n Hn) as (q & Eq).
      assert (Dne : exists c y, sp_data s = c :: y). { rewrite D, Eq. destruct q; do 2 eexists; reflexivity. } destruct Dne as (c & y & Ds). rewrite Ds in H.
      apply bind_ok in H. destruct H as (st & Est & H). destruct Ho as (Ho1 & Ho2).
      assert (Et : fst st = false).
      { destruct Hm as [(-> & _)|(-> & _)]; [apply Ok_inj in Est; subst st; reflexivity|]. destruct (fst st) eqn:E1; [|reflexivity]. apply (stop_written n lo s k st _ Hn Han D Est) in E1. destruct E1 as (j & Ej & Hle). rewrite Ej in Ho1. lia. }
      rewrite Et in H. apply bind_ok in H. destruct H as (r & Er & H). apply bind_ok in H. destruct H as (br & Ebr & H). apply Ok_inj in H. subst b. cbn [br_blocks br_after].
      match type of Er with block_parse_with _ ?un _ _ = _ => assert (Hu : un_reads un) end.
      { intros stop' lo' k' ns' s' P' b' rest' Hm' D' Hb' Ho' F' Ha' Q' H'. rewrite discard_empty_lines_ok in H'. cbn [bind] in H'. destruct (IH _ _ _ _ _ _ _ _ Hm' D' Hb' Ho' F' Ha' Q' H') as (K1 & K2 & K3). split; [exact K1|]. split; [exact K2|]. exact (suffix_trans _ _ _ (discard_empty_Suffix s') K3). }
      match type of Er with block_parse_with _ ?un _ _ = _ => assert (Hg : until_good R_attrs un /\ real E un) end.
      { split; [|exists fuel; reflexivity]. intros f' n' s' P' b' Hb'. rewrite discard_empty_lines_ok in Hb'. cbn [bind] in Hb'. exact (loop_attrs E fuel _ _ _ _ _ Hb'). }
      destruct Hg as (Hg & Hre). pose proof (step_attrs E _ s P r Hre Hg (block_shape _ _ _ _ _ Er)) as Ra.
      destruct (written_step _ n s P r (body ns ++ rest) Hu Hg Hn Qp Han Hb D) as (mi & Ei & R1 & R2 & R3); [exact (body_ready _ _ _ F2 (mode_ready _ _ _ Hm))| |exact Er|].
      { intros j Ej. rewrite Ej in Ho1. destruct Ho1 as (Hlt & Hnx). destruct ns as [|n' ns].
        - cbn [body flat_map]. change (next_is j rest). destruct Hm as [(_ & ->)|(_ & [->|(n2 & j2 & r2 & Z1 & Z2 & Z3 & Z4 & Z5)])]; [left; reflexivity|left; reflexivity|]. right. exists n2, j2, r2. repeat (split; [assumption|]). split; [lia|exact Z5].
        - destruct Hnx as (j2 & Ej2 & Hle). right. exists n', j2, (body ns ++ rest). split; [exact (Forall_inv F2)|]. split; [exact (proj1 (agree_app _ _ Ha2))|]. split; [exact Ej2|]. split; [exact Hle|]. rewrite body_cons, <- app_assoc. reflexivity. }
      rewrite Ei in *. assert (Qp2 : Q (pr_parser r)). { refine (QA _ _ (Ra _) Qp). cbn [flat_map]. rewrite app_nil_r. exact (piece_entries n _ R1). } assert (Hb2 : begins (mi_after mi)). { apply (suffix_begins s _ q R3). rewrite D, Eq, R2, <- app_assoc. reflexivity. }
      destruct (IH _ _ _ _ _ _ _ _ Hm R2 Hb2 Ho2 F2 Ha2 Qp2 Ebr) as (K1 & K2 & K3). cbn [map]. split; [f_equal; [exact R1|exact K1]|]. split; [exact K2|]. exact (suffix_trans _ _ _ R3 K3).
Qed.
Theorem blocks_reads fuel stop lo k ns s P b rest : mode stop lo rest -> sp_data (p_discard_empty_lines s) = body ns ++ rest -> begins (p_discard_empty_lines s) ->
  in_order lo ns -> Forall (fits (e_u E)) ns -> agree (flat_map texts ns) -> Q P -> parse_blocks_until E fuel stop k s P = Ok b ->
  map piece_of (br_blocks b) = map (meant f) ns /\ sp_data (br_after b) = rest /\ Suffix s (br_after b).
Proof.
  intros Hm D Hb Ho F Ha Qp H. unfold parse_blocks_until in H. rewrite discard_empty_lines_ok in H. cbn [bind] in H. destruct (loop_reads _ _ _ _ _ _ _ _ _ Hm D Hb Ho F Ha Qp H) as (K1 & K2 & K3). split; [exact K1|]. split; [exact K2|]. exact (suffix_trans _ _ _ (discard_empty_Suffix s) K3).
Qed.

(** ** The document *)
Lemma text_hline x r : tidy x -> ~ a_comment x -> (forall y, x <> lit ":" ++ y) -> hline (x ++ LF :: r) (HText x) r.
Proof.
  intros Ht Hc Hn. apply (hl_text x [LF] r x); [apply Ht|left; reflexivity|apply tidy_trimmed, Ht|apply Ht|exact Hc|]. intros m q K. destruct (entry_starts _ _ _ x [LF] r K eq_refl (proj1 (proj2 Ht)) (or_introl eq_refl)) as (y & Ey). exact (Hn y Ey).
Qed.
Lemma head_text n : fits (e_u E) n -> ~ a_comment (head_line n) /\ forall y, head_line n <> lit "= " ++ y.
Proof.
  assert (C : forall c t, c <> 47%N -> ~ a_comment (c :: t)). { intros c t Hc (y & E1 & _). injection E1 as -> _. apply Hc. reflexivity. }
  destruct n as [m [|x ls]|m d ls|m d ns|m l|m ty t a|m c k t ns]; cbn [head_line hd]; intros H.
  - destruct H as (_ & []).
  - destruct H as (_ & (_ & _ & Hc & _ & _ & _ & Hy) & _). auto.
  - destruct H as (_ & (c & Hc & (n & Hn & ->)) & _). destruct n as [|[|[|n]]]; try lia. cbn [repeat]. split.
    + intros (y & E1 & E2). injection E1 as -> _ <-. exact (E2 _ eq_refl).
    + intros y K. injection K as -> K _. discriminate K.
  - destruct H as (_ & [->|(c & Hc & (n & Hn & ->))] & _); [split; [apply C; discriminate|intros y K; discriminate K]|]. destruct n as [|[|[|n]]]; try lia. cbn [repeat]. split.
    + apply C. cbn in Hc. intros ->. intuition discriminate.
    + intros y K. injection K as -> K _. discriminate K.
  - destruct H as (_ & H). unfold break_line in H. cbn [In] in H. repeat (destruct H as [<-|H]; [split; [apply C; discriminate|intros y K; discriminate K]|]). destruct H.
  - destruct H as (_ & Hty & _). cbn in Hty. destruct Hty as [<-|[<-|[]]]; (split; [apply C; discriminate|intros y K; discriminate K]).
  - destruct H as (_ & Hc & Hk & _). destruct k as [|k]; [lia|]. unfold heading_line. cbn [repeat app]. split; [apply C; cbn in Hc; intros ->; intuition discriminate|]. intros y K. injection K as -> K _. discriminate K.
Qed.
Lemma first_text n rest : fits (e_u E) n -> exists w r, unlines (write n) ++ rest = w ++ LF :: r /\ tidy w /\ (forall y, w <> lit ":" ++ y) /\ ~ a_comment w /\ ~ a_title w.
Proof.
  intros H. rewrite (write_parts _ n H). destruct (head_facts _ n H) as (H1 & _ & _ & H4). destruct (head_text n H) as (H5 & H6). destruct (fits_top _ n H) as (T1 & T2). unfold top_lines. destruct (t_title (top_of n)) as [x|] eqn:Ex.
  - cbn [app]. rewrite unlines_cons, <- app_assoc. do 2 eexists. split; [reflexivity|]. split; [apply title_tidy, T1; reflexivity|]. split; [intros y K; discriminate K|]. split; [intros (y & K & _); discriminate K|intros (y & K); discriminate K].
  - destruct (t_id (top_of n)) as [x|] eqn:Ei; cbn [app]; rewrite unlines_cons, <- app_assoc; do 2 eexists; (split; [reflexivity|]).
    + split; [apply anchor_tidy, T2; reflexivity|]. split; [intros y K; discriminate K|]. split; [intros (y & K & _); discriminate K|intros (y & K); discriminate K].
    + split; [exact H1|]. split; [exact H4|]. split; [exact H5|]. intros (y & K). exact (H6 y K).
Qed.
Lemma written_header title ns : document_fits (e_u E) title ns -> exists ks, entries_of ks = [] /\ header_run [] (document_text title ns) ks (match title with Some t => [lit "= " ++ t] | None => [] end) (match title with Some _ => LF :: body ns | None => body ns end) false.
Proof.
  intros (Ht & _ & F). unfold document_text. destruct title as [t|]; cbn [app].
  - destruct (Ht t eq_refl) as (Ht1 & _). exists [HText (lit "= " ++ t)]. split; [reflexivity|]. change ([LF; LF]) with (LF :: [LF]). rewrite <- !app_assoc. cbn [app]. rewrite app_assoc.
    assert (Hl : tidy (lit "= " ++ t)) by (apply tidy_app; [cbn; intros [K|[K|[]]]; discriminate K|exact Ht1]).
    apply (hr_title _ _ (LF :: body ns)); [apply text_hline; [exact Hl|intros (y & K & _); discriminate K|intros y K; discriminate K]|exists t; reflexivity|].
    apply (hr_blank _ (LF :: body ns) (body ns)); [discriminate|discriminate|]. apply (hl_blank [] [LF] (body ns)); [intros []|left; reflexivity|exact nil_trimmed].
  - exists []. split; [reflexivity|]. destruct ns as [|n ns]; [apply hr_end|]. rewrite body_cons. destruct (first_text n (body ns) (Forall_inv F)) as (w & r & E1 & H1 & H2 & H3 & H4). rewrite E1. apply (hr_no_title _ w r); [apply text_hline; auto|exact H4].
Qed.
(** Blocks before the first section. *)
Lemma piece_section b n : piece_of b = meant f n -> is_section b = match node_level n with Some _ => true | None => false end /\ is_entry b = false.
Proof. destruct b; destruct n; cbn [piece_of meant node_level]; intros K; try (match type of K with context [match ?x with _ => _ end] => destruct x end); try discriminate K; auto. Qed.
Lemma before_sections bs ns : map piece_of bs = map (meant f) ns -> forall ah bs', make_preamble bs ah = Ok bs' -> map piece_of bs' = meant_document f ns.
Proof.
  intros Em ah bs' H. destruct (C87_preamble bs ah bs' H) as (K1 & K2).
  assert (S : forall ns bs, map piece_of bs = map (meant f) ns -> exists l1 l2, bs = l1 ++ l2 /\ map piece_of l1 = map (meant f) (before_section ns) /\ map piece_of l2 = map (meant f) (skipn (length (before_section ns)) ns) /\
    forallb (fun x => negb (is_section x)) l1 = true /\ forallb is_entry l1 = is_nil l1 /\ match l2 with [] => length (before_section ns) = length ns | b :: _ => is_section b = true /\ length (before_section ns) < length ns end).
  { clear. induction ns as [|n ns IH]; intros [|b bs] E1; try discriminate E1; [exists [], []; repeat split|]. cbn [map] in E1. injection E1 as E1 E2. destruct (piece_section b n E1) as (S1 & S2). cbn [before_section]. destruct (node_level n) as [k|].
    - exists [], (b :: bs). cbn [app map length skipn forallb]. split; [reflexivity|]. split; [reflexivity|]. split; [rewrite E1, E2; reflexivity|]. split; [reflexivity|]. split; [reflexivity|]. split; [exact S1|lia].
    - destruct (IH bs E2) as (l1 & l2 & -> & H1 & H2 & H3 & H4 & H5). exists (b :: l1), l2. cbn [app map length skipn forallb]. split; [reflexivity|]. split; [rewrite E1, H1; reflexivity|]. split; [exact H2|]. split; [rewrite S1; exact H3|]. split; [rewrite S2; reflexivity|].
      destruct l2; [rewrite H5; reflexivity|]. destruct H5 as (H5 & H6). split; [exact H5|lia]. }
  destruct (S ns bs Em) as (l1 & l2 & -> & H1 & H2 & H3 & H4 & H5). unfold meant_document. assert (L1 : length (before_section ns) = length l1) by (rewrite <- (map_length (meant f)), <- H1, map_length; reflexivity).
  destruct l2 as [|b l2].
  - rewrite app_nil_r in *. rewrite (K2 H3), H5, Nat.eqb_refl, orb_true_r. exact Em.
  - destruct H5 as (Hb & Hlt). pose proof (K1 l1 b l2 eq_refl Hb H3) as K. rewrite H4 in K. replace (length (before_section ns) =? length ns) with false by (symmetry; apply Nat.eqb_neq; lia). rewrite orb_false_r, L1. rewrite L1 in H2. destruct l1 as [|x l1]; cbn [is_nil] in K.
    + subst bs'. cbn [length Nat.eqb]. exact Em.
    + destruct K as (src & ->). cbn [length Nat.eqb]. cbn [map piece_of]. cbn [length] in H2. rewrite <- H2. rewrite <- H1. reflexivity.
Qed.
Theorem document_reads fuel title ns sm P d P' : document_fits (e_u E) title ns -> Q P -> agree (document_texts title ns) -> document_parse E fuel (document_text title ns) sm P = Ok (d, P') ->
  h_title (d_header d) = option_map (f GHeader) title /\ map piece_of (d_blocks d) = meant_document f ns.
Proof.
  intros Hf Qp Ha H. unfold document_parse in H. apply bind_ok in H. destruct H as ([[hd after] [hw P1]] & Eh & H). cbn [fst snd mi_after] in H. apply bind_ok in H. destruct H as (b & Eb & H). apply bind_ok in H. destruct H as (bs & Em & H).
  apply bind_ok in H. destruct H as (s & _ & H). apply Ok_inj in H. injection H as <- _. cbn [d_header d_blocks mi_item].
  destruct (header_parse_spec _ _ _ _ _ _ _ Eh) as (h & src & ks & ts & w & R & [Hi _] & Hs & E3 & E2 & _ & _ & _ & _ & En & _ & Ea & _). cbn [sp_data span_new] in R. destruct (written_header title ns Hf) as (ks' & Hks & R').
  destruct (header_run_unique _ _ _ _ _ _ R _ _ _ _ R') as (-> & -> & Es & _). destruct (header_led _ _ _ _ _ _ _ Eh) as (l & (El & Etl & _ & _ & Hpr) & L). rewrite Hks in En. apply map_eq_nil in En. rewrite En in El. pose proof (QL P l P1 El L Qp) as Qp1. destruct Hf as (Ht & Ho & F). destruct (agree_app _ _ Ha) as (Ha1 & Ha2). split.
  - rewrite E2. destruct title as [t|]; [|apply Hi]. destruct Hi as ((bl & sp & P2 & o & Ex & Fb & Hb & E4 & _ & E5) & _). cbn [option_map]. rewrite E5. f_equal. destruct (Ht t eq_refl) as (_ & Hh). apply app_inv_head in Ex.
    assert (bl = []). { destruct bl as [|c bl]; [reflexivity|]. exfalso. cbn [app] in Ex. refine (Hh _ _ Ex _). exact (Forall_inv Fb). } subst bl. cbn [app] in Ex.
    rewrite E2, E5 in Etl. cbn [olist] in Etl. assert (It : In o (titles_in l)) by (rewrite Etl; left; reflexivity). apply in_flat_map in It. destruct It as (p & Ip & It). destruct p as [t'|al|n0 d0 r0|a0 w0]; try contradiction It. destruct It as [->|[]].
    apply in_split in Ip. destruct Ip as (pre & post & El2). destruct (Hpr pre _ post El2) as (P3 & L3 & (sp' & Esp & Eo)). rewrite E3, E4 in Esp. injection Esp as <-. rewrite <- Ex in Eo.
    assert (Q3 : Q P3). { refine (QL P pre P3 _ L3 Qp). rewrite El2 in El. unfold entries_in in El. rewrite flat_map_app in El. apply app_eq_nil in El. apply El. }
    exact (Ha1 GHeader t (or_introl eq_refl) P3 o Q3 Eo).
  - apply (before_sections (br_blocks b)) with (ah := after); [|exact Em]. assert (Hr : body ns = [] \/ solid (body ns)). { rewrite <- (app_nil_r (body ns)). apply (body_ready _ _ _ F). left. reflexivity. }
    assert (A : sp_data after = body ns /\ begins after).
    { subst after. destruct title as [t|].
      - rewrite (discard_one _ _ Es Hr). split; [apply sp_data_skip|]. apply (skip_begins src [] _).
      - rewrite discard_ready by (rewrite Es; exact Hr). split; [exact Es|]. destruct Hs as (pre & D & Ep). cbn [sp_data span_new] in D. rewrite Es in D. unfold document_text in D. apply (app_inv_tail (body ns) []) in D. subst pre. intros _. rewrite Ep, skip_nil. reflexivity. }
    destruct A as (A1 & A2). rewrite <- (app_nil_r (body ns)) in A1. assert (Ed : p_discard_empty_lines after = after). { apply discard_ready. rewrite A1, app_nil_r. exact Hr. }
    refine (proj1 (blocks_reads fuel never 0 0 ns after _ b [] (or_introl (conj eq_refl eq_refl)) _ _ Ho F Ha2 (QA P1 (with_levels P1 (sectnumlevels P1)) eq_refl Qp1) Eb)); rewrite Ed; assumption.
Qed.
End Reading.
