From Verif Require Import Text TextFacts Maps Span_Model Catalog_Model Parser_Model Parser_Spec.

Lemma run_entries_app U p a b :
  run_entries U p (a ++ b) =
  let '(p1, w1) := run_entries U p a in let '(p2, w2) := run_entries U p1 b in (p2, w1 ++ w2).
Proof.
  revert p. induction a as [|e a IH]; intros p; cbn [app run_entries].
  - destruct (run_entries U p b). reflexivity.
  - destruct (apply_entry U p e) as [p1 w1]. rewrite IH. destruct (run_entries U p1 a) as [p2 w2].
    destruct (run_entries U p2 b) as [p3 w3]. rewrite app_assoc. reflexivity.
Qed.

(** One entry: what it does to attribute [n]. *)
Lemma apply_entry_cases U p e :
  let n := entry_name U e in
  if allowed (ctx_of p n) (en_place e) then
    exists v, apply_entry U p e = (with_attrs p (mput n (mkav AnyValue Anywhere v) (p_attrs p)), []) /\
      read_as p n v = read_as p n (at_value (en_attr e)) /\ (v = VUnset <-> at_value (en_attr e) = VUnset)
  else apply_entry U p e = (p, [mkwarn (at_source (en_attr e)) (WAttributeValueIsLocked n)]).
Proof.
  cbv zeta. unfold apply_entry, entry_name, ctx_of, set_attribute_from_header, set_attribute_from_body.
  set (n := remap_attr_name U (sp_data (at_name (en_attr e)))). cbv zeta.
  destruct (mget n (p_attrs p)) as [[al c v]|] eqn:E; cbn [option_map av_ctx];
    [destruct c|]; destruct (en_place e) eqn:Ep; cbn [allowed]; try reflexivity;
    (eexists; split; [reflexivity|]); cbn [read_as];
    destruct (at_value (en_attr e)); cbn [read_as]; try (split; [reflexivity|split; congruence]);
    destruct (mget n (p_defaults p)) eqn:Ed; cbn [read_as]; rewrite ?Ed; split; try reflexivity; split; congruence.
Qed.

Lemma p_defaults_apply U p e : p_defaults (fst (apply_entry U p e)) = p_defaults p.
Proof.
  pose proof (apply_entry_cases U p e) as H. cbv zeta in H. destruct (allowed _ _).
  - destruct H as (v & -> & _). reflexivity.
  - rewrite H. reflexivity.
Qed.

Lemma read_as_defaults p q n v : p_defaults p = p_defaults q -> read_as p n v = read_as q n v.
Proof. intros H. unfold read_as. rewrite H. reflexivity. Qed.

Lemma read_as_idem p n v : read_as p n (read_as p n v) = read_as p n v.
Proof. destruct v; cbn; try reflexivity. destruct (mget n (p_defaults p)) eqn:E; cbn; rewrite ?E; reflexivity. Qed.

Lemma attribute_value_read p n :
  attribute_value p n = match mget n (p_attrs p) with Some av => read_as p n (av_value av) | None => VUnset end.
Proof. unfold attribute_value, read_as. destruct (mget n (p_attrs p)) as [[al c v]|]; [destruct v|]; reflexivity. Qed.

(** The state of one attribute after an entry. *)
Lemma apply_entry_other U p e n : entry_name U e <> n ->
  mget n (p_attrs (fst (apply_entry U p e))) = mget n (p_attrs p).
Proof.
  intros H. pose proof (apply_entry_cases U p e) as C. cbv zeta in C. destruct (allowed _ _).
  - destruct C as (v & -> & _). cbn [fst with_attrs p_attrs]. apply mget_mput_other. congruence.
  - rewrite C. reflexivity.
Qed.

Lemma filter_about_cons U n e es :
  filter (about U n) (e :: es) = if text_eqb (entry_name U e) n then e :: filter (about U n) es else filter (about U n) es.
Proof. reflexivity. Qed.

Lemma permitted_cons c e es :
  permitted c (e :: es) = if allowed c (en_place e) then e :: es else permitted c es.
Proof. destruct c as [[]|]; cbn; try reflexivity; destruct (en_place e); reflexivity. Qed.

Lemma permitted_any es : permitted (Some Anywhere) es = es.
Proof. reflexivity. Qed.

Lemma last_cons {A} (a : A) l d : last (a :: l) d = last l a.
Proof. revert a d. induction l as [|b l IH]; intros a d; [reflexivity|]. change (last (a :: b :: l) d) with (last (b :: l) d). rewrite IH. symmetry. apply IH. Qed.

Lemma run_value U es : forall p n,
  attribute_value (fst (run_entries U p es)) n =
  last (map (fun e => read_as p n (at_value (en_attr e))) (permitted (ctx_of p n) (filter (about U n) es)))
       (attribute_value p n).
Proof.
  induction es as [|e es IH]; intros p n.
  - cbn. destruct (ctx_of p n) as [[]|]; reflexivity.
  - cbn [run_entries]. destruct (apply_entry U p e) as [p1 w1] eqn:Ea.
    destruct (run_entries U p1 es) as [p2 w2] eqn:Er. cbn [fst].
    specialize (IH p1 n). rewrite Er in IH. cbn [fst] in IH. rewrite IH. clear IH.
    assert (Hd : p_defaults p1 = p_defaults p) by (rewrite <- (p_defaults_apply U p e), Ea; reflexivity).
    assert (Hmap : forall l, map (fun e0 => read_as p1 n (at_value (en_attr e0))) l = map (fun e0 => read_as p n (at_value (en_attr e0))) l)
      by (intros l; apply map_ext; intros; apply read_as_defaults, Hd).
    rewrite Hmap, filter_about_cons. destruct (text_eqb_spec (entry_name U e) n) as [<-|Hne].
    + pose proof (apply_entry_cases U p e) as C. cbv zeta in C. rewrite Ea in C. rewrite permitted_cons.
      destruct (allowed (ctx_of p (entry_name U e)) (en_place e)).
      * destruct C as (v & Hv & Hr & _). injection Hv as -> ->. unfold ctx_of at 1. cbn [with_attrs p_attrs].
        rewrite mget_mput_same. cbn [option_map av_ctx]. rewrite permitted_any. cbn [map]. rewrite last_cons. f_equal.
        rewrite attribute_value_read. cbn [with_attrs p_attrs]. rewrite mget_mput_same. cbn [av_value].
        rewrite <- Hr. apply read_as_defaults. reflexivity.
      * injection C as -> ->. reflexivity.
    + pose proof (apply_entry_other U p e n Hne) as Ho. rewrite Ea in Ho. cbn [fst] in Ho.
      unfold ctx_of. rewrite Ho. f_equal. rewrite !attribute_value_read, Ho.
      destruct (mget n (p_attrs p)); [apply read_as_defaults, Hd|reflexivity].
Qed.

(** Warnings about one attribute: one per refused entry. *)
Lemma run_warnings U es : forall p n,
  length (filter (locked_warning n) (snd (run_entries U p es))) +
  length (permitted (ctx_of p n) (filter (about U n) es)) = length (filter (about U n) es).
Proof.
  induction es as [|e es IH]; intros p n.
  - cbn. destruct (ctx_of p n) as [[]|]; reflexivity.
  - cbn [run_entries]. destruct (apply_entry U p e) as [p1 w1] eqn:Ea.
    destruct (run_entries U p1 es) as [p2 w2] eqn:Er. cbn [snd].
    specialize (IH p1 n). rewrite Er in IH. cbn [snd] in IH.
    rewrite filter_app, app_length, filter_about_cons.
    pose proof (apply_entry_cases U p e) as C. cbv zeta in C. rewrite Ea in C.
    destruct (text_eqb_spec (entry_name U e) n) as [<-|Hne].
    + rewrite permitted_cons. destruct (allowed (ctx_of p (entry_name U e)) (en_place e)).
      * destruct C as (v & Hv & _). injection Hv as -> ->. unfold ctx_of in IH. cbn [with_attrs p_attrs] in IH.
        rewrite mget_mput_same in IH. cbn [option_map av_ctx] in IH. rewrite permitted_any in IH. cbn [filter length] in *. lia.
      * injection C as -> ->. cbn [filter]. unfold locked_warning at 1. cbn [w_type]. rewrite text_eqb_refl. cbn [length] in *. lia.
    + pose proof (apply_entry_other U p e n Hne) as Ho. rewrite Ea in Ho. cbn [fst] in Ho.
      unfold ctx_of in *. rewrite Ho in IH.
      destruct (allowed _ _).
      * destruct C as (v & Hv & _). injection Hv as _ ->. cbn [filter length]. lia.
      * injection C as _ ->. cbn [filter]. unfold locked_warning at 1. cbn [w_type].
        destruct (text_eqb_spec (entry_name U e) n); [contradiction|]. cbn [length]. lia.
Qed.

Lemma run_unchanged U es : forall p n, permitted (ctx_of p n) (filter (about U n) es) = [] ->
  mget n (p_attrs (fst (run_entries U p es))) = mget n (p_attrs p).
Proof.
  induction es as [|e es IH]; intros p n H; [reflexivity|].
  cbn [run_entries]. destruct (apply_entry U p e) as [p1 w1] eqn:Ea.
  destruct (run_entries U p1 es) as [p2 w2] eqn:Er. cbn [fst].
  specialize (IH p1 n). rewrite Er in IH. cbn [fst] in IH. rewrite filter_about_cons in H.
  destruct (text_eqb_spec (entry_name U e) n) as [<-|Hne].
  - rewrite permitted_cons in H. pose proof (apply_entry_cases U p e) as C. cbv zeta in C. rewrite Ea in C.
    destruct (allowed _ _); [discriminate|]. injection C as -> ->. apply IH, H.
  - pose proof (apply_entry_other U p e n Hne) as Ho. rewrite Ea in Ho. cbn [fst] in Ho.
    unfold ctx_of in *. rewrite Ho in IH. apply IH, H.
Qed.

(** Section numbers *)
Lemma incr_at_app a x b : incr_at (length a) (a ++ x :: b) = a ++ S x :: b.
Proof. induction a as [|y a IH]; [reflexivity|]. cbn. rewrite IH. reflexivity. Qed.

Lemma assign_next n level : 1 <= level ->
  next_number (sn_comps n) level (sn_comps (assign_next_number n level)) /\
  length (sn_comps (assign_next_number n level)) = level /\
  sn_type (assign_next_number n level) = sn_type n.
Proof.
  intros Hl. unfold assign_next_number. cbn [sn_comps sn_type].
  destruct (le_lt_dec level (length (sn_comps n))) as [H|H].
  - rewrite firstn_length_le by exact H. rewrite Nat.ltb_irrefl.
    destruct (Nat.ltb_spec 0 level); [|lia].
    set (c := sn_comps n) in *.
    assert (Hs : exists a x b, c = a ++ x :: b /\ length a + 1 = level).
    { destruct (nth_error c (level - 1)) as [x|] eqn:E; [|apply nth_error_None in E; lia].
      apply nth_error_split in E. destruct E as (a & b & E & La). exists a, x, b. split; [exact E|lia]. }
    destruct Hs as (a & x & b & E & La).
    assert (Hf : firstn level c = a ++ [x]).
    { rewrite E, firstn_app, firstn_all2 by lia. replace (level - length a) with 1 by lia. reflexivity. }
    rewrite Hf. replace (level - 1) with (length a) by lia. rewrite incr_at_app. split; [|split; [|reflexivity]].
    + right. split; [exact H|]. exists a, x, b. split; [exact E|]. split; [exact La|]. rewrite Nat.add_1_r. reflexivity.
    + rewrite app_length. cbn. lia.
  - rewrite firstn_all2 by lia. destruct (Nat.ltb_spec (length (sn_comps n)) level); [|lia]. split; [|split; [|reflexivity]].
    + left. auto.
    + rewrite app_length, repeat_length. lia.
Qed.

Lemma lex_app a b c : lex_lt b c -> lex_lt (a ++ b) (a ++ c).
Proof. intros H. induction a; [exact H|]. cbn. apply lex_tail, IHa. Qed.

Lemma next_lex prev level new : 1 <= level -> next_number prev level new -> lex_lt prev new.
Proof.
  intros Hl [[H ->]|[H (a & x & b & -> & La & ->)]].
  - rewrite <- (app_nil_r prev) at 1. apply lex_app. destruct (level - length prev) eqn:E; [lia|]. constructor.
  - apply lex_app. constructor. lia.
Qed.

Lemma lex_trans a b c : lex_lt a b -> lex_lt b c -> lex_lt a c.
Proof.
  intros H. revert c. induction H as [y l|x y a b Hxy|x a b H IH]; intros c Hc.
  - inversion Hc; constructor.
  - inversion Hc; subst; apply lex_head; lia.
  - inversion Hc; subst; [apply lex_head; assumption|apply lex_tail, IH; assumption].
Qed.

Lemma lex_irrefl a : ~ lex_lt a a.
Proof. induction a as [|x a IH]; intros H; inversion H; subst; [lia|]. apply IH. assumption. Qed.

Lemma numbers_spec levels : forall n,
  Forall (fun l => 1 <= l) levels ->
  length (numbers n levels) = length levels /\
  (forall i l, nth_error levels i = Some l ->
     exists m, nth_error (numbers n levels) i = Some m /\ length (sn_comps m) = l /\ sn_type m = sn_type n /\
       exists prev, nth_error (n :: numbers n levels) i = Some prev /\ next_number (sn_comps prev) l (sn_comps m)).
Proof.
  induction levels as [|l0 levels IH]; intros n F.
  - split; [reflexivity|]. intros [|i] l H; discriminate H.
  - inversion F as [|? ? H1 H2]; subst. destruct (IH (assign_next_number n l0) H2) as [HL HN].
    destruct (assign_next n l0 H1) as (A1 & A2 & A3). split; [cbn; rewrite HL; reflexivity|].
    intros [|i] l H.
    + injection H as <-. exists (assign_next_number n l0). split; [reflexivity|]. split; [exact A2|]. split; [exact A3|].
      exists n. split; [reflexivity|exact A1].
    + destruct (HN i l H) as (m & M1 & M2 & M3 & prev & M4 & M5). exists m. split; [exact M1|]. split; [exact M2|].
      split; [congruence|]. exists prev. split; [exact M4|exact M5].
Qed.

Lemma numbers_increase levels n i j a b :
  Forall (fun l => 1 <= l) levels -> i < j ->
  nth_error (n :: numbers n levels) i = Some a -> nth_error (n :: numbers n levels) j = Some b ->
  lex_lt (sn_comps a) (sn_comps b).
Proof.
  intros F. revert n i j a b. induction F as [|l0 levels H1 F IH]; intros n i j a b Hij Ha Hb.
  - destruct j as [|[|j]]; [lia|discriminate|discriminate].
  - assert (Hlt : lex_lt (sn_comps n) (sn_comps (assign_next_number n l0))).
    { destruct (assign_next n l0 H1) as (A1 & _). eapply next_lex; [exact H1|exact A1]. }
    destruct j as [|j]; [lia|]. cbn [numbers] in Hb. change (nth_error (assign_next_number n l0 :: numbers (assign_next_number n l0) levels) j = Some b) in Hb.
    destruct i as [|i].
    + injection Ha as <-. destruct j as [|j].
      * injection Hb as <-. exact Hlt.
      * eapply lex_trans; [exact Hlt|]. apply (IH (assign_next_number n l0) 0 (S j)); [lia|reflexivity|exact Hb].
    + change (nth_error (assign_next_number n l0 :: numbers (assign_next_number n l0) levels) i = Some a) in Ha.
      apply (IH (assign_next_number n l0) i j); [lia|exact Ha|exact Hb].
Qed.

(** Displaying numbers *)
Lemma incr_at_pos i l : Forall (fun x => 1 <= x) l -> Forall (fun x => 1 <= x) (incr_at i l).
Proof. intros F. revert i. induction F as [|x l H F IH]; intros i; [destruct i; constructor|]. destruct i; cbn; constructor; auto. Qed.
Lemma Forall_firstn' {A} (P : A -> Prop) n l : Forall P l -> Forall P (firstn n l).
Proof. intros F. revert n. induction F; intros [|n]; cbn; constructor; auto. Qed.
Lemma assign_pos n level : Forall (fun x => 1 <= x) (sn_comps n) -> Forall (fun x => 1 <= x) (sn_comps (assign_next_number n level)).
Proof.
  intros F. unfold assign_next_number. cbn [sn_comps]. pose proof (Forall_firstn' _ level _ F) as F'.
  destruct (_ <? _); [|destruct (0 <? level)].
  - apply Forall_app. split; [exact F'|]. apply Forall_forall. intros x Hx. apply repeat_spec in Hx. lia.
  - apply incr_at_pos, F'.
  - exact F'.
Qed.
Lemma show_components_ok ty l : forall i, Forall (fun x => 1 <= x) l -> exists ts, show_components ty i l = Ok ts.
Proof.
  induction l as [|x l IH]; intros i F; [exists []; reflexivity|].
  inversion F as [|? ? Hx Fl]; subst. destruct (IH (S i) Fl) as [ts Hts]. cbn [show_components].
  assert (exists t, show_component ty i x = Ok t) as [t Ht].
  { unfold show_component. destruct i, ty; try (eexists; reflexivity).
    unfold checked_sub. destruct (1 <=? x) eqn:E; [eexists; reflexivity|lia]. }
  rewrite Ht. cbn [bind]. rewrite Hts. eexists. reflexivity.
Qed.
Lemma numbers_pos levels : forall n m, Forall (fun x => 1 <= x) (sn_comps n) -> In m (numbers n levels) ->
  Forall (fun x => 1 <= x) (sn_comps m).
Proof.
  induction levels as [|l levels IH]; intros n m F H; [destruct H|]. destruct H as [<-|H].
  - apply assign_pos, F.
  - eapply IH; [apply assign_pos, F|exact H].
Qed.
Lemma numbers_display levels ty m : In m (numbers (mksn ty []) levels) -> exists t, show_section_number m = Ok t.
Proof.
  intros H. assert (F : Forall (fun x => 1 <= x) (sn_comps m)) by (eapply numbers_pos; [|exact H]; constructor).
  unfold show_section_number. destruct (show_components_ok (sn_type m) _ 0 F) as [ts ->]. eexists. reflexivity.
Qed.

Lemma digits_go_digit fuel : forall n acc, Forall (fun c => is_ascii_digit c = true) acc ->
  Forall (fun c => is_ascii_digit c = true) (digits_go fuel n acc).
Proof.
  induction fuel as [|f IH]; intros n acc F; [exact F|]. cbn [digits_go].
  assert (F' : Forall (fun c => is_ascii_digit c = true) ((48 + N.of_nat (n mod 10))%N :: acc)).
  { constructor; [|exact F]. pose proof (Nat.mod_upper_bound n 10). unfold is_ascii_digit. lia. }
  destruct (n <? 10); [exact F'|apply IH, F'].
Qed.
Lemma show_nat_digits n : Forall (fun c => is_ascii_digit c = true) (show_nat n).
Proof. apply digits_go_digit. constructor. Qed.

Lemma split_join c ts : ts <> [] -> Forall (fun t => ~ In c t) ts -> split_on c (join [c] ts) = ts.
Proof.
  intros H F. induction F as [|t ts Ht F IH]; [contradiction|]. destruct ts as [|t2 ts].
  - cbn [join]. rewrite <- (app_nil_r t), split_on_app_no_sep by exact Ht. cbn. rewrite app_nil_r. reflexivity.
  - rewrite join_cons2, split_on_app_no_sep by exact Ht. cbn [app split_on]. rewrite N.eqb_refl. rewrite IH by discriminate.
    rewrite app_nil_r. reflexivity.
Qed.

Lemma show_components_plain ty l : forall i, (ty <> SAppendix \/ 1 <= i) -> show_components ty i l = Ok (map show_nat l).
Proof.
  induction l as [|x l IH]; intros i H; [reflexivity|]. cbn [show_components]. rewrite IH by (right; lia).
  unfold show_component. destruct i, ty; try reflexivity. destruct H as [H|H]; [contradiction|lia].
Qed.
Lemma dot_not_digit t : Forall (fun c => is_ascii_digit c = true) t -> ~ In 46%N t.
Proof. intros F H. rewrite Forall_forall in F. apply F in H. discriminate H. Qed.
Lemma plain_no_dot l : Forall (fun t => ~ In 46%N t) (map show_nat l).
Proof. apply Forall_forall. intros t H. apply in_map_iff in H. destruct H as (n & <- & _). apply dot_not_digit, show_nat_digits. Qed.
Lemma map_show_inj a : forall b, map show_nat a = map show_nat b -> a = b.
Proof. induction a as [|x a IH]; intros [|y b] H; try discriminate H; [reflexivity|]. injection H as H1 H2. apply show_nat_inj in H1. f_equal; auto. Qed.

Lemma display_inj a b t : sn_type a <> SAppendix -> sn_type b <> SAppendix ->
  sn_comps a <> [] -> sn_comps b <> [] ->
  show_section_number a = Ok t -> show_section_number b = Ok t -> sn_comps a = sn_comps b.
Proof.
  intros Ta Tb Na Nb Ha Hb. unfold show_section_number in *.
  rewrite show_components_plain in Ha, Hb by (left; assumption). cbn [bind] in *.
  assert (E : join (lit ".") (map show_nat (sn_comps a)) = join (lit ".") (map show_nat (sn_comps b))) by congruence.
  apply (f_equal (split_on 46%N)) in E. change (lit ".") with [46%N] in E. rewrite !split_join in E;
    try apply plain_no_dot; try (intros X; apply map_eq_nil in X; contradiction).
  apply map_show_inj, E.
Qed.

Lemma letter_component x : 1 <= x <= 26 -> show_component SAppendix 0 x = Ok [(64 + N.of_nat x)%N].
Proof.
  intros H. unfold show_component, checked_sub. destruct (1 <=? x) eqn:E; [|lia]. cbn [bind]. f_equal. f_equal.
  rewrite N.mod_small by lia. unfold from_u32. destruct (_ <? 55296)%N eqn:E2; [|lia]. cbn [orb]. lia.
Qed.
Lemma display_app_inj a b t x y ra rb : sn_type a = SAppendix -> sn_type b = SAppendix ->
  sn_comps a = x :: ra -> sn_comps b = y :: rb -> 1 <= x <= 26 -> 1 <= y <= 26 ->
  show_section_number a = Ok t -> show_section_number b = Ok t -> sn_comps a = sn_comps b.
Proof.
  intros Ta Tb Ea Eb Hx Hy Ha Hb. unfold show_section_number in *. rewrite Ta, Ea in Ha. rewrite Tb, Eb in Hb. rewrite Ea, Eb.
  cbn [show_components] in *. rewrite letter_component in Ha, Hb by assumption. cbn [bind] in *.
  rewrite show_components_plain in Ha, Hb by (right; lia). cbn [bind] in *.
  assert (E : join (lit ".") ([(64 + N.of_nat x)%N] :: map show_nat ra) = join (lit ".") ([(64 + N.of_nat y)%N] :: map show_nat rb)) by congruence.
  apply (f_equal (split_on 46%N)) in E. change (lit ".") with [46%N] in E.
  rewrite !split_join in E; try discriminate; try (constructor; [intros [X|[]]; clear -X Hx Hy; lia|apply plain_no_dot]).
  assert (E1 : (64 + N.of_nat x)%N = (64 + N.of_nat y)%N) by (apply (f_equal (fun l => hd 0%N (hd [] l))) in E; exact E).
  assert (E2 : map show_nat ra = map show_nat rb) by (apply (f_equal (@tl _)) in E; exact E).
  apply map_show_inj in E2. assert (x = y) by lia. congruence.
Qed.
Lemma appendix_letter x : 1 <= x <= 26 ->
  exists c, show_section_number (mksn SAppendix [x]) = Ok [c] /\ is_ascii_upper c = true /\ N.to_nat c = 64 + x.
Proof.
  intros H. exists (64 + N.of_nat x)%N. unfold show_section_number. cbn [sn_type sn_comps show_components].
  rewrite letter_component by exact H. split; [reflexivity|]. split; [unfold is_ascii_upper; apply andb_true_intro; split; apply N.leb_le; lia|]. rewrite N2Nat.inj_add, Nat2N.id. reflexivity.
Qed.
