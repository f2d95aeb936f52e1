(** Proofs about images and icons in text. *)
From Verif Require Import Text TextFacts Span_Model Span_Proof Span_Laws Maps Parser_Model Parser_Proof Regex Regex_Proof Regex_Scan Regex_Lang Regex_Lazy Attrlist_Model Attrlist_Proof Attrlist_Laws Render_Model Render_Proof
  Quote_Model Look_Proof Macro_Model Macro_Spec Macro_Proof Auto_Spec Auto_Proof Inline_Spec Inline_Proof Url_Proof Image_Spec.

(** * Where they are *)
Definition PIC_T : re := Seq (Chr (fun c => negb (is_ws c || c_in (lit ":[") c))) (Seq (ManyL (Chr (fun c => negb ((c =? LF)%N || (c =? 91)%N)))) (Chr (fun c => negb (is_ws c || (c =? 91)%N)))).
Definition PIC_NAME : re := Seq (Lit1 105%N) (Alt (Lit (lit "mage")) (Lit (lit "con"))).
Definition PIC_END : re := Seq (Grp 2 (Alt Eps (Bracketed c_any))) (Lit1 93%N).
Lemma pic_re : INLINE_IMAGE_MACRO = Seq (Opt (Lit1 BSL)) (Seq (Lit1 105%N) (Seq (Alt (Lit (lit "mage")) (Lit (lit "con"))) (Seq (Lit1 58%N) (Seq (Opt (Grp 1 PIC_T)) (Seq (Lit1 91%N) PIC_END))))).
Proof. reflexivity. Qed.
Lemma pic_target_lang U prev w rest c : lang U PIC_T prev w rest c <-> picture_target w /\ c = [].
Proof.
  unfold PIC_T. rewrite lang_seq. split.
  - intros (w1 & w2 & c1 & c2 & -> & -> & L1 & L2). apply -> lang_chr in L1. destruct L1 as (x & -> & Hx & ->). apply -> lang_seq in L2. destruct L2 as (m & w3 & c3 & c4 & -> & -> & L3 & L4). apply -> lang_many_chr in L3. destruct L3 as (F & ->). apply -> lang_chr in L4. destruct L4 as (z & -> & Hz & ->).
    split; [|reflexivity]. exists x, m, z. split; [reflexivity|]. apply negb_true_iff, orb_false_iff in Hx. destruct Hx as (Hw & Hi). split; [exact Hw|]. split; [intros K; apply not_in_spec in Hi; contradiction|]. split.
    + eapply Forall_impl; [|exact F]. intros d Hd. apply negb_true_iff, orb_false_iff in Hd. destruct Hd as (H1 & H2). apply N.eqb_neq in H1, H2. auto.
    + apply negb_true_iff, orb_false_iff in Hz. destruct Hz as (H1 & H2). apply N.eqb_neq in H2. auto.
  - intros ((x & m & z & -> & Hw & Hi & F & Hz & Hz') & ->). exists [x], (m ++ [z]), [], []. split; [reflexivity|]. split; [reflexivity|]. split; [apply lang_chr; exists x; split; [reflexivity|]; split; [rewrite Hw; apply negb_true_iff; cbn [orb]; apply not_in_spec, Hi|reflexivity]|].
    apply lang_seq. exists m, [z], [], []. split; [reflexivity|]. split; [reflexivity|]. split; [apply lang_many_chr; split; [|reflexivity]; eapply Forall_impl; [|exact F]; intros d (H1 & H2); apply N.eqb_neq in H1, H2; rewrite H1, H2; reflexivity|].
    apply lang_chr. exists z. split; [reflexivity|]. split; [|reflexivity]. apply N.eqb_neq in Hz'. rewrite Hz, Hz'. reflexivity.
Qed.
Definition target_or_none (T : text) : Prop := picture_target T \/ T = [].
Lemma pic_match U prev t m : match_here U INLINE_IMAGE_MACRO prev t = Some m -> exists e k T L, escape e /\ m_text m = e ++ picture_macro k T L /\ target_or_none T /\ label any_char L /\
  cap m 1 = (if is_nil T then None else Some T) /\ cap m 2 = Some L.
Proof.
  rewrite match_here_final, pic_re. intros H. apply rmatch_seq_lang in H. destruct H as (e & r1 & c1 & E1 & L & H). apply escape_lang in L. destruct L as (He & ->). cbn [s_rest] in E1.
  apply rmatch_seq_lang in H. destruct H as (w & r2 & c2 & E2 & L & H). apply -> lang_lit1 in L. destruct L as (-> & ->). rewrite ext_ext in H. cbn [s_rest ext] in E2.
  apply rmatch_seq_lang in H. destruct H as (w & r3 & c3 & E3 & L & H). rewrite ext_ext in H. cbn [s_rest ext] in E3.
  assert (Hk : exists k, 105%N :: w = picture_name k /\ c3 = []). { apply -> lang_alt in L. destruct L as [L|L]; apply -> lang_lit in L; destruct L as (-> & ->); [exists Image|exists Icon]; auto. }
  destruct Hk as (k & Ek & ->). clear L. apply rmatch_seq_lang in H. destruct H as (w4 & r4 & c4 & E4 & L & H). apply -> lang_lit1 in L. destruct L as (-> & ->). rewrite ext_ext in H. cbn [s_rest ext] in E4.
  apply rmatch_seq_lang in H. destruct H as (T & r5 & c5 & E5 & L & H). rewrite ext_ext in H. cbn [s_rest ext] in E5.
  assert (HT : target_or_none T /\ c5 = if is_nil T then [] else [(1, T)]).
  { apply -> lang_alt in L. destruct L as [L|L]; [|apply -> lang_eps in L; destruct L as (-> & ->); split; [right|]; reflexivity]. apply -> lang_grp in L. destruct L as (c & -> & L). apply pic_target_lang in L. destruct L as (HT & ->). split; [left; exact HT|]. destruct HT as (x & y & z & -> & _). reflexivity. }
  destruct HT as (HT & ->). clear L. apply rmatch_seq_lang in H. destruct H as (w6 & r6 & c6 & E6 & L & H). apply -> lang_lit1 in L. destruct L as (-> & ->). rewrite ext_ext in H. cbn [s_rest ext] in E6.
  apply group_label in H. destruct H as (l & rest & E7 & Hl & ->). cbn [s_rest ext] in E7. rewrite ext_ext. rewrite final_ext by (rewrite E1, E2, E3, E4, E5, E6, E7, <- !app_assoc; reflexivity).
  unfold cap. cbn [m_text m_caps]. exists e, k, T, l. split; [exact He|]. split; [unfold picture_macro; rewrite <- Ek, <- !app_assoc; reflexivity|]. split; [exact HT|]. split; [exact Hl|]. destruct T; split; reflexivity.
Qed.
Lemma pic_unique k T L r k' T' L' r' : target_or_none T -> target_or_none T' -> label any_char L -> label any_char L' -> picture_macro k T L ++ r = picture_macro k' T' L' ++ r' -> k = k' /\ T = T' /\ L = L'.
Proof.
  intros HT HT' HL HL' E. unfold picture_macro in E. assert (k = k') as <- by (destruct k, k'; try reflexivity; discriminate E). repeat rewrite <- app_assoc in E. apply app_inv_head in E. apply app_inv_head in E. split; [reflexivity|].
  assert (K : T = T').
  { assert (N : forall T, target_or_none T -> Forall (fun x => x <> 91%N) T).
    { clear. intros T [(c & m & z & -> & _ & Hc & F & _ & Hz)| ->]; [|constructor]. constructor; [intros ->; apply Hc; cbn; tauto|]. apply Forall_app. split; [eapply Forall_impl; [|exact F]; intros d (_ & H); exact H|constructor; [exact Hz|constructor]]. }
    change (T ++ 91%N :: (L ++ 93%N :: r) = T' ++ 91%N :: (L' ++ 93%N :: r')) in E. apply (run_unique (fun x => x <> 91%N)) in E; auto. apply E. }
  subst T'. split; [reflexivity|]. apply app_inv_head in E. apply app_inv_head in E. change (L ++ 93%N :: r = L' ++ 93%N :: r') in E. apply (label_end any_char any_char) in E; auto. apply E.
Qed.
Lemma pic_head k T L : exists r, picture_macro k T L = 105%N :: r.
Proof. destruct k; eexists; reflexivity. Qed.
Lemma pic_some U prev e k T L rest : escape e -> target_or_none T -> label any_char L -> match_here U INLINE_IMAGE_MACRO prev ((e ++ picture_macro k T L) ++ rest) <> None.
Proof.
  intros He HT HL. assert (K : exists c, lang U INLINE_IMAGE_MACRO prev (e ++ picture_macro k T L) rest c).
  { rewrite pic_re. eexists. apply lang_seq. exists e, (picture_macro k T L), []. eexists. split; [reflexivity|]. split; [reflexivity|]. split; [apply lang_alt; destruct He as [->| ->]; [right; apply <- lang_eps; auto|left; apply lang_lit1; auto]|].
    set (n := match k with Image => lit "mage" | Icon => lit "con" end). replace (picture_macro k T L) with (lit "i" ++ n ++ lit ":" ++ T ++ lit "[" ++ L ++ lit "]") by (destruct k; reflexivity).
    apply lang_seq. exists (lit "i"). eexists. exists []. eexists. split; [reflexivity|]. split; [reflexivity|]. split; [apply lang_lit1; auto|]. apply lang_seq. exists n. eexists. exists []. eexists. split; [reflexivity|]. split; [reflexivity|]. split; [apply lang_alt; destruct k; [left|right]; apply lang_lit; auto|].
    apply lang_seq. exists (lit ":"). eexists. exists []. eexists. split; [reflexivity|]. split; [reflexivity|]. split; [apply lang_lit1; auto|]. apply lang_seq. exists T. eexists. exists (if is_nil T then [] else [(1, T)]). eexists. split; [reflexivity|]. split; [reflexivity|].
    split; [apply lang_alt; destruct HT as [HT| ->]; [left; apply <- lang_grp; exists []; split; [destruct HT as (x & y & z & -> & _); reflexivity|apply pic_target_lang; auto]|right; apply <- lang_eps; auto]|].
    apply lang_seq. exists (lit "["). eexists. exists []. eexists. split; [reflexivity|]. split; [reflexivity|]. split; [apply lang_lit1; auto|]. apply group_label_lang, HL. }
  destruct K as (c & K). apply lang_match in K. destruct K as (m & ->). discriminate.
Qed.

(** * The alternative text *)
Lemma join_mid c l1 (n : text) l2 : join [c] (l1 ++ n :: l2) = flat_map (fun s => s ++ [c]) l1 ++ n ++ flat_map (fun s => c :: s) l2.
Proof.
  induction l1 as [|a l1 IH]; cbn [app flat_map].
  - revert n. induction l2 as [|b l2 IH]; intros n; [cbn; rewrite app_nil_r; reflexivity|]. rewrite join_cons2, IH. cbn [flat_map app]. reflexivity.
  - replace (join [c] (a :: l1 ++ n :: l2)) with (a ++ [c] ++ join [c] (l1 ++ n :: l2)) by (destruct l1; [reflexivity|]; cbn [app]; rewrite join_cons2; reflexivity). rewrite IH, <- !app_assoc. reflexivity.
Qed.
Lemma no_name_sep n : no_name n -> ~ In 47%N n.
Proof. intros [->| ->]; cbn; intuition discriminate. Qed.
Lemma last_name_split p n : last_name p n <-> ~ no_name n /\ exists l1 l2, split_on 47%N p = l1 ++ n :: l2 /\ Forall no_name l2.
Proof.
  split.
  - intros (Hn & Hs & a & b & -> & Ha & l & -> & F). split; [exact Hn|]. assert (Fs : Forall (fun t => ~ In 47%N t) (n :: l)) by (constructor; [exact Hs|eapply Forall_impl; [|exact F]; apply no_name_sep]). destruct Ha as [->|(a' & ->)].
    + exists [], l. split; [|exact F]. cbn [app]. rewrite <- (split_join 47%N (n :: l)) by (discriminate || exact Fs). f_equal. symmetry. apply (join_mid 47%N []).
    + exists (split_on 47%N a'), l. split; [|exact F]. rewrite <- (split_join 47%N (split_on 47%N a' ++ n :: l)).
      * f_equal. rewrite join_mid. f_equal. rewrite <- (join_split 47%N a') at 1. destruct (exists_last (split_on_nonempty 47%N a')) as (y & z & E). rewrite E, join_mid, flat_map_app. cbn [flat_map]. rewrite !app_nil_r, <- app_assoc. reflexivity.
      * intros K. apply app_eq_nil in K. destruct K as (_ & K). discriminate K.
      * apply Forall_app. split; [apply split_on_no_sep|exact Fs].
  - intros (Hn & l1 & l2 & E & F). split; [exact Hn|]. pose proof (split_on_no_sep 47%N p) as S. rewrite E in S. apply Forall_app in S. split; [apply (Forall_inv (proj2 S))|]. exists (flat_map (fun s => s ++ [47%N]) l1), (flat_map (fun s => 47%N :: s) l2).
    split; [rewrite <- (join_split 47%N p), E; apply join_mid|]. split; [|exists l2; auto]. destruct l1 as [|x l1]; [left; reflexivity|]. right. destruct (exists_last (l := x :: l1)) as (y & z & Ey); [discriminate|]. rewrite Ey, flat_map_app. cbn [flat_map]. rewrite app_nil_r, app_assoc. eexists. reflexivity.
Qed.
Definition keep_name (s : text) : bool := negb (is_nil s || text_eqb s (lit ".")).
Lemma keep_spec s : keep_name s = false <-> no_name s.
Proof. unfold keep_name, no_name. rewrite negb_false_iff, orb_true_iff, text_eqb_eq. destruct s; cbn [is_nil]; intuition; discriminate. Qed.
Lemma keep_last l : match rev (filter keep_name l) with [] => Forall no_name l | n :: _ => exists l1 l2, l = l1 ++ n :: l2 /\ ~ no_name n /\ Forall no_name l2 end.
Proof.
  induction l as [|x l IH] using rev_ind; [constructor|]. rewrite filter_app, rev_app_distr. cbn [filter]. destruct (keep_name x) eqn:E; cbn [rev app].
  - exists l, []. split; [reflexivity|]. split; [|constructor]. intros K. apply keep_spec in K. congruence.
  - apply keep_spec in E. destruct (rev (filter keep_name l)) as [|n r].
    + apply Forall_app. auto.
    + destruct IH as (l1 & l2 & -> & Hn & F). exists l1, (l2 ++ [x]). split; [rewrite <- app_assoc; reflexivity|]. split; [exact Hn|]. apply Forall_app. auto.
Qed.
Lemma last_name_det p n n' : last_name p n -> last_name p n' -> n = n'.
Proof.
  intros H H'. apply last_name_split in H, H'. destruct H as (Hn & l1 & l2 & E & F), H' as (Hn' & l1' & l2' & E' & F'). rewrite E in E'. apply (f_equal (@rev _)) in E'. rewrite !rev_app_distr in E'. cbn [rev] in E'. rewrite <- !app_assoc in E'. cbn [app] in E'.
  apply Forall_rev in F, F'. revert E' F F'. generalize (rev l2) (rev l2') (rev l1) (rev l1'). clear -Hn Hn'. intros a. induction a as [|x a IH]; intros b c d E F F'; destruct b as [|y b]; cbn [app] in E.
  - injection E as -> _. reflexivity.
  - injection E as -> _. destruct (Hn (Forall_inv F')).
  - injection E as <- _. destruct (Hn' (Forall_inv F)).
  - injection E as -> E. apply (IH b c d E); [apply (Forall_inv_tail F)|apply (Forall_inv_tail F')].
Qed.
Lemma dw_stop p c t : p c = false -> drop_while_c p (c :: t) = c :: t.
Proof. intros H. unfold drop_while_c. cbn [span_while]. rewrite H. reflexivity. Qed.
Lemma dw_step p c t : p c = true -> drop_while_c p (c :: t) = drop_while_c p t.
Proof. intros H. unfold drop_while_c. cbn [span_while]. rewrite H. destruct (span_while p t). reflexivity. Qed.
Lemma last_dot_spec n : match last_dot n with Some a => exists e, n = a ++ 46%N :: e /\ ~ In 46%N e | None => ~ In 46%N n end.
Proof.
  unfold last_dot. induction n as [|x n IH] using rev_ind; [intros []|]. rewrite rev_app_distr. cbn [rev app drop_while_c]. change DOT with 46%N. destruct (x =? 46)%N eqn:E; cbn [negb].
  - apply N.eqb_eq in E. subst x. rewrite dw_stop by reflexivity. rewrite rev_involutive. exists []. auto.
  - rewrite dw_step by (rewrite E; reflexivity). apply N.eqb_neq in E. change DOT with 46%N in IH. destruct (drop_while_c (fun c => negb (c =? 46)%N) (rev n)) as [|y r].
    + intros K. apply in_app_iff in K. destruct K as [K|[K|[]]]; [exact (IH K)|congruence].
    + destruct IH as (e & -> & He). exists (e ++ [x]). split; [rewrite <- app_assoc; reflexivity|]. intros K. apply in_app_iff in K. destruct K as [K|[K|[]]]; [exact (He K)|congruence].
Qed.
Lemma dot_unique a e a' e' : a ++ 46%N :: e = a' ++ 46%N :: e' -> ~ In 46%N e -> ~ In 46%N e' -> a = a' /\ e = e'.
Proof.
  revert a'. induction a as [|x a IH]; intros a' E H H'; destruct a' as [|x' a']; cbn [app] in E.
  - injection E as ->. auto.
  - injection E as _ ->. exfalso. apply H. apply in_app_iff. right. left. reflexivity.
  - injection E as _ <-. exfalso. apply H'. apply in_app_iff. right. left. reflexivity.
  - injection E as -> E. destruct (IH a' E H H') as (-> & ->). auto.
Qed.
Lemma name_stem_spec n s : name_stem n s <-> s = match last_dot n with Some ((_ :: _) as stem) => stem | _ => n end.
Proof.
  pose proof (last_dot_spec n) as H. destruct (last_dot n) as [[|x a]|].
  - destruct H as (e & En & He). split.
    + intros [(e' & E & Hs & He')|(-> & _)]; [|reflexivity]. rewrite En in E. apply (dot_unique []) in E; auto. destruct E as (<- & _). contradiction.
    + intros ->. right. split; [reflexivity|]. intros a e' E He'. rewrite En in E. apply (dot_unique []) in E; auto. destruct E as (<- & _). reflexivity.
  - destruct H as (e & En & He). split.
    + intros [(e' & E & Hs & He')|(-> & H)]; [rewrite En in E; apply dot_unique in E; auto; destruct E as (<- & _); reflexivity|]. discriminate (H _ _ En He).
    + intros ->. left. exists e. split; [exact En|]. split; [discriminate|exact He].
  - split.
    + intros [(e' & -> & _)|(-> & _)]; [|reflexivity]. destruct H. apply in_app_iff. right. left. reflexivity.
    + intros ->. right. split; [reflexivity|]. intros a e -> _. destruct H. apply in_app_iff. right. left. reflexivity.
Qed.
Lemma path_stem_spec p s : path_stem p s <-> s = basename p.
Proof.
  unfold basename, file_stem. change (fun s0 : list char => negb (is_nil s0 || text_eqb s0 (lit "."))) with keep_name. pose proof (keep_last (split_on 47%N p)) as H. destruct (rev (filter keep_name (split_on 47%N p))) as [|n r]; cbn [unwrap_or_default].
  - assert (N : forall n, ~ last_name p n). { intros n K. apply last_name_split in K. destruct K as (Hn & l1 & l2 & E & _). rewrite E in H. apply Forall_app in H. exact (Hn (Forall_inv (proj2 H))). }
    split; [intros [(n & K & _)|(-> & _)]; [destruct (N _ K)|reflexivity]|]. intros ->. right. split; [reflexivity|]. intros n K. destruct (N _ K).
  - destruct H as (l1 & l2 & E & Hn & F). assert (K : last_name p n) by (apply last_name_split; split; [exact Hn|]; exists l1, l2; auto). destruct (text_eqb n (lit "..")) eqn:Ed.
    + apply text_eqb_eq in Ed. subst n. cbn [unwrap_or_default]. split; [intros [(n' & K' & Nd & _)|(-> & _)]; [destruct (Nd (last_name_det _ _ _ K' K))|reflexivity]|]. intros ->. right. split; [reflexivity|]. intros n' K'. exact (last_name_det _ _ _ K' K).
    + assert (Nd : n <> lit "..") by (intros ->; discriminate Ed). assert (Es : unwrap_or_default match last_dot n with Some ((_ :: _) as stem) => Some stem | _ => Some n end = match last_dot n with Some ((_ :: _) as stem) => stem | _ => n end) by (destruct (last_dot n) as [[|]|]; reflexivity).
      rewrite Es, <- name_stem_spec. split.
      * intros [(n' & K' & _ & Hs)|(_ & H)]; [rewrite <- (last_name_det _ _ _ K' K); exact Hs|destruct (Nd (H _ K))].
      * intros Hs. left. exists n. auto.
Qed.

(** * What replaces them *)
Definition image_place (U : unicode) (fs : char) (P : parser) (T : text) : text := match image_uri U fs P T None with Ok s => s | _ => [] end.
Definition icon_place (U : unicode) (fs : char) (P : parser) (T : text) : text := match icon_uri U fs P T with Ok s => s | _ => [] end.
Definition mode_of (P : parser) : icon_mode :=
  if has_attribute P (lit "icons") then
    if match as_maybe_str (attribute_value P (lit "icons")) with Some i => text_eqb i (lit "font") | None => false end then IFont else IImage
  else IText.
Lemma in_span_eq k a img src : wf_al a -> render_icon_or_image a img src (picture_name k) = Ok (in_span k (attrs_of a) img src).
Proof.
  intros W. unfold render_icon_or_image, in_span, linked. rewrite (opens_eq _ _ W). destruct (roles_ok _ W) as (r & Hr). assert (Er : at_roles (attrs_of a) = r) by (unfold attrs_of; cbn [at_roles]; rewrite Hr; reflexivity). rewrite Er, Hr.
  assert (El : at_name (attrs_of a) (lit "link") = option_map ea_value (named_attribute a (lit "link"))) by reflexivity. assert (Ef : at_name (attrs_of a) (lit "float") = option_map ea_value (named_attribute a (lit "float"))) by reflexivity. rewrite El, Ef.
  destruct (named_attribute a (lit "link")) as [l|], (named_attribute a (lit "float")) as [f|]; cbn [bind option_map app]; reflexivity.
Qed.
Lemma no_quotes_eq v : encode_attribute_value v = no_quotes v.
Proof. reflexivity. Qed.
Lemma alt_eq o : normalize_text_lf_escaped_bracket o = unescape 93%N (on_one_line o).
Proof. unfold normalize_text_lf_escaped_bracket, replace_esc_bracket. rewrite one_line_eq. apply unescape_eq. discriminate. Qed.
Lemma name_or_pos_eq a n i : option_map ea_value (named_or_positional_attribute a n i) = name_or_pos (attrs_of a) n i.
Proof. unfold named_or_positional_attribute, name_or_pos, attrs_of. cbn [at_name at_pos]. destruct (named_attribute a n); reflexivity. Qed.
Lemma alternative_eq T o x : alternative T (option_map ea_value o) x <-> x = match o with Some e => normalize_text_lf_escaped_bracket (ea_value e) | None => basename (blank_separators T) end.
Proof. destruct o as [e|]; cbn [option_map alternative]; [rewrite alt_eq; reflexivity|]. change (separators_blank T) with (blank_separators T). apply path_stem_spec. Qed.
Lemma opt_attrs3 (b1 b2 : text) o1 o2 o3 n1 n2 n3 n4 n5 : lit "<img " ++ join (lit " ") ([html_attr0 n1 b1; html_attr0 n2 b2] ++ opt_attr n3 o1 ++ opt_attr n4 o2 ++ opt_attr n5 o3) ++ lit ">" =
  lit "<img" ++ attr n1 b1 ++ attr n2 b2 ++ some_attr n3 o1 ++ some_attr n4 o2 ++ some_attr n5 o3 ++ lit ">".
Proof.
  pose proof (img_attrs ((n1, b1) :: (n2, b2) :: map (pair n3) (opt_list o1) ++ map (pair n4) (opt_list o2) ++ map (pair n5) (opt_list o3))) as H.
  assert (K : map (fun nv => html_attr0 (fst nv) (snd nv)) ((n1, b1) :: (n2, b2) :: map (pair n3) (opt_list o1) ++ map (pair n4) (opt_list o2) ++ map (pair n5) (opt_list o3)) = [html_attr0 n1 b1; html_attr0 n2 b2] ++ opt_attr n3 o1 ++ opt_attr n4 o2 ++ opt_attr n5 o3) by (destruct o1, o2, o3; reflexivity).
  rewrite K in H. rewrite H by discriminate. clear. destruct o1, o2, o3; cbn [opt_list map app flat_map fst snd some_attr]; rewrite ?app_nil_r, <- ?app_assoc; reflexivity.
Qed.
Lemma image_markup_eq U fs P T L a x : inline_attrlist U P L = Ok a -> wf_al a ->
  render_image U fs P (mkip T (match named_or_positional_attribute a (lit "alt") 1 with Some e => normalize_text_lf_escaped_bracket (ea_value e) | None => basename (blank_separators T) end)
    (option_map ea_value (named_or_positional_attribute a (lit "width") 2)) (option_map ea_value (named_or_positional_attribute a (lit "height") 3)) a) = Ok x <->
  image_markup (reads U P) (image_place U fs P) T L x.
Proof.
  intros Ea W. assert (Er : reads U P L = attrs_of a) by (unfold reads; rewrite Ea; reflexivity). unfold image_markup. rewrite Er. unfold render_image, image_place. cbn [ip_target ip_alt ip_width ip_height ip_attrlist]. destruct (image_uri_ok U fs P T None) as (src & Esrc). rewrite Esrc. cbn [bind].
  destruct (has_option_ok _ W (lit "inline")) as (i & Ei), (has_option_ok _ W (lit "interactive")) as (j & Ej). rewrite Ei, Ej. cbn [bind].
  assert (Oi : at_option (attrs_of a) (lit "inline") = i) by (unfold attrs_of; cbn [at_option]; rewrite Ei; reflexivity). assert (Oj : at_option (attrs_of a) (lit "interactive") = j) by (unfold attrs_of; cbn [at_option]; rewrite Ej; reflexivity). rewrite Oi, Oj.
  set (v := match named_value a (lit "format") with Some f => text_eqb f (lit "svg") | None => false end || contains (lit ".svg") T).
  assert (Hv : v = true <-> svg T (attrs_of a)).
  { unfold v, svg. rewrite orb_true_iff. change (at_name (attrs_of a) (lit "format")) with (named_value a (lit "format")). rewrite contains_spec. unfold occurs. destruct (named_value a (lit "format")) as [f|]; [rewrite text_eqb_eq|]; split; intros [K|K]; try (right; exact K); try discriminate K; left; congruence. }
  rewrite opt_attrs3, !name_or_pos_eq. change (named_value a (lit "title")) with (at_name (attrs_of a) (lit "title")).
  assert (Eu : (if v then if i then Ok true else Ok j else Ok false) = Ok (v && (i || j))%bool) by (destruct v, i; reflexivity). rewrite Eu. cbn [bind].
  assert (Hn : (v && (i || j))%bool = true <-> svg T (attrs_of a) /\ (i = true \/ j = true)) by (rewrite andb_true_iff, orb_true_iff, Hv; reflexivity).
  destruct (v && (i || j))%bool.
  - split; [discriminate|]. intros (alt & _ & K & _). destruct K. apply Hn. reflexivity.
  - change (lit "image") with (picture_name Image). rewrite in_span_eq by exact W. rewrite ok_iff. split.
    + intros ->. eexists. split; [rewrite <- name_or_pos_eq; apply alternative_eq; reflexivity|]. split; [intros K; apply Hn in K; discriminate K|reflexivity].
    + intros (alt & K & _ & ->). rewrite <- name_or_pos_eq in K. apply alternative_eq in K. subst alt. reflexivity.
Qed.
Lemma icon_markup_eq U fs P T L a x : inline_attrlist U P L = Ok a -> wf_al a ->
  render_icon U fs P (mkicp T (match named_attribute a (lit "alt") with Some e => normalize_text_lf_escaped_bracket (ea_value e) | None => basename (blank_separators T) end) a) = Ok x <->
  icon_markup (reads U P) (icon_place U fs P) (mode_of P) T L x.
Proof.
  intros Ea W. assert (Er : reads U P L = attrs_of a) by (unfold reads; rewrite Ea; reflexivity). unfold icon_markup. rewrite Er. unfold render_icon, icon_place. cbn [icp_target icp_alt icp_attrlist].
  destruct (image_uri_ok U fs P (T ++ lit "." ++ match as_maybe_str (attribute_value P (lit "icontype")) with Some t => t | None => lit "png" end) (Some (lit "iconsdir"))) as (src & Esrc). unfold icon_uri. rewrite Esrc. cbn [bind].
  change (lit "icon") with (picture_name Icon). rewrite in_span_eq by exact W. rewrite ok_iff. unfold mode_of. rewrite opt_attrs3. unfold icon_classes. rewrite <- !name_or_pos_eq.
  change (at_name (attrs_of a) (lit "alt")) with (option_map ea_value (named_attribute a (lit "alt"))).
  split.
  - intros ->. eexists. split; [apply alternative_eq; reflexivity|]. f_equal. destruct (has_attribute P (lit "icons")); [|reflexivity]. destruct (match as_maybe_str (attribute_value P (lit "icons")) with Some i => text_eqb i (lit "font") | None => false end); [|reflexivity].
    destruct (named_or_positional_attribute a (lit "size") 1); reflexivity.
  - intros (alt & Ha & ->). apply alternative_eq in Ha. subst alt. f_equal. destruct (has_attribute P (lit "icons")); [|reflexivity]. destruct (match as_maybe_str (attribute_value P (lit "icons")) with Some i => text_eqb i (lit "font") | None => false end); [|reflexivity].
    destruct (named_or_positional_attribute a (lit "size") 1); reflexivity.
Qed.
Lemma pictures_rewritten U fs P t o : replace_all_pure U INLINE_IMAGE_MACRO (image_macro_replacer U fs P) t = Ok o <->
  replaced picture_at (picture_out (reads U P) (image_place U fs P) (icon_place U fs P) (mode_of P)) None t o.
Proof.
  apply replacing.
  - intros prev rest (e & k & T & L & _ & E & _). destruct (pic_head k T L) as (r & Eh). rewrite Eh in E. destruct e; discriminate E.
  - intros prev w1 r1 w2 r2 (e & k & T & L & He & -> & HT & HL) (e' & k' & T' & L' & He' & -> & HT' & HL') E. rewrite <- !app_assoc in E.
    destruct (pic_head k T L) as (q & Eq), (pic_head k' T' L') as (q' & Eq').
    assert (K : e = e' /\ picture_macro k T L ++ r1 = picture_macro k' T' L' ++ r2). { rewrite Eq, Eq' in E |- *. cbn [app] in E |- *. apply same_esc in E; auto; discriminate. }
    destruct K as (-> & K). destruct (pic_unique _ _ _ _ _ _ _ _ HT HT' HL HL' K) as (-> & -> & ->). reflexivity.
  - intros prev t0 m H. apply pic_match in H. destruct H as (e & k & T & L & He & Et & HT & HL & H1 & H2). split; [exists e, k, T, L; auto|]. intros x. unfold image_macro_replacer, cap_idx. rewrite Et, H1, H2.
    destruct (pic_head k T L) as (q & Eq). destruct He as [->| ->]; cbn [app].
    + assert (Eb : starts_with [BSL] (picture_macro k T L) = false) by (rewrite Eq; reflexivity). rewrite Eb.
      assert (Out : picture_out (reads U P) (image_place U fs P) (icon_place U fs P) (mode_of P) prev (picture_macro k T L) (m_after m) x <->
        T <> [] /\ match k with Image => image_markup (reads U P) (image_place U fs P) T L x | Icon => icon_markup (reads U P) (icon_place U fs P) (mode_of P) T L x end).
      { split.
        - intros (k' & T' & L' & HT' & HL' & [(E & _)|(E & H)]); [rewrite Eq in E; discriminate E|]. destruct (pic_unique k T L [] k' T' L' [] HT HT' HL HL') as (-> & -> & ->); [rewrite E; reflexivity|exact H].
        - intros H. exists k, T, L. split; [exact HT|]. split; [exact HL|]. right. auto. }
      rewrite Out. destruct T as [|c T]; cbn [is_nil of_option bind]; [split; [discriminate|intros (K & _); contradiction]|].
      destruct (inline_attrlist_ok U P L) as (a & Ea & W). rewrite Ea. cbn [bind].
      assert (Ek : starts_with (lit "image:") (picture_macro k (c :: T) L) = match k with Image => true | Icon => false end) by (destruct k; reflexivity). rewrite Ek. destruct k.
      * rewrite (image_markup_eq U fs P (c :: T) L a x Ea W). split; [intros K; split; [discriminate|exact K]|intros (_ & K); exact K].
      * rewrite (icon_markup_eq U fs P (c :: T) L a x Ea W). split; [intros K; split; [discriminate|exact K]|intros (_ & K); exact K].
    + change (starts_with [BSL] (BSL :: picture_macro k T L)) with true. cbv iota. rewrite str_from1 by reflexivity. split.
      * intros K. apply Ok_inj in K. subst x. exists k, T, L. split; [exact HT|]. split; [exact HL|]. left. auto.
      * intros (k' & T' & L' & HT' & HL' & [(E & ->)|(E & _)]); [injection E as ->; reflexivity|]. destruct (pic_head k' T' L') as (q' & Eq'). rewrite Eq' in E. discriminate E.
  - intros prev w rest (e & k & T & L & He & -> & HT & HL). apply pic_some; assumption.
Qed.
