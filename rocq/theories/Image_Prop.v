(** C100, C101: images and icons in text. *)
From Verif Require Import Text TextFacts Span_Proof Span_Model Span_Laws Maps Parser_Model Parser_Proof Regex Regex_Proof Regex_Scan Regex_Lang Subs_Proof Attrlist_Model Attrlist_Proof Attrlist_Laws Path_Model Path_Proof Render_Proof Render_Model Quote_Model
  Subs_Chars Macro_Model Macro_Spec Macro_Proof Auto_Spec Auto_Proof Inline_Spec Inline_Proof Inline_Prop Url_Proof Url_Prop Image_Spec Image_Proof Header_Prop Block_Model Doc_Model Block_Prop.

(** The step of images and icons finds those of the specification and no others, and writes what the specification says. *)
Theorem C100_pictures : forall U fs P t o, replace_all_pure U INLINE_IMAGE_MACRO (image_macro_replacer U fs P) t = Ok o <->
  replaced picture_at (picture_out (reads U P) (image_place U fs P) (icon_place U fs P) (mode_of P)) None t o.
Proof. intros U fs P t o. apply pictures_rewritten. Qed.
(** It is all the inline macros do to a text without the marks of the others. *)
Theorem C100_whole_step : forall U fs P t o, ~ occurs (lit "://") t -> ~ occurs (lit "link:") t -> ~ occurs (lit "ilto:") t -> ~ In 64%N t -> ~ occurs (lit "[[") t -> ~ occurs (lit "or:") t ->
  apply_macros U fs P t = Ok o <-> replaced picture_at (picture_out (reads U P) (image_place U fs P) (icon_place U fs P) (mode_of P)) None t o.
Proof.
  intros U fs P t o H1 H2 H3 H4 H5 H6. unfold apply_macros.
  assert (N : forall p, ~ occurs p t -> contains p t = false). { intros p H. destruct (contains p t) eqn:E; [|reflexivity]. apply contains_spec in E. destruct (H E). }
  rewrite (N _ H1), (N _ H2), (N _ H3), (N _ H5), (N _ H6), (proj2 (has_char_false 64%N t) H4). rewrite !andb_false_r. cbn [orb bind].
  destruct (has_char 91%N t && has_char 58%N t && (contains (lit "image:") t || contains (lit "icon:") t)) eqn:E; cbn [bind].
  { rewrite <- C100_pictures. destruct (replace_all_pure U INLINE_IMAGE_MACRO (image_macro_replacer U fs P) t); cbn [bind]; reflexivity. }
  assert (H : replaced picture_at (picture_out (reads U P) (image_place U fs P) (icon_place U fs P) (mode_of P)) None t t).
  { apply replaced_id. intros prev a w rest Et (e & k & T & L & _ & -> & _). assert (K : has_char 91%N t = true /\ has_char 58%N t = true).
    { rewrite !has_char_spec, Et. unfold picture_macro. rewrite !in_app_iff. cbn. tauto. }
    destruct K as (K1 & K2). rewrite K1, K2 in E. apply orb_false_iff in E. destruct E as (E1 & E2). destruct k.
    - assert (K : contains (lit "image:") t = true) by (apply contains_spec; exists (a ++ e), (T ++ lit "[" ++ L ++ lit "]" ++ rest); rewrite Et; unfold picture_macro; rewrite <- !app_assoc; reflexivity). congruence.
    - assert (K : contains (lit "icon:") t = true) by (apply contains_spec; exists (a ++ e), (T ++ lit "[" ++ L ++ lit "]" ++ rest); rewrite Et; unfold picture_macro; rewrite <- !app_assoc; reflexivity). congruence. }
  split; [intros K; apply Ok_inj in K; subst o; exact H|]. intros K. apply C100_pictures in H, K. rewrite H in K. exact K.
Qed.
(** A backslash before an image or icon goes away and the rest stays as it is, whatever is in it. *)
Theorem C100_escaped : forall R src isrc mode prev k T L rest x, (picture_target T \/ T = []) -> label any_char L ->
  picture_out R src isrc mode prev (BSL :: picture_macro k T L) rest x <-> x = picture_macro k T L.
Proof.
  intros R src isrc mode prev k T L rest x HT HL. split.
  - intros (k' & T' & L' & HT' & HL' & [(E & ->)|(E & _)]); [injection E as E; auto|]. destruct (pic_head k' T' L') as (r & Er). rewrite Er in E. discriminate E.
  - intros ->. exists k, T, L. auto.
Qed.
Lemma picture_out_eq R src isrc mode prev k T L rest x : (picture_target T \/ T = []) -> label any_char L ->
  picture_out R src isrc mode prev (picture_macro k T L) rest x <-> T <> [] /\ match k with Image => image_markup R src T L x | Icon => icon_markup R isrc mode T L x end.
Proof.
  intros HT HL. split.
  - intros (k' & T' & L' & HT' & HL' & [(E & _)|(E & H)]); [destruct (pic_head k T L) as (r & Er); rewrite Er in E; discriminate E|]. destruct (pic_unique k T L [] k' T' L' [] HT HT' HL HL') as (-> & -> & ->); [rewrite E; reflexivity|exact H].
  - intros H. exists k, T, L. auto.
Qed.
(** Exactly where the step has no result: there is no target, or the image is an SVG one with the option inline or interactive. *)
Theorem C100_no_result : forall R src isrc mode prev k T L rest, (picture_target T \/ T = []) -> label any_char L ->
  (forall x, ~ picture_out R src isrc mode prev (picture_macro k T L) rest x) <->
  T = [] \/ (k = Image /\ svg T (R L) /\ (at_option (R L) (lit "inline") = true \/ at_option (R L) (lit "interactive") = true)).
Proof.
  intros R src isrc mode prev k T L rest HT HL. split.
  - intros H. destruct T as [|c T]; [left; reflexivity|]. right.
    assert (Ha : forall g, exists alt, alternative (c :: T) g alt). { intros [v|]; [eexists; reflexivity|]. exists (basename (separators_blank (c :: T))). apply path_stem_spec. reflexivity. }
    destruct k.
    + destruct (Ha (name_or_pos (R L) (lit "alt") 1)) as (alt & Halt). split; [reflexivity|].
      assert (Dec : forall A : Prop, ~ ~ A -> (A \/ ~ A) -> A) by tauto. apply Dec.
      * intros N. eapply H. apply picture_out_eq; [exact HT|exact HL|]. split; [discriminate|]. exists alt. split; [exact Halt|]. split; [exact N|reflexivity].
      * assert (Dsvg : svg (c :: T) (R L) \/ ~ svg (c :: T) (R L)).
        { unfold svg. destruct (contains (lit ".svg") (c :: T)) eqn:Ec; [left; right; apply contains_spec, Ec|]. assert (Nc : ~ occurs (lit ".svg") (c :: T)) by (intros K; apply contains_spec in K; congruence).
          destruct (at_name (R L) (lit "format")) as [f|]; [|right; intros [K|K]; [discriminate K|contradiction]]. destruct (text_eqb f (lit "svg")) eqn:Ef; [left; left; apply text_eqb_eq in Ef; subst f; reflexivity|]. right. intros [K|K]; [|contradiction]. injection K as ->. rewrite text_eqb_refl in Ef. discriminate Ef. }
        destruct Dsvg as [Hs|Ns]; [|tauto]. destruct (at_option (R L) (lit "inline")); [tauto|]. destruct (at_option (R L) (lit "interactive")); [tauto|]. right. intros (_ & [K|K]); discriminate K.
    + exfalso. destruct (Ha (at_name (R L) (lit "alt"))) as (alt & Halt). eapply H. apply picture_out_eq; [exact HT|exact HL|]. split; [discriminate|]. exists alt. split; [exact Halt|reflexivity].
  - intros H x K. apply picture_out_eq in K; [|exact HT|exact HL]. destruct K as (Hn & K). destruct H as [H|(-> & H)]; [contradiction|]. destruct K as (alt & _ & N & _). apply N. exact H.
Qed.
(** Without attributes an image has the name in its target as the alternative text. *)
Theorem C100_no_attributes : forall U P src isrc mode prev T rest x, picture_target T ->
  picture_out (reads U P) src isrc mode prev (picture_macro Image T []) rest x <->
  exists alt, path_stem (separators_blank T) alt /\ x = lit "<span" ++ attr (lit "class") (lit "image") ++ lit "><img" ++ attr (lit "src") (src T) ++ attr (lit "alt") (no_quotes alt) ++ lit "></span>".
Proof.
  intros U P src isrc mode prev T rest x HT. rewrite picture_out_eq; [|left; exact HT|left; reflexivity].
  assert (Hn : T <> []) by (destruct HT as (c & m & z & -> & _); discriminate). unfold image_markup. unfold reads. rewrite empty_attrlist. cbn. split.
  - intros (_ & alt & Ha & _ & ->). exists alt. split; [exact Ha|]. repeat (rewrite <- app_assoc; cbn). reflexivity.
  - intros (alt & Ha & ->). split; [exact Hn|]. exists alt. split; [exact Ha|]. split; [intros (_ & [K|K]); discriminate K|]. repeat (rewrite <- app_assoc; cbn). reflexivity.
Qed.

Lemma uriish_colon U t : ~ In 58%N t -> is_uri_ish U t = false.
Proof. intros H. unfold is_uri_ish. rewrite (proj2 (has_char_false 58%N t) H). reflexivity. Qed.
Lemma path_no_colon l : Forall plain_name l -> ~ In 58%N (join (lit "/") l).
Proof. intros F. apply join_not_in; [discriminate|]. eapply Forall_impl; [|exact F]. intros s (_ & _ & _ & _ & _ & _ & H). exact H. Qed.
Lemma path_no_bsl l : Forall plain_name l -> ~ In BSL (join (lit "/") l).
Proof. intros F. apply join_not_in; [discriminate|]. eapply Forall_impl; [|exact F]. intros s (_ & _ & _ & _ & _ & H & _). exact H. Qed.
Lemma plain_path_web U fs root l : plain_path l -> (root = None \/ root = Some (lit "/")) -> web_path U fs (root_text root ++ join (lit "/") l) None = Ok (root_text root ++ join (lit "/") l).
Proof.
  intros (Hn & F) Hr. apply web_path_of_parts; [exact Hn| | |].
  - eapply Forall_impl; [|exact F]. intros s (A & B & C & D & G & H & I). repeat split; auto.
  - exists (rev l), []. rewrite app_nil_r. split; [reflexivity|]. split; [apply Forall_rev; eapply Forall_impl; [|exact F]; intros s (A & B & C & _); exact C|]. split; [constructor|auto].
  - destruct Hr as [->| ->]; [|auto]. right. right. split; [reflexivity|]. left. destruct l as [|s l]; [contradiction|]. destruct (Forall_inv F) as (A & _). exact A.
Qed.
Lemma path_last l : plain_path l -> ends_with (lit "/") (join (lit "/") l) = false.
Proof.
  intros (Hn & F). destruct (exists_last Hn) as (l' & s & ->). apply Forall_app in F. destruct F as (_ & F). destruct (Forall_inv F) as (A & _ & _ & D & _). destruct (exists_last A) as (s' & c & ->).
  assert (E : exists y, join (lit "/") (l' ++ [s' ++ [c]]) = y ++ [c]).
  { destruct l' as [|x l']; [exists s'; reflexivity|]. clear. revert x. induction l' as [|y l' IH]; intros x; [exists (x ++ lit "/" ++ s'); cbn [app]; rewrite join_cons2; cbn [join]; rewrite <- !app_assoc; reflexivity|]. destruct (IH y) as (z & Ez). exists (x ++ lit "/" ++ z). cbn [app] in *. rewrite join_cons2, Ez, <- !app_assoc. reflexivity. }
  destruct E as (y & ->). unfold ends_with. rewrite rev_app_distr. change (starts_with (lit "/") (c :: rev y) = false). change (starts_with (lit "/") (c :: rev y)) with ((47 =? c)%N && true). destruct (N.eqb_spec 47 c) as [<-|]; [|reflexivity]. exfalso. apply D. rewrite in_app_iff. right. left. reflexivity.
Qed.
Lemma join_app (l m : list text) : l <> [] -> m <> [] -> join (lit "/") (l ++ m) = join (lit "/") l ++ lit "/" ++ join (lit "/") m.
Proof. intros Hl Hm. induction l as [|x [|y l] IH]; [contradiction| |]. - destruct m as [|z m]; [contradiction|]. cbn [app]. rewrite join_cons2. reflexivity. - cbn [app] in *. rewrite !join_cons2. rewrite IH by discriminate. rewrite <- !app_assoc. reflexivity. Qed.

Lemma place_in_dir U fs P key d l : plain_path d -> plain_path l -> as_maybe_str (attribute_value P match key with Some k => k | None => lit "imagesdir" end) = Some (join (lit "/") d) ->
  image_uri U fs P (join (lit "/") l) key = Ok (join (lit "/") d ++ lit "/" ++ join (lit "/") l).
Proof.
  intros Hd Hl Hv. unfold image_uri, normalize_web_path. rewrite Hv, uriish_colon by (apply path_no_colon, Hl). cbn [andb].
  assert (Hdl : plain_path (d ++ l)) by (destruct Hd as (A & B), Hl as (C & D); split; [destruct d; [contradiction|discriminate]|apply Forall_app; auto]).
  pose proof (plain_path_web U fs None _ Hdl (or_introl eq_refl)) as K. cbn [root_text app] in K. rewrite join_app in K by (apply Hd || apply Hl).
  unfold web_path in K |- *. cbn [option_map] in K |- *. rewrite (posixify_id fs (join (lit "/") l)), (posixify_id fs (join (lit "/") d)) by (intros _; apply path_no_bsl; [apply Hd || apply Hl]). rewrite path_last by exact Hd.
  assert (Hw : is_web_root (join (lit "/") l) = false). { destruct l as [|s l]; [destruct Hl; contradiction|]. apply (rel_no_root fs); [|destruct Hl as (_ & F); apply (Forall_inv F)]. eapply Forall_impl; [|exact (proj2 Hl)]. intros u (A & B & C & D & G & H & I). repeat split; auto. }
  rewrite Hw. unfold extract_uri_prefix. rewrite <- join_app in K |- * by (apply Hd || apply Hl). rewrite (proj2 (has_char_false 58%N _)) by (apply path_no_colon, Hdl). cbn [bind]. rewrite posixify_id in K by (intros _; apply path_no_bsl, Hdl). cbn [bind] in K. rewrite K. reflexivity.
Qed.
(** Where an image is. A plain relative path is in the directory of images, if there is one. *)
Theorem C100_relative : forall U fs P l, plain_path l -> as_maybe_str (attribute_value P (lit "imagesdir")) = None ->
  image_place U fs P (join (lit "/") l) = join (lit "/") l.
Proof.
  intros U fs P l Hl Hd. unfold image_place, image_uri, normalize_web_path. rewrite Hd, uriish_colon by (apply path_no_colon, Hl). cbn [andb].
  pose proof (plain_path_web U fs None l Hl (or_introl eq_refl)) as K. cbn [root_text app] in K. rewrite K. reflexivity.
Qed.
Theorem C100_directory : forall U fs P d l, plain_path d -> plain_path l -> as_maybe_str (attribute_value P (lit "imagesdir")) = Some (join (lit "/") d) ->
  image_place U fs P (join (lit "/") l) = join (lit "/") d ++ lit "/" ++ join (lit "/") l.
Proof. intros U fs P d l Hd Hl Hv. unfold image_place. rewrite (place_in_dir U fs P None d l Hd Hl Hv). reflexivity. Qed.
(** A path from the root stays, whatever the directory. *)
Theorem C100_absolute : forall U fs P l, plain_path l -> image_place U fs P (lit "/" ++ join (lit "/") l) = lit "/" ++ join (lit "/") l.
Proof.
  intros U fs P l Hl. unfold image_place, image_uri, normalize_web_path. rewrite uriish_colon; [|rewrite in_app_iff; intros [[K|[]]|K]; [discriminate K|exact (path_no_colon l (proj2 Hl) K)]]. cbn [andb].
  pose proof (plain_path_web U fs (Some (lit "/")) l Hl (or_intror eq_refl)) as K. cbn [root_text] in K. destruct (as_maybe_str (attribute_value P (lit "imagesdir"))) as [d|]; [|rewrite K; reflexivity].
  unfold web_path in K |- *. cbn [option_map] in K |- *.
  assert (Hb : fs = BSL -> ~ In BSL (lit "/" ++ join (lit "/") l)) by (intros _; rewrite in_app_iff; intros [[Hi|[]]|Hi]; [discriminate Hi|exact (path_no_bsl l (proj2 Hl) Hi)]).
  rewrite posixify_id in K |- * by exact Hb. change (is_web_root (lit "/" ++ join (lit "/") l)) with true. cbn [bind] in K |- *. rewrite K. reflexivity.
Qed.
(** A URL stays too; blanks in it are encoded. *)
Theorem C100_url : forall U fs P k r, scheme_text U k r -> image_place U fs P (k ++ r) = flat_map (fun c => if (c =? SP)%N then lit "%20" else [c]) (k ++ r).
Proof.
  intros U fs P k r H. unfold image_place, image_uri, normalize_web_path.
  assert (Hu : is_uri_ish U (k ++ r) = true).
  { unfold is_uri_ish. destruct H as (c & q & s & -> & Hc & Hq & Fq & Hs). apply andb_true_iff. split; [apply has_char_spec; cbn [app]; rewrite <- !app_assoc; right; rewrite in_app_iff; right; left; reflexivity|].
    destruct (is_match U (RENDER_URI_SNIFF U) ((c :: q ++ lit ":" ++ s) ++ r)) eqn:E; [reflexivity|exfalso].
    eapply (is_match_false U _ _ E [] (c :: q ++ lit ":" ++ s) r []); [reflexivity|]. cbn [prev_of rev].
    unfold RENDER_URI_SNIFF. cbn [Seqs]. apply lang_seq. exists [], (c :: q ++ lit ":" ++ s), [], []. split; [reflexivity|]. split; [reflexivity|]. split; [apply lang_assert; auto|].
    apply lang_seq. exists [c], (q ++ lit ":" ++ s), [], []. split; [reflexivity|]. split; [reflexivity|]. split; [apply lang_chr; eauto|].
    apply lang_seq. exists q, (lit ":" ++ s), [], []. split; [reflexivity|]. split; [reflexivity|]. split.
    - destruct q as [|y q]; [contradiction|]. apply lang_seq. exists [y], q, [], []. split; [reflexivity|]. split; [reflexivity|]. split; [apply lang_chr; exists y; split; [reflexivity|]; split; [apply scheme_char_spec, (Forall_inv Fq)|reflexivity]|].
      apply lang_many_chr. split; [|reflexivity]. eapply Forall_impl; [|exact (Forall_inv_tail Fq)]. intros a Ha. apply scheme_char_spec, Ha.
    - apply lang_seq. exists (lit ":"), s, [], []. split; [reflexivity|]. split; [reflexivity|]. split; [apply lang_lit1; auto|]. apply (lang_upto_chr U). destruct Hs as [->|([->| ->] & _)]; (split; [repeat constructor|]); (split; [cbn; lia|reflexivity]). }
  rewrite Hu. cbn [andb]. unfold encode_spaces_in_uri. unfold replace_char. reflexivity.
Qed.

(** * Refuted for images *)
Definition set_attribute n v P := with_intrinsic_attribute ascii_only P n v Anywhere.
(** The id of an image is not written. *)
Theorem C100_id_refuted : exists t o, t = lit "image:a.png[id=sunset]" /\ apply_macros ascii_only 47%N parser_default t = Ok o /\ ~ occurs (lit "sunset") o.
Proof. eexists. eexists. split; [reflexivity|]. split; [vm_compute; reflexivity|]. intros K. apply contains_spec in K. vm_compute in K. discriminate K. Qed.
(** A target of one character is not found. *)
Theorem C100_one_character_refuted : exists t, t = lit "see image:x[an image]" /\ apply_macros ascii_only 47%N parser_default t = Ok t.
Proof. eexists. split; [reflexivity|]. vm_compute. reflexivity. Qed.
(** An empty directory of images, the documented default, makes every relative path one from the root of the server. *)
Theorem C100_empty_directory_refuted : exists P o, P = set_attribute (lit "imagesdir") [] parser_default /\ apply_macros ascii_only 47%N P (lit "image:a.png[]") = Ok o /\ occurs (attr (lit "src") (lit "/a.png")) o.
Proof. eexists. eexists. split; [reflexivity|]. split; [vm_compute; reflexivity|]. apply contains_spec. vm_compute. reflexivity. Qed.
Theorem C100_empty_directory_in_header_refuted : exists o t, t = lines [lit "= T"; lit ":imagesdir: {empty}"; []; lit "image:a.png[]"] /\
  (exists c sb m st, blocks_of (parse_with E0 60 t) = Ok [BSimple c sb m st] /\ ct_rendered c = o) /\ occurs (attr (lit "src") (lit "/a.png")) o.
Proof. eexists. eexists. split; [reflexivity|]. split; [do 4 eexists; split; [vm_compute; reflexivity|reflexivity]|]. apply contains_spec. vm_compute. reflexivity. Qed.
(** Text after a dot in the alternative text is read as a role. *)
Theorem C100_roles_in_text_refuted : exists t o, t = lit "image:a.png[A. B. C]" /\ apply_macros ascii_only 47%N parser_default t = Ok o /\ occurs (attr (lit "class") (lit "image  B  C")) o.
Proof. eexists. eexists. split; [reflexivity|]. split; [vm_compute; reflexivity|]. apply contains_spec. vm_compute. reflexivity. Qed.

(** * C101: icons *)
(** How icons are shown: as text if the attribute [icons] has never been touched, from a font for the value font, else as images. *)
Theorem C101_modes : forall P, (mode_of P = IText <-> has_attribute P (lit "icons") = false) /\
  (mode_of P = IFont <-> has_attribute P (lit "icons") = true /\ attribute_value P (lit "icons") = VValue (lit "font")).
Proof.
  intros P. unfold mode_of. destruct (has_attribute P (lit "icons")).
  - destruct (attribute_value P (lit "icons")) as [v| |]; cbn [as_maybe_str]; [destruct (text_eqb v (lit "font")) eqn:E| |]; (split; [split; discriminate|]); (split; [intros K|intros (_ & K)]); try discriminate; try reflexivity.
    + apply text_eqb_eq in E. subst v. auto.
    + injection K as ->. rewrite text_eqb_refl in E. discriminate E.
  - split; [split; reflexivity|]. split; [discriminate|]. intros (K & _). discriminate K.
Qed.
(** An icon without attributes, in each mode. *)
Theorem C101_no_attributes : forall U P src isrc mode prev T rest x, picture_target T ->
  picture_out (reads U P) src isrc mode prev (picture_macro Icon T []) rest x <->
  exists alt, path_stem (separators_blank T) alt /\ x = lit "<span" ++ attr (lit "class") (lit "icon") ++ lit ">" ++
    match mode with
    | IText => lit "[" ++ alt ++ lit "&#93;"
    | IFont => lit "<i" ++ attr (lit "class") (lit "fa fa-" ++ T) ++ lit "></i>"
    | IImage => lit "<img" ++ attr (lit "src") (isrc T) ++ attr (lit "alt") (no_quotes alt) ++ lit ">"
    end ++ lit "</span>".
Proof.
  intros U P src isrc mode prev T rest x HT. rewrite picture_out_eq; [|left; exact HT|left; reflexivity].
  assert (Hn : T <> []) by (destruct HT as (c & m & z & -> & _); discriminate). unfold icon_markup. unfold reads. rewrite empty_attrlist. destruct mode; cbn.
  all: split; [intros (_ & alt & Ha & ->); exists alt; split; [exact Ha|]|intros (alt & Ha & ->); split; [exact Hn|]; exists alt; split; [exact Ha|]]; repeat (rewrite <- app_assoc; cbn); reflexivity.
Qed.
(** The image of an icon is in the directory of icons, with the type of icons as its extension. *)
Theorem C101_directory : forall U fs P d l T ty, plain_path d -> plain_path l -> as_maybe_str (attribute_value P (lit "iconsdir")) = Some (join (lit "/") d) ->
  (attribute_value P (lit "icontype") = VValue ty \/ as_maybe_str (attribute_value P (lit "icontype")) = None /\ ty = lit "png") -> join (lit "/") l = T ++ lit "." ++ ty ->
  icon_place U fs P T = join (lit "/") d ++ lit "/" ++ T ++ lit "." ++ ty.
Proof.
  intros U fs P d l T ty Hd Hl Hv Ht El. unfold icon_place, icon_uri. assert (Et : match as_maybe_str (attribute_value P (lit "icontype")) with Some t => t | None => lit "png" end = ty) by (destruct Ht as [->|(-> & ->)]; reflexivity).
  rewrite Et, <- El, (place_in_dir U fs P (Some (lit "iconsdir")) d l Hd Hl Hv). reflexivity.
Qed.

(** Refuted for icons. The type of icons is added to a target that has an extension. *)
Theorem C101_extension_refuted : exists P o, P = set_attribute (lit "icons") [] parser_default /\ apply_macros ascii_only 47%N P (lit "icon:tags.svg[]") = Ok o /\ occurs (lit "tags.svg.png") o.
Proof. eexists. eexists. split; [reflexivity|]. split; [vm_compute; reflexivity|]. apply contains_spec. vm_compute. reflexivity. Qed.
(** Text in the first position is not the alternative text. *)
Theorem C101_first_position_refuted : exists P o, P = set_attribute (lit "icons") [] parser_default /\ apply_macros ascii_only 47%N P (lit "icon:tags[Keywords,16]") = Ok o /\ ~ occurs (lit "Keywords") o.
Proof. eexists. eexists. split; [reflexivity|]. split; [vm_compute; reflexivity|]. intros K. apply contains_spec in K. vm_compute in K. discriminate K. Qed.
(** With a flip the rotation is lost. *)
Theorem C101_rotation_refuted : exists P o, P = set_attribute (lit "icons") (lit "font") parser_default /\ apply_macros ascii_only 47%N P (lit "icon:shield[rotate=90, flip=vertical]") = Ok o /\ ~ occurs (lit "rotate") o.
Proof. eexists. eexists. split; [reflexivity|]. split; [vm_compute; reflexivity|]. intros K. apply contains_spec in K. vm_compute in K. discriminate K. Qed.
(** The directory of images has no influence on where icons are. *)
Theorem C101_directory_of_images_refuted : exists P o, P = set_attribute (lit "imagesdir") (lit "pics") (set_attribute (lit "icons") [] parser_default) /\ apply_macros ascii_only 47%N P (lit "icon:tags[]") = Ok o /\ ~ occurs (lit "pics") o.
Proof. eexists. eexists. split; [reflexivity|]. split; [vm_compute; reflexivity|]. intros K. apply contains_spec in K. vm_compute in K. discriminate K. Qed.
(** Unsetting the attribute [icons] makes icons images instead of text. *)
Theorem C101_unset_refuted : exists o t, t = lines [lit "= T"; lit ":!icons:"; []; lit "icon:note[]"] /\
  (exists c sb m st, blocks_of (parse_with E0 60 t) = Ok [BSimple c sb m st] /\ ct_rendered c = o) /\ occurs (lit "<img") o.
Proof. eexists. eexists. split; [reflexivity|]. split; [do 4 eexists; split; [vm_compute; reflexivity|reflexivity]|]. apply contains_spec. vm_compute. reflexivity. Qed.

Example C100_example : apply_macros ascii_only 47%N (set_attribute (lit "imagesdir") (lit "pics") parser_default) (lit "An image:sun_set.v2.jpg[] and \image:b.png[x] and image:/c.png[Sunset,300,200,float=right,role=th,link=self,window=_blank].") =
  Ok (lit "An <span" ++ attr (lit "class") (lit "image") ++ lit "><img" ++ attr (lit "src") (lit "pics/sun_set.v2.jpg") ++ attr (lit "alt") (lit "sun set.v2") ++ lit "></span> and image:b.png[x] and <span" ++ attr (lit "class") (lit "image right th") ++
      lit "><a" ++ attr (lit "class") (lit "image") ++ attr (lit "href") (lit "/c.png") ++ attr (lit "target") (lit "_blank") ++ attr (lit "rel") (lit "noopener") ++ lit "><img" ++ attr (lit "src") (lit "/c.png") ++ attr (lit "alt") (lit "Sunset") ++
      attr (lit "width") (lit "300") ++ attr (lit "height") (lit "200") ++ lit "></a></span>.").
Proof. vm_compute. reflexivity. Qed.
Example C100_hypotheses : picture_target (lit "pics/sun set.jpg") /\ plain_path [lit "pics"; lit "a.png"] /\ scheme_text ascii_only (lit "https://") (lit "a.org/x y.png") /\ label any_char (lit "a \] b").
Proof.
  split; [exists 112%N, (lit "ics/sun set.jp"), 103%N; split; [reflexivity|]; split; [reflexivity|]; split; [cbn; intuition discriminate|]; split; [repeat constructor; discriminate|]; split; [reflexivity|discriminate]|].
  split; [split; [discriminate|]; repeat constructor; try discriminate; cbn; intuition discriminate|].
  split; [exists 104%N, (lit "ttps"), (lit "//"); split; [reflexivity|]; split; [reflexivity|]; split; [discriminate|]; split; [repeat constructor|left; reflexivity]|].
  right. split; [exists (lit "a \] "), 98%N; split; [reflexivity|]; split; [repeat constructor|discriminate]|]. exact escaped_bracket.
Qed.
Example C101_example : apply_macros ascii_only 47%N (set_attribute (lit "icons") (lit "font") parser_default) (lit "icon:heart[2x,role=red]") =
  Ok (lit "<span" ++ attr (lit "class") (lit "icon red") ++ lit "><i" ++ attr (lit "class") (lit "fa fa-heart fa-2x") ++ lit "></i></span>") /\
  apply_macros ascii_only 47%N parser_default (lit "icon:heart[]") = Ok (lit "<span" ++ attr (lit "class") (lit "icon") ++ lit ">[heart&#93;</span>") /\
  apply_macros ascii_only 47%N (set_attribute (lit "icons") [] (set_attribute (lit "iconsdir") (lit "my/icons") (set_attribute (lit "icontype") (lit "svg") parser_default))) (lit "icon:heart[title=x]") =
    Ok (lit "<span" ++ attr (lit "class") (lit "icon") ++ lit "><img" ++ attr (lit "src") (lit "my/icons/heart.svg") ++ attr (lit "alt") (lit "heart") ++ attr (lit "title") (lit "x") ++ lit "></span>").
Proof. vm_compute. auto. Qed.
Example C101_hypotheses : let P := set_attribute (lit "iconsdir") (lit "my/icons") parser_default in as_maybe_str (attribute_value P (lit "iconsdir")) = Some (join (lit "/") [lit "my"; lit "icons"]) /\ as_maybe_str (attribute_value P (lit "icontype")) = None /\ join (lit "/") [lit "heart.png"] = lit "heart" ++ lit "." ++ lit "png".
Proof. vm_compute. auto. Qed.
Print Assumptions C100_pictures.
Print Assumptions C100_whole_step.
Print Assumptions C100_no_result.
Print Assumptions C100_directory.
Print Assumptions C100_url.
Print Assumptions C101_no_attributes.
Print Assumptions C101_directory.
