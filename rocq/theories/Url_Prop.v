(** C99: URLs in text. *)
From Verif Require Import Text TextFacts Span_Proof Span_Model Span_Laws Maps Parser_Model Regex Regex_Proof Regex_Scan Regex_Lang Subs_Proof Attrlist_Model Attrlist_Proof Attrlist_Laws Render_Proof Render_Model Quote_Model
  Subs_Chars Macro_Model Macro_Spec Macro_Proof Auto_Spec Auto_Proof Inline_Spec Inline_Proof Inline_Prop Url_Proof.

(** The URL step finds the URLs of the specification and no others, and writes what the specification says for each; it
    has no result where a URL that does not begin with an angle bracket is followed by a closing one. *)
Theorem C99_urls : forall U P t o, replace_all_pure U INLINE_LINK (link_replacer U P) t = Ok o <->
  replaced url_at (url_out U (reads U P) (hides P)) None t o.
Proof. intros U P t o. apply urls_rewritten. Qed.
(** It is all the inline macros do to a text without the marks of the others. *)
Theorem C99_whole_step : forall U fs P t o, ~ occurs (lit "image:") t -> ~ occurs (lit "icon:") t -> ~ occurs (lit "link:") t -> ~ occurs (lit "ilto:") t -> ~ In 64%N t -> ~ occurs (lit "[[") t -> ~ occurs (lit "or:") t ->
  apply_macros U fs P t = Ok o <-> replaced url_at (url_out U (reads U P) (hides P)) None t o.
Proof.
  intros U fs P t o H1 H2 H3 H3' H4 H5 H6. unfold apply_macros.
  assert (N : forall p, ~ occurs p t -> contains p t = false). { intros p H. destruct (contains p t) eqn:E; [|reflexivity]. apply contains_spec in E. destruct (H E). }
  rewrite (N _ H1), (N _ H2), (N _ H3), (N _ H3'), (N _ H5), (N _ H6), (proj2 (has_char_false 64%N t) H4). rewrite !andb_false_r. cbn [orb bind].
  destruct (has_char 58%N t && contains (lit "://") t) eqn:E; cbn [bind].
  { rewrite <- C99_urls. destruct (replace_all_pure U INLINE_LINK (link_replacer U P) t); cbn [bind]; reflexivity. }
  assert (H : replaced url_at (url_out U (reads U P) (hides P)) None t t).
  { apply replaced_id. intros prev a w rest Et (p & e & s & f & _ & _ & Hs & b & -> & _). enough (K : contains (lit "://") t = true /\ has_char 58%N t = true).
    { destruct K as (K1 & K2). rewrite K1, K2 in E. discriminate E. }
    assert (Ks : exists x, s = x ++ lit "://") by (destruct Hs as [<-|[<-|[<-|[<-|[<-|[]]]]]]; [exists (lit "http")|exists (lit "https")|exists (lit "file")|exists (lit "ftp")|exists (lit "irc")]; reflexivity).
    destruct Ks as (x & ->). split; [apply contains_spec; exists (a ++ p ++ e ++ x), (b ++ rest); rewrite Et, <- !app_assoc; reflexivity|]. apply has_char_spec. rewrite Et, !in_app_iff. cbn. tauto. }
  split; [intros K; apply Ok_inj in K; subst o; exact H|]. intros K. apply C99_urls in H, K. rewrite H in K. exact K.
Qed.

Lemma plain_link : forall U P target txt roles, link_element target txt roles None (reads U P []) = lit "<a" ++ attr (lit "href") target ++ class_attr roles ++ lit ">" ++ txt ++ lit "</a>".
Proof. intros U P target txt roles. unfold reads. rewrite empty_attrlist. unfold link_element. cbn. rewrite !app_nil_r. reflexivity. Qed.
(** A URL that is not after an angle bracket or a quote mark becomes a link to itself, up to its last semicolon or colon;
    what stands before it stays. *)
Theorem C99_autolinks : forall U P prev p s T w rest x, url prev w rest p [] s (FBare T) -> ~ is_angle p -> ~ quote_mark p -> (forall y c, T = y ++ [c] -> ~ In c (lit ";:")) -> hides P = false ->
  url_out U (reads U P) (hides P) prev w rest x <-> x = p ++ lit "<a" ++ attr (lit "href") (s ++ T) ++ attr (lit "class") (lit "bare") ++ lit ">" ++ s ++ T ++ lit "</a>".
Proof.
  intros U P prev p s T w rest x Hu Na Nq Nt Hh. assert (Hb : T <> []) by (destruct Hu as (_ & _ & _ & b & _ & _ & (y & z & -> & _) & _); intros K; symmetry in K; exact (app_cons_not_nil _ _ _ K)).
  assert (Hl : forall l, bare_link U (reads U P) (hides P) (s ++ T) l <-> l = lit "<a" ++ attr (lit "href") (s ++ T) ++ attr (lit "class") (lit "bare") ++ lit ">" ++ s ++ T ++ lit "</a>").
  { intros l. unfold bare_link, shown. rewrite Hh. split; [intros (t & -> & ->)|intros ->; exists (s ++ T); split; [reflexivity|]]; rewrite plain_link, <- ?app_assoc; reflexivity. }
  assert (Hend : forall y c, s ++ T = y ++ [c] -> ~ In c (lit ";:")).
  { intros y c E. destruct (exists_last Hb) as (y' & c' & ->). rewrite app_assoc in E. apply app_inj_tail in E. destruct E as (_ & <-). exact (Nt _ _ eq_refl). }
  split.
  - intros (p' & e' & s' & f' & Hu' & K). destruct (url_det _ _ _ _ _ _ _ _ _ _ _ _ _ Hu Hu' eq_refl) as (_ & <- & <- & <- & <-). destruct K as [(K & _)|[(_ & K & _)|[(_ & [K|K] & _)|(_ & _ & _ & tg & tl & l & Ht & Kl & ->)]]].
    1: destruct Na; right; exact K. 1: discriminate K. 1: destruct Na; left; exact K. 1: destruct (Nq K).
    destruct Ht as [(c & Hc & [(E & _)|(E & _)])|(-> & -> & _)].
    + exfalso. apply (Hend (tg ++ [41%N]) c); [rewrite E, <- app_assoc; reflexivity|exact Hc].
    + exfalso. exact (Hend _ _ E Hc).
    + apply Hl in Kl. rewrite Kl, app_nil_r. reflexivity.
  - intros ->. exists p, [], s, (FBare T). split; [exact Hu|]. right. right. right. split; [reflexivity|]. split; [exact Na|]. split; [exact Nq|]. eexists (s ++ T), [], _. split; [right; auto|]. split; [apply Hl; reflexivity|]. rewrite app_nil_r. reflexivity.
Qed.
(** Between angle brackets it becomes a link and the brackets go away. *)
Theorem C99_in_angle_brackets : forall U P prev s T w rest x, url prev w rest angle [] s (FAngle T) -> hides P = false ->
  url_out U (reads U P) (hides P) prev w rest x <-> x = lit "<a" ++ attr (lit "href") (s ++ T) ++ attr (lit "class") (lit "bare") ++ lit ">" ++ s ++ T ++ lit "</a>".
Proof.
  intros U P prev s T w rest x Hu Hh. split.
  - intros (p' & e' & s' & f' & Hu' & K). destruct (url_det _ _ _ _ _ _ _ _ _ _ _ _ _ Hu Hu' eq_refl) as (_ & <- & <- & <- & <-). destruct K as [(K & _)|[(_ & K & _)|(_ & _ & t & Ht & ->)]]; [discriminate K|discriminate K|]. unfold shown in Ht. rewrite Hh in Ht. subst t. rewrite plain_link, <- ?app_assoc. reflexivity.
  - intros ->. exists angle, [], s, (FAngle T). split; [exact Hu|]. right. right. split; [reflexivity|]. split; [reflexivity|]. exists (s ++ T). unfold shown. rewrite Hh. split; [reflexivity|]. rewrite plain_link, <- ?app_assoc. reflexivity.
Qed.
(** With a text in brackets, the link has that text; [link:] before it goes away and anything else stays. *)
Theorem C99_with_text : forall U P prev p s T L w rest x, url prev w rest p [] s (FText T L) -> L <> [] -> ~ In 61%N L -> (forall y, unescape 93%N L <> y ++ lit "^") ->
  url_out U (reads U P) (hides P) prev w rest x <->
  x = (if text_eqb p (lit "link:") then [] else p) ++ lit "<a" ++ attr (lit "href") (s ++ T) ++ lit ">" ++ unescape 93%N L ++ lit "</a>".
Proof.
  intros U P prev p s T L w rest x Hu Hn He Hc.
  assert (Hne : unescape 93%N L <> []). { intros E. destruct L as [|c L]; [contradiction|]. cbn [unescape] in E. destruct ((c =? BSL)%N && match L with d :: _ => (d =? 93)%N | [] => false end) eqn:Eb; [|discriminate E].
    destruct L as [|d L]; [rewrite andb_false_r in Eb; discriminate Eb|]. apply andb_true_iff in Eb. destruct Eb as (_ & Ed). apply N.eqb_eq in Ed. subst d. discriminate E. }
  assert (Hl : forall l, text_link U (reads U P) (hides P) (s ++ T) L l <-> l = lit "<a" ++ attr (lit "href") (s ++ T) ++ lit ">" ++ unescape 93%N L ++ lit "</a>").
  { intros l. split.
    - intros (a & raw & txt & win & [(K & _)|(_ & -> & ->)] & [(K2 & _)|(<- & -> & _)] & Hx); [contradiction|contradiction|destruct (Hc _ K2)|]. destruct (unescape 93%N L) eqn:E; [contradiction|]. rewrite <- E in *. rewrite Hx, plain_link. reflexivity.
    - intros ->. exists (reads U P []), (unescape 93%N L), (unescape 93%N L), None. split; [right; auto|]. split; [right; auto|]. destruct (unescape 93%N L) eqn:E; [contradiction|]. rewrite <- E in *. rewrite plain_link. reflexivity. }
  split.
  - intros (p' & e' & s' & f' & Hu' & K). destruct (url_det _ _ _ _ _ _ _ _ _ _ _ _ _ Hu Hu' eq_refl) as (_ & <- & <- & <- & <-). destruct K as [(K & _)|(_ & l & Kl & K)]; [discriminate K|]. apply Hl in Kl. subst l. destruct K as [(-> & ->)|(N & ->)]; [reflexivity|]. destruct (text_eqb p (lit "link:")) eqn:E; [apply text_eqb_eq in E; contradiction|reflexivity].
  - intros ->. exists p, [], s, (FText T L). split; [exact Hu|]. right. split; [reflexivity|]. eexists. split; [apply Hl; reflexivity|]. destruct (text_eqb p (lit "link:")) eqn:E; [apply text_eqb_eq in E; left; auto|]. right. split; [|reflexivity]. intros ->. rewrite text_eqb_refl in E. discriminate E.
Qed.
(** A backslash before the scheme goes away and prevents the link, in every form. *)
Theorem C99_escaped : forall U P prev p s f w rest, url prev w rest p [BSL] s f -> p <> BSL :: angle -> exists b, w = p ++ [BSL] ++ s ++ b /\ forall x, url_out U (reads U P) (hides P) prev w rest x <-> x = p ++ s ++ b.
Proof.
  intros U P prev p s f w rest Hu Np. pose proof Hu as (_ & _ & _ & b & Ew & Hf). exists b. split; [exact Ew|]. intros x. split.
  - intros (p' & e' & s' & f' & Hu' & K). destruct (url_det _ _ _ _ _ _ _ _ _ _ _ _ _ Hu Hu' eq_refl) as (_ & <- & <- & <- & <-). destruct f as [T L|T|T].
    + destruct Hf as (-> & _). destruct K as [(_ & _ & ->)|(K & _)]; [reflexivity|discriminate K].
    + destruct Hf as ((-> & _) & _). destruct K as [(K & _)|[(_ & _ & ->)|(_ & K & _)]]; [contradiction|reflexivity|discriminate K].
    + destruct Hf as (-> & _). destruct K as [(K & _)|[(_ & _ & ->)|[(K & _)|(K & _)]]]; [contradiction|reflexivity|discriminate K|discriminate K].
  - intros ->. exists p, [BSL], s, f. split; [exact Hu|]. destruct f as [T L|T|T].
    + destruct Hf as (-> & _). left. auto.
    + destruct Hf as ((-> & _) & _). right. left. auto.
    + destruct Hf as (-> & _). right. left. auto.
Qed.
(** After a quote mark a URL without brackets is left alone. *)
Theorem C99_quoted : forall U P prev p s T w rest x, url prev w rest p [] s (FBare T) -> quote_mark p -> url_out U (reads U P) (hides P) prev w rest x <-> x = w.
Proof.
  intros U P prev p s T w rest x Hu Hq. split.
  - intros (p' & e' & s' & f' & Hu' & K). destruct (url_det _ _ _ _ _ _ _ _ _ _ _ _ _ Hu Hu' eq_refl) as (_ & <- & <- & <- & <-). destruct K as [(K & _)|[(_ & K & _)|[(_ & _ & ->)|(_ & _ & K & _)]]]; [|discriminate K|reflexivity|contradiction]. subst p. destruct Hq as [K|K]; discriminate K.
  - intros ->. exists p, [], s, (FBare T). split; [exact Hu|]. right. right. left. auto.
Qed.
(** Exactly where the step has no result: a URL that is not escaped, does not begin with an angle bracket and reaches up
    to a closing one. The code indexes a group that did not match there and panics. *)
Theorem C99_no_result : forall U P prev p e s f w rest, url prev w rest p e s f -> (forall x, ~ url_out U (reads U P) (hides P) prev w rest x) <-> (~ is_angle p /\ e = [] /\ exists T, f = FAngle T).
Proof.
  intros U P prev p e s f w rest Hu. split.
  - intros Hx. pose proof (url_some U _ _ _ _ _ _ _ Hu) as K. destruct (match_here U INLINE_LINK prev (w ++ rest)) as [m|] eqn:Em; [|contradiction]. pose proof Hu as (Hp & He & Hs & b & Ew & Hf).
    assert (Hno : forall x, ~ url_result U (reads U P) (hides P) w p e s f x) by (intros x Kx; apply (Hx x); exists p, e, s, f; auto).
    assert (Ha : {is_angle p} + {~ is_angle p}). { destruct (text_eqb p angle || text_eqb p (BSL :: angle)) eqn:E; [left; apply is_angle_dec, E|right; intros Ka; apply is_angle_dec in Ka; congruence]. }
    destruct (inline_attrlist_ok U P []) as (em & Ee & W). destruct f as [T L|T|T].
    + exfalso. destruct Hf as (-> & _). destruct He as [->| ->].
      * destruct (text_link_spec U P em (s ++ T) L Ee W) as (l & _ & Hl). apply (Hno ((if text_eqb p (lit "link:") then [] else p) ++ l)). right. split; [reflexivity|]. exists l. split; [apply Hl; reflexivity|]. destruct (text_eqb p (lit "link:")) eqn:E; [apply text_eqb_eq in E; left; auto|]. right. split; [|reflexivity]. intros ->. rewrite text_eqb_refl in E. discriminate E.
      * apply (Hno (p ++ s ++ T ++ lit "[" ++ L ++ lit "]")). left. auto.
    + destruct Hf as ((-> & _) & _). destruct Ha as [[->| ->]|Na].
      * exfalso. destruct He as [->| ->].
        -- destruct (bare_link_spec U P em (s ++ T) Ee W) as (l & _ & Hl). apply (Hno l). right. right. split; [reflexivity|]. split; [reflexivity|]. apply Hl. reflexivity.
        -- apply (Hno (angle ++ s ++ T ++ lit "&gt;")). right. left. split; [discriminate|]. auto.
      * exfalso. apply (Hno (angle ++ e ++ s ++ T ++ lit "&gt;")). left. auto.
      * split; [exact Na|]. split; [|exists T; reflexivity]. destruct He as [->| ->]; [reflexivity|]. exfalso. apply (Hno (p ++ s ++ T ++ lit "&gt;")). right. left. split; [intros ->; apply Na; right; reflexivity|]. auto.
    + exfalso. destruct Hf as (-> & Hb & _). destruct Ha as [[->| ->]|Na].
      * destruct He as [->| ->]; [apply (Hno w); right; right; left; auto|]. apply (Hno (angle ++ s ++ T)). right. left. split; [discriminate|]. auto.
      * apply (Hno (angle ++ e ++ s ++ T)). left. auto.
      * destruct He as [->| ->]; [|apply (Hno (p ++ s ++ T)); right; left; split; [intros ->; apply Na; right; reflexivity|]; auto].
        assert (Hq : quote_mark p \/ ~ quote_mark p). { unfold quote_mark. destruct (text_eqb p [34%N]) eqn:E1; [left; left; apply text_eqb_eq, E1|]. destruct (text_eqb p (lit "'")) eqn:E2; [left; right; apply text_eqb_eq, E2|]. right. intros [->| ->]; [discriminate E1|discriminate E2]. }
        destruct Hq as [Hq|Nq]; [apply (Hno w); right; right; left; auto|]. destruct (bare_last T Hb) as (y & z & -> & _). destruct (tail_spec (s ++ y) z) as (tg & tl & _ & Ht). destruct (bare_link_spec U P em tg Ee W) as (l & _ & Hl).
        apply (Hno (p ++ l ++ tl)). right. right. right. split; [reflexivity|]. split; [exact Na|]. split; [exact Nq|]. exists tg, tl, l. split; [rewrite app_assoc; apply Ht; auto|]. split; [apply Hl; reflexivity|reflexivity].
  - intros (Na & -> & T & ->) x (p' & e' & s' & f' & Hu' & K). destruct (url_det _ _ _ _ _ _ _ _ _ _ _ _ _ Hu Hu' eq_refl) as (_ & <- & <- & <- & <-). destruct K as [(K & _)|[(_ & K & _)|(K & _)]]; [apply Na; right; exact K|discriminate K|apply Na; left; exact K].
Qed.

(** Of the documented schemes, mailto is not found. *)
Theorem C99_mailto_refuted : exists t, t = lit "Write to mailto:us" /\ apply_macros ascii_only 47%N parser_default t = Ok t.
Proof. eexists. split; [reflexivity|]. vm_compute. reflexivity. Qed.
(** Text with an equals sign after something that is not an attribute name is lost. *)
Theorem C99_equation_refuted : exists t o, t = lit "https://a.org[1=2 posits the problem]" /\ apply_macros ascii_only 47%N parser_default t = Ok o /\ o = lit "<a" ++ attr (lit "href") (lit "https://a.org") ++ attr (lit "class") (lit "bare") ++ lit ">https://a.org</a>".
Proof. eexists. eexists. split; [reflexivity|]. split; vm_compute; reflexivity. Qed.
(** The code means to leave [link:] before a URL without brackets alone (macros.rs:308-318), but links the URL and keeps the prefix. *)
Theorem C99_link_prefix_refuted : exists t o, t = lit "link:https://a.org x" /\ apply_macros ascii_only 47%N parser_default t = Ok o /\ o = lit "link:<a" ++ attr (lit "href") (lit "https://a.org") ++ attr (lit "class") (lit "bare") ++ lit ">https://a.org</a> x".
Proof. eexists. eexists. split; [reflexivity|]. split; vm_compute; reflexivity. Qed.
(** A URL whose last character is written as a character reference is cut inside the reference. *)
Theorem C99_cut_reference_refuted : exists t o, t = lit "see https://a.org/?q=&amp; here" /\ apply_macros ascii_only 47%N parser_default t = Ok o /\ o = lit "see <a" ++ attr (lit "href") (lit "https://a.org/?q=&amp") ++ attr (lit "class") (lit "bare") ++ lit ">https://a.org/?q=&amp</a>; here".
Proof. eexists. eexists. split; [reflexivity|]. split; vm_compute; reflexivity. Qed.

Example C99_example : exists o, apply_macros ascii_only 47%N parser_default (lit "See https://a.org. (http://b.org/x): &lt;ftp://c.org&gt; irc://d[the \] d^] '" ++ lit "https://e.org' but \https://f.org") = Ok o /\
  o = lit "See <a" ++ attr (lit "href") (lit "https://a.org") ++ attr (lit "class") (lit "bare") ++ lit ">https://a.org</a>. (<a" ++ attr (lit "href") (lit "http://b.org/x") ++ attr (lit "class") (lit "bare") ++ lit ">http://b.org/x</a>): <a" ++
      attr (lit "href") (lit "ftp://c.org") ++ attr (lit "class") (lit "bare") ++ lit ">ftp://c.org</a> <a" ++ attr (lit "href") (lit "irc://d") ++ attr (lit "target") (lit "_blank") ++ attr (lit "rel") (lit "noopener") ++ lit ">the ] d</a> 'https://e.org' but https://f.org".
Proof. eexists. split; vm_compute; reflexivity. Qed.
Example C99_hypotheses : url (Some 65%N) (lit " irc://d[a \] b]") (lit " x") (lit " ") [] (lit "irc://") (FText (lit "d") (lit "a \] b")) /\ hides parser_default = false.
Proof.
  split; [|reflexivity]. split; [right; right; right; right; exists SP; split; [reflexivity|]; cbn; tauto|]. split; [left; reflexivity|]. split; [cbn; tauto|]. exists (lit "d[a \] b]"). split; [reflexivity|]. split; [reflexivity|]. split; [discriminate|]. split; [repeat constructor; cbn; intuition discriminate|].
  right. split; [exists (lit "a \] "), 98%N; split; [reflexivity|]; split; [repeat constructor|discriminate]|]. exact escaped_bracket.
Qed.

Print Assumptions C99_urls.
Print Assumptions C99_whole_step.
Print Assumptions C99_no_result.
