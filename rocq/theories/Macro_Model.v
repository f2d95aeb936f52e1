(** Model of [parser/src/content/macros.rs]: inline images, icons, links, e-mail addresses and
    anchors, with the HTML renderer. *)
From Verif Require Import Text Span_Model Maps Parser_Model Regex Attrlist_Model Render_Model Quote_Model.

(** [( | .*?[^\\] )] where [dot] is the meaning of [.]. *)
Definition Bracketed (dot : char -> bool) : re := Seq (ManyL (Chr dot)) (Chr (c_not (c_is BSL))).
Definition replace_esc_bracket (t : text) : text := replace_str [BSL; 93%N] [93%N] t.

(** content/macros.rs:105-129 [INLINE_IMAGE_MACRO]. *)
Definition INLINE_IMAGE_MACRO : re :=
  Seqs [Opt (Lit1 BSL); Lit1 105%N; Alt (Lit (lit "mage")) (Lit (lit "con")); Lit1 58%N;
        Opt (Grp 1 (Seqs [Chr (fun c => negb (is_ws c || c_in (lit ":[") c));
                          ManyL (Chr (fun c => negb ((c =? LF)%N || (c =? 91)%N)));
                          Chr (fun c => negb (is_ws c || (c =? 91)%N))]));
        Lit1 91%N; Grp 2 (Alt Eps (Bracketed c_any)); Lit1 93%N].
(** content/macros.rs:197-203 [basename]: [Path::new(path).file_stem()] with the Unix separator.
    Empty and [.] components are skipped, [..] and the root have no file name; the stem ends before
    the last dot unless that is the first character. *)
Definition last_dot (name : text) : option text :=
  match drop_while_c (fun c => negb (c =? DOT)%N) (rev name) with
  | _ :: r => Some (rev r)
  | [] => None
  end.
Definition file_stem (path : text) : option text :=
  match rev (filter (fun s => negb (is_nil s || text_eqb s (lit "."))) (split_on 47%N path)) with
  | [] => None
  | name :: _ =>
      if text_eqb name (lit "..") then None
      else match last_dot name with Some ((_ :: _) as stem) => Some stem | _ => Some name end
  end.
Definition basename (path : text) : text := unwrap_or_default (file_stem path).
(** content/macros.rs:205-207 [normalize_text_lf_escaped_bracket]. *)
Definition normalize_text_lf_escaped_bracket (t : text) : text :=
  replace_esc_bracket (replace_char LF (lit " ") t).
(** content/macros.rs:148: [target.replace(['_', '-'], " ")]. *)
Definition blank_separators (t : text) : text :=
  map (fun c => if c_in (lit "_-") c then SP else c) t.
(** content/macros.rs:134-195 [InlineImageMacroReplacer::replace_append]. *)
Definition image_macro_replacer (U : unicode) (fs : char) (P : parser) (m : mtch) : res text :=
  if starts_with [BSL] (m_text m) then str_from 1 (m_text m)
  else
    target <- cap_idx m 1 ;;
    t2 <- cap_idx m 2 ;;
    a <- inline_attrlist U P t2 ;;
    let default_alt := basename (blank_separators target) in
    let alt_of o := match o with
                    | Some e => normalize_text_lf_escaped_bracket (ea_value e)
                    | None => default_alt end in
    if starts_with (lit "image:") (m_text m) then
      render_image U fs P
        (mkip target (alt_of (named_or_positional_attribute a (lit "alt") 1))
              (option_map ea_value (named_or_positional_attribute a (lit "width") 2))
              (option_map ea_value (named_or_positional_attribute a (lit "height") 3)) a)
    else render_icon U fs P (mkicp target (alt_of (named_attribute a (lit "alt"))) a).

(** content/macros.rs:209-226 [INLINE_LINK]. *)
Definition INLINE_LINK : re :=
  Seqs [Grp 1 (Alts [Assert ALineBegin; Lit (lit "link:"); Chr (c_in [SP; TAB]);
                     Seqs [Opt (Lit1 BSL); Lit (lit "&lt;"); Grp 2 Eps];
                     Chr (c_in (lit ">()[];'" ++ DQ))]);
        Grp 3 (Seqs [Opt (Lit1 BSL);
                     Alts [Seq (Lit (lit "http")) (Opt (Lit (lit "s"))); Lit (lit "file"); Lit (lit "ftp"); Lit (lit "irc")];
                     Lit (lit "://")]);
        Alts [Seqs [Grp 4 (Plus (Chr (fun c => negb (is_ws c || c_in (lit "[]") c))));
                    Lit1 91%N; Grp 5 (Alt Eps (Bracketed c_any)); Lit1 93%N];
              Seqs [Grp 6 (PlusL (Chr c_nonspace)); Lit (lit "&gt;")];
              Grp 7 (Seq (Many (Chr (fun c => negb (is_ws c || c_in (lit "[]<") c))))
                         (Grp 8 (Chr (fun c => negb (is_ws c || c_in (lit ",.?![]<)") c)))))]].
(** content/macros.rs:762-765 [URI_SNIFF]. *)
Definition MACRO_URI_SNIFF (U : unicode) : re := RENDER_URI_SNIFF U.
(** [URI_SNIFF.replace_all(&target, "").into_owned()]. *)
Definition strip_scheme (U : unicode) (t : text) : res text :=
  replace_all_pure U (MACRO_URI_SNIFF U) (fun _ => Ok []) t.
(** [if hide-uri-scheme is set { URI_SNIFF.replace_all(..) } else { target }]. *)
Definition shown_target (U : unicode) (P : parser) (target : text) : res text :=
  if is_attribute_set P (lit "hide-uri-scheme") then strip_scheme U target else Ok target.
(** content/macros.rs:561-585 [extract_attributes_from_text] with [default_text = None]. *)
Definition extract_attributes_from_text (U : unicode) (P : parser) (t : text) : res (text * attrlist) :=
  a <- inline_attrlist U P t ;;
  Ok (match nth_attribute a 1 with Some e => ea_value e | None => [] end, a).
(** [s.truncate(s.len() - 1)]; panics on a character boundary violation. *)
Definition chop (t : text) : res text := str_to (blen t - 1) t.
(** [if link_text.ends_with('^') { link_text.truncate(..); window = Some("_blank") }]. *)
Definition caret (t : text) : res (text * option text) :=
  if ends_with (lit "^") t then (t' <- chop t ;; Ok (t', Some (lit "_blank"))) else Ok (t, None).
(** content/macros.rs:237-283: a URL after [&lt;]. *)
Definition link_angle (U : unicode) (P : parser) (empty : attrlist) (m : mtch) : res text :=
  c1 <- cap_idx m 1 ;;
  if starts_with [BSL] c1 then str_from 1 (m_text m)
  else
    c3 <- cap_idx m 3 ;;
    if starts_with [BSL] c3 then (s <- str_from (blen c1 + 1) (m_text m) ;; Ok (c1 ++ s))
    else match cap m 6 with
         | None => Ok (m_text m)
         | Some suffix =>
             let target := c3 ++ suffix in
             link_text <- shown_target U P target ;;
             render_link (mklp target link_text [lit "bare"] None empty)
         end.
(** content/macros.rs:325-336: trailing punctuation of a bare link: [(target, suffix)]. *)
Definition link_tail (tail target : text) : res (text * text) :=
  if text_eqb tail (lit ";") || text_eqb tail (lit ":") then
    target <- chop target ;;
    if ends_with (lit ")") target then (t <- chop target ;; Ok (t, lit ")" ++ tail))
    else Ok (target, tail)
  else Ok (target, []).
(** content/macros.rs:341-381: the text, the window, the attributes and whether it is bare. *)
Definition link_body (U : unicode) (P : parser) (empty : attrlist) (target : text) (link_text : option text)
  : res (text * option text * attrlist * bool) :=
  match link_text with
  | Some raw =>
      let link_text := replace_esc_bracket raw in
      ta <- (if has_char 61%N link_text then
               r <- extract_attributes_from_text U P raw ;;
               Ok (replace_str [BSL; DQUOTE] [DQUOTE] (fst r), snd r)
             else Ok (link_text, empty)) ;;
      tw <- caret (fst ta) ;;
      match fst tw with
      | [] => t <- shown_target U P target ;; Ok (t, snd tw, snd ta, true)
      | _ => Ok (fst tw, snd tw, snd ta, false)
      end
  | None => t <- shown_target U P target ;; Ok (t, None, empty, true)
  end.
(** content/macros.rs:231-404 [InlineLinkReplacer::replace_append]. *)
Definition link_replacer (U : unicode) (P : parser) (m : mtch) : res text :=
  empty <- inline_attrlist U P [] ;;
  if match cap m 2, cap m 5 with Some _, None => true | _, _ => false end then link_angle U P empty m
  else
    prefix <- cap_idx m 1 ;;
    scheme <- cap_idx m 3 ;;
    if starts_with [BSL] scheme then (s <- str_from (blen prefix + 1) (m_text m) ;; Ok (prefix ++ s))
    else
      t <- match cap m 4 with Some t => Ok t | None => cap_idx m 7 end ;;
      let target := scheme ++ t in
      match cap m 5 with
      | Some attrs =>
          let prefix := if text_eqb prefix (lit "link:") then [] else prefix in
          b <- link_body U P empty target (if is_nil attrs then None else Some attrs) ;;
          let '(link_text, window, a, bare) := b in
          l <- render_link (mklp target link_text (if bare : bool then [lit "bare"] else []) window a) ;;
          Ok (prefix ++ l)
      | None =>
          if text_eqb prefix (lit "link") || text_eqb prefix DQ || text_eqb prefix (lit "'") then Ok (m_text m)
          else
            tail <- cap_idx m 8 ;;
            ts <- link_tail tail target ;;
            b <- link_body U P empty (fst ts) None ;;
            let '(link_text, window, a, bare) := b in
            l <- render_link (mklp (fst ts) link_text (if bare : bool then [lit "bare"] else []) window a) ;;
            Ok (prefix ++ l ++ snd ts)
      end.

(** content/macros.rs:406-436 [INLINE_LINK_MACRO]. *)
Definition INLINE_LINK_MACRO : re :=
  Seqs [Opt (Lit1 BSL); Alt (Lit (lit "link")) (Grp 1 (Lit (lit "mailto"))); Lit1 58%N;
        Alt (Seq (Grp 2 Eps) (Chr c_any))
            (Grp 3 (Seq (Chr (fun c => negb (is_ws c || c_in (lit ":[") c)))
                        (Many (Chr (fun c => negb (is_ws c || c_in (lit "[") c))))));
        Lit1 91%N; Alt (Grp 4 Eps) (Grp 5 (Bracketed c_any)); Lit1 93%N].

(** The UTF-8 encoding of a character, as bytes. *)
Definition utf8 (c : char) : list N :=
  if (c <? 128)%N then [c]
  else if (c <? 2048)%N then [192 + c / 64; 128 + c mod 64]%N
  else if (c <? 65536)%N then [224 + c / 4096; 128 + (c / 64) mod 64; 128 + c mod 64]%N
  else [240 + c / 262144; 128 + (c / 4096) mod 64; 128 + (c / 64) mod 64; 128 + c mod 64]%N.
(** content/macros.rs:590-618 [CGI_ESCAPE_SET]: the ASCII bytes that are escaped
    ([percent_encoding::CONTROLS] are 0 to 31 and 127). *)
Definition cgi_escaped (c : char) : bool :=
  (c <? 32)%N || (c =? 127)%N || c_in (lit " !#$%&'()+,/:;<=>?@[]^`{|}" ++ DQ ++ [BSL]) c.
Definition hex_digit (n : N) : char := if (n <? 10)%N then (48 + n)%N else (55 + n)%N.
Definition percent_byte (b : N) : text := [PERCENT; hex_digit (b / 16)%N; hex_digit (b mod 16)%N].
(** [utf8_percent_encode]. *)
Definition percent_encode (t : text) : text :=
  flat_map (fun c => if (c <? 128)%N && negb (cgi_escaped c) then [c] else flat_map percent_byte (utf8 c)) t.
(** content/macros.rs:620-630 [encode_uri_component]. *)
Definition encode_uri_component (t : text) : text :=
  replace_char 43%N (lit "%20") (replace_str (lit "%20") (lit "+") (percent_encode t)).

(** content/macros.rs:472-509: text, target, window and attributes of the macro. *)
Definition link_macro_text (U : unicode) (P : parser) (mailto : bool) (target link_text : text)
  : res (text * text * option text * option attrlist) :=
  if is_nil link_text then Ok (link_text, target, None, None)
  else
    let for_attrlist := replace_char LF (lit " ") link_text in
    let unescaped := replace_esc_bracket link_text in
    r <- (if mailto then
            if has_char COMMA unescaped then
              ta <- extract_attributes_from_text U P for_attrlist ;;
              let target :=
                match nth_attribute (snd ta) 2 with
                | Some s =>
                    let target := target ++ lit "?subject=" ++ encode_uri_component (ea_value s) in
                    match nth_attribute (snd ta) 3 with
                    | Some b => target ++ lit "&amp;body=" ++ encode_uri_component (ea_value b)
                    | None => target
                    end
                | None => target
                end in
              Ok (fst ta, target, Some (snd ta))
            else Ok (unescaped, target, None)
          else if has_char 61%N unescaped then
            ta <- extract_attributes_from_text U P for_attrlist ;; Ok (fst ta, target, Some (snd ta))
          else Ok (unescaped, target, None)) ;;
    let '(link_text, target, attrs) := r in
    tw <- caret link_text ;;
    Ok (fst tw, target, snd tw, attrs).
(** content/macros.rs:441-552 [InlineLinkMacroReplacer::replace_append]. *)
Definition link_macro_replacer (U : unicode) (P : parser) (m : mtch) : res text :=
  if starts_with [BSL] (m_text m) then str_from 1 (m_text m)
  else
    c3 <- cap_idx m 3 ;;
    let mailto := match cap m 1 with Some _ => true | None => false end in
    let target := if mailto then lit "mailto:" ++ c3 else c3 in
    r <- link_macro_text U P mailto target (unwrap_or_default (cap m 5)) ;;
    let '(link_text, target, window, attrs) := r in
    a <- match attrs with Some a => Ok a | None => inline_attrlist U P [] end ;;
    tx <- (if is_nil link_text then
             if mailto then Ok (c3, [])
             else
               lt <- shown_target U P target ;;
               Ok (if is_nil lt then target else lt, [lit "bare"])
           else Ok (link_text, [])) ;;
    render_link (mklp target (fst tx) (snd tx) window a).

(** Regex class [\p{L}]. *)
Definition is_letter (U : unicode) (c : char) : bool :=
  if (c <? 128)%N then is_ascii_alpha c else u_letter U c.
(** content/macros.rs:636-656 [INLINE_EMAIL]; [\w_] is [\w]. *)
Definition INLINE_EMAIL (U : unicode) : re :=
  Seqs [Grp 1 (Opt (Chr (c_in (lit ">:/" ++ [BSL]))));
        Grp 2 (Seqs [Chr (fun c => is_word U c || (c =? 95)%N);
                     Many (Alt (Lit (lit "&amp;")) (Chr (fun c => is_word U c || c_in (lit "-.%+") c)));
                     Lit1 64%N;
                     Chr (fun c => is_letter U c || c_digit U c);
                     Many (Chr (fun c => is_letter U c || c_digit U c || c_in (lit "_-.") c));
                     Lit1 46%N;
                     Chr is_ascii_alpha; Chr is_ascii_alpha; Upto 3 (Chr is_ascii_alpha)]);
        Assert AWordBoundary].
(** content/macros.rs:661-692 [InlineEmailReplacer::replace_append]. *)
Definition email_replacer (U : unicode) (P : parser) (m : mtch) : res text :=
  match cap m 1 with
  | Some ((_ :: _) as escape) =>
      if text_eqb escape [BSL] then str_from 1 (m_text m) else Ok (m_text m)
  | _ =>
      c2 <- cap_idx m 2 ;;
      a <- inline_attrlist U P [] ;;
      render_link (mklp (lit "mailto:" ++ c2) c2 [] None a)
  end.

(** content/macros.rs:702-733 [INLINE_ANCHOR]. *)
Definition c_id_first (U : unicode) : char -> bool := fun c => is_alpha U c || c_in (lit "_:") c.
Definition c_id_rest (U : unicode) : char -> bool :=
  fun c => is_alpha U c || c_digit U c || c_in (lit "_-:.") c.
Definition Id_re (U : unicode) : re := Seq (Chr (c_id_first U)) (Many (Chr (c_id_rest U))).
Definition INLINE_ANCHOR (U : unicode) : re :=
  Seq (Opt (Grp 1 (Lit1 BSL)))
      (Alt (Seqs [Lit (lit "[["); Grp 2 (Id_re U);
                  Opt (Seqs [Lit1 COMMA; Many (Chr is_ws); Grp 3 (PlusL (Chr c_dot))]); Lit (lit "]]")])
           (Seqs [Lit (lit "anchor:"); Grp 4 (Id_re U); Lit1 91%N;
                  Alt (Lit1 93%N) (Seq (Grp 5 (Bracketed c_dot)) (Lit1 93%N))])).
(** content/macros.rs:738-760 [InlineAnchorReplacer::replace_append]; the reference text is not
    used by the HTML renderer. *)
Definition anchor_replacer (m : mtch) : res text :=
  match cap m 1 with
  | Some _ => str_from 1 (m_text m)
  | None =>
      id <- match cap m 2 with Some id => Ok id | None => cap_idx m 4 end ;;
      Ok (render_anchor id)
  end.

(** content/macros.rs:13-103 [apply_macros]. *)
Definition apply_macros (U : unicode) (fs : char) (P : parser) (t : text) : res text :=
  let found_square_bracket := has_char 91%N t in
  let found_colon := has_char 58%N t in
  let found_macroish := found_square_bracket && found_colon in
  t1 <- (if found_macroish && (contains (lit "image:") t || contains (lit "icon:") t)
         then replace_all_pure U INLINE_IMAGE_MACRO (image_macro_replacer U fs P) t else Ok t) ;;
  t2 <- (if found_colon && contains (lit "://") t
         then replace_all_pure U INLINE_LINK (link_replacer U P) t1 else Ok t1) ;;
  t3 <- (if found_macroish && (contains (lit "link:") t || contains (lit "ilto:") t)
         then replace_all_pure U INLINE_LINK_MACRO (link_macro_replacer U P) t2 else Ok t2) ;;
  t4 <- (if has_char 64%N t
         then replace_all_pure U (INLINE_EMAIL U) (email_replacer U P) t3 else Ok t3) ;;
  if (found_square_bracket && contains (lit "[[") t) || (found_macroish && contains (lit "or:") t)
  then replace_all_pure U (INLINE_ANCHOR U) anchor_replacer t4 else Ok t4.
