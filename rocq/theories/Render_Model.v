(** Model of the HTML renderer of [parser/src/parser/inline_substitution_renderer.rs]: quoted text,
    images, icons, links and anchors.  Each function gives the text that Rust appends to [dest].
    [fs] is the field [path_resolver.file_separator] of the parser. *)
From Verif Require Import Text Maps Span_Model Parser_Model Regex Path_Model Attrlist_Model.

(** parser/inline_substitution_renderer.rs:171-199 [QuoteType]. *)
Inductive quote_type :=
| QStrong | QDoubleQuote | QSingleQuote | QMonospaced | QEmphasis | QMark | QSuperscript | QSubscript | QUnquoted.
(** parser/inline_substitution_renderer.rs:202-209 [QuoteScope]. *)
Inductive quote_scope := Constrained | Unconstrained.

Definition DQ : text := [DQUOTE].
(** [format!(r#" {name}="{value}""#)]. *)
Definition html_attr (name value : text) : text := lit " " ++ name ++ lit "=" ++ DQ ++ value ++ DQ.
(** [format!(r#"{name}="{value}""#)]. *)
Definition html_attr0 (name value : text) : text := name ++ lit "=" ++ DQ ++ value ++ DQ.

(** parser/inline_substitution_renderer.rs:695-724 [wrap_body_in_html_tag]; the first argument is
    not used there. *)
Definition wrap_body_in_html_tag (tag : text) (id : option text) (roles : list text) (body : text) : text :=
  lit "<" ++ tag
  ++ match id with Some i => html_attr (lit "id") i | None => [] end
  ++ match roles with [] => [] | _ => html_attr (lit "class") (join (lit " ") roles) end
  ++ lit ">" ++ body ++ lit "</" ++ tag ++ lit ">".

Definition opt_bind {A B} (o : option A) (f : A -> res (option B)) : res (option B) :=
  match o with Some a => f a | None => Ok None end.
(** parser/inline_substitution_renderer.rs:349-425 [render_quoted_substitition].  The scope is not
    used there. *)
Definition render_quoted (ty : quote_type) (attrlist : option attrlist) (id : option text) (body : text)
  : res text :=
  roles0 <- match attrlist with Some a => al_roles a | None => Ok [] end ;;
  style <- opt_bind attrlist (fun a => opt_bind (nth_attribute a 1) ea_block_style) ;;
  let roles := match style with Some s => s :: roles0 | None => roles0 end in
  id <- match id with
        | Some i => Ok (Some i)
        | None => opt_bind attrlist (fun a => opt_bind (nth_attribute a 1) ea_id)
        end ;;
  let plain := match roles, id with [], None => true | _, _ => false end in
  Ok (match ty with
      | QStrong => wrap_body_in_html_tag (lit "strong") id roles body
      | QDoubleQuote => lit "&#8220;" ++ body ++ lit "&#8221;"
      | QSingleQuote => lit "&#8216;" ++ body ++ lit "&#8217;"
      | QMonospaced => wrap_body_in_html_tag (lit "code") id roles body
      | QEmphasis => wrap_body_in_html_tag (lit "em") id roles body
      | QMark => wrap_body_in_html_tag (if plain then lit "mark" else lit "span") id roles body
      | QSuperscript => wrap_body_in_html_tag (lit "sup") id roles body
      | QSubscript => wrap_body_in_html_tag (lit "sub") id roles body
      | QUnquoted => if plain then body else wrap_body_in_html_tag (lit "span") id roles body
      end).

(** parser/inline_substitution_renderer.rs:762-764 [encode_attribute_value]. *)
Definition encode_attribute_value (v : text) : text := replace_char DQUOTE (lit "&quot;") v.
(** parser/inline_substitution_renderer.rs:783-785 [encode_spaces_in_uri]. *)
Definition encode_spaces_in_uri (s : text) : text := replace_char SP (lit "%20") s.
(** parser/inline_substitution_renderer.rs:800-812 [URI_SNIFF]. *)
Definition RENDER_URI_SNIFF (U : unicode) : re :=
  Seqs [Assert ABegin; Chr (is_alpha U); Plus (Chr (fun c => is_alpha U c || c_digit U c || c_in (lit ".+-") c));
        Lit1 58%N; Upto 2 (Lit1 47%N)].
(** parser/inline_substitution_renderer.rs:779-781 [is_uri_ish]. *)
Definition is_uri_ish (U : unicode) (path : text) : bool :=
  has_char 58%N path && is_match U (RENDER_URI_SNIFF U) path.
(** parser/inline_substitution_renderer.rs:766-777 [normalize_web_path]. *)
Definition normalize_web_path (U : unicode) (fs : char) (target : text) (start : option text)
    (preserve_uri_target : bool) : res text :=
  if preserve_uri_target && is_uri_ish U target then Ok (encode_spaces_in_uri target)
  else web_path U fs target start.
(** parser/inline_substitution_renderer.rs:559-593 [image_uri]. *)
Definition image_uri (U : unicode) (fs : char) (P : parser) (target : text) (asset_dir_key : option text)
  : res text :=
  let key := match asset_dir_key with Some k => k | None => lit "imagesdir" end in
  normalize_web_path U fs target (as_maybe_str (attribute_value P key)) true.
(** parser/inline_substitution_renderer.rs:110-139 [icon_uri]. *)
Definition icon_uri (U : unicode) (fs : char) (P : parser) (name : text) : res text :=
  let icontype := match as_maybe_str (attribute_value P (lit "icontype")) with
                  | Some t => t | None => lit "png" end in
  image_uri U fs P (name ++ lit "." ++ icontype) (Some (lit "iconsdir")).

(** parser/inline_substitution_renderer.rs:814-842 [link_constraint_attrs]. *)
Definition link_constraint_attrs (a : attrlist) (window : option text) : res text :=
  nofollow <- al_has_option a (lit "nofollow") ;;
  let rel := if nofollow : bool then Some (lit "nofollow") else None in
  match (match named_attribute a (lit "window") with Some e => Some (ea_value e) | None => window end) with
  | Some window =>
      noopener <- (if text_eqb window (lit "_blank") then Ok true else al_has_option a (lit "noopener")) ;;
      let rel_noopener :=
        if noopener : bool then
          match rel with
          | Some rel => html_attr (lit "rel") rel ++ lit " noopener"
          | None => html_attr (lit "rel") (lit "noopener")
          end
        else [] in
      Ok (html_attr (lit "target") window ++ rel_noopener)
  | None => Ok (match rel with Some rel => html_attr (lit "rel") rel | None => [] end)
  end.

(** parser/inline_substitution_renderer.rs:726-760 [render_icon_or_image]. *)
Definition render_icon_or_image (a : attrlist) (img src type_ : text) : res text :=
  img <- match named_attribute a (lit "link") with
         | Some e =>
             let link := if text_eqb (ea_value e) (lit "self") then src else ea_value e in
             lc <- link_constraint_attrs a None ;;
             Ok (lit "<a" ++ html_attr (lit "class") (lit "image") ++ html_attr (lit "href") link ++ lc
                 ++ lit ">" ++ img ++ lit "</a>")
         | None => Ok img
         end ;;
  roles <- al_roles a ;;
  let roles := match named_attribute a (lit "float") with Some f => ea_value f :: roles | None => roles end in
  Ok (lit "<span" ++ html_attr (lit "class") (join (lit " ") (type_ :: roles)) ++ lit ">" ++ img ++ lit "</span>").

Definition opt_attr (name : text) (o : option text) : list text :=
  match o with Some v => [html_attr0 name v] | None => [] end.
Definition named_value (a : attrlist) (name : text) : option text :=
  option_map ea_value (named_attribute a name).
(** parser/inline_substitution_renderer.rs:254-274 [ImageRenderParams], without the parser. *)
Record image_params := mkip
  { ip_target : text; ip_alt : text; ip_width : option text; ip_height : option text; ip_attrlist : attrlist }.
(** parser/inline_substitution_renderer.rs:485-557 [render_image]; [todo!] is a panic. *)
Definition render_image (U : unicode) (fs : char) (P : parser) (p : image_params) : res text :=
  src <- image_uri U fs P (ip_target p) None ;;
  let a := ip_attrlist p in
  let attrs :=
    [html_attr0 (lit "src") src; html_attr0 (lit "alt") (encode_attribute_value (ip_alt p))]
    ++ opt_attr (lit "width") (ip_width p) ++ opt_attr (lit "height") (ip_height p)
    ++ opt_attr (lit "title") (option_map encode_attribute_value (named_value a (lit "title"))) in
  let svg := match named_value a (lit "format") with Some f => text_eqb f (lit "svg") | None => false end
             || contains (lit ".svg") (ip_target p) in
  unported <- (if svg then
                 i <- al_has_option a (lit "inline") ;;
                 if i : bool then Ok true else al_has_option a (lit "interactive")
               else Ok false) ;;
  if unported : bool then Panic
  else render_icon_or_image a (lit "<img " ++ join (lit " ") attrs ++ lit ">") src (lit "image").

(** parser/inline_substitution_renderer.rs:277-294 [IconRenderParams], without the parser and
    [size], which the HTML renderer does not read. *)
Record icon_params := mkicp { icp_target : text; icp_alt : text; icp_attrlist : attrlist }.
(** parser/inline_substitution_renderer.rs:595-659 [render_icon]. *)
Definition render_icon (U : unicode) (fs : char) (P : parser) (p : icon_params) : res text :=
  src <- icon_uri U fs P (icp_target p) ;;
  let a := icp_attrlist p in
  let img :=
    if has_attribute P (lit "icons") then
      if match as_maybe_str (attribute_value P (lit "icons")) with
         | Some i => text_eqb i (lit "font") | None => false end
      then
        let classes :=
          [lit "fa"; lit "fa-" ++ icp_target p]
          ++ match named_or_positional_attribute a (lit "size") 1 with
             | Some s => [lit "fa-" ++ ea_value s] | None => [] end
          ++ match named_value a (lit "flip") with
             | Some f => [lit "fa-flip-" ++ f]
             | None => match named_value a (lit "rotate") with
                       | Some r => [lit "fa-rotate-" ++ r] | None => [] end
             end in
        lit "<i" ++ html_attr (lit "class") (join (lit " ") classes)
        ++ match named_value a (lit "title") with Some t => html_attr (lit "title") t | None => [] end
        ++ lit "></i>"
      else
        let attrs :=
          [html_attr0 (lit "src") src; html_attr0 (lit "alt") (encode_attribute_value (icp_alt p))]
          ++ opt_attr (lit "width") (named_value a (lit "width"))
          ++ opt_attr (lit "height") (named_value a (lit "height"))
          ++ opt_attr (lit "title") (named_value a (lit "title")) in
        lit "<img " ++ join (lit " ") attrs ++ lit ">"
    else lit "[" ++ icp_alt p ++ lit "&#93;" in
  render_icon_or_image a img src (lit "icon").

(** parser/inline_substitution_renderer.rs:297-320 [LinkRenderParams], without the parser and
    [type_], which has one value. *)
Record link_params := mklp
  { lp_target : text; lp_text : text; lp_extra_roles : list text; lp_window : option text; lp_attrlist : attrlist }.
(** parser/inline_substitution_renderer.rs:661-688 [render_link]. *)
Definition render_link (p : link_params) : res text :=
  id <- al_id (lp_attrlist p) ;;
  aroles <- al_roles (lp_attrlist p) ;;
  let roles := lp_extra_roles p ++ aroles in
  lc <- link_constraint_attrs (lp_attrlist p) (lp_window p) ;;
  Ok (lit "<a" ++ html_attr (lit "href") (lp_target p)
      ++ match id with Some i => html_attr (lit "id") i | None => [] end
      ++ match roles with [] => [] | _ => html_attr (lit "class") (join (lit " ") roles) end
      ++ lc ++ lit ">" ++ lp_text p ++ lit "</a>").
(** parser/inline_substitution_renderer.rs:690-692 [render_anchor]. *)
Definition render_anchor (id : text) : text := lit "<a" ++ html_attr (lit "id") id ++ lit "></a>".
