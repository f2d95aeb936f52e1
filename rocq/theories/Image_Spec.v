(** Specification of images and icons in text (docs/modules/macros/pages/images.adoc, image-ref.adoc, image-link.adoc,
    icon-macro.adoc). *)
From Verif Require Import Text Regex Regex_Proof Regex_Scan Macro_Spec Auto_Spec Inline_Spec.

(** * Where they are *)
Inductive picture := Image | Icon.
Definition picture_name (k : picture) : text := match k with Image => lit "image" | Icon => lit "icon" end.
(** A target on one line, of at least two characters, without opening brackets and blanks at its ends. *)
Definition picture_target (T : text) : Prop :=
  exists c m z, T = c :: m ++ [z] /\ is_ws c = false /\ ~ In c (lit ":[") /\ Forall (fun d => d <> LF /\ d <> 91%N) m /\ is_ws z = false /\ z <> 91%N.
Definition picture_macro (k : picture) (T L : text) : text := picture_name k ++ lit ":" ++ T ++ lit "[" ++ L ++ lit "]".
Definition picture_at (prev : option char) (w rest : text) : Prop :=
  exists e k T L, escape e /\ w = e ++ picture_macro k T L /\ (picture_target T \/ T = []) /\ label any_char L.

(** * What replaces them *)
(** The last name in a path: names are between slashes, empty ones and single dots do not count. *)
Definition no_name (n : text) : Prop := n = [] \/ n = lit ".".
Definition last_name (p n : text) : Prop :=
  ~ no_name n /\ ~ In 47%N n /\ exists a b, p = a ++ n ++ b /\ (a = [] \/ exists a', a = a' ++ [47%N]) /\
    exists l, b = flat_map (fun s => 47%N :: s) l /\ Forall no_name l.
(** The name without the extension; a dot in front begins no extension. *)
Definition name_stem (n s : text) : Prop :=
  (exists e, n = s ++ 46%N :: e /\ s <> [] /\ ~ In 46%N e) \/ (s = n /\ forall a e, n = a ++ 46%N :: e -> ~ In 46%N e -> a = []).
Definition path_stem (p s : text) : Prop :=
  (exists n, last_name p n /\ n <> lit ".." /\ name_stem n s) \/ (s = [] /\ forall n, last_name p n -> n = lit "..").
Definition separators_blank (T : text) : text := map (fun c => if existsb (N.eqb c) (lit "_-") then SP else c) T.
Definition no_quotes (v : text) : text := flat_map (fun c => if (c =? 34)%N then lit "&quot;" else [c]) v.
Definition name_or_pos (a : attributes) (n : text) (i : nat) : option text := match at_name a n with Some v => Some v | None => at_pos a i end.
(** The alternative text: as given, else the name in the target, with blanks for hyphens and underscores. *)
Definition alternative (T : text) (given : option text) (x : text) : Prop :=
  match given with Some v => x = unescape 93%N (on_one_line v) | None => path_stem (separators_blank T) x end.
(** With a link, the image is in a link element; [self] is the image itself. *)
Definition linked (a : attributes) (img src : text) : text :=
  match at_name a (lit "link") with
  | Some l => lit "<a" ++ attr (lit "class") (lit "image") ++ attr (lit "href") (if text_eqb l (lit "self") then src else l) ++ opens a None ++ lit ">" ++ img ++ lit "</a>"
  | None => img
  end.
Definition in_span (k : picture) (a : attributes) (img src : text) : text :=
  lit "<span" ++ attr (lit "class") (join (lit " ") (picture_name k :: match at_name a (lit "float") with Some f => [f] | None => [] end ++ at_roles a)) ++ lit ">" ++ linked a img src ++ lit "</span>".
(** How icons are shown. *)
Inductive icon_mode := IText | IFont | IImage.
Section Pictures.
  (** [R]: reads an attribute list; [src], [icon_src]: where an image or an icon is. *)
  Context (R : text -> attributes) (src icon_src : text -> text) (mode : icon_mode).
  Definition svg (T : text) (a : attributes) : Prop := at_name a (lit "format") = Some (lit "svg") \/ occurs (lit ".svg") T.
  (** No result for an SVG image that is inline or interactive. *)
  Definition image_markup (T L x : text) : Prop :=
    let a := R L in
    exists alt, alternative T (name_or_pos a (lit "alt") 1) alt /\
    ~ (svg T a /\ (at_option a (lit "inline") = true \/ at_option a (lit "interactive") = true)) /\
    x = in_span Image a (lit "<img" ++ attr (lit "src") (src T) ++ attr (lit "alt") (no_quotes alt) ++ some_attr (lit "width") (name_or_pos a (lit "width") 2) ++
          some_attr (lit "height") (name_or_pos a (lit "height") 3) ++ some_attr (lit "title") (option_map no_quotes (at_name a (lit "title"))) ++ lit ">") (src T).
  (** The classes of an icon from a font: size, and either the way it is flipped or its rotation. *)
  Definition icon_classes (T : text) (a : attributes) : list text :=
    [lit "fa"; lit "fa-" ++ T] ++ match name_or_pos a (lit "size") 1 with Some s => [lit "fa-" ++ s] | None => [] end ++
    match at_name a (lit "flip") with
    | Some f => [lit "fa-flip-" ++ f]
    | None => match at_name a (lit "rotate") with Some r => [lit "fa-rotate-" ++ r] | None => [] end
    end.
  Definition icon_markup (T L x : text) : Prop :=
    let a := R L in
    exists alt, alternative T (at_name a (lit "alt")) alt /\
    x = in_span Icon a match mode with
        | IText => lit "[" ++ alt ++ lit "&#93;"
        | IFont => lit "<i" ++ attr (lit "class") (join (lit " ") (icon_classes T a)) ++ some_attr (lit "title") (at_name a (lit "title")) ++ lit "></i>"
        | IImage => lit "<img" ++ attr (lit "src") (icon_src T) ++ attr (lit "alt") (no_quotes alt) ++ some_attr (lit "width") (at_name a (lit "width")) ++
            some_attr (lit "height") (at_name a (lit "height")) ++ some_attr (lit "title") (at_name a (lit "title")) ++ lit ">"
        end (icon_src T).
  (** No result without a target. *)
  Definition picture_out (prev : option char) (w rest x : text) : Prop :=
    exists k T L, (picture_target T \/ T = []) /\ label any_char L /\
      ((w = BSL :: picture_macro k T L /\ x = picture_macro k T L) \/
       (w = picture_macro k T L /\ T <> [] /\ match k with Image => image_markup T L x | Icon => icon_markup T L x end)).
End Pictures.

(** * Where the images are *)
Definition plain_name (s : text) : Prop := s <> [] /\ s <> lit "." /\ s <> lit ".." /\ ~ In 47%N s /\ ~ In SP s /\ ~ In BSL s /\ ~ In 58%N s.
Definition plain_path (l : list text) : Prop := l <> [] /\ Forall plain_name l.
