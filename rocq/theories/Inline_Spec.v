(** Specification of the inline macros (docs/modules/macros/pages/autolinks.adoc, url-macro.adoc, link-macro.adoc,
    mailto-macro.adoc, images.adoc; docs/modules/attributes/pages/id.adoc): where they are in a text. *)
From Verif Require Import Text Regex Regex_Proof Regex_Scan Macro_Spec Auto_Spec.

(** * Replacing *)
(** [F prev w rest]: after the character [prev], [w] is to be replaced when [rest] follows; [G prev w rest x]:
    by [x]. Text is read from left to right; what is not to be replaced stays. There is no result where [F]
    holds without [G]. *)
Section Replaced.
  Context (F : option char -> text -> text -> Prop) (G : option char -> text -> text -> text -> Prop).
  Inductive replaced : option char -> text -> text -> Prop :=
  | rp_nil prev : replaced prev [] []
  | rp_step prev w r x o : F prev w r -> G prev w r x -> replaced (prev_of prev w) r o -> replaced prev (w ++ r) (x ++ o)
  | rp_char prev c t o : (forall w r, c :: t = w ++ r -> ~ F prev w r) -> replaced (Some c) t o -> replaced prev (c :: t) (c :: o).
End Replaced.

(** * Text in square brackets *)
(** The text between the brackets of a macro: every closing bracket in it has a backslash in front, and it does
    not end in a backslash. [dot]: the characters allowed before the last one. *)
Definition label (dot : char -> bool) (l : text) : Prop :=
  l = [] \/ (exists a z, l = a ++ [z] /\ Forall (fun c => dot c = true) a /\ z <> BSL) /\
            (forall x y, l = x ++ 93%N :: y -> exists x', x = x' ++ [BSL]).
Definition any_char (c : char) : bool := true.
Definition same_line (c : char) : bool := negb (c =? LF)%N.
Definition escape (e : text) : Prop := e = [] \/ e = [BSL].

(** * Anchors *)
Definition decimal (U : unicode) (c : char) : bool := if (c <? 128)%N then is_ascii_digit c else u_nd U c.
Definition id_start (U : unicode) (c : char) : Prop := is_alpha U c = true \/ In c (lit "_:").
Definition id_char (U : unicode) (c : char) : Prop := is_alpha U c = true \/ decimal U c = true \/ In c (lit "_-:.").
Definition id_text (U : unicode) (i : text) : Prop := exists c r, i = c :: r /\ id_start U c /\ Forall (id_char U) r.
(** The reference text [l] after the comma, before two closing brackets: blanks, and then the shortest text on one line
    that ends there; or, if there is none, blanks only. *)
Definition reference (l rest : text) : Prop :=
  exists b r, l = b ++ r /\ Forall (fun c => is_ws c = true) b /\
    ((exists c q, r = c :: q /\ is_ws c = false /\ ~ In LF r /\
        forall p p', r ++ lit "]]" ++ rest = p ++ lit "]]" ++ p' -> p <> [] -> length r <= length p) \/
     (r = [] /\ (exists b' c, b = b' ++ [c] /\ c <> LF) /\
        forall p p', lit "]]" ++ rest = p ++ lit "]]" ++ p' -> p <> [] -> In LF p)).
(** [anchor_form U i w rest]: [w] is an anchor with the id [i]. *)
Definition anchor_form (U : unicode) (i w rest : text) : Prop :=
  id_text U i /\
  (w = lit "[[" ++ i ++ lit "]]" \/ (exists l, w = lit "[[" ++ i ++ lit "," ++ l ++ lit "]]" /\ reference l rest) \/
   (exists l, w = lit "anchor:" ++ i ++ lit "[" ++ l ++ lit "]" /\ label same_line l)).
Definition anchor_link (i : text) : text := lit "<a id=" ++ [34%N] ++ i ++ [34%N] ++ lit "></a>".
Definition anchor_at (U : unicode) (prev : option char) (w rest : text) : Prop :=
  exists e i b, escape e /\ w = e ++ b /\ anchor_form U i b rest.
Definition anchor_out (U : unicode) (prev : option char) (w rest x : text) : Prop :=
  exists i b, anchor_form U i b rest /\ ((w = b /\ x = anchor_link i) \/ (w = BSL :: b /\ x = b)).

(** * Attribute lists and links *)
(** What the attribute list of a macro says: the id, the roles, the options, and the values by name and by position. *)
Record attributes := mkattrs
  { at_id : option text; at_roles : list text; at_option : text -> bool; at_name : text -> option text; at_pos : nat -> option text }.
(** The attributes of a link element that tell where and how it opens. With [nofollow] and [noopener] the second word
    is written outside the value. *)
Definition opens (a : attributes) (window : option text) : text :=
  let follow := at_option a (lit "nofollow") in
  match (match at_name a (lit "window") with Some v => Some v | None => window end) with
  | Some v =>
      attr (lit "target") v ++
      (if text_eqb v (lit "_blank") || at_option a (lit "noopener") then
         if follow then attr (lit "rel") (lit "nofollow") ++ lit " noopener" else attr (lit "rel") (lit "noopener")
       else [])
  | None => if follow then attr (lit "rel") (lit "nofollow") else []
  end.
Definition some_attr (n : text) (o : option text) : text := match o with Some v => attr n v | None => [] end.
Definition class_attr (roles : list text) : text := match roles with [] => [] | _ => attr (lit "class") (join (lit " ") roles) end.
Definition link_element (target txt : text) (extra : list text) (window : option text) (a : attributes) : text :=
  lit "<a" ++ attr (lit "href") target ++ some_attr (lit "id") (at_id a) ++ class_attr (extra ++ at_roles a) ++ opens a window ++
  lit ">" ++ txt ++ lit "</a>".
(** A caret at the end of the text of a link is not shown: it says that the link opens in a new window. *)
Definition new_window (raw txt : text) (window : option text) : Prop :=
  (raw = txt ++ lit "^" /\ window = Some (lit "_blank")) \/ (raw = txt /\ window = None /\ forall x, raw <> x ++ lit "^").
(** The text without the backslashes before [q]. *)
Fixpoint unescape (q : char) (l : text) : text :=
  match l with
  | c :: r => if ((c =? BSL)%N && match r with d :: _ => (d =? q)%N | [] => false end)%bool then unescape q r else c :: unescape q r
  | [] => []
  end.
Definition on_one_line (l : text) : text := map (fun c => if (c =? LF)%N then SP else c) l.
(** The scheme at the beginning of a target, with the slashes. *)
Definition scheme_text (U : unicode) (k rest : text) : Prop :=
  exists c r s, k = c :: r ++ lit ":" ++ s /\ is_alpha U c = true /\ r <> [] /\
    Forall (fun c => is_alpha U c = true \/ decimal U c = true \/ In c (lit ".+-")) r /\
    (s = lit "//" \/ ((s = [] \/ s = lit "/") /\ forall r', rest <> 47%N :: r')).
Definition shown (U : unicode) (hide : bool) (target x : text) : Prop :=
  if hide then (exists k, target = k ++ x /\ scheme_text U k x) \/ (x = target /\ forall k y, target = k ++ y -> ~ scheme_text U k y)
  else x = target.

(** * The link macros *)
(** A target without blanks and opening brackets. *)
Definition macro_target (T : text) : Prop :=
  exists c r, T = c :: r /\ is_ws c = false /\ ~ In c (lit ":[") /\ Forall (fun c => is_ws c = false /\ c <> 91%N) r.
Inductive link_kind := KLink | KMail.
Definition kind_name (k : link_kind) : text := match k with KLink => lit "link" | KMail => lit "mailto" end.
Definition link_macro (k : link_kind) (T L : text) : text := kind_name k ++ lit ":" ++ T ++ lit "[" ++ L ++ lit "]".
Definition link_macro_at (prev : option char) (w rest : text) : Prop :=
  exists e k T L, escape e /\ w = e ++ link_macro k T L /\ (macro_target T \/ exists c, T = [c]) /\ label any_char L.
Section Links.
  (** [R]: reads an attribute list; [Q]: writes a text as part of a query; [hide]: leave schemes out. *)
  Context (U : unicode) (R : text -> attributes) (Q : text -> text) (hide : bool).
  (** The attributes and the text between the brackets: an attribute list if there is a separator in it. *)
  Definition macro_text (sep : char) (L : text) (a : attributes) (raw : text) : Prop :=
    (In sep L /\ a = R (on_one_line L) /\ raw = match at_pos a 1 with Some v => v | None => [] end) \/
    (~ In sep L /\ a = R [] /\ raw = unescape 93%N L).
  (** The subject and the body of a message are the second and the third position. *)
  Definition query (L : text) (a : attributes) : text :=
    if has_char 44%N L then
      match at_pos a 2 with
      | Some s => lit "?subject=" ++ Q s ++ match at_pos a 3 with Some b => lit "&amp;body=" ++ Q b | None => [] end
      | None => []
      end
    else [].
  Definition macro_link (k : link_kind) (T L x : text) : Prop :=
    exists a raw txt window, new_window raw txt window /\
    match k with
    | KMail => macro_text 44%N L a raw /\
        x = link_element (lit "mailto:" ++ T ++ query L a) (match txt with [] => T | _ => txt end) [] window a
    | KLink => macro_text 61%N L a raw /\
        match txt with
        | [] => exists s, shown U hide T s /\ x = link_element T (match s with [] => T | _ => s end) [lit "bare"] window a
        | _ => x = link_element T txt [] window a
        end
    end.
  (** No result for a target of one character. *)
  Definition link_macro_out (prev : option char) (w rest x : text) : Prop :=
    exists k T L, (macro_target T \/ exists c, T = [c]) /\ label any_char L /\
      ((w = BSL :: link_macro k T L /\ x = link_macro k T L) \/
       (w = link_macro k T L /\ length T <> 1 /\ macro_link k T L x)).

  (** * URLs *)
  Definition url_schemes : list text := [lit "http://"; lit "https://"; lit "file://"; lit "ftp://"; lit "irc://"].
  Definition angle : text := lit "&lt;".
  (** What may stand before a URL. *)
  Definition url_prefix (prev : option char) (p : text) : Prop :=
    (p = [] /\ (prev = None \/ prev = Some LF)) \/ p = lit "link:" \/ p = angle \/ p = BSL :: angle \/
    (exists c, p = [c] /\ In c ([SP; TAB; 34%N] ++ lit ">()[];'")).
  (** The three forms of a URL after the scheme: with a text in brackets; up to a closing angle bracket; and the longest
      text without blanks and brackets that does not end in punctuation. *)
  Definition with_text (T L b : text) : Prop :=
    b = T ++ lit "[" ++ L ++ lit "]" /\ T <> [] /\ Forall (fun c => is_ws c = false /\ ~ In c (lit "[]")) T /\ label any_char L.
  Definition up_to_angle (T b rest : text) : Prop :=
    b = T ++ lit "&gt;" /\ T <> [] /\ Forall (fun c => is_ws c = false) T /\
    forall x y, b ++ rest = x ++ lit "&gt;" ++ y -> x <> [] -> length T <= length x.
  Definition bare_url (T : text) : Prop :=
    exists a z, T = a ++ [z] /\ Forall (fun c => is_ws c = false /\ ~ In c (lit "[]<")) (a ++ [z]) /\ ~ In z (lit ",.?!)").
  Inductive url_form := FText (T L : text) | FAngle (T : text) | FBare (T : text).
  Definition form_of (f : url_form) (b rest : text) : Prop :=
    match f with
    | FText T L => with_text T L b
    | FAngle T => up_to_angle T b rest /\ (forall T L b' r, b ++ rest = b' ++ r -> ~ with_text T L b')
    | FBare T => b = T /\ bare_url T /\ (forall T L b' r, b ++ rest = b' ++ r -> ~ with_text T L b') /\
        (forall T b' r, b ++ rest = b' ++ r -> ~ up_to_angle T b' r) /\
        (forall T' r, b ++ rest = T' ++ r -> bare_url T' -> length T' <= length T)
    end.
  (** [url prev w rest p e s f]: [w] is the prefix [p], the escape [e], the scheme [s] and the rest of the URL. *)
  Definition url (prev : option char) (w rest p e s : text) (f : url_form) : Prop :=
    url_prefix prev p /\ escape e /\ In s url_schemes /\ exists b, w = p ++ e ++ s ++ b /\ form_of f b rest.
  Definition url_at (prev : option char) (w rest : text) : Prop := exists p e s f, url prev w rest p e s f.
  (** The link for a target alone. *)
  Definition bare_link (target x : text) : Prop := exists t, shown U hide target t /\ x = link_element target t [lit "bare"] None (R []).
  Definition url_text (L : text) (a : attributes) (raw : text) : Prop :=
    (In 61%N L /\ a = R L /\ raw = unescape 34%N (match at_pos a 1 with Some v => v | None => [] end)) \/
    (~ In 61%N L /\ a = R [] /\ raw = unescape 93%N L).
  Definition text_link (target L x : text) : Prop :=
    exists a raw txt window, url_text L a raw /\ new_window raw txt window /\
      match txt with
      | [] => exists s, shown U hide target s /\ x = link_element target s [lit "bare"] window a
      | _ => x = link_element target txt [] window a
      end.
  (** A semicolon or colon at the end of a URL is not part of it, nor is a parenthesis before it. *)
  Definition url_tail (T target tail : text) : Prop :=
    (exists c, In c (lit ";:") /\
       ((T = target ++ [41%N; c] /\ tail = [41%N; c]) \/ (T = target ++ [c] /\ tail = [c] /\ forall x, target <> x ++ [41%N]))) \/
    (target = T /\ tail = [] /\ forall x c, T = x ++ [c] -> ~ In c (lit ";:")).
  Definition is_angle (p : text) : Prop := p = angle \/ p = BSL :: angle.
  Definition quote_mark (p : text) : Prop := p = [34%N] \/ p = lit "'".
  Definition url_result (w p e s : text) (f : url_form) (x : text) : Prop :=
    match f with
    | FText T L =>
        (e = [BSL] /\ w = p ++ BSL :: s ++ T ++ lit "[" ++ L ++ lit "]" /\ x = p ++ s ++ T ++ lit "[" ++ L ++ lit "]") \/
        (e = [] /\ exists l, text_link (s ++ T) L l /\ ((p = lit "link:" /\ x = l) \/ (p <> lit "link:" /\ x = p ++ l)))
    | FAngle T =>
        (p = BSL :: angle /\ w = BSL :: x) \/
        (p <> BSL :: angle /\ e = [BSL] /\ x = p ++ s ++ T ++ lit "&gt;") \/
        (p = angle /\ e = [] /\ bare_link (s ++ T) x)
    | FBare T =>
        (p = BSL :: angle /\ w = BSL :: x) \/
        (p <> BSL :: angle /\ e = [BSL] /\ x = p ++ s ++ T) \/
        (e = [] /\ (p = angle \/ quote_mark p) /\ x = w) \/
        (e = [] /\ ~ is_angle p /\ ~ quote_mark p /\ exists target tail l, url_tail (s ++ T) target tail /\ bare_link target l /\ x = p ++ l ++ tail)
    end.
  Definition url_out (prev : option char) (w rest x : text) : Prop :=
    exists p e s f, url prev w rest p e s f /\ url_result w p e s f x.
End Links.
