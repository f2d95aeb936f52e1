(** Model of the document header: parser/src/document/revision_line.rs, author.rs,
    author_line.rs, header.rs. *)
From Verif Require Import Text Maps Span_Model Parser_Model Regex Subs_Model Attrlist_Model Entry_Model Group_Model.

(** What the header and the blocks need from the inline layer: the Unicode tables and
    content/substitution_group.rs:165-187 [SubstitutionGroup::apply] as a function of the parser,
    the group, whether the attribute list of the block has the option [hardbreaks] (its only use of
    that list) and the text.  The theorems hold for every such function unless they say otherwise;
    [env_of] is the one of the inline model. *)
Record env := mkenv { e_u : unicode; e_sub : parser -> group -> bool -> text -> res text }.
Definition env_of (U : unicode) (fs : char) (fuel : nat) : env :=
  mkenv U (fun P g hb t => apply_group U fs P fuel g hb t).
(** document/header.rs:165-172 and document/revision_line.rs:107-114 [apply_header_subs]. *)
Definition apply_header_subs (E : env) (P : parser) (t : text) : res text := e_sub E P GHeader false t.

(** [str::split_once(char)]. *)
Fixpoint split_once (c : char) (t : text) : option (text * text) :=
  match t with
  | [] => None
  | x :: r => if (x =? c)%N then Some ([], r)
              else match split_once c r with Some (a, b) => Some (x :: a, b) | None => None end
  end.
(** [str::split(&str)] for a pattern that is not empty: the first piece and the others; [skip]
    counts the characters of the current occurrence still to pass over. *)
Fixpoint split_str_go (p : text) (skip : nat) (t : text) : text * list text :=
  match t with
  | [] => ([], [])
  | c :: r =>
      match skip with
      | S k => split_str_go p k r
      | 0 =>
          if starts_with p t then let q := split_str_go p (length p - 1) r in ([], fst q :: snd q)
          else let q := split_str_go p 0 r in (c :: fst q, snd q)
      end
  end.
Definition split_str (p t : text) : list text := let q := split_str_go p 0 t in fst q :: snd q.
(** [str::matches(char).count()]. *)
Definition count_char (c : char) (t : text) : nat := length (filter (N.eqb c) t).

(** document/revision_line.rs:14-20 [RevisionLine]. *)
Record revision_line := mkrev
  { rv_number : option text; rv_date : text; rv_remark : option text; rv_source : span }.
(** document/revision_line.rs:127-135. *)
Definition STANDALONE_REVISION (U : unicode) : re := Seqs [Assert ABegin; Lit1 118%N; Chr (c_digit U)].
Definition NON_NUMERIC_PREFIX : re :=
  Seqs [Assert ABegin; Many (Chr (c_not (c_range 48%N 57%N))); Grp 1 (Many (Chr c_dot)); Assert AEnd].
(** document/revision_line.rs:120-125 [strip_non_numeric_prefix]. *)
Definition strip_non_numeric_prefix (U : unicode) (s : text) : text :=
  match captures U NON_NUMERIC_PREFIX s with
  | Some m => match cap m 1 with Some t => t | None => s end
  | None => s
  end.
(** document/revision_line.rs:24-46: the number, the date and the remark before substitution. *)
Definition revision_parts (U : unicode) (t : text) : option text * (text * option text) :=
  let lr := match split_once 58%N t with
            | Some (loc, remark) => (loc, Some (trim remark))
            | None => (t, None)
            end in
  match split_once COMMA (fst lr) with
  | Some (rev, date) => (Some (strip_non_numeric_prefix U (trim rev)), (trim date, snd lr))
  | None =>
      let trimmed := trim (fst lr) in
      if is_match U (STANDALONE_REVISION U) trimmed
      then (Some (strip_non_numeric_prefix U trimmed), ([], snd lr))
      else (None, (trimmed, snd lr))
  end.
Definition set_opt (U : unicode) (P : parser) (name : text) (o : option text) : parser :=
  match o with Some v => set_attribute_by_value_from_header U P name v | None => P end.
Definition subs_opt (E : env) (P : parser) (o : option text) : res (option text) :=
  match o with Some t => t' <- apply_header_subs E P t ;; Ok (Some t') | None => Ok None end.
(** document/revision_line.rs:23-64 [RevisionLine::parse]. *)
Definition revision_parse (E : env) (source : span) (P : parser) : res (revision_line * parser) :=
  let U := e_u E in
  let p := revision_parts U (sp_data source) in
  let revnumber := fst p in
  let revdate := fst (snd p) in
  let revremark := snd (snd p) in
  let P := set_opt U P (lit "revnumber") revnumber in
  let P := set_attribute_by_value_from_header U P (lit "revdate") revdate in
  let P := set_opt U P (lit "revremark") revremark in
  n <- subs_opt E P revnumber ;;
  d <- apply_header_subs E P revdate ;;
  r <- subs_opt E P revremark ;;
  Ok (mkrev n d r source, P).

(** document/author.rs:20-26 [Author]. *)
Record author := mkauthor
  { au_name : text; au_first : text; au_middle : option text; au_last : option text; au_email : option text }.
(** document/author.rs:238-240 [replace_underscores_with_spaces]. *)
Definition replace_underscores (t : text) : text := replace_char UND [SP] t.
(** document/author.rs:229-235 and 219-226 [initials]. *)
Definition first_char_text (t : text) : text := match t with c :: _ => [c] | [] => [] end.
Definition opt_first_char (o : option text) : text := match o with Some t => first_char_text t | None => [] end.
Definition initials (a : author) : text :=
  first_char_text (au_first a) ++ opt_first_char (au_middle a) ++ opt_first_char (au_last a).

(** document/author.rs:242-264 [AUTHOR].  [\p{N}] is the class of [char::is_numeric]. *)
Definition c_pl (U : unicode) (c : char) : bool := if (c <? 128)%N then is_ascii_alpha c else u_letter U c.
Definition c_name1 (U : unicode) (c : char) : bool :=
  is_ascii_alnum c || (c =? 95)%N || c_pl U c || is_numeric U c || c_in (lit "&#;") c.
Definition c_name (U : unicode) (c : char) : bool :=
  is_ascii_alnum c || (c =? 95)%N || c_pl U c || is_numeric U c || c_in (lit "-'.&#;") c.
Definition NamePart (U : unicode) (n : nat) : re := Grp n (Seq (Chr (c_name1 U)) (Many (Chr (c_name U)))).
Definition AUTHOR (U : unicode) : re :=
  Seqs [Assert ABegin; NamePart U 1;
        Opt (Seq (Plus (Lit1 SP)) (NamePart U 2));
        Opt (Seq (Plus (Lit1 SP)) (NamePart U 3));
        Opt (Seqs [Plus (Lit1 SP); Lit1 60%N; Grp 4 (Plus (Chr (c_not (c_is 62%N)))); Lit1 62%N]);
        Assert AEnd].

(** document/author.rs:39-41 and 280-282. *)
Definition is_single_attribute (t : text) : bool :=
  starts_with (lit "{") (trim t) && ends_with (lit "}") (trim t) && (count_char 123%N t =? 1).
(** document/author.rs:266-299 [apply_author_subs]. *)
Definition apply_author_subs (U : unicode) (P : parser) (source : text) : res text :=
  rendered <- apply_attributes U P source ;;
  let has_angle_brackets := has_char 60%N rendered && has_char 62%N rendered in
  let has_unencoded_ampersand := has_char 38%N rendered && negb (contains (lit "&amp;") rendered) in
  if negb (is_single_attribute source) && (1 <? count_char 123%N source)
     && (has_angle_brackets || has_unencoded_ampersand)
  then apply_special_characters U rendered
  else Ok rendered.
Definition subs_author_opt (U : unicode) (P : parser) (o : option text) : res (option text) :=
  match o with Some t => t' <- apply_author_subs U P t ;; Ok (Some t') | None => Ok None end.
(** [source.split_once('<').unwrap_or((source, "")).0.trim()]. *)
Definition before_email (t : text) : text :=
  trim (match split_once 60%N t with Some (a, _) => a | None => t end).
(** document/author.rs:75-86 and 110-121: a middle name without a last name is the last name. *)
Definition mk_author (name first : text) (middle last email : option text) : author :=
  match middle, last with
  | Some m, None => mkauthor name first None (Some m) email
  | _, _ => mkauthor name first middle last email
  end.
Definition single_name (t : text) : author :=
  let n := replace_underscores t in mkauthor n n None None None.
(** document/author.rs:126-135 and 152-161. *)
Definition encode_brackets (U : unicode) (t : text) : res text :=
  if has_char 60%N t && has_char 62%N t then apply_special_characters U t else Ok t.
(** document/author.rs:29-172 [Author::parse]. *)
Definition author_parse (U : unicode) (source : text) (P : parser) : res (option author) :=
  let source := trim source in
  match source with
  | [] => Ok None
  | _ =>
      if is_single_attribute source then
        e <- apply_author_subs U P source ;; Ok (Some (single_name e))
      else
        match captures U (AUTHOR U) source with
        | Some m =>
            c1 <- cap_idx m 1 ;;
            f <- apply_author_subs U P c1 ;;
            mid <- subs_author_opt U P (cap m 2) ;;
            last <- subs_author_opt U P (cap m 3) ;;
            email <- subs_author_opt U P (cap m 4) ;;
            Ok (Some (mk_author (replace_underscores (before_email source)) (replace_underscores f)
                        (option_map replace_underscores mid) (option_map replace_underscores last) email))
        | None =>
            if has_char 123%N source then
              e <- apply_author_subs U P source ;;
              match captures U (AUTHOR U) e with
              | Some m =>
                  c1 <- cap_idx m 1 ;;
                  Ok (Some (mk_author (replace_underscores (before_email e)) (replace_underscores c1)
                              (option_map replace_underscores (cap m 2)) (option_map replace_underscores (cap m 3))
                              (cap m 4)))
              | None => n <- encode_brackets U e ;; Ok (Some (single_name n))
              end
            else n <- encode_brackets U source ;; Ok (Some (single_name n))
        end
  end.

(** document/author_line.rs:8-12 [AuthorLine]. *)
Record author_line := mkal_line { aul_authors : list author; aul_source : span }.
(** document/author_line.rs:49-57 [set_nth_attribute]. *)
Definition set_nth_attribute (U : unicode) (P : parser) (name : text) (index : nat) (value : text) : parser :=
  set_attribute_by_value_from_header U P
    (match index with 0 => name | _ => name ++ [UND] ++ show_nat (index + 1) end) value.
Definition set_nth_opt (U : unicode) (P : parser) (name : text) (index : nat) (o : option text) : parser :=
  match o with Some v => set_nth_attribute U P name index v | None => P end.
(** document/author_line.rs:22-38: the attributes of one author, and of all of them. *)
Definition set_author (U : unicode) (P : parser) (index : nat) (a : author) : parser :=
  let P := set_nth_attribute U P (lit "author") index (au_name a) in
  let P := set_nth_attribute U P (lit "authorinitials") index (initials a) in
  let P := set_nth_attribute U P (lit "firstname") index (au_first a) in
  let P := set_nth_opt U P (lit "middlename") index (au_middle a) in
  let P := set_nth_opt U P (lit "lastname") index (au_last a) in
  set_nth_opt U P (lit "email") index (au_email a).
Fixpoint set_authors (U : unicode) (P : parser) (index : nat) (l : list author) : parser :=
  match l with [] => P | a :: r => set_authors U (set_author U P index a) (S index) r end.
(** document/author_line.rs:16-20: every piece is parsed with the same parser. *)
Fixpoint parse_authors (U : unicode) (P : parser) (l : list text) : res (list author) :=
  match l with
  | [] => Ok []
  | t :: r =>
      o <- author_parse U t P ;;
      rest <- parse_authors U P r ;;
      Ok (match o with Some a => a :: rest | None => rest end)
  end.
(** document/author_line.rs:15-41 [AuthorLine::parse]. *)
Definition author_line_parse (U : unicode) (source : span) (P : parser) : res (author_line * parser) :=
  l <- parse_authors U P (split_str (lit "; ") (sp_data source)) ;;
  Ok (mkal_line l source, set_authors U P 0 l).

(** document/header.rs:16-24 [Header]. *)
Record header := mkheader {
  h_title_source : option span; h_title : option text; h_attrs : list attribute;
  h_author : option author_line; h_revision : option revision_line; h_comments : list span;
  h_source : span }.
(** The local variables of document/header.rs:33-39 and the parser. *)
Record hstate := mkhs {
  s_title_source : option span; s_title : option text; s_attrs : list attribute;
  s_author : option author_line; s_revision : option revision_line; s_comments : list span;
  s_warnings : list warning; s_parser : parser }.
Definition hs_new (P : parser) : hstate := mkhs None None [] None None [] [] P.
(** [str::eq_ignore_ascii_case]. *)
Definition ascii_lower (c : char) : char := if is_ascii_upper c then (c + 32)%N else c.
Definition eq_ignore_ascii_case (a b : text) : bool := text_eqb (map ascii_lower a) (map ascii_lower b).
(** document/header.rs:58-76: the attributes that an [:author:] entry sets besides its own. *)
Definition set_author_entry (U : unicode) (attr : attribute) (P : parser) : res parser :=
  if eq_ignore_ascii_case (sp_data (at_name attr)) (lit "author") then
    match at_value_source attr with
    | None => Ok P
    | Some raw =>
        o <- author_parse U (sp_data raw) P ;;
        Ok (match o with
            | None => P
            | Some a =>
                let P := set_attribute_by_value_from_header U P (lit "firstname") (au_first a) in
                let P := set_opt U P (lit "middlename") (au_middle a) in
                let P := set_opt U P (lit "lastname") (au_last a) in
                let P := set_attribute_by_value_from_header U P (lit "authorinitials") (initials a) in
                set_opt U P (lit "email") (au_email a)
            end)
    end
  else Ok P.
Definition is_some {A} (o : option A) : bool := match o with Some _ => true | None => false end.
(** document/header.rs:52-105: one pass through the loop: [None] is the [break]. *)
Definition header_attr (E : env) (source : span) (line : span) (h : hstate) : res (option (mitem attribute)) :=
  if starts_with (lit ":") (sp_data line) then attribute_parse (apply_header_subs E) source (s_parser h) else Ok None.
Definition header_step (E : env) (source : span) (h : hstate) : res (hstate * option span) :=
  let U := e_u E in
  line_mi <- take_normalized_line source ;;
  let line := mi_item line_mi in
  if is_nil (sp_data line) then
    Ok (h, if is_some (s_title h) then None else Some (mi_after line_mi))
  else if starts_with (lit "//") (sp_data line) && negb (starts_with (lit "///") (sp_data line)) then
    Ok (mkhs (s_title_source h) (s_title h) (s_attrs h) (s_author h) (s_revision h) (s_comments h ++ [line])
          (s_warnings h) (s_parser h), Some (mi_after line_mi))
  else
    o <- header_attr E source line h ;;
    match o with
    | Some attr =>
        P <- set_author_entry U (mi_item attr) (s_parser h) ;;
        let pw := set_attribute_from_header U P (mi_item attr) in
        Ok (mkhs (s_title_source h) (s_title h) (s_attrs h ++ [mi_item attr]) (s_author h) (s_revision h) (s_comments h)
              (s_warnings h ++ snd pw) (fst pw), Some (mi_after attr))
    | None =>
        if negb (is_some (s_title h)) && starts_with (lit "= ") (sp_data line) then
          d <- discard line 2 ;;
          title_span <- discard_whitespace d ;;
          title <- apply_header_subs E (s_parser h) (sp_data title_span) ;;
          Ok (mkhs (Some title_span) (Some title) (s_attrs h) (s_author h) (s_revision h) (s_comments h) (s_warnings h)
                (set_attribute_by_value_from_header U (s_parser h) (lit "doctitle") title), Some (mi_after line_mi))
        else if is_some (s_title h) && negb (is_some (s_author h)) then
          ap <- author_line_parse U line (s_parser h) ;;
          Ok (mkhs (s_title_source h) (s_title h) (s_attrs h) (Some (fst ap)) (s_revision h) (s_comments h) (s_warnings h)
                (snd ap), Some (mi_after line_mi))
        else if is_some (s_title h) && is_some (s_author h) && negb (is_some (s_revision h)) then
          rp <- revision_parse E line (s_parser h) ;;
          Ok (mkhs (s_title_source h) (s_title h) (s_attrs h) (s_author h) (Some (fst rp)) (s_comments h) (s_warnings h)
                (snd rp), Some (mi_after line_mi))
        else
          Ok (if is_some (s_title h)
              then mkhs (s_title_source h) (s_title h) (s_attrs h) (s_author h) (s_revision h) (s_comments h)
                     (s_warnings h ++ [mkwarn line WDocumentHeaderNotTerminated]) (s_parser h)
              else h, None)
    end.
(** document/header.rs:42-105: the loop, with fuel: the final state and the source left. *)
Fixpoint header_loop (E : env) (fuel : nat) (source : span) (h : hstate) : res (hstate * span) :=
  match sp_data source with
  | [] => Ok (h, source)
  | _ =>
      match fuel with
      | 0 => OutOfFuel
      | S f =>
          r <- header_step E source h ;;
          match snd r with
          | Some source' => header_loop E f source' (fst r)
          | None => Ok (fst r, source)
          end
      end
  end.
(** document/header.rs:27-125 [Header::parse]: the header, the warnings and the parser. *)
Definition header_parse (E : env) (source : span) (P : parser)
  : res (mitem header * (list warning * parser)) :=
  original <- discard_empty_lines source ;;
  r <- header_loop E (length (sp_data source)) source (hs_new P) ;;
  let h := fst r in
  after <- discard_empty_lines (snd r) ;;
  src <- trim_remainder original (snd r) ;;
  src <- trim_trailing_whitespace src ;;
  Ok (mkmi (mkheader (s_title_source h) (s_title h) (s_attrs h) (s_author h) (s_revision h) (s_comments h) src) after,
      (s_warnings h, s_parser h)).
