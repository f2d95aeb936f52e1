(** Model of [parser/src/attributes/element_attribute.rs] and [attributes/attrlist.rs].

    The normal substitution group, applied to single-quoted values in block context only, is the
    argument [norm].  A [CowStr] is its text; whether it is borrowed (which decides how a piece of
    it is copied) is the argument [borrowed]. *)
From Verif Require Import Text Span_Model Maps Catalog_Model Parser_Model Regex Subs_Model.

(** attributes/element_attribute.rs:18-22 [struct ElementAttribute]. *)
Record element_attribute := mkea { ea_name : option text; ea_value : text; ea_idx : list nat }.

(** attributes/attrlist.rs:427-430 [enum AttrlistContext]. *)
Inductive attrlist_context := CtxBlock | CtxInline.

Definition HASH : char := 35%N.
Definition PERCENT : char := 37%N.
Definition DOT : char := 46%N.
Definition COMMA : char := 44%N.
Definition DQUOTE : char := 34%N.
Definition SQUOTE : char := 39%N.
Definition is_quote (c : char) : bool := (c =? SQUOTE)%N || (c =? DQUOTE)%N.

(** attributes/element_attribute.rs:363-365. *)
Definition is_shorthand_delimiter (c : char) : bool :=
  (c =? HASH)%N || (c =? PERCENT)%N || (c =? DOT)%N.

(** attributes/element_attribute.rs:370-380 [cowstr_from_source_and_span]. *)
Definition cowstr_from_source_and_span (src : text) (borrowed : bool) (s : span) : res text :=
  if borrowed then
    d <- discard (span_new src) (sp_off s) ;;
    b <- slice_to d (blen (sp_data s)) ;;
    Ok (sp_data b)
  else Ok (sp_data s).

(** attributes/element_attribute.rs:330-358: the [while] loop, with fuel; the indices and the
    warnings pushed. *)
Fixpoint shorthand_loop (fuel : nat) (s : span) : res (list nat * list warning_type) :=
  match sp_data s with
  | [] => Ok ([], [])
  | _ =>
      match fuel with
      | 0 => OutOfFuel
      | S f =>
          after_delimiter <- discard s 1 ;;
          match position is_shorthand_delimiter (sp_data after_delimiter) with
          | None =>
              match sp_data after_delimiter with
              | [] => r <- shorthand_loop f after_delimiter ;;
                      Ok (sp_off s :: fst r, WEmptyShorthandItem :: snd r)
              | _ => s' <- discard_all s ;;
                     r <- shorthand_loop f s' ;;
                     Ok (sp_off s :: fst r, snd r)
              end
          | Some 0 =>
              r <- shorthand_loop f after_delimiter ;;
              Ok (sp_off s :: fst r, WEmptyShorthandItem :: snd r)
          | Some (S _ as index) =>
              mi <- into_parse_result s (index + 1) ;;
              r <- shorthand_loop f (mi_after mi) ;;
              Ok (sp_off s :: fst r, snd r)
          end
      end
  end.
(** attributes/element_attribute.rs:319-361 [parse_shorthand_items]. *)
Definition parse_shorthand_items (source : text) : res (list nat * list warning_type) :=
  let s := span_new source in
  o <- split_at_match_non_empty s is_shorthand_delimiter ;;
  match o with
  | Some block_style_pr =>
      d <- discard_whitespace (mi_item block_style_pr) ;;
      r <- shorthand_loop (length source) (mi_after block_style_pr) ;;
      Ok (sp_off d :: fst r, snd r)
  | None => shorthand_loop (length source) s
  end.

(** attributes/element_attribute.rs:38-55: the name, if any, and where the value begins. *)
Definition ea_parse_name (source : span) : res (option span * span) :=
  o <- take_attr_name source ;;
  match o with
  | None => Ok (None, source)
  | Some name =>
      space <- take_whitespace_with_newline (mi_after name) ;;
      oe <- take_prefix (mi_after space) (lit "=") ;;
      match oe with
      | None => Ok (None, source)
      | Some equals =>
          space <- take_whitespace_with_newline (mi_after equals) ;;
          match sp_data (mi_after space) with
          | [] => Ok (None, source)
          | c :: _ => if (c =? COMMA)%N then Ok (None, source)
                      else Ok (Some (mi_item name), mi_after space)
          end
      end
  end.
(** attributes/element_attribute.rs:68 and 71. *)
Definition ea_unquoted (after : span) : res (mitem span) :=
  mi <- take_while after (fun c => negb (c =? COMMA)%N) ;; trim_item_trailing_spaces mi.
(** attributes/element_attribute.rs:60-72: the raw value, the new [parse_shorthand], the warnings. *)
Definition ea_parse_value (after : span) (parse_shorthand : bool)
  : res (mitem span * (bool * list warning_type)) :=
  match sp_data after with
  | c :: _ =>
      if is_quote c then
        o <- take_quoted_string after ;;
        match o with
        | Some v => Ok (v, (false, []))
        | None => v <- ea_unquoted after ;;
                  Ok (v, (parse_shorthand, [WAttributeValueMissingTerminatingQuote]))
        end
      else v <- ea_unquoted after ;; Ok (v, (parse_shorthand, []))
  | [] => v <- ea_unquoted after ;; Ok (v, (parse_shorthand, []))
  end.
(** attributes/element_attribute.rs:77-96: unescaping, and substitutions for a single quote. *)
Definition ea_finish_value (norm : text -> res text) (ctx : attrlist_context)
    (first_char : option char) (value : text) : res text :=
  match first_char with
  | Some q =>
      if is_quote q then
        let new_value := replace_str [BSL; q] [q] value in
        match ctx with
        | CtxBlock => if (q =? SQUOTE)%N then norm new_value else Ok new_value
        | CtxInline => Ok new_value
        end
      else Ok value
  | None => Ok value
  end.
(** attributes/element_attribute.rs:25-118 [ElementAttribute::parse]. *)
Definition ea_parse (norm : text -> res text) (src : text) (borrowed : bool) (start_index : nat)
    (parse_shorthand : bool) (ctx : attrlist_context)
  : res (element_attribute * (nat * list warning_type)) :=
  source <- discard (span_new src) start_index ;;
  na <- ea_parse_name source ;;
  ws <- take_whitespace_with_newline (snd na) ;;
  let after := mi_after ws in
  v <- ea_parse_value after parse_shorthand ;;
  value0 <- cowstr_from_source_and_span src borrowed (mi_item (fst v)) ;;
  value <- ea_finish_value norm ctx (hd_error (sp_data after)) value0 ;;
  sh <- match fst na with
        | None => if fst (snd v) then parse_shorthand_items value else Ok ([], [])
        | Some _ => Ok ([], [])
        end ;;
  name <- match fst na with
          | Some n => t <- cowstr_from_source_and_span src borrowed n ;; Ok (Some t)
          | None => Ok None
          end ;;
  Ok (mkea name value (fst sh), (sp_off (mi_after (fst v)), snd (snd v) ++ snd sh)).

(** [&value[a..b]]. *)
Definition str_range (a b : nat) (t : text) : res text := x <- str_to b t ;; str_from a x.
(** attributes/element_attribute.rs:134-159 [shorthand_items]. *)
Fixpoint shorthand_items_go (value : text) (idx : list nat) : res (list text) :=
  match idx with
  | [] => Ok []
  | curr :: idx' =>
      item <- match idx' with next :: _ => str_range curr next value | [] => str_from curr value end ;;
      rest <- shorthand_items_go value idx' ;;
      Ok (if text_eqb item [HASH] || text_eqb item [DOT] || text_eqb item [PERCENT] then rest
          else match trim_end item with [] => rest | i => i :: rest end)
  end.
Definition shorthand_items (a : element_attribute) : res (list text) :=
  shorthand_items_go (ea_value a) (ea_idx a).
(** attributes/element_attribute.rs:162-167 [block_style]. *)
Definition ea_block_style (a : element_attribute) : res (option text) :=
  items <- shorthand_items a ;;
  Ok (match items with
      | v :: _ => if existsb is_shorthand_delimiter v then None else Some v
      | [] => None
      end).
(** [&v[1..]] of the items that start with a given delimiter; common part of 202-207, 230-236
    and 302-308. *)
Fixpoint after_marker (c : char) (l : list text) : res (list text) :=
  match l with
  | [] => Ok []
  | v :: r =>
      rest <- after_marker c r ;;
      if starts_with [c] v then (x <- str_from 1 v ;; Ok (x :: rest)) else Ok rest
  end.
(** attributes/element_attribute.rs:202-207 [id].  Rust slices the first match only; the slices of
    the others cannot fail either (they start with an ASCII character). *)
Definition ea_id (a : element_attribute) : res (option text) :=
  items <- shorthand_items a ;; l <- after_marker HASH items ;; Ok (hd_error l).
(** attributes/element_attribute.rs:230-236 [roles]. *)
Definition ea_roles (a : element_attribute) : res (list text) :=
  items <- shorthand_items a ;; after_marker DOT items.
(** attributes/element_attribute.rs:302-308 [options]. *)
Definition ea_options (a : element_attribute) : res (list text) :=
  items <- shorthand_items a ;; after_marker PERCENT items.

(** attributes/attrlist.rs:20-25 [struct Attrlist]. *)
Record attrlist := mkal { al_attrs : list element_attribute; al_anchor : option text; al_source : span }.
Definition attrlist_default : attrlist := mkal [] None span_default.

Definition is_nil {A} (l : list A) : bool := match l with [] => true | _ => false end.
Definition unnamed (a : element_attribute) : bool := match ea_name a with None => true | _ => false end.

(** attributes/attrlist.rs:68-128: the loop, with fuel: [(attributes, (warnings, after_index))]. *)
Fixpoint attrlist_loop (norm : text -> res text) (fuel : nat) (src : text) (borrowed : bool)
    (ctx : attrlist_context) (attributes : list element_attribute) (parse_shorthand : bool)
    (warnings : list warning_type) (index : nat)
  : res (list element_attribute * (list warning_type * nat)) :=
  match fuel with
  | 0 => OutOfFuel
  | S f =>
      r <- ea_parse norm src borrowed index parse_shorthand ctx ;;
      let attr := fst r in
      let warnings := warnings ++ snd (snd r) in
      let parse_shorthand := if unnamed attr then false else parse_shorthand in
      after <- discard (span_new src) (fst (snd r)) ;;
      if unnamed attr && is_nil (ea_value attr) && is_nil (sp_data after) && is_nil attributes
      then Ok (attributes, (warnings, index))
      else
        let attributes := if unnamed attr || negb (text_eqb (ea_value attr) (lit "None"))
                          then attributes ++ [attr] else attributes in
        ws <- take_whitespace after ;;
        oc <- take_prefix (mi_after ws) (lit ",") ;;
        match oc with
        | Some comma =>
            ws <- take_whitespace (mi_after comma) ;;
            if starts_with [COMMA] (sp_data (mi_after ws)) then
              after <- discard (mi_after ws) 1 ;;
              attrlist_loop norm f src borrowed ctx attributes parse_shorthand
                            (warnings ++ [WEmptyAttributeValue]) (sp_off after)
            else attrlist_loop norm f src borrowed ctx attributes parse_shorthand warnings
                               (sp_off (mi_after ws))
        | None => Ok (attributes, (warnings, sp_off (mi_after ws)))
        end
  end.
(** attributes/attrlist.rs:32-148 [Attrlist::parse]. *)
Definition attrlist_parse (U : unicode) (norm : text -> res text) (P : parser) (source : span)
    (ctx : attrlist_context) : res (mitem attrlist * list warning) :=
  let substituted := has_char 123%N (sp_data source) && has_char 125%N (sp_data source) in
  src <- (if substituted then apply_attributes U P (sp_data source) else Ok (sp_data source)) ;;
  after <- discard_all source ;;
  if starts_with (lit "[") src && ends_with (lit "]") src then
    anchor <- str_range 1 (blen src - 1) src ;;
    Ok (mkmi (mkal [] (Some anchor) source) after, [])
  else
    r <- attrlist_loop norm (S (length src)) src (negb substituted) ctx [] true [] 0 ;;
    let warnings := fst (snd r) ++
      (if snd (snd r) <? blen src then [WMissingCommaAfterQuotedAttributeValue] else []) in
    Ok (mkmi (mkal (fst r) None source) after, map (mkwarn source) warnings).

(** attributes/attrlist.rs:162-170 [named_attribute]. *)
Definition named_attribute (a : attrlist) (name : text) : option element_attribute :=
  find (fun e => match ea_name e with Some n => text_eqb n name | None => false end) (al_attrs a).
(** attributes/attrlist.rs:176-185 [nth_attribute]. *)
Definition nth_attribute (a : attrlist) (n : nat) : option element_attribute :=
  match n with 0 => None | S k => nth_error (filter unnamed (al_attrs a)) k end.
(** attributes/attrlist.rs:194-201 [named_or_positional_attribute]. *)
Definition named_or_positional_attribute (a : attrlist) (name : text) (index : nat)
  : option element_attribute :=
  match named_attribute a name with Some e => Some e | None => nth_attribute a index end.

(** attributes/attrlist.rs:273-279, 361-367 and 377-383: the pieces between runs of [sep]. *)
Fixpoint pieces_loop (sep : char) (fuel : nat) (s : span) : res (list text) :=
  match sp_data s with
  | [] => Ok []
  | _ =>
      match fuel with
      | 0 => OutOfFuel
      | S f =>
          mi <- take_while s (fun c => negb (c =? sep)%N) ;;
          ws <- take_while (mi_after mi) (fun c => (c =? sep)%N) ;;
          rest <- pieces_loop sep f (mi_after ws) ;;
          Ok (match sp_data (mi_item mi) with [] => rest | d => d :: rest end)
      end
  end.
Definition pieces (sep : char) (t : text) : res (list text) :=
  ws <- take_while (span_new t) (fun c => (c =? sep)%N) ;;
  pieces_loop sep (length t) (mi_after ws).

Definition opt_list {A B} (o : option A) (f : A -> res (list B)) : res (list B) :=
  match o with Some a => f a | None => Ok [] end.
(** attributes/attrlist.rs:233-239 [id]. *)
Definition al_id (a : attrlist) : res (option text) :=
  match al_anchor a with
  | Some t => Ok (Some t)
  | None =>
      o <- match nth_attribute a 1 with Some e => ea_id e | None => Ok None end ;;
      Ok (match o with
          | Some i => Some i
          | None => option_map ea_value (named_attribute a (lit "id"))
          end)
  end.
(** attributes/attrlist.rs:262-285 [roles]. *)
Definition al_roles (a : attrlist) : res (list text) :=
  r1 <- opt_list (nth_attribute a 1) ea_roles ;;
  r2 <- opt_list (named_attribute a (lit "role")) (fun e => pieces SP (ea_value e)) ;;
  Ok (r1 ++ r2).
(** attributes/attrlist.rs:350-389 [options]. *)
Definition al_options (a : attrlist) : res (list text) :=
  o1 <- opt_list (nth_attribute a 1) ea_options ;;
  o2 <- opt_list (named_attribute a (lit "opts")) (fun e => pieces COMMA (ea_value e)) ;;
  o3 <- opt_list (named_attribute a (lit "options")) (fun e => pieces COMMA (ea_value e)) ;;
  Ok (o1 ++ o2 ++ o3).
(** attributes/attrlist.rs:396-401 [has_option]. *)
Definition al_has_option (a : attrlist) (name : text) : res bool :=
  o <- al_options a ;; Ok (existsb (text_eqb name) o).
(** attributes/attrlist.rs:404-406 [block_style]. *)
Definition al_block_style (a : attrlist) : res (option text) :=
  match nth_attribute a 1 with Some e => ea_block_style e | None => Ok None end.
