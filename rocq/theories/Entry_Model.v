(** Model of attribute entries: parser/src/document/attribute.rs.  The Header substitution group is
    the argument [hdr]. *)
From Verif Require Import Text Span_Model Parser_Model.

(** document/attribute.rs:184-204: one line of a value that spans several lines. *)
Definition fold_line (count last_count : nat) (line : text) : text :=
  let line := if 0 <? count then trim_start_by (N.eqb SP) line else line in
  let line := trim_end_by (N.eqb SP) (trim_end_by (N.eqb BSL) (trim_end_by (N.eqb SP) (trim_start_by (N.eqb CR) line))) in
  if ends_with [43%N] line then trim_end_by (N.eqb SP) (trim_end_by (N.eqb 43%N) line) ++ [LF]
  else if count <? last_count then line ++ [SP]
  else line.
(** document/attribute.rs:177-208: [enumerate], [map], [join("")]. *)
Fixpoint fold_lines_go (count last_count : nat) (lines : list text) : text :=
  match lines with [] => [] | l :: r => fold_line count last_count l ++ fold_lines_go (S count) last_count r end.
Definition fold_value (data : text) : res text :=
  if has_char LF data then
    let lines := str_lines data in
    last_count <- checked_sub (length lines) 1 ;;
    Ok (fold_lines_go 0 last_count lines)
  else Ok data.
(** document/attribute.rs:173-213 [InterpretedValue::from_raw_value]. *)
Definition from_raw_value (hdr : parser -> text -> res text) (raw : span) (P : parser) : res ivalue :=
  t <- fold_value (sp_data raw) ;; o <- hdr P t ;; Ok (VValue o).

(** document/attribute.rs:40-86 [Attribute::parse]. *)
Definition attribute_parse (hdr : parser -> text -> res text) (source : span) (P : parser) : res (option (mitem attribute)) :=
  o <- take_line_with_continuation source ;;
  match o with
  | None => Ok None
  | Some attr_line =>
      o <- take_prefix (mi_item attr_line) (lit ":") ;;
      match o with
      | None => Ok None
      | Some colon =>
          let unset1 := starts_with (lit "!") (sp_data (mi_after colon)) in
          line <- (if unset1 then slice_from (mi_after colon) 1 else Ok (mi_after colon)) ;;
          o <- take_user_attr_name line ;;
          match o with
          | None => Ok None
          | Some name =>
              let unset2 := starts_with (lit "!") (sp_data (mi_after name)) && negb unset1 in
              line <- (if unset2 then slice_from (mi_after name) 1 else Ok (mi_after name)) ;;
              o <- take_prefix line (lit ":") ;;
              match o with
              | None => Ok None
              | Some line =>
                  v <- (if unset1 || unset2 then Ok (VUnset, None)
                        else if (match sp_data (mi_after line) with [] => true | _ => false end) then Ok (VSet, None)
                        else
                          raw <- take_whitespace (mi_after line) ;;
                          value <- from_raw_value hdr (mi_after raw) P ;;
                          Ok (value, Some (mi_after raw))) ;;
                  src <- trim_remainder source (mi_after attr_line) ;;
                  src <- trim_trailing_whitespace src ;;
                  Ok (Some (mkmi (mkattr (mi_item name) (snd v) (fst v) src) (mi_after attr_line)))
              end
          end
      end
  end.
