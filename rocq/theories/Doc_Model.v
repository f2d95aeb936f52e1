(** Model of the document: parser/src/document/document.rs and parser/parser.rs [parse]. *)
From Verif Require Import Text Maps Span_Model Catalog_Model Parser_Model SourceMap_Model Subs_Model Attrlist_Model Entry_Model
  Pre_Model Group_Model SecId_Model Header_Model Block_Model.

(** [str::parse::<usize>] for a 64-bit [usize]: an optional plus sign, then decimal digits. *)
Definition parse_usize (t : text) : option nat :=
  let d := match t with c :: r => if (c =? 43)%N then r else t | [] => [] end in
  match d with
  | [] => None
  | _ =>
      if forallb is_ascii_digit d then
        let n := fold_left (fun acc c => (acc * 10 + (c - 48))%N) d 0%N in
        if (n <=? usize_max)%N then Some (N.to_nat n) else None
      else None
  end.
(** document/document.rs:68-72. *)
Definition sectnumlevels (P : parser) : nat :=
  match as_maybe_str (attribute_value P (lit "sectnumlevels")) with
  | Some s => match parse_usize s with Some n => n | None => 3 end
  | None => 3
  end.
(** blocks/preamble.rs:20-35 [Preamble::from_blocks]. *)
Definition preamble_from_blocks (blocks : list block) (source : span) : res block :=
  src <- match rev blocks with
         | last :: _ => after_last <- discard_all (block_span last) ;; trim_remainder source after_last
         | [] => trim_remainder source source
         end ;;
  Ok (BPreamble blocks src).
(** document/document.rs:84-100: the index at which the first section starts, when there is content before it. *)
Fixpoint preamble_split (index : nat) (has_content : bool) (l : list block) : option nat :=
  match l with
  | [] => None
  | BAttribute _ :: r => preamble_split (S index) has_content r
  | BSection _ _ _ _ _ _ _ _ :: _ => if has_content then Some index else None
  | _ :: r => preamble_split (S index) true r
  end.
(** document/document.rs:102-109. *)
Definition make_preamble (blocks : list block) (after_header : span) : res (list block) :=
  match preamble_split 0 false blocks with
  | Some index =>
      p <- preamble_from_blocks (firstn index blocks) after_header ;; Ok (p :: skipn index blocks)
  | None => Ok blocks
  end.
(** document/document.rs:39-46 [InternalDependent]. *)
Record document := mkdoc {
  d_header : header; d_blocks : list block; d_source : span; d_warnings : list warning;
  d_source_map : source_map; d_catalog : catalog }.
(** parser/parser.rs:247-249 [take_catalog]. *)
Definition take_catalog (P : parser) : catalog * parser :=
  (match p_catalog P with Some c => c | None => catalog_new end, with_catalog P None).
(** document/document.rs:59-125 [Document::parse]; the fuel is that of the loop over the blocks. *)
Definition document_parse (E : env) (fuel : nat) (source : text) (sm : source_map) (P : parser) : res (document * parser) :=
  let src := span_new source in
  h <- header_parse E src P ;;
  let after_header := mi_after (fst h) in
  let P := snd (snd h) in
  let P := with_levels P (sectnumlevels P) in
  b <- parse_blocks_until E fuel never 0 after_header P ;;
  blocks <- make_preamble (br_blocks b) after_header ;;
  s <- trim_trailing_whitespace src ;;
  let cp := take_catalog (br_parser b) in
  Ok (mkdoc (mi_item (fst h)) blocks s (fst (snd h) ++ br_warnings b) sm (fst cp), snd cp).
(** parser/parser.rs:115-128 [Parser::parse]; the preprocessor has a copy of the parser. *)
Definition parser_parse (E : env) (ifh : include_handler) (pre_fuel fuel : nat) (source : text) (P : parser)
  : res (document * parser) :=
  p <- preprocess (e_u E) (apply_header_subs E) (norm_of E) ifh pre_fuel source P ;;
  document_parse E fuel (fst p) (snd p) (begin_parse P).
