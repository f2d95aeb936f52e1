(** Model of the block layer: parser/src/blocks/metadata.rs, simple.rs, raw_delimited.rs,
    compound_delimited.rs, media.rs, break.rs, section.rs, block.rs, parse_utils.rs, is_block.rs. *)
From Verif Require Import Text Maps Span_Model Catalog_Model Parser_Model Subs_Model Attrlist_Model Entry_Model
  Group_Model SecId_Model Header_Model.

(** content/content.rs [Content]: the source and the text after the substitutions so far. *)
Record content := mkct { ct_original : span; ct_rendered : text }.
(** content/substitution_group.rs:165-187 [apply] with the attribute list of a block.  The option is
    read by the last substitution only; reading it has no effect. *)
Definition hardbreaks (a : option attrlist) : res bool :=
  match a with Some a => al_has_option a (lit "hardbreaks") | None => Ok false end.
Definition apply_subs (E : env) (P : parser) (g : group) (a : option attrlist) (t : text) : res text :=
  hb <- hardbreaks a ;; e_sub E P g hb t.
(** The substitutions of a single-quoted value in an attribute list. *)
Definition norm_of (E : env) (P : parser) (t : text) : res text := e_sub E P GNormal false t.

(** * Block metadata *)
(** blocks/metadata.rs:15-40 [BlockMetadata]. *)
Record metadata := mkmd {
  md_title_source : option span; md_title : option text; md_anchor : option span;
  md_reftext : option span; md_attrlist : option attrlist; md_source : span; md_start : span }.

Definition span_eqb (a b : span) : bool :=
  text_eqb (sp_data a) (sp_data b) && (sp_line a =? sp_line b) && (sp_col a =? sp_col b) && (sp_off a =? sp_off b).
(** blocks/metadata.rs:195-236 [parse_maybe_block_anchor]. *)
Definition parse_maybe_block_anchor (source : span) : res (option (mitem span) * list warning) :=
  if starts_with (lit "[[") (sp_data source) then
    mi <- take_normalized_line source ;;
    let line := mi_item mi in
    if ends_with (lit "]]") (sp_data line) then
      e <- checked_sub (blen (sp_data line)) 2 ;;
      anchor_src <- slice line 2 e ;;
      if is_nil (sp_data anchor_src) then Ok (None, [mkwarn anchor_src WEmptyBlockAnchorName])
      else Ok (Some (mkmi anchor_src (mi_after mi)), [])
    else Ok (None, [])
  else Ok (None, []).
(** blocks/metadata.rs:238-281 [parse_maybe_attrlist_line]. *)
Definition parse_maybe_attrlist_line (E : env) (source : span) (P : parser)
  : res (option (mitem attrlist * list warning)) :=
  if starts_with (lit "[") (sp_data source) then
    mi <- take_normalized_line source ;;
    let line := mi_item mi in
    if ends_with (lit "]") (sp_data line) then
      e <- checked_sub (blen (sp_data line)) 1 ;;
      attrlist_src <- slice line 1 e ;;
      let d := sp_data attrlist_src in
      if starts_with [SP] d || starts_with [TAB] d || (starts_with (lit "[") d && ends_with (lit "]") d) then Ok None
      else
        r <- attrlist_parse (e_u E) (norm_of E P) P attrlist_src CtxBlock ;;
        Ok (Some (mkmi (mi_item (fst r)) (mi_after mi), snd r))
    else Ok None
  else Ok None.
(** The local variables of the loop of blocks/metadata.rs:58-62. *)
Record mdstate := mkms {
  ms_title : option span; ms_anchor : option span; ms_reftext : option span;
  ms_attrlist : option attrlist; ms_start : span; ms_warnings : list warning }.
(** blocks/metadata.rs:67-78: [Some] is the [continue]. *)
Definition md_title_step (m : mdstate) : res (option mdstate) :=
  match ms_title m with
  | Some _ => Ok None
  | None =>
      mt <- take_normalized_line (ms_start m) ;;
      let line := mi_item mt in
      if starts_with (lit ".") (sp_data line) && negb (starts_with (lit "..") (sp_data line)) then
        title <- discard line 1 ;;
        ws <- take_whitespace title ;;
        if is_nil (sp_data (mi_item ws))
        then Ok (Some (mkms (Some title) (ms_anchor m) (ms_reftext m) (ms_attrlist m) (mi_after mt) (ms_warnings m)))
        else Ok None
      else Ok None
  end.
(** blocks/metadata.rs:80-128: the new state and whether it is a [continue]. *)
Definition md_anchor_step (U : unicode) (m : mdstate) : res (mdstate * bool) :=
  match ms_anchor m with
  | Some _ => Ok (m, false)
  | None =>
      aw <- parse_maybe_block_anchor (ms_start m) ;;
      let warnings := ms_warnings m ++ snd aw in
      match fst aw with
      | None => Ok (mkms (ms_title m) None (ms_reftext m) (ms_attrlist m) (ms_start m) warnings, false)
      | Some mi =>
          let data := sp_data (mi_item mi) in
          m' <- match position (N.eqb COMMA) data with
                | Some comma_position =>
                    last <- checked_sub (blen data) 1 ;;
                    if comma_position <? last then
                      anchor_span <- slice_to (mi_item mi) comma_position ;;
                      reftext_span <- slice_from (mi_item mi) (comma_position + 1) ;;
                      Ok (if is_xml_name U (sp_data anchor_span)
                          then mkms (ms_title m) (Some anchor_span) (Some reftext_span) (ms_attrlist m) (mi_after mi) warnings
                          else mkms (ms_title m) None (ms_reftext m) (ms_attrlist m) (ms_start m)
                                 (warnings ++ [mkwarn anchor_span WInvalidBlockAnchorName]))
                    else
                      Ok (if is_xml_name U data
                          then mkms (ms_title m) (Some (mi_item mi)) (ms_reftext m) (ms_attrlist m) (mi_after mi) warnings
                          else mkms (ms_title m) None (ms_reftext m) (ms_attrlist m) (ms_start m)
                                 (warnings ++ [mkwarn (mi_item mi) WInvalidBlockAnchorName]))
                | None =>
                    Ok (if is_xml_name U data
                        then mkms (ms_title m) (Some (mi_item mi)) (ms_reftext m) (ms_attrlist m) (mi_after mi) warnings
                        else mkms (ms_title m) None (ms_reftext m) (ms_attrlist m) (ms_start m)
                               (warnings ++ [mkwarn (mi_item mi) WInvalidBlockAnchorName]))
                end ;;
          Ok (m', negb (span_eqb (ms_start m') (ms_start m)))
      end
  end.
(** blocks/metadata.rs:130-148. *)
Definition md_attrlist_step (E : env) (P : parser) (m : mdstate) : res (mdstate * bool) :=
  match ms_attrlist m with
  | Some _ => Ok (m, false)
  | None =>
      o <- parse_maybe_attrlist_line E (ms_start m) P ;;
      Ok (match o with
          | Some aw => (mkms (ms_title m) (ms_anchor m) (ms_reftext m) (Some (mi_item (fst aw))) (mi_after (fst aw))
                          (ms_warnings m ++ snd aw), true)
          | None => (m, false)
          end)
  end.
(** blocks/metadata.rs:64-152: the loop, with fuel. *)
Fixpoint md_loop (E : env) (P : parser) (fuel : nat) (m : mdstate) : res mdstate :=
  match fuel with
  | 0 => OutOfFuel
  | S f =>
      o <- md_title_step m ;;
      match o with
      | Some m' => md_loop E P f m'
      | None =>
          a <- md_anchor_step (e_u E) m ;;
          if snd a then md_loop E P f (fst a)
          else
            l <- md_attrlist_step E P (fst a) ;;
            if snd l then md_loop E P f (fst l) else Ok (fst l)
      end
  end.
(** blocks/metadata.rs:51-172 [BlockMetadata::parse].  Each [continue] fills one of three
    variables, so four rounds suffice. *)
Definition metadata_parse (E : env) (source : span) (P : parser) : res (metadata * list warning) :=
  source <- discard_empty_lines source ;;
  m <- md_loop E P 4 (mkms None None None None source []) ;;
  title <- match ms_title m with
           | Some s => t <- e_sub E P GNormal false (sp_data s) ;; Ok (Some t)
           | None => Ok None
           end ;;
  Ok (mkmd (ms_title m) title (ms_anchor m) (ms_reftext m) (ms_attrlist m) source (ms_start m), ms_warnings m).
(** blocks/metadata.rs:175-177 [is_empty]. *)
Definition md_is_empty (m : metadata) : bool := negb (is_some (md_title m)) && negb (is_some (md_attrlist m)).
(** blocks/metadata.rs:184-192 [is_discrete]. *)
Definition style_of (a : option attrlist) : res (option text) :=
  match a with Some a => al_block_style a | None => Ok None end.
Definition style_is (o : option text) (t : text) : bool := match o with Some s => text_eqb s t | None => false end.
Definition is_discrete (m : metadata) : res bool :=
  o <- style_of (md_attrlist m) ;; Ok (style_is o (lit "discrete") || style_is o (lit "float")).

(** * Blocks *)
(** The fields that every kind of block takes over from its metadata. *)
Record common := mkcm {
  cm_title_source : option span; cm_title : option text; cm_anchor : option span;
  cm_reftext : option span; cm_attrlist : option attrlist }.
Definition common_of (m : metadata) : common :=
  mkcm (md_title_source m) (md_title m) (md_anchor m) (md_reftext m) (md_attrlist m).
Definition no_common : common := mkcm None None None None None.
(** blocks/simple.rs:14-34 [SimpleBlockStyle]. *)
Inductive simple_style := StParagraph | StLiteral | StListing | StSource.
(** blocks/is_block.rs:286-308 [ContentModel]; the variants that occur. *)
Inductive content_model := CmCompound | CmSimple | CmVerbatim | CmRaw | CmEmpty.
(** blocks/media.rs:26-35 [MediaType]; blocks/break.rs:22-28 [BreakType]. *)
Inductive media_type := MImage | MVideo | MAudio.
Inductive break_type := BThematic | BPage.
(** blocks/block.rs:44-90 [Block] and the structures it holds: blocks/simple.rs:50-59,
    media.rs:12-22, section.rs:24-37, raw_delimited.rs:23-34, compound_delimited.rs:26-35,
    preamble.rs:14-17, break.rs:11-18. *)
Inductive block :=
| BSimple (c : content) (source : span) (style : simple_style) (m : common)
| BMedia (ty : media_type) (target : span) (macro_attrlist : attrlist) (source : span) (m : common)
| BSection (level : nat) (title : content) (blocks : list block) (source : span) (m : common)
           (ty : section_type) (id : option text) (number : option section_number)
| BRaw (c : content) (model : content_model) (context : text) (source : span) (m : common) (g : group)
| BCompound (blocks : list block) (context : text) (source : span) (m : common)
| BPreamble (blocks : list block) (source : span)
| BBreak (ty : break_type) (source : span) (m : common)
| BAttribute (a : attribute).

(** [HasSpan::span] of each kind. *)
Definition block_span (b : block) : span :=
  match b with
  | BSimple _ s _ _ | BMedia _ _ _ s _ | BSection _ _ _ s _ _ _ _ | BRaw _ _ _ s _ _ | BCompound _ _ s _
  | BPreamble _ s | BBreak _ s _ => s
  | BAttribute a => at_source a
  end.
Definition nested_blocks (b : block) : list block :=
  match b with
  | BSection _ _ l _ _ _ _ _ | BCompound l _ _ _ | BPreamble l _ => l
  | _ => []
  end.
(** blocks/is_block.rs:146-150 [id], which blocks/section.rs:239-246 extends. *)
Definition common_id (m : common) : res (option text) :=
  match cm_anchor m with
  | Some a => Ok (Some (sp_data a))
  | None => match cm_attrlist m with Some a => al_id a | None => Ok None end
  end.
Definition block_common (b : block) : common :=
  match b with
  | BSimple _ _ _ m | BMedia _ _ _ _ m | BSection _ _ _ _ m _ _ _ | BRaw _ _ _ _ m _ | BCompound _ _ _ m | BBreak _ _ m => m
  | BPreamble _ _ | BAttribute _ => no_common
  end.
(** [id] of the structure in a block; the [Block] around it has another one, [enum_id] in Access_Model. *)
Definition block_id (b : block) : res (option text) :=
  o <- common_id (block_common b) ;;
  Ok (match o, b with
      | Some t, _ => Some t
      | None, BSection _ _ _ _ _ _ sid _ => sid
      | None, _ => None
      end).

(** blocks/block.rs:341-362 [register_block_id]. *)
Definition register_block_id (id title : option text) (sp : span) (P : parser) : parser * list warning :=
  match id, p_catalog P with
  | Some i, Some c =>
      let r := register_ref c i title RAnchor in
      (with_catalog P (Some (snd r)), if fst r then [] else [mkwarn sp (WDuplicateId i)])
  | _, _ => (P, [])
  end.

(** * Delimiters *)
(** blocks/raw_delimited.rs:37-59 [is_valid_delimiter]; [split_at] panics inside a character. *)
Definition rest_is (c : char) (data : text) : res bool := r <- str_from 4 data ;; Ok (forallb (N.eqb c) r).
Definition raw_is_valid_delimiter (data : text) : res bool :=
  if 4 <=? blen data then
    if starts_with (lit "////") data then rest_is 47%N data
    else if starts_with (lit "----") data then rest_is 45%N data
    else if starts_with (lit "....") data then rest_is 46%N data
    else if starts_with (lit "++++") data then rest_is 43%N data
    else Ok false
  else Ok false.
(** blocks/compound_delimited.rs:38-62 [is_valid_delimiter]. *)
Definition compound_is_valid_delimiter (data : text) : res bool :=
  if text_eqb data (lit "--") then Ok true
  else if 4 <=? blen data then
    if starts_with (lit "====") data then rest_is 61%N data
    else if starts_with (lit "****") data then rest_is 42%N data
    else if starts_with (lit "____") data then rest_is 95%N data
    else Ok false
  else Ok false.

(** * Paragraphs *)
(** blocks/simple.rs:135-163: the style. *)
Definition simple_style_of (indented : bool) (block_style : option text) : simple_style :=
  if style_is block_style (lit "normal") then StParagraph
  else if style_is block_style (lit "literal") then StLiteral
  else if style_is block_style (lit "listing") then StListing
  else if style_is block_style (lit "source") then StSource
  else if indented then StLiteral else StParagraph.
(** blocks/simple.rs:176-195: the lines that end a paragraph. *)
Definition starts_with_any (cs : text) (t : text) : bool :=
  match t with c :: _ => has_char c cs | [] => false end.
Definition is_stop_line (line : text) : res bool :=
  if text_eqb line (lit "+") then Ok true
  else if starts_with (lit "[") line && ends_with (lit "]") line then Ok true
  else if starts_with_any (lit "/-.+=*_") line then
    r <- raw_is_valid_delimiter line ;;
    if r then Ok true else compound_is_valid_delimiter line
  else Ok false.
Definition is_comment_line (line : text) : bool :=
  starts_with (lit "//") line && negb (starts_with (lit "///") line).
(** blocks/simple.rs:204-212: a line as it is kept. *)
Definition kept_line (strip_indent : nat) (line : span) : res text :=
  line <- match (0 <? strip_indent), position (fun c => negb (is_sp_tab c)) (sp_data line) with
          | true, Some n => mi <- into_parse_result line (Nat.min n strip_indent) ;; Ok (mi_after mi)
          | _, _ => Ok line
          end ;;
  l <- trim_trailing_whitespace line ;;
  Ok (sp_data l).
(** blocks/simple.rs:168-213: the loop, with fuel: the lines kept and the source left. *)
Fixpoint simple_lines (fuel : nat) (strip_indent : nat) (next : span) (filtered : list text)
  : res (list text * span) :=
  o <- take_non_empty_line next ;;
  match o with
  | None => Ok (filtered, next)
  | Some line_mi =>
      let line := mi_item line_mi in
      stop <- (match filtered with [] => Ok false | _ => is_stop_line (sp_data line) end) ;;
      if (stop : bool) then Ok (filtered, next)
      else
        match fuel with
        | 0 => OutOfFuel
        | S f =>
            if is_comment_line (sp_data line) then simple_lines f strip_indent (mi_after line_mi) filtered
            else k <- kept_line strip_indent line ;;
                 simple_lines f strip_indent (mi_after line_mi) (filtered ++ [k])
        end
  end.
(** blocks/simple.rs:127-231 [parse_lines]. *)
Definition parse_lines (E : env) (source : span) (a : option attrlist) (P : parser)
  : res (option (mitem (content * simple_style))) :=
  saw <- discard_whitespace source ;;
  strip_indent <- checked_sub (sp_col saw) 1 ;;
  bs <- style_of a ;;
  let style := simple_style_of (negb (sp_col saw =? sp_col source)) bs in
  r <- simple_lines (length (sp_data source)) strip_indent source [] ;;
  src <- trim_remainder source (snd r) ;;
  src <- trim_trailing_whitespace src ;;
  if is_nil (sp_data src) then Ok None
  else
    g <- override_via_attrlist GNormal a ;;
    t <- apply_subs E P g a (join [LF] (fst r)) ;;
    after <- discard_empty_lines (snd r) ;;
    Ok (Some (mkmi (mkct src t, style) after)).
(** blocks/simple.rs:62-87 [SimpleBlock::parse]. *)
Definition simple_parse (E : env) (m : metadata) (P : parser) : res (option (mitem block)) :=
  o <- parse_lines E (md_start m) (md_attrlist m) P ;;
  match o with
  | None => Ok None
  | Some mi =>
      src <- trim_remainder (md_source m) (mi_after mi) ;;
      src <- trim_trailing_whitespace src ;;
      after <- discard_empty_lines (mi_after mi) ;;
      Ok (Some (mkmi (BSimple (fst (mi_item mi)) src (snd (mi_item mi)) (common_of m)) after))
  end.
(** blocks/simple.rs:89-113 [SimpleBlock::parse_fast]. *)
Definition simple_parse_fast (E : env) (source : span) (P : parser) : res (option (mitem block)) :=
  o <- parse_lines E source None P ;;
  match o with
  | None => Ok None
  | Some mi =>
      after <- discard_empty_lines (mi_after mi) ;;
      Ok (Some (mkmi (BSimple (fst (mi_item mi)) (ct_original (fst (mi_item mi))) (snd (mi_item mi)) no_common) after))
  end.

(** * Raw delimited blocks *)
(** blocks/raw_delimited.rs:71-86; comparing the first four bytes with ASCII text. *)
Definition raw_kind (data : text) : option (content_model * (text * group)) :=
  if starts_with (lit "////") data then Some (CmRaw, (lit "comment", GNone))
  else if starts_with (lit "----") data then Some (CmVerbatim, (lit "listing", GVerbatim))
  else if starts_with (lit "....") data then Some (CmVerbatim, (lit "literal", GVerbatim))
  else if starts_with (lit "++++") data then Some (CmRaw, (lit "pass", GPass))
  else None.
(** blocks/raw_delimited.rs:95-131 and compound_delimited.rs:90-100: the search for the closing
    delimiter, with fuel: where it was found, or the end of the text; in both cases with the rest
    of the text there. *)
Fixpoint find_delimiter (fuel : nat) (delimiter : text) (next : span) : res (span * option (mitem span)) :=
  match sp_data next with
  | [] => Ok (next, None)
  | _ =>
      match fuel with
      | 0 => OutOfFuel
      | S f =>
          line <- take_normalized_line next ;;
          if text_eqb (sp_data (mi_item line)) delimiter then Ok (next, Some line)
          else find_delimiter f delimiter (mi_after line)
      end
  end.
(** blocks/raw_delimited.rs:61-159 [RawDelimitedBlock::parse]. *)
Definition raw_parse (E : env) (m : metadata) (P : parser) : res (option (mitem block * list warning)) :=
  delimiter <- take_normalized_line (md_start m) ;;
  let d := sp_data (mi_item delimiter) in
  if blen d <? 4 then Ok None
  else
    match raw_kind d with
    | None => Ok None
    | Some (model, (context, g)) =>
        valid <- raw_is_valid_delimiter d ;;
        if negb valid then Ok None
        else
          let start := mi_after delimiter in
          r <- find_delimiter (length (sp_data start)) d start ;;
          c <- trim_remainder start (fst r) ;;
          c <- trim_trailing_line_end c ;;
          match snd r with
          | Some line =>
              g <- override_via_attrlist g (md_attrlist m) ;;
              t <- apply_subs E P g (md_attrlist m) (sp_data c) ;;
              src <- trim_remainder (md_source m) (mi_after line) ;;
              src <- trim_trailing_line_end src ;;
              Ok (Some (mkmi (BRaw (mkct c t) model context src (common_of m) g) (mi_after line), []))
          | None =>
              src <- trim_remainder (md_source m) (fst r) ;;
              src <- trim_trailing_line_end src ;;
              Ok (Some (mkmi (BRaw (mkct c (sp_data c)) model context src (common_of m) g) (fst r),
                        [mkwarn (mi_item delimiter) WUnterminatedDelimitedBlock]))
          end
    end.

(** * Blocks that hold blocks *)
(** What blocks/parse_utils.rs:10-47 [parse_blocks_until] gives: the blocks, the source left, the
    warnings, the state of the closure (the level last seen and the warnings that it gave), the parser. *)
Record bres := mkbr {
  br_blocks : list block; br_after : span; br_warnings : list warning;
  br_level : nat; br_stop_warnings : list warning; br_parser : parser }.
(** The closure [f]: from the source and the level last seen. *)
Definition stop_fn := span -> nat -> res (bool * (nat * list warning)).
Definition never : stop_fn := fun _ n => Ok (false, (n, [])).

(** blocks/compound_delimited.rs:74-83. *)
Definition compound_context (data : text) : option text :=
  match bsplit (Nat.min (blen data) 4) data with
  | None => None
  | Some (a, _) =>
      if text_eqb a (lit "====") then Some (lit "example")
      else if text_eqb a (lit "--") then Some (lit "open")
      else if text_eqb a (lit "****") then Some (lit "sidebar")
      else if text_eqb a (lit "____") then Some (lit "quote")
      else None
  end.
(** blocks/compound_delimited.rs:64-139 [CompoundDelimitedBlock::parse]; [until] is
    [parse_blocks_until(_, |_| false, _)]. *)
Definition compound_parse (until : span -> parser -> res bres) (m : metadata) (P : parser)
  : res (option (mitem block * (list warning * parser))) :=
  delimiter <- take_normalized_line (md_start m) ;;
  let d := sp_data (mi_item delimiter) in
  match compound_context d with
  | None => Ok None
  | Some context =>
      valid <- compound_is_valid_delimiter d ;;
      if negb valid then Ok None
      else
        let start := mi_after delimiter in
        r <- find_delimiter (length (sp_data start)) d start ;;
        let closing := match snd r with Some line => mi_item line | None => fst r end in
        let after := match snd r with Some line => mi_after line | None => fst r end in
        inside <- trim_remainder start closing ;;
        b <- until inside P ;;
        ca <- discard_all closing ;;
        src <- trim_remainder (md_source m) ca ;;
        src <- trim_trailing_whitespace src ;;
        Ok (Some (mkmi (BCompound (br_blocks b) context src (common_of m)) after,
                  ((if is_nil (sp_data closing)
                    then mkwarn (mi_item delimiter) WUnterminatedDelimitedBlock :: br_warnings b
                    else br_warnings b), br_parser b)))
  end.

(** * Media blocks and breaks *)
(** blocks/media.rs:69-79. *)
Definition media_type_of (name : text) : option media_type :=
  if text_eqb name (lit "image") then Some MImage
  else if text_eqb name (lit "video") then Some MVideo
  else if text_eqb name (lit "audio") then Some MAudio
  else None.
(** blocks/media.rs:119-120 and break.rs:54-55: the text of the block. *)
Definition line_block_source (m : metadata) (after : span) : res span :=
  src <- trim_remainder (md_source m) after ;;
  slice src 0 (blen (trim (sp_data src))).
(** blocks/media.rs:48-140 [MediaBlock::parse]. *)
Definition media_parse (E : env) (m : metadata) (P : parser) : res (option (mitem block) * list warning) :=
  line <- take_normalized_line (md_start m) ;;
  if negb (ends_with (lit "]") (sp_data (mi_item line))) then Ok (None, [])
  else
    o <- take_ident (mi_item line) ;;
    match o with
    | None => Ok (None, [])
    | Some name =>
        match media_type_of (sp_data (mi_item name)) with
        | None => Ok (None, [])
        | Some ty =>
            o <- take_prefix (mi_after name) (lit "::") ;;
            match o with
            | None => Ok (None, [mkwarn (mi_after name) WMacroMissingDoubleColon])
            | Some colons =>
                target <- take_while (mi_after colons) (fun c => negb (c =? 91)%N) ;;
                if is_nil (sp_data (mi_item target)) then Ok (None, [mkwarn (mi_after target) WMediaMacroMissingTarget])
                else
                  o <- take_prefix (mi_after target) (lit "[") ;;
                  match o with
                  | None => Ok (None, [mkwarn (mi_after target) WMacroMissingAttributeList])
                  | Some open_brace =>
                      e <- checked_sub (blen (sp_data (mi_after open_brace))) 1 ;;
                      al <- slice (mi_after open_brace) 0 e ;;
                      a <- attrlist_parse (e_u E) (norm_of E P) P al CtxInline ;;
                      src <- line_block_source m (mi_after line) ;;
                      after <- discard_empty_lines (mi_after line) ;;
                      Ok (Some (mkmi (BMedia ty (mi_item target) (mi_item (fst a)) src
                                        (mkcm (md_title_source m) (md_title m) (md_anchor m) None (md_attrlist m))) after),
                          snd a)
                  end
            end
        end
    end.
(** blocks/break.rs:46-52. *)
Definition break_type_of (line : text) : option break_type :=
  if existsb (text_eqb line) [lit "'''"; lit "---"; lit "- - -"; lit "***"; lit "* * *"] then Some BThematic
  else if text_eqb line (lit "<<<") then Some BPage
  else None.
(** blocks/break.rs:40-69 [Break::parse]; a break has no anchor text. *)
Definition break_parse (m : metadata) : res (option (mitem block)) :=
  line <- take_normalized_line (md_start m) ;;
  match break_type_of (sp_data (mi_item line)) with
  | None => Ok None
  | Some ty =>
      src <- line_block_source m (mi_after line) ;;
      after <- discard_empty_lines (mi_after line) ;;
      Ok (Some (mkmi (BBreak ty src (mkcm (md_title_source m) (md_title m) (md_anchor m) None (md_attrlist m))) after))
  end.

(** * Sections *)
(** blocks/section.rs:283-293: the number of marker characters and the rest of the line, with fuel. *)
Fixpoint count_marker (fuel : nat) (mark : text) (line : span) (count : nat) : res (nat * span) :=
  o <- take_prefix line mark ;;
  match o with
  | None => Ok (count, line)
  | Some mi => match fuel with 0 => OutOfFuel | S f => count_marker f mark (mi_after mi) (S count) end
  end.
(** blocks/section.rs:274-319 [parse_title_line]: the level and the title, and the warnings.
    [count - 1] is a [usize] subtraction. *)
Definition parse_title_line (source : span) : res (option (mitem (nat * span)) * list warning) :=
  o <- take_non_empty_line source ;;
  match o with
  | None => Ok (None, [])
  | Some mi =>
      let line := mi_item mi in
      c <- count_marker (length (sp_data line)) (if starts_with (lit "=") (sp_data line) then lit "=" else lit "#") line 0 ;;
      let count := fst c in
      if count =? 1 then
        w <- take_normalized_line source ;;
        Ok (None, [mkwarn (mi_item w) WLevel0SectionHeadingNotSupported])
      else if 6 <? count then
        w <- take_normalized_line source ;;
        Ok (None, [mkwarn (mi_item w) (WSectionHeadingLevelExceedsMaximum (count - 1))])
      else
        o <- take_required_whitespace (snd c) ;;
        match o with
        | None => Ok (None, [])
        | Some title => level <- checked_sub count 1 ;; Ok (Some (mkmi (level, mi_after title) (mi_after mi)), [])
        end
  end.
(** blocks/section.rs:321-357 [peer_or_ancestor_section].  The metadata is read with a parser of its
    own, whose warnings are dropped. *)
Definition peer_or_ancestor_section (E : env) (level : nat) : stop_fn := fun source most_recent_level =>
  md <- metadata_parse E source parser_default ;;
  d <- is_discrete (fst md) ;;
  if (d : bool) then Ok (false, (most_recent_level, []))
  else
    r <- parse_title_line (md_start (fst md)) ;;
    match fst r with
    | None => Ok (false, (most_recent_level, snd r))
    | Some mi =>
        let found_level := fst (mi_item mi) in
        w <- (if most_recent_level + 1 <? found_level then
                l <- take_normalized_line source ;;
                Ok [mkwarn (mi_item l) (WSectionHeadingLevelSkipped most_recent_level found_level)]
              else Ok []) ;;
        Ok (found_level <=? level, (found_level, snd r ++ w))
    end.
(** blocks/section.rs:88: the closure given to [parse_blocks_until]. *)
Definition section_stop (E : env) (discrete : bool) (level : nat) : stop_fn := fun source n =>
  if discrete then Ok (true, (n, [])) else peer_or_ancestor_section E level source n.
(** blocks/section.rs:56-73: the type of the section and the parser. *)
Definition section_type_of (discrete : bool) (level : nat) (block_style : option text) (P : parser)
  : section_type * parser :=
  if discrete then (SDiscrete, P)
  else if level =? 1 then
    let ty := if style_is block_style (lit "appendix") then SAppendix else SNormal in
    (ty, with_topmost P ty)
  else (p_topmost P, P).
(** blocks/section.rs:100-104 and 106-110. *)
Definition manual_id (m : metadata) : res (option text) :=
  o <- match md_attrlist m with Some a => al_id a | None => Ok None end ;;
  Ok (match o with Some i => Some i | None => option_map sp_data (md_anchor m) end).
Definition section_reftext (m : metadata) (title : text) : text :=
  match md_attrlist m with
  | Some a => match named_attribute a (lit "reftext") with Some e => ea_value e | None => title end
  | None => title
  end.
(** blocks/section.rs:112-135: the generated id, the parser and the warnings; [at_] is the source of the warning. *)
Definition section_register (sectids : bool) (manual : option text) (base reftext : text) (at_ : res span) (P : parser)
  : res (option text * (parser * list warning)) :=
  match p_catalog P with
  | None => Ok (None, (P, []))
  | Some c =>
      match manual with
      | None =>
          if sectids then
            r <- generate_unique c base (Some reftext) RSection ;;
            Ok (Some (fst r), (with_catalog P (Some (snd r)), []))
          else Ok (None, (P, []))
      | Some id =>
          let r := register_ref c id (Some reftext) RSection in
          if fst r then Ok (None, (with_catalog P (Some (snd r)), []))
          else s <- at_ ;; Ok (None, (P, [mkwarn s (WDuplicateId id)]))
      end
  end.
(** blocks/section.rs:40-161 [SectionBlock::parse]; [until] is [parse_blocks_until]. The result has
    the section, if there is one, and the warnings in any case. *)
Definition section_parse (E : env) (until : stop_fn -> nat -> span -> parser -> res bres) (m : metadata) (P : parser)
  : res (option (mitem block) * (list warning * parser)) :=
  discrete <- is_discrete m ;;
  source <- discard_empty_lines (md_start m) ;;
  lt <- parse_title_line source ;;
  match fst lt with
  | None => Ok (None, (snd lt, P))
  | Some level_and_title =>
      let sectids := is_attribute_set P (lit "sectids") in
      let level := fst (mi_item level_and_title) in
      bs <- style_of (md_attrlist m) ;;
      let tp := section_type_of discrete level bs P in
      let P := snd tp in
      let np := if is_attribute_set P (lit "sectnums") && (level <=? p_levels P) && negb discrete
                then let r := assign_section_number P level in (Some (fst r), snd r)
                else (None, P) in
      b <- until (section_stop E discrete level) level (mi_after level_and_title) (snd np) ;;
      let P := br_parser b in
      src <- trim_remainder (md_source m) (br_after b) ;;
      let title_span := snd (mi_item level_and_title) in
      title <- apply_subs E P GTitle (md_attrlist m) (sp_data title_span) ;;
      base <- generate_section_id (e_u E) title P ;;
      manual <- manual_id m ;;
      reg <- section_register sectids manual base (section_reftext m title)
               (trim_remainder (md_source m) (mi_after level_and_title)) P ;;
      let P := fst (snd reg) in
      let P := if (level =? 1) && negb discrete then with_topmost P SNormal else P in
      src <- trim_trailing_whitespace src ;;
      Ok (Some (mkmi (BSection level (mkct title_span title) (br_blocks b) src (common_of m) (fst tp) (fst reg) (fst np))
                  (br_after b)),
          (snd lt ++ br_stop_warnings b ++ snd (snd reg) ++ br_warnings b, P))
  end.

(** * Any block *)
(** What blocks/block.rs:96-335 [Block::parse] gives. *)
Record pres := mkpr { pr_item : option (mitem block); pr_warnings : list warning; pr_parser : parser }.
(** The end of each kind but sections and breaks: registering the id. *)
Definition finish (mi : mitem block) (warnings : list warning) (P : parser) : res pres :=
  id <- block_id (mi_item mi) ;;
  let r := register_block_id id (cm_title (block_common (mi_item mi))) (block_span (mi_item mi)) P in
  Ok (mkpr (Some mi) (warnings ++ snd r) (fst r)).
(** blocks/block.rs:107-117: whether the paragraph is tried before everything else. *)
Definition is_marker (c : char) : bool := has_char c (lit ".#=/-+*_[:'<").
Definition try_fast (source first_line : span) : bool :=
  match sp_data source with
  | [] => false
  | c :: _ => negb (is_marker c) && negb (contains (lit "::") (sp_data first_line))
  end.
(** blocks/block.rs:135-138: whether an attribute entry is tried. *)
Definition try_entry (first_line : span) : bool :=
  starts_with (lit ":") (sp_data first_line) &&
  (ends_with (lit ":") (sp_data first_line) || contains (lit ": ") (sp_data first_line)).
(** blocks/block.rs:315-334: the paragraph that is left. *)
Definition last_resort (E : env) (m : metadata) (warnings : list warning) (P : parser) : res pres :=
  o <- simple_parse E m P ;;
  match o with
  | None => Ok (mkpr None warnings P)
  | Some mi => finish mi warnings P
  end.
(** blocks/block.rs:288-312: metadata with no block after it is text; the anchor text stays. *)
Definition orphan_metadata (m : metadata) : metadata :=
  mkmd None None None (md_reftext m) None (md_source m) (md_source m).
Definition no_block (E : env) (m : metadata) (warnings : list warning) (P : parser) : res pres :=
  s <- simple_parse E m P ;;
  if negb (is_some s) && negb (md_is_empty m)
  then last_resort E (orphan_metadata m) (warnings ++ [mkwarn (md_source m) WMissingBlockAfterTitleOrAttributeList]) P
  else last_resort E m warnings P.
(** blocks/block.rs:271-286. *)
Definition try_break (E : env) (m : metadata) (line : text) (warnings : list warning) (P : parser) : res pres :=
  o <- (if starts_with_any (lit "'-*<") line then break_parse m else Ok None) ;;
  match o with
  | Some mi => Ok (mkpr (Some mi) warnings P)
  | None => no_block E m warnings P
  end.
(** blocks/block.rs:255-269. *)
Definition try_section (E : env) (until : stop_fn -> nat -> span -> parser -> res bres) (m : metadata) (line : text)
    (warnings : list warning) (P : parser) : res pres :=
  o <- (if starts_with_any (lit "=#") line then section_parse E until m P else Ok (None, ([], P))) ;;
  let warnings := warnings ++ fst (snd o) in
  match fst o with
  | Some mi => Ok (mkpr (Some mi) warnings (snd (snd o)))
  | None => try_break E m line warnings (snd (snd o))
  end.
(** blocks/block.rs:215-253.  The third test of the code repeats the second. *)
Definition try_media (E : env) (until : stop_fn -> nat -> span -> parser -> res bres) (m : metadata) (line : text)
    (warnings : list warning) (P : parser) : res pres :=
  o <- (if starts_with (lit "image::") line || starts_with (lit "video::") line || starts_with (lit "video::") line
        then media_parse E m P else Ok (None, [])) ;;
  match fst o with
  | Some mi => finish mi (warnings ++ snd o) P
  | None => try_section E until m line warnings P
  end.
(** blocks/block.rs:159-313. *)
Definition with_metadata (E : env) (until : stop_fn -> nat -> span -> parser -> res bres) (m : metadata)
    (warnings : list warning) (P : parser) : res pres :=
  bs <- style_of (md_attrlist m) ;;
  if style_is bs (lit "literal") then last_resort E m warnings P
  else
    o <- raw_parse E m P ;;
    match o with
    | Some r => finish (fst r) (warnings ++ snd r) P
    | None =>
        o <- compound_parse (until never 0) m P ;;
        match o with
        | Some r => finish (fst r) (warnings ++ fst (snd r)) (snd (snd r))
        | None =>
            line <- take_normalized_line (md_start m) ;;
            try_media E until m (sp_data (mi_item line)) warnings P
        end
    end.
(** blocks/block.rs:96-335 [Block::parse], given [parse_blocks_until]. *)
Definition block_parse_with (E : env) (until : stop_fn -> nat -> span -> parser -> res bres) (source : span) (P : parser)
  : res pres :=
  first_line <- take_line source ;;
  fast <- (if try_fast source (mi_item first_line) then simple_parse_fast E source P else Ok None) ;;
  match fast with
  | Some mi => finish mi [] P
  | None =>
      entry <- (if try_entry (mi_item first_line) then attribute_parse (apply_header_subs E) source P else Ok None) ;;
      match entry with
      | Some attr =>
          let r := set_attribute_from_body (e_u E) P (mi_item attr) in
          Ok (mkpr (Some (mkmi (BAttribute (mi_item attr)) (mi_after attr))) (snd r) (fst r))
      | None =>
          md <- metadata_parse E source P ;;
          with_metadata E until (fst md) (snd md) P
      end
  end.
(** blocks/parse_utils.rs:23-38: the loop, with fuel.  When no block is found the source stays the same. *)
Fixpoint blocks_loop (E : env) (fuel : nat) (stop : stop_fn) (level : nat) (source : span) (P : parser) : res bres :=
  match sp_data source with
  | [] => Ok (mkbr [] source [] level [] P)
  | _ =>
      match fuel with
      | 0 => OutOfFuel
      | S f =>
          s <- stop source level ;;
          if fst s then Ok (mkbr [] source [] (fst (snd s)) (snd (snd s)) P)
          else
            r <- block_parse_with E
                   (fun stop level source P => src <- discard_empty_lines source ;; blocks_loop E f stop level src P)
                   source P ;;
            let after := match pr_item r with Some mi => mi_after mi | None => source end in
            rest <- blocks_loop E f stop (fst (snd s)) after (pr_parser r) ;;
            Ok (mkbr (match pr_item r with Some mi => mi_item mi :: br_blocks rest | None => br_blocks rest end)
                  (br_after rest) (pr_warnings r ++ br_warnings rest) (br_level rest)
                  (snd (snd s) ++ br_stop_warnings rest) (br_parser rest))
      end
  end.
(** blocks/parse_utils.rs:10-47 [parse_blocks_until]. *)
Definition parse_blocks_until (E : env) (fuel : nat) (stop : stop_fn) (level : nat) (source : span) (P : parser) : res bres :=
  src <- discard_empty_lines source ;; blocks_loop E fuel stop level src P.
Definition block_parse (E : env) (fuel : nat) (source : span) (P : parser) : res pres :=
  block_parse_with E (parse_blocks_until E fuel) source P.
