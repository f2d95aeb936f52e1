(** Model of the substitution steps of [parser/src/content/substitution_step.rs] that need neither
    attribute lists nor macros: special characters, attribute references, character replacements
    and post replacements, with the HTML renderer of
    [parser/src/parser/inline_substitution_renderer.rs].  A step maps [content.rendered] to the new
    [content.rendered]; the Cow/borrow distinction is not modelled. *)
From Verif Require Import Text Maps Span_Model Parser_Model Regex.

(** parser/inline_substitution_renderer.rs:157-166 [SpecialCharacter]. *)
Inductive special_character := SCLt | SCGt | SCAmpersand.
(** parser/inline_substitution_renderer.rs:335-347 [render_special_character] (text appended to [dest]). *)
Definition render_special_character (s : special_character) : text :=
  match s with SCLt => lit "&lt;" | SCGt => lit "&gt;" | SCAmpersand => lit "&amp;" end.
(** content/substitution_step.rs:98-101 [SPECIAL_CHARS] = [[<>&]]. *)
Definition SPECIAL_CHARS : re := Chr (c_in (lit "<>&")).
(** content/substitution_step.rs:108-128 [SpecialCharacterReplacer::replace_append]. *)
Definition special_character_replacer (m : mtch) : res text :=
  let ch := m_text m in
  if text_eqb ch (lit "<") then Ok (render_special_character SCLt)
  else if text_eqb ch (lit ">") then Ok (render_special_character SCGt)
  else if text_eqb ch (lit "&") then Ok (render_special_character SCAmpersand)
  else Ok [].
(** content/substitution_step.rs:83-96 [apply_special_characters]. *)
Definition apply_special_characters (U : unicode) (t : text) : res text :=
  if existsb (c_in (lit "<>&")) t then replace_all_pure U SPECIAL_CHARS special_character_replacer t
  else Ok t.

(** content/substitution_step.rs:448-451 [ATTRIBUTE_REFERENCE] =
    [\\?\{([A-Za-z0-9_][A-Za-z0-9_-]* )\}] (a space is added before the closing parenthesis here). *)
Definition ATTRIBUTE_REFERENCE : re :=
  Seqs [Opt (Lit1 BSL); Lit1 123%N;
        Grp 1 (Seq (Chr (fun c => is_ascii_alnum c || (c =? 95)%N))
                   (Many (Chr (fun c => is_ascii_alnum c || (c =? 95)%N || (c =? 45)%N))));
        Lit1 125%N].
(** content/substitution_step.rs:456-477 [AttributeReplacer::replace_append]. *)
Definition attribute_replacer (P : parser) (m : mtch) : res text :=
  attr_name <- cap_idx m 1 ;;
  if negb (has_attribute P attr_name) then Ok (m_text m)
  else if starts_with [BSL] (m_text m) then str_from 1 (m_text m)
  else match attribute_value P attr_name with VValue v => Ok v | _ => Ok [] end.
(** content/substitution_step.rs:479-495 [apply_attributes]. *)
Definition apply_attributes (U : unicode) (P : parser) (t : text) : res text :=
  if has_char 123%N t then replace_all_pure U ATTRIBUTE_REFERENCE (attribute_replacer P) t
  else Ok t.

(** parser/inline_substitution_renderer.rs:215-251 [CharacterReplacementType]. *)
Inductive char_replacement :=
| CRCopyright | CRRegistered | CRTrademark | CREmDashSurroundedBySpaces | CREmDashWithoutSpace | CREllipsis
| CRSingleLeftArrow | CRDoubleLeftArrow | CRSingleRightArrow | CRDoubleRightArrow | CRTypographicApostrophe
| CRCharacterReference (name : text).
(** parser/inline_substitution_renderer.rs:427-479 [render_character_replacement]. *)
Definition render_character_replacement (t : char_replacement) : text :=
  match t with
  | CRCopyright => lit "&#169;"
  | CRRegistered => lit "&#174;"
  | CRTrademark => lit "&#8482;"
  | CREmDashSurroundedBySpaces => lit "&#8201;&#8212;&#8201;"
  | CREmDashWithoutSpace => lit "&#8212;&#8203;"
  | CREllipsis => lit "&#8230;&#8203;"
  | CRSingleLeftArrow => lit "&#8592;"
  | CRDoubleLeftArrow => lit "&#8656;"
  | CRSingleRightArrow => lit "&#8594;"
  | CRDoubleRightArrow => lit "&#8658;"
  | CRTypographicApostrophe => lit "&#8217;"
  | CRCharacterReference name => lit "&" ++ name ++ lit ";"
  end.
(** content/substitution_step.rs:528-531 [REPLACEABLE_TEXT_SNIFF] = [[&']|--|\.\.\.|\([CRT]M?\)]. *)
Definition REPLACEABLE_TEXT_SNIFF : re :=
  Alts [Chr (c_in (lit "&'")); Lit (lit "--"); Lit (lit "...");
        Seqs [Lit1 40%N; Chr (c_in (lit "CRT")); Opt (Lit1 77%N); Lit1 41%N]].
(** [\\?] followed by a literal. *)
Definition OptBsl (t : text) : re := Seq (Opt (Lit1 BSL)) (Lit t).
(** [\d] or a-f or A-F *)
Definition c_hex (U : unicode) : char -> bool := c_or (c_digit U) (c_or (c_range 97%N 102%N) (c_range 65%N 70%N)).
(** content/substitution_step.rs:538-619 [REPLACEMENTS]. *)
Definition REPLACEMENTS (U : unicode) : list (char_replacement * re) :=
  [(CRCopyright, OptBsl (lit "(C)"));
   (CRRegistered, OptBsl (lit "(R)"));
   (CRTrademark, OptBsl (lit "(TM)"));
   (CREmDashSurroundedBySpaces,
      Seqs [Alts [Lit1 SP; Lit1 LF; Assert ABegin; Lit1 BSL]; Lit (lit "--"); Alts [Lit1 SP; Lit1 LF; Assert AEnd]]);
   (CREmDashWithoutSpace, Seqs [Grp 1 (Chr (is_word U)); Opt (Lit1 BSL); Lit (lit "--"); Assert AStartHalf]);
   (CREllipsis, OptBsl (lit "..."));
   (CRTypographicApostrophe, OptBsl (lit "`'"));
   (CRTypographicApostrophe,
      Seqs [Grp 1 (Chr is_ascii_alnum); Opt (Lit1 BSL); Lit1 39%N; Grp 2 (Chr is_ascii_alpha)]);
   (CRSingleRightArrow, OptBsl (lit "-&gt;"));
   (CRDoubleRightArrow, OptBsl (lit "=&gt;"));
   (CRSingleLeftArrow, OptBsl (lit "&lt;-"));
   (CRDoubleLeftArrow, OptBsl (lit "&lt;="));
   (CRCharacterReference [],
      Seqs [Opt (Lit1 BSL); Lit (lit "&amp;");
            Grp 1 (Alts
              [Seqs [Chr is_ascii_alpha; Plus (Chr is_ascii_alpha); Upto 2 (Chr (c_digit U))];
               Seqs [Lit1 35%N; Chr (c_digit U); Chr (c_digit U); Upto 4 (Chr (c_digit U))];
               Seqs [Lit (lit "#x"); Chr (c_hex U); Chr (c_hex U); Upto 3 (Chr (c_hex U))]]);
            Lit1 59%N])].
(** content/substitution_step.rs:627-681 [CharacterReplacer::replace_append]. *)
Definition opt_text (o : option text) : text := match o with Some t => t | None => [] end.
Definition character_replacer (ty : char_replacement) (m : mtch) : res text :=
  if has_char BSL (m_text m) then Ok (replace_str [BSL] [] (m_text m))
  else
    match ty with
    | CREmDashWithoutSpace =>
        c1 <- cap_idx m 1 ;; Ok (c1 ++ render_character_replacement CREmDashWithoutSpace)
    | CRTypographicApostrophe =>
        Ok (opt_text (cap m 1) ++ render_character_replacement CRTypographicApostrophe ++ opt_text (cap m 2))
    | CRCharacterReference _ =>
        c1 <- cap_idx m 1 ;; Ok (render_character_replacement (CRCharacterReference c1))
    | _ => Ok (render_character_replacement ty)
    end.
(** content/substitution_step.rs:507-518: the loop over the table. *)
Fixpoint replacements_loop (U : unicode) (l : list (char_replacement * re)) (t : text) : res text :=
  match l with
  | [] => Ok t
  | (ty, r) :: l' => t' <- replace_all_pure U r (character_replacer ty) t ;; replacements_loop U l' t'
  end.
(** content/substitution_step.rs:497-521 [apply_character_replacements]. *)
Definition apply_character_replacements (U : unicode) (t : text) : res text :=
  if is_match U REPLACEABLE_TEXT_SNIFF t then replacements_loop U (REPLACEMENTS U) t else Ok t.

(** parser/inline_substitution_renderer.rs:481-483 [render_line_break]. *)
Definition line_break : text := lit "<br>".
(** content/substitution_step.rs:742-745 [HARD_LINE_BREAK] = [(?m)^(.* ) \+$] (without the space in the group). *)
Definition HARD_LINE_BREAK : re :=
  Seqs [Assert ALineBegin; Grp 1 (Many (Chr c_dot)); Lit (lit " +"); Assert ALineEnd].
(** content/substitution_step.rs:699-712: one line; [line[0..line.len() - 2]] is a byte slice. *)
Definition hardbreak_line (line : text) : res text :=
  l <- (if ends_with (lit " +") line then str_to (blen line - 2) line else Ok line) ;;
  Ok (l ++ line_break).
Fixpoint hardbreak_lines (l : list text) : res (list text) :=
  match l with [] => Ok [] | x :: r => y <- hardbreak_line x ;; ys <- hardbreak_lines r ;; Ok (y :: ys) end.
(** content/substitution_step.rs:683-730 [apply_post_replacements].  [hardbreaks] is the value of
    [attrlist.is_some_and(|a| a.has_option("hardbreaks"))]. *)
Definition apply_post_replacements (U : unicode) (P : parser) (hardbreaks : bool) (t : text) : res text :=
  if is_attribute_set P (lit "hardbreaks-option") || hardbreaks then
    if negb (has_char LF t) then Ok t
    else
      let lines := str_lines t in
      ls <- hardbreak_lines (removelast lines) ;;
      Ok (join [LF] (ls ++ [last lines []]))
  else if negb (has_char 43%N t && has_char LF t) then Ok t
  else replace_all_pure U HARD_LINE_BREAK (fun m => c1 <- cap_idx m 1 ;; Ok (c1 ++ line_break)) t.
