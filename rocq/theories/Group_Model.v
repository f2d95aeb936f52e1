(** Model of [parser/src/content/substitution_group.rs], [content/passthroughs.rs] and
    [SubstitutionStep::apply].  A [Content] is its [rendered] text.  Of the attribute list of a
    block only [has_option("hardbreaks")] matters to the steps: the argument [hb]. *)
From Verif Require Import Text Span_Model Maps Parser_Model Regex Subs_Model Attrlist_Model Render_Model
  Quote_Model Macro_Model.

(** content/substitution_step.rs:24-48 [SubstitutionStep]. *)
Inductive step := SSpecialCharacters | SQuotes | SAttributeReferences | SCharacterReplacements | SMacros
                | SPostReplacement | SCallouts.
(** content/substitution_group.rs:13-67 [SubstitutionGroup]. *)
Inductive group := GNormal | GTitle | GHeader | GVerbatim | GPass | GNone | GAttributeEntryValue
                 | GCustom (steps : list step).
Definition step_eqb (a b : step) : bool :=
  match a, b with
  | SSpecialCharacters, SSpecialCharacters | SQuotes, SQuotes | SAttributeReferences, SAttributeReferences
  | SCharacterReplacements, SCharacterReplacements | SMacros, SMacros | SPostReplacement, SPostReplacement
  | SCallouts, SCallouts => true
  | _, _ => false
  end.
Definition normal_steps : list step :=
  [SSpecialCharacters; SQuotes; SAttributeReferences; SCharacterReplacements; SMacros; SPostReplacement].
(** content/substitution_group.rs:213-235 [steps]. *)
Definition steps_of (g : group) : list step :=
  match g with
  | GNormal | GTitle => normal_steps
  | GHeader | GAttributeEntryValue => [SSpecialCharacters; SAttributeReferences]
  | GVerbatim => [SSpecialCharacters]
  | GPass | GNone => []
  | GCustom s => s
  end.

Definition text_in (l : list text) (t : text) : bool := existsb (text_eqb t) l.
(** content/substitution_group.rs:139-149: the name of one step. *)
Definition step_of_name (t : text) : option step :=
  if text_in [lit "c"; lit "specialcharacters"; lit "specialchars"] t then Some SSpecialCharacters
  else if text_in [lit "q"; lit "quotes"] t then Some SQuotes
  else if text_in [lit "a"; lit "attributes"] t then Some SAttributeReferences
  else if text_in [lit "r"; lit "replacements"] t then Some SCharacterReplacements
  else if text_in [lit "m"; lit "macros"] t then Some SMacros
  else if text_in [lit "p"; lit "post_replacements"] t then Some SPostReplacement
  else None.
(** content/substitution_group.rs:91-160: the loop; [first] is [count == 0].  The slices remove one
    ASCII character at an end. *)
Fixpoint custom_loop (start_from : option group) (first : bool) (l : list text) (steps : list step)
  : res (option (list step)) :=
  match l with
  | [] => Ok (Some steps)
  | raw :: l' =>
      let s := trim raw in
      if text_in [lit "n"; lit "normal"] s then custom_loop start_from false l' normal_steps
      else if text_in [lit "v"; lit "verbatim"] s then custom_loop start_from false l' [SSpecialCharacters]
      else
        let append := starts_with (lit "+") s in
        s <- (if append then str_from 1 s else Ok s) ;;
        let prepend := negb append && ends_with (lit "+") s in
        s <- (if prepend then str_to (blen s - 1) s else Ok s) ;;
        let subtract := negb append && negb prepend && starts_with (lit "-") s in
        s <- (if subtract then str_from 1 s else Ok s) ;;
        let steps := match start_from with
                     | Some g => if first && (append || prepend || subtract) then steps_of g else steps
                     | None => steps
                     end in
        match step_of_name s with
        | None => Ok None
        | Some st =>
            custom_loop start_from false l'
              (if prepend then st :: steps
               else if append then steps ++ [st]
               else if subtract then filter (fun x => negb (step_eqb x st)) steps
               else steps ++ [st])
        end
  end.
(** content/substitution_group.rs:74-163 [from_custom_string]. *)
Definition from_custom_string (start_from : option group) (custom : text) : res (option group) :=
  let custom := trim custom in
  if text_eqb custom (lit "none") then Ok (Some GNone)
  else if text_in [lit "n"; lit "normal"] custom then Ok (Some GNormal)
  else if text_in [lit "v"; lit "verbatim"] custom then Ok (Some GVerbatim)
  else o <- custom_loop start_from true (split_on COMMA custom) [] ;; Ok (option_map GCustom o).
(** content/substitution_group.rs:189-211 [override_via_attrlist]. *)
Definition override_via_attrlist (g : group) (attrlist : option attrlist) : res group :=
  match attrlist with
  | None => Ok g
  | Some a =>
      style <- opt_bind (nth_attribute a 1) ea_block_style ;;
      let result := match style with
                    | Some s => if text_eqb s (lit "pass") then GNone else g
                    | None => g
                    end in
      o <- opt_bind (named_value a (lit "subs")) (from_custom_string (Some g)) ;;
      Ok (match o with Some g' => g' | None => result end)
  end.

(** content/passthroughs.rs:15-20 [Passthrough]. *)
Record passthrough := mkpt
  { pt_text : text; pt_subs : group; pt_type : option quote_type; pt_attrlist : option text }.
Definition PASS_START : char := 150%N.
Definition PASS_END : char := 151%N.
Definition placeholder (n : nat) : text := PASS_START :: show_nat n ++ [PASS_END].
(** content/passthroughs.rs:79-86 [push]: the new table and [dest]. *)
Definition pt_push (pts : list passthrough) (pt : passthrough) (dest : text) : list passthrough * text :=
  (pts ++ [pt], dest ++ placeholder (length pts)).

(** content/passthroughs.rs:100-135 [INLINE_PASS_MACRO]. *)
Definition Delimited (n : nat) (mark : text) : re :=
  Seqs [Grp n (Lit mark); Grp (n + 1) (ManyL (Chr c_any)); Grp (n + 2) (Lit mark)].
Definition INLINE_PASS_MACRO : re :=
  Alt
    (Seqs [Opt (Seqs [Grp 1 (Opt (Lit1 BSL)); Lit1 91%N; Grp 2 (Plus (Chr (c_not (c_in (lit "[]"))))); Lit1 93%N]);
           Grp 3 (Upto 2 (Lit1 BSL));
           Alts [Delimited 4 (lit "+++"); Delimited 7 (lit "++"); Delimited 10 (lit "$$")]])
    (Seqs [Grp 13 (Opt (Lit1 BSL)); Lit (lit "pass:");
           Opt (Grp 14 (Seq (Plus (Chr (c_range 97%N 122%N)))
                            (Many (Seq (Lit1 COMMA) (Plus (Chr (fun c => c_range 97%N 122%N c || (c =? 45)%N)))))));
           Lit1 91%N; Grp 15 (Alt Eps (Bracketed c_any)); Lit1 93%N]).
Definition or_else (a b : option text) : option text := match a with Some _ => a | None => b end.
(** [if attrlist == "x-" .. else if attrlist.ends_with(" x-") ..]: the list and [old_behavior]. *)
Definition old_syntax (attrs : text) : res (text * bool) :=
  if text_eqb attrs (lit "x-") then Ok ([], true)
  else if ends_with (lit " x-") attrs then (s <- str_to (blen attrs - 3) attrs ;; Ok (s, true))
  else Ok (attrs, false).
Definition is_plus3 (boundary : text) : bool := text_eqb boundary (lit "+++").
(** content/passthroughs.rs:190-291 [handle_quoted_text].  (Rust multiplies [escape_count - 1]
    backslashes.) *)
Definition handle_quoted_text (pts : list passthrough) (m : mtch) (idx : nat) (dest : text)
  : res (list passthrough * text) :=
  let escape_count := match cap m 3 with Some e => length e | None => 0 end in
  let boundary := unwrap_or_default (or_else (cap m 4) (or_else (cap m 7) (cap m 10))) in
  let quoted_text := unwrap_or_default (or_else (cap m 5) (or_else (cap m 8) (cap m 11))) in
  let body := unwrap_or_default (cap m idx) in
  let plain dest := Ok (pt_push pts (mkpt body (if is_plus3 boundary then GNone else GVerbatim) None None) dest) in
  match cap m 2 with
  | Some attrs =>
      if 0 <? escape_count then
        c1 <- cap_idx m 1 ;;
        mark <- cap_idx m (idx - 1) ;;
        txt <- cap_idx m idx ;;
        Ok (pts, dest ++ c1 ++ lit "[" ++ attrs ++ lit "]" ++ repeat BSL (escape_count - 1) ++ mark ++ txt ++ mark)
      else
        c1 <- cap_idx m 1 ;;
        if text_eqb c1 [BSL] then plain (dest ++ lit "[" ++ attrs ++ lit "]")
        else
          ao <- (if text_eqb boundary (lit "++") then old_syntax attrs else Ok (attrs, false)) ;;
          Ok (pt_push pts
                (if snd ao : bool then mkpt body GNormal (Some QMonospaced) (Some (fst ao))
                 else mkpt body (if is_plus3 boundary then GNone else GVerbatim) (Some QUnquoted) (Some (fst ao)))
                dest)
  | None =>
      if 0 <? escape_count
      then Ok (pts, dest ++ repeat BSL (escape_count - 1) ++ boundary ++ quoted_text ++ boundary)
      else plain dest
  end.
(** content/passthroughs.rs:140-187 [InlinePassMacroReplacer::replace_append]. *)
Definition pass_macro_replacer (pts : list passthrough) (m : mtch) (dest : text)
  : res (list passthrough * text) :=
  match cap m 4, cap m 7, cap m 10 with
  | Some _, _, _ => handle_quoted_text pts m 5 dest
  | None, Some _, _ => handle_quoted_text pts m 8 dest
  | None, None, Some _ => handle_quoted_text pts m 11 dest
  | None, None, None =>
      if match cap m 13 with Some (_ :: _) => true | _ => false end then
        c15 <- cap_idx m 15 ;;
        Ok (pts, dest ++ lit "pass:" ++ unwrap_or_default (cap m 14) ++ lit "[" ++ c15 ++ lit "]")
      else
        subs <- match cap m 14 with Some s => from_custom_string None s | None => Ok None end ;;
        txt <- cap_idx m 15 ;;
        Ok (pt_push pts
              (mkpt (replace_esc_bracket txt) (match subs with Some g => g | None => GNone end) None None) dest)
  end.

(** content/passthroughs.rs:308-336 [INLINE_PASS]. *)
Definition Tight (n : nat) (mark : char) : re :=
  Seqs [Lit1 mark; Grp n (Seq (Chr c_nonspace) (OptL (Seq (ManyL (Chr c_any)) (Chr c_nonspace)))); Lit1 mark].
Definition INLINE_PASS : re :=
  Seqs [Assert AStartHalf;
        Alts [Seqs [Lit1 91%N;
                    Grp 1 (Alt (Lit (lit "x-")) (Seq (Plus (Chr (c_not (c_in (lit "[]"))))) (Lit (lit " x-"))));
                    Lit1 93%N; Tight 2 96%N];
              Seqs [Lit1 91%N; Grp 3 (Plus (Chr (c_not (c_in (lit "[]"))))); Lit1 93%N;
                    Grp 4 (Upto 2 (Lit1 BSL)); Tight 5 43%N];
              Seqs [Opt (Grp 6 (Lit1 BSL)); Tight 7 43%N]];
        Assert AEndHalf].
(** content/passthroughs.rs:341-431 [InlinePassReplacer::replace_append], with fuel for the
    nested replacement at 354-360. *)
Fixpoint inline_pass_replacer (U : unicode) (fuel : nat) (pts : list passthrough) (m : mtch) (dest : text)
  : res (list passthrough * text) :=
  if ends_with [BSL] dest || ends_with (lit ":") dest || ends_with (lit ";") dest then
    match fuel with
    | 0 => OutOfFuel
    | S f =>
        first <- str_to 1 (m_text m) ;;
        rem <- str_from 1 (m_text m) ;;
        r <- replace_all U INLINE_PASS (inline_pass_replacer U f) pts rem ;;
        Ok (fst r, dest ++ first ++ snd r)
    end
  else
    let escape_count := match or_else (cap m 4) (cap m 6) with Some e => length e | None => 0 end in
    let backtick := match cap m 2 with Some _ => true | None => false end in
    let mark := if backtick then lit "`" else lit "+" in
    let orig := or_else (cap m 1) (cap m 3) in
    ao <- match orig with
          | Some a => r <- old_syntax a ;; Ok (Some (fst r), snd r)
          | None => Ok (None, false)
          end ;;
    let quoted_text := unwrap_or_default (or_else (cap m 2) (or_else (cap m 5) (cap m 7))) in
    if 0 <? escape_count then
      Ok (pts, dest ++ match orig with Some a => lit "[" ++ a ++ lit "]" | None => [] end
               ++ repeat BSL (escape_count - 1) ++ mark ++ quoted_text ++ mark)
    else
      let subs := if snd ao && negb backtick then GNormal else GVerbatim in
      let type_ := match fst ao with
                   | Some _ => if snd ao then Some QMonospaced else Some QUnquoted
                   | None => None
                   end in
      Ok (pt_push pts (mkpt quoted_text subs type_ (fst ao)) dest).
(** content/passthroughs.rs:28-63 [extract_from]: the table and the new text. *)
Definition extract_from (U : unicode) (t : text) : res (list passthrough * text) :=
  r1 <- (if contains (lit "++") t || contains (lit "$$") t || contains (lit "ss:") t
         then replace_all U INLINE_PASS_MACRO pass_macro_replacer [] t else Ok ([], t)) ;;
  if has_char 43%N (snd r1) || contains (lit "-]") (snd r1)
  then replace_all U INLINE_PASS (inline_pass_replacer U (length (snd r1))) (fst r1) (snd r1)
  else Ok r1.

(** content/passthroughs.rs:294-297 [PASS_WITH_INDEX]. *)
Definition PASS_WITH_INDEX (U : unicode) : re :=
  Seqs [Lit1 PASS_START; Grp 1 (Plus (Chr (c_digit U))); Lit1 PASS_END].
(** [caps[1].parse::<usize>().unwrap_or_default()] for a 64-bit [usize]: a digit that is not ASCII
    or a value that does not fit gives 0. *)
Definition usize_max : N := 18446744073709551615%N.
Definition parse_index (t : text) : N :=
  if forallb is_ascii_digit t then
    let n := fold_left (fun acc c => (acc * 10 + (c - 48))%N) t 0%N in
    if (n <=? usize_max)%N then n else 0%N
  else 0%N.
(** [self.0.0.get(index)]. *)
Definition pt_get (pts : list passthrough) (index : N) : option passthrough :=
  if (index <? N.of_nat (length pts))%N then nth_error pts (N.to_nat index) else None.

(** content/substitution_step.rs:51-80 [SubstitutionStep::apply]; [todo!] is a panic. *)
Definition apply_step (U : unicode) (fs : char) (P : parser) (hb : bool) (s : step) (t : text) : res text :=
  match s with
  | SSpecialCharacters => apply_special_characters U t
  | SQuotes => apply_quotes U P t
  | SAttributeReferences => apply_attributes U P t
  | SCharacterReplacements => apply_character_replacements U t
  | SMacros => apply_macros U fs P t
  | SPostReplacement => apply_post_replacements U P hb t
  | SCallouts => Panic
  end.
(** content/substitution_group.rs:180-182: the loop over the steps. *)
Fixpoint apply_steps (U : unicode) (fs : char) (P : parser) (hb : bool) (l : list step) (t : text) : res text :=
  match l with
  | [] => Ok t
  | s :: l' => t' <- apply_step U fs P hb s t ;; apply_steps U fs P hb l' t'
  end.
(** content/substitution_group.rs:174: whether passthroughs are extracted. *)
Definition extracts (g : group) : bool :=
  existsb (step_eqb SMacros) (steps_of g) || match g with GHeader => true | _ => false end.
(** content/passthroughs.rs:452-474: the formatting of a restored passthrough. *)
Definition pt_format (U : unicode) (P : parser) (pt : passthrough) (subbed : text) : res text :=
  match pt_type pt with
  | None => Ok subbed
  | Some ty =>
      a <- match pt_attrlist pt with
           | Some t => a <- inline_attrlist U P t ;; Ok (Some a)
           | None => Ok None
           end ;;
      id <- opt_bind a al_id ;;
      render_quoted ty a id subbed
  end.
(** content/passthroughs.rs:65-77 [restore_to] and 436-487 [PassthroughRestoreReplacer], and
    content/substitution_group.rs:165-187 [apply], with fuel. *)
Fixpoint apply_group (U : unicode) (fs : char) (P : parser) (fuel : nat) (g : group) (hb : bool) (t : text)
  {struct fuel} : res text :=
  match fuel with
  | 0 => OutOfFuel
  | S f =>
      if extracts g then
        pt <- extract_from U t ;;
        t' <- apply_steps U fs P hb (steps_of g) (snd pt) ;;
        match fst pt with
        | [] => Ok t'
        | _ => restore U fs P f (fst pt) t'
        end
      else apply_steps U fs P hb (steps_of g) t
  end
with restore (U : unicode) (fs : char) (P : parser) (fuel : nat) (pts : list passthrough) (t : text)
  {struct fuel} : res text :=
  match fuel with
  | 0 => OutOfFuel
  | S f =>
      replace_all_pure U (PASS_WITH_INDEX U)
        (fun m =>
           c1 <- cap_idx m 1 ;;
           let index := parse_index c1 in
           match pt_get pts index with
           | None => Ok (lit "(INTERNAL ERROR: Unresolved passthrough index " ++ show_nat (N.to_nat index) ++ lit ")")
           | Some pt =>
               subbed <- apply_group U fs P f (pt_subs pt) false (pt_text pt) ;;
               subbed <- pt_format U P pt subbed ;;
               if has_char PASS_START subbed then restore U fs P f pts subbed else Ok subbed
           end) t
  end.
