(** Model of the quotes step of [parser/src/content/substitution_step.rs]. *)
From Verif Require Import Text Span_Model Maps Parser_Model Regex Attrlist_Model Look_Model Render_Model.

(** [Attrlist::parse(Span::new(t), parser, AttrlistContext::Inline).item.item].  In this context no
    substitution group is applied to values, so the argument for it is immaterial. *)
Definition inline_attrlist (U : unicode) (P : parser) (t : text) : res attrlist :=
  r <- attrlist_parse U (fun x => Ok x) P (span_new t) CtxInline ;; Ok (mi_item (fst r)).

(** content/substitution_step.rs:130-133 [QUOTED_TEXT_SNIFF] = [[*_`#^~]]. *)
Definition QUOTED_TEXT_SNIFF : re := Chr (c_in (lit "*_`#^~")).

(** content/substitution_step.rs:135-139 [QuoteSub]. *)
Record quote_sub := mkqs { qs_type : quote_type; qs_scope : quote_scope; qs_pattern : re }.

(** [(?:\[([^\[\]]+)\])?] with group number [n]. *)
Definition OptAttrs (n : nat) : re :=
  Opt (Seqs [Lit1 91%N; Grp n (Plus (Chr (c_not (c_in (lit "[]"))))); Lit1 93%N]).
(** [\\?(?:\[([^\[\]]+)\])?MARK(.+?)MARK] where [.] matches a line feed. *)
Definition unconstrained_re (mark : text) : re :=
  Seqs [Opt (Lit1 BSL); OptAttrs 1; Lit mark; Grp 2 (PlusL (Chr c_any)); Lit mark].
(** [\\?(?:\[([^\[\]]+)\])?MARK(\S+?)MARK]. *)
Definition script_re (mark : text) : re :=
  Seqs [Opt (Lit1 BSL); OptAttrs 1; Lit mark; Grp 2 (PlusL (Chr c_nonspace)); Lit mark].
(** [(^|[^\w&;:EXTRA}])(?:\[([^\[\]]+)\])?OPEN(\S|\S.*?\S)CLOSE\b{end-half}] where [.] matches a
    line feed. *)
Definition constrained_re (U : unicode) (extra open close : text) : re :=
  Seqs [Grp 1 (Alt (Assert ABegin) (Chr (c_not (c_or (is_word U) (c_in (lit "&;:}" ++ extra))))));
        OptAttrs 2; Lit open;
        Grp 3 (Alt (Chr c_nonspace) (Seqs [Chr c_nonspace; ManyL (Chr c_any); Chr c_nonspace]));
        Lit close; Assert AEndHalf].

(** content/substitution_step.rs:161-293 [QUOTE_SUBS]. *)
Definition QUOTE_SUBS (U : unicode) : list quote_sub :=
  [mkqs QStrong Unconstrained (unconstrained_re (lit "**"));
   mkqs QStrong Constrained (constrained_re U [] (lit "*") (lit "*"));
   mkqs QDoubleQuote Constrained (constrained_re U [] (DQ ++ lit "`") (lit "`" ++ DQ));
   mkqs QSingleQuote Constrained (constrained_re U [] (lit "'`") (lit "`'"));
   mkqs QMonospaced Unconstrained (unconstrained_re (lit "``"));
   mkqs QMonospaced Constrained (constrained_re U (DQ ++ lit "'`") (lit "`") (lit "`"));
   mkqs QEmphasis Unconstrained (unconstrained_re (lit "__"));
   mkqs QEmphasis Constrained (constrained_re U [] (lit "_") (lit "_"));
   mkqs QMark Unconstrained (unconstrained_re (lit "##"));
   mkqs QMark Constrained (constrained_re U [] (lit "#") (lit "#"));
   mkqs QSuperscript Unconstrained (script_re (lit "^"));
   mkqs QSubscript Unconstrained (script_re (lit "~"))].

Definition is_monospaced (t : quote_type) : bool := match t with QMonospaced => true | _ => false end.
Definition is_constrained (s : quote_scope) : bool := match s with Constrained => true | _ => false end.
(** content/substitution_step.rs:347-369 and 386-408: the attribute list and the type. *)
Definition quote_attrs (U : unicode) (P : parser) (ty : quote_type) (attrs : option text)
  : res (option attrlist * quote_type) :=
  match attrs with
  | Some t => a <- inline_attrlist U P t ;;
              Ok (Some a, match ty with QMark => QUnquoted | _ => ty end)
  | None => Ok (None, ty)
  end.
(** content/substitution_step.rs:302-422 [QuoteReplacer::replace_append]. *)
Definition quote_replacer (U : unicode) (P : parser) (ty : quote_type) (scope : quote_scope)
    (m : mtch) (dest : text) : res (look_result * text) :=
  let whole := m_text m in
  if is_monospaced ty && is_constrained scope
     && match m_after m with c :: _ => c_in (DQ ++ lit "'`") c | [] => false end
  then
    let skip_ahead := if starts_with [BSL] whole then 2 else 1 in
    s <- str_to skip_ahead whole ;;
    Ok (LSkipAheadAndRetry skip_ahead, dest ++ s)
  else
    let escaped := starts_with [BSL] whole in
    match scope with
    | Constrained =>
        if escaped then
          match cap m 2 with
          | Some attrs =>
              body <- cap_idx m 3 ;;
              q <- render_quoted ty None None body ;;
              Ok (LContinue, dest ++ lit "[" ++ attrs ++ lit "]" ++ q)
          | None => s <- str_from 1 whole ;; Ok (LContinue, dest ++ s)
          end
        else
          at_ <- quote_attrs U P ty (cap m 2) ;;
          let prefix := match cap m 1 with Some p => p | None => [] end in
          id <- opt_bind (fst at_) al_id ;;
          body <- cap_idx m 3 ;;
          q <- render_quoted (snd at_) (fst at_) id body ;;
          Ok (LContinue, dest ++ prefix ++ q)
    | Unconstrained =>
        if escaped then s <- str_from 1 whole ;; Ok (LContinue, dest ++ s)
        else
          at_ <- quote_attrs U P ty (cap m 1) ;;
          id <- opt_bind (fst at_) al_id ;;
          body <- cap_idx m 2 ;;
          q <- render_quoted (snd at_) (fst at_) id body ;;
          Ok (LContinue, dest ++ q)
    end.
(** content/substitution_step.rs:431-443: the loop over the table. *)
Fixpoint quotes_loop (U : unicode) (P : parser) (l : list quote_sub) (t : text) : res text :=
  match l with
  | [] => Ok t
  | q :: l' =>
      t' <- replace_with_lookahead U (qs_pattern q) (quote_replacer U P (qs_type q) (qs_scope q)) t ;;
      quotes_loop U P l' t'
  end.
(** content/substitution_step.rs:424-446 [apply_quotes]. *)
Definition apply_quotes (U : unicode) (P : parser) (t : text) : res text :=
  if is_match U QUOTED_TEXT_SNIFF t then quotes_loop U P (QUOTE_SUBS U) t else Ok t.
