(** Model of the preprocessor: parser/src/parser/preprocessor.rs.  The include handler is a
    function of the including file, the target, the attribute list and the parser; [hdr] and [norm]
    are the Header and Normal substitution groups ([norm] is not used by attribute lists in the
    inline context). *)
From Verif Require Import Text Span_Model Parser_Model Regex Subs_Model Attrlist_Model SourceMap_Model Entry_Model.

Definition include_handler := option text -> text -> attrlist -> parser -> option text.

(** preprocessor.rs:224-248 [INCLUDE_DIRECTIVE]. *)
Definition c_target (c : char) : bool := negb (is_ws c) && negb (c =? 91)%N.
Definition INCLUDE_DIRECTIVE : re :=
  Seqs [Assert ABegin; Lit (lit "include::");
        Grp 1 (Seq (Chr c_target) (Opt (Seq (Many (Chr (c_not (c_is 91%N)))) (Chr c_target))));
        Lit1 91%N;
        Opt (Grp 2 (Seq (Chr (c_not (c_is 93%N))) (Plus (Chr c_dot))));
        Lit1 93%N; Assert AEnd].

(** preprocessor.rs:45-67 [PreprocessorState], with the parser.  [include_depth] is written but
    never read, and is left out. *)
Record pre_state := mkps {
  ps_parser : parser; ps_in_header : bool; ps_can_attr : bool; ps_line : nat; ps_out : text; ps_map : source_map }.
Definition pre_new (P : parser) : pre_state := mkps P true true 1 [] [].

(** preprocessor.rs:92-98 and 154-160. *)
Definition report (file : option text) (reported : bool) (n : nat) (s : pre_state) : pre_state :=
  if reported then s
  else mkps (ps_parser s) (ps_in_header s) (ps_can_attr s) (ps_line s) (ps_out s) (sm_append (ps_map s) (ps_line s) (mksl file n)).
(** preprocessor.rs:100-115. *)
Definition emit_attribute (U : unicode) (attr : attribute) (s : pre_state) : pre_state :=
  mkps (fst (set_attribute_from_body U (ps_parser s) attr)) (ps_in_header s) (ps_can_attr s)
       (ps_line s + (count_lf (sp_data (at_source attr)) + 1)) (ps_out s ++ sp_data (at_source attr) ++ [LF]) (ps_map s).
(** preprocessor.rs:145-150. *)
Definition emit_unresolved (file : option text) (line : text) (s : pre_state) : pre_state :=
  mkps (ps_parser s) (ps_in_header s) (ps_can_attr s) (ps_line s + 1)
       (ps_out s ++ lit "Unresolved directive in " ++ (match file with Some f => f | None => lit "(root file)" end) ++ lit " - " ++ line ++ [LF])
       (ps_map s).
(** preprocessor.rs:162-171. *)
Definition emit_line (line : text) (s : pre_state) : pre_state :=
  let blank := match line with [] => true | _ => false end in
  mkps (ps_parser s)
       (if blank then false else ps_in_header s)
       (if blank then true else if ps_in_header s then ps_can_attr s else false)
       (ps_line s + 1) (ps_out s ++ line ++ [LF]) (ps_map s).

Section Pre.
Context (U : unicode) (hdr : parser -> text -> res text) (norm : parser -> text -> res text) (ifh : include_handler).

(** preprocessor.rs:83-87: the condition of the first branch. *)
Definition try_attribute (s : pre_state) (line : text) (original : span) : res (option (mitem attribute)) :=
  if ps_can_attr s && starts_with (lit ":") line && (ends_with (lit ":") line || contains (lit ": ") line)
  then attribute_parse hdr original (ps_parser s) else Ok None.
(** preprocessor.rs:118-131: target and attribute list of an include directive.  The target gets
    [substitute_attributes] (preprocessor.rs:180-217), which is the same code as [apply_attributes]
    with a second copy of its regular expression. *)
Definition try_include (s : pre_state) (line : text) : res (option (text * attrlist)) :=
  if starts_with (lit "include::") line then
    match captures U INCLUDE_DIRECTIVE line with
    | None => Ok None
    | Some caps =>
        t <- cap_idx caps 1 ;;
        target <- apply_attributes U (ps_parser s) t ;;
        match cap caps 2 with
        | None => Ok (Some (target, attrlist_default))
        | Some a => r <- attrlist_parse U (norm (ps_parser s)) (ps_parser s) (span_new a) CtxInline ;; Ok (Some (target, mi_item (fst r)))
        end
    end
  else Ok None.

(** preprocessor.rs:69-176 [process_adoc_include]: the [while] loop from [source]; the recursive
    call and each iteration take one unit of fuel. *)
Fixpoint pre_loop (fuel : nat) (file : option text) (reported : bool) (source : span) (s : pre_state) : res pre_state :=
  match fuel with
  | 0 => OutOfFuel
  | S f =>
      match sp_data source with
      | [] => Ok s
      | _ =>
          mi <- take_line source ;;
          let line := sp_data (mi_item mi) in
          let n := sp_line (mi_item mi) in
          attr <- try_attribute s line source ;;
          match attr with
          | Some attr => pre_loop f file true (mi_after attr) (emit_attribute U (mi_item attr) (report file reported n s))
          | None =>
              inc <- try_include s line ;;
              match inc with
              | Some (target, al) =>
                  match ifh file target al (ps_parser s) with
                  | Some include_text =>
                      s' <- pre_loop f (Some target) false (span_new include_text) s ;;
                      pre_loop f file false (mi_after mi) s'
                  | None => pre_loop f file reported (mi_after mi) (emit_unresolved file line s)
                  end
              | None => pre_loop f file true (mi_after mi) (emit_line line (report file reported n s))
              end
          end
      end
  end.
Definition process_adoc_include (fuel : nat) (source : text) (file : option text) (s : pre_state) : res pre_state :=
  pre_loop fuel file (match file with None => true | Some _ => false end) (span_new source) s.

(** preprocessor.rs:23-43 [preprocess]. *)
Definition no_directive (source : text) : bool :=
  negb (starts_with (lit "include::") source) && negb (starts_with (lit "if") source) &&
  negb (contains (LF :: lit "include::") source) && negb (contains (LF :: lit "if") source).
Definition preprocess (fuel : nat) (source : text) (P : parser) : res (text * source_map) :=
  if no_directive source && (match p_primary P with None => true | _ => false end) then Ok (source, [])
  else s <- process_adoc_include fuel source (p_primary P) (pre_new P) ;; Ok (ps_out s, ps_map s).
End Pre.
