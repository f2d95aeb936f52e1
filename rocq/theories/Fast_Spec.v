(** Specification of the parsing of a block without the short cut for paragraphs (C125). *)
From Verif Require Import Text Span_Model Parser_Model Header_Model Entry_Model Block_Model.

(** The steps of blocks/block.rs:96-335 without those of 107-133: an attribute entry, or else the metadata lines and what
    comes after them. *)
Definition long_way (E : env) (un : stop_fn -> nat -> span -> parser -> res bres) (s : span) (P : parser) : res pres :=
  first_line <- take_line s ;;
  entry <- (if try_entry (mi_item first_line) then attribute_parse (apply_header_subs E) s P else Ok None) ;;
  match entry with
  | Some attr =>
      let r := set_attribute_from_body (e_u E) P (mi_item attr) in
      Ok (mkpr (Some (mkmi (BAttribute (mi_item attr)) (mi_after attr))) (snd r) (fst r))
  | None => md <- metadata_parse E s P ;; with_metadata E un (fst md) (snd md) P
  end.
(** Blocks one after another without the short cut: the loop of blocks/parse_utils.rs:23-38 over the steps above. *)
Fixpoint long_loop (E : env) (fuel : nat) (stop : stop_fn) (level : nat) (source : span) (P : parser) : res bres :=
  match sp_data source with
  | [] => Ok (mkbr [] source [] level [] P)
  | _ =>
      match fuel with
      | 0 => OutOfFuel
      | S f =>
          s <- stop source level ;;
          if fst s then Ok (mkbr [] source [] (fst (snd s)) (snd (snd s)) P)
          else
            r <- long_way E (fun stop level source P => src <- discard_empty_lines source ;; long_loop E f stop level src P) source P ;;
            let after := match pr_item r with Some mi => mi_after mi | None => source end in
            rest <- long_loop E f stop (fst (snd s)) after (pr_parser r) ;;
            Ok (mkbr (match pr_item r with Some mi => mi_item mi :: br_blocks rest | None => br_blocks rest end)
                  (br_after rest) (pr_warnings r ++ br_warnings rest) (br_level rest)
                  (snd (snd s) ++ br_stop_warnings rest) (br_parser rest))
      end
  end.
