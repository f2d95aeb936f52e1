(** Model of section id generation: blocks/section.rs:359-419. *)
From Verif Require Import Text Parser_Model Regex.

(** document/attribute.rs:215-220 [as_maybe_str], then [unwrap_or_default]. *)
Definition value_text (v : ivalue) : text := match v with VValue t => t | _ => [] end.
(** blocks/section.rs:383-389 [INVALID_SECTION_ID_CHARS]. *)
Definition c_lower : char -> bool := c_range 97%N 122%N.
Definition c_id (U : unicode) (c : char) : bool := (c =? SP)%N || is_word U c || (c =? 45)%N || (c =? 46)%N.
Definition c_lhex (U : unicode) : char -> bool := c_or (c_digit U) (c_range 97%N 102%N).
Definition INVALID_SECTION_ID_CHARS (U : unicode) : re :=
  Alts
    [Seqs [Lit1 60%N; Plus (Chr (c_not (c_is 62%N))); Lit1 62%N];
     Seqs [Lit (lit "&lt;"); Many (Chr (c_not (c_is 38%N))); Lit (lit "&gt;")];
     Seqs [Lit1 38%N;
           Alts [Seqs [Chr c_lower; Plus (Chr c_lower); Upto 2 (Chr (c_digit U))];
                 Seqs [Lit1 35%N; Chr (c_digit U); Chr (c_digit U); Upto 3 (Chr (c_digit U))];
                 Seqs [Lit (lit "#x"); Chr (c_lhex U); Chr (c_lhex U); Upto 2 (Chr (c_lhex U))]];
           Lit1 59%N];
     Plus (Chr (c_not (c_id U)))].
(** blocks/section.rs:402: [gen_id.replace([' ', '.', '-'], &sep)]. *)
Definition is_break (c : char) : bool := (c =? SP)%N || (c =? 46)%N || (c =? 45)%N.
Definition replace_breaks (sep : text) (t : text) : text := flat_map (fun c => if is_break c then sep else [c]) t.
(** blocks/section.rs:405-407: the [while] loop, with fuel. *)
Fixpoint condense (fuel : nat) (sep : text) (t : text) : res text :=
  if contains (sep ++ sep) t then
    match fuel with 0 => OutOfFuel | S f => condense f sep (replace_str (sep ++ sep) sep t) end
  else Ok t.
(** blocks/section.rs:368-419 [generate_section_id]. *)
Definition generate_section_id (U : unicode) (title : text) (P : parser) : res text :=
  let idprefix := value_text (attribute_value P (lit "idprefix")) in
  let idseparator := value_text (attribute_value P (lit "idseparator")) in
  g <- replace_all_pure U (INVALID_SECTION_ID_CHARS U) (fun _ => Ok []) (to_lowercase U title) ;;
  let sep := firstn 1 idseparator in
  let g := replace_breaks sep g in
  g <- (match sep with
        | [] => Ok g
        | _ =>
            g <- condense (length g) sep g ;;
            let g := if ends_with sep g then removelast g else g in
            (match idprefix with
             | [] => if starts_with sep g then str_from (blen sep) g else Ok g
             | _ => Ok g
             end)
        end) ;;
  Ok (idprefix ++ g).
