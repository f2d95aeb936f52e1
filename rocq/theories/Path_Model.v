(** Model of parser/path_resolver.rs. *)
From Verif Require Import Text Regex.

(** parser/path_resolver.rs:42-48 [PathResolver::posixify]; [fs] is the field [file_separator]. *)
Definition posixify (fs : char) (path : text) : text :=
  if (fs =? BSL)%N && has_char BSL path then replace_char BSL (lit "/") path else path.
(** parser/path_resolver.rs:195-197 [is_web_root]. *)
Definition is_web_root (path : text) : bool := starts_with (lit "/") path.
(** parser/path_resolver.rs:221-242 [URI_SNIFF]. *)
Definition URI_SNIFF (U : unicode) : re :=
  Seqs [Assert ABegin; Chr (is_alpha U); Plus (Chr (fun c => is_alpha U c || is_numeric U c || c_in (lit ".+-") c));
        Lit1 58%N; Upto 2 (Lit1 47%N)].
(** parser/path_resolver.rs:207-218 [extract_uri_prefix]. *)
Definition extract_uri_prefix (U : unicode) (s : text) : res (text * option text) :=
  if has_char 58%N s then
    match captures U (URI_SNIFF U) s with
    | Some m => r <- str_from (blen (m_text m)) s ;; Ok (r, Some (m_text m))
    | None => Ok (s, None)
    end
  else Ok (s, None).
(** parser/path_resolver.rs:124-179 [partition_path] for web paths; the other case is [todo!()] and
    is never called. *)
Definition partition_path (fs : char) (path : text) : res (list text * option text) :=
  let posix := posixify fs path in
  let root := if is_web_root posix then Some (lit "/") else if starts_with (lit "./") posix then Some (lit "./") else None in
  after_root <- match root with Some r => str_from (blen r) posix | None => Ok posix end ;;
  Ok (filter (fun s => negb (text_eqb s (lit "."))) (split_on 47%N after_root), root).
(** parser/path_resolver.rs:185-191 [join_path]. *)
Definition join_path (segments : list text) (root : option text) : text :=
  match root with Some r => r | None => [] end ++ join (lit "/") segments.
(** parser/path_resolver.rs:81-101: one round of the loop.  [resolved] is the vector in reverse. *)
Definition is_dotdot (s : text) : bool := text_eqb s (lit "..").
Definition resolve_step (root : option text) (resolved : list text) (segment : text) : list text :=
  if is_dotdot segment then
    match resolved with
    | [] => match root with
            | Some r => if negb (text_eqb r (lit "./")) then resolved else [segment]
            | None => [segment]
            end
    | last_segment :: popped => if is_dotdot last_segment then segment :: resolved else popped
    end
  else segment :: resolved.
(** parser/path_resolver.rs:60-111 [web_path]. *)
Definition web_path (U : unicode) (fs : char) (target : text) (start : option text) : res text :=
  let target := posixify fs target in
  tu <- match option_map (posixify fs) start with
        | None => Ok (target, None)
        | Some start =>
            if is_web_root target then Ok (target, None)
            else extract_uri_prefix U (start ++ (if ends_with (lit "/") start then [] else lit "/") ++ target)
        end ;;
  sr <- partition_path fs (fst tu) ;;
  let resolved := rev (fold_left (resolve_step (snd sr)) (fst sr) []) in
  Ok (match snd tu with Some p => p | None => [] end ++ replace_str (lit " ") (lit "%20") (join_path resolved (snd sr))).
