(** Regular expressions with the leftmost-first semantics documented for the Rust crate [regex]
    (greedy and lazy repetition, capture groups, anchors, half word boundaries), and the functions
    [captures], [captures_iter], [replace_all] of that crate.  The crate itself is not translated
    line by line: this file is its specification (see DESIGN.md, trusted base). *)
From Verif Require Import Text.

Inductive assertion :=
| ABegin        (* ^ without (?m), \A *)
| AEnd          (* $ without (?m) *)
| ALineBegin    (* ^ with (?m) *)
| ALineEnd      (* $ with (?m) *)
| AWordBoundary (* \b *)
| AStartHalf    (* \b{start-half}: not preceded by a word character *)
| AEndHalf.     (* \b{end-half}: not followed by a word character *)

Inductive re :=
| Eps
| Chr (p : char -> bool)
| Seq (a b : re)
| Alt (a b : re)                    (* a preferred *)
| Star (greedy : bool) (a : re)
| Grp (n : nat) (a : re)
| Assert (a : assertion).

(** Matching state: position, character before, text ahead, captures (latest first). *)
Record st := mkst { s_pos : nat; s_prev : option char; s_rest : text; s_caps : list (nat * text) }.
Definition word_opt (U : unicode) (o : option char) : bool := match o with Some c => is_word U c | None => false end.
Definition check (U : unicode) (a : assertion) (s : st) : bool :=
  match a with
  | ABegin => match s_prev s with None => true | Some _ => false end
  | AEnd => match s_rest s with [] => true | _ => false end
  | ALineBegin => match s_prev s with None => true | Some c => (c =? LF)%N end
  | ALineEnd => match s_rest s with [] => true | c :: _ => (c =? LF)%N end
  | AWordBoundary => xorb (word_opt U (s_prev s)) (word_opt U (hd_error (s_rest s)))
  | AStartHalf => negb (word_opt U (s_prev s))
  | AEndHalf => negb (word_opt U (hd_error (s_rest s)))
  end.
Definition advance (s : st) (c : char) (r : text) : st := mkst (S (s_pos s)) (Some c) r (s_caps s).
Definition set_cap (n : nat) (s s' : st) : st :=
  mkst (s_pos s') (s_prev s') (s_rest s') ((n, firstn (s_pos s' - s_pos s) (s_rest s)) :: s_caps s').
Definition orelse {A} (a b : option A) : option A := match a with Some _ => a | None => b end.

(** Backtracking in order of preference. Every iteration of a repetition consumes text. *)
Fixpoint rmatch {A} (U : unicode) (r : re) (k : st -> option A) (s : st) {struct r} : option A :=
  match r with
  | Eps => k s
  | Chr p => match s_rest s with c :: t => if p c then k (advance s c t) else None | [] => None end
  | Seq a b => rmatch U a (rmatch U b k) s
  | Alt a b => match rmatch U a k s with Some x => Some x | None => rmatch U b k s end
  | Star g a =>
      (fix loop (n : nat) (s : st) {struct n} : option A :=
         match n with
         | 0 => k s
         | S n' =>
             if g then
               match rmatch U a (fun s' => if s_pos s <? s_pos s' then loop n' s' else None) s with
               | Some x => Some x
               | None => k s
               end
             else
               match k s with
               | Some x => Some x
               | None => rmatch U a (fun s' => if s_pos s <? s_pos s' then loop n' s' else None) s
               end
         end) (S (length (s_rest s))) s
  | Grp n a => rmatch U a (fun s' => k (set_cap n s s')) s
  | Assert a => if check U a s then k s else None
  end.

(** A match: the text of group 0, the captures and the text after it. *)
Record mtch := mkm { m_text : text; m_caps : list (nat * text); m_prev : option char; m_after : text }.
Definition match_here (U : unicode) (r : re) (prev : option char) (t : text) : option mtch :=
  rmatch U r (fun s' => Some (mkm (firstn (s_pos s') t) (s_caps s') (s_prev s') (s_rest s'))) (mkst 0 prev t []).
(** Leftmost match from a position: the text skipped and the match. *)
Fixpoint search (U : unicode) (r : re) (prev : option char) (t : text) : option (text * mtch) :=
  match match_here U r prev t with
  | Some m => Some ([], m)
  | None =>
      match t with
      | [] => None
      | c :: t' => match search U r (Some c) t' with Some (p, m) => Some (c :: p, m) | None => None end
      end
  end.
(** [Regex::captures], [Regex::is_match]. *)
Definition captures (U : unicode) (r : re) (h : text) : option mtch :=
  match search U r None h with Some (_, m) => Some m | None => None end.
Definition is_match (U : unicode) (r : re) (h : text) : bool :=
  match search U r None h with Some _ => true | None => false end.
(** [Captures::get(n)] for n > 0. *)
Fixpoint get_cap (n : nat) (l : list (nat * text)) : option text :=
  match l with [] => None | (i, t) :: r => if n =? i then Some t else get_cap n r end.
Definition cap (m : mtch) (n : nat) : option text := get_cap n (m_caps m).
(** [&caps[n]]: panics when the group did not take part in the match. *)
Definition cap_idx (m : mtch) (n : nat) : res text := of_option (cap m n).

(** [captures_iter]: successive matches with the text skipped before each, and the text after the
    last.  [nonempty] is set when an empty match at the current position is not allowed because
    the previous match ended there: the search restarts one character later. *)
Fixpoint find_all_go (fuel : nat) (U : unicode) (r : re) (nonempty : bool) (prev : option char) (t : text)
  : list (text * mtch) * text :=
  match fuel with
  | 0 => ([], t)
  | S f =>
      match search U r prev t with
      | None => ([], t)
      | Some (p, m) =>
          if nonempty && match p, m_text m with [], [] => true | _, _ => false end then
            match t with
            | [] => ([], t)
            | c :: t' =>
                match find_all_go f U r false (Some c) t' with
                | ([], e) => ([], c :: e)
                | ((p', m') :: l, e) => ((c :: p', m') :: l, e)
                end
            end
          else
            let '(l, e) := find_all_go f U r true (m_prev m) (m_after m) in ((p, m) :: l, e)
      end
  end.
Definition find_all (U : unicode) (r : re) (h : text) : list (text * mtch) * text :=
  find_all_go (2 + 2 * length h) U r false None h.

(** [Regex::replace_all] with a stateful [Replacer] that appends to [dest] and may panic. *)
Fixpoint replace_fold {St} (rep : St -> mtch -> text -> res (St * text)) (l : list (text * mtch)) (s : St) (dest : text)
  : res (St * text) :=
  match l with
  | [] => Ok (s, dest)
  | (p, m) :: r => sd <- rep s m (dest ++ p) ;; replace_fold rep r (fst sd) (snd sd)
  end.
Definition replace_all {St} (U : unicode) (r : re) (rep : St -> mtch -> text -> res (St * text)) (s : St) (h : text)
  : res (St * text) :=
  let '(l, e) := find_all U r h in
  match l with
  | [] => Ok (s, h)
  | _ => sd <- replace_fold rep l s [] ;; Ok (fst sd, snd sd ++ e)
  end.
(** Replacers without state that do not look at [dest]. *)
Definition replace_all_pure (U : unicode) (r : re) (rep : mtch -> res text) (h : text) : res text :=
  sd <- replace_all U r (fun (s : unit) m dest => t <- rep m ;; Ok (s, dest ++ t)) tt h ;; Ok (snd sd).

(** Abbreviations used to transcribe patterns. *)
Definition c_is (c : char) : char -> bool := N.eqb c.
Definition c_in (t : text) : char -> bool := fun c => has_char c t.
Definition c_not (p : char -> bool) : char -> bool := fun c => negb (p c).
Definition c_or (p q : char -> bool) : char -> bool := fun c => p c || q c.
Definition c_range (a b : char) : char -> bool := fun c => ((a <=? c) && (c <=? b))%N.
Definition c_any : char -> bool := fun _ => true.            (* . with (?s) *)
Definition c_dot : char -> bool := fun c => negb (c =? LF)%N. (* . without (?s) *)
Definition c_nonspace : char -> bool := fun c => negb (is_ws c). (* \S *)
Definition c_digit (U : unicode) : char -> bool :=            (* \d, \p{Nd}: see DESIGN.md *)
  fun c => if (c <? 128)%N then is_ascii_digit c else u_nd U c.
Definition Lit1 (c : char) : re := Chr (c_is c).
Fixpoint Lit (t : text) : re := match t with [] => Eps | [c] => Lit1 c | c :: r => Seq (Lit1 c) (Lit r) end.
Definition Opt (r : re) : re := Alt r Eps.       (* r? *)
Definition OptL (r : re) : re := Alt Eps r.      (* r?? *)
Definition Many (r : re) : re := Star true r.    (* r* *)
Definition ManyL (r : re) : re := Star false r.  (* r*? *)
Definition Plus (r : re) : re := Seq r (Many r).   (* r+ *)
Definition PlusL (r : re) : re := Seq r (ManyL r). (* r+? *)
(** r{0,n} *)
Fixpoint Upto (n : nat) (r : re) : re := match n with 0 => Eps | S n' => Opt (Seq r (Upto n' r)) end.
Fixpoint Seqs (l : list re) : re := match l with [] => Eps | [a] => a | a :: r => Seq a (Seqs r) end.
Fixpoint Alts (l : list re) : re := match l with [] => Chr (fun _ => false) | [a] => a | a :: r => Alt a (Alts r) end.
