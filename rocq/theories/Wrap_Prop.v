(** A text in a compound block (C131). *)
From Verif Require Import Text TextFacts Maps Span_Model Span_Pure Span_Proof Span_Laws Span_Spec Parser_Model Subs_Model Attrlist_Model Group_Model Header_Model Block_Model Block_Spec Block_Proof Doc_Model Access_Model Header_Prop Block_Prop
  Tree_Proof Begin_Spec Begin_Proof Round_Spec Round_Proof Shift_Spec Shift_Proof Boxed_Spec Boxed_Proof Boxed_Prop Wrap_Spec Wrap_Proof.

(** A compound block has in it the blocks of the text between its delimiters, read as a document of its own, with the warnings and the state
    of the parser that it gives; and it goes wrong just as this text does. *)
Theorem C131_block : forall E D fuel s P l d c rest, located D s -> wrapped l d c (sp_data s) rest ->
  match parse_blocks_until E fuel never 0 (span_new c) P with
  | Ok b => exists q after, a_wrap d (sp_line s) (sp_off s + blen l) (br_blocks b) q /\ sp_data after = rest /\
      block_parse E fuel s P = Ok (mkpr (Some (mkmi q after)) (map (mv_w (sp_line s) (sp_off s + blen l)) (br_warnings b)) (br_parser b))
  | Panic => block_parse E fuel s P = Panic
  | OutOfFuel => block_parse E fuel s P = OutOfFuel
  end.
Proof.
  intros E D fuel s P l d c rest L (r & Hl & Hd & He). destruct (wrap_block E (parse_blocks_until E fuel) s P l r d c rest Hl Hd He) as (k & _ & Eb). unfold block_parse. rewrite Eb, (wrap_inside E D fuel s P l r d c rest L Hl He).
  destruct (parse_blocks_until E fuel never 0 (span_new c) P) as [b| |]; cbn [on_ok bind]; [|reflexivity|reflexivity]. eexists _, _. split; [eexists; reflexivity|]. split; [|reflexivity]. apply sp_data_skip.
Qed.
(** What comes after it is read as if it stood alone, with the parser that the text in the block leaves. *)
Theorem C131_rest : forall E D fuel f n s P l d c rest, no_title_here E f d -> located D s -> sp_col s = 1 -> wrapped l d c (sp_data s) rest -> exists k2 o2,
  (forall b b2, parse_blocks_until E fuel never 0 (span_new c) P = Ok b -> blocks_loop E fuel f n (span_new rest) (br_parser b) = Ok b2 -> exists r, blocks_loop E (S fuel) f n s P = Ok r /\ wrap_then d (sp_line s) (sp_off s + blen l) k2 o2 b b2 r) /\
  (forall r, blocks_loop E (S fuel) f n s P = Ok r -> exists b b2, parse_blocks_until E fuel never 0 (span_new c) P = Ok b /\ blocks_loop E fuel f n (span_new rest) (br_parser b) = Ok b2 /\ wrap_then d (sp_line s) (sp_off s + blen l) k2 o2 b b2 r).
Proof. exact wrap_loop. Qed.
(** So the lines of a text can be put between delimiters that they do not have: the result is one block with the blocks of the text, and the
    same parser. *)
Lemma lines_wrapped d ls rest : compound_delimiter d -> Forall (fun x => ~ In LF x /\ ~ line_reads d x) ls -> wrapped (d ++ [LF]) d (unlines ls) (unlines (d :: ls ++ [d]) ++ rest) rest.
Proof.
  intros Hd F. exists (unlines (ls ++ [d]) ++ rest). split; [|split; [exact Hd|apply enclosed_lines; [apply compound_tidy, Hd|exact F]]]. rewrite unlines_cons, <- app_assoc. exact (a_line_tidy d _ (compound_tidy _ Hd)).
Qed.
Theorem C131_text : forall E fuel n d ls P, compound_delimiter d -> Forall (fun x => ~ In LF x /\ ~ line_reads d x) ls ->
  (forall b, parse_blocks_until E fuel never 0 (span_new (unlines ls)) P = Ok b -> exists r q, parse_blocks_until E (S fuel) never n (span_new (unlines (d :: ls ++ [d]))) P = Ok r /\
     br_blocks r = [q] /\ a_wrap d 1 (S (blen d)) (br_blocks b) q /\ br_warnings r = map (mv_w 1 (S (blen d))) (br_warnings b) /\ br_parser r = br_parser b) /\
  (forall r, parse_blocks_until E (S fuel) never n (span_new (unlines (d :: ls ++ [d]))) P = Ok r -> exists b, parse_blocks_until E fuel never 0 (span_new (unlines ls)) P = Ok b /\ br_parser r = br_parser b).
Proof.
  intros E fuel n d ls P Hd F. pose proof (lines_wrapped d ls [] Hd F) as W. rewrite app_nil_r in W. set (t := unlines (d :: ls ++ [d])) in *.
  assert (Ed : p_discard_empty_lines (span_new t) = span_new t). { destruct W as (r & Hl & _). destruct (compound_first _ Hd) as (c & y & Ey & Hc). apply (discard_none (span_new t) (d ++ [LF]) r d c Hl); [rewrite Ey; left; reflexivity|]. intros [->| ->]; cbn in Hc; intuition discriminate. }
  destruct (wrap_loop E t fuel never n (span_new t) P (d ++ [LF]) d (unlines ls) [] (or_introl eq_refl) (located_new t) eq_refl W) as (k2 & o2 & W1 & W2).
  unfold parse_blocks_until at 2 3. rewrite discard_empty_lines_ok. cbn [bind]. rewrite Ed. cbn [sp_line sp_off span_new] in *. rewrite blen_app in W1, W2. change (blen [LF]) with 1 in *. rewrite Nat.add_0_l, Nat.add_1_r in *.
  assert (G : forall Q, blocks_loop E fuel never n (span_new []) Q = Ok (mkbr [] (span_new []) [] n [] Q)) by (intros Q; destruct fuel; reflexivity). split.
  - intros b Hb. destruct (W1 b _ Hb (G _)) as (r & Hr & (q & Hq & Eq) & Ew & _ & _ & Ep). exists r, q. cbn [br_blocks br_warnings br_parser map] in *. rewrite app_nil_r in Ew. auto.
  - intros r Hr. destruct (W2 r Hr) as (b & b2 & Hb & Hb2 & _ & _ & _ & _ & Ep). exists b. split; [exact Hb|]. rewrite G in Hb2. apply Ok_inj in Hb2. subst b2. exact Ep.
Qed.
(** As deep as one likes. *)
Theorem C131_deep : forall E fuel ds ls P b, deep_fits ds ls -> parse_blocks_until E fuel never 0 (span_new (unlines ls)) P = Ok b ->
  exists r, parse_blocks_until E (length ds + fuel) never 0 (span_new (unlines (deep ds ls))) P = Ok r /\ deep_blocks ds (br_blocks b) (br_blocks r) /\ br_parser r = br_parser b /\ map w_type (br_warnings r) = map w_type (br_warnings b).
Proof.
  intros E fuel ds ls P b Hd Hb. induction ds as [|d ds IH]; cbn [length Nat.add deep deep_blocks deep_fits] in *; [exists b; auto|]. destruct Hd as (H1 & H2 & H3). destruct (IH H3) as (r & Hr & D & Ep & Ew).
  destruct (proj1 (C131_text E (length ds + fuel) 0 d (deep ds ls) P H1 H2) r Hr) as (r' & q & Hr' & Eq & Hq & Ew' & Ep'). exists r'. split; [exact Hr'|]. split; [exists (br_blocks r), q; auto|]. split; [congruence|]. rewrite Ew', map_map, <- Ew. apply map_ext. reflexivity.
Qed.
(** * Cases *)
Definition wrap_lines : list text := [lit ":a: b"; []; lit "[[x]]"; lit "{a}"; []; lit "----"; lit "--"; lit "***"; lit "----"].
Definition wrap_delimiters : list text := [lit "===="; lit "****"; lit "======="; lit "_____"].
Definition wrap_shape (t : text) : list nat * (option text * nat) := match parse_blocks_until E0 40 never 0 (span_new t) parser_default with Ok b => (map (fun b => length (nested_blocks b)) (br_blocks b), (as_maybe_str (attribute_value (br_parser b) (lit "a")), length (br_warnings b))) | _ => ([], (None, 0)) end.
Lemma not_read d x : text_eqb (trim_end_by (N.eqb SP) (strip_cr x)) d = false -> ~ line_reads d x.
Proof.
  intros H K. destruct (trimmed_strip _ _ K) as (z & Ez & Fz). destruct K as (y & w & _ & _ & _ & Hl). rewrite Ez in H.
  rewrite (trim_end_by_unique (N.eqb SP) d z) in H; [rewrite text_eqb_refl in H; discriminate H|eapply Forall_impl; [|exact Fz]; intros c <-; reflexivity|]. intros p c Hp. destruct (N.eqb_spec SP c) as [<-|]; [|reflexivity]. exfalso. exact (Hl p Hp).
Qed.
Local Ltac unread := repeat (apply Forall_cons; [split; [cbn; intuition discriminate|apply not_read; vm_compute; reflexivity]|]); apply Forall_nil.
Lemma marked c n : In c (lit "=*_") -> 4 <= n -> compound_delimiter (repeat c n).
Proof. intros H1 H2. right. exists c. split; [exact H1|]. exists n. auto. Qed.
Example deep_meets : deep_fits wrap_delimiters wrap_lines /\ wrap_shape (unlines wrap_lines) = ([0; 0; 0], (Some (lit "b"), 0)) /\ wrap_shape (unlines (deep wrap_delimiters wrap_lines)) = ([1], (Some (lit "b"), 0)).
Proof.
  split; [|split; vm_compute; reflexivity]. unfold wrap_delimiters, wrap_lines. cbn [deep_fits deep app].
  split; [apply (marked 61%N 4); [cbn; auto|lia]|]. split; [unread|]. split; [apply (marked 42%N 4); [cbn; auto|lia]|]. split; [unread|]. split; [apply (marked 61%N 7); [cbn; auto|lia]|]. split; [unread|]. split; [apply (marked 95%N 5); [cbn; auto|lia]|]. split; [unread|exact I].
Qed.
(** * Where it makes a difference *)
(** A line in a listing that reads as the delimiter ends the block that the listing is in. *)
Definition top_kinds (t : text) : list (text * nat) := match parse_blocks_until E0 40 never 0 (span_new t) parser_default with Ok b => map (fun b => (raw_context b, length (nested_blocks b))) (br_blocks b) | _ => [] end.
Theorem C131_listing_refuted : exists ls, top_kinds (unlines ls) = [(lit "listing", 0)] /\ length (top_kinds (unlines (lit "====" :: ls ++ [lit "===="]))) = 3 /\ hd_error (top_kinds (unlines (lit "====" :: ls ++ [lit "===="]))) = Some (lit "example", 1).
Proof. exists [lit "----"; lit "a"; lit "===="; lit "b"; lit "----"]. split; [vm_compute; reflexivity|]. split; vm_compute; reflexivity. Qed.
(** In a section, a text between delimiters of seven equals signs has a warning that it does not have alone. *)
Theorem C131_section_refuted : exists ls, wrap_shape (unlines ls) = ([0], (None, 0)) /\ wrap_shape (unlines (lit "=======" :: ls ++ [lit "======="])) = ([1], (None, 0)) /\ wrap_shape (unlines (lit "== S" :: [] :: lit "=======" :: ls ++ [lit "======="])) = ([1], (None, 1)).
Proof. exists [lit "x"]. split; [vm_compute; reflexivity|]. split; vm_compute; reflexivity. Qed.
Print Assumptions C131_block.
Print Assumptions C131_rest.
Print Assumptions C131_text.
Print Assumptions C131_deep.
Print Assumptions C131_listing_refuted.
Print Assumptions C131_section_refuted.
