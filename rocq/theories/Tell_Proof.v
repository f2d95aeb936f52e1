(** Proofs about the [Debug] of places, warnings, strings, values, numbers and source maps (C134). *)
From Verif Require Import Text TextFacts Maps Catalog_Model Span_Model Parser_Model SourceMap_Model Strings_Model Show_Model Show_Spec Show_Proof Tell_Model.

(** What is written can be told where no digit follows. *)
Definition no_digit (x : text) : Prop := match x with c :: _ => ~ (48 <= c <= 57)%N | [] => True end.
Definition ends_before {A} (show : A -> text) : Prop := forall a b x y, no_digit x -> no_digit y -> show a ++ x = show b ++ y -> a = b /\ x = y.
Lemma self_before {A} (show : A -> text) : self_ending show -> ends_before show.
Proof. intros H a b x y _ _ K. exact (H a b x y K). Qed.
Lemma run_split : forall d e x y, Forall (fun c => 48 <= c <= 57)%N d -> Forall (fun c => 48 <= c <= 57)%N e -> no_digit x -> no_digit y -> d ++ x = e ++ y -> d = e /\ x = y.
Proof.
  induction d as [|c d IH]; intros [|c' e] x y Hd He Hx Hy H; cbn [app] in H.
  - auto.
  - exfalso. subst x. inversion He; subst. exact (Hx H1).
  - exfalso. subst y. inversion Hd; subst. exact (Hy H1).
  - injection H as <- H. inversion Hd; inversion He; subst. destruct (IH e x y) as (-> & ->); auto.
Qed.
Lemma number_ends : ends_before show_nat.
Proof. intros a b x y Hx Hy H. destruct (run_split _ _ _ _ (show_digits a) (show_digits b) Hx Hy H) as (E & ->). split; [exact (show_nat_inj _ _ E)|reflexivity]. Qed.
Lemma byte_ends : ends_before (fun b => show_nat (N.to_nat b)).
Proof. intros a b x y Hx Hy H. destruct (number_ends _ _ _ _ Hx Hy H) as (E & ->). split; [exact (N2Nat.inj _ _ E)|reflexivity]. Qed.
Lemma number_first n x y : show_nat n ++ x <> 93%N :: y.
Proof.
  intros H. pose proof (show_digits n) as F. destruct (show_nat n) as [|c z] eqn:E.
  - pose proof (show_nat_val n) as V. rewrite E in V. cbn in V. subst n. discriminate E.
  - inversion F; subst. injection H as -> _. lia.
Qed.
Lemma list_ends {A} (show : A -> text) : ends_before show -> (forall a x y, show a ++ x <> 93%N :: y) -> self_ending (show_list show).
Proof.
  intros H N. assert (G : forall l l' x y, join (lit ", ") (map show l) ++ 93%N :: x = join (lit ", ") (map show l') ++ 93%N :: y -> l = l' /\ x = y).
  { assert (J : forall c r, join (lit ", ") (map show (c :: r)) = show c ++ match r with [] => [] | _ => lit ", " ++ join (lit ", ") (map show r) end) by (intros c [|d r]; cbn [map join]; [rewrite app_nil_r|]; reflexivity).
    assert (D : forall (r : list A) x, no_digit ((match r with [] => [] | _ => lit ", " ++ join (lit ", ") (map show r) end) ++ 93%N :: x)) by (intros [|a r] x; cbn; lia).
    induction l as [|a l IH]; intros [|b l'] x y K.
    - injection K as K. auto.
    - exfalso. rewrite J, <- app_assoc in K. symmetry in K. exact (N _ _ _ K).
    - exfalso. rewrite J, <- app_assoc in K. exact (N _ _ _ K).
    - rewrite !J, <- !app_assoc in K. destruct (H _ _ _ _ (D l x) (D l' y) K) as (-> & K2). destruct l as [|a2 l], l' as [|b2 l'].
      + injection K2 as K2. auto.
      + exfalso. discriminate K2.
      + exfalso. discriminate K2.
      + rewrite <- !app_assoc in K2. apply app_inv_head in K2. destruct (IH (b2 :: l') x y K2) as (-> & ->). auto. }
  intros l l' x y K. unfold show_list in K. rewrite <- !app_assoc in K. apply app_inv_head in K. exact (G l l' x y K).
Qed.
Ltac strip H := rewrite <- ?app_assoc in H; apply app_inv_head in H.
Ltac num H := apply number_ends in H; [let E := fresh "E" in let K := fresh "K" in destruct H as (E & K); rename K into H|cbn; lia|cbn; lia].
Lemma span_ends pc : self_ending (show_span pc).
Proof.
  intros [d l c o] [d' l' c' o'] x y H. unfold show_span in H. cbn [sp_data sp_line sp_col sp_off] in H. strip H. rewrite <- ?app_assoc in H. destruct (quoted_ends pc _ _ _ _ H) as (-> & H2). strip H2. num H2. subst l'. strip H2. num H2. subst c'. strip H2. num H2. subst o'. strip H2. auto.
Qed.
Lemma debug_warning_ends pc w w' x y : debug_warning pc w ++ 32%N :: x = debug_warning pc w' ++ 32%N :: y -> w = w' /\ x = y.
Proof.
  intros H. unfold debug_warning in H. rewrite <- !app_assoc in H. apply app_inv_head in H.
  destruct w, w'; try (apply app_inv_head in H; injection H as H; auto; fail); try (exfalso; clear -H; rewrite <- ?app_assoc in H; repeat match type of H with context [quoted ?p ?t ++ ?r] => let q := fresh "q" in generalize dependent (quoted p t ++ r); intros q H end; repeat match type of H with context [show_nat ?t ++ ?r] => let q := fresh "q" in generalize dependent (show_nat t ++ r); intros q H end; vm_compute in H; discriminate H).
  - strip H. rewrite <- ?app_assoc in H. destruct (quoted_ends pc _ _ _ _ H) as (-> & H2). strip H2. injection H2 as ->. auto.
  - strip H. rewrite <- ?app_assoc in H. destruct (quoted_ends pc _ _ _ _ H) as (-> & H2). strip H2. injection H2 as ->. auto.
  - strip H. rewrite <- ?app_assoc in H. num H. subst. strip H. num H. subst. strip H. injection H as ->. auto.
  - strip H. rewrite <- ?app_assoc in H. num H. subst. strip H. injection H as ->. auto.
Qed.
Lemma warning_ends pc : self_ending (show_warning pc).
Proof.
  intros [s w] [s' w'] x y H. unfold show_warning in H. cbn [w_source w_type] in H. strip H. rewrite <- ?app_assoc in H. destruct (span_ends pc _ _ _ _ H) as (-> & H2). strip H2. rewrite <- ?app_assoc in H2. change (lit " }" ++ x) with (32%N :: lit "}" ++ x) in H2. change (lit " }" ++ y) with (32%N :: lit "}" ++ y) in H2. destruct (debug_warning_ends pc _ _ _ _ H2) as (-> & H3). apply app_inv_head in H3. auto.
Qed.
Lemma warnings_end pc : self_ending (show_slice (show_warning pc)).
Proof. intros a b x y H. unfold show_slice in H. strip H. refine (list_ends _ (self_before _ (warning_ends pc)) _ a b x y H). intros w z z' K. discriminate K. Qed.
Lemma inline_ends : self_ending show_inline.
Proof.
  intros [i l] [i' l'] x y H. unfold show_inline in H. cbn [in_inner in_len] in H. strip H. rewrite <- ?app_assoc in H. destruct (list_ends _ byte_ends (fun a => number_first (N.to_nat a)) _ _ _ _ H) as (-> & H2). strip H2. num H2. apply N2Nat.inj in E. subst l'. strip H2. auto.
Qed.
Lemma cow_ends pc : self_ending (show_cow pc).
Proof.
  intros [s|s|i] [s'|s'|i'] x y H; cbn [show_cow] in H; try (exfalso; discriminate H); strip H; rewrite <- ?app_assoc in H.
  - destruct (quoted_ends pc _ _ _ _ H) as (-> & H2). apply app_inv_head in H2. auto.
  - destruct (quoted_ends pc _ _ _ _ H) as (-> & H2). apply app_inv_head in H2. auto.
  - destruct (inline_ends _ _ _ _ H) as (-> & H2). apply app_inv_head in H2. auto.
Qed.
Lemma value_ends pc : self_ending (show_value pc).
Proof. intros v w x y. destruct v, w; cbn [show_value]; intros H; try (exfalso; discriminate H); try (apply app_inv_head in H; auto; fail). strip H. rewrite <- ?app_assoc in H. destruct (quoted_ends pc _ _ _ _ H) as (-> & H2). apply app_inv_head in H2. auto. Qed.
Lemma section_number_ends : self_ending debug_section_number.
Proof.
  intros [t l] [t' l'] x y. unfold debug_section_number. cbn [sn_type sn_comps]. intros H. strip H. rewrite <- ?app_assoc in H. assert (K : t = t') by (destruct t, t'; try reflexivity; discriminate H). subst t'. apply app_inv_head in H. apply app_inv_head in H. unfold show_slice in H. strip H. rewrite <- ?app_assoc in H. destruct (list_ends _ number_ends number_first _ _ _ _ H) as (-> & H2). apply app_inv_head in H2. auto.
Qed.
Lemma opt_before pc a b x y : show_opt pc a ++ x = show_opt pc b ++ y -> a = b /\ x = y.
Proof. destruct a, b; cbn [show_opt]; intros H; try discriminate H; [|apply app_inv_head in H; auto]. strip H. destruct (quoted_ends pc _ _ _ _ H) as (-> & H2). apply app_inv_head in H2. auto. Qed.
Lemma source_map_ends pc : self_ending (show_source_map pc).
Proof.
  intros m m' u v H. unfold show_source_map in H. strip H. rewrite <- ?app_assoc in H. apply list_ends in H; [destruct H as (-> & H2); apply app_inv_head in H2; auto| |intros a x y K; discriminate K]. apply self_before. clear. intros [k [f l]] [k' [f' l']] x y K. cbn [fst snd] in K. unfold show_line in K. cbn [sl_file sl_line] in K. strip K. rewrite <- ?app_assoc in K. num K. subst k'. strip K. strip K. rewrite <- ?app_assoc in K. destruct (opt_before pc _ _ _ _ K) as (-> & K2). strip K2. num K2. subst l'. strip K2. strip K2. auto.
Qed.
