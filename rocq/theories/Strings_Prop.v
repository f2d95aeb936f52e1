(** C10, C11: string representations.  [scalars] and [represents] are in [Strings_Proof]. *)
From Verif Require Import Text TextFacts Span_Spec Span_Proof Strings_Model Strings_Proof.

(** C10. Equality and hashing depend on the text only. *)
Theorem C10_equality_is_equality_of_texts : forall a b ta tb,
  scalars ta -> scalars tb -> represents a ta -> represents b tb ->
  (cow_eq a b = Ok true <-> ta = tb) /\ (cow_eq a b = Ok false <-> ta <> tb).
Proof.
  intros a b ta tb Ha Hb Ra Rb. unfold cow_eq. rewrite (rep_deref a ta Ha Ra), (rep_deref b tb Hb Rb). cbn [bind].
  destruct (text_eqb_spec ta tb); split; split; congruence.
Qed.
Theorem C10_equal_values_hash_equally : forall H (hash : text -> H) a b t,
  scalars t -> represents a t -> represents b t ->
  cow_hash hash a = cow_hash hash b /\ cow_hash hash a = Ok (hash t).
Proof.
  intros H hash a b t Ht Ra Rb. unfold cow_hash. rewrite (rep_deref a t Ht Ra), (rep_deref b t Ht Rb). split; reflexivity.
Qed.
Theorem C10_clone_keeps_text : forall a t, represents a t -> represents (cow_clone a) t.
Proof.
  intros a t [t'|t'|t' i H1 H2 H3 H4]; cbn [cow_clone].
  - destruct (inline_try_from t') as [i|] eqn:E; [apply try_from_rep, E|constructor].
  - constructor.
  - constructor; assumption.
Qed.
Theorem C10_conversions_keep_text : forall t c, scalars t ->
  represents (cow_from_str t) t /\ represents (cow_from_string t) t /\
  represents (cow_from_char c) [c] /\
  represents (cow_from_cow (CowBorrowed t)) t /\ represents (cow_from_cow (CowOwned t)) t /\
  (forall a, represents a t ->
     cow_into_string a = Ok t /\ cow_deref a = Ok t /\
     (cow_into_cow a = Ok (CowOwned t) \/ cow_into_cow a = Ok (CowBorrowed t))).
Proof.
  intros t c Ht. unfold cow_from_str, cow_from_string, cow_from_cow.
  do 5 (split; [apply from_char_rep || apply rep_boxed || apply rep_borrowed|]).
  intros a R. pose proof (rep_deref a t Ht R) as E. split; [exact E|]. split; [exact E|].
  destruct R as [t'|t'|t' i H1 H2 H3 H4]; [left; reflexivity|right; reflexivity|left]. cbn [cow_into_cow].
  cbn [cow_deref] in E. rewrite E. reflexivity.
Qed.
(** "é" as a boxed, borrowed and inlined string. *)
Example C10_example : scalars [233%N] /\ represents (Boxed [233%N]) [233%N] /\
  represents (cow_clone (Boxed [233%N])) [233%N] /\ cow_clone (Boxed [233%N]) <> Boxed [233%N] /\
  represents (cow_from_char 233%N) [233%N].
Proof.
  split; [constructor; [unfold scalar; lia|constructor]|]. split; [constructor|].
  split; [apply C10_clone_keeps_text; constructor|]. split; [discriminate|apply from_char_rep].
Qed.

(** C11. Inline strings hold up to 22 bytes and give them back. *)
Theorem C11_inline_iff_fits : forall t,
  (exists i, inline_try_from t = Some i) <-> length (utf8_bytes t) <= 22.
Proof.
  intros t. unfold inline_try_from. change MAX_INLINE_STR_LEN with 22.
  destruct (Nat.leb_spec (length (utf8_bytes t)) 22); split; try lia; eauto. intros [i H']. discriminate.
Qed.
Theorem C11_inline_round_trip : forall t i,
  scalars t -> inline_try_from t = Some i -> inline_deref i = Ok t.
Proof. intros t i Ht H. apply try_from_rep in H. exact (rep_deref (Inlined i) t Ht H). Qed.
Theorem C11_inline_equality : forall t u i j, scalars t -> scalars u ->
  inline_try_from t = Some i -> inline_try_from u = Some j ->
  (inline_eq i j = Ok true <-> t = u).
Proof.
  intros t u i j Ht Hu Hi Hj. unfold inline_eq.
  rewrite (C11_inline_round_trip t i Ht Hi), (C11_inline_round_trip u j Hu Hj). cbn [bind].
  destruct (text_eqb_spec t u); split; congruence.
Qed.
Theorem C11_inline_char_round_trip : forall c, scalar c -> inline_deref (inline_from_char c) = Ok [c].
Proof. intros c Hc. apply (rep_deref (cow_from_char c) [c]); [constructor; [exact Hc|constructor]|apply from_char_rep]. Qed.
(** The array has 22 bytes, and those after the text are zero; so a text has one form, whether it is made from a character or not. *)
Theorem C11_padding : forall t i, inline_try_from t = Some i -> length (in_inner i) = 22 /\ (forall k, N.to_nat (in_len i) <= k < 22 -> nth_error (in_inner i) k = Some 0%N).
Proof.
  intros t i H. unfold inline_try_from in H. change MAX_INLINE_STR_LEN with 22 in H. destruct (Nat.leb_spec (length (utf8_bytes t)) 22) as [L|L]; [|discriminate H]. injection H as <-. cbn [in_inner in_len]. unfold zero_padded. change MAX_INLINE_STR_LEN with 22.
  split; [rewrite app_length, repeat_length; lia|]. intros k Hk. rewrite N.mod_small, Nat2N.id in Hk by lia. rewrite nth_error_app2 by lia. apply nth_error_repeat. lia.
Qed.
Theorem C11_one_form : forall c, inline_try_from [c] = Some (inline_from_char c).
Proof.
  intros c. unfold inline_try_from, inline_from_char. assert (E : utf8_bytes [c] = utf8 c) by (unfold utf8_bytes; cbn [flat_map]; apply app_nil_r). rewrite E.
  assert (L : length (utf8 c) = clen c) by (unfold utf8, clen; repeat (destruct (_ <? _)%N; [reflexivity|]); reflexivity). rewrite L. change MAX_INLINE_STR_LEN with 22. destruct (Nat.leb_spec (clen c) 22) as [_|K]; [reflexivity|].
  exfalso. revert K. unfold clen. repeat (destruct (_ <? _)%N; [lia|]). lia.
Qed.
(** Eleven two-byte characters fit, twelve do not. *)
Example C11_example : scalars (repeat 233%N 11) /\
  (exists i, inline_try_from (repeat 233%N 11) = Some i /\ inline_deref i = Ok (repeat 233%N 11)) /\
  inline_try_from (repeat 233%N 12) = None.
Proof.
  split; [apply Forall_forall; intros c Hc; apply repeat_spec in Hc; subst; unfold scalar; lia|].
  split; [eexists; split; vm_compute; reflexivity|vm_compute; reflexivity].
Qed.

Print Assumptions C10_equality_is_equality_of_texts.
Print Assumptions C10_equal_values_hash_equally.
Print Assumptions C10_clone_keeps_text.
Print Assumptions C10_conversions_keep_text.
Print Assumptions C11_padding.
Print Assumptions C11_one_form.
Print Assumptions C11_inline_iff_fits.
Print Assumptions C11_inline_round_trip.
Print Assumptions C11_inline_equality.
Print Assumptions C11_inline_char_round_trip.
