(** Specification of string representations, and proofs. *)
From Verif Require Import Text TextFacts Span_Spec Span_Proof Strings_Model.

(** Unicode scalar values: the values of the Rust type [char]. *)
Definition scalar (c : N) : Prop := (c < 55296 \/ 57344 <= c < 1114112)%N.
Definition scalars (t : text) : Prop := Forall scalar t.

(** Proof: decoding what was encoded. *)
Lemma scalar_div c : (c < 1114112)%N ->
  (c = (c / 64) * 64 + c mod 64 /\ c mod 64 < 64 /\
   c / 64 = (c / 4096) * 64 + (c / 64) mod 64 /\ (c / 64) mod 64 < 64 /\
   c / 4096 = (c / 262144) * 64 + (c / 4096) mod 64 /\ (c / 4096) mod 64 < 64)%N.
Proof.
  intros _. pose proof (N.div_mod c 64 ltac:(lia)). pose proof (N.mod_lt c 64 ltac:(lia)).
  pose proof (N.div_mod (c / 64) 64 ltac:(lia)). pose proof (N.mod_lt (c / 64) 64 ltac:(lia)).
  pose proof (N.div_mod (c / 4096) 64 ltac:(lia)). pose proof (N.mod_lt (c / 4096) 64 ltac:(lia)).
  rewrite N.div_div in * by lia. change (64 * 64)%N with 4096%N in *. change (4096 * 64)%N with 262144%N in *. lia.
Qed.

Ltac btrue e := let H := fresh in assert (H : e = true) by (unfold is_cont; lia); rewrite H; clear H.
Ltac bfalse e := let H := fresh in assert (H : e = false) by (unfold is_cont; lia); rewrite H; clear H.

Lemma from_utf8_cons c r : scalar c -> from_utf8 (utf8 c ++ r) = option_map (cons c) (from_utf8 r).
Proof.
  intros Hc. unfold scalar in Hc. destruct (scalar_div c ltac:(lia)) as (E0 & L0 & E1 & L1 & E2 & L2).
  unfold utf8. destruct (N.ltb_spec c 128) as [H|H].
  { cbn [app from_utf8]. destruct (N.ltb_spec c 128); [reflexivity|lia]. }
  destruct (N.ltb_spec c 2048) as [H1|H1].
  { cbn [app from_utf8]. bfalse (192 + c / 64 <? 128)%N. btrue (is_cont (128 + c mod 64)). cbn [negb].
    btrue ((194 <=? 192 + c / 64) && (192 + c / 64 <=? 223))%N.
    replace ((192 + c / 64 - 192) * 64 + (128 + c mod 64 - 128))%N with c by lia. reflexivity. }
  destruct (N.ltb_spec c 65536) as [H2|H2].
  { cbn [app from_utf8]. bfalse (224 + c / 4096 <? 128)%N. btrue (is_cont (128 + (c / 64) mod 64)).
    btrue (is_cont (128 + c mod 64)). cbn [negb].
    bfalse ((194 <=? 224 + c / 4096) && (224 + c / 4096 <=? 223))%N.
    btrue ((224 <=? 224 + c / 4096) && (224 + c / 4096 <=? 239))%N. cbv zeta.
    replace ((224 + c / 4096 - 224) * 4096 + (128 + (c / 64) mod 64 - 128) * 64 + (128 + c mod 64 - 128))%N with c by lia.
    btrue ((2048 <=? c) && negb ((55296 <=? c) && (c <=? 57343)))%N. reflexivity. }
  { cbn [app from_utf8]. bfalse (240 + c / 262144 <? 128)%N. btrue (is_cont (128 + (c / 4096) mod 64)).
    btrue (is_cont (128 + (c / 64) mod 64)). btrue (is_cont (128 + c mod 64)). cbn [negb].
    bfalse ((194 <=? 240 + c / 262144) && (240 + c / 262144 <=? 223))%N.
    bfalse ((224 <=? 240 + c / 262144) && (240 + c / 262144 <=? 239))%N.
    assert (Hb : (c / 262144 <= 4)%N) by lia.
    btrue ((240 <=? 240 + c / 262144) && (240 + c / 262144 <=? 244))%N. cbv zeta.
    replace ((240 + c / 262144 - 240) * 262144 + (128 + (c / 4096) mod 64 - 128) * 4096 +
             (128 + (c / 64) mod 64 - 128) * 64 + (128 + c mod 64 - 128))%N with c by lia.
    btrue ((65536 <=? c) && (c <=? 1114111))%N. reflexivity. }
Qed.

Lemma from_utf8_encode t : scalars t -> from_utf8 (utf8_bytes t) = Some t.
Proof.
  induction 1 as [|c t Hc _ IH]; [reflexivity|]. unfold utf8_bytes in *. cbn [flat_map].
  rewrite from_utf8_cons by exact Hc. rewrite IH. reflexivity.
Qed.

(** [represents c t]: [c] is one of the representations of the text [t].  An inline value
    holds the encoding of [t], zero padded, and its length. *)
Inductive represents : cowstr -> text -> Prop :=
| rep_boxed t : represents (Boxed t) t
| rep_borrowed t : represents (Borrowed t) t
| rep_inlined t i : length (in_inner i) = 22 -> firstn (length (utf8_bytes t)) (in_inner i) = utf8_bytes t ->
    in_len i = N.of_nat (length (utf8_bytes t)) -> length (utf8_bytes t) <= 22 -> represents (Inlined i) t.

Lemma rep_deref c t : scalars t -> represents c t -> cow_deref c = Ok t.
Proof.
  intros Hs R. destruct R as [| |t' i HL HF HN HB]; [reflexivity|reflexivity|]. cbn [cow_deref]. unfold inline_deref.
  rewrite HN, Nat2N.id, HL. destruct (Nat.leb_spec (length (utf8_bytes t')) 22); [|lia].
  rewrite HF, from_utf8_encode by exact Hs. reflexivity.
Qed.

Lemma zero_padded_ok bs : length bs <= 22 ->
  length (zero_padded bs) = 22 /\ firstn (length bs) (zero_padded bs) = bs.
Proof.
  intros H. unfold zero_padded. change MAX_INLINE_STR_LEN with 22. split.
  - rewrite app_length, repeat_length. lia.
  - rewrite firstn_app, Nat.sub_diag, firstn_all. apply app_nil_r.
Qed.

Lemma try_from_rep t i : inline_try_from t = Some i -> represents (Inlined i) t.
Proof.
  unfold inline_try_from. change MAX_INLINE_STR_LEN with 22. destruct (Nat.leb_spec (length (utf8_bytes t)) 22) as [H|H]; [|discriminate].
  intros E. injection E as <-. destruct (zero_padded_ok (utf8_bytes t) H) as [H1 H2].
  constructor; cbn [in_inner in_len]; try assumption. apply N.mod_small. lia.
Qed.

Lemma from_char_rep c : represents (cow_from_char c) [c].
Proof.
  assert (Hl : length (utf8_bytes [c]) = clen c) by (rewrite blen_utf8; cbn [blen]; lia).
  assert (Hc : clen c <= 4) by (unfold clen; repeat destruct (N.ltb _ _); lia).
  assert (Hu : utf8_bytes [c] = utf8 c) by (unfold utf8_bytes; cbn; apply app_nil_r).
  unfold cow_from_char, inline_from_char. destruct (zero_padded_ok (utf8 c)) as [H1 H2].
  { rewrite clen_utf8. lia. }
  constructor; cbn [in_inner in_len]; rewrite ?Hl, ?Hu; try assumption; try lia.
  rewrite <- clen_utf8. exact H2.
Qed.

