(** Specification of inline macros: URI encoding, HTML attributes, and what a macro looks like. *)
From Verif Require Import Text Parser_Model Attrlist_Model Quote_Model.

(** * Percent-encoding and UTF-8 *)
Definition unreserved (c : char) : Prop :=
  (65 <= c <= 90 \/ 97 <= c <= 122 \/ 48 <= c <= 57)%N \/ c = 45%N \/ c = 46%N \/ c = 95%N \/ c = 126%N.
Definition is_hex (c : char) : Prop := (48 <= c <= 57 \/ 65 <= c <= 70)%N.
Inductive uri_safe (ok : char -> Prop) : text -> Prop :=
| us_nil : uri_safe ok []
| us_char c t : ok c -> uri_safe ok t -> uri_safe ok (c :: t)
| us_byte a b t : is_hex a -> is_hex b -> uri_safe ok t -> uri_safe ok (37%N :: a :: b :: t).
Definition hex_value (c : char) : option N :=
  if ((48 <=? c) && (c <=? 57))%N then Some (c - 48)%N
  else if ((65 <=? c) && (c <=? 70))%N then Some (c - 55)%N
  else if ((97 <=? c) && (c <=? 102))%N then Some (c - 87)%N else None.
Definition ocons {A} (a : A) (o : option (list A)) : option (list A) := match o with Some l => Some (a :: l) | None => None end.
(** The bytes that a percent-encoded text stands for. *)
Fixpoint percent_decode (t : text) : option (list N) :=
  match t with
  | [] => Some []
  | 37%N :: r =>
      match r with
      | a :: b :: r' => match hex_value a, hex_value b with Some x, Some y => ocons (16 * x + y)%N (percent_decode r') | _, _ => None end
      | _ => None
      end
  | c :: r => if (c <? 128)%N then ocons c (percent_decode r) else None
  end.
(** The text that a sequence of bytes stands for. *)
Definition cont (b : N) : bool := (128 <=? b)%N && (b <? 192)%N.
Fixpoint utf8_decode (l : list N) : option text :=
  match l with
  | [] => Some []
  | b :: r =>
      if (b <? 128)%N then ocons b (utf8_decode r)
      else if (b <? 192)%N then None
      else if (b <? 224)%N then
        match r with b1 :: r' => if cont b1 then ocons ((b - 192) * 64 + (b1 - 128))%N (utf8_decode r') else None | _ => None end
      else if (b <? 240)%N then
        match r with b1 :: b2 :: r' => if cont b1 && cont b2 then ocons ((b - 224) * 4096 + (b1 - 128) * 64 + (b2 - 128))%N (utf8_decode r') else None | _ => None end
      else
        match r with b1 :: b2 :: b3 :: r' => if cont b1 && cont b2 && cont b3 then ocons ((b - 240) * 262144 + (b1 - 128) * 4096 + (b2 - 128) * 64 + (b3 - 128))%N (utf8_decode r') else None | _ => None end
  end.
(** Rust characters are below this bound. *)
Definition scalar (c : char) : Prop := (c < 1114112)%N.

(** * HTML attributes *)
Definition DQC : char := 34%N.
Definition attr (n v : text) : text := [32%N] ++ n ++ [61%N; DQC] ++ v ++ [DQC].
(** Attribute [n] has value [v] somewhere in [html]. *)
Definition has_attr (html n v : text) : Prop := ~ In DQC v /\ exists a b, html = a ++ attr n v ++ b.
Definition has_token (tok v : text) : Prop :=
  exists a b, v = a ++ tok ++ b /\ (a = [] \/ exists a', a = a' ++ [32%N]) /\ (b = [] \/ exists b', b = 32%N :: b').
(** An image element with attributes [attrs], in its span. *)
Definition image_element (class : text) (attrs : list (text * text)) : text :=
  lit "<span" ++ attr (lit "class") class ++ lit "><img" ++ flat_map (fun nv => attr (fst nv) (snd nv)) attrs ++ lit "></span>".
Definition clean_attrs (attrs : list (text * text)) : Prop := Forall (fun nv => ~ In DQC (fst nv) /\ ~ In DQC (snd nv)) attrs.

(** * Where macros are *)
Definition occurs (p t : text) : Prop := exists a b, t = a ++ p ++ b.
(** The options of an image that are not implemented. *)
Definition unported (target : text) (a : attrlist) : Prop :=
  (option_map ea_value (named_attribute a (lit "format")) = Some (lit "svg") \/ occurs (lit ".svg") target) /\
  (al_has_option a (lit "inline") = Ok true \/ al_has_option a (lit "interactive") = Ok true).
