(** UTF-8. *)
From Coq Require Import Strings.String Strings.Ascii Lists.List NArith.
Import ListNotations.
Open Scope string_scope.
Open Scope N_scope.

(** A Unicode scalar value and its encoding (RFC 3629) *)
Definition scalar (n : N) : Prop := n < 55296 \/ 57344 <= n < 1114112.
Definition utf8 (n : N) : string :=
  if n <? 128 then String (ascii_of_N n) ""
  else if n <? 2048 then
    String (ascii_of_N (192 + n / 64)) (String (ascii_of_N (128 + n mod 64)) "")
  else if n <? 65536 then
    String (ascii_of_N (224 + n / 4096)) (String (ascii_of_N (128 + n / 64 mod 64))
      (String (ascii_of_N (128 + n mod 64)) ""))
  else
    String (ascii_of_N (240 + n / 262144)) (String (ascii_of_N (128 + n / 4096 mod 64))
      (String (ascii_of_N (128 + n / 64 mod 64)) (String (ascii_of_N (128 + n mod 64)) ""))).

(** A text: the encodings of some scalar values, one after the other *)
Inductive text : string -> Prop :=
| text_nil : text ""
| text_cons : forall n s, scalar n -> text s -> text (utf8 n ++ s).
