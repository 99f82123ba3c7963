(** What a client sees of the three endpoints. *)
From Coq Require Import Strings.String Strings.Ascii Lists.List Bool NArith.
From Verif Require Import GoBase GoSpec WebModel.
Import ListNotations.
Open Scope string_scope.

(** The body of a success *)
Definition content (data : option string) : string :=
  match data with Some d => d | None => "" end.

(** The response to an outcome of the service: 500 with the message, or 200
    with the bytes; no response when it panics. *)
Definition reflects (r : res (option string)) (x : option response) : Prop :=
  match r with
  | Panic => x = None
  | Err m => exists p, x = Some p /\ status p = 500 /\ body p = "Error: " ++ m ++ String (ascii_of_nat 10) ""
  | Ok data => exists p, x = Some p /\ status p = 200 /\ body p = content data
  end.

Definition refused (code : nat) (x : option response) : Prop :=
  exists p, x = Some p /\ status p = code.

(** The content type a client is told *)
Definition content_type (p : response) (t : string) : Prop := In ("Content-Type", t) (header p).

(** A path variable that is present and not empty *)
Definition given (key : string) (r : http_request) (v : string) : Prop :=
  sget key (rqVars r) = Some v /\ v <> "".
Definition missing (key : string) (r : http_request) : Prop := forall v, ~ given key r v.

(** ** Percent-encoding of a query value

    Every byte but % and + may stand for itself; any byte may be written as %
    and two hex digits (of either case); a space may be written as a plus. *)
Definition hex_digit_of (c : ascii) (n : N) : Prop :=
  String.get (N.to_nat n) "0123456789abcdef" = Some c \/
  String.get (N.to_nat n) "0123456789ABCDEF" = Some c.

Inductive encodes : string -> string -> Prop :=
| enc_nil : encodes "" ""
| enc_plain : forall c v t, c <> "%"%char -> c <> "+"%char ->
    encodes v t -> encodes (String c v) (String c t)
| enc_space : forall v t, encodes v t -> encodes (String " " v) (String "+" t)
| enc_hex : forall a b h l v t, hex_digit_of h a -> hex_digit_of l b ->
    encodes v t -> encodes (String (ascii_of_N (16 * a + b)) v) (String "%" (String h (String l t))).

(** The fields of a query string: parts separated by &, without semicolons,
    each an encoded key, or an encoded key, =, and an encoded value; empty
    parts do not count. *)
Inductive query_parts : list string -> list (string * string) -> Prop :=
| qp_nil : query_parts [] []
| qp_empty : forall ps vs, query_parts ps vs -> query_parts ("" :: ps) vs
| qp_key : forall ek k ps vs, ek <> "" -> free_of "=" ek -> free_of ";" ek -> free_of "&" ek -> encodes k ek ->
    query_parts ps vs -> query_parts (ek :: ps) ((k, "") :: vs)
| qp_pair : forall ek k ev v ps vs, free_of "=" ek ->
    free_of ";" (ek ++ ev) -> free_of "&" (ek ++ ev) -> encodes k ek -> encodes v ev ->
    query_parts ps vs -> query_parts ((ek ++ "=" ++ ev) :: ps) ((k, v) :: vs).

Definition query_fields (q : string) (vs : list (string * string)) : Prop :=
  exists ps, ps <> [] /\ q = String.concat "&" ps /\ query_parts ps vs.

(** The first value of a field, or the empty string *)
Definition field (vs : list (string * string)) (key v : string) : Prop :=
  first_such (fun kv => fst kv = key) vs (key, v) \/
  v = "" /\ forall kv, In kv vs -> fst kv <> key.
