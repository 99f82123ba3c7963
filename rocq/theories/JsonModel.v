(** Model of encoding/json (standard library) for the type Underscore: what
    json.Encoder.Encode writes for it (pkg/serializables/underscore.go:61-62)
    and what json.Unmarshal reads back (line 24). *)
From Coq Require Import Strings.String Strings.Ascii Lists.List Bool NArith.
From Verif Require Import GoBase UnderscoreModel.
Import ListNotations.
Open Scope string_scope.
Open Scope N_scope.

Definition in_range (lo hi : N) (c : ascii) : bool := (lo <=? N_of_ascii c) && (N_of_ascii c <=? hi).
Definition is_cont (c : ascii) : bool := in_range 128 191 c.

(** unicode/utf8.DecodeRune: the well-formed sequences of two, three and four
    bytes *)
Definition utf8_2 (a b : ascii) : bool := in_range 194 223 a && is_cont b.
Definition utf8_3 (a b c : ascii) : bool :=
  ((in_range 224 224 a && in_range 160 191 b) ||
   (in_range 225 236 a && is_cont b) ||
   (in_range 237 237 a && in_range 128 159 b) ||
   (in_range 238 239 a && is_cont b)) && is_cont c.
Definition utf8_4 (a b c d : ascii) : bool :=
  ((in_range 240 240 a && in_range 144 191 b) ||
   (in_range 241 243 a && is_cont b) ||
   (in_range 244 244 a && in_range 128 143 b)) && is_cont c && is_cont d.

Definition byte (n : N) : ascii := ascii_of_N n.
Definition hex_digit (n : N) : ascii := if n <? 10 then byte (48 + n) else byte (87 + n).

(** The six characters \u and four hex digits *)
Definition unicode_escape (n : N) (rest : string) : string :=
  String "\" (String "u" (String (hex_digit (n / 4096 mod 16)) (String (hex_digit (n / 256 mod 16))
    (String (hex_digit (n / 16 mod 16)) (String (hex_digit (n mod 16)) rest))))).

(** appendString of encoding/json, one byte below 128: quotes, backslashes,
    control characters and < > & are escaped *)
Definition escape_ascii (c : ascii) (rest : string) : string :=
  let n := N_of_ascii c in
  if (n =? 34) || (n =? 92) then String "\" (String c rest)
  else if n =? 8 then String "\" (String "b" rest)
  else if n =? 12 then String "\" (String "f" rest)
  else if n =? 10 then String "\" (String "n" rest)
  else if n =? 13 then String "\" (String "r" rest)
  else if n =? 9 then String "\" (String "t" rest)
  else if (n <? 32) || (n =? 60) || (n =? 62) || (n =? 38) then unicode_escape n rest
  else String c rest.

Definition is_separator (a b c : ascii) : bool :=
  (N_of_ascii a =? 226) && (N_of_ascii b =? 128) && ((N_of_ascii c =? 168) || (N_of_ascii c =? 169)).

(** appendString of encoding/json, without the quotes: U+2028 and U+2029 are
    escaped, a byte that is not part of a well-formed sequence becomes � *)
Fixpoint json_escape (s : string) : string :=
  match s with
  | EmptyString => ""
  | String a r =>
      if N_of_ascii a <? 128 then escape_ascii a (json_escape r)
      else
        let bad := unicode_escape 65533 (json_escape r) in
        match r with
        | EmptyString => bad
        | String b r2 =>
            if utf8_2 a b then String a (String b (json_escape r2))
            else
              match r2 with
              | EmptyString => bad
              | String c r3 =>
                  if utf8_3 a b c then
                    if is_separator a b c then unicode_escape (8064 + N_of_ascii c) (json_escape r3)
                    else String a (String b (String c (json_escape r3)))
                  else
                    match r3 with
                    | EmptyString => bad
                    | String d r4 =>
                        if utf8_4 a b c d then String a (String b (String c (String d (json_escape r4))))
                        else bad
                    end
              end
        end
  end.

Definition quoted (s : string) : string := String """" (json_escape s ++ String """" "").

(** json.Encoder.Encode of an Underscore *)
Definition encode_underscore (u : underscore) : string :=
  "{" ++ quoted "Entry" ++ ":" ++ quoted (uEntry u) ++ "," ++ quoted "Note" ++ ":" ++ quoted (uNote u) ++ "}"
      ++ String (byte 10) "".

(** ** Reading *)
Definition hex_val (c : ascii) : option N :=
  let n := N_of_ascii c in
  if (48 <=? n) && (n <=? 57) then Some (n - 48)
  else if (97 <=? n) && (n <=? 102) then Some (n - 87)
  else if (65 <=? n) && (n <=? 70) then Some (n - 55)
  else None.

(** utf8.AppendRune below U+10000 *)
Definition append_rune (n : N) (rest : string) : string :=
  if n <? 128 then String (byte n) rest
  else if n <? 2048 then String (byte (192 + n / 64)) (String (byte (128 + n mod 64)) rest)
  else String (byte (224 + n / 4096)) (String (byte (128 + n / 64 mod 64)) (String (byte (128 + n mod 64)) rest)).

(** The rest of a string literal after its opening quote: its value, and what
    follows its closing quote.  Simplification: an escaped surrogate, which
    the encoder never writes, is an error here. *)
Fixpoint unquote (s : string) : res (string * string) :=
  match s with
  | EmptyString => Err "unexpected end of JSON input"
  | String a r =>
      let n := N_of_ascii a in
      if n =? 34 then Ok ("", r)
      else if n =? 92 then
        match r with
        | EmptyString => Err "unexpected end of JSON input"
        | String e r2 =>
            let k := N_of_ascii e in
            let simple (c : N) := do vr <- unquote r2; Ok (String (byte c) (fst vr), snd vr) in
            if (k =? 34) || (k =? 92) || (k =? 47) then simple k
            else if k =? 98 then simple 8
            else if k =? 102 then simple 12
            else if k =? 110 then simple 10
            else if k =? 114 then simple 13
            else if k =? 116 then simple 9
            else if k =? 117 then
              match r2 with
              | String h1 (String h2 (String h3 (String h4 r3))) =>
                  match hex_val h1, hex_val h2, hex_val h3, hex_val h4 with
                  | Some x1, Some x2, Some x3, Some x4 =>
                      let v := ((x1 * 16 + x2) * 16 + x3) * 16 + x4 in
                      if (55296 <=? v) && (v <=? 57343) then Err "surrogate"
                      else do vr <- unquote r3; Ok (append_rune v (fst vr), snd vr)
                  | _, _, _, _ => Err "invalid character in \u hexadecimal character escape"
                  end
              | _ => Err "invalid character in \u hexadecimal character escape"
              end
            else Err "invalid character in string escape code"
        end
      else if n <? 32 then Err "invalid character in string literal"
      else if n <? 128 then do vr <- unquote r; Ok (String a (fst vr), snd vr)
      else
        let bad := do vr <- unquote r; Ok (append_rune 65533 (fst vr), snd vr) in
        match r with
        | EmptyString => bad
        | String b r2 =>
            if utf8_2 a b then do vr <- unquote r2; Ok (String a (String b (fst vr)), snd vr)
            else
              match r2 with
              | EmptyString => bad
              | String c r3 =>
                  if utf8_3 a b c then do vr <- unquote r3; Ok (String a (String b (String c (fst vr))), snd vr)
                  else
                    match r3 with
                    | EmptyString => bad
                    | String d r4 =>
                        if utf8_4 a b c d then do vr <- unquote r4; Ok (String a (String b (String c (String d (fst vr)))), snd vr)
                        else bad
                    end
              end
        end
  end.

Definition expect (c : ascii) (s : string) : res string :=
  match s with
  | String a r => if Ascii.eqb a c then Ok r else Err "invalid character"
  | EmptyString => Err "unexpected end of JSON input"
  end.

(** "name":"value" *)
Definition field (s : string) : res (string * string * string) :=
  do s <- expect """" s;
  do kr <- unquote s;
  do s <- expect ":" (snd kr);
  do s <- expect """" s;
  do vr <- unquote s;
  Ok (fst kr, fst vr, snd vr).

Definition set_field (k v : string) (u : underscore) : underscore :=
  if String.eqb k "Entry" then Underscore v (uNote u)
  else if String.eqb k "Note" then Underscore (uEntry u) v
  else u.

(** The fields of an object, after its opening brace; fuel is the number of
    fields at most *)
Fixpoint fields (fuel : nat) (s : string) (u : underscore) : res (underscore * string) :=
  match fuel with
  | O => Err "too many fields"
  | S fuel =>
      do kvr <- field s;
      let '(k, v, r) := kvr in
      let u := set_field k v u in
      match r with
      | String "," r => fields fuel r u
      | String "}" r => Ok (u, r)
      | _ => Err "invalid character after object key:value pair"
      end
  end.

(** json.Unmarshal into an Underscore.  Simplifications: only objects whose
    values are strings, with the exact field names, and no white space but one
    line feed at the end. *)
Definition decode_underscore (s : string) : res underscore :=
  do s <- expect "{" s;
  do ur <- fields (String.length s) s (Underscore "" "");
  match snd ur with
  | EmptyString => Ok (fst ur)
  | String c EmptyString => if N_of_ascii c =? 10 then Ok (fst ur) else Err "invalid character after top-level value"
  | _ => Err "invalid character after top-level value"
  end.
