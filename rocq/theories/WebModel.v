(** Model of the HTTP handlers (internal/web/web.go) on top of an
    http.ResponseWriter. *)
From Coq Require Import Strings.String Strings.Ascii Lists.List Bool NArith.
From Verif Require Import GoBase.
Import ListNotations.
Open Scope string_scope.

(** ** http.ResponseWriter (standard library, net/http)

    The header map the handler works on, what WriteHeader has fixed (the
    status and a copy of the header map at that moment), and the body. *)
Record writer := Writer {
  whHeader : list (string * string);
  whSent : option (nat * list (string * string));
  whBody : string
}.
Definition new_writer : writer := Writer [] None "".

(** w.Header().Set(key, v): later changes do not reach the fixed copy *)
Definition set_header (key v : string) (w : writer) : writer :=
  Writer (mset String.eqb key v (whHeader w)) (whSent w) (whBody w).
(** w.WriteHeader(code): only the first call counts *)
Definition write_header (code : nat) (w : writer) : writer :=
  match whSent w with
  | Some _ => w
  | None => Writer (whHeader w) (Some (code, whHeader w)) (whBody w)
  end.
(** w.Write(data) *)
Definition write (data : string) (w : writer) : writer :=
  let w := write_header 200 w in
  Writer (whHeader w) (whSent w) (whBody w ++ data).

(** http.Error *)
Definition http_error (msg : string) (code : nat) (w : writer) : writer :=
  let w := set_header "Content-Type" "text/plain; charset=utf-8" w in
  let w := set_header "X-Content-Type-Options" "nosniff" w in
  let w := write_header code w in
  write (msg ++ String (ascii_of_nat 10) "") w.

(** What goes over the wire when the handler has returned: the status, the
    header fixed by WriteHeader, and the body.  When that header has no
    Content-Type and the body is not empty, net/http adds the one that
    http.DetectContentType guesses from the body ([detect]).  Other headers
    that net/http adds (Date, Content-Length) are left out. *)
Record response := Response { status : nat; header : list (string * string); body : string }.
Definition finish (detect : string -> string) (w : writer) : response :=
  let w := write_header 200 w in
  match whSent w with
  | None => Response 200 [] (whBody w)
  | Some (code, h) =>
      Response code
        (match sget "Content-Type" h with
         | Some _ => h
         | None => if nonempty (whBody w) then sset "Content-Type" (detect (whBody w)) h else h
         end)
        (whBody w)
  end.

(** ** net/url (standard library) *)
Definition hex_value (c : ascii) : option N :=
  let n := N_of_ascii c in
  if (48 <=? n)%N && (n <=? 57)%N then Some (n - 48)%N
  else if (97 <=? n)%N && (n <=? 102)%N then Some (n - 87)%N
  else if (65 <=? n)%N && (n <=? 70)%N then Some (n - 55)%N
  else None.

(** url.QueryUnescape.  The offending part, which Go quotes in the message, is
    left out. *)
Fixpoint query_unescape (s : string) : res string :=
  match s with
  | EmptyString => Ok ""
  | String c r =>
      if Ascii.eqb c "%" then
        match r with
        | String h (String l r') =>
            match hex_value h, hex_value l with
            | Some a, Some b =>
                do t <- query_unescape r';
                Ok (String (ascii_of_N (16 * a + b)) t)
            | _, _ => Err "invalid URL escape"
            end
        | _ => Err "invalid URL escape"
        end
      else
        do t <- query_unescape r;
        Ok (String (if Ascii.eqb c "+" then " "%char else c) t)
  end.

(** One part of url.parseQuery: the new entry, if any, and the error, if any *)
Definition parse_pair (part : string) : res (option (string * string)) :=
  if has_char ";" part then Err "invalid semicolon separator in query"
  else if nonempty part then
    let kv := match cut "=" part with Some kv => kv | None => (part, "") end in
    do k <- query_unescape (fst kv);
    do v <- query_unescape (snd kv);
    Ok (Some (k, v))
  else Ok None.

(** url.ParseQuery: all entries in order; parts with an error are skipped and
    the first error is returned.  Only whether there is an error, its text,
    and the entries when there is none matter to the callers below. *)
Definition parse_query (q : string) : res (list (string * string)) :=
  do ps <- mapM parse_pair (split "&" q);
  Ok (flat_map (fun p => match p with Some kv => [kv] | None => [] end) ps).

(** url.Values.Get: the first value, or "" *)
Definition values_get (key : string) (vs : list (string * string)) : string :=
  match mget String.eqb key vs with Some v => v | None => "" end.

(** ** The handlers *)
Record http_request := HttpRequest {
  rqMethod : string;                     (* r.Method *)
  rqVars : list (string * string);       (* mux.Vars(r) *)
  rqRawQuery : string                    (* r.URL.RawQuery *)
}.

Definition var (key : string) (r : http_request) : string :=
  match sget key (rqVars r) with Some v => v | None => "" end.

(** Lines 26-32, 55-61, 93-99: None is a panic of the service, which ends the
    handler (net/http then drops the connection). *)
Definition reply (r : res (option string)) : option writer :=
  match r with
  | Panic => None
  | Err m => Some (http_error ("Error: " ++ m) 500 new_writer)
  | Ok data =>
      let w := write_header 200 new_writer in
      let w := set_header "Content-Type" "application/json" w in
      Some (write (match data with Some d => d | None => "" end) w)
  end.

(** internal/web/web.go:13-34 [Catalog] *)
Definition catalog_handler (service : string -> res (option string)) (r : http_request) : option writer :=
  if negb (String.eqb (rqMethod r) "GET")
  then Some (http_error ("Error: incorrect verb, " ++ rqMethod r) 500 new_writer)
  else
    let id := var "id" r in
    if negb (nonempty id) then Some (http_error ("Error: invalid id '" ++ id ++ "'") 400 new_writer)
    else reply (service id).

(** internal/web/web.go:36-63 [Renderable] *)
Definition renderable_handler (service : string -> string -> res (option string)) (r : http_request) : option writer :=
  if negb (String.eqb (rqMethod r) "GET")
  then Some (http_error ("Error: incorrect verb, " ++ rqMethod r) 500 new_writer)
  else
    let id := var "id" r in
    if negb (nonempty id) then Some (http_error ("Error: invalid id '" ++ id ++ "'") 400 new_writer)
    else
      let hash := var "hash" r in
      if negb (nonempty hash) then Some (http_error "Error: invalid hash" 400 new_writer)
      else reply (service id hash).

(** internal/web/web.go:65-101 [Expressable] *)
Definition expressable_handler (service : string -> string -> string -> res (option string)) (r : http_request)
    : option writer :=
  if negb (String.eqb (rqMethod r) "GET")
  then Some (http_error ("Error: incorrect verb, " ++ rqMethod r) 500 new_writer)
  else
    let id := var "id" r in
    if negb (nonempty id) then Some (http_error ("Error: invalid id '" ++ id ++ "'") 400 new_writer)
    else
      match parse_query (rqRawQuery r) with
      | Panic => None
      | Err m => Some (http_error ("Error: " ++ m) 500 new_writer)
      | Ok vs =>
          match query_unescape (values_get "name" vs) with
          | Panic => None
          | Err m => Some (http_error ("Error: " ++ m) 400 new_writer)
          | Ok name =>
              match query_unescape (values_get "contextref" vs) with
              | Panic => None
              | Err m => Some (http_error ("Error: " ++ m) 400 new_writer)
              | Ok contextref => reply (service id name contextref)
              end
          end
      end.
