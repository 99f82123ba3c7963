(** * RouterModel: which handler answers a request: internal/web/web.go:103-117 [NewRouter] on
    github.com/gorilla/mux v1.8.1 (external), by its documentation.

    A template is a sequence of texts and variables; a variable stands for one or more
    characters other than the slash. A route compares its template with the whole decoded
    path (HandleFunc) or with its beginning (PathPrefix). Routes are tried in order; a route
    whose path fits but not its method is remembered (405), unless a later one fits. A path
    that is not clean is redirected before. *)
From Coq Require Import String Ascii List Bool.
From Verif Require Import GoBase PathModel WebModel.
Import ListNotations.
Local Open Scope string_scope.

(** ** mux *)
Inductive piece := Text (s : string) | Variable_ (name : string).

(** the longest beginning without a slash, and the rest *)
Fixpoint segment (s : string) : string * string :=
  match s with
  | EmptyString => ("", "")
  | String c r =>
      if Ascii.eqb c "/" then ("", s)
      else let (a, b) := segment r in (String c a, b)
  end.
Fixpoint strip (p s : string) : option string :=
  match p, s with
  | EmptyString, _ => Some s
  | String a p', String b s' => if Ascii.eqb a b then strip p' s' else None
  | _, _ => None
  end.
(** the variables and what is left of the path *)
Fixpoint fit (t : list piece) (s : string) : option (list (string * string) * string) :=
  match t with
  | [] => Some ([], s)
  | Text x :: t' => match strip x s with Some r => fit t' r | None => None end
  | Variable_ n :: t' =>
      let (v, r) := segment s in
      if nonempty v
      then match fit t' r with Some (vs, r') => Some ((n, v) :: vs, r') | None => None end
      else None
  end.

Inductive endpoint := ToCatalog | ToRenderable | ToExpressable | ToFiles.
(** a route for the whole path and the method GET, a route for all paths that start so, and
    a subrouter for all paths that start so *)
Inductive route :=
| Whole (t : list piece) (e : endpoint)
| Prefix (t : list piece) (e : endpoint)
| Subrouter (t : list piece) (rs : list route).

Inductive outcome := Matched (e : endpoint) (vars : list (string * string)) | Missed (mismatch : bool).
Fixpoint try_route (method path : string) (r : route) (mismatch : bool) : outcome :=
  match r with
  | Whole t e =>
      match fit t path with
      | Some (vs, EmptyString) => if String.eqb method "GET" then Matched e vs else Missed true
      | _ => Missed mismatch
      end
  | Prefix t e => match fit t path with Some (vs, _) => Matched e vs | None => Missed mismatch end
  | Subrouter t rs =>
      match fit t path with
      | Some _ =>
          (fix go rs m := match rs with
             | [] => Missed m
             | x :: rs' => match try_route method path x m with
                           | Matched e vs => Matched e vs
                           | Missed m' => go rs' m'
                           end
             end) rs mismatch
      | None => Missed mismatch
      end
  end.
Definition try_routes (method path : string) (rs : list route) : outcome :=
  try_route method path (Subrouter [] rs) false.

(** mux.cleanPath; path.Clean is that of path/filepath on Unix *)
Fixpoint ends_with_slash (s : string) : bool :=
  match s with
  | EmptyString => false
  | String c EmptyString => Ascii.eqb c "/"
  | String _ r => ends_with_slash r
  end.
Definition clean_path (p : string) : string :=
  if negb (nonempty p) then "/"
  else
    let p := if is_rooted p then p else "/" ++ p in
    let np := clean p in
    if ends_with_slash p && negb (String.eqb np "/") then np ++ "/" else np.

(** ** web.go:103-117 [NewRouter]: the templates of a subrouter's routes start with its own.
    [files] is the file server on the directory goldlord-midas (external). *)
Definition new_router : list route :=
  [Subrouter [Text "/folders"]
     [Whole [Text "/folders/"; Variable_ "id"] ToCatalog;
      Subrouter [Text "/folders/"; Variable_ "id"]
        [Whole [Text "/folders/"; Variable_ "id"; Text "/facts"] ToExpressable;
         Whole [Text "/folders/"; Variable_ "id"; Text "/"; Variable_ "hash"] ToRenderable]];
   Prefix [Text "/"] ToFiles].

Record services := Services {
  svCatalog : string -> res (option string);
  svRenderable : string -> string -> res (option string);
  svExpressable : string -> string -> string -> res (option string);
  svFiles : string -> string -> option response }.

Inductive answer := Redirect (code : nat) (location : string) | Answer (r : option response).
(** mux.Router.ServeHTTP. In the redirect the query is kept (left out). *)
Definition serve (detect : string -> string) (s : services) (method path query : string) : answer :=
  let p := clean_path path in
  if negb (String.eqb p path) then Redirect 301 p
  else
    let run h := Answer (option_map (finish detect) h) in
    match try_routes method path new_router with
    | Matched ToCatalog vs => run (catalog_handler (svCatalog s) (HttpRequest method vs query))
    | Matched ToRenderable vs => run (renderable_handler (svRenderable s) (HttpRequest method vs query))
    | Matched ToExpressable vs => run (expressable_handler (svExpressable s) (HttpRequest method vs query))
    | Matched ToFiles _ => Answer (svFiles s method path)
    | Missed true => run (Some (http_error "" 405 new_writer))
    | Missed false => run (Some (http_error "404 page not found" 404 new_writer))
    end.
