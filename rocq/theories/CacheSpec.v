(** What a caller of the cached entry points expects, written without the
    cache, the locks and the goroutines. *)
From Coq Require Import Strings.String Strings.Ascii Lists.List Bool NArith.
From Verif Require Import GoBase GoSpec CatalogModel CacheModel.
Import ListNotations.
Open Scope string_scope.

Section Spec.
Context {folder hyd schema names utr : Type}.
Notation value := (value hyd schema names utr).
Variable sv : services folder hyd schema names utr.
Variable injected : bool.

(** ** The answers without a cache *)

(** Discover the folder and hydrate it. *)
Inductive hydrated (id : string) : res hyd -> Prop :=
| hy_missing : forall m,
    discover sv id (Err m) -> hydrated id (Err ("failed to discover folder, " ++ m))
| hy_panic : discover sv id Panic -> hydrated id Panic
| hy_found : forall f r,
    discover sv id (Ok f) -> hydrate sv f r -> hydrated id r.

(** The bytes as an answer *)
Definition sent (a : res (option string)) : res value :=
  match a with Ok b => Ok (VBytes b) | Err m => Err m | Panic => Panic end.

(** Hydrate the folder, report what goes wrong there, else apply [P]. *)
Definition served (id : string) (P : hyd -> res (option string) -> Prop) (r : res value) : Prop :=
  (exists m, hydrated id (Err m) /\ r = Err m) \/
  (hydrated id Panic /\ r = Panic) \/
  (exists h a, hydrated id (Ok h) /\ P h a /\ r = sent a).

(** [slug] is the name of the inline document of [h]. *)
Definition names_document (slug : string) (h : hyd) : Prop :=
  entry_name sv (folder_of sv h) = slug /\
  exists base, slug = base ++ ".xhtml" \/ slug = base ++ ".htm".

(** The document itself under its own name, else the renderable. *)
Definition document_or_renderable (slug : string) (h : hyd) (a : res (option string)) : Prop :=
  (names_document slug h /\
   match doc_bytes sv (folder_of sv h) with
   | Some d => a = Ok (Some d)
   | None => a = Panic
   end) \/
  (~ names_document slug h /\ renderable sv slug h a).

(** A global file: an error when no cache was injected. *)
Definition global_answer {X} (wrap : X -> value) (P : res X -> Prop) (r : res value) : Prop :=
  if injected
  then exists a, P a /\ r = match a with Ok x => Ok (wrap x) | Err m => Err m | Panic => Panic end
  else r = Err "no accessible cache".

Definition uncached (q : request) : res value -> Prop :=
  match q with
  | RCatalog id => served id (catalog sv)
  | RRender id slug => served id (document_or_renderable slug)
  | RFact id name contextref => served id (expressable sv name contextref)
  | RSchema url => global_answer VSchema (global_schema sv url)
  | RNames => global_answer VNames (entity_names sv)
  | RUtr => global_answer VUtr (unit_registry sv)
  end.
End Spec.

(** Serving the request may end the process: hydrating its folder may, or
    rendering what it asks for. *)
Definition deadly {folder hyd schema names utr} (sv : services folder hyd schema names utr) (q : request) : Prop :=
  match q with
  | RCatalog id | RFact id _ _ => exists f, discover sv id (Ok f) /\ hydrate_dies sv f
  | RRender id slug =>
      (exists f, discover sv id (Ok f) /\ hydrate_dies sv f) \/
      (exists h, hydrated sv id (Ok h) /\ ~ names_document sv slug h /\ renderable_dies sv slug h)
  | _ => False
  end.

(** Every call made for the request returns (or panics, or ends the process). *)
Definition returns_for {folder hyd schema names utr} (sv : services folder hyd schema names utr) (q : request) : Prop :=
  match q with
  | RCatalog id => (exists r, discover sv id r) /\ (forall f, discover sv id (Ok f) -> hydrate_dies sv f \/ exists r, hydrate sv f r) /\
      forall h, hydrated sv id (Ok h) -> exists r, catalog sv h r
  | RRender id slug => (exists r, discover sv id r) /\ (forall f, discover sv id (Ok f) -> hydrate_dies sv f \/ exists r, hydrate sv f r) /\
      forall h, hydrated sv id (Ok h) -> renderable_dies sv slug h \/ exists r, renderable sv slug h r
  | RFact id name contextref => (exists r, discover sv id r) /\ (forall f, discover sv id (Ok f) -> hydrate_dies sv f \/ exists r, hydrate sv f r) /\
      forall h, hydrated sv id (Ok h) -> exists r, expressable sv name contextref h r
  | RSchema url => exists r, global_schema sv url r
  | RNames => exists r, entity_names sv r
  | RUtr => exists r, unit_registry sv r
  end.

(** Every call of these functions returns (or panics, or ends the process). *)
Definition always_returns {folder hyd schema names utr} (sv : services folder hyd schema names utr) : Prop :=
  (forall id, exists r, discover sv id r) /\
  (forall f, hydrate_dies sv f \/ exists r, hydrate sv f r) /\
  (forall h, exists r, catalog sv h r) /\
  (forall slug h, renderable_dies sv slug h \/ exists r, renderable sv slug h r) /\
  (forall name contextref h, exists r, expressable sv name contextref h r) /\
  (forall url, exists r, global_schema sv url r) /\
  (exists r, entity_names sv r) /\
  (exists r, unit_registry sv r).

(** ** What is kept in the cache, and under which key *)
Inductive resource :=
| ResFolder (id : string)                (* the hydrated folder *)
| ResCatalog (id : string)
| ResRender (id slug : string)
| ResFact (id name contextref : string)
| ResSchema (url : string)
| ResNames
| ResUtr.

Definition resources (q : request) : list resource :=
  match q with
  | RCatalog id => [ResFolder id; ResCatalog id]
  | RRender id slug => [ResRender id slug; ResFolder id]
  | RFact id name contextref => [ResFolder id; ResFact id name contextref]
  | RSchema url => [ResSchema url]
  | RNames => [ResNames]
  | RUtr => [ResUtr]
  end.

Definition resource_key (a : resource) : string :=
  match a with
  | ResFolder id => id
  | ResCatalog id => id ++ "/"
  | ResRender id slug => id ++ "/" ++ slug
  | ResFact id name contextref =>
      hex 32 (fnv fnv_offset (id ++ "/facts/" ++ name ++ ":" ++ contextref))
  | ResSchema url => url
  | ResNames => "names.json"
  | ResUtr => "http://www.xbrl.org/utr/utr.xml"
  end.

(** No two different resources of these requests share a key. *)
Definition separate (qs : list request) : Prop :=
  forall q q' a b,
    In q qs -> In q' qs -> In a (resources q) -> In b (resources q') ->
    resource_key a = resource_key b -> a = b.

(** The program reads or writes the cache under [key]. *)
Section Uses.
Context {hyd schema names utr : Type}.
Notation prog := (prog hyd schema names utr).
Fixpoint uses (key : string) (p : prog) : Prop :=
  match p with
  | Answer _ => False
  | Lookup _ get k hit miss =>
      (get = true /\ k = key) \/ uses key miss \/
      (exists v, match hit v with Some p' => uses key p' | None => False end)
  | Compute X P k => exists x, P x /\ uses key (k x)
  | Spawn _ k _ p' => k = key \/ uses key p'
  | Crash => False
  end.
End Uses.

(** ** Requests as they arrive over HTTP and from the taxonomy code

    An id is one path segment and is not the name of the entity-names file,
    nor 32 bytes long (folder ids are UUIDs of 36 bytes); a slug is a
    non-empty path segment; a context reference has no colon; a schema URL has
    a "//" in it and is not that of the unit registry. *)
Definition usual (q : request) : Prop :=
  match q with
  | RCatalog id => free_of "/" id /\ id <> "names.json" /\ String.length id <> 32
  | RRender id slug =>
      free_of "/" id /\ id <> "names.json" /\ String.length id <> 32 /\
      free_of "/" slug /\ slug <> ""
  | RFact id name contextref =>
      free_of "/" id /\ id <> "names.json" /\ String.length id <> 32 /\
      free_of ":" contextref
  | RSchema url =>
      (exists a b, url = a ++ "//" ++ b) /\ url <> "http://www.xbrl.org/utr/utr.xml"
  | RNames => True
  | RUtr => True
  end.

(** The 128-bit hash does not happen to collide on the facts asked for. *)
Definition no_collision (qs : list request) : Prop :=
  forall i n c i' n' c',
    In (RFact i n c) qs -> In (RFact i' n' c') qs ->
    let f x := hex 32 (fnv fnv_offset x) in
    f (i ++ "/facts/" ++ n ++ ":" ++ c) = f (i' ++ "/facts/" ++ n' ++ ":" ++ c') ->
    i ++ "/facts/" ++ n ++ ":" ++ c = i' ++ "/facts/" ++ n' ++ ":" ++ c'.

(** The requests that pkg/cache serves *)
Definition of_folder (q : request) : Prop :=
  match q with RCatalog _ => True | RRender _ _ => True | RFact _ _ _ => True | _ => False end.

(** No folder request that arrives after [s] is ever answered. *)
Definition deaf_after {folder hyd schema names utr} (sv : services folder hyd schema names utr)
    (dry injected : bool) (s : state hyd schema names utr) : Prop :=
  forall s', run sv dry injected s s' ->
  forall i q g, List.length (threads s) <= i -> nth_error (threads s') i = Some (Some q, g) ->
  of_folder q -> forall r, g <> TRun (Answer r).

(** Nothing more can happen unless a new request arrives. *)
Definition at_rest {hyd schema names utr} (s : state hyd schema names utr) : Prop :=
  forall s', up s -> ~ gstep s s'.

Inductive continues {hyd schema names utr} : state hyd schema names utr -> state hyd schema names utr -> Prop :=
| cont_refl : forall s, continues s s
| cont_step : forall s s' s'', continues s s' -> up s' -> gstep s' s'' -> continues s s''.

(** The process has ended. *)
Definition ended {hyd schema names utr} (s : state hyd schema names utr) : Prop :=
  exists q, In (q, TRun Crash) (threads s).
