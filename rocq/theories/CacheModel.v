(** Model of the response cache (pkg/cache/cache.go) and of the cache of
    global taxonomy files it shares its storage with
    (pkg/hydratables/global.go, pkg/hydratables/measurement.go), as a
    transition system over concurrent requests, background writers and the
    two RWMutexes. *)
From Coq Require Import Strings.String Strings.Ascii Lists.List Bool NArith.
From Verif Require Import GoBase CatalogModel.
Import ListNotations.
Open Scope string_scope.

(** ** Values in the cache

    pkg/cache and pkg/hydratables keep values of five Go types in one
    *gocache.Cache (cmd/telefacts/main.go:35,50: [InjectCache(appCache)]).  A
    [*Hydratable] and a [[]byte] may be nil. *)
Section Cache.
Variables folder hyd schema names utr : Type.

Inductive value :=
| VHyd (h : option hyd)
| VBytes (b : option string)
| VSchema (s : schema)
| VNames (n : names)
| VUtr (u : utr).

(** The two locks: [lock] of pkg/cache/cache.go:18 and [lock] of
    pkg/hydratables/global.go:13. *)
Inductive lockid := LApp | LGlobal.

(** ** What a request does, as a sequence of visible actions

    [Lookup l get key hit miss] is
    [l.RLock(); x, found := Get(key); x.(T); l.RUnlock()]; [get] is false when
    the [Get] is skipped because of [dry]; [hit v = None] says that the type
    assertion on [v] panics, which happens before [RUnlock].
    [Compute P k] is a call of a function outside this model: it returns some
    value allowed by [P].
    [Spawn l key v k] is
    [go func() { l.Lock(); defer l.Unlock(); Set(key, v) }()].
    [Crash] is a panic in a goroutine that the called function has started:
    nothing recovers it and the Go runtime ends the process. *)
Inductive prog : Type :=
| Answer (r : res value)
| Lookup (l : lockid) (get : bool) (key : string) (hit : value -> option prog) (miss : prog)
| Compute (X : Type) (P : X -> Prop) (k : X -> prog)
| Spawn (l : lockid) (key : string) (v : value) (k : prog)
| Crash.

(** A call that returns (or panics, which is one of the outcomes [P] allows),
    or, if [D], ends the process *)
Definition outcome {X : Type} (P : X -> Prop) (D : Prop) (o : option X) : Prop :=
  match o with Some x => P x | None => D end.
Definition Call (X : Type) (P : X -> Prop) (D : Prop) (k : X -> prog) : prog :=
  Compute (option X) (outcome P D) (fun o => match o with Some x => k x | None => Crash end).

(** ** The functions called by this code

    Each is given by the set of its possible outcomes (a Go function that
    iterates over maps has several).  [catalog], [renderable] and
    [expressable] are the functions of pkg/renderables on a non-nil
    *Hydratable.  Of these functions, Hydrate (pkg/hydratables/document.go:33,
    60) and MarshalRenderable (pkg/renderables/renderable.go:56,67,78) start
    goroutines in which code can panic; [hydrate_dies] and [renderable_dies]
    say when one of them may. *)
Record services := Services {
  discover : string -> res folder -> Prop;          (* serializables.Discover *)
  hydrate : folder -> res hyd -> Prop;              (* hydratables.Hydrate *)
  hydrate_dies : folder -> Prop;
  folder_of : hyd -> folder;                        (* h.Folder *)
  entry_name : folder -> string;                    (* folder.EntryFileName *)
  doc_bytes : folder -> option string;              (* folder.Document.Bytes, None when Document is nil *)
  catalog : hyd -> res (option string) -> Prop;     (* renderables.MarshalCatalog *)
  renderable : string -> hyd -> res (option string) -> Prop;
  renderable_dies : string -> hyd -> Prop;
  expressable : string -> string -> hyd -> res (option string) -> Prop;
  global_schema : string -> res schema -> Prop;     (* DiscoverGlobalSchema, then HydrateSchema *)
  entity_names : res names -> Prop;                 (* DiscoverEntityNames *)
  unit_registry : res utr -> Prop                   (* DiscoverUnitTypeRegistry, then mapMeasurements *)
}.

Variable sv : services.
(** [dry] of pkg/cache/cache.go:17, set by NewCache (lines 23-32) before any
    request is served; when it is false NewCache has created the cache. *)
Variable dry : bool.
(** [globalCache != nil] (pkg/hydratables/global.go:14,17-19). *)
Variable injected : bool.

(** The [go func() { if dry { return } ... Set(key, v) }()] of
    pkg/cache/cache.go:52-59, 82-89, 94-101, 120-127, 146-153: the goroutine
    that returns at once is left out. *)
Definition save (key : string) (v : value) (k : prog) : prog :=
  if dry then k else Spawn LApp key v k.

(** The type assertions [x.( *hydratables.Hydratable)] and [x.([]byte)]. *)
Definition as_hyd (k : option hyd -> prog) (v : value) : option prog :=
  match v with VHyd h => Some (k h) | _ => None end.
Definition as_bytes (v : value) : option prog :=
  match v with VBytes b => Some (Answer (Ok (VBytes b))) | _ => None end.

(** pkg/cache/cache.go:131-155 [hydratable], followed by [k].  [Hydrate]
    returns a nil pointer with an error; the nil pointer is saved too. *)
Definition with_hydratable (id : string) (k : option hyd -> prog) : prog :=
  Lookup LApp (negb dry) id (as_hyd k)
    (Compute (res folder) (discover sv id) (fun r =>
       match r with
       | Err m => Answer (Err ("failed to discover folder, " ++ m))
       | Panic => Answer Panic
       | Ok f =>
           Call (res hyd) (hydrate sv f) (hydrate_dies sv f) (fun r =>
             match r with
             | Ok h => save id (VHyd (Some h)) (k (Some h))
             | Err m => save id (VHyd None) (Answer (Err m))
             | Panic => Answer Panic
             end)
       end)).

(** The tail shared by the three functions: compute the bytes, save them under
    [key] in the background, whether or not there is an error, and return
    them (lines 51-60, 93-102, 119-128). *)
Definition and_save (key : string) (P : res (option string) -> Prop) (D : Prop) : prog :=
  Call (res (option string)) P D (fun r =>
    match r with
    | Ok b => save key (VBytes b) (Answer (Ok (VBytes b)))
    | Err m => save key (VBytes None) (Answer (Err m))
    | Panic => Answer Panic
    end).

(** pkg/renderables on a nil *Hydratable: MarshalCatalog, MarshalRenderable
    and MarshalExpressable all dereference it first (sortedEntities,
    pkg/renderables/contexts.go:174-175 and dedupEntities;
    pkg/renderables/expressable.go:22). *)
Definition on_hyd (h : option hyd) (P : hyd -> res (option string) -> Prop) : res (option string) -> Prop :=
  match h with Some h => P h | None => fun r => r = Panic end.

(** path/filepath.Ext (standard library): the suffix from the last dot of the
    last path element, or "" *)
Fixpoint ext_from (acc : string) (s : string) : string :=
  match s with
  | EmptyString => acc
  | String c r =>
      ext_from (if Ascii.eqb c "." then s else if Ascii.eqb c "/" then "" else acc) r
  end.
Definition path_ext (s : string) : string := ext_from "" s.

(** pkg/cache/cache.go:39-41: the key of a fact *)
Definition fact_key (id name contextref : string) : string :=
  hex 32 (fnv fnv_offset (id ++ "/facts/" ++ name ++ ":" ++ contextref)).

(** pkg/cache/cache.go:34-61 [MarshalExpressable] *)
Definition marshal_expressable (id name contextref : string) : prog :=
  with_hydratable id (fun h =>
    Lookup LApp (negb dry) (fact_key id name contextref) as_bytes
      (and_save (fact_key id name contextref) (on_hyd h (expressable sv name contextref)) False)).

(** pkg/cache/cache.go:63-103 [MarshalRenderable] *)
Definition marshal_renderable (id slug : string) : prog :=
  Lookup LApp (negb dry) (id ++ "/" ++ slug) as_bytes
    (with_hydratable id (fun h =>
       match h with
       | None => Answer Panic
       | Some h =>
           if (String.eqb (path_ext slug) ".xhtml" || String.eqb (path_ext slug) ".htm")
              && String.eqb (entry_name sv (folder_of sv h)) slug
           then
             match doc_bytes sv (folder_of sv h) with
             | None => Answer Panic
             | Some d => save (id ++ "/" ++ slug) (VBytes (Some d)) (Answer (Ok (VBytes (Some d))))
             end
           else and_save (id ++ "/" ++ slug) (renderable sv slug h) (renderable_dies sv slug h)
       end)).

(** pkg/cache/cache.go:105-129 [MarshalCatalog] *)
Definition marshal_catalog (id : string) : prog :=
  with_hydratable id (fun h =>
    Lookup LApp (negb dry) (id ++ "/") as_bytes
      (and_save (id ++ "/") (on_hyd h (catalog sv)) False)).

(** pkg/hydratables/global.go:21-46 [HydrateGlobalSchema] *)
Definition hydrate_global_schema (url : string) : prog :=
  if injected then
    Lookup LGlobal true url
      (fun v => match v with VSchema s => Some (Answer (Ok (VSchema s))) | _ => None end)
      (Compute (res schema) (global_schema sv url) (fun r =>
         match r with
         | Ok s => Spawn LGlobal url (VSchema s) (Answer (Ok (VSchema s)))
         | Err m => Answer (Err m)
         | Panic => Answer Panic
         end))
  else Answer (Err "no accessible cache").

(** pkg/hydratables/global.go:52-74 [HydrateEntityNames] *)
Definition hydrate_entity_names : prog :=
  if injected then
    Lookup LGlobal true "names.json"
      (fun v => match v with VNames n => Some (Answer (Ok (VNames n))) | _ => None end)
      (Compute (res names) (entity_names sv) (fun r =>
         match r with
         | Ok n => Spawn LGlobal "names.json" (VNames n) (Answer (Ok (VNames n)))
         | Err m => Answer (Err m)
         | Panic => Answer Panic
         end))
  else Answer (Err "no accessible cache").

(** pkg/attr/literals.go:3 *)
Definition UTR : string := "http://www.xbrl.org/utr/utr.xml".

(** pkg/hydratables/measurement.go:54-77 [HydrateUnitTypeRegistry] *)
Definition hydrate_unit_type_registry : prog :=
  if injected then
    Lookup LGlobal true UTR
      (fun v => match v with VUtr u => Some (Answer (Ok (VUtr u))) | _ => None end)
      (Compute (res utr) (unit_registry sv) (fun r =>
         match r with
         | Ok u => Spawn LGlobal UTR (VUtr u) (Answer (Ok (VUtr u)))
         | Err m => Answer (Err m)
         | Panic => Answer Panic
         end))
  else Answer (Err "no accessible cache").

(** The six entry points.  Calls of the last three made from inside
    [Hydrate] and pkg/renderables appear as requests of their own; that the
    result of the enclosing call depends on theirs is left to the outcome
    sets of [services]. *)
Inductive request :=
| RCatalog (id : string)
| RRender (id slug : string)
| RFact (id name contextref : string)
| RSchema (url : string)
| RNames
| RUtr.

Definition program (q : request) : prog :=
  match q with
  | RCatalog id => marshal_catalog id
  | RRender id slug => marshal_renderable id slug
  | RFact id name contextref => marshal_expressable id name contextref
  | RSchema url => hydrate_global_schema url
  | RNames => hydrate_entity_names
  | RUtr => hydrate_unit_type_registry
  end.

(** ** Goroutines and locks

    A goroutine serves a request (first six states; [TRun (Answer r)] is a
    request that is answered) or writes to the cache in the background.  A
    panic ends the request's goroutine: net/http recovers it (package net/http,
    conn.serve); deferred functions run, but pkg/cache defers no RUnlock.
    [TRun Crash] is a request during which the process has ended. *)
Inductive goroutine :=
| TRun (p : prog)
| TWait (l : lockid) (get : bool) (key : string) (hit : value -> option prog) (miss : prog)
    (* blocked in RLock *)
| TRead (l : lockid) (get : bool) (key : string) (hit : value -> option prog) (miss : prog)
    (* holds the read lock, about to Get *)
| TLeave (l : lockid) (p : prog)
    (* holds the read lock, about to RUnlock *)
| WStart (l : lockid) (key : string) (v : value)
    (* about to Lock *)
| WWait (l : lockid) (key : string) (v : value)
    (* in Lock: owns the writers' mutex and has announced itself, waits for the readers *)
| WIn (l : lockid) (key : string) (v : value)
    (* holds the lock, about to Set *)
| WOut (l : lockid)
    (* about to Unlock *)
| WEnd.

(** sync.RWMutex (standard library): the number of read locks held, and
    whether a writer has announced itself.  While one has, RLock blocks. *)
Record rwmutex := RW { readers : nat; announced : bool }.

Record state := State {
  stored : list (string * value);       (* the *gocache.Cache *)
  locks : lockid -> rwmutex;
  threads : list (option request * goroutine)
}.

Definition lockid_eqb (a b : lockid) : bool :=
  match a, b with LApp, LApp => true | LGlobal, LGlobal => true | _, _ => false end.

Definition set_lock (m : lockid -> rwmutex) (l : lockid) (w : rwmutex) : lockid -> rwmutex :=
  fun l' => if lockid_eqb l' l then w else m l'.

(** sync.RWMutex.Unlock lets every reader in that was blocked in RLock. *)
Definition wake (l : lockid) (g : goroutine) : goroutine :=
  match g with
  | TWait l' get key hit miss => if lockid_eqb l' l then TRead l' get key hit miss else g
  | _ => g
  end.
Definition waits (l : lockid) (g : goroutine) : bool :=
  match g with TWait l' _ _ _ _ => lockid_eqb l' l | _ => false end.
Definition blocked (l : lockid) (ts : list (option request * goroutine)) : nat :=
  List.length (filter (fun t => waits l (snd t)) ts).

(** What [TRead] does: Get (go-cache locks for each single operation), then
    the type assertion.  On a panic the read lock stays held. *)
Definition after_get (c : list (string * value)) (l : lockid) (get : bool) (key : string)
    (hit : value -> option prog) (miss : prog) : goroutine :=
  match (if get then mget String.eqb key c else None) with
  | None => TLeave l miss
  | Some v => match hit v with Some p => TLeave l p | None => TRun (Answer Panic) end
  end.

(** One step of one goroutine: the new state of that goroutine, the goroutines
    it starts, and the new cache, locks and other goroutines. *)
Inductive gstep : state -> state -> Prop :=
| gs_compute : forall c m a q (X : Type) (P : X -> Prop) (k : X -> prog) (x : X) b,
    P x ->
    gstep (State c m (a ++ (q, TRun (Compute X P k)) :: b)) (State c m (a ++ (q, TRun (k x)) :: b))
| gs_spawn : forall c m a q l key v k b,
    gstep (State c m (a ++ (q, TRun (Spawn l key v k)) :: b))
          (State c m (a ++ (q, TRun k) :: b ++ [(None, WStart l key v)]))
| gs_rlock : forall c m a q l get key hit miss b,
    announced (m l) = false ->
    gstep (State c m (a ++ (q, TRun (Lookup l get key hit miss)) :: b))
          (State c (set_lock m l (RW (S (readers (m l))) false)) (a ++ (q, TRead l get key hit miss) :: b))
| gs_block : forall c m a q l get key hit miss b,
    announced (m l) = true ->
    gstep (State c m (a ++ (q, TRun (Lookup l get key hit miss)) :: b))
          (State c m (a ++ (q, TWait l get key hit miss) :: b))
| gs_get : forall c m a q l get key hit miss b,
    gstep (State c m (a ++ (q, TRead l get key hit miss) :: b))
          (State c m (a ++ (q, after_get c l get key hit miss) :: b))
| gs_runlock : forall c m a q l p b,
    gstep (State c m (a ++ (q, TLeave l p) :: b))
          (State c (set_lock m l (RW (pred (readers (m l))) (announced (m l)))) (a ++ (q, TRun p) :: b))
| gs_lock : forall c m a q l key v b,
    announced (m l) = false ->
    gstep (State c m (a ++ (q, WStart l key v) :: b))
          (State c (set_lock m l (RW (readers (m l)) true)) (a ++ (q, WWait l key v) :: b))
| gs_enter : forall c m a q l key v b,
    readers (m l) = 0 ->
    gstep (State c m (a ++ (q, WWait l key v) :: b)) (State c m (a ++ (q, WIn l key v) :: b))
| gs_set : forall c m a q l key v b,
    gstep (State c m (a ++ (q, WIn l key v) :: b))
          (State (mset String.eqb key v c) m (a ++ (q, WOut l) :: b))
| gs_unlock : forall c m a q l b,
    gstep (State c m (a ++ (q, WOut l) :: b))
          (State c (set_lock m l (RW (readers (m l) + blocked l (a ++ b)) false))
             (map (fun t => (fst t, wake l (snd t))) a ++ (q, WEnd) :: map (fun t => (fst t, wake l (snd t))) b)).

(** The process has not ended. *)
Definition up (s : state) : Prop := Forall (fun t => snd t <> TRun Crash) (threads s).

(** A request arrives, at any time.  Nothing happens any more once the process
    has ended (it is not started again). *)
Inductive step : state -> state -> Prop :=
| step_run : forall s s', up s -> gstep s s' -> step s s'
| step_request : forall c m ts q,
    up (State c m ts) ->
    step (State c m ts) (State c m (ts ++ [(Some q, TRun (program q))])).

Inductive run : state -> state -> Prop :=
| run_refl : forall s, run s s
| run_step : forall s s' s'', run s s' -> step s' s'' -> run s s''.

(** Before the first request: no lock is held. *)
Definition initial (c : list (string * value)) : state :=
  State c (fun _ => RW 0 false) [].

(** Request [q] has been given the answer [r] in state [s]. *)
Definition answered (s : state) (q : request) (r : res value) : Prop :=
  In (Some q, TRun (Answer r)) (threads s).

(** The requests made so far. *)
Definition requests (s : state) : list request :=
  flat_map (fun t => match fst t with Some q => [q] | None => [] end) (threads s).
End Cache.

Arguments VHyd {hyd schema names utr}.
Arguments VBytes {hyd schema names utr}.
Arguments VSchema {hyd schema names utr}.
Arguments VNames {hyd schema names utr}.
Arguments VUtr {hyd schema names utr}.
Arguments Answer {hyd schema names utr}.
Arguments Lookup {hyd schema names utr}.
Arguments Compute {hyd schema names utr}.
Arguments Spawn {hyd schema names utr}.
Arguments Crash {hyd schema names utr}.
Arguments outcome {X}.
Arguments Call {hyd schema names utr}.
Arguments Services {folder hyd schema names utr}.
Arguments discover {folder hyd schema names utr}.
Arguments hydrate {folder hyd schema names utr}.
Arguments hydrate_dies {folder hyd schema names utr}.
Arguments folder_of {folder hyd schema names utr}.
Arguments entry_name {folder hyd schema names utr}.
Arguments doc_bytes {folder hyd schema names utr}.
Arguments catalog {folder hyd schema names utr}.
Arguments renderable {folder hyd schema names utr}.
Arguments renderable_dies {folder hyd schema names utr}.
Arguments expressable {folder hyd schema names utr}.
Arguments global_schema {folder hyd schema names utr}.
Arguments entity_names {folder hyd schema names utr}.
Arguments unit_registry {folder hyd schema names utr}.
Arguments save {hyd schema names utr}.
Arguments as_hyd {hyd schema names utr}.
Arguments as_bytes {hyd schema names utr}.
Arguments with_hydratable {folder hyd schema names utr}.
Arguments and_save {hyd schema names utr}.
Arguments on_hyd {hyd}.
Arguments marshal_expressable {folder hyd schema names utr}.
Arguments marshal_renderable {folder hyd schema names utr}.
Arguments marshal_catalog {folder hyd schema names utr}.
Arguments hydrate_global_schema {folder hyd schema names utr}.
Arguments hydrate_entity_names {folder hyd schema names utr}.
Arguments hydrate_unit_type_registry {folder hyd schema names utr}.
Arguments program {folder hyd schema names utr}.
Arguments TRun {hyd schema names utr}.
Arguments TWait {hyd schema names utr}.
Arguments TRead {hyd schema names utr}.
Arguments TLeave {hyd schema names utr}.
Arguments WStart {hyd schema names utr}.
Arguments WWait {hyd schema names utr}.
Arguments WIn {hyd schema names utr}.
Arguments WOut {hyd schema names utr}.
Arguments WEnd {hyd schema names utr}.
Arguments State {hyd schema names utr}.
Arguments stored {hyd schema names utr}.
Arguments locks {hyd schema names utr}.
Arguments threads {hyd schema names utr}.
Arguments wake {hyd schema names utr}.
Arguments waits {hyd schema names utr}.
Arguments blocked {hyd schema names utr}.
Arguments after_get {hyd schema names utr}.
Arguments gstep {hyd schema names utr}.
Arguments up {hyd schema names utr}.
Arguments step {folder hyd schema names utr}.
Arguments run {folder hyd schema names utr}.
Arguments initial {hyd schema names utr}.
Arguments answered {hyd schema names utr}.
Arguments requests {hyd schema names utr}.
