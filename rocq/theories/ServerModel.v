(** * ServerModel: the running server, from an HTTP request to the files on disk

    cmd/telefacts/main.go:34-65 puts the parts together: the router and the handlers
    (RouterModel, WebModel) call pkg/cache (CacheModel), which discovers and hydrates a folder
    (LoadModel) and renders it (ReportModel). The files do not change while the server runs. *)
From Coq Require Import String List Bool.
From Verif Require Import GoBase PathModel ImageModel LinkbaseModel InstanceModel HydrateModel DiscoverModel XmlModel LoadModel ReportModel CacheModel WebModel RouterModel.
From Verif Require SchemaModel.
Import ListNotations.
Local Open Scope string_scope.

(** What the program finds outside: files and external code *)
Record world := World {
  w_disk : disk;
  w_wd : string;                                   (* serializables.WorkingDirectoryPath (main.go:45) *)
  w_entry : string -> res string;                  (* json.Unmarshal into an Underscore: its Entry, or the error *)
  w_list : string -> option (list dir_entry);      (* os.ReadDir *)
  w_detect : string -> string;                     (* http.DetectContentType *)
  w_base64 : string -> string;                     (* base64.StdEncoding.EncodeToString *)
  w_parse : string -> option html_node;            (* html.Parse *)
  w_render : html_node -> option string;           (* html.Render *)
  w_float : string -> f64 * bool;                  (* strconv.ParseFloat *)
  w_tokens : string -> list token;                 (* xml.Decoder.Token *)
  w_out : outside }.                               (* what rendering uses; see [out] *)

(** serializables.Folder with Document.Bytes, and hydratables.Hydratable with its folder *)
Record found := Found { fo_folder : folder; fo_bytes : option string }.
Record report := Report { rp_hydratable : hydratable; rp_bytes : option string }.

Section Server.
  Variable w : world.

  (** underscore.go:18-26 [GetEntryFileName] *)
  Definition entry_file_name (id : string) : res string :=
    match d_file (w_disk w) (PathModel.join [w_wd w; "folders"; id; "_"]) with
    | None => Err "no such file"
    | Some b => w_entry w b
    end.
  (** folder.go:37 *)
  Definition working_dir (id : string) : string := PathModel.join [w_wd w; "folders"; id].
  (** folder.go:50 *)
  Definition images_of (id : string) : list (string * string) :=
    process_images (w_detect w) (w_base64 w) (w_list w (working_dir id)).
  (** document.go:163, folder.go:59-62: the bytes of the file, or those with the images inside *)
  Definition bytes_of (id : string) (fd : folder) : option string :=
    match fdDocument fd with
    | None => None
    | Some _ =>
        option_map (fun data => match images_of id with
                                | [] => data
                                | images => transform_inline_images (w_parse w) (w_render w) data images
                                end)
          (d_file (w_disk w) (PathModel.join [working_dir id; fdEntry fd]))
    end.
  (** folder.go:32-91 [Discover] *)
  Definition discovered (id : string) (r : res found) : Prop :=
    exists o, DiscoverModel.discover (files_of (w_disk w)) (working_dir id) (entry_file_name id)
                (match images_of id with [] => false | _ => true end) o /\
      r = do fd <- o; Ok (Found fd (bytes_of id fd)).
  (** the external code and the global files: global.go:21-46, query.go *)
  Definition out : outside :=
    Outside (d_url (w_disk w)) (global_schema_file (w_disk w)) (o_units (w_out w)) (o_names (w_out w)) (o_tree (w_out w))
      (o_html (w_out w)) (o_digits (w_out w)) (o_percent (w_out w)) (o_order (w_out w)) (o_spanish (w_out w)).
  (** hydratable.go:19-82 [Hydrate], on every order of the maps *)
  Definition hydrating (f : found) (sh : shuffles) (doc : res (option document)) : res report :=
    do h <- HydrateModel.hydrate (w_float w) sh (d_url (w_disk w)) (global_schema_file (w_disk w)) (w_tokens w)
              (o_units (w_out w)) doc (fo_folder f);
    Ok (Report h (fo_bytes f)).
  (** A goroutine of HydrateDocument panics. HydrateDocument is called last (hydratable.go:76),
      when all the rest is hydrated. *)
  Definition hydration_dies (f : found) (sh : shuffles) : Prop :=
    (exists r, hydrating f sh (Ok None) = Ok r) /\ crashed_document (fdDocument (fo_folder f)).
  (** It returns: unless the document's outcome is that panic, and is reached. *)
  Definition hydrated_as (f : found) (r : res report) : Prop :=
    exists sh doc, orders sh /\ hydrate_document (fdDocument (fo_folder f)) doc /\ (doc = Panic -> ~ hydration_dies f sh) /\
      r = hydrating f sh doc.
  (** global.go:21-46 without the cache *)
  Definition schema_from (url : string) : res SchemaModel.schema :=
    do f <- global_schema_file (w_disk w) url; SchemaModel.hydrate_schema (Some f) url.

  (** the functions that pkg/cache calls *)
  Definition services_of : CacheModel.services found report SchemaModel.schema (list (string * list (string * string))) InstanceModel.registry :=
    CacheModel.Services discovered hydrated_as (fun f => exists sh, orders sh /\ hydration_dies f sh)
      (fun r => Found (hFolder (rp_hydratable r)) (rp_bytes r)) (fun f => fdEntry (fo_folder f)) fo_bytes
      (fun r => marshalled_catalog out (rp_hydratable r))
      (fun slug r => returned_renderable out (rp_hydratable r) slug) (fun slug r => crashed_renderable out (rp_hydratable r) slug)
      (fun name ref r => marshalled_expressable out (rp_hydratable r) name ref)
      (fun url r => r = schema_from url) (fun r => r = o_names (w_out w)) (fun r => r = o_units (w_out w)).
End Server.

(** ** HTTP *)

(** web.go:26, 55, 93: the call of pkg/cache that an HTTP request leads to *)
Definition called (method path query : string) (q : request) : Prop :=
  clean_path path = path /\
  match try_routes method path new_router with
  | Matched ToCatalog vs => q = RCatalog (var "id" (HttpRequest method vs query))
  | Matched ToRenderable vs => q = RRender (var "id" (HttpRequest method vs query)) (var "hash" (HttpRequest method vs query))
  | Matched ToExpressable vs =>
      exists fields name ref, parse_query query = Ok fields /\ query_unescape (values_get "name" fields) = Ok name /\
        query_unescape (values_get "contextref" fields) = Ok ref /\ q = RFact (var "id" (HttpRequest method vs query)) name ref
  | _ => False
  end.

Section Exchange.
  Context {H S N U : Type}.
  (** the results of pkg/cache in Go's two values *)
  Definition bytes_value (a : res (option string)) : res (CacheModel.value H S N U) :=
    match a with Ok b => Ok (VBytes b) | Err m => Err m | Panic => Panic end.
  Definition returned (sv : RouterModel.services) (q : request) : res (CacheModel.value H S N U) :=
    match q with
    | RCatalog id => bytes_value (svCatalog sv id)
    | RRender id slug => bytes_value (svRenderable sv id slug)
    | RFact id name ref => bytes_value (svExpressable sv id name ref)
    | _ => Panic
    end.
  (** In the state [s] of the server a request has been answered with [a]: its call has
      returned, and the handler has done the rest. *)
  Definition exchanged (detect : string -> string) (files : string -> string -> option response)
    (s : CacheModel.state H S N U) (method path query : string) (a : answer) : Prop :=
    exists sv, svFiles sv = files /\ a = serve detect sv method path query /\
      forall q, called method path query q -> answered s q (returned sv q).
End Exchange.
