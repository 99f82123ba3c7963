(** * LoadModel: from the files of a folder to the loaded report

    pkg/cache/cache.go:129-151: Discover, then Hydrate. The readers of the parts
    (DiscoverModel, XmlModel, HydrateModel) are put together here. *)
From Verif Require Import GoBase AttrModel SchemaModel LinkbaseModel InstanceModel HydrateModel PathModel DiscoverModel XmlModel.
Local Open Scope string_scope.

(** The outside world: files, and what the external parsers see in their bytes *)
Record disk := Disk {
  d_url : string -> bool;               (* attr.IsValidUrl *)
  d_file : string -> option string;     (* os.ReadFile, None: an error *)
  d_stat : string -> bool;              (* os.Stat does not say os.ErrNotExist *)
  d_xml : string -> option tree;        (* encoding/xml: the root element, None: not well-formed *)
  d_html : string -> option qtree;      (* xmlquery.Parse, None: an error *)
  d_global : string -> option string    (* DiscoverGlobalFile (global.go:48-64), None: an error *)
}.

Section WithDisk.
  Variable d : disk.
  (** schemaFile.go:77-87 [ReadSchemaFile], instanceFile.go:143-153 [ReadInstanceFile],
      presentationLinkbaseFile.go:44-54, definitionLinkbaseFile.go:44-54,
      calculationLinkbaseFile.go:44-54, labelLinkbaseFile.go:49-59: all alike *)
  Definition read_with {B} (dec : option tree -> res B) (path : string) : option B :=
    match d_file d path with
    | None => None
    | Some data => match dec (d_xml d data) with Ok b => Some b | _ => None end
    end.
  Definition decode_linkbase (k : kind) : option tree -> res linkbase_file :=
    match k with
    | Presentation => decode_presentation
    | Definitional => decode_definition
    | Calculation => decode_calculation
    | Labels => decode_label
    end.
  (** what Discover reads *)
  Definition files_of : files :=
    Files (d_url d) (read_with decode_schema) (fun k => read_with (decode_linkbase k)) (read_with decode_instance)
      (d_file d) (d_stat d) (fun data => option_map inline_source (decode_inline (d_html d data))).
  (** global.go:66-72 [DiscoverGlobalSchema] *)
  Definition global_schema_file (u : string) : res schema_file :=
    match d_global d u with
    | None => Err "not found"
    | Some data => decode_schema (d_xml d data)
    end.

  (** cache.go:141-148: the outcomes of Discover and Hydrate that are not errors. [utr]
      is the outcome of HydrateUnitTypeRegistry, [sh] the map orders inside Hydrate. *)
  Definition loaded (dir name : string) (images : bool) (pf : string -> f64 * bool) (sh : shuffles)
      (tokens : string -> list token) (utr : res registry) (h : hydratable) : Prop :=
    exists fd doc, discover files_of dir (Ok name) images (Ok fd) /\ hydrate_document (fdDocument fd) doc /\
      hydrate pf sh (d_url d) global_schema_file tokens utr doc fd = Ok h.
End WithDisk.
