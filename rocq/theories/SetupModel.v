(** * SetupModel: cmd/telefacts/main.go, the server on a machine

    ServerModel takes the directories, the validity of URLs, the global files, the registry of
    units and the entity names as they come. Here they are what main.go, pkg/attr/url.go and
    pkg/serializables/global.go make of the machine the server is started on. *)
From Coq Require Import String List Bool.
From Verif Require Import GoBase PathModel InstanceModel XmlModel LoadModel ReportModel CacheModel ServerModel.
From Verif Require Import SchemaModel.
Import ListNotations.
Local Open Scope string_scope.

Record machine := Machine {
  m_cwd : option string;                                (* os.Getwd, None: an error *)
  m_WD : string; m_GTS : string;                        (* os.Getenv: "" if it is not set *)
  m_stat : string -> option string;                     (* os.Stat: FileInfo.Name, None: an error *)
  m_request_uri : string -> bool;                       (* url.ParseRequestURI: no error *)
  m_parse : string -> res (url * string);               (* url.Parse: the URL, and its Host *)
  m_names : string -> res (list (string * list (string * string))); (* json.Unmarshal into the map of names *)
  m_rest : world }.                                     (* files and external code; see [world_on] *)

Section Machine.
  Variable m : machine.

  (** main.go:36-39 *)
  Definition current : string := match m_cwd m with Some d => d | None => join ["."] end.
  (** main.go:40-43, 45-48 *)
  Definition given (v : string) : string := if String.eqb v "" then current else v.
  (** main.go:44 [WorkingDirectoryPath] *)
  Definition working_directory : string := join [given (m_WD m); "wd"].
  (** main.go:49 [GlobalTaxonomySetPath] *)
  Definition taxonomy_directory : string := join [given (m_GTS m); "gts"].

  (** pkg/attr/url.go:5-17 [IsValidUrl] *)
  Definition is_valid_url (s : string) : bool :=
    m_request_uri m s &&
    match m_parse m s with
    | Ok (u, host) => nonempty (uScheme u) && nonempty host
    | _ => false
    end.
  (** global.go:48-64 [DiscoverGlobalFile]: without an error it may return no bytes, which the
      XML decoders read as the empty file. *)
  Definition global_file (s : string) : option string :=
    match discover_global_file (fun s => do p <- m_parse m s; Ok (fst p)) taxonomy_directory (m_stat m) (d_file (w_disk (m_rest m))) s with
    | Ok (Some b) => Some b
    | Ok None => Some ""
    | _ => None
    end.
  (** serializables/measurement.go:121-127 [DiscoverUnitTypeRegistry] and
      hydratables/measurement.go:66-70 *)
  Definition units_read : res registry :=
    match global_file UTR with
    | None => Err "not found"
    | Some data => do us <- decode_utr (d_xml (w_disk (m_rest m)) data); Ok (map_measurements us)
    end.
  (** global.go:74-83 [DiscoverEntityNames] *)
  Definition names_read : res (list (string * list (string * string))) :=
    match d_file (w_disk (m_rest m)) (join [working_directory; "names.json"]) with
    | None => Err "no such file"
    | Some b => m_names m b
    end.

  (** what the server sees of the machine *)
  Definition disk_on : disk :=
    let d := w_disk (m_rest m) in
    Disk is_valid_url (d_file d) (d_stat d) (d_xml d) (d_html d) global_file.
  Definition world_on : world :=
    let w := m_rest m in
    let o := w_out w in
    World disk_on working_directory (w_entry w) (w_list w) (w_detect w) (w_base64 w) (w_parse w) (w_render w) (w_float w) (w_tokens w)
      (Outside is_valid_url (global_schema_file disk_on) units_read names_read
         (o_tree o) (o_html o) (o_digits o) (o_percent o) (o_order o) (o_spanish o)).

  (** pkg/attr/literals.go:4 [LRR] *)
  Definition LRR : string := "http://www.xbrl.org/2003/xbrl-role-2003-07-31.xsd".
  (** main.go:51-53: what is put into the cache before the server listens; errors are ignored *)
  Definition starting : list request := [RNames; RSchema LRR; RUtr].
  (** main.go:34-65 [setupServer]; NewRouter panics without a current directory
      (internal/web/web.go:111-114) *)
  Definition setup : res world :=
    match m_cwd m with
    | Some _ => Ok world_on
    | None => Panic
    end.
  Local Notation state := (state report schema (list (string * list (string * string))) registry).
  (** NewCache(false) (main.go:35) and InjectCache (main.go:50), then [starting] one after the
      other: here they may overlap. A panic in one of them would end the process. *)
  Definition started (w : world) (s : state) : Prop :=
    run (services_of w) false true (initial []) s /\ requests s = starting /\
    forall q, In q starting -> exists r, answered s q r /\ r <> Panic.
  (** the server in operation *)
  Definition operating (s : state) : Prop :=
    exists w s0, setup = Ok w /\ started w s0 /\ run (services_of w) false true s0 s.
End Machine.
