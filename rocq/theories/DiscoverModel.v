(** Model of the discovery of a folder's documents (pkg/serializables/folder.go)
    by goroutines that share the folder. *)
From Coq Require Import Strings.String Strings.Ascii Lists.List Bool.
From Verif Require Import GoBase AttrModel SchemaModel LinkbaseModel InstanceModel HydrateModel PathModel.
Import ListNotations.
Open Scope string_scope.

(** pkg/attr/literals.go:12,23-26 *)
Definition LINKARCROLE := "http://www.w3.org/1999/xlink/properties/linkbase".
Definition LabelLinkbaseRef := "http://www.xbrl.org/2003/role/labelLinkbaseRef".
Definition CalculationLinkbaseRef := "http://www.xbrl.org/2003/role/calculationLinkbaseRef".
Definition DefinitionLinkbaseRef := "http://www.xbrl.org/2003/role/definitionLinkbaseRef".
Definition PresentationLinkbaseRef := "http://www.xbrl.org/2003/role/presentationLinkbaseRef".

Inductive kind := Presentation | Definitional | Calculation | Labels.

(** [a == nil || a.Name.Space != attr.XLINK || a.Value != v] leads to [return] *)
Definition xattr_is (attrs : list xattr) (n v : string) : option unit :=
  match find_attr attrs n with
  | Some a => if negb (String.eqb (nspace (aname a)) XLINK) then None
              else if negb (String.eqb (avalue a) v) then None else Some tt
  | None => None
  end.

(** What a goroutine still has to do, in order: lock the folder and write
    Namespaces; start the goroutines for the references of a schema, wait for
    them and write Schemas; write one of the four maps of linkbases. *)
Inductive todo :=
| Stop
| Claim (ns loc : string) (next : todo)
| Load (loc : string) (f : schema_file)
| Store (k : kind) (loc : string) (l : linkbase_file).

(** The folder is a fresh one: only the maps it fills are of interest *)
Definition set_namespace (ns loc : string) (fd : folder) : folder :=
  Folder (fdEntry fd) (sset ns loc (fdNamespaces fd)) (fdSchemas fd) (fdPresentation fd) (fdDefinition fd)
    (fdCalculation fd) (fdLabel fd) (fdInstances fd) (fdDocument fd).
Definition set_schema (loc : string) (f : schema_file) (fd : folder) : folder :=
  Folder (fdEntry fd) (fdNamespaces fd) (sset loc f (fdSchemas fd)) (fdPresentation fd) (fdDefinition fd)
    (fdCalculation fd) (fdLabel fd) (fdInstances fd) (fdDocument fd).
Definition set_linkbase (k : kind) (loc : string) (l : linkbase_file) (fd : folder) : folder :=
  match k with
  | Presentation =>
      Folder (fdEntry fd) (fdNamespaces fd) (fdSchemas fd) (sset loc l (fdPresentation fd)) (fdDefinition fd)
        (fdCalculation fd) (fdLabel fd) (fdInstances fd) (fdDocument fd)
  | Definitional =>
      Folder (fdEntry fd) (fdNamespaces fd) (fdSchemas fd) (fdPresentation fd) (sset loc l (fdDefinition fd))
        (fdCalculation fd) (fdLabel fd) (fdInstances fd) (fdDocument fd)
  | Calculation =>
      Folder (fdEntry fd) (fdNamespaces fd) (fdSchemas fd) (fdPresentation fd) (fdDefinition fd)
        (sset loc l (fdCalculation fd)) (fdLabel fd) (fdInstances fd) (fdDocument fd)
  | Labels =>
      Folder (fdEntry fd) (fdNamespaces fd) (fdSchemas fd) (fdPresentation fd) (fdDefinition fd)
        (fdCalculation fd) (sset loc l (fdLabel fd)) (fdInstances fd) (fdDocument fd)
  end.
Definition set_instance (name : string) (i : instance_file) (fd : folder) : folder :=
  Folder (fdEntry fd) (fdNamespaces fd) (fdSchemas fd) (fdPresentation fd) (fdDefinition fd)
    (fdCalculation fd) (fdLabel fd) (sset name i (fdInstances fd)) (fdDocument fd).
Definition new_folder (entry : string) (doc : option doc_source) : folder :=
  Folder entry [] [] [] [] [] [] [] doc.

(** The outside world.  It does not change while a folder is discovered. *)
Record files := Files {
  is_url : string -> bool;                              (* attr.IsValidUrl *)
  read_schema : string -> option schema_file;           (* ReadSchemaFile, None: an error *)
  read_linkbase : kind -> string -> option linkbase_file;  (* Read...LinkbaseFile *)
  read_instance : string -> option instance_file;       (* ReadInstanceFile *)
  read_file : string -> option string;                  (* os.ReadFile *)
  exists_file : string -> bool;                         (* os.Stat does not say os.ErrNotExist *)
  decode_ixbrl : string -> option doc_source            (* DecodeIxbrlFile, None: nil *)
}.

Section WithFiles.
  Variable w : files.
  (** Folder.Dir *)
  Variable dir : string.

  Definition found {A} (o : option A) (k : A -> todo) : todo := match o with Some a => k a | None => Stop end.

  (** folder.go:100-149: a goroutine of [schemaRef].  The goroutine
      "go DiscoverGlobalSchema(url)" does not touch the folder, and its result
      is dropped. *)
  Definition schema_ref_body (e : elem) : todo :=
    if negb (String.eqb (nspace (ename e)) LINK) then Stop else
    found (req (eattrs e) "href") (fun href =>
    if is_url w href then Stop else
    found (read_schema w (join [dir; href])) (fun f =>
    found (req (sf_attrs f) "targetNamespace") (fun ns =>
    Claim ns href (Load href f)))).

  (** folder.go:161-206: a goroutine of [includeSchema] *)
  Definition include_body (e : elem) : todo :=
    if negb (String.eqb (nspace (ename e)) XSD) then Stop else
    found (req (eattrs e) "schemaLocation") (fun href =>
    if is_url w href then Stop else
    found (read_schema w (join [dir; href])) (fun f =>
    found (req (sf_attrs f) "targetNamespace") (fun ns =>
    Claim ns href (Load href f)))).

  (** folder.go:218-263: a goroutine of [importSchema] *)
  Definition import_body (e : elem) : todo :=
    if negb (String.eqb (nspace (ename e)) XSD) then Stop else
    found (req (eattrs e) "namespace") (fun ns =>
    found (req (eattrs e) "schemaLocation") (fun href =>
    Claim ns href
      (if is_url w href then Stop else
       found (read_schema w (join [dir; href])) (fun f => Load href f)))).

  (** folder.go:310-350 *)
  Definition linkbase_kind (role : string) : option kind :=
    if String.eqb role PresentationLinkbaseRef then Some Presentation
    else if String.eqb role DefinitionLinkbaseRef then Some Definitional
    else if String.eqb role CalculationLinkbaseRef then Some Calculation
    else if String.eqb role LabelLinkbaseRef then Some Labels
    else None.

  (** folder.go:283-351: a goroutine of [linkbaseRefSchema] *)
  Definition linkbase_ref_body (e : elem) : todo :=
    if negb (String.eqb (nspace (ename e)) LINK) then Stop else
    found (xattr_is (eattrs e) "arcrole" LINKARCROLE) (fun _ =>
    found (xattr_is (eattrs e) "type" "simple") (fun _ =>
    found (xreq (eattrs e) "role") (fun role =>
    found (xreq (eattrs e) "href") (fun href =>
    if is_url w href then Stop else
    found (linkbase_kind role) (fun k =>
    found (read_linkbase w k (join [dir; href])) (fun l =>
    Store k href l)))))).

  (** folder.go:273-282: the linkbaseRef elements [linkbaseRefSchema] visits *)
  Definition linkbase_refs (f : schema_file) : list elem :=
    flat_map (fun an =>
      if negb (String.eqb (nspace (an_name an)) XSD) then [] else
      flat_map (fun ai =>
        if negb (String.eqb (nspace (ai_name ai)) XSD) then [] else ai_linkbaseRef ai) (an_appinfo an))
      (sf_annotation f).

  (** folder.go:130-144, 187-201, 244-258: the goroutines started for a schema.
      Simplification: the three goroutines that start them and wait for them
      are left out; they do nothing else. *)
  Definition children (f : schema_file) : list todo :=
    map import_body (sf_import f) ++ map include_body (sf_include f) ++ map linkbase_ref_body (linkbase_refs f).

  (** A goroutine: running; waiting for the ones it has started, to write
      Schemas; finished *)
  Inductive proc :=
  | Run (d : todo)
  | Wait (ps : list proc) (loc : string) (f : schema_file)
  | Finished.

  (** One step of a goroutine, or of one below it.  What it does while it
      holds the lock is one step. *)
  Inductive pstep : folder -> proc -> folder -> proc -> Prop :=
  | step_stop : forall fd, pstep fd (Run Stop) fd Finished
  | step_claim : forall fd ns loc next,
      pstep fd (Run (Claim ns loc next)) (set_namespace ns loc fd) (Run next)
  | step_load : forall fd loc f, pstep fd (Run (Load loc f)) fd (Wait (map Run (children f)) loc f)
  | step_store : forall fd k loc l, pstep fd (Run (Store k loc l)) (set_linkbase k loc l fd) Finished
  | step_child : forall fd fd' a p p' b loc f, pstep fd p fd' p' ->
      pstep fd (Wait (a ++ p :: b) loc f) fd' (Wait (a ++ p' :: b) loc f)
  | step_joined : forall fd ps loc f, Forall (eq Finished) ps ->
      pstep fd (Wait ps loc f) (set_schema loc f fd) Finished.

  (** folder.go:93-150 [schemaRef]: a folder and the goroutines of the
      instance's schemaRef elements *)
  Definition state : Type := folder * list proc.
  Definition schema_ref (fd : folder) (i : instance_file) : state :=
    (fd, map (fun e => Run (schema_ref_body e)) (if_schemaRef i)).
  Inductive fstep : state -> state -> Prop :=
  | fstep_one : forall fd fd' a p p' b, pstep fd p fd' p' -> fstep (fd, (a ++ p :: b)%list) (fd', (a ++ p' :: b)%list).
  Inductive fruns : state -> state -> Prop :=
  | fruns_refl : forall s, fruns s s
  | fruns_step : forall s s' s'', fruns s s' -> fstep s' s'' -> fruns s s''.
  (** 151: wg.Wait() returns *)
  Definition joined (s : state) : Prop := Forall (eq Finished) (snd s).
End WithFiles.

(** filepath.Ext *)
Fixpoint ext (s : string) : string :=
  match s with
  | EmptyString => ""
  | String c r =>
      let e := ext r in
      if nonempty e then e
      else if Ascii.eqb c "." && negb (has_char "/" r) then s else ""
  end.

(** folder.go:77-78, 86-87: after [schemaRef] has returned *)
Definition finish (name : string) (i : instance_file) (fd : folder) : folder := set_instance name i fd.

(** folder.go:72-78 and 81-87: read the instance, follow its references *)
Inductive discover_instance (w : files) (dir : string) (fd : folder) (file : string) : res folder -> Prop :=
| inst_unreadable : forall m, read_instance w (join [dir; file]) = None -> discover_instance w dir fd file (Err m)
| inst_read : forall i s, read_instance w (join [dir; file]) = Some i ->
    fruns w dir (schema_ref w dir fd i) s -> joined s ->
    discover_instance w dir fd file (Ok (finish file i (fst s))).

(** folder.go:53-78; [images] tells whether processImages has found any.
    Document.Bytes (C71) is left out. *)
Inductive discover_htm (w : files) (dir name : string) (images : bool) : res folder -> Prop :=
| htm_unreadable : forall m, read_file w (join [dir; name]) = None -> discover_htm w dir name images (Err m)
(* 61-63: doc.Bytes of a nil doc *)
| htm_nil : forall data, read_file w (join [dir; name]) = Some data -> decode_ixbrl w data = None ->
    images = true -> discover_htm w dir name images Panic
| htm_failed : forall data, read_file w (join [dir; name]) = Some data -> decode_ixbrl w data = None ->
    images = false -> discover_htm w dir name images (Err "failed to decode IXBRL source document")
| htm_missing : forall data doc, read_file w (join [dir; name]) = Some data -> decode_ixbrl w data = Some doc ->
    exists_file w (join [dir; name ++ ".xml"]) = false ->
    discover_htm w dir name images (Err (join [dir; name ++ ".xml"] ++ " does not exists"))
| htm_found : forall data doc o, read_file w (join [dir; name]) = Some data -> decode_ixbrl w data = Some doc ->
    exists_file w (join [dir; name ++ ".xml"]) = true ->
    discover_instance w dir (new_folder name (Some doc)) (name ++ ".xml") o ->
    discover_htm w dir name images o.

(** folder.go:32-91 [Discover]: its possible outcomes.  [entry] is what
    GetEntryFileName returns; [dir] is the path of line 37. *)
Inductive discover (w : files) (dir : string) (entry : res string) (images : bool) : res folder -> Prop :=
| disc_no_entry : forall m, entry = Err m -> discover w dir entry images (Err m)
| disc_htm : forall name o, entry = Ok name -> ext name = ".xhtml" \/ ext name = ".htm" ->
    discover_htm w dir name images o -> discover w dir entry images o
| disc_xml : forall name o, entry = Ok name -> ext name = ".xbrl" \/ ext name = ".xml" ->
    discover_instance w dir (new_folder name None) name o -> discover w dir entry images o
| disc_other : forall name, entry = Ok name -> ext name <> ".xhtml" -> ext name <> ".htm" ->
    ext name <> ".xbrl" -> ext name <> ".xml" ->
    discover w dir entry images (Ok (new_folder name None)).
