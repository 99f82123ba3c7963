(** Which documents belong to a filing: references between documents, in the
    words of XML Schema and XBRL 2.1. *)
From Coq Require Import Strings.String Lists.List.
From Verif Require Import GoSpec AttrModel SchemaModel SchemaSpec LinkbaseModel LinkbaseSpec DiscoverModel.
Import ListNotations.
Open Scope string_scope.

(** ** The references in a document *)

Definition xsd_element (e : elem) : Prop := nspace (ename e) = "http://www.w3.org/2001/XMLSchema".
Definition link_element (e : elem) : Prop := nspace (ename e) = "http://www.xbrl.org/2003/linkbase".

(** link:schemaRef, among the elements [refs] of an instance *)
Definition refers_to (refs : list elem) (h : string) : Prop :=
  exists e, In e refs /\ link_element e /\ required (eattrs e) "href" h.
(** xsd:include *)
Definition includes (f : schema_file) (h : string) : Prop :=
  exists e, In e (sf_include f) /\ xsd_element e /\ required (eattrs e) "schemaLocation" h.
(** xsd:import, of a schema for any namespace or none *)
Definition imports (f : schema_file) (h : string) : Prop :=
  exists e, In e (sf_import f) /\ xsd_element e /\ required (eattrs e) "schemaLocation" h.
(** xsd:import for the namespace [ns] *)
Definition imports_for (f : schema_file) (ns h : string) : Prop :=
  exists e, In e (sf_import f) /\ xsd_element e /\ required (eattrs e) "namespace" ns /\
    required (eattrs e) "schemaLocation" h.
Definition target_namespace (f : schema_file) (ns : string) : Prop := required (sf_attrs f) "targetNamespace" ns.

(** link:linkbaseRef with a role *)
Definition linkbase_role (k : kind) : string :=
  match k with
  | Presentation => "http://www.xbrl.org/2003/role/presentationLinkbaseRef"
  | Definitional => "http://www.xbrl.org/2003/role/definitionLinkbaseRef"
  | Calculation => "http://www.xbrl.org/2003/role/calculationLinkbaseRef"
  | Labels => "http://www.xbrl.org/2003/role/labelLinkbaseRef"
  end.
Definition names_linkbase (f : schema_file) (k : kind) (h : string) : Prop :=
  exists an ai e, In an (sf_annotation f) /\ nspace (an_name an) = "http://www.w3.org/2001/XMLSchema" /\
    In ai (an_appinfo an) /\ nspace (ai_name ai) = "http://www.w3.org/2001/XMLSchema" /\
    In e (ai_linkbaseRef ai) /\ link_element e /\
    xlink (eattrs e) "arcrole" "http://www.w3.org/1999/xlink/properties/linkbase" /\
    xlink (eattrs e) "type" "simple" /\ xlink (eattrs e) "role" (linkbase_role k) /\
    xlink (eattrs e) "href" h.

(** ** Reachable documents *)
Section Reachable.
  (** The folder: its schemas and linkbases by the references that name them;
      [url]: the references that leave it *)
  Variable url : string -> Prop.
  Variable schema_file_of : string -> schema_file -> Prop.
  Variable linkbase_file_of : kind -> string -> linkbase_file -> Prop.
  Variable refs : list elem.

  (** The local schema [f] is named [h] and reachable from the instance *)
  Inductive reachable : string -> schema_file -> Prop :=
  | reach_ref : forall h f, refers_to refs h -> ~ url h -> schema_file_of h f -> reachable h f
  | reach_include : forall g h0 h f, reachable h0 g -> includes g h -> ~ url h -> schema_file_of h f -> reachable h f
  | reach_import : forall g h0 h f, reachable h0 g -> imports g h -> ~ url h -> schema_file_of h f -> reachable h f.

  (** The same, where every schema named by a schemaRef or an include has a
      target namespace, and every import a namespace *)
  Inductive followed : string -> schema_file -> Prop :=
  | follow_ref : forall h f ns, refers_to refs h -> ~ url h -> schema_file_of h f -> target_namespace f ns -> followed h f
  | follow_include : forall g h0 h f ns, followed h0 g -> includes g h -> ~ url h -> schema_file_of h f ->
      target_namespace f ns -> followed h f
  | follow_import : forall g h0 h f ns, followed h0 g -> imports_for g ns h -> ~ url h -> schema_file_of h f -> followed h f.

  (** The linkbases of the followed schemas *)
  Definition followed_linkbase (k : kind) (h : string) (l : linkbase_file) : Prop :=
    exists h0 g, followed h0 g /\ names_linkbase g k h /\ ~ url h /\ linkbase_file_of k h l.

  (** The document named [h] is given as the one for the namespace [ns] *)
  Inductive claims : string -> string -> Prop :=
  | claim_ref : forall h f ns, refers_to refs h -> ~ url h -> schema_file_of h f -> target_namespace f ns -> claims ns h
  | claim_include : forall g h0 h f ns, followed h0 g -> includes g h -> ~ url h -> schema_file_of h f ->
      target_namespace f ns -> claims ns h
  | claim_import : forall g h0 h ns, followed h0 g -> imports_for g ns h -> claims ns h.

  (** One schema names another one *)
  Definition points_to (h h' : string) : Prop :=
    exists f f', schema_file_of h f /\ schema_file_of h' f' /\ ~ url h' /\
      ((includes f h' /\ exists ns, target_namespace f' ns) \/ exists ns, imports_for f ns h').
  (** Every chain of references from [h] ends *)
  Definition ends (h : string) : Prop := Acc (fun h' h => points_to h h') h.
  (** ... and none from the instance is endless *)
  Definition acyclic : Prop := forall h f, followed h f -> ends h.
End Reachable.

(** ** What a folder holds *)
Definition holds_linkbases (fd : HydrateModel.folder) (k : kind) : list (string * linkbase_file) :=
  match k with
  | Presentation => HydrateModel.fdPresentation fd
  | Definitional => HydrateModel.fdDefinition fd
  | Calculation => HydrateModel.fdCalculation fd
  | Labels => HydrateModel.fdLabel fd
  end.

(** The world's files as the references of a folder name them *)
Definition url_of (w : files) (h : string) : Prop := is_url w h = true.
Definition schema_of (w : files) (dir h : string) (f : schema_file) : Prop :=
  read_schema w (PathModel.join [dir; h]) = Some f.
Definition linkbase_of (w : files) (dir : string) (k : kind) (h : string) (l : linkbase_file) : Prop :=
  read_linkbase w k (PathModel.join [dir; h]) = Some l.

(** ** The entry point *)
Definition has_suffix (s e : string) : Prop := exists stem, s = stem ++ e.
Definition inline_name (name : string) : Prop := has_suffix name ".xhtml" \/ has_suffix name ".htm".
Definition instance_name (name : string) : Prop := has_suffix name ".xbrl" \/ has_suffix name ".xml".

(** The file of the instance: for an inline document, the one extracted from
    it beforehand *)
Definition entry_file (name file : string) : Prop :=
  (inline_name name /\ file = name ++ ".xml") \/ (instance_name name /\ file = name).
Definition entry_instance (w : files) (dir name file : string) (i : InstanceModel.instance_file) : Prop :=
  entry_file name file /\ read_instance w (PathModel.join [dir; file]) = Some i /\
  (inline_name name -> exists data doc, read_file w (PathModel.join [dir; name]) = Some data /\
     decode_ixbrl w data = Some doc /\ exists_file w (PathModel.join [dir; file]) = true).
