(** * LoadSpec: which documents a report consists of, in terms of their XML *)
From Coq Require Import String List.
From Verif Require Import GoBase GoSpec AttrModel AttrSpec SchemaModel SchemaSpec LinkbaseModel LinkbaseSpec
  InstanceModel InstanceSpec HydrateModel PathModel DiscoverModel DiscoverSpec XmlModel XmlSpec LoadModel.
Import ListNotations.
Local Open Scope string_scope.

(** ** References *)

(** link:schemaRef in an instance *)
Definition ref_at (root : tree) (h : string) : Prop :=
  exists x, In x (kids root) /\ named link_ns "schemaRef" x /\ required (attributes x) "href" h.
(** xsd:include and xsd:import in a schema *)
Definition include_at (t : tree) (h : string) : Prop :=
  exists x, In x (kids t) /\ named xsd_ns "include" x /\ required (attributes x) "schemaLocation" h.
Definition import_at (t : tree) (ns h : string) : Prop :=
  exists x, In x (kids t) /\ named xsd_ns "import" x /\ required (attributes x) "namespace" ns /\
    required (attributes x) "schemaLocation" h.
Definition target_at (t : tree) (ns : string) : Prop := required (attributes t) "targetNamespace" ns.
(** link:linkbaseRef in an appinfo of a schema *)
Definition linkbase_ref_at (t : tree) (k : kind) (h : string) : Prop :=
  exists x, in_appinfo t x /\ named link_ns "linkbaseRef" x /\
    xlink (attributes x) "arcrole" "http://www.w3.org/1999/xlink/properties/linkbase" /\
    xlink (attributes x) "type" "simple" /\ xlink (attributes x) "role" (linkbase_role k) /\ xlink (attributes x) "href" h.

(** ** Documents *)
Section Documents.
  Variable d : disk.
  Variable dir : string.
  Variable root : tree.

  Definition document_of (path l : string) (t : tree) : Prop :=
    exists data, d_file d path = Some data /\ d_xml d data = Some t /\ locally_named l t.
  Definition local (h l : string) (t : tree) : Prop := d_url d h = false /\ document_of (join [dir; h]) l t.

  (** the schemas of the folder that the instance leads to *)
  Inductive followed_at : string -> tree -> Prop :=
  | fat_ref h t ns : ref_at root h -> local h "schema" t -> target_at t ns -> followed_at h t
  | fat_include h0 g h t ns : followed_at h0 g -> include_at g h -> local h "schema" t -> target_at t ns -> followed_at h t
  | fat_import h0 g h t ns : followed_at h0 g -> import_at g ns h -> local h "schema" t -> followed_at h t.
  Definition linkbase_at (k : kind) (h : string) (t : tree) : Prop :=
    exists h0 g, followed_at h0 g /\ linkbase_ref_at g k h /\ local h "linkbase" t.

  (** the document named [h] is given as the one for the namespace [ns] *)
  Inductive claims_at : string -> string -> Prop :=
  | cat_ref h t ns : ref_at root h -> local h "schema" t -> target_at t ns -> claims_at ns h
  | cat_include h0 g h t ns : followed_at h0 g -> include_at g h -> local h "schema" t -> target_at t ns -> claims_at ns h
  | cat_import h0 g h ns : followed_at h0 g -> import_at g ns h -> claims_at ns h.

  (** the schemas a reader knows: those of the folder, and those on the web *)
  Definition known (h : string) (t : tree) : Prop :=
    followed_at h t \/
    (d_url d h = true /\ exists data, d_global d h = Some data /\ d_xml d data = Some t /\ locally_named "schema" t).
  (** [c] is declared under that name in the document for the namespace [ns] *)
  Definition declared (ns l href : string) (c : concept) : Prop :=
    exists h t cs, claims_at ns h /\ h <> "" /\ known h t /\ image_of (concept_at t h) (kids t) cs /\
      first_such (fun c => cXMLName c = XName ns l) cs c /\ href = h ++ "#" ++ cID c.
  Definition one_claim (ns : string) : Prop := forall h h', claims_at ns h -> claims_at ns h' -> h = h'.

  (** one schema names another one *)
  Definition leads_to (h h' : string) : Prop :=
    exists g t, document_of (join [dir; h]) "schema" g /\ local h' "schema" t /\
      ((include_at g h' /\ exists ns, target_at t ns) \/ exists ns, import_at g ns h').
  (** no chain of references is endless *)
  Definition no_cycles : Prop := forall h t, followed_at h t -> Acc (fun h' h => leads_to h h') h.

  (** the instance the entry point [name] stands for *)
  Definition entry_at (name file : string) : Prop :=
    entry_file name file /\ document_of (join [dir; file]) "xbrl" root /\
    (inline_name name -> exists data q, d_file d (join [dir; name]) = Some data /\ d_html d data = Some q /\
       (exists x, descends q x /\ locally_named "html" x) /\ d_stat d (join [dir; file]) = true).
End Documents.

(** ** Facts *)
Definition fact_at (declared : string -> string -> string -> concept -> Prop) (x : tree) (f : fact) : Prop :=
  exists ns l, named ns l x /\ ns <> "" /\ l <> "" /\ (exists c, declared ns l (fHref f) c) /\
    required (attributes x) "contextRef" (fContextRef f) /\ optional (attributes x) "id" (fID f) /\
    optional (attributes x) "unitRef" (fUnitRef f) /\
    (exists p, decimals_attr (attributes x) p /\ fPrecision f = encoded p) /\
    flag (attributes x) "nil" (fIsNil f) /\ fXMLInner f = raw x.

(** every context has an entity, none a typed member *)
Definition simple_contexts (root : tree) : Prop :=
  forall x, In x (kids root) -> locally_named "context" x ->
    (exists y, In y (kids x) /\ locally_named "entity" y) /\
    (forall y z, In y (kids x) -> locally_named "scenario" y -> In z (kids y) -> ~ locally_named "typedMember" z) /\
    (forall e y z, In e (kids x) -> locally_named "entity" e -> In y (kids e) -> locally_named "segment" y -> In z (kids y) ->
       ~ locally_named "typedMember" z).
