(** * ServerSpec: what the answers of a running server have to do with the files on disk *)
From Coq Require Import String List.
From Verif Require Import GoBase GoSpec PathModel ImageModel ImageSpec AttrModel SchemaSpec HydrateModel XmlModel XmlSpec DiscoverSpec LoadModel LoadSpec
  ReportModel CacheModel CacheSpec ServerModel.
Import ListNotations.
Local Open Scope string_scope.

(** [x] is a context called [r], of an entity whose identifier is not blank *)
Definition context_called (x : tree) (r : string) : Prop :=
  named xbrli "context" x /\ required (attributes x) "id" r /\
  exists en idt t sch, first_child xbrli "entity" x en /\ first_child xbrli "identifier" en idt /\
    In (XmlText t) (kids idt) /\ t <> "" /\ attr_val (attributes idt) "scheme" sch.
(** every fact refers to a context of the document *)
Definition contexts_present (root : tree) : Prop :=
  forall x r, In x (kids root) -> required (attributes x) "contextRef" r -> exists c, In c (kids root) /\ context_called c r.

Section World.
  Variable w : world.

  Definition folder_at (id : string) : string := PathModel.join [w_wd w; "folders"; id].
  (** the file "_" of the folder says that its entry point is [name] *)
  Definition entry_named (id name : string) : Prop :=
    exists b, d_file (w_disk w) (PathModel.join [w_wd w; "folders"; id; "_"]) = Some b /\ w_entry w b = Ok name.
  (** [h] is a report loaded from the files of the folder (see C114 to C118) *)
  Definition report_of (id name : string) (h : hydratable) : Prop :=
    entry_named id name /\
    exists images sh, orders sh /\ loaded (w_disk w) (folder_at id) name images (w_float w) sh (w_tokens w) (o_units (w_out w)) h.

  (** a directory as an operating system lists it *)
  Definition proper (fs : list dir_entry) : Prop :=
    NoDup (map deName fs) /\ forall f, In f fs -> deName f <> "." /\ free_of "/" (deName f).
  (** [b] is the file [name] of the folder: as it is when the folder has no images, else
      with the images inside *)
  Definition document_sent (id name b : string) : Prop :=
    exists data, d_file (w_disk w) (PathModel.join [folder_at id; name]) = Some data /\
      (w_list w (folder_at id) = None -> b = data) /\
      (forall fs, w_list w (folder_at id) = Some fs -> proper fs ->
         ((forall n u, ~ folder_image (w_detect w) (w_base64 w) fs n u) -> b = data) /\
         (b = data \/
          exists images t t', (forall n u, In (n, u) images <-> folder_image (w_detect w) (w_base64 w) fs n u) /\
            w_parse w data = Some t /\ inlined images t t' /\ w_render w t' = Some b)).

  (** [s] is a state the server gets into, whatever was asked and however the requests
      were interleaved. The requests are as they usually are (see CacheSpec) and the hash does not collide on
      the facts asked for. *)
  Definition history (s : state report SchemaModel.schema (list (string * list (string * string))) InstanceModel.registry) : Prop :=
    exists dry injected, run (services_of w) dry injected (initial []) s /\
      (forall q, In q (requests s) -> usual q) /\ no_collision (requests s).
  (** The schemas of the folder do not refer to each other in a circle. *)
  Definition no_circles (id : string) : Prop :=
    forall name file root, entry_named id name -> entry_at (w_disk w) (folder_at id) root name file -> no_cycles (w_disk w) (folder_at id) root.
  (** The facts of the folder's instance refer to its contexts, and the facts of its inline
      document, if it has one, have a name and a context. *)
  Definition harmless (id : string) : Prop :=
    forall name, entry_named id name ->
      (forall file root, entry_at (w_disk w) (folder_at id) root name file -> no_homonyms root /\ contexts_present root) /\
      (forall data q, inline_name name -> d_file (w_disk w) (PathModel.join [folder_at id; name]) = Some data ->
         d_html (w_disk w) data = Some q -> declared_at_html q /\ conforming_facts q).
  Definition folder_of_request (q : request) : option string :=
    match q with RCatalog id | RRender id _ | RFact id _ _ => Some id | _ => None end.
End World.
