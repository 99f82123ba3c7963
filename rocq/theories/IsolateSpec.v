(** * IsolateSpec: the files of one folder *)
From Coq Require Import String List.
From Verif Require Import GoBase GoSpec PathSpec PathModel ImageModel AttrModel DiscoverModel DiscoverSpec XmlModel XmlSpec LoadModel LoadSpec
  ServerModel ServerSpec.
Import ListNotations.
Local Open Scope string_scope.

(** the world [w] with other files in the file system: what os.ReadFile, os.Stat and
    os.ReadDir say *)
Definition with_files (w : world) (file : string -> option string) (stat : string -> bool)
    (list_dir : string -> option (list dir_entry)) : world :=
  let d := w_disk w in
  World (Disk (d_url d) file stat (d_xml d) (d_html d) (d_global d)) (w_wd w) (w_entry w) list_dir
    (w_detect w) (w_base64 w) (w_parse w) (w_render w) (w_float w) (w_tokens w) (w_out w).

(** the path leads into the folder *)
Definition in_folder (w : world) (id path : string) : Prop :=
  exists folder place, PathSpec.leads_to (folder_at w id) folder /\ PathSpec.leads_to path place /\ inside folder place.

(** [w'] is [w] with other files, but the same files in the folder *)
Definition same_folder (w w' : world) (id : string) : Prop :=
  exists file stat list_dir, w' = with_files w file stat list_dir /\
    forall path, in_folder w id path ->
      file path = d_file (w_disk w) path /\ stat path = d_stat (w_disk w) path /\ list_dir path = w_list w path.

(** a reference to the web, or one that does not go up *)
Definition tame (w : world) (h : string) : Prop := d_url (w_disk w) h = true \/ no_parent h.
(** No reference in the documents of the report goes up. *)
Definition confined (w : world) (id : string) : Prop :=
  forall name, entry_named w id name -> no_parent name /\
    forall file root, entry_at (w_disk w) (folder_at w id) root name file ->
      (forall h, ref_at root h -> tame w h) /\
      forall h0 g, followed_at (w_disk w) (folder_at w id) root h0 g ->
        (forall h, include_at g h -> tame w h) /\ (forall ns h, import_at g ns h -> tame w h) /\
        (forall k h, linkbase_ref_at g k h -> tame w h).
