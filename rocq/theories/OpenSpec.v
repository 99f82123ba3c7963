(** * OpenSpec: folders that have to be served *)
From Coq Require Import String List.
From Verif Require Import GoBase GoSpec AttrModel XmlModel XmlSpec DiscoverSpec LoadModel LoadSpec PathModel ReportModel ServerModel ServerSpec.
Import ListNotations.
Local Open Scope string_scope.

(** The folder has an entry file that says where its report is; the report is there and so is
    all that it needs (see C118): every context has an entity and no typed member, and the facts of an
    inline document have a name and a context. The unit registry can be read. *)
Definition sound (w : world) (id : string) : Prop :=
  exists name file root, entry_named w id name /\ entry_at (w_disk w) (folder_at w id) root name file /\ simple_contexts root /\
    (inline_name name -> forall data q, d_file (w_disk w) (PathModel.join [folder_at w id; name]) = Some data ->
       d_html (w_disk w) data = Some q -> declared_at_html q /\ conforming_facts q /\ new_name_provider (attributes q) <> Panic) /\
    exists u, o_units (w_out w) = Ok u.
