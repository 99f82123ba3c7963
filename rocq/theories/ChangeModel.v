(** * ChangeModel: the server while the files change

    ServerModel takes the files as they are at one time. Nothing keeps them from changing
    while the server runs: other programs write the folders and the global files, and each
    call that pkg/cache makes (cache.go:51, 93, 119, 141, 145) reads them anew. *)
From Coq Require Import String List.
From Verif Require Import GoBase CacheModel ServerModel.
From Verif Require SchemaModel InstanceModel HydrateModel DiscoverModel.

(** [W] are the worlds that there are while the server runs. Each call finds one of them; a call
    that goes on while a file is being replaced is taken to find the world before or after
    (a simplification; the theorems about any [services] do not need it). *)
Definition services_over (W : world -> Prop) :
    CacheModel.services found report SchemaModel.schema (list (string * list (string * string))) InstanceModel.registry :=
  let some {A : Type} (f : CacheModel.services found report SchemaModel.schema (list (string * list (string * string))) InstanceModel.registry -> A -> Prop) :=
    fun a => exists w, W w /\ f (services_of w) a in
  CacheModel.Services
    (fun id => some (fun sv => discover sv id)) (fun f => some (fun sv => hydrate sv f))
    (fun f => exists w, W w /\ hydrate_dies (services_of w) f)
    (fun r => Found (HydrateModel.hFolder (rp_hydratable r)) (rp_bytes r)) (fun f => HydrateModel.fdEntry (fo_folder f)) fo_bytes
    (fun r => some (fun sv => catalog sv r)) (fun slug r => some (fun sv => renderable sv slug r))
    (fun slug r => exists w, W w /\ renderable_dies (services_of w) slug r)
    (fun name ref r => some (fun sv => expressable sv name ref r))
    (fun url => some (fun sv => global_schema sv url)) (some (fun sv => entity_names sv)) (some (fun sv => unit_registry sv)).
