(** * RouterSpec: the addresses of the answers *)
From Coq Require Import String List.
From Verif Require Import GoBase GoSpec PathSpec.
Import ListNotations.
Local Open Scope string_scope.

(** a part of an address between slashes *)
Definition part_name (x : string) : Prop := x <> "" /\ free_of "/" x.

(** An address without detours: a slash, then names (not . or ..) with single slashes
    between them, and possibly a slash at the end. *)
Definition tidy (path : string) : Prop :=
  exists ns, Forall entry_name_ok ns /\
    (path = "/" ++ String.concat "/" ns \/ (ns <> [] /\ path = "/" ++ String.concat "/" ns ++ "/")).

Inductive destination :=
| CatalogOf (id : string)
| FactsOf (id : string)
| RenderableOf (id hash : string)
| Elsewhere.

(** what a GET of an address is for *)
Inductive addressed (path : string) : destination -> Prop :=
| ad_catalog id : part_name id -> path = "/folders/" ++ id -> addressed path (CatalogOf id)
| ad_facts id : part_name id -> path = "/folders/" ++ id ++ "/facts" -> addressed path (FactsOf id)
| ad_renderable id hash : part_name id -> part_name hash -> hash <> "facts" ->
    path = "/folders/" ++ id ++ "/" ++ hash -> addressed path (RenderableOf id hash)
| ad_elsewhere : (forall id, part_name id -> path <> "/folders/" ++ id) ->
    (forall id hash, part_name id -> part_name hash -> path <> "/folders/" ++ id ++ "/" ++ hash) ->
    addressed path Elsewhere.
