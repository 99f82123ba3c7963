(** * KeptSpec: what the server keeps in memory *)
From Coq Require Import String List.
From Verif Require Import GoBase CatalogSpec CacheModel CacheSpec.
Import ListNotations.
Local Open Scope string_scope.

Section Kept.
  Context {folder hyd schema names utr : Type}.
  Notation state := (state hyd schema names utr).

  (** the number of things kept: answers, reports and global files *)
  Definition kept_count (s : state) : nat := length (stored s).
  (** something is kept under this key *)
  Definition keeps (s : state) (key : string) : Prop := exists v, In (key, v) (stored s).
End Kept.

(** the folder a resource is of *)
Definition folder_asked (a : resource) (id : string) : Prop :=
  a = ResFolder id \/ a = ResCatalog id \/ (exists slug, a = ResRender id slug) \/ exists name ref, a = ResFact id name ref.
