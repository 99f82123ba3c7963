(** * AddressSpec: roles that are declared under one title *)
From Coq Require Import String List.
From Verif Require Import SchemaModel CatalogModel CatalogSpec.

(** no role is declared with two definitions *)
Definition one_title (schemas : list schema) : Prop :=
  forall r r', declared schemas r -> declared schemas r' -> rsRole r = rsRole r' -> rsTitle r = rsTitle r'.
