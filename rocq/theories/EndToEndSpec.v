(** * EndToEndSpec: what a folder on disk says, and where an answer shows it *)
From Coq Require Import String List Permutation.
From Verif Require Import GoBase GoSpec SchemaModel InstanceModel CatalogModel XmlModel XmlSpec LoadModel LoadSpec.
From Verif Require Import CatalogSpec WebModel WebSpec ResponseSpec.
Import ListNotations.
Local Open Scope string_scope.

(** the role types of the schemas a report leads to: title and role URI *)
Definition role_declared (d : disk) (dir : string) (root : tree) (r : rset) : Prop :=
  exists h t x rt, followed_at d dir root h t /\ in_appinfo t x /\ role_at x rt /\
    rsRole r = rRoleURI rt /\ rsTitle r = rDefinition rt.
(** the entities of the contexts of an instance *)
Definition entity_reported q content (root : tree) (e : entity) : Prop :=
  exists x c, In x (kids root) /\ context_at q content (attributes root) x c /\
    eScheme e = ctxScheme c /\ eScheme e <> "" /\ eChar e = ctxIdentifier c.

(** [v] has the member [k], whose value has the shape *)
Definition has (v : value) (k : string) (R : value -> Prop) : Prop := exists x, part v [k] x /\ R x.
(** a successful answer whose body is JSON with the shape *)
Definition answers (x : option response) (R : value -> Prop) : Prop :=
  exists p v, x = Some p /\ status p = 200 /\ reads_as (body p) v /\ R v.
Definition entity_value (e : entity) : value -> Prop :=
  object [("Scheme", shows (eScheme e)); ("CharData", shows (eChar e))].
