(** * ListedSpec: what it is for a catalog to list a role and an entity *)
From Coq Require Import String List.
From Verif Require Import GoBase CatalogModel XmlSpec ResponseModel ResponseSpec ReportSpec.
Local Open Scope string_scope.

(** the lists of entities and of roles the catalog shows have the entity [s] and the role [r] *)
Definition lists (v : ResponseSpec.value) (r : rset) (s : subject) : Prop :=
  exists subjects sets, the_member v "Subjects" (list_of subject_value subjects) /\
    the_member v "RelationshipSets" (list_of relationship_set sets) /\ In s subjects /\ In r sets.
