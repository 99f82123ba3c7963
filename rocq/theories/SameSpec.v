(** * SameSpec: what the head of a network's page says *)
From Coq Require Import String List.
From Verif Require Import GoBase CatalogModel XmlSpec ResponseModel ResponseSpec ReportSpec.
Local Open Scope string_scope.

(** the page is about the role [r] and the entity [s] *)
Definition headed (r : rset) (s : subject) (v : ResponseSpec.value) : Prop :=
  the_member v "RelationshipSet" (relationship_set r) /\ the_member v "Subject" (subject_value s).
