(** * OneLabelSpec: when a concept has one label *)
From Coq Require Import String List Permutation.
From Verif Require Import GoSpec LinkbaseModel LabelSpec.
Import ListNotations.
Local Open Scope string_scope.

(** the text a label linkbase gives a concept in a role and a language: that of its last label *)
Definition gives (lb : label_linkbase) (href role lang text : string) : Prop :=
  exists p, last_such (labels_as href role lang) (paths [lb]) p /\ text = llCharData (p_label p).
(** the linkbases do not contradict each other about a concept *)
Definition agreed (labels : list label_linkbase) (href : string) : Prop :=
  forall lb lb' role lang text text', In lb labels -> In lb' labels ->
    gives lb href role lang text -> gives lb' href role lang text' -> text = text'.
(** two packs show the same in every role and language *)
Definition same_pack (p p' : list (string * list (string * string))) : Prop :=
  (forall role lang text, holds p role lang text <-> holds p' role lang text) /\
  forall role, has_role role p <-> has_role role p'.
