(** * LangSpec: the label roles and languages among which a reader can choose *)
From Coq Require Import String List.
From Verif Require Import GoSpec LinkbaseModel InstanceModel SchemaModel LabelSpec GridModel GridSpec CalcSpec DefModel DefSpec.
Import ListNotations.
Local Open Scope string_scope.

(** the labels hold a text in a language *)
Definition speaks (p : list (string * list (string * string))) (lang : string) : Prop :=
  exists role text, holds p role lang text.
(** the dimensions and the explicit members a context names *)
Definition mentions (c : context) (h : string) : Prop :=
  exists d, (d = ctxSegment c \/ d = ctxScenario c) /\
    ((exists e, In e (dcExplicit d) /\ (h = emDimHref e \/ h = emMemHref e)) \/
     (exists t, In t (dcTyped d) /\ h = tmDimHref t)).
(** [h] heads a row, or is a dimension or an explicit member of a column, of a grid with the
    given rows *)
Definition row_or_column (concept_of : string -> option concept) (insts : list instance) (entity : string)
  (rows : list string) (h : string) : Prop :=
  In h rows \/ exists i c, In i insts /\ reported_in concept_of i entity rows c /\ mentions c h.
(** any two of the concepts that have a label role have it in the same languages *)
Definition same_languages (lbl : string -> list (string * list (string * string))) (S : string -> Prop) : Prop :=
  forall h h' role lang text, S h -> S h' -> holds (lbl h) role lang text -> has_role role (lbl h') ->
    exists text', holds (lbl h') role lang text'.

(** ** Calculation grids *)
(** the rows of the item of [source]: the concept and those it sums up which exist *)
Definition sum_rows (concept_of : string -> option concept) (role : string) (lb : linkbase carc) (k : link carc)
  (source : string) (rows : list string) : Prop :=
  forall x, In x rows <->
    x = source \/ exists a, In a (lArcs k) /\ arc_from role lb source a /\ locates lb role (caTo a) x /\ concept_of x <> None.
Definition sums (concept_of : string -> option concept) (insts : list instance) (entity role : string)
  (lb : linkbase carc) (k : link carc) (h : string) : Prop :=
  exists source rows, (exists a, In a (lArcs k) /\ arc_from role lb source a) /\
    sum_rows concept_of role lb k source rows /\ row_or_column concept_of insts entity rows h.

(** ** Definition grids *)
(** the root, the items, the dimensions, the default members and the columns of a root domain *)
Definition in_root_domain (concept_of : string -> option concept) (insts : list instance) (entity : string)
  (rd : root_domain) (h : string) : Prop :=
  row_or_column concept_of insts entity (rdHref rd :: map ilHref (rdItems rd)) h \/
  (exists d, In d (rdDimensions rd) /\ lbHref d = h) \/
  (exists row domain e, In row (rdDomains rd) /\ In domain row /\ In e domain /\ emDefault e = true /\ emHref e = h).
(** a dimension of a link of the network *)
Definition network_dimension (role : string) (lbs : list (linkbase darc)) (h : string) : Prop :=
  exists links lb k lb', network_links role lbs links /\ In (lb, k) links /\ In lb' lbs /\ dimension_of role lb' k h.
