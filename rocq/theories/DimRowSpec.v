(** * DimRowSpec: the order of the dimension rows of a grid, read as JSON *)
From Coq Require Import String List Sorting.Sorted.
From Verif Require Import GoBase LinkbaseModel InstanceModel GridSpec XmlSpec EndToEndSpec ResponseSpec ReportSpec ColumnSpec.
Import ListNotations.
Local Open Scope string_scope.

(** a row of its own for a dimension with explicit members: at the margin, without a typed domain *)
Definition margin_row (dim : string) (u : value) : Prop :=
  the_member u "Dimension" (href_shown dim) /\ absent u "TypedDomain" /\ the_member u "Indentation" (count 0).
(** a row for typed members: indented *)
Definition indented_row (u : value) : Prop := exists n, 0 < n /\ the_member u "Indentation" (count n).
(** first the rows of these dimensions, in this order, then rows for typed members *)
Definition margin_first (dims : list string) (v : value) : Prop :=
  exists us vs, v = JArr (us ++ vs) /\ Forall2 margin_row dims us /\ Forall indented_row vs.

(** the dimension has an explicit member in the segment, or in the scenario, of a column *)
Definition in_segment (cols : list context) (dim : string) : Prop :=
  dim <> "" /\ exists c e, In c cols /\ In e (dcExplicit (ctxSegment c)) /\ emDimHref e = dim.
Definition in_scenario (cols : list context) (dim : string) : Prop :=
  dim <> "" /\ exists c e, In c cols /\ In e (dcExplicit (ctxScenario c)) /\ emDimHref e = dim.

(** [v] is a grid with these columns *)
Definition dimensions_in_order (tree : list arc -> string -> rarc) (v : value) (cols : list context) : Prop :=
  exists dims, the_member v "VoidQuadrant" (margin_first dims) /\
    (** no row's dimension comes before that of a row above it, byte by byte *)
    StronglySorted (fun a b => String.ltb b a = false) dims /\
    (** there are rows for no other dimensions, and if the typed members are simple, for all of them *)
    (forall dim, In dim dims -> in_segment cols dim \/ in_scenario cols dim) /\
    ((forall c t, In c cols -> In t (typed_of c) -> simple tree t) ->
     forall dim, in_segment cols dim \/ in_scenario cols dim -> In dim dims) /\
    (** no dimension has more rows than one for segments and one for scenarios *)
    (forall dim, count_occ string_dec dims dim <= 2) /\
    (forall dim, ~ (in_segment cols dim /\ in_scenario cols dim) -> count_occ string_dec dims dim <= 1).
