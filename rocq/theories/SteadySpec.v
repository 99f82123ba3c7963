(** * SteadySpec: what stays the same when a network is computed again *)
From Coq Require Import String List.
From Verif Require Import GoBase AttrModel SchemaModel LinkbaseModel InstanceModel HydrateModel LabelModel FactModel GridModel CalcModel DefModel
  ResponseSpec EndToEndSpec ReportSpec.
Import ListNotations.
Local Open Scope string_scope.

(** ** Reports of which every map is asked for one thing only *)

(** no two of them *)
Definition at_most_one {A} (P : A -> Prop) (l : list A) : Prop := ForallOrdPairs (fun x y => ~ (P x /\ P y)) l.
(** a linkbase that has a locator for the concept *)
Definition labels_concept (href : string) (lb : label_linkbase) : Prop :=
  exists ll l, In ll (llLinks lb) /\ In l (lnLocs ll) /\ locHref l = href.
(** a linkbase that draws the role *)
Definition draws {A} (role : string) (lb : linkbase A) : Prop :=
  (exists rr, In rr (lbRoleRefs lb) /\ rrRoleURI rr = role) /\ exists k, In k (lbLinks lb) /\ lRole k = role.

(** One instance; no concept is labelled by two linkbases; every typed member of the contexts has one text. *)
Record plain_report (h : hydratable) : Prop := {
  pr_instance : exists n i, hInstances h = [(n, i)];
  pr_labels : forall href, at_most_one (labels_concept href) (map snd (hLabel h));
  pr_typed : forall n i c t, In (n, i) (hInstances h) -> In c (iContexts i) ->
    In t (dcTyped (ctxSegment c) ++ dcTyped (ctxScenario c)) -> length (tmMap t) <= 1 }.

(** ** The parts of a network that are compared *)

(** the rows with their labels; the dimensions and the members of the columns; the cells; and the periods of the
    columns, as written *)
Definition header_of (period : string) (u : value) : Prop := has u "Unlabelled" (shows period).
Definition table_of (members : list (list member_cell)) (void : list void_cell) (facts : list (list (list (string * fact_expression))))
  (periods : list string) (u : value) : Prop :=
  the_member u "ContextualMemberGrid" (list_of (list_of member_value) members) /\
  the_member u "VoidQuadrant" (list_of dimension_value void) /\
  the_member u "FactualQuadrant" (list_of (list_of fact_value) facts) /\
  the_member u "PeriodHeaders" (list_of header_of periods).
Definition presentation_of (rows : list indented_label) members void facts periods (v : value) : Prop :=
  the_member v "PGrid" (fun u => the_member u "IndentedLabels" (list_of (row_value "Indentation") rows) /\ table_of members void facts periods u).
(** the footnotes of a table, and the numbers of those of each cell; null if there is no cell *)
Definition notes_of (grid : list (list (list nat))) (notes : list string) (u : value) : Prop :=
  the_member u "FootnoteGrid" (match grid with [] => null | _ => list_of (list_of (list_of count)) grid end) /\
  the_member u "Footnotes" (match grid with [] => null | _ => list_of shows notes end).
(** the same footnotes in any order, and as many for each cell; of at most one footnote, the same numbers too *)
Definition same_notes (grid grid' : list (list (list nat))) (notes notes' : list string) : Prop :=
  Permutation notes notes' /\ Forall2 (Forall2 (fun ns ns' => length ns = length ns')) grid grid' /\
  (length notes <= 1 -> notes = notes' /\ grid = grid').

(** of a root of the dimensions: its concept and rows, the members that its dimensions may take, and its table *)
Definition root_of (r : root_domain * list string) (u : value) : Prop :=
  the_member u "Href" (shows (rdHref (fst r))) /\
  the_member u "Label" (labels (rdLabel (fst r))) /\
  the_member u "PrimaryItems" (list_of (row_value "Level") (rdItems (fst r))) /\
  the_member u "EffectiveDomainGrid" (list_of (list_of (list_of domain_member_value)) (rdDomains (fst r))) /\
  the_member u "EffectiveDimensions" (list_of concept_with_labels (rdDimensions (fst r))) /\
  table_of (rdMembers (fst r)) (rdVoid (fst r)) (rdFacts (fst r)) (snd r) u.
Definition definition_of (roots : list (root_domain * list string)) (d : drs) (v : value) : Prop :=
  the_member v "DGrid" (fun u => the_member u "RootDomains" (list_of root_of roots) /\
    the_member u "DRS" (fun x => the_member x "Nodes" (list_of concept_with_labels (drsNodes d)) /\
                                 the_member x "Links" (list_of drs_link_value (drsLinks d)))).
