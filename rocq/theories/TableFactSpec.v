(** * TableFactSpec: a fact in a table, and the fact by itself *)
From Coq Require Import String List.
From Verif Require Import GoBase GoSpec InstanceModel FactModel HydrateModel GridModel GridSpec CatalogModel ReportModel ResponseSpec EndToEndSpec ReportSpec SteadySpec.
Import ListNotations.
Local Open Scope string_scope.

(** the answer about a fact: its concept, the period of its context in each language, and what is shown in each language *)
Definition fact_answer (href : string) (period : list (string * string)) (shown : list (string * fact_expression)) (v : value) : Prop :=
  the_member v "Href" (shows href) /\
  the_member v "Context" (fun u => the_member u "Period" (languages period)) /\
  the_member v "Expression" (fact_value shown).
(** the first context of this id is about the entity *)
Definition about (i : instance) (ref : string) (e : entity) : Prop :=
  exists c, first_such (fun c => ctxID c = ref) (iContexts i) c /\ ctxScheme c ++ "/" ++ ctxIdentifier c = stringify e.
(** row [k] of the table has a cell that shows the same as the answer, in a column of the same period; without a language,
    as both always have it *)
Definition in_row (k : nat) (facts : list (list (list (string * fact_expression)))) (periods : list string)
  (period : list (string * string)) (shown : list (string * fact_expression)) : Prop :=
  exists j x t p, cell facts k j x /\ In ("Unlabelled", t) x /\ In ("Unlabelled", t) shown /\
    nth_error periods j = Some p /\ In ("Unlabelled", p) period.
(** a network [v] and the answer [v'] about a fact agree: if the context is about the subject of the network, and the concept is
    declared and not abstract, then in every row of the concept there is a cell of the fact *)
Definition agree (w : outside) (h : hydratable) (ref : string) (v v' : value) : Prop :=
  exists n i s rows members void facts periods href period shown, hInstances h = [(n, i)] /\
    the_member v "Subject" (subject_value s) /\ presentation_of rows members void facts periods v /\ fact_answer href period shown v' /\
    (about i ref (sbEntity s) -> reportable (concept_for w h) href ->
     forall k row, nth_error rows k = Some row -> ilHref row = href -> in_row k facts periods period shown).
