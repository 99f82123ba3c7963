(** * TableGridSpec: a fact in the sums and in the dimensions of a network, and the fact by itself *)
From Coq Require Import String List.
From Verif Require Import GoBase GoSpec InstanceModel FactModel HydrateModel GridModel GridSpec CalcModel DefModel CatalogModel ReportModel ResponseSpec EndToEndSpec ReportSpec
  SteadySpec SteadyCalcSpec TableFactSpec.
Import ListNotations.
Local Open Scope string_scope.

(** the rows of a sum are its terms and then the sum itself; those of a root of the dimensions are the root and then its items *)
Definition sum_rows (s : summation_item) : list string := map ccHref (siContributing s) ++ [siHref s].
Definition root_rows (r : root_domain) : list string := rdHref r :: map ilHref (rdItems r).
(** a network [v] and the answer [v'] about a fact agree in the sums and in the dimensions: if the context is about the subject of
    the network, and the concept is declared and not abstract, then every row of the concept has a cell of the fact *)
Definition grids_agree (w : outside) (h : hydratable) (ref : string) (v v' : value) : Prop :=
  exists n i s sums roots g href period shown, hInstances h = [(n, i)] /\ the_member v "Subject" (subject_value s) /\
    calculation_of sums v /\ definition_of roots g v /\ fact_answer href period shown v' /\
    (about i ref (sbEntity s) -> reportable (concept_for w h) href ->
     (forall l x periods k, sums = Some l -> In (x, periods) l -> nth_error (sum_rows x) k = Some href -> in_row k (siFacts x) periods period shown) /\
     (forall x periods k, In (x, periods) roots -> nth_error (root_rows x) k = Some href -> in_row k (rdFacts x) periods period shown)).
