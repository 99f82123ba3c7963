(** * ReportSpec: what a grid, read as JSON, shows of the facts of a report *)
From Coq Require Import String List Permutation.
From Verif Require Import GoBase GoSpec AttrModel SchemaModel SchemaSpec InstanceModel InstanceSpec LabelSpec FactModel FactSpec GridSpec
  DiscoverModel XmlModel XmlSpec LoadModel LoadSpec.
From Verif Require Import EndToEndSpec ResponseSpec.
Import ListNotations.
Local Open Scope string_scope.

(** ** Places in a JSON value *)

(** [v] has exactly one member [k], and its value has the shape *)
Definition the_member (v : value) (k : string) (R : value -> Prop) : Prop :=
  exists x, R x /\ forall y, part v [k] y <-> y = x.
(** the [n]th element of the array *)
Definition the_item (v : value) (n : nat) (R : value -> Prop) : Prop :=
  exists l x, v = JArr l /\ nth_error l n = Some x /\ R x.

(** ** What is written in the report *)
Section Written.
  Variable d : disk.
  Variable dir : string.
  Variable root : tree.

  (** no two concepts of a schema share an id, and no schema's name has a '#' *)
  Definition identified : Prop :=
    forall h t cs, known d dir root h t -> image_of (concept_at t h) (kids t) cs -> free_of "#" h /\ unique_ids cs.
  (** the facts of the instance, by id *)
  Definition facts_written (facts : list fact) : Prop :=
    exists fs, image_of (fun x fa => fact_at (declared d dir root) x fa /\ forall l, In l own_names -> ~ locally_named l x) (kids root) fs /\
      stably_sorted (fun a b => String.ltb (fID a) (fID b)) fs facts.
  (** the contexts of the instance, by id *)
  Definition contexts_written (q : qenv) content (contexts : list context) : Prop :=
    exists cs, image_of (context_at q content (attributes root)) (kids root) cs /\
      stably_sorted (fun a b => String.ltb (ctxID a) (ctxID b)) cs contexts.
  (** the concept of a fact *)
  Definition reports (fa : fact) (c : concept) : Prop :=
    exists x ns l, In x (kids root) /\ fact_at (declared d dir root) x fa /\ named ns l x /\ declared d dir root ns l (fHref fa) c.
End Written.

(** ** A grid *)
Section Grid.
  Variable facts : list fact.
  Variable contexts : list context.
  Variable concept_is : fact -> concept -> Prop.
  (** the entity the grid is about *)
  Variable subject : string.
  (** how numbers, units and HTML are written (see FactSpec) *)
  Variable reader : renv -> Prop.

  (** a cell that shows the fact: "nil", or the fact in each of the languages *)
  Definition fact_shown (c : concept) (fa : fact) (u : value) : Prop :=
    (fIsNil fa = true /\ fact_value [("Unlabelled", FactExpression "" "nil" "" "")] u) \/
    (fIsNil fa = false /\ exists e m, reader e /\ re_concept e (fHref fa) = Some c /\ fact_value m u /\ is_map m /\
       In "Unlabelled" (map fst m) /\
       forall lang x, In (lang, x) m -> In lang ["en - english"; "es - español"; "Unlabelled"] /\
         ((lang = "es - español" /\ shown_fact " " e fa x) \/ (lang <> "es - español" /\ shown_fact "," e fa x))).
  Definition blank (u : value) : Prop := fact_value [("Unlabelled", FactExpression "" "" "" "")] u.

  (** [v] is a grid with a row for each of these concepts and a column for each of these contexts *)
  Record grid_shows (v : value) (rows : list string) (cols : list context) : Prop := {
    (** the columns: the contexts, about the subject, of the facts on the row concepts that are not abstract *)
    gs_columns : forall c, In c cols <-> subject = ctxScheme c ++ "/" ++ ctxIdentifier c /\
      exists fa k, In fa facts /\ In (fHref fa) rows /\ concept_is fa k /\ cAbstract k = false /\
        first_such (fun c => ctxID c = fContextRef fa) contexts c;
    gs_once : NoDup (map ctxID cols);
    gs_headers : the_member v "PeriodHeaders"
      (list_of (fun c u => exists p, period_of c p /\ has u "Unlabelled" (shows p)) cols);
    (** as many cells as rows and columns *)
    gs_size : the_member v "FactualQuadrant" (fun q => exists rs, q = JArr rs /\ (cols = [] -> rs = []) /\
      (cols <> [] -> length rs = length rows) /\ forall r, In r rs -> exists us, r = JArr us /\ length us = length cols);
    (** the first fact of the row's concept and the column's context, or a blank *)
    gs_cell : forall i j href c, nth_error rows i = Some href -> nth_error cols j = Some c ->
      the_member v "FactualQuadrant" (fun q => the_item q i (fun r => the_item r j (fun u =>
        (exists fa k, first_such (is_fact_of href (ctxID c)) facts fa /\ concept_is fa k /\ fact_shown k fa u) \/
        ((forall fa, In fa facts -> ~ is_fact_of href (ctxID c) fa) /\ blank u)))) }.
End Grid.

(** ** The three kinds of grid *)
Definition href_shown (href : string) (u : value) : Prop := the_member u "Href" (shows href).
Definition presentation_rows (v : value) (rows : list string) : Prop :=
  the_member v "IndentedLabels" (list_of href_shown rows).
(** the root of the domain, then the primary items *)
Definition definition_rows (v : value) (rows : list string) : Prop :=
  exists r items, rows = r :: items /\ href_shown r v /\ the_member v "PrimaryItems" (list_of href_shown items).
(** the contributing concepts, then the total *)
Definition calculation_rows (v : value) (rows : list string) : Prop :=
  exists items r, rows = (items ++ [r])%list /\ href_shown r v /\ the_member v "ContributingConcepts" (list_of href_shown items).
