(** * AskSpec: what the answer to a request for one fact, read as JSON, has to say *)
From Coq Require Import String List.
From Verif Require Import GoBase GoSpec AttrModel AttrSpec SchemaModel InstanceModel InstanceSpec LabelSpec FactModel GridSpec XmlModel XmlSpec LoadSpec.
From Verif Require Import ResponseSpec ReportSpec.
Import ListNotations.
Local Open Scope string_scope.

(** In the inline document, [k] is the name of a fact and denotes [n]; [ref] is the context of a
    fact. *)
Definition names_fact (q : qtree) (k : string) (n : xname) : Prop :=
  exists above x c, In (above, x) (walk [] q) /\ fact_element ["nonNumeric"; "nonFraction"] x /\ inline_fact_at above x k n c.
Definition names_context (q : qtree) (ref : string) : Prop :=
  exists above x k n, In (above, x) (walk [] q) /\ fact_element ["nonNumeric"; "nonFraction"] x /\ inline_fact_at above x k n ref.

(** [fa] is the first fact with that name and context in the instance *)
Definition fact_named (declared : string -> string -> string -> concept -> Prop) (root : tree) (facts : list fact)
  (n : xname) (ref : string) (fa : fact) (c : concept) : Prop :=
  declared (nspace n) (nlocal n) (fHref fa) c /\ first_such (is_fact_of (fHref fa) ref) facts fa /\
  exists x, In x (kids root) /\ named (nspace n) (nlocal n) x /\ fact_at declared x fa.

(** the concept, the value and the period of the fact *)
Record fact_answer (reader : renv -> Prop) (fa : fact) (c : concept) (ctx : context) (v : value) : Prop := {
  fa_href : the_member v "Href" (shows (fHref fa));
  fa_value : the_member v "Expression" (fact_shown reader c fa);
  fa_period : the_member v "Context" (fun u => the_member u "Period" (fun x =>
    exists p, period_of ctx p /\ the_member x "Unlabelled" (shows p))) }.

(** every fact refers to a context, and no context has a typed member *)
Definition simple (facts : list fact) (contexts : list context) : Prop :=
  (forall fa, In fa facts -> exists c, In c contexts /\ ctxID c = fContextRef fa) /\
  (forall c, In c contexts -> dcTyped (ctxSegment c) = [] /\ dcTyped (ctxScenario c) = []).
