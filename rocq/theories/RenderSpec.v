(** * RenderSpec: what a renderable offers *)
From Coq Require Import String List.
From Verif Require Import GoBase PeriodModel PeriodSpec FactModel GridModel CalcModel DefModel RenderModel.
Import ListNotations.
Local Open Scope string_scope.

(** the label roles and the languages one grid contributes; a grid that failed contributes none *)
Definition grid_roles {G} (r : res (G * list string * list string)) (x : string) : Prop :=
  exists g lr ln, r = Ok (g, lr, ln) /\ In x lr.
Definition grid_langs {G} (r : res (G * list string * list string)) (x : string) : Prop :=
  exists g lr ln, r = Ok (g, lr, ln) /\ In x ln.

(** a goroutine is in the middle of an append *)
Definition appending (t : thread) : Prop := thPC t <> AtStart.
Definition one_at_a_time (c : rconf) : Prop :=
  forall i j ti tj, nth_error (rcThreads c) i = Some ti -> nth_error (rcThreads c) j = Some tj ->
    appending ti -> appending tj -> i = j.
(** a run in which no two appends overlap *)
Inductive serial_run : rconf -> rconf -> Prop :=
| serial_refl c : serial_run c c
| serial_step c c' c'' : serial_run c c' -> rstep c' c'' -> one_at_a_time c'' -> serial_run c c''.

(** ** Period headers *)
(** the period headers of all grids of a renderable *)
Inductive period_header (g : grids) : list (string * string) -> Prop :=
| ph_p h : In h (pgPeriods (gdP g)) -> period_header g h
| ph_d r h : In r (dgRootDomains (gdD g)) -> In h (rdPeriods r) -> period_header g h
| ph_c s h : In s (gdC g) -> In h (siPeriods s) -> period_header g h.
(** a period of which nothing is before the slash (no date is written so) is read as the moment after it *)
Definition shown_moment (instant : string) (text : string -> string -> Prop) (iso out : string) : Prop :=
  exists r, iso = "/" ++ r /\ ((exists t, text r t /\ out = instant ++ t) \/ ((forall t, ~ text r t) /\ out = r)).
(** [text] shows the period [iso] in language [lang]; [es] is the external Spanish date text *)
Definition header_text (es : date -> option string) (lang iso text : string) : Prop :=
  (lang = "en - english" -> (exists r, iso = "/" ++ r) -> shown_moment "as of " us_date iso text) /\
  (lang = "es - español" -> (exists r, iso = "/" ++ r) ->
     shown_moment "al " (fun s t => exists d, is_date s d /\ es d = Some t) iso text) /\
  (lang = "en - english" -> (forall r, iso <> "/" ++ r) -> shown_english iso text) /\
  (lang = "es - español" -> (forall r, iso <> "/" ++ r) ->
     shown_spanish (fun s t => exists d, is_date s d /\ es d = Some t) iso text) /\
  (lang <> "en - english" -> lang <> "es - español" -> text = iso).

(** ** Fact cells *)
(** the cells of all grids *)
Inductive fact_cell (g : grids) : list (string * fact_expression) -> Prop :=
| fc_p row c : In row (pgFacts (gdP g)) -> In c row -> fact_cell g c
| fc_d r row c : In r (dgRootDomains (gdD g)) -> In row (rdFacts r) -> In c row -> fact_cell g c
| fc_c s row c : In s (gdC g) -> In row (siFacts s) -> In c row -> fact_cell g c.
(** a cell without a fact, or with a nil fact *)
Definition blank_cell (c : list (string * fact_expression)) : Prop :=
  c = [("Unlabelled", FactExpression "" "" "" "")] \/ c = [("Unlabelled", FactExpression "" "nil" "" "")].
