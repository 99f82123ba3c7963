(** * ReaderSpec: what the reader of an answer can rely on: units, names and period headers *)
From Coq Require Import String List.
From Verif Require Import GoBase GoSpec AttrModel SchemaModel InstanceModel InstanceSpec HydrateModel HydrateSpec LabelSpec FactModel GridSpec PeriodModel RenderSpec XmlModel XmlSpec.
From Verif Require Import LoadSpec EndToEndSpec ResponseSpec ReportSpec.
Import ListNotations.
Local Open Scope string_scope.

(** ** Units *)

(** the units of the instance, by id *)
Definition units_written (root : tree) (units : list unit_) : Prop :=
  exists us, image_of (unit_at (attributes root)) (kids root) us /\ stably_sorted (fun a b => String.ltb (unID a) (unID b)) us units.

Section Units.
  (** the document of the registry of units, if there is one that can be read *)
  Variable register : option tree.
  (** the units of the report *)
  Variable units : list unit_.

  (** what the registry says about a unit: its last complete entry for that name *)
  Definition known_unit (name : xname) (m : measurement) : Prop :=
    exists root u ms, register = Some root /\ first_local "units" root u /\ image_of measurement_at (kids u) ms /\
      last_such (fun m => mNSUnit m = nspace name /\ mUnitID m = nlocal name) ms m.
  Definition unit_named (ref : string) (u : unit_) : Prop := first_such (fun u => unID u = ref) units u.
  (** a unit is one measure, or a measure per a measure *)
  Definition simple (u : unit_) : Prop := msText (unMeasure u) <> "".
  Definition ratio (u : unit_) : Prop := msText (unMeasure u) = "" /\ msText (unNum u) <> "" /\ msText (unDen u) <> "".
  (** what a number that refers to the unit [ref] is measured in *)
  Definition measured_in (ref : string) (m : measurement) : Prop :=
    exists u, unit_named ref u /\
      ((simple u /\ known_unit (msName (unMeasure u)) m) \/ (ratio u /\ known_unit (msName (unNum u)) m)).
  (** and what it is per *)
  Definition measured_per (ref : string) (m : measurement) : Prop :=
    exists u, unit_named ref u /\ ratio u /\ known_unit (msName (unDen u)) m.
  (** what it is said to be per: the local name of the denominator is taken from the numerator *)
  Definition said_per (ref : string) (m : measurement) : Prop :=
    exists u, unit_named ref u /\ ratio u /\ known_unit (XName (nspace (msName (unDen u))) (nlocal (msName (unNum u)))) m.
End Units.

(** numbers are written with this group separator and with the units that the report and the registry give *)
Record reads (html : string -> list html_token) (digits : BinNums.Z -> string -> Ascii.ascii -> option (string * string * string))
    (percent : string -> option string) (inn per : string -> measurement -> Prop) (e : renv) : Prop := {
  rd_html : re_html e = html;
  rd_digits : re_digits e = digits;
  rd_percent : re_percent e = percent;
  rd_in : forall ref m, fst (re_measurement e ref) = Some m <-> inn ref m;
  rd_per : forall ref m, snd (re_measurement e ref) = Some m <-> per ref m }.

(** ** Names *)

(** the name of an entity: what the table gives for its scheme and identifier, or else the two *)
Definition called (table : list (string * list (string * string))) (scheme id name : string) : Prop :=
  (exists m, In (scheme, m) table /\ In (id, name) m) \/
  ((forall m n, In (scheme, m) table -> ~ In (id, n) m) /\ name = scheme ++ "/" ++ id).
(** no key appears twice (a Go map) *)
Definition a_table (table : list (string * list (string * string))) : Prop :=
  NoDup (map fst table) /\ forall s m, In (s, m) table -> NoDup (map fst m).

(** ** Period headers *)
Section Headers.
  (** the text of a date in Spanish *)
  Variable es : date -> option string.
  (** the languages the answer offers *)
  Variable langs : list string.

  (** the header of the column of the context: its period, unlabelled and in each of the languages *)
  Definition header_read (c : context) (u : value) : Prop :=
    exists p m, GridSpec.period_of c p /\ languages m u /\ is_map m /\ In ("Unlabelled", p) m /\
      (forall lang, lang <> "Unlabelled" -> In lang (map fst m) <-> In lang langs) /\
      (forall lang text, lang <> "Unlabelled" -> In (lang, text) m -> header_text es lang p text).
  Definition headers_read (v : value) (cols : list context) : Prop :=
    the_member v "PeriodHeaders" (list_of header_read cols).
End Headers.
