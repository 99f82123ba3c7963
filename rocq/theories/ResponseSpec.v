(** * ResponseSpec: JSON (RFC 8259), and how an answer looks in it. *)
From Coq Require Import String Ascii List Bool NArith ZArith Permutation Sorted.
From Verif Require Import GoBase GoSpec InstanceSpec PeriodSpec JsonSpec.
From Verif Require Import FactModel GridModel CalcModel DefModel RenderModel CatalogModel ExpressModel.
Import ListNotations.
Local Open Scope string_scope.

(** ** JSON values *)
Inductive value :=
| JNull | JBool (b : bool) | JNum (n : Z) | JStr (s : string) | JArr (l : list value)
| JObj (l : list (string * value)).

(** ** JSON texts *)

(** white space, one character *)
Definition white (c : ascii) : Prop := In (N_of_ascii c) [32; 9; 10; 13]%N.
Inductive whites : string -> Prop :=
| whites_nil : whites ""
| whites_cons c s : white c -> whites s -> whites (String c s).

(** hexadecimal digits *)
Definition hex_char (c : ascii) (d : N) : Prop :=
  let n := N_of_ascii c in
  ((48 <= n <= 57 /\ d = n - 48) \/ (97 <= n <= 102 /\ d = n - 87) \/ (65 <= n <= 70 /\ d = n - 55))%N.
(** the six characters of an escape with four digits *)
Definition escape4 (n : N) (t : string) : Prop :=
  exists a b c d w x y z, t = String "\" (String "u" (String a (String b (String c (String d ""))))) /\
    hex_char a w /\ hex_char b x /\ hex_char c y /\ hex_char d z /\
    n = (((w * 16 + x) * 16 + y) * 16 + z)%N.
(** the two-character escapes: what follows the backslash, and the character *)
Definition short_escapes : list (ascii * N) :=
  [("""", 34%N); ("\", 92%N); ("/", 47%N); ("b", 8%N); ("f", 12%N); ("n", 10%N); ("r", 13%N); ("t", 9%N)]%char.

(** [literal t s]: between quotes, [t] denotes the text [s] *)
Inductive literal : string -> string -> Prop :=
| lit_nil : literal "" ""
| lit_plain n t s : scalar n -> (32 <= n)%N -> n <> 34%N -> n <> 92%N -> literal t s ->
    literal (utf8 n ++ t) (utf8 n ++ s)
| lit_short e n t s : In (e, n) short_escapes -> literal t s -> literal (String "\" (String e t)) (utf8 n ++ s)
| lit_escape n e t s : escape4 n e -> scalar n -> literal t s -> literal (e ++ t) (utf8 n ++ s)
| lit_pair h l e f t s : escape4 h e -> escape4 l f -> (55296 <= h < 56320)%N -> (56320 <= l < 57344)%N ->
    literal t s -> literal (e ++ f ++ t) (utf8 (65536 + (h - 55296) * 1024 + (l - 56320)) ++ s).
Definition in_quotes (t : string) : string := """" ++ t ++ """".

(** [json t v]: the text [t] is JSON and denotes the value [v]. Of the numbers only the
    non-negative integers are here: an answer has no others. *)
Inductive json : string -> value -> Prop :=
| json_null : json "null" JNull
| json_true : json "true" (JBool true)
| json_false : json "false" (JBool false)
| json_num t n : decimal t n -> json t (JNum n)
| json_str t s : literal t s -> json (in_quotes t) (JStr s)
| json_empty_arr w : whites w -> json ("[" ++ w ++ "]") (JArr [])
| json_arr t l : json_items t l -> json ("[" ++ t ++ "]") (JArr l)
| json_empty_obj w : whites w -> json ("{" ++ w ++ "}") (JObj [])
| json_obj t l : json_members t l -> json ("{" ++ t ++ "}") (JObj l)
| json_before w t v : whites w -> json t v -> json (w ++ t) v
| json_after w t v : whites w -> json t v -> json (t ++ w) v
with json_items : string -> list value -> Prop :=
| items_one t v : json t v -> json_items t [v]
| items_more t v u l : json t v -> json_items u l -> json_items (t ++ "," ++ u) (v :: l)
with json_members : string -> list (string * value) -> Prop :=
| members_one a k b t v : whites a -> literal k (fst v) -> whites b -> json t (snd v) ->
    json_members (a ++ in_quotes k ++ b ++ ":" ++ t) [v]
| members_more a k b t v u l : whites a -> literal k (fst v) -> whites b -> json t (snd v) -> json_members u l ->
    json_members (a ++ in_quotes k ++ b ++ ":" ++ t ++ "," ++ u) (v :: l).

(** [t] is JSON for [v], and for nothing else *)
Definition reads_as (t : string) (v : value) : Prop := json t v /\ forall v', json t v' -> v' = v.

(** ** Shapes: what kind of value shows what *)

(** JSON can only carry Unicode text: a string that is well-formed UTF-8 is shown as it is,
    another one as some text *)
Definition shows (s : string) (v : value) : Prop := exists t, v = JStr t /\ text t /\ (text s -> t = s).
Definition flag (b : bool) (v : value) : Prop := v = JBool b.
Definition count (n : nat) (v : value) : Prop := v = JNum (Z.of_nat n).
(** an array with a value for every element, in order *)
Definition list_of {A} (R : A -> value -> Prop) (l : list A) (v : value) : Prop :=
  exists vs, v = JArr vs /\ Forall2 R l vs.
(** an object with exactly these members, in this order *)
Definition object (fields : list (string * (value -> Prop))) (v : value) : Prop :=
  exists ms, v = JObj ms /\ Forall2 (fun f m => fst m = fst f /\ snd f (snd m)) fields ms.
Definition optional {A} (name : string) (R : A -> value -> Prop) (o : option A) : list (string * (value -> Prop)) :=
  match o with Some x => [(name, R x)] | None => [] end.
(** an object with a member for every entry of a map, in the order of the keys *)
Definition map_of {A} (R : A -> value -> Prop) (m : list (string * A)) (v : value) : Prop :=
  exists l ms, Permutation m l /\ StronglySorted (fun a b => sle (fst a) (fst b)) l /\ v = JObj ms /\
    Forall2 (fun e n => shows (fst e) (JStr (fst n)) /\ R (snd e) (snd n)) l ms.

(** [u] is a part of [v], and [p] says where: member names, and "" for an element of an array *)
Inductive part : value -> list string -> value -> Prop :=
| part_self v : part v [] v
| part_item l x p u : In x l -> part x p u -> part (JArr l) ("" :: p) u
| part_member l k x p u : In (k, x) l -> part x p u -> part (JObj l) (k :: p) u.

(** ** The answers (of the model only the record types are used) *)
Definition languages (l : list (string * string)) : value -> Prop := map_of shows l.
Definition labels (p : list (string * list (string * string))) : value -> Prop := map_of languages p.
Definition concept_with_labels (x : labelled) : value -> Prop :=
  object [("Href", shows (lbHref x)); ("Label", labels (lbLabel x))].
Definition relationship_set (r : rset) : value -> Prop :=
  object [("Title", shows (rsTitle r)); ("RoleURI", shows (rsRole r))].
Definition subject_value (s : subject) : value -> Prop :=
  object [("Name", shows (sbName s));
          ("Entity", object [("Scheme", shows (eScheme (sbEntity s))); ("CharData", shows (eChar (sbEntity s)))])].
Definition catalog_value (c : catalog) : value -> Prop :=
  object [("Subjects", list_of subject_value (caSubjects c));
          ("RelationshipSets", list_of relationship_set (caRelationshipSets c));
          ("Networks", map_of (map_of shows) (caNetworks c));
          ("DocumentName", shows (caDocumentName c))].

(** a cell of the member grid: the explicit member or the text of the typed member, if any *)
Definition member_value (c : member_cell) : value -> Prop :=
  object (optional "ExplicitMember" concept_with_labels (mcExplicit c)
          ++ optional "TypedMember" shows (if nonempty (mcTyped c) then Some (mcTyped c) else None)).
Definition dimension_value (c : void_cell) : value -> Prop :=
  object ([("IsParenthesized", flag (vcParenthesized c)); ("Indentation", count (vcIndentation c));
           ("Dimension", concept_with_labels (vcDimension c))]
          ++ optional "TypedDomain" concept_with_labels (vcTypedDomain c)).
Definition expression_value (e : fact_expression) : value -> Prop :=
  object [("Head", shows (feHead e)); ("Core", shows (feCore e)); ("Tail", shows (feTail e));
          ("InnerHtml", shows (feInnerHtml e))].
Definition fact_value (m : list (string * fact_expression)) : value -> Prop := map_of expression_value m.
Definition expressable_value (x : expressable) : value -> Prop :=
  object [("Href", shows (exHref x)); ("Labels", labels (exLabels x));
          ("Context", object [("Period", languages (exPeriod x)); ("VoidQuadrant", list_of dimension_value (exVoid x));
                              ("ContextualMemberGrid", list_of (list_of member_value) (exMembers x))]);
          ("Expression", fact_value (exExpression x)); ("Footnotes", list_of shows (exFootnotes x))].

(** the fields the three kinds of grid have in common; [null] where a list is missing *)
Definition null (v : value) : Prop := v = JNull.
Definition columns_fields periods members void : list (string * (value -> Prop)) :=
  [("PeriodHeaders", list_of languages periods);
   ("ContextualMemberGrid", list_of (list_of member_value) members);
   ("VoidQuadrant", list_of dimension_value void)].
Definition facts_fields facts (grid : list (list (list nat))) notes : list (string * (value -> Prop)) :=
  [("FactualQuadrant", list_of (list_of fact_value) facts);
   ("FootnoteGrid", match grid with [] => null | _ => list_of (list_of (list_of count)) grid end);
   ("Footnotes", match grid with [] => null | _ => list_of shows notes end)].
Definition row_value (level : string) (x : indented_label) : value -> Prop :=
  object [("Href", shows (ilHref x)); ("Label", labels (ilLabel x)); (level, count (ilIndentation x))].
Definition p_grid_value (p : p_grid) : value -> Prop :=
  object ([("IndentedLabels", list_of (row_value "Indentation") (pgLabels p))]
          ++ columns_fields (pgPeriods p) (pgMembers p) (pgVoid p)
          ++ facts_fields (pgFacts p) (pgFootnoteGrid p) (pgFootnotes p)).
Definition contributing_value (c : contributing) : value -> Prop :=
  object [("Sign", shows (ccSign c)); ("Scale", shows (ccScale c)); ("BalanceType", shows (ccBalance c));
          ("Href", shows (ccHref c)); ("Label", labels (ccLabel c)); ("IsSummationItem", flag (ccIsSummation c))].
Definition item_value (s : summation_item) : value -> Prop :=
  object ([("Href", shows (siHref s)); ("Label", labels (siLabel s)); ("BalanceType", shows (siBalance s))]
          ++ columns_fields (siPeriods s) (siMembers s) (siVoid s)
          ++ [("ContributingConcepts", list_of contributing_value (siContributing s))]
          ++ facts_fields (siFacts s) (siFootnoteGrid s) (siFootnotes s)).
Definition domain_member_value (m : effective_member) : value -> Prop :=
  object [("Href", shows (emHref m)); ("Label", labels (emLabel m)); ("IsDefault", flag (emDefault m));
          ("IsStrikethrough", flag (emStruck m))].
Definition root_value (r : root_domain) : value -> Prop :=
  object ([("Href", shows (rdHref r)); ("Label", labels (rdLabel r));
           ("PrimaryItems", list_of (row_value "Level") (rdItems r))]
          ++ columns_fields (rdPeriods r) (rdMembers r) (rdVoid r)
          ++ facts_fields (rdFacts r) (rdFootnoteGrid r) (rdFootnotes r)
          ++ [("EffectiveDomainGrid", list_of (list_of (list_of domain_member_value)) (rdDomains r));
              ("EffectiveDimensions", list_of concept_with_labels (rdDimensions r))]).
Definition drs_link_value (l : drs_link) : value -> Prop :=
  object ([("SourceHref", shows (dlSource l)); ("TargetHref", shows (dlTarget l))]
          ++ optional "HypercubeConnection" (fun c => object
               [("IsClosed", flag (hcClosed c)); ("ContextElement", shows (hcContextElement c));
                ("IsInclusive", flag (hcInclusive c)); ("External", shows (hcExternal c))]) (dlHC l)
          ++ optional "HypercubeDimensionConnection" (fun c => object
               [("Order", shows (hdOrder c)); ("External", shows (hdExternal c))]) (dlHD l)
          ++ optional "DimensionDomainConnection" (fun c => object
               [("Order", shows (ddOrder c)); ("Default", flag (ddDefault c)); ("Usable", flag (ddUsable c));
                ("External", shows (ddExternal c))]) (dlDD l)
          ++ optional "DomainMemberConnection" (fun c => object
               [("Order", shows (dmOrder c)); ("Usable", flag (dmUsable c)); ("External", shows (dmExternal c))]) (dlDM l)).
Definition d_grid_value (d : d_grid) : value -> Prop :=
  object [("RootDomains", list_of root_value (dgRootDomains d));
          ("DRS", object [("Nodes", list_of concept_with_labels (drsNodes (dgDRS d)));
                          ("Links", list_of drs_link_value (drsLinks (dgDRS d)))])].
(** [calculated]: there is a calculation link for the role *)
Definition renderable_value (calculated : bool) (r : rset) (s : subject) (g : grids) (roles langs : list string)
  : value -> Prop :=
  object [("RelationshipSet", relationship_set r); ("Subject", subject_value s);
          ("Lang", list_of shows langs); ("LabelRoles", list_of shows roles);
          ("PGrid", p_grid_value (gdP g)); ("DGrid", d_grid_value (gdD g));
          ("CGrid", object [("SummationItems", if calculated then list_of item_value (gdC g) else null)])].
