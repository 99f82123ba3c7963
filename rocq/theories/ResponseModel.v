(** * ResponseModel: the bytes of an answer: json.Marshal (standard library, encoding/json) on
    the structs of pkg/renderables, as called in catalog.go:45-50, renderable.go:123 and
    expressable.go:64-80.

    An embedded field of a type that is not a struct (PeriodHeaders, ContextualMemberGrid,
    VoidQuadrant) is a field with the name of its type. A nil slice is written null, an empty
    one []; a nil map does not occur. The types Lang, LabelRole are strings. *)
From Verif Require Import GoBase LinkbaseModel LabelModel FactModel GridModel CalcModel DefModel RenderModel CatalogModel
  ExpressModel UnderscoreModel JsonModel.
Local Open Scope string_scope.

(** ** encoding/json *)

Fixpoint join (sep : string) (l : list string) : string :=
  match l with [] => "" | [x] => x | x :: r => x ++ sep ++ join sep r end.
(** a string: [quoted] of JsonModel; a bool; an int *)
Definition jbool (b : bool) : string := if b then "true" else "false".
Definition jint (n : nat) : string := itoa (Z.of_nat n).
(** arrayEncoder; sliceEncoder: a slice that is not nil *)
Definition jarr {A} (f : A -> string) (l : list A) : string := "[" ++ join "," (map f l) ++ "]".
(** structEncoder: the fields in order of declaration, without those left out by omitempty *)
Definition jobj (fields : list (string * string)) : string :=
  "{" ++ join "," (map (fun kv => quoted (fst kv) ++ ":" ++ snd kv) fields) ++ "}".
(** mapEncoder: the entries in the order of the bytes of the keys *)
Definition key_less {A} (a b : string * A) : bool := String.ltb (fst a) (fst b).
Definition jmap {A} (f : A -> string) (m : list (string * A)) : string :=
  jobj (map (fun kv => (fst kv, f (snd kv))) (isort key_less m)).
(** a pointer with omitempty *)
Definition jopt {A} (name : string) (f : A -> string) (o : option A) : list (string * string) :=
  match o with Some x => [(name, f x)] | None => [] end.

(** ** pkg/renderables *)

(** labelPack.go:3-20 [LanguagePack], [LabelPack] *)
Definition jlangs (l : language_pack) : string := jmap quoted l.
Definition jlabels (p : label_pack) : string := jmap jlangs p.
(** contexts.go:34-47 [ExplicitMember], [Dimension], [TypedDomain],
    dimensionRelationshipSet.go:33-36 [DRSNode], effectiveDomainGrid.go:33-36 [EffectiveDimension] *)
Definition jlabelled (x : labelled) : string :=
  jobj [("Href", quoted (lbHref x)); ("Label", jlabels (lbLabel x))].
(** contextualQuadrant.go:11-14 [ContextualMemberCell]: both fields with omitempty *)
Definition jcell (c : member_cell) : string :=
  jobj (jopt "ExplicitMember" jlabelled (mcExplicit c)
        ++ (if nonempty (mcTyped c) then [("TypedMember", quoted (mcTyped c))] else [])).
(** contextualQuadrant.go:16-21 [VoidCell] *)
Definition jvoid (c : void_cell) : string :=
  jobj ([("IsParenthesized", jbool (vcParenthesized c)); ("Indentation", jint (vcIndentation c));
         ("Dimension", jlabelled (vcDimension c))] ++ jopt "TypedDomain" jlabelled (vcTypedDomain c)).
(** factualQuadrant.go:7-14 [FactExpression], [MultilingualFact] *)
Definition jexpression (e : fact_expression) : string :=
  jobj [("Head", quoted (feHead e)); ("Core", quoted (feCore e)); ("Tail", quoted (feTail e));
        ("InnerHtml", quoted (feInnerHtml e))].
Definition jfact (m : multilingual_fact) : string := jmap jexpression m.
(** the fields PeriodHeaders, ContextualMemberGrid and VoidQuadrant of the three grids *)
Definition jcolumns (periods : list language_pack) (members : list (list member_cell)) (void : list void_cell)
  : list (string * string) :=
  [("PeriodHeaders", jarr jlangs periods); ("ContextualMemberGrid", jarr (jarr jcell) members);
   ("VoidQuadrant", jarr jvoid void)].
(** the fields FactualQuadrant, FootnoteGrid and Footnotes. factualQuadrant.go:23-25: without
    rows or columns the last two are nil; with rows the grid has rows *)
Definition jquadrant (facts : list (list multilingual_fact)) (grid : list (list (list nat))) (notes : list string)
  : list (string * string) :=
  [("FactualQuadrant", jarr (jarr jfact) facts);
   ("FootnoteGrid", match grid with [] => "null" | _ => jarr (jarr (jarr jint)) grid end);
   ("Footnotes", match grid with [] => "null" | _ => jarr quoted notes end)].

(** presentationGrid.go:12-26 [IndentedLabel], [PGrid] *)
Definition jindented (x : indented_label) : string :=
  jobj [("Href", quoted (ilHref x)); ("Label", jlabels (ilLabel x)); ("Indentation", jint (ilIndentation x))].
Definition jp_grid (p : p_grid) : string :=
  jobj ([("IndentedLabels", jarr jindented (pgLabels p))] ++ jcolumns (pgPeriods p) (pgMembers p) (pgVoid p)
        ++ jquadrant (pgFacts p) (pgFootnoteGrid p) (pgFootnotes p)).

(** calculationGrid.go:12-36 [SummationItem], [ContributingConcept], [CGrid] *)
Definition jcontributing (c : contributing) : string :=
  jobj [("Sign", quoted (ccSign c)); ("Scale", quoted (ccScale c)); ("BalanceType", quoted (ccBalance c));
        ("Href", quoted (ccHref c)); ("Label", jlabels (ccLabel c)); ("IsSummationItem", jbool (ccIsSummation c))].
Definition jitem (s : summation_item) : string :=
  jobj ([("Href", quoted (siHref s)); ("Label", jlabels (siLabel s)); ("BalanceType", quoted (siBalance s))]
        ++ jcolumns (siPeriods s) (siMembers s) (siVoid s)
        ++ [("ContributingConcepts", jarr jcontributing (siContributing s))]
        ++ jquadrant (siFacts s) (siFootnoteGrid s) (siFootnotes s)).
(** [linked]: getSummationItems has found a link of the role (line 96 makes the slice);
    otherwise it returns nil (line 155) *)
Definition jc_grid (linked : bool) (l : list summation_item) : string :=
  jobj [("SummationItems", if linked then jarr jitem l else "null")].

(** effectiveDomainGrid.go:12-45 [RootDomain], [PrimaryItem], [EffectiveMember]; DRSNodes is
    never set and has omitempty *)
Definition jprimary (x : indented_label) : string :=
  jobj [("Href", quoted (ilHref x)); ("Label", jlabels (ilLabel x)); ("Level", jint (ilIndentation x))].
Definition jmember (m : effective_member) : string :=
  jobj [("Href", quoted (emHref m)); ("Label", jlabels (emLabel m)); ("IsDefault", jbool (emDefault m));
        ("IsStrikethrough", jbool (emStruck m))].
Definition jroot (r : root_domain) : string :=
  jobj ([("Href", quoted (rdHref r)); ("Label", jlabels (rdLabel r)); ("PrimaryItems", jarr jprimary (rdItems r))]
        ++ jcolumns (rdPeriods r) (rdMembers r) (rdVoid r)
        ++ jquadrant (rdFacts r) (rdFootnoteGrid r) (rdFootnotes r)
        ++ [("EffectiveDomainGrid", jarr (jarr (jarr jmember)) (rdDomains r));
            ("EffectiveDimensions", jarr jlabelled (rdDimensions r))]).
(** dimensionRelationshipSet.go:11-50 *)
Definition jhc (c : hc_connection) : string :=
  jobj [("IsClosed", jbool (hcClosed c)); ("ContextElement", quoted (hcContextElement c));
        ("IsInclusive", jbool (hcInclusive c)); ("External", quoted (hcExternal c))].
Definition jhd (c : hd_connection) : string :=
  jobj [("Order", quoted (hdOrder c)); ("External", quoted (hdExternal c))].
Definition jdd (c : dd_connection) : string :=
  jobj [("Order", quoted (ddOrder c)); ("Default", jbool (ddDefault c)); ("Usable", jbool (ddUsable c));
        ("External", quoted (ddExternal c))].
Definition jdm (c : dm_connection) : string :=
  jobj [("Order", quoted (dmOrder c)); ("Usable", jbool (dmUsable c)); ("External", quoted (dmExternal c))].
Definition jlink (l : drs_link) : string :=
  jobj ([("SourceHref", quoted (dlSource l)); ("TargetHref", quoted (dlTarget l))]
        ++ jopt "HypercubeConnection" jhc (dlHC l) ++ jopt "HypercubeDimensionConnection" jhd (dlHD l)
        ++ jopt "DimensionDomainConnection" jdd (dlDD l) ++ jopt "DomainMemberConnection" jdm (dlDM l)).
Definition jdrs (d : drs) : string :=
  jobj [("Nodes", jarr jlabelled (drsNodes d)); ("Links", jarr jlink (drsLinks d))].
(** definitionGrid.go:7-10 [DGrid] *)
Definition jd_grid (d : d_grid) : string :=
  jobj [("RootDomains", jarr jroot (dgRootDomains d)); ("DRS", jdrs (dgDRS d))].

(** renderable.go:11-34 [RelationshipSet], [Subject], [Entity], [Renderable] *)
Definition jrset (r : rset) : string := jobj [("Title", quoted (rsTitle r)); ("RoleURI", quoted (rsRole r))].
Definition jentity (e : entity) : string :=
  jobj [("Scheme", quoted (eScheme e)); ("CharData", quoted (eChar e))].
Definition jsubject (s : subject) : string :=
  jobj [("Name", quoted (sbName s)); ("Entity", jentity (sbEntity s))].
(** the grids of [rendered] are the grids, the label roles and the languages *)
Definition jrenderable (linked : bool) (r : renderable (grids * list string * list string)) : string :=
  let '(g, roles, langs) := rnGrids r in
  jobj [("RelationshipSet", jrset (rnSet r)); ("Subject", jsubject (rnSubject r));
        ("Lang", jarr quoted langs); ("LabelRoles", jarr quoted roles);
        ("PGrid", jp_grid (gdP g)); ("DGrid", jd_grid (gdD g)); ("CGrid", jc_grid linked (gdC g))].

(** catalog.go:11-16 [Catalog] *)
Definition jcatalog (c : catalog) : string :=
  jobj [("Subjects", jarr jsubject (caSubjects c)); ("RelationshipSets", jarr jrset (caRelationshipSets c));
        ("Networks", jmap (jmap quoted) (caNetworks c)); ("DocumentName", quoted (caDocumentName c))].

(** expressable.go:9-19 [Expressable] *)
Definition jexpressable (x : expressable) : string :=
  jobj [("Href", quoted (exHref x)); ("Labels", jlabels (exLabels x));
        ("Context", jobj [("Period", jlangs (exPeriod x)); ("VoidQuadrant", jarr jvoid (exVoid x));
                          ("ContextualMemberGrid", jarr (jarr jcell) (exMembers x))]);
        ("Expression", jfact (exExpression x)); ("Footnotes", jarr quoted (exFootnotes x))].

(** whether getSummationItems finds a link (calculationGrid.go:49-58, 96) *)
Definition linked (role : string) (calcs : list (linkbase carc)) : bool :=
  match calc_link role [] calcs with Some _ => true | None => false end.
