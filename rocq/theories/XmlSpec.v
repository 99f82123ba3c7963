(** * XmlSpec: what the XML of a document says, in terms of its tree *)
From Coq Require Import String Ascii List.
From Verif Require Import GoBase GoSpec AttrModel AttrSpec SchemaModel SchemaSpec LinkbaseModel LinkbaseSpec
  InstanceModel InstanceSpec HydrateModel HydrateSpec XmlModel.
Import ListNotations.
Local Open Scope string_scope.

Definition xbrli := "http://www.xbrl.org/2003/instance".
Definition xbrldi := "http://xbrl.org/2006/xbrldi".
Definition link_ns := "http://www.xbrl.org/2003/linkbase".
Definition xsd_ns := "http://www.w3.org/2001/XMLSchema".
Definition ix_ns := "http://www.xbrl.org/2013/inlineXBRL".

(** ** Trees *)

(** an element is identified by its namespace and local name *)
Definition named {A} (s l : string) (x : xml A) : Prop := exists a i ks, x = XmlElem (XName s l) a i ks.
Definition locally_named {A} (l : string) (x : xml A) : Prop := exists s, named s l x.
Definition element {A} (x : xml A) : Prop := exists n a i ks, x = XmlElem n a i ks.
Definition kids {A} (x : xml A) : list (xml A) := match x with XmlElem _ _ _ ks => ks | XmlText _ => [] end.
Definition attributes {A} (x : xml A) : list A := match x with XmlElem _ a _ _ => a | XmlText _ => [] end.
Definition raw {A} (x : xml A) : string := match x with XmlElem _ _ i _ => i | XmlText _ => "" end.
Definition first_child {A} (s l : string) (x y : xml A) : Prop := first_such (named s l) (kids x) y.
Definition no_child {A} (s l : string) (x : xml A) : Prop := forall y, In y (kids x) -> ~ named s l y.
(** all the text below, in document order (XPath's string value) *)
Fixpoint string_value {A} (x : xml A) : string :=
  match x with
  | XmlText s => s
  | XmlElem _ _ _ ks => fold_right (fun k s => string_value k ++ s) "" ks
  end.
(** the value of an element of a simple type: white space at the ends does not count *)
Definition value {A} (x : xml A) (t : string) : Prop := trimmed (string_value x) t.

(** ** Facts *)
Definition reads_as_fact (q : qenv) (x : tree) (f : fact) : Prop :=
  exists n a i ks, x = XmlElem n a i ks /\ is_fact q (Elem n a i) f.
Definition is_tuple (q : qenv) (x : tree) : Prop :=
  exists s l a i ks href c, x = XmlElem (XName s l) a i ks /\ names q s l href c /\ cSubstitutionGroup c = XName xbrli "tuple".
(** what a document reports: the children of its root, and those of its tuples *)
Inductive reported (q : qenv) (root : tree) : tree -> Prop :=
| rep_top x : In x (kids root) -> reported q root x
| rep_tuple t x : reported q root t -> is_tuple q t -> In x (kids t) -> reported q root x.
(** the local names of XBRL's own elements an instance document starts with *)
Definition own_names := ["schemaRef"; "context"; "unit"; "footnoteLink"].

(** ** Contexts and units. [scope] are the attributes of the enclosing elements,
    innermost first: the first declaration of a prefix is the one in force. *)
Section Contexts.
  Variable q : qenv.
  Variable content : string -> string -> list (string * string) * list tarc -> Prop.

  Definition explicit_at (scope : list xattr) (x : tree) (m : explicit_member) : Prop :=
    named xbrldi "explicitMember" x /\ attr_val (attributes x) "dimension" (emDimValue m) /\
    (exists c, qname_names q (attributes x ++ scope) (emDimValue m) (emDimHref m) c) /\
    value x (emMemText m) /\ (exists c, qname_names q (attributes x ++ scope) (emMemText m) (emMemHref m) c).
  Definition typed_at (scope : list xattr) (x : tree) (m : typed_member) : Prop :=
    named xbrldi "typedMember" x /\ attr_val (attributes x) "dimension" (tmDimValue m) /\
    (exists c, qname_names q (attributes x ++ scope) (tmDimValue m) (tmDimHref m) c /\ tmTypedDomainHref m = cTypedDomainHref c) /\
    content (tmDimHref m) (raw x) (tmMap m, tmArcs m).
  (** the members of the segment (scenario) below [x] *)
  Definition members_at (scope : list xattr) (l : string) (x : tree) (d : dim_context) : Prop :=
    (no_child xbrli l x /\ d = DimContext [] []) \/
    exists s, first_child xbrli l x s /\
      image_of (explicit_at (attributes s ++ scope)) (kids s) (dcExplicit d) /\
      image_of (typed_at (attributes s ++ scope)) (kids s) (dcTyped d).
  Definition optional_value (s l : string) (x : tree) (t : string) : Prop :=
    (exists y, first_child s l x y /\ value y t) \/ (no_child s l x /\ t = "").
  Inductive period_at (x : tree) : string -> string -> string -> Prop :=
  | pat_none : no_child xbrli "period" x -> period_at x "" "" ""
  | pat_duration p i s n st en : first_child xbrli "period" x p -> optional_value xbrli "instant" p i ->
      first_child xbrli "startDate" p s -> first_child xbrli "endDate" p n -> value s st -> value n en ->
      period_at x i st en
  | pat_instant p i : first_child xbrli "period" x p -> optional_value xbrli "instant" p i ->
      no_child xbrli "startDate" p \/ no_child xbrli "endDate" p -> period_at x i "" "".
  Record context_at (scope : list xattr) (x : tree) (c : context) : Prop := {
    ca_name : named xbrli "context" x;
    ca_id : required (attributes x) "id" (ctxID c);
    ca_entity : exists en idt, first_child xbrli "entity" x en /\ first_child xbrli "identifier" en idt /\
        value idt (ctxIdentifier c) /\ ctxIdentifier c <> "" /\ attr_val (attributes idt) "scheme" (ctxScheme c) /\
        members_at (attributes en ++ attributes x ++ scope) "segment" en (ctxSegment c);
    ca_period : period_at x (ctxInstant c) (ctxStart c) (ctxEnd c);
    ca_scenario : members_at (attributes x ++ scope) "scenario" x (ctxScenario c) }.
End Contexts.

Definition measure_at (scope : list xattr) (x : tree) (m : measure) : Prop :=
  value x (msText m) /\ resolves (attributes x ++ scope) (msText m) (msName m).
Definition unit_at (scope : list xattr) (x : tree) (u : unit_) : Prop :=
  named xbrli "unit" x /\ required (attributes x) "id" (unID u) /\
  ((exists m, first_child xbrli "measure" x m /\ measure_at (attributes x ++ scope) m (unMeasure u) /\
      unNum u = no_measure /\ unDen u = no_measure) \/
   (exists d n m n' m', no_child xbrli "measure" x /\ first_child xbrli "divide" x d /\
      first_child xbrli "unitNumerator" d n /\ first_child xbrli "measure" n m /\
      first_child xbrli "unitDenominator" d n' /\ first_child xbrli "measure" n' m' /\
      measure_at (attributes n ++ attributes d ++ attributes x ++ scope) m (unNum u) /\
      measure_at (attributes n' ++ attributes d ++ attributes x ++ scope) m' (unDen u) /\ unMeasure u = no_measure)).

(** *** Documents in which the local name decides *)

(** below, but not in the content of a typed member *)
Inductive near (x : tree) : tree -> Prop :=
| near_kid y : In y (kids x) -> near x y
| near_deep y z : near x y -> ~ locally_named "typedMember" y -> In z (kids y) -> near x z.
(** [y] belongs to a context or unit of the document *)
Definition in_context_or_unit (root y : tree) : Prop :=
  exists x, In x (kids root) /\ (named xbrli "context" x \/ named xbrli "unit" x) /\ (y = x \/ near x y).

(** no element of another namespace bears the name of an XBRL element *)
Definition xbrli_names :=
  ["entity"; "identifier"; "segment"; "scenario"; "period"; "instant"; "startDate"; "endDate"; "measure"; "divide";
   "unitNumerator"; "unitDenominator"].
Definition xbrldi_names := ["explicitMember"; "typedMember"].
Definition no_homonyms (root : tree) : Prop :=
  forall y s l, in_context_or_unit root y -> named s l y ->
    (In l xbrli_names -> s = xbrli) /\ (In l xbrldi_names -> s = xbrldi).
(** all namespaces are declared at the root *)
Definition declared_at_root (root : tree) : Prop :=
  forall y a, in_context_or_unit root y -> In a (attributes y) ->
    nspace (aname a) <> "xmlns" /\ nlocal (aname a) <> "xmlns".
(** texts contain no elements and are not padded with white space *)
Definition text_names := ["identifier"; "explicitMember"; "instant"; "startDate"; "endDate"; "measure"].
Definition plain_texts (root : tree) : Prop :=
  forall y l, in_context_or_unit root y -> In l text_names -> locally_named l y ->
    (forall k, In k (kids y) -> exists t, k = XmlText t) /\ value y (string_value y).

(** ** Schemas *)
Record concept_at (root : tree) (file : string) (x : tree) (c : concept) : Prop := {
  cn_name : named xsd_ns "element" x;
  cn_id : required (attributes x) "id" (cID c);
  cn_local : required (attributes x) "name" (nlocal (cXMLName c));
  cn_ns : optional (attributes root) "targetNamespace" (nspace (cXMLName c));
  cn_type : exists t, required (attributes x) "type" t /\ resolves (attributes x ++ attributes root) t (cType c);
  cn_subst : optional_qname (attributes x ++ attributes root) (attributes x) "substitutionGroup" (cSubstitutionGroup c);
  cn_nillable : flag (attributes x) "nillable" (cNillable c);
  cn_abstract : flag (attributes x) "abstract" (cAbstract c);
  cn_period : optional_in xbrli (attributes x) "periodType" (cPeriodType c);
  cn_balance : optional_in xbrli (attributes x) "balance" (cBalance c);
  cn_typed : optional_ref file (attributes x) "typedDomainRef" (cTypedDomainHref c) }.
(** no element declaration declares namespaces of its own *)
Definition plain_declarations (root : tree) : Prop :=
  forall x a, In x (kids root) -> named xsd_ns "element" x -> In a (attributes x) ->
    nspace (aname a) <> "xmlns" /\ nlocal (aname a) <> "xmlns".

(** *** Role types *)
Record role_at (x : tree) (r : role_type) : Prop := {
  ra_name : named link_ns "roleType" x;
  ra_id : required (attributes x) "id" (rID r);
  ra_uri : required (attributes x) "roleURI" (rRoleURI r);
  ra_def : (exists y, first_child link_ns "definition" x y /\ rDefinition r = string_value y) \/
           (no_child link_ns "definition" x /\ rDefinition r = "");
  ra_used : image_of (fun y s => named link_ns "usedOn" y /\ s = string_value y) (kids x) (rUsedOn r) }.
(** [x] is in an xsd annotation/appinfo of the schema *)
Definition in_appinfo (root x : tree) : Prop :=
  exists a i, In a (kids root) /\ named xsd_ns "annotation" a /\ In i (kids a) /\ named xsd_ns "appinfo" i /\ In x (kids i).
Definition at_most_one {A} (l : string) (x : xml A) : Prop :=
  forall l1 y l2 z l3, kids x = (l1 ++ y :: l2 ++ z :: l3)%list -> locally_named l y -> ~ locally_named l z.
(** there is one annotation with one appinfo *)
Definition single_appinfo (root : tree) : Prop :=
  at_most_one "annotation" root /\ forall a, In a (kids root) -> locally_named "annotation" a -> at_most_one "appinfo" a.
(** definitions and uses contain no elements, and no other element is named definition *)
Definition plain_roles (root : tree) : Prop :=
  forall x y, in_appinfo root x -> In y (kids x) ->
    (locally_named "definition" y \/ named link_ns "usedOn" y -> forall k, In k (kids y) -> exists t, k = XmlText t) /\
    (locally_named "definition" y -> named link_ns "definition" y).

(** ** Linkbases *)
Definition at_elem {B} (s l : string) (R : elem -> B -> Prop) (x : tree) (b : B) : Prop :=
  exists a i ks, x = XmlElem (XName s l) a i ks /\ R (Elem (XName s l) a "") b.
Definition link_at {arc} (link_name arc_name : string) (is_a : elem -> arc -> Prop) (x : tree) (l : link arc) : Prop :=
  named link_ns link_name x /\ xlink (attributes x) "type" "extended" /\ required (attributes x) "role" (lRole l) /\
  image_of (at_elem link_ns "loc" is_loc) (kids x) (lLocs l) /\
  image_of (at_elem link_ns arc_name is_a) (kids x) (lArcs l).
(** no element of another namespace bears the name of a link, locator, arc or label *)
Definition own_links (root : tree) (link_name : string) (part_names : list string) : Prop :=
  forall x s, In x (kids root) -> named s link_name x -> s = link_ns /\
    forall y l s', In y (kids x) -> In l part_names -> named s' l y -> s' = link_ns.

(** *** Footnotes: a footnote shows all its markup *)
Definition footnote_at (x : tree) (f : footnote) : Prop :=
  named link_ns "footnote" x /\ is_footnote (Elem (XName link_ns "footnote") (attributes x) (raw x)) f.
Definition footnote_link_at (x : tree) (l : footnote_link) : Prop :=
  named link_ns "footnoteLink" x /\ attr_val (attributes x) "type" "extended" /\
  attr_val (attributes x) "role" "http://www.xbrl.org/2003/role/link" /\
  optional (attributes x) "title" (fkTitle l) /\
  image_of footnote_at (kids x) (fkFootnotes l) /\
  image_of (at_elem link_ns "loc" is_fn_loc) (kids x) (fkLocs l) /\
  image_of (at_elem link_ns "footnoteArc" is_fn_arc) (kids x) (fkArcs l).

(** a label shows the whole text of its element *)
Record label_at (x : tree) (l : label_elem) : Prop := {
  lt_name : named link_ns "label" x;
  lt_label : xlink (attributes x) "label" (llLabel l);
  lt_role : xlink (attributes x) "role" (llRole l);
  lt_lang : required (attributes x) "lang" (llLang l);
  lt_text : llCharData l = string_value x }.
Definition label_link_at (pf : string -> f64 * bool) (x : tree) (l : label_link) : Prop :=
  named link_ns "labelLink" x /\ xlink (attributes x) "type" "extended" /\ required (attributes x) "role" (lnRole l) /\
  image_of (at_elem link_ns "loc" is_loc) (kids x) (lnLocs l) /\
  image_of label_at (kids x) (lnLabels l) /\
  exists arcs, image_of (at_elem link_ns "labelArc" eq) (kids x) arcs /\
    image_of (is_label_arc pf (length arcs)) (combine (seq 0 (length arcs)) arcs) (lnArcs l).
Definition plain_labels (root : tree) : Prop :=
  forall x y k, In x (kids root) -> locally_named "labelLink" x -> In y (kids x) -> locally_named "label" y ->
    In k (kids y) -> exists t, k = XmlText t.

(** what a label linkbase says *)
Definition labels_as_written (pf : string -> f64 * bool) (root : tree) (lb : label_linkbase) : Prop :=
  image_of (at_elem link_ns "roleRef" is_role_ref) (kids root) (llRoleRefs lb) /\
  image_of (label_link_at pf) (kids root) (llLinks lb).

(** ** The registry of units *)
Definition first_local (l : string) (x y : tree) : Prop := first_such (locally_named l) (kids x) y.
(** the text directly below [x] *)
Definition direct_text (x : tree) : string :=
  fold_right (fun k s => match k with XmlText t => t ++ s | XmlElem _ _ _ _ => s end) "" (kids x).
Definition text_field (l : string) (x : tree) (t : string) : Prop :=
  (exists y, first_local l x y /\ t = direct_text y) \/ ((forall y, In y (kids x) -> ~ locally_named l y) /\ t = "").
Definition raw_field (l : string) (x : tree) (t : string) : Prop :=
  (exists y, first_local l x y /\ t = raw y) \/ ((forall y, In y (kids x) -> ~ locally_named l y) /\ t = "").
Record measurement_at (x : tree) (m : measurement) : Prop := {
  me_unit : locally_named "unit" x;
  me_complete : mUnitID m <> "" /\ mUnitName m <> "" /\ mNSUnit m <> "";
  me_text : forall l p, In (l, p)
    [("unitId", mUnitID); ("unitName", mUnitName); ("nsUnit", mNSUnit); ("itemType", mItemType); ("nsItemType", mNsItemType);
     ("itemTypeDate", mItemTypeDate); ("symbol", mSymbol); ("definition", mDefinition); ("baseStandard", mBaseStandard);
     ("status", mStatus); ("versionDate", mVersionDate); ("numeratorItemType", mNumeratorItemType);
     ("nsNumeratorItemType", mNSNumeratorItemType); ("denominatorItemType", mDenominatorItemType);
     ("nsDenominatorItemType", mNSDenominatorItemType)] -> text_field l x (p m);
  me_raw : forall l p, In (l, p)
    [("conversionPresentation", mConversionPresentation); ("conversionContent", mConversionContent)] -> raw_field l x (p m) }.

(** ** Inline documents *)

(** every element with its ancestors, nearest first, in document order *)
Fixpoint walk {A} (above : list (xml A)) (x : xml A) : list (list (xml A) * xml A) :=
  match x with
  | XmlText _ => []
  | XmlElem _ _ _ ks => (above, x) :: flat_map (walk (x :: above)) ks
  end.
(** [x] is named [path]'s last name, below an element named by the one before it, ... *)
Inductive located {A} : list (string * string) -> list (xml A) -> xml A -> Prop :=
| loc_here s l above x : named s l x -> located [(s, l)] above x
| loc_below path s l above y above' far x : above = (far ++ y :: above')%list -> located path above' y -> path <> [] ->
    named s l x -> located (path ++ [(s, l)]) above x.
(** [out] are the elements so located, each once, in document order *)
Definition selects {A} (path : list (string * string)) (doc : xml A) (out : list (xml A)) : Prop :=
  image_of (fun ax y => located path (fst ax) (snd ax) /\ y = snd ax) (walk [] doc) out.
Definition descends {A} (doc x : xml A) : Prop := exists above, In (above, x) (walk [] doc).

(** *** Facts in inline documents *)

(** the meaning of a prefix: what the nearest element that declares it says *)
Definition bound_at (chain : list qtree) (p v : string) : Prop :=
  exists y, first_such (fun y => exists w, declares (attributes y) p w) chain y /\ declares (attributes y) p v.
Definition inline_fact_at (above : list qtree) (x : qtree) (k : string) (n : xname) (c : string) : Prop :=
  attr_of (attributes x) "name" k /\ attr_of (attributes x) "contextRef" c /\
  exists p l v, k = p ++ ":" ++ l /\ free_of ":" p /\ bound_at (x :: above) p v /\ n = XName v l.
(** Inline XBRL's fact elements *)
Definition fact_element (ls : list string) (x : qtree) : Prop := exists l, In l ls /\ named ix_ns l x.
Definition all_facts := ["nonNumeric"; "nonFraction"; "fraction"].
Definition conforming_facts (d : qtree) : Prop :=
  forall above x, In (above, x) (walk [] d) -> fact_element all_facts x -> exists k n c, inline_fact_at above x k n c.
(** the names and contexts of exactly the facts [ls] are known *)
Definition knows (ls : list string) (d : qtree) (doc : document) : Prop :=
  (forall k n, sget k (docNames doc) = Some n <->
     exists above x c, In (above, x) (walk [] d) /\ fact_element ls x /\ inline_fact_at above x k n c) /\
  (forall c b, sget c (docContexts doc) = Some b <->
     b = true /\ exists above x k n, In (above, x) (walk [] d) /\ fact_element ls x /\ inline_fact_at above x k n c).
(** all namespaces are declared at the root, an html element *)
Definition declared_at_html (d : qtree) : Prop :=
  locally_named "html" d /\
  forall y above x a, In (y :: above, x) (walk [] d) -> In a (attributes x) -> quri a <> "xmlns".
