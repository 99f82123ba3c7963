(** * XmlModel: pkg/serializables, from the XML tree to the decoded structs

    The bytes of a file are parsed by encoding/xml (and by xmlquery for inline
    documents); both are external. The model starts at the tree they see: names
    are resolved to namespaces, entities are expanded, comments and processing
    instructions are left out. What encoding/xml does with the struct tags is
    modelled here, after its documentation and unmarshal code (Go 1.x read.go):
    the root's local name must be the one of the XMLName tag; a child element goes
    to the field whose tag is its local name (tags name no namespace, so any
    namespace will do), the other children to the ",any" field if there is one;
    ",chardata" is the text directly below the element, ",innerxml" the raw bytes
    between its tags, ",any,attr" all attributes. *)
From Verif Require Import GoBase AttrModel SchemaModel LinkbaseModel InstanceModel HydrateModel.
Local Open Scope string_scope.

(** An XML tree; [A] is the type of attributes. An element has a name, attributes,
    the raw bytes between its tags, and children. *)
Inductive xml (A : Type) :=
| XmlText (s : string)
| XmlElem (n : xname) (attrs : list A) (inner : string) (kids : list (xml A)).
Arguments XmlText {A}. Arguments XmlElem {A}.
Definition tree := xml xattr.

Section Trees.
  Context {A : Type}.
  Definition x_name (x : xml A) : xname := match x with XmlElem n _ _ _ => n | _ => XName "" "" end.
  Definition x_attrs (x : xml A) : list A := match x with XmlElem _ a _ _ => a | _ => [] end.
  Definition x_inner (x : xml A) : string := match x with XmlElem _ _ i _ => i | _ => "" end.
  Definition x_kids (x : xml A) : list (xml A) := match x with XmlElem _ _ _ k => k | _ => [] end.
  (** the tag `xml:"..."` of a field: the children it receives, in document order *)
  Definition has_tag (tag : string) (x : xml A) : bool :=
    match x with XmlElem n _ _ _ => String.eqb (nlocal n) tag | XmlText _ => false end.
  Definition field (tag : string) (x : xml A) : list (xml A) := filter (has_tag tag) (x_kids x).
  (** ",chardata" *)
  Definition chardata (x : xml A) : string :=
    String.concat "" (map (fun k => match k with XmlText s => s | XmlElem _ _ _ _ => "" end) (x_kids x)).
End Trees.

(** structs with XMLName and XMLAttrs only, with CharData, and with XMLInner *)
Definition bare (x : tree) : elem := Elem (x_name x) (x_attrs x) "".
Definition with_text (x : tree) : elem := Elem (x_name x) (x_attrs x) (chardata x).
Definition with_inner (x : tree) : elem := Elem (x_name x) (x_attrs x) (x_inner x).

(** xml.Decoder.Decode on a struct with an XMLName tag (schemaFile.go:65-75,
    instanceFile.go:131-141, ...; the six decoders are alike). [None]: the bytes up
    to the end of the root element are not well-formed XML (what follows it is not
    read). The errors' texts are simplified. *)
Definition decode {B} (root_tag : string) (f : tree -> B) (doc : option tree) : res B :=
  match doc with
  | None => Err "XML syntax error"
  | Some x => if has_tag root_tag x then Ok (f x) else Err "expected another element type"
  end.

(** ** schemaFile.go:11-63 *)
Definition read_role_type (x : tree) : role_type_elem :=
  RoleTypeElem (x_name x) (x_attrs x) (map with_text (field "definition" x)) (map with_text (field "usedOn" x)).
Definition read_appinfo (x : tree) : appinfo_elem :=
  AppinfoElem (x_name x) (map bare (field "linkbaseRef" x)) (map read_role_type (field "roleType" x)).
Definition read_annotation (x : tree) : annotation_elem :=
  AnnotationElem (x_name x) (map read_appinfo (field "appinfo" x)).
Definition schema_struct (x : tree) : schema_file :=
  SchemaFile (x_attrs x) (map bare (field "include" x)) (map bare (field "import" x))
    (map read_annotation (field "annotation" x)) (map with_text (field "element" x)).
(** schemaFile.go:65-75 [DecodeSchemaFile] *)
Definition decode_schema : option tree -> res schema_file := decode "schema" schema_struct.

(** ** presentationLinkbaseFile.go, definitionLinkbaseFile.go, calculationLinkbaseFile.go
    (11-42) and labelLinkbaseFile.go:11-47 *)
Definition read_link (arc : string) (x : tree) : link_elem :=
  LinkElem (x_attrs x) (map bare (field "loc" x)) (map bare (field arc x)) [].
Definition read_label_link (x : tree) : link_elem :=
  LinkElem (x_attrs x) (map bare (field "loc" x)) (map bare (field "labelArc" x)) (map with_text (field "label" x)).
Definition linkbase_struct (link : string) (f : tree -> link_elem) (x : tree) : linkbase_file :=
  LinkbaseFile (map bare (field "roleRef" x)) (map f (field link x)).
Definition decode_presentation : option tree -> res linkbase_file :=
  decode "linkbase" (linkbase_struct "presentationLink" (read_link "presentationArc")).
Definition decode_definition : option tree -> res linkbase_file :=
  decode "linkbase" (linkbase_struct "definitionLink" (read_link "definitionArc")).
Definition decode_calculation : option tree -> res linkbase_file :=
  decode "linkbase" (linkbase_struct "calculationLink" (read_link "calculationArc")).
Definition decode_label : option tree -> res linkbase_file :=
  decode "linkbase" (linkbase_struct "labelLink" read_label_link).

(** ** instanceFile.go:11-129 *)
Definition read_members (x : tree) : seg_elem :=
  SegElem (map with_text (field "explicitMember" x)) (map with_inner (field "typedMember" x)).
Definition read_entity (x : tree) : entity_elem :=
  EntityElem (map with_text (field "identifier" x)) (map read_members (field "segment" x)).
Definition read_period (x : tree) : period_elem :=
  PeriodElem (map with_text (field "instant" x)) (map with_text (field "startDate" x)) (map with_text (field "endDate" x)).
Definition read_context (x : tree) : context_elem :=
  ContextElem (x_name x) (x_attrs x) (map read_entity (field "entity" x)) (map read_period (field "period" x))
    (map read_members (field "scenario" x)).
Definition read_divide (x : tree) : divide_elem :=
  DivideElem (map (fun n => map with_text (field "measure" n)) (field "unitNumerator" x))
             (map (fun n => map with_text (field "measure" n)) (field "unitDenominator" x)).
Definition read_unit (x : tree) : unit_elem :=
  UnitElem (x_name x) (x_attrs x) (map with_text (field "measure" x)) (map read_divide (field "divide" x)).
Definition read_fnlink (x : tree) : fnlink_elem :=
  FnLinkElem (x_attrs x) (map with_inner (field "footnote" x)) (map bare (field "loc" x)) (map bare (field "footnoteArc" x)).
(** the ",any" field Facts: the child elements no other field takes *)
Definition is_any (x : tree) : bool :=
  match x with
  | XmlText _ => false
  | XmlElem _ _ _ _ => negb (has_tag "schemaRef" x || has_tag "context" x || has_tag "unit" x || has_tag "footnoteLink" x)
  end.
Definition instance_struct (x : tree) : instance_file :=
  InstanceFile (x_attrs x) (map bare (field "schemaRef" x)) (map read_context (field "context" x))
    (map read_unit (field "unit" x)) (map read_fnlink (field "footnoteLink" x))
    (map with_inner (filter is_any (x_kids x))).
(** instanceFile.go:131-141 [DecodeInstanceFile] *)
Definition decode_instance : option tree -> res instance_file := decode "xbrl" instance_struct.

(** ** measurement.go:11-107 and 109-119 [DecodeUnitTypeRegistry] *)
Definition read_utr_unit (x : tree) : utr_unit :=
  let t tag := map with_text (field tag x) in
  UtrUnit (t "unitId") (t "unitName") (t "nsUnit") (t "itemType") (t "nsItemType") (t "itemTypeDate") (t "symbol")
    (t "definition") (t "baseStandard")
    (map with_inner (field "conversionPresentation" x)) (map with_inner (field "conversionContent" x))
    (t "status") (t "versionDate") (t "numeratorItemType") (t "nsNumeratorItemType") (t "denominatorItemType")
    (t "nsDenominatorItemType").
Definition utr_struct (x : tree) : list (list utr_unit) :=
  map (fun u => map read_utr_unit (field "unit" u)) (field "units" x).
Definition decode_utr : option tree -> res (list (list utr_unit)) := decode "utr" utr_struct.

(** ** document.go: inline documents *)

(** xmlquery's tree: attributes carry their namespace URI *)
Definition qtree := xml qattr.
(** pkg/attr/literals.go:5 *)
Definition IX := "http://www.xbrl.org/2013/inlineXBRL".
(** the test *[local-name()='l'] *)
Definition local_is (l : string) (x : qtree) : bool := has_tag l x.
(** the test *[local-name()='l' and namespace-uri()='s'] *)
Definition name_is (l s : string) (x : qtree) : bool := has_tag l x && String.eqb (nspace (x_name x)) s.
(** and @arcrole='v': an unprefixed attribute test *)
Definition arcrole_is (v : string) (x : qtree) : bool :=
  existsb (fun a => String.eqb (nspace (qname a)) "" && String.eqb (nlocal (qname a)) "arcrole" && String.eqb (qvalue a) v)
          (x_attrs x).

(** xmlquery.QueryAll(doc, "//P1//P2//...//Pn"), after XPath 1.0: the elements
    satisfying Pn below an element satisfying Pn-1 below ..., each once, in
    document order. [ps] holds the tests that are not yet met above. *)
Fixpoint query_all (ps : list (qtree -> bool)) (x : qtree) : list qtree :=
  match x with
  | XmlText _ => []
  | XmlElem _ _ _ kids =>
      match ps with
      | [] => []
      | [p] => (if p x then [x] else []) ++ flat_map (query_all [p]) kids
      | p :: rest => flat_map (query_all (if p x then rest else ps)) kids
      end%list
  end.
(** xmlquery.Query: the first one, or nil *)
Definition query (ps : list (qtree -> bool)) (x : qtree) : option qtree := hd_error (query_all ps x).

(** document.go:15-27 [Document]; Bytes, Root and the unread factMap are left out *)
Record inline_doc := InlineDoc {
  idHtml : qtree; idExcludes : list qtree; idSchemaRefs : list qtree; idContexts : list qtree;
  idUnits : list qtree; idNonFractions : list qtree; idNonNumerics : list qtree; idFootnoteRelationships : list qtree }.
(** document.go:29-175 [DecodeIxbrlFile]; [None]: nil. The eight goroutines run one
    query each into variables of their own. The shared [goErr] and [err] stay nil:
    a query only fails if its expression does not compile, and the expressions are
    constants that do. So no schedule matters, and the model is sequential. *)
Definition decode_inline (doc : option qtree) : option inline_doc :=
  match doc with
  | None => None                                               (* 30-34: not well-formed *)
  | Some d =>
      match query [local_is "html"] d with
      | None => None                                           (* 127-129 *)
      | Some html =>
          Some (InlineDoc html
            (query_all [name_is "exclude" IX] d)
            (query_all [name_is "header" IX; name_is "schemaRef" LINK] d)
            (query_all [name_is "header" IX; name_is "resources" IX; name_is "context" XBRLI] d)
            (query_all [name_is "header" IX; name_is "resources" IX; name_is "unit" XBRLI] d)
            (query_all [name_is "nonFraction" IX] d)
            (query_all [name_is "nonNumeric" IX] d)
            (query_all [fun x => name_is "relationship" IX x && arcrole_is FactFootnoteArcrole x] d))
      end
  end.
(** what pkg/hydratables/document.go reads of it *)
Definition inline_source (d : inline_doc) : doc_source :=
  DocSource (x_attrs (idHtml d)) (map x_attrs (idNonNumerics d)) (map x_attrs (idNonFractions d)).
