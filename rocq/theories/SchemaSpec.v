(** * SchemaSpec: what loading a schema and looking up concepts promise. *)
From Coq Require Import String Ascii List.
From Verif Require Import GoSpec AttrModel AttrSpec SchemaModel.
Import ListNotations.
Local Open Scope string_scope.

(** ** Attributes *)

(** [a] is the (first) attribute with local name [n] *)
Definition the_attr (attrs : list xattr) (n : string) (a : xattr) : Prop :=
  first_such (fun a => nlocal (aname a) = n) attrs a.
Definition attr_val (attrs : list xattr) (n v : string) : Prop :=
  exists a, the_attr attrs n a /\ avalue a = v.
Definition no_attr (attrs : list xattr) (n : string) : Prop :=
  forall a, In a attrs -> nlocal (aname a) <> n.
(** present and not empty *)
Definition required (attrs : list xattr) (n v : string) : Prop :=
  attr_val attrs n v /\ v <> "".
(** present, in the given namespace, and not empty *)
Definition required_in (space : string) (attrs : list xattr) (n v : string) : Prop :=
  (exists a, the_attr attrs n a /\ nspace (aname a) = space /\ avalue a = v) /\ v <> "".
(** value of an optional attribute, "" by default *)
Definition optional (attrs : list xattr) (n v : string) : Prop :=
  attr_val attrs n v \/ (no_attr attrs n /\ v = "").
(** value of an optional attribute that must be in the given namespace *)
Definition optional_in (space : string) (attrs : list xattr) (n v : string) : Prop :=
  (exists a, the_attr attrs n a /\ nspace (aname a) = space /\ avalue a = v) \/
  ((forall a, the_attr attrs n a -> nspace (aname a) <> space) /\ v = "").

(** boolean literals Go accepts *)
Definition true_lits := ["1"; "t"; "T"; "true"; "TRUE"; "True"].
Definition false_lits := ["0"; "f"; "F"; "false"; "FALSE"; "False"].
Definition bool_lit (s : string) (b : bool) : Prop :=
  (In s true_lits /\ b = true) \/ (In s false_lits /\ b = false).
(** a flag is set exactly if its attribute is a literal for true *)
Definition flag (attrs : list xattr) (n : string) (b : bool) : Prop :=
  b = true <-> exists v, attr_val attrs n v /\ In v true_lits.

(** an optional QName-valued attribute *)
Definition optional_qname (scope attrs : list xattr) (n : string) (q : xname) : Prop :=
  (exists v, required attrs n v /\ resolves scope v q) \/
  ((forall v, ~ required attrs n v) /\ q = XName "" "").

(** a reference within the same document starts with '#' *)
Definition document_relative (file r href : string) : Prop :=
  (exists rest, r = "#" ++ rest /\ href = file ++ r) \/
  ((forall rest, r <> "#" ++ rest) /\ href = r).
Definition optional_ref (file : string) (attrs : list xattr) (n href : string) : Prop :=
  (exists r, optional_in "http://xbrl.org/2005/xbrldt" attrs n r /\
             document_relative file r href).

(** ** Concepts *)

(** [c] is the concept the element declaration [e] of schema [f] declares *)
Record declares_concept (f : schema_file) (file : string) (e : elem) (c : concept) : Prop := {
  dc_xsd : nspace (ename e) = "http://www.w3.org/2001/XMLSchema";
  dc_id : required (eattrs e) "id" (cID c);
  dc_name : required (eattrs e) "name" (nlocal (cXMLName c));
  dc_ns : optional (sf_attrs f) "targetNamespace" (nspace (cXMLName c));
  dc_type : exists t, required (eattrs e) "type" t /\ resolves (sf_attrs f) t (cType c);
  dc_subst : optional_qname (sf_attrs f) (eattrs e) "substitutionGroup" (cSubstitutionGroup c);
  dc_nillable : flag (eattrs e) "nillable" (cNillable c);
  dc_abstract : flag (eattrs e) "abstract" (cAbstract c);
  dc_period : optional_in "http://www.xbrl.org/2003/instance" (eattrs e) "periodType" (cPeriodType c);
  dc_balance : optional_in "http://www.xbrl.org/2003/instance" (eattrs e) "balance" (cBalance c);
  dc_typed : optional_ref file (eattrs e) "typedDomainRef" (cTypedDomainHref c) }.

(** ** Role types *)
Record declares_role (e : role_type_elem) (r : role_type) : Prop := {
  dr_link : nspace (rt_name e) = "http://www.xbrl.org/2003/linkbase";
  dr_id : required (rt_attrs e) "id" (rID r);
  dr_uri : required (rt_attrs e) "roleURI" (rRoleURI r);
  dr_def : (exists d t, rt_definition e = d :: t /\ rDefinition r = etext d) \/
           (rt_definition e = [] /\ rDefinition r = "");
  dr_used : image_of (fun u s => nspace (ename u) = "http://www.xbrl.org/2003/linkbase" /\ s = etext u)
                     (rt_usedOn e) (rUsedOn r) }.

(** every role type element of the schema that sits in an xsd annotation/appinfo *)
Definition role_elem_of (f : schema_file) (e : role_type_elem) : Prop :=
  exists a i, In a (sf_annotation f) /\ nspace (an_name a) = "http://www.w3.org/2001/XMLSchema" /\
              In i (an_appinfo a) /\ nspace (ai_name i) = "http://www.w3.org/2001/XMLSchema" /\
              In e (ai_roleType i).

(** ** Lookups *)

(** the schema document stored at a location *)
Definition document_at (q : qenv) (loc : string) (f : schema_file) : Prop :=
  (q_is_url q loc = true /\ q_discover q loc = GoBase.Ok f) \/
  (q_is_url q loc = false /\
   (In (loc, f) (q_schemas q) \/ (~ In loc (map fst (q_schemas q)) /\ f = SchemaFile [] [] [] [] []))).

(** concepts a schema document declares, in order *)
Definition concepts_of (f : schema_file) (loc : string) (cs : list concept) : Prop :=
  image_of (declares_concept f loc) (sf_element f) cs.

(** a folder: maps have distinct keys *)
Definition qenv_ok (q : qenv) : Prop :=
  NoDup (map fst (q_namespaces q)) /\ NoDup (map fst (q_schemas q)).

Definition unique_ids (cs : list concept) : Prop := NoDup (map cID cs).
Definition unique_names (cs : list concept) : Prop := NoDup (map (fun c => nlocal (cXMLName c)) cs).
