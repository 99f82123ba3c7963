(** * SchemaModel: pkg/hydratables/schema.go, query.go and the parts of
    pkg/serializables/schemaFile.go they read. *)
From Verif Require Import GoBase AttrModel.
Local Open Scope string_scope.

(** pkg/attr/literals.go:7,10 *)
Definition XSD := "http://www.w3.org/2001/XMLSchema".
Definition XBRLDT := "http://xbrl.org/2005/xbrldt".

(** An XML element as encoding/xml decodes it into the anonymous structs of
    pkg/serializables: name, attributes and character data (or inner XML). *)
Record elem := Elem { ename : xname; eattrs : list xattr; etext : string }.

(** pkg/serializables/schemaFile.go:42-55 (roleType) *)
Record role_type_elem := RoleTypeElem {
  rt_name : xname; rt_attrs : list xattr;
  rt_definition : list elem; rt_usedOn : list elem }.
(** pkg/serializables/schemaFile.go:30-56 (appinfo); its [definition] children
    are never read and are left out. *)
Record appinfo_elem := AppinfoElem {
  ai_name : xname; ai_linkbaseRef : list elem; ai_roleType : list role_type_elem }.
(** pkg/serializables/schemaFile.go:22-57 (annotation), likewise *)
Record annotation_elem := AnnotationElem { an_name : xname; an_appinfo : list appinfo_elem }.
(** pkg/serializables/schemaFile.go:11-63 [SchemaFile] *)
Record schema_file := SchemaFile {
  sf_attrs : list xattr;
  sf_include : list elem;
  sf_import : list elem;
  sf_annotation : list annotation_elem;
  sf_element : list elem }.
(** Go's zero value *)
Definition empty_schema_file := SchemaFile [] [] [] [] [].

(** pkg/hydratables/schema.go:15-25 [Concept] *)
Record concept := Concept {
  cXMLName : xname; cID : string; cType : xname; cSubstitutionGroup : xname;
  cNillable : bool; cPeriodType : string; cBalance : string; cAbstract : bool;
  cTypedDomainHref : string }.
(** pkg/hydratables/schema.go:41-48 [RoleType] *)
Record role_type := RoleType {
  rRoleURI : string; rID : string; rDefinition : string; rUsedOn : list string }.
(** pkg/hydratables/schema.go:27-39 [Schema] with the embedded [Annotation] and [Appinfo] *)
Record schema := Schema {
  sFileName : string; sRoleTypes : list role_type; sElement : list concept }.

(** the recurrent test [a == nil || a.Value == ""] *)
Definition attr_nonempty (attrs : list xattr) (n : string) : option xattr :=
  match find_attr attrs n with
  | Some a => if String.eqb (avalue a) "" then None else Some a
  | None => None
  end.

(** [a := FindAttr(..); v := ""; if a != nil { v = a.Value }] *)
Definition attr_or_empty (attrs : list xattr) (n : string) : string :=
  match find_attr attrs n with Some a => avalue a | None => "" end.

(** pkg/hydratables/schema.go:64-70 [hydrateTargetNamespace] *)
Definition hydrate_target_namespace (f : schema_file) : string :=
  attr_or_empty (sf_attrs f) "targetNamespace".

(** pkg/hydratables/schema.go:104-132: body of the loop of [hydrateAnnotation];
    [None] is [continue]. *)
Definition hydrate_role_type (rt : role_type_elem) : option role_type :=
  if negb (String.eqb (nspace (rt_name rt)) LINK) then None else
  match attr_nonempty (rt_attrs rt) "id" with
  | None => None
  | Some idAttr =>
    match attr_nonempty (rt_attrs rt) "roleURI" with
    | None => None
    | Some uriAttr =>
        Some (RoleType (avalue uriAttr) (avalue idAttr)
                (match rt_definition rt with d :: _ => etext d | [] => "" end)
                (map etext (filter (fun u => String.eqb (nspace (ename u)) LINK) (rt_usedOn rt))))
    end
  end.

(** a Go loop [for _, x := range l { ...; if c { continue }; ret = append(ret, y) }] *)
Fixpoint collect {A B} (f : A -> option B) (l : list A) : list B :=
  match l with
  | [] => []
  | x :: t => match f x with Some y => y :: collect f t | None => collect f t end
  end.

(** pkg/hydratables/schema.go:88-139 [hydrateAnnotation] *)
Definition hydrate_annotation (f : schema_file) : list role_type :=
  match sf_annotation f with
  | [] => []
  | a :: _ =>
      if negb (String.eqb (nspace (an_name a)) XSD) then [] else
      match an_appinfo a with
      | [] => []
      | i :: _ =>
          if negb (String.eqb (nspace (ai_name i)) XSD) then []
          else collect hydrate_role_type (ai_roleType i)
      end
  end.

(** pkg/hydratables/schema.go:166-173 and 179-186 *)
Definition attr_bool (attrs : list xattr) (n : string) : bool :=
  match find_attr attrs n with
  | None => false
  | Some a => match parse_bool (avalue a) with Some v => v | None => false end
  end.

(** pkg/hydratables/schema.go:174-178 and 187-191 *)
Definition attr_xbrli (attrs : list xattr) (n : string) : string :=
  match find_attr attrs n with
  | Some a => if String.eqb (nspace (aname a)) XBRLI then avalue a else ""
  | None => ""
  end.

(** pkg/hydratables/schema.go:192-200 *)
Definition typed_domain_href (attrs : list xattr) (fileName : string) : string :=
  match find_attr attrs "typedDomainRef" with
  | Some a =>
      if String.eqb (nspace (aname a)) XBRLDT then
        match cut "#" (avalue a) with
        | Some ("", _) => fileName ++ avalue a
        | _ => avalue a
        end
      else ""
  | None => ""
  end.

(** pkg/hydratables/schema.go:146-214: body of the loop of [hydrateConcepts] *)
Definition hydrate_concept (tlAttrs : list xattr) (targetNS fileName : string) (e : elem)
  : option concept :=
  if negb (String.eqb (nspace (ename e)) XSD) then None else
  match attr_nonempty (eattrs e) "id" with
  | None => None
  | Some idAttr =>
  match attr_nonempty (eattrs e) "name" with
  | None => None
  | Some nameAttr =>
  match attr_nonempty (eattrs e) "type" with
  | None => None
  | Some typeAttr =>
      Some (Concept
        (XName targetNS (avalue nameAttr))
        (avalue idAttr)
        (xmlns tlAttrs (avalue typeAttr))
        (match attr_nonempty (eattrs e) "substitutionGroup" with
         | Some a => xmlns tlAttrs (avalue a) | None => XName "" "" end)
        (attr_bool (eattrs e) "nillable")
        (attr_xbrli (eattrs e) "periodType")
        (attr_xbrli (eattrs e) "balance")
        (attr_bool (eattrs e) "abstract")
        (typed_domain_href (eattrs e) fileName))
  end end end.

(** pkg/hydratables/schema.go:141-217 [hydrateConcepts] *)
Definition hydrate_concepts (f : schema_file) (fileName : string) : list concept :=
  collect (hydrate_concept (sf_attrs f) (hydrate_target_namespace f) fileName) (sf_element f).

(** pkg/hydratables/schema.go:50-62 [HydrateSchema]; [None] is a nil file. *)
Definition hydrate_schema (file : option schema_file) (fileName : string) : res schema :=
  if negb (nonempty fileName) then Err "empty file name" else
  match file with
  | None => Err "empty file"
  | Some f => Ok (Schema fileName (hydrate_annotation f) (hydrate_concepts f fileName))
  end.

(** ** pkg/hydratables/schema.go:219-248 [Stack] *)
(** The receiver is a pointer to a slice header; the model separates the heap of
    backing arrays (a map from array ids to contents) from the header (array id
    and length), so that aliasing between copies is visible. Growth inside the
    capacity is in place, as in Go; [cap] is the length of the backing array. *)
Section StackModel.
  Context {A : Type}.
  Definition heap := list (list A).
  Record slice := Slice { s_arr : nat; s_len : nat }.
  Definition arr_of (h : heap) (s : slice) : list A := nth (s_arr s) h [].
  (** the elements of the slice *)
  Definition contents (h : heap) (s : slice) : list A := firstn (s_len s) (arr_of h s).
  Fixpoint set_nth {B} (n : nat) (x : B) (l : list B) : list B :=
    match n, l with
    | _, [] => []
    | O, _ :: t => x :: t
    | S m, y :: t => y :: set_nth m x t
    end.
  (** Go's [append(s, x)] with growth to [grow] extra (zero) cells *)
  Definition append1 (grow : list A) (h : heap) (s : slice) (x : A) : heap * slice :=
    if (s_len s <? List.length (arr_of h s))%nat then
      (set_nth (s_arr s) (set_nth (s_len s) x (arr_of h s)) h, Slice (s_arr s) (S (s_len s)))
    else
      ((h ++ [contents h s ++ x :: grow])%list, Slice (List.length h) (S (s_len s))).
  (** schema.go:222-224 [IsEmpty] *)
  Definition stack_is_empty (s : slice) : bool := (s_len s =? 0)%nat.
  (** schema.go:227-229 [Push] *)
  Definition stack_push (grow : list A) (h : heap) (s : slice) (x : A) := append1 grow h s x.
  (** schema.go:232-241 [Pop]; the second component is the returned element, [None] is
      [(nil, false)]. *)
  Definition stack_pop (h : heap) (s : slice) : slice * option A :=
    if stack_is_empty s then (s, None)
    else (Slice (s_arr s) (s_len s - 1), nth_error (contents h s) (s_len s - 1)).
  (** schema.go:243-248 [Copy] *)
  Definition stack_copy (h : heap) (s : slice) : heap * slice :=
    ((h ++ [contents h s])%list, Slice (List.length h) (s_len s)).
End StackModel.

(** ** pkg/hydratables/query.go *)

(** What the queries read: the folder's Namespaces and Schemas maps
    (pkg/serializables/folder.go), [attr.IsValidUrl] (pkg/attr/url.go:5-17) and
    [serializables.DiscoverGlobalSchema] (global file store). The last two are
    external code: arbitrary functions. *)
Record qenv := QEnv {
  q_namespaces : list (string * string);
  q_schemas : list (string * schema_file);
  q_is_url : string -> bool;
  q_discover : string -> res schema_file }.

(** pkg/hydratables/global.go:21-46 [HydrateGlobalSchema] on a cache miss (the
    cache is modelled in CacheModel). *)
Definition hydrate_global_schema (q : qenv) (url : string) : res schema :=
  do f <- q_discover q url; hydrate_schema (Some f) url.

(** query.go:30-43 and 59-72: the schema stored at [loc]; a missing key of
    [Folder.Schemas] gives Go's zero [SchemaFile]. *)
Definition schema_at (q : qenv) (loc : string) : res schema :=
  if q_is_url q loc then hydrate_global_schema q loc
  else hydrate_schema
         (Some (match sget loc (q_schemas q) with Some f => f | None => empty_schema_file end)) loc.

(** query.go:25-29; [order] is the order in which the range loop visits
    [Folder.Namespaces] *)
Definition namespace_of (order : list (string * string)) (base : string) : string :=
  fold_left (fun acc kv => if String.eqb (snd kv) base then fst kv else acc) order "".

(** query.go:10-50 [HashQuery]. On error Go also returns a namespace (or "") and
    a nil concept: only the error is kept. *)
Definition hash_query (order : list (string * string)) (q : qenv) (query : string)
  : res (string * concept) :=
  match cut "#" query with
  | None => Err "invalid query"
  | Some (base, fragment) =>
      if negb (nonempty base) then Err "invalid base query" else
      if negb (nonempty fragment) then Err "invalid query fragment" else
      do s <- schema_at q base;
      match find (fun c => String.eqb fragment (cID c)) (sElement s) with
      | Some c => Ok (namespace_of order base, c)
      | None => Err ("concept not found " ++ query)
      end
  end.

(** query.go:52-79 [NameQuery]; [Ok None] is ("", nil, nil). *)
Definition name_query (q : qenv) (nspc localName : string) : res (option (string * concept)) :=
  let schemaLoc := match sget nspc (q_namespaces q) with Some l => l | None => "" end in
  if negb (nonempty schemaLoc) then Err (nspc ++ " is not scoped into the folder") else
  do s <- schema_at q schemaLoc;
  match find (fun c => String.eqb localName (nlocal (cXMLName c)) &&
                       String.eqb nspc (nspace (cXMLName c))) (sElement s) with
  | Some c => Ok (Some (schemaLoc ++ "#" ++ cID c, c))
  | None => Ok None
  end.

(** query.go:81-92 [EntityQuery]; [names] is the outcome of [HydrateEntityNames]
    (global.go:52-74): a map from scheme to a map from identifier to name. *)
Definition entity_query (names : res (list (string * list (string * string))))
           (scheme chardata : string) : res string :=
  do ns <- names;
  match sget scheme ns with
  | Some x => match sget chardata x with
              | Some y => Ok y
              | None => Ok (scheme ++ "/" ++ chardata)
              end
  | None => Ok (scheme ++ "/" ++ chardata)
  end.
