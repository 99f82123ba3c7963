(** * InstanceModel: pkg/hydratables/{instance,fact,precision,measurement}.go and
    the structs of pkg/serializables/{instanceFile,measurement}.go they read *)
From Verif Require Import GoBase AttrModel SchemaModel LinkbaseModel.
Local Open Scope string_scope.

(** ** Decoded XML (pkg/serializables/instanceFile.go:11-129) *)

(** segment and scenario: explicitMember and typedMember children; the text of a
    typedMember is its inner XML *)
Record seg_elem := SegElem { sg_explicit : list elem; sg_typed : list elem }.
Record entity_elem := EntityElem { en_identifier : list elem; en_segment : list seg_elem }.
Record period_elem := PeriodElem { pe_instant : list elem; pe_start : list elem; pe_end : list elem }.
Record context_elem := ContextElem {
  cx_name : xname; cx_attrs : list xattr; cx_entity : list entity_elem;
  cx_period : list period_elem; cx_scenario : list seg_elem }.
(** divide: the measure children of each unitNumerator and unitDenominator *)
Record divide_elem := DivideElem { dv_num : list (list elem); dv_den : list (list elem) }.
Record unit_elem := UnitElem {
  un_name : xname; un_attrs : list xattr; un_measure : list elem; un_divide : list divide_elem }.
Record fnlink_elem := FnLinkElem {
  fl_attrs : list xattr; fl_footnote : list elem; fl_loc : list elem; fl_arc : list elem }.
Record instance_file := InstanceFile {
  if_attrs : list xattr;
  if_schemaRef : list elem;
  if_context : list context_elem;
  if_unit : list unit_elem;
  if_fnlink : list fnlink_elem;
  if_facts : list elem }.

(** ** Hydrated types (instance.go:16-106, measurement.go:12-30, fact.go:11-19) *)
Record explicit_member := ExplicitMember {
  emDimHref : string; emDimValue : string; emMemHref : string; emMemText : string }.
Record tarc := TArc { taOrder : f64; taFrom : string; taTo : string }.
(** nil maps and slices are not distinguished from empty ones *)
Record typed_member := TypedMember {
  tmDimHref : string; tmDimValue : string; tmTypedDomainHref : string;
  tmMap : list (string * string); tmArcs : list tarc }.
Record dim_context := DimContext { dcExplicit : list explicit_member; dcTyped : list typed_member }.
Record context := Context {
  ctxID : string; ctxScheme : string; ctxIdentifier : string; ctxSegment : dim_context;
  ctxInstant : string; ctxStart : string; ctxEnd : string; ctxScenario : dim_context }.
Record measure := Measure { msName : xname; msText : string }.
Record unit_ := Unit { unID : string; unMeasure : measure; unNum : measure; unDen : measure }.
Record footnote := Footnote { fnID : string; fnHtml : string; fnLang : string; fnLabel : string }.
Record fn_arc := FnArc { faFrom : string; faTo : string; faArcrole : string }.
Record footnote_link := FootnoteLink {
  fkTitle : string; fkFootnotes : list footnote; fkLocs : list loc; fkArcs : list fn_arc }.
Record fact := Fact {
  fHref : string; fID : string; fContextRef : string; fUnitRef : string; fPrecision : Z;
  fIsNil : bool; fXMLInner : string }.
Record instance := Instance {
  iFileName : string; iContexts : list context; iUnits : list unit_;
  iFootnoteLinks : list footnote_link; iFacts : list fact }.

(** ** precision.go:5-6 *)
Definition Exact : Z := - 2 ^ 31.
Definition Precisionless : Z := Exact + 1.

(** the test [err != nil || ref == "" || concept == nil] after a NameQuery. NameQuery never
    panics (q_discover does not), so the Panic case below is unreachable. *)
Definition found (r : res (option (string * concept))) : option (string * concept) :=
  match r with
  | Ok (Some (href, c)) => if String.eqb href "" then None else Some (href, c)
  | _ => None
  end.

(** ** Typed members: instance.go:332-407 *)

(** the tokens of encoding/xml's [Decoder.Token]; comments, directives and
    processing instructions are [TokOther] *)
Inductive token := TokStart (n : xname) | TokEnd (n : xname) | TokChar (s : string) | TokOther.

(** strings.TrimSpace (instance.go:394, textBlock.go:111): the UTF-8 encodings of unicode.White_Space *)
Definition bytes (l : list N) : string := fold_right (fun n s => String (ascii_of_N n) s) "" l.
Definition spaces : list string :=
  map bytes
    [[9]; [10]; [11]; [12]; [13]; [32]; [0xC2; 0x85]; [0xC2; 0xA0]; [0xE1; 0x9A; 0x80];
     [0xE2; 0x80; 0x80]; [0xE2; 0x80; 0x81]; [0xE2; 0x80; 0x82]; [0xE2; 0x80; 0x83]; [0xE2; 0x80; 0x84];
     [0xE2; 0x80; 0x85]; [0xE2; 0x80; 0x86]; [0xE2; 0x80; 0x87]; [0xE2; 0x80; 0x88]; [0xE2; 0x80; 0x89];
     [0xE2; 0x80; 0x8A]; [0xE2; 0x80; 0xA8]; [0xE2; 0x80; 0xA9]; [0xE2; 0x80; 0xAF]; [0xE2; 0x81; 0x9F];
     [0xE3; 0x80; 0x80]]%N.
Fixpoint strip_prefix (p s : string) : option string :=
  match p, s with
  | "", _ => Some s
  | String a p', String b s' => if Ascii.eqb a b then strip_prefix p' s' else None
  | _, "" => None
  end.
Fixpoint first_stripped (ps : list string) (s : string) : option string :=
  match ps with
  | [] => None
  | p :: ps' => match strip_prefix p s with Some r => Some r | None => first_stripped ps' s end
  end.
Fixpoint strip_all (fuel : nat) (ps : list string) (s : string) : string :=
  match fuel with
  | O => s
  | S f => match first_stripped ps s with Some r => strip_all f ps r | None => s end
  end.
Fixpoint srev_onto (s acc : string) : string :=
  match s with "" => acc | String c r => srev_onto r (String c acc) end.
Definition srev (s : string) : string := srev_onto s "".
Definition trim_space (s : string) : string :=
  let l := strip_all (String.length s) spaces s in
  srev (strip_all (String.length l) (map srev spaces) (srev l)).

(** state of the loop 346-405: retMap, arcs, order, stack (top first), prev, prevHref *)
Record tm_state := TMState {
  ts_map : list (string * string); ts_arcs : list tarc; ts_order : nat;
  ts_stack : list (option concept); ts_prev : option concept; ts_prevHref : string }.

(** outcome of one token *)
Inductive tm_step := TMNext (s : tm_state) | TMNil | TMPanic.

(** instance.go:351-404: one iteration. [attrs] are the instance's top-level attributes. *)
Definition tm_token (q : qenv) (attrs : list xattr) (dimension : concept) (t : token) (s : tm_state) : tm_step :=
  match t with
  | TokStart n =>
      let name := xmlns attrs (nspace n ++ ":" ++ nlocal n) in
      if String.eqb (nspace name) "" then TMNext s else
      match name_query q (nspace name) (nlocal name) with
      | Err _ => TMNil
      | Panic => TMPanic
      | Ok r =>
          let currHref := match r with Some (h, _) => h | None => "" end in
          let curr := match r with Some (_, c) => Some c | None => None end in
          let order := S (ts_order s) in
          TMNext (TMState (ts_map s) (ts_arcs s ++ [TArc (f64_of_nat order) (ts_prevHref s) currHref])%list
                    order (curr :: ts_stack s) curr currHref)
      end
  | TokEnd n =>
      match ts_stack s with
      | [] => TMNil
      | popped :: rest =>
          let name := xmlns attrs (nspace n ++ ":" ++ nlocal n) in
          match popped with
          | None => TMPanic
          | Some c =>
              if negb (String.eqb (nlocal (cXMLName c)) (nlocal name)) &&
                 negb (String.eqb (nspace (cXMLName c)) (nspace name)) then TMNil
              else TMNext (TMState (ts_map s) (ts_arcs s) (ts_order s) rest
                             (match rest with p :: _ => p | [] => Some dimension end) (ts_prevHref s))
          end
      end
  | TokChar txt =>
      let str := trim_space txt in
      if String.eqb str "" then TMNext s else
      match ts_prev s with
      | None => TMPanic
      | Some c =>
          match name_query q (nspace (cXMLName c)) (nlocal (cXMLName c)) with
          | Err _ => TMNil
          | Panic => TMPanic
          | Ok r =>
              let href := match r with Some (h, _) => h | None => "" end in
              TMNext (TMState (sset href str (ts_map s)) (ts_arcs s) (ts_order s) (ts_stack s)
                        (ts_prev s) (ts_prevHref s))
          end
      end
  | TokOther => TMNext s
  end.
(** instance.go:346-406. The token list ends with io.EOF, as for the inner
    XML of an element that was decoded by encoding/xml, unless it holds a declaration of another encoding
    (TypedModel, C157). *)
Fixpoint tm_loop (q : qenv) (attrs : list xattr) (dimension : concept) (ts : list token) (s : tm_state)
  : res (list (string * string) * list tarc) :=
  match ts with
  | [] => Ok (ts_map s, ts_arcs s)
  | t :: rest =>
      match tm_token q attrs dimension t s with
      | TMNext s' => tm_loop q attrs dimension rest s'
      | TMNil => Ok ([], [])
      | TMPanic => Panic
      end
  end.
(** instance.go:332-407 [hydrateTypedMembers]; [tokens] is the tokenizer. The
    namespace reported by HashQuery is not used, so its map order is irrelevant. *)
Definition hydrate_typed_members (q : qenv) (tokens : string -> list token) (attrs : list xattr)
           (dimensionHref inner : string) : res (list (string * string) * list tarc) :=
  match hash_query (q_namespaces q) q dimensionHref with
  | Err _ => Ok ([], [])
  | Panic => Panic
  | Ok (_, dimension) =>
      tm_loop q attrs dimension (tokens inner) (TMState [] [] 0 [] (Some dimension) dimensionHref)
  end.

(** ** Contexts: instance.go:124-330 *)

(** resolving a dimension or member name: instance.go:159-166, 167-174, 201-208, ... *)
Definition resolve_name (q : qenv) (attrs : list xattr) (s : string) : option (string * concept) :=
  let n := xmlns attrs s in
  olet _ <- oguard (negb (String.eqb (nspace n) ""));
  found (name_query q (nspace n) (nlocal n)).

(** instance.go:154-192 (segment) and 249-287 (scenario). The scenario copy also
    skips an empty dimension attribute (251): [nonempty_dim]. *)
Definition hydrate_explicit_member (nonempty_dim : bool) (q : qenv) (attrs : list xattr) (e : elem)
  : option explicit_member :=
  olet dimAttr <- find_attr (eattrs e) "dimension";
  olet _ <- oguard (negb (nonempty_dim && String.eqb (avalue dimAttr) ""));
  olet (dimRef, _) <- resolve_name q attrs (avalue dimAttr);
  olet (memRef, _) <- resolve_name q attrs (etext e);
  Some (ExplicitMember dimRef (avalue dimAttr) memRef (etext e)).

(** instance.go:196-225 (segment) and 291-320 (scenario); [Ok None] is [continue] *)
Definition hydrate_typed_member (nonempty_dim : bool) (q : qenv) (tokens : string -> list token)
           (attrs : list xattr) (e : elem) : res (option typed_member) :=
  match (olet dimAttr <- find_attr (eattrs e) "dimension";
         olet _ <- oguard (negb (nonempty_dim && String.eqb (avalue dimAttr) ""));
         olet (dimRef, dimConcept) <- resolve_name q attrs (avalue dimAttr);
         Some (avalue dimAttr, dimRef, dimConcept)) with
  | None => Ok None
  | Some (v, dimRef, dimConcept) =>
      do ma <- hydrate_typed_members q tokens attrs dimRef (etext e);
      Ok (Some (TypedMember dimRef v (cTypedDomainHref dimConcept) (fst ma) (snd ma)))
  end.

(** a loop with [continue] whose body may panic *)
Fixpoint collectM {A B} (f : A -> res (option B)) (l : list A) : res (list B) :=
  match l with
  | [] => Ok []
  | x :: t => do y <- f x; do ys <- collectM f t;
              Ok (match y with Some z => z :: ys | None => ys end)
  end.

(** instance.go:150-228 and 245-323: only the first segment/scenario is read *)
Definition hydrate_dim_context (nonempty_dim : bool) (q : qenv) (tokens : string -> list token)
           (attrs : list xattr) (segs : list seg_elem) : res dim_context :=
  match segs with
  | [] => Ok (DimContext [] [])
  | s :: _ =>
      do tms <- collectM (hydrate_typed_member nonempty_dim q tokens attrs) (sg_typed s);
      Ok (DimContext (collect (hydrate_explicit_member nonempty_dim q attrs) (sg_explicit s)) tms)
  end.

Definition first_text (l : list elem) : string := match l with e :: _ => etext e | [] => "" end.

(** instance.go:126-325: one iteration; [context.Entity[0]] (137) panics without entity *)
Definition hydrate_context (q : qenv) (tokens : string -> list token) (attrs : list xattr) (e : context_elem)
  : res (option context) :=
  if negb (String.eqb (nspace (cx_name e)) XBRLI) then Ok None else
  match req (cx_attrs e) "id" with
  | None => Ok None
  | Some id =>
    match cx_entity e with
    | [] => Panic
    | entity :: _ =>
      match en_identifier entity with
      | [] => Ok None
      | idt :: _ =>
          if String.eqb (etext idt) "" then Ok None else
          match find_attr (eattrs idt) "scheme" with
          | None => Ok None
          | Some schemeAttr =>
              do segment <- hydrate_dim_context false q tokens attrs (en_segment entity);
              do scenario <- hydrate_dim_context true q tokens attrs (cx_scenario e);
              let '(instant, (st, en)) :=
                match cx_period e with
                | [] => ("", ("", ""))
                | p :: _ => (first_text (pe_instant p),
                             match pe_start p, pe_end p with
                             | s :: _, n :: _ => (etext s, etext n)
                             | _, _ => ("", "")
                             end)
                end in
              Ok (Some (Context id (avalue schemeAttr) (etext idt) segment instant st en scenario))
          end
      end
    end
  end.
(** instance.go:124-330 [hydrateContexts] *)
Definition hydrate_contexts (q : qenv) (tokens : string -> list token) (f : instance_file) : res (list context) :=
  do l <- collectM (hydrate_context q tokens (if_attrs f)) (if_context f);
  Ok (isort (fun a b => String.ltb (ctxID a) (ctxID b)) l).

(** ** Units: instance.go:409-464 *)
Definition zero_measure : measure := Measure (XName "" "") "".
Definition mk_measure (attrs : list xattr) (e : elem) : measure := Measure (xmlns attrs (etext e)) (etext e).
(** instance.go:411-457: one iteration *)
Definition hydrate_unit (attrs : list xattr) (e : unit_elem) : option unit_ :=
  olet _ <- oguard (String.eqb (nspace (un_name e)) XBRLI);
  olet id <- req (un_attrs e) "id";
  match un_measure e with
  | [] =>
      match un_divide e with
      | [] => None
      | d :: _ =>
          match dv_den d, dv_num d with
          | (den :: _) :: _, (num :: _) :: _ =>
              Some (Unit id zero_measure (mk_measure attrs num) (mk_measure attrs den))
          | _, _ => None
          end
      end
  | m :: _ => Some (Unit id (mk_measure attrs m) zero_measure zero_measure)
  end.
Definition hydrate_units (f : instance_file) : list unit_ :=
  isort (fun a b => String.ltb (unID a) (unID b)) (collect (hydrate_unit (if_attrs f)) (if_unit f)).

(** ** Facts: instance.go:466-522 *)
(** instance.go:490-501 *)
Definition hydrate_precision (attrs : list xattr) : Z :=
  match find_attr attrs "decimals" with
  | None => Precisionless
  | Some a => if String.eqb (avalue a) "INF" then Exact
              else match atoi (avalue a) with Some d => d | None => Precisionless end
  end.
(** instance.go:468-516: one iteration *)
Definition hydrate_fact (q : qenv) (e : elem) : option fact :=
  olet _ <- oguard (negb (String.eqb (nlocal (ename e)) "" || String.eqb (nspace (ename e)) ""));
  olet (factRef, _) <- found (name_query q (nspace (ename e)) (nlocal (ename e)));
  olet ctx <- req (eattrs e) "contextRef";
  Some (Fact factRef (attr_or_empty (eattrs e) "id") ctx (attr_or_empty (eattrs e) "unitRef")
             (hydrate_precision (eattrs e)) (attr_bool (eattrs e) "nil") (etext e)).
Definition hydrate_facts (q : qenv) (f : instance_file) : list fact :=
  isort (fun a b => String.ltb (fID a) (fID b)) (collect (hydrate_fact q) (if_facts f)).

(** ** Footnote links: instance.go:524-617; no attribute is tested for its namespace *)
Definition attr_is (attrs : list xattr) (n v : string) : option unit :=
  match find_attr attrs n with
  | Some a => oguard (String.eqb (avalue a) v)
  | None => None
  end.
(** pkg/attr/literals.go:13,15 *)
Definition ROLELINK := "http://www.xbrl.org/2003/role/link".
Definition FactFootnoteArcrole := "http://www.xbrl.org/2003/arcrole/fact-footnote".
(** instance.go:541-559 *)
Definition hydrate_fn_loc (e : elem) : option loc :=
  olet _ <- attr_is (eattrs e) "type" "locator";
  olet href <- req (eattrs e) "href";
  olet label <- req (eattrs e) "label";
  Some (Loc href label).
(** instance.go:561-585 *)
Definition hydrate_footnote (e : elem) : option footnote :=
  olet _ <- attr_is (eattrs e) "type" "resource";
  olet id <- req (eattrs e) "id";
  olet label <- req (eattrs e) "label";
  olet lang <- req (eattrs e) "lang";
  Some (Footnote id (etext e) lang label).
(** instance.go:587-610 *)
Definition hydrate_fn_arc (e : elem) : option fn_arc :=
  olet _ <- attr_is (eattrs e) "arcrole" FactFootnoteArcrole;
  olet _ <- attr_is (eattrs e) "type" "arc";
  olet from <- req (eattrs e) "from";
  olet to <- req (eattrs e) "to";
  Some (FnArc from to FactFootnoteArcrole).
(** instance.go:526-612 *)
Definition hydrate_footnote_link (e : fnlink_elem) : option footnote_link :=
  olet _ <- attr_is (fl_attrs e) "type" "extended";
  olet _ <- attr_is (fl_attrs e) "role" ROLELINK;
  Some (FootnoteLink (attr_or_empty (fl_attrs e) "title") (collect hydrate_footnote (fl_footnote e))
          (collect hydrate_fn_loc (fl_loc e)) (collect hydrate_fn_arc (fl_arc e))).
Definition hydrate_footnote_links (f : instance_file) : list footnote_link :=
  isort (fun a b => String.ltb (fkTitle a) (fkTitle b)) (collect hydrate_footnote_link (if_fnlink f)).

(** ** instance.go:108-122 [HydrateInstance] *)
Definition hydrate_instance (q : qenv) (tokens : string -> list token) (file : option instance_file)
           (fileName : string) : res instance :=
  if negb (nonempty fileName) then Err "empty file name" else
  match file with
  | None => Err "empty file"
  | Some f =>
      do cs <- hydrate_contexts q tokens f;
      Ok (Instance fileName cs (hydrate_units f) (hydrate_footnote_links f) (hydrate_facts q f))
  end.

(** ** fact.go *)

(** fact.go:21-30 [FindFact]; [insts] is the order in which the map Instances is visited *)
Definition find_fact (insts : list instance) (href contextRef : string) : option fact :=
  find (fun f => String.eqb (fHref f) href && String.eqb (fContextRef f) contextRef)
       (flat_map iFacts insts).

(** github.com/joshuanario/arcs: the tree [NewRArc] builds (via internal/graph/graph.go:7-9).
    Only the locator, the order and the children are ever read. The tree builder
    itself is external code. *)
Inductive rarc := RArc (locator : string) (order : f64) (children : list rarc).
Definition ra_locator (r : rarc) := let 'RArc l _ _ := r in l.
Definition ra_order (r : rarc) := let 'RArc _ o _ := r in o.
Definition ra_children (r : rarc) := let 'RArc _ _ c := r in c.
Record arc := Arc { arArcrole : string; arOrder : f64; arFrom : string; arTo : string }.

(** fact.go:32-43 [fnoteArcs] *)
Definition fnote_arcs (l : list fn_arc) : list arc :=
  map (fun ia => Arc (faArcrole (snd ia)) (f64_of_nat (fst ia)) (faFrom (snd ia)) (faTo (snd ia)))
      (combine (seq 0 (List.length l)) l).

(** fact.go:92-105 [mapFnoteLocatorToHref] *)
Definition map_fnote_locator_to_href (i : instance) (locator : string) : string :=
  match find (fun l => String.eqb (locLabel l) locator && has_char "#" (locHref l))
             (flat_map fkLocs (iFootnoteLinks i)) with
  | Some l => locHref l
  | None => "#" ++ locator
  end.

(** fact.go:60-67 and 71-78: what follows the last '#', if anything does *)
Fixpoint after_last_hash (s : string) : option string :=
  match s with
  | "" => None
  | String c r => match after_last_hash r with
                  | Some t => Some t
                  | None => if Ascii.eqb c "#" then Some r else None
                  end
  end.
Definition located_id (href : string) : string :=
  match after_last_hash href with
  | Some "" => href
  | Some t => t
  | None => href
  end.

(** fact.go:107-118 [FindFootnote] *)
Definition find_footnote (insts : list instance) (id : string) : option footnote :=
  find (fun f => String.eqb (fnID f) id)
       (flat_map fkFootnotes (flat_map iFootnoteLinks insts)).

(** fact.go:45-90 [GetFootnotes]. [order1] is the iteration order of the outer
    range, [order2] the one of FindFootnote's; [tree] is graph.Tree. *)
Section Footnotes.
  Variable tree : list arc -> string -> rarc.
  (** fact.go:58-86: the loop over the children of one link; [Some r] is [return r] *)
  Fixpoint fn_children (order2 : list instance) (i : instance) (factID : string) (cs : list rarc)
    : option (list footnote) :=
    match cs with
    | [] => None
    | c :: rest =>
        if String.eqb (located_id (map_fnote_locator_to_href i (ra_locator c))) factID
        then Some (collect (fun g => find_footnote order2
                                       (located_id (map_fnote_locator_to_href i (ra_locator g))))
                           (ra_children c))
        else fn_children order2 i factID rest
    end.
  (** fact.go:50-87: the links of one instance; [Some None] is [return nil] (56) *)
  Fixpoint fn_links (order2 : list instance) (i : instance) (factID : string) (ls : list footnote_link)
    : option (list footnote) :=
    match ls with
    | [] => None
    | l :: rest =>
        match ra_children (tree (fnote_arcs (fkArcs l)) FactFootnoteArcrole) with
        | [] => Some []
        | cs => match fn_children order2 i factID cs with
                | Some r => Some r
                | None => fn_links order2 i factID rest
                end
        end
    end.
  Fixpoint fn_instances (order1 order2 : list instance) (factID : string) : list footnote :=
    match order1 with
    | [] => []
    | i :: rest => match fn_links order2 i factID (iFootnoteLinks i) with
                   | Some r => r
                   | None => fn_instances rest order2 factID
                   end
    end.
  Definition get_footnotes (order1 order2 : list instance) (f : option fact) : list footnote :=
    match f with None => [] | Some f => fn_instances order1 order2 (fID f) end.
End Footnotes.

(** ** measurement.go *)
(** measurement.go:32-50 [Measurement] *)
Record measurement := Measurement {
  mUnitID : string; mUnitName : string; mNSUnit : string; mItemType : string; mNsItemType : string;
  mItemTypeDate : string; mSymbol : string; mDefinition : string; mBaseStandard : string;
  mConversionPresentation : string; mConversionContent : string; mStatus : string; mVersionDate : string;
  mNumeratorItemType : string; mNSNumeratorItemType : string; mDenominatorItemType : string;
  mNSDenominatorItemType : string }.
(** pkg/serializables/measurement.go: a unit element; every field is the list of
    child elements of that name (the text of the conversion elements is inner XML) *)
Record utr_unit := UtrUnit {
  uUnitID : list elem; uUnitName : list elem; uNSUnit : list elem; uItemType : list elem;
  uNSItemType : list elem; uItemTypeDate : list elem; uSymbol : list elem; uDefinition : list elem;
  uBaseStandard : list elem; uConversionPresentation : list elem; uConversionContent : list elem;
  uStatus : list elem; uVersionDate : list elem; uNumeratorItemType : list elem;
  uNSNumeratorItemType : list elem; uDenominatorItemType : list elem; uNSDenominatorItemType : list elem }.
Definition registry := list (string * list (string * measurement)).
(** measurement.go:84-139 *)
Definition map_measurement (u : utr_unit) : option measurement :=
  match uUnitID u, uUnitName u, uNSUnit u with
  | i :: _, n :: _, s :: _ =>
      if String.eqb (etext i) "" || String.eqb (etext n) "" || String.eqb (etext s) "" then None else
      Some (Measurement (etext i) (etext n) (etext s)
              (first_text (uItemType u)) (first_text (uNSItemType u)) (first_text (uItemTypeDate u))
              (first_text (uSymbol u)) (first_text (uDefinition u)) (first_text (uBaseStandard u))
              (first_text (uConversionPresentation u)) (first_text (uConversionContent u))
              (first_text (uStatus u)) (first_text (uVersionDate u))
              (first_text (uNumeratorItemType u)) (first_text (uNSNumeratorItemType u))
              (first_text (uDenominatorItemType u)) (first_text (uNSDenominatorItemType u)))
  | _, _, _ => None
  end.
(** measurement.go:140-143 *)
Definition add_measurement (r : registry) (m : measurement) : registry :=
  let inner := match sget (mNSUnit m) r with Some x => x | None => [] end in
  sset (mNSUnit m) (sset (mUnitID m) m inner) r.
(** measurement.go:79-147 [mapMeasurements]; the argument is the list of
    <units> elements, of which only the first is read *)
Definition map_measurements (units : list (list utr_unit)) : registry :=
  match units with
  | [] => []
  | us :: _ => fold_left add_measurement (collect map_measurement us) []
  end.
(** measurement.go:149-160 [queryUTR]; [utr] is the outcome of HydrateUnitTypeRegistry *)
Definition query_utr (utr : res registry) (nspc id : string) : option measurement :=
  match utr with
  | Ok r => match sget nspc r with Some us => sget id us | None => None end
  | _ => None
  end.
(** measurement.go:162-181 [FindMeasurement]. [insts] is the iteration order of Instances.
    Line 174 passes the numerator's local name for the denominator. *)
Definition find_measurement (utr : res registry) (insts : list instance) (unitRef : string)
  : option measurement * option measurement :=
  match find (fun u => String.eqb (unID u) unitRef) (flat_map iUnits insts) with
  | None => (None, None)
  | Some u =>
      if String.eqb (msText (unMeasure u)) "" then
        if String.eqb (msText (unNum u)) "" || String.eqb (msText (unDen u)) "" then (None, None)
        else (query_utr utr (nspace (msName (unNum u))) (nlocal (msName (unNum u))),
              query_utr utr (nspace (msName (unDen u))) (nlocal (msName (unNum u))))
      else (query_utr utr (nspace (msName (unMeasure u))) (nlocal (msName (unMeasure u))), None)
  end.
