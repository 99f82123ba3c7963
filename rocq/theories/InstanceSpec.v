(** * InstanceSpec: what loading an instance document promises *)
From Coq Require Import String Ascii List ZArith.
From Verif Require Import GoBase GoSpec AttrModel AttrSpec SchemaModel SchemaSpec LinkbaseModel InstanceModel.
Import ListNotations.
Local Open Scope string_scope.

(** ** Names *)

(** the folder's schemas declare [c] under that name; its href is [href] *)
Definition names (q : qenv) (nsp l href : string) (c : concept) : Prop :=
  exists loc f cs, In (nsp, loc) (q_namespaces q) /\ loc <> "" /\ document_at q loc f /\
    concepts_of f loc cs /\ first_such (fun c => cXMLName c = XName nsp l) cs c /\
    href = loc ++ "#" ++ cID c.
(** the prefixed name [s], read with the declarations [attrs], names [c] *)
Definition qname_names (q : qenv) (attrs : list xattr) (s href : string) (c : concept) : Prop :=
  exists n, resolves attrs s n /\ nspace n <> "" /\ names q (nspace n) (nlocal n) href c.

(** ** Decimals *)
Definition digit (c : ascii) (d : Z) : Prop :=
  In (c, d) [("0", 0); ("1", 1); ("2", 2); ("3", 3); ("4", 4); ("5", 5); ("6", 6); ("7", 7); ("8", 8); ("9", 9)]%char%Z.
Inductive numeral : string -> Z -> Prop :=
| num_one c d : digit c d -> numeral (String c "") d
| num_more s n c d : numeral s n -> digit c d -> numeral (s ++ String c "") (10 * n + d).
(** optionally signed numerals that fit a 64-bit integer *)
Definition int_literal (s : string) (z : Z) : Prop :=
  (- 2 ^ 63 <= z < 2 ^ 63)%Z /\
  (numeral s z \/ (exists r, s = "+" ++ r /\ numeral r z) \/ (exists r n, s = "-" ++ r /\ numeral r n /\ z = - n)%Z).

(** the three kinds of precision a fact can have *)
Inductive precision := PExact | PDecimals (n : Z) | PNone.
Inductive decimals_attr (attrs : list xattr) : precision -> Prop :=
| dec_inf : attr_val attrs "decimals" "INF" -> decimals_attr attrs PExact
| dec_num v n : attr_val attrs "decimals" v -> int_literal v n -> decimals_attr attrs (PDecimals n)
| dec_bad v : attr_val attrs "decimals" v -> v <> "INF" -> (forall n, ~ int_literal v n) -> decimals_attr attrs PNone
| dec_absent : no_attr attrs "decimals" -> decimals_attr attrs PNone.
(** how the three kinds are represented (pkg/hydratables/precision.go) *)
Definition encoded (p : precision) : Z :=
  match p with PExact => - 2147483648 | PDecimals n => n | PNone => - 2147483647 end%Z.

(** ** Facts *)
Record is_fact (q : qenv) (e : elem) (f : fact) : Prop := {
  if_name : exists c, nspace (ename e) <> "" /\ nlocal (ename e) <> "" /\
                      names q (nspace (ename e)) (nlocal (ename e)) (fHref f) c;
  if_ctx : required (eattrs e) "contextRef" (fContextRef f);
  if_id : optional (eattrs e) "id" (fID f);
  if_unitref : optional (eattrs e) "unitRef" (fUnitRef f);
  if_prec : exists p, decimals_attr (eattrs e) p /\ fPrecision f = encoded p;
  if_nil : flag (eattrs e) "nil" (fIsNil f);
  if_inner : fXMLInner f = etext e }.

(** ** Contexts *)
Section Contexts.
  Variables (q : qenv) (attrs : list xattr).
  (** what a typed member's content is read as (see the theorems of C43) *)
  Variable content : string -> string -> list (string * string) * list tarc -> Prop.

  Definition is_explicit (e : elem) (m : explicit_member) : Prop :=
    attr_val (eattrs e) "dimension" (emDimValue m) /\
    (exists c, qname_names q attrs (emDimValue m) (emDimHref m) c) /\
    emMemText m = etext e /\ (exists c, qname_names q attrs (etext e) (emMemHref m) c).
  Definition is_typed (e : elem) (m : typed_member) : Prop :=
    attr_val (eattrs e) "dimension" (tmDimValue m) /\
    (exists c, qname_names q attrs (tmDimValue m) (tmDimHref m) c /\ tmTypedDomainHref m = cTypedDomainHref c) /\
    content (tmDimHref m) (etext e) (tmMap m, tmArcs m).
  (** the members of the (first) segment or scenario *)
  Definition members_of (segs : list seg_elem) (d : dim_context) : Prop :=
    (segs = [] /\ d = DimContext [] []) \/
    exists s r, segs = s :: r /\ image_of is_explicit (sg_explicit s) (dcExplicit d) /\
                image_of is_typed (sg_typed s) (dcTyped d).
  Definition text_of (l : list elem) (t : string) : Prop :=
    (exists e r, l = e :: r /\ t = etext e) \/ (l = [] /\ t = "").
  Inductive period_of : list period_elem -> string -> string -> string -> Prop :=
  | per_none : period_of [] "" "" ""
  | per_duration p r i s rs n rn : text_of (pe_instant p) i -> pe_start p = s :: rs -> pe_end p = n :: rn ->
      period_of (p :: r) i (etext s) (etext n)
  | per_instant p r i : text_of (pe_instant p) i -> (pe_start p = [] \/ pe_end p = []) -> period_of (p :: r) i "" "".
  Record is_context (e : context_elem) (c : context) : Prop := {
    ic_ns : nspace (cx_name e) = "http://www.xbrl.org/2003/instance";
    ic_id : required (cx_attrs e) "id" (ctxID c);
    ic_entity : exists en ens idt idts, cx_entity e = en :: ens /\ en_identifier en = idt :: idts /\
        etext idt <> "" /\ ctxIdentifier c = etext idt /\ attr_val (eattrs idt) "scheme" (ctxScheme c) /\
        members_of (en_segment en) (ctxSegment c);
    ic_period : period_of (cx_period e) (ctxInstant c) (ctxStart c) (ctxEnd c);
    ic_scenario : members_of (cx_scenario e) (ctxScenario c) }.
End Contexts.

(** ** Units *)
Definition is_measure (attrs : list xattr) (e : elem) (m : measure) : Prop :=
  resolves attrs (etext e) (msName m) /\ msText m = etext e.
Definition no_measure : measure := Measure (XName "" "") "".
Definition is_unit (attrs : list xattr) (e : unit_elem) (u : unit_) : Prop :=
  nspace (un_name e) = "http://www.xbrl.org/2003/instance" /\ required (un_attrs e) "id" (unID u) /\
  ((exists m r, un_measure e = m :: r /\ is_measure attrs m (unMeasure u) /\
      unNum u = no_measure /\ unDen u = no_measure) \/
   (exists d r num rn nums den rd dens, un_measure e = [] /\ un_divide e = d :: r /\
      dv_num d = (num :: rn) :: nums /\ dv_den d = (den :: rd) :: dens /\
      is_measure attrs num (unNum u) /\ is_measure attrs den (unDen u) /\ unMeasure u = no_measure)).

(** ** Footnote links *)
Definition is_fn_loc (e : elem) (l : loc) : Prop :=
  attr_val (eattrs e) "type" "locator" /\ required (eattrs e) "href" (locHref l) /\
  required (eattrs e) "label" (locLabel l).
Definition is_footnote (e : elem) (f : footnote) : Prop :=
  attr_val (eattrs e) "type" "resource" /\ required (eattrs e) "id" (fnID f) /\
  required (eattrs e) "label" (fnLabel f) /\ required (eattrs e) "lang" (fnLang f) /\ fnHtml f = etext e.
Definition is_fn_arc (e : elem) (a : fn_arc) : Prop :=
  attr_val (eattrs e) "type" "arc" /\
  attr_val (eattrs e) "arcrole" "http://www.xbrl.org/2003/arcrole/fact-footnote" /\
  faArcrole a = "http://www.xbrl.org/2003/arcrole/fact-footnote" /\
  required (eattrs e) "from" (faFrom a) /\ required (eattrs e) "to" (faTo a).
Definition is_footnote_link (e : fnlink_elem) (l : footnote_link) : Prop :=
  attr_val (fl_attrs e) "type" "extended" /\
  attr_val (fl_attrs e) "role" "http://www.xbrl.org/2003/role/link" /\
  optional (fl_attrs e) "title" (fkTitle l) /\
  image_of is_footnote (fl_footnote e) (fkFootnotes l) /\
  image_of is_fn_loc (fl_loc e) (fkLocs l) /\
  image_of is_fn_arc (fl_arc e) (fkArcs l).

(** ** Footnotes of a fact *)

(** where a locator label of the instance points *)
Definition loc_points (i : instance) (label href : string) : Prop :=
  first_such (fun l => locLabel l = label /\ ~ free_of "#" (locHref l))
             (flat_map fkLocs (iFootnoteLinks i)) (Loc href label) \/
  ((forall l, In l (flat_map fkLocs (iFootnoteLinks i)) -> locLabel l = label -> free_of "#" (locHref l)) /\
   href = "#" ++ label).
(** the id an href refers to *)
Definition refers (href id : string) : Prop :=
  (exists b, href = b ++ "#" ++ id /\ free_of "#" id /\ id <> "") \/
  ((forall b x, href = b ++ "#" ++ x -> free_of "#" x -> x = "") /\ id = href).
Definition label_refers (i : instance) (label id : string) : Prop :=
  exists href, loc_points i label href /\ refers href id.

(** The tree built from arcs: assumption on the external package. Its top nodes
    are the sources that are no targets, and their children are their targets. *)
Definition top_arc (arcs : list arc) (role s t : string) : Prop :=
  (exists a, In a arcs /\ arArcrole a = role /\ arFrom a = s /\ arTo a = t) /\
  (forall a, In a arcs -> arArcrole a = role -> arTo a <> s).
Definition faithful_tree (tree : list arc -> string -> rarc) : Prop :=
  forall arcs role,
    NoDup (map ra_locator (ra_children (tree arcs role))) /\
    (forall c, In c (ra_children (tree arcs role)) ->
       exists g, In g (ra_children c)) /\
    (forall s t, top_arc arcs role s t <->
       exists c g, In c (ra_children (tree arcs role)) /\ In g (ra_children c) /\
                   ra_locator c = s /\ ra_locator g = t).

(** the XBRL meaning: an arc of a footnote link leads from a locator of the fact to
    the footnote resource labelled by its target *)
Definition linked (insts : list instance) (factID : string) (f : footnote) : Prop :=
  exists i l a, In i insts /\ In l (iFootnoteLinks i) /\ In a (fkArcs l) /\
    label_refers i (faFrom a) factID /\ In f (fkFootnotes l) /\ fnLabel f = faTo a.
(** what the code relates: the target label leads to the *id* of the footnote,
    looked up in all links of all instances *)
Definition linked_by_id (order2 : list instance) (i : instance) (l : footnote_link) (factID : string) (f : footnote) : Prop :=
  exists a id, In a (fkArcs l) /\ (forall b, In b (fkArcs l) -> faTo b <> faFrom a) /\
    label_refers i (faFrom a) factID /\ label_refers i (faTo a) id /\
    first_such (fun f => fnID f = id) (flat_map fkFootnotes (flat_map iFootnoteLinks order2)) f.

(** ** Typed members *)
Inductive node := NText (s : string) | NElem (n : xname) (kids : list node) | NOther.
Fixpoint node_tokens (t : node) : list token :=
  match t with
  | NText s => [TokChar s]
  | NOther => [TokOther]
  | NElem n kids => TokStart n :: flat_map node_tokens kids ++ [TokEnd n]
  end.
Definition forest_tokens (f : list node) : list token := flat_map node_tokens f.

(** every element name in the content is declared by the folder's schemas *)
Fixpoint node_named (R : xname -> string -> Prop) (t : node) : Prop :=
  match t with
  | NElem n kids => (exists h, R n h) /\ fold_right (fun t P => node_named R t /\ P) True kids
  | _ => True
  end.
Definition forest_named (R : xname -> string -> Prop) (f : list node) : Prop :=
  fold_right (fun t P => node_named R t /\ P) True f.

(** elements in document order with the element that contains them *)
Inductive nested (href : xname -> string) : string -> node -> list (string * string) -> Prop :=
| ns_text p s : nested href p (NText s) []
| ns_other p : nested href p NOther []
| ns_elem p n kids l : nested_list href (href n) kids l -> nested href p (NElem n kids) ((p, href n) :: l)
with nested_list (href : xname -> string) : string -> list node -> list (string * string) -> Prop :=
| nsl_nil p : nested_list href p [] []
| nsl_cons p t ts l1 l2 : nested href p t l1 -> nested_list href p ts l2 -> nested_list href p (t :: ts) (l1 ++ l2).

(** texts in document order with the element that contains them *)
Inductive texts (href : xname -> string) : string -> node -> list (string * string) -> Prop :=
| tx_text p s : texts href p (NText s) [(p, s)]
| tx_other p : texts href p NOther []
| tx_elem p n kids l : texts_list href (href n) kids l -> texts href p (NElem n kids) l
with texts_list (href : xname -> string) : string -> list node -> list (string * string) -> Prop :=
| txl_nil p : texts_list href p [] []
| txl_cons p t ts l1 l2 : texts href p t l1 -> texts_list href p ts l2 -> texts_list href p (t :: ts) (l1 ++ l2).

(** at most one element among the children, at every level *)
Definition is_elem (k : node) : bool := match k with NElem _ _ => true | _ => false end.
Fixpoint linear_node (t : node) : Prop :=
  match t with
  | NElem n kids => (length (filter is_elem kids) <= 1)%nat /\
                    fold_right (fun t P => linear_node t /\ P) True kids
  | _ => True
  end.
Definition linear (f : list node) : Prop :=
  (length (filter is_elem f) <= 1)%nat /\
  fold_right (fun t P => linear_node t /\ P) True f.

(** the white space of XML at both ends removed *)
Definition ws (c : ascii) : Prop := In c ["009"; "010"; "011"; "012"; "013"; " "]%char.
Definition all_ws (s : string) : Prop := forall c, ~ free_of c s -> ws c.
Definition trimmed (s t : string) : Prop :=
  exists a b, s = a ++ t ++ b /\ all_ws a /\ all_ws b /\
    (forall c r, t = String c r -> ~ ws c) /\ (forall c r, t = r ++ String c "" -> ~ ws c).

(** Unicode white space in UTF-8, and the same at both ends removed *)
Definition utf8 (l : list nat) : string := fold_right (fun n s => String (ascii_of_nat n) s) "" l.
Definition white_space (s : string) : Prop :=
  In s (map utf8 [[9]; [10]; [11]; [12]; [13]; [32]; [194; 133]; [194; 160]; [225; 154; 128]; [226; 129; 159];
                  [227; 128; 128]]) \/
  (exists n, s = utf8 [226; 128; n] /\ (128 <= n <= 138 \/ n = 168 \/ n = 169 \/ n = 175)%nat).
Inductive all_white : string -> Prop :=
| aw_nil : all_white ""
| aw_cons w s : white_space w -> all_white s -> all_white (w ++ s).
Definition trimmed_text (s t : string) : Prop :=
  exists a b, s = a ++ t ++ b /\ all_white a /\ all_white b /\
    (forall w r, white_space w -> t <> w ++ r) /\ (forall w r, white_space w -> t <> r ++ w).

(** ** Unit type registry *)
Record is_measurement (u : utr_unit) (m : measurement) : Prop := {
  im_id : exists e r, uUnitID u = e :: r /\ etext e = mUnitID m /\ mUnitID m <> "";
  im_name : exists e r, uUnitName u = e :: r /\ etext e = mUnitName m /\ mUnitName m <> "";
  im_ns : exists e r, uNSUnit u = e :: r /\ etext e = mNSUnit m /\ mNSUnit m <> "";
  im_item : text_of (uItemType u) (mItemType m);
  im_nsitem : text_of (uNSItemType u) (mNsItemType m);
  im_date : text_of (uItemTypeDate u) (mItemTypeDate m);
  im_symbol : text_of (uSymbol u) (mSymbol m);
  im_def : text_of (uDefinition u) (mDefinition m);
  im_base : text_of (uBaseStandard u) (mBaseStandard m);
  im_conv : text_of (uConversionPresentation u) (mConversionPresentation m);
  im_convc : text_of (uConversionContent u) (mConversionContent m);
  im_status : text_of (uStatus u) (mStatus m);
  im_version : text_of (uVersionDate u) (mVersionDate m);
  im_num : text_of (uNumeratorItemType u) (mNumeratorItemType m);
  im_nsnum : text_of (uNSNumeratorItemType u) (mNSNumeratorItemType m);
  im_den : text_of (uDenominatorItemType u) (mDenominatorItemType m);
  im_nsden : text_of (uNSDenominatorItemType u) (mNSDenominatorItemType m) }.

(** [us] are the units of the registry's first list; [m] is the last complete
    entry for that namespace and id *)
Definition registered (us : list utr_unit) (nsp id : string) (m : measurement) : Prop :=
  exists ms, image_of is_measurement us ms /\ last_such (fun m => mNSUnit m = nsp /\ mUnitID m = id) ms m.
