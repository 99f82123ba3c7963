(** * LinkbaseModel: pkg/hydratables/{linkbase,presentationLinkbase,
    definitionLinkbase,calculationLinkbase,labelLinkbase}.go *)
From Coq Require Export SpecFloat.
From Verif Require Import GoBase AttrModel SchemaModel.
Local Open Scope string_scope.

(** Go's float64 as an IEEE 754 datum. *)
Definition f64 := spec_float.
(** math.MaxFloat64 *)
Definition max_float64 : f64 := S754_finite false 9007199254740991 971.
(** float64(n) for an int n >= 0 *)
Definition f64_of_nat (n : nat) : f64 := SpecFloat.binary_normalize 53 1024 (Z.of_nat n) 0 false.

(** [if c { continue }] *)
Definition obind {A B} (o : option A) (f : A -> option B) : option B :=
  match o with Some a => f a | None => None end.
Notation "'olet' x <- o ; k" := (obind o (fun x => k))
  (at level 200, x pattern, o at level 100, k at level 200).
Definition oguard (b : bool) : option unit := if b then Some tt else None.

(** [a == nil || a.Value == ""] leads to [continue] *)
Definition req (attrs : list xattr) (n : string) : option string :=
  match find_attr attrs n with
  | Some a => if String.eqb (avalue a) "" then None else Some (avalue a)
  | None => None
  end.
(** [a == nil || a.Name.Space != attr.XLINK || a.Value == ""] leads to [continue] *)
Definition xreq (attrs : list xattr) (n : string) : option string :=
  match find_attr attrs n with
  | Some a => if negb (String.eqb (nspace (aname a)) XLINK) then None
              else if String.eqb (avalue a) "" then None else Some (avalue a)
  | None => None
  end.
(** [a == nil || a.Name.Space != attr.XLINK || a.Value != v] leads to [continue] *)
Definition xtype_is (attrs : list xattr) (v : string) : option unit :=
  match find_attr attrs "type" with
  | Some a => if negb (String.eqb (nspace (aname a)) XLINK) then None
              else if negb (String.eqb (avalue a) v) then None else Some tt
  | None => None
  end.

(** pkg/hydratables/linkbase.go:3-11 *)
Record role_ref := RoleRef { rrRoleURI : string; rrHref : string }.
Record loc := Loc { locHref : string; locLabel : string }.

(** presentationLinkbase.go:20-24, definitionLinkbase.go:23-27,
    calculationLinkbase.go:20-24: the three link types differ only in the arcs. *)
Record link (arc : Type) := Link { lRole : string; lLocs : list loc; lArcs : list arc }.
Arguments Link {arc}. Arguments lRole {arc}. Arguments lLocs {arc}. Arguments lArcs {arc}.
(** presentationLinkbase.go:26-30, definitionLinkbase.go:29-33, calculationLinkbase.go:26-30 *)
Record linkbase (arc : Type) := Linkbase {
  lbFileName : string; lbRoleRefs : list role_ref; lbLinks : list (link arc) }.
Arguments Linkbase {arc}. Arguments lbFileName {arc}. Arguments lbRoleRefs {arc}. Arguments lbLinks {arc}.

(** The decoded XML: presentationLinkbaseFile.go, definitionLinkbaseFile.go:11-28,
    calculationLinkbaseFile.go, labelLinkbaseFile.go:11-34. [le_labels] is only
    filled for label links. *)
Record link_elem := LinkElem {
  le_attrs : list xattr; le_loc : list elem; le_arc : list elem; le_labels : list elem }.
Record linkbase_file := LinkbaseFile { lf_roleRef : list elem; lf_links : list link_elem }.

(** presentationLinkbase.go:48-68, definitionLinkbase.go:51-71,
    calculationLinkbase.go:48-68, labelLinkbase.go:54-74 (four identical copies) *)
Definition hydrate_role_ref (e : elem) : option role_ref :=
  olet _ <- oguard (String.eqb (nspace (ename e)) LINK);
  olet uri <- req (eattrs e) "roleURI";
  olet href <- xreq (eattrs e) "href";
  Some (RoleRef uri href).

(** presentationLinkbase.go:86-103, definitionLinkbase.go:89-106,
    calculationLinkbase.go:86-103, labelLinkbase.go:92-109 (four identical copies) *)
Definition hydrate_loc (e : elem) : option loc :=
  olet _ <- xtype_is (eattrs e) "locator";
  olet label <- xreq (eattrs e) "label";
  olet href <- req (eattrs e) "href";
  Some (Loc href label).

(** presentationLinkbase.go:75-82, definitionLinkbase.go:78-85,
    calculationLinkbase.go:75-82, labelLinkbase.go:81-88 *)
Definition link_role (e : link_elem) : option string :=
  olet _ <- xtype_is (le_attrs e) "extended";
  req (le_attrs e) "role".

(** The loops of hydratePresentationLink (presentationLinkbase.go:74-142) and its
    two siblings, without the final dedup. *)
Definition hydrate_link {arc} (harc : elem -> option arc) (e : link_elem) : option (link arc) :=
  olet role <- link_role e;
  Some (Link role (collect hydrate_loc (le_loc e)) (collect harc (le_arc e))).

(** dedupPresentationLink (presentationLinkbase.go:146-156), dedupDefinitionLink
    (definitionLinkbase.go:169-179), dedupCalculationLink
    (calculationLinkbase.go:151-161): building the map [occured] *)
Definition merge_link {arc} (occ : list (string * link arc)) (l : link arc) : list (string * link arc) :=
  match sget (lRole l) occ with
  | Some m => sset (lRole l) (Link (lRole m) (lLocs m ++ lLocs l)%list (lArcs m ++ lArcs l)%list) occ
  | None => sset (lRole l) l occ
  end.
(** ... and the range loop over it (157-161 etc.); [shuffle] is the order of the
    iteration. *)
Definition dedup_links {arc} (shuffle : list (string * link arc) -> list (string * link arc))
           (links : list (link arc)) : list (link arc) :=
  map snd (shuffle (fold_left merge_link links [])).

(** HydratePresentationLinkbase (presentationLinkbase.go:32-44) and siblings
    (definitionLinkbase.go:35-47, calculationLinkbase.go:32-44) *)
Definition hydrate_linkbase {arc} (harc : elem -> option arc)
           (shuffle : list (string * link arc) -> list (string * link arc))
           (file : option linkbase_file) (fileName : string) : res (linkbase arc) :=
  if negb (nonempty fileName) then Err "empty file name" else
  match file with
  | None => Err "empty file"
  | Some f => Ok (Linkbase fileName (collect hydrate_role_ref (lf_roleRef f))
                    (dedup_links shuffle (collect (hydrate_link harc) (lf_links f))))
  end.

Section ParseFloat.
  (** [strconv.ParseFloat(s, 64)]: value and "err != nil" *)
  Variable pf : string -> f64 * bool.

  (** presentationLinkbase.go:128-131 and siblings *)
  Definition parse_order (s : string) : f64 := let '(v, err) := pf s in if err then max_float64 else v.
  (** calculationLinkbase.go:135-138 *)
  Definition parse_weight (s : string) : f64 := let '(v, err) := pf s in if err then S754_zero false else v.

  (** presentationLinkbase.go:12-18 [PresentationArc] *)
  Record parc := PArc { paOrder : f64; paArcrole : string; paFrom : string; paTo : string;
                        paPreferredLabel : string }.
  (** presentationLinkbase.go:105-140 *)
  Definition hydrate_parc (e : elem) : option parc :=
    olet _ <- xtype_is (eattrs e) "arc";
    olet order <- req (eattrs e) "order";
    olet arcrole <- xreq (eattrs e) "arcrole";
    olet from <- xreq (eattrs e) "from";
    olet to <- xreq (eattrs e) "to";
    Some (PArc (parse_order order) arcrole from to (attr_or_empty (eattrs e) "preferredLabel")).

  (** definitionLinkbase.go:12-21 [DefinitionArc] *)
  Record darc := DArc { daOrder : f64; daArcrole : string; daFrom : string; daTo : string;
                        daClosed : bool; daUsable : bool; daContextElement : string; daTargetRole : string }.
  (** definitionLinkbase.go:138-145: [ParseBool] returns false with an error;
      without an error the result is overwritten. *)
  Definition hydrate_closed (attrs : list xattr) : bool :=
    match find_attr attrs "closed" with
    | None => false
    | Some a => match parse_bool (avalue a) with Some _ => false | None => false end
    end.
  (** definitionLinkbase.go:146-153 *)
  Definition hydrate_usable (attrs : list xattr) : bool :=
    match find_attr attrs "usable" with
    | None => false
    | Some a => match parse_bool (avalue a) with Some _ => true | None => false end
    end.
  (** definitionLinkbase.go:108-163 *)
  Definition hydrate_darc (e : elem) : option darc :=
    olet _ <- xtype_is (eattrs e) "arc";
    olet order <- req (eattrs e) "order";
    olet arcrole <- xreq (eattrs e) "arcrole";
    olet from <- xreq (eattrs e) "from";
    olet to <- xreq (eattrs e) "to";
    Some (DArc (parse_order order) arcrole from to
               (hydrate_closed (eattrs e)) (hydrate_usable (eattrs e))
               (attr_or_empty (eattrs e) "contextElement") (attr_or_empty (eattrs e) "targetRole")).

  (** calculationLinkbase.go:12-18 [CalculationArc] *)
  Record carc := CArc { caOrder : f64; caArcrole : string; caFrom : string; caTo : string; caWeight : f64 }.
  (** calculationLinkbase.go:105-145 *)
  Definition hydrate_carc (e : elem) : option carc :=
    olet _ <- xtype_is (eattrs e) "arc";
    olet order <- req (eattrs e) "order";
    olet arcrole <- xreq (eattrs e) "arcrole";
    olet from <- xreq (eattrs e) "from";
    olet to <- xreq (eattrs e) "to";
    olet weight <- req (eattrs e) "weight";
    Some (CArc (parse_order order) arcrole from to (parse_weight weight)).

  (** labelLinkbase.go:11-36 *)
  Record label_elem := LabelElem { llLabel : string; llRole : string; llLang : string; llCharData : string }.
  Record larc := LArc { laOrder : f64; laArcrole : string; laFrom : string; laTo : string }.
  Record label_link := LabelLink {
    lnRole : string; lnLocs : list loc; lnLabels : list label_elem; lnArcs : list larc }.
  Record label_linkbase := LabelLinkbase {
    llFileName : string; llRoleRefs : list role_ref; llLinks : list label_link }.

  (** labelLinkbase.go:111-139; [n] is len(link.LabelArc), [i] the loop index *)
  Definition hydrate_larc (n : nat) (ie : nat * elem) : option larc :=
    let '(i, e) := ie in
    olet _ <- xtype_is (eattrs e) "arc";
    let order := match req (eattrs e) "order" with
                 | Some s => fst (pf s)
                 | None => f64_of_nat (n + i)
                 end in
    olet arcrole <- xreq (eattrs e) "arcrole";
    olet from <- xreq (eattrs e) "from";
    olet to <- xreq (eattrs e) "to";
    Some (LArc order arcrole from to).
  (** labelLinkbase.go:141-160 *)
  Definition hydrate_label (e : elem) : option label_elem :=
    olet label <- xreq (eattrs e) "label";
    olet role <- xreq (eattrs e) "role";
    olet lang <- req (eattrs e) "lang";
    Some (LabelElem label role lang (etext e)).
  (** labelLinkbase.go:78-164 [hydrateLabelLink]: one iteration *)
  Definition hydrate_label_link (e : link_elem) : option label_link :=
    olet role <- link_role e;
    Some (LabelLink role (collect hydrate_loc (le_loc e)) (collect hydrate_label (le_labels e))
            (collect (hydrate_larc (List.length (le_arc e)))
                     (combine (seq 0 (List.length (le_arc e))) (le_arc e)))).
  (** labelLinkbase.go:38-50 [HydrateLabelLinkbase] *)
  Definition hydrate_label_linkbase (file : option linkbase_file) (fileName : string) : res label_linkbase :=
    if negb (nonempty fileName) then Err "empty file name" else
    match file with
    | None => Err "empty file"
    | Some f => Ok (LabelLinkbase fileName (collect hydrate_role_ref (lf_roleRef f))
                      (collect hydrate_label_link (lf_links f)))
    end.
End ParseFloat.
