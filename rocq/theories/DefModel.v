(** * DefModel: pkg/renderables/{dimensionRelationshipSet,effectiveDomainGrid,definitionGrid}.go *)
From Verif Require Import GoBase AttrModel SchemaModel LinkbaseModel InstanceModel LabelModel
  FactModel GridModel.
Local Open Scope string_scope.

(** pkg/attr/literals.go:28-33 *)
Definition DomainMemberArcrole := "http://xbrl.org/int/dim/arcrole/domain-member".
Definition DimensionDomainArcrole := "http://xbrl.org/int/dim/arcrole/dimension-domain".
Definition DimensionDefaultArcrole := "http://xbrl.org/int/dim/arcrole/dimension-default".
Definition HypercubeDimensionArcrole := "http://xbrl.org/int/dim/arcrole/hypercube-dimension".
Definition HasInclusiveHypercubeArcrole := "http://xbrl.org/int/dim/arcrole/all".
Definition HasExclusiveHypercubeArcrole := "http://xbrl.org/int/dim/arcrole/notAll".

(** dimensionRelationshipSet.go:57-64, effectiveDomainGrid.go:67-75: the links of the role *)
Definition role_links {A} (role : string) (lb : linkbase A) : list (link A) :=
  if existsb (fun rr => String.eqb role (rrRoleURI rr)) (lbRoleRefs lb)
  then filter (fun k => String.eqb (lRole k) role) (lbLinks lb) else [].

(** ** dimensionRelationshipSet.go *)

(** dimensionRelationshipSet.go:11-31; the JSON omits the nil connections *)
Record hc_connection := HC { hcClosed : bool; hcContextElement : string; hcInclusive : bool; hcExternal : string }.
Record hd_connection := HD { hdOrder : string; hdExternal : string }.
Record dd_connection := DD { ddOrder : string; ddDefault : bool; ddUsable : bool; ddExternal : string }.
Record dm_connection := DM { dmOrder : string; dmUsable : bool; dmExternal : string }.
(** dimensionRelationshipSet.go:38-45 *)
Record drs_link := DRSLink {
  dlSource : string; dlTarget : string; dlHC : option hc_connection; dlHD : option hd_connection;
  dlDD : option dd_connection; dlDM : option dm_connection }.
(** dimensionRelationshipSet.go:47-50; the nodes (33-36) have an href and a label *)
Record drs := DRS { drsNodes : list labelled; drsLinks : list drs_link }.

Section DRS.
  (** strconv.FormatFloat(x, 'f', -1, 64) (external) *)
  Variable format_order : f64 -> string.
  Variable lbl : string -> label_pack.
  Variable role : string.

  (** dimensionRelationshipSet.go:68-133: one arc *)
  Definition drs_link_of (lb : linkbase darc) (a : darc) : drs_link :=
    let to := if nonempty (daTargetRole a) then map_locator_to_href (daTargetRole a) lb (daTo a)
              else map_locator_to_href role lb (daTo a) in
    let from := map_locator_to_href role lb (daFrom a) in
    let order := format_order (daOrder a) in
    let ext := daTargetRole a in
    if String.eqb (daArcrole a) DomainMemberArcrole then
      DRSLink from to None None None (Some (DM order (daUsable a) ext))
    else if String.eqb (daArcrole a) HypercubeDimensionArcrole then
      DRSLink from to None (Some (HD order ext)) None None
    else if String.eqb (daArcrole a) DimensionDefaultArcrole then
      DRSLink from to None None (Some (DD order true true ext)) None
    else if String.eqb (daArcrole a) DimensionDomainArcrole then
      DRSLink from to None None (Some (DD order true (daUsable a) ext)) None
    else if String.eqb (daArcrole a) HasInclusiveHypercubeArcrole then
      DRSLink from to (Some (HC (daClosed a) (daContextElement a) true ext)) None None None
    else if String.eqb (daArcrole a) HasExclusiveHypercubeArcrole then
      DRSLink from to (Some (HC (daClosed a) (daContextElement a) false ext)) None None None
    else DRSLink from to None None None None.
  (** dimensionRelationshipSet.go:56-136; [lbs] lists the map DefinitionLinkbases in iteration
      order *)
  Definition drs_links (lbs : list (linkbase darc)) : list drs_link :=
    flat_map (fun lb => flat_map (fun k => map (drs_link_of lb) (lArcs k)) (role_links role lb)) lbs.
  (** the keys of [hrefs], in order of first insertion *)
  Definition drs_hrefs (links : list drs_link) : list string :=
    dedup_strings (flat_map (fun l => [dlTarget l; dlSource l]) links).
  (** dimensionRelationshipSet.go:52-150 [getDRS]; [order] is the iteration order of [hrefs] *)
  Definition get_drs (order : list string -> list string) (lbs : list (linkbase darc)) : drs :=
    let links := drs_links lbs in
    DRS (isort (fun a b => String.ltb (lbHref a) (lbHref b))
               (map (fun h => Labelled h (lbl h)) (order (drs_hrefs links))))
        links.
End DRS.

(** ** effectiveDomainGrid.go *)

(** effectiveDomainGrid.go:40-45 *)
Record effective_member := EM { emHref : string; emLabel : label_pack; emDefault : bool; emStruck : bool }.

(** a loop whose body may leave the function with an empty result ([None]) *)
Fixpoint foldO {A B} (f : A -> B -> option A) (l : list B) (a : A) : option A :=
  match l with [] => Some a | x :: r => match f a x with Some a' => foldO f r a' | None => None end end.

(** effectiveDomainGrid.go:47-58 [dArcs] *)
Definition d_arcs (l : list darc) : list arc :=
  map (fun a => Arc (daArcrole a) (daOrder a) (daFrom a) (daTo a)) l.

(** effectiveDomainGrid.go:192-215 [getPrimaryItemNetworkAndExplicitDomainNetwork]: the children
    of the two networks *)
Definition hypercube_domains (dim_domain dim_default : rarc) : list string :=
  (flat_map (fun d => map ra_locator (ra_children d)) (ra_children dim_domain)
   ++ flat_map (fun d => map ra_locator (ra_children d)) (ra_children dim_default))%list.
Definition split_networks (domain_member dim_domain dim_default : rarc) : list rarc * list rarc :=
  let doms := hypercube_domains dim_domain dim_default in
  (filter (fun n => negb (mem String.eqb (ra_locator n) doms)) (ra_children domain_member),
   filter (fun n => mem String.eqb (ra_locator n) doms) (ra_children domain_member)).

Section EffectiveDomain.
  Variable href_of : string -> string.
  Variable lbl : string -> label_pack.
  Notation at_node n := (href_of (ra_locator n)).

  (** effectiveDomainGrid.go:261-276 and 277-292 *)
  Definition hypercube_hrefs (hypercubes hc_dim : rarc) (item dim : string) : list string :=
    flat_map (fun n => if String.eqb item (at_node n) then
      flat_map (fun c =>
        flat_map (fun x => if String.eqb (at_node c) (at_node x) then
          flat_map (fun d => if String.eqb dim (at_node d) then [at_node c] else []) (ra_children x)
          else []) (ra_children hc_dim)) (ra_children n)
      else []) (ra_children hypercubes).

  (** one of the maps of hrefs that have been seen, [ret] and labelPacks *)
  Record ed_state := EDState { esSeen : list string; esRet : list effective_member; esPacks : list label_pack }.
  (** effectiveDomainGrid.go:312-324, 340-352 *)
  Definition add_default (struck : bool) (st : ed_state) (n : rarc) : option ed_state :=
    let h := at_node n in
    if mem String.eqb h (esSeen st) then None
    else Some (EDState (h :: esSeen st) (esRet st ++ [EM h (lbl h) true struck]) (esPacks st ++ [lbl h])%list).
  (** effectiveDomainGrid.go:303-329: the defaults of the dimension *)
  Definition included_defaults (hc_dim dim_default : rarc) (dim : string) (incl : list string) (st : ed_state)
    : option ed_state :=
    foldO (fun st x => foldO (fun st h =>
      if String.eqb h (at_node x) then
        foldO (fun st d => if negb (String.eqb (at_node d) dim) then Some st
                           else foldO (add_default false) (ra_children d) st)
              (ra_children dim_default) st
      else Some st) incl st) (ra_children hc_dim) st.
  (** effectiveDomainGrid.go:331-357: a dimension is skipped if its href is in the map of
      members seen *)
  Definition excluded_defaults (hc_dim dim_default : rarc) (excl : list string) (st : ed_state)
    : option ed_state :=
    foldO (fun st x => foldO (fun st h =>
      if String.eqb h (at_node x) then
        foldO (fun st d => if mem String.eqb (at_node d) (esSeen st) then Some st
                           else foldO (add_default true) (ra_children d) st)
              (ra_children dim_default) st
      else Some st) excl st) (ra_children hc_dim) st.
  (** effectiveDomainGrid.go:362-399 [traverseExplicitDomainNetwork]: a member seen before
      empties the result; the labels of members are not collected *)
  Fixpoint traverse (struck : bool) (node : rarc) (st : ed_state) : ed_state :=
    let 'RArc loc _ children := node in
    let h := href_of loc in
    if mem String.eqb h (esSeen st) then EDState (esSeen st) [] []
    else fold_left (fun st c => traverse struck c st) children
           (EDState (h :: esSeen st) (esRet st ++ [EM h (lbl h) false struck]) (esPacks st))%list.
  (** effectiveDomainGrid.go:400-419, 420-439 *)
  Definition add_members (struck : bool) (hc_dim dim_domain : rarc) (domains : list rarc) (dim : string)
      (hypercubes : list string) (st : ed_state) : ed_state :=
    fold_left (fun st x => fold_left (fun st h =>
      if String.eqb h (at_node x) then
        fold_left (fun st d => if negb (String.eqb dim (at_node d)) then st else
          fold_left (fun st dd => if negb (String.eqb (at_node d) (at_node dd)) then st
                                  else fold_left (fun st n => traverse struck n st) domains st)
                    (ra_children dim_domain) st) (ra_children x) st
      else st) hypercubes st) (ra_children hc_dim) st.
  (** effectiveDomainGrid.go:440-453 *)
  Definition em_less (a b : effective_member) : bool :=
    if negb (String.eqb (emHref a) (emHref b)) then String.ltb (emHref a) (emHref b)
    else if negb (Bool.eqb (emDefault a) (emDefault b)) then emDefault a
    else if negb (Bool.eqb (emStruck a) (emStruck b)) then emStruck b
    else false.

  (** the networks of a link *)
  Record networks := Networks {
    nwDimDomain : rarc; nwDomains : list rarc; nwExclusive : rarc; nwInclusive : rarc;
    nwHcDim : rarc; nwDimDefault : rarc }.
  (** effectiveDomainGrid.go:254-455 [getEffectiveDomain] *)
  Definition get_effective_domain (w : networks) (item dim : string)
    : list effective_member * list label_pack :=
    let incl := hypercube_hrefs (nwInclusive w) (nwHcDim w) item dim in
    let excl := hypercube_hrefs (nwExclusive w) (nwHcDim w) item dim in
    if existsb (fun h => mem String.eqb h excl) incl then ([], []) else
    match included_defaults (nwHcDim w) (nwDimDefault w) dim incl (EDState [] [] []) with
    | None => ([], [])
    | Some s1 =>
        match excluded_defaults (nwHcDim w) (nwDimDefault w) excl (EDState [] (esRet s1) (esPacks s1)) with
        | None => ([], [])
        | Some s2 =>
            let s3 := add_members false (nwHcDim w) (nwDimDomain w) (nwDomains w) dim incl
                        (EDState [] (esRet s2) (esPacks s2)) in
            let s4 := add_members true (nwHcDim w) (nwDimDomain w) (nwDomains w) dim excl
                        (EDState [] (esRet s3) (esPacks s3)) in
            (isort em_less (esRet s4), esPacks s4)
        end
    end.
  (** effectiveDomainGrid.go:233-252 [getEffectiveDomainGrid] *)
  Definition get_effective_domain_grid (w : networks) (items dims : list string)
    : list (list (list effective_member)) * list label_pack :=
    (map (fun i => map (fun d => fst (get_effective_domain w i d)) dims) items,
     flat_map (fun i => flat_map (fun d => snd (get_effective_domain w i d)) dims) items).
End EffectiveDomain.

(** effectiveDomainGrid.go:12-25; DRSNodes is never set *)
Record root_domain := RootDomain {
  rdHref : string; rdLabel : label_pack; rdItems : list indented_label; rdPeriods : list language_pack;
  rdMembers : list (list member_cell); rdVoid : list void_cell; rdFacts : list (list multilingual_fact);
  rdFootnoteGrid : list (list (list nat)); rdFootnotes : list string;
  rdDomains : list (list (list effective_member)); rdDimensions : list labelled }.

Section RootDomains.
  Variable tree : list arc -> string -> rarc.
  Variable lbl : string -> label_pack.
  Variable concept_of : string -> option concept.
  (** the iteration orders and finders used for the n-th root domain *)
  Variable genv : nat -> grid_env.
  (** the order in which DefinitionLinkbases is visited for the dimensions of a link *)
  Variable dims_order : linkbase darc -> link darc -> list (linkbase darc).
  Variable entity role : string.

  (** effectiveDomainGrid.go:159-182: the hrefs; every linkbase maps the locators of the arcs *)
  Definition dimension_hrefs (arcs : list darc) (lbs : list (linkbase darc)) : list string :=
    dedup_strings (flat_map (fun lb =>
      map (fun a => map_locator_to_href role lb (daTo a))
          (filter (fun a => String.eqb (daArcrole a) HypercubeDimensionArcrole) arcs)) lbs).

  (** effectiveDomainGrid.go:98-110 *)
  Definition link_networks (k : link darc) : list rarc * networks :=
    let arcs := d_arcs (lArcs k) in
    let dim_domain := tree arcs DimensionDomainArcrole in
    let dim_default := tree arcs DimensionDefaultArcrole in
    let '(primary, explicit) := split_networks (tree arcs DomainMemberArcrole) dim_domain dim_default in
    (primary, Networks dim_domain explicit (tree arcs HasExclusiveHypercubeArcrole)
                (tree arcs HasInclusiveHypercubeArcrole) (tree arcs HypercubeDimensionArcrole) dim_default).

  (** ret, labelPacks, labelRoles, langs *)
  Record d_state := DState {
    dsRet : list root_domain; dsPacks : list label_pack; dsRoles : list string; dsLangs : list string }.
  (** effectiveDomainGrid.go:111-152 with 217-231 [injectFactualQuadrant]: one root *)
  Definition d_root (lb : linkbase darc) (w : networks) (dims : list string) (st : d_state) (root : rarc)
    : res d_state :=
    let g := genv (List.length (dsRet st)) in
    let href_of := map_locator_to_href role lb in
    let items := map (fun x => let h := href_of (fst x) in IndentedLabel h (lbl h) (snd x)) (listing root 0) in
    let rootHref := href_of (ra_locator root) in
    let hrefs := rootHref :: map ilHref items in
    let '(edgrid, edlabels) := get_effective_domain_grid href_of lbl w hrefs dims in
    do (cols, seg, scen, cpacks) <-
      get_relevant_contexts tree lbl concept_of (ge_typed_order g) entity (ge_instances g) hrefs;
    let packs := (dsPacks st ++ map ilLabel items ++ edlabels ++ cpacks ++ [lbl rootHref])%list in
    do (members, void) <- get_member_grid (ge_member_order g) cols seg scen;
    let '(roles, langs) := ge_destruct g (roles_and_langs packs) in
    let langs' := (dsLangs st ++ langs)%list in
    do (facts, fgrid, notes) <-
      get_factual_quadrant tree (ge_cell g) (ge_id_order g) (ge_id_order_final g) hrefs cols langs';
    Ok (DState
          (dsRet st ++ [RootDomain rootHref (lbl rootHref) items (get_period_headers cols) members void facts
                          fgrid notes edgrid (map (fun h => Labelled h (lbl h)) dims)])
          packs (dsRoles st ++ roles) langs')%list.
  (** effectiveDomainGrid.go:74-154: one link, with 183-189 for the labels of the dimensions *)
  Definition d_link (lb : linkbase darc) (st : d_state) (k : link darc) : res d_state :=
    let dims := dimension_hrefs (lArcs k) (dims_order lb k) in
    let '(roles, langs) := ge_destruct (genv (List.length (dsRet st))) (roles_and_langs (map lbl dims)) in
    let '(primary, w) := link_networks k in
    foldM (d_root lb w dims) primary
      (DState (dsRet st) (dsPacks st) (dsRoles st ++ roles) (dsLangs st ++ langs))%list.
  (** effectiveDomainGrid.go:60-157 [getRootDomains]; [lbs] lists the map DefinitionLinkbases in
      iteration order *)
  Definition get_root_domains (lbs : list (linkbase darc))
    : res (list root_domain * list string * list string) :=
    do st <- foldM (fun st lb => foldM (d_link lb) (role_links role lb) st) lbs (DState [] [] [] []);
    Ok (dsRet st, dsRoles st, dsLangs st).
End RootDomains.

(** definitionGrid.go:7-10 *)
Record d_grid := DGrid { dgRootDomains : list root_domain; dgDRS : drs }.
(** definitionGrid.go:12-19 [dGrid]; [lbs'] is the order of the second iteration *)
Definition d_grid_of tree lbl concept_of genv dims_order format_order order entity role lbs lbs'
  : res (d_grid * list string * list string) :=
  do (rds, roles, langs) <- get_root_domains tree lbl concept_of genv dims_order entity role lbs;
  Ok (DGrid rds (get_drs format_order lbl role order lbs'), roles, langs).
