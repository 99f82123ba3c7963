(** * DefSpec: what dimension relationship sets, effective domains and root domains have to be *)
From Verif Require Import GoBase GoSpec AttrModel SchemaModel LinkbaseModel InstanceModel LabelModel LabelSpec
  FactModel GridModel GridSpec CalcSpec DefModel.
Local Open Scope string_scope.

(** the links of a role, linkbase by linkbase, with their linkbases *)
Definition links_in {A} (role : string) (lb : linkbase A) (ks : list (link A)) : Prop :=
  (declares lb role /\ those (fun k => lRole k = role) (lbLinks lb) ks) \/ (~ declares lb role /\ ks = []).
Definition network_links {A} (role : string) (lbs : list (linkbase A)) (l : list (linkbase A * link A)) : Prop :=
  exists kss, Forall2 (links_in role) lbs kss /\
    l = concat (map (fun x => map (pair (fst x)) (snd x)) (combine lbs kss)).
Definition arcs_of {A} (l : list (linkbase A * link A)) : list (linkbase A * A) :=
  flat_map (fun x => map (pair (fst x)) (lArcs (snd x))) l.

(** ** Dimension relationship sets *)
Definition dim_arcrole (name : string) : string := "http://xbrl.org/int/dim/arcrole/" ++ name.
Inductive connection :=
| Hypercube (c : hc_connection) | HypercubeDimension (c : hd_connection)
| DimensionDomain (c : dd_connection) | DomainMember (c : dm_connection) | NoConnection.
Definition connected_by (l : drs_link) (c : connection) : Prop :=
  match c with
  | Hypercube x => dlHC l = Some x /\ dlHD l = None /\ dlDD l = None /\ dlDM l = None
  | HypercubeDimension x => dlHC l = None /\ dlHD l = Some x /\ dlDD l = None /\ dlDM l = None
  | DimensionDomain x => dlHC l = None /\ dlHD l = None /\ dlDD l = Some x /\ dlDM l = None
  | DomainMember x => dlHC l = None /\ dlHD l = None /\ dlDD l = None /\ dlDM l = Some x
  | NoConnection => dlHC l = None /\ dlHD l = None /\ dlDD l = None /\ dlDM l = None
  end.
(** the connection an arc stands for; [default] is left open for dimension-domain arcs (C87) *)
Inductive connection_for (format_order : f64 -> string) (a : darc) : connection -> Prop :=
| cf_all : daArcrole a = dim_arcrole "all" ->
    connection_for format_order a (Hypercube (HC (daClosed a) (daContextElement a) true (daTargetRole a)))
| cf_not_all : daArcrole a = dim_arcrole "notAll" ->
    connection_for format_order a (Hypercube (HC (daClosed a) (daContextElement a) false (daTargetRole a)))
| cf_hypercube_dimension : daArcrole a = dim_arcrole "hypercube-dimension" ->
    connection_for format_order a (HypercubeDimension (HD (format_order (daOrder a)) (daTargetRole a)))
| cf_dimension_domain default : daArcrole a = dim_arcrole "dimension-domain" ->
    connection_for format_order a (DimensionDomain (DD (format_order (daOrder a)) default (daUsable a) (daTargetRole a)))
| cf_dimension_default : daArcrole a = dim_arcrole "dimension-default" ->
    connection_for format_order a (DimensionDomain (DD (format_order (daOrder a)) true true (daTargetRole a)))
| cf_domain_member : daArcrole a = dim_arcrole "domain-member" ->
    connection_for format_order a (DomainMember (DM (format_order (daOrder a)) (daUsable a) (daTargetRole a)))
| cf_other :
    ~ In (daArcrole a) (map dim_arcrole ["all"; "notAll"; "hypercube-dimension"; "dimension-domain"; "dimension-default"; "domain-member"]) ->
    connection_for format_order a NoConnection.
(** the role in which the target of an arc is looked up *)
Definition target_role (role : string) (a : darc) (r : string) : Prop :=
  (daTargetRole a = "" /\ r = role) \/ (daTargetRole a <> "" /\ r = daTargetRole a).
Definition link_for (format_order : f64 -> string) (role : string) (x : linkbase darc * darc) (l : drs_link) : Prop :=
  let (lb, a) := x in
  locates lb role (daFrom a) (dlSource l) /\
  (exists r, target_role role a r /\ locates lb r (daTo a) (dlTarget l)) /\
  (exists c, connection_for format_order a c /\ connected_by l c).
Definition endpoint (links : list drs_link) (h : string) : Prop :=
  exists l, In l links /\ (dlSource l = h \/ dlTarget l = h).

(** ** Effective domains *)

(** by href, then defaults before members, then usable before struck through *)
Definition em_before (a b : effective_member) : Prop :=
  slt (emHref a) (emHref b) \/
  emHref a = emHref b /\
    ((emDefault a = true /\ emDefault b = false) \/
     emDefault a = emDefault b /\ emStruck a = false /\ emStruck b = true).

Section Networks.
  Variable href_of : string -> string.
  (** the network has an arc from [a] to [b] at its top *)
  Definition edge (net : rarc) (a b : string) : Prop :=
    exists n c, In n (ra_children net) /\ href_of (ra_locator n) = a /\
                In c (ra_children n) /\ href_of (ra_locator c) = b.
  (** the hypercube belongs to the item and has the dimension *)
  Definition cube_for (cubes hc_dim : rarc) (item dim hc : string) : Prop :=
    edge cubes item hc /\ edge hc_dim hc dim.
  (** no concept occurs twice among the top nodes or among the children of one of them *)
  Definition tidy (net : rarc) : Prop :=
    NoDup (map (fun n => href_of (ra_locator n)) (ra_children net)) /\
    forall n, In n (ra_children net) -> NoDup (map (fun c => href_of (ra_locator c)) (ra_children n)).
  Definition forest_hrefs (l : list rarc) : list string :=
    map href_of (flat_map (fun r => ra_locator r :: locators_below r) l).
  Definition all_defaults (dim_default : rarc) : list string :=
    flat_map (fun d => map (fun c => href_of (ra_locator c)) (ra_children d)) (ra_children dim_default).

  (** what the effective domain of an item and a dimension is made of *)
  Definition in_domain (lbl : string -> label_pack) (w : networks) (item dim : string) (e : effective_member) : Prop :=
    emLabel e = lbl (emHref e) /\
    let included := exists hc, cube_for (nwInclusive w) (nwHcDim w) item dim hc in
    let excluded := exists hc, cube_for (nwExclusive w) (nwHcDim w) item dim hc in
    let has_domain := exists m, edge (nwDimDomain w) dim m in
    match emDefault e, emStruck e with
    | true, false => included /\ edge (nwDimDefault w) dim (emHref e)
    | true, true => excluded /\ exists d, edge (nwDimDefault w) d (emHref e)
    | false, false => included /\ has_domain /\ In (emHref e) (forest_hrefs (nwDomains w))
    | false, true => excluded /\ has_domain /\ In (emHref e) (forest_hrefs (nwDomains w))
    end.
End Networks.

(** ** Root domains *)

(** the node is, by its locator, the target of an arc of the network *)
Definition arc_target (net : rarc) (n : rarc) : Prop :=
  exists top c, In top (ra_children net) /\ In c (ra_children top) /\ ra_locator c = ra_locator n.
(** the arcs of a link, as internal/graph takes them *)
Definition drawn_arcs (l : list darc) : list arc := map (fun a => Arc (daArcrole a) (daOrder a) (daFrom a) (daTo a)) l.
Definition primary_roots (tree : list arc -> string -> rarc) (k : link darc) (roots : list rarc) : Prop :=
  let net name := tree (drawn_arcs (lArcs k)) (dim_arcrole name) in
  those (fun n => ~ arc_target (net "dimension-domain") n /\ ~ arc_target (net "dimension-default") n)
        (ra_children (net "domain-member")) roots.
Definition network_roots (tree : list arc -> string -> rarc) (role : string) (lbs : list (linkbase darc))
  (l : list (linkbase darc * link darc * rarc)) : Prop :=
  exists lks rss, network_links role lbs lks /\ Forall2 (fun lk rs => primary_roots tree (snd lk) rs) lks rss /\
    l = concat (map (fun x => map (pair (fst x)) (snd x)) (combine lks rss)).
(** the items of a root domain: the nodes below the root, depth first *)
Definition lists_items (lbl : string -> label_pack) (role : string) (lb : linkbase darc) (root : rarc)
  (items : list indented_label) : Prop :=
  exists out, preorder 0 root out /\
    Forall2 (fun x i => locates lb role (fst x) (ilHref i) /\ ilLabel i = lbl (ilHref i) /\ ilIndentation i = snd x) out items.
(** [h] is a dimension of the link *)
Definition dimension_of (role : string) (lb : linkbase darc) (k : link darc) (h : string) : Prop :=
  exists a, In a (lArcs k) /\ daArcrole a = dim_arcrole "hypercube-dimension" /\ locates lb role (daTo a) h.
