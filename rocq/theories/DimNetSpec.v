(** * DimNetSpec: what the definition grid of an answer, read as JSON, shows of the definition linkbases of a report *)
From Coq Require Import String List.
From Verif Require Import GoBase GoSpec SchemaModel SchemaSpec LinkbaseModel LinkbaseSpec InstanceModel LabelSpec GridSpec CalcSpec DefModel DefSpec
  DiscoverModel XmlModel XmlSpec LoadModel LoadSpec.
From Verif Require Import EndToEndSpec ResponseSpec ReportSpec NetworkSpec.
Import ListNotations.
Local Open Scope string_scope.

Section Report.
  Variable d : disk.
  Variable dir : string.
  Variable root : tree.
  Variable pf : string -> f64 * bool.
  Variable tree_of : list arc -> string -> rarc.   (* internal/graph *)
  Variable order_text : f64 -> string.             (* strconv *)

  Definition definition_in (t : tree) := network_at "definitionLink" "definitionArc" (is_definition_arc pf) t.
  Definition defined (t : tree) (role : string) : Prop :=
    has_network_at "definitionLink" "definitionArc" (is_definition_arc pf) t role.
  Definition refers_to_role (t : tree) (role : string) : Prop :=
    exists x rr, In x (kids t) /\ at_elem link_ns "roleRef" is_role_ref x rr /\ rrRoleURI rr = role.
  (** the concept a locator label stands for in the links of a role of the document *)
  Definition finds_at (t : tree) (role label href : string) : Prop :=
    (refers_to_role t role /\ exists locs arcs, definition_in t role locs arcs /\ finds locs label href) \/
    (~ refers_to_role t role /\ href = "#" ++ label).

  (** the definition linkbases of the report, each once, in some order *)
  Definition definition_books (docs : list (string * tree)) : Prop :=
    NoDup (map fst docs) /\ forall x t, In (x, t) docs <-> linkbase_at d dir root Definitional x t.
  (** what those of them that have the network draw: the document, the locators and the arcs *)
  Definition drawing : Type := tree * list loc * list darc.
  Definition draws (role : string) (x : string * tree) (n : drawing) : Prop :=
    let '(t, locs, arcs) := n in t = snd x /\ defined t role /\ definition_in t role locs arcs.
  Definition drawings (role : string) (ns : list drawing) : Prop :=
    exists docs, definition_books docs /\ image_of (draws role) docs ns.

  (** ** Links *)
  Definition lacks (u : value) (k : string) : Prop := forall y, ~ part u [k] y.
  Definition cube_shown (c : hc_connection) : value -> Prop :=
    object [("IsClosed", flag (hcClosed c)); ("ContextElement", shows (hcContextElement c));
            ("IsInclusive", flag (hcInclusive c)); ("External", shows (hcExternal c))].
  Definition cube_dimension_shown (c : hd_connection) : value -> Prop :=
    object [("Order", shows (hdOrder c)); ("External", shows (hdExternal c))].
  Definition dimension_domain_shown (c : dd_connection) : value -> Prop :=
    object [("Order", shows (ddOrder c)); ("Default", flag (ddDefault c)); ("Usable", flag (ddUsable c));
            ("External", shows (ddExternal c))].
  Definition domain_member_shown (c : dm_connection) : value -> Prop :=
    object [("Order", shows (dmOrder c)); ("Usable", flag (dmUsable c)); ("External", shows (dmExternal c))].
  Definition connection_shown (c : connection) (u : value) : Prop :=
    match c with Hypercube x => the_member u "HypercubeConnection" (cube_shown x) | _ => lacks u "HypercubeConnection" end /\
    match c with HypercubeDimension x => the_member u "HypercubeDimensionConnection" (cube_dimension_shown x) | _ => lacks u "HypercubeDimensionConnection" end /\
    match c with DimensionDomain x => the_member u "DimensionDomainConnection" (dimension_domain_shown x) | _ => lacks u "DimensionDomainConnection" end /\
    match c with DomainMember x => the_member u "DomainMemberConnection" (domain_member_shown x) | _ => lacks u "DomainMemberConnection" end.
  (** the concepts that an arc of a drawing connects *)
  Definition arc_ends (role : string) (x : drawing * darc) (ends : string * string) : Prop :=
    let '(t, locs, _, a) := x in
    finds locs (daFrom a) (fst ends) /\ exists r, target_role role a r /\ finds_at t r (daTo a) (snd ends).
  (** the arc as a link *)
  Definition arc_shown (x : drawing * darc * (string * string)) (u : value) : Prop :=
    let '(_, a, (source, target)) := x in
    the_member u "SourceHref" (shows source) /\ the_member u "TargetHref" (shows target) /\
    exists c, connection_for order_text a c /\ connection_shown c u.
  Definition node_shown (href : string) (u : value) : Prop :=
    href_shown href u /\ the_member u "Label" (label_shown d dir root pf href).
  (** every arc of every drawing, and the concepts they connect, each once *)
  Definition links_shown (role : string) (v : value) : Prop :=
    exists ns ends hrefs, drawings role ns /\
      let arcs := flat_map (fun n => map (pair n) (snd n)) ns in
      Forall2 (arc_ends role) arcs ends /\ the_member v "Links" (list_of arc_shown (combine arcs ends)) /\
      StronglySorted slt hrefs /\ (forall h, In h hrefs <-> exists x, In x ends /\ (h = fst x \/ h = snd x)) /\
      the_member v "Nodes" (list_of node_shown hrefs).

  (** ** Root domains *)
  Definition dim_net (arcs : list darc) (name : string) : rarc :=
    tree_of (map (fun a => Arc (daArcrole a) (daOrder a) (daFrom a) (daTo a)) arcs) (dim_arcrole name).
  (** the tops of the domain-member arcs that are no domains of dimensions *)
  Definition item_roots (n : drawing) (tops : list rarc) : Prop :=
    those (fun x => ~ arc_target (dim_net (snd n) "dimension-domain") x /\ ~ arc_target (dim_net (snd n) "dimension-default") x)
      (ra_children (dim_net (snd n) "domain-member")) tops.
  Definition primary_item_shown (locs : list loc) (x : string * nat) (u : value) : Prop :=
    exists href, finds locs (fst x) href /\ href_shown href u /\ the_member u "Level" (count (snd x)) /\
      the_member u "Label" (label_shown d dir root pf href).
  (** the dimensions of a drawing: the targets of its hypercube-dimension arcs, each looked up
      in every definition linkbase of the report; the labels stand for [at_doc] *)
  Definition dimensions (role : string) (arcs : list darc) (dims : list string) : Prop :=
    NoDup dims /\
    exists docs (at_doc : string -> string -> string), definition_books docs /\
      (forall x t label, In (x, t) docs -> finds_at t role label (at_doc x label)) /\
      forall h, In h dims <-> exists a x, In a arcs /\ daArcrole a = dim_arcrole "hypercube-dimension" /\
        In x (map fst docs) /\ h = at_doc x (daTo a).
  (** what the arcs draw *)
  Definition domain_roots (arcs : list darc) (tops : list rarc) : Prop :=
    those (fun x => arc_target (dim_net arcs "dimension-domain") x \/ arc_target (dim_net arcs "dimension-default") x)
      (ra_children (dim_net arcs "domain-member")) tops.
  (** no concept is repeated where the domain of the item and the dimension is looked up, and
      there is at most one hypercube of each kind for them *)
  Definition unambiguous (href_of : string -> string) (arcs : list darc) (domains : list rarc) (item dim : string) : Prop :=
    let net := dim_net arcs in
    let cubes name := cube_for href_of (net name) (net "hypercube-dimension") item dim in
    Forall (fun name => tidy href_of (net name)) ["dimension-domain"; "notAll"; "all"; "hypercube-dimension"; "dimension-default"] /\
    NoDup (forest_hrefs href_of domains) /\ NoDup (all_defaults href_of (net "dimension-default")) /\
    (forall n, In n (ra_children (net "dimension-default")) -> ~ In (href_of (ra_locator n)) (all_defaults href_of (net "dimension-default"))) /\
    (forall n, In n (ra_children (net "dimension-domain")) -> ra_children n <> []) /\
    (forall h h', cubes "all" h -> cubes "all" h' -> h = h') /\ (forall h h', cubes "notAll" h -> cubes "notAll" h' -> h = h') /\
    ~ (exists h, cubes "all" h /\ cubes "notAll" h).
  (** a member of the domain, whether it is the default, and whether it is struck out *)
  Definition domain_entry (href_of : string -> string) (arcs : list darc) (domains : list rarc) (item dim : string)
    (x : string * bool * bool) : Prop :=
    let net := dim_net arcs in
    let '(h, default, struck) := x in
    (exists hc, cube_for href_of (net (if struck then "notAll" else "all")) (net "hypercube-dimension") item dim hc) /\
    match default, struck with
    | true, false => edge href_of (net "dimension-default") dim h
    | true, true => exists other, edge href_of (net "dimension-default") other h
    | false, _ => (exists m, edge href_of (net "dimension-domain") dim m) /\ In h (forest_hrefs href_of domains)
    end.
  Definition entry_before (a b : string * bool * bool) : Prop :=
    let '(h, default, struck) := a in
    let '(h', default', struck') := b in
    slt h h' \/ h = h' /\ ((default = true /\ default' = false) \/ default = default' /\ struck = false /\ struck' = true).
  Definition entry_shown (x : string * bool * bool) (u : value) : Prop :=
    let '(h, default, struck) := x in
    href_shown h u /\ the_member u "Label" (label_shown d dir root pf h) /\
    the_member u "IsDefault" (flag default) /\ the_member u "IsStrikethrough" (flag struck).
  (** the domain of an item and a dimension: by href, defaults first, each entry once; empty without a hypercube
      and where one is both included and excluded *)
  Definition domain_shown (locs : list loc) (arcs : list darc) (item dim : string) (u : value) : Prop :=
    exists entries href_of domains, list_of entry_shown entries u /\
      StronglySorted entry_before entries /\
      (forall l, finds locs l (href_of l)) /\ domain_roots arcs domains /\
      ((forall name hc, In name ["all"; "notAll"] -> ~ cube_for href_of (dim_net arcs name) (dim_net arcs "hypercube-dimension") item dim hc) ->
       entries = []) /\
      ((exists hc, forall name, In name ["all"; "notAll"] -> cube_for href_of (dim_net arcs name) (dim_net arcs "hypercube-dimension") item dim hc) ->
       entries = []) /\
      (unambiguous href_of arcs domains item dim -> forall x, In x entries <-> domain_entry href_of arcs domains item dim x).
  (** a root with the outline below it, the dimensions, and the domain of each of its rows and each dimension *)
  Definition root_shown (role : string) (x : drawing * rarc) (u : value) : Prop :=
    let '(_, locs, arcs, top) := x in
    exists href out hrefs dims, finds locs (ra_locator top) href /\ preorder 0 top out /\
      href_shown href u /\ the_member u "Label" (label_shown d dir root pf href) /\
      the_member u "PrimaryItems" (list_of (primary_item_shown locs) out) /\
      Forall2 (fun y h => finds locs (fst y) h) out hrefs /\ dimensions role arcs dims /\
      the_member u "EffectiveDimensions" (list_of node_shown dims) /\
      the_member u "EffectiveDomainGrid" (list_of (fun item => list_of (domain_shown locs arcs item) dims) (href :: hrefs)).
  Definition roots_shown (role : string) (v : value) : Prop :=
    exists ns tops, drawings role ns /\ Forall2 item_roots ns tops /\
      the_member v "RootDomains" (list_of (root_shown role) (concat (map (fun x => map (pair (fst x)) (snd x)) (combine ns tops)))).
End Report.
