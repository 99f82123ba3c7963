(** * NetworkSpec: what an answer, read as JSON, shows of the networks and labels of a report *)
From Coq Require Import String List.
From Verif Require Import GoBase GoSpec SchemaModel SchemaSpec LinkbaseModel LinkbaseSpec InstanceModel LabelSpec GridSpec CalcSpec
  DiscoverModel XmlModel XmlSpec LoadModel LoadSpec.
From Verif Require Import EndToEndSpec ResponseSpec ReportSpec.
Import ListNotations.
Local Open Scope string_scope.

(** ** A linkbase document *)
Section Document.
  Context {arc : Type}.
  Variable link_name : string.
  Variable arc_name : string.
  Variable is_a : elem -> arc -> Prop.

  (** the document refers to the role and has a link for it *)
  Definition has_network_at (t : tree) (role : string) : Prop :=
    (exists x rr, In x (kids t) /\ at_elem link_ns "roleRef" is_role_ref x rr /\ rrRoleURI rr = role) /\
    (exists x l, In x (kids t) /\ link_at link_name arc_name is_a x l /\ lRole l = role).
  (** the locators and the arcs of its links for the role, in document order *)
  Definition network_at (t : tree) (role : string) (locs : list loc) (arcs : list arc) : Prop :=
    exists links ks, image_of (link_at link_name arc_name is_a) (kids t) links /\
      those (fun l => lRole l = role) links ks /\ locs = flat_map lLocs ks /\ arcs = flat_map lArcs ks.
End Document.
(** the concept a locator label stands for: the first locator with a fragment, else nothing *)
Definition finds (locs : list loc) (label href : string) : Prop :=
  first_such (fun l => locLabel l = label /\ ~ free_of "#" (locHref l)) locs (Loc href label) \/
  ((forall l, In l locs -> locLabel l = label -> free_of "#" (locHref l)) /\ href = "#" ++ label).

Section Report.
  Variable d : disk.
  Variable dir : string.
  Variable root : tree.
  Variable pf : string -> f64 * bool.

  (** ** Labels *)

  (** what the label linkbases of the report say, in some order *)
  Definition label_books (ls : list label_linkbase) : Prop :=
    (forall lb, In lb ls -> exists x t, linkbase_at d dir root Labels x t /\ labels_as_written pf t lb) /\
    (forall x t, linkbase_at d dir root Labels x t -> exists lb, In lb ls /\ labels_as_written pf t lb).
  (** the texts of a concept: its href, the fragment of it, and the texts of the labels that the
      linkbases give it *)
  Definition label_text (ls : list label_linkbase) (href role lang text : string) : Prop :=
    (role = "Default" /\ lang = "Unlabelled" /\ text = href) \/
    (role = "Default" /\ lang = "Truncated" /\ exists a b, href = a ++ "#" ++ b /\ free_of "#" a /\ text = "#" ++ b) \/
    (exists p, last_such (labels_as href role lang) (paths ls) p /\ text = llCharData (p_label p)).
  Definition label_shown (href : string) (v : value) : Prop :=
    exists ls pack, label_books ls /\ is_pack pack /\ labels pack v /\
      forall role lang text, holds pack role lang text <-> label_text ls href role lang text.

  (** ** The concepts *)
  Definition concept_with_id (href : string) (c : concept) : Prop :=
    exists h id t cs, href = h ++ "#" ++ id /\ free_of "#" h /\ h <> "" /\ id <> "" /\ known d dir root h t /\
      image_of (concept_at t h) (kids t) cs /\ first_such (fun c => cID c = id) cs c.

  (** ** The presentation grid *)
  Variable tree_of : list arc -> string -> rarc.   (* internal/graph *)
  Definition parent_child : string := "http://www.xbrl.org/2003/arcrole/parent-child".
  Definition outline (arcs : list parc) : rarc :=
    tree_of (map (fun a => Arc (paArcrole a) (paOrder a) (paFrom a) (paTo a)) arcs) parent_child.
  Definition row_shown (locs : list loc) (x : string * nat) (u : value) : Prop :=
    exists href, finds locs (fst x) href /\ href_shown href u /\ the_member u "Indentation" (count (snd x)) /\
      the_member u "Label" (label_shown href).
  Definition presentation_in (t : tree) := network_at "presentationLink" "presentationArc" (is_presentation_arc pf) t.
  Definition presented (t : tree) (role : string) : Prop :=
    has_network_at "presentationLink" "presentationArc" (is_presentation_arc pf) t role.
  (** the rows: the outline of one of the documents that have the network; no rows if there is none *)
  Definition rows_shown (role : string) (v : value) : Prop :=
    ((forall x t, linkbase_at d dir root Presentation x t -> ~ presented t role) /\
     the_member v "IndentedLabels" (list_of (row_shown []) [])) \/
    (exists x t locs arcs out, linkbase_at d dir root Presentation x t /\ presented t role /\ presentation_in t role locs arcs /\
       preorder 0 (outline arcs) out /\ the_member v "IndentedLabels" (list_of (row_shown locs) out)).

  (** ** The calculation grid *)
  Definition calculation_in (t : tree) := network_at "calculationLink" "calculationArc" (is_calculation_arc pf) t.
  Definition calculated (t : tree) (role : string) : Prop :=
    has_network_at "calculationLink" "calculationArc" (is_calculation_arc pf) t role.
  Definition sums_from (locs : list loc) (href : string) (a : carc) : Prop := is_summation a /\ finds locs (caFrom a) href.
  (** an arc as a contributing concept *)
  Definition contribution_shown (locs : list loc) (arcs : list carc) (a : carc) (u : value) : Prop :=
    exists href c sign scale total, finds locs (caTo a) href /\ concept_with_id href c /\
      sign_text (caWeight a) sign /\ scale_text (caWeight a) scale /\
      (total = true <-> exists b, In b arcs /\ sums_from locs href b) /\
      href_shown href u /\ the_member u "Label" (label_shown href) /\ the_member u "BalanceType" (shows (cBalance c)) /\
      the_member u "Sign" (shows sign) /\ the_member u "Scale" (shows scale) /\ the_member u "IsSummationItem" (flag total).
  (** a total with its contributing concepts, by the order of the arcs *)
  Definition sum_shown (locs : list loc) (arcs : list carc) (href : string) (u : value) : Prop :=
    exists c from sorted, concept_with_id href c /\ those (sums_from locs href) arcs from /\ stably_sorted by_arc_order from sorted /\
      href_shown href u /\ the_member u "Label" (label_shown href) /\ the_member u "BalanceType" (shows (cBalance c)) /\
      the_member u "ContributingConcepts" (fun x => exists us, x = JArr us /\ image_of (contribution_shown locs arcs) sorted us).
  Definition sums_shown (role : string) (v : value) : Prop :=
    ((forall x t, linkbase_at d dir root Calculation x t -> ~ calculated t role) /\
     the_member v "SummationItems" (fun u => u = JNull)) \/
    (exists x t locs arcs hrefs, linkbase_at d dir root Calculation x t /\ calculated t role /\ calculation_in t role locs arcs /\
       NoDup hrefs /\
       (forall href, In href hrefs <-> (exists a, In a arcs /\ sums_from locs href a) /\ exists c, concept_with_id href c) /\
       the_member v "SummationItems" (list_of (sum_shown locs arcs) hrefs)).
End Report.
