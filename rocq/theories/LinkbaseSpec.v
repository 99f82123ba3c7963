(** * LinkbaseSpec: what loading a linkbase promises *)
From Coq Require Import String Ascii List SpecFloat PArith ZArith.
From Verif Require Import GoSpec AttrModel AttrSpec SchemaModel SchemaSpec LinkbaseModel.
Import ListNotations.
Local Open Scope string_scope.

Definition xlink_ns := "http://www.w3.org/1999/xlink".
(** a mandatory XLink attribute *)
Definition xlink (attrs : list xattr) (n v : string) : Prop := required_in xlink_ns attrs n v.

Record is_role_ref (e : elem) (r : role_ref) : Prop := {
  rr_ns : nspace (ename e) = "http://www.xbrl.org/2003/linkbase";
  rr_uri : required (eattrs e) "roleURI" (rrRoleURI r);
  rr_href : xlink (eattrs e) "href" (rrHref r) }.

Record is_loc (e : elem) (l : loc) : Prop := {
  lc_type : xlink (eattrs e) "type" "locator";
  lc_label : xlink (eattrs e) "label" (locLabel l);
  lc_href : required (eattrs e) "href" (locHref l) }.

(** the largest finite double, (2^53-1)*2^971: sorts after every other order *)
Definition sorts_last : spec_float := S754_finite false (Pos.pred (Pos.pow 2 53)) 971%Z.

Section Numbers.
  Variable pf : string -> spec_float * bool.
  Definition order_of (s : string) (o : spec_float) : Prop :=
    (snd (pf s) = false /\ o = fst (pf s)) \/ (snd (pf s) = true /\ o = sorts_last).
  Definition weight_of (s : string) (w : spec_float) : Prop :=
    (snd (pf s) = false /\ w = fst (pf s)) \/ (snd (pf s) = true /\ w = S754_zero false).

  (** an arc element with the mandatory attributes *)
  Record is_arc (e : elem) (order : spec_float) (arcrole from to : string) : Prop := {
    ar_type : xlink (eattrs e) "type" "arc";
    ar_order : exists o, required (eattrs e) "order" o /\ order_of o order;
    ar_role : xlink (eattrs e) "arcrole" arcrole;
    ar_from : xlink (eattrs e) "from" from;
    ar_to : xlink (eattrs e) "to" to }.

  Definition is_presentation_arc (e : elem) (a : parc) : Prop :=
    is_arc e (paOrder a) (paArcrole a) (paFrom a) (paTo a) /\
    optional (eattrs e) "preferredLabel" (paPreferredLabel a).

  (** the flags are dealt with separately (C47) *)
  Definition is_definition_arc (e : elem) (a : darc) : Prop :=
    is_arc e (daOrder a) (daArcrole a) (daFrom a) (daTo a) /\
    optional (eattrs e) "contextElement" (daContextElement a) /\
    optional (eattrs e) "targetRole" (daTargetRole a) /\
    daClosed a = false /\
    (daUsable a = true <-> exists v b, attr_val (eattrs e) "usable" v /\ bool_lit v b).

  Definition is_calculation_arc (e : elem) (a : carc) : Prop :=
    is_arc e (caOrder a) (caArcrole a) (caFrom a) (caTo a) /\
    exists w, required (eattrs e) "weight" w /\ weight_of w (caWeight a).

  Record is_link {arc} (is_a : elem -> arc -> Prop) (e : link_elem) (l : link arc) : Prop := {
    il_type : xlink (le_attrs e) "type" "extended";
    il_role : required (le_attrs e) "role" (lRole l);
    il_locs : image_of is_loc (le_loc e) (lLocs l);
    il_arcs : image_of is_a (le_arc e) (lArcs l) }.

  (** XBRL Dimensions: closed defaults to false, usable to true *)
  Definition closed_attr (e : elem) (b : bool) : Prop :=
    (exists v, attr_val (eattrs e) "closed" v /\ bool_lit v b) \/ (no_attr (eattrs e) "closed" /\ b = false).
  Definition usable_attr (e : elem) (b : bool) : Prop :=
    (exists v, attr_val (eattrs e) "usable" v /\ bool_lit v b) \/ (no_attr (eattrs e) "usable" /\ b = true).

  (** label links: an arc without order is placed after the n-th position *)
  Record is_label_arc (n : nat) (ie : nat * elem) (a : larc) : Prop := {
    la_type : xlink (eattrs (snd ie)) "type" "arc";
    la_order : (exists o, required (eattrs (snd ie)) "order" o /\ laOrder a = fst (pf o)) \/
               ((forall o, ~ required (eattrs (snd ie)) "order" o) /\
                laOrder a = SpecFloat.binary_normalize 53 1024 (BinInt.Z.of_nat (n + fst ie)) 0 false);
    la_role : xlink (eattrs (snd ie)) "arcrole" (laArcrole a);
    la_from : xlink (eattrs (snd ie)) "from" (laFrom a);
    la_to : xlink (eattrs (snd ie)) "to" (laTo a) }.
  Record is_label (e : elem) (l : label_elem) : Prop := {
    lb_label : xlink (eattrs e) "label" (llLabel l);
    lb_role : xlink (eattrs e) "role" (llRole l);
    lb_lang : required (eattrs e) "lang" (llLang l);
    lb_text : llCharData l = etext e }.
  Record is_label_link (e : link_elem) (l : label_link) : Prop := {
    ll_type : xlink (le_attrs e) "type" "extended";
    ll_role : required (le_attrs e) "role" (lnRole l);
    ll_locs : image_of is_loc (le_loc e) (lnLocs l);
    ll_labels : image_of is_label (le_labels e) (lnLabels l);
    ll_arcs : image_of (is_label_arc (length (le_arc e)))
                (combine (seq 0 (length (le_arc e))) (le_arc e)) (lnArcs l) }.
End Numbers.

(** [out] merges the links [ins]: one link per role, locators and arcs of all
    links of that role in document order *)
Definition merges {arc} (ins out : list (link arc)) : Prop :=
  NoDup (map lRole out) /\
  (forall r, In r (map lRole out) <-> In r (map lRole ins)) /\
  forall l, In l out ->
    lLocs l = flat_map lLocs (filter (fun x => String.eqb (lRole x) (lRole l)) ins) /\
    lArcs l = flat_map lArcs (filter (fun x => String.eqb (lRole x) (lRole l)) ins).
