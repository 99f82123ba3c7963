(** * LabelSpec: labels, label roles and languages *)
From Coq Require Import String Ascii List.
From Verif Require Import GoSpec LinkbaseModel.
Import ListNotations.
Local Open Scope string_scope.

(** All combinations of a locator, an arc and a label of one label link, in
    document order. *)
Record path := Path { p_loc : loc; p_arc : larc; p_label : label_elem }.
Definition paths (labels : list label_linkbase) : list path :=
  flat_map (fun lb => flat_map (fun ll => flat_map (fun l => flat_map (fun a => map (Path l a) (lnLabels ll)) (lnArcs ll))
    (lnLocs ll)) (llLinks lb)) labels.
(** the path connects a locator of [href] by a concept-label arc to its label *)
Definition connects (href : string) (p : path) : Prop :=
  locHref (p_loc p) = href /\ laFrom (p_arc p) = locLabel (p_loc p) /\
  laArcrole (p_arc p) = "http://www.xbrl.org/2003/arcrole/concept-label" /\
  laTo (p_arc p) = llLabel (p_label p).
(** the supported label roles and languages, and the names the API gives them *)
Definition api_role (uri role : string) : Prop :=
  In (uri, role) [("http://www.xbrl.org/2003/role/label", "Default");
                  ("http://www.xbrl.org/2003/role/terseLabel", "Terse");
                  ("http://www.xbrl.org/2003/role/verboseLabel", "Verbose")].
Definition api_lang (tag lang : string) : Prop :=
  In (tag, lang) [("en-US", "en - english"); ("es", "es - español")].
Definition labels_as (href role lang : string) (p : path) : Prop :=
  connects href p /\ api_role (llRole (p_label p)) role /\ api_lang (llLang (p_label p)) lang.

(** the text a pack holds for a role and a language *)
Definition holds (pack : list (string * list (string * string))) (role lang text : string) : Prop :=
  exists m, In (role, m) pack /\ In (lang, text) m.
(** a Go map: distinct keys, at both levels *)
Definition is_map {V} (m : list (string * V)) : Prop := NoDup (map fst m).
Definition is_pack (p : list (string * list (string * string))) : Prop :=
  is_map p /\ forall r m, In (r, m) p -> is_map m.
Definition has_role (role : string) (p : list (string * list (string * string))) : Prop := In role (map fst p).

(** the locators of the links of a role, if the role is declared *)
Definition role_locators {arc} (role : string) (lb : linkbase arc) : list loc :=
  flat_map lLocs (filter (fun k => if string_dec (lRole k) role then true else false) (lbLinks lb)).
Definition declares {arc} (lb : linkbase arc) (role : string) : Prop := In role (map rrRoleURI (lbRoleRefs lb)).
(** what a locator label stands for in the links of a role *)
Definition locates {arc} (lb : linkbase arc) (role label href : string) : Prop :=
  (declares lb role /\
   first_such (fun l => locLabel l = label /\ ~ free_of "#"%char (locHref l)) (role_locators role lb) (Loc href label)) \/
  ((~ declares lb role \/
    (forall l, In l (role_locators role lb) -> locLabel l = label -> free_of "#"%char (locHref l))) /\
   href = "#" ++ label).
