(** * LabelModel: pkg/renderables/{label,labelPack,concepts,utility}.go *)
From Verif Require Import GoBase AttrModel SchemaModel LinkbaseModel.
Local Open Scope string_scope.

(** ** labelPack.go:3-20: roles and languages are strings; the packs are maps *)
Definition Default := "Default".
Definition Terse := "Terse".
Definition Verbose := "Verbose".
Definition PureLabel := "Unlabelled".
Definition BriefLabel := "Truncated".
Definition English := "en - english".
Definition Español := "es - español".
Notation language_pack := (list (string * string)) (only parsing).
Notation label_pack := (list (string * list (string * string))) (only parsing).

(** labelPack.go:22-24 [getPureLabel], 26-28 [getLabel]: a missing key is "" *)
Definition get_label_at (p : label_pack) (role lang : string) : string :=
  match sget role p with
  | Some l => match sget lang l with Some s => s | None => "" end
  | None => ""
  end.
Definition get_pure_label (p : label_pack) : string := get_label_at p Default PureLabel.

(** ** label.go *)

(** pkg/attr/literals.go:35-38 *)
Definition LabelArcrole := "http://www.xbrl.org/2003/arcrole/concept-label".
Definition LabelRole := "http://www.xbrl.org/2003/role/label".
Definition VerboseLabelRole := "http://www.xbrl.org/2003/role/verboseLabel".
Definition TerseLabelRole := "http://www.xbrl.org/2003/role/terseLabel".

(** label.go:66-78 [appendLanguage]; [case "en":] has an empty body *)
Definition append_language (lang role text : string) (p : label_pack) : label_pack :=
  let put l := sset role (sset l text (match sget role p with Some m => m | None => [] end)) p in
  if String.eqb lang "en" then p
  else if String.eqb lang "en-US" then put English
  else if String.eqb lang "es" then put Español
  else p.
(** label.go:36-38, 42-44, 48-50 *)
Definition ensure_role (role : string) (p : label_pack) : label_pack :=
  match sget role p with Some _ => p | None => sset role [] p end.
(** label.go:32-55: the body of the innermost loop for a label resource with the arc's label *)
Definition apply_label (p : label_pack) (x : label_elem) : label_pack :=
  let go role := append_language (llLang x) role (llCharData x) (ensure_role role p) in
  if String.eqb (llRole x) LabelRole then go Default
  else if String.eqb (llRole x) TerseLabelRole then go Terse
  else if String.eqb (llRole x) VerboseLabelRole then go Verbose
  else p.
(** label.go:22-64 [appendLabelModifiersFromHref]: five nested loops. [labels] is the
    iteration order of the map h.LabelLinkbases. *)
Definition append_label_modifiers (p : label_pack) (labels : list label_linkbase) (href : string) : label_pack :=
  fold_left (fun p lb =>
    fold_left (fun p ll =>
      fold_left (fun p l =>
        if String.eqb (locHref l) href then
          fold_left (fun p a =>
            if String.eqb (laFrom a) (locLabel l) && String.eqb (laArcrole a) LabelArcrole then
              fold_left (fun p x => if String.eqb (llLabel x) (laTo a) then apply_label p x else p) (lnLabels ll) p
            else p) (lnArcs ll) p
        else p) (lnLocs ll) p) (llLinks lb) p) labels p.
(** label.go:10-20 [GetLabel]; [href[index:]] includes the '#' *)
Definition get_label (labels : list label_linkbase) (href : string) : label_pack :=
  let base := (PureLabel, href) :: match cut "#" href with
                                   | Some (_, t) => [(BriefLabel, String "#" t)]
                                   | None => []
                                   end in
  append_label_modifiers [(Default, base)] labels href.

(** ** labelPack.go:30-86 *)

(** labelPack.go:37-46: the loops of [reduce]; every role's pack is replaced. The maps are
    visited in list order. Keys are distinct, so the resulting map is the same in every order. *)
Definition reduce_into (ret : label_pack) (item : label_pack) : label_pack :=
  fold_left (fun ret kv =>
    sset (fst kv) (fold_left (fun m lc => sset (fst lc) (snd lc) m) (snd kv) []) ret) item ret.
(** labelPack.go:30-48 [reduce] *)
Definition reduce (packs : list label_pack) : option label_pack :=
  match packs with
  | [] => None
  | [p] => Some p
  | _ => Some (fold_left reduce_into packs [])
  end.
(** labelPack.go:50-60 [destruct], in the order of the list; the grids put the two lists into
    the order of the iteration ([ge_destruct] of GridModel) *)
Definition destruct_pack (p : label_pack) : list string * list string :=
  (map fst p, flat_map (fun kv => map fst (snd kv)) p).
(** presentationGrid.go:38-44 and the like: nil slices if there is no pack *)
Definition roles_and_langs (packs : list label_pack) : list string * list string :=
  match reduce packs with Some p => destruct_pack p | None => ([], []) end.
(** labelPack.go:62-73 [dedupLang], 75-86 [dedupLabelRole] (utility.go:12-22 [dedup]) *)
Definition dedup_strings (l : list string) : list string := uniq String.eqb l.

(** ** concepts.go:14-78: [mapPLocatorToHref] and its two identical siblings *)
Definition map_locator_to_href {arc} (role : string) (lb : linkbase arc) (locator : string) : string :=
  match find (fun l => String.eqb (locLabel l) locator && has_char "#" (locHref l))
             (flat_map (fun rr => if String.eqb role (rrRoleURI rr) then
                flat_map (fun k => if String.eqb (lRole k) role then lLocs k else []) (lbLinks lb)
              else []) (lbRoleRefs lb)) with
  | Some l => locHref l
  | None => "#" ++ locator
  end.
