(** * CalcModel: pkg/renderables/calculationGrid.go *)
From Verif Require Import GoBase AttrModel SchemaModel LinkbaseModel InstanceModel LabelModel
  FactModel GridModel.
Local Open Scope string_scope.

(** pkg/attr/literals.go:34 *)
Definition CalculationArcrole := "http://www.xbrl.org/2003/arcrole/summation-item".

(** calculationGrid.go:25-32 *)
Record contributing := Contributing {
  ccSign : string; ccScale : string; ccBalance : string; ccHref : string; ccLabel : label_pack;
  ccIsSummation : bool }.
(** calculationGrid.go:12-23 *)
Record summation_item := SummationItem {
  siHref : string; siLabel : label_pack; siBalance : string; siPeriods : list language_pack;
  siMembers : list (list member_cell); siVoid : list void_cell; siContributing : list contributing;
  siFacts : list (list multilingual_fact); siFootnoteGrid : list (list (list nat));
  siFootnotes : list string }.

(** fmt.Sprintf("%.1f", x) for x >= 0, an infinity or a NaN: the nearest multiple of 0.1 to the
    exact value of [x], ties to the even digit (strconv.FormatFloat with 'f' and precision 1) *)
Definition half_even (num den : N) : N :=
  let q := (num / den)%N in
  let r := (num mod den)%N in
  if (2 * r <? den)%N then q else if (den <? 2 * r)%N then (q + 1)%N
  else if N.even q then q else (q + 1)%N.
Definition tenths (m : positive) (e : Z) : N :=
  match e with
  | Zneg p => half_even (10 * Npos m) (2 ^ Npos p)
  | Z0 => 10 * Npos m
  | Zpos p => 10 * Npos m * 2 ^ Npos p
  end%N.
Definition one_decimal (n : N) : string := itoa_N (n / 10) ++ "." ++ itoa_N (n mod 10).
Definition format_1f (x : f64) : string :=
  match x with
  | S754_nan => "NaN"
  | S754_infinity s => if s then "-Inf" else "+Inf"
  | S754_zero s => if s then "-0.0" else "0.0"
  | S754_finite s m e => let t := one_decimal (tenths m e) in if s then "-" ++ t else t
  end.
(** fmt.Sprintf("%c", r) for an ASCII rune *)
Definition format_c (c : ascii) : string := String c "".

(** calculationGrid.go:60-65 [cStruct] *)
Record c_struct := CStruct { csHref : string; csOrder : f64; csSign : ascii; csScale : f64 }.

(** calculationGrid.go:49-58: the link that is used. [stale] is calculationLinks, which is
    declared outside the loop: a linkbase that does not refer to the role is searched with the
    links of an earlier one. [lbs] lists the map CalculationLinkbases in iteration order. *)
Fixpoint calc_link (role : string) (stale : list (link carc)) (lbs : list (linkbase carc))
  : option (linkbase carc * link carc) :=
  match lbs with
  | [] => None
  | lb :: rest =>
      let links := if existsb (fun rr => String.eqb role (rrRoleURI rr)) (lbRoleRefs lb)
                   then lbLinks lb else stale in
      match find (fun k => String.eqb (lRole k) role) links with
      | Some k => Some (lb, k)
      | None => calc_link role links rest
      end
  end.

(** calculationGrid.go:70-82 *)
Definition c_struct_of (role : string) (lb : linkbase carc) (a : carc) : c_struct :=
  CStruct (map_locator_to_href role lb (caTo a)) (caOrder a)
          (if SFltb (caWeight a) (S754_zero false) then "-"%char else "+"%char) (SFabs (caWeight a)).
(** calculationGrid.go:66-84: [cMap] *)
Definition add_arc (role : string) (lb : linkbase carc) (m : list (string * list c_struct)) (a : carc)
  : list (string * list c_struct) :=
  if String.eqb (caArcrole a) CalculationArcrole then
    let from := map_locator_to_href role lb (caFrom a) in
    sset from (match sget from m with Some l => l | None => [] end ++ [c_struct_of role lb a])%list m
  else m.
(** calculationGrid.go:86-90 *)
Definition c_less (a b : c_struct) : bool := SFltb (csOrder a) (csOrder b).
Definition c_map (role : string) (lb : linkbase carc) (arcs : list carc) : list (string * list c_struct) :=
  map (fun kv => (fst kv, isort c_less (snd kv))) (fold_left (add_arc role lb) arcs []).

Section SummationItems.
  Variable tree : list arc -> string -> rarc.
  Variable lbl : string -> label_pack.
  (** HashQuery: [None] is an error *)
  Variable concept_of : string -> option concept.
  (** the iteration orders and finders used for the summation item of a source *)
  Variable genv : string -> grid_env.
  Variable entity : string.

  (** calculationGrid.go:101-117 *)
  Definition contributing_of (cmap : list (string * list c_struct)) (c : c_struct) : option contributing :=
    match concept_of (csHref c) with
    | None => None
    | Some k => Some (Contributing (format_c (csSign c)) (format_1f (csScale c)) (cBalance k) (csHref c)
                        (lbl (csHref c))
                        (match sget (csHref c) cmap with Some _ => true | None => false end))
    end.
  (** labelPacks, ret, labelRoles, langs *)
  Record c_state := CState {
    stPacks : list label_pack; stItems : list summation_item; stRoles : list string; stLangs : list string }.
  (** calculationGrid.go:98-148: one source; labelPacks keeps growing *)
  Definition c_source (cmap : list (string * list c_struct)) (st : c_state) (fs : string * list c_struct)
    : res c_state :=
    let '(from, slice) := fs in
    let g := genv from in
    let cs := collect (contributing_of cmap) slice in
    let hrefs := (map ccHref cs ++ [from])%list in
    do (cols, seg, scen, cpacks) <-
      get_relevant_contexts tree lbl concept_of (ge_typed_order g) entity (ge_instances g) hrefs;
    let packs := (stPacks st ++ map ccLabel cs ++ [lbl from] ++ cpacks)%list in
    let '(roles, langs) := ge_destruct g (roles_and_langs packs) in
    do (facts, fgrid, notes) <-
      get_factual_quadrant tree (ge_cell g) (ge_id_order g) (ge_id_order_final g) hrefs cols langs;
    match concept_of from with
    | None => Ok (CState packs (stItems st) roles langs)
    | Some k =>
        do (members, void) <- get_member_grid (ge_member_order g) cols seg scen;
        Ok (CState packs
              (stItems st ++ [SummationItem from (lbl from) (cBalance k) (get_period_headers cols) members void
                                cs facts fgrid notes])%list roles langs)
    end.
  (** calculationGrid.go:149-151 *)
  Definition item_less (a b : summation_item) : bool :=
    String.ltb (get_pure_label (siLabel a)) (get_pure_label (siLabel b)).
  (** calculationGrid.go:47-156 [getSummationItems], which is all of [cGrid] (38-45); [order] is
      the iteration order of cMap in the loop of line 97 *)
  Definition get_summation_items (order : list (string * list c_struct) -> list (string * list c_struct))
    (role : string) (lbs : list (linkbase carc)) : res (list summation_item * list string * list string) :=
    match calc_link role [] lbs with
    | None => Ok ([], [], [])
    | Some (lb, k) =>
        let cmap := c_map role lb (lArcs k) in
        do st <- foldM (c_source cmap) (order cmap) (CState [] [] [] []);
        Ok (isort item_less (stItems st), stRoles st, stLangs st)
    end.
End SummationItems.
