(** * GridModel: pkg/renderables/{contexts,typedMember,contextualQuadrant,
    factualQuadrant,presentationGrid}.go *)
From Verif Require Import GoBase AttrModel SchemaModel LinkbaseModel InstanceModel LabelModel
  PeriodModel FactModel.
Local Open Scope string_scope.

(** ** contexts.go *)

(** contexts.go:34-47 ExplicitMember, Dimension, TypedDomain: the same two fields *)
Record labelled := Labelled { lbHref : string; lbLabel : label_pack }.
(** contexts.go:26-32 [RelevantMember] *)
Record relevant_member := RelevantMember {
  rmDimension : labelled; rmExplicit : option labelled; rmTypedMember : string;
  rmTypedDomain : option labelled; rmIsSegment : bool }.
(** contexts.go:20-24 [relevantContext] *)
Record relevant_context := RelevantContext {
  rcContextRef : string; rcPeriod : language_pack; rcMembers : list relevant_member }.

(** contexts.go:11-18 [getContext] *)
Definition get_context (i : instance) (ref : string) : option context :=
  find (fun c => String.eqb (ctxID c) ref) (iContexts i).

(** [m[k]] on a map[Lang]string: a missing key is "" *)
Definition at_lang (m : language_pack) (l : string) : string :=
  match sget l m with Some s => s | None => "" end.

(** contexts.go:53-84: the body of the loop over the members returns in its first iteration.
    [return i < j] (line 83) is never reached: every relevant member is explicit or typed;
    the last case below stands for it. *)
Definition member_less (a b : relevant_member) : bool :=
  if rmIsSegment a && negb (rmIsSegment b) then true
  else if negb (rmIsSegment a) && rmIsSegment b then false
  else match rmTypedDomain a, rmTypedDomain b with
       | Some _, None => true
       | None, Some _ => false
       | Some x, Some y =>
           if String.eqb (lbHref x) (lbHref y) then String.ltb (rmTypedMember a) (rmTypedMember b)
           else String.ltb (lbHref x) (lbHref y)
       | None, None =>
           match rmExplicit a, rmExplicit b with
           | Some x, Some y => String.ltb (lbHref x) (lbHref y)
           | None, Some _ => true
           | _, _ => false
           end
       end.
(** contexts.go:49-91 [sortContexts] *)
Definition context_less (x y : relevant_context) : bool :=
  let px := at_lang (rcPeriod x) PureLabel in
  let py := at_lang (rcPeriod y) PureLabel in
  if String.eqb px py then
    if Nat.eqb (List.length (rcMembers x)) (List.length (rcMembers y)) then
      match rcMembers x, rcMembers y with
      | a :: _, b :: _ => member_less a b
      | _, _ => String.ltb px py
      end
    else Nat.ltb (List.length (rcMembers x)) (List.length (rcMembers y))
  else String.ltb px py.
Definition sort_contexts (l : list relevant_context) : list relevant_context := isort context_less l.

Section Contexts.
  (** graph.Tree (external code) *)
  Variable tree : list arc -> string -> rarc.
  (** label.go:10-20 [GetLabel] on this hydratable. It visits the map of label linkbases anew
      on every call; the model gives every call with the same href the same answer. *)
  Variable lbl : string -> label_pack.
  (** query.go:10-50 [HashQuery]: [None] is an error or a nil concept *)
  Variable concept_of : string -> option concept.
  (** the order in which the map TypedMembersMap of a typed member of a context is visited *)
  Variable typed_order : context -> typed_member -> list (string * string).

  (** typedMember.go:8 *)
  Definition typedDomainArcRole := "http://ecksbee.com/arc-role/typed-domain".
  (** typedMember.go:10-21 [tDomArcs] *)
  Definition tdom_arcs (l : list tarc) : list arc :=
    map (fun a => Arc typedDomainArcRole (taOrder a) (taFrom a) (taTo a)) l.
  (** typedMember.go:23-42 [getTypedMember]: isSegment is not used *)
  Definition get_typed_member (c : context) (t : typed_member) (dimension : labelled) : list relevant_member :=
    map (fun kv => RelevantMember dimension None (snd kv) (Some (Labelled (fst kv) (lbl (fst kv)))) false)
        (typed_order c t).

  (** what getContextualMembers returns *)
  Record contextual := Contextual {
    cxMembers : list relevant_member; cxSegmentTrees : list rarc; cxScenarioTrees : list rarc;
    cxPacks : list label_pack }.
  (** contexts.go:248-268, 283-303 *)
  Definition explicit_members (segment : bool) (l : list explicit_member) : list relevant_member :=
    map (fun e => RelevantMember (Labelled (emDimHref e) (lbl (emDimHref e)))
                    (Some (Labelled (emMemHref e) (lbl (emMemHref e)))) "" None segment) l.
  Definition explicit_packs (l : list explicit_member) : list label_pack :=
    flat_map (fun e => [lbl (emMemHref e); lbl (emDimHref e)]) l.
  (** contexts.go:269-282, 304-317 *)
  Definition typed_members (c : context) (l : list typed_member) : list relevant_member :=
    flat_map (fun t => get_typed_member c t (Labelled (tmDimHref t) (lbl (tmDimHref t)))) l.
  Definition typed_trees (l : list typed_member) : list rarc :=
    map (fun t => tree (tdom_arcs (tmArcs t)) typedDomainArcRole) l.
  Definition typed_packs (l : list typed_member) : list label_pack :=
    flat_map (fun t => [lbl (tmDimHref t); lbl (tmDimHref t)]) l.
  (** contexts.go:241-319 [getContextualMembers] *)
  Definition get_contextual_members (c : context) : contextual :=
    let sg := ctxSegment c in let sc := ctxScenario c in
    Contextual
      (explicit_members true (dcExplicit sg) ++ typed_members c (dcTyped sg)
       ++ explicit_members false (dcExplicit sc) ++ typed_members c (dcTyped sc))%list
      (typed_trees (dcTyped sg)) (typed_trees (dcTyped sc))
      (explicit_packs (dcExplicit sg) ++ typed_packs (dcTyped sg)
       ++ explicit_packs (dcExplicit sc) ++ typed_packs (dcTyped sc))%list.

  (** contexts.go:194-200 *)
  Definition factual_hrefs (hrefs : list string) : list string :=
    filter (fun h => match concept_of h with Some c => negb (cAbstract c) | None => false end) hrefs.

  (** contexts.go:211-234, one fact of one instance for one href. The state holds
      contextRefTaken and what has been appended; a nil context is dereferenced (217). *)
  Definition rc_state := (list string * list (relevant_context * contextual))%type.
  Definition rc_fact (entity : string) (i : instance) (href : string) (st : rc_state) (f : fact) : res rc_state :=
    if existsb (String.eqb (fContextRef f)) (fst st) then Ok st
    else if String.eqb href (fHref f) then
      match get_context i (fContextRef f) with
      | None => Panic
      | Some c =>
          if String.eqb (ctxScheme c ++ "/" ++ ctxIdentifier c) entity then
            let m := get_contextual_members c in
            Ok (fContextRef f :: fst st,
                (snd st ++ [(RelevantContext (ctxID c) (period_string c) (cxMembers m), m)])%list)
          else Ok st
      end
    else Ok st.
  Fixpoint foldM {A B} (f : A -> B -> res A) (l : list B) (a : A) : res A :=
    match l with [] => Ok a | x :: r => do a' <- f a x; foldM f r a' end.
  (** contexts.go:208-236: one instance *)
  Definition rc_instance (entity : string) (factual : list string) (i : instance)
    : res (list (relevant_context * contextual)) :=
    do st <- foldM (fun st href => foldM (rc_fact entity i href) (iFacts i) st) factual ([], []);
    Ok (snd st).
  (** contexts.go:192-239 [getRelevantContexts]; [insts] lists the map Instances in iteration order *)
  Definition get_relevant_contexts (entity : string) (insts : list instance) (hrefs : list string)
    : res (list relevant_context * list rarc * list rarc * list label_pack) :=
    match factual_hrefs hrefs with
    | [] => Ok ([], [], [], [])
    | factual =>
        do outs <- mapM (rc_instance entity factual) insts;
        let all := concat outs in
        Ok (sort_contexts (map fst all), flat_map (fun x => cxSegmentTrees (snd x)) all,
            flat_map (fun x => cxScenarioTrees (snd x)) all, flat_map (fun x => cxPacks (snd x)) all)
    end.
End Contexts.

(** ** contextualQuadrant.go *)

(** contextualQuadrant.go:11-14 *)
Record member_cell := MemberCell { mcExplicit : option labelled; mcTyped : string }.
Definition empty_member_cell := MemberCell None "".
(** contextualQuadrant.go:16-21 *)
Record void_cell := VoidCell {
  vcParenthesized : bool; vcIndentation : nat; vcDimension : labelled; vcTypedDomain : option labelled }.

(** contextualQuadrant.go:27-33 [getPeriodHeaders] *)
Definition get_period_headers (cs : list relevant_context) : list language_pack := map rcPeriod cs.

(** utility.go:12-22 [dedup] on locators *)
(** contextualQuadrant.go:243-275 [dedupNodes]. [sort.StringSlice(x)] (254) is a conversion and
    sorts nothing. The recursion goes one level down the trees, so the height of the forest
    bounds it ([fuel]). *)
Fixpoint height (r : rarc) : nat :=
  match r with RArc _ _ cs => S (fold_right (fun c n => Nat.max (height c) n) 0 cs) end.
Definition forest_height (l : list rarc) : nat := fold_right (fun c n => Nat.max (height c) n) 0 l.
Fixpoint dedup_children (fuel : nat) (children : list rarc) (order : nat) : list rarc :=
  match fuel with
  | 0 => []
  | S fuel =>
      let locators := dedup_strings (map ra_locator children) in
      map (fun kl =>
             let '(k, l) := (kl : nat * string) in
             let grand := flat_map ra_children (filter (fun c => String.eqb (ra_locator c) l) children) in
             RArc l (f64_of_nat k) (match grand with [] => [] | _ => dedup_children fuel grand k end))
          (combine (seq (S order) (List.length locators)) locators)
  end.
Definition dedup_nodes (children : list rarc) (locator : string) : rarc :=
  RArc locator (f64_of_nat 0) (dedup_children (forest_height children) children 0).
(** contextualQuadrant.go:222-241 [reduceTrees] *)
Definition reduce_trees (trees : list rarc) : rarc :=
  if forallb (fun r => String.eqb (ra_locator r) "" && match ra_children r with [] => false | _ => true end) trees
  then dedup_nodes (flat_map ra_children trees) ""
  else RArc "" (f64_of_nat 0) [].

(** [node.Children[p].Order < node.Children[q].Order] *)
Definition order_less {A} (x y : f64 * A) : bool := SFltb (fst x) (fst y).

(** contextualQuadrant.go:173-216 makeIndents. The state holds [dimension] and [ret]; a nil
    [dimension] is dereferenced (188, 202). Sorting the children by order and then visiting
    them is: pairing every child's order with its visit, sorting the pairs, running them. *)
Definition vq_state := (option labelled * list void_cell)%type.
Fixpoint run {A} (l : list (A -> res A)) (a : A) : res A :=
  match l with [] => Ok a | f :: r => do a' <- f a; run r a' end.
Section VoidQuadrant.
  Variable dims : list (string * labelled).
  Variable typed : list (string * labelled).
  Fixpoint make_indents (node : rarc) (paren : bool) (level : nat) (st : vq_state) : res vq_state :=
    let 'RArc locator _ children := node in
    let enter :=
      match fst st with
      | None => if nonempty locator then
                  match sget locator dims with
                  | None => None
                  | Some d => Some (Some d, snd st)
                  end
                else Some st
      | Some _ => Some st
      end in
    match enter with
    | None => Ok (fst st, [])
    | Some (dim, ret) =>
        do ret1 <- (if Nat.eqb level 1 then
                      match dim with None => Panic
                      | Some d => Ok (ret ++ [VoidCell paren level d None])%list end
                    else Ok ret);
        let go ret2 :=
          run (map snd (isort order_less
                          (map (fun c => (ra_order c, make_indents c paren (S level))) children)))
              (dim, ret2) in
        if Nat.ltb 1 level && nonempty locator then
          match sget locator typed with
          | None => Ok (dim, [])
          | Some t => match dim with None => Panic
                      | Some d => go (ret1 ++ [VoidCell paren level d (Some t)])%list end
          end
        else go ret1
    end.
End VoidQuadrant.

(** contextualQuadrant.go:113-145: the maps. [allDimensionHrefs] lists the keys of
    allDimensionMap in order of first insertion, as [sset] does. *)
Definition dimension_members (cs : list relevant_context) : list relevant_member :=
  filter (fun m => nonempty (lbHref (rmDimension m))) (flat_map rcMembers cs).
Definition all_dimension_map (ms : list relevant_member) : list (string * labelled) :=
  fold_left (fun m x => sset (lbHref (rmDimension x)) (rmDimension x) m) ms [].
Definition all_typed_domain_map (ms : list relevant_member) : list (string * labelled) :=
  fold_left (fun m x => match rmTypedDomain x with Some t => sset (lbHref t) t m | None => m end) ms [].
Definition explicit_dimension_map (segment : bool) (ms : list relevant_member)
  : list (string * list (string * relevant_member)) :=
  fold_left (fun m x =>
    match rmExplicit x with
    | Some e => if Bool.eqb (rmIsSegment x) segment then
        let d := lbHref (rmDimension x) in
        sset d (sset (lbHref e) x (match sget d m with Some v => v | None => [] end)) m
        else m
    | None => m
    end) ms [].
(** contextualQuadrant.go:149-168: the first entry, in iteration order, of the dimension's map *)
Definition explicit_row (member_order : list (string * relevant_member) -> list (string * relevant_member))
  (maps : list (string * list (string * relevant_member))) (href : string) : list void_cell :=
  match sget href maps with
  | Some v => match member_order v with
              | (_, m) :: _ => [VoidCell false 0 (rmDimension m) None]
              | [] => []
              end
  | None => []
  end.
(** contextualQuadrant.go:111-220 [getVoidQuadrant] *)
Definition get_void_quadrant member_order (cs : list relevant_context) (seg scen : list rarc)
  : res (list void_cell) :=
  let ms := dimension_members cs in
  let dims := all_dimension_map ms in
  let typed := all_typed_domain_map ms in
  let explicit := flat_map (fun h =>
      (explicit_row member_order (explicit_dimension_map true ms) h
       ++ explicit_row member_order (explicit_dimension_map false ms) h)%list)
    (isort String.ltb (map fst dims)) in
  do st1 <- make_indents dims typed (reduce_trees seg) false 0 (None, explicit);
  do st2 <- make_indents dims typed (reduce_trees scen) true 0 st1;
  Ok (snd st2).

(** contextualQuadrant.go:66-104: both branches of [IsSegment != IsParenthesized] do the same *)
Definition member_cell_at (v : void_cell) (c : relevant_context) : member_cell :=
  match find (fun m => String.eqb (lbHref (rmDimension m)) (lbHref (vcDimension v)) &&
                match rmTypedDomain m, vcTypedDomain v with
                | Some a, Some b => String.eqb (lbHref a) (lbHref b)
                | None, None => true
                | _, _ => false
                end) (rcMembers c) with
  | Some m => match rmTypedDomain m with
              | Some _ => MemberCell None (rmTypedMember m)
              | None => MemberCell (rmExplicit m) ""
              end
  | None => empty_member_cell
  end.
(** contextualQuadrant.go:35-109 [getMemberGridAndVoidQuadrant]; the comparators' [i < j] on
    equal locators is never true when a stable sort asks (it asks with i > j), so this is
    sorting by locator. The void cells are never nil. *)
Definition locator_less (a b : rarc) : bool := String.ltb (ra_locator a) (ra_locator b).
Definition get_member_grid member_order (cs : list relevant_context) (seg scen : list rarc)
  : res (list (list member_cell) * list void_cell) :=
  match cs with
  | [] => Ok ([], [])
  | _ =>
      do v <- get_void_quadrant member_order cs (isort locator_less seg) (isort locator_less scen);
      Ok (map (fun x => map (member_cell_at x) cs) v, v)
  end.

(** ** factualQuadrant.go *)

(** What one cell's calls of FindFact, GetFootnotes, HashQuery and FindMeasurement see: each
    visits the map Instances in its own order. *)
Record cell_env := CellEnv {
  ce_facts : list instance; ce_notes1 : list instance; ce_notes2 : list instance; ce_render : renv }.
Section FactualQuadrant.
  Variable tree : list arc -> string -> rarc.
  Variable env : nat -> nat -> cell_env.
  (** the order in which idMap is visited for the numbers of a cell, and for the list *)
  Variable id_order : nat -> nat -> list (string * footnote) -> list (string * footnote).
  Variable id_order_final : list (string * footnote) -> list (string * footnote).

  Definition numbered {A} (l : list A) : list (nat * A) := combine (seq 0 (List.length l)) l.
  Definition fact_at (i j : nat) (href ref : string) : option fact := find_fact (ce_facts (env i j)) href ref.
  (** factualQuadrant.go:36-38, 45 *)
  Definition notes_at (i j : nat) (href ref : string) : list footnote :=
    get_footnotes tree (ce_notes1 (env i j)) (ce_notes2 (env i j)) (fact_at i j href ref).
  (** factualQuadrant.go:39-43 *)
  Definition add_footnotes (m : list (string * footnote)) (l : list footnote) : list (string * footnote) :=
    fold_left (fun m f => match sget (fnID f) m with Some _ => m | None => sset (fnID f) f m end) l m.
  (** factualQuadrant.go:55-67: [k] is the position in the iteration *)
  Definition cell_numbers (order : list (string * footnote)) (notes : list footnote) : list nat :=
    map fst (filter (fun kn => existsb (fun f => String.eqb (fnID f) (fst (snd kn))) notes)
                    (combine (seq 1 (List.length order)) order)).
  (** factualQuadrant.go:18-74 [getFactualQuadrant]; the nil slices are empty lists *)
  Definition get_factual_quadrant (hrefs : list string) (cols : list relevant_context) (langs : list string)
    : res (list (list multilingual_fact) * list (list (list nat)) * list string) :=
    match hrefs, cols with
    | [], _ | _, [] => Ok ([], [], [])
    | _, _ =>
        do rows <- mapM (fun ih => mapM (fun jc =>
            render (ce_render (env (fst ih) (fst jc)))
                   (fact_at (fst ih) (fst jc) (snd ih) (rcContextRef (snd jc))) langs)
          (numbered cols)) (numbered hrefs);
        let notes := map (fun ih => map (fun jc =>
            notes_at (fst ih) (fst jc) (snd ih) (rcContextRef (snd jc))) (numbered cols)) (numbered hrefs) in
        let idmap := fold_left add_footnotes (concat notes) [] in
        let grid := map (fun ir => map (fun jn => cell_numbers (id_order (fst ir) (fst jn) idmap) (snd jn))
                                       (numbered (snd ir))) (numbered notes) in
        Ok (rows, grid, map (fun kf => fnHtml (snd kf)) (id_order_final idmap))
    end.
End FactualQuadrant.

(** ** presentationGrid.go *)

(** presentationGrid.go:12-16 *)
Record indented_label := IndentedLabel { ilHref : string; ilLabel : label_pack; ilIndentation : nat }.
(** pkg/attr/literals.go [PresentationArcrole] *)
Definition PresentationArcrole := "http://www.xbrl.org/2003/arcrole/parent-child".
(** presentationGrid.go:58-69 [pArcs] *)
Definition p_arcs (l : list parc) : list arc :=
  map (fun a => Arc (paArcrole a) (paOrder a) (paFrom a) (paTo a)) l.
(** presentationGrid.go:87-106 makeIndents: the locators and levels appended below [node] *)
Fixpoint listing (node : rarc) (level : nat) : list (string * nat) :=
  let 'RArc _ _ children := node in
  flat_map snd (isort order_less
    (map (fun c => (ra_order c, (ra_locator c, level) :: listing c (S level))) children)).
(** presentationGrid.go:73-85: the link that is shown; [lbs] lists the map
    PresentationLinkbases in iteration order *)
Fixpoint first_link {A} (role : string) (lbs : list (linkbase A)) : option (linkbase A * link A) :=
  match lbs with
  | [] => None
  | lb :: rest =>
      match (if existsb (fun rr => String.eqb role (rrRoleURI rr)) (lbRoleRefs lb)
             then find (fun k => String.eqb (lRole k) role) (lbLinks lb) else None) with
      | Some k => Some (lb, k)
      | None => first_link role rest
      end
  end.
(** presentationGrid.go:71-113 [getIndentedLabels] *)
Definition get_indented_labels (tree : list arc -> string -> rarc) (lbl : string -> label_pack)
  (role : string) (lbs : list (linkbase parc)) : list indented_label * list label_pack :=
  match first_link role lbs with
  | None => ([], [])
  | Some (lb, k) =>
      let ret := map (fun x => let href := map_locator_to_href role lb (fst x) in
                               IndentedLabel href (lbl href) (snd x))
                     (listing (tree (p_arcs (lArcs k)) PresentationArcrole) 0) in
      (ret, map ilLabel ret)
  end.

(** presentationGrid.go:18-26 *)
Record p_grid := PGrid {
  pgLabels : list indented_label; pgPeriods : list language_pack; pgMembers : list (list member_cell);
  pgVoid : list void_cell; pgFacts : list (list multilingual_fact);
  pgFootnoteGrid : list (list (list nat)); pgFootnotes : list string }.
(** The iteration orders and finders of one grid. *)
Record grid_env := GridEnv {
  ge_instances : list instance;
  ge_typed_order : context -> typed_member -> list (string * string);
  ge_member_order : list (string * relevant_member) -> list (string * relevant_member);
  ge_cell : nat -> nat -> cell_env;
  ge_id_order : nat -> nat -> list (string * footnote) -> list (string * footnote);
  ge_id_order_final : list (string * footnote) -> list (string * footnote);
  (** labelPack.go:50-60 [destruct]: the order in which the roles and the languages are listed *)
  ge_destruct : list string * list string -> list string * list string }.
(** presentationGrid.go:28-56 [pGrid] *)
Definition p_grid_of tree lbl concept_of (g : grid_env) (entity role : string) (lbs : list (linkbase parc))
  : res (p_grid * list string * list string) :=
  let '(labels, packs) := get_indented_labels tree lbl role lbs in
  let hrefs := map ilHref labels in
  do (cols, seg, scen, cpacks) <-
    get_relevant_contexts tree lbl concept_of (ge_typed_order g) entity (ge_instances g) hrefs;
  let '(roles, langs) := ge_destruct g (roles_and_langs (packs ++ cpacks)) in
  do (facts, fgrid, notes) <-
    get_factual_quadrant tree (ge_cell g) (ge_id_order g) (ge_id_order_final g) hrefs cols langs;
  do (members, void) <- get_member_grid (ge_member_order g) cols seg scen;
  Ok (PGrid labels (get_period_headers cols) members void facts fgrid notes, roles, langs).
