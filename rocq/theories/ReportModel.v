(** * ReportModel: pkg/renderables on a loaded report

    MarshalCatalog, MarshalRenderable and MarshalExpressable get a Hydratable. The models of
    their parts (LabelModel to ExpressModel, CatalogModel, RenderModel) take what they read of
    it as arguments; here the arguments are the Hydratable's, with every order in which Go may
    visit its maps. An answer is therefore one of several: a relation. *)
From Verif Require Import GoBase AttrModel SchemaModel LinkbaseModel InstanceModel HydrateModel LabelModel PeriodModel FactModel
  GridModel CalcModel DefModel RenderModel CatalogModel ExpressModel ResponseModel.
Local Open Scope string_scope.

(** What the functions use besides the Hydratable: the global files, as far as they are read,
    and external code. *)
Record outside := Outside {
  o_url : string -> bool;                                (* attr.IsValidUrl *)
  o_schema : string -> res schema_file;                  (* DiscoverGlobalSchema *)
  o_units : res registry;                                (* HydrateUnitTypeRegistry *)
  o_names : res (list (string * list (string * string))); (* HydrateEntityNames *)
  o_tree : list arc -> string -> rarc;                   (* internal/graph over joshuanario/arcs *)
  o_html : string -> list html_token;                    (* html.UnescapeString and the tokenizer *)
  o_digits : Z -> string -> ascii -> option (string * string * string); (* joshuanario/digits *)
  o_percent : string -> option string;                   (* big.ParseFloat, times 100 *)
  o_order : f64 -> string;                               (* strconv.FormatFloat in getDRS *)
  o_spanish : date -> option string }.                   (* klauspost/lctime *)

(** [for _, x := range m]: any order *)
Definition visited {A} (m : list (string * A)) (order : list A) : Prop := Permutation order (map snd m).

Section Report.
  Variable w : outside.
  Variable h : hydratable.

  (** query.go:10-50 on this report; the callers read the concept only *)
  Definition concept_for (href : string) : option concept :=
    match hash_query (fdNamespaces (hFolder h)) (env_of (hFolder h) (o_url w) (o_schema w)) href with
    | Ok (_, c) => Some c
    | _ => None
    end.
  (** label.go:10-20 [GetLabel]. Simplification: all the calls of one grid for one href visit the
      label linkbases in the same order. *)
  Definition labels_from (lbl : string -> label_pack) : Prop :=
    forall href, exists order, visited (hLabel h) order /\ lbl href = get_label order href.
  (** what fact.go, english.go and textBlock.go use *)
  Record renders_from (e : renv) : Prop := {
    rf_concept : forall x, re_concept e x = concept_for x;
    rf_measurement : forall u, exists order, visited (hInstances h) order /\
      re_measurement e u = find_measurement (o_units w) order u;
    rf_html : re_html e = o_html w;
    rf_digits : re_digits e = o_digits w;
    rf_percent : re_percent e = o_percent w }.
  (** what a grid uses: contexts.go:202, 241; typedMember.go:27; contextualQuadrant.go:149-168;
      factualQuadrant.go:34-38, 55-72; labelPack.go:50-60 *)
  Record grid_from (g : grid_env) : Prop := {
    gf_instances : visited (hInstances h) (ge_instances g);
    gf_typed : forall c t, Permutation (ge_typed_order g c t) (tmMap t);
    gf_members : forall m, Permutation (ge_member_order g m) m;
    gf_facts : forall i j, visited (hInstances h) (ce_facts (ge_cell g i j));
    gf_notes1 : forall i j, visited (hInstances h) (ce_notes1 (ge_cell g i j));
    gf_notes2 : forall i j, visited (hInstances h) (ce_notes2 (ge_cell g i j));
    gf_render : forall i j, renders_from (ce_render (ge_cell g i j));
    gf_ids : forall i j m, Permutation (ge_id_order g i j m) m;
    gf_ids_final : forall m, Permutation (ge_id_order_final g m) m;
    gf_destruct : forall x, Permutation (fst (ge_destruct g x)) (fst x) /\ Permutation (snd (ge_destruct g x)) (snd x) }.

  (** renderable.go:58: presentationGrid.go:28-56 [pGrid] *)
  Definition p_grids (entity role : string) (p : res (p_grid * list string * list string)) : Prop :=
    exists lbl g lbs, labels_from lbl /\ grid_from g /\ visited (hPresentation h) lbs /\
      p = p_grid_of (o_tree w) lbl concept_for g entity role lbs.
  (** renderable.go:69: definitionGrid.go:12-19 [dGrid] *)
  Definition d_grids (entity role : string) (d : res (d_grid * list string * list string)) : Prop :=
    exists lbl genv dims_order order lbs lbs', labels_from lbl /\ (forall n, grid_from (genv n)) /\
      (forall lb k, visited (hDefinition h) (dims_order lb k)) /\ (forall l, Permutation (order l) l) /\
      visited (hDefinition h) lbs /\ visited (hDefinition h) lbs' /\
      d = d_grid_of (o_tree w) lbl concept_for genv dims_order (o_order w) order entity role lbs lbs'.
  (** renderable.go:80: calculationGrid.go:38-45 [cGrid] *)
  Definition c_grids (entity role : string) (c : res (list summation_item * list string * list string)) : Prop :=
    exists lbl genv order lbs, labels_from lbl /\ (forall s, grid_from (genv s)) /\
      (forall m, Permutation (order m) m) /\ visited (hCalculation h) lbs /\
      c = get_summation_items (o_tree w) lbl concept_for genv entity order role lbs.

  (** renderable.go:120-123: the bytes, or the error *)
  Definition renderable_bytes (calculated : string -> bool) (r : res (renderable (grids * list string * list string)))
    : res (option string) :=
    do rn <- r; Ok (Some (jrenderable (calculated (rsRole (rnSet rn))) rn)).
  (** renderable.go:36-128 [MarshalRenderable], when no goroutine panics *)
  Inductive returned_renderable (slug : string) : res (option string) -> Prop :=
  | rr_missing insts schemas : visited (hInstances h) insts -> visited (hSchemas h) schemas ->
      find_slug slug (sorted_entities insts) (sorted_relationship_sets schemas) = None ->
      returned_renderable slug (Err "object not found")
  | rr_done insts schemas e r p d c conf : visited (hInstances h) insts -> visited (hSchemas h) schemas ->
      find_slug slug (sorted_entities insts) (sorted_relationship_sets schemas) = Some (e, r) ->
      p_grids (stringify e) (rsRole r) p -> d_grids (stringify e) (rsRole r) d -> c_grids (stringify e) (rsRole r) c ->
      p <> Panic -> d <> Panic -> c <> Panic -> rsteps (started p d c) conf -> rdone conf ->
      returned_renderable slug
        (renderable_bytes (fun role => linked role (map snd (hCalculation h)))
           (marshal_renderable (fun _ _ => rendered (o_spanish w) p d c conf) (o_names w) insts schemas slug)).
  (** renderable.go:56,67,78: one of the three goroutines panics, which ends the process. *)
  Inductive crashed_renderable (slug : string) : Prop :=
  | cr_crash insts schemas e r p d c : visited (hInstances h) insts -> visited (hSchemas h) schemas ->
      find_slug slug (sorted_entities insts) (sorted_relationship_sets schemas) = Some (e, r) ->
      p_grids (stringify e) (rsRole r) p -> d_grids (stringify e) (rsRole r) d -> c_grids (stringify e) (rsRole r) c ->
      p = Panic \/ d = Panic \/ c = Panic -> crashed_renderable slug.
  (** the two together *)
  Inductive marshalled_renderable (slug : string) : res (option string) -> Prop :=
  | mr_returned o : returned_renderable slug o -> marshalled_renderable slug o
  | mr_crashed : crashed_renderable slug -> marshalled_renderable slug Panic.

  (** catalog.go:18-51 [MarshalCatalog] *)
  Definition marshalled_catalog (out : res (option string)) : Prop :=
    exists insts schemas, visited (hInstances h) insts /\ visited (hSchemas h) schemas /\
      out = Ok (Some (jcatalog (marshal_catalog (o_names w) insts schemas
                        (match hDocument h with Some _ => true | None => false end) (fdEntry (hFolder h))))).

  (** what MarshalExpressable uses *)
  Record expression_from (e : xenv) : Prop := {
    xf_first : visited (hInstances h) (xe_first e);
    xf_facts : visited (hInstances h) (xe_facts e);
    xf_contexts : visited (hInstances h) (xe_contexts e);
    xf_notes1 : visited (hInstances h) (xe_notes1 e);
    xf_notes2 : visited (hInstances h) (xe_notes2 e);
    xf_query : xe_query e = env_of (hFolder h) (o_url w) (o_schema w);
    xf_labels : labels_from (xe_labels e);
    xf_concept : forall x, xe_concept e x = concept_for x;
    xf_render : renders_from (xe_render e);
    xf_tree : xe_tree e = o_tree w;
    xf_spanish : xe_spanish e = o_spanish w;
    xf_typed : forall c t, Permutation (xe_typed_order e c t) (tmMap t);
    xf_members : forall m, Permutation (xe_member_order e m) m }.
  (** expressable.go:21-81 [MarshalExpressable] *)
  Definition marshalled_expressable (name ref : string) (out : res (option string)) : Prop :=
    exists e, expression_from e /\
      out = do x <- marshal_expressable e (hDocument h) name ref; Ok (option_map jexpressable x).
End Report.
