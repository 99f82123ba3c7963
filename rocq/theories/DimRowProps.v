(** * DimRowProps: C162 (the order of the dimension rows) *)
From Coq Require Import String List Bool Arith Lia Permutation.
From Verif Require Import GoBase GoSpec GoFacts AttrModel AttrSpec AttrProofs SchemaModel SchemaSpec SchemaProofs SchemaProps
  LinkbaseModel LinkbaseSpec LinkbaseProofs LinkbaseProps InstanceModel InstanceSpec InstanceProofs InstanceProps
  HydrateModel HydrateSpec HydrateProofs HydrateProps LabelModel LabelSpec LabelProofs LabelProps PeriodModel PeriodSpec PeriodProofs PeriodProps
  FactModel FactSpec FactProofs FactProps GridModel GridSpec GridProofs GridProps CalcModel CalcSpec CalcProofs CalcProps DefModel DefSpec DefProofs DefProps
  RenderModel RenderSpec RenderProofs RenderProps
  DiscoverModel DiscoverSpec DiscoverProofs DiscoverProps XmlModel XmlSpec XmlProofs XmlProps LoadModel LoadSpec LoadProofs LoadProps
  CatalogModel CatalogSpec CatalogProofs CatalogProps ReportModel ResponseModel ResponseSpec ResponseProofs ResponseProps EndToEndSpec EndToEndProps ReportSpec
  ReportProofs ReportProps AskSpec AskProps ColumnSpec ColumnProofs ColumnProps MissedProps
  WebModel WebSpec WebProofs WebProps PathSpec RouterModel RouterSpec RouterProofs RouterProps.
From Verif Require CacheModel CacheSpec CacheProofs CacheProps.
From Verif Require Import ServerModel ServerSpec ServerProps ServedProps DimRowSpec DimRowProofs.
Import ListNotations.
Local Open Scope string_scope.

(** C162: of every report that can be loaded, whatever network a client asks for and whatever the
    orders and schedules: the dimension rows of every grid are first the rows of the dimensions with
    explicit members in the columns, in the order of their hrefs, then indented rows for typed
    members. No dimension has more than two rows at the margin, and one that is not used both in a
    segment and in a scenario has no more than one. Missing: that no dimension has two
    (C162_refuted), and that none is missing beside typed members that are not simple (C31_refuted,
    C137_refuted). *)
Theorem C162_order_partial :
  forall d dir name images pf sh tokens utr h, supported name -> loaded d dir name images pf sh tokens utr h ->
  exists file root, entry_at d dir root name file /\
    (well_written d dir root ->
     exists facts contexts q, understands d dir root q /\ facts_written d dir root facts /\
       contexts_written root q (content_of q tokens (attributes root)) contexts /\
       forall w slug bytes, o_url w = d_url d -> o_schema w = global_schema_file d ->
         marshalled_renderable w h slug (Ok (Some bytes)) ->
         exists e r v, is_slug e r slug /\ reads_as bytes v /\
           has v "Subject" (fun u => has u "Entity" (entity_value e)) /\
           has v "RelationshipSet" (relationship_set r) /\
           let shown u rows cols :=
             grid_shows facts contexts (reports d dir root) (eScheme e ++ "/" ++ eChar e) (renders_from w h) u rows cols /\
             dimensions_in_order (o_tree w) u cols in
           presentation_with shown v /\ definition_with shown v /\ calculation_with shown v).
Proof.
  intros d dir name images pf sh tokens utr h N L.
  destruct (report_read _ _ _ _ _ _ _ _ _ N L) as (file&root&i&EA&HI&R). exists file, root. split; auto. intro WW.
  destruct (R WW) as (q&Q&FW&CW&K). exists (iFacts i), (iContexts i), q. split; [exact Q|]. split; [exact FW|]. split; [exact CW|].
  intros w slug bytes OU OS M. destruct (K w OU OS) as [HC IC].
  destruct (rendered_with w h slug bytes file i (fun s u rows cols =>
    grid_shows (iFacts i) (iContexts i) (reports d dir root) s (renders_from w h) u rows cols /\ dimensions_in_order (o_tree w) u cols) HI) as (e&r&v&SL&_&J&SB&RS&P&D&C); [|exact M|].
  - intros subject hrefs periods facts fg notes es langs members void fields v (g&lbl&cols&seg&scen&packs&ls&GF&EC&EQ&UL&EP&EM) O ND I1 I2. subst periods.
    destruct (grid_json w h file i (reports d dir root) HI HC IC g lbl subject hrefs cols seg scen packs ls facts fg notes es langs members void fields v)
      as (cs&->&TT&GS); auto.
    exists cs. split; [exact GS|]. eapply (order_json (o_tree w) lbl (ge_typed_order g)); eauto; [apply (gf_typed _ _ _ GF)|apply (gf_members _ _ _ GF)].
  - exists e, r, v. cbv zeta. auto 10.
Qed.
Print Assumptions C162_order_partial.

(** C162 for the running server, after any history *)
Theorem C162_served_order_partial : forall w detect files s id slug query p, history w s ->
  entry_name_ok id -> entry_name_ok slug -> slug <> "facts" ->
  exchanged detect files s "GET" ("/folders/" ++ id ++ "/" ++ slug) query (Answer (Some p)) -> status p = 200 -> body p <> "" ->
  exists name h, report_of w id name h /\
    ((slug = name /\ inline_name name /\ document_sent w id name (body p)) \/
     (exists file root, entry_at (w_disk w) (folder_at w id) root name file /\
        (well_written (w_disk w) (folder_at w id) root ->
         exists facts contexts q, understands (w_disk w) (folder_at w id) root q /\ facts_written (w_disk w) (folder_at w id) root facts /\
           contexts_written root q (content_of q (w_tokens w) (attributes root)) contexts /\
         exists e r v, is_slug e r slug /\ reads_as (body p) v /\
           has v "Subject" (fun u => has u "Entity" (entity_value e)) /\ has v "RelationshipSet" (relationship_set r) /\
           let shown u rows cols :=
             grid_shows facts contexts (reports (w_disk w) (folder_at w id) root) (eScheme e ++ "/" ++ eChar e) (renders_from (out w) h) u rows cols /\
             dimensions_in_order (o_tree (w_out w)) u cols in
           presentation_with shown v /\ definition_with shown v /\ calculation_with shown v))).
Proof.
  intros w detect files s id slug query p H I J N X ST B.
  destruct (network_sent _ _ _ _ _ _ _ _ H I J N X ST B) as (name&h&R&M). exists name, h. split; auto. destruct M as [M|[SN M]]; [now left|right].
  destruct R as (_&images&sh&O&L). destruct (C162_order_partial _ _ _ _ _ _ _ _ _ SN L) as (file&root&EA&K). exists file, root. split; auto.
  intro WW. destruct (K WW) as (facts&contexts&q&A1&A2&A3&A4). exists facts, contexts, q. do 3 (split; [assumption|]).
  exact (A4 (out w) slug (body p) eq_refl eq_refl M).
Qed.
Print Assumptions C162_served_order_partial.

(** *** A folder like that of C137_example: one context has explicit members of two dimensions in its segment, the other one
    of one of them in its scenario. *)
Definition both_context (id : string) (segment scenario : list tree) : tree :=
  xi "context" [pa "id" id]
    [xi "entity" [] [xi "identifier" [pa "scheme" "urn:s"] [txt "0"]; xi "segment" [] segment]; xi "scenario" [] scenario; xi "period" [] [xi "instant" [] [txt "2020-12-31"]]].
Definition member_of (dim m : string) : tree := xd "explicitMember" [pa "dimension" dim] [txt m].
Definition both_root : tree := xi "xbrl" [XAttr (XName "xmlns" "a") "urn:a"]
  [schema_ref_to "a.xsd"; both_context "m" [member_of "a:F" "a:M"; member_of "a:D" "a:M"] []; both_context "n" [] [member_of "a:D" "a:M"];
   fact_in "m" "f1" "one"; fact_in "n" "f2" "two"].
Definition both_names := ["R"; "A"; "D"; "M"; "F"].
Definition both_schema : tree := schema_tree "urn:a"
  (xs "annotation" [] [xs "appinfo" [] [linkbase_ref_to "presentation" "pre.xml"; a_role "r" [lk "definition" [] [txt "010 - Cover"]]]] ::
   map concept_tree both_names).
Definition both_disk : disk := small_disk [(in_dir "x.xml", both_root); (in_dir "a.xsd", both_schema); (in_dir "pre.xml", pair_links)].
Definition both_end : state := go_on (files_of both_disk) small_dir 20
  (schema_ref (files_of both_disk) small_dir (first_folder (files_of both_disk) small_dir "x.xml") (instance_struct both_root)).
Definition both_folder : folder := DiscoverModel.finish "x.xml" (instance_struct both_root) (fst both_end).
Definition both_loads := hydrate ex_pf plain_order (d_url both_disk) (global_schema_file both_disk) ex_tokens (Ok []) (Ok None) both_folder.
Definition both_report : hydratable := match both_loads with Ok h => h | _ => Hydratable both_folder [] None [] [] [] [] [] [] end.
Definition both_outside : outside :=
  Outside (d_url both_disk) (global_schema_file both_disk) (Ok []) (Ok []) sample_tree (fun _ => []) (fun _ _ _ => None) (fun _ => None) (fun _ => "") (fun _ => None).
Lemma both_entry : entry_at both_disk small_dir both_root "x.xml" "x.xml".
Proof. apply small_entry_at; [reflexivity|do 4 eexists; reflexivity]. Qed.
Lemma both_loaded : loaded both_disk small_dir "x.xml" false ex_pf plain_order ex_tokens (Ok []) both_report.
Proof.
  exists both_folder, (Ok None).
  split; [|split; [vm_compute; constructor|vm_compute; reflexivity]].
  assert (EI : entry_instance (files_of both_disk) small_dir "x.xml" "x.xml" (instance_struct both_root)) by (apply entry_iff; eauto using both_entry).
  apply (discover_iff _ _ _ _ _ _ _ EI). exists both_end. split; [apply go_on_runs; constructor|].
  split; [vm_compute; repeat constructor|reflexivity].
Qed.
Lemma both_followed x t : followed_at both_disk small_dir both_root x t -> x = "a.xsd" /\ t = both_schema.
Proof.
  intro F. assert (T : t = both_schema).
  { apply followed_at_local in F as [_ L]. apply small_document in L as [[E|[E|[E|[]]]] N]; injection E as _ <-; auto; destruct N as (?&?&?&?&N); discriminate N. }
  split; auto. clear T. destruct F as [h t ns R _ _|h0 g h t ns G R _ _|h0 g h t ns G R _].
  - destruct R as (y&Hy&(?&?&?&Ny)&Q). simpl in Hy. repeat destruct Hy as [<-|Hy]; try contradiction; try discriminate Ny.
    apply LinkbaseProofs.req_iff in Q. now injection Q.
  - exfalso. apply followed_at_local in G as [_ L]. apply small_document in L as [[E|[E|[E|[]]]] N]; injection E as _ <-; try (destruct N as (?&?&?&?&N); discriminate N).
    destruct R as (y&Hy&(?&?&?&Ny)&Q). simpl in Hy. repeat destruct Hy as [<-|Hy]; try contradiction; discriminate Ny.
  - exfalso. apply followed_at_local in G as [_ L]. apply small_document in L as [[E|[E|[E|[]]]] N]; injection E as _ <-; try (destruct N as (?&?&?&?&N); discriminate N).
    destruct R as (y&Hy&(?&?&?&Ny)&Q). simpl in Hy. repeat destruct Hy as [<-|Hy]; try contradiction; discriminate Ny.
Qed.
Lemma both_known x t : known both_disk small_dir both_root x t -> x = "a.xsd" /\ t = both_schema.
Proof. intros [F|(_&data&K&_)]; [now apply both_followed in F|discriminate K]. Qed.
Lemma both_claims ns x : claims_at both_disk small_dir both_root ns x -> x = "a.xsd".
Proof.
  intros [h t n R L T|h0 g h t n G R L T|h0 g h n G R].
  - apply (both_followed h t). eapply fat_ref; eauto.
  - apply (both_followed h t). eapply fat_include; eauto.
  - exfalso. apply both_followed in G as [_ ->].
    destruct R as (y&Hy&(?&?&?&Ny)&Q). simpl in Hy. repeat destruct Hy as [<-|Hy]; try contradiction; discriminate Ny.
Qed.
Lemma both_plain : plain_declarations both_schema.
Proof. prove_plain. Qed.
Lemma both_image cs : image_of (concept_at both_schema "a.xsd") (kids both_schema) cs -> cs = map pair_concept both_names.
Proof.
  intro I. apply concepts_of_iff in I; [|apply both_plain].
  assert (E : hydrate_concepts (schema_struct both_schema) "a.xsd" = map pair_concept both_names) by (vm_compute; reflexivity).
  rewrite <- E. eapply image_of_fun; [|exact I|apply hydrate_concepts_image]. intros x y y' H H'. eapply declares_concept_fun; eauto.
Qed.
Lemma both_written : well_written both_disk small_dir both_root.
Proof.
  split; [|split; [|split; [|split; [|split]]]].
  - intros x t K. apply both_known in K as [_ ->]. apply both_plain.
  - intros x t cs K I. apply both_known in K as [-> ->]. apply both_image in I. subst cs. split.
    + apply has_char_false_iff. reflexivity.
    + repeat constructor; simpl; intuition discriminate.
  - intros x ns l _ _ h h' C C'. apply both_claims in C, C'. congruence.
  - prove_names.
  - prove_decls.
  - prove_texts.
Qed.

Definition row_of_cell (x : void_cell) := (vcIndentation x, lbHref (vcDimension x), option_map lbHref (vcTypedDomain x)).
Lemma both_p : exists pg rs ls, own_p both_outside both_report (stringify pair_entity) (rsRole pair_set) = Ok (pg, rs, ls) /\
  map row_of_cell (pgVoid pg) = [(0, "a.xsd#id_D", None); (0, "a.xsd#id_D", None); (0, "a.xsd#id_F", None)].
Proof. do 3 eexists. split; [vm_compute; reflexivity|reflexivity]. Qed.
Lemma both_value pg rs ls : own_p both_outside both_report (stringify pair_entity) (rsRole pair_set) = Ok (pg, rs, ls) ->
  exists bytes v, marshalled_renderable both_outside both_report pair_slug (Ok (Some bytes)) /\ reads_as bytes v /\
    the_member v "PGrid" (fun u => the_member u "VoidQuadrant" (list_of dimension_value (pgVoid pg))).
Proof.
  intro P. destruct (own_p_value both_outside both_report pair_slug pair_entity pair_set "urn:s/0" pg rs ls) as (bytes&v&M&J&_&V);
    [vm_compute; reflexivity|vm_compute; reflexivity|exact P|vm_compute; discriminate|vm_compute; discriminate|].
  exists bytes, v. split; [exact M|]. split; [exact J|]. eapply the_member_impl; [|exact V]. intros u U. apply U.
Qed.

(** C162. Refuted: a dimension may have two rows at the margin, both for the same members. *)
Theorem C162_refuted :
  ~ (forall d dir name images pf sh tokens utr h file root, supported name -> loaded d dir name images pf sh tokens utr h ->
       entry_at d dir root name file -> well_written d dir root ->
       forall w slug bytes v, o_url w = d_url d -> o_schema w = global_schema_file d -> faithful_tree (o_tree w) ->
         marshalled_renderable w h slug (Ok (Some bytes)) -> reads_as bytes v ->
       forall dim n n', the_member v "PGrid" (fun u => the_member u "VoidQuadrant" (fun l => the_item l n (margin_row dim) /\ the_item l n' (margin_row dim))) -> n = n').
Proof.
  intro H. destruct both_p as (pg&rs&ls&OP&PV). destruct (both_value _ _ _ OP) as (bytes&v&M&J&V).
  assert (N : 0 = 1); [|discriminate N].
  apply (H _ _ _ _ _ _ _ _ _ _ _ x_supported both_loaded both_entry both_written both_outside pair_slug bytes v eq_refl eq_refl sample_tree_faithful M J "a.xsd#id_D").
  eapply the_member_impl; [|exact V]. intros u U. eapply the_member_impl; [|exact U]. intros l (vs&->&F). clear -F PV.
  destruct (pgVoid pg) as [|a [|b r]]; try discriminate PV. cbn [map] in PV. injection PV as A1 A2 A3 B1 B2 B3 _.
  inversion F as [|? ua ? vs1 Ua F1]; subst. inversion F1 as [|? ub ? vs2 Ub F2]; subst.
  assert (R : forall x u, dimension_value x u -> vcIndentation x = 0 -> lbHref (vcDimension x) = "a.xsd#id_D" -> option_map lbHref (vcTypedDomain x) = None -> margin_row "a.xsd#id_D" u).
  { intros x u X Z E T. apply cell_fields in X as (X1&X2&X3). unfold dim_href in X1. rewrite E in X1. rewrite Z in X2. split; [exact X1|]. split; [|exact X2]. apply X3. destruct (vcTypedDomain x); [discriminate|reflexivity]. }
  split; [exists (ua :: ub :: vs2), ua|exists (ua :: ub :: vs2), ub]; (split; [reflexivity|split; [reflexivity|]]); eapply R; eauto.
Qed.
Print Assumptions C162_refuted.

(** The hypotheses of C162 are met: that folder, with the row of the dimension that is named first coming last. *)
Example C162_example :
  loaded both_disk small_dir "x.xml" false ex_pf plain_order ex_tokens (Ok []) both_report /\ well_written both_disk small_dir both_root /\
  (o_url both_outside = d_url both_disk /\ o_schema both_outside = global_schema_file both_disk) /\
  (exists bytes, marshalled_renderable both_outside both_report pair_slug (Ok (Some bytes))) /\
  exists g rows langs, own_p both_outside both_report (stringify pair_entity) (rsRole pair_set) = Ok (g, rows, langs) /\
    map row_of_cell (pgVoid g) = [(0, "a.xsd#id_D", None); (0, "a.xsd#id_D", None); (0, "a.xsd#id_F", None)].
Proof.
  split; [exact both_loaded|]. split; [exact both_written|]. split; [split; reflexivity|]. destruct both_p as (pg&rs&ls&OP&PV). split.
  - destruct (both_value _ _ _ OP) as (bytes&v&M&_). eauto.
  - exists pg, rs, ls. auto.
Qed.
