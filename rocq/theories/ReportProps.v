(** * ReportProps: C125 (from the facts of a report on disk to the cells a client reads) *)
From Verif Require Import GoBase GoSpec GoFacts AttrModel AttrSpec AttrProofs SchemaModel SchemaSpec SchemaProofs SchemaProps
  LinkbaseModel LinkbaseSpec LinkbaseProofs LinkbaseProps InstanceModel InstanceSpec InstanceProofs InstanceProps
  HydrateModel HydrateSpec HydrateProofs HydrateProps LabelModel LabelSpec LabelProofs LabelProps PeriodModel PeriodSpec PeriodProofs PeriodProps
  FactModel FactSpec FactProofs FactProps GridModel GridSpec GridProofs GridProps CalcModel CalcSpec CalcProofs CalcProps DefModel DefSpec DefProofs DefProps
  RenderModel RenderSpec RenderProofs RenderProps
  DiscoverModel DiscoverSpec DiscoverProofs DiscoverProps XmlModel XmlSpec XmlProofs XmlProps LoadModel LoadSpec LoadProofs LoadProps
  CatalogModel CatalogSpec CatalogProofs CatalogProps ReportModel ResponseModel ResponseSpec ResponseProofs ResponseProps EndToEndSpec EndToEndProps ReportSpec ReportProofs.
Local Open Scope string_scope.

(** ** A served network *)
Lemma done_parts_named w h slug bytes : marshalled_renderable w h slug (Ok (Some bytes)) ->
  exists insts schemas e r p d c conf name, visited (hInstances h) insts /\ visited (hSchemas h) schemas /\
    first_such (fun p => is_slug (fst p) (snd p) slug) (list_prod (sorted_entities insts) (sorted_relationship_sets schemas)) (e, r) /\
    p_grids w h (stringify e) (rsRole r) p /\ d_grids w h (stringify e) (rsRole r) d /\ c_grids w h (stringify e) (rsRole r) c /\
    p <> Panic /\ d <> Panic /\ c <> Panic /\ entity_query (o_names w) (eScheme e) (eChar e) = Ok name /\
    bytes = jrenderable (linked (rsRole r) (map snd (hCalculation h))) (Renderable r (Subject name e) (rendered (o_spanish w) p d c conf)).
Proof.
  intro M. inversion M as [o M'|]; subst. inversion M' as [|insts schemas e r p d c conf VI VS FS P D C NP ND NC _ _ E]; subst.
  unfold marshal_renderable in E. rewrite FS in E. unfold renderable_bytes in E.
  destruct (entity_query _ _ _) as [name| |] eqn:Q; cbn [bind] in E; try discriminate. injection E as <-.
  exists insts, schemas, e, r, p, d, c, conf, name. split; auto. split; auto. split; [now apply find_slug_first|].
  repeat (split; [assumption|]). reflexivity.
Qed.
Lemma done_parts w h slug bytes : marshalled_renderable w h slug (Ok (Some bytes)) ->
  exists insts schemas e r p d c conf name, visited (hInstances h) insts /\ visited (hSchemas h) schemas /\
    first_such (fun p => is_slug (fst p) (snd p) slug) (list_prod (sorted_entities insts) (sorted_relationship_sets schemas)) (e, r) /\
    p_grids w h (stringify e) (rsRole r) p /\ d_grids w h (stringify e) (rsRole r) d /\ c_grids w h (stringify e) (rsRole r) c /\
    p <> Panic /\ d <> Panic /\ c <> Panic /\
    bytes = jrenderable (linked (rsRole r) (map snd (hCalculation h))) (Renderable r (Subject name e) (rendered (o_spanish w) p d c conf)).
Proof.
  intro M. destruct (done_parts_named _ _ _ _ M) as (insts&schemas&e&r&p&d&c&conf&name&H).
  exists insts, schemas, e, r, p, d, c, conf, name. tauto.
Qed.
Lemma foldM_no_error {A B} (f : A -> B -> res A) l : (forall b a, In b l -> no_error (f a b)) -> forall a, no_error (foldM f l a).
Proof.
  induction l as [|b l IH]; intros H a m; cbn [foldM]; [discriminate|].
  destruct (f a b) as [x|e|] eqn:E; cbn [bind]; [|intros [= ->]; exact (H b a (or_introl eq_refl) _ E)|discriminate].
  apply IH. intros; apply H; simpl; auto.
Qed.
Lemma p_no_error w h entity role p : p_grids w h entity role p -> no_error p.
Proof.
  intros (lbl&g&lbs&_&_&_&->) m. unfold p_grid_of. destruct (get_indented_labels _ _ _ _) as [labels packs].
  destruct (get_relevant_contexts _ _ _ _ _ _ _) as [[[[cols seg] scen] cp]|e|] eqn:E; cbn [bind]; [|intros _; exact (contexts_no_error _ _ _ _ _ _ _ _ E)|discriminate].
  destruct (ge_destruct _ _) as [rs ls].
  destruct (get_factual_quadrant _ _ _ _ _ _ _) as [[[f g0] n]|e|] eqn:F; cbn [bind]; [|intros _; exact (quadrant_no_error _ _ _ _ _ _ _ _ F)|discriminate].
  destruct (get_member_grid _ _ _ _) as [[m0 v]|e|] eqn:G; cbn [bind]; [discriminate|intros _; exact (member_grid_no_error _ _ _ _ _ G)|discriminate].
Qed.
Lemma c_no_error w h entity role c : c_grids w h entity role c -> no_error c.
Proof.
  intros (lbl&genv&order&lbs&_&_&_&_&->) m. unfold get_summation_items. destruct (calc_link role [] lbs) as [[lb k]|]; [|discriminate].
  cbv zeta. destruct (foldM _ _ _) as [st|e|] eqn:E; cbn [bind]; [discriminate| |discriminate]. intros _. revert E. apply foldM_no_error.
  intros [from slice] a _ m'. unfold c_source. cbv zeta.
  destruct (get_relevant_contexts _ _ _ _ _ _ _) as [[[[cols seg] scen] cp]|e'|] eqn:E; cbn [bind]; [|intros _; exact (contexts_no_error _ _ _ _ _ _ _ _ E)|discriminate].
  destruct (ge_destruct _ _) as [rs ls].
  destruct (get_factual_quadrant _ _ _ _ _ _ _) as [[[f g0] n]|e'|] eqn:F; cbn [bind]; [|intros _; exact (quadrant_no_error _ _ _ _ _ _ _ _ F)|discriminate].
  destruct (concept_for w h from); [|discriminate].
  destruct (get_member_grid _ _ _ _) as [[m0 v]|e'|] eqn:G; cbn [bind]; [discriminate|intros _; exact (member_grid_no_error _ _ _ _ _ G)|discriminate].
Qed.
Lemma d_no_error w h entity role d : d_grids w h entity role d -> no_error d.
Proof.
  intros (lbl&genv&dims_order&order&lbs&lbs'&_&_&_&_&_&_&->) m. unfold d_grid_of, get_root_domains.
  destruct (foldM _ _ _) as [st|e|] eqn:E; cbn [bind]; [discriminate| |discriminate]. intros _. revert E. apply foldM_no_error.
  intros lb a _. apply foldM_no_error. clear a. intros k a _. unfold d_link. destruct (ge_destruct _ _) as [r0 l0].
  destruct (link_networks _ _) as [pr nw]. apply foldM_no_error. clear a. intros root a _ m'. unfold d_root.
  destruct (get_effective_domain_grid _ _ _ _ _) as [ed el]. cbv zeta.
  destruct (get_relevant_contexts _ _ _ _ _ _ _) as [[[[cols seg] scen] cp]|e'|] eqn:E; cbn [bind]; [|intros _; exact (contexts_no_error _ _ _ _ _ _ _ _ E)|discriminate].
  destruct (get_member_grid _ _ _ _) as [[m0 v]|e'|] eqn:G; cbn [bind]; [|intros _; exact (member_grid_no_error _ _ _ _ _ G)|discriminate].
  destruct (ge_destruct _ _) as [rs ls].
  destruct (get_factual_quadrant _ _ _ _ _ _ _) as [[[f g0] n]|e'|] eqn:F; cbn [bind]; [discriminate|intros _; exact (quadrant_no_error _ _ _ _ _ _ _ _ F)|discriminate].
Qed.

(** ** What a client sees of the facts *)
(** The conditions of C115 and C116, and that ids are unique. *)
Definition well_written (d : disk) (dir : string) (root : tree) : Prop :=
  (forall x t, known d dir root x t -> plain_declarations t) /\ identified d dir root /\
  (forall x ns l, In x (kids root) -> named ns l x -> one_claim d dir root ns) /\
  no_homonyms root /\ declared_at_root root /\ plain_texts root.

(** the three kinds of grid of a network; of each grid [G] holds for its rows and columns *)
Section With.
  Variable G : value -> list string -> list context -> Prop.
  Definition presentation_with (v : value) : Prop :=
    the_member v "PGrid" (fun u => exists rows cols, presentation_rows u rows /\ G u rows cols).
  Definition definition_with (v : value) : Prop :=
    the_member v "DGrid" (fun x => the_member x "RootDomains" (fun y => exists us, y = JArr us /\
      forall u, In u us -> exists rows cols, definition_rows u rows /\ G u rows cols)).
  Definition calculation_with (v : value) : Prop :=
    the_member v "CGrid" (fun x => the_member x "SummationItems" (fun y => y = JNull \/ exists us, y = JArr us /\
      forall u, In u us -> exists rows cols, calculation_rows u rows /\ G u rows cols)).
End With.
Section Networks.
  Variable facts : list fact.
  Variable contexts : list context.
  Variable concept_is : fact -> concept -> Prop.
  Variable reader : renv -> Prop.
  Variable subject : string.
  Definition presentation_shown : value -> Prop := presentation_with (grid_shows facts contexts concept_is subject reader).
  Definition definition_shown : value -> Prop := definition_with (grid_shows facts contexts concept_is subject reader).
  Definition calculation_shown : value -> Prop := calculation_with (grid_shows facts contexts concept_is subject reader).
End Networks.

Lemma list_of_hrefs {A} (f : A -> string) (R : A -> value -> Prop) l v : (forall a u, R a u -> href_shown (f a) u) ->
  list_of R l v -> list_of href_shown (map f l) v.
Proof.
  intros H (vs&->&F). exists vs. split; auto. clear -F H. induction F; cbn [map]; constructor; auto.
Qed.
Lemma row_href level x u : level <> "Href" -> level <> "Label" -> row_value level x u -> href_shown (ilHref x) u.
Proof.
  intros N1 N2 R. eapply the_member_of; [exact R| |now left]. cbn. repeat constructor; simpl; intuition congruence.
Qed.

(** Whatever holds of every grid that is computed holds of the grids of the answer. *)
Lemma rendered_offering w h slug bytes file i (G : list string -> string -> value -> list string -> list context -> Prop) :
  hInstances h = [(file, i)] ->
  (forall subject hrefs periods facts fg notes langs members void fields v,
     grid_data w h subject hrefs periods members void facts fg notes -> object fields v -> NoDup (map fst fields) ->
     incl (columns_fields (format_relevant_period (o_spanish w) periods langs) members void) fields ->
     incl (facts_fields facts fg notes) fields -> exists cs, G langs subject v hrefs cs) ->
  marshalled_renderable w h slug (Ok (Some bytes)) ->
  exists e r name langs roles v, is_slug e r slug /\ (exists c, In c (iContexts i) /\ eScheme e = ctxScheme c /\ eChar e = ctxIdentifier c) /\
    reads_as bytes v /\
    (entity_query (o_names w) (eScheme e) (eChar e) = Ok name /\ the_member v "Subject" (fun u => the_member u "Name" (shows name) /\ the_member u "Entity" (entity_value e))) /\
    the_member v "RelationshipSet" (relationship_set r) /\
    (the_member v "Lang" (list_of shows langs) /\ the_member v "LabelRoles" (list_of shows roles)) /\
    presentation_with (G langs (eScheme e ++ "/" ++ eChar e)) v /\
    definition_with (G langs (eScheme e ++ "/" ++ eChar e)) v /\
    calculation_with (G langs (eScheme e ++ "/" ++ eChar e)) v.
Proof.
  intros one HG M.
  destruct (done_parts_named _ _ _ _ M) as (insts&schemas&e&r&p&dg&c&conf&nm&VI&VS&FS&PG&DG&CG&NP&ND&NC&NM&->).
  destruct (rendered (o_spanish w) p dg c conf) as [[g roles] langs] eqn:ER.
  destruct (C119_renderable (linked (rsRole r) (map snd (hCalculation h))) r (Subject nm e) g roles langs) as (v&J&V).
  unfold rendered in ER. injection ER as EG _ EL. rewrite EL in EG.
  pose proof FS as FS'. apply first_such_In in FS' as [IN SL]. cbn [fst snd] in SL. apply in_prod_iff in IN as [IE IR].
  exists e, r, nm, langs, roles, v. split; auto. split.
  { apply (proj1 (entities_canonical insts)) in IE as (i'&cx&Hi&Hc&K). rewrite (visited_one h file i one _ VI) in Hi. destruct Hi as [<-|[]].
    exists cx. intuition. }
  split; auto. unfold renderable_value in V.
  assert (NF : NoDup (map fst [("RelationshipSet", relationship_set r); ("Subject", subject_value (Subject nm e));
          ("Lang", list_of shows langs); ("LabelRoles", list_of shows roles);
          ("PGrid", p_grid_value (gdP g)); ("DGrid", d_grid_value (gdD g));
          ("CGrid", object [("SummationItems", if linked (rsRole r) (map snd (hCalculation h)) then list_of item_value (gdC g) else null)])]))
    by (cbn; repeat constructor; simpl; intuition congruence).
  split; [|split; [|split; [|split; [|split]]]].
  - split; [exact NM|]. eapply the_member_impl; [|eapply (the_member_of _ _ "Subject"); [exact V|exact NF|right; left; reflexivity]].
    intros x X. split.
    + eapply (the_member_of _ _ "Name"); [exact X| |left; reflexivity]. cbn; repeat constructor; simpl; intuition congruence.
    + eapply (the_member_of _ _ "Entity"); [exact X| |right; left; reflexivity]. cbn; repeat constructor; simpl; intuition congruence.
  - eapply (the_member_of _ _ "RelationshipSet"); [exact V|exact NF|left; reflexivity].
  - split; [eapply (the_member_of _ _ "Lang"); [exact V|exact NF|right; right; left; reflexivity]|].
    eapply (the_member_of _ _ "LabelRoles"); [exact V|exact NF|do 3 right; left; reflexivity].
  - destruct p as [[[pg rs] ls]|m|]; [|exfalso; exact (p_no_error _ _ _ _ _ PG m eq_refl)|congruence].
    eapply the_member_impl; [|eapply (the_member_of _ _ "PGrid"); [exact V|exact NF|do 4 right; left; reflexivity]].
    rewrite <- EG. cbn [gdP grid_or]. intros u U. unfold p_grid_value in U. cbn [format_p pgLabels pgPeriods pgMembers pgVoid pgFacts pgFootnoteGrid pgFootnotes] in U.
    edestruct HG as (cs&GS);
      [eapply (p_data w h _ _ _ pg rs ls PG eq_refl)|exact U| | | |].
    + cbn; repeat constructor; simpl; intuition congruence.
    + apply incl_appr, incl_appl, incl_refl.
    + apply incl_appr, incl_appr, incl_refl.
    + exists (map ilHref (pgLabels pg)), cs. split; [|exact GS].
      eapply the_member_impl; [|eapply (the_member_of _ _ "IndentedLabels"); [exact U| |left; reflexivity]].
      * intros x. apply list_of_hrefs. intros a b. apply row_href; discriminate.
      * cbn; repeat constructor; simpl; intuition congruence.
  - destruct dg as [[[dg rs] ls]|m|]; [|exfalso; exact (d_no_error _ _ _ _ _ DG m eq_refl)|congruence].
    eapply the_member_impl; [|eapply (the_member_of _ _ "DGrid"); [exact V|exact NF|do 5 right; left; reflexivity]].
    rewrite <- EG. cbn [gdD grid_or]. intros x X. unfold d_grid_value in X. cbn [format_d dgRootDomains dgDRS] in X.
    eapply the_member_impl; [|eapply (the_member_of _ _ "RootDomains"); [exact X| |left; reflexivity]].
    2:{ cbn; repeat constructor; simpl; intuition congruence. }
    intros y (us&->&F). exists us. split; auto. intros u Hu. destruct (Forall2_In_r _ _ _ _ F Hu) as (rd'&Hrd&U).
    apply in_map_iff in Hrd as (rd&<-&Hrd). pose proof (d_data w h _ _ _ dg rs ls DG eq_refl) as FD.
    rewrite Forall_forall in FD. specialize (FD rd Hrd). unfold root_data in FD.
    unfold root_value in U. cbn [format_root rdHref rdLabel rdItems rdPeriods rdMembers rdVoid rdFacts rdFootnoteGrid rdFootnotes rdDomains rdDimensions] in U.
    edestruct HG as (cs&GS); [exact FD|exact U| | | |].
    + cbn; repeat constructor; simpl; intuition congruence.
    + apply incl_appr, incl_appl, incl_refl.
    + apply incl_appr, incl_appr, incl_appl, incl_refl.
    + exists (rdHref rd :: map ilHref (rdItems rd)), cs. split; [|exact GS]. exists (rdHref rd), (map ilHref (rdItems rd)). split; auto. split.
      * eapply (the_member_of _ _ "Href"); [exact U| |left; reflexivity]. cbn; repeat constructor; simpl; intuition congruence.
      * eapply the_member_impl; [|eapply (the_member_of _ _ "PrimaryItems"); [exact U| |right; right; left; reflexivity]].
        -- intros z. apply list_of_hrefs. intros a b. apply row_href; discriminate.
        -- cbn; repeat constructor; simpl; intuition congruence.
  - destruct c as [[[items rs] ls]|m|]; [|exfalso; exact (c_no_error _ _ _ _ _ CG m eq_refl)|congruence].
    eapply the_member_impl; [|eapply (the_member_of _ _ "CGrid"); [exact V|exact NF|do 6 right; left; reflexivity]].
    rewrite <- EG. cbn [gdC grid_or]. intros x X.
    eapply the_member_impl; [|eapply (the_member_of _ _ "SummationItems"); [exact X| |left; reflexivity]].
    2:{ cbn; repeat constructor; simpl; intuition congruence. }
    intros y Y. destruct (linked _ _); [right|left; exact Y].
    destruct Y as (us&->&F). exists us. split; auto. intros u Hu. destruct (Forall2_In_r _ _ _ _ F Hu) as (s'&Hs&U).
    apply in_map_iff in Hs as (s&<-&Hs). pose proof (c_data w h _ _ _ items rs ls CG eq_refl) as FD.
    rewrite Forall_forall in FD. specialize (FD s Hs). unfold item_data in FD.
    unfold item_value in U. cbn [format_item siHref siLabel siBalance siPeriods siMembers siVoid siContributing siFacts siFootnoteGrid siFootnotes] in U.
    edestruct HG as (cs&GS); [exact FD|exact U| | | |].
    + cbn; repeat constructor; simpl; intuition congruence.
    + apply incl_appr, incl_appl, incl_refl.
    + apply incl_appr, incl_appr, incl_appr, incl_refl.
    + exists (map ccHref (siContributing s) ++ [siHref s])%list, cs. split; [|exact GS].
      exists (map ccHref (siContributing s)), (siHref s). split; auto. split.
      * eapply (the_member_of _ _ "Href"); [exact U| |left; reflexivity]. cbn; repeat constructor; simpl; intuition congruence.
      * eapply the_member_impl; [|eapply (the_member_of _ _ "ContributingConcepts"); [exact U| |do 6 right; left; reflexivity]].
        -- intros z. apply list_of_hrefs. intros a b R. eapply (the_member_of _ _ "Href"); [exact R| |do 3 right; left; reflexivity].
           cbn; repeat constructor; simpl; intuition congruence.
        -- cbn; repeat constructor; simpl; intuition congruence.
Qed.
Lemma rendered_with w h slug bytes file i (G : string -> value -> list string -> list context -> Prop) :
  hInstances h = [(file, i)] ->
  (forall subject hrefs periods facts fg notes es langs members void fields v,
     grid_data w h subject hrefs periods members void facts fg notes -> object fields v -> NoDup (map fst fields) ->
     incl (columns_fields (format_relevant_period es periods langs) members void) fields ->
     incl (facts_fields facts fg notes) fields -> exists cs, G subject v hrefs cs) ->
  marshalled_renderable w h slug (Ok (Some bytes)) ->
  exists e r v, is_slug e r slug /\ (exists c, In c (iContexts i) /\ eScheme e = ctxScheme c /\ eChar e = ctxIdentifier c) /\
    reads_as bytes v /\
    has v "Subject" (fun u => has u "Entity" (entity_value e)) /\
    has v "RelationshipSet" (relationship_set r) /\
    presentation_with (G (eScheme e ++ "/" ++ eChar e)) v /\
    definition_with (G (eScheme e ++ "/" ++ eChar e)) v /\
    calculation_with (G (eScheme e ++ "/" ++ eChar e)) v.
Proof.
  intros one HG M.
  destruct (rendered_offering w h slug bytes file i (fun _ => G) one) with (2 := M) as (e&r&nm&langs&roles&v&S&C&J&(_&SB)&RS&_&P).
  { intros. eapply HG; eauto. }
  exists e, r, v. split; [exact S|]. split; [exact C|]. split; [exact J|]. split; [|split; [now apply the_member_has|exact P]].
  apply the_member_has. eapply the_member_impl; [|exact SB]. intros u [_ U]. now apply the_member_has.
Qed.
(** What is loaded of the instance is what is written in it. *)
Lemma report_read d dir name images pf sh tokens utr h : supported name -> loaded d dir name images pf sh tokens utr h ->
  exists file root i, entry_at d dir root name file /\ hInstances h = [(file, i)] /\
    (well_written d dir root -> exists q, understands d dir root q /\ facts_written d dir root (iFacts i) /\
       contexts_written root q (content_of q tokens (attributes root)) (iContexts i) /\
       forall w, o_url w = d_url d -> o_schema w = global_schema_file d ->
         (forall fa, In fa (iFacts i) -> exists k, reports d dir root fa k) /\
         (forall fa k, reports d dir root fa k -> concept_for w h (fHref fa) = Some k)).
Proof.
  intros N L.
  destruct (loaded_parts _ _ _ _ _ _ _ _ _ N L) as (file&root&fd&doc&EA&FI&S&_&CL&AC&M1&M2&_&_&_&H).
  apply C79_complete in H as (HF&_&_&_&_&_&HI&_).
  destruct (one_loaded _ _ _ HI _ _ FI) as (i&HI'&E).
  exists file, root, i. split; auto. split; auto. intros (P&ID&O&NH&DR&PT).
  assert (D : decode_instance (Some root) = Ok (instance_struct root)).
  { destruct EA as (_&(data&_&_&T)&_). unfold decode_instance, decode. apply has_tag_iff in T. now rewrite T. }
  set (q := env_of fd (d_url d) (global_schema_file d)) in *.
  assert (QOK : qenv_ok q) by (split; auto).
  assert (FW : facts_written d dir root (iFacts i)).
  { destruct (C115_facts_partial _ _ _ _ _ _ _ _ _ N L) as (file'&root'&i'&EA'&HI2&F).
    rewrite HI' in HI2. injection HI2 as <- <-.
    assert (root' = root) as ->.
    { destruct EA as (_&DO&_), EA' as (_&DO'&_). eapply document_fun; eauto. }
    exact (F P O). }
  exists q. split; [|split; [exact FW|split]].
  { split; intros; [eapply names_declared; eauto|eapply declared_names; eauto]. }
  { eapply C104_contexts_partial; eauto. }
  intros w OU OS.
  assert (HC : forall fa, In fa (iFacts i) -> exists k, reports d dir root fa k).
  { intros fa Hfa. destruct FW as (fs&I&ST). 
    assert (Hf : In fa fs) by (destruct ST as (PM&_); eapply Permutation_in; [|exact Hfa]; auto using Permutation_sym).
    apply (image_of_In _ _ _ _ I) in Hf as (x&Hx&FA&_). pose proof FA as (ns&l&Nx&_&_&(k&DK)&_).
    exists k, x, ns, l. auto. }
  assert (IC : forall fa k, reports d dir root fa k -> concept_for w h (fHref fa) = Some k).
  { intros fa k (x&ns&l&Hx&_&Nx&DK). unfold concept_for. rewrite HF, OU, OS.
    edestruct (declared_found d dir root fd S CL AC P ID QOK (fdNamespaces fd)) as (k'&->); eauto. }
  split; auto.
Qed.

(** C125: of every report that can be loaded, whatever network a client asks for and whatever
    the orders and schedules: the grids have a column for each of the contexts of the facts on
    their rows, and each cell shows the first fact of its row and column as it is written in the
    instance, or is blank if there is none. *)
Theorem C125_grids_partial :
  forall d dir name images pf sh tokens utr h, supported name -> loaded d dir name images pf sh tokens utr h ->
  exists file root, entry_at d dir root name file /\
    (well_written d dir root ->
     exists facts contexts q, understands d dir root q /\ facts_written d dir root facts /\
       contexts_written root q (content_of q tokens (attributes root)) contexts /\
       forall w slug bytes, o_url w = d_url d -> o_schema w = global_schema_file d ->
         marshalled_renderable w h slug (Ok (Some bytes)) ->
         exists e r v, is_slug e r slug /\ (exists c, In c contexts /\ eScheme e = ctxScheme c /\ eChar e = ctxIdentifier c) /\
           reads_as bytes v /\
           has v "Subject" (fun u => has u "Entity" (entity_value e)) /\
           has v "RelationshipSet" (relationship_set r) /\
           presentation_shown facts contexts (reports d dir root) (renders_from w h) (eScheme e ++ "/" ++ eChar e) v /\
           definition_shown facts contexts (reports d dir root) (renders_from w h) (eScheme e ++ "/" ++ eChar e) v /\
           calculation_shown facts contexts (reports d dir root) (renders_from w h) (eScheme e ++ "/" ++ eChar e) v).
Proof.
  intros d dir name images pf sh tokens utr h N L.
  destruct (report_read _ _ _ _ _ _ _ _ _ N L) as (file&root&i&EA&HI&R). exists file, root. split; auto. intro WW.
  destruct (R WW) as (q&Q&FW&CW&K). exists (iFacts i), (iContexts i), q. split; [exact Q|]. split; [exact FW|]. split; [exact CW|].
  intros w slug bytes OU OS M. destruct (K w OU OS) as [HC IC].
  eapply (rendered_with w h slug bytes file i (fun s => grid_shows (iFacts i) (iContexts i) (reports d dir root) s (renders_from w h)) HI); [|exact M].
  intros. eapply (data_json w h file i (reports d dir root) HI HC IC); eauto.
Qed.
Print Assumptions C125_grids_partial.

(** ** What this means *)
Lemma map_the_member {A} (R : A -> value -> Prop) m v k a : map_of R m v -> NoDup (map fst m) ->
  (forall key, In key (map fst m) -> JsonSpec.text key) -> In (k, a) m -> the_member v k (R a).
Proof.
  intros (l&ms&P&_&->&F) ND T I.
  assert (E : map fst ms = map fst l).
  { assert (T' : forall key, In key (map fst l) -> JsonSpec.text key).
    { intros key Hk. apply T. eapply Permutation_in; [apply Permutation_map, Permutation_sym; exact P|exact Hk]. }
    clear -F T'. induction F as [|[k a] [k' x] l ms [(t&Et&_&S) _] F IH]; cbn [map fst] in *; auto.
    injection Et as ->. rewrite IH by (intros; apply T'; simpl; auto). f_equal. apply S. apply T'. now left. }
  assert (ND' : NoDup (map fst l)) by (eapply Permutation_NoDup; [apply Permutation_map; exact P|exact ND]).
  eapply Permutation_in in I; [|exact P].
  destruct (Forall2_In_l _ _ _ _ F I) as ([n x]&Hx&(t&Et&_&S)&Rx). cbn [fst snd] in Et, S, Rx. injection Et as <-.
  assert (n = k) as ->. { apply S. apply T. apply (in_map fst) in I. eapply Permutation_in; [apply Permutation_map, Permutation_sym; exact P|exact I]. }
  exists x. split; auto. intro y. rewrite <- E in ND'. split.
  - intro Y. inversion Y as [| |l' k' z p u Iz Z]; subst. apply part_nil in Z. subst z.
    clear -Hx Iz ND'. induction ms as [|[k0 x0] ms IH]; [destruct Hx|]. cbn [map fst] in ND'. inversion ND' as [|? ? NI ND2]; subst.
    destruct Hx as [Hx|Hx], Iz as [Iz|Iz]; try congruence; auto.
    + injection Hx as -> ->. exfalso. apply NI. now apply (in_map fst) in Iz.
    + injection Iz as -> ->. exfalso. apply NI. now apply (in_map fst) in Hx.
  - intros ->. eapply part_member; [exact Hx|constructor].
Qed.
(** A fact that is neither nil, nor a number, nor a text block is shown as it is written. *)
Theorem C125_text :
  forall reader c fa u, fact_shown reader c fa u -> fIsNil fa = false -> fPrecision fa = (-2147483647)%Z ->
    nlocal (cType c) <> "textBlockItemType" -> the_member u "Unlabelled" (fun x => the_member x "Core" (shows (fXMLInner fa))).
Proof.
  intros reader c fa u [[N _]|(_&e&m&_&RC&V&M&U&L)] NI PR TB; [congruence|].
  apply in_map_iff in U as ([k x]&E&I). cbn [fst] in E. subst k.
  eapply the_member_impl; [|apply (map_the_member _ _ _ _ _ V M) with (2 := I)].
  - intros y Y. destruct (L _ _ I) as [_ [[X _]|[_ S]]]; [discriminate X|].
    assert (x = FactExpression "" (fXMLInner fa) "" "") as ->.
    { inversion S as [K|c' html K K1|c' K _ _|c' ? ? ? ? ? K _ K1]; subst; try congruence. }
    eapply (the_member_of _ _ "Core"); [exact Y| |right; left; reflexivity]. cbn; repeat constructor; simpl; intuition congruence.
  - intros key Hk. apply in_map_iff in Hk as ([k y]&<-&Hk). apply L in Hk as [[<-|[<-|[<-|[]]]] _];
      [apply (JsonProofs.san_text "en - english")|apply (JsonProofs.san_text "es - español")|apply (JsonProofs.san_text "Unlabelled")].
Qed.
Print Assumptions C125_text.
(** A fact whose concept has a row and that is the only one of its concept and context
    has its cell. *)
Theorem C125_every_fact :
  forall facts contexts concept_is subject reader v rows cols, grid_shows facts contexts concept_is subject reader v rows cols ->
  forall fa k c, In fa facts -> In (fHref fa) rows -> concept_is fa k -> cAbstract k = false ->
    first_such (fun c => ctxID c = fContextRef fa) contexts c -> subject = ctxScheme c ++ "/" ++ ctxIdentifier c ->
    (forall fb, In fb facts -> fHref fb = fHref fa -> fContextRef fb = fContextRef fa -> fb = fa) ->
    exists i j k', nth_error rows i = Some (fHref fa) /\ nth_error cols j = Some c /\ concept_is fa k' /\
      the_member v "FactualQuadrant" (fun q => the_item q i (fun r => the_item r j (fact_shown reader k' fa))).
Proof.
  intros facts contexts concept_is subject reader v rows cols G fa k c Hf Hr K A FS S U.
  destruct (In_nth_error _ _ Hr) as (i&Hi).
  assert (Hc : In c cols) by (apply (gs_columns _ _ _ _ _ _ _ _ G); split; auto; exists fa, k; auto).
  destruct (In_nth_error _ _ Hc) as (j&Hj).
  assert (CI : ctxID c = fContextRef fa) by (apply first_such_In in FS; tauto).
  destruct (gs_cell _ _ _ _ _ _ _ _ G i j _ _ Hi Hj) as (q&Q&E). pose proof Q as (l&r&->&Hl&l'&u&->&Hu&[(fb&k'&FB&K'&SH)|[N _]]).
  - apply first_such_In in FB as [Hb [B1 B2]].
    assert (fb = fa) as -> by (apply U; auto; congruence).
    exists i, j, k'. split; auto. split; auto. split; auto. exists (JArr l). split; auto.
    exists l, (JArr l'). split; auto. split; auto. exists l', u. auto.
  - exfalso. apply (N fa Hf). split; auto.
Qed.
Print Assumptions C125_every_fact.

(** ** Every request is answered *)
Lemma some_end p d c : exists conf, rsteps (started p d c) conf /\ rdone conf.
Proof.
  destruct (C33_terminates_partial p d c) as [P (b&B)].
  assert (K : forall m n conf, steps_n n (started p d c) conf -> rsteps (started p d c) conf -> b <= n + m ->
    exists conf, rsteps (started p d c) conf /\ rdone conf).
  { induction m as [|m IH]; intros n conf R R' L; (destruct (P _ R') as [D|(conf'&S)]; [eauto|]).
    - exfalso. pose proof (B _ _ (steps_S _ _ _ _ R S)). lia.
    - apply (IH (Datatypes.S n) conf'); [now apply steps_S with conf|now apply rsteps_step with conf|lia]. }
  apply (K b 0 (started p d c)); [constructor|constructor|lia].
Qed.

(** one order for every map *)
Definition own_insts (h : hydratable) : list instance := map snd (hInstances h).
Definition own_labels (h : hydratable) (href : string) : label_pack := get_label (map snd (hLabel h)) href.
Definition own_renv (w : outside) (h : hydratable) : renv :=
  REnv (concept_for w h) (find_measurement (o_units w) (own_insts h)) (o_html w) (o_digits w) (o_percent w).
Definition own_grid (w : outside) (h : hydratable) : grid_env :=
  GridEnv (own_insts h) (fun _ t => tmMap t) (fun m => m)
    (fun _ _ => CellEnv (own_insts h) (own_insts h) (own_insts h) (own_renv w h)) (fun _ _ m => m) (fun m => m) (fun x => x).
Definition own_p (w : outside) (h : hydratable) (entity role : string) :=
  p_grid_of (o_tree w) (own_labels h) (concept_for w h) (own_grid w h) entity role (map snd (hPresentation h)).
Definition own_d (w : outside) (h : hydratable) (entity role : string) :=
  d_grid_of (o_tree w) (own_labels h) (concept_for w h) (fun _ => own_grid w h) (fun _ _ => map snd (hDefinition h)) (o_order w) (fun l => l)
    entity role (map snd (hDefinition h)) (map snd (hDefinition h)).
Definition own_c (w : outside) (h : hydratable) (entity role : string) :=
  get_summation_items (o_tree w) (own_labels h) (concept_for w h) (fun _ => own_grid w h) entity (fun m => m) role (map snd (hCalculation h)).
Lemma visited_own {A} (m : list (string * A)) : visited m (map snd m).
Proof. apply Permutation_refl. Qed.
Lemma own_labels_from h : labels_from h (own_labels h).
Proof. intro href. exists (map snd (hLabel h)). split; [apply visited_own|reflexivity]. Qed.
Lemma own_renders w h : renders_from w h (own_renv w h).
Proof. split; try reflexivity. intro u. exists (own_insts h). split; [apply visited_own|reflexivity]. Qed.
Lemma own_grid_from w h : grid_from w h (own_grid w h).
Proof. split; intros; try apply visited_own; try apply Permutation_refl; [apply own_renders|split; apply Permutation_refl]. Qed.
Lemma own_p_grids w h entity role : p_grids w h entity role (own_p w h entity role).
Proof.
  exists (own_labels h), (own_grid w h), (map snd (hPresentation h)).
  split; [apply own_labels_from|]. split; [apply own_grid_from|]. split; [apply visited_own|reflexivity].
Qed.
Lemma own_d_grids w h entity role : d_grids w h entity role (own_d w h entity role).
Proof.
  exists (own_labels h), (fun _ => own_grid w h), (fun _ _ => map snd (hDefinition h)), (fun l => l), (map snd (hDefinition h)), (map snd (hDefinition h)).
  split; [apply own_labels_from|]. split; [intro; apply own_grid_from|]. split; [intros; apply visited_own|].
  split; [intros; apply Permutation_refl|]. split; [apply visited_own|]. split; [apply visited_own|reflexivity].
Qed.
Lemma own_c_grids w h entity role : c_grids w h entity role (own_c w h entity role).
Proof.
  exists (own_labels h), (fun _ => own_grid w h), (fun m => m), (map snd (hCalculation h)).
  split; [apply own_labels_from|]. split; [intro; apply own_grid_from|]. split; [intros; apply Permutation_refl|]. split; [apply visited_own|reflexivity].
Qed.
Lemma own_rendering w h slug e r name :
  find_slug slug (sorted_entities (own_insts h)) (sorted_relationship_sets (map snd (hSchemas h))) = Some (e, r) ->
  entity_query (o_names w) (eScheme e) (eChar e) = Ok name ->
  own_p w h (stringify e) (rsRole r) <> Panic -> own_d w h (stringify e) (rsRole r) <> Panic -> own_c w h (stringify e) (rsRole r) <> Panic ->
  exists bytes, marshalled_renderable w h slug (Ok (Some bytes)).
Proof.
  intros F Q P D C.
  destruct (some_end (own_p w h (stringify e) (rsRole r)) (own_d w h (stringify e) (rsRole r)) (own_c w h (stringify e) (rsRole r))) as (conf&R&DN).
  pose proof (rr_done w h slug _ _ e r _ _ _ conf (visited_own _) (visited_own _) F (own_p_grids w h _ _) (own_d_grids w h _ _) (own_c_grids w h _ _)
    P D C R DN) as M. apply mr_returned in M.
  unfold marshal_renderable in M. unfold own_insts in F. rewrite F, Q in M. cbn [renderable_bytes bind] in M. eauto.
Qed.
(** Whatever the report, a request for a network ends: with the network, with an error, or with a crash. *)
Theorem C125_answered : forall w h slug, exists out, marshalled_renderable w h slug out.
Proof.
  intros w h slug.
  destruct (find_slug slug (sorted_entities (own_insts h)) (sorted_relationship_sets (map snd (hSchemas h)))) as [[e r]|] eqn:F.
  2:{ eexists. eapply mr_returned, rr_missing; [apply visited_own|apply visited_own|exact F]. }
  assert (X : forall A (x : res A), x = Panic \/ x <> Panic) by (intros A [| |]; [right|right|left]; congruence).
  pose proof (fun H => mr_crashed w h slug (cr_crash w h slug _ _ e r _ _ _ (visited_own _) (visited_own _) F (own_p_grids w h _ _) (own_d_grids w h _ _) (own_c_grids w h _ _) H)) as K.
  destruct (X _ (own_p w h (stringify e) (rsRole r))) as [P|P]; [eexists; apply K; auto|].
  destruct (X _ (own_d w h (stringify e) (rsRole r))) as [D|D]; [eexists; apply K; auto|].
  destruct (X _ (own_c w h (stringify e) (rsRole r))) as [C|C]; [eexists; apply K; auto|].
  destruct (some_end (own_p w h (stringify e) (rsRole r)) (own_d w h (stringify e) (rsRole r)) (own_c w h (stringify e) (rsRole r))) as (conf&R&DN).
  eexists. eapply mr_returned, rr_done; [apply visited_own|apply visited_own|exact F|apply own_p_grids|apply own_d_grids|apply own_c_grids|exact P|exact D|exact C|exact R|exact DN].
Qed.
Print Assumptions C125_answered.
Lemma own_rendering_value w h slug e r name pg rs ls :
  find_slug slug (sorted_entities (own_insts h)) (sorted_relationship_sets (map snd (hSchemas h))) = Some (e, r) ->
  entity_query (o_names w) (eScheme e) (eChar e) = Ok name ->
  own_p w h (stringify e) (rsRole r) = Ok (pg, rs, ls) -> own_d w h (stringify e) (rsRole r) <> Panic -> own_c w h (stringify e) (rsRole r) <> Panic ->
  exists bytes v, marshalled_renderable w h slug (Ok (Some bytes)) /\ reads_as bytes v /\ has v "RelationshipSet" (relationship_set r) /\
    the_member v "PGrid" (fun u => the_member u "IndentedLabels" (list_of (row_value "Indentation") (pgLabels pg))).
Proof.
  intros F Q P D C.
  destruct (some_end (own_p w h (stringify e) (rsRole r)) (own_d w h (stringify e) (rsRole r)) (own_c w h (stringify e) (rsRole r))) as (conf&R&DN).
  pose proof (rr_done w h slug _ _ e r _ _ _ conf (visited_own _) (visited_own _) F (own_p_grids w h _ _) (own_d_grids w h _ _) (own_c_grids w h _ _)
    ltac:(rewrite P; discriminate) D C R DN) as M. apply mr_returned in M.
  unfold marshal_renderable in M. unfold own_insts in F. rewrite F, Q in M. cbn [renderable_bytes bind rnSet] in M.
  unfold rendered in M. match type of M with context [Renderable r (Subject name e) (?g, ?a, ?b)] =>
    destruct (C119_renderable (linked (rsRole r) (map snd (hCalculation h))) r (Subject name e) g a b) as (v&J&V) end.
  eexists. exists v. split; [exact M|]. split; [exact J|]. split.
  { apply the_member_has. eapply (the_member_of _ _ "RelationshipSet"); [exact V| |left; reflexivity]. cbn; repeat constructor; simpl; intuition congruence. }
  eapply the_member_impl; [|eapply (the_member_of _ _ "PGrid"); [exact V| |do 4 right; left; reflexivity]].
  2:{ cbn; repeat constructor; simpl; intuition congruence. }
  intros u U. cbn [gdP] in U. rewrite P in U. eapply (the_member_of _ _ "IndentedLabels"); [exact U| |left; reflexivity].
  cbn; repeat constructor; simpl; intuition congruence.
Qed.

(** ** A run of the discovery, step by step, for examples *)
Section Runs.
  Variable w : files.
  Variable dir : string.
  Lemma psucc_sound : forall p fd r, In r (psucc w dir fd p) -> pstep w dir fd p (fst r) (snd r).
  Proof.
    fix IH 1. intros [t|ps loc f|] fd r Hr.
    - destruct t; cbn in Hr; destruct Hr as [<-|[]]; constructor.
    - cbn [psucc] in Hr. apply in_app_iff in Hr as [Hr|Hr].
      + destruct (forallb _ ps) eqn:E; [|destruct Hr]. destruct Hr as [<-|[]]. apply step_joined. rewrite forallb_forall in E.
        apply Forall_forall. intros p Hp. specialize (E p Hp). destruct p; try discriminate. reflexivity.
      + match type of Hr with In _ (?go _ _) =>
          assert (K : forall pre, In r (go pre ps) -> pstep w dir fd (Wait (pre ++ ps)%list loc f) (fst r) (snd r)) end; [|exact (K [] Hr)].
        clear Hr.
        induction ps as [|p ps IHps]; intros pre Hr; [destruct Hr|].
        apply in_app_iff in Hr as [Hr|Hr].
        * apply in_map_iff in Hr as ([fd' p']&<-&Hp). apply IH in Hp. cbn [fst snd] in *. now constructor.
        * apply IHps in Hr. now rewrite <- app_assoc in Hr.
    - destruct Hr.
  Qed.
  Lemma lsucc_sound s s' : In s' (lsucc w dir (fst s) [] (snd s)) -> fstep w dir s s'.
  Proof.
    destruct s as [fd ps]. cbn [fst snd]. change (fd, ps) with (fd, [] ++ ps)%list. set (pre := @nil proc). clearbody pre. revert pre.
    induction ps as [|p ps IH]; intros pre Hs; [destruct Hs|]. cbn [lsucc] in Hs. apply in_app_iff in Hs as [Hs|Hs].
    - apply in_map_iff in Hs as ([fd' p']&<-&Hp). apply psucc_sound in Hp. cbn [fst snd] in *. now constructor.
    - apply IH in Hs. now rewrite <- app_assoc in Hs.
  Qed.
  Fixpoint go_on (n : nat) (s : state) : state :=
    match n with
    | O => s
    | S n => match lsucc w dir (fst s) [] (snd s) with [] => s | s' :: _ => go_on n s' end
    end.
  Lemma go_on_runs n : forall s0 s, fruns w dir s0 s -> fruns w dir s0 (go_on n s).
  Proof.
    induction n as [|n IH]; intros s0 s R; cbn [go_on]; auto. destruct (lsucc w dir (fst s) [] (snd s)) as [|s' l] eqn:E; auto.
    apply IH. eapply fruns_step; [exact R|]. apply lsucc_sound. rewrite E. now left.
  Qed.
End Runs.

(** *** A folder: a schema with a role and two concepts, a presentation of the one under the
    other, an instance with one context and two facts of the same concept. *)
Definition fact_saying (ns l id s : string) : tree := XmlElem (XName ns l) [pa "id" id; pa "contextRef" "c"] s [txt s].
Definition pair_root : tree :=
  xbrl_doc [schema_ref_to "a.xsd"; a_context; fact_saying "urn:a" "A" "f1" "one"; fact_saying "urn:a" "A" "f2" "two"].
Definition pair_schema : tree := schema_tree "urn:a"
  [xs "annotation" [] [xs "appinfo" [] [linkbase_ref_to "presentation" "pre.xml"; a_role "r" [lk "definition" [] [txt "010 - Cover"]]]];
   concept_tree "R"; concept_tree "A"].
Definition loc_of (n : string) : tree := lk "loc" [xl "type" "locator"; xl "href" ("a.xsd#id_" ++ n); xl "label" n] [].
Definition pair_links : tree := lk "linkbase" []
  [lk "roleRef" [xl "type" "simple"; pa "roleURI" "urn:r"; xl "href" "a.xsd#r"] [];
   lk "presentationLink" [xl "type" "extended"; xl "role" "urn:r"]
     [loc_of "R"; loc_of "A";
      lk "presentationArc" [xl "type" "arc"; xl "arcrole" "http://www.xbrl.org/2003/arcrole/parent-child"; xl "from" "R"; xl "to" "A"; pa "order" "1"] []]].
Definition pair_disk : disk := small_disk [(in_dir "x.xml", pair_root); (in_dir "a.xsd", pair_schema); (in_dir "pre.xml", pair_links)].
Definition pair_end : state := go_on (files_of pair_disk) small_dir 20
  (schema_ref (files_of pair_disk) small_dir (first_folder (files_of pair_disk) small_dir "x.xml") (instance_struct pair_root)).
Definition pair_folder : folder := DiscoverModel.finish "x.xml" (instance_struct pair_root) (fst pair_end).
Definition pair_loads := hydrate ex_pf plain_order (d_url pair_disk) (global_schema_file pair_disk) ex_tokens (Ok []) (Ok None) pair_folder.
Definition pair_report : hydratable := match pair_loads with Ok h => h | _ => Hydratable pair_folder [] None [] [] [] [] [] [] end.

(** *** It is loaded and rendered *)
Definition pair_outside : outside :=
  Outside (d_url pair_disk) (global_schema_file pair_disk) (Ok []) (Ok []) sample_tree (fun _ => []) (fun _ _ _ => None) (fun _ => None) (fun _ => "") (fun _ => None).
Definition pair_entity : entity := Entity "urn:s" "0".
Definition pair_set : rset := RSet "010 - Cover" "urn:r".
Definition pair_slug : string := hash (stringify pair_entity) (rsRole pair_set) (rsTitle pair_set).
Lemma pair_entry : entry_at pair_disk small_dir pair_root "x.xml" "x.xml".
Proof. apply small_entry_at; [reflexivity|do 4 eexists; reflexivity]. Qed.
Lemma pair_loaded : loaded pair_disk small_dir "x.xml" false ex_pf plain_order ex_tokens (Ok []) pair_report.
Proof.
  exists pair_folder, (Ok None). split; [|split; [vm_compute; constructor|vm_compute; reflexivity]].
  assert (EI : entry_instance (files_of pair_disk) small_dir "x.xml" "x.xml" (instance_struct pair_root)) by (apply entry_iff; eauto using pair_entry).
  apply (discover_iff _ _ _ _ _ _ _ EI). exists pair_end. split; [apply go_on_runs; constructor|]. split; [vm_compute; repeat constructor|reflexivity].
Qed.
Lemma pair_served : exists bytes, marshalled_renderable pair_outside pair_report pair_slug (Ok (Some bytes)).
Proof.
  apply (own_rendering pair_outside pair_report pair_slug pair_entity pair_set "urn:s/0").
  - vm_compute. reflexivity.
  - vm_compute. reflexivity.
  - vm_compute. discriminate.
  - vm_compute. discriminate.
  - vm_compute. discriminate.
Qed.
Lemma pair_followed x t : followed_at pair_disk small_dir pair_root x t -> x = "a.xsd" /\ t = pair_schema.
Proof.
  intro F. assert (T : t = pair_schema).
  { apply followed_at_local in F as [_ L]. apply small_document in L as [[E|[E|[E|[]]]] N]; injection E as _ <-; auto; destruct N as (?&?&?&?&N); discriminate N. }
  split; auto. clear T. destruct F as [h t ns R _ _|h0 g h t ns G R _ _|h0 g h t ns G R _].
  - destruct R as (y&Hy&(?&?&?&Ny)&Q). simpl in Hy. repeat destruct Hy as [<-|Hy]; try contradiction; try discriminate Ny.
    apply LinkbaseProofs.req_iff in Q. now injection Q.
  - exfalso. apply followed_at_local in G as [_ L]. apply small_document in L as [[E|[E|[E|[]]]] N]; injection E as _ <-; try (destruct N as (?&?&?&?&N); discriminate N).
    destruct R as (y&Hy&(?&?&?&Ny)&Q). simpl in Hy. repeat destruct Hy as [<-|Hy]; try contradiction; discriminate Ny.
  - exfalso. apply followed_at_local in G as [_ L]. apply small_document in L as [[E|[E|[E|[]]]] N]; injection E as _ <-; try (destruct N as (?&?&?&?&N); discriminate N).
    destruct R as (y&Hy&(?&?&?&Ny)&Q). simpl in Hy. repeat destruct Hy as [<-|Hy]; try contradiction; discriminate Ny.
Qed.
Lemma pair_known x t : known pair_disk small_dir pair_root x t -> x = "a.xsd" /\ t = pair_schema.
Proof. intros [F|(_&data&K&_)]; [now apply pair_followed in F|discriminate K]. Qed.
Lemma pair_claims ns x : claims_at pair_disk small_dir pair_root ns x -> x = "a.xsd".
Proof.
  intros [h t n R L T|h0 g h t n G R L T|h0 g h n G R].
  - apply (pair_followed h t). eapply fat_ref; eauto.
  - apply (pair_followed h t). eapply fat_include; eauto.
  - exfalso. apply pair_followed in G as [_ ->].
    destruct R as (y&Hy&(?&?&?&Ny)&Q). simpl in Hy. repeat destruct Hy as [<-|Hy]; try contradiction; discriminate Ny.
Qed.
Definition pair_concept (n : string) : concept := Concept (XName "urn:a" n) ("id_" ++ n) (XName "" "t") (XName "" "") false "" "" false "".
Lemma pair_plain : plain_declarations pair_schema.
Proof. prove_plain. Qed.
Lemma pair_image cs : image_of (concept_at pair_schema "a.xsd") (kids pair_schema) cs -> cs = [pair_concept "R"; pair_concept "A"].
Proof.
  intro I. apply concepts_of_iff in I; [|apply pair_plain].
  assert (E : hydrate_concepts (schema_struct pair_schema) "a.xsd" = [pair_concept "R"; pair_concept "A"]) by (vm_compute; reflexivity).
  rewrite <- E. eapply image_of_fun; [|exact I|apply hydrate_concepts_image]. intros x y y' H H'. eapply declares_concept_fun; eauto.
Qed.
Lemma pair_written : well_written pair_disk small_dir pair_root.
Proof.
  split; [|split; [|split; [|split; [|split]]]].
  - intros x t K. apply pair_known in K as [_ ->]. apply pair_plain.
  - intros x t cs K I. apply pair_known in K as [-> ->]. apply pair_image in I. subst cs. split.
    + apply has_char_false_iff. reflexivity.
    + repeat constructor; simpl; intuition discriminate.
  - intros x ns l _ _ h h' C C'. apply pair_claims in C, C'. congruence.
  - prove_names.
  - prove_decls.
  - prove_texts.
Qed.
Lemma the_member_same v k x R : part v [k] x -> the_member v k R -> R x.
Proof. intros P (y&Y&E). apply E in P. now subst. Qed.
Lemma pair_declared href c : LoadSpec.declared pair_disk small_dir pair_root "urn:a" "A" href c -> href = "a.xsd#id_A" /\ c = pair_concept "A".
Proof.
  intros (x&t&cs&C&_&K&I&F&->). apply pair_claims in C. subst x. apply pair_known in K as [_ ->]. apply pair_image in I. subst cs.
  apply first_such_In in F as [[<-|[<-|[]]] E]; [discriminate E|]. auto.
Qed.
Lemma pair_declares : LoadSpec.declared pair_disk small_dir pair_root "urn:a" "A" "a.xsd#id_A" (pair_concept "A").
Proof.
  assert (R : ref_at pair_root "a.xsd").
  { exists (schema_ref_to "a.xsd"). split; [simpl; auto|]. split; [do 3 eexists; reflexivity|req_tac]. }
  assert (L : local pair_disk small_dir "a.xsd" "schema" pair_schema).
  { split; [reflexivity|]. exists (in_dir "a.xsd"). split; [reflexivity|]. split; [reflexivity|]. do 4 eexists; reflexivity. }
  exists "a.xsd", pair_schema, [pair_concept "R"; pair_concept "A"]. split; [eapply cat_ref; eauto; req_tac|].
  split; [discriminate|]. split; [left; eapply fat_ref; eauto; req_tac|]. split.
  - apply (C107_concepts_partial pair_schema (schema_struct pair_schema) "a.xsd"
      (Schema "a.xsd" [RoleType "urn:r" "r" "010 - Cover" ["link:presentationLink"; "link:calculationLink"]] [pair_concept "R"; pair_concept "A"])); try reflexivity.
    apply pair_plain.
  - split; [|reflexivity]. exists [pair_concept "R"], []. split; [reflexivity|]. split; [reflexivity|]. intros x [<-|[]]. discriminate.
Qed.
Lemma pair_fact id s fa : fact_at (LoadSpec.declared pair_disk small_dir pair_root) (fact_saying "urn:a" "A" id s) fa <->
  fa = Fact "a.xsd#id_A" id "c" "" (-2147483647) false s.
Proof.
  split.
  - intros (ns&l&(?&?&?&E)&_&_&(c&D)&C&I&U&P&Nl&X). injection E; intros; subst. apply pair_declared in D as [H _].
    apply LinkbaseProofs.req_iff in C. apply attr_or_empty_iff in I, U. apply hydrate_precision_iff in P. apply attr_bool_iff in Nl.
    destruct fa as [fa1 fa2 fa3 fa4 fa5 fa6 fa7]. cbn [fHref fContextRef fID fUnitRef fPrecision fIsNil fXMLInner] in *. cbn in C, I, U, Nl, X.
    injection C as <-. subst. reflexivity.
  - intros ->. exists "urn:a", "A". split; [do 3 eexists; reflexivity|]. split; [discriminate|]. split; [discriminate|].
    cbn [fHref fContextRef fID fUnitRef fPrecision fIsNil fXMLInner]. split; [exists (pair_concept "A"); apply pair_declares|].
    split; [now apply LinkbaseProofs.req_iff|]. split; [now apply attr_or_empty_iff|]. split; [now apply attr_or_empty_iff|].
    split; [now apply hydrate_precision_iff|]. split; [now apply attr_bool_iff|]. reflexivity.
Qed.
(** Refuted: of two facts with the same concept and context only the first one is shown. *)
Theorem C125_refuted :
  ~ (forall d dir name images pf sh tokens utr h file root, supported name -> loaded d dir name images pf sh tokens utr h ->
       entry_at d dir root name file -> well_written d dir root ->
       forall q facts contexts, understands d dir root q -> facts_written d dir root facts ->
         contexts_written root q (content_of q tokens (attributes root)) contexts ->
       forall w slug bytes v, o_url w = d_url d -> o_schema w = global_schema_file d ->
         marshalled_renderable w h slug (Ok (Some bytes)) -> reads_as bytes v ->
       forall fa k c i, In fa facts -> reports d dir root fa k -> cAbstract k = false ->
         first_such (fun c => ctxID c = fContextRef fa) contexts c ->
         has v "Subject" (fun u => has u "Entity" (entity_value (Entity (ctxScheme c) (ctxIdentifier c)))) ->
         has v "PGrid" (fun u => has u "IndentedLabels" (fun l => the_item l i (href_shown (fHref fa)))) ->
         exists j, the_member v "PGrid" (fun u => the_member u "FactualQuadrant" (fun q =>
           the_item q i (fun r => the_item r j (fact_shown (renders_from w h) k fa))))).
Proof.
  intro H.
  destruct (C125_grids_partial _ _ _ _ _ _ _ _ _ x_supported pair_loaded) as (file&root&EA&G).
  assert (root = pair_root) as ->.
  { destruct EA as ([[N _]|[_ ->]]&DO&_).
    - exfalso. apply inline_iff in N. destruct N as [N|N]; discriminate N.
    - destruct pair_entry as (_&DO'&_). eapply document_fun; eauto. }
  destruct (G pair_written) as (facts&contexts&q&UN&FW&CW&K). clear G.
  assert (PP : exists pg rs ls, own_p pair_outside pair_report (stringify pair_entity) (rsRole pair_set) = Ok (pg, rs, ls) /\
    map ilHref (pgLabels pg) = ["a.xsd#id_R"; "a.xsd#id_A"]) by (do 3 eexists; split; vm_compute; reflexivity).
  destruct PP as (pg&rs&ls&OP&PL).
  destruct (own_rendering_value pair_outside pair_report pair_slug pair_entity pair_set "urn:s/0" pg rs ls) as (bytes&v&M&J&_&PV);
    [vm_compute; reflexivity|vm_compute; reflexivity|exact OP|vm_compute; discriminate|vm_compute; discriminate|].
  destruct (K pair_outside pair_slug bytes eq_refl eq_refl M) as (e&r&v'&_&(c0&Hc0&E1&E2)&[_ U]&SJ&_&PS&_).
  destruct J as [J JU]. pose proof (U _ J). subst v'.
  assert (CC : forall c, In c contexts -> ctxID c = "c" /\ ctxScheme c = eScheme e /\ ctxIdentifier c = eChar e).
  { destruct CW as (cs&I&(PM&_)).
    assert (A : forall c, In c contexts -> context_at q (content_of q ex_tokens (attributes pair_root)) (attributes pair_root) a_context c).
    { intros c Hc. apply (Permutation_in _ (Permutation_sym PM)) in Hc.
      apply (image_of_In _ _ _ _ I) in Hc as (x&Hx&CA). pose proof (ca_name _ _ _ _ _ CA) as (?&?&?&N). simpl in Hx.
      repeat destruct Hx as [<-|Hx]; try contradiction; try discriminate N. exact CA. }
    intros c Hc. split; [pose proof (ca_id _ _ _ _ _ (A c Hc)) as R; apply LinkbaseProofs.req_iff in R; now injection R|].
    destruct (entity_fun _ _ _ _ _ _ (A c Hc) (A c0 Hc0)). split; congruence. }
  assert (HC : exists c rest, contexts = c :: rest) by (destruct contexts as [|c rest]; [destruct Hc0|eauto]).
  destruct HC as (c&rest&EC).
  assert (FC : first_such (fun x => ctxID x = "c") contexts c).
  { exists [], rest. split; [exact EC|]. split; [apply CC; rewrite EC; now left|]. intros ? []. }
  assert (INF : forall id s, In (fact_saying "urn:a" "A" id s) (kids pair_root) ->
    In (Fact "a.xsd#id_A" id "c" "" (-2147483647) false s) facts).
  { intros id s Hx. destruct FW as (fs&I&(PM&_)). apply (Permutation_in _ PM).
    destruct (image_of_kept _ _ _ _ (Fact "a.xsd#id_A" id "c" "" (-2147483647) false s) I Hx) as (fa&Hf&FA&_).
    - split; [now apply pair_fact|]. intros l Hl (?&?&?&?&E). injection E; intros; subst l. simpl in Hl. intuition discriminate.
    - apply pair_fact in FA. now subst. }
  assert (RP : forall id s, In (fact_saying "urn:a" "A" id s) (kids pair_root) ->
    reports pair_disk small_dir pair_root (Fact "a.xsd#id_A" id "c" "" (-2147483647) false s) (pair_concept "A")).
  { intros id s Hx. exists (fact_saying "urn:a" "A" id s), "urn:a", "A". split; auto. split; [now apply pair_fact|]. split; [do 3 eexists; reflexivity|]. apply pair_declares. }
  assert (SB : has v "Subject" (fun u => has u "Entity" (entity_value (Entity (ctxScheme c) (ctxIdentifier c))))).
  { destruct (CC c) as (_&S1&S2); [rewrite EC; now left|]. rewrite S1, S2. destruct e. exact SJ. }
  assert (RW : has v "PGrid" (fun u => has u "IndentedLabels" (fun l => the_item l 1 (href_shown "a.xsd#id_A")))).
  { apply the_member_has. eapply the_member_impl; [|exact PV]. intros u X. apply the_member_has. eapply the_member_impl; [|exact X].
    intros l LL. apply (list_of_hrefs ilHref) in LL; [|intros a b; apply row_href; discriminate]. rewrite PL in LL.
    destruct LL as (vs&->&F). inversion F as [|? u1 ? vs1 H1 F1]; subst. inversion F1 as [|? u2 ? vs2 H2 F2]; subst.
    exists (u1 :: u2 :: vs2), u2. auto. }
  assert (ST : forall id s, In (fact_saying "urn:a" "A" id s) (kids pair_root) ->
    exists j, the_member v "PGrid" (fun u => the_member u "FactualQuadrant" (fun q =>
      the_item q 1 (fun r => the_item r j (fun x => the_member x "Unlabelled" (fun y => the_member y "Core" (shows s))))))).
  { intros id s Hx.
    destruct (H _ _ _ _ _ _ _ _ _ _ _ x_supported pair_loaded pair_entry pair_written q facts contexts UN FW CW pair_outside pair_slug bytes v eq_refl eq_refl M
      (conj J JU) (Fact "a.xsd#id_A" id "c" "" (-2147483647) false s) (pair_concept "A") c 1 (INF _ _ Hx) (RP _ _ Hx) eq_refl FC SB RW) as (j&X).
    exists j. eapply the_member_impl; [|exact X]. intros u. apply the_member_impl. intros q0 (l&x&->&L1&(l2&x2&->&L2&SH)).
    exists l, (JArr l2). split; auto. split; auto. exists l2, x2. split; auto. split; auto.
    change s with (fXMLInner (Fact "a.xsd#id_A" id "c" "" (-2147483647) false s)). eapply C125_text; eauto. discriminate. }
  destruct (ST "f1" "one") as (j1&u1&C1&V1); [simpl; auto|]. destruct (ST "f2" "two") as (j2&u2&C2&V2); [simpl; auto|].
  assert (u2 = u1) as -> by (apply V1, V2; reflexivity).
  destruct C1 as (q1&(l1&x1&->&L1&(k1&y1&->&K1&W1))&Q1), C2 as (q2&(l2&x2&->&L2&(k2&y2&->&K2&W2))&Q2).
  assert (JArr l2 = JArr l1) as [= ->] by (apply Q1, Q2; reflexivity).
  assert (JArr k2 = JArr k1) as [= ->] by congruence.
  assert (ONE : length k1 <= 1).
  { destruct PS as (u&(rows&cols&_&GS)&PU). assert (u = u1) as -> by (symmetry; apply PU, V1; reflexivity).
    destruct (gs_size _ _ _ _ _ _ _ _ GS) as (q0&(rws&->&_&_&SZ)&Q0). assert (JArr rws = JArr l1) as [= ->] by (apply Q1, Q0; reflexivity).
    destruct (SZ (JArr k1)) as (us&[= <-]&LE); [eapply nth_error_In; eauto|]. rewrite LE.
    pose proof (gs_once _ _ _ _ _ _ _ _ GS) as ND. destruct cols as [|ca [|cb cols]]; cbn; try lia. exfalso.
    assert (XX : forall x, In x (ca :: cb :: cols) -> ctxID x = "c").
    { intros x Hx. apply (gs_columns _ _ _ _ _ _ _ _ GS) in Hx as (_&fa&kk&_&_&_&_&FS). apply first_such_In in FS as [FS _]. now apply CC. }
    cbn [map] in ND. inversion ND as [|? ? NI _]; subst. apply NI. rewrite (XX ca), (XX cb); simpl; auto. }
  assert (j1 = 0 /\ j2 = 0) as [-> ->].
  { assert (j1 < length k1) by (apply nth_error_Some; congruence). assert (j2 < length k1) by (apply nth_error_Some; congruence). lia. }
  assert (y2 = y1) as -> by congruence.
  destruct W1 as (z1&D1&Z1), W2 as (z2&D2&Z2). assert (z2 = z1) as -> by (apply Z1, Z2; reflexivity).
  destruct D1 as (s1&(t1&->&_&T1)&S1), D2 as (s2&(t2&->&_&T2)&S2).
  assert (JStr t2 = JStr t1) as [= ->] by (apply S1, S2; reflexivity).
  pose proof (T1 (JsonProofs.san_text "one")). pose proof (T2 (JsonProofs.san_text "two")). congruence.
Qed.
Print Assumptions C125_refuted.
(** The hypotheses of C125 are met. *)
Example C125_example :
  loaded pair_disk small_dir "x.xml" false ex_pf plain_order ex_tokens (Ok []) pair_report /\ well_written pair_disk small_dir pair_root /\
  (o_url pair_outside = d_url pair_disk /\ o_schema pair_outside = global_schema_file pair_disk) /\
  exists bytes, marshalled_renderable pair_outside pair_report pair_slug (Ok (Some bytes)).
Proof. split; [exact pair_loaded|]. split; [exact pair_written|]. split; [split; reflexivity|exact pair_served]. Qed.
