(** * ErrorServedProps: nothing the server sends about a folder can be run as a page, but its inline document (C167) *)
From Verif Require Import GoBase GoSpec GoFacts AttrModel AttrSpec AttrProofs SchemaModel SchemaSpec SchemaProofs SchemaProps
  LinkbaseModel LinkbaseSpec LinkbaseProofs LinkbaseProps InstanceModel InstanceSpec InstanceProofs InstanceProps
  HydrateModel HydrateSpec HydrateProofs HydrateProps LabelModel LabelSpec LabelProofs LabelProps PeriodModel PeriodSpec PeriodProofs PeriodProps
  FactModel FactSpec FactProofs FactProps GridModel GridSpec GridProofs GridProps CalcModel CalcSpec CalcProofs CalcProps DefModel DefSpec DefProofs DefProps
  RenderModel RenderSpec RenderProofs RenderProps ExpressModel ExpressSpec ExpressProofs ExpressProps
  DiscoverModel DiscoverSpec DiscoverProofs DiscoverProps XmlModel XmlSpec XmlProofs XmlProps LoadModel LoadSpec LoadProofs LoadProps
  CatalogModel CatalogSpec CatalogProofs CatalogProps ReportModel ResponseModel ResponseSpec ResponseProofs ResponseProps EndToEndSpec EndToEndProps
  ReportSpec ReportProofs ReportProps AskSpec AskProps ImageModel ImageSpec ImageProofs ImageProps
  WebModel WebSpec WebProofs WebProps PathSpec RouterModel RouterSpec RouterProofs RouterProps.
From Verif Require CacheModel CacheSpec CacheProofs CacheProps.
From Verif Require Import ColumnProps ServerModel ServerSpec ServerProps ServedProps JsonSpec InertSpec InertProofs DocNameSpec DocNameProps InertProps ErrorSpec ErrorProps.
Local Open Scope nat_scope.
Local Open Scope string_scope.

(** the fields of a request for a fact that succeeds can be decoded *)
Lemma fields_decoded {H S N U} detect files (s : CacheModel.state H S N U) id query p : entry_name_ok id ->
  exchanged detect files s "GET" ("/folders/" ++ id ++ "/facts") query (Answer (Some p)) -> status p = 200 ->
  exists vs n c k ref, query_fields query vs /\ field vs "name" n /\ field vs "contextref" c /\ encodes k n /\ encodes ref c.
Proof.
  intros I (sv&_&E&_) ST.
  assert (T : tidy ("/folders/" ++ id ++ "/" ++ "facts")) by (apply network_tidy; auto; repeat split; discriminate).
  change ("/" ++ "facts") with "/facts" in T.
  destruct (C123_get detect sv _ query (FactsOf id) T (ad_facts _ id (entry_part _ I) eq_refl)) as (x&E'&R0&R). rewrite <- E in E'. injection E' as <-.
  destruct (parse_query query) as [vs| |] eqn:PQ.
  - pose proof (proj1 (parse_query_iff _ _) PQ) as QF. exists vs, (values_get "name" vs), (values_get "contextref" vs).
    pose proof (values_get_field "name" vs) as FN. pose proof (values_get_field "contextref" vs) as FC.
    destruct (R _ _ _ QF FN FC) as [R' _].
    assert (D : forall t, (exists k, encodes k t) \/ forall k, ~ encodes k t).
    { intro t. destruct (query_unescape t) as [k| |] eqn:Q; [left; exists k; now apply unescape_iff| |]; right; intros k K; apply unescape_iff in K; congruence. }
    destruct (D (values_get "name" vs)) as [(k&K)|K]; [|destruct (R' (or_introl K)) as (p'&[= <-]&X); congruence].
    destruct (D (values_get "contextref" vs)) as [(c&C)|C]; [|destruct (R' (or_intror C)) as (p'&[= <-]&X); congruence].
    exists k, c. auto.
  - exfalso. destruct R0 as (p'&[= <-]&X); [|congruence]. intros vs QF. apply parse_query_iff in QF. congruence.
  - exfalso. destruct R0 as (p'&[= <-]&X); [|congruence]. intros vs QF. apply parse_query_iff in QF. congruence.
Qed.

(** every answer to a GET of a folder, of a network or of a fact is a success or a refusal; no redirection *)
Lemma folder_refuses {H S N U} detect files (s : CacheModel.state H S N U) path d query p : tidy path -> addressed path d -> d <> Elsewhere ->
  exchanged detect files s "GET" path query (Answer (Some p)) -> status p = 200 \/ (In (status p) [400; 403; 404; 500] /\ sent_as_text p).
Proof.
  intros T A ND (sv&_&E&_).
  change (status p = 200 \/ well_refused p).
    rewrite serve_tidy in E by exact T. destruct (try_routes _ _ _) as [[] vs|[]] eqn:TR; try (injection E as E).
    - destruct (catalog_handler _ _) as [w|] eqn:HH; [|discriminate E]. injection E as ->. now apply (catalog_refuses detect) in HH.
    - destruct (renderable_handler _ _) as [w|] eqn:HH; [|discriminate E]. injection E as ->. now apply (renderable_refuses detect) in HH.
    - destruct (expressable_handler _ _) as [w|] eqn:HH; [|discriminate E]. injection E as ->. now apply (expressable_refuses detect) in HH.
    - exfalso. destruct A as [id P ->|id P ->|id h P Q NF ->|]; [| | |now elim ND].
      + rewrite try_table, to_id in TR by auto. cbn in TR. discriminate TR.
      + rewrite try_table, (to_deep _ id "facts") in TR by auto. cbn in TR. discriminate TR.
      + rewrite try_table, to_deep in TR by auto. destruct (String.eqb_spec h "facts") as [X|_]; [contradiction|].
        rewrite seg_part0 in TR by auto. rewrite part_nonempty in TR by auto. cbn in TR. discriminate TR.
    - exfalso. pose proof (tidy_rooted _ T) as R. rewrite try_table in TR. destruct (try_route _ _ (Subrouter _ _) _) eqn:X; [discriminate TR|].
      pose proof (to_files "GET" path R (ex_intro _ _ X)) as F. rewrite try_table, X in F. rewrite F in TR. discriminate TR.
    - exfalso. pose proof (tidy_rooted _ T) as R. rewrite try_table in TR. destruct (try_route _ _ (Subrouter _ _) _) eqn:X; [discriminate TR|].
      pose proof (to_files "GET" path R (ex_intro _ _ X)) as F. rewrite try_table, X in F. rewrite F in TR. discriminate TR.
Qed.

(** C167 for the folders: every answer to a GET of a folder, of a network or of a fact, after any history: a refusal sent as plain
    text; or a success without markup; or the inline document of the folder, at the address of its own name. *)
Theorem C167_folders : forall w detect files s id query p, history w s -> entry_name_ok id ->
  (exchanged detect files s "GET" ("/folders/" ++ id) query (Answer (Some p)) \/
   exchanged detect files s "GET" ("/folders/" ++ id ++ "/facts") query (Answer (Some p))) ->
  (In (status p) [400; 403; 404; 500] /\ sent_as_text p) \/ (status p = 200 /\ inert (body p)).
Proof.
  intros w detect files s id query p H I [X|X].
  - destruct (folder_refuses detect files s _ (CatalogOf id) query p (folder_tidy _ I) (ad_catalog _ id (entry_part _ I) eq_refl) ltac:(discriminate) X) as [ST|K]; [right|now left].
    split; [exact ST|]. eapply C163_catalog; eauto.
  - assert (T : tidy ("/folders/" ++ id ++ "/" ++ "facts")) by (apply network_tidy; auto; repeat split; discriminate).
    change ("/" ++ "facts") with "/facts" in T.
    destruct (folder_refuses detect files s _ (FactsOf id) query p T (ad_facts _ id (entry_part _ I) eq_refl) ltac:(discriminate) X) as [ST|K]; [right|now left].
    split; [exact ST|]. destruct (fields_decoded detect files s id query p I X ST) as (vs&n&c&k&ref&QF&FN&FC&EN&EC). eapply C163_fact; eauto.
Qed.
Print Assumptions C167_folders.
Theorem C167_networks : forall w detect files s id slug query p, history w s -> entry_name_ok id -> entry_name_ok slug -> slug <> "facts" ->
  exchanged detect files s "GET" ("/folders/" ++ id ++ "/" ++ slug) query (Answer (Some p)) ->
  (In (status p) [400; 403; 404; 500] /\ sent_as_text p) \/
  (status p = 200 /\ (inert (body p) \/ (entry_named w id slug /\ inline_name slug /\ document_sent w id slug (body p)))).
Proof.
  intros w detect files s id slug query p H I J NF X.
  destruct (folder_refuses detect files s _ (RenderableOf id slug) query p (network_tidy _ _ I J) (ad_renderable _ id slug (entry_part _ I) (entry_part _ J) NF eq_refl) ltac:(discriminate) X) as [ST|K]; [right|now left].
  split; [exact ST|]. eapply C163_network; eauto.
Qed.
Print Assumptions C167_networks.

(** Both theorems speak of the answers of C161: the catalog of a folder, and its inline document. *)
Example C167_folders_example : exists files s p p', history DocNameProps.ask_world s /\ entry_name_ok "f" /\ entry_name_ok "x.htm" /\
  exchanged (w_detect DocNameProps.ask_world) files s "GET" "/folders/f" "" (Answer (Some p)) /\ status p = 200 /\ body p <> "" /\ inert (body p) /\
  exchanged (w_detect DocNameProps.ask_world) files s "GET" "/folders/f/x.htm" "" (Answer (Some p')) /\ status p' = 200 /\ body p' <> "".
Proof.
  destruct C161_example as (files&s&p&p'&H&I&J&_&_&X&ST&B&X'&ST'&B'). exists files, s, p, p'. repeat (split; [assumption|]).
  split; [|auto]. destruct (C167_folders _ _ _ _ _ _ _ H I (or_introl X)) as [[K _]|[_ K]]; [|exact K].
  rewrite ST in K. cbn in K. exfalso. intuition discriminate.
Qed.
