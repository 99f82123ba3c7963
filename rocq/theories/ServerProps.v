(** * ServerProps: C127 (what the running server answers, and the files on disk) *)
From Verif Require Import GoBase GoSpec GoFacts AttrModel AttrSpec AttrProofs SchemaModel SchemaSpec SchemaProofs SchemaProps
  LinkbaseModel LinkbaseSpec LinkbaseProofs LinkbaseProps InstanceModel InstanceSpec InstanceProofs InstanceProps
  HydrateModel HydrateSpec HydrateProofs HydrateProps LabelModel LabelSpec LabelProofs LabelProps PeriodModel PeriodSpec PeriodProofs PeriodProps
  FactModel FactSpec FactProofs FactProps GridModel GridSpec GridProofs GridProps CalcModel CalcSpec CalcProofs CalcProps DefModel DefSpec DefProofs DefProps
  RenderModel RenderSpec RenderProofs RenderProps ExpressModel ExpressSpec ExpressProofs ExpressProps
  DiscoverModel DiscoverSpec DiscoverProofs DiscoverProps XmlModel XmlSpec XmlProofs XmlProps LoadModel LoadSpec LoadProofs LoadProps
  CatalogModel CatalogSpec CatalogProofs CatalogProps ReportModel ResponseModel ResponseSpec ResponseProofs ResponseProps EndToEndSpec EndToEndProps
  ReportSpec ReportProofs ReportProps AskSpec AskProps ImageModel ImageSpec ImageProofs ImageProps
  WebModel WebSpec WebProofs WebProps PathSpec RouterModel RouterSpec RouterProofs RouterProps.
From Verif Require CacheModel CacheSpec CacheProofs CacheProps.
From Verif Require Import ServerModel ServerSpec.
Local Open Scope string_scope.

(** ** From the cache to the disk *)
Section World.
  Variable w : world.
  Notation state := (CacheModel.state report schema (list (string * list (string * string))) registry).
  Notation sv := (services_of w).

  Lemma uncached_content (s : state) q b : history w s ->
    CacheModel.answered s q (Ok (CacheModel.VBytes (Some b))) ->
    match q with
    | CacheModel.RCatalog id => exists rep, CacheSpec.hydrated sv id (Ok rep) /\ marshalled_catalog (out w) (rp_hydratable rep) (Ok (Some b))
    | CacheModel.RRender id slug => exists rep, CacheSpec.hydrated sv id (Ok rep) /\ CacheSpec.document_or_renderable sv slug rep (Ok (Some b))
    | CacheModel.RFact id name ref => exists rep, CacheSpec.hydrated sv id (Ok rep) /\ marshalled_expressable (out w) (rp_hydratable rep) name ref (Ok (Some b))
    | _ => True
    end.
  Proof.
    intros (dry&injected&R&U&C) A.
    assert (E := CacheProps.explained_of sv dry injected s q _ R (CacheProofs.usual_separate _ U C) A).
    assert (K : forall id P, CacheProofs.explained sv injected q (Ok (CacheModel.VBytes (Some b))) ->
      CacheSpec.uncached sv injected q = CacheSpec.served sv id P ->
      (match q with CacheModel.RCatalog id | CacheModel.RRender id _ | CacheModel.RFact id _ _ => CacheProofs.masked sv id (CacheProofs.respond sv q) (Ok (CacheModel.VBytes (Some b)))
       | _ => False end -> False) ->
      exists rep, CacheSpec.hydrated sv id (Ok rep) /\ P rep (Ok (Some b))).
    { intros id P [HU|HM] EU M; [|now elim M]. rewrite EU in HU. destruct HU as [(m&_&X)|[(_&X)|(h&a&H&HP&X)]]; try discriminate.
      destruct a as [a| |]; try discriminate X. injection X as <-. eauto. }
    destruct q as [id|id slug|id name ref| | |]; auto;
      [eapply (K id (CacheModel.catalog sv))|eapply (K id (CacheSpec.document_or_renderable sv slug))|eapply (K id (CacheModel.expressable sv name ref))];
      auto; intros [(X&_)|(X&_)]; discriminate.
  Qed.

  Lemma discovered_entry files dir name images fd : discover files dir (Ok name) images (Ok fd) ->
    fdEntry fd = name /\ (forall d, fdDocument fd = Some d -> inline_name name) /\ (~ supported name -> fdInstances fd = []).
  Proof.
    intro D.
    assert (K : forall fd0 i s, fruns files dir (schema_ref files dir fd0 i) s -> fdEntry (fst s) = fdEntry fd0 /\ fdDocument (fst s) = fdDocument fd0).
    { intros f0 i s R. remember (schema_ref files dir f0 i) as s0 eqn:E. induction R as [s|s s' s'' R IH H]; [subst; auto|].
      specialize (IH E). destruct IH as [<- <-]. destruct H as [f1 f2 a p p' b H]. cbn. clear -H. induction H; auto. destruct k; auto. }
    inversion D as [m E|n o E X H|n o E X H|n E X1 X2 X3 X4]; try injection E as <-; subst; try discriminate.
    - assert (I : inline_name name) by now apply inline_iff. inversion H as [|data|data|data|data doc o RF DI EF DS]; subst.
      inversion DS as [|i s RI F J]; subst. apply K in F as [F1 F2]. cbn in *. rewrite F1. split; auto. split; auto. intros NS. elim NS. now left.
    - inversion H as [|i s RI F J]; subst. apply K in F as [F1 F2]. cbn in *. rewrite F1, F2. split; auto. split; [discriminate|].
      intro NS. elim NS. right. now apply instance_iff.
    - cbn. split; auto. split; [discriminate|auto].
  Qed.

  Lemma hydrated_report id rep : CacheSpec.hydrated sv id (Ok rep) ->
    exists name, report_of w id name (rp_hydratable rep) /\ rp_bytes rep = bytes_of w id (hFolder (rp_hydratable rep)) /\
      fdEntry (hFolder (rp_hydratable rep)) = name /\
      (forall d, fdDocument (hFolder (rp_hydratable rep)) = Some d -> inline_name name) /\
      (hDocument (rp_hydratable rep) <> None -> inline_name name) /\
      (~ supported name -> hInstances (rp_hydratable rep) = []).
  Proof.
    intro H. inversion H as [| |f r D Y E]; subst. destruct D as (o&D&E). destruct o as [fd| |]; try discriminate. injection E as ->.
    destruct Y as (sh&doc&SH&HD&_&E). unfold hydrating in E. cbn in E. destruct (hydrate _ _ _ _ _ _ _ _) as [h| |] eqn:HH in E; try discriminate. injection E as ->. cbn in *.
    assert (EN : exists name, entry_file_name w id = Ok name) by (inversion D; subst; eauto).
    destruct EN as (name&EN). rewrite EN in D. destruct (discovered_entry _ _ _ _ _ D) as (F1&F2&F3).
    pose proof HH as HC. apply C79_complete in HC as (HF&_&_&_&_&_&HI&_&HDoc).
    exists name. split; [split|].
    - unfold entry_file_name in EN. destruct (d_file (w_disk w) _) as [b|] eqn:EB in EN; [|discriminate]. exists b. auto.
    - exists (match images_of w id with [] => false | _ => true end), sh. split; [exact SH|]. exists fd, doc. auto.
    - rewrite HF. split; auto. split; auto. split; auto. split.
      + intro X. destruct (fdDocument fd) as [d|] eqn:ED; [now apply (F2 d)|]. exfalso. apply X. inversion HD; subst. congruence.
      + intro NS. apply F3 in NS. rewrite NS in HI. destruct HI as [E _]. destruct (hInstances h); [auto|discriminate E].
  Qed.

  (** ** From the address to the call *)
  Lemma get_catalog detect files (s : state) id query p : entry_name_ok id ->
    exchanged detect files s "GET" ("/folders/" ++ id) query (Answer (Some p)) -> status p = 200 -> body p <> "" ->
    CacheModel.answered s (CacheModel.RCatalog id) (Ok (CacheModel.VBytes (Some (body p)))).
  Proof.
    intros I (v&_&E&C) ST B. pose proof (folder_tidy _ I) as T. pose proof (entry_part _ I) as P.
    destruct (C123_get detect v _ query (CatalogOf id) T (ad_catalog _ id P eq_refl)) as (x&E'&R). rewrite <- E in E'. injection E' as <-.
    specialize (C (CacheModel.RCatalog id)). cbn [returned] in C. 
    destruct (svCatalog v id) as [[b|]| |]; destruct R as (p'&[= <-]&St&Bd) || discriminate R; try congruence; try (cbn [content] in Bd; congruence).
    cbn [content] in Bd. rewrite Bd. apply C. split; [now apply clean_tidy|]. rewrite try_table, to_id by auto. cbn [String.eqb Ascii.eqb]. reflexivity.
  Qed.
  Lemma get_renderable detect files (s : state) id slug query p : entry_name_ok id -> entry_name_ok slug -> slug <> "facts" ->
    exchanged detect files s "GET" ("/folders/" ++ id ++ "/" ++ slug) query (Answer (Some p)) -> status p = 200 -> body p <> "" ->
    CacheModel.answered s (CacheModel.RRender id slug) (Ok (CacheModel.VBytes (Some (body p)))).
  Proof.
    intros I J N (v&_&E&C) ST B. pose proof (network_tidy _ _ I J) as T. pose proof (entry_part _ I) as P. pose proof (entry_part _ J) as Q.
    destruct (C123_get detect v _ query (RenderableOf id slug) T (ad_renderable _ id slug P Q N eq_refl)) as (x&E'&R). rewrite <- E in E'. injection E' as <-.
    specialize (C (CacheModel.RRender id slug)). cbn [returned] in C. 
    destruct (svRenderable v id slug) as [[b|]| |]; destruct R as (p'&[= <-]&St&Bd) || discriminate R; try congruence; try (cbn [content] in Bd; congruence).
    cbn [content] in Bd. rewrite Bd. apply C. split; [now apply clean_tidy|]. rewrite try_table, to_deep by auto.
    destruct (String.eqb_spec slug "facts"); [contradiction|]. rewrite seg_part0, part_nonempty by auto. reflexivity.
  Qed.
  Lemma get_fact detect files (s : state) id query vs n c n' c' p : entry_name_ok id ->
    query_fields query vs -> field vs "name" n -> field vs "contextref" c -> encodes n' n -> encodes c' c ->
    exchanged detect files s "GET" ("/folders/" ++ id ++ "/facts") query (Answer (Some p)) -> status p = 200 -> body p <> "" ->
    CacheModel.answered s (CacheModel.RFact id n' c') (Ok (CacheModel.VBytes (Some (body p)))).
  Proof.
    intros I QF FN FC EN EC (v&_&E&C) ST B.
    assert (T : tidy ("/folders/" ++ id ++ "/" ++ "facts")) by (apply network_tidy; auto; repeat split; discriminate).
    change ("/" ++ "facts") with "/facts" in T. pose proof (entry_part _ I) as P.
    destruct (C123_get detect v _ query (FactsOf id) T (ad_facts _ id P eq_refl)) as (x&E'&R). rewrite <- E in E'. injection E' as <-.
    destruct R as [_ R]. destruct (R _ _ _ QF FN FC) as [_ R']. specialize (R' _ _ EN EC). clear R. rename R' into R.
    specialize (C (CacheModel.RFact id n' c')). cbn [returned] in C. 
    destruct (svExpressable v id n' c') as [[b|]| |]; destruct R as (p'&[= <-]&St&Bd) || discriminate R; try congruence; try (cbn [content] in Bd; congruence).
    cbn [content] in Bd. rewrite Bd. apply C. split; [now apply clean_tidy|]. rewrite try_table. rewrite (to_deep _ id "facts") by auto.
    cbn [String.eqb Ascii.eqb]. exists vs, n', c'. split; [now apply parse_query_iff|].
    rewrite (field_unique _ _ _ _ (values_get_field "name" vs) FN), (field_unique _ _ _ _ (values_get_field "contextref" vs) FC).
    split; [now apply unescape_iff|]. split; [now apply unescape_iff|]. reflexivity.
  Qed.

  Lemma document_sent_of id name b :
    Some b = option_map (fun data => match images_of w id with
                                | [] => data
                                | images => transform_inline_images (w_parse w) (w_render w) data images
                                end) (d_file (w_disk w) (PathModel.join [working_dir w id; name])) ->
    document_sent w id name b.
  Proof.
    intro E. change (working_dir w id) with (folder_at w id) in E. unfold images_of in E. change (working_dir w id) with (folder_at w id) in E.
    destruct (d_file (w_disk w) (PathModel.join [folder_at w id; name])) as [data|] eqn:F; [|discriminate]. injection E as E.
    exists data. split; auto. split.
    - intro NL. rewrite NL in E. exact E.
    - intros fs LS [ND PR]. rewrite LS in E. destruct (C98_images (w_detect w) (w_base64 w) fs ND) as [IM FI].
      destruct (process_images (w_detect w) (w_base64 w) (Some fs)) as [|x images] eqn:PI; [auto|]. split.
      + intro NO. exfalso. destruct x as [n u]. apply (NO n u), FI. now left.
      + destruct (C71_bytes (w_parse w) (w_render w) data (x :: images) IM) as [(t&t'&P1&P2&P3)|P].
        * intros n u Hn. apply FI in Hn as (f&bytes&Hf&<-&_). now apply PR.
        * right. exists (x :: images), t, t'. split; [exact FI|]. split; auto. split; auto. now rewrite E.
        * left. congruence.
  Qed.
End World.

Lemma inline_dec name : inline_name name \/ ~ inline_name name.
Proof.
  destruct (String.eqb_spec (ext name) ".xhtml") as [E|E], (String.eqb_spec (ext name) ".htm") as [E'|E'];
    try (left; apply inline_iff; auto; fail). right. intro A. apply inline_iff in A. destruct A; auto.
Qed.
Lemma instance_dec name : instance_name name \/ ~ instance_name name.
Proof.
  destruct (String.eqb_spec (ext name) ".xbrl") as [E|E], (String.eqb_spec (ext name) ".xml") as [E'|E'];
    try (left; apply instance_iff; auto; fail). right. intro A. apply instance_iff in A. destruct A; auto.
Qed.
(** nothing can be rendered of a folder without an instance *)
Lemma renderable_instances w h slug r : hInstances h = [] -> returned_renderable w h slug r -> r = Err "object not found".
Proof.
  intros E M. destruct M as [insts schemas VI VS F|insts schemas e rs p d c conf VI VS F]; auto; exfalso;
    (assert (insts = []) as -> by (unfold visited in VI; rewrite E in VI; cbn in VI; apply Permutation_sym, Permutation_nil in VI; exact VI));
    cbn in F; discriminate F.
Qed.

(** ** C127: the answers of the running server *)

(** The catalog: where the body is not empty, it shows the role types and the entities
    that are written in the files of the folder. *)
Theorem C127_catalog_partial : forall w detect files s id query p, history w s -> entry_name_ok id ->
  exchanged detect files s "GET" ("/folders/" ++ id) query (Answer (Some p)) -> status p = 200 -> body p <> "" ->
  exists name h v, report_of w id name h /\ reads_as (body p) v /\
    (supported name ->
     exists file root, entry_at (w_disk w) (folder_at w id) root name file /\
       ((forall x t, followed_at (w_disk w) (folder_at w id) root x t -> single_appinfo t /\ plain_roles t) ->
        exists l, canonical (fun r => (rsTitle r, rsRole r)) (role_declared (w_disk w) (folder_at w id) root) l /\
          has v "RelationshipSets" (list_of relationship_set l)) /\
       (no_homonyms root -> declared_at_root root -> plain_texts root ->
        (forall x t, known (w_disk w) (folder_at w id) root x t -> plain_declarations t) ->
        exists q l, understands (w_disk w) (folder_at w id) root q /\
          canonical (fun e => (eScheme e, eChar e)) (entity_reported q (content_of q (w_tokens w) (attributes root)) root) l /\
          has v "Subjects" (list_of (fun e u => has u "Entity" (entity_value e)) l))).
Proof.
  intros w detect files s id query p H I X ST B. apply get_catalog in X; auto.
  apply (uncached_content w s _ _ H) in X as (rep&HY&M).
  apply hydrated_report in HY as (name&R&_). exists name, (rp_hydratable rep).
  destruct M as (insts&schemas&VI&VS&E). injection E as E.
  set (c := marshal_catalog _ _ _ _ _) in E. destruct (C119_catalog c) as (v&J&V). rewrite <- E in J. exists v. split; auto. split; auto.
  intro N. pose proof R as (_&images&sh&_&L).
  destruct (C122_relationship_sets_partial _ _ _ _ _ _ _ _ _ N L) as (file&root&EA&K1).
  destruct (C122_subjects_partial _ _ _ _ _ _ _ _ _ N L) as (file'&root'&EA'&K2).
  assert (root' = root) as -> by (eapply entry_root; eauto).
  assert (G : given "id" (HttpRequest "GET" [("id", "F")] "") "F") by (split; [reflexivity|discriminate]).
  assert (S : forall v' (x : option response), x = option_map (WebModel.finish detect) (catalog_handler (fun _ => Ok (Some (jcatalog c))) (HttpRequest "GET" [("id", "F")] "")) ->
    forall R0, answers x R0 -> reads_as (body p) v' -> R0 v').
  { intros v' x -> R0 (p'&v0&EP&_&J'&HS) J0.
    destruct (C61_catalog detect (fun _ => Ok (Some (jcatalog c))) (HttpRequest "GET" [("id", "F")] "")) as (_&_&C61).
    destruct (C61 "F" eq_refl G) as (p2&E2&_&B2). rewrite E2 in EP. injection EP as <-. rewrite B2 in J'. cbn [content] in J'. rewrite <- E in J'.
    destruct J0 as [_ U]. destruct J' as [J' _]. apply U in J'. now subst v0. }
  exists file, root. split; auto. split.
  - intro PR. destruct (K1 PR (o_names (out w)) insts schemas _ _ (fun _ => Ok (Some (jcatalog c))) detect (HttpRequest "GET" [("id", "F")] "") "F" (conj VI VS) eq_refl G eq_refl)
      as (l&CA&AN). exists l. split; auto. eapply (S v); eauto.
  - intros NH DR PT PD. destruct (K2 NH DR PT PD) as (q&UQ&K).
    destruct (K (o_names (out w)) insts schemas _ _ (fun _ => Ok (Some (jcatalog c))) detect (HttpRequest "GET" [("id", "F")] "") "F" (conj VI VS) eq_refl G eq_refl)
      as (l&CA&AN). exists q, l. split; auto. split; auto. eapply (S v); eauto.
Qed.
Print Assumptions C127_catalog_partial.

(** A renderable: where the body is not empty, it is the inline document of the folder,
    or it shows the facts that are written in its files. *)
Theorem C127_renderable_partial : forall w detect files s id slug query p, history w s ->
  entry_name_ok id -> entry_name_ok slug -> slug <> "facts" ->
  exchanged detect files s "GET" ("/folders/" ++ id ++ "/" ++ slug) query (Answer (Some p)) -> status p = 200 -> body p <> "" ->
  exists name h, report_of w id name h /\
    ((slug = name /\ inline_name name /\ document_sent w id name (body p)) \/
     (exists file root, entry_at (w_disk w) (folder_at w id) root name file /\
        (well_written (w_disk w) (folder_at w id) root ->
         exists facts contexts q e r v, understands (w_disk w) (folder_at w id) root q /\
           facts_written (w_disk w) (folder_at w id) root facts /\
           contexts_written root q (content_of q (w_tokens w) (attributes root)) contexts /\
           is_slug e r slug /\ (exists c, In c contexts /\ eScheme e = ctxScheme c /\ eChar e = ctxIdentifier c) /\
           reads_as (body p) v /\
           has v "Subject" (fun u => has u "Entity" (entity_value e)) /\
           has v "RelationshipSet" (relationship_set r) /\
           presentation_shown facts contexts (reports (w_disk w) (folder_at w id) root) (renders_from (out w) h) (eScheme e ++ "/" ++ eChar e) v /\
           definition_shown facts contexts (reports (w_disk w) (folder_at w id) root) (renders_from (out w) h) (eScheme e ++ "/" ++ eChar e) v /\
           calculation_shown facts contexts (reports (w_disk w) (folder_at w id) root) (renders_from (out w) h) (eScheme e ++ "/" ++ eChar e) v))).
Proof.
  intros w detect files s id slug query p H I J N X ST B. apply get_renderable in X; auto.
  apply (uncached_content w s _ _ H) in X as (rep&HY&M).
  apply hydrated_report in HY as (name&R&BY&EN&DI&_&NI). exists name, (rp_hydratable rep). split; auto.
  destruct M as [[[ND _] D]|[_ M]].
  - left. cbn in ND, D. rewrite EN in ND. subst slug. destruct (rp_bytes rep) as [b|]; [|discriminate]. injection D as <-.
    unfold bytes_of in BY. destruct (fdDocument (hFolder (rp_hydratable rep))) as [d|] eqn:ED; [|discriminate].
    split; auto. split; [eauto|]. rewrite EN in BY. now apply document_sent_of.
  - right. cbn in M. pose proof R as (_&images&sh&_&L).
    assert (SN : supported name).
    { destruct (inline_dec name) as [A|A]; [now left|]. destruct (instance_dec name) as [A'|A']; [now right|].
      exfalso. apply renderable_instances in M; [discriminate M|]. apply NI. intros [S|S]; auto. }
    destruct (C125_grids_partial _ _ _ _ _ _ _ _ _ SN L) as (file&root&EA&K). exists file, root. split; auto. intro W.
    destruct (K W) as (facts&contexts&q&UQ&FW&CW&G). destruct (G (out w) slug (body p) eq_refl eq_refl (mr_returned _ _ _ _ M)) as (e&r&v&S1&S2&S3&S4&S5&S6&S7&S8).
    exists facts, contexts, q, e, r, v. auto 12.
Qed.
Print Assumptions C127_renderable_partial.

(** A fact: where the body is not empty, it shows the fact with that name and context. *)
Theorem C127_fact_partial : forall w detect files s id query vs n c k ref p, history w s -> entry_name_ok id ->
  query_fields query vs -> field vs "name" n -> field vs "contextref" c -> encodes k n -> encodes ref c ->
  exchanged detect files s "GET" ("/folders/" ++ id ++ "/facts") query (Answer (Some p)) -> status p = 200 -> body p <> "" ->
  exists name h file root data q, report_of w id name h /\ inline_name name /\
    entry_at (w_disk w) (folder_at w id) root name file /\
    d_file (w_disk w) (PathModel.join [folder_at w id; name]) = Some data /\ d_html (w_disk w) data = Some q /\
    (well_written (w_disk w) (folder_at w id) root -> declared_at_html q -> conforming_facts q ->
     exists facts contexts qe n fa c ctx v, understands (w_disk w) (folder_at w id) root qe /\
       facts_written (w_disk w) (folder_at w id) root facts /\
       contexts_written root qe (content_of qe (w_tokens w) (attributes root)) contexts /\
       names_fact q k n /\ names_context q ref /\
       fact_named (LoadSpec.declared (w_disk w) (folder_at w id) root) root facts n ref fa c /\
       first_such (fun c => ctxID c = ref) contexts ctx /\
       reads_as (body p) v /\ fact_answer (renders_from (out w) h) fa c ctx v).
Proof.
  intros w detect files s id query vs n c k ref p H I QF FN FC EN EC X ST B. eapply get_fact in X; eauto.
  apply (uncached_content w s _ _ H) in X as (rep&HY&M).
  apply hydrated_report in HY as (name&R&_&_&_&DI&_). pose proof R as (_&images&sh&_&L).
  assert (IN : inline_name name).
  { apply DI. intro E. destruct M as (e&_&M). rewrite E in M. discriminate M. }
  destruct (C126_answer_partial _ _ _ _ _ _ _ _ _ IN L) as (file&root&data&q&EA&DF&DH&K).
  exists name, (rp_hydratable rep), file, root, data, q. split; auto. split; auto. split; auto. split; auto. split; auto. intros WW DA CF.
  destruct (K WW DA CF) as (facts&contexts&qe&U&FW&CW&A). destruct (A (out w) k ref eq_refl eq_refl) as [A1 _].
  destruct (A1 _ M) as (n0&fa&c0&ctx&v&A2). exists facts, contexts, qe, n0, fa, c0, ctx, v. split; auto.
Qed.
Print Assumptions C127_fact_partial.

(** ** A folder whose requests are served one after the other *)
Lemma loaded_hydrated w id name sh h : orders sh -> entry_named w id name ->
  loaded (w_disk w) (folder_at w id) name (match images_of w id with [] => false | _ => true end) (w_float w) sh (w_tokens w) (o_units (w_out w)) h ->
  exists f, discovered w id (Ok f) /\ hydrated_as w f (Ok (Report h (fo_bytes f))) /\ fo_folder f = hFolder h.
Proof.
  intros SH (b&F&E) (fd&doc&D&HD&H). exists (Found fd (bytes_of w id fd)). split; [|split].
  - exists (Ok fd). split; auto. unfold entry_file_name. rewrite F, E. exact D.
  - exists sh, doc. split; [exact SH|]. split; auto. unfold hydrating. cbn [fo_folder]. rewrite H. split; [|reflexivity]. intros ->. exfalso. apply C79_complete in H as (_&_&_&_&_&_&_&_&X). discriminate X.
  - apply C79_complete in H as (HF&_). symmetry. exact HF.
Qed.
Section OneByOne.
  Variable w : world.
  Notation state := (CacheModel.state report schema (list (string * list (string * string))) registry).
  Variables (id : string) (f : found) (h : hydratable).
  Hypothesis D : discovered w id (Ok f).
  Hypothesis Y : hydrated_as w f (Ok (Report h (fo_bytes f))).
  Variable slug : string.
  Hypothesis X : CacheModel.path_ext slug <> ".xhtml" /\ CacheModel.path_ext slug <> ".htm".

  Lemma not_document : (String.eqb (CacheModel.path_ext slug) ".xhtml" || String.eqb (CacheModel.path_ext slug) ".htm")%bool = false.
  Proof. destruct X as [X1 X2]. apply String.eqb_neq in X1, X2. now rewrite X1, X2. Qed.
  Lemma ask_grid b : returned_renderable (out w) h slug (Ok (Some b)) ->
    exists c, CacheProofs.sequence (services_of w) false true [] [(CacheModel.RRender id slug, Ok (CacheModel.VBytes (Some b)))] c.
  Proof.
    intro M. eexists. eapply CacheProofs.seq_cons; [|apply CacheProofs.seq_nil]. cbn [CacheModel.program]. unfold CacheModel.marshal_renderable, CacheModel.with_hydratable.
    eapply CacheProofs.solo_miss; [reflexivity|]. eapply CacheProofs.solo_miss; [reflexivity|].
    eapply CacheProofs.solo_compute; [exact D|]. cbv beta iota. eapply CacheProofs.solo_call; [exact Y|]. cbv beta iota.
    unfold CacheModel.save. eapply CacheProofs.solo_spawn. rewrite not_document. cbn [andb].
    unfold CacheModel.and_save. eapply CacheProofs.solo_call; [exact M|]. cbv beta iota. unfold CacheModel.save. eapply CacheProofs.solo_spawn.
    eapply CacheProofs.solo_answer.
  Qed.
  Lemma ask_twice m : returned_renderable (out w) h slug (Err m) -> 
    exists c, CacheProofs.sequence (services_of w) false true [] [(CacheModel.RRender id slug, Err m); (CacheModel.RRender id slug, Ok (CacheModel.VBytes None))] c.
  Proof.
    intro M. eexists. eapply CacheProofs.seq_cons; [|eapply CacheProofs.seq_cons; [|apply CacheProofs.seq_nil]]; cbn [CacheModel.program]; unfold CacheModel.marshal_renderable, CacheModel.with_hydratable.
    - eapply CacheProofs.solo_miss; [reflexivity|]. eapply CacheProofs.solo_miss; [reflexivity|].
      eapply CacheProofs.solo_compute; [exact D|]. cbv beta iota. eapply CacheProofs.solo_call; [exact Y|]. cbv beta iota.
      unfold CacheModel.save. eapply CacheProofs.solo_spawn. rewrite not_document. cbn [andb].
      unfold CacheModel.and_save. eapply CacheProofs.solo_call; [exact M|]. cbv beta iota. unfold CacheModel.save. eapply CacheProofs.solo_spawn.
      eapply CacheProofs.solo_answer.
    - eapply CacheProofs.solo_hit; [cbn [negb]; apply (mget_mset_eq _ seqP)|reflexivity|apply CacheProofs.solo_answer].
  Qed.
End OneByOne.

Definition pair_world : world :=
  World pair_disk "/wd" (fun _ => Ok "x.xml") (fun _ => None) (fun _ => "") (fun _ => "") (fun _ => None) (fun _ => None) ex_pf ex_tokens pair_outside.
Lemma pair_hydrated : exists f, discovered pair_world "f" (Ok f) /\ hydrated_as pair_world f (Ok (Report pair_report (fo_bytes f))) /\ fo_folder f = hFolder pair_report.
Proof.
  apply (loaded_hydrated pair_world "f" "x.xml" plain_order).
  - exact plain_orders.
  - exists "/wd/folders/f/_". split; reflexivity.
  - exact pair_loaded.
Qed.
Lemma pair_missing : returned_renderable (out pair_world) pair_report "zz" (Err "object not found").
Proof.
  apply (rr_missing _ _ _ (map snd (hInstances pair_report)) (map snd (hSchemas pair_report))); [apply Permutation_refl..|]. vm_compute. reflexivity.
Qed.
Lemma one_request s q : CacheModel.requests s = [CacheModel.RRender "f" q] \/ CacheModel.requests s = [CacheModel.RRender "f" q; CacheModel.RRender "f" q] ->
  free_of "/" q -> q <> "" ->
  (forall q, In q (CacheModel.requests s) -> CacheSpec.usual q) /\
  @CacheSpec.no_collision (CacheModel.requests (hyd := report) (schema := schema) (names := list (string * list (string * string))) (utr := registry) s).
Proof.
  intros E F N. split.
  - intros x Hx. assert (x = CacheModel.RRender "f" q) as -> by (destruct E as [E|E]; rewrite E in Hx; cbn in Hx; intuition congruence).
    cbn. repeat split; auto; discriminate.
  - intros i n c i' n' c' Hx. exfalso. destruct E as [E|E]; rewrite E in Hx; cbn in Hx; intuition congruence.
Qed.

(** C127, refuted for empty bodies: the same request for a grid that does not exist is
    refused the first time, and the second time answered with success and nothing. *)
Theorem C127_refuted : exists w files s query p p', history w s /\
  (forall e r, ~ is_slug e r "zz") /\
  exchanged (w_detect w) files s "GET" "/folders/f/zz" query (Answer (Some p)) /\ status p = 500 /\
  exchanged (w_detect w) files s "GET" "/folders/f/zz" query (Answer (Some p')) /\ status p' = 200 /\ body p' = "".
Proof.
  destruct pair_hydrated as (f&D&Y&_).
  destruct (ask_twice pair_world "f" f pair_report D Y "zz" ltac:(split; discriminate) _ pair_missing) as (c&Q).
  destruct (CacheProps.history_of _ _ _ _ _ Q) as (s&R&_&RQ&A).
  set (S1 := fun a => Services (fun _ => Panic) (fun _ _ => a) (fun _ _ _ => Panic) (fun _ _ => None)).
  exists pair_world, (fun _ _ => None), s, "". do 2 eexists. split.
  { exists false, true. split; auto. cbn [map fst] in RQ. apply (one_request s "zz"); [auto|cbn; repeat split; discriminate|discriminate]. }
  split. { intros e r (x&_&_&L). discriminate L. }
  split; [|split; [|split; [|split]]].
  - exists (S1 (Err "object not found")). split; [reflexivity|]. split; [vm_compute; reflexivity|].
    intros q (_&C). vm_compute in C. subst q. apply A. now left.
  - reflexivity.
  - exists (S1 (Ok None)). split; [reflexivity|]. split; [vm_compute; reflexivity|].
    intros q (_&C). vm_compute in C. subst q. apply A. right. now left.
  - reflexivity.
  - reflexivity.
Qed.
Print Assumptions C127_refuted.

Lemma json_nonempty t v : json t v -> t <> "".
Proof.
  induction 1 as [| | |t n D|t s _|w _|t l _|w _|t l _|w t v _ J IH|w t v _ J IH]; try discriminate.
  - intros ->. destruct D as [D _]. inversion D as [|s' ? ? ? ? ? E]. destruct s'; discriminate E.
  - intro E. destruct w; [auto|discriminate E].
  - intro E. apply IH. destruct t; [auto|discriminate E].
Qed.
(** The hypotheses of C127 are met: a grid is asked for and sent. *)
Example C127_example : exists files s p, history pair_world s /\ entry_name_ok "f" /\ entry_name_ok pair_slug /\ pair_slug <> "facts" /\
  exchanged (w_detect pair_world) files s "GET" ("/folders/f/" ++ pair_slug) "" (Answer (Some p)) /\ status p = 200 /\ body p <> "" /\
  well_written (w_disk pair_world) (folder_at pair_world "f") pair_root /\ entry_at (w_disk pair_world) (folder_at pair_world "f") pair_root "x.xml" "x.xml".
Proof.
  destruct pair_hydrated as (f&D&Y&_). destruct pair_served as (b&B).
  assert (B' : returned_renderable pair_outside pair_report pair_slug (Ok (Some b))) by (inversion B; assumption).
  assert (SL : is_slug pair_entity pair_set pair_slug) by apply hash_slug. pose proof (slug_part _ _ _ SL) as [SE SF].
  destruct (ask_grid pair_world "f" f pair_report D Y pair_slug ltac:(vm_compute; split; discriminate) _ B') as (c&Q).
  destruct (CacheProps.history_of _ _ _ _ _ Q) as (s&R&_&RQ&A).
  assert (I : entry_name_ok "f") by (repeat split; discriminate).
  set (sv := Services (fun _ => Panic) (fun _ _ => Ok (Some b)) (fun _ _ _ => Panic) (fun _ _ => None)).
  destruct (C123_get (w_detect pair_world) sv ("/folders/f/" ++ pair_slug) "" (RenderableOf "f" pair_slug)) as (x&E&p&->&ST&BD).
  { now apply (network_tidy "f"). }
  { now apply ad_renderable; auto using entry_part. }
  exists (fun _ _ => None), s, p. split.
  { exists false, true. split; auto. cbn [map fst] in RQ. apply (one_request s pair_slug); auto; apply SE. }
  split; auto. split; auto. split; auto. split; [|split; auto; split; [|split; [exact pair_written|exact pair_entry]]].
  - exists sv. split; [reflexivity|]. split; [now symmetry|]. intros q (_&C).
    assert (q = CacheModel.RRender "f" pair_slug) as -> by (vm_compute in C; exact C). apply A. left. reflexivity.
  - rewrite BD. cbn [content]. destruct (C125_grids_partial _ _ _ _ _ _ _ _ _ x_supported pair_loaded) as (file&root&EA&G).
    assert (root = pair_root) as -> by (eapply entry_root; [exact pair_entry|exact EA]).
    destruct (G pair_written) as (facts&contexts&q&_&_&_&K).
    destruct (K pair_outside pair_slug b eq_refl eq_refl B) as (e&r&v&_&_&[V _]&_). exact (json_nonempty _ _ V).
Qed.

(** ** C128: every request is answered *)
Lemma discovered_ends w id : (forall b, w_entry w b <> Panic) -> no_circles w id -> exists r, discovered w id r.
Proof.
  intros NP NC.
  assert (X : exists o, discover (files_of (w_disk w)) (working_dir w id) (entry_file_name w id) (match images_of w id with [] => false | _ => true end) o).
  2:{ destruct X as (o&O). eexists. exists o. split; [exact O|reflexivity]. }
  unfold entry_file_name. destruct (d_file (w_disk w) _) as [b|] eqn:F; [|eexists; now apply disc_no_entry].
  destruct (w_entry w b) as [name|m|] eqn:E; [|eexists; now apply disc_no_entry|now elim (NP b)].
  set (images := match images_of w id with [] => false | _ => true end).
  assert (EN : entry_named w id name) by (exists b; auto). change (working_dir w id) with (folder_at w id).
  assert (K : forall file i, entry_instance (files_of (w_disk w)) (folder_at w id) name file i ->
    exists o, discover (files_of (w_disk w)) (folder_at w id) (Ok name) images o).
  { intros file i EI. apply entry_iff in EI as (root&EA&_). apply (C118_ends _ _ _ _ _ images EA). eapply NC; eauto. }
  destruct (inline_dec name) as [I|I]; [|destruct (instance_dec name) as [J|J]].
  - pose proof I as I'. apply inline_iff in I'. set (fs := files_of (w_disk w)) in *.
    destruct (read_file fs (PathModel.join [folder_at w id; name])) as [data|] eqn:R.
    2:{ exists (Err ""). apply (disc_htm _ _ _ _ name); auto. now apply htm_unreadable. }
    destruct (decode_ixbrl fs data) as [doc|] eqn:DX.
    2:{ destruct images eqn:IM; eexists; apply (disc_htm _ _ _ _ name); auto; [eapply htm_nil; eauto|eapply htm_failed; eauto]. }
    destruct (exists_file fs (PathModel.join [folder_at w id; name ++ ".xml"])) eqn:EF.
    2:{ eexists. apply (disc_htm _ _ _ _ name); auto. eapply htm_missing; eauto. }
    destruct (read_instance fs (PathModel.join [folder_at w id; name ++ ".xml"])) as [i|] eqn:RI.
    2:{ exists (Err ""). apply (disc_htm _ _ _ _ name); auto. eapply htm_found; eauto. now apply inst_unreadable. }
    apply (K (name ++ ".xml") i). split; [now left|]. split; auto. intros _. eauto.
  - pose proof J as J'. apply instance_iff in J'. set (fs := files_of (w_disk w)) in *.
    destruct (read_instance fs (PathModel.join [folder_at w id; name])) as [i|] eqn:RI.
    2:{ exists (Err ""). apply (disc_xml _ _ _ _ name); auto. now apply inst_unreadable. }
    apply (K name i). split; [now right|]. split; auto. intro I'. now elim I.
  - exists (Ok (new_folder name None)). apply disc_other; auto; intro EX; first [apply I, inline_iff; auto; fail|apply J, instance_iff; auto].
Qed.
Lemma request_returns w q : (forall b, w_entry w b <> Panic) -> (forall id, folder_of_request q = Some id -> no_circles w id) ->
  CacheSpec.returns_for (services_of w) q.
Proof.
  intros NP NC.
  assert (Y : forall f, (exists sh, orders sh /\ hydration_dies w f sh) \/ exists r, hydrated_as w f r).
  { intro f. destruct C72_terminates as [T _]. destruct (T (fdDocument (fo_folder f))) as (doc&D).
    assert (X : doc <> Panic \/ doc = Panic) by (destruct doc; auto; left; discriminate). destruct X as [X| ->].
    { right. eexists. exists plain_order, doc. split; [exact plain_orders|]. split; [exact D|]. split; [contradiction|reflexivity]. }
    assert (X : (exists r, hydrating w f plain_order (Ok None) = Ok r) \/ ~ exists r, hydrating w f plain_order (Ok None) = Ok r).
    { destruct (hydrating w f plain_order (Ok None)); [left; eauto|right|right]; intros (?&?); discriminate. }
    destruct X as [X|X].
    2:{ right. eexists. exists plain_order, Panic. split; [exact plain_orders|]. split; [exact D|]. split; [intros _ [Y _]; auto|reflexivity]. }
    remember (fdDocument (fo_folder f)) as d eqn:E. assert (K : crashed_document d \/ ~ crashed_document d).
    { destruct d as [s|]; [|right; intros (?&?&?&_); discriminate].
      destruct (new_name_provider (dsHtml s)) as [np|m|] eqn:N; [left; exists s, np; auto|right..]; intros (s'&np&[= <-]&N'&_); congruence. }
    destruct K as [K|K].
    - left. exists plain_order. split; [exact plain_orders|]. split; [exact X|]. now rewrite <- E.
    - right. eexists. exists plain_order, Panic. split; [exact plain_orders|]. split; [now rewrite <- E|]. split; [|reflexivity]. intros _ [_ Z]. rewrite <- E in Z. contradiction. }
  destruct q as [id|id slug|id name ref|url| |]; cbn in *; eauto; (split; [apply discovered_ends; auto|split; [intros; apply Y|]]); intros h _.
  - eexists. exists (map snd (hInstances (rp_hydratable h))), (map snd (hSchemas (rp_hydratable h))). split; [apply Permutation_refl|]. split; [apply Permutation_refl|reflexivity].
  - destruct (C125_answered (out w) (rp_hydratable h) slug) as (o&[o' M|M]); eauto.
  - apply own_answer.
Qed.

(** In every history and on every schedule, when the steps stop (which they do unless new
    requests keep arriving) every request for a folder whose schemas do not refer to each
    other in a circle has its answer, whatever happened to requests for other folders, unless
    the process has ended ([C131] says when it may). *)
Theorem C128_answered_partial : forall w s, (forall b, w_entry w b <> Panic) -> history w s ->
  Acc (fun s2 s1 => CacheModel.gstep s1 s2) s /\
  forall s', CacheSpec.continues s s' -> CacheSpec.at_rest s' ->
    CacheSpec.ended s' \/
    ((forall q, In q (CacheModel.requests s) -> (forall id, folder_of_request q = Some id -> no_circles w id) ->
        exists r, CacheModel.answered s' q r) /\
     (forall l, CacheModel.locks s' l = CacheModel.RW 0 false)).
Proof.
  intros w s NP (dry&injected&R&U&C).
  destruct (CacheProps.C59_answered_partial _ _ _ _ _ _ _ _ _ R (CacheProofs.usual_separate _ U C)) as [A K]. split; auto.
  intros s' Co Re. destruct (K s' Co Re) as [E|[K1 K2]]; [now left|]. right. split; auto. intros q Hq Hc. apply K1; auto. now apply request_returns.
Qed.
Print Assumptions C128_answered_partial.

(** C128, refuted: where a schema includes itself, the catalog is never answered. *)
Definition loop_world : world :=
  World loop_disk "/wd" (fun _ => Ok "x.xml") (fun _ => None) (fun _ => "") (fun _ => "") (fun _ => None) (fun _ => None) ex_pf ex_tokens pair_outside.
Theorem C128_refuted : (forall b, w_entry loop_world b <> Panic) /\
  (exists s, history loop_world s /\ CacheModel.requests s = [CacheModel.RCatalog "f"]) /\
  forall s, history loop_world s -> forall r, ~ CacheModel.answered s (CacheModel.RCatalog "f") r.
Proof.
  split; [discriminate|]. split.
  - exists (CacheModel.State [] (fun _ => CacheModel.RW 0 false) [(Some (CacheModel.RCatalog "f"), CacheModel.TRun (CacheModel.program (services_of loop_world) false true (CacheModel.RCatalog "f")))]).
    split; [|reflexivity]. exists false, true. split; [|split].
    + eapply CacheModel.run_step; [apply CacheModel.run_refl|]. apply (CacheModel.step_request _ _ _ _ _ _ _ _ [] _ [] (CacheModel.RCatalog "f")). constructor.
    + intros q [<-|[]]. cbn. repeat split; discriminate.
    + intros i n c i' n' c' [E|[]]. discriminate E.
  - intros s (dry&injected&R&U&C) r A.
    assert (E := CacheProps.explained_of _ dry injected s _ _ R (CacheProofs.usual_separate _ U C) A).
    assert (D : forall r, ~ discovered loop_world "f" r).
    { intros r0 (o&O&_). revert O. apply loop_hangs. }
    assert (Y : forall r, ~ CacheSpec.hydrated (services_of loop_world) "f" r) by (intros r0 [m Hd|Hd|f r1 Hd _]; exact (D _ Hd)).
    destruct E as [[(m&Hm&_)|[(Hm&_)|(h&a&Hm&_)]]|[(_&f&m&Hf&_)|(_&h&m&Hm&_)]]; try exact (Y _ Hm). exact (D _ Hf).
Qed.
Print Assumptions C128_refuted.

(** The hypotheses of C128 are met by the folder of C127. *)
Example C128_example : (forall b, w_entry pair_world b <> Panic) /\ no_circles pair_world "f" /\ exists s, history pair_world s /\ In (CacheModel.RRender "f" "zz") (CacheModel.requests s).
Proof.
  split; [discriminate|]. split.
  - intros name file root (b&_&E) EA. cbn in E. injection E as <-.
    assert (root = pair_root) as -> by (eapply entry_root; [exact pair_entry|exact EA]). intros x t F.
    constructor. intros y (g&t'&G&_&IM). exfalso.
    pose proof (pair_followed _ _ F) as [-> ->]. apply followed_at_local in F as [_ F]. assert (g = pair_schema) as -> by (eapply document_fun; eauto).
    destruct IM as [[(z&Hz&(?&?&?&Nz)&_) _]|(ns&z&Hz&(?&?&?&Nz)&_)]; simpl in Hz; repeat destruct Hz as [<-|Hz]; try contradiction; discriminate Nz.
  - destruct pair_hydrated as (f&D&Y&_).
    destruct (ask_twice pair_world "f" f pair_report D Y "zz" ltac:(split; discriminate) _ pair_missing) as (c&Q).
    destruct (CacheProps.history_of _ _ _ _ _ Q) as (s&R&_&RQ&_). exists s. cbn [map fst] in RQ. split.
    + exists false, true. split; auto. apply (one_request s "zz"); [auto|cbn; repeat split; discriminate|discriminate].
    + rewrite RQ. now left.
Qed.
