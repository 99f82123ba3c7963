(** * OpenProps: C152 (what is on offer can be opened) *)
From Verif Require Import GoBase GoSpec GoFacts AttrModel AttrSpec AttrProofs SchemaModel SchemaSpec SchemaProofs SchemaProps
  LinkbaseModel LinkbaseSpec LinkbaseProofs LinkbaseProps InstanceModel InstanceSpec InstanceProofs InstanceProps
  HydrateModel HydrateSpec HydrateProofs HydrateProps LabelModel LabelSpec LabelProofs LabelProps PeriodModel PeriodSpec PeriodProofs PeriodProps
  FactModel FactSpec FactProofs FactProps GridModel GridSpec GridProofs GridProps CalcModel CalcSpec CalcProofs CalcProps DefModel DefSpec DefProofs DefProps
  RenderModel RenderSpec RenderProofs RenderProps ExpressModel ExpressSpec ExpressProofs ExpressProps
  DiscoverModel DiscoverSpec DiscoverProofs DiscoverProps XmlModel XmlSpec XmlProofs XmlProps LoadModel LoadSpec LoadProofs LoadProps
  CatalogModel CatalogSpec CatalogProofs CatalogProps ReportModel ResponseModel ResponseSpec ResponseProofs ResponseProps EndToEndSpec EndToEndProps
  ReportSpec ReportProofs ReportProps AskSpec AskProps ImageModel ImageSpec ImageProofs ImageProps
  WebModel WebSpec WebProofs WebProps PathSpec RouterModel RouterSpec RouterProofs RouterProps.
From Verif Require CacheModel CacheSpec CacheProofs CacheProps.
From Verif Require Import ServerModel ServerSpec ServerProps ServedProps LifeProps OpenSpec.
Local Open Scope string_scope.

(** ** A sound folder loads, in every order and on every schedule *)
Section Sound.
  Variable w : world.
  Notation sv := (services_of w).

  Lemma sound_hydrated id r : sound w id -> CacheSpec.hydrated sv id r -> exists rep, r = Ok rep.
  Proof.
    intros (name&file&root&EN&EA&SC&IL&u&EU) H. destruct EN as (b&F&E).
    assert (EF : entry_file_name w id = Ok name) by (unfold entry_file_name; now rewrite F, E).
    assert (EI : entry_instance (files_of (w_disk w)) (folder_at w id) name file (instance_struct root)) by (apply entry_iff; eauto).
    assert (K : forall r0, discovered w id r0 -> exists fd, r0 = Ok (Found fd (bytes_of w id fd)) /\
      discover (files_of (w_disk w)) (folder_at w id) (Ok name) (match images_of w id with [] => false | _ => true end) (Ok fd)).
    { intros r0 (o&D&->). rewrite EF in D. pose proof D as D'. apply (discover_iff _ _ _ _ _ _ _ EI) in D' as (s&_&_&->). eexists. split; [reflexivity|exact D]. }
    inversion H as [m D|D|f r' D Y]; subst.
    - apply K in D as (?&?&_). discriminate.
    - apply K in D as (?&?&_). discriminate.
    - apply K in D as (fd&[= ->]&D). destruct Y as (sh&doc&SH&HD&_&->). cbn [fo_folder fo_bytes] in *.
      destruct (C118_loads_partial (w_disk w) (folder_at w id) root name file _ (w_float w) sh (w_tokens w) u EA SC IL fd D) as (h&(fd'&doc'&D'&HD'&HH)&HF).
      pose proof HH as HC. apply C79_complete in HC as (HF'&A1&A2&A3&A4&A5&A6&A7&A8). rewrite HF' in HF. subst fd'.
      assert (DOC : exists x, doc = Ok x).
      { assert (N : supported name) by (destruct EA as ([[N _]|[N _]]&_); [now left|now right]).
        destruct (C102_instance_partial _ _ _ _ _ N D) as (file'&i&EI'&FI&ID&ND).
        destruct N as [IN|IN]; [|rewrite (ND IN) in HD; inversion HD; eauto].
        destruct (ID IN) as (data&dc&A&B&EQ). rewrite EQ in HD. cbn [files_of decode_ixbrl read_file] in A, B.
        destruct (d_html (w_disk w) data) as [q|] eqn:Q; [|discriminate]. destruct (decode_inline (Some q)) as [s|] eqn:S; [|discriminate].
        injection B as <-. destruct (IL IN data q A Q) as (DH&CF&NP).
        destruct (C111_facts_partial q doc) as (doc0&->&_); auto; [exists s; auto|]. eauto. }
      destruct DOC as (x&->). unfold hydrating. cbn [fo_folder].
      assert (HX : hydrate (w_float w) sh (d_url (w_disk w)) (global_schema_file (w_disk w)) (w_tokens w) (o_units (w_out w)) (Ok x) fd =
        Ok (Hydratable fd u x (hInstances h) (hSchemas h) (hLabel h) (hPresentation h) (hDefinition h) (hCalculation h))).
      { apply C79_complete. cbn. split; [reflexivity|]. split; [exact A1|]. split; [exact A2|]. split; [exact A3|]. split; [exact A4|]. split; [exact A5|].
        split; [exact A6|]. split; [exact EU|reflexivity]. }
      rewrite HX. cbn [bind]. eauto.
  Qed.

  (** ** From the address to the call, whatever the answer *)
  Notation state := (CacheModel.state report schema (list (string * list (string * string))) registry).
  Lemma ask_catalog detect files (s : state) id query a : entry_name_ok id ->
    exchanged detect files s "GET" ("/folders/" ++ id) query a ->
    exists r x, a = Answer x /\ reflects r x /\ CacheModel.answered s (CacheModel.RCatalog id) (CacheSpec.sent r).
  Proof.
    intros I (v&_&E&C). pose proof (folder_tidy _ I) as T. pose proof (entry_part _ I) as P.
    destruct (C123_get detect v _ query (CatalogOf id) T (ad_catalog _ id P eq_refl)) as (x&E'&R). rewrite <- E in E'. exists (svCatalog v id), x.
    split; auto. split; auto. apply (C (CacheModel.RCatalog id)).
    split; [now apply clean_tidy|]. rewrite try_table, to_id by auto. cbn [String.eqb Ascii.eqb]. reflexivity.
  Qed.
  Lemma ask_renderable detect files (s : state) id slug query a : entry_name_ok id -> entry_name_ok slug -> slug <> "facts" ->
    exchanged detect files s "GET" ("/folders/" ++ id ++ "/" ++ slug) query a ->
    exists r x, a = Answer x /\ reflects r x /\ CacheModel.answered s (CacheModel.RRender id slug) (CacheSpec.sent r).
  Proof.
    intros I J N (v&_&E&C). pose proof (network_tidy _ _ I J) as T. pose proof (entry_part _ I) as P. pose proof (entry_part _ J) as Q.
    destruct (C123_get detect v _ query (RenderableOf id slug) T (ad_renderable _ id slug P Q N eq_refl)) as (x&E'&R). rewrite <- E in E'.
    exists (svRenderable v id slug), x. split; auto. split; auto. apply (C (CacheModel.RRender id slug)).
    split; [now apply clean_tidy|]. rewrite try_table, to_deep by auto.
    destruct (String.eqb_spec slug "facts"); [contradiction|]. rewrite seg_part0, part_nonempty by auto. reflexivity.
  Qed.
  Lemma ask_fact detect files (s : state) id query vs n c n' c' a : entry_name_ok id ->
    query_fields query vs -> field vs "name" n -> field vs "contextref" c -> encodes n' n -> encodes c' c ->
    exchanged detect files s "GET" ("/folders/" ++ id ++ "/facts") query a ->
    exists r x, a = Answer x /\ reflects r x /\ CacheModel.answered s (CacheModel.RFact id n' c') (CacheSpec.sent r).
  Proof.
    intros I QF FN FC EN EC (v&_&E&C).
    assert (T : tidy ("/folders/" ++ id ++ "/" ++ "facts")) by (apply network_tidy; auto; repeat split; discriminate).
    change ("/" ++ "facts") with "/facts" in T. pose proof (entry_part _ I) as P.
    destruct (C123_get detect v _ query (FactsOf id) T (ad_facts _ id P eq_refl)) as (x&E'&R). rewrite <- E in E'.
    destruct R as [_ R]. destruct (R _ _ _ QF FN FC) as [_ R']. specialize (R' _ _ EN EC). clear R.
    exists (svExpressable v id n' c'), x. split; auto. split; auto. apply (C (CacheModel.RFact id n' c')).
    split; [now apply clean_tidy|]. rewrite try_table. rewrite (to_deep _ id "facts") by auto.
    cbn [String.eqb Ascii.eqb]. exists vs, n', c'. split; [now apply parse_query_iff|].
    rewrite (field_unique _ _ _ _ (values_get_field "name" vs) FN), (field_unique _ _ _ _ (values_get_field "contextref" vs) FC).
    split; [now apply unescape_iff|]. split; [now apply unescape_iff|]. reflexivity.
  Qed.

  (** ** What an answer is about *)
  Definition wanted (q : CacheModel.request) : report -> res (option string) -> Prop :=
    match q with
    | CacheModel.RCatalog _ => fun rep => marshalled_catalog (out w) (rp_hydratable rep)
    | CacheModel.RRender _ slug => CacheSpec.document_or_renderable sv slug
    | CacheModel.RFact _ name ref => fun rep => marshalled_expressable (out w) (rp_hydratable rep) name ref
    | _ => fun _ _ => False
    end.
  Lemma answered_by (s : state) q id a : history w s -> folder_of_request q = Some id -> CacheModel.answered s q (CacheSpec.sent a) ->
    (exists rep, CacheSpec.hydrated sv id (Ok rep) /\ wanted q rep a) \/
    (a = Ok None /\ exists rep m, CacheSpec.hydrated sv id (Ok rep) /\ wanted q rep (Err m)) \/
    (exists m, a = Err m /\ CacheSpec.hydrated sv id (Err m)) \/
    (a = Panic /\ (CacheSpec.hydrated sv id Panic \/ exists m, CacheSpec.hydrated sv id (Err m))).
  Proof.
    intros (dry&injected&R&U&C) FR A.
    assert (E := CacheProps.explained_of sv dry injected s q _ R (CacheProofs.usual_separate _ U C) A).
    assert (INJ : forall x y : res (option string), CacheSpec.sent (hyd := report) (schema := schema) (names := list (string * list (string * string))) (utr := registry) x = CacheSpec.sent y -> x = y).
    { intros [x| |] [y| |]; cbn; congruence. }
    assert (K : CacheSpec.served sv id (wanted q) (CacheSpec.sent a) \/ CacheProofs.masked sv id (CacheProofs.respond sv q) (CacheSpec.sent a)).
    { destruct q; try discriminate; injection FR as ->; destruct E as [E|E]; auto. }
    destruct K as [[(m&H&X)|[(H&X)|(rep&b&H&P&X)]]|[(X&f&m&D&H)|(X&rep&m&H&P)]].
    - right; right; left. exists m. destruct a; cbn in X; try discriminate. injection X as ->. auto.
    - do 3 right. destruct a; cbn in X; try discriminate. auto.
    - left. exists rep. apply INJ in X. now subst.
    - do 3 right. split; [destruct a; cbn in X; congruence|]. right. exists m. eapply CacheSpec.hy_found; eauto.
    - right; left. split; [destruct a as [[|]| |]; cbn in X; congruence|]. exists rep, m. split; [exact H|]. destruct q; try discriminate; exact P.
  Qed.
End Sound.

(** ** Two loads of one folder name the same entities and roles *)
Lemma collectM_from {A B} (f : A -> res (option B)) l l' y : collectM f l = Ok l' -> In y l' -> exists x, In x l /\ f x = Ok (Some y).
Proof.
  revert l'. induction l as [|a l IH]; intros l'; cbn [collectM]; [intros [= <-] []|].
  destruct (f a) as [o| |] eqn:E; cbn [bind]; try discriminate. destruct (collectM f l) as [ys| |]; cbn [bind]; try discriminate.
  intros [= <-] H. destruct o as [b|]; [destruct H as [->|H]; [exists a; simpl; auto|]|]; destruct (IH ys eq_refl H) as (x&Hx&Ex); exists x; simpl; auto.
Qed.
Lemma context_named q q' tokens attrs e c o : hydrate_context q tokens attrs e = Ok (Some c) -> hydrate_context q' tokens attrs e = Ok o ->
  exists c', o = Some c' /\ ctxScheme c' = ctxScheme c /\ ctxIdentifier c' = ctxIdentifier c.
Proof.
  unfold hydrate_context. destruct (negb _); [discriminate|]. destruct (req _ _) as [i|]; [|discriminate].
  destruct (cx_entity e) as [|en ?]; [discriminate|]. destruct (en_identifier en) as [|idt ?]; [discriminate|].
  destruct (String.eqb (etext idt) ""); [discriminate|]. destruct (find_attr _ _) as [a|]; [|discriminate].
  destruct (hydrate_dim_context false q _ _ _) as [s1| |]; cbn [bind]; try discriminate.
  destruct (hydrate_dim_context true q _ _ _) as [s2| |]; cbn [bind]; try discriminate.
  destruct (hydrate_dim_context false q' _ _ _) as [s3| |]; cbn [bind]; try discriminate.
  destruct (hydrate_dim_context true q' _ _ _) as [s4| |]; cbn [bind]; try discriminate.
  destruct (match cx_period e with [] => _ | _ => _ end) as [instant [st en']].
  intros [= <-] [= <-]. eexists. split; [reflexivity|]. now split.
Qed.
Lemma entities_fixed q q' tokens f file i i' e : hydrate_instance q tokens (Some f) file = Ok i -> hydrate_instance q' tokens (Some f) file = Ok i' ->
  CatalogSpec.reported [i] e -> CatalogSpec.reported [i'] e.
Proof.
  unfold hydrate_instance, hydrate_contexts. destruct (negb _); [discriminate|].
  destruct (collectM (hydrate_context q _ _) _) as [l| |] eqn:C; cbn [bind]; try discriminate.
  destruct (collectM (hydrate_context q' _ _) _) as [l'| |] eqn:C'; cbn [bind]; try discriminate.
  intros [= <-] [= <-] (j&c&[<-|[]]&Hc&N1&N2&E1&E2). cbn [iContexts] in Hc. apply isort_in in Hc.
  destruct (collectM_from _ _ _ _ C Hc) as (x&Hx&Ex). destruct (collectM_each _ _ _ _ C' Hx) as (o&Eo).
  destruct (context_named _ _ _ _ _ _ _ Ex Eo) as (c'&->&S1&S2).
  eexists. exists c'. split; [left; reflexivity|]. cbn [iContexts]. split; [|split; [exact N1|split; [exact N2|split; congruence]]].
  apply isort_in. eapply collectM_keeps; eauto.
Qed.
Lemma entry_named_one w id name name' : entry_named w id name -> entry_named w id name' -> name' = name.
Proof. intros (b&F&E) (b'&F'&E'). congruence. Qed.
Lemma loads_alike w id name name' h h' : supported name -> report_of w id name h -> report_of w id name' h' ->
  (forall e, CatalogSpec.reported (map snd (hInstances h)) e -> CatalogSpec.reported (map snd (hInstances h')) e) /\
  (forall r, CatalogSpec.declared (map snd (hSchemas h)) r -> CatalogSpec.declared (map snd (hSchemas h')) r).
Proof.
  intros N (EN&im&sh&_&L) (EN'&im'&sh'&_&L'). pose proof (entry_named_one _ _ _ _ EN EN') as ->.
  destruct (loaded_parts _ _ _ _ _ _ _ _ _ N L) as (file&root&fd&doc&EA&FI&S&_&_&_&_&_&_&_&_&H).
  destruct (loaded_parts _ _ _ _ _ _ _ _ _ N L') as (file'&root'&fd'&doc'&EA'&FI'&S'&_&_&_&_&_&_&_&_&H').
  assert (root' = root) as -> by (eapply entry_root; eauto).
  assert (file' = file) as ->.
  { destruct EA as (A&_), EA' as (A'&_). assert (X : inline_name name -> instance_name name -> False) by (intros I J; apply inline_iff in I; apply instance_iff in J; destruct I, J; congruence).
    destruct A as [[I ->]|[I ->]], A' as [[I' ->]|[I' ->]]; auto; now elim X. }
  apply C79_complete in H as (_&HS&_&_&_&_&HI&_). apply C79_complete in H' as (_&HS'&_&_&_&_&HI'&_). split.
  - destruct (one_loaded _ _ _ HI _ _ FI) as (i&E&HY). destruct (one_loaded _ _ _ HI' _ _ FI') as (i'&E'&HY'). rewrite E, E'. cbn [map snd].
    intro e. eapply entities_fixed; eauto.
  - apply all_loaded_In in HS as [HS _]. apply all_loaded_In in HS' as [_ HS'].
    intros r (s&t&Hs&Ht&R). apply in_map_iff in Hs as ([x s']&<-&Hs). cbn [snd] in Ht.
    destruct (HS _ _ Hs) as (f&Hf&E). apply S in Hf. apply S' in Hf. destruct (HS' _ _ Hf) as (b&Hb&E'). rewrite E in E'. injection E' as <-.
    exists s', t. split; [|auto]. apply in_map_iff. exists (x, s'). auto.
Qed.
Lemma lists_alike w id name name' h h' insts insts' schemas schemas' : supported name -> report_of w id name h -> report_of w id name' h' ->
  visited (hInstances h) insts -> visited (hSchemas h) schemas -> visited (hInstances h') insts' -> visited (hSchemas h') schemas' ->
  sorted_entities insts' = sorted_entities insts /\ sorted_relationship_sets schemas' = sorted_relationship_sets schemas.
Proof.
  intros N R R' VI VS VI' VS'. assert (N' : supported name') by (destruct R as [A _], R' as [A' _]; now rewrite (entry_named_one _ _ _ _ A A')).
  destruct (loads_alike _ _ _ _ _ _ N R R') as [E1 E2]. destruct (loads_alike _ _ _ _ _ _ N' R' R) as [E3 E4].
  rewrite <- (entities_perm _ _ VI), <- (entities_perm _ _ VI'), <- (rsets_perm _ _ VS), <- (rsets_perm _ _ VS'). split.
  - eapply canonical_unique; [apply entities_canonical|]. destruct (entities_canonical (map snd (hInstances h))) as [E S]. split; auto.
    intro x. rewrite E. split; auto.
  - eapply canonical_unique; [apply rsets_canonical|]. destruct (rsets_canonical (map snd (hSchemas h))) as [E S]. split; auto.
    intro x. rewrite E. split; auto.
Qed.

(** ** C152: what is on offer can be opened *)
Lemma sound_supported w id name h : sound w id -> report_of w id name h -> supported name.
Proof.
  intros (n&file&root&EN&EA&_) [EN' _]. rewrite (entry_named_one _ _ _ _ EN EN'). destruct EA as ([[N _]|[N _]]&_); [now left|now right].
Qed.
(** The catalog of a sound folder is sent whenever it is asked for: never an error, a cut
    connection or an empty answer, whatever was asked before or is being asked at the same time. *)
Theorem C152_catalog_partial : forall w detect files s id query a, history w s -> entry_name_ok id -> sound w id ->
  exchanged detect files s "GET" ("/folders/" ++ id) query a ->
  exists p v, a = Answer (Some p) /\ status p = 200 /\ reads_as (body p) v.
Proof.
  intros w detect files s id query a H I SO X. destruct (ask_catalog _ _ _ _ _ _ I X) as (r&x&->&RF&A).
  pose proof (sound_hydrated w id) as SH.
  destruct (answered_by w s (CacheModel.RCatalog id) id r H eq_refl A) as [(rep&HY&W)|[(_&rep&m&HY&W)|[(m&_&HY)|(_&[HY|(m&HY)])]]].
  - destruct W as (insts&schemas&_&_&->). destruct RF as (p&->&ST&BD). cbn [content] in BD.
    destruct (C119_catalog (marshal_catalog (o_names (out w)) insts schemas (match hDocument (rp_hydratable rep) with Some _ => true | None => false end) (fdEntry (hFolder (rp_hydratable rep))))) as (v&J&_).
    exists p, v. split; auto. split; auto. now rewrite BD.
  - destruct W as (?&?&_&_&E). discriminate E.
  - destruct (SH _ SO HY). discriminate.
  - destruct (SH _ SO HY). discriminate.
  - destruct (SH _ SO HY). discriminate.
Qed.
Print Assumptions C152_catalog_partial.

(** And every network that a catalog of it has ever offered is sent whenever it is asked for, if the
    entity names can be read. The two requests may be of two histories: of the same process, in any
    order, or of two processes that see the same files. *)
Theorem C152_opens_partial : forall w detect files s s' id query query' p v k role slug a tbl, history w s -> history w s' ->
  entry_name_ok id -> sound w id -> o_names (w_out w) = Ok tbl ->
  exchanged detect files s "GET" ("/folders/" ++ id) query (Answer (Some p)) -> status p = 200 -> reads_as (body p) v ->
  part v ["Networks"; k; role] (JStr slug) ->
  exchanged detect files s' "GET" ("/folders/" ++ id ++ "/" ++ slug) query' a ->
  exists p' v' e r, a = Answer (Some p') /\ status p' = 200 /\ reads_as (body p') v' /\ is_slug e r slug /\
    has v' "RelationshipSet" (relationship_set r) /\ has v' "Subject" (fun u => has u "Entity" (entity_value e)).
Proof.
  intros w detect files s s' id query query' p v k role slug a tbl H H' I SO NM X ST RA PV X'.
  assert (B : body p <> "") by (destruct RA as [J _]; exact (json_nonempty _ _ J)).
  apply get_catalog in X; auto. apply (uncached_content w s _ _ H) in X as (rep&HY&M).
  apply hydrated_report in HY as (name&R&_). pose proof (sound_supported _ _ _ _ SO R) as N.
  destruct M as (insts&schemas&VI&VS&E). injection E as E. change (o_names (out w)) with (o_names (w_out w)) in E. rewrite NM in E.
  set (c := marshal_catalog _ _ _ _ _) in E.
  assert (V : catalog_value c v).
  { rewrite E in RA. destruct (C119_catalog c) as (v'&[J _]&V'). destruct RA as [_ U]. apply U in J. now subst v'. }
  change ["Networks"; k; role] with (["Networks"] ++ [k] ++ [role])%list in PV.
  apply part_app in PV as (n&Pn&PV). apply part_app in PV as (m&Pm&PV).
  eapply object_member in V as (y&Y&EY); [|distinct|right; right; left; reflexivity].
  apply EY, part_nil in Pn. subst y.
  apply (map_of_member _ _ _ _ _ Y) in Pm as (key&net&Hn&Rm). apply (map_of_member _ _ _ _ _ Rm) in PV as (ro&sl&Hs&(t&Et&_&T)).
  injection Et as <-.
  assert (GK : sget key (caNetworks c) = Some net).
  { apply In_mget; auto using seqP. apply fold_sset_NoDup. constructor. }
  assert (GN : sget ro net = Some sl).
  { apply In_mget; auto using seqP. apply fold_sset_In in Hn as [[]|(e&_&_&->)]. apply fold_sset_NoDup. constructor. }
  destruct (C09_every_slug_opens _ (fun _ _ => tt) (Ok tbl) insts schemas _ _ key net ro sl GK GN) as (e&r&RE&DR&S&_).
  assert (slug = sl) as -> by (apply T; eapply slug_text; eauto). destruct (slug_part _ _ _ S) as [SE NF].
  destruct (ask_renderable _ _ _ _ _ _ _ I SE NF X') as (res'&x&->&RF&A).
  pose proof (sound_hydrated w id) as SH.
  assert (ND : forall rep', ~ CacheSpec.names_document (services_of w) sl rep').
  { intros rep' [_ (base&BE)]. pose proof (C11_alphabet _ _ _ S "."%char) as AL.
    assert (Hd : In "."%char (list_ascii_of_string sl)).
    { destruct BE as [-> | ->]; clear; induction base as [|a base IH]; cbn; auto. }
    apply AL in Hd. cbn in Hd. repeat (destruct Hd as [Hd|Hd]; [discriminate Hd|]). exact Hd. }
  assert (F : forall rep' o, CacheSpec.hydrated (services_of w) id (Ok rep') -> wanted w (CacheModel.RRender id sl) rep' o ->
    exists e' r' g nm rs ls calc, is_slug e' r' sl /\ o = Ok (Some (jrenderable calc (Renderable r' (Subject nm e') (g, rs, ls))))).
  { intros rep' o HY' W. cbn [wanted] in W. destruct W as [[W _]|[_ W]]; [now apply ND in W|].
    apply hydrated_report in HY' as (name'&R'&_). cbn in W.
    assert (Q : forall insts' schemas', visited (hInstances (rp_hydratable rep')) insts' -> visited (hSchemas (rp_hydratable rep')) schemas' ->
      find_slug sl (sorted_entities insts') (sorted_relationship_sets schemas') <> None).
    { intros insts' schemas' VI' VS' FN. destruct (lists_alike _ _ _ _ _ _ _ _ _ _ N R R' VI VS VI' VS') as [E1 E2]. rewrite E1, E2 in FN.
      rewrite find_slug_None in FN. destruct (entities_canonical insts) as [EE _]. destruct (rsets_canonical schemas) as [ER _].
      apply (FN e r); [now apply EE|now apply ER|exact S]. }
    inversion W as [insts' schemas' VI' VS' FN|insts' schemas' e' r' pg dg cg conf VI' VS' FN P D C NP ND' NC RS RD]; [now apply Q in FN|].
    unfold marshal_renderable. rewrite FN. change (o_names (out w)) with (o_names (w_out w)). rewrite NM.
    assert (EQ : exists nm, entity_query (Ok tbl) (eScheme e') (eChar e') = Ok nm).
    { unfold entity_query. cbn [bind]. destruct (sget _ tbl) as [z|]; [destruct (sget _ z)|]; eauto. }
    destruct EQ as (nm&->). unfold renderable_bytes. cbn [bind rnSet].
    destruct (rendered _ _ _ _ _) as [[g rs] ls] eqn:ER. apply find_slug_first, first_such_In in FN as [_ FN].
    exists e', r', g, nm, rs, ls. eexists. split; [exact FN|]. reflexivity. }
  destruct (answered_by w s' (CacheModel.RRender id sl) id res' H' eq_refl A) as [(rep'&HY'&W)|[(_&rep'&mm&HY'&W)|[(mm&_&HY')|(_&[HY'|(mm&HY')])]]].
  - destruct (F _ _ HY' W) as (e'&r'&g&nm&rs&ls&calc&S'&->). destruct RF as (p'&->&ST'&BD). cbn [content] in BD.
    destruct (C119_renderable calc r' (Subject nm e') g rs ls) as (v'&J&W').
    exists p', v', e', r'. split; auto. split; auto. split; [rewrite BD; exact J|]. split; auto. split.
    + eapply has_member; [exact W'|left; reflexivity].
    + destruct (has_member _ _ "Subject" _ W' (or_intror (or_introl eq_refl))) as (u&Pu&Su). exists u. split; auto.
      eapply has_member; [exact Su|right; left; reflexivity].
  - destruct (F _ _ HY' W) as (e'&r'&g&nm&rs&ls&calc&S'&E'). discriminate E'.
  - destruct (SH _ SO HY'). discriminate.
  - destruct (SH _ SO HY'). discriminate.
  - destruct (SH _ SO HY'). discriminate.
Qed.
Print Assumptions C152_opens_partial.

(** The document of a sound inline folder is sent under its own name. *)
Theorem C152_document_partial : forall w detect files s id name query a, history w s -> entry_name_ok id -> entry_name_ok name -> sound w id ->
  entry_named w id name -> inline_name name ->
  exchanged detect files s "GET" ("/folders/" ++ id ++ "/" ++ name) query a ->
  exists p, a = Answer (Some p) /\ status p = 200 /\ document_sent w id name (body p).
Proof.
  intros w detect files s id name query a H I J SO EN IN X.
  assert (EX : exists base, name = base ++ ".xhtml" \/ name = base ++ ".htm").
  { destruct IN as [(b&->)|(b&->)]; eauto. }
  assert (NF : name <> "facts").
  { intros ->. apply inline_iff in IN. destruct IN as [E|E]; discriminate E. }
  destruct (ask_renderable _ _ _ _ _ _ _ I J NF X) as (r&x&->&RF&A). pose proof (sound_hydrated w id) as SH.
  assert (F : forall rep o, CacheSpec.hydrated (services_of w) id (Ok rep) -> wanted w (CacheModel.RRender id name) rep o ->
    exists b, o = Ok (Some b) /\ document_sent w id name b).
  { intros rep o HY W. pose proof HY as HY'. apply hydrated_report in HY' as (name'&R&BY&FE&_).
    pose proof R as [EN' (images&sh&_&L)]. pose proof (entry_named_one _ _ _ _ EN EN') as ->.
    destruct (loaded_parts _ _ _ _ _ _ _ _ _ (or_introl IN) L) as (file&root&fd&doc&_&_&_&_&_&_&_&_&IL&_&_&HH).
    apply C79_complete in HH as (HF&_). destruct (IL IN) as (data&q&sr&DF&_&_&FD). rewrite <- HF in FD.
    unfold bytes_of in BY. rewrite FD, FE in BY. change (working_dir w id) with (folder_at w id) in BY. 
    cbn [wanted] in W. destruct W as [[_ W]|[W _]].
    2:{ exfalso. apply W. split; [exact FE|exact EX]. }
    cbn in W. rewrite BY in W. pose proof (document_sent_of w id name) as DS. change (working_dir w id) with (folder_at w id) in DS.
    rewrite DF in W, DS. cbn [option_map] in W, DS. eexists. split; [exact W|]. now apply DS. }
  destruct (answered_by w s (CacheModel.RRender id name) id r H eq_refl A) as [(rep&HY&W)|[(_&rep&m&HY&W)|[(m&_&HY)|(_&[HY|(m&HY)])]]].
  - destruct (F _ _ HY W) as (b&->&DS). destruct RF as (p&->&ST&BD). exists p. split; auto. split; auto. rewrite BD. exact DS.
  - destruct (F _ _ HY W) as (b&E&_). discriminate E.
  - destruct (SH _ SO HY). discriminate.
  - destruct (SH _ SO HY). discriminate.
  - destruct (SH _ SO HY). discriminate.
Qed.
Print Assumptions C152_document_partial.

(** A fact that the inline document of a sound folder names is sent, whatever of it is asked for in between. *)
Theorem C152_fact_partial : forall w detect files s id query vs n c k ref a name file root data q, history w s -> entry_name_ok id -> sound w id ->
  query_fields query vs -> field vs "name" n -> field vs "contextref" c -> encodes k n -> encodes ref c ->
  entry_named w id name -> inline_name name -> entry_at (w_disk w) (folder_at w id) root name file ->
  d_file (w_disk w) (PathModel.join [folder_at w id; name]) = Some data -> d_html (w_disk w) data = Some q ->
  well_written (w_disk w) (folder_at w id) root -> declared_at_html q -> conforming_facts q ->
  (forall facts contexts qe, understands (w_disk w) (folder_at w id) root qe -> facts_written (w_disk w) (folder_at w id) root facts ->
     contexts_written root qe (content_of qe (w_tokens w) (attributes root)) contexts -> AskSpec.simple facts contexts /\
     exists n fa c, names_fact q k n /\ names_context q ref /\ fact_named (LoadSpec.declared (w_disk w) (folder_at w id) root) root facts n ref fa c) ->
  exchanged detect files s "GET" ("/folders/" ++ id ++ "/facts") query a ->
  exists p v, a = Answer (Some p) /\ status p = 200 /\ reads_as (body p) v.
Proof.
  intros w detect files s id query vs n c k ref a name file root data q H I SO QF FN FC EK EC EN IN EA DF DH WW DA CF FA X.
  destruct (ask_fact _ _ _ _ _ _ _ _ _ _ _ I QF FN FC EK EC X) as (r&x&->&RF&A). pose proof (sound_hydrated w id) as SH.
  assert (F : forall rep o, CacheSpec.hydrated (services_of w) id (Ok rep) -> wanted w (CacheModel.RFact id k ref) rep o ->
    exists b v, o = Ok (Some b) /\ reads_as b v).
  { intros rep o HY W. apply hydrated_report in HY as (name'&R&_). pose proof R as [EN' (images&sh&_&L)]. pose proof (entry_named_one _ _ _ _ EN EN') as ->.
    destruct (C126_answer_partial _ _ _ _ _ _ _ _ _ IN L) as (file'&root'&data'&q'&EA'&DF'&DH'&K).
    assert (root' = root) as -> by (eapply entry_root; eauto). rewrite DF in DF'. injection DF' as <-. rewrite DH in DH'. injection DH' as <-.
    destruct (K WW DA CF) as (facts&contexts&qe&U&FW&CW&B). destruct (FA facts contexts qe U FW CW) as [SI EX].
    destruct (B (out w) k ref eq_refl eq_refl) as [B1 B2]. destruct (B2 SI) as [_ B3]. cbn [wanted] in W.
    destruct (B3 _ W) as [_ [_ B4]]. destruct (B4 EX) as (b&->). destruct (B1 _ W) as (?&?&?&?&v&_&_&_&_&J&_). eauto. }
  destruct (answered_by w s (CacheModel.RFact id k ref) id r H eq_refl A) as [(rep&HY&W)|[(_&rep&m&HY&W)|[(m&_&HY)|(_&[HY|(m&HY)])]]].
  - destruct (F _ _ HY W) as (b&v&->&J). destruct RF as (p&->&ST&BD). exists p, v. split; auto. split; auto. rewrite BD. exact J.
  - destruct (F _ _ HY W) as (b&?&E&_). discriminate E.
  - destruct (SH _ SO HY). discriminate.
  - destruct (SH _ SO HY). discriminate.
  - destruct (SH _ SO HY). discriminate.
Qed.
Print Assumptions C152_fact_partial.

(** Whatever the folder: where a catalog is refused, the answer has the reason for which the folder could
    not be loaded; and where the connection is cut, it could not be loaded either. *)
Theorem C152_refused : forall w detect files s id query x, history w s -> entry_name_ok id ->
  exchanged detect files s "GET" ("/folders/" ++ id) query (Answer x) ->
  match x with
  | None => CacheSpec.hydrated (services_of w) id Panic \/ exists m, CacheSpec.hydrated (services_of w) id (Err m)
  | Some p => (status p = 200 /\ body p <> "") \/
      (status p = 500 /\ exists m, body p = "Error: " ++ m ++ String (ascii_of_nat 10) "" /\ CacheSpec.hydrated (services_of w) id (Err m))
  end.
Proof.
  intros w detect files s id query x H I X. destruct (ask_catalog _ _ _ _ _ _ I X) as (r&x'&[= <-]&RF&A).
  destruct (answered_by w s (CacheModel.RCatalog id) id r H eq_refl A) as [(rep&HY&W)|[(_&rep&m&HY&W)|[(m&->&HY)|(->&HY)]]].
  - destruct W as (insts&schemas&_&_&->). destruct RF as (p&->&ST&BD). left. split; auto. rewrite BD. cbn [content].
    destruct (C119_catalog (marshal_catalog (o_names (out w)) insts schemas (match hDocument (rp_hydratable rep) with Some _ => true | None => false end) (fdEntry (hFolder (rp_hydratable rep))))) as (v&[J _]&_).
    exact (json_nonempty _ _ J).
  - destruct W as (?&?&_&_&E). discriminate E.
  - destruct RF as (p&->&ST&BD). right. split; eauto.
  - cbn in RF. subst x. exact HY.
Qed.
Print Assumptions C152_refused.

(** *** The folder of C127, with and without a file of entity names *)
Definition pair_named (names : res (list (string * list (string * string)))) : world :=
  World pair_disk "/wd" (fun _ => Ok "x.xml") (fun _ => None) (fun _ => "") (fun _ => "") (fun _ => None) (fun _ => None) ex_pf ex_tokens
    (Outside (d_url pair_disk) (global_schema_file pair_disk) (Ok []) names sample_tree (fun _ => []) (fun _ _ _ => None) (fun _ => None) (fun _ => "") (fun _ => None)).
Lemma pair_simple : simple_contexts pair_root.
Proof.
  intros x Hx N. assert (x = a_context) as ->.
  { cbn [kids pair_root xbrl_doc] in Hx. destruct N as (s&?&?&?&N). repeat destruct Hx as [<-|Hx]; try destruct Hx; try discriminate N; reflexivity. }
  split; [exists (xi "entity" [] [xi "identifier" [pa "scheme" "urn:s"] [txt "0"]]); split; [simpl; auto|do 4 eexists; reflexivity]|]. split.
  - intros y z Hy (?&?&?&?&Ny). exfalso. simpl in Hy. repeat destruct Hy as [<-|Hy]; try destruct Hy; discriminate Ny.
  - intros e y z He (?&?&?&?&Ne) Hy (?&?&?&?&Ny). exfalso. simpl in He. repeat destruct He as [<-|He]; try destruct He; try discriminate Ne.
    simpl in Hy. repeat destruct Hy as [<-|Hy]; try destruct Hy; discriminate Ny.
Qed.
Lemma pair_sound names : sound (pair_named names) "f".
Proof.
  exists "x.xml", "x.xml", pair_root. split; [exists "/wd/folders/f/_"; split; reflexivity|]. split; [exact pair_entry|]. split; [exact pair_simple|].
  split; [intro IN; exfalso; apply inline_iff in IN; destruct IN as [IN|IN]; discriminate IN|]. eexists. reflexivity.
Qed.
Lemma named_hydrated names : exists f, discovered (pair_named names) "f" (Ok f) /\ hydrated_as (pair_named names) f (Ok (Report pair_report (fo_bytes f))) /\ fo_folder f = hFolder pair_report.
Proof.
  apply (loaded_hydrated (pair_named names) "f" "x.xml" plain_order).
  - exact plain_orders.
  - exists "/wd/folders/f/_". split; reflexivity.
  - exact pair_loaded.
Qed.
Lemma listed_one names insts schemas doc entry v e r slug : reads_as (jcatalog (marshal_catalog names insts schemas doc entry)) v ->
  In e (sorted_entities insts) -> sorted_relationship_sets schemas = [r] -> JsonSpec.text (stringify e) -> JsonSpec.text (rsRole r) -> is_slug e r slug ->
  part v ["Networks"; stringify e; rsRole r] (JStr slug).
Proof.
  intros J IE IR TE TR S. destruct (entities_canonical insts) as [EE _]. destruct (rsets_canonical schemas) as [ER _].
  assert (DR : CatalogSpec.declared schemas r) by (apply ER; rewrite IR; now left).
  destruct (C124_listed names insts schemas doc entry v e r J (proj1 (EE e) IE) DR TE TR) as (slug'&r'&P&DR'&_&S').
  apply ER in DR'. rewrite IR in DR'. destruct DR' as [<-|[]]. apply is_slug_iff in S, S'. rewrite S. rewrite S' in P. exact P.
Qed.
Lemma pair_entities : In pair_entity (sorted_entities (map snd (hInstances pair_report))).
Proof. vm_compute. now left. Qed.
Lemma pair_sets : sorted_relationship_sets (map snd (hSchemas pair_report)) = [pair_set].
Proof. vm_compute. reflexivity. Qed.
Lemma pair_text_e : JsonSpec.text (stringify pair_entity).
Proof. replace (stringify pair_entity) with (JsonProofs.san (stringify pair_entity)) by (vm_compute; reflexivity). apply JsonProofs.san_text. Qed.
Lemma pair_text_r : JsonSpec.text (rsRole pair_set).
Proof. replace (rsRole pair_set) with (JsonProofs.san (rsRole pair_set)) by (vm_compute; reflexivity). apply JsonProofs.san_text. Qed.
(** its catalog is asked for and sent, with the network in it *)
Lemma pair_index names : exists files s p v, history (pair_named names) s /\
  exchanged (fun _ => "") files s "GET" "/folders/f" "" (Answer (Some p)) /\ status p = 200 /\ reads_as (body p) v /\
  part v ["Networks"; stringify pair_entity; rsRole pair_set] (JStr pair_slug) /\ files = fun _ _ => None.
Proof.
  destruct (named_hydrated names) as (f&D&Y&_).
  set (c := marshal_catalog names (map snd (hInstances pair_report)) (map snd (hSchemas pair_report))
             (match hDocument pair_report with Some _ => true | None => false end) (fdEntry (hFolder pair_report))).
  assert (M : marshalled_catalog (out (pair_named names)) pair_report (Ok (Some (jcatalog c)))).
  { exists (map snd (hInstances pair_report)), (map snd (hSchemas pair_report)). split; [apply Permutation_refl|]. split; [apply Permutation_refl|reflexivity]. }
  assert (Q : exists m, CacheProofs.sequence (services_of (pair_named names)) false true [] [(CacheModel.RCatalog "f", Ok (CacheModel.VBytes (Some (jcatalog c))))] m).
  { eexists. eapply CacheProofs.seq_cons; [|apply CacheProofs.seq_nil]. cbn [CacheModel.program]. unfold CacheModel.marshal_catalog, CacheModel.with_hydratable.
    eapply CacheProofs.solo_miss; [reflexivity|]. eapply CacheProofs.solo_compute; [exact D|]. cbv beta iota. eapply CacheProofs.solo_call; [exact Y|]. cbv beta iota.
    unfold CacheModel.save. eapply CacheProofs.solo_spawn. eapply CacheProofs.solo_miss; [reflexivity|].
    unfold CacheModel.and_save. eapply CacheProofs.solo_call; [exact M|]. cbv beta iota. unfold CacheModel.save. eapply CacheProofs.solo_spawn.
    eapply CacheProofs.solo_answer. }
  destruct Q as (m&Q). destruct (CacheProps.history_of _ _ _ _ _ Q) as (s&R&_&RQ&A). cbn [map fst] in RQ.
  set (sv := Services (fun _ => Ok (Some (jcatalog c))) (fun _ _ => Panic) (fun _ _ _ => Panic) (fun _ _ => None)).
  assert (I : entry_name_ok "f") by (repeat split; discriminate).
  destruct (C123_get (fun _ => "") sv ("/folders/" ++ "f") "" (CatalogOf "f") (folder_tidy _ I) (ad_catalog _ "f" (entry_part _ I) eq_refl)) as (x&E&p&->&ST&BD).
  destruct (C119_catalog c) as (v&J&_).
  exists (fun _ _ => None), s, p, v. split; [|split; [|split; [exact ST|split; [|split; [|reflexivity]]]]].
  - exists false, true. split; [exact R|]. rewrite RQ. split.
    + intros q [<-|[]]. cbn. repeat split; discriminate.
    + intros i n cc i' n' c' [X|[]]. discriminate X.
  - exists sv. split; [reflexivity|]. split; [symmetry; exact E|]. intros q (_&C).
    assert (q = CacheModel.RCatalog "f") as -> by (vm_compute in C; exact C). apply A. left. reflexivity.
  - rewrite BD. exact J.
  - unfold c in J. exact (listed_one _ _ _ _ _ _ pair_entity pair_set pair_slug J pair_entities pair_sets pair_text_e pair_text_r (hash_slug pair_entity pair_set)).
Qed.
Lemma nameless_refused m : returned_renderable (out (pair_named (Err m))) pair_report pair_slug (Err m).
Proof.
  set (w := out (pair_named (Err m))).
  assert (F : find_slug pair_slug (sorted_entities (own_insts pair_report)) (sorted_relationship_sets (map snd (hSchemas pair_report))) = Some (pair_entity, pair_set)) by (vm_compute; reflexivity).
  destruct (some_end (own_p w pair_report (stringify pair_entity) (rsRole pair_set)) (own_d w pair_report (stringify pair_entity) (rsRole pair_set))
     (own_c w pair_report (stringify pair_entity) (rsRole pair_set))) as (conf&R&DN).
  pose proof (rr_done w pair_report pair_slug (own_insts pair_report) (map snd (hSchemas pair_report)) pair_entity pair_set _ _ _ conf (visited_own _) (visited_own _) F
    (own_p_grids w _ _ _) (own_d_grids w _ _ _) (own_c_grids w _ _ _)) as K.
  unfold marshal_renderable in K. rewrite F in K. cbn [w out pair_named w_out o_names entity_query bind renderable_bytes] in K.
  apply K; [vm_compute; discriminate..|exact R|exact DN].
Qed.
(** C152, refuted without the file of entity names: the catalog offers a network that is then refused. *)
Theorem C152_refuted :
  ~ (forall w detect files s s' id query query' p v k role slug a, history w s -> history w s' ->
       entry_name_ok id -> sound w id -> o_names (w_out w) <> Panic ->
       exchanged detect files s "GET" ("/folders/" ++ id) query (Answer (Some p)) -> status p = 200 -> reads_as (body p) v ->
       part v ["Networks"; k; role] (JStr slug) ->
       exchanged detect files s' "GET" ("/folders/" ++ id ++ "/" ++ slug) query' a ->
       exists p', a = Answer (Some p') /\ status p' = 200).
Proof.
  intro C. set (e := "open names.json: no such file or directory").
  destruct (pair_index (Err e)) as (files&s&p&v&H&X&ST&J&P&->).
  destruct (named_hydrated (Err e)) as (f&D&Y&_).
  assert (SL : is_slug pair_entity pair_set pair_slug) by apply hash_slug. pose proof (slug_part _ _ _ SL) as [SE SF].
  destruct (ask_twice (pair_named (Err e)) "f" f pair_report D Y pair_slug ltac:(vm_compute; split; discriminate) _ (nameless_refused e)) as (m&Q).
  destruct (CacheProps.history_of _ _ _ _ _ Q) as (s'&R&_&RQ&A). cbn [map fst] in RQ.
  assert (I : entry_name_ok "f") by (repeat split; discriminate).
  set (sv := Services (fun _ => Panic) (fun _ _ => Err e) (fun _ _ _ => Panic) (fun _ _ => None)).
  destruct (C123_get (fun _ => "") sv ("/folders/f/" ++ pair_slug) "" (RenderableOf "f" pair_slug)) as (x&E&p'&->&ST'&BD).
  { now apply (network_tidy "f"). }
  { now apply ad_renderable; auto using entry_part. }
  assert (H' : history (pair_named (Err e)) s').
  { exists false, true. split; [exact R|]. apply (one_request s' pair_slug); [right; exact RQ|apply SE|apply SE]. }
  assert (X' : exchanged (fun _ => "") (fun _ _ => None) s' "GET" ("/folders/f/" ++ pair_slug) "" (Answer (Some p'))).
  { exists sv. split; [reflexivity|]. split; [symmetry; exact E|]. intros q (_&CC).
    assert (q = CacheModel.RRender "f" pair_slug) as -> by (vm_compute in CC; exact CC). apply A. left. reflexivity. }
  destruct (C (pair_named (Err e)) (fun _ => "") (fun _ _ => None) s s' "f" "" "" p v (stringify pair_entity) (rsRole pair_set) pair_slug (Answer (Some p')) H H' I
    (pair_sound _) ltac:(discriminate) X ST J P X') as (p2&E2&ST2).
  injection E2 as <-. rewrite ST2 in ST'. discriminate ST'.
Qed.
Print Assumptions C152_refuted.
(** The hypotheses of the theorems above are met. *)
Example C152_example : sound pair_world "f" /\ o_names (w_out pair_world) = Ok [] /\
  exists files s p v, history pair_world s /\
    exchanged (fun _ => "") files s "GET" "/folders/f" "" (Answer (Some p)) /\ status p = 200 /\ reads_as (body p) v /\
    part v ["Networks"; "urn:s/0"; "urn:r"] (JStr pair_slug).
Proof.
  split; [exact (pair_sound (Ok []))|]. split; [reflexivity|].
  destruct (pair_index (Ok [])) as (files&s&p&v&H&X&ST&J&P&_). exists files, s, p, v. split; [exact H|]. split; [exact X|]. split; [exact ST|]. split; [exact J|exact P].
Qed.

(** *** The inline folder of C126 *)
Definition ask_world : world :=
  World ask_disk "/wd" (fun _ => Ok "x.htm") (fun _ => None) (fun _ => "") (fun _ => "") (fun _ => None) (fun _ => None) ex_pf ex_tokens ask_outside.
Lemma ask_simple : simple_contexts ask_root.
Proof.
  intros x Hx N. assert (x = a_context) as ->.
  { cbn [kids ask_root xbrl_doc] in Hx. destruct N as (s&?&?&?&N). repeat destruct Hx as [<-|Hx]; try destruct Hx; try discriminate N; reflexivity. }
  apply pair_simple; [right; left; reflexivity|do 4 eexists; reflexivity].
Qed.
Lemma ask_named : entry_named ask_world "f" "x.htm".
Proof. exists "/wd/folders/f/_". split; reflexivity. Qed.
Lemma ask_sound : sound ask_world "f".
Proof.
  exists "x.htm", "x.htm.xml", ask_root. split; [exact ask_named|]. split; [exact ask_entry|]. split; [exact ask_simple|]. split.
  - intros _ data q DF DH. vm_compute in DF. injection DF as <-. vm_compute in DH. injection DH as <-.
    split; [exact ask_declared_at|]. split; [exact ask_conforming|]. vm_compute. discriminate.
  - eexists. reflexivity.
Qed.
Definition ask_said (n id t : string) : fact := Fact ("a.xsd#id_" ++ n) id "c" "" (-2147483647) false t.
Lemma ask_declared n href c : LoadSpec.declared ask_disk small_dir ask_root "urn:a" n href c -> href = "a.xsd#id_" ++ n /\ c = pair_concept n.
Proof.
  intros (x&t&cs&C&_&K&I&F&->). apply ask_claims in C. subst x. apply ask_known in K as [_ ->]. apply ask_image in I. subst cs.
  apply first_such_In in F as [[<-|[<-|[]]] E]; injection E as <-; auto.
Qed.
Lemma ask_fact_at n id t fa : fact_at (LoadSpec.declared ask_disk small_dir ask_root) (fact_saying "urn:a" n id t) fa ->
  fHref fa = "a.xsd#id_" ++ n /\ fContextRef fa = "c".
Proof.
  intros (ns&l&(?&?&?&E)&_&_&(c&D)&C&_). injection E; intros; subst. apply ask_declared in D as [H _]. split; [exact H|].
  apply LinkbaseProofs.req_iff in C. vm_compute in C. now injection C.
Qed.
Lemma ask_says : fact_at (LoadSpec.declared ask_disk small_dir ask_root) (fact_saying "urn:a" "A" "f1" "one") (ask_said "A" "f1" "one").
Proof.
  exists "urn:a", "A". split; [do 3 eexists; reflexivity|]. split; [discriminate|]. split; [discriminate|].
  split; [exists (pair_concept "A"); apply ask_declares; now left|].
  split; [req_tac|]. split; [apply attr_or_empty_iff; reflexivity|]. split; [apply attr_or_empty_iff; reflexivity|].
  split; [apply hydrate_precision_iff; reflexivity|]. split; [apply attr_bool_iff; reflexivity|reflexivity].
Qed.
Lemma ask_context qe content : exists c, context_at qe content (attributes ask_root) a_context c /\ ctxID c = "c".
Proof.
  exists (Context "c" "urn:s" "0" (DimContext [] []) "2020-12-31" "" "" (DimContext [] [])). split; [|reflexivity].
  constructor.
  - do 3 eexists; reflexivity.
  - req_tac.
  - eexists _, _. split; [exists [], [xi "period" [] [xi "instant" [] [txt "2020-12-31"]]]; split; [reflexivity|]; split; [do 3 eexists; reflexivity|intros ? []]|].
    split; [exists [], []; split; [reflexivity|]; split; [do 3 eexists; reflexivity|intros ? []]|].
    split; [apply trimmed_iff; vm_compute; reflexivity|]. split; [discriminate|]. split; [eexists; split; [exists [], []; split; [reflexivity|split; [reflexivity|intros ? []]]|reflexivity]|].
    left. split; [|reflexivity]. intros y [<-|[]] (?&?&?&N). discriminate N.
  - eapply pat_instant.
    + exists [xi "entity" [] [xi "identifier" [pa "scheme" "urn:s"] [txt "0"]]], []. split; [reflexivity|]. split; [do 3 eexists; reflexivity|]. intros y [<-|[]] (?&?&?&N). discriminate N.
    + left. eexists. split; [exists [], []; split; [reflexivity|]; split; [do 3 eexists; reflexivity|intros ? []]|apply trimmed_iff; vm_compute; reflexivity].
    + left. intros y [<-|[]] (?&?&?&N). discriminate N.
  - left. split; [|reflexivity]. intros y [<-|[<-|[]]] (?&?&?&N); discriminate N.
Qed.
Lemma ask_untyped q content x c : In x (kids ask_root) -> context_at q content (attributes ask_root) x c ->
  ctxID c = "c" /\ dcTyped (ctxSegment c) = [] /\ dcTyped (ctxScenario c) = [].
Proof.
  intros Hx CA. assert (x = a_context) as ->.
  { pose proof (ca_name _ _ _ _ _ CA) as (?&?&?&N). cbn [kids ask_root xbrl_doc] in Hx. repeat destruct Hx as [<-|Hx]; try destruct Hx; try discriminate N; reflexivity. }
  split; [pose proof (ca_id _ _ _ _ _ CA) as R; apply LinkbaseProofs.req_iff in R; vm_compute in R; now injection R|].
  split.
  - destruct (ca_entity _ _ _ _ _ CA) as (en&idt&F&_&_&_&_&[[_ ->]|(s&FS&_)]); [reflexivity|]. exfalso.
    apply first_such_In in F as [Hen (?&?&?&Nen)]. simpl in Hen. repeat destruct Hen as [<-|Hen]; try destruct Hen; try discriminate Nen.
    apply first_such_In in FS as [Hs (?&?&?&Ns)]. simpl in Hs. repeat destruct Hs as [<-|Hs]; try destruct Hs; discriminate Ns.
  - destruct (ca_scenario _ _ _ _ _ CA) as [[_ ->]|(s&FS&_)]; [reflexivity|]. exfalso.
    apply first_such_In in FS as [Hs (?&?&?&Ns)]. simpl in Hs. repeat destruct Hs as [<-|Hs]; try destruct Hs; discriminate Ns.
Qed.
Lemma ask_fit facts contexts qe : facts_written ask_disk small_dir ask_root facts ->
  contexts_written ask_root qe (content_of qe ex_tokens (attributes ask_root)) contexts -> AskSpec.simple facts contexts /\
  exists n fa c, names_fact ask_htm "a:A" n /\ names_context ask_htm "c" /\ fact_named (LoadSpec.declared ask_disk small_dir ask_root) ask_root facts n "c" fa c.
Proof.
  intros (fs&IF&(PF&_)) (cs&IC&(PC&_)).
  assert (FA : forall fa, In fa facts -> fContextRef fa = "c" /\ (fHref fa = "a.xsd#id_A" -> fact_at (LoadSpec.declared ask_disk small_dir ask_root) (fact_saying "urn:a" "A" "f1" "one") fa)).
  { intros fa Hf. apply (Permutation_in _ (Permutation_sym PF)) in Hf. apply (image_of_In _ _ _ _ IF) in Hf as (x&Hx&A&NO).
    cbn [kids ask_root xbrl_doc xi] in Hx. repeat destruct Hx as [<-|Hx]; try contradiction.
    - exfalso. apply (NO "schemaRef"); [simpl; auto|do 4 eexists; reflexivity].
    - exfalso. apply (NO "context"); [simpl; auto|do 4 eexists; reflexivity].
    - pose proof (ask_fact_at _ _ _ _ A) as [_ ->]. auto.
    - pose proof (ask_fact_at _ _ _ _ A) as [H ->]. split; [reflexivity|]. rewrite H. discriminate. }
  split; [split|].
  - intros fa Hf. destruct (FA _ Hf) as [-> _]. destruct (ask_context qe (content_of qe ex_tokens (attributes ask_root))) as (c&CA&E).
    destruct (image_of_kept _ _ _ a_context c IC) as (c'&Hc&CA'); [simpl; auto|exact CA|].
    exists c'. split; [now apply (Permutation_in _ PC)|]. eapply ask_untyped; [|exact CA']. simpl; auto.
  - intros c Hc. apply (Permutation_in _ (Permutation_sym PC)) in Hc. apply (image_of_In _ _ _ _ IC) in Hc as (x&Hx&CA). eapply ask_untyped; eauto.
  - assert (W : exists above, In (above, ix_fact "nonNumeric" "a:A" "c" []) (XmlSpec.walk [] ask_htm)) by (eexists; simpl; do 2 right; left; reflexivity).
    destruct W as (above&W).
    assert (F : fact_element ["nonNumeric"; "nonFraction"] (ix_fact "nonNumeric" "a:A" "c" [])).
    { exists "nonNumeric". split; [now left|]. do 3 eexists; reflexivity. }
    pose proof (AskProps.ask_fact _ _ "A" "c" W eq_refl) as IX.
    assert (G : exists fa, In fa facts /\ fHref fa = "a.xsd#id_A" /\ fContextRef fa = "c").
    { destruct (image_of_kept _ _ _ (fact_saying "urn:a" "A" "f1" "one") (ask_said "A" "f1" "one") IF) as (fa&Hf&A&_).
      - simpl; auto.
      - split; [exact ask_says|]. intros l Hl (?&?&?&?&E). injection E; intros; subst l. simpl in Hl. intuition discriminate.
      - apply ask_fact_at in A. exists fa. split; [now apply (Permutation_in _ PF)|exact A]. }
    destruct (find (fun y => String.eqb (fHref y) "a.xsd#id_A" && String.eqb (fContextRef y) "c")%bool facts) as [fa|] eqn:FD.
    2:{ exfalso. destruct G as (fa&Hf&E1&E2). pose proof (find_none _ _ FD _ Hf) as X. cbv beta in X. rewrite E1, E2 in X. discriminate X. }
    apply GoFacts.find_first_such in FD. pose proof (first_such_In _ _ _ FD) as [Hf X]. apply andb_prop in X as [X _]. apply String.eqb_eq in X.
    exists (XName "urn:a" "A"), fa, (pair_concept "A"). split; [exists above, (ix_fact "nonNumeric" "a:A" "c" []), "c"; auto|].
    split; [exists above, (ix_fact "nonNumeric" "a:A" "c" []), "a:A", (XName "urn:a" "A"); auto|]. split; [|split].
    + rewrite X. apply ask_declares. now left.
    + rewrite X. eapply first_such_iff; [|exact FD]. intros y. unfold is_fact_of. cbv beta. rewrite Bool.andb_true_iff, !String.eqb_eq. reflexivity.
    + exists (fact_saying "urn:a" "A" "f1" "one"). split; [simpl; auto|]. split; [do 3 eexists; reflexivity|]. apply (FA _ Hf). exact X.
Qed.
Lemma alone (w : world) q r m : CacheProofs.sequence (services_of w) false true [] [(q, r)] m -> CacheSpec.usual q ->
  (forall i n c, q <> CacheModel.RFact i n c) \/ (exists i n c, q = CacheModel.RFact i n c) ->
  exists s, history w s /\ CacheModel.answered s q r.
Proof.
  intros Q U NF. destruct (CacheProps.history_of _ _ _ _ _ Q) as (s&R&_&RQ&A). cbn [map fst] in RQ. exists s. split; [|apply A; now left].
  exists false, true. split; [exact R|]. rewrite RQ. split.
  - intros q' [<-|[]]. exact U.
  - intros i n c i' n' c' [X|[]] [X'|[]] E. rewrite X in X'. injection X' as -> -> ->. auto.
Qed.
Example C152_inline_example : sound ask_world "f" /\ entry_named ask_world "f" "x.htm" /\ inline_name "x.htm" /\
  (exists s a, history ask_world s /\ exchanged (fun _ => "") (fun _ _ => None) s "GET" "/folders/f/x.htm" "" a) /\
  entry_at ask_disk small_dir ask_root "x.htm" "x.htm.xml" /\
  d_file ask_disk (in_dir "x.htm") = Some (in_dir "x.htm") /\ d_html ask_disk (in_dir "x.htm") = Some ask_htm /\
  well_written ask_disk small_dir ask_root /\ declared_at_html ask_htm /\ conforming_facts ask_htm /\
  (forall facts contexts qe, understands ask_disk small_dir ask_root qe -> facts_written ask_disk small_dir ask_root facts ->
     contexts_written ask_root qe (content_of qe ex_tokens (attributes ask_root)) contexts -> AskSpec.simple facts contexts /\
     exists n fa c, names_fact ask_htm "a:A" n /\ names_context ask_htm "c" /\ fact_named (LoadSpec.declared ask_disk small_dir ask_root) ask_root facts n "c" fa c) /\
  exists s a, history ask_world s /\ exchanged (fun _ => "") (fun _ _ => None) s "GET" "/folders/f/facts" "name=a:A&contextref=c" a.
Proof.
  destruct ask_loaded as (doc&K&HD&L).
  destruct (loaded_hydrated ask_world "f" "x.htm" plain_order (ask_hydratable doc) plain_orders ask_named L) as (f&D&Y&FE).
  destruct (ask_answered doc K HD) as (b&M).
  assert (BY : exists d, fo_bytes f = Some d /\ fdEntry (fo_folder f) = "x.htm").
  { assert (HY : CacheSpec.hydrated (services_of ask_world) "f" (Ok (Report (ask_hydratable doc) (fo_bytes f)))).
    { eapply CacheSpec.hy_found; [exact D|exact Y]. }
    apply hydrated_report in HY as (name&[(?&_&EN) _]&BY&E&_). injection EN as <-. cbn [rp_bytes rp_hydratable] in BY, E.
    rewrite FE. rewrite BY. unfold bytes_of. rewrite E. exists (in_dir "x.htm"). split; [|exact E]. reflexivity. }
  destruct BY as (d&BY&EE).
  split; [exact ask_sound|]. split; [exact ask_named|]. split; [exact x_inline|]. split.
  { assert (Q : exists m, CacheProofs.sequence (services_of ask_world) false true [] [(CacheModel.RRender "f" "x.htm", Ok (CacheModel.VBytes (Some d)))] m).
    { eexists. eapply CacheProofs.seq_cons; [|apply CacheProofs.seq_nil]. cbn [CacheModel.program]. unfold CacheModel.marshal_renderable, CacheModel.with_hydratable.
      eapply CacheProofs.solo_miss; [reflexivity|]. eapply CacheProofs.solo_miss; [reflexivity|].
      eapply CacheProofs.solo_compute; [exact D|]. cbv beta iota. eapply CacheProofs.solo_call; [exact Y|]. cbv beta iota.
      unfold CacheModel.save. eapply CacheProofs.solo_spawn.
      assert (T : ((String.eqb (CacheModel.path_ext "x.htm") ".xhtml" || String.eqb (CacheModel.path_ext "x.htm") ".htm")
              && String.eqb (CacheModel.entry_name (services_of ask_world) (CacheModel.folder_of (services_of ask_world) (Report (ask_hydratable doc) (fo_bytes f)))) "x.htm")%bool = true).
      { transitivity (true && String.eqb (fdEntry (hFolder (ask_hydratable doc))) "x.htm")%bool; [reflexivity|]. rewrite <- FE, EE. reflexivity. }
      rewrite T. assert (T2 : CacheModel.doc_bytes (services_of ask_world) (CacheModel.folder_of (services_of ask_world) (Report (ask_hydratable doc) (fo_bytes f))) = Some d).
      { exact BY. }
      rewrite T2. eapply CacheProofs.solo_spawn. eapply CacheProofs.solo_answer. }
    destruct Q as (m&Q). destruct (alone _ _ _ _ Q) as (s&H&A); [repeat split; discriminate|left; discriminate|].
    exists s. set (sv := Services (fun _ => Panic) (fun _ _ => Ok (Some d)) (fun _ _ _ => Panic) (fun _ _ => None)). eexists. split; [exact H|].
    exists sv. split; [reflexivity|]. split; [reflexivity|]. intros q (_&C).
    assert (q = CacheModel.RRender "f" "x.htm") as -> by (vm_compute in C; exact C). exact A. }
  split; [exact ask_entry|]. split; [reflexivity|]. split; [reflexivity|]. split; [exact ask_written|]. split; [exact ask_declared_at|]. split; [exact ask_conforming|].
  split; [intros facts contexts qe _; apply ask_fit|].
  assert (Q : exists m, CacheProofs.sequence (services_of ask_world) false true [] [(CacheModel.RFact "f" "a:A" "c", Ok (CacheModel.VBytes (Some b)))] m).
  { eexists. eapply CacheProofs.seq_cons; [|apply CacheProofs.seq_nil]. cbn [CacheModel.program]. unfold CacheModel.marshal_expressable, CacheModel.with_hydratable.
    eapply CacheProofs.solo_miss; [reflexivity|]. eapply CacheProofs.solo_compute; [exact D|]. cbv beta iota. eapply CacheProofs.solo_call; [exact Y|]. cbv beta iota.
    unfold CacheModel.save. eapply CacheProofs.solo_spawn. eapply CacheProofs.solo_miss; [reflexivity|].
    unfold CacheModel.and_save. eapply CacheProofs.solo_call; [exact M|]. cbv beta iota. unfold CacheModel.save. eapply CacheProofs.solo_spawn.
    eapply CacheProofs.solo_answer. }
  destruct Q as (m&Q). destruct (alone _ _ _ _ Q) as (s&H&A); [repeat split; discriminate|right; do 3 eexists; reflexivity|].
  exists s. set (sv := Services (fun _ => Panic) (fun _ _ => Panic) (fun _ _ _ => Ok (Some b)) (fun _ _ => None)). eexists. split; [exact H|].
  exists sv. split; [reflexivity|]. split; [reflexivity|]. intros q (_&vs&n&c&P&U1&U2&->).
  assert (E : vs = [("name", "a:A"); ("contextref", "c")]) by (vm_compute in P; now injection P).
  subst vs. vm_compute in U1, U2. injection U1 as <-. injection U2 as <-. exact A.
Qed.
