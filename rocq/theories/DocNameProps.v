(** * DocNameProps: C161 (the document of a report in its catalog) *)
From Verif Require Import GoBase GoSpec GoFacts AttrModel AttrSpec AttrProofs SchemaModel SchemaSpec SchemaProofs SchemaProps
  LinkbaseModel LinkbaseSpec LinkbaseProofs LinkbaseProps InstanceModel InstanceSpec InstanceProofs InstanceProps
  HydrateModel HydrateSpec HydrateProofs HydrateProps LabelModel LabelSpec LabelProofs LabelProps PeriodModel PeriodSpec PeriodProofs PeriodProps
  FactModel FactSpec FactProofs FactProps GridModel GridSpec GridProofs GridProps CalcModel CalcSpec CalcProofs CalcProps DefModel DefSpec DefProofs DefProps
  RenderModel RenderSpec RenderProofs RenderProps ExpressModel ExpressSpec ExpressProofs ExpressProps
  DiscoverModel DiscoverSpec DiscoverProofs DiscoverProps XmlModel XmlSpec XmlProofs XmlProps LoadModel LoadSpec LoadProofs LoadProps
  CatalogModel CatalogSpec CatalogProofs CatalogProps ReportModel ResponseModel ResponseSpec ResponseProofs ResponseProps EndToEndSpec EndToEndProps
  ReportSpec ReportProofs ReportProps AskSpec AskProps ImageModel ImageSpec ImageProofs ImageProps
  WebModel WebSpec WebProofs WebProps PathSpec RouterModel RouterSpec RouterProofs RouterProps.
From Verif Require CacheModel CacheSpec CacheProofs CacheProps.
From Verif Require Import ServerModel ServerSpec ServerProps DocNameSpec.
Local Open Scope string_scope.


Section World.
  Variable w : world.
  Notation sv := (services_of w).

  Lemma discovered_inline files dir name images fd : discover files dir (Ok name) images (Ok fd) -> inline_name name -> exists d, fdDocument fd = Some d.
  Proof.
    intros D N.
    assert (K : forall fd0 i s, fruns files dir (schema_ref files dir fd0 i) s -> fdDocument (fst s) = fdDocument fd0).
    { intros f0 i s R. remember (schema_ref files dir f0 i) as s0 eqn:E. induction R as [s|s s' s'' R IH H]; [subst; auto|].
      specialize (IH E). rewrite <- IH. destruct H as [f1 f2 a p p' b H]. cbn. clear -H. induction H; auto. destruct k; auto. }
    inversion D as [m E|n o E X H|n o E X H|n E X1 X2 X3 X4]; try injection E as <-; subst; try discriminate.
    - inversion H as [|data|data|data|data doc o RF DI EF DS]; subst. inversion DS as [|i s RI F J]; subst. apply K in F. cbn in *. rewrite F. eauto.
    - exfalso. apply inline_iff in N. destruct N as [N|N], X as [X|X]; congruence.
    - exfalso. apply inline_iff in N. destruct N; contradiction.
  Qed.
  Lemma hydrated_document id rep : CacheSpec.hydrated sv id (Ok rep) ->
    exists name, report_of w id name (rp_hydratable rep) /\ fdEntry (hFolder (rp_hydratable rep)) = name /\ (hDocument (rp_hydratable rep) <> None <-> inline_name name).
  Proof.
    intro H. inversion H as [| |f r D Y E]; subst. destruct D as (o&D&E). destruct o as [fd| |]; try discriminate. injection E as ->.
    destruct (hydrated_report w id rep H) as (name&R&_&EN&_&I&_). exists name. split; [exact R|]. split; [exact EN|]. split; [exact I|]. intro N.
    destruct Y as (sh&doc&SH&HD&_&E). unfold hydrating in E. cbn in E. destruct (hydrate _ _ _ _ _ _ _ _) as [h| |] eqn:HH in E; try discriminate. injection E as ->. cbn in *.
    apply C79_complete in HH as (HF&_&_&_&_&_&_&_&HDoc). destruct R as [(b&EB&EW) _].
    assert (X : entry_file_name w id = Ok name) by (unfold entry_file_name; now rewrite EB). rewrite X in D.
    destruct (discovered_inline _ _ _ _ _ D N) as (d&ED). rewrite ED in HD. subst doc. inversion HD; subst. congruence.
  Qed.
End World.

(** C161: after any history, the catalog of a folder says DocumentName: the name of the entry file if that is an inline document,
    and nothing otherwise. *)
Theorem C161_catalog : forall w detect files s id query p, history w s -> entry_name_ok id ->
  exchanged detect files s "GET" ("/folders/" ++ id) query (Answer (Some p)) -> status p = 200 -> body p <> "" ->
  exists name v, entry_named w id name /\ reads_as (body p) v /\ names_its_document name v.
Proof.
  intros w detect files s id query p H I X ST B. apply get_catalog in X; auto.
  apply (uncached_content w s _ _ H) in X as (rep&HY&M). apply hydrated_document in HY as (name&R&EN&N).
  destruct M as (insts&schemas&VI&VS&E). injection E as E. set (c := CatalogModel.marshal_catalog _ _ _ _ _) in E.
  destruct (C119_catalog c) as (v&J&V). rewrite <- E in J. exists name, v. split; [apply R|]. split; [exact J|].
  assert (D : the_member v "DocumentName" (shows (caDocumentName c))).
  { unfold catalog_value in V. eapply (the_member_of _ _ "DocumentName"); [exact V| |do 3 right; left; reflexivity]. cbn; repeat constructor; simpl; intuition congruence. }
  unfold c in D. cbn [CatalogModel.marshal_catalog caDocumentName] in D. rewrite EN in D.
  destruct (hDocument (rp_hydratable rep)); split; intro K; auto; exfalso; [apply K, N|apply N in K]; congruence.
Qed.
Print Assumptions C161_catalog.

(** ... and what the server sends under that name is the document. *)
Theorem C161_document : forall w detect files s id name query p, history w s -> entry_name_ok id -> entry_name_ok name ->
  entry_named w id name -> inline_name name ->
  exchanged detect files s "GET" ("/folders/" ++ id ++ "/" ++ name) query (Answer (Some p)) -> status p = 200 -> body p <> "" ->
  document_sent w id name (body p).
Proof.
  intros w detect files s id name query p H I J EN N X ST B.
  assert (NF : name <> "facts") by (intros ->; apply inline_iff in N; destruct N as [N|N]; discriminate N).
  apply get_renderable in X; auto. apply (uncached_content w s _ _ H) in X as (rep&HY&M).
  apply hydrated_report in HY as (name'&R&BY&EN'&DI&_&NI).
  assert (name' = name) as -> by (destruct R as [(b&E1&E2) _], EN as (b'&E1'&E2'); congruence).
  destruct M as [[_ D]|[ND _]].
  - cbn in D. destruct (rp_bytes rep) as [b|]; [|discriminate]. injection D as <-.
    unfold bytes_of in BY. destruct (fdDocument (hFolder (rp_hydratable rep))) as [d|] eqn:ED; [|discriminate]. rewrite EN' in BY. now apply document_sent_of.
  - exfalso. apply ND. split; [exact EN'|]. destruct N as [(a&E)|(a&E)]; exists a; auto.
Qed.
Print Assumptions C161_document.

(** ** A folder with an inline document: its catalog, then the document *)
Definition ask_world : world :=
  World ask_disk "/wd" (fun _ => Ok "x.htm") (fun _ => None) (fun _ => "") (fun _ => "") (fun _ => None) (fun _ => None) ex_pf ex_tokens ask_outside.
Lemma ask_hydrated : exists f h, discovered ask_world "f" (Ok f) /\ hydrated_as ask_world f (Ok (Report h (fo_bytes f))) /\ fo_folder f = hFolder h.
Proof.
  destruct ask_loaded as (doc&_&_&L). destruct (loaded_hydrated ask_world "f" "x.htm" plain_order (ask_hydratable doc)) as (f&D&Y&E).
  - exact plain_orders.
  - exists "/wd/folders/f/_". split; reflexivity.
  - exact L.
  - eauto.
Qed.
Example C161_example : exists files s p p', history ask_world s /\ entry_name_ok "f" /\ entry_name_ok "x.htm" /\ entry_named ask_world "f" "x.htm" /\ inline_name "x.htm" /\
  exchanged (w_detect ask_world) files s "GET" "/folders/f" "" (Answer (Some p)) /\ status p = 200 /\ body p <> "" /\
  exchanged (w_detect ask_world) files s "GET" "/folders/f/x.htm" "" (Answer (Some p')) /\ status p' = 200 /\ body p' <> "".
Proof.
  destruct ask_hydrated as (f&h&D&Y&EF).
  assert (EN : entry_named ask_world "f" "x.htm") by (exists "/wd/folders/f/_"; split; reflexivity).
  assert (HY : CacheSpec.hydrated (services_of ask_world) "f" (Ok (Report h (fo_bytes f)))) by (eapply CacheSpec.hy_found; [exact D|exact Y]).
  destruct (hydrated_document ask_world "f" _ HY) as (name&R&EF'&N). cbn [rp_hydratable] in *.
  assert (name = "x.htm") as -> by (destruct R as [(b&E1&E2) _]; destruct EN as (b'&E1'&E2'); congruence).
  destruct (hydrated_report ask_world "f" _ HY) as (name&R'&BY&EF2&_). cbn [rp_hydratable rp_bytes] in *.
  pose proof D as (o&DD&EO). destruct o as [fd| |]; try discriminate EO. injection EO as EO.
  assert (ED : exists d, fdDocument fd = Some d) by (eapply (discovered_inline _ _ "x.htm"); [exact DD|exact x_inline]). destruct ED as (d&ED).
  assert (FD : fo_folder f = fd) by now rewrite EO.
  assert (BF : fo_bytes f = Some (in_dir "x.htm")).
  { rewrite BY, <- EF, FD. unfold bytes_of. rewrite ED, <- FD, EF, EF'. reflexivity. }
  set (cat := jcatalog (CatalogModel.marshal_catalog (o_names (out ask_world)) (map snd (hInstances h)) (map snd (hSchemas h))
                          (match hDocument h with Some _ => true | None => false end) (fdEntry (hFolder h)))).
  assert (MC : marshalled_catalog (out ask_world) h (Ok (Some cat))) by (do 2 eexists; split; [|split; [|reflexivity]]; apply Permutation_refl).
  assert (Q : exists c, CacheProofs.sequence (services_of ask_world) false true [] [(CacheModel.RCatalog "f", Ok (CacheModel.VBytes (Some cat)));
                (CacheModel.RRender "f" "x.htm", Ok (CacheModel.VBytes (Some (in_dir "x.htm"))))] c).
  { eexists. eapply CacheProofs.seq_cons; [|eapply CacheProofs.seq_cons; [|apply CacheProofs.seq_nil]]; cbn [CacheModel.program];
      unfold CacheModel.marshal_catalog, CacheModel.marshal_renderable, CacheModel.with_hydratable.
    - eapply CacheProofs.solo_miss; [reflexivity|].
      eapply CacheProofs.solo_compute; [exact D|]. cbv beta iota. eapply CacheProofs.solo_call; [exact Y|]. cbv beta iota.
      unfold CacheModel.save. eapply CacheProofs.solo_spawn. eapply CacheProofs.solo_miss; [reflexivity|].
      unfold CacheModel.and_save. eapply CacheProofs.solo_call; [exact MC|]. cbv beta iota. unfold CacheModel.save. eapply CacheProofs.solo_spawn.
      eapply CacheProofs.solo_answer.
    - eapply CacheProofs.solo_miss; [reflexivity|]. eapply CacheProofs.solo_hit; [reflexivity|reflexivity|].
      cbn [CacheModel.entry_name CacheModel.folder_of CacheModel.doc_bytes services_of fo_folder rp_hydratable rp_bytes fo_bytes]. rewrite EF', BF.
      cbn [CacheModel.path_ext]. unfold CacheModel.save.
      change (if (String.eqb (CacheModel.path_ext "x.htm") ".xhtml" || String.eqb (CacheModel.path_ext "x.htm") ".htm") && String.eqb "x.htm" "x.htm" then true else false) with true.
      eapply CacheProofs.solo_spawn. eapply CacheProofs.solo_answer. }
  destruct Q as (c&Q). destruct (CacheProps.history_of _ _ _ _ _ Q) as (s&RN&_&RQ&A).
  set (S1 := Services (fun _ => Ok (Some cat)) (fun _ _ => Panic) (fun _ _ _ => Panic) (fun _ _ => None)).
  set (S2 := Services (fun _ => Panic) (fun _ _ => Ok (Some (in_dir "x.htm"))) (fun _ _ _ => Panic) (fun _ _ => None)).
  assert (I : entry_name_ok "f") by (repeat split; discriminate). assert (J : entry_name_ok "x.htm") by (repeat split; discriminate).
  destruct (C123_get (w_detect ask_world) S1 ("/folders/" ++ "f") "" (CatalogOf "f")) as (x&E&p&->&ST&BD).
  { now apply folder_tidy. }
  { apply ad_catalog; [now apply entry_part|reflexivity]. }
  destruct (C123_get (w_detect ask_world) S2 ("/folders/" ++ "f" ++ "/" ++ "x.htm") "" (RenderableOf "f" "x.htm")) as (x'&E'&p'&->&ST'&BD').
  { now apply network_tidy. }
  { apply ad_renderable; [now apply entry_part|now apply entry_part|discriminate|reflexivity]. }
  exists (fun _ _ => None), s, p, p'. split.
  { exists false, true. split; auto. cbn [map fst] in RQ. rewrite RQ. split.
    - intros q [<-|[<-|[]]]; cbn; repeat split; discriminate.
    - intros i n c0 i' n' c' [X|[X|[]]]; discriminate X. }
  split; [exact I|]. split; [exact J|]. split; [exact EN|]. split; [exact x_inline|]. split; [|split; [exact ST|split; [|split; [|split; [exact ST'|]]]]].
  - exists S1. split; [reflexivity|]. split; [now symmetry|]. intros q (_&C).
    assert (q = CacheModel.RCatalog "f") as -> by (vm_compute in C; exact C). apply A. left. reflexivity.
  - rewrite BD. cbn [content]. unfold cat. destruct (C119_catalog (CatalogModel.marshal_catalog (o_names (out ask_world)) (map snd (hInstances h)) (map snd (hSchemas h))
      (match hDocument h with Some _ => true | None => false end) (fdEntry (hFolder h)))) as (v&[V _]&_). exact (json_nonempty _ _ V).
  - exists S2. split; [reflexivity|]. split; [now symmetry|]. intros q (_&C).
    assert (q = CacheModel.RRender "f" "x.htm") as -> by (vm_compute in C; exact C). apply A. right. left. reflexivity.
  - rewrite BD'. discriminate.
Qed.
