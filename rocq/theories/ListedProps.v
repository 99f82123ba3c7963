(** * ListedProps: C168 (every network that is answered is one the catalog lists) *)
From Verif Require Import GoBase GoSpec GoFacts AttrModel AttrSpec AttrProofs SchemaModel SchemaSpec SchemaProofs SchemaProps
  LinkbaseModel LinkbaseSpec LinkbaseProofs LinkbaseProps InstanceModel InstanceSpec InstanceProofs InstanceProps
  HydrateModel HydrateSpec HydrateProofs HydrateProps LabelModel LabelSpec LabelProofs LabelProps PeriodModel PeriodSpec PeriodProofs PeriodProps
  FactModel FactSpec FactProofs FactProps GridModel GridSpec GridProofs GridProps CalcModel CalcSpec CalcProofs CalcProps DefModel DefSpec DefProofs DefProps
  RenderModel RenderSpec RenderProofs RenderProps ExpressModel ExpressSpec ExpressProofs ExpressProps
  DiscoverModel DiscoverSpec DiscoverProofs DiscoverProps XmlModel XmlSpec XmlProofs XmlProps LoadModel LoadSpec LoadProofs LoadProps
  CatalogModel CatalogSpec CatalogProofs CatalogProps ReportModel ResponseModel ResponseSpec ResponseProofs ResponseProps EndToEndSpec EndToEndProps
  ReportSpec ReportProofs ReportProps AskSpec AskProps ImageModel ImageSpec ImageProofs ImageProps
  WebModel WebSpec WebProofs WebProps PathSpec RouterModel RouterSpec RouterProofs RouterProps.
From Verif Require CacheModel CacheSpec CacheProofs CacheProps.
From Verif Require Import ColumnProps ServerModel ServerSpec ServerProps ServedProps DocNameSpec DocNameProps SameSpec SameProofs SameProps ListedSpec.
Local Open Scope nat_scope.
Local Open Scope string_scope.

(** C168: the page of a network is about an entity and a role that the catalog of the folder lists, under the same name of the entity
    and with the same title of the role, and the address of the page is the one made of these two: no page is answered at an address
    that does not follow from the catalog. It holds whichever servers send the two, after whatever histories. *)
Theorem C168_listed : forall w detect detect' files files' s s' id slug query query' p p', history w s -> history w s' -> entry_name_ok id ->
  entry_name_ok slug -> slug <> "facts" -> ~ (entry_named w id slug /\ inline_name slug) ->
  exchanged detect files s "GET" ("/folders/" ++ id) query (Answer (Some p)) -> status p = 200 -> body p <> "" ->
  exchanged detect' files' s' "GET" ("/folders/" ++ id ++ "/" ++ slug) query' (Answer (Some p')) -> status p' = 200 -> body p' <> "" ->
  exists r sj v v', reads_as (body p) v /\ lists v r sj /\ reads_as (body p') v' /\ headed r sj v' /\ is_slug (sbEntity sj) r slug.
Proof.
  intros w detect detect' files files' s s' id slug query query' p p' H H' I J NF NI X ST B X' ST' B'. apply get_catalog in X; auto.
  apply (uncached_content w s _ _ H) in X as (rep&HY&M). apply hydrated_document in HY as (name&[N (im&sh&_&L)]&EN&ND).
  destruct (network_sent _ _ _ _ _ _ _ _ H' I J NF X' ST' B') as (name'&h'&[N' (im'&sh'&_&L')]&M').
  destruct M' as [(->&IN&_)|[_ M']]; [elim NI; auto|].
  assert (name' = name) as -> by (eapply one_name; [exact N|exact N']).
  destruct M as (insts&schemas&VI&VS&E). injection E as E.
  inversion M' as [o R' E'|]; subst. inversion R' as [|insts' schemas' e' r' p0' d' c' conf' VI' VS' F' P' D' C' NP' ND' NC' RS' DN' E']; subst.
  unfold renderable_bytes, CatalogModel.marshal_renderable in E'. rewrite F' in E'.
  destruct (entity_query _ _ _) as [nm| |] eqn:Q; cbn [bind] in E'; try discriminate E'. injection E' as E'.
  rewrite <- (same_entities _ _ _ _ _ _ _ _ _ _ _ _ L L' _ _ VI VI'), <- (same_roles _ _ _ _ _ _ _ _ _ _ _ _ L L' _ _ VS VS') in F'.
  apply find_slug_first in F'. assert (A : In (e', r') (list_prod (sorted_entities insts) (sorted_relationship_sets schemas)) /\ is_slug e' r' slug).
  { destruct F' as (pre&post&EQ&S&_). rewrite EQ. split; [apply in_or_app; right; left; reflexivity|exact S]. }
  destruct A as [A S]. apply in_prod_iff in A as [AE AR].
  exists r', (Subject nm e').
  match type of E with ?x = jcatalog ?c => destruct (C119_catalog c) as (v&RA&V); rewrite <- E in RA | jcatalog ?c = _ => destruct (C119_catalog c) as (v&RA&V); rewrite E in RA end.
  exists v.
  assert (K : forall calc g b, b = jrenderable calc (Renderable r' (Subject nm e') g) -> exists v, reads_as b v /\ headed r' (Subject nm e') v).
  { intros calc [[g roles] langs] b ->. destruct (C119_renderable calc r' (Subject nm e') g roles langs) as (v0&RA0&V0). exists v0. split; [exact RA0|].
    assert (ND0 : NoDup ["RelationshipSet"; "Subject"; "Lang"; "LabelRoles"; "PGrid"; "DGrid"; "CGrid"]) by (repeat constructor; simpl; intuition congruence).
    split; (eapply (the_member_of _ _ _); [exact V0|exact ND0|]); [left; reflexivity|right; left; reflexivity]. }
  destruct (K _ _ _ (eq_sym E')) as (v'&RA'&HV'). exists v'. split; [exact RA|]. split; [|auto].
  assert (ND1 : NoDup ["Subjects"; "RelationshipSets"; "Networks"; "DocumentName"]) by (repeat constructor; simpl; intuition congruence).
  eexists. eexists. split; [eapply (the_member_of _ _ _); [exact V|exact ND1|left; reflexivity]|].
  split; [eapply (the_member_of _ _ _); [exact V|exact ND1|right; left; reflexivity]|].
  split; [|exact AR]. cbn [caSubjects CatalogModel.marshal_catalog]. apply in_map_iff. exists e'. split; [|exact AE].
  unfold CatalogModel.entity_name. now rewrite Q.
Qed.
Print Assumptions C168_listed.

(** ** Satisfiability: a server sends the catalog of a folder with a network, and another sends the network. *)
Lemma catalog_once d o h : d_file d "/wd/folders/f/_" = Some "/wd/folders/f/_" ->
  loaded d small_dir "x.xml" false ex_pf plain_order ex_tokens (o_units o) h ->
  exists files s p, history (world_with d o) s /\ exchanged (fun _ => "") files s "GET" ("/folders/" ++ "f") "" (Answer (Some p)) /\ status p = 200 /\ body p <> "".
Proof.
  intros FD L. set (w := world_with d o) in *.
  destruct (loaded_hydrated w "f" "x.xml" plain_order h plain_orders) as (f&D&Y&_); [exists "/wd/folders/f/_"; split; [exact FD|reflexivity]|exact L|].
  set (c0 := CatalogModel.marshal_catalog (o_names (out w)) (map snd (hInstances h)) (map snd (hSchemas h))
               (match hDocument h with Some _ => true | None => false end) (fdEntry (hFolder h))).
  assert (MC : marshalled_catalog (out w) h (Ok (Some (jcatalog c0)))) by (do 2 eexists; split; [|split; [|reflexivity]]; apply Permutation_refl).
  assert (Q : exists c, CacheProofs.sequence (services_of w) false true [] [(CacheModel.RCatalog "f", Ok (CacheModel.VBytes (Some (jcatalog c0))))] c).
  { eexists. eapply CacheProofs.seq_cons; [|apply CacheProofs.seq_nil]; cbn [CacheModel.program];
      unfold CacheModel.marshal_catalog, CacheModel.with_hydratable.
    eapply CacheProofs.solo_miss; [reflexivity|].
    eapply CacheProofs.solo_compute; [exact D|]. cbv beta iota. eapply CacheProofs.solo_call; [exact Y|]. cbv beta iota.
    unfold CacheModel.save. eapply CacheProofs.solo_spawn. eapply CacheProofs.solo_miss; [reflexivity|].
    unfold CacheModel.and_save. eapply CacheProofs.solo_call; [exact MC|]. cbv beta iota. unfold CacheModel.save. eapply CacheProofs.solo_spawn.
    eapply CacheProofs.solo_answer. }
  destruct Q as (c&Q). destruct (CacheProps.history_of _ _ _ _ _ Q) as (s&RN&_&RQ&A).
  set (S1 := Services (fun _ => Ok (Some (jcatalog c0))) (fun _ _ => Panic) (fun _ _ _ => Panic) (fun _ _ => None)).
  assert (I : entry_name_ok "f") by (repeat split; discriminate).
  destruct (C123_get (fun _ => "") S1 ("/folders/" ++ "f") "" (CatalogOf "f")) as (x&E&p&->&ST&BD).
  { now apply folder_tidy. }
  { apply ad_catalog; [now apply entry_part|reflexivity]. }
  exists (fun _ _ => None), s, p. split.
  { exists false, true. split; auto. cbn [map fst] in RQ. rewrite RQ. split.
    - intros q [<-|[]]; cbn; repeat split; discriminate.
    - intros i n c1 i' n' c' [X|[]]; discriminate X. }
  split; [|split; [exact ST|]].
  - exists S1. split; [reflexivity|]. split; [now symmetry|]. intros q (_&C).
    assert (q = CacheModel.RCatalog "f") as -> by (vm_compute in C; exact C). apply A. left. reflexivity.
  - rewrite BD. cbn [content]. destruct (C119_catalog c0) as (v&[V _]&_). exact (json_nonempty _ _ V).
Qed.
Example C168_example : let w := world_with noted_disk noted_outside in exists files s p files' s' p', history w s /\ history w s' /\ entry_name_ok "f" /\
  entry_name_ok pair_slug /\ pair_slug <> "facts" /\ ~ (entry_named w "f" pair_slug /\ inline_name pair_slug) /\
  exchanged (fun _ => "") files s "GET" ("/folders/" ++ "f") "" (Answer (Some p)) /\ status p = 200 /\ body p <> "" /\
  exchanged (fun _ => "") files' s' "GET" ("/folders/" ++ "f" ++ "/" ++ pair_slug) "" (Answer (Some p')) /\ status p' = 200 /\ body p' <> "".
Proof.
  cbv zeta. destruct (catalog_once noted_disk noted_outside noted_report eq_refl noted_loaded) as (files&s&p&H&X&ST&B).
  destruct C137_served_example as (files'&s'&p'&H'&I&J&N&X'&ST'&B'&_). exists files, s, p, files', s', p'.
  do 5 (split; [assumption|]). split; [|auto 10]. intros [_ K]. apply inline_iff in K. vm_compute in K. destruct K; discriminate.
Qed.
