(** * SameProps: C164 (the catalog of a folder is the same whenever it is made) *)
From Verif Require Import GoBase GoSpec GoFacts AttrModel AttrSpec AttrProofs SchemaModel SchemaSpec SchemaProofs SchemaProps
  LinkbaseModel LinkbaseSpec LinkbaseProofs LinkbaseProps InstanceModel InstanceSpec InstanceProofs InstanceProps
  HydrateModel HydrateSpec HydrateProofs HydrateProps LabelModel LabelSpec LabelProofs LabelProps PeriodModel PeriodSpec PeriodProofs PeriodProps
  FactModel FactSpec FactProofs FactProps GridModel GridSpec GridProofs GridProps CalcModel CalcSpec CalcProofs CalcProps DefModel DefSpec DefProofs DefProps
  RenderModel RenderSpec RenderProofs RenderProps ExpressModel ExpressSpec ExpressProofs ExpressProps
  DiscoverModel DiscoverSpec DiscoverProofs DiscoverProps XmlModel XmlSpec XmlProofs XmlProps LoadModel LoadSpec LoadProofs LoadProps
  CatalogModel CatalogSpec CatalogProofs CatalogProps ReportModel ResponseModel ResponseSpec ResponseProofs ResponseProps EndToEndSpec EndToEndProps
  ReportSpec ReportProofs ReportProps AskSpec AskProps ImageModel ImageSpec ImageProofs ImageProps
  WebModel WebSpec WebProofs WebProps PathSpec RouterModel RouterSpec RouterProofs RouterProps.
From Verif Require CacheModel CacheSpec CacheProofs CacheProps.
From Verif Require Import ColumnProps ServerModel ServerSpec ServerProps ServedProps DocNameSpec DocNameProps SameSpec SameProofs.
Local Open Scope nat_scope.
Local Open Scope string_scope.

Lemma one_name w id n n' : entry_named w id n -> entry_named w id n' -> n' = n.
Proof. intros (b&E1&E2) (b'&E1'&E2'). congruence. Qed.

(** C164: two servers, or one server before and after a restart, that see the same files: whatever they were asked before, in whatever
    order requests, goroutines and maps were handled, they send the same bytes as the catalog of a folder. *)
Theorem C164_catalog : forall w detect detect' files files' s s' id query query' p p', history w s -> history w s' -> entry_name_ok id ->
  exchanged detect files s "GET" ("/folders/" ++ id) query (Answer (Some p)) -> status p = 200 -> body p <> "" ->
  exchanged detect' files' s' "GET" ("/folders/" ++ id) query' (Answer (Some p')) -> status p' = 200 -> body p' <> "" ->
  body p' = body p.
Proof.
  intros w detect detect' files files' s s' id query query' p p' H H' I X ST B X' ST' B'. apply get_catalog in X; auto. apply get_catalog in X'; auto.
  apply (uncached_content w s _ _ H) in X as (rep&HY&M). apply (uncached_content w s' _ _ H') in X' as (rep'&HY'&M').
  apply hydrated_document in HY as (name&[N (im&sh&_&L)]&EN&ND). apply hydrated_document in HY' as (name'&[N' (im'&sh'&_&L')]&EN'&ND').
  assert (name' = name) as -> by (eapply one_name; [exact N|exact N']).
  destruct M as (insts&schemas&VI&VS&E). destruct M' as (insts'&schemas'&VI'&VS'&E'). injection E as ->. injection E' as ->.
  rewrite EN, EN'. unfold CatalogModel.marshal_catalog.
  rewrite (same_entities _ _ _ _ _ _ _ _ _ _ _ _ L L' _ _ VI VI'), (same_roles _ _ _ _ _ _ _ _ _ _ _ _ L L' _ _ VS VS').
  destruct (hDocument (rp_hydratable rep)), (hDocument (rp_hydratable rep')); auto; exfalso;
    [assert (Z : @None document <> None) by (apply ND', ND; discriminate)|assert (Z : @None document <> None) by (apply ND, ND'; discriminate)]; now apply Z.
Qed.
Print Assumptions C164_catalog.

(** ... and an address taken from a catalog leads to a page about the same role and entity on all of them. *)
Theorem C164_heading : forall w detect detect' files files' s s' id slug query query' p p', history w s -> history w s' -> entry_name_ok id ->
  entry_name_ok slug -> slug <> "facts" -> ~ (entry_named w id slug /\ inline_name slug) ->
  exchanged detect files s "GET" ("/folders/" ++ id ++ "/" ++ slug) query (Answer (Some p)) -> status p = 200 -> body p <> "" ->
  exchanged detect' files' s' "GET" ("/folders/" ++ id ++ "/" ++ slug) query' (Answer (Some p')) -> status p' = 200 -> body p' <> "" ->
  exists r sj v v', reads_as (body p) v /\ headed r sj v /\ reads_as (body p') v' /\ headed r sj v'.
Proof.
  intros w detect detect' files files' s s' id slug query query' p p' H H' I J NF NI X ST B X' ST' B'.
  destruct (network_sent _ _ _ _ _ _ _ _ H I J NF X ST B) as (name&h&[N (im&sh&_&L)]&M). destruct (network_sent _ _ _ _ _ _ _ _ H' I J NF X' ST' B') as (name'&h'&[N' (im'&sh'&_&L')]&M').
  destruct M as [(->&IN&_)|[_ M]]; [elim NI; auto|]. destruct M' as [(->&IN&_)|[_ M']]; [elim NI; auto|].
  assert (name' = name) as -> by (eapply one_name; [exact N|exact N']).
  inversion M as [o R E|]; subst. inversion R as [|insts schemas e r p0 d c conf VI VS F P D C NP ND NC RS DN E]; subst.
  inversion M' as [o R' E'|]; subst. inversion R' as [|insts' schemas' e' r' p0' d' c' conf' VI' VS' F' P' D' C' NP' ND' NC' RS' DN' E']; subst.
  rewrite <- (same_entities _ _ _ _ _ _ _ _ _ _ _ _ L L' _ _ VI VI'), <- (same_roles _ _ _ _ _ _ _ _ _ _ _ _ L L' _ _ VS VS'), F in F'. injection F' as <- <-.
  unfold renderable_bytes, CatalogModel.marshal_renderable in E, E'.
  rewrite <- (same_entities _ _ _ _ _ _ _ _ _ _ _ _ L L' _ _ VI VI'), <- (same_roles _ _ _ _ _ _ _ _ _ _ _ _ L L' _ _ VS VS'), F in E'. rewrite F in E.
  destruct (entity_query _ _ _) as [nm| |]; cbn [bind] in E, E'; try discriminate E. injection E as E. injection E' as E'.
  exists r, (Subject nm e).
  assert (K : forall calc g b, b = jrenderable calc (Renderable r (Subject nm e) g) -> exists v, reads_as b v /\ headed r (Subject nm e) v).
  { intros calc [[g roles] langs] b ->. destruct (C119_renderable calc r (Subject nm e) g roles langs) as (v&RA&V). exists v. split; [exact RA|].
    assert (ND0 : NoDup ["RelationshipSet"; "Subject"; "Lang"; "LabelRoles"; "PGrid"; "DGrid"; "CGrid"]) by (repeat constructor; simpl; intuition congruence).
    split; (eapply (the_member_of _ _ _); [exact V|exact ND0|]); [left; reflexivity|right; left; reflexivity]. }
  destruct (K _ _ _ (eq_sym E)) as (v&RA&HV). destruct (K _ _ _ (eq_sym E')) as (v'&RA'&HV'). eauto 10.
Qed.
Print Assumptions C164_heading.

(** The hypotheses are met, by a folder with an inline document and one with a network. That loads of one folder can differ in other
    respects is shown in C100_refuted: there two documents of one namespace stand for it in turn. *)
Example C164_example :
  (exists files s p, history ask_world s /\ entry_name_ok "f" /\ exchanged (w_detect ask_world) files s "GET" ("/folders/" ++ "f") "" (Answer (Some p)) /\ status p = 200 /\ body p <> "") /\
  (exists files s p, history (world_with noted_disk noted_outside) s /\ entry_name_ok "f" /\ entry_name_ok pair_slug /\ pair_slug <> "facts" /\
     ~ (entry_named (world_with noted_disk noted_outside) "f" pair_slug /\ inline_name pair_slug) /\
     exchanged (fun _ => "") files s "GET" ("/folders/f/" ++ pair_slug) "" (Answer (Some p)) /\ status p = 200 /\ body p <> "").
Proof.
  split.
  - destruct C161_example as (files&s&p&_&H&I&_&_&_&X&ST&B&_). exists files, s, p. auto.
  - destruct C137_served_example as (files&s&p&H&I&J&N&X&ST&B&_). exists files, s, p. split; [exact H|]. split; [exact I|]. split; [exact J|]. split; [exact N|].
    split; [|auto]. intros [_ K]. apply inline_iff in K. vm_compute in K. destruct K; discriminate.
Qed.
