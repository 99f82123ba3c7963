(** * InertProps: C163 (JSON answers hold no markup) *)
From Verif Require Import GoBase GoSpec GoFacts AttrModel AttrSpec AttrProofs SchemaModel SchemaSpec SchemaProofs SchemaProps
  LinkbaseModel LinkbaseSpec LinkbaseProofs LinkbaseProps InstanceModel InstanceSpec InstanceProofs InstanceProps
  HydrateModel HydrateSpec HydrateProofs HydrateProps LabelModel LabelSpec LabelProofs LabelProps PeriodModel PeriodSpec PeriodProofs PeriodProps
  FactModel FactSpec FactProofs FactProps GridModel GridSpec GridProofs GridProps CalcModel CalcSpec CalcProofs CalcProps DefModel DefSpec DefProofs DefProps
  RenderModel RenderSpec RenderProofs RenderProps ExpressModel ExpressSpec ExpressProofs ExpressProps
  DiscoverModel DiscoverSpec DiscoverProofs DiscoverProps XmlModel XmlSpec XmlProofs XmlProps LoadModel LoadSpec LoadProofs LoadProps
  CatalogModel CatalogSpec CatalogProofs CatalogProps ReportModel ResponseModel ResponseSpec ResponseProofs ResponseProps EndToEndSpec EndToEndProps
  ReportSpec ReportProofs ReportProps AskSpec AskProps ImageModel ImageSpec ImageProofs ImageProps
  WebModel WebSpec WebProofs WebProps PathSpec RouterModel RouterSpec RouterProofs RouterProps.
From Verif Require CacheModel CacheSpec CacheProofs CacheProps.
From Verif Require Import ColumnProps ServerModel ServerSpec ServerProps ServedProps JsonSpec InertSpec InertProofs DocNameSpec DocNameProps.
Local Open Scope nat_scope.
Local Open Scope string_scope.

(** C163: whatever is in the reports, and after any history: the catalog of a folder, what is sent about a network, and what is
    sent about a fact, is UTF-8 text without control characters and without the characters less than, greater than, ampersand
    and the two line separators, so that it does not end or begin anything in a page or script it is put in. *)
Theorem C163_catalog : forall w detect files s id query p, history w s -> entry_name_ok id ->
  exchanged detect files s "GET" ("/folders/" ++ id) query (Answer (Some p)) -> status p = 200 -> inert (body p).
Proof.
  intros w detect files s id query p H I X ST. destruct (string_dec (body p) "") as [E|B]; [rewrite E; constructor|].
  apply get_catalog in X; auto. apply (uncached_content w s _ _ H) in X as (rep&_&insts&schemas&_&_&E). injection E as ->. apply catalog_inert.
Qed.
Print Assumptions C163_catalog.
(** ... except for the inline document, which is sent as it is *)
Theorem C163_network : forall w detect files s id slug query p, history w s -> entry_name_ok id -> entry_name_ok slug -> slug <> "facts" ->
  exchanged detect files s "GET" ("/folders/" ++ id ++ "/" ++ slug) query (Answer (Some p)) -> status p = 200 ->
  inert (body p) \/ (entry_named w id slug /\ inline_name slug /\ document_sent w id slug (body p)).
Proof.
  intros w detect files s id slug query p H I J N X ST. destruct (string_dec (body p) "") as [E|B]; [left; rewrite E; constructor|].
  destruct (network_sent _ _ _ _ _ _ _ _ H I J N X ST B) as (name&h&R&M). destruct M as [(->&IN&D)|[_ M]].
  - right. split; [apply R|]. auto.
  - left. inversion M as [o RR E|]; subst. inversion RR as [|insts schemas e r p0 d c conf VI VS F P D C NP ND NC RS DN E]; subst.
    unfold renderable_bytes in E. destruct (marshal_renderable _ _ _ _ _) as [rn| |]; cbn [bind] in E; try discriminate. injection E as <-. apply renderable_inert.
Qed.
Print Assumptions C163_network.
Theorem C163_fact : forall w detect files s id query vs n c k ref p, history w s -> entry_name_ok id ->
  query_fields query vs -> field vs "name" n -> field vs "contextref" c -> encodes k n -> encodes ref c ->
  exchanged detect files s "GET" ("/folders/" ++ id ++ "/facts") query (Answer (Some p)) -> status p = 200 -> inert (body p).
Proof.
  intros w detect files s id query vs n c k ref p H I QF FN FC EN EC X ST. destruct (string_dec (body p) "") as [E|B]; [rewrite E; constructor|].
  eapply get_fact in X; eauto. apply (uncached_content w s _ _ H) in X as (rep&_&e&_&E).
  destruct (marshal_expressable _ _ _ _) as [[x|]| |]; cbn [bind option_map] in E; try discriminate. injection E as ->. apply expressable_inert.
Qed.
Print Assumptions C163_fact.

(** What that means for the bytes: no control characters and none of the three characters of markup among them. *)
Theorem C163_bytes : forall s c, inert s -> In c (list_ascii_of_string s) -> (32 <= N_of_ascii c)%N /\ c <> "<"%char /\ c <> ">"%char /\ c <> "&"%char.
Proof.
  intros s c I H. destruct (inert_bytes _ I c H) as [G|[M G]].
  - split; [lia|]. repeat split; intros ->; vm_compute in G; now apply G.
  - split; [exact M|]. repeat split; intros ->; apply G; unfold markup; cbn; tauto.
Qed.
Print Assumptions C163_bytes.

(** A label with an element and an ampersand in it is not inert as it is; quoted, it is. *)
Example C163_text : ~ inert "<b>&" /\ inert (JsonModel.quoted "<b>&") /\ JsonModel.quoted "<b>&" = """\u003cb\u003e\u0026""".
Proof.
  split; [|split; [apply quoted_inert|reflexivity]].
  intro I. destruct (C163_bytes _ "<"%char I) as (_&N&_); [now left|now apply N].
Qed.
(** The hypotheses are met: a catalog, a network and a fact are answered with 200. *)
Example C163_example :
  (exists files s p, history ask_world s /\ entry_name_ok "f" /\ exchanged (w_detect ask_world) files s "GET" "/folders/f" "" (Answer (Some p)) /\ status p = 200 /\ body p <> "") /\
  (exists files s p, history (world_with noted_disk noted_outside) s /\ entry_name_ok pair_slug /\ pair_slug <> "facts" /\
     exchanged (fun _ => "") files s "GET" ("/folders/f/" ++ pair_slug) "" (Answer (Some p)) /\ status p = 200 /\ body p <> "") /\
  (exists files s p vs, history ask_world s /\ query_fields "name=a:A&contextref=c" vs /\ field vs "name" "a:A" /\ field vs "contextref" "c" /\
     encodes "a:A" "a:A" /\ encodes "c" "c" /\
     exchanged (w_detect ask_world) files s "GET" "/folders/f/facts" "name=a:A&contextref=c" (Answer (Some p)) /\ status p = 200 /\ body p <> "").
Proof.
  split; [|split].
  - destruct C161_example as (files&s&p&_&H&I&_&_&_&X&ST&B&_). exists files, s, p. auto.
  - destruct C137_served_example as (files&s&p&H&_&I&N&X&ST&B&_). exists files, s, p. auto 10.
  - destruct ask_loaded as (doc&K&HD&L).
    assert (EN : entry_named ask_world "f" "x.htm") by (exists "/wd/folders/f/_"; split; reflexivity).
    destruct (loaded_hydrated ask_world "f" "x.htm" plain_order (ask_hydratable doc) plain_orders EN L) as (f&D&Y&_).
    destruct (ask_answered doc K HD) as (b&M).
    assert (NB : b <> "").
    { destruct M as (e&_&E). destruct (marshal_expressable _ _ _ _) as [[x|]| |]; cbn [bind option_map] in E; try discriminate E. injection E as ->.
      destruct (C119_expressable x) as (v&[V _]&_). exact (json_nonempty _ _ V). }
    assert (Q : exists m, CacheProofs.sequence (services_of ask_world) false true [] [(CacheModel.RFact "f" "a:A" "c", Ok (CacheModel.VBytes (Some b)))] m).
    { eexists. eapply CacheProofs.seq_cons; [|apply CacheProofs.seq_nil]. cbn [CacheModel.program]. unfold CacheModel.marshal_expressable, CacheModel.with_hydratable.
      eapply CacheProofs.solo_miss; [reflexivity|]. eapply CacheProofs.solo_compute; [exact D|]. cbv beta iota. eapply CacheProofs.solo_call; [exact Y|]. cbv beta iota.
      unfold CacheModel.save. eapply CacheProofs.solo_spawn. eapply CacheProofs.solo_miss; [reflexivity|].
      unfold CacheModel.and_save. eapply CacheProofs.solo_call; [exact M|]. cbv beta iota. unfold CacheModel.save. eapply CacheProofs.solo_spawn.
      eapply CacheProofs.solo_answer. }
    destruct Q as (m&Q). destruct (CacheProps.history_of _ _ _ _ _ Q) as (s&RN&_&RQ&A).
    set (sv := Services (fun _ => Panic) (fun _ _ => Panic) (fun _ _ _ => Ok (Some b)) (fun _ _ => None)).
    set (vs := [("name", "a:A"); ("contextref", "c")]).
    assert (QF : query_fields "name=a:A&contextref=c" vs) by (apply parse_query_iff; reflexivity).
    assert (F1 : field vs "name" "a:A") by exact (values_get_field "name" vs).
    assert (F2 : field vs "contextref" "c") by exact (values_get_field "contextref" vs).
    assert (E1 : encodes "a:A" "a:A") by (apply unescape_iff; reflexivity). assert (E2 : encodes "c" "c") by (apply unescape_iff; reflexivity).
    assert (I : entry_name_ok "f") by (repeat split; discriminate).
    destruct (C123_get (w_detect ask_world) sv ("/folders/" ++ "f" ++ "/" ++ "facts") "name=a:A&contextref=c" (FactsOf "f")) as (x&E&_&R).
    { apply network_tidy; auto; repeat split; discriminate. }
    { apply ad_facts; [now apply entry_part|reflexivity]. }
    destruct (R _ _ _ QF F1 F2) as [_ R']. destruct (R' _ _ E1 E2) as (p&->&ST&BD).
    exists (fun _ _ => None), s, p, vs. split.
    { exists false, true. split; auto. cbn [map fst] in RQ. rewrite RQ. split.
      - intros q [<-|[]]; cbn; repeat split; discriminate.
      - intros i n c0 i1 n1 c1 [X|[]] [X1|[]] E0. rewrite X in X1. injection X1 as -> -> ->. auto. }
    split; [exact QF|]. split; [exact F1|]. split; [exact F2|]. split; [exact E1|]. split; [exact E2|]. split; [|split; [exact ST|rewrite BD; exact NB]].
    exists sv. split; [reflexivity|]. split; [now symmetry|]. intros q (_&vs'&n&c&P&U1&U2&->).
    assert (V : vs' = vs) by (vm_compute in P; now injection P).
    subst vs'. vm_compute in U1, U2. injection U1 as <-. injection U2 as <-. apply A. now left.
Qed.
