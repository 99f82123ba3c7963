(** Theorems about the server on a machine. *)
From Coq Require Import Strings.String Strings.Ascii Lists.List Bool.
From Verif Require Import GoBase GoSpec GoFacts PathSpec PathModel PathProofs AttrModel SchemaModel SchemaSpec LinkbaseModel LinkbaseSpec LinkbaseProps InstanceModel InstanceProps HydrateModel
  DiscoverModel DiscoverSpec DiscoverProofs DiscoverProps XmlModel XmlSpec XmlProps LoadModel LoadSpec LoadProofs LoadProps ImageModel ReportModel EndToEndProps ReportProps WebModel WebSpec WebProofs WebProps RouterModel RouterSpec RouterProofs RouterProps
  ServerModel ServerSpec ServerProps IsolateSpec IsolateProofs IsolateProps SetupModel.
From Verif Require CacheModel CacheSpec CacheProofs CacheProps CatalogModel.
Import ListNotations.
Local Open Scope string_scope.

(** ** C133: an address leads to one folder below the working directory *)
Lemma called_path method path query q id : called method path query q -> folder_of_request q = Some id ->
  part_name id /\ (path = "/folders/" ++ id \/ exists rest, path = "/folders/" ++ id ++ "/" ++ rest).
Proof.
  intros (_&C) F. rewrite try_table in C.
  assert (M : forall m, try_route method path (Subrouter T_folders table) false = Missed m -> False).
  { intros m E. rewrite E in C. cbn [try_route] in C. destruct (fit [Text "/"] path) as [[? ?]|]; [|destruct m; exact C]. exact C. }
  destruct (forms path) as [S|r -> R|i P ->|i P ->|i h P Q ->|i h r P G ->].
  - exfalso. destruct (to_other method path S) as (m&E). eauto.
  - exfalso. destruct (to_empty method r R) as (m&E). eauto.
  - rewrite to_id in C, M by auto. destruct (String.eqb method "GET"); [|exfalso; eauto]. subst q. injection F as <-. cbn. auto.
  - exfalso. change ("/folders/" ++ i ++ "/") with ("/folders/" ++ i ++ "/" ++ "") in M. rewrite to_deep in M by auto. cbn in M. eauto.
  - rewrite to_deep in C, M by auto. destruct (String.eqb h "facts").
    + destruct (String.eqb method "GET"); [|exfalso; eauto]. destruct C as (vs&n&c&_&_&_&->). injection F as <-. cbn. eauto.
    + rewrite seg_part0 in C, M by auto. rewrite part_nonempty in C, M by auto. cbn [negb nonempty andb] in C, M.
      destruct (String.eqb method "GET"); [|exfalso; eauto]. subst q. injection F as <-. cbn. eauto.
  - exfalso. rewrite to_deep in M by auto. destruct (String.eqb_spec (h ++ "/" ++ r) "facts") as [E|_].
    + assert (X : free_of "/" (h ++ "/" ++ r)) by (rewrite E; apply facts_name). apply free_of_app in X as [_ [X _]]. now apply X.
    + rewrite segment_app in M by auto using slash_rest. cbn in M. rewrite andb_false_r in M. eauto.
Qed.
Lemma tidy_segments path : tidy path -> forall x, In x (split "/" path) -> x = "" \/ entry_name_ok x.
Proof.
  intros (ns&F&[->|[N ->]]) x I.
  - change ("/" ++ String.concat "/" ns) with ("" ++ String "/" (String.concat "/" ns)) in I. rewrite split_app in I by exact Logic.I.
    destruct I as [<-|I]; auto. destruct ns as [|n ns]; [destruct I as [<-|[]]; auto|].
    rewrite split_concat in I; [|discriminate|]. { right. rewrite Forall_forall in F. now apply F. }
    eapply Forall_impl; [|exact F]. now intros a (_&_&_&A).
  - change ("/" ++ String.concat "/" ns ++ "/") with ("" ++ String "/" (String.concat "/" ns ++ "/")) in I. rewrite split_app in I by exact Logic.I.
    destruct I as [<-|I]; auto. change (String.concat "/" ns ++ "/") with (String.concat "/" ns ++ String "/" "") in I. rewrite split_glue in I.
    apply in_app_iff in I as [I|[<-|[]]]; auto. right. rewrite split_concat in I; auto. { rewrite Forall_forall in F. now apply F. }
    eapply Forall_impl; [|exact F]. now intros a (_&_&_&A).
Qed.
Lemma called_entry method path query q id : called method path query q -> folder_of_request q = Some id -> entry_name_ok id.
Proof.
  intros C F. pose proof C as (T&_). apply clean_iff in T. destruct (called_path _ _ _ _ _ C F) as [[NE FR] P].
  assert (I : In id (split "/" path)).
  { assert (E : exists r, split "/" path = "" :: "folders" :: id :: r \/ split "/" path = ["" ; "folders"; id]).
    { destruct P as [->|(r&->)].
      - exists []. left. change ("/folders/" ++ id) with ("" ++ String "/" ("folders" ++ String "/" id)). rewrite split_app by exact Logic.I.
        rewrite split_app by (repeat split; discriminate). now rewrite split_free_one.
      - exists (split "/" r). left. change ("/folders/" ++ id ++ "/" ++ r) with ("" ++ String "/" ("folders" ++ String "/" (id ++ String "/" r))). rewrite split_app by exact Logic.I.
        rewrite split_app by (repeat split; discriminate). now rewrite split_app. }
    destruct E as (r&[->| ->]); do 2 right; now left. }
  destruct (tidy_segments path T id I); [contradiction|auto].
Qed.

Lemma below_below l a b : below (below l a) b = below l (a ++ b).
Proof. unfold below. cbn. now rewrite app_assoc. Qed.
Lemma working_place m l : PathSpec.leads_to (given m (m_WD m)) l -> place (working_directory m) = below l ["wd"].
Proof.
  intro L. apply leads_to_iff in L. subst l. unfold working_directory. destruct (String.eqb_spec (given m (m_WD m)) "") as [->|N]; [reflexivity|].
  change [given m (m_WD m); "wd"] with ([given m (m_WD m)] ++ ["wd"])%list. rewrite place_join_snoc.
  - unfold join. cbn [filter]. destruct (given m (m_WD m)) as [|c s] eqn:E; [contradiction|]. cbn [nonempty String.concat]. now rewrite clean_text, place_text by apply place_ok.
  - exists (given m (m_WD m)). split; [now left|auto].
  - repeat split; discriminate.
Qed.
Theorem C133_address : forall m base l method path query q id,
  (m_WD m <> "" -> base = m_WD m) -> (m_WD m = "" -> m_cwd m = Some base) -> PathSpec.leads_to base l ->
  called method path query q -> folder_of_request q = Some id ->
  entry_name_ok id /\ PathSpec.leads_to (folder_at (world_on m) id) (below l ["wd"; "folders"; id]).
Proof.
  intros m base l method path query q id B1 B2 L C F. pose proof (called_entry _ _ _ _ _ C F) as E. split; auto.
  assert (G : given m (m_WD m) = base).
  { unfold given. destruct (String.eqb_spec (m_WD m) "") as [Z|Z]; [|symmetry; auto]. unfold current. now rewrite (B2 Z). }
  rewrite <- G in L. apply working_place in L. apply leads_to_iff. unfold folder_at. cbn [world_on w_wd].
  assert (N : exists e, In e [working_directory m] /\ e <> "").
  { exists (working_directory m). split; [now left|]. intro Z. rewrite Z in L. apply (f_equal names) in L. cbn in L. now destruct (names l). }
  change [working_directory m; "folders"; id] with (([working_directory m] ++ ["folders"]) ++ [id])%list.
  rewrite place_join_snoc; auto; [rewrite place_join_snoc; auto; [|repeat split; discriminate]|].
  - destruct N as (e&[<-|[]]&N). unfold join. cbn [filter]. destruct (working_directory m) as [|c s] eqn:W; [contradiction|]. cbn [nonempty String.concat].
    rewrite clean_text, place_text by apply place_ok. rewrite L. now rewrite !below_below.
  - destruct N as (e&I&N). exists e. split; auto. apply in_app_iff. auto.
Qed.
Print Assumptions C133_address.

(** Folders of different clients' addresses do not lie in each other. *)
Theorem C133_apart : forall m base l method path query q id method' path' query' q' id',
  (m_WD m <> "" -> base = m_WD m) -> (m_WD m = "" -> m_cwd m = Some base) -> PathSpec.leads_to base l ->
  called method path query q -> folder_of_request q = Some id ->
  called method' path' query' q' -> folder_of_request q' = Some id' -> id <> id' ->
  forall file, ~ (in_folder (world_on m) id file /\ in_folder (world_on m) id' file).
Proof.
  intros m base l method path query q id method' path' query' q' id' B1 B2 L C F C' F' N file ((a&p&A1&A2&A3)&(b&p'&A4&A5&A6)).
  destruct (C133_address m base l method path query q id B1 B2 L C F) as [_ X].
  destruct (C133_address m base l method' path' query' q' id' B1 B2 L C' F') as [_ X'].
  apply leads_to_iff in A1, A2, A4, A5, X, X'. subst a b p p'. rewrite <- X in A3. rewrite <- X' in A6.
  destruct A3 as (m1&A3), A6 as (m2&A6). rewrite A3 in A6.
  apply (f_equal names) in A6. cbn in A6. rewrite <- !app_assoc in A6. apply app_inv_head in A6. cbn in A6. now injection A6.
Qed.
Print Assumptions C133_apart.

Definition small_machine : machine :=
  Machine (Some "/srv/telefacts") "" "" (fun _ => None) (fun s => String.eqb (substring 0 7 s) "http://")
    (fun s => Ok (Url "http" "h" "", "h")) (fun _ => Ok []) pair_world.
Example C133_example : exists l q,
  PathSpec.leads_to "/srv/telefacts" l /\ called "GET" "/folders/f/facts" "name=a&contextref=c" q /\ folder_of_request q = Some "f" /\
  PathSpec.leads_to "/srv/telefacts/wd/folders/f" (below l ["wd"; "folders"; "f"]) /\
  folder_at (world_on small_machine) "f" = "/srv/telefacts/wd/folders/f".
Proof.
  exists (place "/srv/telefacts"), (CacheModel.RFact "f" "a" "c"). split; [now apply leads_to_iff|]. split.
  - split; [vm_compute; reflexivity|]. vm_compute. repeat eexists.
  - split; [reflexivity|]. split; [|reflexivity]. apply leads_to_iff. reflexivity.
Qed.

(** ** C134: the server starts *)
Lemma decode_returns {A} tag (f : _ -> A) x : decode tag f x <> Panic.
Proof. unfold decode. destruct x as [t|]; try discriminate. destruct (has_tag tag t); discriminate. Qed.
Lemma units_return m : units_read m <> Panic.
Proof.
  unfold units_read. destruct (global_file m CacheModel.UTR); [|discriminate].
  destruct (decode_utr _) eqn:E; try discriminate. now apply decode_returns in E.
Qed.
Lemma names_return m : (forall b, m_names m b <> Panic) -> names_read m <> Panic.
Proof. intros N. unfold names_read. destruct (d_file _ _); [apply N|discriminate]. Qed.
Lemma schema_returns w url : schema_from w url <> Panic.
Proof.
  unfold schema_from, global_schema_file. destruct (d_global _ _); [|discriminate].
  destruct (decode_schema _) eqn:E; cbn; try discriminate; [|now apply decode_returns in E].
  unfold hydrate_schema. destruct (negb (nonempty url)); discriminate.
Qed.
Section Start.
  Import CacheModel CacheSpec CacheProofs CacheProps.
  Definition lift {A H S N U} (v : A -> value H S N U) (r : res A) : res (value H S N U) :=
    match r with Ok x => Ok (v x) | Err e => Err e | Panic => Panic end.
  Lemma lift_returns {A H S N U} (v : A -> value H S N U) r : r <> Panic -> lift v r <> Panic.
  Proof. destruct r; cbn; intros; congruence. Qed.
  Lemma start_sequence m : exists c,
    sequence (services_of (world_on m)) false true []
      [(RNames, lift (VNames (utr := _)) (names_read m)); (RSchema LRR, lift (VSchema (utr := _)) (schema_from (world_on m) LRR)); (RUtr, lift (VUtr (utr := _)) (units_read m))] c /\
    (forall n, names_read m = Ok n -> mget String.eqb "names.json" c = Some (VNames n)) /\
    (forall id, id <> "names.json" -> id <> LRR -> id <> UTR -> mget String.eqb id c = None).
  Proof.
    destruct (names_read m) as [n|e|] eqn:N; destruct (schema_from (world_on m) LRR) as [sc|e'|] eqn:S; destruct (units_read m) as [u|e''|] eqn:U;
      eexists; (split; [repeat (eapply seq_cons; [cbn [program hydrate_entity_names hydrate_global_schema hydrate_unit_type_registry];
        eapply solo_miss; [reflexivity|]; eapply solo_compute; [cbn; symmetry; eassumption|]; cbn [lift]; repeat eapply solo_spawn; apply solo_answer|]); apply seq_nil|]);
      (split; [intros n' [= <-] || discriminate; try discriminate; reflexivity|]);
      intros id A B C; rewrite ?(mget_mset_neq _ seqP) by auto; reflexivity.
  Qed.
End Start.
Section Started.
  Import CacheModel CacheSpec CacheProofs CacheProps.
  Lemma starting_usual qs : (forall q, In q qs -> In q starting) -> separate qs.
  Proof.
    intros H. apply usual_separate.
    - intros q I. destruct (H q I) as [<-|[<-|[<-|[]]]]; cbn; auto. split; [|discriminate].
      now exists "http:", "www.xbrl.org/2003/xbrl-role-2003-07-31.xsd".
    - intros i n c i' n' c' I. destruct (H _ I) as [E|[E|[E|[]]]]; discriminate E.
  Qed.
  Lemma starting_returns m q : In q starting -> returns_for (services_of (world_on m)) q.
  Proof. intros [<-|[<-|[<-|[]]]]; cbn; eauto. Qed.
  Lemma starting_answers m q r : (forall b, m_names m b <> Panic) -> In q starting -> uncached (services_of (world_on m)) true q r -> r <> Panic.
  Proof.
    intros N [<-|[<-|[<-|[]]]] (a&E&->).
    - apply (lift_returns (VNames (utr := _))). cbn in E. rewrite E. now apply names_return.
    - apply (lift_returns (VSchema (utr := _))). cbn in E. rewrite E. apply schema_returns.
    - apply (lift_returns (VUtr (utr := _))). cbn in E. rewrite E. apply units_return.
  Qed.
End Started.

Lemma run_continues {F H S N U} (sv : CacheModel.services F H S N U) dry injected s0 s s' : CacheModel.run sv dry injected s0 s -> CacheSpec.continues s s' ->
  CacheModel.run sv dry injected s0 s' /\ CacheModel.requests s' = CacheModel.requests s.
Proof.
  intros R Co. induction Co as [s|s s1 s2 Co IH Hu Hg]; auto. destruct IH as [IH1 IH2]; auto.
  split; [eapply CacheModel.run_step; [exact IH1|now apply CacheModel.step_run]|]. now rewrite (CacheProofs.gstep_requests _ _ Hg).
Qed.
(** If the current directory can be read, the server starts, whatever files there are: the three
    calls before it listens return, on every schedule. *)
Theorem C134_partial : forall m, m_cwd m <> None -> (forall b, m_names m b <> Panic) ->
  exists w, setup m = Ok w /\ (exists s, started w s) /\
  forall s, CacheModel.run (services_of w) false true (CacheModel.initial []) s -> (forall q, In q (CacheModel.requests s) -> In q starting) ->
    CacheModel.up s /\ (forall q r, CacheModel.answered s q r -> r <> Panic) /\
    Acc (fun s2 s1 => CacheModel.gstep s1 s2) s /\
    forall s', CacheSpec.continues s s' -> CacheSpec.at_rest s' -> forall q, In q (CacheModel.requests s) -> exists r, CacheModel.answered s' q r.
Proof.
  intros m C N. exists (world_on m). split; [|split].
  - unfold setup. now destruct (m_cwd m).
  - destruct (start_sequence m) as (c&S&_&_).
    destruct (CacheProps.settled_sequence _ _ _ _ S (fun _ => CacheModel.RW 0 false) []) as (m1&ts&R&_&_&A&Q); [now intros l|constructor|].
    eexists. split; [exact R|]. split; [exact Q|].
    intros q [<-|[<-|[<-|[]]]]; eexists; (split; [apply A; cbn; eauto|]).
    + apply lift_returns. now apply names_return.
    + apply lift_returns. apply schema_returns.
    + apply lift_returns. apply units_return.
  - intros s R I. pose proof (starting_usual _ I) as SEP.
    assert (UP : forall s', CacheModel.run (services_of (world_on m)) false true (CacheModel.initial []) s' -> (forall q, In q (CacheModel.requests s') -> In q starting) -> CacheModel.up s').
    { intros s' R' I'. destruct (CacheProofs.up_dec s') as [U|U]; auto. exfalso.
      destruct (CacheProps.C131_cause_partial _ _ _ _ _ _ _ _ _ R' (starting_usual _ I') U) as [(q&Q&D) _].
      destruct (I' q Q) as [<-|[<-|[<-|[]]]]; exact D. }
    split; [now apply UP|]. split.
    { intros q r A. pose proof (I q (answered_request _ _ _ A)) as Q. apply (starting_answers m q r N Q).
      apply (CacheProps.C94_transparent_partial _ _ _ _ _ _ _ _ _ _ _ R SEP A). destruct Q as [<-|[<-|[<-|[]]]]; cbn; tauto. }
    destruct (CacheProps.C59_answered_partial _ _ _ _ _ _ _ _ _ R SEP) as [AC K]. split; auto.
    intros s' Co Re q Q. destruct (K s' Co Re) as [E|[A _]]; [exfalso|apply A; auto; now apply starting_returns; apply I].
    destruct (run_continues _ _ _ _ _ _ R Co) as [R' RQ]. apply (CacheProofs.up_not_ended _ (UP s' R' ltac:(now rewrite RQ)) E).
Qed.
Print Assumptions C134_partial.
(** Refuted without: NewRouter panics if the current directory cannot be read, although the
    directories to be used are given (the fallback of main.go:37-39 is of no use). *)
Theorem C134_refuted : forall m, m_cwd m = None -> setup m = Panic /\ forall s, ~ operating m s.
Proof.
  intros m C. split; [unfold setup; now rewrite C|]. intros s (w&s0&E&_). unfold setup in E. rewrite C in E. discriminate E.
Qed.
Print Assumptions C134_refuted.
Example C134_example : m_cwd small_machine <> None /\ (forall b, m_names small_machine b <> Panic) /\
  exists m, m_cwd m = None /\ m_WD m = "/data" /\ m_GTS m = "/data".
Proof.
  split; [discriminate|]. split; [discriminate|].
  exists (Machine None "/data" "/data" (fun _ => None) (fun _ => false) (fun _ => Panic) (fun _ => Ok []) pair_world). auto.
Qed.

(** What is proved of histories (ServerSpec.history) holds of the server in operation. *)
Lemma operating_history m s : operating m s -> (forall q, In q (CacheModel.requests s) -> CacheSpec.usual q) ->
  CacheSpec.no_collision (CacheModel.requests s) -> history (world_on m) s.
Proof.
  intros (w&s0&E&(R0&_)&R) U C. unfold setup in E. destruct (m_cwd m); [|discriminate]. injection E as <-.
  exists false, true. split; auto. eapply CacheProofs.run_trans; eauto.
Qed.

(** ** C59 on a machine *)

(** Wherever names.json can be read and there is one report that can be loaded, two requests
    that every client can make leave the server unable to answer any later request for a
    report. *)
Theorem C59_machine_refuted : forall m n id f h, m_cwd m <> None -> (forall b, m_names m b <> Panic) -> names_read m = Ok n ->
  entry_name_ok id -> id <> "names.json" ->
  discovered (world_on m) id (Ok f) -> hydrated_as (world_on m) f (Ok h) ->
  called "GET" "/folders/names.json" "" (CacheModel.RCatalog "names.json") /\ called "GET" ("/folders/" ++ id) "" (CacheModel.RCatalog id) /\
  exists s, operating m s /\ CacheModel.requests s = (starting ++ [CacheModel.RCatalog "names.json"; CacheModel.RCatalog id])%list /\
    CacheSpec.deaf_after (services_of (world_on m)) false true s.
Proof.
  intros m n id f h C NP N EN X1 D Hy. destruct EN as (X0&X2&X3&X4). assert (P : part_name id) by now split.
  assert (FR : free_of "/" id) by apply P.
  split; [split; [reflexivity|]; vm_compute; reflexivity|]. split.
  { split.
    - apply clean_iff. exists ["folders"; id]. split; [|now left].
      constructor; [repeat split; discriminate|]. constructor; [|constructor]. destruct P. repeat split; auto.
    - rewrite try_table, to_id by auto. reflexivity. }
  destruct (start_sequence m) as (c&S&K1&K2).
  destruct (CacheProps.settled_sequence _ _ _ _ S (fun _ => CacheModel.RW 0 false) []) as (m1&ts&R&F&Se&A&Q); [now intros l|constructor|].
  destruct (CacheProps.wedging (services_of (world_on m)) c m1 ts n id f h F Se) as (s&R2&E&DA); auto.
  { apply K2; auto; intros ->; cbv in FR; intuition. }
  exists s. split; [|split; auto].
  - exists (world_on m), (CacheModel.State c m1 ts). split; [unfold setup; now destruct (m_cwd m)|]. split; auto. split; [exact R|]. split; [exact Q|].
    intros q [<-|[<-|[<-|[]]]]; eexists; (split; [apply A; cbn; eauto|]).
    + apply lift_returns. now apply names_return.
    + apply lift_returns. apply schema_returns.
    + apply lift_returns. apply units_return.
  - rewrite E. cbn [app] in Q. rewrite Q. reflexivity.
Qed.
Print Assumptions C59_machine_refuted.
(** A machine with a report, a registry of units and names of entities. *)
Definition report_rest : world :=
  World (small_disk [(in_dir "x.xml", up_doc); ("/gts/concepts/http/www.xbrl.org/utr/utr.xml", el "http://www.xbrl.org/2009/utr" "utr" [] []); ("/wd/names.json", up_doc)])
    "" (fun _ => Ok "x.xml") (fun _ => None) (fun _ => "") (fun _ => "") (fun _ => None) (fun _ => None) ex_pf ex_tokens pair_outside.
Definition report_machine : machine :=
  Machine (Some "/") "" "" (fun _ => Some "utr.xml") (fun s => String.eqb (substring 0 7 s) "http://")
    (fun s => Ok (Url "http" "www.xbrl.org" "/utr/utr.xml", "www.xbrl.org"))
    (fun _ => Ok [("urn:s", [("0", "Smith plc")])]) report_rest.
Definition report_folder : folder := DiscoverModel.finish "x.xml" (instance_struct up_doc) (first_folder (files_of (disk_on report_machine)) small_dir "x.xml").
Lemma report_discovered : discovered (world_on report_machine) "f" (Ok (Found report_folder None)).
Proof.
  exists (Ok report_folder). split; [|reflexivity].
  assert (EI : entry_instance (files_of (disk_on report_machine)) small_dir "x.xml" "x.xml" (instance_struct up_doc)).
  { apply entry_iff. exists up_doc. split; auto. split; [right; split; auto; right; now exists "x"|]. split.
    - exists (in_dir "x.xml"). split; [reflexivity|]. split; [reflexivity|do 4 eexists; reflexivity].
    - intros [(x&E)|(x&E)]; exfalso.
      + assert (H : has_suffix "x.xml" ".xhtml") by now exists x. apply suffix_xhtml in H. discriminate H.
      + assert (H : has_suffix "x.xml" ".htm") by now exists x. apply suffix_htm in H. discriminate H. }
  apply (discover_iff _ _ _ _ _ _ _ EI). eexists. split; [apply fruns_refl|]. split; [constructor|reflexivity].
Qed.
Definition report_hydrated : res hydratable := hydrate ex_pf plain_order (d_url (disk_on report_machine)) (global_schema_file (disk_on report_machine)) ex_tokens (units_read report_machine) (Ok None) report_folder.
Lemma report_hydrates : exists h, hydrated_as (world_on report_machine) (Found report_folder None) (Ok (Report h None)).
Proof.
  assert (E : exists h, report_hydrated = Ok h) by (vm_compute; eauto). destruct E as (h&E). exists h. exists plain_order, (Ok None). split; [exact plain_orders|]. split; [constructor|].
  split; [discriminate|]. unfold hydrating. cbn [fo_folder fo_bytes]. change (hydrate _ _ _ _ _ _ _ _) with report_hydrated. now rewrite E.
Qed.
Example C59_machine_example : exists n f h, m_cwd report_machine <> None /\ (forall b, m_names report_machine b <> Panic) /\ names_read report_machine = Ok n /\
  entry_name_ok "f" /\ discovered (world_on report_machine) "f" (Ok f) /\ hydrated_as (world_on report_machine) f (Ok h).
Proof.
  destruct report_hydrates as (h&Y). do 3 eexists. split; [discriminate|]. split; [discriminate|]. split; [reflexivity|]. split; [repeat split; discriminate|].
  split; [exact report_discovered|exact Y].
Qed.

(** ** C135: what is missing without the global files *)

Lemma hydrated_registry w id rep : CacheSpec.hydrated (services_of w) id (Ok rep) -> exists u, o_units (w_out w) = Ok u.
Proof.
  intros H. inversion H as [| |f r _ (sh&doc&_&_&_&E) Er]. subst r. unfold hydrating, hydrate in E.
  destruct (o_units (w_out w)) as [u|e|]; [eauto|exfalso..];
    repeat (match type of E with context [bind (hydrate_each ?f ?l)] => destruct (hydrate_each f l); cbn [bind] in E; try discriminate E end).
Qed.
(** Without a readable registry of units nothing of any report is ever served, although the
    start-up goes on (C134). *)
Theorem C135_registry_refuted : forall m s, (forall u, units_read m <> Ok u) -> operating m s ->
  (forall q, In q (CacheModel.requests s) -> CacheSpec.usual q) -> CacheSpec.no_collision (CacheModel.requests s) ->
  forall q id b, folder_of_request q = Some id -> ~ CacheModel.answered s q (Ok (CacheModel.VBytes (Some b))).
Proof.
  intros m s NU O U C q id b F A. pose proof (uncached_content _ _ _ _ (operating_history m s O U C) A) as X.
  destruct q as [i|i slug|i n c| | |]; try discriminate F; destruct X as (rep&Y&_); apply hydrated_registry in Y as (u&E); now apply (NU u).
Qed.
Print Assumptions C135_registry_refuted.
(** Without readable names of entities no network is ever displayed, only the document. *)
Theorem C135_names_refuted : forall m s, (forall n, names_read m <> Ok n) -> operating m s ->
  (forall q, In q (CacheModel.requests s) -> CacheSpec.usual q) -> CacheSpec.no_collision (CacheModel.requests s) ->
  forall id slug b, CacheModel.answered s (CacheModel.RRender id slug) (Ok (CacheModel.VBytes (Some b))) ->
    exists rep, CacheSpec.hydrated (services_of (world_on m)) id (Ok rep) /\ CacheSpec.names_document (services_of (world_on m)) slug rep.
Proof.
  intros m s NU O U C id slug b A. destruct (uncached_content _ _ _ _ (operating_history m s O U C) A) as (rep&Y&[[D _]|[_ R]]); [eauto|exfalso].
  cbn [services_of CacheModel.renderable] in R. inversion R as [|insts schemas e r p d c conf V1 V2 F P D C' P1 D1 C1 S1 S2 EB]; subst.
  unfold CatalogModel.marshal_renderable in EB. rewrite F in EB. cbn [out world_on w_out o_names] in EB. unfold entity_query in EB.
  destruct (names_read m) as [n|x|] eqn:E; [now apply (NU n)|discriminate EB..].
Qed.
Print Assumptions C135_names_refuted.
(** Otherwise a missing file of names is like an empty one, and the answers about facts do not
    depend on it at all. *)
Definition with_names (w : world) (names : res (list (string * list (string * string)))) : world :=
  let o := w_out w in
  World (w_disk w) (w_wd w) (w_entry w) (w_list w) (w_detect w) (w_base64 w) (w_parse w) (w_render w) (w_float w) (w_tokens w)
    (Outside (o_url o) (o_schema o) (o_units o) names (o_tree o) (o_html o) (o_digits o) (o_percent o) (o_order o) (o_spanish o)).
Section Names.
  Variable w : world.
  Lemma names_hydrated n n' id r : CacheSpec.hydrated (services_of (with_names w n)) id r -> CacheSpec.hydrated (services_of (with_names w n')) id r.
  Proof.
    intro H. inversion H as [x D|D|f x D Y]; subst; [now apply CacheSpec.hy_missing|now apply CacheSpec.hy_panic|now apply (CacheSpec.hy_found _ _ f)].
  Qed.
  Lemma names_renders n n' h e : renders_from (out (with_names w n)) h e -> renders_from (out (with_names w n')) h e.
  Proof. intros [A B C D E]. constructor; assumption. Qed.
  Lemma names_expressable n n' h name ref o : marshalled_expressable (out (with_names w n)) h name ref o -> marshalled_expressable (out (with_names w n')) h name ref o.
  Proof. intros (e&[A1 A2 A3 A4 A5 A6 A7 A8 A9 A10 A11 A12 A13]&E). exists e. split; auto. constructor; auto. now apply (names_renders n). Qed.
End Names.
Theorem C135_facts_partial : forall w n n' id name ref r,
  CacheSpec.uncached (services_of (with_names w n)) true (CacheModel.RFact id name ref) r <-> CacheSpec.uncached (services_of (with_names w n')) true (CacheModel.RFact id name ref) r.
Proof.
  assert (K : forall w n n' id name ref r, CacheSpec.uncached (services_of (with_names w n)) true (CacheModel.RFact id name ref) r ->
    CacheSpec.uncached (services_of (with_names w n')) true (CacheModel.RFact id name ref) r).
  { intros w n n' id name ref r [(e&H&->)|[(H&->)|(h&a&H&E&->)]].
    - left. exists e. split; auto. now apply (names_hydrated w n).
    - right. left. split; auto. now apply (names_hydrated w n).
    - right. right. exists h, a. split; [now apply (names_hydrated w n)|]. split; auto. now apply (names_expressable w n). }
  split; apply K.
Qed.
Print Assumptions C135_facts_partial.
Theorem C135_catalog_partial : forall w e id r,
  CacheSpec.uncached (services_of (with_names w (Err e))) true (CacheModel.RCatalog id) r <-> CacheSpec.uncached (services_of (with_names w (Ok []))) true (CacheModel.RCatalog id) r.
Proof.
  assert (E : forall w e h o, marshalled_catalog (out (with_names w (Err e))) h o <-> marshalled_catalog (out (with_names w (Ok []))) h o).
  { intros w e h o. split; intros (i&s&A&B&C); exists i, s; auto. }
  intros w e id r. split; intros [(x&H&->)|[(H&->)|(h&a&H&M&->)]];
    [left; exists x; split; auto; now apply (names_hydrated w (Err e))|right; left; split; auto; now apply (names_hydrated w (Err e))|
     right; right; exists h, a; split; [now apply (names_hydrated w (Err e))|split; auto; now apply (E w e)]|
     left; exists x; split; auto; now apply (names_hydrated w (Ok []))|right; left; split; auto; now apply (names_hydrated w (Ok []))|
     right; right; exists h, a; split; [now apply (names_hydrated w (Ok []))|split; auto; now apply (E w e)]].
Qed.
Print Assumptions C135_catalog_partial.
Lemma machine_names m : world_on m = with_names (world_on m) (names_read m).
Proof. reflexivity. Qed.
(** A machine with the report but without the global files, in operation; and the report on a
    machine where the names only are missing. *)
Definition bare_machine : machine := Machine (Some "/") "" "" (fun _ => None) (m_request_uri report_machine) (m_parse report_machine) (fun _ => Err "EOF") report_rest.
Definition nameless_machine : machine := Machine (Some "/") "" "" (m_stat report_machine) (m_request_uri report_machine) (m_parse report_machine) (fun _ => Err "EOF") report_rest.
Example C135_example : (forall u, units_read bare_machine <> Ok u) /\ (forall n, names_read bare_machine <> Ok n) /\
  (exists s, operating bare_machine s /\ (forall q, In q (CacheModel.requests s) -> CacheSpec.usual q) /\ CacheSpec.no_collision (CacheModel.requests s)) /\
  (forall n, names_read nameless_machine <> Ok n) /\ exists rep, CacheSpec.hydrated (services_of (world_on nameless_machine)) "f" (Ok rep).
Proof.
  split; [vm_compute; discriminate|]. split; [vm_compute; discriminate|]. split; [|split; [vm_compute; discriminate|]].
  - destruct (C134_partial bare_machine) as (w&E&(s&S)&_); [discriminate|discriminate|]. exists s. split; [|].
    + exists w, s. split; auto. split; auto. apply CacheModel.run_refl.
    + destruct S as (_&Q&_). rewrite Q. split.
      * intros q [<-|[<-|[<-|[]]]]; cbn; auto. split; [|discriminate]. now exists "http:", "www.xbrl.org/2003/xbrl-role-2003-07-31.xsd".
      * intros i n c i' n' c' [X|[X|[X|[]]]]; discriminate X.
  - destruct report_hydrates as (h&Y). eexists. rewrite machine_names.
    apply (names_hydrated (world_on nameless_machine) (names_read report_machine)).
    change (with_names _ _) with (world_on report_machine). apply (CacheSpec.hy_found (services_of (world_on report_machine)) "f" (Found report_folder None)); [exact report_discovered|exact Y].
Qed.
