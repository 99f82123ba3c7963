(** * LifeProps: C131 (a request for one report does not take the server down) *)
From Verif Require Import GoBase GoSpec GoFacts AttrModel AttrSpec AttrProofs SchemaModel SchemaSpec SchemaProofs SchemaProps
  LinkbaseModel LinkbaseSpec LinkbaseProofs LinkbaseProps InstanceModel InstanceSpec InstanceProofs InstanceProps
  HydrateModel HydrateSpec HydrateProofs HydrateProps LabelModel LabelSpec LabelProofs LabelProps PeriodModel PeriodSpec PeriodProofs PeriodProps
  FactModel FactSpec FactProofs FactProps GridModel GridSpec GridProofs GridProps CalcModel CalcSpec CalcProofs CalcProps DefModel DefSpec DefProofs DefProps
  RenderModel RenderSpec RenderProofs RenderProps ExpressModel ExpressSpec ExpressProofs ExpressProps
  DiscoverModel DiscoverSpec DiscoverProofs DiscoverProps XmlModel XmlSpec XmlProofs XmlProps LoadModel LoadSpec LoadProofs LoadProps
  CatalogModel CatalogSpec CatalogProofs CatalogProps ReportModel ResponseModel ResponseSpec ResponseProofs ResponseProps EndToEndSpec EndToEndProps
  ReportSpec ReportProofs ReportProps CrashProps ImageModel ImageSpec WebModel WebSpec PathSpec RouterModel RouterSpec RouterProofs.
From Verif Require CacheModel CacheSpec CacheProofs CacheProps.
From Verif Require Import ServerModel ServerSpec ServerProps.
Local Open Scope string_scope.

(** ** Contexts and facts of a loaded instance *)
Lemma chardata_nonempty (x : tree) t : In (XmlText t) (kids x) -> t <> "" -> chardata x <> "".
Proof.
  intros H N E. rewrite chardata_direct in E. unfold direct_text in E.
  induction (kids x) as [|k ks IH]; [destruct H|]. cbn [fold_right] in E. destruct H as [->|H].
  - destruct t; [auto|discriminate E].
  - apply IH; auto. destruct k as [s|n a i k]; auto. destruct s; [exact E|discriminate E].
Qed.
Lemma collectM_keeps {A B} (f : A -> res (option B)) l l' x y : collectM f l = Ok l' -> In x l -> f x = Ok (Some y) -> In y l'.
Proof.
  revert l'. induction l as [|a l IH]; intros l'; cbn [collectM]; [intros _ []|].
  destruct (f a) as [o| |] eqn:E; cbn [bind]; try discriminate. destruct (collectM f l) as [ys| |]; cbn [bind]; try discriminate.
  intros [= <-] [->|H] F.
  - rewrite F in E. injection E as <-. now left.
  - specialize (IH ys eq_refl H F). destruct o; [now right|exact IH].
Qed.
Lemma collectM_each {A B} (f : A -> res (option B)) l l' x : collectM f l = Ok l' -> In x l -> exists o, f x = Ok o.
Proof.
  revert l'. induction l as [|a l IH]; intros l'; cbn [collectM]; [intros _ []|].
  destruct (f a) as [o| |] eqn:E; cbn [bind]; try discriminate. destruct (collectM f l) as [ys| |]; cbn [bind]; try discriminate.
  intros _ [->|H]; eauto.
Qed.
Lemma context_kept q tokens root file i x r : no_homonyms root -> hydrate_instance q tokens (Some (instance_struct root)) file = Ok i ->
  In x (kids root) -> context_called x r -> exists c, In c (iContexts i) /\ ctxID c = r.
Proof.
  intros NH H Hx (N&ID&en&idt&t&sch&FE&FI&Ht&NT&SC). unfold hydrate_instance in H. destruct (negb _); [discriminate|].
  unfold hydrate_contexts in H. destruct (collectM _ _) as [cs| |] eqn:C; cbn [bind] in H; try discriminate. injection H as <-. cbn [iContexts].
  assert (HN : forall y s l, y = x \/ near x y -> named s l y -> (In l xbrli_names -> s = xbrli) /\ (In l xbrldi_names -> s = xbrldi)).
  { intros y s l R. apply NH. exists x. auto. }
  assert (R1 : reach x x) by now left.
  assert (RE : reach x en) by (eapply child_reach; eauto; discriminate).
  assert (O1 : only_in xbrli "entity" x) by (eapply only_xbrli; eauto; cbn; tauto).
  assert (O2 : only_in xbrli "identifier" en) by (eapply only_xbrli; eauto; cbn; tauto).
  apply (field_first xbrli "entity" x en O1) in FE as (r1&FE). apply (field_first xbrli "identifier" en idt O2) in FI as (r2&FI).
  assert (Hr : In (read_context x) (if_context (instance_struct root))).
  { cbn [instance_struct if_context]. apply in_map. apply filter_In. split; [destruct root; exact Hx|]. apply has_tag_iff. now exists xbrli. }
  destruct (collectM_each _ _ _ _ C Hr) as (o&E). pose proof E as E'. unfold hydrate_context in E.
  cbn [read_context cx_name cx_attrs cx_entity cx_period cx_scenario] in E.
  destruct N as (a&j&ks&->). cbn [x_name nspace x_attrs attributes] in *. change XBRLI with xbrli in E. rewrite String.eqb_refl in E. cbn [negb] in E.
  apply LinkbaseProofs.req_iff in ID. rewrite ID, FE in E. cbn [map read_entity en_identifier en_segment] in E. rewrite FI in E. cbn [map with_text etext eattrs] in E.
  pose proof (chardata_nonempty idt t Ht NT) as NE. apply String.eqb_neq in NE. rewrite NE in E.
  destruct SC as (sa&TA&_). assert (TF : find_attr (x_attrs idt) "scheme" = Some sa) by (destruct idt; apply find_attr_the; exact TA).
  rewrite TF in E. 
  destruct (hydrate_dim_context false _ _ _ _) as [sg| |]; cbn [bind] in E; try discriminate.
  destruct (hydrate_dim_context true _ _ _ _) as [sn| |]; cbn [bind] in E; try discriminate.
  destruct (match map read_period _ with [] => _ | _ => _ end) as [instant [st en']] in E. injection E as <-.
  eexists. split; [apply isort_in; eapply collectM_keeps; [exact C|exact Hr|exact E']|reflexivity].
Qed.
Lemma fact_refers q tokens root file i fa : qenv_ok q -> hydrate_instance q tokens (Some (instance_struct root)) file = Ok i ->
  In fa (iFacts i) -> exists x, In x (kids root) /\ required (attributes x) "contextRef" (fContextRef fa).
Proof.
  intros Q H Hf. unfold hydrate_instance in H. destruct (negb _); [discriminate|].
  destruct (hydrate_contexts _ _ _) as [cs| |]; cbn [bind] in H; try discriminate. injection H as <-. cbn [iFacts] in Hf.
  unfold hydrate_facts in Hf. apply isort_in in Hf.
  apply (image_of_In _ _ _ _ (collect_image (hydrate_fact q) (is_fact q) _ (fun e f => hydrate_fact_iff q e f Q))) in Hf as (e&He&IF).
  cbn [instance_struct if_facts] in He. apply in_map_iff in He as (x&<-&Hx). apply filter_In in Hx as [Hx _].
  exists x. split; [destruct root; exact Hx|]. pose proof (if_ctx _ _ _ IF) as R. destruct x; exact R.
Qed.

(** ** What a harmless folder does *)
Section Harmless.
  Variable w : world.
  Variable id : string.
  Hypothesis HL : harmless w id.

  Lemma rendering_lives rep slug : faithful_tree (o_tree (w_out w)) -> CacheSpec.hydrated (services_of w) id (Ok rep) ->
    ~ crashed_renderable (out w) (rp_hydratable rep) slug.
  Proof.
    intros FT HY. apply hydrated_report in HY as (name&(EN&images&sh&_&L)&_&_&_&_&NI). set (h := rp_hydratable rep) in *.
    assert (S : supported name \/ ~ supported name).
    { destruct (inline_dec name) as [A|A]; [left; now left|]. destruct (instance_dec name) as [A'|A']; [left; now right|]. right. intros [?|?]; auto. }
    destruct S as [N|N].
    2:{ apply NI in N. apply never_crashed; [exact FT|rewrite N; intros ? ? []..]. }
    destruct (loaded_parts _ _ _ _ _ _ _ _ _ N L) as (file&root&fd&doc&EA&FI&_&_&_&_&M1&M2&_&_&_&H).
    apply C79_complete in H as (HF&_&_&_&_&_&HI&_). destruct (one_loaded _ _ _ HI _ _ FI) as (i&HI'&E).
    assert (QOK : qenv_ok (env_of fd (d_url (w_disk w)) (global_schema_file (w_disk w)))) by (split; auto).
    destruct (proj1 (HL name EN) file root EA) as [NH CP].
    apply never_crashed; [exact FT|rewrite HI'..].
    - intros i' c [<-|[]]. eapply instance_sound; eauto.
    - intros i' hrefs [<-|[]] (f&Hf&_&_&NO). destruct (fact_refers _ _ _ _ _ _ QOK E Hf) as (x&Hx&R).
      destruct (CP x _ Hx R) as (c&Hc&CC). destruct (context_kept _ _ _ _ _ _ _ NH E Hc CC) as (k&Hk&EK). exact (NO k Hk EK).
  Qed.
  Lemma hydration_lives f sh : discovered w id (Ok f) -> ~ hydration_dies w f sh.
  Proof.
    intros (o&D&E) [_ (s0&np&ES&NP&HD)]. destruct o as [fd| |]; try discriminate. injection E as ->. cbn [fo_folder] in *.
    assert (EN : exists name, entry_file_name w id = Ok name) by (inversion D; subst; eauto). destruct EN as (name&EN). rewrite EN in D.
    destruct (discovered_entry _ _ _ _ _ D) as (_&IN&_). specialize (IN _ ES).
    destruct (C102_instance_partial _ _ _ _ _ (or_introl IN) D) as (file&i&EI&FI&ID&_). destruct (ID IN) as (data&dc&A&B&C).
    cbn [files_of decode_ixbrl] in B. destruct (d_html (w_disk w) data) as [q|] eqn:Q; [|discriminate].
    destruct (decode_inline (Some q)) as [s|] eqn:S; [|discriminate]. injection B as <-.
    assert (EN' : entry_named w id name).
    { unfold entry_file_name in EN. destruct (d_file (w_disk w) _) as [b|] eqn:EB in EN; [|discriminate]. exists b. auto. }
    destruct (proj2 (HL name EN') data q IN A Q) as [DH CF].
    rewrite C in HD, ES. injection ES as <-. cbn [files_of] in C.
    assert (LD : loads q Panic) by (exists s; auto).
    destruct (C111_facts_partial q Panic LD DH) as (doc&X&_); auto; [|discriminate X].
    rewrite (html_root q s DH S) in NP. cbn [dsHtml] in NP. congruence.
  Qed.
  Lemma not_deadly q : faithful_tree (o_tree (w_out w)) -> folder_of_request q = Some id -> ~ CacheSpec.deadly (services_of w) q.
  Proof.
    intros FT E. destruct q as [i|i slug|i name ref| | |]; try discriminate; injection E as ->; cbn [CacheSpec.deadly].
    - intros (f&D&sh&_&X). exact (hydration_lives f sh D X).
    - intros [(f&D&sh&_&X)|(rep&HY&_&X)]; [exact (hydration_lives f sh D X)|exact (rendering_lives rep slug FT HY X)].
    - intros (f&D&sh&_&X). exact (hydration_lives f sh D X).
  Qed.
End Harmless.

(** ** C131 *)
Lemma history_continues w s s' : history w s -> CacheSpec.continues s s' -> history w s' /\ CacheModel.requests s' = CacheModel.requests s.
Proof.
  intros (dry&injected&R&U&C) Co.
  assert (K : CacheModel.run (services_of w) dry injected (CacheModel.initial []) s' /\ CacheModel.requests s' = CacheModel.requests s).
  { induction Co as [s|s s1 s2 Co IH Hu Hg]; auto. destruct IH as [IH1 IH2]; auto.
    split; [eapply CacheModel.run_step; [exact IH1|now apply CacheModel.step_run]|]. now rewrite (CacheProofs.gstep_requests _ _ Hg). }
  destruct K as [K E]. split; auto. exists dry, injected. rewrite E. auto.
Qed.
(** In every history and on every schedule: if the folders asked about are harmless, the
    process does not end; then every request for a folder whose schemas do not refer to each
    other in a circle is answered when the steps stop. *)
Theorem C131_partial : forall w s, faithful_tree (o_tree (w_out w)) -> history w s ->
  (forall q id, In q (CacheModel.requests s) -> folder_of_request q = Some id -> harmless w id) ->
  ~ CacheSpec.ended s /\
  ((forall b, w_entry w b <> Panic) -> forall s', CacheSpec.continues s s' -> CacheSpec.at_rest s' ->
   forall q, In q (CacheModel.requests s) -> (forall id, folder_of_request q = Some id -> no_circles w id) ->
     exists r, CacheModel.answered s' q r).
Proof.
  intros w s FT H HL.
  assert (K : forall s', CacheSpec.continues s s' -> ~ CacheSpec.ended s').
  { intros s' Co E. destruct (history_continues _ _ _ H Co) as [(dry&injected&R&U&C) RQ].
    destruct (CacheProps.C131_cause_partial _ _ _ _ _ _ _ _ _ R (CacheProofs.usual_separate _ U C) E) as [(q&Hq&D) _].
    rewrite RQ in Hq. destruct (folder_of_request q) as [id|] eqn:FR; [|destruct q; cbn in *; try discriminate FR; exact D].
    exact (not_deadly w id (HL q id Hq FR) q FT FR D). }
  split; [apply K; constructor|]. intros NP s' Co Re q Hq NC.
  destruct (proj2 (C128_answered_partial w s NP H) s' Co Re) as [E|[A _]]; [now elim (K s' Co)|]. auto.
Qed.
Print Assumptions C131_partial.

(** Refuted: a report with one fact whose context is missing. A request for its network ends the
    process; a request for another folder that is being served at that moment is never answered,
    nor is any later one. *)
Definition stray_world : world :=
  World stray_disk "/wd" (fun _ => Ok "x.xml") (fun _ => None) (fun _ => "") (fun _ => "") (fun _ => None) (fun _ => None) ex_pf ex_tokens stray_outside.
Lemma stray_deadly : CacheSpec.deadly (services_of stray_world) (CacheModel.RRender "f" pair_slug).
Proof.
  destruct (loaded_hydrated stray_world "f" "x.xml" plain_order stray_report) as (f&D&Y&_).
  - exact plain_orders.
  - exists "/wd/folders/f/_". split; reflexivity.
  - exact stray_loaded.
  - right. exists (Report stray_report (fo_bytes f)). split; [eapply CacheSpec.hy_found; [exact D|exact Y]|]. split; [|exact stray_dies].
    intros [E _]. vm_compute in E. discriminate E.
Qed.
Lemma usual_grid slug : entry_name_ok slug -> CacheSpec.usual (CacheModel.RRender "f" slug).
Proof. intros SE. cbn. repeat split; try discriminate; apply SE. Qed.
Theorem C131_refuted : exists w s q q', faithful_tree (o_tree (w_out w)) /\ (forall b, w_entry w b <> Panic) /\ history w s /\
  CacheModel.requests s = [q; q'] /\ folder_of_request q = Some "g" /\ folder_of_request q' = Some "f" /\
  CacheSpec.ended s /\ (forall r, ~ CacheModel.answered s q r) /\
  forall dry injected s', CacheModel.run (services_of w) dry injected s s' -> s' = s.
Proof.
  set (q := CacheModel.RCatalog "g"). set (q' := CacheModel.RRender "f" pair_slug).
  assert (SL : is_slug pair_entity pair_set pair_slug) by apply hash_slug. pose proof (slug_part _ _ _ SL) as [SE SF].
  destruct (CacheProofs.ends_beside (services_of stray_world) false true q' q) as (s&R&RQ&E&A); [discriminate|discriminate|exact stray_deadly|].
  exists stray_world, s, q, q'. split; [exact sample_tree_faithful|]. split; [discriminate|]. split.
  { exists false, true. split; [exact R|]. rewrite RQ. split.
    - intros x [<-|[<-|[]]]; [cbn; repeat split; discriminate|]. now apply usual_grid.
    - intros i n c i' n' c' [X|[X|[]]]; discriminate X. }
  split; [exact RQ|]. split; [reflexivity|]. split; [reflexivity|]. split; [exact E|]. split; [exact A|].
  intros dry injected s' R'. eapply CacheProofs.ended_stays; eauto.
Qed.
Print Assumptions C131_refuted.

(** The hypotheses of C131 are met by the folder of C127. *)
Example C131_example : faithful_tree (o_tree (w_out pair_world)) /\ harmless pair_world "f" /\ no_circles pair_world "f" /\
  exists s, history pair_world s /\ In (CacheModel.RRender "f" "zz") (CacheModel.requests s) /\
    forall q id, In q (CacheModel.requests s) -> folder_of_request q = Some id -> harmless pair_world id.
Proof.
  assert (HL : harmless pair_world "f").
  { intros name (b&_&E). cbn in E. injection E as <-. split.
    - intros file root EA. assert (root = pair_root) as -> by (eapply entry_root; [exact pair_entry|exact EA]).
      split; [apply pair_written|]. intros x r Hx RQ.
      exists a_context. split; [cbn; tauto|].
      assert (r = "c") as ->.
      { cbn [kids pair_root xbrl_doc] in Hx. apply LinkbaseProofs.req_iff in RQ.
        repeat destruct Hx as [<-|Hx]; try destruct Hx; vm_compute in RQ; try discriminate RQ; now injection RQ. }
      split; [do 3 eexists; reflexivity|]. split; [apply LinkbaseProofs.req_iff; reflexivity|].
      exists (xi "entity" [] [xi "identifier" [pa "scheme" "urn:s"] [txt "0"]]), (xi "identifier" [pa "scheme" "urn:s"] [txt "0"]), "0", "urn:s".
      split; [exists [], [xi "period" [] [xi "instant" [] [txt "2020-12-31"]]]; split; [reflexivity|split; [do 3 eexists; reflexivity|intros ? []]]|].
      split; [exists [], []; split; [reflexivity|split; [do 3 eexists; reflexivity|intros ? []]]|].
      split; [now left|]. split; [discriminate|]. eexists. split; [apply find_attr_the; reflexivity|reflexivity].
    - intros data q I. exfalso. apply inline_iff in I. destruct I as [I|I]; discriminate I. }
  destruct C128_example as (_&NC&s&H&Hq).
  split; [exact sample_tree_faithful|]. split; [exact HL|]. split; [exact NC|].
  destruct pair_hydrated as (f&D&Y&_).
  destruct (ask_twice pair_world "f" f pair_report D Y "zz" ltac:(split; discriminate) _ pair_missing) as (c&Q).
  destruct (CacheProps.history_of _ _ _ _ _ Q) as (s'&R&_&RQ&_). exists s'. cbn [map fst] in RQ. split; [|split].
  - exists false, true. split; auto. apply (one_request s' "zz"); [auto|cbn; repeat split; discriminate|discriminate].
  - rewrite RQ. now left.
  - rewrite RQ. intros q id [<-|[<-|[]]] [= <-]; exact HL.
Qed.
