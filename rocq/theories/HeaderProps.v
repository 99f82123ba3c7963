(** * HeaderProps: C146 and C147 without conditions on the way a report is written *)
From Coq Require Import String List Bool Arith Lia Permutation ZArith Sorted.
From Verif Require Import GoBase GoSpec GoFacts AttrModel AttrSpec AttrProofs SchemaModel SchemaSpec SchemaProofs SchemaProps
  LinkbaseModel LinkbaseSpec LinkbaseProofs LinkbaseProps InstanceModel InstanceSpec InstanceProofs InstanceProps
  HydrateModel HydrateSpec HydrateProofs HydrateProps LabelModel LabelSpec LabelProofs LabelProps PeriodModel PeriodSpec PeriodProofs PeriodProps
  FactModel FactSpec FactProofs FactProps GridModel GridSpec GridProofs GridProps CalcModel CalcSpec CalcProofs CalcProps DefModel DefSpec DefProofs DefProps
  RenderModel RenderSpec RenderProofs RenderProps ExpressModel ExpressSpec ExpressProofs ExpressProps
  DiscoverModel DiscoverSpec DiscoverProofs DiscoverProps XmlModel XmlSpec XmlProofs XmlProps LoadModel LoadSpec LoadProofs LoadProps
  CatalogModel CatalogSpec CatalogProofs CatalogProps ReportModel ResponseModel ResponseSpec ResponseProofs ResponseProps EndToEndSpec EndToEndProps
  ReportSpec ReportProofs ReportProps AskSpec AskProps ImageModel ImageSpec ImageProofs ImageProps
  WebModel WebSpec WebProofs WebProps PathSpec RouterModel RouterSpec RouterProofs RouterProps.
From Verif Require CacheModel CacheSpec CacheProofs CacheProps.
From Verif Require Import ColumnSpec ColumnProofs ColumnProps NetworkSpec NetworkProps DimNetSpec DimNetProps ServerModel ServerSpec ServerProps ServedProps SetupModel SetupProps ReaderSpec ReaderProps OrderSpec OrderProps.
Import ListNotations.
Local Open Scope string_scope.

(** The columns [cols] of a grid with these rows, about [subject], are the contexts of the facts on
    its rows: each context once, and [concept] says what an href stands for. *)
Definition columns_for (i : instance) (concept : string -> option concept) (subject : string) (rows : list string) (cols : list context) : Prop :=
  NoDup (map ctxID cols) /\
  forall c, In c cols <-> subject = ctxScheme c ++ "/" ++ ctxIdentifier c /\
    exists fa k, In fa (iFacts i) /\ In (fHref fa) rows /\ concept (fHref fa) = Some k /\ cAbstract k = false /\
      first_such (fun c => ctxID c = fContextRef fa) (iContexts i) c.

Section Any.
  Variables (w : outside) (h : hydratable) (file : string) (i : instance).
  Hypothesis one : hInstances h = [(file, i)].
  Lemma columns_any tree lbl typed_order subject insts hrefs cols seg scen packs :
    visited (hInstances h) insts ->
    get_relevant_contexts tree lbl (concept_for w h) typed_order subject insts hrefs = Ok (cols, seg, scen, packs) ->
    exists cs, cols = map (fun c => fst (mk_col tree lbl typed_order c)) cs /\ columns_for i (concept_for w h) subject hrefs cs.
  Proof.
    intros V E. apply (visited_one h file i one) in V. subst insts.
    destruct (relevant_spec tree lbl (concept_for w h) typed_order subject [i] hrefs) as [[_ P]|[_ (css & F & G)]]; [congruence|].
    rewrite G in E. injection E as <- _ _ _. inversion F as [|? cs ? ? [N H] F']; subst. inversion F'; subst. cbn [concat].
    rewrite app_nil_r.
    destruct (Permutation_map_inv (fun c => fst (mk_col tree lbl typed_order c)) cs
                (Permutation_sym (isort_perm context_less (map (fun c => fst (mk_col tree lbl typed_order c)) cs)))) as (cs'&E&P).
    exists cs'. split; [exact E|]. split; [eapply Permutation_NoDup; [apply Permutation_map; exact P|exact N]|].
    intro c. split.
    - intro Hc. apply (Permutation_in _ (Permutation_sym P)) in Hc. apply H in Hc as (fa&Hf&Hr&(k&K&A)&R&S). split; auto.
      exists fa, k. auto 10.
    - intros (S&fa&k&Hf&Hr&K&A&R). apply (Permutation_in _ P), H. exists fa. split; auto. split; auto. split; [|auto].
      exists k. auto.
  Qed.
  Lemma answer_any slug bytes : marshalled_renderable w h slug (Ok (Some bytes)) ->
    exists e r langs v, is_slug e r slug /\ reads_as bytes v /\
      has v "Subject" (fun u => has u "Entity" (entity_value e)) /\ has v "RelationshipSet" (relationship_set r) /\
      the_member v "Lang" (list_of shows langs) /\
      let shown u rows cols := columns_for i (concept_for w h) (eScheme e ++ "/" ++ eChar e) rows cols /\
        headers_read (o_spanish w) langs u cols /\ in_order cols in
      presentation_with shown v /\ definition_with shown v /\ calculation_with shown v.
  Proof.
    intro M.
    destruct (rendered_offering w h slug bytes file i (fun langs s u rows cols =>
      columns_for i (concept_for w h) s rows cols /\ headers_read (o_spanish w) langs u cols /\ in_order cols) one)
      as (e&r&nm&langs&roles&v&SL&CX&J&(_&SB)&RS&(LG&_)&P); [|exact M|].
    - intros subject hrefs periods facts fg notes langs members void fields v (g&lbl&cols&seg&scen&packs&ls&GF&EC&EQ&UL&EP&EM) O ND I1 I2. subst periods.
      destruct (columns_any _ _ _ _ _ _ _ _ _ _ (gf_instances _ _ _ GF) EC) as (cs&->&CF).
      exists cs. split; [exact CF|]. split.
      + unfold headers_read. eapply the_member_impl; [|eapply (the_member_of _ _ "PeriodHeaders"); [exact O|exact ND|apply I1; now left]].
        intros u. unfold format_relevant_period, get_period_headers. rewrite !map_map. apply list_of_map. intros c x _ X. now apply header_reads.
      + apply C16_columns_sorted in EC. eapply columns_in_order; [|exact EC]. apply (gf_typed _ _ _ GF).
    - exists e, r, langs, v. split; [exact SL|]. split; [exact J|]. split; [|split; [now apply the_member_has|split; [exact LG|exact P]]].
      apply the_member_has. eapply the_member_impl; [|exact SB]. intros u [_ U]. now apply the_member_has.
  Qed.
End Any.

(** ** C146 *)
(** Of every report that can be loaded, however it is written, whatever network a client asks for
    and whatever the orders and schedules: the header of every column gives the period of the
    column's context, and in each of the languages that the answer lists. *)
Theorem C146_any_report :
  forall d dir name images pf sh tokens utr h, supported name -> loaded d dir name images pf sh tokens utr h ->
  exists file i, hInstances h = [(file, i)] /\
    forall w slug bytes, marshalled_renderable w h slug (Ok (Some bytes)) ->
      exists e r langs v, is_slug e r slug /\ reads_as bytes v /\
        has v "Subject" (fun u => has u "Entity" (entity_value e)) /\ has v "RelationshipSet" (relationship_set r) /\
        the_member v "Lang" (list_of shows langs) /\
        let shown u rows cols := columns_for i (concept_for w h) (eScheme e ++ "/" ++ eChar e) rows cols /\
          headers_read (o_spanish w) langs u cols in
        presentation_with shown v /\ definition_with shown v /\ calculation_with shown v.
Proof.
  intros d dir name images pf sh tokens utr h N L. destruct (report_read _ _ _ _ _ _ _ _ _ N L) as (file&root&i&EA&HI&_).
  exists file, i. split; auto. intros w slug bytes M. destruct (answer_any w h file i HI slug bytes M) as (e&r&langs&v&SL&J&SB&RS&LG&P&D&C).
  exists e, r, langs, v. do 5 (split; [assumption|]). cbv zeta. split; [|split].
  - eapply presentation_impl; [|exact P]. cbv beta. intros u rows cols (A&B&_). auto.
  - eapply definition_impl; [|exact D]. cbv beta. intros u rows cols (A&B&_). auto.
  - eapply calculation_impl; [|exact C]. cbv beta. intros u rows cols (A&B&_). auto.
Qed.
Print Assumptions C146_any_report.

(** ** C147 *)
(** Of every report that can be loaded, however it is written: the columns are in the order of
    their periods, and those with the same period in the order of the number of their members. *)
Theorem C147_any_report :
  forall d dir name images pf sh tokens utr h, supported name -> loaded d dir name images pf sh tokens utr h ->
  exists file i, hInstances h = [(file, i)] /\
    forall w slug bytes, marshalled_renderable w h slug (Ok (Some bytes)) ->
      exists e r v, is_slug e r slug /\ reads_as bytes v /\
        has v "Subject" (fun u => has u "Entity" (entity_value e)) /\ has v "RelationshipSet" (relationship_set r) /\
        let shown (u : value) rows cols := columns_for i (concept_for w h) (eScheme e ++ "/" ++ eChar e) rows cols /\
          the_member u "PeriodHeaders" (list_of (fun c x => exists p, GridSpec.period_of c p /\ has x "Unlabelled" (shows p)) cols) /\
          in_order cols in
        presentation_with shown v /\ definition_with shown v /\ calculation_with shown v.
Proof.
  intros d dir name images pf sh tokens utr h N L. destruct (report_read _ _ _ _ _ _ _ _ _ N L) as (file&root&i&EA&HI&_).
  exists file, i. split; auto. intros w slug bytes M. destruct (answer_any w h file i HI slug bytes M) as (e&r&langs&v&SL&J&SB&RS&LG&P&D&C).
  exists e, r, v. do 4 (split; [assumption|]). cbv zeta.
  assert (HH : forall u cols, headers_read (o_spanish w) langs u cols ->
    the_member u "PeriodHeaders" (list_of (fun c x => exists p, GridSpec.period_of c p /\ has x "Unlabelled" (shows p)) cols)).
  { intros u cols. apply the_member_impl. intros x (vs&->&F). exists vs. split; auto. clear -F. induction F as [|c x cols vs (p&m&A&B&_&D&_) F IH]; constructor; auto.
    exists p. split; auto. apply (map_of_entry _ _ _ _ _ B D). apply (JsonProofs.san_text "Unlabelled"). }
  split; [|split].
  - eapply presentation_impl; [|exact P]. cbv beta. intros u rows cols (A&B&O). auto.
  - eapply definition_impl; [|exact D]. cbv beta. intros u rows cols (A&B&O). auto.
  - eapply calculation_impl; [|exact C]. cbv beta. intros u rows cols (A&B&O). auto.
Qed.
Print Assumptions C147_any_report.

(** ** The running server *)
(** Headers and order of the columns, whatever the server has been asked before. *)
Theorem C147_any_served : forall w detect files s id slug query p, history w s ->
  entry_name_ok id -> entry_name_ok slug -> slug <> "facts" ->
  exchanged detect files s "GET" ("/folders/" ++ id ++ "/" ++ slug) query (Answer (Some p)) -> status p = 200 -> body p <> "" ->
  exists name h, report_of w id name h /\
    ((slug = name /\ inline_name name /\ document_sent w id name (body p)) \/
     (exists file i e r langs v, hInstances h = [(file, i)] /\ is_slug e r slug /\ reads_as (body p) v /\
        has v "Subject" (fun u => has u "Entity" (entity_value e)) /\ has v "RelationshipSet" (relationship_set r) /\
        the_member v "Lang" (list_of shows langs) /\
        let shown u rows cols := columns_for i (concept_for (out w) h) (eScheme e ++ "/" ++ eChar e) rows cols /\
          headers_read (o_spanish (w_out w)) langs u cols /\ in_order cols in
        presentation_with shown v /\ definition_with shown v /\ calculation_with shown v)).
Proof.
  intros w detect files s id slug query p H I J N X ST B.
  destruct (network_sent _ _ _ _ _ _ _ _ H I J N X ST B) as (name&h&R&M). exists name, h. split; auto. destruct M as [M|[SN M]]; [now left|right].
  destruct R as (_&images&sh&O&L). destruct (report_read _ _ _ _ _ _ _ _ _ SN L) as (file&root&i&EA&HI&_).
  destruct (answer_any (out w) h file i HI slug (body p) M) as (e&r&langs&v&K). exists file, i, e, r, langs, v. split; [exact HI|exact K].
Qed.
Print Assumptions C147_any_served.
(** C146 of it. *)
Theorem C146_any_served : forall w detect files s id slug query p, history w s ->
  entry_name_ok id -> entry_name_ok slug -> slug <> "facts" ->
  exchanged detect files s "GET" ("/folders/" ++ id ++ "/" ++ slug) query (Answer (Some p)) -> status p = 200 -> body p <> "" ->
  exists name h, report_of w id name h /\
    ((slug = name /\ inline_name name /\ document_sent w id name (body p)) \/
     (exists file i e r langs v, hInstances h = [(file, i)] /\ is_slug e r slug /\ reads_as (body p) v /\
        the_member v "Lang" (list_of shows langs) /\
        let shown u rows cols := columns_for i (concept_for (out w) h) (eScheme e ++ "/" ++ eChar e) rows cols /\
          headers_read (o_spanish (w_out w)) langs u cols in
        presentation_with shown v /\ definition_with shown v /\ calculation_with shown v)).
Proof.
  intros w detect files s id slug query p H I J N X ST B.
  destruct (C147_any_served _ _ _ _ _ _ _ _ H I J N X ST B) as (name&h&R&[M|(file&i&e&r&langs&v&HI&SL&RD&_&_&LG&P&D&C)]); exists name, h; (split; [exact R|]); [now left|right].
  exists file, i, e, r, langs, v. do 4 (split; [assumption|]). cbv zeta. split; [|split].
  - eapply presentation_impl; [|exact P]. cbv beta. intros u rows cols (A&Q&_). auto.
  - eapply definition_impl; [|exact D]. cbv beta. intros u rows cols (A&Q&_). auto.
  - eapply calculation_impl; [|exact C]. cbv beta. intros u rows cols (A&Q&_). auto.
Qed.
Print Assumptions C146_any_served.

(** The hypotheses are met: the report of C147_example is loaded and its network sent. *)
Example any_example :
  supported "x.xml" /\ loaded noted_disk small_dir "x.xml" false ex_pf plain_order ex_tokens (Ok []) noted_report /\
  (exists bytes, marshalled_renderable noted_outside noted_report pair_slug (Ok (Some bytes))).
Proof. split; [exact x_supported|]. split; [exact noted_loaded|exact noted_served]. Qed.
