(** * ReaderProps: C144 (units of an answer), C145 (names of an answer) and C146 (period headers of an answer) *)
From Coq Require Import String List Bool Arith Lia Permutation ZArith.
From Verif Require Import GoBase GoSpec GoFacts AttrModel AttrSpec AttrProofs SchemaModel SchemaSpec SchemaProofs SchemaProps
  LinkbaseModel LinkbaseSpec LinkbaseProofs LinkbaseProps InstanceModel InstanceSpec InstanceProofs InstanceProps
  HydrateModel HydrateSpec HydrateProofs HydrateProps LabelModel LabelSpec LabelProofs LabelProps PeriodModel PeriodSpec PeriodProofs PeriodProps
  FactModel FactSpec FactProofs FactProps GridModel GridSpec GridProofs GridProps CalcModel CalcSpec CalcProofs CalcProps DefModel DefSpec DefProofs DefProps
  RenderModel RenderSpec RenderProofs RenderProps ExpressModel ExpressSpec ExpressProofs ExpressProps
  DiscoverModel DiscoverSpec DiscoverProofs DiscoverProps XmlModel XmlSpec XmlProofs XmlProps LoadModel LoadSpec LoadProofs LoadProps
  CatalogModel CatalogSpec CatalogProofs CatalogProps ReportModel ResponseModel ResponseSpec ResponseProofs ResponseProps EndToEndSpec EndToEndProps
  ReportSpec ReportProofs ReportProps AskSpec AskProps ImageModel ImageSpec ImageProofs ImageProps
  WebModel WebSpec WebProofs WebProps PathSpec RouterModel RouterSpec RouterProofs RouterProps.
From Verif Require CacheModel CacheSpec CacheProofs CacheProps.
From Verif Require Import ColumnSpec ColumnProofs ColumnProps NetworkSpec NetworkProps DimNetSpec DimNetProps ServerModel ServerSpec ServerProps ServedProps SetupModel SetupProps ReaderSpec.
Import ListNotations.
Local Open Scope string_scope.

(** ** What is computed *)

(** the registry that the server works with, and the document it was read from *)
Definition registry_of (register : option tree) (r : res registry) : Prop :=
  (exists root us, register = Some root /\ decode_utr (Some root) = Ok us /\ r = Ok (map_measurements us)) \/
  (register = None /\ exists m, r = Err m).

Lemma known_iff register us root nsp l m : register = Some root -> decode_utr (Some root) = Ok us ->
  query_utr (Ok (map_measurements us)) nsp l = Some m <-> known_unit register (XName nsp l) m.
Proof.
  intros -> D. rewrite (C109_registry root us D). unfold known_unit. cbn [nspace nlocal]. split.
  - intros (u&ms&H). exists root, u, ms. auto.
  - intros (r&u&ms&E&H). injection E as <-. eauto.
Qed.
Lemma known_name register n m : known_unit register (XName (nspace n) (nlocal n)) m <-> known_unit register n m.
Proof. now destruct n. Qed.

Section Reads.
  Variables (w : outside) (h : hydratable) (file : string) (i : instance).
  Hypothesis one : hInstances h = [(file, i)].
  Variable register : option tree.
  Hypothesis reg : registry_of register (o_units w).

  Lemma found_in ref m : fst (find_measurement (o_units w) [i] ref) = Some m <-> measured_in register (iUnits i) ref m.
  Proof.
    unfold find_measurement, measured_in, unit_named. cbn [flat_map]. rewrite app_nil_r.
    assert (FF : forall u, find (fun u => String.eqb (unID u) ref) (iUnits i) = Some u <-> first_such (fun u => unID u = ref) (iUnits i) u).
    { intro u. pose proof (unit_with_iff [i] ref u) as X. unfold unit_with in X. cbn [flat_map] in X. rewrite app_nil_r in X. exact X. }
    assert (KK : forall n, query_utr (o_units w) (nspace n) (nlocal n) = Some m <-> known_unit register n m).
    { intro n. destruct reg as [(root&us&E&D&->)|(->&e&->)].
      - rewrite (known_iff register us root _ _ _ E D). apply known_name.
      - split; [discriminate|]. intros (r&u&ms&E&_). discriminate E. }
    destruct (find _ _) as [u|] eqn:F.
    - pose proof (proj1 (FF u) eq_refl) as FU. assert (U : forall v, first_such (fun u => unID u = ref) (iUnits i) v -> v = u) by (intros; eapply first_such_unique; eauto).
      unfold simple, ratio. destruct (String.eqb_spec (msText (unMeasure u)) "") as [Z|Z].
      + destruct (String.eqb_spec (msText (unNum u)) "") as [Zn|Zn]; cbn [orb fst];
          [|destruct (String.eqb_spec (msText (unDen u)) "") as [Zd|Zd]; cbn [orb fst]].
        * split; [discriminate|]. intros (v&V&[[A _]|[(_&A&_) _]]); rewrite (U v V) in A; now destruct A.
        * split; [discriminate|]. intros (v&V&[[A _]|[(_&_&A) _]]); rewrite (U v V) in A; now destruct A.
        * rewrite KK. split.
          -- intro K. exists u. auto 10.
          -- intros (v&V&[[A _]|[_ K]]); rewrite (U v V) in *; [now destruct A|exact K].
      + cbn [fst]. rewrite KK. split.
        * intro K. exists u. auto 10.
        * intros (v&V&[[_ K]|[(A&_) _]]); rewrite (U v V) in *; [exact K|now destruct Z].
    - split; [discriminate|]. intros (u&V&_). apply FF in V. discriminate V.
  Qed.
  Lemma found_per ref m : snd (find_measurement (o_units w) [i] ref) = Some m <-> said_per register (iUnits i) ref m.
  Proof.
    unfold find_measurement, said_per, unit_named. cbn [flat_map]. rewrite app_nil_r.
    assert (FF : forall u, find (fun u => String.eqb (unID u) ref) (iUnits i) = Some u <-> first_such (fun u => unID u = ref) (iUnits i) u).
    { intro u. pose proof (unit_with_iff [i] ref u) as X. unfold unit_with in X. cbn [flat_map] in X. rewrite app_nil_r in X. exact X. }
    assert (KK : forall s l, query_utr (o_units w) s l = Some m <-> known_unit register (XName s l) m).
    { intros s l. destruct reg as [(root&us&E&D&->)|(->&e&->)].
      - apply (known_iff register us root _ _ _ E D).
      - split; [discriminate|]. intros (r&u&ms&E&_). discriminate E. }
    destruct (find _ _) as [u|] eqn:F.
    - pose proof (proj1 (FF u) eq_refl) as FU. assert (U : forall v, first_such (fun u => unID u = ref) (iUnits i) v -> v = u) by (intros; eapply first_such_unique; eauto).
      unfold ratio. destruct (String.eqb_spec (msText (unMeasure u)) "") as [Z|Z].
      + destruct (String.eqb_spec (msText (unNum u)) "") as [Zn|Zn]; cbn [orb snd];
          [|destruct (String.eqb_spec (msText (unDen u)) "") as [Zd|Zd]; cbn [orb snd]].
        * split; [discriminate|]. intros (v&V&(_&A&_)&_); rewrite (U v V) in A; now destruct A.
        * split; [discriminate|]. intros (v&V&(_&_&A)&_); rewrite (U v V) in A; now destruct A.
        * rewrite KK. split.
          -- intro K. exists u. auto 10.
          -- intros (v&V&_&K); rewrite (U v V) in *; exact K.
      + cbn [snd]. split; [discriminate|]. intros (v&V&(A&_)&_). rewrite (U v V) in *. now destruct Z.
    - split; [discriminate|]. intros (u&V&_). apply FF in V. discriminate V.
  Qed.
  Lemma renders_reads e : renders_from w h e ->
    reads (o_html w) (o_digits w) (o_percent w) (measured_in register (iUnits i)) (said_per register (iUnits i)) e.
  Proof.
    intro R. split; try apply R; intros ref m; destruct (rf_measurement _ _ _ R ref) as (order&V&->); rewrite (visited_one h file i one _ V).
    - apply found_in.
    - apply found_per.
  Qed.
End Reads.

Lemma fact_shown_impl (R R' : renv -> Prop) c fa u : (forall e, R e -> R' e) -> fact_shown R c fa u -> fact_shown R' c fa u.
Proof. intros I [A|(N&e&m&Re&A)]; [now left|right]. split; auto. exists e, m. split; auto. Qed.
Lemma grid_shows_impl facts contexts concept_is subject (R R' : renv -> Prop) v rows cols : (forall e, R e -> R' e) ->
  grid_shows facts contexts concept_is subject R v rows cols -> grid_shows facts contexts concept_is subject R' v rows cols.
Proof.
  intros I [A B C D E]. split; auto. intros a b href c Ha Hb. eapply the_member_impl; [|exact (E a b href c Ha Hb)].
  intros q (l&r&->&Hl&(l2&u&->&Hu&X)). exists l, (JArr l2). split; auto. split; auto. exists l2, u. split; auto. split; auto.
  destruct X as [(fa&k&F&K&S)|X]; [left|now right]. exists fa, k. split; auto. split; auto. eapply fact_shown_impl; eauto.
Qed.
Lemma list_of_map {A B} (f : A -> B) (R : B -> value -> Prop) (S : A -> value -> Prop) l v :
  (forall a u, In a l -> R (f a) u -> S a u) -> list_of R (map f l) v -> list_of S l v.
Proof.
  intros H (vs&->&F). exists vs. split; auto. revert vs F. induction l as [|a l IH]; intros vs F; inversion F; subst; constructor.
  - apply H; auto. now left.
  - apply IH; auto. intros b u Hb. apply H. now right.
Qed.
Lemma header_reads es langs c v : languages (format_header es langs (period_string c)) v -> header_read es langs c v.
Proof.
  intro L. destruct (mk_col_column (fun _ _ => RArc "" (f64_of_nat 0) []) (fun _ => []) (fun _ t => tmMap t)) with (c := c)
    as (_&(p&P&E)&_); [reflexivity|]. cbn [mk_col fst rcPeriod] in E. rewrite E in L.
  assert (M : is_map [("Unlabelled", p)]) by (repeat constructor; simpl; auto).
  pose proof (C52_header es langs [("Unlabelled", p)]) as HD.
  exists p, (format_header es langs [("Unlabelled", p)]). split; auto. split; auto. split; [now apply (HD "" "")|]. split; [|split].
  - apply (HD "Unlabelled" p M). right. split; [now left|]. intros (_&N&_). now apply N.
  - intros lang N. split.
    + intro I. apply in_map_iff in I as ([k t]&<-&I). apply (HD k t M) in I as [(?&_&I&_)|[[[= <- <-]|[]] _]]; auto. now contradiction N.
    + intro I. apply in_map_iff. exists (lang, format_date es lang p). split; auto.
      apply (HD lang (format_date es lang p) M). left. exists p. repeat split; auto. now left.
  - intros lang text N I. apply (HD lang text M) in I as [(iso'&I'&_&_&->)|[[[= <- <-]|[]] _]].
    + destruct I' as [[= <-]|[]]. apply RenderProps.text_of.
    + now contradiction N.
Qed.

Section With.
  Variables (G G' : value -> list string -> list context -> Prop) (I : forall v rows cols, G v rows cols -> G' v rows cols).
  Lemma presentation_impl v : presentation_with G v -> presentation_with G' v.
  Proof. apply the_member_impl. intros u (rows&cols&R&S). exists rows, cols. auto. Qed.
  Lemma definition_impl v : definition_with G v -> definition_with G' v.
  Proof.
    apply the_member_impl. intros u. apply the_member_impl. intros x (l&->&F). exists l. split; auto.
    intros y Hy. destruct (F y Hy) as (rows&cols&R&S). exists rows, cols. auto.
  Qed.
  Lemma calculation_impl v : calculation_with G v -> calculation_with G' v.
  Proof.
    apply the_member_impl. intros u. apply the_member_impl. intros x [X|(l&->&F)]; [now left|right]. exists l. split; auto.
    intros y Hy. destruct (F y Hy) as (rows&cols&R&S). exists rows, cols. auto.
  Qed.
End With.

(** what a client reads in a network of a report *)
Lemma report_reads d dir name images pf sh tokens utr h : supported name -> loaded d dir name images pf sh tokens utr h ->
  exists file root, entry_at d dir root name file /\
    (well_written d dir root ->
     exists facts contexts units q, understands d dir root q /\ facts_written d dir root facts /\
       contexts_written root q (content_of q tokens (attributes root)) contexts /\ units_written root units /\
       forall w slug bytes, o_url w = d_url d -> o_schema w = global_schema_file d ->
         (forall register e, registry_of register (o_units w) -> renders_from w h e ->
            reads (o_html w) (o_digits w) (o_percent w) (measured_in register units) (said_per register units) e) /\
         (marshalled_renderable w h slug (Ok (Some bytes)) ->
          exists e r nm langs roles v, is_slug e r slug /\ (exists c, In c contexts /\ eScheme e = ctxScheme c /\ eChar e = ctxIdentifier c) /\
            reads_as bytes v /\
            (entity_query (o_names w) (eScheme e) (eChar e) = Ok nm /\
             the_member v "Subject" (fun u => the_member u "Name" (shows nm) /\ the_member u "Entity" (entity_value e))) /\
            the_member v "RelationshipSet" (relationship_set r) /\
            (the_member v "Lang" (list_of shows langs) /\ the_member v "LabelRoles" (list_of shows roles)) /\
            let shown u rows cols :=
              grid_shows facts contexts (reports d dir root) (eScheme e ++ "/" ++ eChar e) (renders_from w h) u rows cols /\
              headers_read (o_spanish w) langs u cols in
            presentation_with shown v /\ definition_with shown v /\ calculation_with shown v)).
Proof.
  intros N L.
  destruct (report_read _ _ _ _ _ _ _ _ _ N L) as (file&root&i&EA&HI&R). exists file, root. split; auto. intros WW.
  destruct (C116_instance_partial _ _ _ _ _ _ _ _ _ N L) as (file'&root'&i'&EA'&HI'&_&UN).
  rewrite HI in HI'. injection HI' as <- <-.
  assert (root' = root) as ->. { destruct EA as (_&DO&_), EA' as (_&DO'&_). eapply document_fun; eauto. }
  destruct (R WW) as (q&Q&FW&CW&K). exists (iFacts i), (iContexts i), (iUnits i), q.
  pose proof WW as (_&_&_&NH&DR&PT).
  split; [exact Q|]. split; [exact FW|]. split; [exact CW|]. split; [apply (UN NH DR PT)|].
  intros w slug bytes OU OS. destruct (K w OU OS) as [HC IC].
  split; [intros register e RG; apply (renders_reads w h file i HI register RG)|]. intro M.
  destruct (rendered_offering w h slug bytes file i (fun langs s u rows cols =>
    grid_shows (iFacts i) (iContexts i) (reports d dir root) s (renders_from w h) u rows cols /\
    headers_read (o_spanish w) langs u cols) HI) as (e&r&nm&langs&roles&v&SL&CX&J&SB&RS&LG&P); [|exact M|].
  - intros subject hrefs periods facts fg notes langs members void fields v (g&lbl&cols&seg&scen&packs&ls&GF&EC&EQ&UL&EP&EM) O ND I1 I2. subst periods.
    destruct (grid_json w h file i (reports d dir root) HI HC IC g lbl subject hrefs cols seg scen packs ls facts fg notes (o_spanish w) langs members void fields v)
      as (cs&->&TT&GS); auto.
    exists cs. split; [exact GS|].
    unfold headers_read. eapply the_member_impl; [|eapply (the_member_of _ _ "PeriodHeaders"); [exact O|exact ND|apply I1; now left]].
    intros u. unfold format_relevant_period, get_period_headers. rewrite !map_map. apply list_of_map. intros c x _ X. now apply header_reads.
  - exists e, r, nm, langs, roles, v. cbv zeta. auto 10.
Qed.

(** ** C144 *)
(** Of every report that can be loaded, whatever network a client asks for and whatever the
    orders and schedules: the numbers of the grids are shown with the symbol or the name that the
    registry of units has for the unit they refer to in the instance, and with nothing if it has
    none. Missing: the denominator of a unit is the one of the registry only if it has the local
    name of the numerator. *)
Theorem C144_units_partial :
  forall d dir name images pf sh tokens utr h, supported name -> loaded d dir name images pf sh tokens utr h ->
  exists file root, entry_at d dir root name file /\
    (well_written d dir root ->
     exists facts contexts units q, understands d dir root q /\ facts_written d dir root facts /\
       contexts_written root q (content_of q tokens (attributes root)) contexts /\ units_written root units /\
       forall w slug bytes register, o_url w = d_url d -> o_schema w = global_schema_file d -> registry_of register (o_units w) ->
         marshalled_renderable w h slug (Ok (Some bytes)) ->
         exists e r v, is_slug e r slug /\ (exists c, In c contexts /\ eScheme e = ctxScheme c /\ eChar e = ctxIdentifier c) /\
           reads_as bytes v /\
           has v "Subject" (fun u => has u "Entity" (entity_value e)) /\
           has v "RelationshipSet" (relationship_set r) /\
           let reader := reads (o_html w) (o_digits w) (o_percent w) (measured_in register units) (said_per register units) in
           presentation_shown facts contexts (reports d dir root) reader (eScheme e ++ "/" ++ eChar e) v /\
           definition_shown facts contexts (reports d dir root) reader (eScheme e ++ "/" ++ eChar e) v /\
           calculation_shown facts contexts (reports d dir root) reader (eScheme e ++ "/" ++ eChar e) v).
Proof.
  intros d dir name images pf sh tokens utr h N L.
  destruct (report_reads _ _ _ _ _ _ _ _ _ N L) as (file&root&EA&R). exists file, root. split; auto. intros WW.
  destruct (R WW) as (facts&contexts&units&q&Q&FW&CW&UW&K). exists facts, contexts, units, q. do 4 (split; [assumption|]).
  intros w slug bytes register OU OS RG M. destruct (K w slug bytes OU OS) as [RD K']. specialize (RD register).
  destruct (K' M) as (e&r&nm&langs&roles&v&SL&CX&J&(_&SB)&RS&_&P&D&C).
  exists e, r, v. do 3 (split; [assumption|]). split; [|split; [now apply the_member_has|]].
  - apply the_member_has. eapply the_member_impl; [|exact SB]. intros u [_ U]. now apply the_member_has.
  - cbv zeta. split; [|split].
    + eapply presentation_impl; [|exact P]. cbv beta. intros u rows cols [A _]. eapply grid_shows_impl; [|exact A]. auto.
    + eapply definition_impl; [|exact D]. cbv beta. intros u rows cols [A _]. eapply grid_shows_impl; [|exact A]. auto.
    + eapply calculation_impl; [|exact C]. cbv beta. intros u rows cols [A _]. eapply grid_shows_impl; [|exact A]. auto.
Qed.
Print Assumptions C144_units_partial.

(** What this means for a number: the digits, with what the units add before and after them. *)
Lemma languages_text c fa (e : renv) (m : list (string * fact_expression)) :
  (forall lang x, In (lang, x) m -> In lang ["en - english"; "es - español"; "Unlabelled"] /\
     ((lang = "es - español" /\ shown_fact " " e fa x) \/ (lang <> "es - español" /\ shown_fact "," e fa x))) ->
  re_concept e (fHref fa) = Some c -> forall key, In key (map fst m) -> JsonSpec.text key.
Proof.
  intros L _ key Hk. apply in_map_iff in Hk as ([k y]&<-&Hk). apply L in Hk as [[<-|[<-|[<-|[]]]] _];
    [apply (JsonProofs.san_text "en - english")|apply (JsonProofs.san_text "es - español")|apply (JsonProofs.san_text "Unlabelled")].
Qed.
Theorem C144_number :
  forall html digits percent inn per c fa u h co t, fact_shown (reads html digits percent inn per) c fa u ->
    fIsNil fa = false -> fPrecision fa <> (-2147483647)%Z -> nlocal (cType c) <> "textBlockItemType" -> ~ percentage c ->
    digits (fPrecision fa) (fXMLInner fa) ","%char = Some (h, co, t) ->
    exists n d b a, (forall m, n = Some m <-> inn (fUnitRef fa) m) /\ (forall m, d = Some m <-> per (fUnitRef fa) m) /\
      unit_before n b /\ unit_after c n d a /\
      the_member u "Unlabelled" (fun x => the_member x "Head" (shows (b ++ h)) /\ the_member x "Core" (shows co) /\ the_member x "Tail" (shows (t ++ a))).
Proof.
  intros html digits percent inn per c fa u h co t [[N _]|(_&e&m&RE&RC&V&M&U&L)] NI PR TB NP DG; [congruence|].
  apply in_map_iff in U as ([k x]&E&I). cbn [fst] in E. subst k.
  destruct (L _ _ I) as [_ [[X _]|[_ S]]]; [discriminate X|].
  assert (WR : forall h' co' t', FactSpec.written e fa c "," h' co' t' <-> (h', co', t') = (h, co, t)).
  { intros h' co' t'. unfold FactSpec.written. rewrite (rd_digits _ _ _ _ _ _ RE), DG. split.
    - intros [[P _]|[_ Q]]; [contradiction|]. congruence.
    - intro Q. right. split; auto. congruence. }
  inversion S as [K|c' html' K K1|c' K _ K1|c' h' co' t' b a K _ K1 W B A sign SG]; subst; rewrite RC in K; try (injection K as <-); try congruence.
  - exfalso. destruct K1 as [K1|K1]; [congruence|]. apply (K1 h co t). now apply WR.
  - apply WR in W. injection W as -> -> ->. destruct SG as [[P _]|[_ ->]]; [contradiction|].
    exists (fst (re_measurement e (fUnitRef fa))), (snd (re_measurement e (fUnitRef fa))), b, a.
    split; [apply (rd_in _ _ _ _ _ _ RE)|]. split; [apply (rd_per _ _ _ _ _ _ RE)|]. split; auto. split; auto.
    eapply the_member_impl; [|apply (map_the_member _ _ _ _ _ V M (languages_text c fa e m L RC) I)].
    intros y Y. split; [|split].
    + eapply (the_member_of _ _ "Head"); [exact Y| |left; reflexivity]. cbn; repeat constructor; simpl; intuition congruence.
    + eapply (the_member_of _ _ "Core"); [exact Y| |right; left; reflexivity]. cbn; repeat constructor; simpl; intuition congruence.
    + eapply (the_member_of _ _ "Tail"); [exact Y| |right; right; left; reflexivity]. cbn; repeat constructor; simpl; intuition congruence.
Qed.
Print Assumptions C144_number.

(** ** C146 *)
(** Of every report that can be loaded, whatever network a client asks for and whatever the orders
    and schedules: the header of every column gives the period of the column's context as written
    in the instance, and in each of the languages that the answer lists. *)
Theorem C146_headers_partial :
  forall d dir name images pf sh tokens utr h, supported name -> loaded d dir name images pf sh tokens utr h ->
  exists file root, entry_at d dir root name file /\
    (well_written d dir root ->
     exists facts contexts q, understands d dir root q /\ facts_written d dir root facts /\
       contexts_written root q (content_of q tokens (attributes root)) contexts /\
       forall w slug bytes, o_url w = d_url d -> o_schema w = global_schema_file d ->
         marshalled_renderable w h slug (Ok (Some bytes)) ->
         exists e r langs v, is_slug e r slug /\ reads_as bytes v /\
           has v "Subject" (fun u => has u "Entity" (entity_value e)) /\
           has v "RelationshipSet" (relationship_set r) /\
           the_member v "Lang" (list_of shows langs) /\
           let shown u rows cols :=
             grid_shows facts contexts (reports d dir root) (eScheme e ++ "/" ++ eChar e) (renders_from w h) u rows cols /\
             headers_read (o_spanish w) langs u cols in
           presentation_with shown v /\ definition_with shown v /\ calculation_with shown v).
Proof.
  intros d dir name images pf sh tokens utr h N L.
  destruct (report_reads _ _ _ _ _ _ _ _ _ N L) as (file&root&EA&R). exists file, root. split; auto. intros WW.
  destruct (R WW) as (facts&contexts&units&q&Q&FW&CW&UW&K). exists facts, contexts, q. do 3 (split; [assumption|]).
  intros w slug bytes OU OS M. destruct (K w slug bytes OU OS) as [_ K'].
  destruct (K' M) as (e&r&nm&langs&roles&v&SL&CX&J&(_&SB)&RS&(LG&_)&P&D&C).
  exists e, r, langs, v. do 2 (split; [assumption|]). split; [|split; [now apply the_member_has|]].
  - apply the_member_has. eapply the_member_impl; [|exact SB]. intros u [_ U]. now apply the_member_has.
  - split; auto.
Qed.
Print Assumptions C146_headers_partial.

(** ** C145 *)
Lemma entity_called table e nm : a_table table -> entity_query (Ok table) (eScheme e) (eChar e) = Ok nm ->
  called table (eScheme e) (eChar e) nm.
Proof.
  intros [A B] Q. destruct (proj2 (C80_entity_query (Ok table) (eScheme e) (eChar e)) table eq_refl A B) as (r&E&H).
  rewrite Q in E. injection E as ->. exact H.
Qed.
(** Whatever the report and the network: the network is headed by the name that the table of names
    has for the entity it is about, and else by scheme and identifier. *)
Theorem C145_network_partial :
  forall w h slug bytes table, o_names w = Ok table -> a_table table -> marshalled_renderable w h slug (Ok (Some bytes)) ->
  exists e r name v, is_slug e r slug /\ reads_as bytes v /\ called table (eScheme e) (eChar e) name /\
    the_member v "Subject" (fun u => the_member u "Name" (shows name) /\ the_member u "Entity" (entity_value e)).
Proof.
  intros w h slug bytes table NM T M.
  destruct (done_parts_named _ _ _ _ M) as (insts&schemas&e&r&p&dg&c&conf&nm&VI&VS&FS&_&_&_&_&_&_&Q&->).
  destruct (rendered (o_spanish w) p dg c conf) as [[g roles] langs] eqn:ER.
  destruct (C119_renderable (linked (rsRole r) (map snd (hCalculation h))) r (Subject nm e) g roles langs) as (v&J&V).
  apply first_such_In in FS as [_ SL]. rewrite NM in Q. exists e, r, nm, v. split; auto. split; auto. split; [now apply entity_called|].
  eapply the_member_impl; [|eapply (the_member_of _ _ "Subject"); [exact V| |right; left; reflexivity]].
  2:{ cbn; repeat constructor; simpl; intuition congruence. }
  intros x X. split.
  - eapply (the_member_of _ _ "Name"); [exact X| |left; reflexivity]. cbn; repeat constructor; simpl; intuition congruence.
  - eapply (the_member_of _ _ "Entity"); [exact X| |right; left; reflexivity]. cbn; repeat constructor; simpl; intuition congruence.
Qed.
Print Assumptions C145_network_partial.
(** The catalog names the entities in the same way, also if the table cannot be read. *)
Theorem C145_catalog :
  forall w h bytes, o_names w <> Panic -> (forall table, o_names w = Ok table -> a_table table) -> marshalled_catalog w h (Ok (Some bytes)) ->
  exists subjects v, reads_as bytes v /\ the_member v "Subjects" (list_of subject_value subjects) /\
    forall s, In s subjects ->
      (forall table, o_names w = Ok table -> called table (eScheme (sbEntity s)) (eChar (sbEntity s)) (sbName s)) /\
      ((forall table, o_names w <> Ok table) -> sbName s = eScheme (sbEntity s) ++ "/" ++ eChar (sbEntity s)).
Proof.
  intros w h bytes NP T (insts&schemas&VI&VS&E). injection E as ->.
  set (c := marshal_catalog (o_names w) insts schemas (match hDocument h with Some _ => true | None => false end) (fdEntry (hFolder h))).
  destruct (C119_catalog c) as (v&J&V). exists (caSubjects c), v. split; auto. split.
  - unfold catalog_value in V. eapply (the_member_of _ _ "Subjects"); [exact V| |left; reflexivity]. cbn; repeat constructor; simpl; intuition congruence.
  - intros s Hs. assert (HN := C12_catalog_names (o_names w) insts schemas _ _ s Hs). 
    split.
    + intros table NM. apply entity_called; auto. rewrite NM in HN. unfold entity_query. cbn [bind].
      destruct (sget (eScheme (sbEntity s)) table) as [x|]; [destruct (sget (eChar (sbEntity s)) x) as [y|]|]; now rewrite HN.
    + intros NT. destruct (o_names w) as [tb|m|] eqn:EN; [exfalso; eapply NT; eauto|exact HN|congruence].
Qed.
Print Assumptions C145_catalog.

(** *** A folder: the schema and presentation of [pair_disk] and labels in Spanish, an instance with one fact, an amount per share *)
Definition iso4217 := "http://www.xbrl.org/2003/iso4217".
Definition measure_tree (s : string) : tree := xi "measure" [] [txt s].
Definition share_unit : tree := xi "unit" [pa "id" "u"]
  [xi "divide" [] [xi "unitNumerator" [] [measure_tree "i:USD"]; xi "unitDenominator" [] [measure_tree "x:shares"]]].
Definition share_fact_tree : tree := XmlElem (XName "urn:a" "A") [pa "id" "f1"; pa "contextRef" "c"; pa "unitRef" "u"; pa "decimals" "2"] "3.10" [txt "3.10"].
Definition share_root : tree := xi "xbrl" [XAttr (XName "xmlns" "i") iso4217; XAttr (XName "xmlns" "x") xbrli]
  [schema_ref_to "a.xsd"; a_context; share_unit; share_fact_tree].
Definition share_schema : tree := schema_tree "urn:a"
  [xs "annotation" [] [xs "appinfo" [] [linkbase_ref_to "presentation" "pre.xml"; linkbase_ref_to "label" "lab.xml"; a_role "r" [lk "definition" [] [txt "010 - Cover"]]]];
   concept_tree "R"; concept_tree "A"].
Definition label_saying (n s : string) : list tree :=
  [loc_of n; lk "label" [xl "type" "resource"; xl "label" ("l" ++ n); xl "role" "http://www.xbrl.org/2003/role/label"; pa "lang" "es"] [txt s];
   lk "labelArc" [xl "type" "arc"; xl "arcrole" "http://www.xbrl.org/2003/arcrole/concept-label"; xl "from" n; xl "to" ("l" ++ n); pa "order" "1"] []].
Definition share_labels : tree := lk "linkbase" []
  [lk "roleRef" [xl "type" "simple"; pa "roleURI" "urn:r"; xl "href" "a.xsd#r"] [];
   lk "labelLink" [xl "type" "extended"; xl "role" "urn:r"] (label_saying "R" "Portada" ++ label_saying "A" "Dividendo")].
Definition share_disk : disk :=
  small_disk [(in_dir "x.xml", share_root); (in_dir "a.xsd", share_schema); (in_dir "pre.xml", pair_links); (in_dir "lab.xml", share_labels)].
Definition share_end : state := go_on (files_of share_disk) small_dir 20
  (schema_ref (files_of share_disk) small_dir (first_folder (files_of share_disk) small_dir "x.xml") (instance_struct share_root)).
Definition share_folder : folder := DiscoverModel.finish "x.xml" (instance_struct share_root) (fst share_end).
(** the registry of units *)
Definition share_register : tree := el utr_ns "utr" [] [el utr_ns "units" [] [utr_unit_doc "USD" iso4217 "$"; utr_unit_doc "shares" xbrli "sh"]].
Definition share_units : list (list utr_unit) := match decode_utr (Some share_register) with Ok us => us | _ => [] end.
Definition share_registry : res registry := Ok (map_measurements share_units).
Definition share_loads := hydrate ex_pf plain_order (d_url share_disk) (global_schema_file share_disk) ex_tokens share_registry (Ok None) share_folder.
Definition share_report : hydratable := match share_loads with Ok h => h | _ => Hydratable share_folder [] None [] [] [] [] [] [] end.
(** digits are shown as they are written; every date is the last of 2020 *)
Definition share_outside : outside :=
  Outside (d_url share_disk) (global_schema_file share_disk) share_registry (Ok [("urn:s", [("0", "ACME")])]) sample_tree (fun _ => [])
    (fun _ s _ => Some ("", s, "")) (fun _ => None) (fun _ => "") (fun _ => Some "31 de diciembre de 2020").
Lemma share_entry : entry_at share_disk small_dir share_root "x.xml" "x.xml".
Proof. apply small_entry_at; [reflexivity|do 4 eexists; reflexivity]. Qed.
Lemma share_loaded : loaded share_disk small_dir "x.xml" false ex_pf plain_order ex_tokens share_registry share_report.
Proof.
  exists share_folder, (Ok None). split; [|split; [vm_compute; constructor|vm_compute; reflexivity]].
  assert (EI : entry_instance (files_of share_disk) small_dir "x.xml" "x.xml" (instance_struct share_root)) by (apply entry_iff; eauto using share_entry).
  apply (discover_iff _ _ _ _ _ _ _ EI). exists share_end. split; [apply go_on_runs; constructor|]. split; [vm_compute; repeat constructor|reflexivity].
Qed.
Lemma share_served : exists bytes, marshalled_renderable share_outside share_report pair_slug (Ok (Some bytes)).
Proof.
  apply (own_rendering share_outside share_report pair_slug pair_entity pair_set "ACME").
  - vm_compute. reflexivity.
  - vm_compute. reflexivity.
  - vm_compute. discriminate.
  - vm_compute. discriminate.
  - vm_compute. discriminate.
Qed.
Lemma share_plain : plain_declarations share_schema.
Proof. prove_plain. Qed.
Lemma share_image cs : image_of (concept_at share_schema "a.xsd") (kids share_schema) cs -> cs = [pair_concept "R"; pair_concept "A"].
Proof.
  intro I. apply concepts_of_iff in I; [|apply share_plain].
  assert (E : hydrate_concepts (schema_struct share_schema) "a.xsd" = [pair_concept "R"; pair_concept "A"]) by (vm_compute; reflexivity).
  rewrite <- E. eapply image_of_fun; [|exact I|apply hydrate_concepts_image]. intros x y y' H H'. eapply declares_concept_fun; eauto.
Qed.
Lemma share_followed x t : followed_at share_disk small_dir share_root x t -> x = "a.xsd" /\ t = share_schema.
Proof.
  intro F. assert (T : t = share_schema).
  { apply followed_at_local in F as [_ L]. apply small_document in L as [[E|[E|[E|[E|[]]]]] N]; injection E as _ <-; auto; destruct N as (?&?&?&?&N); discriminate N. }
  split; auto. clear T. destruct F as [h t ns R _ _|h0 g h t ns G R _ _|h0 g h t ns G R _].
  - destruct R as (y&Hy&(?&?&?&Ny)&Q). simpl in Hy. repeat destruct Hy as [<-|Hy]; try contradiction; try discriminate Ny.
    apply LinkbaseProofs.req_iff in Q. now injection Q.
  - exfalso. apply followed_at_local in G as [_ L]. apply small_document in L as [[E|[E|[E|[E|[]]]]] N]; injection E as _ <-; try (destruct N as (?&?&?&?&N); discriminate N).
    destruct R as (y&Hy&(?&?&?&Ny)&Q). simpl in Hy. repeat destruct Hy as [<-|Hy]; try contradiction; discriminate Ny.
  - exfalso. apply followed_at_local in G as [_ L]. apply small_document in L as [[E|[E|[E|[E|[]]]]] N]; injection E as _ <-; try (destruct N as (?&?&?&?&N); discriminate N).
    destruct R as (y&Hy&(?&?&?&Ny)&Q). simpl in Hy. repeat destruct Hy as [<-|Hy]; try contradiction; discriminate Ny.
Qed.
Lemma share_known x t : known share_disk small_dir share_root x t -> x = "a.xsd" /\ t = share_schema.
Proof. intros [F|(_&data&K&_)]; [now apply share_followed in F|discriminate K]. Qed.
Lemma share_claims ns x : claims_at share_disk small_dir share_root ns x -> x = "a.xsd".
Proof.
  intros [h t n R L T|h0 g h t n G R L T|h0 g h n G R].
  - apply (share_followed h t). eapply fat_ref; eauto.
  - apply (share_followed h t). eapply fat_include; eauto.
  - exfalso. apply share_followed in G as [_ ->].
    destruct R as (y&Hy&(?&?&?&Ny)&Q). simpl in Hy. repeat destruct Hy as [<-|Hy]; try contradiction; discriminate Ny.
Qed.
Lemma share_written : well_written share_disk small_dir share_root.
Proof.
  split; [|split; [|split; [|split; [|split]]]].
  - intros x t K. apply share_known in K as [_ ->]. apply share_plain.
  - intros x t cs K I. apply share_known in K as [-> ->]. apply share_image in I. subst cs. split.
    + apply has_char_false_iff. reflexivity.
    + repeat constructor; simpl; intuition discriminate.
  - intros x ns l _ _ h h' C C'. apply share_claims in C, C'. congruence.
  - prove_names.
  - prove_decls.
  - prove_texts.
Qed.
Lemma share_declared href c : LoadSpec.declared share_disk small_dir share_root "urn:a" "A" href c -> href = "a.xsd#id_A" /\ c = pair_concept "A".
Proof.
  intros (x&t&cs&C&_&K&I&F&->). apply share_claims in C. subst x. apply share_known in K as [_ ->]. apply share_image in I. subst cs.
  apply first_such_In in F as [[<-|[<-|[]]] E]; [discriminate E|]. auto.
Qed.
Lemma share_declares : LoadSpec.declared share_disk small_dir share_root "urn:a" "A" "a.xsd#id_A" (pair_concept "A").
Proof.
  assert (R : ref_at share_root "a.xsd").
  { exists (schema_ref_to "a.xsd"). split; [simpl; auto|]. split; [do 3 eexists; reflexivity|req_tac]. }
  assert (L : local share_disk small_dir "a.xsd" "schema" share_schema).
  { split; [reflexivity|]. exists (in_dir "a.xsd"). split; [reflexivity|]. split; [reflexivity|]. do 4 eexists; reflexivity. }
  exists "a.xsd", share_schema, [pair_concept "R"; pair_concept "A"]. split; [eapply cat_ref; eauto; req_tac|].
  split; [discriminate|]. split; [left; eapply fat_ref; eauto; req_tac|]. split.
  - apply (C107_concepts_partial share_schema (schema_struct share_schema) "a.xsd"
      (Schema "a.xsd" [RoleType "urn:r" "r" "010 - Cover" ["link:presentationLink"; "link:calculationLink"]] [pair_concept "R"; pair_concept "A"])); try reflexivity.
    apply share_plain.
  - split; [|reflexivity]. exists [pair_concept "R"], []. split; [reflexivity|]. split; [reflexivity|]. intros x [<-|[]]. discriminate.
Qed.
Definition share_fact : fact := Fact "a.xsd#id_A" "f1" "c" "u" 2 false "3.10".
Lemma share_fact_at fa : fact_at (LoadSpec.declared share_disk small_dir share_root) share_fact_tree fa <-> fa = share_fact.
Proof.
  split.
  - intros (ns&l&(?&?&?&E)&_&_&(c&D)&C&I&U&P&Nl&X). injection E; intros; subst. apply share_declared in D as [H _].
    apply LinkbaseProofs.req_iff in C. apply attr_or_empty_iff in I, U. apply hydrate_precision_iff in P. apply attr_bool_iff in Nl.
    destruct fa as [fa1 fa2 fa3 fa4 fa5 fa6 fa7]. cbn [fHref fContextRef fID fUnitRef fPrecision fIsNil fXMLInner] in *. vm_compute in C, I, U, Nl, X, P.
    injection C as <-. subst. reflexivity.
  - intros ->. exists "urn:a", "A". split; [do 3 eexists; reflexivity|]. split; [discriminate|]. split; [discriminate|].
    cbn [share_fact fHref fContextRef fID fUnitRef fPrecision fIsNil fXMLInner]. split; [exists (pair_concept "A"); apply share_declares|].
    split; [now apply LinkbaseProofs.req_iff|]. split; [now apply attr_or_empty_iff|]. split; [now apply attr_or_empty_iff|].
    split; [now apply hydrate_precision_iff|]. split; [now apply attr_bool_iff|]. reflexivity.
Qed.
Lemma share_facts facts : facts_written share_disk small_dir share_root facts -> forall fa, In fa facts <-> fa = share_fact.
Proof.
  intros (fs&I&(PM&_)) fa. split.
  - intro Hf. apply (Permutation_in _ (Permutation_sym PM)) in Hf. apply (image_of_In _ _ _ _ I) in Hf as (x&Hx&FA&NO).
    simpl in Hx. repeat destruct Hx as [<-|Hx]; try contradiction.
    + exfalso. apply (NO "schemaRef"); [simpl; auto|do 4 eexists; reflexivity].
    + exfalso. apply (NO "context"); [simpl; auto|do 4 eexists; reflexivity].
    + exfalso. apply (NO "unit"); [simpl; auto|do 4 eexists; reflexivity].
    + now apply share_fact_at.
  - intros ->. apply (Permutation_in _ PM).
    destruct (image_of_kept _ _ _ share_fact_tree share_fact I) as (fa&Hf&FA&_).
    + simpl; auto.
    + split; [now apply share_fact_at|]. intros l Hl (?&?&?&?&E). injection E; intros; subst l. simpl in Hl. intuition discriminate.
    + apply share_fact_at in FA. now subst.
Qed.
Definition share_unit_read : unit_ := Unit "u" no_measure (Measure (XName iso4217 "USD") "i:USD") (Measure (XName xbrli "shares") "x:shares").
Lemma share_unit_at u : unit_at (attributes share_root) share_unit u <-> u = share_unit_read.
Proof.
  pose proof share_written as (_&_&_&NH&DR&PT).
  rewrite <- (unit_iff (attributes share_root) share_unit).
  - rewrite <- hydrate_unit_iff. vm_compute. split; [intros [= <-]; reflexivity|intros ->; reflexivity].
  - intros y s l R. apply NH. exists share_unit. split; [simpl; auto|]. split; [right; do 3 eexists; reflexivity|exact R].
  - intros y a R. apply DR. exists share_unit. split; [simpl; auto|]. split; [right; do 3 eexists; reflexivity|exact R].
  - intros y l R. apply PT. exists share_unit. split; [simpl; auto|]. split; [right; do 3 eexists; reflexivity|exact R].
  - do 4 eexists; reflexivity.
Qed.
Lemma share_units_are units : units_written share_root units -> forall u, In u units <-> u = share_unit_read.
Proof.
  intros (us&I&(PM&_)) u. split.
  - intro Hu. apply (Permutation_in _ (Permutation_sym PM)) in Hu. apply (image_of_In _ _ _ _ I) in Hu as (x&Hx&UA).
    pose proof (proj1 UA) as (?&?&?&N). simpl in Hx. repeat destruct Hx as [<-|Hx]; try contradiction; try discriminate N. now apply share_unit_at.
  - intros ->. apply (Permutation_in _ PM). destruct (image_of_kept _ _ _ share_unit share_unit_read I) as (u'&Hu&UA); [simpl; auto|now apply share_unit_at|].
    apply share_unit_at in UA. now subst.
Qed.
Lemma share_registry_of : registry_of (Some share_register) (o_units share_outside).
Proof. left. exists share_register, share_units. split; auto. Qed.
Definition usd : measurement := match query_utr share_registry iso4217 "USD" with Some m => m | None => Measurement "" "" "" "" "" "" "" "" "" "" "" "" "" "" "" "" "" end.
Definition shares : measurement := match query_utr share_registry xbrli "shares" with Some m => m | None => Measurement "" "" "" "" "" "" "" "" "" "" "" "" "" "" "" "" "" end.
Lemma share_knows nsp l m : known_unit (Some share_register) (XName nsp l) m <-> query_utr share_registry nsp l = Some m.
Proof. symmetry. apply (known_iff (Some share_register) share_units share_register); reflexivity. Qed.
Lemma share_named units u : units_written share_root units -> unit_named units "u" u <-> u = share_unit_read.
Proof.
  intro UW. split.
  - intro F. apply first_such_In in F as [F _]. now apply (share_units_are _ UW).
  - intros ->. pose proof (proj2 (share_units_are _ UW share_unit_read) eq_refl) as I. destruct units as [|u0 us]; [destruct I|].
    assert (u0 = share_unit_read) as -> by (apply (share_units_are _ UW); now left).
    exists [], us. split; [reflexivity|]. split; [reflexivity|]. intros ? [].
Qed.
Lemma share_in units m : units_written share_root units -> measured_in (Some share_register) units "u" m <-> m = usd.
Proof.
  intro UW. split.
  - intros (u&U&[[S _]|[_ K]]); apply (share_named _ _ UW) in U; subst u; [now destruct S|]. apply share_knows in K. vm_compute in K. injection K as <-. reflexivity.
  - intros ->. exists share_unit_read. split; [now apply share_named|]. right. split; [repeat split; discriminate|]. apply share_knows. vm_compute. reflexivity.
Qed.
Lemma share_per units m : units_written share_root units -> measured_per (Some share_register) units "u" m <-> m = shares.
Proof.
  intro UW. split.
  - intros (u&U&_&K); apply (share_named _ _ UW) in U; subst u. apply share_knows in K. vm_compute in K. injection K as <-. reflexivity.
  - intros ->. exists share_unit_read. split; [now apply share_named|]. split; [repeat split; discriminate|]. apply share_knows. vm_compute. reflexivity.
Qed.
Lemma share_said units m : units_written share_root units -> ~ said_per (Some share_register) units "u" m.
Proof. intros UW (u&U&_&K). apply (share_named _ _ UW) in U; subst u. apply share_knows in K. vm_compute in K. discriminate K. Qed.

Lemma declared_A ns l c : LoadSpec.declared share_disk small_dir share_root ns l "a.xsd#id_A" c -> c = pair_concept "A".
Proof.
  intros (x&t&cs&C&_&K&I&F&E). apply share_claims in C. subst x. apply share_known in K as [_ ->]. apply share_image in I. subst cs.
  apply first_such_In in F as [[<-|[<-|[]]] _]; [discriminate E|reflexivity].
Qed.

(** C144 fails: the amount per share of [share_root] is shown without the share. *)
Theorem C144_refuted :
  ~ (forall d dir name images pf sh tokens utr h file root, supported name -> loaded d dir name images pf sh tokens utr h ->
       entry_at d dir root name file -> well_written d dir root ->
       forall q facts contexts units, understands d dir root q -> facts_written d dir root facts ->
         contexts_written root q (content_of q tokens (attributes root)) contexts -> units_written root units ->
       forall w slug bytes v register, o_url w = d_url d -> o_schema w = global_schema_file d -> registry_of register (o_units w) ->
         marshalled_renderable w h slug (Ok (Some bytes)) -> reads_as bytes v ->
       forall fa k c i, In fa facts -> (forall fb, In fb facts -> fHref fb = fHref fa -> fContextRef fb = fContextRef fa -> fb = fa) ->
         reports d dir root fa k -> cAbstract k = false ->
         first_such (fun c => ctxID c = fContextRef fa) contexts c ->
         has v "Subject" (fun u => has u "Entity" (entity_value (Entity (ctxScheme c) (ctxIdentifier c)))) ->
         has v "PGrid" (fun u => has u "IndentedLabels" (fun l => the_item l i (href_shown (fHref fa)))) ->
         exists j, the_member v "PGrid" (fun u => the_member u "FactualQuadrant" (fun q =>
           the_item q i (fun r => the_item r j
             (fact_shown (reads (o_html w) (o_digits w) (o_percent w) (measured_in register units) (measured_per register units)) k fa))))).
Proof.
  intro H.
  destruct (C144_units_partial _ _ _ _ _ _ _ _ _ x_supported share_loaded) as (file&root&EA&G).
  assert (root = share_root) as ->.
  { destruct EA as ([[N _]|[_ ->]]&DO&_).
    - exfalso. apply inline_iff in N. destruct N as [N|N]; discriminate N.
    - destruct share_entry as (_&DO'&_). eapply document_fun; eauto. }
  destruct (G share_written) as (facts&contexts&units&q&UN&FW&CW&UW&K). clear G.
  assert (PP : exists pg rs ls, own_p share_outside share_report (stringify pair_entity) (rsRole pair_set) = Ok (pg, rs, ls) /\
    map ilHref (pgLabels pg) = ["a.xsd#id_R"; "a.xsd#id_A"]) by (do 3 eexists; split; vm_compute; reflexivity).
  destruct PP as (pg&rs&ls&OP&PL).
  destruct (own_rendering_value share_outside share_report pair_slug pair_entity pair_set "ACME" pg rs ls) as (bytes&v&M&J&_&PV);
    [vm_compute; reflexivity|vm_compute; reflexivity|exact OP|vm_compute; discriminate|vm_compute; discriminate|].
  destruct (K share_outside pair_slug bytes (Some share_register) eq_refl eq_refl share_registry_of M) as (e&r&v'&_&(c0&Hc0&E1&E2)&[_ U]&SJ&_&PS&_).
  destruct J as [J JU]. pose proof (U _ J). subst v'.
  assert (CC : forall c, In c contexts -> ctxID c = "c" /\ ctxScheme c = eScheme e /\ ctxIdentifier c = eChar e).
  { destruct CW as (cs&I&(PM&_)).
    assert (A : forall c, In c contexts -> context_at q (content_of q ex_tokens (attributes share_root)) (attributes share_root) a_context c).
    { intros c Hc. apply (Permutation_in _ (Permutation_sym PM)) in Hc.
      apply (image_of_In _ _ _ _ I) in Hc as (x&Hx&CA). pose proof (ca_name _ _ _ _ _ CA) as (?&?&?&N). simpl in Hx.
      repeat destruct Hx as [<-|Hx]; try contradiction; try discriminate N. exact CA. }
    intros c Hc. split; [pose proof (ca_id _ _ _ _ _ (A c Hc)) as R; apply LinkbaseProofs.req_iff in R; now injection R|].
    destruct (entity_fun _ _ _ _ _ _ (A c Hc) (A c0 Hc0)). split; congruence. }
  assert (HC : exists c rest, contexts = c :: rest) by (destruct contexts as [|c rest]; [destruct Hc0|eauto]).
  destruct HC as (c&rest&EC).
  assert (FC : first_such (fun x => ctxID x = "c") contexts c).
  { exists [], rest. split; [exact EC|]. split; [apply CC; rewrite EC; now left|]. intros ? []. }
  pose proof (share_facts _ FW) as SF.
  assert (RP : reports share_disk small_dir share_root share_fact (pair_concept "A")).
  { exists share_fact_tree, "urn:a", "A". split; [simpl; auto|]. split; [now apply share_fact_at|]. split; [do 3 eexists; reflexivity|]. apply share_declares. }
  assert (SB : has v "Subject" (fun u => has u "Entity" (entity_value (Entity (ctxScheme c) (ctxIdentifier c))))).
  { destruct (CC c) as (_&S1&S2); [rewrite EC; now left|]. rewrite S1, S2. destruct e. exact SJ. }
  assert (RW : has v "PGrid" (fun u => has u "IndentedLabels" (fun l => the_item l 1 (href_shown "a.xsd#id_A")))).
  { apply the_member_has. eapply the_member_impl; [|exact PV]. intros u X. apply the_member_has. eapply the_member_impl; [|exact X].
    intros l LL. apply (list_of_hrefs ilHref) in LL; [|intros a b; apply row_href; discriminate]. rewrite PL in LL.
    destruct LL as (vs&->&F). inversion F as [|? u1 ? vs1 H1 F1]; subst. inversion F1 as [|? u2 ? vs2 H2 F2]; subst.
    exists (u1 :: u2 :: vs2), u2. auto. }
  destruct (H _ _ _ _ _ _ _ _ _ _ _ x_supported share_loaded share_entry share_written q facts contexts units UN FW CW UW share_outside pair_slug bytes v (Some share_register)
    eq_refl eq_refl share_registry_of M (conj J JU) share_fact (pair_concept "A") c 1) as (j&u1&C1&V1);
    [now apply SF|intros fb Hb _ _; now apply SF|exact RP|reflexivity|exact FC|exact SB|exact RW|]. clear H.
  destruct PS as (u2&(rows&cols&_&GS)&V2). assert (u2 = u1) as -> by (apply V1, V2; reflexivity).
  destruct C1 as (q1&(l1&x1&->&L1&(k1&y1&->&K1&W1))&Q1).
  destruct (gs_size _ _ _ _ _ _ _ _ GS) as (q0&(rws&->&Z0&Z1&SZ)&Q0). assert (JArr rws = JArr l1) as [= ->] by (apply Q1, Q0; reflexivity).
  assert (NC : cols <> []) by (intro Z; rewrite (Z0 Z) in L1; discriminate L1). specialize (Z1 NC).
  destruct (SZ (JArr k1)) as (us&[= <-]&LE); [eapply nth_error_In; eauto|].
  destruct (nth_error rows 1) as [href|] eqn:R1.
  2:{ apply nth_error_None in R1. assert (1 < length l1) by (apply nth_error_Some; congruence). lia. }
  destruct (nth_error cols j) as [c1|] eqn:N1.
  2:{ apply nth_error_None in N1. assert (j < length k1) by (apply nth_error_Some; congruence). lia. }
  destruct (gs_cell _ _ _ _ _ _ _ _ GS _ _ _ _ R1 N1) as (q2&(l2&x2&->&L2&(k2&y2&->&K2&W2))&Q2).
  assert (JArr l2 = JArr l1) as [= ->] by (apply Q1, Q2; reflexivity). assert (JArr k2 = JArr k1) as [= ->] by congruence.
  assert (y2 = y1) as -> by congruence.
  destruct (C144_number _ _ _ _ _ _ _ _ "" "3.10" "" W1) as (n&dd&b&a&HN&HD&_&A&X);
    [reflexivity|discriminate|discriminate|intros [P _]; discriminate P|reflexivity|].
  assert (n = Some usd) as -> by (apply HN, (share_in _ _ UW); reflexivity).
  assert (dd = Some shares) as -> by (apply HD, (share_per _ _ UW); reflexivity).
  assert (a = " /sh") as ->.
  { inversion A as [|m0 d0 own per OW PE]; subst. destruct OW as [(Z&_)|(_&->)]; [vm_compute in Z; discriminate Z|].
    destruct PE as [(Z&_)|(dm&s&Z&SN&->)]; [discriminate Z|]. injection Z as <-.
    inversion SN as [Y|Y]; subst; [reflexivity|]. vm_compute in Y. discriminate Y. }
  assert (TW : the_member y1 "Unlabelled" (fun x => exists s, (s = "" \/ s = " ") /\ the_member x "Tail" (shows s))).
  { destruct W2 as [(fa&kk&F1&(x0&ns&l&_&_&_&DE)&W2)|[_ BL]].
    - assert (fa = share_fact) as -> by (apply first_such_In in F1 as [F1 _]; now apply SF). apply declared_A in DE. subst kk.
      destruct (C144_number _ _ _ _ _ _ _ _ "" "3.10" "" W2) as (n2&d2&b2&a2&HN2&HD2&_&A2&X2);
        [reflexivity|discriminate|discriminate|intros [P _]; discriminate P|reflexivity|].
      assert (n2 = Some usd) as -> by (apply HN2, (share_in _ _ UW); reflexivity).
      assert (d2 = None) as -> by (destruct d2 as [m|]; [exfalso; apply (share_said _ m UW); now apply HD2|reflexivity]).
      eapply the_member_impl; [|exact X2]. intros x (_&_&T). exists (" " ++ "" ++ ""). split; [now right|].
      assert (E : a2 = " "); [|subst a2; exact T].
      inversion A2 as [|m0 d0 own per OW PE]; subst. destruct OW as [(Z&_)|(_&->)]; [vm_compute in Z; discriminate Z|].
      destruct PE as [(_&->)|(dm&s&Z&_)]; [reflexivity|discriminate Z].
    - eapply the_member_impl; [|apply (map_the_member _ _ _ "Unlabelled" (FactExpression "" "" "" "") BL)].
      + intros x Y. exists "". split; [now left|]. eapply (the_member_of _ _ "Tail"); [exact Y| |right; right; left; reflexivity]. cbn; repeat constructor; simpl; intuition congruence.
      + cbn. repeat constructor. now intros [].
      + intros key [<-|[]]. apply (JsonProofs.san_text "Unlabelled").
      + now left. }
  destruct X as (z1&(_&_&(t1&(s1&->&_&S1)&T1))&Z3), TW as (z2&(s&HS&(t2&(s2&->&_&S2)&T2))&Z4).
  assert (z2 = z1) as -> by (apply Z3, Z4; reflexivity). assert (JStr s2 = JStr s1) as [= ->] by (apply T1, T2; reflexivity).
  assert (E3 : s1 = " /sh") by (apply S1, (JsonProofs.san_text " /sh")).
  destruct HS as [->| ->]; [assert (E4 : s1 = "") by (apply S2, (JsonProofs.san_text ""))|assert (E4 : s1 = " ") by (apply S2, (JsonProofs.san_text " "))]; congruence.
Qed.
Print Assumptions C144_refuted.
(** The hypotheses of C144 are met: a report whose one number is an amount of USD per share, and a registry that knows both. *)
Example C144_example :
  loaded share_disk small_dir "x.xml" false ex_pf plain_order ex_tokens share_registry share_report /\ well_written share_disk small_dir share_root /\
  (o_url share_outside = d_url share_disk /\ o_schema share_outside = global_schema_file share_disk) /\ registry_of (Some share_register) (o_units share_outside) /\
  (forall units, units_written share_root units -> measured_in (Some share_register) units "u" usd /\ measured_per (Some share_register) units "u" shares) /\
  mSymbol usd = "$" /\ mSymbol shares = "sh" /\
  exists bytes, marshalled_renderable share_outside share_report pair_slug (Ok (Some bytes)).
Proof.
  split; [exact share_loaded|]. split; [exact share_written|]. split; [split; reflexivity|]. split; [exact share_registry_of|].
  split; [intros units UW; split; [now apply share_in|now apply share_per]|]. split; [vm_compute; reflexivity|]. split; [vm_compute; reflexivity|]. exact share_served.
Qed.

(** ** The running server *)

(** C144 for the running server, whatever it has been asked before. *)
Theorem C144_served_units_partial : forall w detect files s id slug query p register, history w s -> registry_of register (o_units (w_out w)) ->
  entry_name_ok id -> entry_name_ok slug -> slug <> "facts" ->
  exchanged detect files s "GET" ("/folders/" ++ id ++ "/" ++ slug) query (Answer (Some p)) -> status p = 200 -> body p <> "" ->
  exists name h, report_of w id name h /\
    ((slug = name /\ inline_name name /\ document_sent w id name (body p)) \/
     (exists file root, entry_at (w_disk w) (folder_at w id) root name file /\
        (well_written (w_disk w) (folder_at w id) root ->
         exists facts contexts units q, understands (w_disk w) (folder_at w id) root q /\ facts_written (w_disk w) (folder_at w id) root facts /\
           contexts_written root q (content_of q (w_tokens w) (attributes root)) contexts /\ units_written root units /\
         exists e r v, is_slug e r slug /\ reads_as (body p) v /\
           has v "Subject" (fun u => has u "Entity" (entity_value e)) /\ has v "RelationshipSet" (relationship_set r) /\
           let reader := reads (o_html (w_out w)) (o_digits (w_out w)) (o_percent (w_out w)) (measured_in register units) (said_per register units) in
           presentation_shown facts contexts (reports (w_disk w) (folder_at w id) root) reader (eScheme e ++ "/" ++ eChar e) v /\
           definition_shown facts contexts (reports (w_disk w) (folder_at w id) root) reader (eScheme e ++ "/" ++ eChar e) v /\
           calculation_shown facts contexts (reports (w_disk w) (folder_at w id) root) reader (eScheme e ++ "/" ++ eChar e) v))).
Proof.
  intros w detect files s id slug query p register H RG I J N X ST B.
  destruct (network_sent _ _ _ _ _ _ _ _ H I J N X ST B) as (name&h&R&M). exists name, h. split; auto. destruct M as [M|[SN M]]; [now left|right].
  destruct R as (_&images&sh&O&L). destruct (C144_units_partial _ _ _ _ _ _ _ _ _ SN L) as (file&root&EA&K). exists file, root. split; auto.
  intro WW. destruct (K WW) as (facts&contexts&units&q&A1&A2&A3&A4&A5). exists facts, contexts, units, q. do 4 (split; [assumption|]).
  destruct (A5 (out w) slug (body p) register eq_refl eq_refl RG M) as (e&r&v&B1&_&B2). exists e, r, v. split; assumption.
Qed.
Print Assumptions C144_served_units_partial.

(** C145 for the running server. *)
Theorem C145_served_network_partial : forall w detect files s id slug query p table, history w s -> o_names (w_out w) = Ok table -> a_table table ->
  entry_name_ok id -> entry_name_ok slug -> slug <> "facts" ->
  exchanged detect files s "GET" ("/folders/" ++ id ++ "/" ++ slug) query (Answer (Some p)) -> status p = 200 -> body p <> "" ->
  exists name h, report_of w id name h /\
    ((slug = name /\ inline_name name /\ document_sent w id name (body p)) \/
     (exists e r nm v, is_slug e r slug /\ reads_as (body p) v /\ called table (eScheme e) (eChar e) nm /\
        the_member v "Subject" (fun u => the_member u "Name" (shows nm) /\ the_member u "Entity" (entity_value e)))).
Proof.
  intros w detect files s id slug query p table H NM T I J N X ST B.
  destruct (network_sent _ _ _ _ _ _ _ _ H I J N X ST B) as (name&h&R&M). exists name, h. split; auto. destruct M as [M|[SN M]]; [now left|right].
  exact (C145_network_partial (out w) h slug (body p) table NM T M).
Qed.
Print Assumptions C145_served_network_partial.

(** C146 for the running server. *)
Theorem C146_served_headers_partial : forall w detect files s id slug query p, history w s ->
  entry_name_ok id -> entry_name_ok slug -> slug <> "facts" ->
  exchanged detect files s "GET" ("/folders/" ++ id ++ "/" ++ slug) query (Answer (Some p)) -> status p = 200 -> body p <> "" ->
  exists name h, report_of w id name h /\
    ((slug = name /\ inline_name name /\ document_sent w id name (body p)) \/
     (exists file root, entry_at (w_disk w) (folder_at w id) root name file /\
        (well_written (w_disk w) (folder_at w id) root ->
         exists facts contexts q, understands (w_disk w) (folder_at w id) root q /\ facts_written (w_disk w) (folder_at w id) root facts /\
           contexts_written root q (content_of q (w_tokens w) (attributes root)) contexts /\
         exists e r langs v, is_slug e r slug /\ reads_as (body p) v /\
           has v "Subject" (fun u => has u "Entity" (entity_value e)) /\ has v "RelationshipSet" (relationship_set r) /\
           the_member v "Lang" (list_of shows langs) /\
           let shown u rows cols :=
             grid_shows facts contexts (reports (w_disk w) (folder_at w id) root) (eScheme e ++ "/" ++ eChar e) (renders_from (out w) h) u rows cols /\
             headers_read (o_spanish (w_out w)) langs u cols in
           presentation_with shown v /\ definition_with shown v /\ calculation_with shown v))).
Proof.
  intros w detect files s id slug query p H I J N X ST B.
  destruct (network_sent _ _ _ _ _ _ _ _ H I J N X ST B) as (name&h&R&M). exists name, h. split; auto. destruct M as [M|[SN M]]; [now left|right].
  destruct R as (_&images&sh&O&L). destruct (C146_headers_partial _ _ _ _ _ _ _ _ _ SN L) as (file&root&EA&K). exists file, root. split; auto.
  intro WW. destruct (K WW) as (facts&contexts&q&A1&A2&A3&A4). exists facts, contexts, q. do 3 (split; [assumption|]).
  exact (A4 (out w) slug (body p) eq_refl eq_refl M).
Qed.
Print Assumptions C146_served_headers_partial.

(** ** The registry and the names on a machine *)

(** The registry that C144 speaks of is the document in the file of the registry below the directory of the taxonomies,
    the table of names that C145 speaks of is what is in names.json in the working directory. *)
Theorem C144_machine : forall m, exists register, registry_of register (o_units (w_out (world_on m))) /\
  forall root, register = Some root <-> exists data, global_file m CacheModel.UTR = Some data /\ d_xml (w_disk (m_rest m)) data = Some root /\ locally_named "utr" root.
Proof.
  intro m. cbn [world_on w_out o_units]. unfold units_read. destruct (global_file m CacheModel.UTR) as [data|].
  2:{ exists None. split; [right; eauto|]. intro root. split; [discriminate|intros (?&?&_); discriminate]. }
  destruct (d_xml (w_disk (m_rest m)) data) as [root|] eqn:D.
  2:{ exists None. split; [right; split; [reflexivity|eexists; reflexivity]|]. intro root. split; [discriminate|intros (?&E&F&_)]. injection E as <-. congruence. }
  destruct (decode_utr (Some root)) as [us|e|] eqn:E.
  - exists (Some root). split; [left; exists root, us; auto|]. intro root'. split.
    + intros [= <-]. exists data. split; auto. split; auto. unfold decode_utr, decode in E.
      destruct (has_tag "utr" root) eqn:Q; [|discriminate E]. now apply has_tag_iff.
    + intros (data'&[= <-]&D'&_). congruence.
  - exists None. split; [right; split; [reflexivity|eexists; reflexivity]|]. intro root'. split; [discriminate|]. intros (data'&[= <-]&D'&(ns&a&i&ks&->)).
    rewrite D in D'. injection D' as ->. cbn in E. discriminate E.
  - exfalso. eapply decode_returns; exact E.
Qed.
Print Assumptions C144_machine.
(** C145 fails where there is no table of names: no network is sent at all. *)
Theorem C145_refuted : forall w h slug bytes, (forall table, o_names w <> Ok table) -> ~ marshalled_renderable w h slug (Ok (Some bytes)).
Proof.
  intros w h slug bytes NT M. destruct (done_parts_named _ _ _ _ M) as (insts&schemas&e&r&p&dg&c&conf&nm&_&_&_&_&_&_&_&_&_&Q&_).
  unfold entity_query in Q. destruct (o_names w) as [t| |]; [now apply (NT t)|discriminate Q..].
Qed.
Print Assumptions C145_refuted.
Definition nameless (w : outside) : outside :=
  Outside (o_url w) (o_schema w) (o_units w) (Err "no such file") (o_tree w) (o_html w) (o_digits w) (o_percent w) (o_order w) (o_spanish w).
(** A network that is sent with a table of names in which the entity is, and with one in which it is not, and never without a table. *)
Example C145_example :
  (exists bytes, marshalled_renderable share_outside share_report pair_slug (Ok (Some bytes))) /\ o_names share_outside = Ok [("urn:s", [("0", "ACME")])] /\
  called [("urn:s", [("0", "ACME")])] "urn:s" "0" "ACME" /\ a_table [("urn:s", [("0", "ACME")])] /\
  (exists bytes, marshalled_renderable pair_outside pair_report pair_slug (Ok (Some bytes))) /\ o_names pair_outside = Ok [] /\
  called [] "urn:s" "0" "urn:s/0" /\ a_table [] /\
  (forall bytes, ~ marshalled_renderable (nameless pair_outside) pair_report pair_slug (Ok (Some bytes))) /\
  (exists bytes, marshalled_catalog share_outside share_report (Ok (Some bytes))) /\ (exists bytes, marshalled_catalog (nameless share_outside) share_report (Ok (Some bytes))).
Proof.
  split; [exact share_served|]. split; [reflexivity|]. split; [left; exists [("0", "ACME")]; split; left; reflexivity|].
  split. { split; [constructor; [intros []|constructor]|]. intros x m [[= <- <-]|[]]. constructor; [intros []|constructor]. }
  split; [exact pair_served|]. split; [reflexivity|]. split; [right; split; [intros ? ? []|reflexivity]|].
  split; [split; [constructor|intros ? ? []]|]. split; [intro bytes; apply C145_refuted; discriminate|].
  split; do 3 eexists; (split; [apply Permutation_refl|split; [apply Permutation_refl|reflexivity]]).
Qed.

(** The hypotheses for the running server are met: the network of [share_disk] is asked for and sent. *)
Example C144_served_example : exists files s p, history (world_with share_disk share_outside) s /\ registry_of (Some share_register) (o_units share_outside) /\
  entry_name_ok "f" /\ entry_name_ok pair_slug /\ pair_slug <> "facts" /\
  exchanged (fun _ => "") files s "GET" ("/folders/f/" ++ pair_slug) "" (Answer (Some p)) /\ status p = 200 /\ body p <> "" /\
  entry_at share_disk small_dir share_root "x.xml" "x.xml" /\ well_written share_disk small_dir share_root.
Proof.
  destruct share_served as (b&M).
  destruct (C145_network_partial share_outside share_report pair_slug b [("urn:s", [("0", "ACME")])] eq_refl (proj1 (proj2 (proj2 (proj2 C145_example)))) M) as (e&r&nm&v&_&[V _]&_). apply json_nonempty in V.
  assert (B : returned_renderable (out (world_with share_disk share_outside)) share_report pair_slug (Ok (Some b))) by (inversion M; assumption).
  destruct (asked_for share_disk share_outside share_report b eq_refl share_loaded B) as (files&s&p&A1&A2&A3&A4&A5&A6&<-).
  exists files, s, p. auto 12 using share_entry, share_written, share_registry_of.
Qed.
(** The hypotheses of C146 are met; the languages offered are Spanish and the two that are always there, and the period of the one column is 2020-12-31. *)
Example C146_example :
  loaded share_disk small_dir "x.xml" false ex_pf plain_order ex_tokens share_registry share_report /\ well_written share_disk small_dir share_root /\
  (o_url share_outside = d_url share_disk /\ o_schema share_outside = global_schema_file share_disk) /\
  (exists bytes, marshalled_renderable share_outside share_report pair_slug (Ok (Some bytes))) /\
  (exists pg rs, own_p share_outside share_report (stringify pair_entity) (rsRole pair_set) = Ok (pg, rs, ["Unlabelled"; "Truncated"; "es - español"]) /\
     pgPeriods pg = [[("Unlabelled", "2020-12-31")]]) /\
  header_text (o_spanish share_outside) "es - español" "2020-12-31" "al 31 de diciembre de 2020".
Proof.
  split; [exact share_loaded|]. split; [exact share_written|]. split; [split; reflexivity|]. split; [exact share_served|].
  split; [do 2 eexists; split; vm_compute; reflexivity|].
  split; [discriminate|]. split; [intros _ (r&E); discriminate E|]. split; [discriminate|]. split; [|intros _ N; now destruct N].
  intros _ _. apply C51_spanish; [discriminate|vm_compute; reflexivity].
Qed.
