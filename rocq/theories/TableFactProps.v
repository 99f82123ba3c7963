(** * TableFactProps: what a table shows of a fact is what its own answer shows (C166) *)
From Verif Require Import GoBase GoSpec GoFacts AttrModel AttrSpec AttrProofs SchemaModel SchemaSpec SchemaProofs SchemaProps
  LinkbaseModel LinkbaseSpec LinkbaseProofs LinkbaseProps InstanceModel InstanceSpec InstanceProofs InstanceProps
  HydrateModel HydrateSpec HydrateProofs HydrateProps LabelModel LabelSpec LabelProofs LabelProps PeriodModel PeriodSpec PeriodProofs PeriodProps
  FactModel FactSpec FactProofs FactProps GridModel GridSpec GridProofs GridProps CalcModel CalcSpec CalcProofs CalcProps DefModel DefSpec DefProofs DefProps
  RenderModel RenderSpec RenderProofs RenderProps ExpressModel ExpressSpec ExpressProofs ExpressProps
  DiscoverModel DiscoverSpec DiscoverProofs DiscoverProps XmlModel XmlSpec XmlProofs XmlProps LoadModel LoadSpec LoadProofs LoadProps
  CatalogModel CatalogSpec CatalogProofs CatalogProps ReportModel ResponseModel ResponseSpec ResponseProofs ResponseProps EndToEndSpec EndToEndProps
  ReportSpec ReportProofs ReportProps AskSpec AskProps ColumnProps SteadySpec SteadyProofs SteadyProps
  ImageModel ImageSpec ImageProofs ImageProps WebModel WebSpec WebProofs WebProps PathSpec RouterModel RouterSpec RouterProofs RouterProps.
From Verif Require CacheModel CacheSpec CacheProofs CacheProps.
From Verif Require Import ServerModel ServerSpec ServerProps ServedProps DocNameProps InertProps FactSameProps SameProofs SameProps AlikeProofs AlikeProps AlikeNetProps TableFactSpec.
Local Open Scope nat_scope.
Local Open Scope string_scope.

(** ** One fact, rendered in any languages *)
Lemma pure_kept e f y : render_english_fact e f = Ok y -> forall langs m x, render_langs e f langs m = Ok x ->
  In PureLabel langs \/ sget PureLabel m = Some y -> sget PureLabel x = Some y.
Proof.
  intros Y. induction langs as [|l langs IH]; intros m x; cbn [render_langs].
  - intros [= <-] [[]|E]. exact E.
  - destruct (String.eqb l English) eqn:E1; [|destruct (String.eqb l Español) eqn:E2; [|destruct (String.eqb l PureLabel) eqn:E3]].
    + apply String.eqb_eq in E1 as ->. rewrite Y. cbn [bind]. intros R [[D|I]|G]; [discriminate D| |]; (eapply IH; [exact R|]); [now left|].
      right. rewrite sget_sset'. exact G.
    + apply String.eqb_eq in E2 as ->. destruct (render_spanish_fact e f) as [z| |]; cbn [bind]; try discriminate.
      intros R [[D|I]|G]; [discriminate D| |]; (eapply IH; [exact R|]); [now left|]. right. rewrite sget_sset'. exact G.
    + apply String.eqb_eq in E3 as ->. rewrite Y. cbn [bind]. intros R _. eapply IH; [exact R|]. right. rewrite sget_sset', String.eqb_refl. reflexivity.
    + intros R [[->|I]|G]; [discriminate E3| |]; (eapply IH; [exact R|]); auto.
Qed.
Lemma pure_shown e f langs x m : render e (Some f) langs = Ok x -> render e (Some f) [PureLabel] = Ok m -> In PureLabel langs ->
  exists t, sget PureLabel x = Some t /\ sget PureLabel m = Some t.
Proof.
  unfold render. destruct (fIsNil f).
  - intros [= <-] [= <-] _. eexists. split; reflexivity.
  - intros R M I. cbn in M. destruct (render_english_fact e f) as [y| |] eqn:Y; cbn in M; try discriminate M. injection M as <-. exists y.
    split; [eapply pure_kept; eauto|reflexivity].
Qed.
Lemma period_kept start end_ es p labels m : sget PureLabel m = Some p -> sget PureLabel (append_period_langs es m labels start end_) = Some p.
Proof.
  unfold append_period_langs. generalize (flat_map (fun kv : string * list (string * string) => map fst (snd kv)) labels). intro l. revert m.
  induction l as [|x l IH]; cbn [fold_left]; intros m E; auto. apply IH. destruct (String.eqb x English); [rewrite sget_sset'; exact E|].
  destruct (String.eqb x Español); [rewrite sget_sset'; exact E|exact E].
Qed.
Lemma same_period es labels c p : period_of c p -> sget PureLabel (period_multilingual_string es labels c) = Some p.
Proof.
  unfold period_multilingual_string. intros [(A&B&->)|[A ->]].
  - apply nonempty_iff in A, B. rewrite A, B. cbn [andb]. now apply period_kept.
  - assert (E : nonempty (ctxEnd c) && nonempty (ctxStart c) = false) by (destruct A as [-> | ->]; [apply andb_false_r|reflexivity]). rewrite E.
    destruct (nonempty (ctxInstant c)) eqn:N; [now apply period_kept|]. cbn. destruct (ctxInstant c); [reflexivity|discriminate N].
Qed.

(** ** One table *)
Lemma tabled w h slug b : marshalled_renderable w h slug (Ok (Some b)) ->
  exists e r name p v ps, entity_query (o_names w) (eScheme e) (eChar e) = Ok name /\ reads_as b v /\
    the_member v "Subject" (subject_value (Subject name e)) /\ the_member v "RelationshipSet" (relationship_set r) /\
    p_grids w h (stringify e) (rsRole r) p /\ pgPeriods (grid_or zero_p p) = map (fun p => [("Unlabelled", p)]) ps /\
    presentation_of (pgLabels (grid_or zero_p p)) (pgMembers (grid_or zero_p p)) (pgVoid (grid_or zero_p p)) (pgFacts (grid_or zero_p p)) ps v.
Proof.
  intros M. inversion M as [o R E|]; subst. inversion R as [|insts schemas e r p d c conf VI VS F PG DG CG NP ND NC ST DN EQ]; subst.
  unfold marshal_renderable in EQ. rewrite F in EQ.
  destruct (entity_query _ _ _) as [name| |] eqn:Q; cbn [bind renderable_bytes] in EQ; try discriminate EQ. injection EQ as EQ.
  unfold rendered in EQ. cbn [rnSet] in EQ.
  match type of EQ with context [Renderable r (Subject name e) (?g, ?a, ?b)] =>
    destruct (C119_renderable (linked (rsRole r) (map snd (hCalculation h))) r (Subject name e) g a b) as (v&J&V) end.
  rewrite EQ in J.
  assert (PL : Forall plain_header (pgPeriods (grid_or zero_p p))).
  { destruct p as [[[g rs] ls]| |]; cbn; try constructor. destruct PG as (lbl&ge&lbs&_&_&_&E). symmetry in E. eapply p_plain; exact E. }
  destruct (plain_all _ PL) as (ps&E). exists e, r, name, p, v, ps. split; [exact Q|]. split; [exact J|].
  split; [eapply (the_member_of _ _ "Subject"); [exact V|keys|right; left; reflexivity]|].
  split; [eapply (the_member_of _ _ "RelationshipSet"); [exact V|keys|left; reflexivity]|].
  split; [exact PG|]. split; [exact E|].
  eapply the_member_impl; [|eapply (the_member_of _ _ "PGrid"); [exact V|keys|do 4 right; left; reflexivity]]. intros u U. cbn [gdP] in U.
  exact (presentation_shows _ _ _ _ _ E U).
Qed.
Lemma row_label w h entity role p k row : p_grids w h entity role p -> nth_error (pgLabels (grid_or zero_p p)) k = Some row -> exists g, p = Ok g.
Proof. destruct p as [g| |]; [eauto|destruct k; discriminate|destruct k; discriminate]. Qed.
Lemma table_has w h n i e role p ps k row re f c m es labels : hInstances h = [(n, i)] -> p_grids w h (stringify e) role p ->
  pgPeriods (grid_or zero_p p) = map (fun p => [("Unlabelled", p)]) ps -> nth_error (pgLabels (grid_or zero_p p)) k = Some row ->
  find_fact [i] (ilHref row) (ctxID c) = Some f -> get_context i (ctxID c) = Some c -> ctxScheme c ++ "/" ++ ctxIdentifier c = stringify e ->
  reportable (concept_for w h) (ilHref row) -> renders_from w h re -> render re (Some f) [PureLabel] = Ok m ->
  in_row k (pgFacts (grid_or zero_p p)) ps (period_multilingual_string es labels c) m.
Proof.
  intros ONE PG PS ROW FF GC ENT REP RF RM. destruct (row_label _ _ _ _ _ _ _ PG ROW) as ([[g rs] ls]&->). cbn [grid_or] in *.
  destruct PG as (lbl&ge&lbs&LF&GF&V&E). unfold p_grid_of in E.
  assert (LAB : forall ls pk, get_indented_labels (o_tree w) lbl role lbs = (ls, pk) -> pk = map ilLabel ls /\ forall x, In x ls -> exists href, ilLabel x = lbl href).
  { unfold get_indented_labels. intros l0 pk. destruct (first_link role lbs) as [[lb kk]|]; [|intros [= <- <-]; split; [reflexivity|intros ? []]].
    cbv zeta. intros [= <- <-]. split; [reflexivity|]. intros x Hx. apply in_map_iff in Hx as (y&<-&_). cbn. eauto. }
  destruct (get_indented_labels _ _ _ _) as [rows packs]. destruct (LAB _ _ eq_refl) as [PK LL].
  destruct (get_relevant_contexts _ _ _ _ _ _ _) as [[[[cols seg] scen] cp]| |] eqn:RC; cbn [bind] in E; try discriminate E.
  pose proof (gf_destruct _ _ _ GF (roles_and_langs (packs ++ cp))) as [_ GL]. destruct (ge_destruct ge _) as [rs1 langs]. cbn [snd] in GL.
  destruct (get_factual_quadrant _ _ _ _ _ _ _) as [[[facts fg] notes]| |] eqn:FQ; cbn [bind] in E; try discriminate E.
  destruct (get_member_grid _ _ _ _) as [[mm vv]| |]; cbn [bind] in E; try discriminate E. injection E as -> _ _.
  cbn [pgLabels pgPeriods pgFacts] in *.
  assert (VI : forall o, visited (hInstances h) o -> o = [i]).
  { intros o Vo. unfold visited in Vo. rewrite ONE in Vo. cbn in Vo. symmetry in Vo. now apply Permutation_length_1_inv in Vo. }
  assert (HK : nth_error (map ilHref rows) k = Some (ilHref row)) by (rewrite nth_error_map, ROW; reflexivity).
  pose proof FF as FF'. unfold find_fact in FF'. cbn [flat_map] in FF'. rewrite app_nil_r in FF'. apply find_some in FF' as [IF EF].
  apply andb_true_iff in EF as [EF1 EF2]. apply String.eqb_eq in EF1, EF2.
  destruct (C14_every_fact_has_its_column _ _ _ _ _ _ _ _ _ _ _ (gf_typed _ _ _ GF) RC i c) as (r&Hr&CR&(q&PO&RP)&_).
  { rewrite (VI _ (gf_instances _ _ _ GF)). now left. }
  { exists f. split; [exact IF|]. rewrite EF1. split; [now apply nth_error_In in HK|]. split; [exact REP|]. split; [|now symmetry].
    apply get_context_first. now rewrite EF2. }
  apply In_nth_error in Hr as (j&Hj).
  destruct (quadrant_cell _ _ _ _ _ _ _ _ _ _ _ _ _ _ FQ HK Hj) as [(x&CX&RX) _].
  unfold GridModel.fact_at in RX. rewrite (VI _ (gf_facts _ _ _ GF k j)), CR, FF in RX.
  assert (IN : In PureLabel langs).
  { apply (Permutation_in _ (Permutation_sym GL)). apply pure_all.
    - destruct rows as [|r0 rows]; [destruct k; discriminate ROW|]. rewrite PK. discriminate.
    - intros z Hz. apply in_app_iff in Hz as [Hz|Hz]; [|eapply context_pure; eauto]. rewrite PK in Hz. apply in_map_iff in Hz as (y&<-&Hy).
      destruct (LL y Hy) as (href&->). now apply (ReportProofs.labels_pure h). }
  rewrite (render_same w h (n, i) ONE _ _ (gf_render _ _ _ GF k j) RF) in RX.
  destruct (pure_shown _ _ _ _ _ RX RM IN) as (t&T1&T2). exists j, x, t, q. split; [exact CX|]. split; [now apply sget_In|]. split; [now apply sget_In|].
  split; [|apply sget_In; now apply same_period].
  assert (HP : nth_error (get_period_headers cols) j = Some [("Unlabelled", q)]) by (unfold get_period_headers; rewrite nth_error_map, Hj; cbn; now rewrite RP).
  rewrite PS, nth_error_map in HP. destruct (nth_error ps j) as [q'|]; cbn in HP; [|discriminate HP]. injection HP as ->. reflexivity.
Qed.

(** ** One answer about a fact *)
Lemma told w h n i name ref b : hInstances h = [(n, i)] -> marshalled_expressable w h name ref (Ok (Some b)) ->
  exists e href f c m v, expression_from w h e /\ reads_as b v /\ find_fact [i] href ref = Some f /\ get_context i ref = Some c /\
    render (xe_render e) (Some f) [PureLabel] = Ok m /\ fact_answer href (period_multilingual_string (xe_spanish e) (xe_labels e href) c) m v.
Proof.
  intros ONE (e&X&EQ).
  assert (VI : forall o, visited (hInstances h) o -> o = [i]).
  { intros o Vo. unfold visited in Vo. rewrite ONE in Vo. cbn in Vo. symmetry in Vo. now apply Permutation_length_1_inv in Vo. }
  unfold marshal_expressable in EQ. destruct (hDocument h) as [d|]; [|discriminate EQ].
  destruct (sget name (docNames d)) as [nm|]; [|discriminate EQ]. destruct (sget ref (docContexts d)) as [?|]; [|discriminate EQ].
  destruct (name_query _ _ _) as [found| |]; cbn [bind] in EQ; try discriminate EQ.
  set (href := match found with Some (x, _) => x | None => "" end) in EQ. rewrite (VI _ (xf_facts _ _ _ X)), (VI _ (xf_first _ _ _ X)) in EQ.
  destruct (find_fact [i] href ref) as [f|] eqn:FF; [|discriminate EQ]. destruct (get_context i ref) as [c|] eqn:GC; [|discriminate EQ].
  destruct (get_relevant_contexts _ _ _ _ _ _ _) as [[[[cols seg] scen] cp]| |]; cbn [bind] in EQ; try discriminate EQ.
  destruct (get_member_grid _ _ _ _) as [[mm vv]| |]; cbn [bind] in EQ; try discriminate EQ.
  destruct (render _ _ _) as [m| |] eqn:R; cbn [bind option_map] in EQ; try discriminate EQ. injection EQ as ->.
  match goal with |- context [jexpressable ?x] => destruct (C119_expressable x) as (v&J&V) end.
  exists e, href, f, c, m, v. split; [exact X|]. split; [exact J|]. split; [exact FF|]. split; [reflexivity|]. split; [exact R|].
  unfold expressable_value in V. cbn [exHref exLabels exPeriod exVoid exMembers exExpression exFootnotes] in V.
  split; [eapply (the_member_of _ _ "Href"); [exact V|keys|left; reflexivity]|]. split.
  - eapply the_member_impl; [|eapply (the_member_of _ _ "Context"); [exact V|keys|do 2 right; left; reflexivity]]. intros u U.
    eapply (the_member_of _ _ "Period"); [exact U|keys|left; reflexivity].
  - eapply (the_member_of _ _ "Expression"); [exact V|keys|do 3 right; left; reflexivity].
Qed.

(** C166: the answer about a fact, and a network of a subject of which the context of the fact is: every row of the network for
    the concept of the fact has a cell that shows what the answer shows, under the period the answer says, if the concept is
    declared and not abstract. *)
Theorem C166_table : forall d dir file images pf sh tokens utr h w slug name ref b b', supported file -> loaded d dir file images pf sh tokens utr h ->
  marshalled_renderable w h slug (Ok (Some b)) -> marshalled_expressable w h name ref (Ok (Some b')) ->
  exists v v', reads_as b v /\ reads_as b' v' /\ agree w h ref v v'.
Proof.
  intros d dir file images pf sh tokens utr h w slug name ref b b' S L M X.
  destruct (C115_facts_partial _ _ _ _ _ _ _ _ _ S L) as (n&root&i&_&ONE&_).
  destruct (tabled w h slug b M) as (e&r&nm&p&v&ps&Q&J&SB&_&PG&PS&PR).
  destruct (told w h n i name ref b' ONE X) as (xe&href&f&c&m&v'&XF&J'&FF&GC&R&FA).
  exists v, v'. split; [exact J|]. split; [exact J'|]. exists n, i, (Subject nm e). do 5 eexists.
  exists href, (period_multilingual_string (xe_spanish xe) (xe_labels xe href) c), m.
  split; [exact ONE|]. split; [exact SB|]. split; [exact PR|]. split; [exact FA|].
  intros (c'&FS&EN) REP k row ROW <-. cbn [sbEntity] in EN.
  pose proof (get_context_id _ _ _ GC) as ID. assert (c' = c) as ->.
  { assert (G : get_context i ref = Some c') by (apply (find_first_such _ (fun c => ctxID c = ref)); [intro y; apply String.eqb_eq|exact FS]). congruence. }
  subst ref. eapply table_has; eauto. exact (xf_render _ _ _ XF).
Qed.
Print Assumptions C166_table.

(** ... and for two loads of the folder, if every namespace has one document *)
Theorem C166_loads : forall d dir file images images' pf sh sh' tokens utr h h' w slug name ref b b', supported file ->
  loaded d dir file images pf sh tokens utr h -> loaded d dir file images' pf sh' tokens utr h' ->
  (forall entry root ns, entry_at d dir root file entry -> one_claim d dir root ns) ->
  marshalled_renderable w h slug (Ok (Some b)) -> marshalled_expressable w h' name ref (Ok (Some b')) ->
  exists v v', reads_as b v /\ reads_as b' v' /\ agree w h ref v v'.
Proof.
  intros d dir file images images' pf sh sh' tokens utr h h' w slug name ref b b' S L L' ONE M X.
  destruct (loads_alike _ _ _ _ _ _ _ _ _ _ _ _ S L' L ONE) as (A&I&D&_).
  pose proof (loads_labels _ _ _ _ _ _ _ _ _ _ _ _ S L' L ONE) as P.
  eapply C166_table; [exact S|exact L|exact M|]. exact (marshalled_transfer w h' h (A _ _) I P _ _ _ D X).
Qed.
Print Assumptions C166_loads.

(** ... and for what servers send *)
Theorem C166_served : forall w detect detect' files files' s s' id slug query query' vs n c k ref p p', history w s -> history w s' ->
  entry_name_ok id -> entry_name_ok slug -> slug <> "facts" -> ~ (entry_named w id slug /\ inline_name slug) ->
  (forall name file root ns, entry_named w id name -> entry_at (w_disk w) (folder_at w id) root name file -> one_claim (w_disk w) (folder_at w id) root ns) ->
  exchanged detect files s "GET" ("/folders/" ++ id ++ "/" ++ slug) query (Answer (Some p)) -> status p = 200 -> body p <> "" ->
  query_fields query' vs -> field vs "name" n -> field vs "contextref" c -> encodes k n -> encodes ref c ->
  exchanged detect' files' s' "GET" ("/folders/" ++ id ++ "/facts") query' (Answer (Some p')) -> status p' = 200 -> body p' <> "" ->
  exists name h v v', report_of w id name h /\ reads_as (body p) v /\ reads_as (body p') v' /\ agree (out w) h ref v v'.
Proof.
  intros w detect detect' files files' s s' id slug query query' vs n c k ref p p' H H' I J NF NI ONE X ST B Q F1 F2 E1 E2 X' ST' B'.
  destruct (network_sent _ _ _ _ _ _ _ _ H I J NF X ST B) as (name&h&R&M).
  eapply get_fact in X'; [|exact I|exact Q|exact F1|exact F2|exact E1|exact E2|exact ST'|exact B'].
  apply (uncached_content w s' _ _ H') in X' as (rep'&HY'&M'). apply hydrated_report in HY' as (name'&R'&_).
  pose proof R as (N&images&sh&_&L). pose proof R' as (N'&images'&sh'&_&L'). assert (name' = name) as -> by (eapply one_name; [exact N|exact N']).
  destruct M as [(->&IN&_)|[S M]]; [exfalso; apply NI; now split|].
  destruct (C166_loads _ _ _ _ _ _ _ _ _ _ _ _ _ _ _ _ _ _ S L L' (fun file root ns => ONE name file root ns N) M M') as (v&v'&V&V'&A).
  exists name, h, v, v'. auto.
Qed.
Print Assumptions C166_served.

(** ** A folder: an inline document with a fact of a concept, the instance extracted from it, and a network with a row for the concept *)
Definition cited_disk : disk :=
  let ts := [(in_dir "x.htm.xml", ask_root); (in_dir "a.xsd", pair_schema); (in_dir "pre.xml", pair_links)] in
  Disk (d_url (small_disk ts)) (fun p => if String.eqb p (in_dir "x.htm") then Some p else d_file (small_disk ts) p)
    (fun _ => true) (d_xml (small_disk ts)) (fun p => if String.eqb p (in_dir "x.htm") then Some ask_htm else None) (fun _ => None).
Definition cited_end : state := go_on (files_of cited_disk) small_dir 30
  (schema_ref (files_of cited_disk) small_dir (first_folder (files_of cited_disk) small_dir "x.htm") (instance_struct ask_root)).
Definition cited_outside : outside :=
  Outside (d_url cited_disk) (global_schema_file cited_disk) (Ok []) (Ok []) sample_tree (fun _ => []) (fun _ _ _ => None) (fun _ => None) (fun _ => "") (fun _ => None).
Lemma cited_entry : entry_at cited_disk small_dir ask_root "x.htm" "x.htm.xml".
Proof.
  split; [left; split; auto; apply x_inline|]. split.
  - exists (in_dir "x.htm.xml"). split; [reflexivity|]. split; [reflexivity|]. do 4 eexists; reflexivity.
  - intros _. exists (in_dir "x.htm"), ask_htm. split; [reflexivity|]. split; [reflexivity|]. split; [|reflexivity].
    exists ask_htm. split; [exists []; left; reflexivity|]. do 4 eexists; reflexivity.
Qed.
Definition cited_folder : folder := DiscoverModel.finish "x.htm.xml" (instance_struct ask_root) (fst cited_end).
Definition cited_report (doc : document) : hydratable :=
  match hydrate ex_pf plain_order (d_url cited_disk) (global_schema_file cited_disk) ex_tokens (Ok []) (Ok (Some doc)) cited_folder with
  | Ok h => h
  | _ => Hydratable cited_folder [] None [] [] [] [] [] []
  end.
Lemma cited_loaded : exists doc, knows ["nonNumeric"; "nonFraction"] ask_htm doc /\ hDocument (cited_report doc) = Some doc /\
  loaded cited_disk small_dir "x.htm" false ex_pf plain_order ex_tokens (Ok []) (cited_report doc).
Proof.
  destruct (decode_inline (Some ask_htm)) as [s|] eqn:E; [|discriminate E].
  destruct (proj1 C72_terminates (Some (inline_source s))) as (r&R).
  destruct (C111_facts_partial ask_htm r) as (doc&->&K).
  - exists s. auto.
  - apply ask_declared_at.
  - discriminate.
  - apply ask_conforming.
  - exists doc. split; auto. split; [vm_compute; reflexivity|]. exists cited_folder, (Ok (Some doc)). split; [|split].
    + assert (EI : entry_instance (files_of cited_disk) small_dir "x.htm" "x.htm.xml" (instance_struct ask_root)) by (apply entry_iff; eauto using cited_entry).
      apply (discover_iff _ _ _ _ _ _ _ EI). exists cited_end. split; [apply go_on_runs; constructor|]. split; [vm_compute; repeat constructor|reflexivity].
    + assert (FD : fdDocument cited_folder = option_map inline_source (decode_inline (Some ask_htm))) by (vm_compute; reflexivity).
      rewrite FD, E. exact R.
    + vm_compute. reflexivity.
Qed.
Lemma cited_answered doc : knows ["nonNumeric"; "nonFraction"] ask_htm doc -> hDocument (cited_report doc) = Some doc ->
  exists bytes, marshalled_expressable cited_outside (cited_report doc) "a:A" "c" (Ok (Some bytes)).
Proof.
  intros [K1 K2] HD.
  assert (W : exists above, In (above, ix_fact "nonNumeric" "a:A" "c" []) (XmlSpec.walk [] ask_htm)) by (eexists; simpl; do 2 right; left; reflexivity).
  destruct W as (above&W).
  assert (F : fact_element ["nonNumeric"; "nonFraction"] (ix_fact "nonNumeric" "a:A" "c" [])).
  { exists "nonNumeric". split; [now left|]. do 3 eexists; reflexivity. }
  pose proof (ask_fact _ _ "A" "c" W eq_refl) as IF.
  assert (S1 : sget "a:A" (docNames doc) = Some (XName "urn:a" "A")) by (apply K1; eauto 7).
  assert (S2 : sget "c" (docContexts doc) = Some true) by (apply K2; split; auto; eauto 8).
  set (h := cited_report doc) in *.
  set (e := own_env cited_outside h). pose proof (own_env_from cited_outside h : expression_from cited_outside h e) as EF.
  assert (X : exists x, marshal_expressable e (Some doc) "a:A" "c" = Ok (Some x)).
  { unfold marshal_expressable. rewrite S1, S2. cbn [nspace nlocal]. eexists. vm_compute. reflexivity. }
  destruct X as (x&X). exists (jexpressable x), e. split; auto. rewrite HD, X. reflexivity.
Qed.
Lemma cited_claims root file ns : entry_at cited_disk small_dir root "x.htm" file -> one_claim cited_disk small_dir root ns.
Proof.
  intro EA. assert (root = ask_root) as -> by (eapply entry_root; [exact cited_entry|exact EA]).
  assert (DOC : forall p l t, document_of cited_disk p l t -> t = ask_root \/ t = pair_schema \/ t = pair_links).
  { intros p l t (data&F&X&N). cbn [cited_disk d_file d_xml small_disk] in F, X. apply sget_In in X.
    simpl in X. destruct X as [X|[X|[X|[]]]]; injection X as _ <-; auto. }
  assert (FO : forall x t, followed_at cited_disk small_dir ask_root x t -> t = pair_schema).
  { intros x t F. apply followed_at_local in F as [_ L]. pose proof L as (_&_&_&N). apply DOC in L as [->|[->| ->]]; auto; destruct N as (?&?&?&?&N); discriminate N. }
  assert (FX : forall x t, followed_at cited_disk small_dir ask_root x t -> x = "a.xsd").
  { intros x t F. destruct F as [h t ns0 R _ _|h0 g h t ns0 G R _ _|h0 g h t ns0 G R _].
    - destruct R as (y&Hy&(?&?&?&Ny)&Q). simpl in Hy. repeat destruct Hy as [<-|Hy]; try contradiction; try discriminate Ny.
      apply LinkbaseProofs.req_iff in Q. now injection Q.
    - exfalso. apply FO in G as ->. destruct R as (y&Hy&(?&?&?&Ny)&Q). simpl in Hy. repeat destruct Hy as [<-|Hy]; try contradiction; discriminate Ny.
    - exfalso. apply FO in G as ->. destruct R as (y&Hy&(?&?&?&Ny)&Q). simpl in Hy. repeat destruct Hy as [<-|Hy]; try contradiction; discriminate Ny. }
  assert (CL : forall x, claims_at cited_disk small_dir ask_root ns x -> x = "a.xsd").
  { intros x [h t m R L T|h0 g h t m G R L T|h0 g h m G R].
    - eapply FX. eapply fat_ref; eauto.
    - eapply FX. eapply fat_include; eauto.
    - exfalso. apply FO in G as ->. destruct R as (y&Hy&(?&?&?&Ny)&Q). simpl in Hy. repeat destruct Hy as [<-|Hy]; try contradiction; discriminate Ny. }
  intros x x' C C'. apply CL in C, C'. congruence.
Qed.
(** Both are answered; the context is about the subject of the network, which has a row for the concept, declared and not abstract. *)
Example C166_example : exists doc b b' n i, let h := cited_report doc in
  loaded cited_disk small_dir "x.htm" false ex_pf plain_order ex_tokens (Ok []) h /\ supported "x.htm" /\
  (forall entry root ns, entry_at cited_disk small_dir root "x.htm" entry -> one_claim cited_disk small_dir root ns) /\
  marshalled_renderable cited_outside h pair_slug (Ok (Some b)) /\ marshalled_expressable cited_outside h "a:A" "c" (Ok (Some b')) /\
  hInstances h = [(n, i)] /\ about i "c" pair_entity /\ reportable (concept_for cited_outside h) "a.xsd#id_A" /\
  match own_p cited_outside h (stringify pair_entity) (rsRole pair_set) with
  | Ok (g, _, _) => map ilHref (pgLabels g) = ["a.xsd#id_R"; "a.xsd#id_A"]
  | _ => False end.
Proof.
  destruct cited_loaded as (doc&K&HD&L). destruct (cited_answered doc K HD) as (b'&B').
  assert (M : exists b, marshalled_renderable cited_outside (cited_report doc) pair_slug (Ok (Some b))).
  { apply (own_rendering cited_outside (cited_report doc) pair_slug pair_entity pair_set "urn:s/0"); vm_compute; try reflexivity; discriminate. }
  destruct M as (b&M). exists doc, b, b'. do 2 eexists. cbv zeta. split; [exact L|]. split; [left; exact x_inline|].
  split; [intros entry root ns; apply cited_claims|]. split; [exact M|]. split; [exact B'|]. split; [vm_compute; reflexivity|].
  split; [|split; [|vm_compute; reflexivity]].
  - eexists. split; [exists [], []; split; [reflexivity|]; split; [reflexivity|intros ? []]|reflexivity].
  - eexists. split; vm_compute; reflexivity.
Qed.
