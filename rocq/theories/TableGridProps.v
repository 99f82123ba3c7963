(** * TableGridProps: what the sums and the dimensions show of a fact is what its own answer shows (C166) *)
From Verif Require DimNetProps NetworkProps.
From Verif Require Import GoBase GoSpec GoFacts AttrModel AttrSpec AttrProofs SchemaModel SchemaSpec SchemaProofs SchemaProps
  LinkbaseModel LinkbaseSpec LinkbaseProofs LinkbaseProps InstanceModel InstanceSpec InstanceProofs InstanceProps
  HydrateModel HydrateSpec HydrateProofs HydrateProps LabelModel LabelSpec LabelProofs LabelProps PeriodModel PeriodSpec PeriodProofs PeriodProps
  FactModel FactSpec FactProofs FactProps GridModel GridSpec GridProofs GridProps CalcModel CalcSpec CalcProofs CalcProps DefModel DefSpec DefProofs DefProps
  RenderModel RenderSpec RenderProofs RenderProps ExpressModel ExpressSpec ExpressProofs ExpressProps
  DiscoverModel DiscoverSpec DiscoverProofs DiscoverProps XmlModel XmlSpec XmlProofs XmlProps LoadModel LoadSpec LoadProofs LoadProps
  CatalogModel CatalogSpec CatalogProofs CatalogProps ReportModel ResponseModel ResponseSpec ResponseProofs ResponseProps EndToEndSpec EndToEndProps
  ReportSpec ReportProofs ReportProps AskSpec AskProps ColumnProps SteadySpec SteadyProofs SteadyProps
  ImageModel ImageSpec ImageProofs ImageProps WebModel WebSpec WebProofs WebProps PathSpec RouterModel RouterSpec RouterProofs RouterProps.
From Verif Require CacheModel CacheSpec CacheProofs CacheProps.
From Verif Require Import ServerModel ServerSpec ServerProps ServedProps DocNameProps InertProps FactSameProps SameProofs SameProps AlikeProofs AlikeProps AlikeNetProps TableFactSpec SteadyCalcSpec SteadyCalcProps TableFactProps AlikeDimProps TableGridSpec.
Local Open Scope nat_scope.

Lemma data_has w h n i e hrefs periods members void facts fg notes ps k href re f c m es labels : hInstances h = [(n, i)] ->
  grid_data w h (stringify e) hrefs periods members void facts fg notes -> periods = map (fun p => [("Unlabelled", p)]) ps ->
  nth_error hrefs k = Some href -> find_fact [i] href (ctxID c) = Some f -> get_context i (ctxID c) = Some c ->
  ctxScheme c ++ "/" ++ ctxIdentifier c = stringify e -> reportable (concept_for w h) href -> renders_from w h re ->
  render re (Some f) [PureLabel] = Ok m -> in_row k facts ps (period_multilingual_string es labels c) m.
Proof.
  intros ONE (g&lbl&cols&seg&scen&packs&langs&GF&RC&FQ&U&->&_) PS HK FF GC ENT REP RF RM.
  assert (VI : forall o, visited (hInstances h) o -> o = [i]).
  { intros o Vo. unfold visited in Vo. rewrite ONE in Vo. cbn in Vo. symmetry in Vo. now apply Permutation_length_1_inv in Vo. }
  pose proof FF as FF'. unfold find_fact in FF'. cbn [flat_map] in FF'. rewrite app_nil_r in FF'. apply find_some in FF' as [IF EF].
  apply andb_true_iff in EF as [EF1 EF2]. apply String.eqb_eq in EF1, EF2.
  destruct (C14_every_fact_has_its_column _ _ _ _ _ _ _ _ _ _ _ (gf_typed _ _ _ GF) RC i c) as (r&Hr&CR&(q&PO&RP)&_).
  { rewrite (VI _ (gf_instances _ _ _ GF)). now left. }
  { exists f. split; [exact IF|]. rewrite EF1. split; [now apply nth_error_In in HK|]. split; [exact REP|]. split; [|now symmetry].
    apply get_context_first. now rewrite EF2. }
  apply In_nth_error in Hr as (j&Hj).
  destruct (quadrant_cell _ _ _ _ _ _ _ _ _ _ _ _ _ _ FQ HK Hj) as [(x&CX&RX) _].
  unfold GridModel.fact_at in RX. rewrite (VI _ (gf_facts _ _ _ GF k j)), CR, FF in RX.
  assert (IN : In PureLabel langs) by (apply U; intros ->; destruct k; discriminate HK).
  rewrite (render_same w h (n, i) ONE _ _ (gf_render _ _ _ GF k j) RF) in RX.
  destruct (pure_shown _ _ _ _ _ RX RM IN) as (t&T1&T2). exists j, x, t, q. split; [exact CX|]. split; [now apply sget_In|]. split; [now apply sget_In|].
  split; [|apply sget_In; now apply same_period].
  assert (HP : nth_error (get_period_headers cols) j = Some [("Unlabelled", q)]) by (unfold get_period_headers; rewrite nth_error_map, Hj; cbn; now rewrite RP).
  rewrite PS, nth_error_map in HP. destruct (nth_error ps j) as [q'|]; cbn in HP; [|discriminate HP]. injection HP as ->. reflexivity.
Qed.

(** one network: its subject, its sums and its dimensions *)
Lemma gridded w h slug b : marshalled_renderable w h slug (Ok (Some b)) ->
  exists e r name d c v, reads_as b v /\ the_member v "Subject" (subject_value (Subject name e)) /\
    d_grids w h (stringify e) (rsRole r) d /\ c_grids w h (stringify e) (rsRole r) c /\
    Forall (fun r => Forall plain_header (rdPeriods r)) (dgRootDomains (grid_or zero_d d)) /\ Forall (fun s => Forall plain_header (siPeriods s)) (grid_or [] c) /\
    calculation_of (if linked (rsRole r) (map snd (hCalculation h)) then Some (map timed (grid_or [] c)) else None) v /\
    definition_of (map with_periods (dgRootDomains (grid_or zero_d d))) (dgDRS (grid_or zero_d d)) v.
Proof.
  intros M. inversion M as [o R E|]; subst. inversion R as [|insts schemas e r p d c conf VI VS F PG DG CG NP ND NC ST DN EQ]; subst.
  unfold marshal_renderable in EQ. rewrite F in EQ.
  destruct (entity_query _ _ _) as [name| |] eqn:Q; cbn [bind renderable_bytes] in EQ; try discriminate EQ. injection EQ as EQ.
  unfold rendered in EQ. cbn [rnSet] in EQ.
  match type of EQ with context [Renderable r (Subject name e) (?g, ?a, ?b)] =>
    destruct (C119_renderable (linked (rsRole r) (map snd (hCalculation h))) r (Subject name e) g a b) as (v&J&V) end.
  rewrite EQ in J. exists e, r, name, d, c, v. split; [exact J|].
  split; [eapply (the_member_of _ _ "Subject"); [exact V|keys|right; left; reflexivity]|]. split; [exact DG|]. split; [exact CG|].
  assert (PD : Forall (fun r => Forall plain_header (rdPeriods r)) (dgRootDomains (grid_or zero_d d))).
  { destruct d as [[[g rs] ls]| |]; cbn; try constructor. destruct DG as (lbl&genv&dims&order&lbs&lbs'&_&_&_&_&_&_&E). symmetry in E. eapply d_plain; exact E. }
  assert (PC : Forall (fun s => Forall plain_header (siPeriods s)) (grid_or [] c)).
  { destruct c as [[[g rs] ls]| |]; cbn; try constructor. destruct CG as (lbl&ge&o&lbs&_&_&_&_&E). symmetry in E. eapply c_plain; exact E. }
  split; [exact PD|]. split; [exact PC|]. split.
  - unfold calculation_of. eapply the_member_impl; [|eapply (the_member_of _ _ "CGrid"); [exact V|keys|do 6 right; left; reflexivity]]. intros u U. cbn [gdC] in U.
    eapply the_member_impl; [|eapply (the_member_of _ _ "SummationItems"); [exact U|keys|left; reflexivity]]. intros x X.
    destruct (linked _ _); [|exact X]. eapply sums_show; [exact PC|exact X].
  - unfold definition_of. eapply the_member_impl; [|eapply (the_member_of _ _ "DGrid"); [exact V|keys|do 5 right; left; reflexivity]]. intros u U. cbn [gdD] in U.
    exact (definition_shows _ _ _ _ PD U).
Qed.

(** C166 for the sums and the dimensions: every row of a sum and of a root for the concept of the fact has a cell that shows what
    the answer about the fact shows, under the period the answer says. *)
Theorem C166_grids : forall d dir file images pf sh tokens utr h w slug name ref b b', supported file -> loaded d dir file images pf sh tokens utr h ->
  marshalled_renderable w h slug (Ok (Some b)) -> marshalled_expressable w h name ref (Ok (Some b')) ->
  exists v v', reads_as b v /\ reads_as b' v' /\ grids_agree w h ref v v'.
Proof.
  intros d dir file images pf sh tokens utr h w slug name ref b b' S L M X.
  destruct (C115_facts_partial _ _ _ _ _ _ _ _ _ S L) as (n&root&i&_&ONE&_).
  destruct (gridded w h slug b M) as (e&r&nm&dg&cg&v&J&SB&DG&CG&PD&PC&CV&DV).
  destruct (told w h n i name ref b' ONE X) as (xe&href&f&c&m&v'&XF&J'&FF&GC&R&FA).
  exists v, v'. split; [exact J|]. split; [exact J'|]. exists n, i, (Subject nm e). do 3 eexists.
  exists href, (period_multilingual_string (xe_spanish xe) (xe_labels xe href) c), m.
  split; [exact ONE|]. split; [exact SB|]. split; [exact CV|]. split; [exact DV|]. split; [exact FA|].
  intros (c'&FS&EN) REP. cbn [sbEntity] in EN.
  pose proof (get_context_id _ _ _ GC) as ID. assert (c' = c) as ->.
  { assert (G : get_context i ref = Some c') by (apply (find_first_such _ (fun c => ctxID c = ref)); [intro y; apply String.eqb_eq|exact FS]). congruence. }
  subst ref. split.
  - intros l x ps k SU I ROW. destruct (linked _ _); [|discriminate SU]. injection SU as <-. apply in_map_iff in I as (s&E&I). injection E as <- <-.
    destruct cg as [[[items rs] ls]| |]; [|destruct I|destruct I]. cbn [grid_or] in *.
    pose proof (c_data w h _ _ _ _ _ _ CG eq_refl) as D. rewrite Forall_forall in D, PC. specialize (D s I). specialize (PC s I).
    destruct (plain_all _ PC) as (ps&E). eapply data_has; [exact ONE|exact D| |exact ROW|exact FF|exact GC|exact EN|exact REP|exact (xf_render _ _ _ XF)|exact R].
    rewrite E, periods_back. reflexivity.
  - intros x ps k I ROW. apply in_map_iff in I as (s&E&I). injection E as <- <-.
    destruct dg as [[[g rs] ls]| |]; [|destruct I|destruct I]. cbn [grid_or] in *.
    pose proof (d_data w h _ _ _ _ _ _ DG eq_refl) as D. rewrite Forall_forall in D, PD. specialize (D s I). specialize (PD s I).
    destruct (plain_all _ PD) as (ps&E). eapply data_has; [exact ONE|exact D| |exact ROW|exact FF|exact GC|exact EN|exact REP|exact (xf_render _ _ _ XF)|exact R].
    rewrite E, periods_back. reflexivity.
Qed.
Print Assumptions C166_grids.

(** ... and for two loads of the folder, if every namespace has one document *)
Theorem C166_grids_loads : forall d dir file images images' pf sh sh' tokens utr h h' w slug name ref b b', supported file ->
  loaded d dir file images pf sh tokens utr h -> loaded d dir file images' pf sh' tokens utr h' ->
  (forall entry root ns, entry_at d dir root file entry -> one_claim d dir root ns) ->
  marshalled_renderable w h slug (Ok (Some b)) -> marshalled_expressable w h' name ref (Ok (Some b')) ->
  exists v v', reads_as b v /\ reads_as b' v' /\ grids_agree w h ref v v'.
Proof.
  intros d dir file images images' pf sh sh' tokens utr h h' w slug name ref b b' S L L' ONE M X.
  destruct (loads_alike _ _ _ _ _ _ _ _ _ _ _ _ S L' L ONE) as (A&I&D&_).
  pose proof (loads_labels _ _ _ _ _ _ _ _ _ _ _ _ S L' L ONE) as P.
  eapply C166_grids; [exact S|exact L|exact M|]. exact (marshalled_transfer w h' h (A _ _) I P _ _ _ D X).
Qed.
Print Assumptions C166_grids_loads.

(** ... and for what servers send *)
Theorem C166_grids_served : forall w detect detect' files files' s s' id slug query query' vs n c k ref p p', history w s -> history w s' ->
  entry_name_ok id -> entry_name_ok slug -> slug <> "facts" -> ~ (entry_named w id slug /\ inline_name slug) ->
  (forall name file root ns, entry_named w id name -> entry_at (w_disk w) (folder_at w id) root name file -> one_claim (w_disk w) (folder_at w id) root ns) ->
  exchanged detect files s "GET" ("/folders/" ++ id ++ "/" ++ slug) query (Answer (Some p)) -> status p = 200 -> body p <> "" ->
  query_fields query' vs -> field vs "name" n -> field vs "contextref" c -> encodes k n -> encodes ref c ->
  exchanged detect' files' s' "GET" ("/folders/" ++ id ++ "/facts") query' (Answer (Some p')) -> status p' = 200 -> body p' <> "" ->
  exists name h v v', report_of w id name h /\ reads_as (body p) v /\ reads_as (body p') v' /\ grids_agree (out w) h ref v v'.
Proof.
  intros w detect detect' files files' s s' id slug query query' vs n c k ref p p' H H' I J NF NI ONE X ST B Q F1 F2 E1 E2 X' ST' B'.
  destruct (network_sent _ _ _ _ _ _ _ _ H I J NF X ST B) as (name&h&R&M).
  eapply get_fact in X'; [|exact I|exact Q|exact F1|exact F2|exact E1|exact E2|exact ST'|exact B'].
  apply (uncached_content w s' _ _ H') in X' as (rep'&HY'&M'). apply hydrated_report in HY' as (name'&R'&_).
  pose proof R as (N&images&sh&_&L). pose proof R' as (N'&images'&sh'&_&L'). assert (name' = name) as -> by (eapply one_name; [exact N|exact N']).
  destruct M as [(->&IN&_)|[S M]]; [exfalso; apply NI; now split|].
  destruct (C166_grids_loads _ _ _ _ _ _ _ _ _ _ _ _ _ _ _ _ _ _ S L L' (fun file root ns => ONE name file root ns N) M M') as (v&v'&V&V'&A).
  exists name, h, v, v'. auto.
Qed.
Print Assumptions C166_grids_served.

(** ** The folder of C149 with an inline document: a cube and a sum of the concept of the fact *)
Definition listed_disk : disk :=
  let ts := [(in_dir "x.htm.xml", whole_root); (in_dir "a.xsd", whole_schema); (in_dir "pre.xml", pair_links); (in_dir "def.xml", DimNetProps.cubes_links); (in_dir "cal.xml", NetworkProps.halves_sum)] in
  Disk (d_url (small_disk ts)) (fun p => if String.eqb p (in_dir "x.htm") then Some p else d_file (small_disk ts) p)
    (fun _ => true) (d_xml (small_disk ts)) (fun p => if String.eqb p (in_dir "x.htm") then Some ask_htm else None) (fun _ => None).
Definition listed_end : state := go_on (files_of listed_disk) small_dir 60
  (schema_ref (files_of listed_disk) small_dir (first_folder (files_of listed_disk) small_dir "x.htm") (instance_struct whole_root)).
Definition listed_outside : outside :=
  Outside (d_url listed_disk) (global_schema_file listed_disk) (Ok []) (Ok []) sample_tree (fun _ => []) (fun _ _ _ => None) (fun _ => None) (fun _ => "") (fun _ => None).
Lemma listed_entry : entry_at listed_disk small_dir whole_root "x.htm" "x.htm.xml".
Proof.
  split; [left; split; auto; apply x_inline|]. split.
  - exists (in_dir "x.htm.xml"). split; [reflexivity|]. split; [reflexivity|]. do 4 eexists; reflexivity.
  - intros _. exists (in_dir "x.htm"), ask_htm. split; [reflexivity|]. split; [reflexivity|]. split; [|reflexivity].
    exists ask_htm. split; [exists []; left; reflexivity|]. do 4 eexists; reflexivity.
Qed.
Definition listed_folder : folder := DiscoverModel.finish "x.htm.xml" (instance_struct whole_root) (fst listed_end).
Definition listed_report (doc : document) : hydratable :=
  match hydrate ex_pf plain_order (d_url listed_disk) (global_schema_file listed_disk) ex_tokens (Ok []) (Ok (Some doc)) listed_folder with
  | Ok h => h
  | _ => Hydratable listed_folder [] None [] [] [] [] [] []
  end.
Lemma listed_loaded : exists doc, knows ["nonNumeric"; "nonFraction"] ask_htm doc /\ hDocument (listed_report doc) = Some doc /\
  loaded listed_disk small_dir "x.htm" false ex_pf plain_order ex_tokens (Ok []) (listed_report doc).
Proof.
  destruct (decode_inline (Some ask_htm)) as [s|] eqn:E; [|discriminate E].
  destruct (proj1 C72_terminates (Some (inline_source s))) as (r&R).
  destruct (C111_facts_partial ask_htm r) as (doc&->&K).
  - exists s. auto.
  - apply ask_declared_at.
  - discriminate.
  - apply ask_conforming.
  - exists doc. split; auto. split; [vm_compute; reflexivity|]. exists listed_folder, (Ok (Some doc)). split; [|split].
    + assert (EI : entry_instance (files_of listed_disk) small_dir "x.htm" "x.htm.xml" (instance_struct whole_root)) by (apply entry_iff; eauto using listed_entry).
      apply (discover_iff _ _ _ _ _ _ _ EI). exists listed_end. split; [apply go_on_runs; constructor|]. split; [vm_compute; repeat constructor|reflexivity].
    + assert (FD : fdDocument listed_folder = option_map inline_source (decode_inline (Some ask_htm))) by (vm_compute; reflexivity).
      rewrite FD, E. exact R.
    + vm_compute. reflexivity.
Qed.
Lemma listed_answered doc : knows ["nonNumeric"; "nonFraction"] ask_htm doc -> hDocument (listed_report doc) = Some doc ->
  exists bytes, marshalled_expressable listed_outside (listed_report doc) "a:A" "c" (Ok (Some bytes)).
Proof.
  intros [K1 K2] HD.
  assert (W : exists above, In (above, ix_fact "nonNumeric" "a:A" "c" []) (XmlSpec.walk [] ask_htm)) by (eexists; simpl; do 2 right; left; reflexivity).
  destruct W as (above&W).
  assert (F : fact_element ["nonNumeric"; "nonFraction"] (ix_fact "nonNumeric" "a:A" "c" [])).
  { exists "nonNumeric". split; [now left|]. do 3 eexists; reflexivity. }
  pose proof (ask_fact _ _ "A" "c" W eq_refl) as IF.
  assert (S1 : sget "a:A" (docNames doc) = Some (XName "urn:a" "A")) by (apply K1; eauto 7).
  assert (S2 : sget "c" (docContexts doc) = Some true) by (apply K2; split; auto; eauto 8).
  set (h := listed_report doc) in *.
  set (e := own_env listed_outside h). pose proof (own_env_from listed_outside h : expression_from listed_outside h e) as EF.
  assert (X : exists x, marshal_expressable e (Some doc) "a:A" "c" = Ok (Some x)).
  { unfold marshal_expressable. rewrite S1, S2. cbn [nspace nlocal]. eexists. vm_compute. reflexivity. }
  destruct X as (x&X). exists (jexpressable x), e. split; auto. rewrite HD, X. reflexivity.
Qed.
Example C166_grids_example : exists doc b b' n i, let h := listed_report doc in
  loaded listed_disk small_dir "x.htm" false ex_pf plain_order ex_tokens (Ok []) h /\ supported "x.htm" /\
  marshalled_renderable listed_outside h pair_slug (Ok (Some b)) /\ marshalled_expressable listed_outside h "a:A" "c" (Ok (Some b')) /\
  hInstances h = [(n, i)] /\ about i "c" pair_entity /\ reportable (concept_for listed_outside h) "a.xsd#id_A" /\
  match own_d listed_outside h (stringify pair_entity) (rsRole pair_set), own_c listed_outside h (stringify pair_entity) (rsRole pair_set) with
  | Ok (g, _, _), Ok (c, _, _) => map root_rows (dgRootDomains g) = [["a.xsd#id_A"; "a.xsd#id_B"]] /\ map sum_rows c = [["a.xsd#id_B"; "a.xsd#id_A"]]
  | _, _ => False end.
Proof.
  destruct listed_loaded as (doc&K&HD&L). destruct (listed_answered doc K HD) as (b'&B').
  assert (M : exists b, marshalled_renderable listed_outside (listed_report doc) pair_slug (Ok (Some b))).
  { apply (own_rendering listed_outside (listed_report doc) pair_slug pair_entity pair_set "urn:s/0"); vm_compute; try reflexivity; discriminate. }
  destruct M as (b&M). exists doc, b, b'. do 2 eexists. cbv zeta. split; [exact L|]. split; [left; exact x_inline|].
  split; [exact M|]. split; [exact B'|]. split; [vm_compute; reflexivity|]. split; [|split; [|vm_compute; split; reflexivity]].
  - eexists. split; [exists []; eexists; split; [reflexivity|]; split; [reflexivity|intros ? []]|reflexivity].
  - eexists. split; vm_compute; reflexivity.
Qed.
