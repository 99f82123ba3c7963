(** Theorems about the taxonomy set of a machine. *)
From Coq Require Import Strings.String Strings.Ascii Lists.List Bool.
From Verif Require Import GoBase GoSpec GoFacts PathSpec PathModel PathProofs PathProps AttrModel SchemaModel SchemaSpec SchemaProofs SchemaProps LinkbaseModel LinkbaseSpec LinkbaseProps InstanceModel InstanceProps HydrateModel HydrateProps
  DiscoverModel DiscoverSpec DiscoverProofs DiscoverProps XmlModel XmlSpec XmlProps LoadModel LoadSpec LoadProofs LoadProps ImageModel ReportModel EndToEndProps ReportProps WebModel WebSpec WebProofs WebProps RouterModel RouterSpec RouterProofs RouterProps
  ServerModel ServerSpec ServerProps IsolateSpec IsolateProofs IsolateProps SetupModel SetupProps ReaderSpec ReaderProps TaxonomySpec.
From Verif Require CacheModel CacheSpec CacheProofs CacheProps CatalogModel.
Import ListNotations.
Local Open Scope string_scope.

Lemma url_iff m s : is_valid_url m s = true <-> exists u, web_address m s u.
Proof.
  unfold is_valid_url, web_address. rewrite andb_true_iff. split.
  - intros [R P]. destruct (m_parse m s) as [[u host]|e|]; try discriminate. apply andb_true_iff in P as [A B].
    exists u. split; auto. exists host. split; auto. split; intro E; [rewrite E in A; discriminate|rewrite E in B; discriminate].
  - intros (u&R&host&P&A&B). split; auto. rewrite P. apply andb_true_iff. split; [destruct (uScheme u)|destruct host]; auto; contradiction.
Qed.
Lemma directory_given m v dir : directory m v dir -> given m v = dir.
Proof.
  unfold given. intros [[N ->]|[-> E]].
  - destruct (String.eqb_spec v ""); [contradiction|auto].
  - cbn. unfold current. now rewrite E.
Qed.
Lemma taxonomy_place m dir l : directory m (m_GTS m) dir -> PathSpec.leads_to dir l -> place (taxonomy_directory m) = below l ["gts"].
Proof.
  intros D L. unfold taxonomy_directory. rewrite (directory_given _ _ _ D). apply leads_to_iff in L. subst l.
  destruct (String.eqb_spec dir "") as [->|N]; [reflexivity|].
  change [dir; "gts"] with ([dir] ++ ["gts"])%list. rewrite place_join_snoc.
  - unfold join. cbn [filter]. destruct dir as [|c s] eqn:E; [contradiction|]. cbn [nonempty String.concat]. now rewrite clean_text, place_text by apply place_ok.
  - exists dir. split; [now left|auto].
  - repeat split; discriminate.
Qed.
Lemma directory_fun m v d d' : directory m v d -> directory m v d' -> d = d'.
Proof. intros A B. apply directory_given in A, B. congruence. Qed.

(** the bytes the server gets for an address are those of the taxonomy set *)
Lemma parsed_bytes m s u host dir l ns : file_system m -> m_parse m s = Ok (u, host) -> entry_name_ok (uScheme u) -> entry_name_ok (uHostname u) -> no_parent (uPath u) ->
  directory m (m_GTS m) dir -> PathSpec.leads_to dir l -> path_names (uPath u) ns ->
  forall data t, (global_file m s = Some data /\ d_xml (w_disk (m_rest m)) data = Some t) <->
    (stored m (below l (["gts"; "concepts"; uScheme u; uHostname u] ++ ns)) data /\ d_xml (w_disk (m_rest m)) data = Some t).
Proof.
  intros FS P S1 S2 S3 D L NS data t.
  set (parse := fun s => do p <- m_parse m s; Ok (fst p)).
  assert (PU : parse s = Ok u) by (unfold parse; now rewrite P).
  destruct (url_place_partial parse (taxonomy_directory m) s u ns PU S1 S2 S3 NS) as (f&F&PL).
  rewrite (taxonomy_place m dir l D L) in PL. rewrite below_below in PL.
  assert (LF : PathSpec.leads_to f (below l (["gts"; "concepts"; uScheme u; uHostname u] ++ ns))) by (apply leads_to_iff; rewrite PL; reflexivity).
  assert (N : forall name, m_stat m f = Some name -> name = base f) by (intros; now apply (fs_name m FS)).
  pose proof (C96_bytes_partial parse (taxonomy_directory m) (m_stat m) (d_file (w_disk (m_rest m))) s f F N) as B.
  unfold global_file. fold parse. split; intros [A X]; split; auto.
  - destruct (discover_global_file parse _ _ _ s) as [[b|]|e|] eqn:E; try discriminate; injection A as <-.
    + exists f. split; auto. now apply B.
    + rewrite (fs_empty m FS) in X. discriminate.
  - destruct A as (path&LP&E). rewrite (fs_read m FS _ _ _ LP LF) in E.
    rewrite (proj2 (B data)); auto. split; auto. destruct (m_stat m f) as [name|] eqn:ST; eauto. apply (fs_exists m FS) in ST. congruence.
Qed.

Lemma global_bytes m s u dir l ns : file_system m -> web_address m s u -> tame_address m s -> directory m (m_GTS m) dir -> PathSpec.leads_to dir l ->
  path_names (uPath u) ns ->
  forall data t, (global_file m s = Some data /\ d_xml (w_disk (m_rest m)) data = Some t) <->
    (stored m (below l (["gts"; "concepts"; uScheme u; uHostname u] ++ ns)) data /\ d_xml (w_disk (m_rest m)) data = Some t).
Proof. intros FS W T D L NS. destruct (T u W) as (S1&S2&S3). destruct W as (R&host&P&_&_). eauto using parsed_bytes. Qed.

(** ** C154 *)
(** The schemas a report can use are the ones of its folder, and, for absolute URLs, those of
    the taxonomy set of the machine. *)
Theorem C154_documents_partial : forall m id root s t, file_system m -> (exists dir l, directory m (m_GTS m) dir /\ PathSpec.leads_to dir l) -> tame_address m s ->
  (known (w_disk (world_on m)) (folder_at (world_on m) id) root s t <->
   web_document m s t \/ (~ (exists u, web_address m s u) /\ followed_at (w_disk (world_on m)) (folder_at (world_on m) id) root s t)).
Proof.
  intros m id root s t FS (dir&l&D&L) T. unfold known. cbn [world_on w_disk disk_on d_url d_global d_xml]. split.
  - intros [F|(U&data&G&X&NM)].
    + right. split; auto. intros E. apply url_iff in E. apply followed_at_local in F as [U _]. change (is_valid_url m s = false) in U. congruence.
    + left. apply url_iff in U as (u&W). set (ns := proj2 (path_names_iff (uPath u) _) eq_refl).
      destruct (proj1 (global_bytes m s u dir l _ FS W T D L ns data t) (conj G X)) as [ST _].
      exists u, dir, l. eexists. exists data. split; auto. split; auto. split; auto. split; [exact ns|]. auto.
  - intros [(u&dir'&l'&ns&data&W&D'&L'&NS&ST&X&NM)|[_ F]]; auto. right. split; [apply url_iff; eauto|].
    destruct (proj2 (global_bytes m s u dir' l' ns FS W T D' L' NS data t) (conj ST X)) as [G _]. eauto.
Qed.
Print Assumptions C154_documents_partial.

(** A concept is the declaration with that id in the document that its reference names. *)
Theorem C154_concepts_partial : forall m id name h, file_system m -> (exists dir l, directory m (m_GTS m) dir /\ PathSpec.leads_to dir l) ->
  supported name -> report_of (world_on m) id name h ->
  exists file root, entry_at (w_disk (world_on m)) (folder_at (world_on m) id) root name file /\
    let means s t := web_document m s t \/
      (~ (exists u, web_address m s u) /\ followed_at (w_disk (world_on m)) (folder_at (world_on m) id) root s t) in
    (forall href c, concept_for (out (world_on m)) h href = Some c ->
       exists s frag, href = s ++ "#" ++ frag /\ free_of "#" s /\ s <> "" /\ frag <> "") /\
    forall s frag c, free_of "#" s -> s <> "" -> frag <> "" -> tame_address m s -> (forall t, means s t -> plain_declarations t) ->
      (concept_for (out (world_on m)) h (s ++ "#" ++ frag) = Some c <->
       exists t cs, means s t /\ image_of (concept_at t s) (kids t) cs /\ first_such (fun c => cID c = frag) cs c).
Proof.
  intros m id name h FS G SU (_&images&sh&_&LO).
  destruct (loaded_parts _ _ _ _ _ _ _ _ _ SU LO) as (file&root&fd&doc&EA&_&S&_&_&_&M1&M2&_&_&_&H).
  apply C79_complete in H as (HF&_). exists file, root. split; auto. cbv zeta.
  set (q := env_of fd (d_url (w_disk (world_on m))) (global_schema_file (w_disk (world_on m)))).
  assert (QOK : qenv_ok q) by (split; auto).
  assert (CF : forall href c, concept_for (out (world_on m)) h href = Some c <-> exists nsp, hash_query (fdNamespaces fd) q href = Ok (nsp, c)).
  { intros href c. unfold concept_for. rewrite HF.
    change (env_of fd (o_url (out (world_on m))) (o_schema (out (world_on m)))) with q.
    destruct (hash_query (fdNamespaces fd) q href) as [[k c']|e|]; split; try discriminate; try (now intros (?&E)).
    - intros [= ->]. eauto.
    - now intros (k'&[= _ ->]). }
  split.
  { intros href c E. apply CF in E. apply C49_hash_query in E as (b&fr&_&_&E&A&B&C&_); auto. eauto 10. }
  intros s frag c Fs Ns Nf TA PD. rewrite CF, (C49_hash_query (fdNamespaces fd) q (s ++ "#" ++ frag) c QOK). split.
  - intros (b&fr&f&cs&E&Fb&_&_&DA&CO&FI).
    assert (X : cut "#" (s ++ String "#" frag) = cut "#" (b ++ String "#" fr)) by (f_equal; exact E).
    rewrite !cut_hash in X by auto. injection X as <- <-. pose proof FI as FI'. apply first_such_In in FI' as [Hc _].
    apply (document_iff _ _ _ fd S s f c cs CO Hc) in DA as (t&K&->). apply (C154_documents_partial m id root s t FS G TA) in K.
    exists t, cs. split; auto. split; auto. apply concepts_of_iff; auto.
  - intros (t&cs&K&I&FI). pose proof FI as FI'. apply first_such_In in FI' as [Hc _].
    pose proof I as I'. apply concepts_of_iff in I'; auto.
    exists s, frag, (schema_struct t), cs. do 4 (split; auto). split; [|auto].
    apply (document_iff _ _ _ fd S s _ c cs I' Hc). exists t. split; auto. now apply (C154_documents_partial m id root s t FS G TA).
Qed.
Print Assumptions C154_concepts_partial.

(** The registry of units is $GTS/gts/concepts/http/www.xbrl.org/utr/utr.xml, *)
Theorem C154_units : forall m dir l host, file_system m -> directory m (m_GTS m) dir -> PathSpec.leads_to dir l ->
  m_parse m "http://www.xbrl.org/utr/utr.xml" = Ok (Url "http" "www.xbrl.org" "/utr/utr.xml", host) ->
  exists register, registry_of register (o_units (w_out (world_on m))) /\
    forall root, register = Some root <-> exists data,
      stored m (below l ["gts"; "concepts"; "http"; "www.xbrl.org"; "utr"; "utr.xml"]) data /\ d_xml (w_disk (m_rest m)) data = Some root /\ locally_named "utr" root.
Proof.
  intros m dir l host FS D L P. destruct (C144_machine m) as (reg&R&E). exists reg. split; auto. intro root. rewrite E.
  assert (B := fun NP NS => parsed_bytes m _ _ host dir l ["utr"; "utr.xml"] FS P ltac:(repeat split; discriminate) ltac:(repeat split; discriminate) NP D L NS).
  assert (NP : no_parent (uPath (Url "http" "www.xbrl.org" "/utr/utr.xml"))) by (apply no_parent_iff; cbn; intuition discriminate).
  assert (NS : path_names (uPath (Url "http" "www.xbrl.org" "/utr/utr.xml")) ["utr"; "utr.xml"]) by (apply path_names_iff; reflexivity).
  specialize (B NP NS). cbn [uScheme uHostname] in B. split.
  - intros (data&A&X&N). exists data. destruct (proj1 (B data root) (conj A X)) as [A' _]. auto.
  - intros (data&A&X&N). exists data. destruct (proj2 (B data root) (conj A X)) as [A' _]. auto.
Qed.
Print Assumptions C154_units.
(** and the names of the entities are in $WD/wd/names.json. *)
Theorem C154_names : forall m dir l, file_system m -> directory m (m_WD m) dir -> PathSpec.leads_to dir l ->
  (forall data, stored m (below l ["wd"; "names.json"]) data -> o_names (w_out (world_on m)) = m_names m data) /\
  ((forall data, ~ stored m (below l ["wd"; "names.json"]) data) -> exists e, o_names (w_out (world_on m)) = Err e).
Proof.
  intros m dir l FS D L. cbn [world_on w_out o_names]. unfold names_read.
  assert (LF : PathSpec.leads_to (join [working_directory m; "names.json"]) (below l ["wd"; "names.json"])).
  { rewrite <- (directory_given _ _ _ D) in L. apply working_place in L. apply leads_to_iff. 
    change [working_directory m; "names.json"] with ([working_directory m] ++ ["names.json"])%list.
    assert (N : working_directory m <> "") by (intro Z; rewrite Z in L; apply (f_equal names) in L; cbn in L; now destruct (names l)).
    rewrite place_join_snoc; [|exists (working_directory m); split; [now left|auto]|repeat split; discriminate].
    unfold join. cbn [filter]. destruct (working_directory m) as [|c s] eqn:W; [contradiction|]. cbn [nonempty String.concat].
    rewrite clean_text, place_text by apply place_ok. rewrite L. now rewrite below_below. }
  split.
  - intros data (path&P&E). rewrite (fs_read m FS _ _ _ P LF) in E. now rewrite E.
  - intros N. destruct (d_file _ _) as [b|] eqn:E; eauto. exfalso. apply (N b). eexists. eauto.
Qed.
Print Assumptions C154_names.

(** ** A machine with a taxonomy set *)
Definition tax_files (trees : list (string * tree)) : disk :=
  let d := small_disk trees in
  Disk (d_url d) (fun p => d_file d (clean p)) (d_stat d) (d_xml d) (d_html d) (d_global d).
Definition tax_trees (schema : string) : list (string * tree) :=
  [(in_dir "x.xml", up_doc); ("/gts/concepts/http/www.xbrl.org/utr/utr.xml", el "http://www.xbrl.org/2009/utr" "utr" [] []);
   (schema, schema_tree "urn:t" [concept_tree "A"; concept_tree "B"])].
Definition tax_machine (schema : string) : machine :=
  let d := tax_files (tax_trees schema) in
  Machine (Some "/") "" "" (fun p => if d_file d p then Some (base p) else None) (fun s => String.eqb (substring 0 7 s) "http://")
    (fun s => if String.eqb s "http://x.org/t.xsd" then Ok (Url "http" "x.org" "/t.xsd", "x.org") else
              if String.eqb s "http://x.org/../../../../etc/t.xsd" then Ok (Url "http" "x.org" "/../../../../etc/t.xsd", "x.org") else
              Ok (Url "http" "www.xbrl.org" "/utr/utr.xml", "www.xbrl.org"))
    (fun _ => Ok []) (World d "" (fun _ => Ok "x.xml") (fun _ => None) (fun _ => "") (fun _ => "") (fun _ => None) (fun _ => None) ex_pf ex_tokens pair_outside).
Lemma tax_system schema : schema <> "" -> file_system (tax_machine schema).
Proof.
  intro NE. split.
  - intros p p' l P P'. apply leads_to_iff in P, P'. subst l. cbn [tax_machine m_rest w_disk tax_files d_file]. now rewrite !clean_text, P'.
  - intros p name. cbn [tax_machine m_stat]. destruct (d_file _ p); congruence.
  - intros p. cbn [tax_machine m_stat m_rest w_disk]. destruct (d_file _ p); congruence.
  - cbn. destruct schema; [contradiction|reflexivity].
Qed.
Definition tax_folder schema : folder := DiscoverModel.finish "x.xml" (instance_struct up_doc) (first_folder (files_of (disk_on (tax_machine schema))) small_dir "x.xml").
Definition tax_hydrated schema : res hydratable :=
  hydrate ex_pf plain_order (d_url (disk_on (tax_machine schema))) (global_schema_file (disk_on (tax_machine schema))) ex_tokens (units_read (tax_machine schema)) (Ok None) (tax_folder schema).
Definition tax_inside := "/gts/concepts/http/x.org/t.xsd".
Definition tax_outside := "/etc/t.xsd".
Lemma tax_report schema : schema = tax_inside \/ schema = tax_outside ->
  exists h, report_of (world_on (tax_machine schema)) "f" "x.xml" h /\ hFolder h = tax_folder schema.
Proof.
  intro SC.
  assert (E : exists h, tax_hydrated schema = Ok h) by (destruct SC as [->| ->]; vm_compute; eauto). destruct E as (h&E).
  exists h. split; [|now apply C79_complete in E as (HF&_)]. split.
  - exists "/wd/folders/f/_". destruct SC as [->| ->]; split; reflexivity.
  - exists false, plain_order. split; [exact plain_orders|]. exists (tax_folder schema), (Ok None). split; [|split; [constructor|exact E]].
    assert (EI : entry_instance (files_of (disk_on (tax_machine schema))) small_dir "x.xml" "x.xml" (instance_struct up_doc)).
    { apply entry_iff. exists up_doc. split; auto. split; [right; split; auto; right; now exists "x"|]. split.
      - exists (in_dir "x.xml"). split; [destruct SC as [->| ->]; reflexivity|]. split; [destruct SC as [->| ->]; reflexivity|do 4 eexists; reflexivity].
      - intros [(x&X)|(x&X)]; exfalso.
        + assert (H : has_suffix "x.xml" ".xhtml") by now exists x. apply suffix_xhtml in H. discriminate H.
        + assert (H : has_suffix "x.xml" ".htm") by now exists x. apply suffix_htm in H. discriminate H. }
    change (folder_at (world_on (tax_machine schema)) "f") with small_dir. change (w_disk (world_on (tax_machine schema))) with (disk_on (tax_machine schema)).
    apply (discover_iff _ _ _ _ _ _ _ EI). eexists. split; [apply fruns_refl|]. split; [constructor|reflexivity].
Qed.
Lemma tax_directory schema : directory (tax_machine schema) (m_GTS (tax_machine schema)) "/" /\ PathSpec.leads_to "/" (Location true 0 []).
Proof. split; [right; auto|apply leads_to_iff; reflexivity]. Qed.
(** C154, refuted: a URL with [..] is read from outside of the taxonomy set; here there is no
    schema in it at all. *)
Theorem C154_refuted : exists m id name h dir l s frag c, file_system m /\ directory m (m_GTS m) dir /\ PathSpec.leads_to dir l /\
  supported name /\ report_of (world_on m) id name h /\ (exists u, web_address m s u) /\
  concept_for (out (world_on m)) h (s ++ "#" ++ frag) = Some c /\
  forall ns data t, stored m (below l ("gts" :: ns)) data -> d_xml (w_disk (m_rest m)) data = Some t -> ~ locally_named "schema" t.
Proof.
  destruct (tax_report tax_outside (or_intror eq_refl)) as (h&R&HF). destruct (tax_directory tax_outside) as [D L].
  exists (tax_machine tax_outside), "f", "x.xml", h, "/", (Location true 0 []), "http://x.org/../../../../etc/t.xsd", "id_A". eexists.
  split; [apply tax_system; discriminate|]. split; [exact D|]. split; [exact L|]. split; [right; right; now exists "x"|]. split; [exact R|].
  split; [eexists; split; [reflexivity|]; eexists; split; [reflexivity|]; split; discriminate|].
  split; [unfold concept_for; rewrite HF; vm_compute; reflexivity|].
  intros ns data t (path&P&E) X (n&a&i&ks&->).
  cbn [tax_machine m_rest w_disk tax_files d_file d_xml small_disk tax_trees map fst] in E, X.
  apply leads_to_iff in P. rewrite clean_text, <- P in E.
  destruct (existsb _ _) eqn:B in E; [|discriminate]. injection E as <-. cbn [existsb] in B.
  repeat (apply orb_true_iff in B as [B|B]; [apply String.eqb_eq in B; rewrite B in X; vm_compute in X; try discriminate X; exfalso|]); [|discriminate B].
  apply (f_equal place) in B. rewrite place_text in B by (rewrite P; apply place_ok). vm_compute in B. discriminate B.
Qed.
Print Assumptions C154_refuted.
Example C154_example : exists h s t c, let m := tax_machine tax_inside in
  file_system m /\ (exists dir l, directory m (m_GTS m) dir /\ PathSpec.leads_to dir l) /\ (exists dir l, directory m (m_WD m) dir /\ PathSpec.leads_to dir l) /\
  m_parse m "http://www.xbrl.org/utr/utr.xml" = Ok (Url "http" "www.xbrl.org" "/utr/utr.xml", "www.xbrl.org") /\
  supported "x.xml" /\ report_of (world_on m) "f" "x.xml" h /\ tame_address m s /\ web_document m s t /\ plain_declarations t /\
  concept_for (out (world_on m)) h (s ++ "#id_B") = Some c.
Proof.
  destruct (tax_report tax_inside (or_introl eq_refl)) as (h&R&HF). destruct (tax_directory tax_inside) as [D L].
  exists h, "http://x.org/t.xsd", (schema_tree "urn:t" [concept_tree "A"; concept_tree "B"]). eexists. cbv zeta.
  split; [apply tax_system; discriminate|]. split; [eauto|]. split; [eauto|]. split; [reflexivity|]. split; [right; right; now exists "x"|]. split; [exact R|].
  split.
  { intros u (_&host&P&_). cbn in P. injection P as <- _. split; [repeat split; discriminate|]. split; [repeat split; discriminate|].
    apply no_parent_iff; cbn; intuition discriminate. }
  split.
  { exists (Url "http" "x.org" "/t.xsd"), "/", (Location true 0 []), ["t.xsd"], tax_inside. split.
    - split; [reflexivity|]. exists "x.org". split; [reflexivity|]. split; discriminate.
    - split; [exact D|]. split; [exact L|]. split; [apply path_names_iff; reflexivity|]. split.
      + exists tax_inside. split; [apply leads_to_iff; reflexivity|reflexivity].
      + split; [reflexivity|do 4 eexists; reflexivity]. }
  split.
  { intros x a [<-|[<-|[]]] _ [<-|[<-|[<-|[]]]]; split; discriminate. }
  unfold concept_for. rewrite HF. vm_compute. reflexivity.
Qed.
