(** Lemmas for IsolateProps. *)
From Coq Require Import Strings.String Strings.Ascii Lists.List Bool.
From Verif Require Import GoBase GoSpec GoFacts PathSpec PathModel PathProofs AttrModel SchemaModel SchemaSpec LinkbaseModel LinkbaseSpec LinkbaseProofs InstanceModel HydrateModel
  DiscoverModel DiscoverSpec DiscoverProofs DiscoverProps XmlModel XmlSpec LoadModel LoadSpec LoadProofs ImageModel ServerModel ServerSpec IsolateSpec.
From Verif Require ServerProps.
Import ListNotations.
Local Open Scope string_scope.

(** ** Discovery where the same references lead to the same files *)
Section Same.
  Variables W W' : files.
  Variable dir : string.
  Hypothesis U : is_url W' = is_url W.
  Definition ok (h : string) : Prop :=
    is_url W h = true \/ (read_schema W' (join [dir; h]) = read_schema W (join [dir; h]) /\
      forall k, read_linkbase W' k (join [dir; h]) = read_linkbase W k (join [dir; h])).

  Lemma ns_link e : negb (String.eqb (nspace (ename e)) LINK) = false -> link_element e.
  Proof. intro E. apply negb_false_iff, String.eqb_eq in E. exact E. Qed.
  Lemma ns_xsd e : negb (String.eqb (nspace (ename e)) XSD) = false -> xsd_element e.
  Proof. intro E. apply negb_false_iff, String.eqb_eq in E. exact E. Qed.
  Lemma ref_same e refs : In e refs -> (forall h, refers_to refs h -> ok h) -> schema_ref_body W' dir e = schema_ref_body W dir e.
  Proof.
    intros I H. unfold schema_ref_body. rewrite U. destruct (negb _) eqn:N; auto. destruct (req (eattrs e) "href") as [h|] eqn:R; auto. cbn [DiscoverModel.found].
    destruct (is_url W h) eqn:V; auto. destruct (H h) as [X|[X _]]; [|congruence|now rewrite X].
    exists e. split; auto. split; [now apply ns_link|now apply req_iff].
  Qed.
  Lemma include_same f e : In e (sf_include f) -> (forall h, includes f h -> ok h) -> include_body W' dir e = include_body W dir e.
  Proof.
    intros I H. unfold include_body. rewrite U. destruct (negb _) eqn:N; auto. destruct (req (eattrs e) "schemaLocation") as [h|] eqn:R; auto. cbn [DiscoverModel.found].
    destruct (is_url W h) eqn:V; auto. destruct (H h) as [X|[X _]]; [|congruence|now rewrite X].
    exists e. split; auto. split; [now apply ns_xsd|now apply req_iff].
  Qed.
  Lemma import_same f e : In e (sf_import f) -> (forall ns h, imports_for f ns h -> ok h) -> import_body W' dir e = import_body W dir e.
  Proof.
    intros I H. unfold import_body. rewrite U. destruct (negb _) eqn:N; auto. destruct (req (eattrs e) "namespace") as [ns|] eqn:Q; auto. cbn [DiscoverModel.found].
    destruct (req (eattrs e) "schemaLocation") as [h|] eqn:R; auto. cbn [DiscoverModel.found].
    destruct (is_url W h) eqn:V; auto. destruct (H ns h) as [X|[X _]]; [|congruence|now rewrite X].
    exists e. split; auto. split; [now apply ns_xsd|]. split; now apply req_iff.
  Qed.
  Lemma linkbase_same f e : In e (linkbase_refs f) -> (forall k h, names_linkbase f k h -> ok h) -> linkbase_ref_body W' dir e = linkbase_ref_body W dir e.
  Proof.
    intros I H. unfold linkbase_ref_body. rewrite U. destruct (negb _) eqn:N; auto.
    destruct (xattr_is (eattrs e) "arcrole" LINKARCROLE) as [[]|] eqn:A; auto. cbn [DiscoverModel.found].
    destruct (xattr_is (eattrs e) "type" "simple") as [[]|] eqn:T; auto. cbn [DiscoverModel.found].
    destruct (xreq (eattrs e) "role") as [role|] eqn:Q; auto. cbn [DiscoverModel.found].
    destruct (xreq (eattrs e) "href") as [h|] eqn:R; auto. cbn [DiscoverModel.found].
    destruct (is_url W h) eqn:V; auto. destruct (linkbase_kind role) as [k|] eqn:K; auto. cbn [DiscoverModel.found].
    destruct (H k h) as [X|[_ X]]; [|congruence|now rewrite X].
    apply names_linkbase_iff. exists e. split; auto. apply linkbase_kind_iff in K. subst role.
    apply xattr_is_iff in A, T; try discriminate. apply xreq_iff in Q, R.
    split; [now apply ns_link|]. auto.
  Qed.
  Lemma children_same f : (forall h, includes f h -> ok h) -> (forall ns h, imports_for f ns h -> ok h) -> (forall k h, names_linkbase f k h -> ok h) ->
    children W' dir f = children W dir f.
  Proof.
    intros A B C. unfold children. f_equal; [|f_equal]; apply map_ext_in; intros e He.
    - now apply (import_same f).
    - now apply (include_same f).
    - now apply (linkbase_same f).
  Qed.

  Variable refs : list elem.
  Notation follows := (followed (url_of W) (schema_of W dir) refs).
  Hypothesis K : forall h f, follows h f -> children W' dir f = children W dir f.
  Lemma step_same fd p fd' p' : pstep W dir fd p fd' p' -> psound W dir refs p -> pstep W' dir fd p fd' p'.
  Proof.
    induction 1 as [fd|fd ns h next|fd h f|fd k h l|fd fd' a p p' b h f H IH|fd ps h f HF]; intros PS; try (constructor; fail).
    - cbn in PS. rewrite <- (K _ _ PS). constructor.
    - cbn [psound] in PS. destruct PS as [_ PS]. apply all_sound in PS. apply Forall_app in PS as [_ Pb]. inversion Pb; subst. constructor. auto.
    - now constructor.
  Qed.
  Lemma runs_same s s' : fruns W dir s s' -> fsound W dir refs (fst s) -> Forall (psound W dir refs) (snd s) -> fruns W' dir s s'.
  Proof.
    induction 1 as [|s s' s'' R IH H]; intros FS PS; [constructor|]. eapply fruns_step; [now apply IH|].
    destruct (runs_sound _ _ _ _ _ R FS PS) as [_ PS']. destruct H as [fd fd' a p p' b H]. cbn in PS'. apply Forall_app in PS' as [_ Pb]. inversion Pb; subst.
    constructor. now apply step_same.
  Qed.
End Same.

Lemma new_sound W dir refs name doc : fsound W dir refs (new_folder name doc).
Proof.
  split; [|split].
  - split; [constructor|intros ? ? []].
  - split; [constructor|intros ? ? []].
  - intros []; (split; [constructor|intros ? ? []]).
Qed.
Section Discover.
  Variables W W' : files.
  Variable dir : string.
  Hypothesis U : is_url W' = is_url W.
  Hypothesis X : decode_ixbrl W' = decode_ixbrl W.
  Variable entry : res string.
  Hypothesis E : forall name file, entry = Ok name -> inline_name name \/ instance_name name -> (file = name \/ file = name ++ ".xml") ->
    read_file W' (join [dir; file]) = read_file W (join [dir; file]) /\
    read_instance W' (join [dir; file]) = read_instance W (join [dir; file]) /\
    exists_file W' (join [dir; file]) = exists_file W (join [dir; file]).
  Hypothesis R : forall name file i, entry = Ok name -> entry_instance W dir name file i ->
    (forall h, refers_to (if_schemaRef i) h -> ok W W' dir h) /\
    forall h f, followed (url_of W) (schema_of W dir) (if_schemaRef i) h f -> children W' dir f = children W dir f.
  Lemma instance_same name doc file o : entry = Ok name -> inline_name name \/ instance_name name -> (file = name \/ file = name ++ ".xml") ->
    (forall i, read_instance W (join [dir; file]) = Some i -> entry_instance W dir name file i) ->
    discover_instance W dir (new_folder name doc) file o -> discover_instance W' dir (new_folder name doc) file o.
  Proof.
    intros HE HN HF HI D. destruct (E name file HE HN HF) as (_&E2&_). destruct D as [m D|i s D RS J].
    - constructor. now rewrite E2.
    - apply inst_read; auto; [now rewrite E2|]. destruct (R name file i HE (HI i D)) as [R1 R2].
      assert (EQ : schema_ref W' dir (new_folder name doc) i = schema_ref W dir (new_folder name doc) i).
      { unfold schema_ref. f_equal. apply map_ext_in. intros e He. f_equal. now apply (ref_same W W' dir U e (if_schemaRef i)). }
      rewrite EQ. apply (runs_same W W' dir (if_schemaRef i) R2); auto.
      + apply new_sound.
      + unfold schema_ref. cbn [snd]. apply Forall_forall. intros p Hp. apply in_map_iff in Hp as (e&<-&He). cbn. now apply ref_sound.
  Qed.
  Lemma discover_same images o : discover W dir entry images o -> discover W' dir entry images o.
  Proof.
    intros [m HE|name o' HE HX D|name o' HE HX D|name HE H1 H2 H3 H4].
    - now constructor.
    - apply disc_htm with name; auto. pose proof HX as HX'. apply inline_iff in HX'.
      destruct (E name name HE (or_introl HX') (or_introl eq_refl)) as (A&_&_).
      destruct (E name (name ++ ".xml") HE (or_introl HX') (or_intror eq_refl)) as (_&_&B).
      destruct D as [m D|data D N I|data D N I|data doc D N I|data doc o'' D N I DI].
      + constructor. now rewrite A.
      + apply htm_nil with data; auto; [now rewrite A|now rewrite X].
      + apply htm_failed with data; auto; [now rewrite A|now rewrite X].
      + apply htm_missing with data doc; [now rewrite A|now rewrite X|now rewrite B].
      + apply htm_found with data doc; [now rewrite A|now rewrite X|now rewrite B|].
        apply instance_same; auto. intros i Hi. split; [left; auto|]. split; auto. intros _. eauto.
    - apply disc_xml with name; auto. pose proof HX as HX'. apply instance_iff in HX'. apply instance_same; auto.
      intros i Hi. split; [right; auto|]. split; auto. intro IN. exfalso. apply inline_iff in IN.
      destruct HX as [Y|Y]; rewrite Y in IN; destruct IN; discriminate.
    - now constructor.
  Qed.
End Discover.

(** ** The paths of a folder *)
Lemma place_join_snoc es x : (exists e, In e es /\ e <> "") -> entry_name_ok x -> place (join (es ++ [x])) = below (place (join es)) [x].
Proof.
  intros (e&He&Ne) Hx. unfold join. rewrite filter_app. cbn [filter].
  assert (NX : nonempty x = true) by (destruct Hx as (N&_); destruct x; auto; contradiction). rewrite NX.
  assert (ND : filter nonempty es <> []).
  { intro Z. assert (I : In e (filter nonempty es)) by (apply filter_In; split; auto; destruct e; auto; contradiction). rewrite Z in I. contradiction. }
  destruct (filter nonempty es) as [|a r] eqn:Z; [contradiction|]. cbn [app].
  assert (NA : a <> "").
  { intros ->. assert (I : In "" (filter nonempty es)) by (rewrite Z; now left). apply filter_In in I as [_ I]. discriminate I. }
  change (a :: r ++ [x])%list with ((a :: r) ++ [x])%list. rewrite concat_snoc by discriminate.
  rewrite !clean_text, !place_text by apply place_ok. rewrite place_glue.
  - rewrite WebProofs.split_free_one by apply Hx. destruct (place _) as [abs up ms]. rewrite fold_names by auto. reflexivity.
  - destruct r; cbn; [auto|]. destruct a; [contradiction|discriminate].
Qed.

Lemma split_tail c a b : free_of c b -> exists ss s, split c a = (ss ++ [s])%list /\ split c (a ++ b) = (ss ++ [(s ++ b)%string])%list.
Proof.
  intro F. induction a as [|x a (ss&s&IH1&IH2)].
  - exists [], "". cbn [app]. split; auto. now apply WebProofs.split_free_one.
  - cbn [append split]. rewrite IH1, IH2. destruct (Ascii.eqb x c).
    + exists ("" :: ss), s. auto.
    + destruct ss as [|y ss].
      * exists [], (String x s). auto.
      * exists (String x y :: ss), s. auto.
Qed.
Lemma no_parent_xml name : no_parent name -> no_parent (name ++ ".xml").
Proof.
  rewrite !no_parent_iff. intros N I. apply N. destruct (split_tail "/" name ".xml") as (ss&s&E1&E2).
  { repeat constructor; discriminate. }
  rewrite E2 in I. rewrite E1. apply in_app_iff in I as [I|[I|[]]]; [apply in_app_iff; auto|].
  exfalso. destruct s as [|x s]; [discriminate|]. injection I as -> I. destruct s as [|y s]; [discriminate|]. injection I as -> I. destruct s; discriminate.
Qed.
Lemma folder_nonempty w id : folder_at w id <> "".
Proof.
  unfold folder_at, join. set (l := filter nonempty _).
  assert (I : In "folders" l) by (apply filter_In; split; [right; now left|reflexivity]).
  destruct l as [|x l]; [contradiction|]. rewrite clean_text. intro Z. pose proof (text_nonempty _ (place_ok (String.concat "/" (x :: l)))) as T. rewrite Z in T. discriminate T.
Qed.
Lemma in_folder_ref w id h : h <> "" -> no_parent h -> in_folder w id (join [folder_at w id; h]).
Proof.
  intros N P. exists (place (folder_at w id)), (place (join [folder_at w id; h])). split; [now apply leads_to_iff|]. split; [now apply leads_to_iff|].
  apply (join_below _ h (folder_nonempty w id) N P); now apply leads_to_iff.
Qed.
Lemma in_folder_self w id : in_folder w id (folder_at w id).
Proof.
  exists (place (folder_at w id)), (place (folder_at w id)). split; [now apply leads_to_iff|]. split; [now apply leads_to_iff|].
  exists []. destruct (place _). cbn. now rewrite app_nil_r.
Qed.
Lemma in_folder_entry w id : in_folder w id (join [w_wd w; "folders"; id; "_"]).
Proof.
  exists (place (folder_at w id)), (place (join [w_wd w; "folders"; id; "_"])). split; [now apply leads_to_iff|]. split; [now apply leads_to_iff|].
  change [w_wd w; "folders"; id; "_"] with ([w_wd w; "folders"; id] ++ ["_"])%list. rewrite place_join_snoc.
  - eexists. reflexivity.
  - exists "folders". split; [right; now left|discriminate].
  - repeat split; discriminate.
Qed.

(** ** The world with other files elsewhere *)
Section World.
  Variables w w' : world.
  Variable id : string.
  Hypothesis S : same_folder w w' id.
  Notation dir := (folder_at w id).

  Lemma same_wd : w_wd w' = w_wd w. Proof. destruct S as (?&?&?&->&_). reflexivity. Qed.
  Lemma same_dir : folder_at w' id = dir. Proof. unfold folder_at. now rewrite same_wd. Qed.
  Lemma same_url : d_url (w_disk w') = d_url (w_disk w). Proof. destruct S as (?&?&?&->&_). reflexivity. Qed.
  Lemma same_xml : d_xml (w_disk w') = d_xml (w_disk w). Proof. destruct S as (?&?&?&->&_). reflexivity. Qed.
  Lemma same_html : d_html (w_disk w') = d_html (w_disk w). Proof. destruct S as (?&?&?&->&_). reflexivity. Qed.
  Lemma same_entry : w_entry w' = w_entry w. Proof. destruct S as (?&?&?&->&_). reflexivity. Qed.
  Lemma same_file path : in_folder w id path -> d_file (w_disk w') path = d_file (w_disk w) path.
  Proof. destruct S as (?&?&?&->&H). intro I. now apply H. Qed.
  Lemma same_stat path : in_folder w id path -> d_stat (w_disk w') path = d_stat (w_disk w) path.
  Proof. destruct S as (?&?&?&->&H). intro I. now apply H. Qed.
  Lemma same_list path : in_folder w id path -> w_list w' path = w_list w path.
  Proof. destruct S as (?&?&?&->&H). intro I. now apply H. Qed.
  Lemma same_document path l t : in_folder w id path -> (document_of (w_disk w') path l t <-> document_of (w_disk w) path l t).
  Proof. intro I. unfold document_of. now rewrite same_file, same_xml. Qed.
  Lemma same_local h l t : h <> "" -> tame w h -> (local (w_disk w') dir h l t <-> local (w_disk w) dir h l t).
  Proof.
    intros N [T|T]; unfold local; rewrite same_url.
    - split; intros [X _]; congruence.
    - rewrite same_document by now apply in_folder_ref. tauto.
  Qed.
  Lemma same_read {B} (dec : option tree -> res B) path : in_folder w id path -> read_with (w_disk w') dec path = read_with (w_disk w) dec path.
  Proof. intro I. unfold read_with. now rewrite same_file, same_xml. Qed.
  Lemma same_entry_named name : entry_named w' id name <-> entry_named w id name.
  Proof. unfold entry_named. rewrite same_wd, same_entry, same_file by apply in_folder_entry. tauto. Qed.
  Lemma same_entry_file : entry_file_name w' id = entry_file_name w id.
  Proof. unfold entry_file_name. rewrite same_wd, same_entry, same_file by apply in_folder_entry. reflexivity. Qed.
  Lemma entry_nonempty name : inline_name name \/ instance_name name -> name <> "".
  Proof. intros [[(s&->)|(s&->)]|[(s&->)|(s&->)]]; now destruct s. Qed.
  Lemma same_entry_at root name file : no_parent name -> (entry_at (w_disk w') dir root name file <-> entry_at (w_disk w) dir root name file).
  Proof.
    intro P. unfold entry_at. rewrite same_html.
    assert (G : entry_file name file -> in_folder w id (join [dir; name]) /\ in_folder w id (join [dir; file])).
    { intros [[I ->]|[I ->]].
      - pose proof (entry_nonempty name (or_introl I)). split; apply in_folder_ref; auto using no_parent_xml. now destruct name.
      - pose proof (entry_nonempty name (or_intror I)). split; apply in_folder_ref; auto. }
    split; intros (EF&D&H); destruct (G EF) as [I1 I2].
    - rewrite same_document in D by auto. rewrite same_file, same_stat in H by auto. auto.
    - split; auto. split; [now rewrite same_document|]. now rewrite same_file, same_stat by auto.
  Qed.
  Hypothesis C : confined w id.
  Lemma required_nonempty attrs n h : required attrs n h -> h <> "".
  Proof. now intros []. Qed.
  Lemma followed_back root name file h t : entry_named w id name -> entry_at (w_disk w) dir root name file ->
    followed_at (w_disk w') dir root h t -> followed_at (w_disk w) dir root h t.
  Proof.
    intros EN EA. destruct (C name EN) as [_ CR]. destruct (CR file root EA) as [C1 C2].
    induction 1 as [h t ns R L T|h0 g h t ns F IH R L T|h0 g h t ns F IH R L].
    - apply (fat_ref _ _ _ h t ns); auto. apply same_local in L; auto. destruct R as (x&_&_&R). now apply required_nonempty in R.
    - apply (fat_include _ _ _ h0 g h t ns); auto. apply same_local in L; auto; [|now apply (C2 h0 g)]. destruct R as (x&_&_&R). now apply required_nonempty in R.
    - apply (fat_import _ _ _ h0 g h t ns); auto. apply same_local in L; auto; [|now apply (proj1 (proj2 (C2 h0 g IH)) ns)]. destruct R as (x&_&_&_&R). now apply required_nonempty in R.
  Qed.
  Lemma same_confined : confined w' id.
  Proof.
    intros name EN. apply same_entry_named in EN. destruct (C name EN) as [P CR]. split; auto.
    intros file root EA. rewrite same_dir in EA |- *. apply same_entry_at in EA; auto. destruct (CR file root EA) as [C1 C2]. unfold tame. rewrite same_url.
    split; auto. intros h0 g F. apply (followed_back _ name file) in F; auto. now apply (C2 h0 g).
  Qed.
  Lemma same_back : same_folder w' w id.
  Proof.
    destruct S as (f&s&l&E&H). exists (d_file (w_disk w)), (d_stat (w_disk w)), (w_list w). split.
    - rewrite E. destruct w as [[]]. reflexivity.
    - intros path I. assert (I' : in_folder w id path) by (unfold in_folder in *; now rewrite <- same_dir). rewrite same_file, same_stat, same_list by auto. auto.
  Qed.
  Lemma same_ok h : h <> "" -> tame w h -> ok (files_of (w_disk w)) (files_of (w_disk w')) dir h.
  Proof.
    intros N [T|T]; [now left|right]. cbn [files_of read_schema read_linkbase]. split; [|intro k]; now apply same_read, in_folder_ref.
  Qed.
  Lemma same_images : images_of w' id = images_of w id.
  Proof.
    unfold images_of, working_dir. rewrite same_wd, same_list by apply in_folder_self. destruct S as (?&?&?&->&_). reflexivity.
  Qed.
  Lemma same_discover o : discover (files_of (w_disk w)) dir (entry_file_name w id) (match images_of w id with [] => false | _ => true end) o ->
    discover (files_of (w_disk w')) dir (entry_file_name w id) (match images_of w id with [] => false | _ => true end) o.
  Proof.
    assert (EN : forall name, entry_file_name w id = Ok name -> entry_named w id name).
    { intros name E. unfold entry_file_name in E. destruct (d_file _ _) as [b|] eqn:F; [|discriminate]. exists b. auto. }
    apply discover_same.
    - exact same_url.
    - cbn. now rewrite same_html.
    - intros name file HE HN HF. apply EN in HE. destruct (C name HE) as [P _]. pose proof (entry_nonempty name HN) as NE.
      assert (I : in_folder w id (join [dir; file])).
      { destruct HF as [->| ->]; apply in_folder_ref; auto using no_parent_xml. now destruct name. }
      cbn [files_of read_file read_instance exists_file]. now rewrite same_file, same_stat, same_read.
    - intros name file i HE EI. apply EN in HE. destruct (C name HE) as [P CR]. apply entry_iff in EI as (root&EA&->). destruct (CR file root EA) as [C1 C2]. split.
      + intros h R. apply refers_iff in R. apply same_ok; [destruct R as (x&_&_&R); now apply required_nonempty in R|auto].
      + intros h f F. apply followed_iff in F as (t&F&->). destruct (C2 h t F) as (D1&D2&D3). apply children_same.
        * exact same_url.
        * intros h' R. apply includes_iff in R. apply same_ok; [destruct R as (x&_&_&R); now apply required_nonempty in R|auto].
        * intros ns h' R. apply imports_iff in R. apply same_ok; [destruct R as (x&_&_&_&R); now apply required_nonempty in R|eauto].
        * intros k h' R. apply linkbase_ref_iff in R. apply same_ok; [destruct R as (x&_&_&_&_&_&(_&R)); auto|eauto].
  Qed.
  Lemma same_discovered r : discovered w id r -> discovered w' id r.
  Proof.
    intros (o&D&->). exists o. unfold working_dir. rewrite same_wd, same_entry_file, same_images. split; [now apply same_discover|].
    destruct o as [fd|m|]; auto. cbn. f_equal. f_equal. unfold bytes_of. destruct (fdDocument fd) eqn:FD; auto.
    rewrite same_images. unfold working_dir. rewrite same_wd.
    unfold entry_file_name in D. destruct (d_file (w_disk w) (join [w_wd w; "folders"; id; "_"])) as [b|] eqn:F; [|inversion D; discriminate].
    destruct (w_entry w b) as [name|m|] eqn:E; [|inversion D; discriminate..].
    destruct (ServerProps.discovered_entry _ _ _ _ _ D) as (->&I&_). specialize (I _ FD).
    destruct (C name) as [P _]; [now exists b|]. change (join [w_wd w; "folders"; id]) with dir.
    rewrite same_file; [|apply in_folder_ref; auto; apply entry_nonempty; auto].
    destruct S as (?&?&?&->&_). reflexivity.
  Qed.
End World.
