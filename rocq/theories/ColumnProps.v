(** * ColumnProps: C137 (dimension members of an answer) and C138 (footnotes of an answer) *)
From Coq Require Import String List Bool Arith Lia Permutation.
From Verif Require Import GoBase GoSpec GoFacts AttrModel AttrSpec AttrProofs SchemaModel SchemaSpec SchemaProofs SchemaProps
  LinkbaseModel LinkbaseSpec LinkbaseProofs LinkbaseProps InstanceModel InstanceSpec InstanceProofs InstanceProps
  HydrateModel HydrateSpec HydrateProofs HydrateProps LabelModel LabelSpec LabelProofs LabelProps PeriodModel PeriodSpec PeriodProofs PeriodProps
  FactModel FactSpec FactProofs FactProps GridModel GridSpec GridProofs GridProps CalcModel CalcSpec CalcProofs CalcProps DefModel DefSpec DefProofs DefProps
  RenderModel RenderSpec RenderProofs RenderProps
  DiscoverModel DiscoverSpec DiscoverProofs DiscoverProps XmlModel XmlSpec XmlProofs XmlProps LoadModel LoadSpec LoadProofs LoadProps
  CatalogModel CatalogSpec CatalogProofs CatalogProps ReportModel ResponseModel ResponseSpec ResponseProofs ResponseProps EndToEndSpec EndToEndProps ReportSpec
  ReportProofs ReportProps ColumnSpec ColumnProofs.
Import ListNotations.
Local Open Scope string_scope.

(** C137: of every report that can be loaded, whatever network a client asks for and whatever the
    orders and schedules: the dimension rows of every grid are about dimensions and typed domains
    of its columns, each of their cells shows the member of the column's context as it is written
    in the instance, or nothing if there is none; and no explicit member is missing. Missing: that
    explicit members are shown beside typed members that are not simple (C31_refuted), and that
    the rows of typed domains are about the dimensions of the domains where the columns have
    several typed dimensions (C32_refuted). *)
Theorem C137_members_partial :
  forall d dir name images pf sh tokens utr h, supported name -> loaded d dir name images pf sh tokens utr h ->
  exists file root, entry_at d dir root name file /\
    (well_written d dir root ->
     exists facts contexts q, understands d dir root q /\ facts_written d dir root facts /\
       contexts_written root q (content_of q tokens (attributes root)) contexts /\
       forall w slug bytes, o_url w = d_url d -> o_schema w = global_schema_file d ->
         marshalled_renderable w h slug (Ok (Some bytes)) ->
         exists e r v, is_slug e r slug /\ reads_as bytes v /\
           has v "Subject" (fun u => has u "Entity" (entity_value e)) /\
           has v "RelationshipSet" (relationship_set r) /\
           let shown u rows cols :=
             grid_shows facts contexts (reports d dir root) (eScheme e ++ "/" ++ eChar e) (renders_from w h) u rows cols /\
             members_shown (o_tree w) u cols in
           presentation_with shown v /\ definition_with shown v /\ calculation_with shown v).
Proof.
  intros d dir name images pf sh tokens utr h N L.
  destruct (report_read _ _ _ _ _ _ _ _ _ N L) as (file&root&i&EA&HI&R). exists file, root. split; auto. intro WW.
  destruct (R WW) as (q&Q&FW&CW&K). exists (iFacts i), (iContexts i), q. split; [exact Q|]. split; [exact FW|]. split; [exact CW|].
  intros w slug bytes OU OS M. destruct (K w OU OS) as [HC IC].
  destruct (rendered_with w h slug bytes file i (fun s u rows cols =>
    grid_shows (iFacts i) (iContexts i) (reports d dir root) s (renders_from w h) u rows cols /\ members_shown (o_tree w) u cols) HI) as (e&r&v&SL&_&J&SB&RS&P&D&C); [|exact M|].
  - intros subject hrefs periods facts fg notes es langs members void fields v (g&lbl&cols&seg&scen&packs&ls&GF&EC&EQ&UL&EP&EM) O ND I1 I2. subst periods.
    destruct (grid_json w h file i (reports d dir root) HI HC IC g lbl subject hrefs cols seg scen packs ls facts fg notes es langs members void fields v)
      as (cs&->&TT&GS); auto.
    exists cs. split; [exact GS|]. eapply (members_json (o_tree w) lbl (ge_typed_order g)); eauto; [apply (gf_typed _ _ _ GF)|apply (gf_members _ _ _ GF)].
  - exists e, r, v. cbv zeta. auto 10.
Qed.
Print Assumptions C137_members_partial.

(** C138: of every report that can be loaded, whatever network a client asks for and whatever the
    orders and schedules: the list of footnotes of every grid holds exactly the footnotes that are
    linked in the instance to the facts of its rows and columns, each once, with the markup they
    are written with; and every cell has as many numbers as its fact has footnotes, each of them
    the number of an entry of the list. Missing: links that are not tidy (C41), and that the
    numbers of a cell are those of its own footnotes (C19_refuted). *)
Theorem C138_footnotes_partial :
  forall d dir name images pf sh tokens utr h, supported name -> loaded d dir name images pf sh tokens utr h ->
  exists file root, entry_at d dir root name file /\
    (well_written d dir root -> own_links root "footnoteLink" ["footnote"; "loc"; "footnoteArc"] ->
     exists facts contexts links q, understands d dir root q /\ facts_written d dir root facts /\
       contexts_written root q (content_of q tokens (attributes root)) contexts /\ links_written root links /\
       forall w slug bytes, o_url w = d_url d -> o_schema w = global_schema_file d ->
         faithful_tree (o_tree w) -> tidy links facts ->
         marshalled_renderable w h slug (Ok (Some bytes)) ->
         exists e r v, is_slug e r slug /\ reads_as bytes v /\
           has v "Subject" (fun u => has u "Entity" (entity_value e)) /\
           has v "RelationshipSet" (relationship_set r) /\
           let shown u rows cols :=
             grid_shows facts contexts (reports d dir root) (eScheme e ++ "/" ++ eChar e) (renders_from w h) u rows cols /\
             notes_shown links facts u rows cols in
           presentation_with shown v /\ definition_with shown v /\ calculation_with shown v).
Proof.
  intros d dir name images pf sh tokens utr h N L.
  destruct (report_read _ _ _ _ _ _ _ _ _ N L) as (file&root&i&EA&HI&R). exists file, root. split; auto. intros WW OL.
  destruct (C116_instance_partial _ _ _ _ _ _ _ _ _ N L) as (file'&root'&i'&EA'&HI'&FN&_).
  rewrite HI in HI'. injection HI' as <- <-.
  assert (root' = root) as ->. { destruct EA as (_&DO&_), EA' as (_&DO'&_). eapply document_fun; eauto. }
  destruct (R WW) as (q&Q&FW&CW&K). exists (iFacts i), (iContexts i), (iFootnoteLinks i), q.
  split; [exact Q|]. split; [exact FW|]. split; [exact CW|]. split; [exact (FN OL)|].
  intros w slug bytes OU OS FT TD M. destruct (K w OU OS) as [HC IC].
  assert (W : wf_arcs [i]).
  { intros i' l a [<-|[]] Hl Ha. destruct (FN OL) as (ls&I&(PM&_)). apply (Permutation_in _ (Permutation_sym PM)) in Hl.
    apply (image_of_In _ _ _ _ I) in Hl as (x&_&LA). destruct LA as (_&_&_&_&_&_&IA). apply (image_of_In _ _ _ _ IA) in Ha as (y&_&A).
    destruct A as (a0&i0&k0&_&AA). apply AA. }
  destruct (rendered_with w h slug bytes file i (fun s u rows cols =>
    grid_shows (iFacts i) (iContexts i) (reports d dir root) s (renders_from w h) u rows cols /\ notes_shown (iFootnoteLinks i) (iFacts i) u rows cols) HI) as (e&r&v&SL&_&J&SB&RS&P&D&C); [|exact M|].
  - intros subject hrefs periods facts fg notes es langs members void fields v (g&lbl&cols&seg&scen&packs&ls&GF&EC&EQ&UL&EP&EM) O ND I1 I2. subst periods.
    destruct (grid_json w h file i (reports d dir root) HI HC IC g lbl subject hrefs cols seg scen packs ls facts fg notes es langs members void fields v)
      as (cs&->&TT&GS); auto.
    exists cs. split; [exact GS|]. eapply (notes_json (o_tree w) i FT TD W w h file HI g GF lbl (ge_typed_order g)); eauto.
  - exists e, r, v. cbv zeta. auto 10.
Qed.
Print Assumptions C138_footnotes_partial.

(** *** A folder: the schema also declares an explicit dimension with a member and a typed
    dimension, the instance has a context with members of both and one without, and a footnote
    for one of its facts. *)
Definition member_context : tree :=
  xi "context" [pa "id" "m"]
    [xi "entity" [] [xi "identifier" [pa "scheme" "urn:s"] [txt "0"];
       xi "segment" [] [xd "explicitMember" [pa "dimension" "a:D"] [txt "a:M"];
         XmlElem (XName xbrldi "typedMember") [pa "dimension" "a:E"] "<t:A> v </t:A>" [XmlElem (XName "urn:a" "A") [] " v " [txt " v "]]]];
     xi "period" [] [xi "instant" [] [txt "2020-12-31"]]].
Definition fact_in (c id s : string) : tree := XmlElem (XName "urn:a" "A") [pa "id" id; pa "contextRef" c] s [txt s].
Definition noted_links : tree := lk "footnoteLink" [xl "type" "extended"; xl "role" "http://www.xbrl.org/2003/role/link"]
  [lk "loc" [xl "type" "locator"; xl "href" "#f2"; xl "label" "l2"] []; a_footnote link_ns "n1" "see below";
   lk "footnoteArc" [xl "type" "arc"; xl "arcrole" "http://www.xbrl.org/2003/arcrole/fact-footnote"; xl "from" "l2"; xl "to" "n1"] []].
Definition noted_root : tree := xi "xbrl" [XAttr (XName "xmlns" "a") "urn:a"; XAttr (XName "xmlns" "t") "urn:a"]
  [schema_ref_to "a.xsd"; a_context; member_context; fact_in "c" "f1" "one"; fact_in "m" "f2" "two"; noted_links].
Definition noted_schema : tree := schema_tree "urn:a"
  [xs "annotation" [] [xs "appinfo" [] [linkbase_ref_to "presentation" "pre.xml"; a_role "r" [lk "definition" [] [txt "010 - Cover"]]]];
   concept_tree "R"; concept_tree "A"; concept_tree "D"; concept_tree "M"; concept_tree "E"].
Definition noted_disk : disk := small_disk [(in_dir "x.xml", noted_root); (in_dir "a.xsd", noted_schema); (in_dir "pre.xml", pair_links)].
Definition noted_end : state := go_on (files_of noted_disk) small_dir 20
  (schema_ref (files_of noted_disk) small_dir (first_folder (files_of noted_disk) small_dir "x.xml") (instance_struct noted_root)).
Definition noted_folder : folder := DiscoverModel.finish "x.xml" (instance_struct noted_root) (fst noted_end).
Definition noted_loads := hydrate ex_pf plain_order (d_url noted_disk) (global_schema_file noted_disk) ex_tokens (Ok []) (Ok None) noted_folder.
Definition noted_report : hydratable := match noted_loads with Ok h => h | _ => Hydratable noted_folder [] None [] [] [] [] [] [] end.
Definition noted_outside : outside :=
  Outside (d_url noted_disk) (global_schema_file noted_disk) (Ok []) (Ok []) sample_tree (fun _ => []) (fun _ _ _ => None) (fun _ => None) (fun _ => "") (fun _ => None).
Lemma noted_entry : entry_at noted_disk small_dir noted_root "x.xml" "x.xml".
Proof. apply small_entry_at; [reflexivity|do 4 eexists; reflexivity]. Qed.
Lemma noted_loaded : loaded noted_disk small_dir "x.xml" false ex_pf plain_order ex_tokens (Ok []) noted_report.
Proof.
  exists noted_folder, (Ok None). split; [|split; [vm_compute; constructor|vm_compute; reflexivity]].
  assert (EI : entry_instance (files_of noted_disk) small_dir "x.xml" "x.xml" (instance_struct noted_root)) by (apply entry_iff; eauto using noted_entry).
  apply (discover_iff _ _ _ _ _ _ _ EI). exists noted_end. split; [apply go_on_runs; constructor|]. split; [vm_compute; repeat constructor|reflexivity].
Qed.
Lemma noted_served : exists bytes, marshalled_renderable noted_outside noted_report pair_slug (Ok (Some bytes)).
Proof.
  apply (own_rendering noted_outside noted_report pair_slug pair_entity pair_set "urn:s/0").
  - vm_compute. reflexivity.
  - vm_compute. reflexivity.
  - vm_compute. discriminate.
  - vm_compute. discriminate.
  - vm_compute. discriminate.
Qed.
Lemma noted_followed x t : followed_at noted_disk small_dir noted_root x t -> x = "a.xsd" /\ t = noted_schema.
Proof.
  intro F. assert (T : t = noted_schema).
  { apply followed_at_local in F as [_ L]. apply small_document in L as [[E|[E|[E|[]]]] N]; injection E as _ <-; auto; destruct N as (?&?&?&?&N); discriminate N. }
  split; auto. clear T. destruct F as [h t ns R _ _|h0 g h t ns G R _ _|h0 g h t ns G R _].
  - destruct R as (y&Hy&(?&?&?&Ny)&Q). simpl in Hy. repeat destruct Hy as [<-|Hy]; try contradiction; try discriminate Ny.
    apply LinkbaseProofs.req_iff in Q. now injection Q.
  - exfalso. apply followed_at_local in G as [_ L]. apply small_document in L as [[E|[E|[E|[]]]] N]; injection E as _ <-; try (destruct N as (?&?&?&?&N); discriminate N).
    destruct R as (y&Hy&(?&?&?&Ny)&Q). simpl in Hy. repeat destruct Hy as [<-|Hy]; try contradiction; discriminate Ny.
  - exfalso. apply followed_at_local in G as [_ L]. apply small_document in L as [[E|[E|[E|[]]]] N]; injection E as _ <-; try (destruct N as (?&?&?&?&N); discriminate N).
    destruct R as (y&Hy&(?&?&?&Ny)&Q). simpl in Hy. repeat destruct Hy as [<-|Hy]; try contradiction; discriminate Ny.
Qed.
Lemma noted_known x t : known noted_disk small_dir noted_root x t -> x = "a.xsd" /\ t = noted_schema.
Proof. intros [F|(_&data&K&_)]; [now apply noted_followed in F|discriminate K]. Qed.
Lemma noted_claims ns x : claims_at noted_disk small_dir noted_root ns x -> x = "a.xsd".
Proof.
  intros [h t n R L T|h0 g h t n G R L T|h0 g h n G R].
  - apply (noted_followed h t). eapply fat_ref; eauto.
  - apply (noted_followed h t). eapply fat_include; eauto.
  - exfalso. apply noted_followed in G as [_ ->].
    destruct R as (y&Hy&(?&?&?&Ny)&Q). simpl in Hy. repeat destruct Hy as [<-|Hy]; try contradiction; discriminate Ny.
Qed.
Lemma noted_plain : plain_declarations noted_schema.
Proof. prove_plain. Qed.
Lemma noted_image cs : image_of (concept_at noted_schema "a.xsd") (kids noted_schema) cs -> cs = map pair_concept ["R"; "A"; "D"; "M"; "E"].
Proof.
  intro I. apply concepts_of_iff in I; [|apply noted_plain].
  assert (E : hydrate_concepts (schema_struct noted_schema) "a.xsd" = map pair_concept ["R"; "A"; "D"; "M"; "E"]) by (vm_compute; reflexivity).
  rewrite <- E. eapply image_of_fun; [|exact I|apply hydrate_concepts_image]. intros x y y' H H'. eapply declares_concept_fun; eauto.
Qed.
Lemma noted_written : well_written noted_disk small_dir noted_root.
Proof.
  split; [|split; [|split; [|split; [|split]]]].
  - intros x t K. apply noted_known in K as [_ ->]. apply noted_plain.
  - intros x t cs K I. apply noted_known in K as [-> ->]. apply noted_image in I. subst cs. split.
    + apply has_char_false_iff. reflexivity.
    + repeat constructor; simpl; intuition discriminate.
  - intros x ns l _ _ h h' C C'. apply noted_claims in C, C'. congruence.
  - prove_names.
  - prove_decls.
  - prove_texts.
Qed.
Lemma noted_own : own_links noted_root "footnoteLink" ["footnote"; "loc"; "footnoteArc"].
Proof.
  intros x s Hx (a&i&ks&E). simpl in Hx. repeat destruct Hx as [<-|Hx]; try contradiction; try discriminate E. injection E; intros; subst. split; auto.
  intros y l s' Hy Hl (a&i&ks&E'). simpl in Hy. repeat destruct Hy as [<-|Hy]; try contradiction; try discriminate E'; now injection E'.
Qed.
Definition noted_link : footnote_link :=
  FootnoteLink "" [Footnote "n1" "see below" "en" "n1"] [Loc "#f2" "l2"] [FnArc "l2" "n1" "http://www.xbrl.org/2003/arcrole/fact-footnote"].
Lemma noted_only x l : In x (kids noted_root) -> footnote_link_at x l -> x = noted_links /\ l = noted_link.
Proof.
  intros Hx LA. pose proof (proj1 LA) as (?&?&?&N). simpl in Hx. repeat destruct Hx as [<-|Hx]; try contradiction; try discriminate N. clear N. split; auto.
  apply footnote_link_iff in LA.
  - destruct LA as [_ LA]. apply hydrate_footnote_link_iff in LA. vm_compute in LA. injection LA as <-. reflexivity.
  - intros y s Hy Ny. apply (proj2 (noted_own noted_links link_ns ltac:(simpl; auto 10) ltac:(do 3 eexists; reflexivity)) y "footnote" s); simpl; auto.
  - intros y s Hy Ny. apply (proj2 (noted_own noted_links link_ns ltac:(simpl; auto 10) ltac:(do 3 eexists; reflexivity)) y "loc" s); simpl; auto.
  - intros y s Hy Ny. apply (proj2 (noted_own noted_links link_ns ltac:(simpl; auto 10) ltac:(do 3 eexists; reflexivity)) y "footnoteArc" s); simpl; auto.
Qed.
Lemma image_one {A B} (R : A -> B -> Prop) a b l ls : image_of R l ls -> NoDup l -> (forall x y, In x l -> R x y -> x = a /\ y = b) -> ls = [] \/ ls = [b].
Proof.
  intro I. induction I as [|x y l ls Rxy I IH|x l ls NR I IH]; intros ND H; auto.
  - right. inversion ND as [|? ? NI ND']; subst. destruct (H x y) as [-> ->]; simpl; auto. f_equal.
    destruct ls as [|z ls]; auto. exfalso. destruct (image_of_In _ _ _ z I) as (x&Hx&Rx); [now left|].
    destruct (H x z) as [-> _]; simpl; auto.
  - inversion ND; subst. apply IH; auto. intros; apply H; simpl; auto.
Qed.
Lemma noted_tidy links facts : links_written noted_root links -> tidy links facts.
Proof.
  intros (ls&I&(PM&_)).
  assert (D : links = [] \/ links = [noted_link]).
  { destruct (image_one _ noted_links noted_link _ _ I) as [->| ->].
    - repeat constructor; simpl; intuition discriminate.
    - apply noted_only.
    - left. now apply Permutation_nil.
    - right. now apply Permutation_length_1_inv. }
  clear I PM. destruct D as [-> | ->]; split; try (intros; now repeat match goal with H : In _ [] |- _ => destruct H end).
  - constructor.
  - intros l f [<-|[]] [<-|[]]. split; [reflexivity|]. split; [discriminate|]. now apply has_char_false_iff.
  - repeat constructor. intros [].
  - intros l l' x f [<-|[]] [<-|[]] [<-|[]] [<-|[]]. discriminate.
  - intros l [<-|[]]. discriminate.
  - intros l a [<-|[]] [<-|[]]. split; eexists; (split; [left; reflexivity|reflexivity]).
  - intros fa l l' a a' _ [<-|[]] [<-|[]] [<-|[]] [<-|[]] _ _. auto.
Qed.
Lemma noted_simple file i c t : In (file, i) (hInstances noted_report) -> In c (iContexts i) -> In t (typed_of c) -> simple (o_tree noted_outside) t.
Proof.
  intros Hi Hc Ht. assert (X : exists i0, hInstances noted_report = [("x.xml", i0)] /\ flat_map typed_of (iContexts i0) =
    [TypedMember "a.xsd#id_E" "a:E" "" [("a.xsd#id_A", "v")] [TArc (f64_of_nat 1) "a.xsd#id_E" "a.xsd#id_A"]]) by (eexists; split; vm_compute; reflexivity).
  destruct X as (i0&E1&E2). rewrite E1 in Hi. destruct Hi as [[= <- <-]|[]].
  assert (I : In t (flat_map typed_of (iContexts i0))) by (apply in_flat_map; eauto). rewrite E2 in I. destruct I as [<-|[]].
  do 6 eexists. split; [reflexivity|]. split; [reflexivity|]. split; [discriminate|]. split; [discriminate|]. reflexivity.
Qed.
(** The hypotheses of C137 and C138 are met, and what is shown there: the rows of the dimensions have
    no member in the one column and the members in the other, and the fact of that column has the
    footnote of the list. *)
Example C137_example :
  loaded noted_disk small_dir "x.xml" false ex_pf plain_order ex_tokens (Ok []) noted_report /\ well_written noted_disk small_dir noted_root /\
  own_links noted_root "footnoteLink" ["footnote"; "loc"; "footnoteArc"] /\
  (o_url noted_outside = d_url noted_disk /\ o_schema noted_outside = global_schema_file noted_disk) /\
  faithful_tree (o_tree noted_outside) /\ (forall links facts, links_written noted_root links -> tidy links facts) /\
  (forall file i c t, In (file, i) (hInstances noted_report) -> In c (iContexts i) -> In t (typed_of c) -> simple (o_tree noted_outside) t) /\
  (exists bytes, marshalled_renderable noted_outside noted_report pair_slug (Ok (Some bytes))) /\
  exists g rows langs, own_p noted_outside noted_report (stringify pair_entity) (rsRole pair_set) = Ok (g, rows, langs) /\
    map (fun v => (lbHref (vcDimension v), option_map lbHref (vcTypedDomain v))) (pgVoid g) =
      [("a.xsd#id_D", None); ("a.xsd#id_E", None); ("a.xsd#id_E", Some "a.xsd#id_A")] /\
    map (map (fun m => (option_map lbHref (mcExplicit m), mcTyped m))) (pgMembers g) =
      [[(None, ""); (Some "a.xsd#id_M", "")]; [(None, ""); (None, "")]; [(None, ""); (None, "v")]] /\
    pgFootnotes g = ["see below"] /\ pgFootnoteGrid g = [[[]; []]; [[]; [1]]].
Proof.
  split; [exact noted_loaded|]. split; [exact noted_written|]. split; [exact noted_own|]. split; [split; reflexivity|].
  split; [exact sample_tree_faithful|]. split; [exact noted_tidy|]. split; [exact noted_simple|]. split; [exact noted_served|].
  do 3 eexists. split; [vm_compute; reflexivity|]. split; [reflexivity|]. split; [reflexivity|]. split; reflexivity.
Qed.
