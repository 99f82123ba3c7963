(** C68, C69, C70, C99, C100, C101, C102: discovery of a folder. *)
From Coq Require Import Strings.String Strings.Ascii Lists.List Bool Arith.
From Verif Require Import GoBase GoSpec GoFacts AttrModel SchemaModel SchemaSpec SchemaProofs LinkbaseModel LinkbaseSpec
  LabelSpec LabelProofs InstanceModel HydrateModel PathModel PathSpec PathProofs DiscoverModel DiscoverSpec DiscoverProofs.
Import ListNotations.
Open Scope string_scope.

(** ** Small worlds *)
Definition a_attr (n v : string) : xattr := XAttr (XName "" n) v.
Definition x_attr (n v : string) : xattr := XAttr (XName "http://www.w3.org/1999/xlink" n) v.
Definition a_ref (h : string) : elem := Elem (XName "http://www.xbrl.org/2003/linkbase" "schemaRef") [x_attr "href" h] "".
Definition an_include (h : string) : elem := Elem (XName "http://www.w3.org/2001/XMLSchema" "include") [a_attr "schemaLocation" h] "".
Definition an_import (ns h : string) : elem :=
  Elem (XName "http://www.w3.org/2001/XMLSchema" "import") [a_attr "namespace" ns; a_attr "schemaLocation" h] "".
Definition a_concept (n : string) : elem :=
  Elem (XName "http://www.w3.org/2001/XMLSchema" "element") [a_attr "id" ("id_" ++ n); a_attr "name" n; a_attr "type" "t"] "".
Definition a_linkbase_ref (role h : string) : elem :=
  Elem (XName "http://www.xbrl.org/2003/linkbase" "linkbaseRef")
    [x_attr "arcrole" "http://www.w3.org/1999/xlink/properties/linkbase"; x_attr "type" "simple"; x_attr "role" role; x_attr "href" h] "".
Definition with_linkbases (es : list elem) : list annotation_elem :=
  [AnnotationElem (XName "http://www.w3.org/2001/XMLSchema" "annotation")
     [AppinfoElem (XName "http://www.w3.org/2001/XMLSchema" "appinfo") es []]].
Definition an_instance (hrefs : list string) : instance_file := InstanceFile [] (map a_ref hrefs) [] [] [] [].
Definition small_world (i : instance_file) (schemas : list (string * schema_file)) (linkbases : list (string * linkbase_file)) : files :=
  Files (fun h => String.eqb (substring 0 7 h) "http://") (fun p => sget p schemas) (fun _ p => sget p linkbases)
    (fun p => if String.eqb p "/wd/folders/f/x.xml" then Some i else None) (fun _ => None) (fun _ => true) (fun _ => None).
Definition small_dir := "/wd/folders/f".

Lemma small_entry i schemas linkbases : entry_instance (small_world i schemas linkbases) small_dir "x.xml" "x.xml" i.
Proof.
  split; [right; split; auto; right; now exists "x"|]. split; [reflexivity|].
  intros H. apply inline_iff in H. destruct H as [H|H]; discriminate H.
Qed.

(** a required attribute, by computation *)
Ltac req_tac := apply LinkbaseProofs.req_iff; reflexivity.
Ltac xlink_tac := apply LinkbaseProofs.xreq_iff; reflexivity.

(** ** C68 *)

(** The schemas and linkbases of a discovered folder are exactly those that
    can be reached, with their decoded content, where schemas named by
    schemaRef and include have a target namespace and imports have a
    namespace; whatever the schedule. *)
Theorem C68_exact_partial : forall w dir name images file i fd,
  entry_instance w dir name file i -> discover w dir (Ok name) images (Ok fd) ->
  (forall h f, In (h, f) (fdSchemas fd) <-> followed (url_of w) (schema_of w dir) (if_schemaRef i) h f) /\
  (forall k h l, In (h, l) (holds_linkbases fd k) <->
     followed_linkbase (url_of w) (schema_of w dir) (linkbase_of w dir) (if_schemaRef i) k h l).
Proof.
  intros w dir name images file i fd EI D. destruct (outcome_exact _ _ _ _ _ _ _ EI D) as (H1 & H2 & _). auto.
Qed.
Print Assumptions C68_exact_partial.

(** Where all reachable schemas have a target namespace and all their imports
    a namespace, these are all reachable ones. *)
Theorem C68_all_partial : forall w dir name images file i fd,
  entry_instance w dir name file i -> discover w dir (Ok name) images (Ok fd) ->
  (forall h f, reachable (url_of w) (schema_of w dir) (if_schemaRef i) h f -> exists ns, target_namespace f ns) ->
  (forall h f h', reachable (url_of w) (schema_of w dir) (if_schemaRef i) h f -> imports f h' -> exists ns, imports_for f ns h') ->
  forall h f, In (h, f) (fdSchemas fd) <-> reachable (url_of w) (schema_of w dir) (if_schemaRef i) h f.
Proof.
  intros w dir name images file i fd EI D HT HI h f. destruct (C68_exact_partial _ _ _ _ _ _ _ EI D) as [H _]. rewrite H. clear H. split.
  - induction 1 as [h f ns H1 H2 H3 H4|g h0 h f ns F IH H1 H2 H3 H4|g h0 h f ns F IH H1 H2 H3].
    + now apply reach_ref.
    + eapply reach_include; eauto.
    + eapply reach_import; eauto. destruct H1 as (e & E1 & E2 & _ & E3). exists e. auto.
  - intros R. assert (HR := R). induction R as [h f H1 H2 H3|g h0 h f R IH H1 H2 H3|g h0 h f R IH H1 H2 H3].
    + destruct (HT _ _ HR) as [ns Hn]. eapply follow_ref; eauto.
    + destruct (HT _ _ HR) as [ns Hn]. eapply follow_include; eauto.
    + destruct (HI _ _ _ R H1) as [ns Hn]. eapply follow_import; eauto.
Qed.
Print Assumptions C68_all_partial.

(** Any two schedules give the same schemas and linkbases. *)
Theorem C68_schedule : forall w dir name images file i fd fd',
  entry_instance w dir name file i ->
  discover w dir (Ok name) images (Ok fd) -> discover w dir (Ok name) images (Ok fd') ->
  same_elements (fdSchemas fd) (fdSchemas fd') /\
  (forall k, same_elements (holds_linkbases fd k) (holds_linkbases fd' k)) /\
  is_map (fdSchemas fd) /\ (forall k, is_map (holds_linkbases fd k)).
Proof.
  intros w dir name images file i fd fd' EI D D'.
  destruct (outcome_exact _ _ _ _ _ _ _ EI D) as (H1 & H2 & _ & _ & _ & M1 & M2).
  destruct (C68_exact_partial _ _ _ _ _ _ _ EI D') as [H3 H4].
  split; [intros [h f]; now rewrite H1, H3|]. split; [intros k [h l]; now rewrite H2, H4|]. auto.
Qed.
Print Assumptions C68_schedule.

(** The filing of the examples: x.xml refers to a.xsd, which includes b.xsd,
    imports c.xsd, and has a label linkbase; b.xsd has no target namespace. *)
Definition schema_c := SchemaFile [a_attr "targetNamespace" "urn:c"] [] [] [] [a_concept "C"].
Definition schema_chameleon := SchemaFile [] [] [] [] [a_concept "B"].
Definition schema_a := SchemaFile [a_attr "targetNamespace" "urn:a"] [an_include "b.xsd"] [an_import "urn:c" "c.xsd"]
  (with_linkbases [a_linkbase_ref "http://www.xbrl.org/2003/role/labelLinkbaseRef" "a_lab.xml"]) [a_concept "A"].
Definition some_labels := LinkbaseFile [a_ref "r"] [].
Definition world1 := small_world (an_instance ["a.xsd"])
  [("/wd/folders/f/a.xsd", schema_a); ("/wd/folders/f/b.xsd", schema_chameleon); ("/wd/folders/f/c.xsd", schema_c)]
  [("/wd/folders/f/a_lab.xml", some_labels)].

(** World 1 is acyclic, hence has an outcome. *)
Lemma world1_points h h' : points_to (url_of world1) (schema_of world1 small_dir) h h' ->
  schema_of world1 small_dir h schema_a /\ schema_of world1 small_dir h' schema_c.
Proof.
  intros (f & f' & F & F' & _ & H).
  assert (E : f = schema_a /\ (h' = "b.xsd" \/ h' = "c.xsd")).
  { assert (HF := F). apply sget_In in HF.
    destruct HF as [HF|[HF|[HF|[]]]]; injection HF as _ <-;
      (destruct H as [[(e & HI & _ & Hh) _]|(ns & e & HI & _ & _ & Hh)]; first [destruct HI as [<-|[]]|destruct HI]); split; auto;
      apply LinkbaseProofs.req_iff in Hh; injection Hh; auto. }
  destruct E as [-> [->| ->]]; [|split; [exact F|reflexivity]].
  destruct H as [[_ (ns & HN)]|(ns & e & HI & _ & _ & Hh)].
  - exfalso. vm_compute in F'. injection F' as <-. apply LinkbaseProofs.req_iff in HN. discriminate.
  - destruct HI as [<-|[]]. apply LinkbaseProofs.req_iff in Hh. discriminate.
Qed.
Lemma world1_acyclic : acyclic (url_of world1) (schema_of world1 small_dir) (if_schemaRef (an_instance ["a.xsd"])).
Proof.
  intros h f _. constructor. intros h1 P1. apply world1_points in P1 as [_ P1]. constructor. intros h2 P2.
  apply world1_points in P2 as [P2 _]. unfold schema_of in *. rewrite P1 in P2. discriminate.
Qed.
Lemma acyclic_outcome w dir name images file i : entry_instance w dir name file i ->
  acyclic (url_of w) (schema_of w dir) (if_schemaRef i) -> exists fd, discover w dir (Ok name) images (Ok fd).
Proof.
  intros EI A. destruct (acc_joins w dir _ (acyclic_acc w dir i (first_folder w dir name) A)) as (s & R & J).
  eexists. apply (discover_iff _ _ _ _ _ _ _ EI). exists s. split; [exact R|]. split; auto.
Qed.

Example C68_example : exists fd, discover world1 small_dir (Ok "x.xml") false (Ok fd) /\
  In ("a.xsd", schema_a) (fdSchemas fd) /\ In ("c.xsd", schema_c) (fdSchemas fd) /\ In ("a_lab.xml", some_labels) (fdLabel fd).
Proof.
  destruct (acyclic_outcome world1 small_dir "x.xml" false "x.xml" _ (small_entry _ _ _) world1_acyclic) as [fd D].
  exists fd. split; auto. destruct (C68_exact_partial _ _ _ _ _ _ _ (small_entry _ _ _) D) as [H1 H2].
  assert (F : followed (url_of world1) (schema_of world1 small_dir) (if_schemaRef (an_instance ["a.xsd"])) "a.xsd" schema_a).
  { apply (follow_ref _ _ _ _ _ "urn:a"); [|discriminate|reflexivity|req_tac]. eexists. split; [left; reflexivity|]. split; [reflexivity|req_tac]. }
  split; [now apply H1|]. split.
  - apply H1. apply (follow_import _ _ _ schema_a "a.xsd" _ _ "urn:c"); [exact F| |discriminate|reflexivity].
    eexists. split; [left; reflexivity|]. split; [reflexivity|split; req_tac].
  - apply (H2 Labels). exists "a.xsd", schema_a. split; [exact F|]. split; [|split; [discriminate|reflexivity]].
    do 3 eexists. split; [left; reflexivity|]. split; [reflexivity|]. split; [left; reflexivity|]. split; [reflexivity|].
    split; [left; reflexivity|]. split; [reflexivity|]. split; [xlink_tac|]. split; [xlink_tac|]. split; xlink_tac.
Qed.

(** An included schema without a target namespace takes that of the
    including schema; it is reachable, and never loaded. *)
Theorem C68_refuted : exists w dir name images file i h f,
  entry_instance w dir name file i /\ reachable (url_of w) (schema_of w dir) (if_schemaRef i) h f /\
  (exists fd, discover w dir (Ok name) images (Ok fd)) /\
  forall fd, discover w dir (Ok name) images (Ok fd) -> forall f', ~ In (h, f') (fdSchemas fd).
Proof.
  exists world1, small_dir, "x.xml", false, "x.xml", (an_instance ["a.xsd"]), "b.xsd", schema_chameleon.
  split; [apply small_entry|]. split.
  { apply (reach_include _ _ _ schema_a "a.xsd"); [| |discriminate|reflexivity].
    - apply reach_ref; [|discriminate|reflexivity]. eexists. split; [left; reflexivity|]. split; [reflexivity|req_tac].
    - eexists. split; [left; reflexivity|]. split; [reflexivity|req_tac]. }
  split; [exact (acyclic_outcome world1 small_dir "x.xml" false "x.xml" _ (small_entry _ _ _) world1_acyclic)|].
  intros fd D f' HI. apply (C68_exact_partial _ _ _ _ _ _ _ (small_entry _ _ _) D) in HI.
  inversion HI as [? ? ns H1 H2 H3 H4|g h0 ? ? ns F H1 H2 H3 H4|g h0 ? ? ns F H1 H2 H3]; subst.
  - destruct H1 as (e & [<-|[]] & _ & Hh). apply LinkbaseProofs.req_iff in Hh. discriminate.
  - vm_compute in H3. injection H3 as <-. apply LinkbaseProofs.req_iff in H4. discriminate.
  - apply followed_file in F as [F _]. vm_compute in H3. injection H3 as <-.
    assert (P : points_to (url_of world1) (schema_of world1 small_dir) h0 "b.xsd").
    { exists g, schema_chameleon. split; [exact F|]. split; [reflexivity|]. split; [discriminate|]. right. eauto. }
    apply world1_points in P as [_ P]. vm_compute in P. discriminate.
Qed.
Print Assumptions C68_refuted.

(** ** C69 *)

(** A schema that includes itself: Discover never returns. *)
Definition schema_loop := SchemaFile [a_attr "targetNamespace" "urn:a"] [an_include "a.xsd"] [] [] [].
Definition world2 := small_world (an_instance ["a.xsd"]) [("/wd/folders/f/a.xsd", schema_loop)] [].
Lemma self_loop {A} (R : A -> A -> Prop) x : R x x -> ~ Acc R x.
Proof. intros H A0. induction A0 as [x _ IH]. exact (IH x H H). Qed.
Lemma world2_cyclic : ~ acyclic (url_of world2) (schema_of world2 small_dir) (if_schemaRef (an_instance ["a.xsd"])).
Proof.
  intros A. assert (T : target_namespace schema_loop "urn:a") by req_tac.
  assert (N : ~ url_of world2 "a.xsd") by discriminate.
  assert (F : schema_of world2 small_dir "a.xsd" schema_loop) by reflexivity.
  assert (E : ends (url_of world2) (schema_of world2 small_dir) "a.xsd").
  { apply (A "a.xsd" schema_loop). apply (follow_ref _ _ _ _ _ "urn:a"); auto.
    eexists. split; [left; reflexivity|]. split; [reflexivity|req_tac]. }
  revert E. apply self_loop. exists schema_loop, schema_loop. split; auto. split; auto. split; auto. left. split; [|eauto].
  eexists. split; [left; reflexivity|]. split; [reflexivity|req_tac].
Qed.
Theorem C69_refuted : exists w dir name file i,
  entry_instance w dir name file i /\
  forall images o, ~ discover w dir (Ok name) images o.
Proof.
  exists world2, small_dir, "x.xml", "x.xml", (an_instance ["a.xsd"]). split; [apply small_entry|].
  intros images o D. apply (discover_iff _ _ _ _ _ _ _ (small_entry _ _ _)) in D as (s & R & J & _).
  exact (world2_cyclic (joined_acyclic _ _ _ _ _ R J)).
Qed.
Print Assumptions C69_refuted.

(** Without endless chains of references no schedule is endless, and every
    schedule can be carried on until Discover returns the folder. *)
Theorem C69_acyclic_partial : forall w dir name images file i fd,
  entry_instance w dir name file i -> acyclic (url_of w) (schema_of w dir) (if_schemaRef i) ->
  (~ exists r : nat -> state, r 0 = schema_ref w dir fd i /\ forall n, fstep w dir (r n) (r (S n))) /\
  (forall s, fruns w dir (schema_ref w dir fd i) s -> joined s \/ exists s', fstep w dir s s') /\
  (exists fd', discover w dir (Ok name) images (Ok fd')).
Proof.
  intros w dir name images file i fd EI A. split; [apply acc_no_run; now apply acyclic_acc|].
  split; [intros s _; apply state_progress|]. eapply acyclic_outcome; eauto.
Qed.
Print Assumptions C69_acyclic_partial.

(** That is exactly when Discover returns at all. *)
Theorem C69_exact_partial : forall w dir name images file i,
  entry_instance w dir name file i ->
  ((exists o, discover w dir (Ok name) images o) <-> acyclic (url_of w) (schema_of w dir) (if_schemaRef i)).
Proof.
  intros w dir name images file i EI. split.
  - intros [o D]. apply (discover_iff _ _ _ _ _ _ _ EI) in D as (s & R & J & _). eapply joined_acyclic; eauto.
  - intros A. destruct (acyclic_outcome _ _ _ images _ _ EI A) as [fd D]. eauto.
Qed.
Print Assumptions C69_exact_partial.

Example C69_example : entry_instance world1 small_dir "x.xml" "x.xml" (an_instance ["a.xsd"]) /\
  acyclic (url_of world1) (schema_of world1 small_dir) (if_schemaRef (an_instance ["a.xsd"])).
Proof. split; [apply small_entry|apply world1_acyclic]. Qed.

(** ** C70 *)

(** The lookups in a discovered folder *)
Definition lookups (w : files) (global : string -> res schema_file) (fd : folder) : qenv :=
  QEnv (fdNamespaces fd) (fdSchemas fd) (is_url w) global.

(** A concept of a discovered schema is found by name if no other document is
    given as the one for its namespace. *)
Theorem C70_one_document_partial : forall w dir name images file i fd global h f ns cs c,
  entry_instance w dir name file i -> discover w dir (Ok name) images (Ok fd) ->
  followed (url_of w) (schema_of w dir) (if_schemaRef i) h f -> target_namespace f ns -> h <> "" ->
  claims (url_of w) (schema_of w dir) (if_schemaRef i) ns h ->
  (forall h', claims (url_of w) (schema_of w dir) (if_schemaRef i) ns h' -> h' = h) ->
  concepts_of f h cs -> unique_names cs -> In c cs ->
  name_query (lookups w global fd) ns (nlocal (cXMLName c)) = Ok (Some (h ++ "#" ++ cID c, c)).
Proof.
  intros w dir name images file i fd global h f ns cs c EI D F T Nh CL CU CO UN HI.
  destruct (outcome_exact _ _ _ _ _ _ _ EI D) as (H1 & _ & H3 & H4 & M1 & M2 & _).
  apply name_query_iff; [split; auto|]. exists h, f, cs.
  destruct (H4 _ _ CL) as [h' Hh']. assert (h' = h) as -> by (apply CU; auto).
  split; auto. split; auto. split.
  { right. split; [|left; now apply H1]. apply followed_file in F as [_ F]. cbn. now apply url_false. }
  split; auto. split; [|reflexivity].
  assert (EN : forall x, In x cs -> nspace (cXMLName x) = ns).
  { intros x Hx. destruct (image_of_In _ _ _ x CO Hx) as (e & He & DC).
    destruct (dc_ns _ _ _ _ DC) as [(a & Ha & E)|[NA _]].
    - destruct T as [(b & Hb & E') _]. rewrite (the_attr_fun _ _ _ _ Ha Hb) in E. congruence.
    - destruct T as [(b & Hb & E') _]. exfalso. exact (no_the_attr _ _ b NA Hb). }
  apply in_split in HI as (l1 & l2 & ->). exists l1, l2. split; auto. split.
  - rewrite <- (EN c) by (apply in_or_app; right; now left). now destruct (cXMLName c).
  - intros y Hy E. unfold unique_names in UN. rewrite map_app in UN. cbn in UN. apply NoDup_remove_2 in UN. apply UN.
    apply in_or_app. left. apply in_map_iff. exists y. split; auto. now rewrite E.
Qed.
Print Assumptions C70_one_document_partial.

(** An include moves the namespace to the included document: the concepts of
    the including schema are then not found, on any schedule. *)
Definition schema_b := SchemaFile [a_attr "targetNamespace" "urn:a"] [] [] [] [a_concept "B"].
Definition schema_inc := SchemaFile [a_attr "targetNamespace" "urn:a"] [an_include "b.xsd"] [] [] [a_concept "A"].
Definition world3 := small_world (an_instance ["a.xsd"])
  [("/wd/folders/f/a.xsd", schema_inc); ("/wd/folders/f/b.xsd", schema_b)] [].
Definition fd0 := first_folder world3 small_dir "x.xml".
Definition fd1 := set_namespace "urn:a" "a.xsd" fd0.
Definition fd2 := set_namespace "urn:a" "b.xsd" fd1.
Definition fd3 := set_schema "b.xsd" schema_b fd2.
Definition fd4 := set_schema "a.xsd" schema_inc fd3.
Definition world3_states : list state :=
  [(fd0, [Run (Claim "urn:a" "a.xsd" (Load "a.xsd" schema_inc))]);
   (fd1, [Run (Load "a.xsd" schema_inc)]);
   (fd1, [Wait [Run (Claim "urn:a" "b.xsd" (Load "b.xsd" schema_b))] "a.xsd" schema_inc]);
   (fd2, [Wait [Run (Load "b.xsd" schema_b)] "a.xsd" schema_inc]);
   (fd2, [Wait [Wait [] "b.xsd" schema_b] "a.xsd" schema_inc]);
   (fd3, [Wait [Finished] "a.xsd" schema_inc]);
   (fd4, [Finished])].
Lemma world3_closed x : In x world3_states -> forall y, In y (lsucc world3 small_dir (fst x) [] (snd x)) -> In y world3_states.
Proof.
  intros Hx y Hy. unfold world3_states in *. cbn [In] in Hx.
  destruct Hx as [<-|[<-|[<-|[<-|[<-|[<-|[<-|[]]]]]]]]; vm_compute in Hy; destruct Hy as [<-|[]] || destruct Hy.
  - right; left; reflexivity.
  - do 2 right; left; reflexivity.
  - do 3 right; left; reflexivity.
  - do 4 right; left; reflexivity.
  - do 5 right; left; reflexivity.
  - do 6 right; left; reflexivity.
Qed.
Lemma world3_outcome images fd : discover world3 small_dir (Ok "x.xml") images (Ok fd) <-> fd = finish "x.xml" (an_instance ["a.xsd"]) fd4.
Proof.
  rewrite (discover_iff world3 small_dir "x.xml" images "x.xml" (an_instance ["a.xsd"]) _ (small_entry _ _ _)). split.
  - intros (s & R & J & [= ->]). apply (closed_runs world3 small_dir world3_states) in R; [|apply world3_closed|left; reflexivity].
    cbn [world3_states In] in R.
    destruct R as [<-|[<-|[<-|[<-|[<-|[<-|[<-|[]]]]]]]]; try (inversion J; discriminate). reflexivity.
  - intros ->. exists (fd4, [Finished]). split; [|split; [repeat constructor|reflexivity]].
    assert (S : forall fd p fd' p' s0, fruns world3 small_dir s0 (fd, [p]) -> pstep world3 small_dir fd p fd' p' -> fruns world3 small_dir s0 (fd', [p'])).
    { intros fd p fd' p' s0 R H. eapply fruns_step; [exact R|]. apply (fstep_one world3 small_dir fd fd' [] p p' [] H). }
    eapply S; [|apply (step_joined _ _ fd3 [Finished]); repeat constructor].
    eapply S; [|apply (step_child _ _ fd2 fd3 [] (Wait [] "b.xsd" schema_b) Finished []); apply step_joined; constructor].
    eapply S; [|apply (step_child _ _ fd2 fd2 [] (Run (Load "b.xsd" schema_b)) _ []); apply (step_load world3 small_dir fd2 "b.xsd" schema_b)].
    eapply S; [|apply (step_child _ _ fd1 fd2 [] (Run (Claim "urn:a" "b.xsd" (Load "b.xsd" schema_b))) _ []); apply step_claim].
    eapply S; [|apply (step_load world3 small_dir fd1 "a.xsd" schema_inc)]. eapply S; [|apply step_claim]. constructor.
Qed.
Theorem C70_refuted : exists w dir name images file i h f ns c,
  entry_instance w dir name file i /\
  followed (url_of w) (schema_of w dir) (if_schemaRef i) h f /\ target_namespace f ns /\
  (exists cs, concepts_of f h cs /\ unique_names cs /\ In c cs) /\
  (exists fd, discover w dir (Ok name) images (Ok fd)) /\
  forall fd global, discover w dir (Ok name) images (Ok fd) ->
    name_query (lookups w global fd) ns (nlocal (cXMLName c)) = Ok None.
Proof.
  exists world3, small_dir, "x.xml", false, "x.xml", (an_instance ["a.xsd"]), "a.xsd", schema_inc, "urn:a".
  exists (Concept (XName "urn:a" "A") "id_A" (XName "" "t") (XName "" "") false "" "" false "").
  split; [apply small_entry|]. split.
  { apply (follow_ref _ _ _ _ _ "urn:a"); [|discriminate|reflexivity|req_tac].
    eexists. split; [left; reflexivity|]. split; [reflexivity|req_tac]. }
  split; [req_tac|]. split.
  { exists (hydrate_concepts schema_inc "a.xsd"). split; [apply hydrate_concepts_image|].
    split; [repeat constructor; auto|]. now left. }
  split; [eexists; now apply world3_outcome|].
  intros fd global D. apply world3_outcome in D. subst fd. reflexivity.
Qed.
Print Assumptions C70_refuted.

(** The theorem above applies to c.xsd of the first example. *)
Example C70_example : exists fd, discover world1 small_dir (Ok "x.xml") false (Ok fd) /\
  exists c, name_query (lookups world1 (fun _ => Err "") fd) "urn:c" "C" = Ok (Some ("c.xsd#id_C", c)).
Proof.
  destruct C68_example as (fd & D & _). exists fd. split; auto.
  assert (A : followed (url_of world1) (schema_of world1 small_dir) (if_schemaRef (an_instance ["a.xsd"])) "a.xsd" schema_a).
  { apply (follow_ref _ _ _ _ _ "urn:a"); [|discriminate|reflexivity|req_tac].
    eexists. split; [left; reflexivity|]. split; [reflexivity|req_tac]. }
  assert (I : imports_for schema_a "urn:c" "c.xsd").
  { eexists. split; [left; reflexivity|]. split; [reflexivity|split; req_tac]. }
  eexists. apply (C70_one_document_partial world1 small_dir "x.xml" false "x.xml" (an_instance ["a.xsd"]) fd (fun _ => Err "") "c.xsd" schema_c "urn:c"
    (hydrate_concepts schema_c "c.xsd") (Concept (XName "urn:c" "C") "id_C" (XName "" "t") (XName "" "") false "" "" false "")).
  - apply small_entry.
  - exact D.
  - apply (follow_import _ _ _ schema_a "a.xsd" _ _ "urn:c"); [exact A|exact I|discriminate|reflexivity].
  - req_tac.
  - discriminate.
  - eapply claim_import; eauto.
  - intros h' C. inversion C as [? f ? H1 H2 H3 H4|g h0 ? f ? F H1 H2 H3 H4|g h0 ? ? F H1]; subst.
    + destruct H1 as (e & [<-|[]] & _ & Hh). apply LinkbaseProofs.req_iff in Hh. injection Hh as <-.
      vm_compute in H3. injection H3 as <-. apply LinkbaseProofs.req_iff in H4. discriminate.
    + apply followed_file in F as [F _]. apply sget_In in F. destruct F as [F|[F|[F|[]]]]; injection F as _ <-.
      * destruct H1 as (e & [<-|[]] & _ & Hh). apply LinkbaseProofs.req_iff in Hh. injection Hh as <-.
        vm_compute in H3. injection H3 as <-. apply LinkbaseProofs.req_iff in H4. discriminate.
      * now destruct H1 as (e & [] & _).
      * now destruct H1 as (e & [] & _).
    + apply followed_file in F as [F _]. apply sget_In in F. destruct F as [F|[F|[F|[]]]]; injection F as _ <-.
      * destruct H1 as (e & [<-|[]] & _ & _ & Hh). apply LinkbaseProofs.req_iff in Hh. now injection Hh.
      * now destruct H1 as (e & [] & _).
      * now destruct H1 as (e & [] & _).
  - apply hydrate_concepts_image.
  - repeat constructor; auto.
  - now left.
Qed.

(** ** C99 *)

(** An inline document that cannot be decoded, in a folder with an image *)
Theorem C99_refuted : exists w dir name,
  discover w dir (Ok name) true Panic /\ forall o, discover w dir (Ok name) true o -> o = Panic.
Proof.
  exists (Files (fun _ => false) (fun _ => None) (fun _ _ => None) (fun _ => None) (fun _ => Some "<") (fun _ => true) (fun _ => None)),
    small_dir, "x.htm".
  split.
  - eapply disc_htm; [reflexivity|now right|]. eapply htm_nil; reflexivity.
  - intros o D. inversion D as [m E|n' o' E HE HD|n' o' E HE HD|n' E E1 E2 E3 E4]; subst.
    + discriminate.
    + injection E as <-. inversion HD; subst; cbn in *; try discriminate; reflexivity.
    + injection E as <-. destruct HE; discriminate.
    + injection E as <-. now elim E2.
Qed.
Print Assumptions C99_refuted.

(** In a folder without images, and in one whose inline document can be
    decoded, it never happens. *)
Theorem C99_decodable_partial : forall w dir entry images,
  entry <> Panic ->
  images = false \/ (forall name data, entry = Ok name -> read_file w (join [dir; name]) = Some data -> decode_ixbrl w data <> None) ->
  ~ discover w dir entry images Panic.
Proof.
  intros w dir entry images N H D. inversion D as [m E|n' o' E HE HD|n' o' E HE HD|n' E E1 E2 E3 E4]; subst.
  - inversion HD as [| data H1 H2 H3 | | | data doc o H1 H2 H3 H4]; subst.
    + destruct H as [H|H]; [discriminate|]. now apply (H n' data).
    + inversion H4.
  - inversion HD.
Qed.
Print Assumptions C99_decodable_partial.

Example C99_example : ~ discover world1 small_dir (Ok "x.xml") true Panic.
Proof. apply C99_decodable_partial; [discriminate|]. right. intros name data _ H. discriminate. Qed.

(** ** C100 *)

(** Two schemas of the same namespace: which one stands for it is decided by
    the scheduler. *)
Definition world4 := small_world (an_instance ["a.xsd"; "b.xsd"])
  [("/wd/folders/f/a.xsd", SchemaFile [a_attr "targetNamespace" "urn:a"] [] [] [] [a_concept "A"]);
   ("/wd/folders/f/b.xsd", SchemaFile [a_attr "targetNamespace" "urn:a"] [] [] [] [a_concept "B"])] [].
Theorem C100_refuted : exists w dir name images file i fd fd' ns h h',
  entry_instance w dir name file i /\
  discover w dir (Ok name) images (Ok fd) /\ discover w dir (Ok name) images (Ok fd') /\
  In (ns, h) (fdNamespaces fd) /\ In (ns, h') (fdNamespaces fd') /\ h <> h' /\
  is_map (fdNamespaces fd) /\ is_map (fdNamespaces fd').
Proof.
  set (f0 := first_folder world4 small_dir "x.xml").
  set (sa := SchemaFile [a_attr "targetNamespace" "urn:a"] [] [] [] [a_concept "A"]).
  set (sb := SchemaFile [a_attr "targetNamespace" "urn:a"] [] [] [] [a_concept "B"]).
  pose proof (fruns_refl world4 small_dir (schema_ref world4 small_dir f0 (an_instance ["a.xsd"; "b.xsd"]))) as R.
  assert (R1 := leaf_runs world4 small_dir _ _ [] [_] "urn:a" "a.xsd" sa eq_refl R).
  apply (leaf_runs world4 small_dir _ _ [Finished] [] "urn:a" "b.xsd" sb eq_refl) in R1.
  assert (R2 := leaf_runs world4 small_dir _ _ [_] [] "urn:a" "b.xsd" sb eq_refl R).
  apply (leaf_runs world4 small_dir _ _ [] [Finished] "urn:a" "a.xsd" sa eq_refl) in R2.
  exists world4, small_dir, "x.xml", false, "x.xml", (an_instance ["a.xsd"; "b.xsd"]). do 2 eexists.
  exists "urn:a", "b.xsd", "a.xsd". split; [apply small_entry|].
  split; [apply (discover_iff _ _ _ _ _ _ _ (small_entry _ _ _)); eexists; split; [exact R1|]; split; [repeat constructor|reflexivity]|].
  split; [apply (discover_iff _ _ _ _ _ _ _ (small_entry _ _ _)); eexists; split; [exact R2|]; split; [repeat constructor|reflexivity]|].
  split; [now left|]. split; [now left|]. split; [discriminate|]. split; repeat constructor; auto.
Qed.
Print Assumptions C100_refuted.

(** Each namespace that is given a document is mapped to one it is given; so
    the map is the same on every schedule where each is given only one. *)
Theorem C100_one_claim_partial : forall w dir name images file i fd,
  entry_instance w dir name file i -> discover w dir (Ok name) images (Ok fd) ->
  is_map (fdNamespaces fd) /\
  (forall ns h, In (ns, h) (fdNamespaces fd) -> claims (url_of w) (schema_of w dir) (if_schemaRef i) ns h) /\
  (forall ns h, claims (url_of w) (schema_of w dir) (if_schemaRef i) ns h -> exists h', In (ns, h') (fdNamespaces fd)) /\
  (forall fd', discover w dir (Ok name) images (Ok fd') ->
     (forall ns h h', claims (url_of w) (schema_of w dir) (if_schemaRef i) ns h ->
                      claims (url_of w) (schema_of w dir) (if_schemaRef i) ns h' -> h = h') ->
     same_elements (fdNamespaces fd) (fdNamespaces fd')).
Proof.
  intros w dir name images file i fd EI D. destruct (outcome_exact _ _ _ _ _ _ _ EI D) as (_ & _ & H3 & H4 & M & _).
  split; auto. split; auto. split; auto. intros fd' D' U.
  destruct (outcome_exact _ _ _ _ _ _ _ EI D') as (_ & _ & H3' & H4' & _).
  intros [ns h]. split; intros HI.
  - assert (C := H3 _ _ HI). destruct (H4' _ _ C) as [h' HI']. now rewrite (U _ _ _ C (H3' _ _ HI')).
  - assert (C := H3' _ _ HI). destruct (H4 _ _ C) as [h' HI']. now rewrite (U _ _ _ C (H3 _ _ HI')).
Qed.
Print Assumptions C100_one_claim_partial.

Example C100_example : exists fd, discover world3 small_dir (Ok "x.xml") true (Ok fd) /\
  fdNamespaces fd = [("urn:a", "b.xsd")].
Proof. eexists. split; [now apply world3_outcome|reflexivity]. Qed.

(** ** C101 *)

(** A reference with .. reads a file of another folder. *)
Definition world5 := small_world (an_instance ["../other/a.xsd"])
  [("/wd/folders/other/a.xsd", SchemaFile [a_attr "targetNamespace" "urn:a"] [] [] [] [a_concept "A"])] [].
Theorem C101_refuted : exists w dir name images file i fd h f ldir l,
  entry_instance w dir name file i /\ discover w dir (Ok name) images (Ok fd) /\
  In (h, f) (fdSchemas fd) /\ leads_to dir ldir /\ leads_to (dir ++ "/" ++ h) l /\ ~ inside ldir l /\
  forall path, (forall l', leads_to path l' -> inside ldir l') -> read_schema w path = None.
Proof.
  set (f0 := first_folder world5 small_dir "x.xml").
  set (sa := SchemaFile [a_attr "targetNamespace" "urn:a"] [] [] [] [a_concept "A"]).
  pose proof (fruns_refl world5 small_dir (schema_ref world5 small_dir f0 (an_instance ["../other/a.xsd"]))) as R.
  apply (leaf_runs world5 small_dir _ _ [] [] "urn:a" "../other/a.xsd" sa eq_refl) in R.
  exists world5, small_dir, "x.xml", false, "x.xml", (an_instance ["../other/a.xsd"]). eexists.
  exists "../other/a.xsd", sa. do 2 eexists. split; [apply small_entry|].
  split; [apply (discover_iff _ _ _ _ _ _ _ (small_entry _ _ _)); eexists; split; [exact R|]; split; [repeat constructor|reflexivity]|].
  split; [now left|]. split; [apply leads_to_iff; reflexivity|]. split; [apply leads_to_iff; reflexivity|].
  split; [intros (more & E); vm_compute in E; discriminate|].
  intros path H. destruct (string_dec "/wd/folders/other/a.xsd" path) as [<-|N].
  2:{ apply String.eqb_neq in N. unfold world5, small_world, sget. cbn [read_schema mget]. now rewrite N. }
  exfalso. specialize (H _ (proj2 (leads_to_iff _ _) eq_refl)). destruct H as (more & E). vm_compute in E. discriminate.
Qed.
Print Assumptions C101_refuted.

(** The file for a reference without .. is below the folder, and so is the
    file of the entry. *)
Lemma join_below dir h : dir <> "" -> h <> "" -> no_parent h ->
  forall l ldir, leads_to dir ldir -> (leads_to (join [dir; h]) l -> inside ldir l).
Proof.
  intros Nd Nh NP l ldir Hd Hl. apply leads_to_iff in Hd, Hl. subst ldir l.
  assert (E : join [dir; h] = clean (dir ++ String "/" h)) by (unfold join; destruct dir, h; try contradiction; reflexivity).
  rewrite E, clean_text, place_text by apply place_ok. rewrite place_glue by auto.
  rewrite fold_no_parent; [eexists; reflexivity|apply WebProofs.split_free|now apply no_parent_iff].
Qed.
Theorem C101_inside_partial : forall w dir name images file i fd ldir,
  entry_instance w dir name file i -> discover w dir (Ok name) images (Ok fd) -> dir <> "" -> leads_to dir ldir ->
  (forall h f, In (h, f) (fdSchemas fd) -> no_parent h ->
     exists path, read_schema w path = Some f /\ forall l, leads_to path l -> inside ldir l) /\
  (forall k h x, In (h, x) (holds_linkbases fd k) -> no_parent h ->
     exists path, read_linkbase w k path = Some x /\ forall l, leads_to path l -> inside ldir l) /\
  (no_parent file -> forall l, leads_to (join [dir; file]) l -> inside ldir l).
Proof.
  intros w dir name images file i fd ldir EI D Nd Hd. destruct (C68_exact_partial _ _ _ _ _ _ _ EI D) as [H1 H2].
  split; [|split].
  - intros h f HI NP. apply H1 in HI. assert (Nh : h <> "").
    { destruct HI as [? ? ? (e & _ & _ & HN)|? ? ? ? ? ? (e & _ & _ & HN)|? ? ? ? ? ? (e & _ & _ & _ & HN)]; apply HN. }
    apply followed_file in HI as [HI _]. exists (join [dir; h]). split; [exact HI|]. intros l. now apply join_below.
  - intros k h x HI NP. apply H2 in HI as (h0 & g & _ & (an & ai & e & _ & _ & _ & _ & _ & _ & _ & _ & _ & HN) & _ & HI).
    exists (join [dir; h]). split; [exact HI|]. intros l. apply join_below; auto. apply HN.
  - intros NP l. apply join_below; auto. destruct EI as (EF & _). destruct EF as [[_ ->]|[IN ->]].
    + intros E. now destruct name.
    + intros ->. destruct IN as [[st E]|[st E]]; now destruct st.
Qed.
Print Assumptions C101_inside_partial.

Example C101_example : exists fd, discover world1 small_dir (Ok "x.xml") true (Ok fd) /\ In ("a.xsd", schema_a) (fdSchemas fd) /\ no_parent "a.xsd".
Proof.
  destruct (acyclic_outcome world1 small_dir "x.xml" true "x.xml" _ (small_entry _ _ _) world1_acyclic) as [fd D].
  exists fd. split; auto. split; [|apply no_parent_iff; cbn; intuition discriminate].
  apply (C68_exact_partial _ _ _ _ _ _ _ (small_entry _ _ _) D).
  apply (follow_ref _ _ _ _ _ "urn:a"); [|discriminate|reflexivity|req_tac]. eexists. split; [left; reflexivity|]. split; [reflexivity|req_tac].
Qed.

(** ** C102 *)

(** An entry file name with another suffix, such as .XML or .html, gives an
    empty folder and no error. *)
Theorem C102_refuted : forall w dir images, exists name fd,
  discover w dir (Ok name) images (Ok fd) /\ fdInstances fd = [] /\ fdSchemas fd = [] /\ fdDocument fd = None.
Proof.
  intros w dir images. exists "report.XML". eexists. split; [apply (disc_other _ _ _ _ "report.XML"); try reflexivity; discriminate|]. auto.
Qed.
Print Assumptions C102_refuted.

(** Otherwise Discover succeeds only with the entry's instance, and the
    inline document where there is one. *)
Theorem C102_instance_partial : forall w dir name images fd,
  inline_name name \/ instance_name name -> discover w dir (Ok name) images (Ok fd) ->
  exists file i, entry_instance w dir name file i /\ fdInstances fd = [(file, i)] /\
    (inline_name name -> exists data doc, read_file w (join [dir; name]) = Some data /\ decode_ixbrl w data = Some doc /\ fdDocument fd = Some doc) /\
    (instance_name name -> fdDocument fd = None).
Proof.
  intros w dir name images fd HN D.
  assert (K : forall fd0 i s, fruns w dir (schema_ref w dir fd0 i) s -> fdInstances (fst s) = fdInstances fd0 /\ fdDocument (fst s) = fdDocument fd0).
  { intros f0 i s R. remember (schema_ref w dir f0 i) as s0 eqn:E. induction R as [s|s s' s'' R IH H]; [subst; auto|].
    specialize (IH E). destruct IH as [<- <-]. destruct H as [f1 f2 a p p' b H]. cbn. clear -H.
    induction H; auto. destruct k; auto. }
  assert (X : inline_name name -> instance_name name -> False).
  { intros A B. apply inline_iff in A. apply instance_iff in B. destruct A, B; congruence. }
  inversion D as [m E|n' o' E HE HD|n' o' E HE HD|n' E E1 E2 E3 E4]; subst; try discriminate; injection E as <-.
  - apply inline_iff in HE. inversion HD as [| | | |data doc o H1 H2 H3 H4]; subst. inversion H4 as [|i s H5 R J]; subst.
    destruct (K _ _ _ R) as [K1 K2]. exists (name ++ ".xml"), i. split.
    { split; [now left; split|]. split; auto. intros _. exists data, doc. auto. }
    cbn. rewrite K1, K2. split; [reflexivity|]. split; [intros _; exists data, doc; auto|]. intros B. now elim X.
  - apply instance_iff in HE. inversion HD as [|i s H5 R J]; subst.
    destruct (K _ _ _ R) as [K1 K2]. exists name, i. split.
    { split; [now right; split|]. split; auto. intros B. now elim X. }
    cbn. rewrite K1, K2. split; [reflexivity|]. split; [intros B; now elim X|auto].
  - exfalso. destruct HN as [HN|HN]; [apply inline_iff in HN|apply instance_iff in HN]; destruct HN; congruence.
Qed.
Print Assumptions C102_instance_partial.

Example C102_example : instance_name "x.xml" /\ exists fd, discover world3 small_dir (Ok "x.xml") true (Ok fd) /\
  fdInstances fd = [("x.xml", an_instance ["a.xsd"])].
Proof. split; [right; now exists "x"|]. eexists. split; [now apply world3_outcome|reflexivity]. Qed.
