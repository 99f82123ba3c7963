(** Theorems about folders being independent of each other. *)
From Coq Require Import Strings.String Strings.Ascii Lists.List Bool.
From Verif Require Import GoBase GoSpec GoFacts PathSpec PathModel PathProofs AttrModel SchemaModel SchemaSpec LinkbaseModel LinkbaseSpec LinkbaseProps InstanceModel InstanceProps HydrateModel
  DiscoverModel DiscoverSpec DiscoverProofs DiscoverProps XmlModel XmlSpec XmlProps LoadModel LoadSpec LoadProofs LoadProps ImageModel ReportModel EndToEndProps ReportProps ServerModel ServerSpec ServerProps
  IsolateSpec IsolateProofs.
From Verif Require CacheModel CacheSpec CacheProofs CacheProps.
Import ListNotations.
Local Open Scope string_scope.

(** ** C132: a folder's answers depend on its own files only *)
Section World.
  Variables w w' : world.
  Variable id : string.
  Hypothesis S : same_folder w w' id.
  Hypothesis C : confined w id.
  Notation sv := (services_of w).
  Notation sv' := (services_of w').
  Lemma discovered_iff r : discovered w' id r <-> discovered w id r.
  Proof.
    split; intro D.
    - apply (same_discovered w' w id); auto; [now apply same_back|now apply (same_confined w w' id)].
    - now apply (same_discovered w w' id).
  Qed.
  Lemma services_same : exists d, sv' = CacheModel.Services d (CacheModel.hydrate sv) (CacheModel.hydrate_dies sv) (CacheModel.folder_of sv) (CacheModel.entry_name sv)
    (CacheModel.doc_bytes sv) (CacheModel.catalog sv) (CacheModel.renderable sv) (CacheModel.renderable_dies sv) (CacheModel.expressable sv)
    (CacheModel.global_schema sv) (CacheModel.entity_names sv) (CacheModel.unit_registry sv).
  Proof. destruct S as (f&s&l&->&_). eexists. reflexivity. Qed.
  Lemma discover_iff' r : CacheModel.discover sv' id r <-> CacheModel.discover sv id r.
  Proof. apply discovered_iff. Qed.
  Lemma hydrated_iff r : CacheSpec.hydrated sv' id r <-> CacheSpec.hydrated sv id r.
  Proof.
    pose proof discover_iff' as D. destruct services_same as (d&E). rewrite E in D |- *. clear E. cbn [CacheModel.discover] in D. split.
    - intros [m H|H|f r' H Y]; apply D in H; [now apply CacheSpec.hy_missing|now apply CacheSpec.hy_panic|now apply CacheSpec.hy_found with f].
    - intros [m H|H|f r' H Y]; apply D in H; [now apply CacheSpec.hy_missing|now apply CacheSpec.hy_panic|now apply CacheSpec.hy_found with f].
  Qed.
  Lemma served_iff P r : CacheSpec.served sv' id P r <-> CacheSpec.served sv id P r.
  Proof.
    unfold CacheSpec.served. split; (intros [(m&Y&E)|[(Y&E)|(h&a&Y&E)]]; apply hydrated_iff in Y; [left|right; left|right; right]; eauto).
  Qed.
  Lemma uncached_iff q r : folder_of_request q = Some id -> (CacheSpec.uncached sv' true q r <-> CacheSpec.uncached sv true q r).
  Proof.
    intro F. destruct q as [i|i slug|i n c| | |]; try discriminate F; injection F as ->; cbn [CacheSpec.uncached].
    - rewrite <- served_iff. destruct services_same as (d&->). reflexivity.
    - rewrite <- served_iff. destruct services_same as (d&->). reflexivity.
    - rewrite <- served_iff. destruct services_same as (d&->). reflexivity.
  Qed.
  Lemma deadly_iff q : folder_of_request q = Some id -> (CacheSpec.deadly sv' q <-> CacheSpec.deadly sv q).
  Proof.
    pose proof discover_iff' as D. pose proof hydrated_iff as Y. intro F.
    assert (K : (exists f, CacheModel.discover sv' id (Ok f) /\ CacheModel.hydrate_dies sv' f) <-> (exists f, CacheModel.discover sv id (Ok f) /\ CacheModel.hydrate_dies sv f)).
    { destruct services_same as (d&E). rewrite E in *. cbn [CacheModel.discover CacheModel.hydrate_dies] in *. split; intros (f&H1&H2); exists f; split; auto; now apply D. }
    destruct q as [i|i slug|i n c| | |]; try discriminate F; injection F as ->; cbn [CacheSpec.deadly]; auto.
    rewrite K. destruct services_same as (d&E). rewrite E in *. clear K.
    split; (intros [H|(h&H&N)]; [now left|right; exists h; split; [now apply Y|exact N]]).
  Qed.
End World.

Lemma answered_request {H S N U} (s : CacheModel.state H S N U) q r : CacheModel.answered s q r -> In q (CacheModel.requests s).
Proof. intro A. apply in_flat_map. eexists. split; [exact A|]. now left. Qed.
Lemma no_collision_one q : CacheSpec.no_collision [q].
Proof. intros i n c i' n' c' [A|[]] [B|[]]. congruence. Qed.

(** Whatever the other folders contain, the same answers can be computed for this one, and
    the same requests for it can end the process; *)
Theorem C132_partial : forall w w' id q, same_folder w w' id -> confined w id -> folder_of_request q = Some id ->
  (forall r, CacheSpec.uncached (services_of w') true q r <-> CacheSpec.uncached (services_of w) true q r) /\ (CacheSpec.deadly (services_of w') q <-> CacheSpec.deadly (services_of w) q).
Proof. intros w w' id q SF CF F. split; [intro r; now apply (uncached_iff w w' id)|now apply (deadly_iff w w' id)]. Qed.
Print Assumptions C132_partial.
(** and whatever has been served, after any history, may be served as the first answer of a
    server with other files elsewhere. *)
Theorem C132_content_partial : forall w w' id s q b, same_folder w w' id -> confined w id ->
  history w s -> folder_of_request q = Some id -> CacheModel.answered s q (Ok (CacheModel.VBytes (Some b))) ->
  exists s', history w' s' /\ CacheModel.requests s' = [q] /\ CacheModel.answered s' q (Ok (CacheModel.VBytes (Some b))).
Proof.
  intros w w' id s q b SF CF H F A.
  assert (UN : CacheSpec.uncached (services_of w) true q (Ok (CacheModel.VBytes (Some b)))).
  { pose proof (uncached_content w s q b H A) as X. destruct q as [i|i slug|i n c| | |]; try discriminate F; destruct X as (rep&Y&M); right; right; exists rep, (Ok (Some b)); auto. }
  apply (uncached_iff w w' id SF CF q _ F) in UN.
  assert (US : CacheSpec.usual q).
  { destruct H as (dry&inj&R&US&_). apply US. now apply answered_request in A. }
  assert (US' : forall q', In q' [q] -> CacheSpec.usual q') by (intros q' [<-|[]]; exact US).
  destruct (CacheProps.C56_attained _ _ _ _ _ (services_of w') false true q _ (CacheProofs.usual_separate _ US' (no_collision_one q)) UN) as (s'&R&RQ&A').
  exists s'. split; auto. exists false, true. split; auto. rewrite RQ. auto using no_collision_one.
Qed.
Print Assumptions C132_content_partial.

(** Refuted for a report that refers to another folder: the catalog of "f" is served, or
    refused, depending on a file of "g". *)
Definition up_doc : tree := xbrl_doc [].
Definition up_disk : disk := small_disk [("/wd/folders/g/x.xml", up_doc)].
Definition up_world : world :=
  World up_disk "/wd" (fun _ => Ok "../g/x.xml") (fun _ => None) (fun _ => "") (fun _ => "") (fun _ => None) (fun _ => None) ex_pf ex_tokens pair_outside.
Definition down_world : world :=
  with_files up_world (fun p => if String.eqb p "/wd/folders/g/x.xml" then None else d_file up_disk p) (d_stat up_disk) (w_list up_world).
Definition up_folder : folder := DiscoverModel.finish "../g/x.xml" (instance_struct up_doc) (first_folder (files_of up_disk) small_dir "../g/x.xml").
Lemma up_discovered : discovered up_world "f" (Ok (Found up_folder None)).
Proof.
  exists (Ok up_folder). split; [|reflexivity].
  assert (EI : entry_instance (files_of up_disk) small_dir "../g/x.xml" "../g/x.xml" (instance_struct up_doc)).
  { apply entry_iff. exists up_doc. split; auto. split; [right; split; auto; right; now exists "../g/x"|]. split.
    - exists "/wd/folders/g/x.xml". split; [reflexivity|]. split; [reflexivity|do 4 eexists; reflexivity].
    - intros [(x&E)|(x&E)]; exfalso.
      + assert (H : has_suffix "../g/x.xml" ".xhtml") by now exists x. apply suffix_xhtml in H. discriminate H.
      + assert (H : has_suffix "../g/x.xml" ".htm") by now exists x. apply suffix_htm in H. discriminate H. }
  apply (discover_iff _ _ _ _ _ _ _ EI). eexists. split; [apply fruns_refl|]. split; [constructor|reflexivity].
Qed.

Definition up_hydrated : res hydratable := hydrate ex_pf plain_order (d_url up_disk) (global_schema_file up_disk) ex_tokens (Ok []) (Ok None) up_folder.
Lemma up_hydrates : exists h, hydrated_as up_world (Found up_folder None) (Ok (Report h None)).
Proof.
  assert (E : exists h, up_hydrated = Ok h) by (vm_compute; eauto). destruct E as (h&E). exists h. exists plain_order, (Ok None). split; [exact plain_orders|]. split; [constructor|].
  split; [discriminate|]. unfold hydrating. cbn [fo_folder fo_bytes]. change (hydrate _ _ _ _ _ _ _ _) with up_hydrated. now rewrite E.
Qed.
Theorem C132_refuted : exists w w' id q, same_folder w w' id /\ folder_of_request q = Some id /\
  (exists s b, history w s /\ CacheModel.answered s q (Ok (CacheModel.VBytes (Some b)))) /\
  (forall s r, history w' s -> CacheModel.answered s q r -> exists m, r = Err m).
Proof.
  exists up_world, down_world, "f", (CacheModel.RCatalog "f"). split; [|split; [reflexivity|split]].
  - do 3 eexists. split; [reflexivity|]. intros path (lf&l&F&P&I). cbn beta. split; [|split]; auto.
    destruct (String.eqb_spec path "/wd/folders/g/x.xml") as [->|]; auto. exfalso.
    apply leads_to_iff in F, P. subst. destruct I as (more&I). vm_compute in I. discriminate I.
  - destruct up_hydrates as (h&Y).
    assert (US : forall q', In q' [CacheModel.RCatalog "f"] -> CacheSpec.usual q') by (intros q' [<-|[]]; cbn; repeat split; discriminate).
    assert (M : exists b, marshalled_catalog (out up_world) h (Ok (Some b))).
    { eexists. exists (map snd (hInstances h)), (map snd (hSchemas h)). split; [apply Permutation.Permutation_refl|]. split; [apply Permutation.Permutation_refl|]. reflexivity. }
    destruct M as (b&M).
    destruct (CacheProps.C56_attained _ _ _ _ _ (services_of up_world) false true (CacheModel.RCatalog "f") (Ok (CacheModel.VBytes (Some b)))
      (CacheProofs.usual_separate _ US (no_collision_one _))) as (s&R&RQ&A).
    { right. right. exists (Report h None), (Ok (Some b)). split; [|auto]. apply CacheSpec.hy_found with (Found up_folder None); [exact up_discovered|exact Y]. }
    exists s, b. split; auto. exists false, true. split; auto. rewrite RQ. auto using no_collision_one.
  - intros s r (dry&inj&R&US&NC) A.
    destruct (CacheProps.C57_discovery_partial _ _ _ _ _ (services_of down_world) dry inj s _ "f" r R (CacheProofs.usual_separate _ US NC) A) as (m&_&->); [now left| |eauto].
    intros d (o&D&->).
    assert (E : exists m, o = Err m); [|destruct E as (m&->); cbn; eauto].
    inversion D as [m E|name o' E X H|name o' E X H|name E X1 X2 X3 X4]; subst; eauto.
    + injection E as <-. destruct X; discriminate.
    + injection E as <-. inversion H as [m E|i st E _ _]; subst; eauto. discriminate E.
    + injection E as <-. exfalso. now apply X4.
Qed.
Print Assumptions C132_refuted.

Lemma plain_name h : existsb (String.eqb "..") (split "/" h) = false -> no_parent h.
Proof.
  intro E. apply no_parent_iff. intro I. assert (X : existsb (String.eqb "..") (split "/" h) = true) by (apply existsb_exists; exists ".."; auto). congruence.
Qed.
Lemma pair_confined : confined pair_world "f".
Proof.
  intros name (b&_&E). cbn in E. injection E as <-. split; [now apply plain_name|]. intros file root EA.
  assert (root = pair_root) as -> by (eapply entry_root; [exact pair_entry|exact EA]). split.
  - intros h (y&Hy&(?&?&?&Ny)&Q). simpl in Hy. repeat destruct Hy as [<-|Hy]; try contradiction; try discriminate Ny.
    apply LinkbaseProofs.req_iff in Q. injection Q as <-. right. now apply plain_name.
  - intros h0 g F. apply pair_followed in F as [_ ->]. split; [|split].
    + intros h (y&Hy&(?&?&?&Ny)&_). simpl in Hy. repeat destruct Hy as [<-|Hy]; try contradiction; discriminate Ny.
    + intros ns h (y&Hy&(?&?&?&Ny)&_). simpl in Hy. repeat destruct Hy as [<-|Hy]; try contradiction; discriminate Ny.
    + intros k h (y&(a&i&Ha&_&Hi&_&Hy)&(?&?&?&Ny)&_&_&_&Q).
      simpl in Ha. repeat destruct Ha as [<-|Ha]; try contradiction; simpl in Hi; repeat destruct Hi as [<-|Hi]; try contradiction;
      simpl in Hy; repeat destruct Hy as [<-|Hy]; try contradiction; try discriminate Ny.
      apply LinkbaseProofs.xreq_iff in Q. injection Q as <-. right. now apply plain_name.
Qed.
Example C132_example : exists w' s b, same_folder pair_world w' "f" /\ d_file (w_disk w') "/wd/folders/g/_" <> d_file (w_disk pair_world) "/wd/folders/g/_" /\
  confined pair_world "f" /\ history pair_world s /\ CacheModel.answered s (CacheModel.RRender "f" pair_slug) (Ok (CacheModel.VBytes (Some b))).
Proof.
  destruct pair_hydrated as (f&D&Y&_). destruct pair_served as (b&B).
  assert (B' : returned_renderable pair_outside pair_report pair_slug (Ok (Some b))) by (inversion B; assumption).
  assert (SL : CatalogSpec.is_slug pair_entity pair_set pair_slug) by apply CatalogProofs.hash_slug. pose proof (slug_part _ _ _ SL) as [SE SF].
  destruct (ask_grid pair_world "f" f pair_report D Y pair_slug ltac:(vm_compute; split; discriminate) _ B') as (c&Q).
  destruct (CacheProps.history_of _ _ _ _ _ Q) as (s&R&_&RQ&A).
  exists (with_files pair_world (fun p => if String.eqb p "/wd/folders/g/_" then Some "" else d_file pair_disk p) (d_stat pair_disk) (w_list pair_world)), s, b.
  split; [|split; [discriminate|split; [exact pair_confined|split]]].
  - do 3 eexists. split; [reflexivity|]. intros path (lf&l&F&P&I). cbn beta. split; [|split]; auto.
    destruct (String.eqb_spec path "/wd/folders/g/_") as [->|]; auto. exfalso.
    apply leads_to_iff in F, P. subst. destruct I as (more&I). vm_compute in I. discriminate I.
  - exists false, true. split; auto. cbn [map fst] in RQ. apply (one_request s pair_slug); auto; apply SE.
  - apply A. left. reflexivity.
Qed.
