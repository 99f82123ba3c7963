(** * EndToEndProps: from the files of a folder to the bytes a client reads *)
From Verif Require Import GoBase GoSpec GoFacts AttrModel AttrSpec AttrProofs SchemaModel SchemaSpec SchemaProofs SchemaProps
  LinkbaseModel LinkbaseSpec LinkbaseProofs LinkbaseProps InstanceModel InstanceSpec InstanceProofs InstanceProps
  HydrateModel HydrateSpec HydrateProofs HydrateProps LabelSpec LabelProofs PathModel DiscoverModel DiscoverSpec DiscoverProofs DiscoverProps
  XmlModel XmlSpec XmlProofs XmlProps LoadModel LoadSpec LoadProofs LoadProps
  CatalogModel CatalogSpec CatalogProofs CatalogProps WebModel WebSpec WebProofs WebProps
  RenderModel PathSpec ReportModel RouterModel RouterSpec RouterProofs RouterProps ResponseModel ResponseSpec ResponseProofs ResponseProps EndToEndSpec.
Local Open Scope string_scope.

(** the maps of the report in the order in which they are visited *)
Definition visits (h : hydratable) (insts : list instance) (schemas : list schema) : Prop :=
  Permutation insts (map snd (hInstances h)) /\ Permutation schemas (map snd (hSchemas h)).

Lemma has_member fields v k R : object fields v -> In (k, R) fields -> has v k R.
Proof. intros V I. destruct (object_part _ _ _ _ V I) as (x&X&P). exists x. split; auto. apply P. constructor. Qed.
Lemma catalog_answered detect service r id c : rqMethod r = "GET" -> given "id" r id -> service id = Ok (Some (jcatalog c)) ->
  answers (option_map (WebModel.finish detect) (catalog_handler service r)) (catalog_value c).
Proof.
  intros M G S. destruct (C61_catalog detect service r) as (_&_&H). specialize (H id M G). rewrite S in H.
  destruct H as (p&E&St&B). destruct (C119_catalog c) as (v&J&V). exists p, v. split; auto. split; auto. split; auto. now rewrite B.
Qed.
Lemma canonical_ext {A} (key : A -> string * string) (P Q : A -> Prop) l : (forall x, P x <-> Q x) -> canonical key P l -> canonical key Q l.
Proof. intros E [H S]. split; auto. intro x. rewrite H. apply E. Qed.

Lemma image_of_kept {A B} (R : A -> B -> Prop) l l' x y : image_of R l l' -> In x l -> R x y -> exists y', In y' l' /\ R x y'.
Proof.
  induction 1 as [|x0 y0 l l' H I IH|x0 l l' H I IH]; intros Hx Hy; [destruct Hx| |].
  - destruct Hx as [-> |Hx]; [exists y0; simpl; auto|]. destruct (IH Hx Hy) as (y'&?&?). exists y'. simpl; auto.
  - destruct Hx as [-> |Hx]; [now apply H in Hy|auto].
Qed.
Lemma free_of_dec c s : free_of c s \/ ~ free_of c s.
Proof.
  induction s as [|x s IH]; cbn; [auto|]. destruct (ascii_dec x c) as [-> |N]; [right; intros [H _]; now apply H|].
  destruct IH as [IH|IH]; [left; auto|right; intros [_ H]; auto].
Qed.
Lemma all_ws_tail c s : all_ws (String c s) -> ws c /\ all_ws s.
Proof.
  intro H. split; [apply H; intros [F _]; now apply F|]. intros x Hx. apply H. intros [_ F]. auto.
Qed.
Lemma all_ws_in s t u : all_ws (s ++ t ++ u) -> all_ws t.
Proof.
  intros H c Hc. apply H. intro F. apply free_of_app in F as [_ F]. apply free_of_app in F as [F _]. auto.
Qed.
Lemma all_ws_last s c : all_ws (s ++ String c "") -> ws c.
Proof. intro H. apply H. intro F. apply free_of_app in F as [_ [F _]]. now apply F. Qed.
Lemma last_char s : s = "" \/ exists r c, s = r ++ String c "".
Proof.
  induction s as [|c s [-> |(r&x&->)]]; auto; right; [exists "", c; reflexivity|exists (String c r), x; reflexivity].
Qed.
Lemma ws_front a a' u u' : a ++ u = a' ++ u' -> all_ws a -> all_ws a' ->
  (exists c r, u = String c r /\ ~ ws c) -> (exists c r, u' = String c r /\ ~ ws c) -> u = u'.
Proof.
  revert a'. induction a as [|c a IH]; intros [|c' a'] E W W' H H'; auto.
  - destruct H as (x&r&->&N). cbn in E. injection E as -> _. apply all_ws_tail in W' as [W' _]. contradiction.
  - destruct H' as (x&r&->&N). cbn in E. injection E as -> _. apply all_ws_tail in W as [W _]. contradiction.
  - cbn in E. injection E as -> E. apply all_ws_tail in W as [_ W], W' as [_ W']. eauto.
Qed.
Lemma ws_back t t' b b' : t ++ b = t' ++ b' -> all_ws b -> all_ws b' ->
  (forall c r, t = r ++ String c "" -> ~ ws c) -> (forall c r, t' = r ++ String c "" -> ~ ws c) -> t = t'.
Proof.
  assert (X : forall s z z', all_ws z -> z = s ++ z' -> (forall c r, s = r ++ String c "" -> ~ ws c) -> s = "").
  { intros s z z' W -> H. destruct (last_char s) as [-> |(r&c&->)]; auto. exfalso. apply (H c r); auto.
    apply (all_ws_in "") in W. now apply all_ws_last in W. }
  revert t'. induction t as [|c t IH]; intros t' E W W' H H'.
  - symmetry. eapply X; [exact W| |exact H']. exact E.
  - destruct t' as [|c' t'].
    + eapply X; [exact W'| |exact H]. cbn in E. symmetry. exact E.
    + cbn in E. injection E as -> E. f_equal. apply IH; auto.
      * intros x r ->. apply (H x (String c' r)). reflexivity.
      * intros x r ->. apply (H' x (String c' r)). reflexivity.
Qed.
Lemma trimmed_fun s t t' : trimmed s t -> trimmed s t' -> t = t'.
Proof.
  intros (a&b&E&A&B&H1&H2) (a'&b'&E'&A'&B'&H1'&H2').
  assert (Z : forall s t a b a' b', s = a ++ "" ++ b -> all_ws a -> all_ws b -> s = a' ++ t ++ b' -> (forall c r, t = String c r -> ~ ws c) -> t = "").
  { clear. intros s t a b a' b' E A B E' H. destruct t as [|c t]; auto. exfalso. apply (H c t); auto.
    assert (W : all_ws s). { subst s. intros x Hx. destruct (free_of_dec x a) as [Fa|Fa]; [|now apply A].
      apply B. intro Fb. apply Hx. apply free_of_app. split; auto. }
    rewrite E' in W. apply all_ws_in in W. now apply all_ws_tail in W. }
  destruct t as [|c t]; [symmetry; exact (Z s t' a b a' b' E A B E' H1')|].
  destruct t' as [|c' t']; [exact (Z s _ a' b' a b E' A' B' E H1)|].
  rewrite E in E'. assert (X : String c t ++ b = String c' t' ++ b').
  { eapply ws_front; eauto; [exists c, (t ++ b)|exists c', (t' ++ b')]; split; auto; [apply (H1 c t)|apply (H1' c' t')]; auto. }
  eapply ws_back; eauto.
Qed.
Lemma entity_fun q content scope x c c' : context_at q content scope x c -> context_at q content scope x c' ->
  ctxScheme c = ctxScheme c' /\ ctxIdentifier c = ctxIdentifier c'.
Proof.
  intros [_ _ (en&idt&F1&F2&V&_&S&_) _ _] [_ _ (en'&idt'&F1'&F2'&V'&_&S'&_) _ _].
  assert (en = en') as <- by (eapply first_such_unique; eauto). assert (idt = idt') as <- by (eapply first_such_unique; eauto).
  split; [eapply attr_val_fun; eauto|eapply trimmed_fun; eauto].
Qed.

(** ** C122 *)

(** The relationship sets of the catalog a client gets are the role types written in the
    schemas the report leads to, each once, by title and role URI. *)
Theorem C122_relationship_sets_partial :
  forall d dir name images pf sh tokens utr h, supported name -> loaded d dir name images pf sh tokens utr h ->
    exists file root, entry_at d dir root name file /\
      ((forall x t, followed_at d dir root x t -> single_appinfo t /\ plain_roles t) ->
       forall names insts schemas doc entry service detect r id, visits h insts schemas ->
         rqMethod r = "GET" -> given "id" r id -> service id = Ok (Some (jcatalog (marshal_catalog names insts schemas doc entry))) ->
         exists l, canonical (fun r => (rsTitle r, rsRole r)) (role_declared d dir root) l /\
           answers (option_map (WebModel.finish detect) (catalog_handler service r))
             (fun v => has v "RelationshipSets" (list_of relationship_set l))).
Proof.
  intros d dir name images pf sh tokens utr h N L.
  destruct (loaded_parts _ _ _ _ _ _ _ _ _ N L) as (file&root&fd&doc&EA&FI&S&_&_&_&_&_&_&_&_&H).
  exists file, root. split; auto. intros P names insts schemas isdoc entry service detect r id [_ VS] M G SV.
  apply C79_complete in H as (_&HS&_). apply all_loaded_In in HS as [HS HS'].
  exists (caRelationshipSets (marshal_catalog names insts schemas isdoc entry)). split.
  - eapply canonical_ext; [|apply C07_relationship_sets]. intro rs. unfold CatalogSpec.declared, role_declared.
    assert (D : forall x t, followed_at d dir root x t -> decode_schema (Some t) = Ok (schema_struct t)).
    { intros x t F. apply followed_at_local in F as [_ (data&_&_&T)]. unfold decode_schema, decode. apply has_tag_iff in T. now rewrite T. }
    split.
    + intros (s&t&Hs&Ht&NE&E1&E2). apply (Permutation_in _ VS) in Hs. apply in_map_iff in Hs as ([x s']&<-&Hs). cbn [snd] in Ht.
      destruct (HS _ _ Hs) as (f&Hf&E). apply S in Hf as (tr&F&->). destruct (P _ _ F) as [P1 P2].
      assert (W : roles_as_written tr s') by (eapply C112_roles_partial; eauto). apply W in Ht as (y&Hy&Ry).
      exists x, tr, y, t. auto.
    + intros (x&tr&y&rt&F&Hy&Ry&E1&E2). destruct (P _ _ F) as [P1 P2].
      destruct (HS' x (schema_struct tr)) as (s&Hs&E); [apply S; eauto|].
      assert (W : roles_as_written tr s) by (eapply C112_roles_partial; eauto).
      exists s, rt. split; [|split; [apply W; eauto|split; [|auto]]].
      * apply (Permutation_in _ (Permutation_sym VS)). apply in_map_iff. exists (x, s). auto.
      * destruct Ry as [_ _ [_ RU] _ _]. exact RU.
  - destruct (catalog_answered detect service r id _ M G SV) as (p&v&E&St&J&V). exists p, v. split; auto. split; auto. split; auto.
    eapply has_member; [exact V|]. right; left; reflexivity.
Qed.
Print Assumptions C122_relationship_sets_partial.

(** The subjects are the entities of the contexts written in the instance, each once, by
    scheme and identifier. *)
Theorem C122_subjects_partial :
  forall d dir name images pf sh tokens utr h, supported name -> loaded d dir name images pf sh tokens utr h ->
    exists file root, entry_at d dir root name file /\
      (no_homonyms root -> declared_at_root root -> plain_texts root -> (forall x t, known d dir root x t -> plain_declarations t) ->
       exists q, understands d dir root q /\
       forall names insts schemas doc entry service detect r id, visits h insts schemas ->
         rqMethod r = "GET" -> given "id" r id -> service id = Ok (Some (jcatalog (marshal_catalog names insts schemas doc entry))) ->
         exists l, canonical (fun e => (eScheme e, eChar e)) (entity_reported q (content_of q tokens (attributes root)) root) l /\
           answers (option_map (WebModel.finish detect) (catalog_handler service r))
             (fun v => has v "Subjects" (list_of (fun e u => has u "Entity" (entity_value e)) l))).
Proof.
  intros d dir name images pf sh tokens utr h N L.
  destruct (C116_instance_partial _ _ _ _ _ _ _ _ _ N L) as (file&root&i&EA&HI&_&W).
  exists file, root. split; auto. intros NH DR PT PD. destruct (W NH DR PT) as [_ W2]. destruct (W2 PD) as (q&UQ&cs&IM&ST).
  exists q. split; auto. intros names insts schemas isdoc entry service detect r id [VI _] M G SV.
  exists (map sbEntity (caSubjects (marshal_catalog names insts schemas isdoc entry))). split.
  - eapply canonical_ext; [|apply C08_subjects]. intro e. unfold CatalogSpec.reported, entity_reported.
    rewrite HI in VI. cbn in VI. apply Permutation_sym, Permutation_length_1_inv in VI. subst insts.
    assert (IC : forall c, In c (iContexts i) <-> In c cs).
    { intro c. destruct ST as [P _]. split; apply Permutation_in; auto using Permutation_sym. }
    split.
    + intros (i'&c&[<-|[]]&Hc&N1&N2&E1&E2). apply IC in Hc. apply (image_of_In _ _ _ _ IM) in Hc as (x&Hx&C). exists x, c. rewrite <- E1. auto.
    + intros (x&c&Hx&C&E1&N1&E2). destruct (image_of_kept _ _ _ _ _ IM Hx C) as (c'&Hc'&C').
      destruct (entity_fun _ _ _ _ _ _ C C') as [E3 E4]. exists i, c'. split; [now left|]. split; [now apply IC|].
      split; auto. rewrite E1, E2. split; [|auto]. destruct C as [_ _ (en&idt&_&_&_&NE&_) _ _]. exact NE.
  - destruct (catalog_answered detect service r id _ M G SV) as (p&v&E&St&J&V). exists p, v. split; auto. split; auto. split; auto.
    eapply has_member with (k := "Subjects") in V; [|left; reflexivity]. destruct V as (x&P&vs&->&F). eexists. split; [exact P|].
    exists vs. split; auto. clear -F. induction F as [|s w ss ws H F IH]; constructor; auto.
    eapply has_member; [exact H|]. right; left; reflexivity.
Qed.
Print Assumptions C122_subjects_partial.

(** *** A folder with one instance (one context) and one schema *)
Definition solo_root : tree := xbrl_doc [schema_ref_to "a.xsd"; a_context].
Definition solo_disk (s : tree) : disk := small_disk [(in_dir "x.xml", solo_root); (in_dir "a.xsd", s)].
Definition plain_order : shuffles := Shuffles (fun _ l => l) (fun _ l => l) (fun _ l => l).
Lemma plain_orders : orders plain_order.
Proof. repeat split; intros; apply Permutation_refl. Qed.
Lemma x_supported : supported "x.xml".
Proof. right. right. now exists "x". Qed.
Lemma solo_entry s : entry_at (solo_disk s) small_dir solo_root "x.xml" "x.xml".
Proof. apply small_entry_at; [reflexivity|do 4 eexists; reflexivity]. Qed.
Lemma solo_simple : simple_contexts solo_root.
Proof.
  intros x Hx Nx. simpl in Hx. repeat destruct Hx as [<-|Hx]; try contradiction; try (destruct Nx as (?&?&?&?&E); discriminate E).
  split; [|split].
  - eexists. split; [left; reflexivity|]. do 4 eexists; reflexivity.
  - intros y z Hy (?&?&?&?&E). simpl in Hy. repeat destruct Hy as [<-|Hy]; try contradiction; discriminate E.
  - intros e y z He (?&?&?&?&E) Hy (?&?&?&?&E'). simpl in He. repeat destruct He as [<-|He]; try contradiction; [|discriminate E].
    simpl in Hy. destruct Hy as [<-|[]]. discriminate E'.
Qed.
Lemma solo_schema s x t : followed_at (solo_disk s) small_dir solo_root x t -> t = s.
Proof.
  intro F. apply followed_at_local in F as [_ F]. apply small_document in F as [[E|[E|[]]] N]; injection E as _ <-; auto.
  destruct N as (?&?&?&?&N). discriminate N.
Qed.
Lemma solo_followed s ns : locally_named "schema" s -> target_at s ns -> followed_at (solo_disk s) small_dir solo_root "a.xsd" s.
Proof.
  intros N T. apply (fat_ref _ _ _ _ _ ns); auto.
  - exists (schema_ref_to "a.xsd"). split; [simpl; auto|]. split; [do 3 eexists; reflexivity|req_tac].
  - split; [reflexivity|]. exists (in_dir "a.xsd"). split; [reflexivity|]. split; [reflexivity|auto].
Qed.
Lemma solo_loads s : (forall y, In y (kids s) -> locally_named "annotation" y \/ locally_named "element" y) ->
  exists h, loaded (solo_disk s) small_dir "x.xml" false ex_pf plain_order ex_tokens (Ok []) h.
Proof.
  intro K.
  assert (NC : no_cycles (solo_disk s) small_dir solo_root).
  { intros h t F. constructor. intros h1 (g&t1&G&_&H). exfalso.
    assert (Hg : g = s).
    { apply small_document in G as [[E|[E|[]]] N]; injection E as _ <-; auto. destruct N as (?&?&?&?&N). discriminate N. }
    subst g. destruct H as [[(y&Hy&(?&?&?&->)&_) _]|(ns&y&Hy&(?&?&?&->)&_)]; apply K in Hy as [(?&?&?&?&N)|(?&?&?&?&N)]; discriminate N. }
  destruct (proj2 (C118_ends _ _ _ _ _ false (solo_entry s)) NC) as (o&D).
  assert (EI : entry_instance (files_of (solo_disk s)) small_dir "x.xml" "x.xml" (instance_struct solo_root)) by (apply entry_iff; eauto using solo_entry).
  pose proof D as D'. apply (discover_iff _ _ _ _ _ _ _ EI) in D' as (st&_&_&->).
  destruct (C118_loads_partial (solo_disk s) small_dir solo_root "x.xml" "x.xml" false ex_pf plain_order
    ex_tokens [] (solo_entry s) solo_simple) with (fd := DiscoverModel.finish "x.xml" (instance_struct solo_root) (fst st)) as (h&L&_); eauto.
  intro N. apply inline_iff in N. destruct N as [N|N]; discriminate N.
Qed.
Lemma solo_root_unique s root file : entry_at (solo_disk s) small_dir root "x.xml" file -> root = solo_root.
Proof.
  intros ([[N _]|[_ ->]]&DO&_).
  - exfalso. apply inline_iff in N. destruct N as [N|N]; discriminate N.
  - destruct (solo_entry s) as (_&DO'&_). eapply document_fun; eauto.
Qed.
Definition some_service (c : catalog) (id : string) : res (option string) := Ok (Some (jcatalog c)).
Definition some_request : http_request := HttpRequest "GET" [("id", "F")] "".
Lemma some_given : given "id" some_request "F".
Proof. split; [reflexivity|discriminate]. Qed.

Lemma role_two : role_at (a_role "two" []) (RoleType "urn:two" "two" "" ["link:presentationLink"; "link:calculationLink"]).
Proof.
  split.
  - do 3 eexists; reflexivity.
  - req_tac.
  - req_tac.
  - right. split; auto. intros y [<-|[<-|[]]] (?&?&?&E); discriminate E.
  - simpl. apply image_keep; [split; [do 3 eexists; reflexivity|reflexivity]|].
    apply image_keep; [split; [do 3 eexists; reflexivity|reflexivity]|]. apply image_nil.
Qed.
(** C122, refuted: a schema with two annotations; the role types of the second are missing
    from what the client reads. *)
Theorem C122_refuted :
  ~ (forall d dir name images pf sh tokens utr h file root, supported name -> loaded d dir name images pf sh tokens utr h ->
       entry_at d dir root name file -> (forall x t, followed_at d dir root x t -> plain_roles t) ->
       forall names insts schemas doc entry service detect r id, visits h insts schemas ->
         rqMethod r = "GET" -> given "id" r id -> service id = Ok (Some (jcatalog (marshal_catalog names insts schemas doc entry))) ->
         exists l, canonical (fun r => (rsTitle r, rsRole r)) (role_declared d dir root) l /\
           answers (option_map (WebModel.finish detect) (catalog_handler service r))
             (fun v => has v "RelationshipSets" (list_of relationship_set l))).
Proof.
  intro H. set (s := roles_doc [[a_role "one" []]; [a_role "two" []]]).
  assert (K : forall y, In y (kids s) -> locally_named "annotation" y \/ locally_named "element" y).
  { intros y Hy. left. simpl in Hy. destruct Hy as [<-|[<-|[]]]; do 4 eexists; reflexivity. }
  destruct (solo_loads s K) as (h&L).
  assert (P : forall x t, followed_at (solo_disk s) small_dir solo_root x t -> plain_roles t).
  { intros x t F. apply solo_schema in F. subst t. intros y z (a&i&Ha&_&Hi&_&Hx) Hy. simpl in Ha.
    destruct Ha as [<-|[<-|[]]]; destruct Hi as [<-|[]]; destruct Hx as [<-|[]]; simpl in Hy;
      destruct Hy as [<-|[<-|[]]]; (split; [intros _ k [<-|[]]; now eexists|intros (?&?&?&?&E); discriminate E]). }
  set (c := marshal_catalog (Err "") (map snd (hInstances h)) (map snd (hSchemas h)) false "x.xml").
  specialize (H (solo_disk s) small_dir "x.xml" false ex_pf plain_order ex_tokens (Ok []) h "x.xml" solo_root x_supported L (solo_entry s) P
    (Err "") (map snd (hInstances h)) (map snd (hSchemas h)) false "x.xml" (some_service c) (fun _ => "") some_request "F"
    (conj (Permutation_refl _) (Permutation_refl _)) eq_refl some_given eq_refl).
  destruct H as (l&[C _]&p&v&E&_&[_ U]&x&Px&vs&->&F).
  destruct (catalog_answered (fun _ => "") (some_service c) some_request "F" c eq_refl some_given eq_refl) as (p'&v'&E'&_&[J' _]&V').
  rewrite E in E'. injection E' as <-. apply U in J'. subst v'.
  unfold catalog_value in V'. eapply object_member in V' as (y&Y&EY); [|distinct|right; left; reflexivity].
  apply EY, part_nil in Px. subst y. destruct Y as (vs'&[= <-]&F').
  assert (FS : followed_at (solo_disk s) small_dir solo_root "a.xsd" s).
  { apply (solo_followed s "urn:t"); [do 4 eexists; reflexivity|req_tac]. }
  assert (I2 : In (RSet "" "urn:two") l).
  { apply C. exists "a.xsd", s, (a_role "two" []). eexists. split; [exact FS|]. split; [|split; [apply role_two|split; reflexivity]].
    exists (xs "annotation" [] [xs "appinfo" [] [a_role "two" []]]), (xs "appinfo" [] [a_role "two" []]).
    split; [simpl; auto|]. split; [do 3 eexists; reflexivity|]. split; [simpl; auto|].
    split; [do 3 eexists; reflexivity|]. simpl; auto. }
  destruct (loaded_parts _ _ _ _ _ _ _ _ _ x_supported L) as (file&root&fd&doc&EA&_&S&_&_&_&_&_&_&_&_&HH).
  apply solo_root_unique in EA. subst root. apply C79_complete in HH as (_&HS&_). apply all_loaded_In in HS as [HS HS'].
  destruct (GridProofs.Forall2_In_l _ _ _ _ F I2) as (w&Hw&W). destruct (GridProofs.Forall2_In_r _ _ _ _ F' Hw) as (rs&Hrs&W').
  assert (T : rsRole rs = "urn:one").
  { destruct (C07_relationship_sets (Err "") (map snd (hInstances h)) (map snd (hSchemas h)) false "x.xml") as [CC _].
    apply CC in Hrs as (sc&t&Hs&Ht&TE). apply in_map_iff in Hs as ([x0 s0]&<-&Hs). destruct (HS _ _ Hs) as (f&Hf&Ef).
    apply S in Hf as (tr&Ft&->). apply solo_schema in Ft. subst tr.
    unfold hydrate_schema in Ef. destruct (nonempty x0); [|discriminate Ef]. injection Ef as <-. cbn in Ht.
    destruct Ht as [<-|[]]. exact (proj1 (proj2 TE)). }
  apply (object_member _ _ "RoleURI" (shows "urn:two")) in W as (a&A&EA); [|distinct|simpl; auto].
  apply (object_member _ _ "RoleURI" (shows (rsRole rs))) in W' as (b&B&EB); [|distinct|simpl; auto].
  assert (a = b) as <- by (apply part_nil, EB, EA; constructor). rewrite T in B.
  destruct A as (u1&->&_&A), B as (u2&[= <-]&_&B).
  rewrite (A (JsonProofs.san_text "urn:two")) in B. discriminate (B (JsonProofs.san_text "urn:one")).
Qed.
Print Assumptions C122_refuted.

Definition sole_role : tree := roles_doc [[a_role "r" [lk "definition" [] [txt "010 - Cover"]]]].
(** The hypotheses of C122 are met, and the two lists are not empty: the folder of one
    instance with one context and one schema with one role type. *)
Example C122_example :
  (exists h, loaded (solo_disk sole_role) small_dir "x.xml" false ex_pf plain_order ex_tokens (Ok []) h) /\
  (forall x t, followed_at (solo_disk sole_role) small_dir solo_root x t -> single_appinfo t /\ plain_roles t) /\
  role_declared (solo_disk sole_role) small_dir solo_root (RSet "010 - Cover" "urn:r") /\
  no_homonyms solo_root /\ declared_at_root solo_root /\ plain_texts solo_root /\
  (forall x t, known (solo_disk sole_role) small_dir solo_root x t -> plain_declarations t) /\
  (forall q content, entity_reported q content solo_root (Entity "urn:s" "0")).
Proof.
  split; [|split; [|split; [|split; [|split; [|split; [|split]]]]]].
  - apply solo_loads. intros y [<-|[]]. left. do 4 eexists; reflexivity.
  - intros x t F. apply solo_schema in F. subst t. split.
    + split.
      * intros l1 y l2 z l3 E N M. destruct l1 as [|? [|? ?]]; try discriminate E. injection E; intros E' _. destruct l2; discriminate E'.
      * intros a Ha Na l1 y l2 z l3 E. destruct Ha as [<-|[]].
        destruct l1 as [|? [|? ?]]; try discriminate E. injection E; intros E' _. destruct l2; discriminate E'.
    + intros x0 y (a&i&Ha&Na&Hi&Ni&Hx) Hy. destruct Ha as [<-|[]]. destruct Hi as [<-|[]]. destruct Hx as [<-|[]].
      destruct Hy as [<-|[<-|[<-|[]]]]; (split; [intros _ k [<-|[]]; now eexists|]); intros (?&?&?&?&N); try discriminate N.
      do 3 eexists; reflexivity.
  - exists "a.xsd", sole_role, (a_role "r" [lk "definition" [] [txt "010 - Cover"]]).
    exists (RoleType "urn:r" "r" "010 - Cover" ["link:presentationLink"; "link:calculationLink"]). split; [|split; [|split; [|split; reflexivity]]].
    + apply (solo_followed _ "urn:t"); [do 4 eexists; reflexivity|req_tac].
    + exists (xs "annotation" [] [xs "appinfo" [] [a_role "r" [lk "definition" [] [txt "010 - Cover"]]]]).
      exists (xs "appinfo" [] [a_role "r" [lk "definition" [] [txt "010 - Cover"]]]).
      split; [simpl; auto|]. split; [do 3 eexists; reflexivity|]. split; [simpl; auto|].
      split; [do 3 eexists; reflexivity|]. simpl; auto.
    + split.
      * do 3 eexists; reflexivity.
      * req_tac.
      * req_tac.
      * left. exists (lk "definition" [] [txt "010 - Cover"]). split; [|reflexivity]. exists [], [lk "usedOn" [] [txt "link:presentationLink"]; lk "usedOn" [] [txt "link:calculationLink"]].
        split; [reflexivity|]. split; [do 3 eexists; reflexivity|intros ? []].
      * simpl. apply image_skip; [intros u [(?&?&?&E) _]; discriminate E|].
        apply image_keep; [split; [do 3 eexists; reflexivity|reflexivity]|].
        apply image_keep; [split; [do 3 eexists; reflexivity|reflexivity]|]. apply image_nil.
  - prove_names.
  - prove_decls.
  - prove_texts.
  - intros x t [K|(_&data&K&_)]; [|discriminate K]. apply solo_schema in K. subst t. prove_plain.
  - intros q content. exists a_context. eexists (Context "c" "urn:s" "0" _ "2020-12-31" "" "" _).
    split; [simpl; auto|]. split; [|split; [reflexivity|split; [discriminate|reflexivity]]].
    split.
    + do 3 eexists; reflexivity.
    + req_tac.
    + exists (xi "entity" [] [xi "identifier" [pa "scheme" "urn:s"] [txt "0"]]), (xi "identifier" [pa "scheme" "urn:s"] [txt "0"]).
      split; [|split; [|split; [|split; [discriminate|split]]]].
      * exists [], [xi "period" [] [xi "instant" [] [txt "2020-12-31"]]]. split; [reflexivity|]. split; [do 3 eexists; reflexivity|intros ? []].
      * exists [], []. split; [reflexivity|]. split; [do 3 eexists; reflexivity|intros ? []].
      * apply trimmed_iff. reflexivity.
      * apply attr_val_iff. eexists; split; reflexivity.
      * left. split; [|reflexivity]. intros y [<-|[]] (?&?&?&E). discriminate E.
    + eapply pat_instant; [| |left].
      * exists [xi "entity" [] [xi "identifier" [pa "scheme" "urn:s"] [txt "0"]]], []. split; [reflexivity|].
        split; [do 3 eexists; reflexivity|]. intros y [<-|[]] (?&?&?&E). discriminate E.
      * left. eexists. split; [exists [], []; split; [reflexivity|]; split; [do 3 eexists; reflexivity|intros ? []]|].
        apply trimmed_iff. reflexivity.
      * intros y [<-|[]] (?&?&?&E). discriminate E.
    + left. split; [|reflexivity]. intros y [<-|[<-|[]]] (?&?&?&E); discriminate E.
Qed.

(** ** C124: every network a client reads in a catalog opens at its address *)
Lemma ascii_text s : (forall c, In c (list_ascii_of_string s) -> (N_of_ascii c < 128)%N) -> JsonSpec.text s.
Proof.
  intro H. apply JsonProofs.san_iff. induction s as [|c s IH]; auto. cbn [JsonProofs.san].
  rewrite (proj2 (N.ltb_lt _ _) (H c (or_introl eq_refl))). f_equal. apply IH. intros d Hd. apply H. now right.
Qed.
Lemma slug_text e r s : is_slug e r s -> JsonSpec.text s.
Proof.
  intro S. apply ascii_text. intros c Hc. apply (C11_alphabet _ _ _ S) in Hc. cbn in Hc.
  repeat destruct Hc as [<-|Hc]; try reflexivity. contradiction.
Qed.
Lemma slug_part e r s : is_slug e r s -> entry_name_ok s /\ s <> "facts".
Proof.
  intro S. pose proof (C11_alphabet _ _ _ S) as A. destruct S as (h&_&_&L).
  split; [|intros ->; discriminate L]. repeat split; try (intros ->; discriminate L).
  clear L. induction s as [|c s IH]; cbn; auto. split.
  - intros ->. specialize (A "/"%char (or_introl eq_refl)). cbn in A. repeat destruct A as [A|A]; try discriminate; contradiction.
  - apply IH. intros d Hd. apply A. now right.
Qed.
Lemma fold_sset_NoDup {A V} (k : A -> string) (v : A -> V) l : forall m, NoDup (map fst m) ->
  NoDup (map fst (fold_left (fun m x => sset (k x) (v x) m) l m)).
Proof. induction l as [|x l IH]; intros m N; cbn; auto. apply IH, mset_NoDup; auto using seqP. Qed.
Lemma fold_sset_In {A V} (k : A -> string) (v : A -> V) l : forall m key w,
  In (key, w) (fold_left (fun m x => sset (k x) (v x) m) l m) -> In (key, w) m \/ exists x, In x l /\ key = k x /\ w = v x.
Proof.
  induction l as [|x l IH]; intros m key w H; cbn in H; auto. apply IH in H as [H|(y&?&?)]; [|right; exists y; simpl; tauto].
  apply sset_In in H as [[-> ->]|H]; auto. right. exists x. simpl; auto.
Qed.
Lemma map_of_member {A} (R : A -> value -> Prop) m v k x : map_of R m v -> part v [k] x -> exists key a, In (key, a) m /\ R a x.
Proof.
  intros (l&ms&P&_&->&F) X. inversion X as [| |l' k' y p u I Y]; subst. apply part_nil in Y. subst y.
  destruct (GridProofs.Forall2_In_r _ _ _ _ F I) as ([key a]&Ha&_&Ra). exists key, a. split; auto.
  eapply Permutation_in; [apply Permutation_sym; exact P|auto].
Qed.
Lemma part_app v p q u : part v (p ++ q) u -> exists w, part v p w /\ part w q u.
Proof.
  revert v. induction p as [|k p IH]; intros v H; [exists v; split; [constructor|auto]|]. cbn in H.
  inversion H as [|l x p' u' I H'|l k' x p' u' I H']; subst; apply IH in H' as (w&A&B); exists w; split; auto;
    [eapply part_item|eapply part_member]; eauto.
Qed.

Lemma entities_perm insts insts' : Permutation insts insts' -> sorted_entities insts' = sorted_entities insts.
Proof.
  intro P. eapply canonical_unique; [apply entities_canonical|]. destruct (entities_canonical insts) as [E S]. split; auto.
  intro x. rewrite E. unfold CatalogSpec.reported. split; intros (i&c&Hi&R); exists i, c; (split; [|exact R]);
    (eapply Permutation_in; [|exact Hi]); auto using Permutation_sym.
Qed.
Lemma rsets_perm schemas schemas' : Permutation schemas schemas' -> sorted_relationship_sets schemas' = sorted_relationship_sets schemas.
Proof. intro P. apply (C07_order_independent (Ok []) [] schemas' schemas false ""). now apply Permutation_sym. Qed.
Lemma folder_tidy id : entry_name_ok id -> tidy ("/folders/" ++ id).
Proof.
  intro I. exists ["folders"; id]. split; [|left; reflexivity]. constructor; [repeat split; discriminate|]. constructor; auto.
Qed.
Lemma network_tidy id slug : entry_name_ok id -> entry_name_ok slug -> tidy ("/folders/" ++ id ++ "/" ++ slug).
Proof.
  intros I S. exists ["folders"; id; slug]. split; [|left; reflexivity]. constructor; [repeat split; discriminate|]. constructor; auto.
Qed.
Lemma entry_part id : entry_name_ok id -> part_name id.
Proof. intros (N&_&_&F). split; auto. Qed.

(** A client GETs the catalog of a folder, reads a string under "Networks" and GETs the
    address made of it. The entity names are readable (see C12). [grids] is any rendering,
    also a different one for each request. *)
Theorem C124_opens :
  forall tbl insts insts' schemas schemas' doc entry grids calculated detect s id query query' p v k role slug,
    Permutation insts insts' -> Permutation schemas schemas' -> entry_name_ok id ->
    svCatalog s id = Ok (Some (jcatalog (marshal_catalog (Ok tbl) insts schemas doc entry))) ->
    (forall h, svRenderable s id h = renderable_bytes calculated (marshal_renderable grids (Ok tbl) insts' schemas' h)) ->
    serve detect s "GET" ("/folders/" ++ id) query = Answer (Some p) -> reads_as (body p) v ->
    part v ["Networks"; k; role] (JStr slug) ->
    exists e r x, CatalogSpec.reported insts e /\ CatalogSpec.declared schemas r /\ is_slug e r slug /\
      serve detect s "GET" ("/folders/" ++ id ++ "/" ++ slug) query' = Answer x /\
      answers x (fun w => has w "RelationshipSet" (relationship_set r) /\ has w "Subject" (fun u => has u "Entity" (entity_value e))).
Proof.
  intros tbl insts insts' schemas schemas' doc entry grids calculated detect s id query query' p v k role slug PI PS I SC SR C RA PV.
  set (c := marshal_catalog (Ok tbl) insts schemas doc entry) in *.
  assert (V : catalog_value c v).
  { destruct (C123_get detect s ("/folders/" ++ id) query (CatalogOf id) (folder_tidy _ I)) as (x&E&R); [now apply ad_catalog; [apply entry_part|]|].
    rewrite C in E. injection E as <-. rewrite SC in R. destruct R as (p'&[= <-]&_&B). cbn [content] in B. rewrite B in RA.
    destruct (C119_catalog c) as (v'&[J _]&V'). destruct RA as [_ U]. apply U in J. now subst v'. }
  change ["Networks"; k; role] with (["Networks"] ++ [k] ++ [role])%list in PV.
  apply part_app in PV as (n&Pn&PV). apply part_app in PV as (m&Pm&PV).
  eapply object_member in V as (y&Y&EY); [|distinct|right; right; left; reflexivity].
  apply EY, part_nil in Pn. subst y.
  apply (map_of_member _ _ _ _ _ Y) in Pm as (key&net&Hn&Rm). apply (map_of_member _ _ _ _ _ Rm) in PV as (ro&sl&Hs&(t&Et&_&T)).
  injection Et as <-.
  assert (GK : sget key (caNetworks c) = Some net).
  { apply In_mget; auto using seqP. apply fold_sset_NoDup. constructor. }
  assert (GN : sget ro net = Some sl).
  { apply In_mget; auto using seqP. apply fold_sset_In in Hn as [[]|(e&_&_&->)]. apply fold_sset_NoDup. constructor. }
  destruct (C09_every_slug_opens _ grids (Ok tbl) insts schemas doc entry key net ro sl GK GN) as (e&r&RE&DR&S&nm&M).
  assert (slug = sl) as -> by (apply T; eapply slug_text; eauto). destruct (slug_part _ _ _ S) as [SE NF].
  destruct (C123_get detect s ("/folders/" ++ id ++ "/" ++ sl) query' (RenderableOf id sl) (network_tidy _ _ I SE)) as (x&E&R).
  { apply ad_renderable; auto using entry_part. }
  exists e, r, x. split; auto. split; auto. split; auto. split; auto.
  rewrite SR in R.
  assert (M' : marshal_renderable grids (Ok tbl) insts' schemas' sl = marshal_renderable grids (Ok tbl) insts schemas sl).
  { unfold marshal_renderable. now rewrite (entities_perm _ _ PI), (rsets_perm _ _ PS). }
  rewrite M', M in R. unfold renderable_bytes in R. cbn [bind rnSet] in R. destruct R as (p'&->&St&B).
  destruct (grids (eScheme e ++ "/" ++ eChar e) (rsRole r)) as [[g roles] langs] eqn:EG.
  destruct (C119_renderable (calculated (rsRole r)) r (Subject nm e) g roles langs) as (w&J&W).
  exists p', w. split; auto. split; auto. split; [rewrite B; exact J|]. split.
  - eapply has_member; [exact W|left; reflexivity].
  - destruct (has_member _ _ "Subject" _ W (or_intror (or_introl eq_refl))) as (u&Pu&Su). exists u. split; auto.
    eapply has_member; [exact Su|right; left; reflexivity].
Qed.
Print Assumptions C124_opens.

Lemma map_of_entry {A} (R : A -> value -> Prop) m v k a : map_of R m v -> In (k, a) m -> JsonSpec.text k -> exists x, part v [k] x /\ R a x.
Proof.
  intros (l&ms&P&_&->&F) I T. eapply Permutation_in in I; [|exact P].
  destruct (GridProofs.Forall2_In_l _ _ _ _ F I) as ([n x]&Hx&(t&Et&_&E)&Rx). cbn in Et, E, Rx. injection Et as <-.
  rewrite (E T) in Hx. exists x. split; auto. eapply part_member; [exact Hx|constructor].
Qed.
Lemma part_trans v p w q u : part v p w -> part w q u -> part v (p ++ q) u.
Proof. induction 1; cbn; auto; intro; [eapply part_item|eapply part_member]; eauto. Qed.
(** And there is such a string for every entity and every role. *)
Theorem C124_listed :
  forall names insts schemas doc entry v e r, reads_as (jcatalog (marshal_catalog names insts schemas doc entry)) v ->
    CatalogSpec.reported insts e -> CatalogSpec.declared schemas r ->
    JsonSpec.text (eScheme e ++ "/" ++ eChar e) -> JsonSpec.text (rsRole r) ->
    exists slug r', part v ["Networks"; eScheme e ++ "/" ++ eChar e; rsRole r] (JStr slug) /\
      CatalogSpec.declared schemas r' /\ rsRole r' = rsRole r /\ is_slug e r' slug.
Proof.
  intros names insts schemas doc entry v e r [_ U] RE DR TE TR.
  set (c := marshal_catalog names insts schemas doc entry) in *.
  destruct (C119_catalog c) as (v'&[J _]&V). apply U in J. subst v'.
  destruct (C13_networks names insts schemas doc entry e r RE DR) as (net&r'&slug&GK&GN&L&S). fold c in GK.
  eapply object_part in V as (n&N&EN); [|right; right; left; reflexivity].
  destruct (map_of_entry _ _ _ _ _ N (sget_In _ _ _ GK) TE) as (m&Pm&M).
  destruct (map_of_entry _ _ _ _ _ M (sget_In _ _ _ GN) TR) as (u&Pu&(t&->&_&T)).
  exists slug, r'. split; [|split; [|split; [|auto]]].
  - rewrite <- (T (slug_text _ _ _ S)). apply (EN [_; _]). apply (part_trans _ [_] _ [_] _ Pm Pu).
  - destruct L as (l1&l2&E&_). apply (C07_relationship_sets names insts schemas doc entry). unfold c in E. rewrite E. apply in_or_app. simpl; auto.
  - now destruct L as (l1&l2&_&E&_).
Qed.
Print Assumptions C124_listed.

(** A folder with one entity and one role *)
Definition one_inst := [ex_inst_with [("cik", "1")]].
Definition one_schema := [ex_schema_with [("urn:r", "A")]].
Definition one_rendering (_ _ : string) : grids * list string * list string := (Grids zero_p zero_d [], [], []).
Definition one_server : services := Services
  (fun id => Ok (Some (jcatalog (marshal_catalog (Ok []) one_inst one_schema false "x.xml"))))
  (fun id h => renderable_bytes (fun _ => false) (marshal_renderable one_rendering (Ok []) one_inst one_schema h))
  (fun _ _ _ => Err "") (fun _ _ => None).
Example C124_example : exists p v slug,
  serve (fun _ => "") one_server "GET" "/folders/F" "" = Answer (Some p) /\ reads_as (body p) v /\
  part v ["Networks"; "cik/1"; "urn:r"] (JStr slug) /\ is_slug (Entity "cik" "1") (RSet "A" "urn:r") slug.
Proof.
  eexists. destruct (C119_catalog (marshal_catalog (Ok []) one_inst one_schema false "x.xml")) as (v&J&_). exists v.
  destruct (C124_listed (Ok []) one_inst one_schema false "x.xml" v (Entity "cik" "1") (RSet "A" "urn:r") J) as (slug&r'&P&D&E&S).
  - eexists _, _. split; [left; reflexivity|]. split; [left; reflexivity|]. repeat split; discriminate.
  - eexists _, _. split; [left; reflexivity|]. split; [left; reflexivity|]. repeat split; discriminate.
  - apply (JsonProofs.san_text "cik/1").
  - apply (JsonProofs.san_text "urn:r").
  - exists slug. split; [reflexivity|]. split; [exact J|]. split; [exact P|].
    destruct D as (x&t&[<-|[]]&[<-|[]]&_&_&T). destruct r' as [ti ro]. cbn in T, E. now subst.
Qed.
