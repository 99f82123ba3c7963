(** * LoadProofs: lemmas about LoadModel *)
From Verif Require Import GoBase GoSpec GoFacts AttrModel AttrSpec AttrProofs SchemaModel SchemaSpec SchemaProofs
  LinkbaseModel LinkbaseSpec LinkbaseProofs InstanceModel InstanceSpec InstanceProofs HydrateModel HydrateSpec HydrateProofs
  PathModel DiscoverModel DiscoverSpec DiscoverProofs XmlModel XmlSpec XmlProofs LoadModel LoadSpec.
Local Open Scope string_scope.

(** ** References *)
(** elements whose namespace is checked by the reader *)
Lemma checked_kids {B} (x : tree) s l (f : tree -> B) (ns : B -> string) (P : B -> Prop) :
  (forall y, ns (f y) = nspace (x_name y)) ->
  ((exists e, In e (map f (field l x)) /\ ns e = s /\ P e) <-> exists y, In y (kids x) /\ named s l y /\ P (f y)).
Proof.
  intro F. split.
  - intros (e&He&N&H). apply in_map_iff in He as (y&<-&Hy). apply filter_In in Hy as [Hy T]. apply has_tag_iff in T as (s'&Ny).
    exists y. split; auto. split; auto. rewrite F in N. destruct Ny as (a&i&ks&->). cbn in N. subst s'. now exists a, i, ks.
  - intros (y&Hy&Ny&H). exists (f y). split; [|split; auto].
    + apply in_map, filter_In. split; auto. apply has_tag_iff. now exists s.
    + rewrite F. destruct Ny as (a&i&ks&->). reflexivity.
Qed.
Lemma bare_ns (y : tree) : nspace (ename (bare y)) = nspace (x_name y). Proof. reflexivity. Qed.
Lemma refers_iff root h : refers_to (if_schemaRef (instance_struct root)) h <-> ref_at root h.
Proof.
  unfold refers_to, ref_at, link_element. cbn [instance_struct if_schemaRef].
  apply (checked_kids root link_ns "schemaRef" bare (fun e => nspace (ename e)) (fun e => required (eattrs e) "href" h) bare_ns).
Qed.
Lemma includes_iff t h : includes (schema_struct t) h <-> include_at t h.
Proof.
  apply (checked_kids t xsd_ns "include" bare (fun e => nspace (ename e)) (fun e => required (eattrs e) "schemaLocation" h) bare_ns).
Qed.
Lemma imports_iff t ns h : imports_for (schema_struct t) ns h <-> import_at t ns h.
Proof.
  apply (checked_kids t xsd_ns "import" bare (fun e => nspace (ename e))
    (fun e => required (eattrs e) "namespace" ns /\ required (eattrs e) "schemaLocation" h) bare_ns).
Qed.
Lemma target_iff t ns : target_namespace (schema_struct t) ns <-> target_at t ns.
Proof. reflexivity. Qed.
Lemma linkbase_ref_iff t k h : names_linkbase (schema_struct t) k h <-> linkbase_ref_at t k h.
Proof.
  set (P := fun e => xlink (eattrs e) "arcrole" "http://www.w3.org/1999/xlink/properties/linkbase" /\
    xlink (eattrs e) "type" "simple" /\ xlink (eattrs e) "role" (linkbase_role k) /\ xlink (eattrs e) "href" h).
  pose proof (fun i => checked_kids i link_ns "linkbaseRef" bare (fun e => nspace (ename e)) P bare_ns) as K1.
  pose proof (fun a => checked_kids a xsd_ns "appinfo" read_appinfo (fun i => nspace (ai_name i))
    (fun i => exists e, In e (ai_linkbaseRef i) /\ nspace (ename e) = link_ns /\ P e) (fun y => eq_refl)) as K2.
  pose proof (checked_kids t xsd_ns "annotation" read_annotation (fun i => nspace (an_name i))
    (fun a => exists i, In i (an_appinfo a) /\ nspace (ai_name i) = xsd_ns /\
       exists e, In e (ai_linkbaseRef i) /\ nspace (ename e) = link_ns /\ P e) (fun y => eq_refl)) as K3.
  unfold names_linkbase, linkbase_ref_at, in_appinfo, link_element. split.
  - intros (an&ai&e&A1&A2&B1&B2&C1&C2&H). apply proj1 in K3. destruct K3 as (a&Ha&Na&K3); [exists an; eauto 10|].
    apply (proj1 (K2 a)) in K3 as (i&Hi&Ni&K3). apply (proj1 (K1 i)) in K3 as (x&Hx&Nx&K3).
    exists x. split; [exists a, i; auto|]. split; auto.
  - intros (x&(a&i&Ha&Na&Hi&Ni&Hx)&Nx&H). apply proj2 in K3. destruct K3 as (an&A1&A2&ai&B1&B2&e&C1&C2&C3).
    { exists a. split; auto. split; auto. apply (proj2 (K2 a)). exists i. split; auto. split; auto. apply (proj2 (K1 i)). exists x. auto. }
    exists an, ai, e. repeat (split; [assumption|]). exact C3.
Qed.

(** ** Documents *)
Section Disk.
  Variable d : disk.
  Variable dir : string.

  Lemma read_iff {B} l (f : tree -> B) path b :
    read_with d (decode l f) path = Some b <-> exists t, document_of d path l t /\ b = f t.
  Proof.
    unfold read_with, document_of, decode. split.
    - destruct (d_file d path) as [data|] eqn:E; [|discriminate]. destruct (d_xml d data) as [t|] eqn:X; [|discriminate].
      destruct (has_tag l t) eqn:T; [|discriminate]. intros [= <-]. apply has_tag_iff in T. eauto 10.
    - intros (t&(data&E&X&T)&->). rewrite E, X. apply has_tag_iff in T. now rewrite T.
  Qed.
  Lemma document_fun path l l' t t' : document_of d path l t -> document_of d path l' t' -> t = t'.
  Proof. intros (a&A1&A2&_) (b&B1&B2&_). congruence. Qed.
  Lemma local_fun h l l' t t' : local d dir h l t -> local d dir h l' t' -> t = t'.
  Proof. intros [_ A] [_ B]. eapply document_fun; eauto. Qed.

  Lemma schema_of_iff h f : (~ url_of (files_of d) h /\ schema_of (files_of d) dir h f) <-> exists t, local d dir h "schema" t /\ f = schema_struct t.
  Proof.
    unfold url_of, schema_of, local. cbn [files_of is_url read_schema]. unfold decode_schema. rewrite read_iff. split.
    - intros [U (t&D&->)]. exists t. split; auto. split; auto. now destruct (d_url d h).
    - intros (t&[U D]&->). split; [congruence|eauto].
  Qed.
  Definition struct_of (k : kind) (t : tree) : linkbase_file :=
    match k with
    | Presentation => linkbase_struct "presentationLink" (read_link "presentationArc") t
    | Definitional => linkbase_struct "definitionLink" (read_link "definitionArc") t
    | Calculation => linkbase_struct "calculationLink" (read_link "calculationArc") t
    | Labels => linkbase_struct "labelLink" read_label_link t
    end.
  Lemma linkbase_of_iff k h l : (~ url_of (files_of d) h /\ linkbase_of (files_of d) dir k h l) <->
    exists t, local d dir h "linkbase" t /\ l = struct_of k t.
  Proof.
    unfold url_of, linkbase_of, local. cbn [files_of is_url read_linkbase].
    assert (R : read_with d (decode_linkbase k) (join [dir; h]) = Some l <->
                exists t, document_of d (join [dir; h]) "linkbase" t /\ l = struct_of k t).
    { destruct k; cbn [decode_linkbase struct_of]; apply read_iff. }
    rewrite R. split.
    - intros [U (t&D&->)]. exists t. split; auto. split; auto. now destruct (d_url d h).
    - intros (t&[U D]&->). split; [congruence|eauto].
  Qed.

  Variable root : tree.
  Let refs := if_schemaRef (instance_struct root).
  Let w := files_of d.

  Lemma followed_iff h f : followed (url_of w) (schema_of w dir) refs h f <-> exists t, followed_at d dir root h t /\ f = schema_struct t.
  Proof.
    split.
    - induction 1 as [h f ns R U S T|g h0 h f ns _ (g'&G&->) R U S T|g h0 h f ns _ (g'&G&->) R U S].
      + destruct (proj1 (schema_of_iff h f) (conj U S)) as (t&L&->). exists t. split; auto.
        apply (fat_ref _ _ _ h t ns); auto. now apply refers_iff.
      + destruct (proj1 (schema_of_iff h f) (conj U S)) as (t&L&->). exists t. split; auto.
        apply (fat_include _ _ _ h0 g' h t ns); auto. now apply includes_iff.
      + destruct (proj1 (schema_of_iff h f) (conj U S)) as (t&L&->). exists t. split; auto.
        apply (fat_import _ _ _ h0 g' h t ns); auto. now apply imports_iff.
    - intros (t&F&->). induction F as [h t ns R L T|h0 g h t ns G IH R L T|h0 g h t ns G IH R L].
      + destruct (proj2 (schema_of_iff h (schema_struct t))) as [U S]; eauto.
        apply (follow_ref _ _ _ _ _ ns); auto. now apply refers_iff.
      + destruct (proj2 (schema_of_iff h (schema_struct t))) as [U S]; eauto.
        apply (follow_include _ _ _ (schema_struct g) h0 _ _ ns); auto. now apply includes_iff.
      + destruct (proj2 (schema_of_iff h (schema_struct t))) as [U S]; eauto.
        apply (follow_import _ _ _ (schema_struct g) h0 _ _ ns); auto. now apply imports_iff.
  Qed.
  Lemma followed_at_local h t : followed_at d dir root h t -> local d dir h "schema" t.
  Proof. destruct 1; auto. Qed.
  Lemma followed_linkbase_iff k h l : followed_linkbase (url_of w) (schema_of w dir) (linkbase_of w dir) refs k h l <->
    exists t, linkbase_at d dir root k h t /\ l = struct_of k t.
  Proof.
    split.
    - intros (h0&g&F&N&U&L). apply followed_iff in F as (g'&F&->). apply linkbase_ref_iff in N.
      destruct (proj1 (linkbase_of_iff k h l) (conj U L)) as (t&T&->). exists t. split; auto. now exists h0, g'.
    - intros (t&(h0&g&F&N&L)&->). destruct (proj2 (linkbase_of_iff k h (struct_of k t))) as [U S]; eauto.
      exists h0, (schema_struct g). split; [apply followed_iff; eauto|]. split; auto. now apply linkbase_ref_iff.
  Qed.
  Lemma claims_iff ns h : claims (url_of w) (schema_of w dir) refs ns h <-> claims_at d dir root ns h.
  Proof.
    split.
    - intros [h' f ns' R U S T|g h0 h' f ns' F R U S T|g h0 h' ns' F R].
      + destruct (proj1 (schema_of_iff h' f) (conj U S)) as (t&L&->). apply (cat_ref _ _ _ h' t ns'); auto. now apply refers_iff.
      + destruct (proj1 (schema_of_iff h' f) (conj U S)) as (t&L&->). apply followed_iff in F as (g'&F&->).
        apply (cat_include _ _ _ h0 g' h' t ns'); auto. now apply includes_iff.
      + apply followed_iff in F as (g'&F&->). apply (cat_import _ _ _ h0 g' h' ns'); auto. now apply imports_iff.
    - intros [h' t ns' R L T|h0 g h' t ns' F R L T|h0 g h' ns' F R].
      + destruct (proj2 (schema_of_iff h' (schema_struct t))) as [U S]; eauto.
        apply (claim_ref _ _ _ _ (schema_struct t) ns'); auto. now apply refers_iff.
      + destruct (proj2 (schema_of_iff h' (schema_struct t))) as [U S]; eauto.
        apply (claim_include _ _ _ (schema_struct g) h0 _ (schema_struct t) ns'); auto; [apply followed_iff; eauto|now apply includes_iff].
      + apply (claim_import _ _ _ (schema_struct g) h0 _ ns'); auto; [apply followed_iff; eauto|now apply imports_iff].
  Qed.
  Lemma concepts_of_iff t h cs : plain_declarations t -> (concepts_of (schema_struct t) h cs <-> image_of (concept_at t h) (kids t) cs).
  Proof.
    intro P. unfold concepts_of. cbn [schema_struct sf_element]. unfold field. etransitivity; [apply image_map_filter_iff|].
    apply image_ext_iff. intros x c Hx. apply concept_iff. intros N a. now apply P.
  Qed.
End Disk.

Lemma all_loaded_In {A B} (f : option A -> string -> res B) files out : all_loaded f files out ->
  (forall k b, In (k, b) out -> exists a, In (k, a) files /\ f (Some a) k = Ok b) /\
  (forall k a, In (k, a) files -> exists b, In (k, b) out /\ f (Some a) k = Ok b).
Proof.
  intros [K F]. revert K. induction F as [|[k a] [k' b] files out H F IH]; intro K; [split; intros ? ? []|].
  cbn in K. injection K as -> K. cbn in H. destruct (IH K) as [I1 I2]. split.
  - intros k0 b0 [[= <- <-]|Hb]; [exists a; simpl; auto|]. destruct (I1 _ _ Hb) as (a0&?&?). exists a0. simpl; auto.
  - intros k0 a0 [[= <- <-]|Ha]; [exists b; simpl; auto|]. destruct (I2 _ _ Ha) as (b0&?&?). exists b0. simpl; auto.
Qed.

(** ** The entry point *)
Lemma decodes_iff q : (exists s, decode_inline (Some q) = Some s) <-> exists x, descends q x /\ locally_named "html" x.
Proof.
  unfold decode_inline. destruct (image_head _ snd _ _ (query_all_hits [local_is "html"] q ltac:(discriminate))) as [J K].
  fold (query [local_is "html"] q) in K, J. destruct (query [local_is "html"] q) as [h|] eqn:E.
  - split; [|eauto]. intros _. destruct (proj1 (J h) eq_refl) as ([above x]&(l1&l2&W&Hh&_)&_). apply hit_one in Hh.
    exists x. split; [exists above; rewrite W; apply in_or_app; simpl; auto|]. now apply has_tag_iff.
  - split; [intros [s H]; discriminate|]. intros (x&(above&Hx)&N). exfalso. destruct K as [K _]. apply (K eq_refl _ Hx).
    apply hit_one. now apply has_tag_iff.
Qed.

Lemma entry_iff d dir name file i : entry_instance (files_of d) dir name file i <->
  exists root, entry_at d dir root name file /\ i = instance_struct root.
Proof.
  unfold entry_instance, entry_at. cbn [files_of read_instance read_file decode_ixbrl exists_file]. split.
  - intros (EF&R&H). unfold decode_instance in R. apply read_iff in R as (root&D&->). exists root. split; auto. split; auto. split; auto.
    intro N. destruct (H N) as (data&doc&A&B&C). destruct (d_html d data) as [q|] eqn:Q; [|discriminate].
    exists data, q. split; auto. split; auto. split; auto. apply decodes_iff.
    destruct (decode_inline (Some q)) as [s|]; [eauto|discriminate].
  - intros (root&(EF&D&H)&->). split; auto. split; [unfold decode_instance; apply read_iff; eauto|].
    intro N. destruct (H N) as (data&q&A&B&C&S). apply decodes_iff in C as [s C]. exists data, (inline_source s).
    split; auto. rewrite B, C. auto.
Qed.

(** ** Names *)
Section Names.
  Variable d : disk.
  Variable dir : string.
  Variable root : tree.
  Variable fd : folder.
  Hypothesis schemas : forall h f, In (h, f) (fdSchemas fd) <-> exists t, followed_at d dir root h t /\ f = schema_struct t.
  Hypothesis claimed : forall ns h, In (ns, h) (fdNamespaces fd) -> claims_at d dir root ns h.
  Hypothesis all_claimed : forall ns h, claims_at d dir root ns h -> exists h', In (ns, h') (fdNamespaces fd).
  Hypothesis plain : forall h t, known d dir root h t -> plain_declarations t.
  Let q := env_of fd (d_url d) (global_schema_file d).

  Lemma global_iff u f : global_schema_file d u = Ok f <->
    exists data t, d_global d u = Some data /\ d_xml d data = Some t /\ locally_named "schema" t /\ f = schema_struct t.
  Proof.
    unfold global_schema_file, decode_schema, decode. split.
    - destruct (d_global d u) as [data|] eqn:G; [|discriminate]. destruct (d_xml d data) as [t|] eqn:X; [|discriminate].
      destruct (has_tag "schema" t) eqn:T; [|discriminate]. intros [= <-]. apply has_tag_iff in T. eauto 10.
    - intros (data&t&->&->&T&->). apply has_tag_iff in T. now rewrite T.
  Qed.
  Lemma document_iff h f c cs : concepts_of f h cs -> In c cs ->
    (document_at q h f <-> exists t, known d dir root h t /\ f = schema_struct t).
  Proof.
    intros CO Hc. unfold document_at, known, q, env_of. cbn [q_is_url q_discover q_schemas]. split.
    - intros [[U G]|[U [I|[N E]]]].
      + apply global_iff in G as (data&t&G&X&T&->). exists t. split; auto. right. split; auto. eauto.
      + apply schemas in I as (t&F&->). eauto.
      + exfalso. subst f. inversion CO; subst. destruct Hc.
    - intros (t&[F|(U&data&G&X&T)]&->).
      + right. split; [apply followed_at_local in F as [U _]; auto|]. left. apply schemas. eauto.
      + left. split; auto. apply global_iff. eauto 10.
  Qed.
  Lemma names_declared ns l href c : names q ns l href c -> declared d dir root ns l href c.
  Proof.
    intros (h&f&cs&I&Nh&D&CO&F&->). pose proof F as F'. apply first_such_In in F' as [Hc _].
    apply (document_iff h f c cs CO Hc) in D as (t&K&->). exists h, t, cs. split; [now apply claimed|]. split; auto. split; auto.
    split; auto. apply concepts_of_iff; eauto.
  Qed.
  Lemma declared_names ns l href c : one_claim d dir root ns -> declared d dir root ns l href c -> names q ns l href c.
  Proof.
    intros O (h&t&cs&C&Nh&K&I&F&->). pose proof F as F'. apply first_such_In in F' as [Hc _].
    apply concepts_of_iff in I; [|eauto]. exists h, (schema_struct t), cs.
    destruct (all_claimed _ _ C) as (h'&I'). rewrite (O h' h (claimed _ _ I') C) in I'.
    split; auto. split; auto. split; auto. apply (document_iff h _ c cs I Hc). eauto.
  Qed.
End Names.

(** ** Cycles *)
Section Cycles.
  Variable d : disk.
  Variable dir : string.
  Variable root : tree.
  Lemma points_iff h h' : points_to (url_of (files_of d)) (schema_of (files_of d) dir) h h' <->
    exists g t, document_of d (join [dir; h]) "schema" g /\ local d dir h' "schema" t /\
      ((include_at g h' /\ exists ns, target_at t ns) \/ exists ns, import_at g ns h').
  Proof.
    unfold points_to. split.
    - intros (f&f'&F&F'&U&H). unfold schema_of in F. cbn [files_of read_schema] in F. unfold decode_schema in F.
      apply read_iff in F as (g&G&->). destruct (proj1 (schema_of_iff d dir h' f') (conj U F')) as (t&L&->).
      exists g, t. split; auto. split; auto. destruct H as [[I T]|[ns I]]; [left|right].
      + split; auto. now apply includes_iff.
      + exists ns. now apply imports_iff.
    - intros (g&t&G&L&H). destruct (proj2 (schema_of_iff d dir h' (schema_struct t))) as [U S]; eauto.
      exists (schema_struct g), (schema_struct t). split.
      { unfold schema_of. cbn [files_of read_schema]. unfold decode_schema. apply read_iff. eauto. }
      split; auto. split; auto. destruct H as [[I T]|[ns I]]; [left|right].
      + split; auto. now apply includes_iff.
      + exists ns. now apply imports_iff.
  Qed.
End Cycles.
