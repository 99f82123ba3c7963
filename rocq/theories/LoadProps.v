(** * LoadProps: C114-C118 (from the files of a folder to the loaded report) *)
From Verif Require Import GoBase GoSpec GoFacts AttrModel AttrSpec AttrProofs SchemaModel SchemaSpec SchemaProofs SchemaProps
  LinkbaseModel LinkbaseSpec LinkbaseProofs LinkbaseProps InstanceModel InstanceSpec InstanceProofs InstanceProps
  HydrateModel HydrateSpec HydrateProofs HydrateProps LabelSpec LabelProofs PathModel DiscoverModel DiscoverSpec DiscoverProofs DiscoverProps
  XmlModel XmlSpec XmlProofs XmlProps LoadModel LoadSpec LoadProofs.
Local Open Scope string_scope.

Definition supported (name : string) : Prop := inline_name name \/ instance_name name.
(** all that follows is read off this *)
Lemma loaded_parts d dir name images pf sh tokens utr h : supported name -> loaded d dir name images pf sh tokens utr h ->
  exists file root fd doc, entry_at d dir root name file /\ fdInstances fd = [(file, instance_struct root)] /\
    (forall x f, In (x, f) (fdSchemas fd) <-> exists t, followed_at d dir root x t /\ f = schema_struct t) /\
    (forall k x l, In (x, l) (holds_linkbases fd k) <-> exists t, linkbase_at d dir root k x t /\ l = struct_of k t) /\
    (forall ns x, In (ns, x) (fdNamespaces fd) -> claims_at d dir root ns x) /\
    (forall ns x, claims_at d dir root ns x -> exists x', In (ns, x') (fdNamespaces fd)) /\
    NoDup (map fst (fdNamespaces fd)) /\ NoDup (map fst (fdSchemas fd)) /\
    (inline_name name -> exists data q s, d_file d (join [dir; name]) = Some data /\ d_html d data = Some q /\
       decode_inline (Some q) = Some s /\ fdDocument fd = Some (inline_source s)) /\
    (instance_name name -> fdDocument fd = None) /\
    hydrate_document (fdDocument fd) doc /\
    hydrate pf sh (d_url d) (global_schema_file d) tokens utr doc fd = Ok h.
Proof.
  intros N (fd&doc&D&HD&H). destruct (C102_instance_partial _ _ _ _ _ N D) as (file&i&EI&FI&ID&ND).
  pose proof EI as EI'. apply entry_iff in EI' as (root&EA&->).
  destruct (outcome_exact _ _ _ _ _ _ _ EI D) as (H1&H2&H3&H4&M1&M2&_).
  exists file, root, fd, doc. split; auto. split; auto.
  split; [intros x f; rewrite H1; apply followed_iff|].
  split; [intros k x l; rewrite H2; apply followed_linkbase_iff|].
  split; [intros ns x Hx; apply claims_iff; auto|].
  split; [intros ns x Hx; apply claims_iff in Hx; eauto|].
  split; auto. split; auto. split; [|auto].
  intro IN. destruct (ID IN) as (data&dc&A&B&C). cbn [files_of decode_ixbrl] in B.
  destruct (d_html d data) as [q|] eqn:Q; [|discriminate]. destruct (decode_inline (Some q)) as [s|] eqn:S; [|discriminate].
  injection B as <-. eauto 10.
Qed.

Lemma one_loaded {A B} (f : option A -> string -> res B) (files : list (string * A)) (out : list (string * B)) : all_loaded f files out ->
  forall k a, files = [(k, a)] -> exists b, out = [(k, b)] /\ f (Some a) k = Ok b.
Proof.
  intros [K F] k a ->. inversion F as [|? [k' b] ? ? H T]; subst. inversion T; subst. cbn in *. injection K as ->. eauto.
Qed.

Lemma entry_root d dir name file file' root root' : entry_at d dir root name file -> entry_at d dir root' name file' -> root' = root.
Proof.
  intros (A&D&_) (A'&D'&_). assert (file' = file) as ->.
  { assert (X : inline_name name -> instance_name name -> False) by (intros I J; apply inline_iff in I; apply instance_iff in J; destruct I, J; congruence).
    destruct A as [[I ->]|[I ->]], A' as [[I' ->]|[I' ->]]; auto; now elim X. }
  eapply document_fun; eauto.
Qed.

(** ** C114: the documents of a report *)
Definition has_linkbases (h : hydratable) (k : kind) (x : string) : Prop :=
  match k with
  | Presentation => In x (map fst (hPresentation h))
  | Definitional => In x (map fst (hDefinition h))
  | Calculation => In x (map fst (hCalculation h))
  | Labels => In x (map fst (hLabel h))
  end.
(** The schemas and linkbases of a loaded report are exactly the ones its instance
    leads to, by the references in their XML. *)
Theorem C114_documents :
  forall d dir name images pf sh tokens utr h, supported name -> loaded d dir name images pf sh tokens utr h ->
    exists file root, entry_at d dir root name file /\ map fst (hInstances h) = [file] /\
      (forall x, In x (map fst (hSchemas h)) <-> exists t, followed_at d dir root x t) /\
      (forall k x, has_linkbases h k x <-> exists t, linkbase_at d dir root k x t).
Proof.
  intros d dir name images pf sh tokens utr h N L.
  destruct (loaded_parts _ _ _ _ _ _ _ _ _ N L) as (file&root&fd&doc&EA&FI&S&LB&_&_&_&_&_&_&_&H).
  exists file, root. split; auto.
  apply C79_complete in H as (_&[HS _]&[HP _]&[HD _]&[HC _]&[HL _]&[HI _]&_).
  split; [rewrite HI, FI; reflexivity|]. 
  assert (K : forall {A} (m : list (string * A)) (P : string -> A -> Prop), (forall x a, In (x, a) m <-> P x a) ->
    forall x, In x (map fst m) <-> exists a, P x a).
  { intros A m P E x. rewrite in_map_iff. split.
    - intros ([x' a]&<-&Hx). exists a. now apply E.
    - intros (a&Hx). exists (x, a). split; auto. now apply E. }
  split.
  - intro x. rewrite HS, (K _ _ _ S x). split; [intros (f&t&F&_); eauto|intros (t&F); eauto].
  - assert (G : forall k x, In x (map fst (holds_linkbases fd k)) <-> exists t, linkbase_at d dir root k x t).
    { intros k x. rewrite (K _ _ _ (LB k) x). split; [intros (f&t&F&_); eauto|intros (t&F); eauto]. }
    intros [] x; cbn [has_linkbases]; [rewrite HP; apply (G Presentation)|rewrite HD; apply (G Definitional)|rewrite HC; apply (G Calculation)|rewrite HL; apply (G Labels)].
Qed.
Print Assumptions C114_documents.

(** ** C115: facts *)
(** Facts of the concepts declared in the documents of the report, except where two
    documents are given for the namespace of a fact (and except for facts named
    like XBRL's own elements and facts in tuples, see C103). *)
Theorem C115_facts_partial :
  forall d dir name images pf sh tokens utr h, supported name -> loaded d dir name images pf sh tokens utr h ->
    exists file root i, entry_at d dir root name file /\ hInstances h = [(file, i)] /\
      ((forall x t, known d dir root x t -> plain_declarations t) ->
       (forall x ns l, In x (kids root) -> named ns l x -> one_claim d dir root ns) ->
       exists fs, image_of (fun x fa => fact_at (declared d dir root) x fa /\ forall l, In l own_names -> ~ locally_named l x) (kids root) fs /\
         stably_sorted (fun a b => String.ltb (fID a) (fID b)) fs (iFacts i)).
Proof.
  intros d dir name images pf sh tokens utr h N L.
  destruct (loaded_parts _ _ _ _ _ _ _ _ _ N L) as (file&root&fd&doc&EA&FI&S&_&CL&AC&M1&M2&_&_&_&H).
  apply C79_complete in H as (_&_&_&_&_&_&HI&_).
  destruct (one_loaded _ _ _ HI _ _ FI) as (i&HI'&E).
  exists file, root, i. split; auto. split; auto. intros P O.
  assert (D : decode_instance (Some root) = Ok (instance_struct root)).
  { destruct EA as (_&(data&_&_&T)&_). unfold decode_instance, decode. apply has_tag_iff in T. now rewrite T. }
  destruct (C103_facts_partial _ _ _ _ _ _ (conj M1 M2 : qenv_ok (env_of fd (d_url d) (global_schema_file d))) D E) as (fs&I&ST).
  exists fs. split; auto. revert I. apply image_ext. intros x fa Hx.
  apply and_iff_compat_r. unfold reads_as_fact, fact_at. split.
  - intros (n&a&inner&ks&->&[(c&N1&N2&C) A B U Pr Nil In_]). cbn [ename eattrs etext] in *. destruct n as [ns l]. cbn in N1, N2, C.
    exists ns, l. split; [do 3 eexists; reflexivity|]. split; auto. split; auto. split; [|tauto].
    exists c. eapply names_declared; eauto.
  - intros (ns&l&(a&inner&ks&->)&N1&N2&(c&C)&A&B&U&Pr&Nil&In_). cbn [attributes raw] in *.
    exists (XName ns l), a, inner, ks. split; auto. split; auto. exists c. split; auto. split; auto. cbn.
    eapply declared_names; eauto. eapply O; eauto. do 3 eexists; reflexivity.
Qed.
Print Assumptions C115_facts_partial.

(** ** C116: the contents of a report's documents are what their XML says, under the
    conditions of C104, C105, C107, C108, C112 and C113 *)
Theorem C116_schemas_partial :
  forall d dir name images pf sh tokens utr h, supported name -> loaded d dir name images pf sh tokens utr h ->
    exists file root, entry_at d dir root name file /\
      forall x s, In (x, s) (hSchemas h) -> exists t, followed_at d dir root x t /\
        (plain_declarations t -> concepts_as_written t x s) /\
        (single_appinfo t -> plain_roles t -> roles_as_written t s).
Proof.
  intros d dir name images pf sh tokens utr h N L.
  destruct (loaded_parts _ _ _ _ _ _ _ _ _ N L) as (file&root&fd&doc&EA&FI&S&_&_&_&_&_&_&_&_&H).
  exists file, root. split; auto. intros x s Hs.
  apply C79_complete in H as (_&HS&_). apply all_loaded_In in HS as [HS _].
  destruct (HS _ _ Hs) as (f&Hf&E). apply S in Hf as (t&F&->). exists t. split; auto.
  assert (D : decode_schema (Some t) = Ok (schema_struct t)).
  { apply followed_at_local in F as [_ (data&_&_&T)]. unfold decode_schema, decode. apply has_tag_iff in T. now rewrite T. }
  split.
  - intro P. eapply C107_concepts_partial; eauto.
  - intros P1 P2. eapply C112_roles_partial; eauto.
Qed.
Print Assumptions C116_schemas_partial.
Theorem C116_networks_partial :
  forall d dir name images pf sh tokens utr h, orders sh -> supported name -> loaded d dir name images pf sh tokens utr h ->
    exists file root, entry_at d dir root name file /\
      (forall x lb, In (x, lb) (hPresentation h) -> exists t, linkbase_at d dir root Presentation x t /\
         (own_links t "presentationLink" ["loc"; "presentationArc"] ->
          links_as_written "presentationLink" "presentationArc" (is_presentation_arc pf) t lb)) /\
      (forall x lb, In (x, lb) (hDefinition h) -> exists t, linkbase_at d dir root Definitional x t /\
         (own_links t "definitionLink" ["loc"; "definitionArc"] ->
          links_as_written "definitionLink" "definitionArc" (is_definition_arc pf) t lb)) /\
      (forall x lb, In (x, lb) (hCalculation h) -> exists t, linkbase_at d dir root Calculation x t /\
         (own_links t "calculationLink" ["loc"; "calculationArc"] ->
          links_as_written "calculationLink" "calculationArc" (is_calculation_arc pf) t lb)) /\
      (forall x lb, In (x, lb) (hLabel h) -> exists t, linkbase_at d dir root Labels x t /\
         (own_links t "labelLink" ["loc"; "label"; "labelArc"] -> plain_labels t -> labels_as_written pf t lb)).
Proof.
  intros d dir name images pf sh tokens utr h (OP&OD&OC) N L.
  destruct (loaded_parts _ _ _ _ _ _ _ _ _ N L) as (file&root&fd&doc&EA&FI&_&LB&_&_&_&_&_&_&_&H).
  exists file, root. split; auto.
  apply C79_complete in H as (_&_&HP&HD&HC&HL&_). apply all_loaded_In in HP as [HP _], HD as [HD _], HC as [HC _], HL as [HL _].
  assert (T : forall k x t, linkbase_at d dir root k x t -> has_tag "linkbase" t = true).
  { intros k x t (?&?&_&_&[_ (?&_&_&T)]). now apply has_tag_iff. }
  split; [|split; [|split]].
  - intros x lb Hx. destruct (HP _ _ Hx) as (f&Hf&E). apply (LB Presentation) in Hf as (t&F&->). exists t. split; auto. intro O.
    eapply C108_presentation_partial; eauto. unfold decode_presentation, decode. rewrite (T _ _ _ F). reflexivity.
  - intros x lb Hx. destruct (HD _ _ Hx) as (f&Hf&E). apply (LB Definitional) in Hf as (t&F&->). exists t. split; auto. intro O.
    eapply C108_definition_partial; eauto. unfold decode_definition, decode. rewrite (T _ _ _ F). reflexivity.
  - intros x lb Hx. destruct (HC _ _ Hx) as (f&Hf&E). apply (LB Calculation) in Hf as (t&F&->). exists t. split; auto. intro O.
    eapply C108_calculation_partial; eauto. unfold decode_calculation, decode. rewrite (T _ _ _ F). reflexivity.
  - intros x lb Hx. destruct (HL _ _ Hx) as (f&Hf&E). apply (LB Labels) in Hf as (t&F&->). exists t. split; auto. intros O P.
    eapply C105_labels_partial; eauto. unfold decode_label, decode. rewrite (T _ _ _ F). reflexivity.
Qed.
Print Assumptions C116_networks_partial.
(** [q] tells what names mean: only what the documents of the report declare, and
    all of it if one document only is given for the namespace *)
Definition understands (d : disk) (dir : string) (root : tree) (q : qenv) : Prop :=
  (forall ns l href c, names q ns l href c -> declared d dir root ns l href c) /\
  (forall ns l href c, one_claim d dir root ns -> declared d dir root ns l href c -> names q ns l href c).
Theorem C116_instance_partial :
  forall d dir name images pf sh tokens utr h, supported name -> loaded d dir name images pf sh tokens utr h ->
    exists file root i, entry_at d dir root name file /\ hInstances h = [(file, i)] /\
      (own_links root "footnoteLink" ["footnote"; "loc"; "footnoteArc"] -> footnotes_as_written root i) /\
      (no_homonyms root -> declared_at_root root -> plain_texts root -> units_as_written root i /\
         ((forall x t, known d dir root x t -> plain_declarations t) ->
          exists q, understands d dir root q /\ contexts_as_written q tokens root i)).
Proof.
  intros d dir name images pf sh tokens utr h N L.
  destruct (loaded_parts _ _ _ _ _ _ _ _ _ N L) as (file&root&fd&doc&EA&FI&S&_&CL&AC&M1&M2&_&_&_&H).
  apply C79_complete in H as (_&_&_&_&_&_&HI&_).
  destruct (one_loaded _ _ _ HI _ _ FI) as (i&HI'&E).
  exists file, root, i. split; auto. split; auto.
  assert (D : decode_instance (Some root) = Ok (instance_struct root)).
  { destruct EA as (_&(data&_&_&T)&_). unfold decode_instance, decode. apply has_tag_iff in T. now rewrite T. }
  split; [intro O; eapply C113_footnotes_partial; eauto|]. intros NH DR PT. split; [eapply C104_units_partial; eauto|].
  intro P. exists (env_of fd (d_url d) (global_schema_file d)). split.
  - split; intros; [eapply names_declared; eauto|eapply declared_names; eauto].
  - eapply C104_contexts_partial; eauto. split; auto.
Qed.
Print Assumptions C116_instance_partial.

(** ** C117: the index of an inline document (see C111 for the conditions) *)
Theorem C117_index_partial :
  forall d dir name images pf sh tokens utr h, loaded d dir name images pf sh tokens utr h ->
    (instance_name name -> hDocument h = None) /\
    (inline_name name -> exists data q, d_file d (join [dir; name]) = Some data /\ d_html d data = Some q /\
       (declared_at_html q -> conforming_facts q -> exists doc, hDocument h = Some doc /\ knows ["nonNumeric"; "nonFraction"] q doc)).
Proof.
  intros d dir name images pf sh tokens utr h L. split; intro N.
  - destruct (loaded_parts _ _ _ _ _ _ _ _ _ (or_intror N) L) as (file&root&fd&doc&_&_&_&_&_&_&_&_&_&ND&HD&H).
    apply C79_complete in H as (_&_&_&_&_&_&_&_&E). rewrite (ND N) in HD. inversion HD; subst; congruence.
  - destruct (loaded_parts _ _ _ _ _ _ _ _ _ (or_introl N) L) as (file&root&fd&doc&_&_&_&_&_&_&_&_&ID&_&HD&H).
    apply C79_complete in H as (_&_&_&_&_&_&_&_&E). destruct (ID N) as (data&q&s&A&B&C&D). exists data, q. split; auto. split; auto.
    intros DH CF. rewrite D in HD. 
    assert (LD : loads q doc) by (exists s; auto).
    destruct (C111_facts_partial q doc LD DH) as (doc'&E'&K); auto.
    + rewrite (html_root q s DH C) in HD. intro P. inversion HD; subst; cbn [dsHtml] in *; congruence.
    + exists doc'. split; auto. congruence.
Qed.
Print Assumptions C117_index_partial.

(** ** C118: which reports can be loaded *)
Lemma cycles_iff d dir root : acyclic (url_of (files_of d)) (schema_of (files_of d) dir) (if_schemaRef (instance_struct root)) <->
  no_cycles d dir root.
Proof.
  unfold acyclic, no_cycles, ends.
  assert (E : forall h, Acc (fun h' h => points_to (url_of (files_of d)) (schema_of (files_of d) dir) h h') h <->
                        Acc (fun h' h => leads_to d dir h h') h).
  { intro h. split; intro A; induction A as [h _ IH]; constructor; intros h' P; apply IH; now apply points_iff. }
  split.
  - intros A h t F. apply E, (A h (schema_struct t)). apply followed_iff. eauto.
  - intros A h f F. apply followed_iff in F as (t&F&->). apply E. eauto.
Qed.
(** Discovery ends exactly if no chain of references is endless. *)
Theorem C118_ends :
  forall d dir root name file images, entry_at d dir root name file ->
    ((exists o, discover (files_of d) dir (Ok name) images o) <-> no_cycles d dir root).
Proof.
  intros d dir root name file images EA.
  assert (EI : entry_instance (files_of d) dir name file (instance_struct root)) by (apply entry_iff; eauto).
  rewrite (C69_exact_partial _ _ _ images _ _ EI). apply cycles_iff.
Qed.
Print Assumptions C118_ends.
(** Then the report loads, if its contexts are simple and its inline facts, if any,
    conforming; whatever the schedule. *)
Lemma each_loaded {A B} (f : option A -> string -> res B) (files : list (string * A)) :
  (forall k a, In (k, a) files -> exists b, f (Some a) k = Ok b) -> exists out, all_loaded f files out.
Proof.
  induction files as [|[k a] files IH]; intro H; [exists []; split; constructor|].
  destruct IH as (out&K&F); [intros; apply H; simpl; auto|]. destruct (H k a) as (b&E); [simpl; auto|].
  exists ((k, b) :: out). split; [simpl; now rewrite K|]. constructor; auto.
Qed.
Lemma linkbase_href d dir root k x t : linkbase_at d dir root k x t -> x <> "".
Proof. intros (?&?&_&(?&_&_&_&_&_&[_ H])&_). exact H. Qed.
Lemma followed_href d dir root x t : followed_at d dir root x t -> x <> "".
Proof. intros [h t' ns (?&_&_&_&H)|h0 g h t' ns _ (?&_&_&_&H)|h0 g h t' ns _ (?&_&_&_&_&H)]; exact H. Qed.
Theorem C118_loads_partial :
  forall d dir root name file images pf sh tokens u, entry_at d dir root name file -> simple_contexts root ->
    (inline_name name -> forall data q, d_file d (join [dir; name]) = Some data -> d_html d data = Some q ->
       declared_at_html q /\ conforming_facts q /\ new_name_provider (attributes q) <> Panic) ->
    forall fd, discover (files_of d) dir (Ok name) images (Ok fd) ->
    exists h, loaded d dir name images pf sh tokens (Ok u) h /\ hFolder h = fd.
Proof.
  intros d dir root name file images pf sh tokens u EA SC IL fd D.
  assert (N : supported name) by (destruct EA as ([[N _]|[N _]]&_); [now left|now right]).
  assert (EI : entry_instance (files_of d) dir name file (instance_struct root)) by (apply entry_iff; eauto).
  destruct (outcome_exact _ _ _ _ _ _ _ EI D) as (H1&H2&_).
  destruct (C102_instance_partial _ _ _ _ _ N D) as (file'&i&EI'&FI&ID&ND).
  assert (file' = file /\ i = instance_struct root) as [-> ->].
  { destruct EI as (F1&R1&_), EI' as (F2&R2&_).
    assert (file' = file); [|subst; split; auto; congruence].
    destruct F1 as [[A1 ->]|[A1 ->]], F2 as [[A2 ->]|[A2 ->]]; auto; exfalso;
      apply inline_iff in A1 || apply instance_iff in A1; apply inline_iff in A2 || apply instance_iff in A2; destruct A1, A2; congruence. }
  assert (LH : forall k x l, In (x, l) (holds_linkbases fd k) -> x <> "").
  { intros k x l Hl. apply H2, followed_linkbase_iff in Hl as (t&F&_). eapply linkbase_href; eauto. }
  assert (LO : forall arc (harc : elem -> option arc) shuf k x l, In (x, l) (holds_linkbases fd k) ->
     exists lb, hydrate_linkbase harc shuf (Some l) x = Ok lb).
  { intros arc harc shuf k x l Hl. destruct (C46_fails_exactly_without_name_or_file pf arc harc shuf (Some l) x) as [[P E] _].
    destruct (hydrate_linkbase harc shuf (Some l) x) as [lb|m|]; eauto; [|contradiction].
    destruct (proj1 E (ex_intro _ m eq_refl)) as [X|X]; [|discriminate]. now apply LH in Hl. }
  destruct (each_loaded hydrate_schema (fdSchemas fd)) as (ss&HS).
  { intros x f Hf. destruct (C44_fails_exactly_without_name_or_file (Some f) x) as [P E].
    destruct (hydrate_schema (Some f) x) as [s|m|]; eauto; [|contradiction].
    destruct (proj1 E (ex_intro _ m eq_refl)) as [X|X]; [|discriminate].
    apply H1, followed_iff in Hf as (t&F&_). now apply followed_href in F. }
  destruct (each_loaded (fun x n => hydrate_linkbase (hydrate_parc pf) (shP sh n) x n) (fdPresentation fd)) as (ps&HP);
    [intros x l Hl; apply (LO _ _ _ Presentation); auto|].
  destruct (each_loaded (fun x n => hydrate_linkbase (hydrate_darc pf) (shD sh n) x n) (fdDefinition fd)) as (ds&HDf);
    [intros x l Hl; apply (LO _ _ _ Definitional); auto|].
  destruct (each_loaded (fun x n => hydrate_linkbase (hydrate_carc pf) (shC sh n) x n) (fdCalculation fd)) as (cs&HC);
    [intros x l Hl; apply (LO _ _ _ Calculation); auto|].
  destruct (each_loaded (hydrate_label_linkbase pf) (fdLabel fd)) as (ls&HL).
  { intros x l Hl. destruct (C46_fails_exactly_without_name_or_file pf parc (hydrate_parc pf) (fun l => l) (Some l) x) as [_ [P E]].
    destruct (hydrate_label_linkbase pf (Some l) x) as [lb|m|]; eauto; [|contradiction].
    destruct (proj1 E (ex_intro _ m eq_refl)) as [X|X]; [|discriminate]. now apply (LH Labels) in Hl. }
  destruct (each_loaded (hydrate_instance (env_of fd (d_url d) (global_schema_file d)) tokens) (fdInstances fd)) as (is&HI).
  { rewrite FI. intros x f [[= <- <-]|[]]. apply C39_no_crash_partial.
    - destruct EA as ([[[[st E]|[st E]] ->]|[[[st E]|[st E]] ->]]&_); subst; destruct st; discriminate.
    - intros c Hc. cbn [instance_struct if_context] in Hc. apply in_map_iff in Hc as (y&<-&Hy). apply filter_In in Hy as [Hy T].
      apply has_tag_iff in T. destruct (SC y Hy T) as [(e&He&Ne) _]. cbn [read_context cx_entity]. rewrite map_nil_iff.
      intro X. apply has_tag_iff in Ne. assert (In e (field "entity" y)) by (apply filter_In; split; auto). rewrite X in H. destruct H.
    - intros c s e href Hc Hs He. exfalso. cbn [instance_struct if_context] in Hc. apply in_map_iff in Hc as (y&<-&Hy).
      apply filter_In in Hy as [Hy T]. apply has_tag_iff in T. destruct (SC y Hy T) as (_&S1&S2).
      cbn [read_context cx_entity cx_scenario] in Hs. destruct Hs as [Hs|(en&Hen&Hs)].
      + apply in_map_iff in Hs as (z&<-&Hz). apply filter_In in Hz as [Hz Tz]. apply has_tag_iff in Tz.
        cbn [read_members sg_typed] in He. apply in_map_iff in He as (m&<-&Hm). apply filter_In in Hm as [Hm Tm].
        apply has_tag_iff in Tm. exact (S1 z m Hz Tz Hm Tm).
      + apply in_map_iff in Hen as (v&<-&Hv). apply filter_In in Hv as [Hv Tv]. apply has_tag_iff in Tv.
        cbn [read_entity en_segment] in Hs. apply in_map_iff in Hs as (z&<-&Hz). apply filter_In in Hz as [Hz Tz]. apply has_tag_iff in Tz.
        cbn [read_members sg_typed] in He. apply in_map_iff in He as (m&<-&Hm). apply filter_In in Hm as [Hm Tm].
        apply has_tag_iff in Tm. exact (S2 v z m Hv Tv Hz Tz Hm Tm). }
  assert (HD : exists doc, hydrate_document (fdDocument fd) (Ok doc)).
  { destruct N as [IN|IN]; [|rewrite (ND IN); exists None; constructor].
    destruct (ID IN) as (data&dc&A&B&->). cbn [files_of decode_ixbrl read_file] in A, B.
    destruct (d_html d data) as [q|] eqn:Q; [|discriminate]. destruct (decode_inline (Some q)) as [s|] eqn:S; [|discriminate].
    injection B as <-. destruct (IL IN data q A Q) as (DH&CF&NP). destruct (proj1 C72_terminates (Some (inline_source s))) as (r&HR).
    destruct (C111_facts_partial q r) as (doc'&->&_); auto; [exists s; auto|]. eauto. }
  destruct HD as (doc&HD).
  exists (Hydratable fd u doc is ss ls ps ds cs). split; [|reflexivity].
  exists fd, (Ok doc). split; auto. split; auto. apply C79_complete. cbn. repeat (split; [assumption||reflexivity|]). reflexivity.
Qed.
Print Assumptions C118_loads_partial.

(** ** Small folders, with a file "_" *)
Definition small_disk (trees : list (string * tree)) : disk :=
  Disk (fun h => String.eqb (substring 0 7 h) "http://") (fun p => if existsb (String.eqb p) ("/wd/folders/f/_" :: map fst trees) then Some p else None)
    (fun _ => true) (fun p => sget p trees) (fun _ => None) (fun _ => None).
Definition in_dir (n : string) : string := "/wd/folders/f/" ++ n.
Definition schema_ref_to (h : string) : tree := lk "schemaRef" [xl "type" "simple"; xl "href" h] [].
Definition xbrl_doc (ks : list tree) : tree := xi "xbrl" [] ks.
Definition schema_tree (ns : string) (ks : list tree) : tree := xs "schema" [pa "targetNamespace" ns] ks.
Definition concept_tree (n : string) : tree := xs "element" [pa "id" ("id_" ++ n); pa "name" n; pa "type" "t"] [].
Definition fact_tree (ns l id : string) : tree := XmlElem (XName ns l) [pa "id" id; pa "contextRef" "c"] "1" [txt "1"].

Lemma small_entry_at trees root : sget (in_dir "x.xml") trees = Some root -> locally_named "xbrl" root ->
  entry_at (small_disk trees) small_dir root "x.xml" "x.xml".
Proof.
  intros G N. split; [right; split; auto; right; now exists "x"|]. split.
  - exists (in_dir "x.xml"). split; [|split; auto]. cbn [small_disk d_file].
    change (join [small_dir; "x.xml"]) with (in_dir "x.xml").
    apply sget_In in G. replace (existsb _ _) with true; auto. symmetry. apply existsb_exists. exists (in_dir "x.xml").
    split; [right; now apply (in_map fst) in G|apply String.eqb_refl].
  - intros H. apply inline_iff in H. destruct H as [H|H]; discriminate H.
Qed.

(** C115, refuted: a.xsd declares the concept A and includes b.xsd, of the same
    namespace; the fact of A is never loaded. *)
Definition include_disk : disk := small_disk
  [(in_dir "x.xml", xbrl_doc [schema_ref_to "a.xsd"; fact_tree "urn:a" "A" "f1"]);
   (in_dir "a.xsd", schema_tree "urn:a" [xs "include" [pa "schemaLocation" "b.xsd"] []; concept_tree "A"]);
   (in_dir "b.xsd", schema_tree "urn:a" [concept_tree "B"])].
Definition iw := files_of include_disk.
Definition schema_ia := schema_struct (schema_tree "urn:a" [xs "include" [pa "schemaLocation" "b.xsd"] []; concept_tree "A"]).
Definition schema_ib := schema_struct (schema_tree "urn:a" [concept_tree "B"]).
Definition inst_i := instance_struct (xbrl_doc [schema_ref_to "a.xsd"; fact_tree "urn:a" "A" "f1"]).
Definition ifd0 := first_folder iw small_dir "x.xml".
Definition ifd1 := set_namespace "urn:a" "a.xsd" ifd0.
Definition ifd2 := set_namespace "urn:a" "b.xsd" ifd1.
Definition ifd3 := set_schema "b.xsd" schema_ib ifd2.
Definition ifd4 := set_schema "a.xsd" schema_ia ifd3.
Definition include_states : list state :=
  [(ifd0, [Run (Claim "urn:a" "a.xsd" (Load "a.xsd" schema_ia))]);
   (ifd1, [Run (Load "a.xsd" schema_ia)]);
   (ifd1, [Wait [Run (Claim "urn:a" "b.xsd" (Load "b.xsd" schema_ib))] "a.xsd" schema_ia]);
   (ifd2, [Wait [Run (Load "b.xsd" schema_ib)] "a.xsd" schema_ia]);
   (ifd2, [Wait [Wait [] "b.xsd" schema_ib] "a.xsd" schema_ia]);
   (ifd3, [Wait [Finished] "a.xsd" schema_ia]);
   (ifd4, [Finished])].
Lemma include_closed x : In x include_states -> forall y, In y (lsucc iw small_dir (fst x) [] (snd x)) -> In y include_states.
Proof.
  intros Hx y Hy. unfold include_states in *. cbn [In] in Hx.
  destruct Hx as [<-|[<-|[<-|[<-|[<-|[<-|[<-|[]]]]]]]]; vm_compute in Hy; destruct Hy as [<-|[]] || destruct Hy.
  - right; left; reflexivity.
  - do 2 right; left; reflexivity.
  - do 3 right; left; reflexivity.
  - do 4 right; left; reflexivity.
  - do 5 right; left; reflexivity.
  - do 6 right; left; reflexivity.
Qed.
Lemma include_entry : entry_instance iw small_dir "x.xml" "x.xml" inst_i.
Proof.
  apply entry_iff. eexists. split; [|reflexivity]. apply small_entry_at; [reflexivity|]. do 4 eexists; reflexivity.
Qed.
Lemma include_outcome images fd : discover iw small_dir (Ok "x.xml") images (Ok fd) <-> fd = finish "x.xml" inst_i ifd4.
Proof.
  rewrite (discover_iff iw small_dir "x.xml" images "x.xml" inst_i _ include_entry). split.
  - intros (s & R & J & [= ->]). apply (closed_runs iw small_dir include_states) in R; [|apply include_closed|left; reflexivity].
    cbn [include_states In] in R.
    destruct R as [<-|[<-|[<-|[<-|[<-|[<-|[<-|[]]]]]]]]; try (inversion J; discriminate). reflexivity.
  - intros ->. exists (ifd4, [Finished]). split; [|split; [repeat constructor|reflexivity]].
    assert (S : forall fd p fd' p' s0, fruns iw small_dir s0 (fd, [p]) -> pstep iw small_dir fd p fd' p' -> fruns iw small_dir s0 (fd', [p'])).
    { intros fd p fd' p' s0 R H. eapply fruns_step; [exact R|]. apply (fstep_one iw small_dir fd fd' [] p p' [] H). }
    eapply S; [|apply (step_joined _ _ ifd3 [Finished]); repeat constructor].
    eapply S; [|apply (step_child _ _ ifd2 ifd3 [] (Wait [] "b.xsd" schema_ib) Finished []); apply step_joined; constructor].
    eapply S; [|apply (step_child _ _ ifd2 ifd2 [] (Run (Load "b.xsd" schema_ib)) _ []); apply (step_load iw small_dir ifd2 "b.xsd" schema_ib)].
    eapply S; [|apply (step_child _ _ ifd1 ifd2 [] (Run (Claim "urn:a" "b.xsd" (Load "b.xsd" schema_ib))) _ []); apply step_claim].
    eapply S; [|apply (step_load iw small_dir ifd1 "a.xsd" schema_ia)]. eapply S; [|apply step_claim]. constructor.
Qed.
Lemma small_document trees p l t : document_of (small_disk trees) p l t -> In (p, t) trees /\ locally_named l t.
Proof.
  intros (data&F&X&N). cbn in F, X. destruct (_ || _)%bool in F; [|discriminate]. injection F as <-. apply sget_In in X. auto.
Qed.
(** no declaration in these trees declares a namespace *)
Ltac prove_plain := intros ? ? Hx _ Ha; simpl in Hx; repeat destruct Hx as [<-|Hx]; try contradiction; simpl in Ha;
  repeat destruct Ha as [<-|Ha]; try contradiction; split; discriminate.
Theorem C115_include_refuted :
  ~ (forall d dir name images pf sh tokens utr h, supported name -> loaded d dir name images pf sh tokens utr h ->
       forall file root i, entry_at d dir root name file -> hInstances h = [(file, i)] ->
       (forall x t, known d dir root x t -> plain_declarations t) ->
       forall x fa, In x (kids root) -> (forall l, In l own_names -> ~ locally_named l x) ->
         fact_at (declared d dir root) x fa -> In fa (iFacts i)).
Proof.
  intro H.
  set (root := xbrl_doc [schema_ref_to "a.xsd"; fact_tree "urn:a" "A" "f1"]).
  set (sa := schema_tree "urn:a" [xs "include" [pa "schemaLocation" "b.xsd"] []; concept_tree "A"]).
  set (c := Concept (XName "urn:a" "A") "id_A" (XName "" "t") (XName "" "") false "" "" false "").
  assert (HH : exists h, hydrate ex_pf (Shuffles (fun _ l => l) (fun _ l => l) (fun _ l => l)) (d_url include_disk) (global_schema_file include_disk)
     ex_tokens (Ok []) (Ok None) (finish "x.xml" inst_i ifd4) = Ok h /\ exists i, hInstances h = [("x.xml", i)] /\ iFacts i = []).
  { eexists. split; [vm_compute; reflexivity|]. eexists. split; reflexivity. }
  destruct HH as (h&HH&i&HI&HF).
  assert (L : loaded include_disk small_dir "x.xml" false ex_pf (Shuffles (fun _ l => l) (fun _ l => l) (fun _ l => l)) ex_tokens (Ok []) h).
  { exists (finish "x.xml" inst_i ifd4), (Ok None). split; [now apply include_outcome|]. split; [constructor|exact HH]. }
  assert (F : followed_at include_disk small_dir root "a.xsd" sa).
  { apply (fat_ref _ _ _ _ _ "urn:a").
    - exists (schema_ref_to "a.xsd"). split; [simpl; auto|]. split; [do 3 eexists; reflexivity|req_tac].
    - split; [reflexivity|]. exists (in_dir "a.xsd"). split; [reflexivity|]. split; [reflexivity|]. do 4 eexists; reflexivity.
    - req_tac. }
  assert (P : forall x t, known include_disk small_dir root x t -> plain_declarations t).
  { intros x t [K|(_&data&K&_)]; [|discriminate K]. apply followed_at_local in K as [_ K].
    apply small_document in K as [[E|[E|[E|[]]]] N]; injection E as _ <-; [|prove_plain|prove_plain].
    destruct N as (?&?&?&?&N). discriminate N. }
  specialize (H include_disk small_dir "x.xml" false ex_pf _ ex_tokens _ h (or_intror (or_intror (ex_intro _ "x" eq_refl))) L
    "x.xml" root i).
  assert (In (Fact "a.xsd#id_A" "f1" "c" "" (-2147483647) false "1") (iFacts i)) as X; [|rewrite HF in X; destruct X].
  apply (H ltac:(apply small_entry_at; [reflexivity|do 4 eexists; reflexivity]) HI P (fact_tree "urn:a" "A" "f1")).
  - simpl; auto.
  - intros l Hl (?&?&?&?&E). injection E; intros; subst l. simpl in Hl. intuition discriminate.
  - exists "urn:a", "A". split; [do 3 eexists; reflexivity|]. split; [discriminate|]. split; [discriminate|]. split.
    + exists c. exists "a.xsd", sa, [c]. split; [|split; [discriminate|split; [left; exact F|split; [|split; [|reflexivity]]]]].
      * apply (cat_ref _ _ _ _ sa); [| |req_tac].
        -- exists (schema_ref_to "a.xsd"). split; [simpl; auto|]. split; [do 3 eexists; reflexivity|req_tac].
        -- split; [reflexivity|]. exists (in_dir "a.xsd"). split; [reflexivity|]. split; [reflexivity|]. do 4 eexists; reflexivity.
      * assert (PL : plain_declarations sa) by (apply (P "a.xsd"); left; exact F).
        apply (C107_concepts_partial sa (schema_struct sa) "a.xsd" (Schema "a.xsd" [] [c])); auto; reflexivity.
      * exists [], []. split; [reflexivity|]. split; [reflexivity|]. intros ? [].
    + split; [req_tac|]. split; [left; apply attr_val_iff; eexists; split; reflexivity|].
      split; [right; split; [|reflexivity]; intros a Ha; simpl in Ha; repeat destruct Ha as [<-|Ha]; try contradiction; discriminate|].
      split; [exists PNone; split; [|reflexivity]; apply dec_absent; intros a Ha; simpl in Ha; repeat destruct Ha as [<-|Ha]; try contradiction; discriminate|].
      split; [|reflexivity]. split; [discriminate|]. intros (v&A&_). apply attr_val_iff in A as (a&A&_). discriminate A.
Qed.
Print Assumptions C115_include_refuted.

(** C118, refuted: a schema that includes itself cannot be loaded ... *)
Definition loop_disk : disk := small_disk
  [(in_dir "x.xml", xbrl_doc [schema_ref_to "a.xsd"]);
   (in_dir "a.xsd", schema_tree "urn:a" [xs "include" [pa "schemaLocation" "a.xsd"] []; concept_tree "A"])].
Lemma loaded_discovers d dir name images pf sh tokens utr h : loaded d dir name images pf sh tokens utr h ->
  exists fd, discover (files_of d) dir (Ok name) images (Ok fd).
Proof. intros (fd&_&D&_). eauto. Qed.
Lemma loop_entry : entry_at loop_disk small_dir (xbrl_doc [schema_ref_to "a.xsd"]) "x.xml" "x.xml".
Proof. apply small_entry_at; [reflexivity|do 4 eexists; reflexivity]. Qed.
Lemma loop_hangs images o : ~ discover (files_of loop_disk) small_dir (Ok "x.xml") images o.
Proof.
  intro D. set (root := xbrl_doc [schema_ref_to "a.xsd"]).
  set (sa := schema_tree "urn:a" [xs "include" [pa "schemaLocation" "a.xsd"] []; concept_tree "A"]).
  destruct (C118_ends _ _ _ _ _ images loop_entry) as [N _].
  assert (LO : local loop_disk small_dir "a.xsd" "schema" sa).
  { split; [reflexivity|]. exists (in_dir "a.xsd"). split; [reflexivity|]. split; [reflexivity|]. do 4 eexists; reflexivity. }
  assert (F : followed_at loop_disk small_dir root "a.xsd" sa).
  { apply (fat_ref _ _ _ _ _ "urn:a"); auto; [|req_tac].
    exists (schema_ref_to "a.xsd"). split; [simpl; auto|]. split; [do 3 eexists; reflexivity|req_tac]. }
  specialize (N (ex_intro _ _ D) _ _ F). revert N. apply self_loop.
  exists sa, sa. split; [apply LO|]. split; auto. left. split; [|exists "urn:a"; req_tac].
  exists (xs "include" [pa "schemaLocation" "a.xsd"] []). split; [simpl; auto|]. split; [do 3 eexists; reflexivity|req_tac].
Qed.
Theorem C118_cycle_refuted :
  ~ (forall d dir root name file images pf sh tokens u, entry_at d dir root name file -> instance_name name -> simple_contexts root ->
       exists h, loaded d dir name images pf sh tokens (Ok u) h).
Proof.
  intro H.
  destruct (H loop_disk small_dir _ "x.xml" "x.xml" false ex_pf (Shuffles (fun _ l => l) (fun _ l => l) (fun _ l => l)) ex_tokens [] loop_entry)
    as (h&L).
  - right. now exists "x".
  - intros x [<-|[]] (?&?&?&?&E). discriminate E.
  - apply loaded_discovers in L as (fd&D). revert D. apply loop_hangs.
Qed.
Print Assumptions C118_cycle_refuted.
(** ... nor one with a context without an entity. *)
Theorem C118_context_refuted :
  ~ (forall d dir root name file images pf sh tokens u fd, entry_at d dir root name file -> instance_name name ->
       discover (files_of d) dir (Ok name) images (Ok fd) ->
       exists h, loaded d dir name images pf sh tokens (Ok u) h).
Proof.
  intro H. set (root := xbrl_doc [xi "context" [pa "id" "c"] []]).
  set (dk := small_disk [(in_dir "x.xml", root)]).
  assert (EA : entry_at dk small_dir root "x.xml" "x.xml") by (apply small_entry_at; [reflexivity|do 4 eexists; reflexivity]).
  assert (IN : instance_name "x.xml") by (right; now exists "x").
  destruct (proj2 (C118_ends _ _ _ _ _ false EA)) as (o&D).
  { intros h t F. exfalso. apply followed_at_local in F as [_ F]. apply small_document in F as [[E|[]] (?&?&?&?&N)].
    injection E as _ <-. discriminate N. }
  assert (EI : entry_instance (files_of dk) small_dir "x.xml" "x.xml" (instance_struct root)) by (apply entry_iff; eauto).
  pose proof D as D'. apply (discover_iff _ _ _ _ _ _ _ EI) in D' as (s&_&_&->).
  destruct (H dk small_dir root "x.xml" "x.xml" false ex_pf (Shuffles (fun _ l => l) (fun _ l => l) (fun _ l => l)) ex_tokens [] _ EA IN D) as (h&L).
  destruct (loaded_parts _ _ _ _ _ _ _ _ _ (or_intror IN) L) as (file&root'&fd&doc&EA'&FI&_&_&_&_&_&_&_&_&_&HH).
  apply C79_complete in HH as (_&_&_&_&_&_&HI&_). destruct (one_loaded _ _ _ HI _ _ FI) as (i&_&E).
  assert (root' = root /\ file = "x.xml") as [-> ->].
  { destruct EA' as ([[N _]|[_ ->]]&DO&_).
    - exfalso. apply inline_iff in N. destruct N as [N|N]; discriminate N.
    - split; auto. destruct EA as (_&DO'&_). eapply document_fun; eauto. }
  vm_compute in E. discriminate E.
Qed.
Print Assumptions C118_context_refuted.

(** a report with an import, labels and a presentation *)
Definition linkbase_ref_to (role h : string) : tree :=
  lk "linkbaseRef" [xl "type" "simple"; xl "arcrole" "http://www.w3.org/1999/xlink/properties/linkbase";
    xl "role" ("http://www.xbrl.org/2003/role/" ++ role ++ "LinkbaseRef"); xl "href" h] [].
Definition a_context : tree :=
  xi "context" [pa "id" "c"] [xi "entity" [] [xi "identifier" [pa "scheme" "urn:s"] [txt "0"]]; xi "period" [] [xi "instant" [] [txt "2020-12-31"]]].
Definition report_root : tree := xbrl_doc [schema_ref_to "a.xsd"; a_context; fact_tree "urn:a" "A" "f2"; fact_tree "urn:c" "C" "f1"; fact_tree "urn:c" "D" "f0"].
Definition report_a : tree := schema_tree "urn:a"
  [xs "import" [pa "namespace" "urn:c"; pa "schemaLocation" "c.xsd"] [];
   xs "annotation" [] [xs "appinfo" [] [linkbase_ref_to "label" "lab.xml"; linkbase_ref_to "presentation" "pre.xml"]]; concept_tree "A"].
Definition report_c : tree := schema_tree "urn:c" [concept_tree "C"].
Definition report_disk : disk := small_disk
  [(in_dir "x.xml", report_root); (in_dir "a.xsd", report_a); (in_dir "c.xsd", report_c);
   (in_dir "lab.xml", label_doc [txt "Net income"]); (in_dir "pre.xml", links_doc [a_loc link_ns])].
Lemma report_entry : entry_at report_disk small_dir report_root "x.xml" "x.xml".
Proof. apply small_entry_at; [reflexivity|do 4 eexists; reflexivity]. Qed.
Lemma report_leads h h' : leads_to report_disk small_dir h h' -> join [small_dir; h] = in_dir "a.xsd" /\ h' = "c.xsd".
Proof.
  intros (g&t&G&_&H). apply small_document in G as [E NG]. simpl in E.
  destruct E as [E|[E|[E|[E|[E|[]]]]]]; injection E as E <-;
    destruct H as [[(x&Hx&Nx&R) _]|(ns&x&Hx&Nx&_&R)]; simpl in Hx; repeat destruct Hx as [<-|Hx]; try contradiction;
    destruct Nx as (?&?&?&Nx); try discriminate Nx.
  split; [now rewrite E|]. apply LinkbaseProofs.req_iff in R. now injection R.
Qed.
Lemma report_cycles : no_cycles report_disk small_dir report_root.
Proof.
  intros h t _. constructor. intros h1 L1. apply report_leads in L1 as [_ ->]. constructor. intros h2 L2. apply report_leads in L2 as [L2 _].
  vm_compute in L2. discriminate L2.
Qed.
Lemma report_simple : simple_contexts report_root.
Proof.
  intros x Hx Nx. simpl in Hx. repeat destruct Hx as [<-|Hx]; try contradiction; try (destruct Nx as (?&?&?&?&E); discriminate E).
  split; [|split].
  - eexists. split; [left; reflexivity|]. do 4 eexists; reflexivity.
  - intros y z Hy (?&?&?&?&E). simpl in Hy. repeat destruct Hy as [<-|Hy]; try contradiction; discriminate E.
  - intros e y z He (?&?&?&?&E) Hy (?&?&?&?&E'). simpl in He. repeat destruct He as [<-|He]; try contradiction; [|discriminate E].
    simpl in Hy. destruct Hy as [<-|[]]. discriminate E'.
Qed.
Lemma report_claims ns h : claims_at report_disk small_dir report_root ns h -> (ns, h) = ("urn:a", "a.xsd") \/ (ns, h) = ("urn:c", "c.xsd").
Proof.
  assert (R : forall h t, ref_at report_root h -> local report_disk small_dir h "schema" t -> h = "a.xsd" /\ t = report_a).
  { intros x t (y&Hy&Ny&R) [_ L]. simpl in Hy. repeat destruct Hy as [<-|Hy]; try contradiction;
      destruct Ny as (?&?&?&Ny); try discriminate Ny. apply LinkbaseProofs.req_iff in R. injection R as <-. split; auto.
    apply small_document in L as [E _]. simpl in E. destruct E as [E|[E|[E|[E|[E|[]]]]]]; vm_compute in E; try discriminate E. now injection E. }
  assert (F : forall h t, followed_at report_disk small_dir report_root h t -> t = report_a \/ t = report_c).
  { intros x t F. apply followed_at_local in F as [_ L]. apply small_document in L as [E N]. simpl in E.
    destruct E as [E|[E|[E|[E|[E|[]]]]]]; injection E as _ <-; auto; destruct N as (?&?&?&?&N); discriminate N. }
  assert (NI : forall g h, g = report_a \/ g = report_c -> ~ include_at g h).
  { intros g x G (y&Hy&Ny&_). destruct G as [-> | ->]; simpl in Hy; repeat destruct Hy as [<-|Hy]; try contradiction;
      destruct Ny as (?&?&?&Ny); discriminate Ny. }
  intros [x t n A B T|h0 g x t n G A B T|h0 g x n G A].
  - destruct (R _ _ A B) as [-> ->]. left. apply LinkbaseProofs.req_iff in T. injection T as <-. reflexivity.
  - exfalso. exact (NI _ _ (F _ _ G) A).
  - right. destruct A as (y&Hy&Ny&Q1&Q2). destruct (F _ _ G) as [-> | ->]; simpl in Hy; repeat destruct Hy as [<-|Hy]; try contradiction;
      destruct Ny as (?&?&?&Ny); try discriminate Ny. apply LinkbaseProofs.req_iff in Q1, Q2. injection Q1 as <-. injection Q2 as <-. reflexivity.
Qed.
Lemma report_loads : exists h, loaded report_disk small_dir "x.xml" false ex_pf (Shuffles (fun _ l => l) (fun _ l => l) (fun _ l => l)) ex_tokens (Ok []) h.
Proof.
  destruct (proj2 (C118_ends _ _ _ _ _ false report_entry) report_cycles) as (o&D).
  assert (EI : entry_instance (files_of report_disk) small_dir "x.xml" "x.xml" (instance_struct report_root)) by (apply entry_iff; eauto using report_entry).
  pose proof D as D'. apply (discover_iff _ _ _ _ _ _ _ EI) in D' as (s&_&_&->).
  destruct (C118_loads_partial report_disk small_dir report_root "x.xml" "x.xml" false ex_pf (Shuffles (fun _ l => l) (fun _ l => l) (fun _ l => l))
    ex_tokens [] report_entry report_simple) with (fd := finish "x.xml" (instance_struct report_root) (fst s)) as (h&L&_); auto.
  - intro N. apply inline_iff in N. destruct N as [N|N]; discriminate N.
  - eauto.
Qed.
(** The theorems apply to it: it has the schemas a.xsd and c.xsd, and two facts. *)
Example C114_example : exists h,
  loaded report_disk small_dir "x.xml" false ex_pf (Shuffles (fun _ l => l) (fun _ l => l) (fun _ l => l)) ex_tokens (Ok []) h /\
  In "a.xsd" (map fst (hSchemas h)) /\ In "c.xsd" (map fst (hSchemas h)) /\ ~ In "lab.xml" (map fst (hSchemas h)) /\
  has_linkbases h Labels "lab.xml" /\ has_linkbases h Presentation "pre.xml" /\ ~ has_linkbases h Definitional "pre.xml".
Proof.
  destruct report_loads as (h&L). exists h. split; auto.
  destruct (C114_documents _ _ _ _ _ _ _ _ _ (or_intror (or_intror (ex_intro _ "x" eq_refl))) L) as (file&root&EA&_&S&LB).
  assert (root = report_root) as ->.
  { destruct EA as ([[N _]|[_ ->]]&DO&_).
    - exfalso. apply inline_iff in N. destruct N as [N|N]; discriminate N.
    - destruct report_entry as (_&DO'&_). eapply document_fun; eauto. }
  assert (LA : local report_disk small_dir "a.xsd" "schema" report_a).
  { split; [reflexivity|]. exists (in_dir "a.xsd"). split; [reflexivity|]. split; [reflexivity|]. do 4 eexists; reflexivity. }
  assert (FA : followed_at report_disk small_dir report_root "a.xsd" report_a).
  { apply (fat_ref _ _ _ _ _ "urn:a"); auto; [|req_tac].
    exists (schema_ref_to "a.xsd"). split; [simpl; auto|]. split; [do 3 eexists; reflexivity|req_tac]. }
  assert (AP : forall x, In x [linkbase_ref_to "label" "lab.xml"; linkbase_ref_to "presentation" "pre.xml"] -> in_appinfo report_a x).
  { intros x Hx. do 2 eexists. split; [right; left; reflexivity|]. split; [do 3 eexists; reflexivity|]. split; [left; reflexivity|].
    split; [do 3 eexists; reflexivity|]. exact Hx. }
  split; [|split; [|split; [|split; [|split]]]].
  - apply S. eauto.
  - apply S. exists report_c. apply (fat_import _ _ _ "a.xsd" report_a _ _ "urn:c"); auto.
    + exists (xs "import" [pa "namespace" "urn:c"; pa "schemaLocation" "c.xsd"] []). split; [simpl; auto|].
      split; [do 3 eexists; reflexivity|]. split; req_tac.
    + split; [reflexivity|]. exists (in_dir "c.xsd"). split; [reflexivity|]. split; [reflexivity|]. do 4 eexists; reflexivity.
  - intro X. apply S in X as (t&F). apply followed_at_local in F as [_ F]. apply small_document in F as [E (?&?&?&?&N)].
    simpl in E. destruct E as [E|[E|[E|[E|[E|[]]]]]]; vm_compute in E; try discriminate E. injection E as <-. discriminate N.
  - apply LB. eexists. exists "a.xsd", report_a. split; auto. split.
    + exists (linkbase_ref_to "label" "lab.xml"). split; [apply AP; simpl; auto|]. split; [do 3 eexists; reflexivity|].
      split; [xlink_tac|]. split; [xlink_tac|]. split; xlink_tac.
    + split; [reflexivity|]. exists (in_dir "lab.xml"). split; [reflexivity|]. split; [reflexivity|]. do 4 eexists; reflexivity.
  - apply LB. eexists. exists "a.xsd", report_a. split; auto. split.
    + exists (linkbase_ref_to "presentation" "pre.xml"). split; [apply AP; simpl; auto|]. split; [do 3 eexists; reflexivity|].
      split; [xlink_tac|]. split; [xlink_tac|]. split; xlink_tac.
    + split; [reflexivity|]. exists (in_dir "pre.xml"). split; [reflexivity|]. split; [reflexivity|]. do 4 eexists; reflexivity.
  - intro X. apply LB in X as (t&h0&g&F&(x&(a&i&Ha&Na&Hi&Ni&Hx)&Nx&_&_&R&_)&_).
    apply followed_at_local in F as [_ F]. apply small_document in F as [E N]. simpl in E.
    destruct E as [E|[E|[E|[E|[E|[]]]]]]; injection E as _ <-; simpl in Ha; repeat destruct Ha as [<-|Ha]; try contradiction;
      destruct Na as (?&?&?&Na); try discriminate Na.
    destruct Hi as [<-|[]]. destruct Hx as [<-|[<-|[]]]; apply LinkbaseProofs.xreq_iff in R; discriminate R.
Qed.
Lemma report_plain x t : known report_disk small_dir report_root x t -> plain_declarations t.
Proof.
  intros [K|(_&data&K&_)]; [|discriminate K]. apply followed_at_local in K as [_ K].
  apply small_document in K as [E N]. simpl in E. destruct E as [E|[E|[E|[E|[E|[]]]]]]; injection E as _ <-;
    try (destruct N as (?&?&?&?&N); discriminate N); prove_plain.
Qed.
Example C115_example :
  (forall x t, known report_disk small_dir report_root x t -> plain_declarations t) /\
  (forall ns, one_claim report_disk small_dir report_root ns) /\
  declared report_disk small_dir report_root "urn:c" "C" "c.xsd#id_C"
    (Concept (XName "urn:c" "C") "id_C" (XName "" "t") (XName "" "") false "" "" false "").
Proof.
  split; [exact report_plain|]. split.
  - intros ns h h' C C'. apply report_claims in C, C'. destruct C as [C|C], C' as [C'|C']; congruence.
  - assert (FA : followed_at report_disk small_dir report_root "a.xsd" report_a).
    { apply (fat_ref _ _ _ _ _ "urn:a"); [| |req_tac].
      - exists (schema_ref_to "a.xsd"). split; [simpl; auto|]. split; [do 3 eexists; reflexivity|req_tac].
      - split; [reflexivity|]. exists (in_dir "a.xsd"). split; [reflexivity|]. split; [reflexivity|]. do 4 eexists; reflexivity. }
    assert (IM : import_at report_a "urn:c" "c.xsd").
    { exists (xs "import" [pa "namespace" "urn:c"; pa "schemaLocation" "c.xsd"] []). split; [simpl; auto|].
      split; [do 3 eexists; reflexivity|]. split; req_tac. }
    exists "c.xsd", report_c. eexists [_]. split; [eapply cat_import; eauto|]. split; [discriminate|]. split.
    + left. eapply fat_import; eauto. split; [reflexivity|]. exists (in_dir "c.xsd"). split; [reflexivity|]. split; [reflexivity|]. do 4 eexists; reflexivity.
    + split; [|split; [|reflexivity]].
      * apply (C107_concepts_partial report_c (schema_struct report_c) "c.xsd"
          (Schema "c.xsd" [] [Concept (XName "urn:c" "C") "id_C" (XName "" "t") (XName "" "") false "" "" false ""])); try reflexivity.
        prove_plain.
      * exists [], []. split; [reflexivity|]. split; [reflexivity|]. intros ? [].
Qed.
(** The documents of the report satisfy what C116 asks of them. *)
Example C116_example :
  (forall x t, known report_disk small_dir report_root x t -> plain_declarations t) /\ single_appinfo report_a /\ plain_roles report_a /\
  own_links report_root "footnoteLink" ["footnote"; "loc"; "footnoteArc"] /\
  no_homonyms report_root /\ declared_at_root report_root /\ plain_texts report_root /\
  own_links (links_doc [a_loc link_ns]) "presentationLink" ["loc"; "presentationArc"].
Proof.
  split; [exact report_plain|]. split; [|split; [|split; [|split; [|split; [|split]]]]].
  - split.
    + intros l1 y l2 z l3 E N M. destruct N as (?&?&?&?&->), M as (?&?&?&?&->).
      destruct l1 as [|? [|? [|? [|? ?]]]]; try discriminate E; injection E; intros E'; intros;
        repeat (destruct l2 as [|? l2]; try discriminate E'; try (injection E'; intros; discriminate)).
    + intros a Ha Na l1 y l2 z l3 E. simpl in Ha. repeat destruct Ha as [<-|Ha]; try contradiction; try (destruct Na as (?&?&?&?&Na); discriminate Na).
      destruct l1 as [|? [|? ?]]; try discriminate E. injection E; intros E' _. destruct l2; discriminate E'.
  - intros x y (a&i&Ha&Na&Hi&Ni&Hx) Hy. simpl in Ha. repeat destruct Ha as [<-|Ha]; try contradiction; destruct Na as (?&?&?&Na); try discriminate Na.
    destruct Hi as [<-|[]]. destruct Hx as [<-|[<-|[]]]; destruct Hy.
  - intros x s Hx (a&i&ks&->). simpl in Hx. repeat destruct Hx as [Hx|Hx]; try contradiction; discriminate Hx.
  - prove_names.
  - prove_decls.
  - prove_texts.
  - intros x s [<-|[]] (a&i&ks&E). injection E; intros; subst. split; auto.
    intros y l s' [<-|[]] Hl (a&i&ks&E'). injection E'; intros; subst. reflexivity.
Qed.
(** An inline report *)
Definition htm_root : tree := xbrl_doc [a_context].
Definition htm_disk : disk :=
  Disk (fun _ => false) (fun p => if String.eqb p (in_dir "x.htm") || String.eqb p (in_dir "x.htm.xml") then Some p else None)
    (fun _ => true) (fun p => if String.eqb p (in_dir "x.htm.xml") then Some htm_root else None)
    (fun p => if String.eqb p (in_dir "x.htm") then Some two_facts else None) (fun _ => None).
Lemma htm_entry : entry_at htm_disk small_dir htm_root "x.htm" "x.htm.xml".
Proof.
  split; [left; split; auto; right; now exists "x"|]. split.
  - exists (in_dir "x.htm.xml"). split; [reflexivity|]. split; [reflexivity|]. do 4 eexists; reflexivity.
  - intros _. exists (in_dir "x.htm"), two_facts. split; [reflexivity|]. split; [reflexivity|]. split; [|reflexivity].
    exists two_facts. split; [exists []; left; reflexivity|]. do 4 eexists; reflexivity.
Qed.
Example C117_example : exists h,
  loaded htm_disk small_dir "x.htm" false ex_pf (Shuffles (fun _ l => l) (fun _ l => l) (fun _ l => l)) ex_tokens (Ok []) h /\
  exists doc, hDocument h = Some doc /\ knows ["nonNumeric"; "nonFraction"] two_facts doc.
Proof.
  destruct (proj2 (C118_ends _ _ _ _ _ false htm_entry)) as (o&D).
  { intros h t F. exfalso. apply followed_at_local in F as [_ F]. destruct F as (data&_&X&N). cbn in X.
    destruct (String.eqb data _); [|discriminate]. injection X as <-. destruct N as (?&?&?&?&N). discriminate N. }
  assert (EI : entry_instance (files_of htm_disk) small_dir "x.htm" "x.htm.xml" (instance_struct htm_root)) by (apply entry_iff; eauto using htm_entry).
  pose proof D as D'. apply (discover_iff _ _ _ _ _ _ _ EI) in D' as (s&_&_&->).
  destruct C111_example as (DH&CF&NP&_).
  destruct (C118_loads_partial htm_disk small_dir htm_root "x.htm" "x.htm.xml" false ex_pf (Shuffles (fun _ l => l) (fun _ l => l) (fun _ l => l))
    ex_tokens [] htm_entry) with (fd := finish "x.htm.xml" (instance_struct htm_root) (fst s)) as (h&L&_); auto.
  - intros x Hx Nx. simpl in Hx. destruct Hx as [<-|[]].
    split; [|split].
    + eexists. split; [left; reflexivity|]. do 4 eexists; reflexivity.
    + intros y z Hy (?&?&?&?&E). simpl in Hy. repeat destruct Hy as [<-|Hy]; try contradiction; discriminate E.
    + intros e y z He (?&?&?&?&E) Hy (?&?&?&?&E'). simpl in He. repeat destruct He as [<-|He]; try contradiction; [|discriminate E].
      simpl in Hy. destruct Hy as [<-|[]]. discriminate E'.
  - intros _ data q F Q. cbn in F, Q. injection F as <-. cbn in Q. injection Q as <-. auto.
  - exists h. split; auto. destruct (C117_index_partial _ _ _ _ _ _ _ _ _ L) as (_&K).
    destruct K as (data&q&F&Q&K); [right; now exists "x"|]. cbn in F, Q. injection F as <-. cbn in Q. injection Q as <-. auto.
Qed.
(** Refuted without the conditions: facts in ix:fraction elements are not in the index; *)
Theorem C117_refuted :
  ~ (forall d dir name images pf sh tokens utr h data q, loaded d dir name images pf sh tokens utr h -> inline_name name ->
       d_file d (join [dir; name]) = Some data -> d_html d data = Some q -> declared_at_html q -> conforming_facts q ->
       exists doc, hDocument h = Some doc /\ knows all_facts q doc).
Proof.
  intro H. destruct C117_example as (h&L&doc&E&K).
  destruct (H _ _ _ _ _ _ _ _ _ (in_dir "x.htm") two_facts L) as (doc'&E'&K'); auto.
  - right. now exists "x".
  - exact two_facts_declared.
  - exact two_facts_conform.
  - rewrite E in E'. injection E' as <-. exact (fraction_unknown doc K K').
Qed.
Print Assumptions C117_refuted.
(** and the entity of a context may be taken from an element of another namespace. *)
Definition foreign_disk : disk := small_disk [(in_dir "x.xml", foreign_doc)].
Lemma foreign_entry : entry_at foreign_disk small_dir foreign_doc "x.xml" "x.xml".
Proof. apply small_entry_at; [reflexivity|do 4 eexists; reflexivity]. Qed.
Theorem C116_refuted :
  ~ (forall d dir name images pf sh tokens utr h, supported name -> loaded d dir name images pf sh tokens utr h ->
       exists file root i, entry_at d dir root name file /\ hInstances h = [(file, i)] /\
         (declared_at_root root -> plain_texts root -> exists q, contexts_as_written q tokens root i)).
Proof.
  intro H.
  assert (N : instance_name "x.xml") by (right; now exists "x").
  destruct (proj2 (C118_ends _ _ _ _ _ false foreign_entry)) as (o&D).
  { intros h t F. exfalso. apply followed_at_local in F as [_ F]. apply small_document in F as [[E|[]] (?&?&?&?&X)].
    injection E as _ <-. discriminate X. }
  assert (EI : entry_instance (files_of foreign_disk) small_dir "x.xml" "x.xml" (instance_struct foreign_doc)) by (apply entry_iff; eauto using foreign_entry).
  pose proof D as D'. apply (discover_iff _ _ _ _ _ _ _ EI) in D' as (st&_&_&->).
  destruct (C118_loads_partial foreign_disk small_dir foreign_doc "x.xml" "x.xml" false ex_pf (Shuffles (fun _ l => l) (fun _ l => l) (fun _ l => l))
    ex_tokens [] foreign_entry) with (fd := finish "x.xml" (instance_struct foreign_doc) (fst st)) as (h&L&_); auto.
  - intros x Hx Nx. simpl in Hx. destruct Hx as [<-|[]]. split; [|split].
    + eexists. split; [left; reflexivity|]. do 4 eexists; reflexivity.
    + intros y z Hy (?&?&?&?&E). simpl in Hy. repeat destruct Hy as [<-|Hy]; try contradiction; discriminate E.
    + intros e y z He (?&?&?&?&E) Hy (?&?&?&?&E'). simpl in He. repeat destruct He as [<-|He]; try contradiction; try discriminate E;
        simpl in Hy; repeat destruct Hy as [<-|Hy]; try contradiction; discriminate E'.
  - intro X. apply inline_iff in X. destruct X as [X|X]; discriminate X.
  - destruct (H _ _ _ _ _ _ _ _ _ (or_intror N) L) as (file&root&i&EA&HI&K).
    assert (root = foreign_doc /\ file = "x.xml") as [-> ->].
    { destruct EA as ([[X _]|[_ ->]]&DO&_).
      - exfalso. apply inline_iff in X. destruct X as [X|X]; discriminate X.
      - split; auto. destruct foreign_entry as (_&DO'&_). eapply document_fun; eauto. }
    destruct K as (q&K).
    { clear. prove_decls. }
    { clear. prove_texts. }
    destruct (loaded_parts _ _ _ _ _ _ _ _ _ (or_intror N) L) as (file&root&fd&doc&EA'&FI&_&_&_&_&_&_&_&_&_&HH).
    assert (root = foreign_doc /\ file = "x.xml") as [-> ->].
    { destruct EA' as ([[X _]|[_ ->]]&DO&_).
      - exfalso. apply inline_iff in X. destruct X as [X|X]; discriminate X.
      - split; auto. destruct foreign_entry as (_&DO'&_). eapply document_fun; eauto. }
    apply C79_complete in HH as (_&_&_&_&_&_&HI'&_). destruct (one_loaded _ _ _ HI' _ _ FI) as (i'&HI''&E).
    assert (i' = i) as -> by congruence.
    vm_compute in E. injection E as <-.
    eapply one_as_written in K; [|reflexivity].
    apply ca_entity in K as (en&idt&F&FI'&V&_). cbn [ctxIdentifier] in V.
    assert (en = an_entity []) as ->.
    { apply (first_child_unique _ _ _ _ _ F). exists [el "urn:x" "entity" [] [xi "identifier" [pa "scheme" "urn:x"] [txt "other"]]], [].
      split; auto. split; [unfold named, an_entity, xi, el; eauto|]. intros y [<-|[]] (a&j&ks&E). discriminate E. }
    assert (idt = xi "identifier" [pa "scheme" "urn:cik"] [txt "0000"]) as ->.
    { apply (first_child_unique _ _ _ _ _ FI'). exists [], [].
      split; auto. split; [unfold named, xi, el; eauto|]. intros y []. }
    apply trimmed_iff in V. vm_compute in V. discriminate V.
Qed.
Print Assumptions C116_refuted.
