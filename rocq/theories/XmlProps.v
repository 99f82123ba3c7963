(** * XmlProps: C103-C113 (from the XML tree to what is loaded) *)
From Verif Require Import GoBase GoSpec GoFacts AttrModel AttrSpec AttrProofs SchemaModel SchemaSpec SchemaProofs SchemaProps
  LinkbaseModel LinkbaseSpec LinkbaseProofs LinkbaseProps InstanceModel InstanceSpec InstanceProofs InstanceProps
  HydrateModel HydrateSpec HydrateProofs HydrateProps XmlModel XmlSpec XmlProofs.
Local Open Scope string_scope.

(** small documents *)
Definition el (s l : string) (attrs : list xattr) (ks : list tree) : tree := XmlElem (XName s l) attrs "" ks.
Definition txt (s : string) : tree := XmlText s.
Definition xi (l : string) (attrs : list xattr) (ks : list tree) : tree := el "http://www.xbrl.org/2003/instance" l attrs ks.
Definition xd (l : string) (attrs : list xattr) (ks : list tree) : tree := el "http://xbrl.org/2006/xbrldi" l attrs ks.

(** ** C103: every reported fact is loaded *)

(** a folder with concepts named A, unit, and a tuple T *)
Definition fact_taxonomy : schema_file :=
  SchemaFile [pa "targetNamespace" "urn:t"; XAttr (XName "xmlns" "xbrli") "http://www.xbrl.org/2003/instance"] [] [] []
    [ex_decl "t_A" "A"; ex_decl "t_unit" "unit";
     ex_elem [pa "id" "t_T"; pa "name" "T"; pa "type" "t:any"; pa "substitutionGroup" "xbrli:tuple"]].
Definition fact_env : qenv :=
  QEnv [("urn:t", "t.xsd")] [("t.xsd", fact_taxonomy)] (fun _ => false) (fun _ => Err "offline").
Lemma fact_env_ok : qenv_ok fact_env.
Proof. split; repeat constructor; simpl; tauto. Qed.
Definition a_fact (l id : string) : tree := XmlElem (XName "urn:t" l) [pa "id" id; pa "contextRef" "c"] "1" [txt "1"].

(** Refuted: a fact whose concept is named like one of XBRL's own elements is lost ... *)
Theorem C103_own_name_refuted :
  ~ (forall q tokens root f file i, qenv_ok q -> decode_instance (Some root) = Ok f ->
       hydrate_instance q tokens (Some f) file = Ok i ->
       forall x fa, In x (kids root) -> reads_as_fact q x fa -> In fa (iFacts i)).
Proof.
  intro H.
  specialize (H fact_env ex_tokens (xi "xbrl" ex_scope [a_fact "A" "f1"; a_fact "unit" "f2"]) _ "i.xml" _ fact_env_ok eq_refl eq_refl
    (a_fact "unit" "f2") (Fact "t.xsd#t_unit" "f2" "c" "" Precisionless false "1")).
  simpl in H. destruct H as [H|[]]; auto; try discriminate H.
  exists (XName "urn:t" "unit"), [pa "id" "f2"; pa "contextRef" "c"], "1", [txt "1"]. split; auto.
  apply hydrate_fact_iff; [exact fact_env_ok|]. reflexivity.
Qed.
Print Assumptions C103_own_name_refuted.
(** ... and so are the facts in tuples. *)
Theorem C103_tuple_refuted :
  ~ (forall q tokens root f file i, qenv_ok q -> decode_instance (Some root) = Ok f ->
       hydrate_instance q tokens (Some f) file = Ok i ->
       (forall x l, In l own_names -> reported q root x -> locally_named l x -> False) ->
       forall x fa, reported q root x -> reads_as_fact q x fa -> In fa (iFacts i)).
Proof.
  intro H.
  set (root := xi "xbrl" ex_scope [el "urn:t" "T" [] [a_fact "A" "f1"]]) in *.
  specialize (H fact_env ex_tokens root _ "i.xml" _ fact_env_ok eq_refl eq_refl).
  assert (T : is_tuple fact_env (el "urn:t" "T" [] [a_fact "A" "f1"])).
  { exists "urn:t", "T", [], "", [a_fact "A" "f1"], "t.xsd#t_T".
    eexists. split; [reflexivity|]. split; [apply names_iff; [exact fact_env_ok|reflexivity]|reflexivity]. }
  specialize (H) with (x := a_fact "A" "f1") (fa := Fact "t.xsd#t_A" "f1" "c" "" Precisionless false "1").
  simpl in H. apply H.
  - intros x l Hl R. assert (K : x = el "urn:t" "T" [] [a_fact "A" "f1"] \/ x = a_fact "A" "f1" \/ x = txt "1").
    { induction R as [x Hx|t x R IH Ht Hx].
      - simpl in Hx. destruct Hx as [<-|[]]. auto.
      - destruct IH as [->|[->| ->]]; simpl in Hx; try contradiction; destruct Hx as [<-|[]]; auto. }
    intros (s&a&i&ks&->). destruct K as [K|[K|K]]; try discriminate K; injection K; intros; subst; simpl in Hl; intuition discriminate.
  - apply (rep_tuple _ _ (el "urn:t" "T" [] [a_fact "A" "f1"])); auto; [|simpl; auto]. apply rep_top. simpl; auto.
  - exists (XName "urn:t" "A"), [pa "id" "f1"; pa "contextRef" "c"], "1", [txt "1"]. split; auto.
    apply hydrate_fact_iff; [exact fact_env_ok|]. reflexivity.
Qed.
Print Assumptions C103_tuple_refuted.
(** What holds, for every document: the loaded facts are exactly the facts among the
    root's children whose element does not have one of these four local names, in
    document order up to the sorting by id. *)
Theorem C103_facts_partial :
  forall q tokens root f file i, qenv_ok q -> decode_instance (Some root) = Ok f ->
    hydrate_instance q tokens (Some f) file = Ok i ->
    exists fs,
      image_of (fun x fa => reads_as_fact q x fa /\ forall l, In l own_names -> ~ locally_named l x) (kids root) fs /\
      stably_sorted (fun a b => String.ltb (fID a) (fID b)) fs (iFacts i).
Proof.
  intros q tokens root f file i Hq D H. unfold decode_instance, decode in D.
  destruct (has_tag "xbrl" root); [|discriminate]. injection D; intros <-.
  destruct (C37_facts_loaded _ _ _ _ _ Hq H) as (_&fs&I&S). exists fs. split; auto.
  cbn [instance_struct if_facts] in I. apply image_map_filter in I. revert I. apply image_ext.
  intros x fa _. unfold reads_as_fact. split.
  - intros [A F]. destruct x as [s|n a j ks]; [discriminate|]. split; [eauto 10|].
    intros l Hl N. apply has_tag_iff in N. unfold is_any in A. apply negb_true_iff in A.
    rewrite !orb_false_iff in A. destruct A as [[[A1 A2] A3] A4]. simpl in Hl. intuition; subst; congruence.
  - intros [(n&a&j&ks&->&F) N]. split; auto. unfold is_any. apply negb_true_iff.
    assert (K : forall l, In l own_names -> has_tag l (XmlElem n a j ks) = false).
    { intros l Hl. destruct (has_tag l (XmlElem n a j ks)) eqn:E; auto. exfalso. apply (N l Hl). now apply has_tag_iff. }
    rewrite !K by (simpl; auto 10). reflexivity.
Qed.
Print Assumptions C103_facts_partial.
Example C103_example :
  (do f <- decode_instance (Some (xi "xbrl" ex_scope [a_fact "A" "f2"; txt " "; a_fact "A" "f1"]));
   do i <- hydrate_instance fact_env ex_tokens (Some f) "i.xml"; Ok (map fID (iFacts i))) = Ok ["f1"; "f2"].
Proof. vm_compute. reflexivity. Qed.

(** ** C104: contexts and units are read as XML says *)
Definition contexts_as_written (q : qenv) (tokens : string -> list token) (root : tree) (i : instance) : Prop :=
  exists cs, image_of (context_at q (content_of q tokens (attributes root)) (attributes root)) (kids root) cs /\
    stably_sorted (fun a b => String.ltb (ctxID a) (ctxID b)) cs (iContexts i).
Definition units_as_written (root : tree) (i : instance) : Prop :=
  exists us, image_of (unit_at (attributes root)) (kids root) us /\
    stably_sorted (fun a b => String.ltb (unID a) (unID b)) us (iUnits i).

Theorem C104_contexts_partial :
  forall q tokens root f file i, qenv_ok q -> decode_instance (Some root) = Ok f ->
    hydrate_instance q tokens (Some f) file = Ok i ->
    no_homonyms root -> declared_at_root root -> plain_texts root -> contexts_as_written q tokens root i.
Proof.
  intros q tokens root f file i Hq D H NH DR PT. unfold decode_instance, decode in D.
  destruct (has_tag "xbrl" root); [|discriminate]. injection D; intros <-.
  destruct (C39_contexts_partial _ _ _ _ _ Hq H) as (cs&I&S). exists cs. split; auto.
  cbn [instance_struct if_context if_attrs] in I. unfold field in I. apply image_map_filter in I. revert I. apply image_ext.
  intros x c Hx.
  assert (K : named xbrli "context" x ->
    (is_context q (attributes root) (content_of q tokens (attributes root)) (read_context x) c <->
     context_at q (content_of q tokens (attributes root)) (attributes root) x c)).
  { intro N. apply context_iff.
    - intros y s l R. apply NH. exists x. auto.
    - intros y a R. apply DR. exists x. auto.
    - intros y l R. apply PT. exists x. auto.
    - exists xbrli. auto. }
  split.
  - intros [T C]. apply K; auto. apply has_tag_iff in T as (s&a&j&ks&->). pose proof (ic_ns _ _ _ _ _ C) as E.
    simpl in E. subst. now exists a, j, ks.
  - intro C. pose proof (ca_name _ _ _ _ _ C) as N. split; [apply has_tag_iff; now exists xbrli|]. now apply K.
Qed.
Print Assumptions C104_contexts_partial.
Theorem C104_units_partial :
  forall q tokens root f file i, decode_instance (Some root) = Ok f ->
    hydrate_instance q tokens (Some f) file = Ok i ->
    no_homonyms root -> declared_at_root root -> plain_texts root -> units_as_written root i.
Proof.
  intros q tokens root f file i D H NH DR PT. unfold decode_instance, decode in D.
  destruct (has_tag "xbrl" root); [|discriminate]. injection D; intros <-.
  destruct (C40_units_loaded _ _ _ _ _ H) as (us&I&S). exists us. split; auto.
  cbn [instance_struct if_unit if_attrs] in I. unfold field in I. apply image_map_filter in I. revert I. apply image_ext.
  intros x u Hx.
  assert (K : named xbrli "unit" x -> (is_unit (attributes root) (read_unit x) u <-> unit_at (attributes root) x u)).
  { intro N. apply unit_iff.
    - intros y s l R. apply NH. exists x. auto.
    - intros y a R. apply DR. exists x. auto.
    - intros y l R. apply PT. exists x. auto.
    - exists xbrli. auto. }
  split.
  - intros [T C]. apply K; auto. apply has_tag_iff in T as (s&a&j&ks&->). pose proof (proj1 C) as E.
    simpl in E. subst. now exists a, j, ks.
  - intro C. pose proof (proj1 C) as N. split; [apply has_tag_iff; now exists xbrli|]. now apply K.
Qed.
Print Assumptions C104_units_partial.

(** a document with one context *)
Definition one_context (ks : list tree) : tree := xi "xbrl" ex_scope [xi "context" [pa "id" "c"] ks].
Definition an_entity (members : list tree) : tree :=
  xi "entity" [] (xi "identifier" [pa "scheme" "urn:cik"] [txt "0000"] :: members).
(** a conforming one, for which all hypotheses hold *)
Definition good_doc : tree :=
  one_context [an_entity [xi "segment" [] [xd "explicitMember" [pa "dimension" "t:Dim"] [txt "t:B"]]];
               xi "period" [] [xi "instant" [] [txt "2020-12-31"]]].
(** with an element of another vocabulary before the entity *)
Definition foreign_doc : tree :=
  one_context [el "urn:x" "entity" [] [xi "identifier" [pa "scheme" "urn:x"] [txt "other"]]; an_entity []].
(** with a member whose prefix is declared where it is used *)
Definition scoped_doc : tree :=
  one_context [an_entity [xi "segment" []
    [xd "explicitMember" [XAttr (XName "xmlns" "u") "urn:t"; pa "dimension" "u:Dim"] [txt "u:B"]]]].
(** pretty-printed *)
Definition padded_doc : tree :=
  one_context [an_entity [xi "segment" [] [xd "explicitMember" [pa "dimension" "t:Dim"] [txt " t:B "]]]].

Lemma names_ok doc : (forall y s l, In y (flat_map nodes (kids doc)) -> named s l y ->
    (In l xbrli_names -> s = xbrli) /\ (In l xbrldi_names -> s = xbrldi)) -> no_homonyms doc.
Proof. intros H y s l R. apply H. now apply in_context_nodes. Qed.
Ltac prove_names := apply names_ok; intros y s l R (a&i&ks&->); simpl in R;
  repeat destruct R as [R|R]; try contradiction R; try discriminate R; injection R; intros; subst; simpl;
  (split; [intro Q|intro Q]); auto; exfalso; intuition discriminate.
Ltac prove_decls := intros y a R Ha; apply in_context_nodes in R; simpl in R;
  repeat destruct R as [R|R]; try contradiction R; subst; simpl in Ha;
  repeat destruct Ha as [Ha|Ha]; try contradiction Ha; subst; split; discriminate.
Ltac prove_texts := intros y l R Hl (s&a&i&ks&->); apply in_context_nodes in R; simpl in R;
  repeat destruct R as [R|R]; try contradiction R; try discriminate R; injection R; intros; subst;
  try (exfalso; simpl in Hl; intuition discriminate);
  (split; [simpl; intros k Hk; repeat destruct Hk as [Hk|Hk]; try contradiction Hk; subst; eexists; reflexivity
          |apply trimmed_iff; vm_compute; reflexivity]).

Example C104_example :
  no_homonyms good_doc /\ declared_at_root good_doc /\ plain_texts good_doc /\
  (do f <- decode_instance (Some good_doc); do i <- hydrate_instance ex_env ex_tokens (Some f) "i.xml"; Ok (iContexts i)) =
  Ok [Context "c" "urn:cik" "0000" (DimContext [ExplicitMember "t.xsd#t_Dim" "t:Dim" "t.xsd#t_B" "t:B"] []) "2020-12-31" "" ""
        (DimContext [] [])].
Proof.
  split; [|split; [|split]].
  - prove_names.
  - prove_decls.
  - prove_texts.
  - vm_compute. reflexivity.
Qed.

Lemma one_as_written q tokens ks i c : contexts_as_written q tokens (one_context ks) i -> iContexts i = [c] ->
  context_at q (content_of q tokens ex_scope) ex_scope (xi "context" [pa "id" "c"] ks) c.
Proof.
  intros (cs&I&P&_) E. rewrite E in P. apply Permutation_sym, Permutation_length_1_inv in P as ->.
  change (attributes (one_context ks)) with ex_scope in I. simpl in I.
  inversion I as [|x y l l' R I'|x l l' N I']; subst; auto. inversion I'.
Qed.
Lemma first_child_unique {A} s l (x y z : xml A) : first_child s l x y -> first_child s l x z -> y = z.
Proof. apply first_such_unique. Qed.

(** Refuted: an element of another namespace that bears the name of an XBRL element
    is taken for it, even if everything else is regular; *)
Theorem C104_foreign_refuted :
  ~ (forall q tokens root f file i, qenv_ok q -> decode_instance (Some root) = Ok f ->
       hydrate_instance q tokens (Some f) file = Ok i ->
       declared_at_root root -> plain_texts root -> contexts_as_written q tokens root i).
Proof.
  intro H. specialize (H ex_env ex_tokens foreign_doc _ "i.xml" _ ex_env_ok eq_refl eq_refl).
  assert (D : declared_at_root foreign_doc) by prove_decls.
  assert (T : plain_texts foreign_doc) by prove_texts.
  specialize (H D T). eapply one_as_written in H; [|vm_compute; reflexivity].
  apply ca_entity in H as (en&idt&F&FI&V&_). cbn [ctxIdentifier] in V.
  assert (en = an_entity []) as ->.
  { apply (first_child_unique _ _ _ _ _ F). exists [el "urn:x" "entity" [] [xi "identifier" [pa "scheme" "urn:x"] [txt "other"]]], [].
    split; auto. split; [unfold named, an_entity, xi, el; eauto|]. intros y [<-|[]] (a&j&ks&E). discriminate E. }
  assert (idt = xi "identifier" [pa "scheme" "urn:cik"] [txt "0000"]) as ->.
  { apply (first_child_unique _ _ _ _ _ FI). exists [], [].
    split; auto. split; [unfold named, xi, el; eauto|]. intros y []. }
  apply trimmed_iff in V. vm_compute in V. discriminate V.
Qed.
Print Assumptions C104_foreign_refuted.
(** prefixes declared below the root are not understood, so members are lost; *)
Theorem C104_scope_refuted :
  ~ (forall q tokens root f file i, qenv_ok q -> decode_instance (Some root) = Ok f ->
       hydrate_instance q tokens (Some f) file = Ok i ->
       no_homonyms root -> plain_texts root -> contexts_as_written q tokens root i).
Proof.
  intro H. specialize (H ex_env ex_tokens scoped_doc _ "i.xml" _ ex_env_ok eq_refl eq_refl).
  assert (N : no_homonyms scoped_doc) by prove_names.
  assert (T : plain_texts scoped_doc) by prove_texts.
  specialize (H N T). eapply one_as_written in H; [|vm_compute; reflexivity].
  apply ca_entity in H as (en&idt&F&_&_&_&_&M). cbn [ctxSegment] in M.
  assert (en = an_entity [xi "segment" [] [xd "explicitMember" [XAttr (XName "xmlns" "u") "urn:t"; pa "dimension" "u:Dim"] [txt "u:B"]]]) as ->.
  { apply (first_child_unique _ _ _ _ _ F). exists [], []. split; auto. split; [unfold named, an_entity, xi, el; eauto|]. intros y []. }
  destruct M as [[NC _]|(s&FS&IX&_)].
  { apply (NC (xi "segment" [] [xd "explicitMember" [XAttr (XName "xmlns" "u") "urn:t"; pa "dimension" "u:Dim"] [txt "u:B"]]));
      [simpl; auto|unfold named, xi, el; eauto]. }
  assert (s = xi "segment" [] [xd "explicitMember" [XAttr (XName "xmlns" "u") "urn:t"; pa "dimension" "u:Dim"] [txt "u:B"]]) as ->.
  { apply (first_child_unique _ _ _ _ _ FS). exists [xi "identifier" [pa "scheme" "urn:cik"] [txt "0000"]], [].
    split; auto. split; [unfold named, xi, el; eauto|]. intros y [<-|[]] (a&j&ks&E). discriminate E. }
  simpl in IX. inversion IX as [| |x l l' NX _]; subst.
  apply (NX (ExplicitMember "t.xsd#t_Dim" "u:Dim" "t.xsd#t_B" "u:B")). split; [unfold named, xd, el; eauto|].
  split; [apply attr_val_iff; eexists; split; reflexivity|]. split.
  - eexists. apply resolve_name_iff; [exact ex_env_ok|]. reflexivity.
  - split; [apply trimmed_iff; reflexivity|]. eexists. apply resolve_name_iff; [exact ex_env_ok|]. reflexivity.
Qed.
Print Assumptions C104_scope_refuted.
(** and pretty-printed members are lost. *)
Theorem C104_white_space_refuted :
  ~ (forall q tokens root f file i, qenv_ok q -> decode_instance (Some root) = Ok f ->
       hydrate_instance q tokens (Some f) file = Ok i ->
       no_homonyms root -> declared_at_root root -> contexts_as_written q tokens root i).
Proof.
  intro H. specialize (H ex_env ex_tokens padded_doc _ "i.xml" _ ex_env_ok eq_refl eq_refl).
  assert (N : no_homonyms padded_doc) by prove_names.
  assert (D : declared_at_root padded_doc) by prove_decls.
  specialize (H N D). eapply one_as_written in H; [|vm_compute; reflexivity].
  apply ca_entity in H as (en&idt&F&_&_&_&_&M). cbn [ctxSegment] in M.
  assert (en = an_entity [xi "segment" [] [xd "explicitMember" [pa "dimension" "t:Dim"] [txt " t:B "]]]) as ->.
  { apply (first_child_unique _ _ _ _ _ F). exists [], []. split; auto. split; [unfold named, an_entity, xi, el; eauto|]. intros y []. }
  destruct M as [[NC _]|(s&FS&IX&_)].
  { apply (NC (xi "segment" [] [xd "explicitMember" [pa "dimension" "t:Dim"] [txt " t:B "]]));
      [simpl; auto|unfold named, xi, el; eauto]. }
  assert (s = xi "segment" [] [xd "explicitMember" [pa "dimension" "t:Dim"] [txt " t:B "]]) as ->.
  { apply (first_child_unique _ _ _ _ _ FS). exists [xi "identifier" [pa "scheme" "urn:cik"] [txt "0000"]], [].
    split; auto. split; [unfold named, xi, el; eauto|]. intros y [<-|[]] (a&j&ks&E). discriminate E. }
  simpl in IX. inversion IX as [| |x l l' NX _]; subst.
  apply (NX (ExplicitMember "t.xsd#t_Dim" "t:Dim" "t.xsd#t_B" "t:B")). split; [unfold named, xd, el; eauto|].
  split; [apply attr_val_iff; eexists; split; reflexivity|]. split.
  - eexists. apply resolve_name_iff; [exact ex_env_ok|]. reflexivity.
  - split; [apply trimmed_iff; reflexivity|]. eexists. apply resolve_name_iff; [exact ex_env_ok|]. reflexivity.
Qed.
Print Assumptions C104_white_space_refuted.

(** ** C105: labels *)
Definition lk (l : string) (attrs : list xattr) (ks : list tree) : tree := el "http://www.xbrl.org/2003/linkbase" l attrs ks.
Definition xl (l v : string) : xattr := XAttr (XName "http://www.w3.org/1999/xlink" l) v.
Definition label_attrs := [xl "type" "resource"; xl "label" "L"; xl "role" "http://www.xbrl.org/2003/role/label"; pa "lang" "en"].
Definition label_doc (ks : list tree) : tree :=
  lk "linkbase" [] [lk "labelLink" [xl "type" "extended"; xl "role" "http://www.xbrl.org/2003/role/link"] [lk "label" label_attrs ks]].

(** Refuted: text in markup inside a label is lost. *)
Theorem C105_markup_refuted :
  ~ (forall pf root f file lb, decode_label (Some root) = Ok f -> hydrate_label_linkbase pf (Some f) file = Ok lb ->
       own_links root "labelLink" ["loc"; "label"; "labelArc"] -> labels_as_written pf root lb).
Proof.
  intro H. set (d := label_doc [txt "Net "; el "http://www.w3.org/1999/xhtml" "i" [] [txt "income"]]).
  specialize (H ex_pf d _ "l.xml" _ eq_refl eq_refl).
  assert (O : own_links d "labelLink" ["loc"; "label"; "labelArc"]).
  { intros x s [<-|[]] (a&i&ks&E). injection E; intros; subst. split; auto.
    intros y l s' [<-|[]] Hl (a&i&ks&E'). injection E'; intros; subst. reflexivity. }
  specialize (H O). apply proj2 in H. simpl in H.
  inversion H as [|x y l l' R I|x l l' N I]; subst; [|inversion I]. destruct R as (_&_&_&_&LI&_). simpl in LI.
  inversion LI as [|x y l l' R I'|x l l' N I']; subst; [|inversion I'].
  pose proof (lt_text _ _ R) as E. discriminate E.
Qed.
Print Assumptions C105_markup_refuted.
(** What holds: if labels contain text only, every label is loaded, with its whole text. *)
Theorem C105_labels_partial :
  forall pf root f file lb, decode_label (Some root) = Ok f -> hydrate_label_linkbase pf (Some f) file = Ok lb ->
    own_links root "labelLink" ["loc"; "label"; "labelArc"] -> plain_labels root -> labels_as_written pf root lb.
Proof.
  intros pf root f file lb D H O P. unfold decode_label, decode in D.
  destruct (has_tag "linkbase" root); [|discriminate]. injection D; intros <-.
  destruct (C46_label_linkbase _ _ _ _ H) as (_&RR&I). split; [now apply role_refs_image in RR|].
  cbn [linkbase_struct lf_links] in I.
  assert (OR : only_in link_ns "labelLink" root) by (intros y s Hy N; apply (O y s Hy N)).
  apply (field_image link_ns) in I; auto. revert I. apply image_ext. intros x l Hx.
  assert (K : named link_ns "labelLink" x -> only_in link_ns "loc" x /\ only_in link_ns "label" x /\ only_in link_ns "labelArc" x).
  { intro N. split; [|split]; intros y s Hy Ny; eapply (proj2 (O x _ Hx N)); eauto; simpl; auto. }
  split.
  - intros [N L]. destruct (K N) as (K1&K2&K3). apply label_link_iff; auto.
    intros y k. apply P; auto. now exists link_ns.
  - intro L. pose proof (proj1 L) as N. destruct (K N) as (K1&K2&K3). apply label_link_iff; auto.
    intros y k. apply P; auto. now exists link_ns.
Qed.
Print Assumptions C105_labels_partial.
Example C105_example :
  own_links (label_doc [txt "Net income"]) "labelLink" ["loc"; "label"; "labelArc"] /\ plain_labels (label_doc [txt "Net income"]) /\
  (do f <- decode_label (Some (label_doc [txt "Net income"])); do lb <- hydrate_label_linkbase ex_pf (Some f) "l.xml";
   Ok (map (fun l => map llCharData (lnLabels l)) (llLinks lb))) = Ok [["Net income"]].
Proof.
  split; [|split].
  - intros x s [<-|[]] (a&i&ks&E). injection E; intros; subst. split; auto.
    intros y l s' [<-|[]] Hl (a&i&ks&E'). injection E'; intros; subst. reflexivity.
  - intros x y k [<-|[]] _ [<-|[]] _ [<-|[]]. now eexists.
  - vm_compute. reflexivity.
Qed.

(** ** C106: files of another kind are refused *)
Definition accepted {B} (r : res B) : Prop := exists b, r = Ok b.
Definition utr_ns := "http://www.xbrl.org/2009/utr".
Definition refused {B} (r : res B) : Prop := exists m, r = Err m.
(** the kinds of file, with the root element each must have *)
Definition outcome {B} (r : res B) : Prop * Prop := (accepted r, refused r).
Definition kinds : list ((option tree -> Prop * Prop) * string * string) :=
  [((fun d => outcome (decode_schema d)), xsd_ns, "schema");
   ((fun d => outcome (decode_presentation d)), link_ns, "linkbase");
   ((fun d => outcome (decode_definition d)), link_ns, "linkbase");
   ((fun d => outcome (decode_calculation d)), link_ns, "linkbase");
   ((fun d => outcome (decode_label d)), link_ns, "linkbase");
   ((fun d => outcome (decode_instance d)), xbrli, "xbrl");
   ((fun d => outcome (decode_utr d)), utr_ns, "utr")].
(** Refuted, for every kind: the namespace of the root is not looked at. *)
Theorem C106_namespace_refuted :
  forall read s l, In (read, s, l) kinds -> ~ (forall x, fst (read (Some x)) -> named s l x).
Proof.
  intros read s l Hin H. assert (A : fst (read (Some (el "urn:x" l [] [])))).
  { simpl in Hin. repeat destruct Hin as [Hin|Hin]; try contradiction; injection Hin; intros <- <- <-; eexists; reflexivity. }
  apply H in A as (a&i&ks&E). simpl in Hin.
  repeat destruct Hin as [Hin|Hin]; try contradiction; injection Hin; intros <- <- <-; discriminate E.
Qed.
Print Assumptions C106_namespace_refuted.
(** What holds: a file is accepted exactly if it is XML and its root has the local
    name; every other file is refused with an error. *)
Theorem C106_root_partial :
  forall read s l, In (read, s, l) kinds ->
    forall doc, let '(accepts, refuses) := read doc in
      (accepts <-> exists x, doc = Some x /\ locally_named l x) /\
      (refuses <-> forall x, doc = Some x -> ~ locally_named l x).
Proof.
  assert (K : forall B (g : tree -> B) l doc, (accepted (decode l g doc) <-> exists x, doc = Some x /\ locally_named l x) /\
    (refused (decode l g doc) <-> forall x, doc = Some x -> ~ locally_named l x)).
  { intros B g l [x|]; unfold accepted, refused; simpl.
    - destruct (has_tag l x) eqn:E; (split; split).
      + intros _. exists x. split; auto. now apply has_tag_iff.
      + eauto.
      + intros [b E']. discriminate.
      + intros H. apply has_tag_iff in E. now apply (H x) in E.
      + intros [b E']. discriminate.
      + intros (y&E'&N). injection E'; intros <-. apply has_tag_iff in N. congruence.
      + intros _ y E' N. injection E'; intros <-. apply has_tag_iff in N. congruence.
      + eauto.
    - split; split; try (intros [b E]; discriminate); try (intros (x&E&_); discriminate); eauto. }
  intros read s l Hin doc. simpl in Hin.
  repeat destruct Hin as [Hin|Hin]; try contradiction; injection Hin; intros <- <- <-; apply K.
Qed.
Print Assumptions C106_root_partial.
Example C106_example : accepted (decode_instance (Some good_doc)) /\ refused (decode_schema (Some good_doc)).
Proof. split; eexists; reflexivity. Qed.

(** ** C107: concepts *)
Definition concepts_as_written (root : tree) (file : string) (s : schema) : Prop :=
  image_of (concept_at root file) (kids root) (sElement s).
Definition xs (l : string) (attrs : list xattr) (ks : list tree) : tree := el "http://www.w3.org/2001/XMLSchema" l attrs ks.
Definition schema_doc (decls : list xattr) : tree :=
  xs "schema" [pa "targetNamespace" "urn:t"; XAttr (XName "xmlns" "t") "urn:t"]
    [txt " "; xs "element" (decls ++ [pa "id" "t_A"; pa "name" "A"; pa "type" "u:money"])%list [];
     xs "element" [pa "id" "t_B"; pa "name" "B"; pa "type" "t:text"] []].
(** Refuted: a prefix declared on the declaration itself is not understood. *)
Theorem C107_scope_refuted :
  ~ (forall root f file s, decode_schema (Some root) = Ok f -> hydrate_schema (Some f) file = Ok s ->
       concepts_as_written root file s).
Proof.
  intro H. specialize (H (schema_doc [XAttr (XName "xmlns" "u") "urn:u"]) _ "t.xsd" _ eq_refl eq_refl).
  unfold concepts_as_written in H. cbn [kids schema_doc xs el] in H.
  inversion H as [|x y l l' R _|x l l' _ I]; subst.
  { destruct (cn_name _ _ _ _ R) as (?&?&?&E). discriminate E. }
  inversion I as [|x0 y l l' R _|x0 l l' N J]; subst.
  - destruct (cn_type _ _ _ _ R) as (t&[F _]&T). apply attr_val_iff in F as (a&Fa&<-). vm_compute in Fa. injection Fa; intros <-.
    pose proof (resolves_fun _ _ _ _ T (xmlns_resolves _ _)) as E. vm_compute in E. discriminate E.
  - inversion J as [|x0 y l l' _ I'|x0 l l' _ I']; subst; inversion I'.
Qed.
Print Assumptions C107_scope_refuted.
(** What holds: if no declaration declares namespaces of its own, the loaded
    concepts are exactly the ones declared, in document order. *)
Theorem C107_concepts_partial :
  forall root f file s, decode_schema (Some root) = Ok f -> hydrate_schema (Some f) file = Ok s ->
    plain_declarations root -> concepts_as_written root file s.
Proof.
  intros root f file s D H P. unfold decode_schema, decode in D.
  destruct (has_tag "schema" root); [|discriminate]. injection D; intros <-.
  destruct (C44_concepts_loaded _ _ _ H) as [_ I]. cbn [schema_struct sf_element] in I. unfold field in I.
  apply image_map_filter in I. revert I. apply image_ext. intros x c Hx. apply concept_iff.
  intros N a. now apply P.
Qed.
Print Assumptions C107_concepts_partial.
Example C107_example :
  plain_declarations (schema_doc []) /\
  (do f <- decode_schema (Some (schema_doc [])); do s <- hydrate_schema (Some f) "t.xsd"; Ok (map cXMLName (sElement s))) =
  Ok [XName "urn:t" "A"; XName "urn:t" "B"].
Proof.
  split; [|vm_compute; reflexivity]. intros x a Hx _ Ha. simpl in Hx.
  repeat destruct Hx as [<-|Hx]; try contradiction; simpl in Ha; repeat destruct Ha as [<-|Ha]; try contradiction; split; discriminate.
Qed.

(** ** C108: presentation, definition and calculation links *)
Definition links_as_written {arc} (link_name arc_name : string) (is_a : elem -> arc -> Prop) (root : tree)
  (lb : linkbase arc) : Prop :=
  image_of (at_elem link_ns "roleRef" is_role_ref) (kids root) (lbRoleRefs lb) /\
  exists links, image_of (link_at link_name arc_name is_a) (kids root) links /\ merges links (lbLinks lb).
Definition links_doc (ks : list tree) : tree :=
  lk "linkbase" [] [lk "presentationLink" [xl "type" "extended"; xl "role" "urn:r"] ks].
Definition a_loc (s : string) : tree :=
  el s "loc" [xl "type" "locator"; xl "href" "t.xsd#t_A"; xl "label" "A"] [].
(** Refuted: an element of another namespace that is named like a locator is one. *)
Theorem C108_foreign_refuted :
  ~ (forall pf shuffle root f file lb, (forall l, Permutation (shuffle l) l) -> decode_presentation (Some root) = Ok f ->
       hydrate_linkbase (hydrate_parc pf) shuffle (Some f) file = Ok lb ->
       links_as_written "presentationLink" "presentationArc" (is_presentation_arc pf) root lb).
Proof.
  intro H. specialize (H ex_pf (fun l => l) (links_doc [a_loc "urn:x"]) _ "p.xml" _ (fun l => Permutation_refl _) eq_refl eq_refl).
  destruct H as (_&links&I&M). simpl in I.
  assert (L : forall l, In l links -> lLocs l = []).
  { intros l Hl. apply (image_of_In _ _ _ _ I) in Hl as (x&[<-|[]]&_&_&_&Lo&_). simpl in Lo.
    inversion Lo as [|x y k k' R _|x k k' _ I']; subst; [|now inversion I'].
    destruct R as (?&?&?&E&_). discriminate E. }
  destruct M as (_&_&M). destruct (M _ (or_introl eq_refl)) as [E _].
  assert (F : forall ls, (forall l, In l ls -> lLocs l = []) -> flat_map (@lLocs parc) (filter (fun x => String.eqb (lRole x) "urn:r") ls) = []).
  { induction ls as [|l ls IH]; intro K; simpl; auto. destruct (String.eqb (lRole l) "urn:r"); simpl; [rewrite K by (simpl; auto); simpl|]; apply IH; intros; apply K; simpl; auto. }
  vm_compute in E. specialize (F links L). vm_compute in F. congruence.
Qed.
Print Assumptions C108_foreign_refuted.
(** What holds, if there are no such elements. *)
Theorem C108_presentation_partial :
  forall pf shuffle root f file lb, (forall l, Permutation (shuffle l) l) -> decode_presentation (Some root) = Ok f ->
    hydrate_linkbase (hydrate_parc pf) shuffle (Some f) file = Ok lb ->
    own_links root "presentationLink" ["loc"; "presentationArc"] ->
    links_as_written "presentationLink" "presentationArc" (is_presentation_arc pf) root lb.
Proof.
  intros pf shuffle root f file lb P D H O. unfold decode_presentation, decode in D.
  destruct (has_tag "linkbase" root); [|discriminate]. injection D; intros <-.
  destruct (C46_presentation_linkbase _ _ _ _ _ P H) as (_&RR&links&I&M).
  split; [now apply role_refs_image in RR|]. exists links. split; auto. now apply links_image.
Qed.
Print Assumptions C108_presentation_partial.
Theorem C108_definition_partial :
  forall pf shuffle root f file lb, (forall l, Permutation (shuffle l) l) -> decode_definition (Some root) = Ok f ->
    hydrate_linkbase (hydrate_darc pf) shuffle (Some f) file = Ok lb ->
    own_links root "definitionLink" ["loc"; "definitionArc"] ->
    links_as_written "definitionLink" "definitionArc" (is_definition_arc pf) root lb.
Proof.
  intros pf shuffle root f file lb P D H O. unfold decode_definition, decode in D.
  destruct (has_tag "linkbase" root); [|discriminate]. injection D; intros <-.
  destruct (C46_definition_linkbase _ _ _ _ _ P H) as (_&RR&links&I&M).
  split; [now apply role_refs_image in RR|]. exists links. split; auto. now apply links_image.
Qed.
Print Assumptions C108_definition_partial.
Theorem C108_calculation_partial :
  forall pf shuffle root f file lb, (forall l, Permutation (shuffle l) l) -> decode_calculation (Some root) = Ok f ->
    hydrate_linkbase (hydrate_carc pf) shuffle (Some f) file = Ok lb ->
    own_links root "calculationLink" ["loc"; "calculationArc"] ->
    links_as_written "calculationLink" "calculationArc" (is_calculation_arc pf) root lb.
Proof.
  intros pf shuffle root f file lb P D H O. unfold decode_calculation, decode in D.
  destruct (has_tag "linkbase" root); [|discriminate]. injection D; intros <-.
  destruct (C46_calculation_linkbase _ _ _ _ _ P H) as (_&RR&links&I&M).
  split; [now apply role_refs_image in RR|]. exists links. split; auto. now apply links_image.
Qed.
Print Assumptions C108_calculation_partial.
Example C108_example :
  own_links (links_doc [txt " "; a_loc link_ns]) "presentationLink" ["loc"; "presentationArc"] /\
  (do f <- decode_presentation (Some (links_doc [txt " "; a_loc link_ns]));
   do lb <- hydrate_linkbase (hydrate_parc ex_pf) (fun l => l) (Some f) "p.xml";
   Ok (map (fun l => (lRole l, length (lLocs l))) (lbLinks lb))) = Ok [("urn:r", 1%nat)].
Proof.
  split; [|vm_compute; reflexivity].
  intros x s [<-|[]] (a&i&ks&E). injection E; intros; subst. split; auto.
  intros y l s' [<-|[<-|[]]] Hl (a&i&ks&E'); [discriminate|]. injection E'; intros; subst. reflexivity.
Qed.

(** ** C109: the registry of units *)
(** a unit is known exactly if the registry's (first) list has a complete entry for
    it, and the last such entry is what is known about it *)
Theorem C109_registry :
  forall root us, decode_utr (Some root) = Ok us -> forall nsp id m,
    query_utr (Ok (map_measurements us)) nsp id = Some m <->
    exists u ms, first_local "units" root u /\ image_of measurement_at (kids u) ms /\
      last_such (fun m => mNSUnit m = nsp /\ mUnitID m = id) ms m.
Proof.
  intros root us D nsp id m. unfold decode_utr, decode in D.
  destruct (has_tag "utr" root); [|discriminate]. injection D; intros <-. unfold utr_struct, first_local.
  assert (IM : forall (u : tree) ms, image_of is_measurement (map read_utr_unit (field "unit" u)) ms <-> image_of measurement_at (kids u) ms).
  { intros u ms. unfold field. etransitivity; [apply image_map_filter_iff|]. apply image_ext_iff. intros x y Hx. split.
    - intros [T M]. apply has_tag_iff in T. now apply measurement_iff.
    - intro M. pose proof (me_unit _ _ M) as U. split; [now apply has_tag_iff|]. now apply measurement_iff. }
  destruct (field "units" root) as [|u rest] eqn:E.
  - simpl. split; [discriminate|]. intros (u&ms&F&_). apply first_such_In in F as [Hu N].
    apply has_tag_iff in N. assert (X : In u (field "units" root)) by (apply filter_In; split; auto). rewrite E in X. destruct X.
  - cbn [map]. etransitivity; [apply query_utr_iff|]. unfold registered.
    assert (FU : first_such (locally_named "units") (kids root) u).
    { apply field_first_local. eauto. }
    split.
    + intros (ms&I&L). exists u, ms. split; auto. split; auto. now apply IM.
    + intros (u'&ms&F&I&L). assert (u' = u) by (eapply first_such_unique; eauto). subst. exists ms. split; auto. now apply IM.
Qed.
Print Assumptions C109_registry.
Definition utr_unit_doc (id nsp sym : string) : tree :=
  el utr_ns "unit" [] [el utr_ns "unitId" [] [txt id]; el utr_ns "unitName" [] [txt id]; el utr_ns "nsUnit" [] [txt nsp];
                       el utr_ns "symbol" [] [txt sym]].
Example C109_example :
  exists us, decode_utr (Some (el utr_ns "utr" [] [el utr_ns "units" []
    [utr_unit_doc "USD" "urn:iso" "$"; utr_unit_doc "GBP" "urn:iso" "?"; el utr_ns "unit" [] []; utr_unit_doc "GBP" "urn:iso" "P"]])) = Ok us /\
    option_map mSymbol (query_utr (Ok (map_measurements us)) "urn:iso" "GBP") = Some "P".
Proof. eexists. split; [reflexivity|]. vm_compute. reflexivity. Qed.

(** ** C110: what an inline document consists of *)
Definition fact_footnote := "http://www.xbrl.org/2003/arcrole/fact-footnote".
Theorem C110_is_inline :
  forall doc, decode_inline doc = None <->
    doc = None \/ exists d, doc = Some d /\ forall x, descends d x -> ~ locally_named "html" x.
Proof.
  intros [d|]; unfold decode_inline; [|split; auto].
  destruct (image_head _ snd _ _ (query_all_hits [local_is "html"] d ltac:(discriminate))) as [_ K].
  fold (query [local_is "html"] d) in K. split.
  - destruct (query [local_is "html"] d) as [h|]; [discriminate|]. intros _. right. exists d. split; auto.
    intros x (above&Hx) N. destruct K as [K _]. apply (K eq_refl _ Hx). apply hit_one. now apply has_tag_iff.
  - intros [H|(d'&E&H)]; [discriminate|]. injection E; intros <-. destruct K as [_ K].
    rewrite K; auto. intros [above x] Hx Hh. apply hit_one in Hh. apply has_tag_iff in Hh. apply (H x); auto. now exists above.
Qed.
Print Assumptions C110_is_inline.
Theorem C110_parts :
  forall d s, decode_inline (Some d) = Some s ->
    (exists above, first_such (fun ax => locally_named "html" (snd ax)) (walk [] d) (above, idHtml s)) /\
    selects [(ix_ns, "header"); (link_ns, "schemaRef")] d (idSchemaRefs s) /\
    selects [(ix_ns, "header"); (ix_ns, "resources"); (xbrli, "context")] d (idContexts s) /\
    selects [(ix_ns, "header"); (ix_ns, "resources"); (xbrli, "unit")] d (idUnits s) /\
    selects [(ix_ns, "nonFraction")] d (idNonFractions s) /\
    selects [(ix_ns, "nonNumeric")] d (idNonNumerics s) /\
    selects [(ix_ns, "exclude")] d (idExcludes s) /\
    image_of (fun ax y => named ix_ns "relationship" y /\
        (exists a, In a (attributes y) /\ qname a = XName "" "arcrole" /\ qvalue a = fact_footnote) /\ y = snd ax)
      (walk [] d) (idFootnoteRelationships s).
Proof.
  intros d s H. unfold decode_inline in H.
  destruct (image_head _ snd _ _ (query_all_hits [local_is "html"] d ltac:(discriminate))) as [K _].
  fold (query [local_is "html"] d) in K. destruct (query [local_is "html"] d) as [h|]; [|discriminate].
  injection H; intros <-. cbn [idHtml idSchemaRefs idContexts idUnits idNonFractions idNonNumerics idExcludes idFootnoteRelationships].
  split; [|split; [|split; [|split; [|split; [|split; [|split]]]]]];
    try (match goal with |- selects ?p _ _ => apply (query_all_selects p); discriminate end).
  - destruct (K h) as [K1 _]. destruct (K1 eq_refl) as ([above x]&F&E). simpl in E. subst x. exists above.
    refine (proj1 (first_such_ext _ _ _ _ _) F). intros [ab x] _. rewrite hit_one. exact (has_tag_iff "html" x).
  - eapply image_ext; [|apply query_all_hits; discriminate]. intros [above x] y _. rewrite hit_one. cbn [snd].
    rewrite andb_true_iff. rewrite name_is_iff. unfold arcrole_is. rewrite existsb_exists. split.
    + intros [[N (a&Ha&T)] ->]. split; auto. split; auto. exists a. rewrite !andb_true_iff, !String.eqb_eq in T.
      destruct T as [[T1 T2] T3]. split; [destruct x; exact Ha|]. split; auto. destruct (qname a). simpl in *. now subst.
    + intros (N&(a&Ha&E1&E2)&->). split; auto. split; auto. exists a. split; [destruct x; exact Ha|].
      rewrite E1, E2. reflexivity.
Qed.
Print Assumptions C110_parts.

(** a small inline document *)
Definition qe (s l : string) (attrs : list qattr) (ks : list qtree) : qtree := XmlElem (XName s l) attrs "" ks.
Definition ix_fact (l k c : string) (more : list qattr) : qtree :=
  qe ix_ns l (more ++ ex_ix k c)%list [XmlText "1"].
Definition inline_example (facts : list qtree) : qtree :=
  qe "http://www.w3.org/1999/xhtml" "html" ex_html
    [qe "http://www.w3.org/1999/xhtml" "body" []
      [qe ix_ns "header" [] [qe ix_ns "references" [] [qe link_ns "schemaRef" [] []];
                             qe ix_ns "resources" [] [qe xbrli "context" [xa "id" "c1"] []]];
       qe "http://www.w3.org/1999/xhtml" "p" [] facts; qe xbrli "context" [] []]].
Example C110_example :
  option_map (fun s => (length (idSchemaRefs s), idContexts s, length (idNonFractions s)))
    (decode_inline (Some (inline_example [ix_fact "nonFraction" "us-gaap:A" "c1" []]))) =
  Some (1%nat, [qe xbrli "context" [xa "id" "c1"] []], 1%nat).
Proof. vm_compute. reflexivity. Qed.

(** ** C111: the facts of an inline document are known *)
Definition loads (d : qtree) (r : res (option document)) : Prop :=
  exists s, decode_inline (Some d) = Some s /\ hydrate_document (Some (inline_source s)) r.
(** What holds: if the namespaces are declared at the root, and every fact has a
    name and a context, exactly the facts other than fractions are known. *)
Theorem C111_facts_partial :
  forall d r, loads d r -> declared_at_html d -> new_name_provider (attributes d) <> Panic -> conforming_facts d ->
    exists doc, r = Ok (Some doc) /\ knows ["nonNumeric"; "nonFraction"] d doc.
Proof.
  intros d r (s&D&H) DH NP CF. rewrite (html_root d s DH D) in H.
  destruct (new_name_provider (attributes d)) as [np|m|] eqn:E; [|apply provider_never_err in E; contradiction|contradiction].
  assert (L : forall node, In node (map x_attrs (query_all [name_is "nonNumeric" IX] d) ++ map x_attrs (query_all [name_is "nonFraction" IX] d))%list <->
    exists above x, In (above, x) (walk [] d) /\ fact_element ["nonNumeric"; "nonFraction"] x /\ node = attributes x).
  { intro node. rewrite in_app_iff, !listed_iff. split.
    - intros [(ab&x&A&B&->)|(ab&x&A&B&->)]; exists ab, x; (split; [auto|split; auto]); [exists "nonNumeric"|exists "nonFraction"]; simpl; auto.
    - intros (ab&x&A&(l&[<-|[<-|[]]]&B)&->); [left|right]; eauto 6. }
  match type of H with hydrate_document (Some ?src) _ => pose proof (C72_same_maps src np r E) as K end.
  destruct K as (doc&->&N&C); [|exact H|].
  { intros node Hn. apply L in Hn as (ab&x&A&(l&Hl&B)&->). destruct (CF ab x A) as (k&n&c&F).
    - exists l. split; auto. simpl in *. intuition.
    - exists k, n, c. now apply (inline_at_root d ab). }
  exists doc. split; auto. cbn [dsHtml dsNonNumerics dsNonFractions] in N, C. split.
  - intros k n. rewrite N. split.
    + intros (node&c&Hn&F). apply L in Hn as (ab&x&A&B&->). exists ab, x, c. split; auto. split; auto. now apply (inline_at_root d ab).
    + intros (ab&x&c&A&B&F). exists (attributes x), c. split; [apply L; eauto|]. now apply (inline_at_root d ab).
  - intros c b. rewrite C. split; (intros [-> X]; split; auto).
    + destruct X as (node&k&n&Hn&F). apply L in Hn as (ab&x&A&B&->). exists ab, x, k, n. split; auto. split; auto. now apply (inline_at_root d ab).
    + destruct X as (ab&x&k&n&A&B&F). exists (attributes x), k, n. split; [apply L; eauto|]. now apply (inline_at_root d ab).
Qed.
Print Assumptions C111_facts_partial.
Theorem C111_no_fraction_partial :
  forall d r, loads d r -> declared_at_html d -> new_name_provider (attributes d) <> Panic -> conforming_facts d ->
    (forall x, descends d x -> ~ named ix_ns "fraction" x) ->
    exists doc, r = Ok (Some doc) /\ knows all_facts d doc.
Proof.
  intros d r L D N C NF. destruct (C111_facts_partial d r L D N C) as (doc&->&K1&K2). exists doc. split; auto.
  assert (E : forall above x, In (above, x) (walk [] d) -> (fact_element all_facts x <-> fact_element ["nonNumeric"; "nonFraction"] x)).
  { intros above x H. split; intros (l&Hl&Nl).
    - exists l. split; auto. simpl in Hl |- *. destruct Hl as [<-|[<-|[<-|[]]]]; auto. exfalso. apply (NF x); auto. now exists above.
    - exists l. split; auto. simpl in Hl |- *. intuition. }
  split.
  - intros k n. rewrite K1. split; intros (ab&x&c&A&B&F); exists ab, x, c; (split; [auto|split; [apply (E ab x A)|]]); auto.
  - intros c b. rewrite K2. split; (intros [-> X]; split; auto); destruct X as (ab&x&k&n&A&B&F); exists ab, x, k, n;
      (split; [auto|split; [apply (E ab x A)|]]); auto.
Qed.
Print Assumptions C111_no_fraction_partial.

(** a document for which the hypotheses hold *)
Definition two_facts : qtree := inline_example [ix_fact "nonFraction" "us-gaap:A" "c1" []; ix_fact "fraction" "us-gaap:B" "c2" []].
Ltac fact_cases H := simpl in H;
  repeat destruct H as [H|H]; try contradiction H; try discriminate H; injection H; clear H; intros; subst.
Lemma two_facts_declared : declared_at_html two_facts.
Proof.
  split; [do 4 eexists; reflexivity|]. intros y above x a H Ha. fact_cases H; try discriminate; simpl in Ha;
    repeat destruct Ha as [<-|Ha]; try contradiction; discriminate.
Qed.
Lemma two_facts_conform : conforming_facts two_facts.
Proof.
  intros above x H (l&Hl&N).
  assert (K : forall above x k c, In (above, x) (walk [] two_facts) -> attributes x = ex_ix ("us-gaap:" ++ k) c ->
     exists k n c, inline_fact_at above x k n c).
  { intros ab y k c Hy E. exists ("us-gaap:" ++ k), (XName "urn:gaap" k), c. apply (inline_at_root two_facts); auto; [exact two_facts_declared|].
    rewrite E. split; [apply find_attr_of; eexists; split; reflexivity|]. split; [apply find_attr_of; eexists; split; reflexivity|].
    exists "us-gaap", k, "urn:gaap". split; auto. split; [repeat split; discriminate|].
    split; auto. eexists. split; [exists [], []; repeat split; auto|reflexivity]. }
  destruct N as (a&i&ks&->). pose proof H as H0.
  fact_cases H; try (exfalso; simpl in Hl; intuition discriminate).
  - now apply (K _ _ "A" "c1").
  - now apply (K _ _ "B" "c2").
Qed.
Example C111_example :
  declared_at_html two_facts /\ conforming_facts two_facts /\ new_name_provider (attributes two_facts) <> Panic /\
  exists r, loads two_facts r.
Proof.
  split; [exact two_facts_declared|]. split; [exact two_facts_conform|]. split; [discriminate|].
  destruct (proj1 C72_terminates (option_map inline_source (decode_inline (Some two_facts)))) as [r H].
  exists r. eexists. split; [reflexivity|]. exact H.
Qed.
Lemma fraction_unknown doc : knows ["nonNumeric"; "nonFraction"] two_facts doc -> ~ knows all_facts two_facts doc.
Proof.
  intros [_ K'] [_ K].
  set (x := ix_fact "fraction" "us-gaap:B" "c2" []).
  assert (W : exists above, In (above, x) (walk [] two_facts)) by (eexists; unfold x; simpl; do 12 (try (left; reflexivity); right)).
  destruct W as [above W]. destruct (two_facts_conform above x W) as (k&n&c&F).
  { exists "fraction". split; [simpl; auto|]. unfold x, ix_fact, qe, named. eauto. }
  assert (c = "c2") as ->.
  { destruct F as (_&F&_). apply find_attr_of in F as (q0&Fa&<-). vm_compute in Fa. now injection Fa; intros <-. }
  assert (S : sget "c2" (docContexts doc) = Some true).
  { apply K. split; auto. exists above, x, k, n. split; auto. split; auto. exists "fraction". split; [simpl; auto|].
    unfold x, ix_fact, qe, named. eauto. }
  apply K' in S as (_&ab&y&k'&n'&Wy&(l&Hl&(a&i&ks&->))&F'). destruct F' as (_&F'&_). apply find_attr_of in F' as (q0&Fa&Eq).
  fact_cases Wy; simpl in Hl; try (exfalso; intuition discriminate).
  vm_compute in Fa. injection Fa; intros <-. discriminate Eq.
Qed.
(** Refuted: ix:fraction facts are not known ... *)
Theorem C111_fraction_refuted :
  ~ (forall d r, loads d r -> declared_at_html d -> new_name_provider (attributes d) <> Panic -> conforming_facts d ->
       exists doc, r = Ok (Some doc) /\ knows all_facts d doc).
Proof.
  intro H. destruct C111_example as (D&C&N&r&L).
  destruct (H _ _ L D N C) as (doc&E&K). destruct (C111_facts_partial _ _ L D N C) as (doc'&E'&K').
  assert (doc' = doc) by congruence. subst doc'. exact (fraction_unknown doc K' K).
Qed.
Print Assumptions C111_fraction_refuted.
(** ... and a prefix declared below the root is not understood: the whole document
    is refused, whatever the schedule. *)
Definition scoped_fact : qtree := ix_fact "nonFraction" "dei:Name" "c1" [QAttr (XName "xmlns" "dei") "urn:dei" "xmlns"].
Definition scoped_inline : qtree := inline_example [scoped_fact].
Theorem C111_scope_refuted :
  ~ (forall d r, loads d r -> locally_named "html" d -> new_name_provider (attributes d) <> Panic -> conforming_facts d ->
       (forall x, descends d x -> ~ named ix_ns "fraction" x) ->
       exists doc, r = Ok (Some doc) /\ knows all_facts d doc) /\
  forall r, loads scoped_inline r -> exists m, r = Err m.
Proof.
  assert (R : forall r, loads scoped_inline r -> exists m, r = Err m).
  { intros r (s&D&H). injection D; intros <-. revert H. apply C72_error with (np := NP [("us-gaap", "urn:gaap")] [("us-gaap", "us-gaap")]).
    - vm_compute. reflexivity.
    - intros node [<-|[]]. right. exists "dei", "Name". split; [apply find_attr_of; eexists; split; reflexivity|].
      split; [repeat split; discriminate|]. intros a [<-|[]] [_ X]. discriminate X.
    - exists (attributes scoped_fact). split; [vm_compute; auto|]. exists "dei", "Name".
      split; [apply find_attr_of; eexists; split; reflexivity|].
      split; [repeat split; discriminate|]. intros a [<-|[]] [_ X]. discriminate X. }
  split; auto. intro H.
  destruct (proj1 C72_terminates (option_map inline_source (decode_inline (Some scoped_inline)))) as [r L].
  assert (LS : loads scoped_inline r) by (eexists; split; [reflexivity|exact L]).
  destruct (R r LS) as [m Er]. destruct (H _ _ LS) as (doc&Eq&_); try congruence.
  - do 4 eexists. reflexivity.
  - discriminate.
  - intros above x W (l&Hl&(a&i&ks&->)). fact_cases W; try (exfalso; simpl in Hl; intuition discriminate).
    exists "dei:Name", (XName "urn:dei" "Name"), "c1".
    split; [apply find_attr_of; eexists; split; reflexivity|]. split; [apply find_attr_of; eexists; split; reflexivity|].
    exists "dei", "Name", "urn:dei". split; auto. split; [repeat split; discriminate|]. split; auto.
    assert (DD : declares (attributes scoped_fact) "dei" "urn:dei").
    { eexists. split; [exists [], (ex_ix "dei:Name" "c1"); split; [reflexivity|split; [auto|]]|reflexivity].
      intros b Hb [X _]. repeat destruct Hb as [<-|Hb]; try contradiction; discriminate X. }
    exists scoped_fact. split; auto. exists []. eexists. split; [reflexivity|]. split; [eauto|intros ? []].
  - intros x [above W] (a&i&ks&->). fact_cases W.
Qed.
Print Assumptions C111_scope_refuted.

(** ** C112: role types *)
Definition roles_as_written (root : tree) (s : schema) : Prop :=
  forall r, In r (sRoleTypes s) <-> exists x, in_appinfo root x /\ role_at x r.
Definition a_role (id : string) (ks : list tree) : tree :=
  lk "roleType" [pa "roleURI" ("urn:" ++ id); pa "id" id]
    (ks ++ [lk "usedOn" [] [txt "link:presentationLink"]; lk "usedOn" [] [txt "link:calculationLink"]])%list.
Definition roles_doc (parts : list (list tree)) : tree :=
  xs "schema" [pa "targetNamespace" "urn:t"]
    (map (fun rs => xs "annotation" [] [xs "appinfo" [] rs]) parts).
(** Refuted: role types after the first annotation (appinfo) are lost ... *)
Theorem C112_annotations_refuted :
  ~ (forall root f file s, decode_schema (Some root) = Ok f -> hydrate_schema (Some f) file = Ok s ->
       plain_roles root -> roles_as_written root s).
Proof.
  intro H. set (d := roles_doc [[a_role "one" []]; [a_role "two" []]]).
  specialize (H d _ "t.xsd" _ eq_refl eq_refl).
  assert (P : plain_roles d).
  { intros x y (a&i&Ha&_&Hi&_&Hx) Hy. simpl in Ha.
    destruct Ha as [<-|[<-|[]]]; destruct Hi as [<-|[]]; destruct Hx as [<-|[]]; simpl in Hy;
      destruct Hy as [<-|[<-|[]]]; (split; [intros _ k [<-|[]]; now eexists|intros (?&?&?&?&E); discriminate E]). }
  specialize (H P). destruct (H (RoleType "urn:two" "two" "" ["link:presentationLink"; "link:calculationLink"])) as [_ G].
  assert (In (RoleType "urn:two" "two" "" ["link:presentationLink"; "link:calculationLink"])
             [RoleType "urn:one" "one" "" ["link:presentationLink"; "link:calculationLink"]]) as I.
  { apply G. exists (a_role "two" []). split.
    - exists (xs "annotation" [] [xs "appinfo" [] [a_role "two" []]]), (xs "appinfo" [] [a_role "two" []]).
      split; [simpl; auto|]. split; [do 3 eexists; reflexivity|]. split; [simpl; auto|].
      split; [do 3 eexists; reflexivity|]. simpl; auto.
    - split.
      + do 3 eexists; reflexivity.
      + split; [|discriminate]. apply attr_val_iff. eexists; split; reflexivity.
      + split; [|discriminate]. apply attr_val_iff. eexists; split; reflexivity.
      + right. split; auto. intros y [<-|[<-|[]]] (?&?&?&E); discriminate E.
      + simpl. apply image_keep; [split; [do 3 eexists; reflexivity|reflexivity]|].
        apply image_keep; [split; [do 3 eexists; reflexivity|reflexivity]|]. apply image_nil. }
  destruct I as [E|[]]. discriminate E.
Qed.
Print Assumptions C112_annotations_refuted.
(** and so is text in markup inside a definition. *)
Theorem C112_markup_refuted :
  ~ (forall root f file s, decode_schema (Some root) = Ok f -> hydrate_schema (Some f) file = Ok s ->
       single_appinfo root -> roles_as_written root s).
Proof.
  intro H. set (d := roles_doc [[a_role "one" [lk "definition" [] [txt "Net "; el "http://www.w3.org/1999/xhtml" "i" [] [txt "income"]]]]]).
  specialize (H d _ "t.xsd" _ eq_refl eq_refl).
  assert (P : single_appinfo d).
  { split.
    - intros l1 y l2 z l3 E. destruct l1 as [|? [|? ?]]; try discriminate E. injection E; intros E' _. destruct l2; discriminate E'.
    - intros a [<-|[]] _ l1 y l2 z l3 E. destruct l1 as [|? [|? ?]]; try discriminate E. injection E; intros E' _. destruct l2; discriminate E'. }
  specialize (H P). destruct (H (RoleType "urn:one" "one" "Net " ["link:presentationLink"; "link:calculationLink"])) as [G _].
  destruct (G (or_introl eq_refl)) as (x&(a&i&[<-|[]]&_&[<-|[]]&_&[<-|[]])&R).
  destruct (ra_def _ _ R) as [(y&(l1&l2&E&N&_)&V)|[_ V]]; [|discriminate V].
  simpl in E. destruct l1 as [|z l1].
  - injection E; intros _ <-. discriminate V.
  - injection E; intros E' _. assert (In y [lk "usedOn" [] [txt "link:presentationLink"]; lk "usedOn" [] [txt "link:calculationLink"]]) as [<-|[<-|[]]].
    { rewrite E'. apply in_or_app. simpl; auto. }
    + destruct N as (?&?&?&N). discriminate N.
    + destruct N as (?&?&?&N). discriminate N.
Qed.
Print Assumptions C112_markup_refuted.
(** What holds: with one appinfo and plain texts, the loaded role types are the ones
    declared, in document order. *)
Theorem C112_roles_partial :
  forall root f file s, decode_schema (Some root) = Ok f -> hydrate_schema (Some f) file = Ok s ->
    single_appinfo root -> plain_roles root ->
    roles_as_written root s /\
    (forall a i, In a (kids root) -> named xsd_ns "annotation" a -> In i (kids a) -> named xsd_ns "appinfo" i ->
       image_of role_at (kids i) (sRoleTypes s)).
Proof.
  intros root f file s D H [S1 S2] P. unfold decode_schema, decode in D.
  destruct (has_tag "schema" root); [|discriminate]. injection D; intros <-.
  assert (IN : forall a i, In a (kids root) -> named xsd_ns "annotation" a -> In i (kids a) -> named xsd_ns "appinfo" i ->
       image_of role_at (kids i) (sRoleTypes s)).
  { intros a i Ha Na Hi Ni.
    assert (La : locally_named "annotation" a) by now exists xsd_ns.
    assert (Li : locally_named "appinfo" i) by now exists xsd_ns.
    assert (Fa : In a (field "annotation" root)) by (apply filter_In; split; auto; now apply has_tag_iff).
    assert (Fi : In i (field "appinfo" a)) by (apply filter_In; split; auto; now apply has_tag_iff).
    pose proof (at_most_one_field _ _ S1 a Fa) as Fa1. pose proof (at_most_one_field _ _ (S2 a Ha La) i Fi) as Fi1.
    destruct (field "annotation" root) as [|a' ra] eqn:Ea; [destruct Fa|]. destruct Fa1 as [->|[]].
    destruct (field "appinfo" a) as [|i' ri] eqn:Ei; [destruct Fi|]. destruct Fi1 as [->|[]].
    assert (I : image_of declares_role (map read_role_type (field "roleType" i)) (sRoleTypes s)).
    { apply (C45_first_appinfo_in_order_partial _ _ _ (read_annotation a) (map read_annotation ra) (read_appinfo i) (map read_appinfo ri) H).
      - cbn [schema_struct sf_annotation]. now rewrite Ea.
      - cbn [read_annotation an_appinfo]. now rewrite Ei.
      - destruct Na as (?&?&?&->). reflexivity.
      - destruct Ni as (?&?&?&->). reflexivity. }
    unfold field in I. apply image_map_filter_iff in I. revert I. apply image_ext. intros x r Hx.
    rewrite has_tag_iff. apply role_iff. intros y Hy. apply (P x); auto. now exists a, i. }
  split; auto. intro r. split.
  - intro Hr. destruct (C45_role_types_partial _ _ _ H) as [Snd _]. destruct (Snd r Hr) as (e&(an&ai&Ha&Na&Hi&Ni&He)&_).
    cbn [schema_struct sf_annotation] in Ha. apply in_map_iff in Ha as (a&<-&Ha).
    cbn [read_annotation an_appinfo] in Hi. apply in_map_iff in Hi as (i&<-&Hi).
    apply filter_In in Ha as [Ha Ta], Hi as [Hi Ti]. apply has_tag_iff in Ta as (sa&aa&ia&ka&->). apply has_tag_iff in Ti as (si&ati&ii&ki&->).
    cbn in Na, Ni. subst sa si.
    assert (NA : named xsd_ns "annotation" (XmlElem (XName xsd_ns "annotation") aa ia ka)) by (do 3 eexists; reflexivity).
    assert (NI : named xsd_ns "appinfo" (XmlElem (XName xsd_ns "appinfo") ati ii ki)) by (do 3 eexists; reflexivity).
    pose proof (IN _ _ Ha NA Hi NI) as I. apply (image_of_In _ _ _ _ I) in Hr as (x&Hx&R). exists x. split; auto.
    eexists _, _. eauto.
  - intros (x&(a&i&Ha&Na&Hi&Ni&Hx)&R). pose proof (IN a i Ha Na Hi Ni) as I. eapply image_of_In'; eauto.
    intros x' y y' R1 R2. clear - R1 R2. eapply role_at_fun; eauto.
Qed.
Print Assumptions C112_roles_partial.
Definition one_role_doc := roles_doc [[txt " "; a_role "one" [lk "definition" [] [txt "Net income"]]; txt " "; a_role "two" []]].
Example C112_example :
  single_appinfo one_role_doc /\ plain_roles one_role_doc /\
  (do f <- decode_schema (Some one_role_doc); do s <- hydrate_schema (Some f) "t.xsd";
   Ok (map (fun r => (rID r, rDefinition r)) (sRoleTypes s))) = Ok [("one", "Net income"); ("two", "")].
Proof.
  split; [|split; [|vm_compute; reflexivity]].
  - split.
    + intros l1 y l2 z l3 E. destruct l1 as [|? [|? ?]]; try discriminate E. injection E; intros E' _. destruct l2; discriminate E'.
    + intros a [<-|[]] _ l1 y l2 z l3 E. destruct l1 as [|? [|? ?]]; try discriminate E. injection E; intros E' _. destruct l2; discriminate E'.
  - intros x y (a&i&[<-|[]]&_&[<-|[]]&_&Hx) Hy. simpl in Hx.
    repeat destruct Hx as [<-|Hx]; try contradiction; simpl in Hy; repeat destruct Hy as [<-|Hy]; try contradiction;
      (split; [intros _ k [<-|[]]; now eexists|]);
      try (intros (?&?&?&?&E); discriminate E). intros _. do 3 eexists; reflexivity.
Qed.

(** ** C113: footnotes *)
Definition footnotes_as_written (root : tree) (i : instance) : Prop :=
  exists ls, image_of footnote_link_at (kids root) ls /\
    stably_sorted (fun a b => String.ltb (fkTitle a) (fkTitle b)) ls (iFootnoteLinks i).
Definition a_footnote (s id inner : string) : tree :=
  XmlElem (XName s "footnote") [xl "type" "resource"; pa "id" id; xl "label" id; pa "lang" "en"] inner [txt inner].
Definition footnotes_doc (ks : list tree) : tree :=
  xi "xbrl" [] [lk "footnoteLink" [xl "type" "extended"; xl "role" "http://www.xbrl.org/2003/role/link"] ks].
(** Refuted: an element of another namespace that is named like a footnote is one. *)
Theorem C113_foreign_refuted :
  ~ (forall q tokens root f file i, decode_instance (Some root) = Ok f -> hydrate_instance q tokens (Some f) file = Ok i ->
       footnotes_as_written root i).
Proof.
  intro H. destruct (H ex_env ex_tokens (footnotes_doc [a_footnote "urn:x" "f1" "note"]) _ "i.xml" _ eq_refl eq_refl) as (ls&I&[P _]).
  vm_compute in P. inversion I as [|x l k k' R I'|x k k' _ I']; subst; [|inversion I'; subst].
  2:{ apply Permutation_length in P. discriminate P. }
  inversion I'; subst. apply Permutation_length_1 in P. subst l.
  destruct R as (_&_&_&_&F&_). simpl in F. inversion F as [|y z m m' R _|y m m' _ J]; subst; [|inversion J].
  destruct R as [(?&?&?&E) _]. discriminate E.
Qed.
Print Assumptions C113_foreign_refuted.
(** What holds, if there are no such elements. *)
Theorem C113_footnotes_partial :
  forall q tokens root f file i, decode_instance (Some root) = Ok f -> hydrate_instance q tokens (Some f) file = Ok i ->
    own_links root "footnoteLink" ["footnote"; "loc"; "footnoteArc"] -> footnotes_as_written root i.
Proof.
  intros q tokens root f file i D H O. unfold decode_instance, decode in D.
  destruct (has_tag "xbrl" root); [|discriminate]. injection D; intros <-.
  destruct (C41_links_loaded _ _ _ _ _ H) as (ls&I&S). exists ls. split; auto. cbn [instance_struct if_fnlink] in I.
  assert (OR : only_in link_ns "footnoteLink" root) by (intros y s Hy N; apply (O y s Hy N)).
  apply (field_image link_ns) in I; auto. revert I. apply image_ext. intros x l Hx.
  assert (K : named link_ns "footnoteLink" x -> only_in link_ns "footnote" x /\ only_in link_ns "loc" x /\ only_in link_ns "footnoteArc" x).
  { intro N. split; [|split]; intros y s Hy Ny; eapply (proj2 (O x _ Hx N)); eauto; simpl; auto. }
  split.
  - intros [N L]. destruct (K N) as (K1&K2&K3). now apply footnote_link_iff.
  - intro L. pose proof (proj1 L) as N. destruct (K N) as (K1&K2&K3). now apply footnote_link_iff.
Qed.
Print Assumptions C113_footnotes_partial.
Definition one_footnote_doc := footnotes_doc [txt " "; a_footnote link_ns "f1" "see <b>this</b>";
  lk "loc" [xl "type" "locator"; xl "href" "#a"; xl "label" "la"] [];
  lk "footnoteArc" [xl "type" "arc"; xl "arcrole" "http://www.xbrl.org/2003/arcrole/fact-footnote"; xl "from" "la"; xl "to" "f1"] []].
Example C113_example :
  own_links one_footnote_doc "footnoteLink" ["footnote"; "loc"; "footnoteArc"] /\
  (do f <- decode_instance (Some one_footnote_doc); do i <- hydrate_instance ex_env ex_tokens (Some f) "i.xml";
   Ok (map (fun l => (map fnHtml (fkFootnotes l), length (fkLocs l), length (fkArcs l))) (iFootnoteLinks i))) =
  Ok [(["see <b>this</b>"], 1%nat, 1%nat)].
Proof.
  split; [|vm_compute; reflexivity].
  intros x s [<-|[]] (a&i&ks&E). injection E; intros; subst. split; auto.
  intros y l s' Hy Hl (a&i&ks&E'). simpl in Hy. repeat destruct Hy as [<-|Hy]; try contradiction; try discriminate E'; now injection E'.
Qed.
