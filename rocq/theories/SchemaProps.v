(** * SchemaProps: C44, C45, C49, C76 and C80 (schemas, concept lookups, Stack) *)
From Verif Require Import GoBase GoSpec GoFacts AttrModel AttrSpec SchemaModel SchemaSpec SchemaProofs StackProofs.
Local Open Scope string_scope.

(** C44. Loading a schema fails exactly on a missing name or file; otherwise its
    concepts are exactly the well-formed element declarations, in order. *)
Theorem C44_concepts_loaded :
  forall f file s, hydrate_schema (Some f) file = Ok s ->
    sFileName s = file /\ image_of (declares_concept f file) (sf_element f) (sElement s).
Proof.
  intros f file s. unfold hydrate_schema. destruct (nonempty file); [|discriminate]. simpl.
  intro H; injection H; intros <-. split; auto. apply hydrate_concepts_image.
Qed.
Print Assumptions C44_concepts_loaded.

Theorem C44_fails_exactly_without_name_or_file :
  forall f file, hydrate_schema f file <> Panic /\
    ((exists m, hydrate_schema f file = Err m) <-> file = "" \/ f = None).
Proof.
  intros f file. unfold hydrate_schema. destruct (nonempty file) eqn:N; simpl.
  - apply nonempty_iff in N. destruct f; split; try discriminate; split.
    + intros (m&H); discriminate.
    + intros [H|H]; congruence.
    + auto.
    + eauto.
  - apply nonempty_false in N. split; [discriminate|]. split; eauto.
Qed.
Print Assumptions C44_fails_exactly_without_name_or_file.

(** a declaration declares at most one concept, so the list above is unique *)
Theorem C44_declaration_is_a_function :
  forall f file e c c', declares_concept f file e c -> declares_concept f file e c' -> c = c'.
Proof. exact declares_concept_fun. Qed.
Print Assumptions C44_declaration_is_a_function.

Definition ex_elem (attrs : list xattr) := Elem (XName "http://www.w3.org/2001/XMLSchema" "element") attrs "".
Definition pa (n v : string) := XAttr (XName "" n) v.
Definition ex_schema : schema_file :=
  SchemaFile [pa "targetNamespace" "urn:gaap"; XAttr (XName "xmlns" "xbrli") "http://www.xbrl.org/2003/instance"]
    [] [] []
    [ex_elem [pa "id" "gaap_Assets"; pa "name" "Assets"; pa "type" "xbrli:monetaryItemType";
              pa "substitutionGroup" "xbrli:item"; pa "abstract" "false"; pa "nillable" "true";
              XAttr (XName "http://www.xbrl.org/2003/instance" "periodType") "instant";
              XAttr (XName "http://www.xbrl.org/2003/instance" "balance") "debit"];
     ex_elem [pa "name" "NoId"; pa "type" "xbrli:monetaryItemType"];
     ex_elem [pa "id" "gaap_Axis"; pa "name" "Axis"; pa "type" "xbrli:stringItemType"; pa "abstract" "1";
              XAttr (XName "http://xbrl.org/2005/xbrldt" "typedDomainRef") "#dom"]].
Example C44_example :
  hydrate_schema (Some ex_schema) "gaap.xsd" = Ok (Schema "gaap.xsd" []
    [Concept (XName "urn:gaap" "Assets") "gaap_Assets"
       (XName "http://www.xbrl.org/2003/instance" "monetaryItemType")
       (XName "http://www.xbrl.org/2003/instance" "item") true "instant" "debit" false "";
     Concept (XName "urn:gaap" "Axis") "gaap_Axis"
       (XName "http://www.xbrl.org/2003/instance" "stringItemType") (XName "" "") false "" "" true "gaap.xsd#dom"]).
Proof. reflexivity. Qed.

(** C45. Refuted: role types of a second annotation are dropped. *)
Definition ex_role (id uri def : string) : role_type_elem :=
  RoleTypeElem (XName "http://www.xbrl.org/2003/linkbase" "roleType") [pa "id" id; pa "roleURI" uri]
    [Elem (XName "http://www.xbrl.org/2003/linkbase" "definition") [] def]
    [Elem (XName "http://www.xbrl.org/2003/linkbase" "usedOn") [] "link:presentationLink";
     Elem (XName "urn:other" "usedOn") [] "x"].
Definition ex_ann (rs : list role_type_elem) : annotation_elem :=
  AnnotationElem (XName "http://www.w3.org/2001/XMLSchema" "annotation")
    [AppinfoElem (XName "http://www.w3.org/2001/XMLSchema" "appinfo") [] rs].
Definition ex_two_annotations : schema_file :=
  SchemaFile [] [] [] [ex_ann [ex_role "r1" "urn:r1" "First"]; ex_ann [ex_role "r2" "urn:r2" "Second"]] [].

Theorem C45_all_role_types_refuted :
  ~ (forall f file s e r, hydrate_schema (Some f) file = Ok s ->
       role_elem_of f e -> declares_role e r -> In r (sRoleTypes s)).
Proof.
  intro H.
  specialize (H ex_two_annotations "a.xsd" (Schema "a.xsd" [RoleType "urn:r1" "r1" "First" ["link:presentationLink"]] [])
                (ex_role "r2" "urn:r2" "Second") (RoleType "urn:r2" "r2" "Second" ["link:presentationLink"])
                eq_refl).
  simpl in H. destruct H as [H|[]].
  - exists (ex_ann [ex_role "r2" "urn:r2" "Second"]). 
    exists (AppinfoElem (XName "http://www.w3.org/2001/XMLSchema" "appinfo") [] [ex_role "r2" "urn:r2" "Second"]).
    simpl. intuition.
  - apply hydrate_role_type_iff. reflexivity.
  - discriminate.
Qed.
Print Assumptions C45_all_role_types_refuted.

(** the part that holds: nothing is invented, and a schema with at most one
    annotation holding at most one appinfo loses nothing. Missing: further
    annotations/appinfos. *)
Theorem C45_role_types_partial :
  forall f file s, hydrate_schema (Some f) file = Ok s ->
    (forall r, In r (sRoleTypes s) -> exists e, role_elem_of f e /\ declares_role e r) /\
    ((forall a, In a (sf_annotation f) -> In a (firstn 1 (sf_annotation f))) ->
     (forall a i, In a (sf_annotation f) -> In i (an_appinfo a) -> In i (firstn 1 (an_appinfo a))) ->
     forall e r, role_elem_of f e -> declares_role e r -> In r (sRoleTypes s)).
Proof.
  intros f file s. unfold hydrate_schema. destruct (nonempty file); [|discriminate]. simpl.
  intro H; injection H; intros <-. simpl. split.
  - apply hydrate_annotation_sound.
  - intros; eapply hydrate_annotation_complete; eauto.
Qed.
Print Assumptions C45_role_types_partial.

(** order and multiplicity are kept too *)
Theorem C45_first_appinfo_in_order_partial :
  forall f file s a rest i restI, hydrate_schema (Some f) file = Ok s ->
    sf_annotation f = a :: rest -> an_appinfo a = i :: restI ->
    nspace (an_name a) = "http://www.w3.org/2001/XMLSchema" ->
    nspace (ai_name i) = "http://www.w3.org/2001/XMLSchema" ->
    image_of declares_role (ai_roleType i) (sRoleTypes s).
Proof.
  intros f file s a rest i restI. unfold hydrate_schema. destruct (nonempty file); [|discriminate]. simpl.
  intro H; injection H; intros <-. simpl. apply hydrate_annotation_first.
Qed.
Print Assumptions C45_first_appinfo_in_order_partial.

Example C45_example :
  hydrate_schema (Some (SchemaFile [] [] [] [ex_ann [ex_role "r1" "urn:r1" "First"; ex_role "" "urn:r3" "No id"]] [])) "a.xsd"
  = Ok (Schema "a.xsd" [RoleType "urn:r1" "r1" "First" ["link:presentationLink"]] []).
Proof. reflexivity. Qed.

(** C49. What the two lookups find ... *)
Theorem C49_name_query :
  forall q nsp l href c, qenv_ok q ->
    (name_query q nsp l = Ok (Some (href, c)) <->
     exists loc f cs, In (nsp, loc) (q_namespaces q) /\ loc <> "" /\ document_at q loc f /\
       concepts_of f loc cs /\ first_such (fun c => cXMLName c = XName nsp l) cs c /\
       href = loc ++ "#" ++ cID c).
Proof. exact name_query_iff. Qed.
Print Assumptions C49_name_query.

Theorem C49_hash_query :
  forall order q query c, qenv_ok q ->
    ((exists nsp, hash_query order q query = Ok (nsp, c)) <->
     exists base frag f cs, query = base ++ "#" ++ frag /\ free_of "#" base /\ base <> "" /\ frag <> "" /\
       document_at q base f /\ concepts_of f base cs /\ first_such (fun c => cID c = frag) cs c).
Proof.
  intros order q query c Hq. split.
  - intros (nsp&H). apply hash_query_iff in H; auto. destruct H as (b&fr&f&cs&?&?&?&?&?&?&?&?).
    exists b, fr, f, cs. auto 10.
  - intros (b&fr&f&cs&?&?&?&?&?&?&?). exists (namespace_of order b). apply hash_query_iff; auto.
    exists b, fr, f, cs. auto 10.
Qed.
Print Assumptions C49_hash_query.

(** the namespace HashQuery reports is one that the folder maps to the document *)
Theorem C49_hash_query_namespace :
  forall order q base frag nsp c, qenv_ok q -> Permutation order (q_namespaces q) -> free_of "#" base ->
    hash_query order q (base ++ "#" ++ frag) = Ok (nsp, c) ->
    In (nsp, base) (q_namespaces q) \/ ((forall k, ~ In (k, base) (q_namespaces q)) /\ nsp = "").
Proof. exact hash_query_namespace. Qed.
Print Assumptions C49_hash_query_namespace.

(** ... and they are inverse to each other, for every iteration order of the
    namespace map, in schemas whose ids (names) are unique. *)
Theorem C49_name_then_hash :
  forall order q nsp l href c, qenv_ok q -> name_query q nsp l = Ok (Some (href, c)) ->
    (forall loc f cs, In (nsp, loc) (q_namespaces q) -> document_at q loc f -> concepts_of f loc cs ->
       free_of "#" loc /\ unique_ids cs) ->
    exists k, hash_query order q href = Ok (k, c) /\
      (Permutation order (q_namespaces q) ->
       (forall k1 k2 loc, In (k1, loc) (q_namespaces q) -> In (k2, loc) (q_namespaces q) -> k1 = k2) ->
       k = nsp).
Proof. exact name_then_hash. Qed.
Print Assumptions C49_name_then_hash.

Theorem C49_hash_then_name :
  forall order q query nsp c,
    qenv_ok q -> hash_query order q query = Ok (nsp, c) -> Permutation order (q_namespaces q) ->
    (forall base frag, query = base ++ String "#" frag -> free_of "#" base ->
       In (nspace (cXMLName c), base) (q_namespaces q)) ->
    (forall loc f cs, document_at q loc f -> concepts_of f loc cs -> unique_names cs) ->
    name_query q (nspace (cXMLName c)) (nlocal (cXMLName c)) = Ok (Some (query, c)).
Proof. exact hash_then_name. Qed.
Print Assumptions C49_hash_then_name.

Definition ex_q : qenv :=
  QEnv [("urn:gaap", "gaap.xsd"); ("urn:other", "http://x/other.xsd")] [("gaap.xsd", ex_schema)]
       (fun s => String.eqb (substring 0 4 s) "http") (fun _ => Err "offline").
Example C49_example :
  exists c, name_query ex_q "urn:gaap" "Assets" = Ok (Some ("gaap.xsd#gaap_Assets", c)) /\
    hash_query (q_namespaces ex_q) ex_q "gaap.xsd#gaap_Assets" = Ok ("urn:gaap", c) /\
    name_query ex_q "urn:other" "Assets" = Err "offline" /\
    name_query ex_q "urn:gaap" "Nope" = Ok None.
Proof. eexists. repeat split. Qed.
Example C49_example_meets_hypotheses :
  qenv_ok ex_q /\
  forall loc f cs, In ("urn:gaap", loc) (q_namespaces ex_q) -> document_at ex_q loc f -> concepts_of f loc cs ->
       free_of "#" loc /\ unique_ids cs.
Proof.
  split.
  - split; repeat constructor; simpl; intuition discriminate.
  - intros loc f cs [H|[H|[]]] Hd Hc; [|discriminate]. injection H; intros <-.
    split; [simpl; repeat split; discriminate|].
    destruct Hd as [[H1 _]|[_ [[H1|[]]|[H1 _]]]]; [discriminate| |].
    + injection H1; intros <-.
      rewrite (image_of_fun _ _ _ _ (declares_concept_fun _ _) Hc (hydrate_concepts_image _ _)).
      unfold unique_ids. simpl. repeat constructor; simpl; intuition discriminate.
    + exfalso; apply H1; simpl; auto.
Qed.

(** C76. Every sequence of pushes and pops behaves as on an abstract stack, and
    leaves every slice with another backing array (such as a copy) unchanged. *)
Theorem C76_lifo :
  forall (A : Type) os (h : heap (A := A)) s h' s' rs, valid h s -> exec h s os = (h', s', rs) ->
    valid h' s' /\ stack_run (contents h s) os (contents h' s') rs.
Proof. intros A os h s h' s' rs V E. destruct (exec_spec os _ _ _ _ _ V E) as (?&?&_). auto. Qed.
Print Assumptions C76_lifo.

Theorem C76_copy_independent :
  forall (A : Type) (h : heap (A := A)) s, valid h s ->
    let '(h0, c) := stack_copy h s in
    contents h0 c = contents h s /\ contents h0 s = contents h s /\
    (forall os h' c' rs, exec h0 c os = (h', c', rs) -> contents h' s = contents h s) /\
    (forall os h' s' rs, exec h0 s os = (h', s', rs) -> contents h' c = contents h s).
Proof.
  intros A h s V. pose proof (copy_spec h s V) as C. destruct (stack_copy h s) as [h0 c].
  destruct C as (V1&V2&C1&C2&N). repeat split; auto; intros os h' x rs E.
  - destruct (exec_spec os _ _ _ _ _ V1 E) as (_&_&F). rewrite <- C2. apply F; auto.
  - destruct (exec_spec os _ _ _ _ _ V2 E) as (_&_&F). rewrite <- C1. apply F; auto.
Qed.
Print Assumptions C76_copy_independent.

Example C76_example :
  let h := [[1; 2; 0; 0]] in let s := Slice 0 2 in
  valid h s /\
  exec h s [OpPop; OpPush 7 []; OpPop; OpPop; OpPop] = ([[1; 7; 0; 0]], Slice 0 0,
     [Some (Some 2); None; Some (Some 7); Some (Some 1); Some None]).
Proof. split; [split; simpl; lia|reflexivity]. Qed.

(** C80. EntityQuery *)
Theorem C80_entity_query :
  forall names scheme chardata,
    (forall m, names = Err m -> entity_query names scheme chardata = Err m) /\
    (forall ns, names = Ok ns -> NoDup (map fst ns) -> (forall s m, In (s, m) ns -> NoDup (map fst m)) ->
       exists r, entity_query names scheme chardata = Ok r /\
       ((exists m, In (scheme, m) ns /\ In (chardata, r) m) \/
        ((forall m n, In (scheme, m) ns -> ~ In (chardata, n) m) /\ r = scheme ++ "/" ++ chardata))).
Proof. exact entity_query_spec. Qed.
Print Assumptions C80_entity_query.
Example C80_example :
  entity_query (Ok [("urn:cik", [("1", "ACME")])]) "urn:cik" "1" = Ok "ACME" /\
  entity_query (Ok [("urn:cik", [("1", "ACME")])]) "urn:cik" "2" = Ok "urn:cik/2".
Proof. split; reflexivity. Qed.
