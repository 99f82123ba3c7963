(** * AttrProps: properties C01-C06 (pkg/attr) *)
From Verif Require Import GoBase GoSpec AttrModel AttrSpec AttrProofs.
Local Open Scope string_scope.

(** C01. Xmlns gives the one and only resolution of the name. *)
Theorem C01_qname_resolution :
  forall attrs name x, xmlns attrs name = x <-> resolves attrs name x.
Proof.
  intros attrs name x. split.
  - intros <-. apply xmlns_resolves.
  - intro H. exact (resolves_fun _ _ _ _ (xmlns_resolves attrs name) H).
Qed.
Print Assumptions C01_qname_resolution.

Definition ex_attrs : list xattr :=
  [XAttr (XName "" "id") "x1"; XAttr (XName "" "xmlns") "urn:default";
   XAttr (XName "xmlns" "us-gaap") "urn:gaap"; XAttr (XName "xmlns" "empty") ""].
Example C01_example :
  xmlns ex_attrs "us-gaap:Assets" = XName "urn:gaap" "Assets" /\
  xmlns ex_attrs "Assets" = XName "urn:default" "Assets" /\
  xmlns ex_attrs "zzz:Assets" = XName "urn:default" "Assets" /\
  xmlns ex_attrs "us-gaap:" = XName "" "".
Proof. repeat split. Qed.

(** C02. *)
Theorem C02_find_attr :
  forall attrs n,
    (forall a, find_attr attrs n = Some a <-> first_such (fun a => nlocal (aname a) = n) attrs a) /\
    (find_attr attrs n = None <-> forall a, In a attrs -> nlocal (aname a) <> n).
Proof. intros; split; [intro; apply find_attr_Some|apply find_attr_None]. Qed.
Print Assumptions C02_find_attr.

Theorem C02_find_xpath_attr :
  forall attrs n,
    (forall a, find_xpath_attr attrs n = Some a <-> first_such (fun a => nlocal (qname a) = n) attrs a) /\
    (find_xpath_attr attrs n = None <-> forall a, In a attrs -> nlocal (qname a) <> n).
Proof. intros; split; [intro; apply find_xpath_attr_Some|apply find_xpath_attr_None]. Qed.
Print Assumptions C02_find_xpath_attr.

Example C02_example : find_attr ex_attrs "us-gaap" = Some (XAttr (XName "xmlns" "us-gaap") "urn:gaap")
  /\ find_attr ex_attrs "order" = None.
Proof. split; reflexivity. Qed.

(** C03. Prefixes of the same namespace are canonicalised alike. *)
Theorem C03_same_namespace_same_prefix :
  forall attrs np p1 p2 v l,
    new_name_provider attrs = Ok np -> free_of ":" p1 -> free_of ":" p2 ->
    declares attrs p1 v -> declares attrs p2 v ->
    exists t, provide_concept_name np (p1 ++ ":" ++ l) = Ok (t ++ ":" ++ l) /\
              provide_concept_name np (p2 ++ ":" ++ l) = Ok (t ++ ":" ++ l).
Proof. exact provider_same_ns. Qed.
Print Assumptions C03_same_namespace_same_prefix.

(** C03. Standard namespaces get their standard prefix. *)
Theorem C03_standard_prefixes :
  forall attrs np p v l s,
    new_name_provider attrs = Ok np -> free_of ":" p ->
    In (v, s) standard -> declares attrs p v ->
    provide_concept_name np (p ++ ":" ++ l) = Ok (s ++ ":" ++ l).
Proof. exact provider_standard. Qed.
Print Assumptions C03_standard_prefixes.

(** C03. ProvideName: the answer for a namespace is the canonical prefix of any
    prefix bound to it (the bare local name if that is empty or if the namespace
    is not declared), for every order in which the map is visited. *)
Theorem C03_provide_name :
  forall attrs np order v l,
    new_name_provider attrs = Ok np -> Permutation (originPrefixes np) order ->
    (forall p t, free_of ":" p -> declares attrs p v ->
       provide_concept_name np (p ++ ":" ++ l) = Ok (t ++ ":" ++ l) ->
       provide_name order np v l = Ok (if String.eqb t "" then l else t ++ ":" ++ l)) /\
    ((forall p, ~ declares attrs p v) -> provide_name order np v l = Ok l).
Proof. exact provide_name_full. Qed.
Print Assumptions C03_provide_name.

Theorem C03_order_independent :
  forall attrs np o1 o2 v l,
    new_name_provider attrs = Ok np ->
    Permutation (originPrefixes np) o1 -> Permutation (originPrefixes np) o2 ->
    provide_name o1 np v l = provide_name o2 np v l.
Proof. exact provide_name_order_free. Qed.
Print Assumptions C03_order_independent.

Definition decl (p v : string) : qattr := QAttr (XName "xmlns" p) v "xmlns".
Definition ex_decls : list qattr :=
  [decl "ix" "http://www.xbrl.org/2013/inlineXBRL"; decl "gaap" "urn:gaap"; decl "g2" "urn:gaap";
   decl "xl" "http://www.w3.org/1999/xlink"; QAttr (XName "" "lang") "en" ""].
Example C03_example :
  exists np, new_name_provider ex_decls = Ok np /\
    declares ex_decls "gaap" "urn:gaap" /\ declares ex_decls "g2" "urn:gaap" /\
    provide_concept_name np "g2:Assets" = Ok "gaap:Assets" /\
    provide_concept_name np "xl:href" = Ok "xlink:href" /\
    provide_name (rev (originPrefixes np)) np "urn:gaap" "Assets" = Ok "gaap:Assets".
Proof.
  eexists; split; [reflexivity|]. repeat split.
  - exists (decl "gaap" "urn:gaap"); split; [|reflexivity].
    exists [decl "ix" "http://www.xbrl.org/2013/inlineXBRL"],
      [decl "g2" "urn:gaap"; decl "xl" "http://www.w3.org/1999/xlink"; QAttr (XName "" "lang") "en" ""].
    repeat split. intros y [<-|[<-|[<-|[]]]] [_ H]; discriminate.
  - exists (decl "g2" "urn:gaap"); split; [|reflexivity].
    exists [decl "ix" "http://www.xbrl.org/2013/inlineXBRL"; decl "gaap" "urn:gaap"],
      [decl "xl" "http://www.w3.org/1999/xlink"; QAttr (XName "" "lang") "en" ""].
    repeat split. intros y [<-|[<-|[]]] [_ H]; discriminate.
Qed.

(** C04. Full statement (false of the code): distinct namespaces never share a
    canonical prefix. Witness: two well-formed declarations. *)
Theorem C04_distinct_namespaces_distinct_prefixes_refuted :
  exists attrs np n,
    distinct_prefixes attrs /\ new_name_provider attrs = Ok np /\
    declares attrs "xlink" "urn:a" /\ declares attrs "xlink-a" "urn:b" /\
    provide_concept_name np "xlink:Total" = Ok n /\
    provide_concept_name np "xlink-a:Total" = Ok n.
Proof.
  exists [decl "xlink" "urn:a"; decl "xlink-a" "urn:b"]. eexists. exists "xlink-a:Total".
  split. { unfold distinct_prefixes. simpl. repeat constructor; simpl; intuition discriminate. }
  split; [reflexivity|]. split; [|split; [|split; reflexivity]].
  - exists (decl "xlink" "urn:a"). split; [|reflexivity].
    exists [], [decl "xlink-a" "urn:b"]. repeat split. intros y [<-|[]] [_ H]; discriminate.
  - exists (decl "xlink-a" "urn:b"). split; [|reflexivity].
    exists [decl "xlink" "urn:a"], []. repeat split. intros y [].
Qed.
Print Assumptions C04_distinct_namespaces_distinct_prefixes_refuted.

(** C04, what holds: if no standard prefix is bound to a foreign namespace,
    canonical names determine namespace and local name.
    Missing for the full claim: documents that rebind a standard prefix. *)
Theorem C04_distinct_namespaces_distinct_prefixes_partial :
  forall attrs np p1 p2 v1 v2 l1 l2 n,
    clean attrs -> distinct_prefixes attrs -> new_name_provider attrs = Ok np ->
    free_of ":" p1 -> free_of ":" p2 -> free_of ":" l1 -> free_of ":" l2 ->
    declares attrs p1 v1 -> declares attrs p2 v2 ->
    provide_concept_name np (p1 ++ ":" ++ l1) = Ok n ->
    provide_concept_name np (p2 ++ ":" ++ l2) = Ok n ->
    v1 = v2 /\ l1 = l2.
Proof. exact provider_injective_names. Qed.
Print Assumptions C04_distinct_namespaces_distinct_prefixes_partial.

Example C04_example : clean ex_decls /\ distinct_prefixes ex_decls /\
  exists np, new_name_provider ex_decls = Ok np.
Proof.
  split; [|split; [|eexists; reflexivity]].
  - intros a v Ha U St. simpl in Ha.
    repeat (destruct Ha as [<-|Ha]; [simpl in *;
      repeat (destruct St as [St|St]; [try discriminate; injection St; congruence|]); destruct St|]).
    destruct Ha.
  - unfold distinct_prefixes. simpl. repeat constructor; simpl; intuition discriminate.
Qed.

(** C05. Full statement (false of the code): NewNameProvider never panics.
    Witness: 27 distinct prefixes link-a ... link-z, link. *)
Definition many_decls : list qattr :=
  (map (fun c => decl ("link-" ++ c) ("urn:" ++ c)) letters ++ [decl "link" "urn:mine"])%list.
Theorem C05_provider_never_panics_refuted :
  exists attrs, distinct_prefixes attrs /\ new_name_provider attrs = Panic.
Proof.
  exists many_decls. split; [|vm_compute; reflexivity].
  unfold distinct_prefixes. vm_compute. repeat constructor; simpl; intuition discriminate.
Qed.
Print Assumptions C05_provider_never_panics_refuted.

(** C05, what holds: it never returns an error, never panics for up to 21
    attributes, and a fresh prefix is the first of o, o-a, ..., o-z that is not
    yet known. Missing: longer lists whose prefixes collide 27 times. *)
Theorem C05_provider_never_panics_partial :
  (forall attrs, (length attrs <= 21)%nat -> exists np, new_name_provider attrs = Ok np) /\
  (forall attrs m, new_name_provider attrs <> Err m) /\
  (forall o known p, new_prefix o known = Ok p ->
     first_such (fun c => ~ In c (map fst known)) (candidates o) p) /\
  (forall o known, new_prefix o known = Panic <->
     forall c, In c (candidates o) -> In c (map fst known)).
Proof. exact provider_partial. Qed.
Print Assumptions C05_provider_never_panics_partial.

(** C06. Full statement (false of the code): ProvideXmlName never panics. *)
Theorem C06_provide_xml_name_never_panics_refuted :
  exists attrs np, new_name_provider attrs = Ok np /\ provide_xml_name np "Assets" = Panic.
Proof. exists ex_decls. eexists. split; reflexivity. Qed.
Print Assumptions C06_provide_xml_name_never_panics_refuted.

(** C06, what holds: every prefixed name resolves to the bound namespace, or to
    an error if the prefix is unbound. Missing: unprefixed names. *)
Theorem C06_provide_xml_name_partial :
  forall attrs np p l, new_name_provider attrs = Ok np -> free_of ":" p ->
    (forall v, declares attrs p v -> provide_xml_name np (p ++ ":" ++ l) = Ok (XName v l)) /\
    (undeclared attrs p -> exists m, provide_xml_name np (p ++ ":" ++ l) = Err m).
Proof. exact provide_xml_name_spec. Qed.
Print Assumptions C06_provide_xml_name_partial.

(** C06. ProvideConceptName, in contrast, panics exactly for unbound prefixes. *)
Theorem C06_provide_concept_name :
  forall attrs np p l, new_name_provider attrs = Ok np -> free_of ":" p ->
    (forall v, declares attrs p v -> exists t, provide_concept_name np (p ++ ":" ++ l) = Ok (t ++ ":" ++ l)) /\
    (undeclared attrs p -> provide_concept_name np (p ++ ":" ++ l) = Panic).
Proof. exact provide_concept_name_spec. Qed.
Print Assumptions C06_provide_concept_name.

Example C06_example : exists np, new_name_provider ex_decls = Ok np /\
  provide_xml_name np "gaap:Assets" = Ok (XName "urn:gaap" "Assets") /\
  provide_xml_name np "zzz:Assets" = Err "prefix, zzz, does not match a namespace".
Proof. eexists. split; [reflexivity|split; reflexivity]. Qed.
