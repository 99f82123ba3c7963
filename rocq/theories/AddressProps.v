(** * AddressProps: C169 (every page of a network has its address in the catalog) *)
From Verif Require Import GoBase GoSpec GoFacts AttrModel AttrSpec AttrProofs SchemaModel SchemaSpec SchemaProofs SchemaProps
  LinkbaseModel LinkbaseSpec LinkbaseProofs LinkbaseProps InstanceModel InstanceSpec InstanceProofs InstanceProps
  HydrateModel HydrateSpec HydrateProofs HydrateProps LabelSpec LabelProofs PathModel DiscoverModel DiscoverSpec DiscoverProofs DiscoverProps
  XmlModel XmlSpec XmlProofs XmlProps LoadModel LoadSpec LoadProofs LoadProps
  CatalogModel CatalogSpec CatalogProofs CatalogProps WebModel WebSpec WebProofs WebProps
  RenderModel PathSpec ReportModel RouterModel RouterSpec RouterProofs RouterProps ResponseModel ResponseSpec ResponseProofs ResponseProps EndToEndSpec.
From Verif Require Import EndToEndProps AddressSpec.
Local Open Scope string_scope.

(** C169, refuted: if a role is declared with two definitions, the catalog lists both, but it has one address for the role. The other
    page is answered all the same. *)
Definition two_titles := [ex_schema_with [("urn:r", "A"); ("urn:r", "B")]].
Theorem C169_refuted :
  ~ (forall names insts schemas doc entry slug rn, marshal_renderable (fun _ _ => tt) names insts schemas slug = Ok rn ->
       exists k net role, sget k (caNetworks (marshal_catalog names insts schemas doc entry)) = Some net /\ sget role net = Some slug).
Proof.
  intro H. destruct (H (Ok []) one_inst two_titles false "x.xml" (CatalogModel.hash "cik/1" "urn:r" "A") (Renderable (RSet "A" "urn:r") (Subject "cik/1" (Entity "cik" "1")) tt))
    as (k&net&role&GK&GN); [vm_compute; reflexivity|].
  apply sget_In in GK. apply sget_In in GN. vm_compute in GK. destruct GK as [GK|[]]. injection GK as <- <-.
  vm_compute in GN. destruct GN as [GN|[]]. discriminate GN.
Qed.
Print Assumptions C169_refuted.
(** With one definition for each role, the page has its address in the catalog, under its own entity and role, in whatever orders
    the documents were visited for the one and the other. Missing: roles with two definitions. *)
Theorem C169_address_partial :
  forall (G : Type) (grids : string -> string -> G) names names' insts insts' schemas schemas' doc entry v slug rn,
    Permutation insts insts' -> Permutation schemas schemas' -> one_title schemas ->
    reads_as (jcatalog (marshal_catalog names insts schemas doc entry)) v ->
    marshal_renderable grids names' insts' schemas' slug = Ok rn ->
    JsonSpec.text (eScheme (sbEntity (rnSubject rn)) ++ "/" ++ eChar (sbEntity (rnSubject rn))) -> JsonSpec.text (rsRole (rnSet rn)) ->
    part v ["Networks"; eScheme (sbEntity (rnSubject rn)) ++ "/" ++ eChar (sbEntity (rnSubject rn)); rsRole (rnSet rn)] (JStr slug).
Proof.
  intros G grids names names' insts insts' schemas schemas' doc entry v slug rn PI PS OT RA M TE TR.
  destruct (C10_opens_first_partial _ _ _ _ _ _ _ M) as [(l1&l2&E&S&_) _]. cbn [fst snd] in S.
  assert (I : In (sbEntity (rnSubject rn), rnSet rn) (list_prod (sorted_entities insts') (sorted_relationship_sets schemas'))) by (rewrite E; apply in_or_app; right; left; reflexivity).
  apply in_prod_iff in I as [I1 I2]. apply (proj1 (entities_canonical insts')) in I1. apply (proj1 (rsets_canonical schemas')) in I2.
  destruct I1 as (i&c&Ii&Ic&I1). destruct I2 as (s&t&Is&It&I2). apply (Permutation_in _ (Permutation_sym PI)) in Ii. apply (Permutation_in _ (Permutation_sym PS)) in Is.
  assert (D : CatalogSpec.declared schemas (rnSet rn)) by (exists s, t; auto).
  destruct (C124_listed names insts schemas doc entry v (sbEntity (rnSubject rn)) (rnSet rn) RA) as (slug'&r'&P&D'&ER&S'); auto.
  { exists i, c. auto. }
  assert (r' = rnSet rn) as ->.
  { pose proof (OT _ _ D' D ER) as ET. destruct r', (rnSet rn). cbn in *. congruence. }
  apply is_slug_iff in S. apply is_slug_iff in S'. rewrite S, <- S'. exact P.
Qed.
Print Assumptions C169_address_partial.
(** The hypotheses are met. *)
Example C169_example : one_title one_schema /\
  exists v slug rn, reads_as (jcatalog (marshal_catalog (Ok []) one_inst one_schema false "x.xml")) v /\
    marshal_renderable (fun _ _ => tt) (Ok []) one_inst one_schema slug = Ok rn /\
    JsonSpec.text (eScheme (sbEntity (rnSubject rn)) ++ "/" ++ eChar (sbEntity (rnSubject rn))) /\ JsonSpec.text (rsRole (rnSet rn)).
Proof.
  split.
  - intros r r' (s&t&[<-|[]]&[<-|[]]&_&_&T) (s'&t'&[<-|[]]&[<-|[]]&_&_&T') _. congruence.
  - destruct (C119_catalog (marshal_catalog (Ok []) one_inst one_schema false "x.xml")) as (v&J&_). exists v, (CatalogModel.hash "cik/1" "urn:r" "A").
    eexists. split; [exact J|]. split; [vm_compute; reflexivity|]. split; [apply (JsonProofs.san_text "cik/1")|apply (JsonProofs.san_text "urn:r")].
Qed.
