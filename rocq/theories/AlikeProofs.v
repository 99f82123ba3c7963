(** * AlikeProofs: what two loads of one folder have in common *)
From Verif Require Import GoBase GoSpec GoFacts AttrModel AttrSpec AttrProofs SchemaModel SchemaSpec SchemaProofs SchemaProps
  LinkbaseModel LinkbaseSpec LinkbaseProofs LinkbaseProps InstanceModel InstanceSpec InstanceProofs InstanceProps
  HydrateModel HydrateSpec HydrateProofs HydrateProps LabelModel LabelSpec LabelProofs LabelProps PeriodModel PeriodSpec PeriodProofs PeriodProps
  FactModel FactSpec FactProofs FactProps GridModel GridSpec GridProofs GridProps CalcModel CalcSpec CalcProofs CalcProps DefModel DefSpec DefProofs DefProps
  RenderModel RenderSpec RenderProofs RenderProps ExpressModel ExpressSpec ExpressProofs ExpressProps
  DiscoverModel DiscoverSpec DiscoverProofs DiscoverProps XmlModel XmlSpec XmlProofs XmlProps LoadModel LoadSpec LoadProofs LoadProps
  CatalogModel CatalogSpec CatalogProofs CatalogProps ReportModel.
Local Open Scope string_scope.

(** Two views of the schemas that answer every question alike *)
Definition alike (q q' : qenv) : Prop :=
  (forall k, sget k (q_namespaces q) = sget k (q_namespaces q')) /\ (forall k, sget k (q_schemas q) = sget k (q_schemas q')) /\
  q_is_url q = q_is_url q' /\ q_discover q = q_discover q'.
(** what the callers of HashQuery read of its answer *)
Definition answer_of (r : res (string * concept)) : res concept := do (_, c) <- r; Ok c.

Section Alike.
  Variables q q' : qenv.
  Hypothesis A : alike q q'.
  Lemma alike_schema loc : schema_at q loc = schema_at q' loc.
  Proof. destruct A as (_&S&U&D). unfold schema_at, hydrate_global_schema. rewrite S, U, D. reflexivity. Qed.
  Lemma alike_name ns l : name_query q ns l = name_query q' ns l.
  Proof. destruct A as (N&_). unfold name_query. rewrite N. destruct (negb _); [reflexivity|]. rewrite alike_schema. reflexivity. Qed.
  Lemma alike_hash o o' query : answer_of (hash_query o q query) = answer_of (hash_query o' q' query).
  Proof.
    unfold hash_query. destruct (cut "#" query) as [[base fragment]|]; [|reflexivity].
    destruct (negb (nonempty base)); [reflexivity|]. destruct (negb (nonempty fragment)); [reflexivity|].
    rewrite alike_schema. destruct (schema_at q' base) as [s| |]; cbn [bind]; try reflexivity. destruct (find _ _); reflexivity.
  Qed.
  Lemma alike_token attrs dim t s : tm_token q attrs dim t s = tm_token q' attrs dim t s.
  Proof.
    destruct t; cbn [tm_token]; try reflexivity.
    - rewrite alike_name. reflexivity.
    - destruct (String.eqb _ ""); [reflexivity|]. destruct (ts_prev s); [|reflexivity]. rewrite alike_name. reflexivity.
  Qed.
  Lemma alike_loop attrs dim ts s : tm_loop q attrs dim ts s = tm_loop q' attrs dim ts s.
  Proof. revert s. induction ts as [|t ts IH]; intro s; cbn [tm_loop]; [reflexivity|]. rewrite alike_token. destruct (tm_token _ _ _ _ _); auto. Qed.
  Lemma alike_typed tokens attrs href inner : hydrate_typed_members q tokens attrs href inner = hydrate_typed_members q' tokens attrs href inner.
  Proof.
    unfold hydrate_typed_members. pose proof (alike_hash (q_namespaces q) (q_namespaces q') href) as E. unfold answer_of in E.
    destruct (hash_query (q_namespaces q) q href) as [[n c]| |], (hash_query (q_namespaces q') q' href) as [[n' c']| |]; cbn [bind] in E; try discriminate E; auto.
    injection E as ->. apply alike_loop.
  Qed.
  Lemma alike_resolve attrs s : resolve_name q attrs s = resolve_name q' attrs s.
  Proof. unfold resolve_name. rewrite alike_name. reflexivity. Qed.
  Lemma collectM_ext {X Y} (f g : X -> res (option Y)) l : (forall x, f x = g x) -> collectM f l = collectM g l.
  Proof. intro E. induction l as [|x l IH]; cbn [collectM]; [reflexivity|]. rewrite E, IH. reflexivity. Qed.
  Lemma collect_ext {X Y} (f g : X -> option Y) l : (forall x, f x = g x) -> collect f l = collect g l.
  Proof. intro E. induction l as [|x l IH]; cbn [collect]; [reflexivity|]. rewrite E, IH. reflexivity. Qed.
  Lemma alike_explicit b attrs e : hydrate_explicit_member b q attrs e = hydrate_explicit_member b q' attrs e.
  Proof.
    unfold hydrate_explicit_member. destruct (find_attr _ _) as [a|]; [|reflexivity]. cbn [obind]. rewrite !alike_resolve. reflexivity.
  Qed.
  Lemma alike_typed_member b tokens attrs e : hydrate_typed_member b q tokens attrs e = hydrate_typed_member b q' tokens attrs e.
  Proof.
    unfold hydrate_typed_member. destruct (find_attr _ _) as [a|]; [|reflexivity]. cbn [obind]. rewrite alike_resolve.
    match goal with |- match ?x with _ => _ end = _ => destruct x as [[[v r] c]|] end; [|reflexivity]. rewrite alike_typed. reflexivity.
  Qed.
  Lemma alike_dims b tokens attrs segs : hydrate_dim_context b q tokens attrs segs = hydrate_dim_context b q' tokens attrs segs.
  Proof.
    unfold hydrate_dim_context. destruct segs as [|s segs]; [reflexivity|].
    rewrite (collectM_ext _ (hydrate_typed_member b q' tokens attrs)) by (intro; apply alike_typed_member).
    rewrite (collect_ext _ (hydrate_explicit_member b q' attrs)) by (intro; apply alike_explicit). reflexivity.
  Qed.
  Lemma alike_context tokens attrs e : hydrate_context q tokens attrs e = hydrate_context q' tokens attrs e.
  Proof.
    unfold hydrate_context. destruct (negb _); [reflexivity|]. destruct (req _ _); [|reflexivity]. destruct (cx_entity e); [reflexivity|].
    destruct (en_identifier _); [reflexivity|]. destruct (String.eqb _ ""); [reflexivity|]. destruct (find_attr _ _); [|reflexivity].
    rewrite !alike_dims. reflexivity.
  Qed.
  Lemma alike_instance tokens file n : hydrate_instance q tokens file n = hydrate_instance q' tokens file n.
  Proof.
    unfold hydrate_instance. destruct (negb _); [reflexivity|]. destruct file as [f|]; [|reflexivity]. unfold hydrate_contexts, hydrate_facts.
    rewrite (collectM_ext _ (hydrate_context q' tokens (if_attrs f))) by (intro; apply alike_context).
    rewrite (collect_ext _ (hydrate_fact q')); [reflexivity|]. intro e. unfold hydrate_fact. rewrite alike_name. reflexivity.
  Qed.
End Alike.

(** Two runs of HydrateDocument that give a document agree on what is in it. *)
Definition document_alike (o o' : option document) : Prop :=
  match o, o' with
  | Some d, Some d' => (forall k, sget k (docNames d) = sget k (docNames d')) /\ (forall k, sget k (docContexts d) = sget k (docContexts d'))
  | None, None => True
  | _, _ => False
  end.
Lemma option_same {X} (a b : option X) : (forall x, a = Some x <-> b = Some x) -> a = b.
Proof. intro E. destruct a as [x|]; [symmetry; now apply E|]. destruct b as [y|]; [|reflexivity]. now apply E. Qed.
Lemma phases_exact np l1 l2 n c n' c' : phase np l1 [] [] (Ok (n, c)) -> phase np l2 n c (Ok (n', c')) ->
  (forall k x, sget k n' = Some x <-> exists a z, In a (l1 ++ l2)%list /\ doc_body np a = EPut k x z) /\
  (forall z b, sget z c' = Some b <-> b = true /\ exists a k x, In a (l1 ++ l2)%list /\ doc_body np a = EPut k x z).
Proof.
  intros P1 P2. assert (C0 : consistent np []) by (intros ? ? Z; discriminate Z). assert (T0 : only_true []) by (intros ? ? Z; discriminate Z).
  destruct (phase_ok_maps np _ _ _ _ _ P1 C0 T0) as (_&C1&T1&M1&M2).
  destruct (phase_ok_maps np _ _ _ _ _ P2 C1 T1) as (_&C2&T2&M3&M4). split.
  - intros k x. rewrite M3, M1. split.
    + intros [[Z|(a&z&Ha&E)]|(a&z&Ha&E)]; [discriminate| |]; exists a, z; (split; [apply in_or_app; auto|auto]).
    + intros (a&z&Ha&E). apply in_app_or in Ha as [Ha|Ha]; [left; right|right]; eauto.
  - intros z b. split.
    + intros Z. assert (b = true) as -> by (eapply T2; eauto). split; auto. apply M4 in Z as [Z|(a&k&x&Ha&E)].
      * apply M2 in Z as [Z|(a&k&x&Ha&E)]; [discriminate|]. exists a, k, x. split; [apply in_or_app; auto|auto].
      * exists a, k, x. split; [apply in_or_app; auto|auto].
    + intros [-> (a&k&x&Ha&E)]. apply M4. apply in_app_or in Ha as [Ha|Ha]; [left; apply M2; right|right]; eauto.
Qed.
Lemma hydrated_alike s o o' : hydrate_document s (Ok o) -> hydrate_document s (Ok o') -> document_alike o o'.
Proof.
  intros H H'. inversion H as [| | | | | | |s0 np n c n1 c1 N P1 P2]; subst; inversion H' as [| | | | | | |s0' np' n' c' n1' c1' N' P1' P2']; subst; cbn; auto.
  assert (np' = np) as -> by congruence.
  destruct (phases_exact _ _ _ _ _ _ _ P1 P2) as [A B]. destruct (phases_exact _ _ _ _ _ _ _ P1' P2') as [A' B'].
  split; intro k; apply option_same; intro x; [rewrite A, A'|rewrite B, B']; reflexivity.
Qed.

(** ** Two loads of one folder in which every namespace has one document *)
Lemma maps_alike {X} (m m' : list (string * X)) : NoDup (map fst m) -> NoDup (map fst m') -> (forall k x, In (k, x) m <-> In (k, x) m') -> forall k, sget k m = sget k m'.
Proof.
  intros N N' E k. apply option_same. intro x. rewrite (sget_iff _ _ _ N), (sget_iff _ _ _ N'). apply E.
Qed.
Section Loads.
  Variables (d : disk) (dir name : string) (images images' : bool) (pf : string -> f64 * bool) (sh sh' : shuffles) (tokens : string -> list token) (utr : res registry).
  Variables h h' : hydratable.
  Hypothesis S : supported name.
  Hypothesis L : loaded d dir name images pf sh tokens utr h.
  Hypothesis L' : loaded d dir name images' pf sh' tokens utr h'.
  Hypothesis ONE : forall file root ns, entry_at d dir root name file -> one_claim d dir root ns.

  Lemma loads_alike : (forall u g, alike (env_of (hFolder h) u g) (env_of (hFolder h') u g)) /\ hInstances h' = hInstances h /\
    document_alike (hDocument h) (hDocument h') /\ (forall x l, In (x, l) (hLabel h) <-> In (x, l) (hLabel h')).
  Proof.
    destruct (loaded_parts _ _ _ _ _ _ _ _ _ S L) as (file&root&fd&doc&EA&FI&SC&LB&CL&AC&M1&M2&DI&DN&HD&H).
    destruct (loaded_parts _ _ _ _ _ _ _ _ _ S L') as (file'&root'&fd'&doc'&EA'&FI'&SC'&LB'&CL'&AC'&M1'&M2'&DI'&DN'&HD'&H').
    assert (root' = root) as -> by (eapply entry_root; [exact EA|exact EA']).
    pose proof (fun ns => ONE _ _ ns EA) as O. unfold one_claim in O.
    apply C79_complete in H as (EF&_&_&_&_&HL&HI&_&ED). apply C79_complete in H' as (EF'&_&_&_&_&HL'&HI'&_&ED'). subst fd fd' doc doc'.
    assert (AL : forall u g, alike (env_of (hFolder h) u g) (env_of (hFolder h') u g)).
    { intros u g. unfold alike, env_of. cbn. split; [|split; [|auto]]; apply maps_alike; auto.
      - intros k x. split; intro I.
        + destruct (AC' _ _ (CL _ _ I)) as (x'&I'). now assert (x' = x) as <- by (eapply O; eauto).
        + destruct (AC _ _ (CL' _ _ I)) as (x'&I'). now assert (x' = x) as <- by (eapply O; eauto).
      - intros k x. rewrite SC, SC'. reflexivity. }
    split; [exact AL|].
    assert (file' = file) as ->.
    { destruct EA as (A&_), EA' as (A'&_). assert (X : inline_name name -> instance_name name -> False) by (intros I J; apply inline_iff in I; apply instance_iff in J; destruct I, J; congruence).
      destruct A as [[I ->]|[I ->]], A' as [[I' ->]|[I' ->]]; auto; now elim X. }
    split; [|split].
    - destruct (one_loaded _ _ _ HI _ _ FI) as (j&EJ&HJ). destruct (one_loaded _ _ _ HI' _ _ FI') as (j'&EJ'&HJ').
      rewrite (alike_instance _ _ (AL _ _)) in HJ. rewrite EJ, EJ'. congruence.
    - assert (ES : fdDocument (hFolder h') = fdDocument (hFolder h)).
      { destruct S as [I|I]; [|rewrite (DN I), (DN' I); reflexivity].
        destruct (DI I) as (data&q&s&E1&E2&E3&->). destruct (DI' I) as (data'&q'&s'&E1'&E2'&E3'&->). congruence. }
      rewrite ES in HD'. eapply hydrated_alike; eauto.
    - apply all_loaded_In in HL as [I1 I2]. apply all_loaded_In in HL' as [I1' I2']. intros x l. split; intro I.
      + destruct (I1 _ _ I) as (a&Ha&E). assert (Ha' : In (x, a) (fdLabel (hFolder h'))) by (apply (LB' Labels); apply (LB Labels); exact Ha).
        destruct (I2' _ _ Ha') as (b&Hb&E'). now assert (b = l) as <- by congruence.
      + destruct (I1' _ _ I) as (a&Ha&E). assert (Ha' : In (x, a) (fdLabel (hFolder h))) by (apply (LB Labels); apply (LB' Labels); exact Ha).
        destruct (I2 _ _ Ha') as (b&Hb&E'). now assert (b = l) as <- by congruence.
  Qed.
  Lemma label_keys hh im s0 : loaded d dir name im pf s0 tokens utr hh -> NoDup (map fst (hLabel hh)).
  Proof.
    intros (fd&doc&D&HD&H). destruct (C102_instance_partial _ _ _ _ _ S D) as (file&i&EI&_).
    destruct (outcome_exact _ _ _ _ _ _ _ EI D) as (_&_&_&_&_&_&M). apply C79_complete in H as (_&_&_&_&_&[K _]&_). rewrite K. exact (M Labels).
  Qed.
  Lemma loads_labels : Permutation (hLabel h) (hLabel h').
  Proof.
    apply NoDup_Permutation; [eapply NoDup_map_inv, label_keys, L|eapply NoDup_map_inv, label_keys, L'|]. intros [x l]. apply loads_alike.
  Qed.
End Loads.
