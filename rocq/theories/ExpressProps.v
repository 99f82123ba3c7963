(** * ExpressProps: C73, C74, C93 *)
From Verif Require Import GoBase GoSpec GoFacts AttrModel SchemaModel LinkbaseModel InstanceModel InstanceProps HydrateModel
  LabelModel LabelSpec LabelProofs PeriodModel PeriodSpec PeriodProofs PeriodProps FactModel FactSpec FactProofs FactProps
  GridModel GridSpec GridProofs GridProps ExpressModel ExpressSpec ExpressProofs.
Local Open Scope string_scope.

(** ** A sample: an instance of the taxonomy [ex_env] *)
Definition x_concept (h : string) : option concept :=
  match hash_query (q_namespaces ex_env) ex_env h with Ok (_, c) => Some c | _ => None end.
Definition x_label (h : string) : label_pack := [("Default", [("Unlabelled", h); ("en - english", "label of " ++ h)])].
Definition x_renv : renv :=
  REnv x_concept (fun _ => (None, None)) (fun _ => []) (fun _ _ _ => None) (fun _ => None).
Definition x_env (i : instance) : xenv :=
  XEnv [i] [i] [i] [i] [i] ex_env x_label x_concept x_renv sample_tree (fun _ => None) in_document_order first_entry.
Definition x_doc : document :=
  Document [("t:A", XName "urn:t" "A"); ("t:Nope", XName "urn:t" "Nope")] [("c1", true); ("c9", true)].
Definition x_contexts (sg sg' : dim_context) : list context :=
  [plain_context "c1" "2020-01-01" "2020-12-31" sg; plain_context "c2" "2019-01-01" "2019-12-31" sg'].
Definition x_facts : list fact :=
  [Fact "t.xsd#t_A" "f1" "c2" "" 0 false "old"; Fact "t.xsd#t_A" "f2" "c1" "" 0 false "new";
   Fact "t.xsd#t_A" "f3" "c1" "" 0 false "newer"].
Definition x_instance : instance :=
  Instance "i.xml" (x_contexts (by_product "t#Cars") no_dims) []
    [FootnoteLink "" [note "n1"; note "n2"] [Loc "#f1" "l1"; Loc "#f2" "l2"]
       [FnArc "l1" "n1" FactFootnoteArcrole; FnArc "l2" "n2" FactFootnoteArcrole]] x_facts.
Definition x_answer : expressable :=
  Expressable "t.xsd#t_A" (x_label "t.xsd#t_A")
    [("Unlabelled", "2020-01-01/2020-12-31"); ("Truncated", "2020-01-01/2020-12-31");
     ("en - english", "12 months ended December 31, 2020")]
    [VoidCell false 0 (Labelled "t#Product" (x_label "t#Product")) None]
    [[MemberCell (Some (Labelled "t#Cars" (x_label "t#Cars"))) ""]]
    [("Unlabelled", FactExpression "" "new" "" "")] ["text of n2"].
Example express_example :
  marshal_expressable (x_env x_instance) (Some x_doc) "t:A" "c1" = Ok (Some x_answer) /\
  marshal_expressable (x_env x_instance) (Some x_doc) "t:B" "c1" = Ok None /\
  marshal_expressable (x_env x_instance) (Some x_doc) "t:A" "c2" = Ok None /\
  marshal_expressable (x_env x_instance) (Some x_doc) "t:Nope" "c1" = Ok None.
Proof. vm_compute. repeat split. Qed.

(** ** C73 *)
(** A folder without an inline document crashes on every request; and so does an inline
    document whose fact names a context that the instance lacks. *)
Theorem C73_refuted :
  (forall e name ref, marshal_expressable e None name ref = Panic) /\
  exists e d i name ref, one_instance e i /\ marshal_expressable e (Some d) name ref = Panic.
Proof.
  split; [reflexivity|].
  exists (x_env (Instance "i.xml" (x_contexts no_dims no_dims) [] [] [Fact "t.xsd#t_A" "f1" "c9" "" 0 false "lost"])),
    x_doc, (Instance "i.xml" (x_contexts no_dims no_dims) [] [] [Fact "t.xsd#t_A" "f1" "c9" "" 0 false "lost"]),
    "t:A", "c9".
  split; [repeat split|vm_compute; reflexivity].
Qed.
Print Assumptions C73_refuted.

(** every context reference of a fact resolves in every instance; every typed member names its
    dimension *)
Definition references_resolve (insts : list instance) : Prop :=
  forall i j f, In i insts -> In j insts -> In f (iFacts i) -> exists c, In c (iContexts j) /\ ctxID c = fContextRef f.
Definition dimensions_named (tree : list arc -> string -> rarc) (insts : list instance) : Prop :=
  forall i c t n, In i insts -> In c (iContexts i) -> In t (typed_of c) ->
    In n (ra_children (tree (tdom_arcs (tmArcs t)) typedDomainArcRole)) -> ra_locator n <> "".

Lemma render_ok e f langs : exists m, render e (Some f) langs = Ok m.
Proof.
  destruct (fIsNil f) eqn:N.
  - exists [("Unlabelled", FactExpression "" "nil" "" "")]. now apply C75_no_fact.
  - destruct (C75_languages e f langs N) as (m & H & _). eauto.
Qed.
Lemma grid_ok e (insts : list instance) subject href cols seg scen packs ref :
  dimensions_named (xe_tree e) insts ->
  get_relevant_contexts (xe_tree e) (xe_labels e) (xe_concept e) (xe_typed_order e) subject insts [href]
    = Ok (cols, seg, scen, packs) ->
  exists g v, get_member_grid (xe_member_order e) (expressed ref cols) seg scen = Ok (g, v).
Proof.
  intros DN E. destruct (relevant_trees _ _ _ _ _ _ _ _ _ _ _ E) as (cs & _ & Hcs & HT).
  assert (F : Forall named_tree (seg ++ scen)%list).
  { apply Forall_forall. intros t Ht. apply HT in Ht. destruct Ht as (c & ty & Hc & Hty & ->).
    apply Hcs in Hc. destruct Hc as (i & Hi & f & _ & _ & _ & Rf & _).
    intros n Hn. eapply DN; eauto. destruct Rf as (l & r & EL & _). rewrite EL. apply in_or_app. right. now left. }
  apply Forall_app in F. destruct F. apply member_grid_ok; auto.
Qed.
Lemma name_query_no_panic q a b : (forall u, q_discover q u <> Panic) -> name_query q a b <> Panic.
Proof.
  intros H. unfold name_query. destruct (negb _); [discriminate|].
  match goal with |- context [schema_at q ?l] => set (loc := l) end.
  assert (S : schema_at q loc <> Panic).
  { unfold schema_at, hydrate_global_schema, hydrate_schema. specialize (H loc). destruct (q_is_url q loc).
    - destruct (q_discover q loc); cbn [bind]; try congruence. now destruct (negb _).
    - now destruct (negb _). }
  destruct (schema_at q loc) as [s| |]; cbn [bind]; try congruence. now destruct (find _ _).
Qed.
(** With an inline document and resolvable references, every request is answered (reading the
    global taxonomy files, external code, is assumed not to crash). *)
Theorem C73_answers_partial :
  forall e d name ref,
    (forall u, q_discover (xe_query e) u <> Panic) ->
    same_instances e -> references_resolve (xe_facts e) -> dimensions_named (xe_tree e) (xe_facts e) ->
    (exists r, marshal_expressable e (Some d) name ref = Ok r) \/
    (exists msg, marshal_expressable e (Some d) name ref = Err msg).
Proof.
  intros e d name ref QD [P1 P2] RR DN. unfold marshal_expressable.
  destruct (sget name (docNames d)) as [n|]; [|eauto]. destruct (sget ref (docContexts d)) as [b|]; [|eauto].
  destruct (name_query (xe_query e) (nspace n) (nlocal n)) as [found|msg|] eqn:EN; cbn [bind]; [|eauto|].
  2: { exfalso. revert EN. now apply name_query_no_panic. }
  set (href := match found with Some (h, _) => h | None => "" end).
  destruct (find_fact (xe_facts e) href ref) as [f|] eqn:EF; [|eauto].
  apply C74_find_fact in EF. destruct EF as (l & r & EL & [Hh Hr] & _).
  assert (IF : exists i, In i (xe_facts e) /\ In f (iFacts i)).
  { apply in_flat_map. rewrite EL. apply in_or_app. right. now left. }
  destruct IF as (i & Hi & Hf).
  destruct (xe_first e) as [|x rest] eqn:EX.
  { apply Permutation_nil in P1. rewrite P1 in Hi. destruct Hi. }
  assert (Hx : In x (xe_facts e)) by (eapply Permutation_in; [exact P1|now left]).
  destruct (RR i x f Hi Hx Hf) as (c & Hc & IDc). rewrite Hr in IDc.
  destruct (get_context x ref) as [c'|] eqn:EC.
  2: { exfalso. eapply (proj1 (get_context_none x ref) EC); eauto. }
  destruct (get_relevant_contexts _ _ _ _ _ (xe_contexts e) [href]) as [[[[cols seg] scen] packs]| |] eqn:ER; cbn [bind].
  - assert (DN' : dimensions_named (xe_tree e) (xe_contexts e)).
    { intros j cj t k Hj. apply DN. eapply Permutation_in; [symmetry; exact P2|exact Hj]. }
    destruct (grid_ok e (xe_contexts e) _ _ _ _ _ _ ref DN' ER) as (g & v & ->).
    cbn [bind]. destruct (render_ok (xe_render e) f [PureLabel]) as (m & ->). cbn [bind]. eauto.
  - destruct (relevant_spec (xe_tree e) (xe_labels e) (xe_concept e) (xe_typed_order e)
               (ctxScheme c' ++ "/" ++ ctxIdentifier c') (xe_contexts e) [href]) as [[_ P]|[_ (css & _ & G)]]; congruence.
  - exfalso. destruct (relevant_spec (xe_tree e) (xe_labels e) (xe_concept e) (xe_typed_order e)
               (ctxScheme c' ++ "/" ++ ctxIdentifier c') (xe_contexts e) [href])
      as [[(j & Hj & g & Hg & _ & _ & ND) _]|[_ (css & _ & G)]]; [|congruence].
    assert (Hj' : In j (xe_facts e)) by (eapply Permutation_in; [symmetry; exact P2|exact Hj]).
    destruct (RR j j g Hj' Hj' Hg) as (cg & Hcg & IDg). eapply ND; eauto.
Qed.
Print Assumptions C73_answers_partial.
Example C73_example :
  (forall u, q_discover (xe_query (x_env x_instance)) u <> Panic) /\
  same_instances (x_env x_instance) /\ references_resolve (xe_facts (x_env x_instance)) /\
  dimensions_named sample_tree [x_instance].
Proof.
  split; [discriminate|]. split; [split; reflexivity|]. split.
  - intros i j f [<-|[]] [<-|[]] Hf. cbn in Hf. repeat destruct Hf as [<-|Hf]; try contradiction; cbn; eauto 6.
  - intros i c t n [<-|[]] Hc. cbn in Hc. destruct Hc as [<-|[<-|[]]]; intros [].
Qed.

(** ** C74 *)
(** the expression of a fact, without a label language *)
Definition expresses (e : renv) (f : fact) (m : list (string * fact_expression)) : Prop :=
  (fIsNil f = true /\ m = [("Unlabelled", FactExpression "" "nil" "" "")]) \/
  (fIsNil f = false /\ exists t, m = [("Unlabelled", t)] /\ shown_fact "," e f t).
Lemma render_expresses e f m : render e (Some f) [PureLabel] = Ok m -> expresses e f m.
Proof.
  intro H. unfold render in H. destruct (fIsNil f) eqn:N; [left|right]; split; auto.
  - now injection H as <-.
  - cbn in H. destruct (render_english_fact e f) as [t| |] eqn:R; try discriminate. cbn [bind sset mset] in H.
    injection H as <-. exists t. split; [reflexivity|]. now apply render_fact_iff.
Qed.
(** Whatever is answered, whatever the order of the instances, is about the concept of the name
    and the first fact with that concept and context. *)
Theorem C74_about_the_request :
  forall e d name ref x, is_map (docNames d) ->
    marshal_expressable e (Some d) name ref = Ok (Some x) ->
    exists n f, In (name, n) (docNames d) /\ In ref (map fst (docContexts d)) /\ ((exists k, name_query (xe_query e) (nspace n) (nlocal n) = Ok (Some (exHref x, k))) \/
       (name_query (xe_query e) (nspace n) (nlocal n) = Ok None /\ exHref x = "")) /\
      first_such (is_fact_of (exHref x) ref) (flat_map iFacts (xe_facts e)) f /\
      exLabels x = xe_labels e (exHref x) /\ expresses (xe_render e) f (exExpression x) /\
      exFootnotes x = map fnHtml (get_footnotes (xe_tree e) (xe_notes1 e) (xe_notes2 e) (Some f)).
Proof.
  intros e d name ref x M. unfold marshal_expressable.
  destruct (sget name (docNames d)) as [n|] eqn:E1; [|discriminate].
  destruct (sget ref (docContexts d)) as [b|] eqn:E2; [|discriminate].
  destruct (name_query (xe_query e) (nspace n) (nlocal n)) as [found|msg|] eqn:EN; cbn [bind]; try discriminate.
  set (href := match found with Some (h, _) => h | None => "" end).
  destruct (find_fact (xe_facts e) href ref) as [f|] eqn:EF; [|discriminate].
  destruct (xe_first e) as [|i rest]; [discriminate|]. destruct (get_context i ref) as [c|]; [|discriminate].
  destruct (get_relevant_contexts _ _ _ _ _ _ _) as [[[[cols seg] scen] packs]| |]; cbn [bind]; try discriminate.
  destruct (get_member_grid _ _ _ _) as [[g v]| |]; cbn [bind]; try discriminate.
  destruct (render _ _ _) as [m| |] eqn:R; cbn [bind]; try discriminate. intro H. injection H as <-. cbn.
  exists n, f. split; [now apply sget_In|]. split; [apply sget_In in E2; now apply (in_map fst) in E2|]. split.
  { unfold href. destruct found as [[h k]|]; [left; eauto|right; auto]. }
  split; [now apply C74_find_fact|]. split; [reflexivity|]. split; [now apply render_expresses|reflexivity].
Qed.
Print Assumptions C74_about_the_request.

(** With one instance, a request for a name the taxonomy declares and a context of the instance
    is answered with the first such fact, its period, labels and footnotes. *)
Theorem C74_answer :
  forall e d i name ref n href k c f,
    one_instance e i -> references_resolve [i] -> dimensions_named (xe_tree e) [i] ->
    is_map (docNames d) -> In (name, n) (docNames d) -> In ref (map fst (docContexts d)) ->
    name_query (xe_query e) (nspace n) (nlocal n) = Ok (Some (href, k)) ->
    first_such (is_fact_of href ref) (iFacts i) f ->
    first_such (fun c => ctxID c = ref) (iContexts i) c ->
    free_of "/" (ctxStart c) -> free_of "/" (ctxInstant c) ->
    exists x, marshal_expressable e (Some d) name ref = Ok (Some x) /\
      exHref x = href /\ exLabels x = xe_labels e href /\
      shows_period (xe_spanish e) (xe_labels e href) c (exPeriod x) /\
      expresses (xe_render e) f (exExpression x) /\
      exFootnotes x = map fnHtml (get_footnotes (xe_tree e) [i] [i] (Some f)).
Proof.
  intros e d i name ref n href k c f (O1 & O2 & O3 & O4 & O5) RR DN M Hn Hr EN Hf Hc F1 F2.
  unfold marshal_expressable. rewrite (proj2 (sget_iff _ _ _ M) Hn).
  destruct (sget ref (docContexts d)) as [b|] eqn:E2; [|exfalso; now apply sget_None in E2].
  rewrite EN. cbn [bind]. rewrite O1, O2, O3, O4, O5.
  assert (EF : find_fact [i] href ref = Some f).
  { apply C74_find_fact. cbn [flat_map]. rewrite app_nil_r. exact Hf. }
  rewrite EF.
  assert (EC : get_context i ref = Some c).
  { apply (find_first_such _ (fun c => ctxID c = ref)); auto. intro y. apply String.eqb_eq. }
  rewrite EC.
  destruct (relevant_spec (xe_tree e) (xe_labels e) (xe_concept e) (xe_typed_order e)
               (ctxScheme c ++ "/" ++ ctxIdentifier c) [i] [href])
    as [[(j & [<-|[]] & g & Hg & _ & _ & ND) _]|[_ (css & _ & G)]].
  { exfalso. destruct (RR i i g) as (cg & Hcg & IDg); [now left|now left|exact Hg|]. eapply ND; eauto. }
  rewrite G. cbn [bind]. destruct (grid_ok e [i] _ _ _ _ _ _ ref DN G) as (g & v & ->). cbn [bind].
  destruct (render_ok (xe_render e) f [PureLabel]) as (m & R). rewrite R. cbn [bind].
  eexists. split; [reflexivity|]. cbn. split; [reflexivity|]. split; [reflexivity|]. split; [|split; auto using render_expresses].
  destruct (period_spec (xe_spanish e) (xe_labels e href) c F1 F2) as [_ P].
  assert (NS : forall r, iso_period c <> "/" ++ r).
  { intros r E. unfold iso_period in E. destruct (ctxStart c) as [|a s] eqn:ES; [|destruct (ctxEnd c)].
    - rewrite E in F2. now apply cut_None_iff in F2.
    - rewrite E in F2. now apply cut_None_iff in F2.
    - injection E as -> _. now apply cut_None_iff in F1. }
  intros lang text. rewrite P. change English with "en - english". change Español with "es - español".
  rewrite C51_english, C51_spanish by exact NS. reflexivity.
Qed.
Print Assumptions C74_answer.
(** Nothing is answered exactly for unknown names and contexts and for missing facts. *)
Theorem C74_no_answer :
  forall e d i name ref, one_instance e i -> references_resolve [i] -> is_map (docNames d) ->
    (marshal_expressable e (Some d) name ref = Ok None <->
     (forall n, ~ In (name, n) (docNames d)) \/ ~ In ref (map fst (docContexts d)) \/
     exists n href, In (name, n) (docNames d) /\
       ((exists k, name_query (xe_query e) (nspace n) (nlocal n) = Ok (Some (href, k))) \/
        (name_query (xe_query e) (nspace n) (nlocal n) = Ok None /\ href = "")) /\
       forall f, In f (iFacts i) -> ~ is_fact_of href ref f).
Proof.
  intros e d i name ref (O1 & O2 & O3 & O4 & O5) RR M. unfold marshal_expressable.
  destruct (sget name (docNames d)) as [n|] eqn:E1.
  2: { split; auto. intros _. left. intros n Hn. apply (proj2 (sget_iff _ _ _ M)) in Hn. congruence. }
  assert (Hn : In (name, n) (docNames d)) by now apply sget_In.
  assert (UN : forall n', In (name, n') (docNames d) -> n' = n).
  { intros n' Hn'. apply (proj2 (sget_iff _ _ _ M)) in Hn'. congruence. }
  destruct (sget ref (docContexts d)) as [b|] eqn:E2.
  2: { split; auto. intros _. right. left. now apply sget_None. }
  assert (Hr : In ref (map fst (docContexts d))) by (apply sget_In in E2; now apply (in_map fst) in E2).
  rewrite O1, O2.
  assert (NF : forall h, find_fact [i] h ref = None <-> forall f, In f (iFacts i) -> ~ is_fact_of h ref f).
  { intro h. unfold find_fact. cbn [flat_map]. rewrite app_nil_r.
    apply (find_none_iff _ (is_fact_of h ref)). intro y. unfold is_fact_of. rewrite andb_true_iff, !String.eqb_eq. reflexivity. }
  destruct (name_query (xe_query e) (nspace n) (nlocal n)) as [found|msg|] eqn:EN; cbn [bind].
  - set (href := match found with Some (h, _) => h | None => "" end).
    assert (HQ : forall h, ((exists k, Ok found = Ok (Some (h, k))) \/ (Ok found = @Ok (option (string * concept)) None /\ h = "")) -> h = href).
    { intros h [(k & [= ->])|[[= ->] ->]]; reflexivity. }
    destruct (find_fact [i] href ref) as [f|] eqn:EF.
    + split.
      * destruct (get_context i ref); [|discriminate].
        destruct (get_relevant_contexts _ _ _ _ _ _ _) as [[[[cols seg] scen] packs]| |]; cbn [bind]; try discriminate.
        destruct (get_member_grid _ _ _ _) as [[g v]| |]; cbn [bind]; try discriminate.
        destruct (render _ _ _) as [m| |]; cbn [bind]; discriminate.
      * intros [H|[H|(n' & h & Hn' & Q & H)]]; exfalso; [eapply H; eauto|auto|].
        apply UN in Hn'. subst n'. rewrite EN in Q. apply HQ in Q. subst h. apply NF in H. congruence.
    + split; auto. intros _. right. right. exists n, href. split; auto. split; [|now apply NF].
      rewrite EN. unfold href. destruct found as [[h k]|]; [left; eauto|right; auto].
  - split; [discriminate|]. intros [H|[H|(n' & h & Hn' & Q & H)]]; exfalso; [eapply H; eauto|auto|].
    apply UN in Hn'. subst n'. rewrite EN in Q. destruct Q as [(k & Q)|[Q _]]; discriminate.
  - split; [discriminate|]. intros [H|[H|(n' & h & Hn' & Q & H)]]; exfalso; [eapply H; eauto|auto|].
    apply UN in Hn'. subst n'. rewrite EN in Q. destruct Q as [(k & Q)|[Q _]]; discriminate.
Qed.
Print Assumptions C74_no_answer.
Example C74_example :
  one_instance (x_env x_instance) x_instance /\ references_resolve [x_instance] /\
  is_map (docNames x_doc) /\ In "c1" (map fst (docContexts x_doc)) /\
  (exists k, name_query ex_env "urn:t" "A" = Ok (Some ("t.xsd#t_A", k))) /\
  first_such (is_fact_of "t.xsd#t_A" "c1") (iFacts x_instance) (Fact "t.xsd#t_A" "f2" "c1" "" 0 false "new") /\
  first_such (fun c => ctxID c = "c1") (iContexts x_instance)
    (plain_context "c1" "2020-01-01" "2020-12-31" (by_product "t#Cars")) /\
  free_of "/" "2020-01-01" /\ free_of "/" "".
Proof.
  split; [repeat split|]. split; [apply C73_example|]. split; [repeat constructor; cbn; intuition discriminate|].
  split; [now left|]. split; [eexists; vm_compute; reflexivity|]. split.
  { exists [Fact "t.xsd#t_A" "f1" "c2" "" 0 false "old"], [Fact "t.xsd#t_A" "f3" "c1" "" 0 false "newer"].
    split; [reflexivity|]. split; [split; reflexivity|]. intros y [<-|[]] [_ H]. discriminate. }
  split. { exists [], [plain_context "c2" "2019-01-01" "2019-12-31" no_dims]. split; [reflexivity|]. split; [reflexivity|]. intros y []. }
  split; apply cut_None_iff; reflexivity.
Qed.

(** ** C93 *)
(** A typed dimension of another context in which the concept is reported removes all rows. *)
Definition typed_elsewhere : instance :=
  Instance "i.xml" (x_contexts (by_product "t#Cars") (DimContext [] [simple_typed "t#Region" "t#region" "north"])) [] [] x_facts.
Theorem C93_refuted :
  exists e d i name ref c x, one_instance e i /\
    first_such (fun c => ctxID c = ref) (iContexts i) c /\ reportable (xe_concept e) (exHref x) /\
    (exists m, In m (explicit_of c) /\ emDimHref m <> "" /\ sole_member c m) /\
    marshal_expressable e (Some d) name ref = Ok (Some x) /\ exVoid x = [] /\
    ~ shows_dimensions (xe_labels e) c x.
Proof.
  exists (x_env typed_elsewhere), x_doc, typed_elsewhere, "t:A", "c1",
    (plain_context "c1" "2020-01-01" "2020-12-31" (by_product "t#Cars")).
  eexists (Expressable _ _ _ _ _ _ _). split; [repeat split|].
  split. { eexists [], _. split; [reflexivity|]. split; [reflexivity|]. intros y []. }
  split; [|split; [|split; [vm_compute; reflexivity|split; [reflexivity|]]]].
  2: { exists (ExplicitMember "t#Product" "t:Product" "t#Cars" "t#Cars"). split; [now left|]. split; [discriminate|].
       split; [vm_compute; reflexivity|]. intros t []. }
  2: { intro H. destruct (H (ExplicitMember "t#Product" "t:Product" "t#Cars" "t#Cars")) as (k & v & Hv & _).
       - now left.
       - discriminate.
       - split; [vm_compute; reflexivity|]. intros t [].
       - destruct k; discriminate. }
  eexists. split; vm_compute; reflexivity.
Qed.
Print Assumptions C93_refuted.
(** If the typed members of all the contexts in which the concept is reported are about
    dimensions and domains of the requested context - in particular if there are none - the rows
    are right. *)
Theorem C93_dimensions_partial :
  forall e d i name ref c x,
    one_instance e i -> (forall c t, Permutation (xe_typed_order e c t) (tmMap t)) ->
    (forall l, Permutation (xe_member_order e l) l) ->
    marshal_expressable e (Some d) name ref = Ok (Some x) ->
    first_such (fun c => ctxID c = ref) (iContexts i) c ->
    reportable (xe_concept e) (exHref x) ->
    (forall c' t r, reported_in (xe_concept e) i (ctxScheme c ++ "/" ++ ctxIdentifier c) [exHref x] c' ->
       In t (typed_of c') -> column_for (xe_labels e) c r ->
       reported_tree [r] (xe_tree e (tdom_arcs (tmArcs t)) typedDomainArcRole)) ->
    shows_dimensions (xe_labels e) c x /\ only_dimensions c x.
Proof.
  intros e d i name ref c x (O1 & O2 & O3 & O4 & O5) TO MO E Hc RP HT. revert E. unfold marshal_expressable.
  destruct (sget name (docNames d)) as [n|]; [|discriminate].
  destruct (sget ref (docContexts d)) as [b|]; [|discriminate].
  destruct (name_query (xe_query e) (nspace n) (nlocal n)) as [found|msg|]; cbn [bind]; try discriminate.
  set (href := match found with Some (h, _) => h | None => "" end). rewrite O1, O2, O3, O4, O5.
  destruct (find_fact [i] href ref) as [f|] eqn:EF; [|discriminate].
  assert (EC : get_context i ref = Some c).
  { apply (find_first_such _ (fun c => ctxID c = ref)); auto. intro y. apply String.eqb_eq. }
  rewrite EC.
  destruct (get_relevant_contexts _ _ _ _ _ _ _) as [[[[cols seg] scen] packs]| |] eqn:EG; cbn [bind]; try discriminate.
  destruct (get_member_grid _ _ _ _) as [[g v]| |] eqn:EM; cbn [bind]; try discriminate.
  destruct (render _ _ _) as [m| |] eqn:R; cbn [bind]; try discriminate. intro H. injection H as <-.
  cbn [exHref] in RP, HT.
  apply C74_find_fact in EF. cbn [flat_map] in EF. rewrite app_nil_r in EF. destruct EF as (l & r & EL & [Hh Hr] & _).
  assert (RI : reported_in (xe_concept e) i (ctxScheme c ++ "/" ++ ctxIdentifier c) [href] c).
  { exists f. split; [rewrite EL; apply in_or_app; right; now left|]. split; [now left|]. rewrite Hh. split; auto.
    split; auto. unfold refers_to. now rewrite Hr. }
  assert (ID : ctxID c = ref) by now apply get_context_id in EC.
  rewrite (expressed_one _ _ _ _ _ _ _ _ _ _ _ _ _ EG RI ID) in EM.
  destruct (relevant_trees _ _ _ _ _ _ _ _ _ _ _ EG) as (cs & _ & Hcs & HTr).
  assert (F : Forall (reported_tree [fst (mk_col (xe_tree e) (xe_labels e) (xe_typed_order e) c)]) (seg ++ scen)%list).
  { apply Forall_forall. intros t Ht. apply HTr in Ht. destruct Ht as (c' & ty & Hc' & Hty & ->).
    apply Hcs in Hc'. destruct Hc' as (j & [<-|[]] & Rj). apply (HT c' ty); auto. now apply mk_col_column. }
  apply Forall_app in F. destruct F as [F1 F2].
  destruct (members_shown _ _ _ _ MO c seg scen F1 F2) as (g' & v' & EM' & S1 & S2).
  rewrite EM' in EM. injection EM as -> ->. split.
  - exact S1.
  - intros w Hw. cbn in Hw. destruct (S2 w Hw) as (m' & Hm' & ED). apply column_members in Hm'. rewrite <- ED.
    destruct Hm' as [(e' & He & ->)|[(e' & He & ->)|(t & kv & Ht & _ & ->)]]; cbn.
    + left. exists e'. split; auto. apply in_or_app; auto.
    + left. exists e'. split; auto. apply in_or_app; auto.
    + right. eauto.
Qed.
Print Assumptions C93_dimensions_partial.
Example C93_example :
  reportable x_concept "t.xsd#t_A" /\ In (ExplicitMember "t#Product" "t:Product" "t#Cars" "t#Cars")
    (explicit_of (plain_context "c1" "2020-01-01" "2020-12-31" (by_product "t#Cars"))) /\
  (forall c' t, In c' (iContexts x_instance) -> ~ In t (typed_of c')).
Proof.
  split; [eexists; split; vm_compute; reflexivity|]. split; [now left|].
  intros c' t Hc. cbn in Hc. destruct Hc as [<-|[<-|[]]]; intros [].
Qed.
