(** * AskProps: C126 (from a fact of an inline report on disk to the answer a client reads) *)
From Verif Require Import GoBase GoSpec GoFacts AttrModel AttrSpec AttrProofs SchemaModel SchemaSpec SchemaProofs SchemaProps
  LinkbaseModel LinkbaseSpec LinkbaseProofs LinkbaseProps InstanceModel InstanceSpec InstanceProofs InstanceProps
  HydrateModel HydrateSpec HydrateProofs HydrateProps LabelModel LabelSpec LabelProofs LabelProps PeriodModel PeriodSpec PeriodProofs PeriodProps
  FactModel FactSpec FactProofs FactProps GridModel GridSpec GridProofs GridProps CalcModel CalcSpec CalcProofs CalcProps DefModel DefSpec DefProofs DefProps
  RenderModel RenderSpec RenderProofs RenderProps ExpressModel ExpressSpec ExpressProofs ExpressProps
  DiscoverModel DiscoverSpec DiscoverProofs DiscoverProps XmlModel XmlSpec XmlProofs XmlProps LoadModel LoadSpec LoadProofs LoadProps
  CatalogModel CatalogSpec CatalogProofs CatalogProps ReportModel ResponseModel ResponseSpec ResponseProofs ResponseProps EndToEndSpec EndToEndProps
  ReportSpec ReportProofs ReportProps AskSpec.
Local Open Scope string_scope.

(** ** A loaded report *)
Lemma loaded_report d dir name images pf sh tokens utr h : supported name -> loaded d dir name images pf sh tokens utr h ->
  exists file root i, entry_at d dir root name file /\ hInstances h = [(file, i)] /\
    (well_written d dir root ->
     let q := env_of (hFolder h) (d_url d) (global_schema_file d) in
     understands d dir root q /\ qenv_ok q /\ facts_written d dir root (iFacts i) /\
     contexts_written root q (content_of q tokens (attributes root)) (iContexts i) /\
     (forall fa, In fa (iFacts i) -> exists k, reports d dir root fa k) /\
     (forall ns l href c order, name_query q ns l = Ok (Some (href, c)) -> exists k, hash_query order q href = Ok (k, c))).
Proof.
  intros N L.
  destruct (loaded_parts _ _ _ _ _ _ _ _ _ N L) as (file&root&fd&doc&EA&FI&S&_&CL&AC&M1&M2&_&_&_&H).
  apply C79_complete in H as (HF&_&_&_&_&_&HI&_).
  destruct (one_loaded _ _ _ HI _ _ FI) as (i&HI'&E).
  exists file, root, i. split; auto. split; auto. intros (P&ID&O&NH&DR&PT). rewrite HF.
  set (q := env_of fd (d_url d) (global_schema_file d)) in *. cbv zeta.
  assert (QOK : qenv_ok q) by (split; auto).
  assert (D : decode_instance (Some root) = Ok (instance_struct root)).
  { destruct EA as (_&(data&_&_&T)&_). unfold decode_instance, decode. apply has_tag_iff in T. now rewrite T. }
  assert (FW : facts_written d dir root (iFacts i)).
  { destruct (C115_facts_partial _ _ _ _ _ _ _ _ _ N L) as (file'&root'&i'&EA'&HI2&F).
    rewrite HI' in HI2. injection HI2 as <- <-.
    assert (root' = root) as ->.
    { destruct EA as (_&DO&_), EA' as (_&DO'&_). eapply document_fun; eauto. }
    exact (F P O). }
  split. { split; intros; [eapply names_declared; eauto|eapply declared_names; eauto]. }
  split; auto. split; auto. split. { eapply C104_contexts_partial; eauto. }
  split.
  - intros fa Hfa. destruct FW as (fs&I&ST).
    assert (Hf : In fa fs) by (destruct ST as (PM&_); eapply Permutation_in; [|exact Hfa]; auto using Permutation_sym).
    apply (image_of_In _ _ _ _ I) in Hf as (x&Hx&FA&_). pose proof FA as (ns&l&Nx&_&_&(k&DK)&_).
    exists k, x, ns, l. auto.
  - intros ns l href c order NQ. destruct (name_then_hash order q ns l href c QOK NQ) as (k&H&_); eauto.
    intros loc f cs Hl Hd Hc.
    apply name_query_iff in NQ as (loc'&f'&cs'&Hl'&_&Hd'&Hc'&Hs&_); auto.
    assert (loc' = loc) as ->.
    { apply (In_mget _ seqP) in Hl; [|exact M1]. apply (In_mget _ seqP) in Hl'; [|exact M1]. congruence. }
    apply first_such_In in Hs as [Hs _].
    apply (document_iff d dir root fd S loc f' c cs' Hc' Hs) in Hd' as (t'&K'&->).
    apply concepts_of_iff in Hc'; [|eauto]. destruct (ID _ _ _ K' Hc') as [FH _]. split; auto.
    destruct cs as [|c0 r]; [constructor|].
    apply (document_iff d dir root fd S loc f c0 (c0 :: r) Hc (or_introl eq_refl)) in Hd as (t&K&->).
    apply concepts_of_iff in Hc; [|eauto]. eapply ID; eauto.
Qed.

(** ** The answer *)
Lemma express_inv e doc k ref x : marshal_expressable e (Some doc) k ref = Ok (Some x) ->
  exists n b found f i r c m, sget k (docNames doc) = Some n /\ sget ref (docContexts doc) = Some b /\
    name_query (xe_query e) (nspace n) (nlocal n) = Ok found /\
    exHref x = match found with Some (h, _) => h | None => "" end /\
    find_fact (xe_facts e) (exHref x) ref = Some f /\ xe_first e = i :: r /\ get_context i ref = Some c /\
    exLabels x = xe_labels e (exHref x) /\
    exPeriod x = period_multilingual_string (xe_spanish e) (exLabels x) c /\
    render (xe_render e) (Some f) [PureLabel] = Ok m /\ exExpression x = m /\
    exFootnotes x = map fnHtml (get_footnotes (xe_tree e) (xe_notes1 e) (xe_notes2 e) (Some f)).
Proof.
  unfold marshal_expressable. destruct (sget k _) as [n|]; [|discriminate]. destruct (sget ref _) as [b|]; [|discriminate].
  destruct (name_query _ _ _) as [found| |] eqn:E; cbn [bind]; try discriminate. set (href := match found with Some (h, _) => h | None => "" end).
  destruct (find_fact _ _ _) as [f|] eqn:F; [|discriminate]. destruct (xe_first e) as [|i r] eqn:X; [discriminate|].
  destruct (get_context i ref) as [c|] eqn:C; [|discriminate].
  destruct (get_relevant_contexts _ _ _ _ _ _ _) as [[[[cols seg] scen] cp]| |]; cbn [bind]; try discriminate.
  destruct (get_member_grid _ _ _ _) as [[g v]| |]; cbn [bind]; try discriminate.
  destruct (render _ _ _) as [m| |] eqn:R; cbn [bind]; try discriminate.
  intros [= <-]. exists n, b, found, f, i, r, c, m. cbn [exHref exLabels exPeriod exExpression exFootnotes]. fold href. repeat (split; [solve [auto]|]). reflexivity.
Qed.
Lemma period_pure es labels c : exists p, period_of c p /\ In ("Unlabelled", p) (period_multilingual_string es labels c) /\
  is_map (period_multilingual_string es labels c) /\
  forall k, In k (map fst (period_multilingual_string es labels c)) -> JsonSpec.text k.
Proof.
  assert (T : forall k, k = "Unlabelled" \/ k = "Truncated" \/ k = "en - english" \/ k = "es - español" -> JsonSpec.text k).
  { intros k [->|[->|[->| ->]]]; [apply (JsonProofs.san_text "Unlabelled")|apply (JsonProofs.san_text "Truncated")
      |apply (JsonProofs.san_text "en - english")|apply (JsonProofs.san_text "es - español")]. }
  assert (G : forall s start end_, In ("Unlabelled", s) (append_period_langs es [(PureLabel, s); (BriefLabel, s)] labels start end_) /\
    is_map (append_period_langs es [(PureLabel, s); (BriefLabel, s)] labels start end_) /\
    forall k, In k (map fst (append_period_langs es [(PureLabel, s); (BriefLabel, s)] labels start end_)) -> JsonSpec.text k).
  { intros s start end_. destruct (append_langs es labels start end_ [(PureLabel, s); (BriefLabel, s)]) as [R1 R2].
    - repeat constructor; cbn; intuition discriminate.
    - intros t [H|[H|[]]]; discriminate.
    - intros t [H|[H|[]]]; discriminate.
    - split; [|split; auto].
      + apply R2. simpl. intuition.
      + intros k Hk. apply in_map_iff in Hk as ([k' t]&<-&Hk). apply R2 in Hk. apply T. cbn [fst]. simpl in Hk.
        change PureLabel with "Unlabelled" in Hk. change BriefLabel with "Truncated" in Hk.
        change English with "en - english" in Hk. change Español with "es - español" in Hk.
        intuition (try congruence). }
  unfold period_multilingual_string. destruct (nonempty (ctxEnd c)) eqn:E1, (nonempty (ctxStart c)) eqn:E2; cbn [andb].
  1:{ exists (ctxStart c ++ "/" ++ ctxEnd c). split; [left; repeat split; now apply nonempty_iff|]. apply G. }
  all: exists (ctxInstant c); (split; [right; split; [|reflexivity];
    match goal with H : nonempty _ = false |- _ => apply nonempty_false in H end; auto|]).
  all: destruct (nonempty (ctxInstant c)) eqn:E3; [apply G|].
  all: apply nonempty_false in E3; rewrite E3; split; [now left|]; split; [repeat constructor; simpl; auto|].
  all: intros k [<-|[]]; apply (JsonProofs.san_text "Unlabelled").
Qed.

(** some order *)
Definition own_env (w : outside) (h : hydratable) : xenv :=
  XEnv (own_insts h) (own_insts h) (own_insts h) (own_insts h) (own_insts h)
    (env_of (hFolder h) (o_url w) (o_schema w)) (own_labels h) (concept_for w h) (own_renv w h) (o_tree w) (o_spanish w)
    (fun _ t => tmMap t) (fun m => m).
Lemma own_env_from w h : expression_from w h (own_env w h).
Proof. split; cbn; intros; first [apply visited_own|apply own_labels_from|apply own_renders|reflexivity]. Qed.
Lemma own_answer w h k ref : exists out, marshalled_expressable w h k ref out.
Proof. eexists. exists (own_env w h). split; [apply own_env_from|reflexivity]. Qed.
Lemma global_no_panic d u : global_schema_file d u <> Panic.
Proof.
  unfold global_schema_file, decode_schema, decode. destruct (d_global d u); [|discriminate]. destruct (d_xml d s) as [x|]; [|discriminate].
  destruct (has_tag _ _); discriminate.
Qed.

(** C126: of every inline report that can be loaded, whatever fact a client asks for, by a name
    and a context of the inline document, and whatever the orders: the answer is about the first
    fact of the instance with that name and context, as it is written; if references resolve and
    there are no typed members, there is an answer exactly if there is such a fact. *)
Theorem C126_answer_partial :
  forall d dir name images pf sh tokens utr h, inline_name name -> loaded d dir name images pf sh tokens utr h ->
  exists file root data q, entry_at d dir root name file /\ d_file d (PathModel.join [dir; name]) = Some data /\ d_html d data = Some q /\
    (well_written d dir root -> declared_at_html q -> conforming_facts q ->
     exists facts contexts qe, understands d dir root qe /\ facts_written d dir root facts /\
       contexts_written root qe (content_of qe tokens (attributes root)) contexts /\
       forall w k ref, o_url w = d_url d -> o_schema w = global_schema_file d ->
         (forall bytes, marshalled_expressable w h k ref (Ok (Some bytes)) ->
            exists n fa c ctx v, names_fact q k n /\ names_context q ref /\
              fact_named (LoadSpec.declared d dir root) root facts n ref fa c /\
              first_such (fun c => ctxID c = ref) contexts ctx /\
              reads_as bytes v /\ fact_answer (renders_from w h) fa c ctx v) /\
         (simple facts contexts ->
            (exists out, marshalled_expressable w h k ref out) /\
            forall out, marshalled_expressable w h k ref out -> out <> Panic /\
              ((exists bytes, out = Ok (Some bytes)) <->
               exists n fa c, names_fact q k n /\ names_context q ref /\ fact_named (LoadSpec.declared d dir root) root facts n ref fa c))).
Proof.
  intros d dir name images pf sh tokens utr h N L.
  destruct (loaded_report _ _ _ _ _ _ _ _ _ (or_introl N) L) as (file&root&i&EA&HI&K).
  destruct (C117_index_partial _ _ _ _ _ _ _ _ _ L) as (_&IX). destruct (IX N) as (data&q&DF&DQ&KN).
  exists file, root, data, q. split; auto. split; auto. split; auto. intros WW DH CF.
  destruct (K WW) as (UN&QOK&FW&CW&HC&HQ). destruct (KN DH CF) as (doc&ED&KN1&KN2). clear K KN IX.
  set (qe := env_of (hFolder h) (d_url d) (global_schema_file d)) in *.
  exists (iFacts i), (iContexts i), qe. split; auto. split; auto. split; auto.
  intros w k ref OU OS. match goal with |- ?X /\ ?Y => assert (A : X); [|split; [exact A|]] end.
  2:{ intros [RS NT]. split; [apply own_answer|]. intros out M. pose proof M as (e&EF&E). rewrite ED in E.
    assert (V1 := visited_one h file i HI _ (xf_first _ _ _ EF)). assert (V2 := visited_one h file i HI _ (xf_facts _ _ _ EF)).
    assert (V3 := visited_one h file i HI _ (xf_contexts _ _ _ EF)).
    assert (RR : references_resolve [i]) by (intros i1 i2 f [<-|[]] [<-|[]] Hf; now apply RS).
    assert (DNM : dimensions_named (xe_tree e) [i]).
    { intros i1 c t m [<-|[]] Hc Ht. destruct (NT c Hc) as [T1 T2]. unfold typed_of in Ht. rewrite T1, T2 in Ht. destruct Ht. }
    split.
    - destruct (C73_answers_partial e doc k ref) as [(r&R)|(m&R)].
      + intro u. rewrite (xf_query _ _ _ EF), OS. unfold env_of. cbn [q_discover]. apply global_no_panic.
      + split; rewrite ?V1, ?V2, ?V3; reflexivity.
      + now rewrite V2.
      + now rewrite V2.
      + rewrite R in E. subst out. discriminate.
      + rewrite R in E. subst out. discriminate.
    - split; [intros (bytes&->); destruct (A bytes M) as (n&fa&c&ctx&v&A1&A2&A3&_); eauto 8|].
      intros (n&fa&c&A1&A2&DN&FS&x0&Hx0&Nx0&FA). subst out.
      assert (S1 : sget k (docNames doc) = Some n) by now apply KN1.
      assert (S2 : sget ref (docContexts doc) = Some true) by (apply KN2; auto).
      assert (NQ : name_query qe (nspace n) (nlocal n) = Ok (Some (fHref fa, c))).
      { apply name_query_iff; auto. apply UN; auto. destruct WW as (_&_&O&_). eapply O; eauto. }
      unfold marshal_expressable. rewrite S1, S2, (xf_query _ _ _ EF), OU, OS. fold qe. rewrite NQ. cbn [bind]. rewrite V1, V2, V3.
      assert (EFF : find_fact [i] (fHref fa) ref = Some fa).
      { apply C74_find_fact. cbn [flat_map]. rewrite app_nil_r. exact FS. }
      rewrite EFF. pose proof FS as FS'. apply first_such_In in FS' as [Hfa [_ HR]].
      destruct (get_context i ref) as [ctx|] eqn:EC.
      2:{ exfalso. destruct (RS fa Hfa) as (c0&Hc0&IDc). unfold get_context in EC. apply (find_none _ _ EC) in Hc0. apply String.eqb_neq in Hc0. congruence. }
      destruct (relevant_spec (xe_tree e) (xe_labels e) (xe_concept e) (xe_typed_order e)
               (ctxScheme ctx ++ "/" ++ ctxIdentifier ctx) [i] [fHref fa])
        as [[(j & [<-|[]] & g & Hg & _ & _ & ND) _]|[_ (css & _ & G)]].
      { exfalso. destruct (RR i i g) as (cg & Hcg & IDg); [now left|now left|exact Hg|]. eapply ND; eauto. }
      rewrite G. cbn [bind]. destruct (grid_ok e [i] _ _ _ _ _ _ ref DNM G) as (g & v & ->). cbn [bind].
      destruct (render_ok (xe_render e) fa [PureLabel]) as (m & R). rewrite R. cbn [bind option_map]. eauto. }
  intros bytes (e&EF&E). rewrite ED in E.
  destruct (marshal_expressable e (Some doc) k ref) as [[x|]| |] eqn:EX; try discriminate. cbn [bind option_map] in E. injection E as ->.
  destruct (express_inv _ _ _ _ _ EX) as (n&b&found&fa&i0&r&ctx&m&S1&S2&NQ&EH&FF&X1&GC&_&PE&RE&EE&_).
  assert (i0 = i) as -> by (pose proof (visited_one h file i HI _ (xf_first _ _ _ EF)) as V; rewrite V in X1; now injection X1).
  rewrite (visited_one h file i HI _ (xf_facts _ _ _ EF)) in FF. apply C74_find_fact in FF. cbn [flat_map] in FF. rewrite app_nil_r in FF.
  pose proof FF as FF'. apply first_such_In in FF' as [Hfa [HH HR]].
  rewrite (xf_query _ _ _ EF), OU, OS in NQ. fold qe in NQ.
  destruct (HC fa Hfa) as (kc&x0&ns&l&Hx0&FA&Nx0&DK).
  assert (DN : LoadSpec.declared d dir root (nspace n) (nlocal n) (fHref fa) kc /\ concept_for w h (fHref fa) = Some kc /\ n = XName ns l).
  { assert (Q1 : name_query qe ns l = Ok (Some (fHref fa, kc))).
    { apply name_query_iff; auto. apply UN; auto. destruct WW as (_&_&O&_). eapply O; eauto. }
    destruct (HQ _ _ _ _ (fdNamespaces (hFolder h)) Q1) as (k1&H1).
    destruct found as [[href c']|]; [|].
    - rewrite EH in HH. subst href. destruct (HQ _ _ _ _ (fdNamespaces (hFolder h)) NQ) as (k2&H2).
      assert (c' = kc) as -> by congruence. apply name_query_iff in NQ; auto. pose proof NQ as (?&?&?&_&_&_&_&FS&_).
      apply first_such_In in FS as [_ FS]. split; [rewrite HH; apply (proj1 UN _ _ _ _); exact NQ|]. split; [unfold concept_for; rewrite OU, OS; fold qe; now rewrite H1|].
      apply name_query_iff in Q1; auto. destruct Q1 as (?&?&?&_&_&_&_&FS1&_). apply first_such_In in FS1 as [_ FS1]. destruct n. cbn in FS. congruence.
    - exfalso. rewrite EH in HH. destruct DK as (hh&?&?&_&NE&_&_&_&DK). rewrite HH in DK. destruct hh; [congruence|discriminate DK]. }
  destruct DN as (DN&CO&->). cbn [nspace nlocal] in *.
  destruct (C119_expressable x) as (v&J&V). exists (XName ns l), fa, kc, ctx, v. cbn [nspace nlocal].
  split; [now apply KN1 in S1|]. split; [apply KN2 in S2; apply S2|].
  split. { split; auto. split; [now rewrite HH|]. exists x0. auto. }
  split. { apply (find_first_such _ (fun c => ctxID c = ref)) in GC; auto. intro y. apply String.eqb_eq. }
  split; auto. unfold expressable_value in V.
  assert (ND : NoDup (map fst [("Href", shows (exHref x)); ("Labels", labels (exLabels x));
          ("Context", object [("Period", languages (exPeriod x)); ("VoidQuadrant", list_of dimension_value (exVoid x));
                              ("ContextualMemberGrid", list_of (list_of member_value) (exMembers x))]);
          ("Expression", fact_value (exExpression x)); ("Footnotes", list_of shows (exFootnotes x))])) by (cbn; repeat constructor; simpl; intuition congruence).
  split.
  - rewrite HH. eapply (the_member_of _ _ "Href"); [exact V|exact ND|now left].
  - eapply the_member_impl; [|eapply (the_member_of _ _ "Expression"); [exact V|exact ND|do 3 right; now left]].
    intros u U. rewrite EE in U. destruct (fIsNil fa) eqn:NI; [left|right]; (split; [exact NI|]).
    + rewrite (proj2 (C75_no_fact _ _ _ NI)) in RE. injection RE as <-. exact U.
    + exists (xe_render e), m. split; [apply (xf_render _ _ _ EF)|].
      split; [rewrite (rf_concept _ _ _ (xf_render _ _ _ EF)); exact CO|]. split; auto.
      destruct (C75_languages (xe_render e) fa [PureLabel] NI) as (m'&R'&M&LL). rewrite RE in R'. injection R' as <-. split; auto.
      split; [apply LL; split; [now left|simpl; auto]|].
      intros lang y Hy. split; [apply (in_map fst) in Hy; now apply LL in Hy|]. eapply C85_expression; eauto.
  - eapply the_member_impl; [|eapply (the_member_of _ _ "Context"); [exact V|exact ND|do 2 right; now left]].
    intros u U. eapply the_member_impl; [|eapply (the_member_of _ _ "Period"); [exact U|cbn; repeat constructor; simpl; intuition congruence|now left]].
    intros z Z. rewrite PE in Z. destruct (period_pure (xe_spanish e) (exLabels x) ctx) as (p&P1&P2&P3&P4). exists p. split; auto.
    eapply map_the_member; eauto.
Qed.
Print Assumptions C126_answer_partial.

(** ** A folder: a schema with two concepts, an inline document with a text fact of the one and a
    fraction of the other, and the instance extracted from it *)
Definition ask_htm : qtree :=
  qe "http://www.w3.org/1999/xhtml" "html" [QAttr (XName "xmlns" "a") "urn:a" "xmlns"]
    [qe "http://www.w3.org/1999/xhtml" "body" [] [ix_fact "nonNumeric" "a:A" "c" []; ix_fact "fraction" "a:R" "c" []]].
Definition ask_root : tree :=
  xbrl_doc [schema_ref_to "a.xsd"; a_context; fact_saying "urn:a" "A" "f1" "one"; fact_saying "urn:a" "R" "f2" "two"].
Definition ask_schema : tree := schema_tree "urn:a" [concept_tree "R"; concept_tree "A"].
Definition ask_trees := [(in_dir "x.htm.xml", ask_root); (in_dir "a.xsd", ask_schema)].
Definition ask_disk : disk :=
  Disk (d_url (small_disk ask_trees)) (fun p => if String.eqb p (in_dir "x.htm") then Some p else d_file (small_disk ask_trees) p)
    (fun _ => true) (d_xml (small_disk ask_trees)) (fun p => if String.eqb p (in_dir "x.htm") then Some ask_htm else None) (fun _ => None).
Definition ask_end : state := go_on (files_of ask_disk) small_dir 20
  (schema_ref (files_of ask_disk) small_dir (first_folder (files_of ask_disk) small_dir "x.htm") (instance_struct ask_root)).
Definition ask_outside : outside :=
  Outside (d_url ask_disk) (global_schema_file ask_disk) (Ok []) (Ok []) sample_tree (fun _ => []) (fun _ _ _ => None) (fun _ => None) (fun _ => "") (fun _ => None).
Lemma x_inline : inline_name "x.htm".
Proof. right. now exists "x". Qed.
Lemma ask_entry : entry_at ask_disk small_dir ask_root "x.htm" "x.htm.xml".
Proof.
  split; [left; split; auto; apply x_inline|]. split.
  - exists (in_dir "x.htm.xml"). split; [reflexivity|]. split; [reflexivity|]. do 4 eexists; reflexivity.
  - intros _. exists (in_dir "x.htm"), ask_htm. split; [reflexivity|]. split; [reflexivity|]. split; [|reflexivity].
    exists ask_htm. split; [exists []; left; reflexivity|]. do 4 eexists; reflexivity.
Qed.
Lemma ask_declared_at : declared_at_html ask_htm.
Proof.
  split; [do 4 eexists; reflexivity|]. intros y above x a H Ha. fact_cases H; try discriminate; simpl in Ha;
    repeat destruct Ha as [<-|Ha]; try contradiction; discriminate.
Qed.
Lemma ask_fact above x k c : In (above, x) (walk [] ask_htm) -> attributes x = ex_ix ("a:" ++ k) c ->
  inline_fact_at above x ("a:" ++ k) (XName "urn:a" k) c.
Proof.
  intros Hy E. apply (inline_at_root ask_htm); auto; [exact ask_declared_at|].
  rewrite E. split; [apply find_attr_of; eexists; split; reflexivity|]. split; [apply find_attr_of; eexists; split; reflexivity|].
  exists "a", k, "urn:a". split; auto. split; [repeat split; discriminate|].
  split; auto. eexists. split; [exists [], []; repeat split; auto|reflexivity].
Qed.
Lemma ask_conforming : conforming_facts ask_htm.
Proof.
  intros above x H (l&Hl&N). destruct N as (a&i&ks&->). pose proof H as H0.
  fact_cases H; try (exfalso; simpl in Hl; intuition discriminate).
  - do 3 eexists. now apply (ask_fact _ _ "A" "c").
  - do 3 eexists. now apply (ask_fact _ _ "R" "c").
Qed.
Lemma ask_document p l t : document_of ask_disk p l t -> In (p, t) ask_trees /\ locally_named l t.
Proof.
  intros (data&F&X&N). cbn [ask_disk d_file d_xml small_disk] in F, X. split; auto. apply sget_In in X.
  destruct (String.eqb p (in_dir "x.htm")); [injection F as <-; auto|]. destruct (existsb _ _); [injection F as <-; auto|discriminate].
Qed.
Ltac ask_schema_only L := apply ask_document in L as [[E|[E|[]]] N]; injection E as _ <-; [destruct N as (?&?&?&?&N); discriminate N|].
Lemma ask_followed x t : followed_at ask_disk small_dir ask_root x t -> x = "a.xsd" /\ t = ask_schema.
Proof.
  intro F. assert (T : t = ask_schema).
  { apply followed_at_local in F as [_ L]. ask_schema_only L. reflexivity. }
  split; auto. clear T. destruct F as [h t ns R _ _|h0 g h t ns G R _ _|h0 g h t ns G R _].
  - destruct R as (y&Hy&(?&?&?&Ny)&Q). simpl in Hy. repeat destruct Hy as [<-|Hy]; try contradiction; try discriminate Ny.
    apply LinkbaseProofs.req_iff in Q. now injection Q.
  - exfalso. apply followed_at_local in G as [_ L]. ask_schema_only L.
    destruct R as (y&Hy&(?&?&?&Ny)&Q). simpl in Hy. repeat destruct Hy as [<-|Hy]; try contradiction; discriminate Ny.
  - exfalso. apply followed_at_local in G as [_ L]. ask_schema_only L.
    destruct R as (y&Hy&(?&?&?&Ny)&Q). simpl in Hy. repeat destruct Hy as [<-|Hy]; try contradiction; discriminate Ny.
Qed.
Lemma ask_known x t : known ask_disk small_dir ask_root x t -> x = "a.xsd" /\ t = ask_schema.
Proof. intros [F|(_&data&K&_)]; [now apply ask_followed in F|discriminate K]. Qed.
Lemma ask_claims ns x : claims_at ask_disk small_dir ask_root ns x -> x = "a.xsd".
Proof.
  intros [h t n R L T|h0 g h t n G R L T|h0 g h n G R].
  - apply (ask_followed h t). eapply fat_ref; eauto.
  - apply (ask_followed h t). eapply fat_include; eauto.
  - exfalso. apply ask_followed in G as [_ ->].
    destruct R as (y&Hy&(?&?&?&Ny)&Q). simpl in Hy. repeat destruct Hy as [<-|Hy]; try contradiction; discriminate Ny.
Qed.
Lemma ask_plain : plain_declarations ask_schema.
Proof. prove_plain. Qed.
Lemma ask_image cs : image_of (concept_at ask_schema "a.xsd") (kids ask_schema) cs -> cs = [pair_concept "R"; pair_concept "A"].
Proof.
  intro I. apply concepts_of_iff in I; [|apply ask_plain].
  assert (E : hydrate_concepts (schema_struct ask_schema) "a.xsd" = [pair_concept "R"; pair_concept "A"]) by (vm_compute; reflexivity).
  rewrite <- E. eapply image_of_fun; [|exact I|apply hydrate_concepts_image]. intros x y y' H H'. eapply declares_concept_fun; eauto.
Qed.
Lemma ask_written : well_written ask_disk small_dir ask_root.
Proof.
  split; [|split; [|split; [|split; [|split]]]].
  - intros x t K. apply ask_known in K as [_ ->]. apply ask_plain.
  - intros x t cs K I. apply ask_known in K as [-> ->]. apply ask_image in I. subst cs. split.
    + apply has_char_false_iff. reflexivity.
    + repeat constructor; simpl; intuition discriminate.
  - intros x ns l _ _ h h' C C'. apply ask_claims in C, C'. congruence.
  - prove_names.
  - prove_decls.
  - prove_texts.
Qed.
Lemma ask_declares n : n = "A" \/ n = "R" ->
  LoadSpec.declared ask_disk small_dir ask_root "urn:a" n ("a.xsd#id_" ++ n) (pair_concept n).
Proof.
  assert (R : ref_at ask_root "a.xsd").
  { exists (schema_ref_to "a.xsd"). split; [simpl; auto|]. split; [do 3 eexists; reflexivity|req_tac]. }
  assert (L : local ask_disk small_dir "a.xsd" "schema" ask_schema).
  { split; [reflexivity|]. exists (in_dir "a.xsd"). split; [reflexivity|]. split; [reflexivity|]. do 4 eexists; reflexivity. }
  intro H. exists "a.xsd", ask_schema, [pair_concept "R"; pair_concept "A"]. split; [eapply cat_ref; eauto; req_tac|].
  split; [discriminate|]. split; [left; eapply fat_ref; eauto; req_tac|]. split.
  - apply (C107_concepts_partial ask_schema (schema_struct ask_schema) "a.xsd" (Schema "a.xsd" [] [pair_concept "R"; pair_concept "A"])); try reflexivity.
    apply ask_plain.
  - destruct H as [->| ->]; (split; [|reflexivity]).
    + exists [pair_concept "R"], []. split; [reflexivity|]. split; [reflexivity|]. intros x [<-|[]]. discriminate.
    + exists [], [pair_concept "A"]. split; [reflexivity|]. split; [reflexivity|]. intros x [].
Qed.
Definition ask_folder : folder := DiscoverModel.finish "x.htm.xml" (instance_struct ask_root) (fst ask_end).
Definition ask_hydratable (doc : document) : hydratable :=
  match hydrate ex_pf plain_order (d_url ask_disk) (global_schema_file ask_disk) ex_tokens (Ok []) (Ok (Some doc)) ask_folder with
  | Ok h => h
  | _ => Hydratable ask_folder [] None [] [] [] [] [] []
  end.
Lemma ask_loaded : exists doc, knows ["nonNumeric"; "nonFraction"] ask_htm doc /\ hDocument (ask_hydratable doc) = Some doc /\
  loaded ask_disk small_dir "x.htm" false ex_pf plain_order ex_tokens (Ok []) (ask_hydratable doc).
Proof.
  destruct (decode_inline (Some ask_htm)) as [s|] eqn:E; [|discriminate E].
  destruct (proj1 C72_terminates (Some (inline_source s))) as (r&R).
  destruct (C111_facts_partial ask_htm r) as (doc&->&K).
  - exists s. auto.
  - apply ask_declared_at.
  - discriminate.
  - apply ask_conforming.
  - exists doc. split; auto. split; [vm_compute; reflexivity|]. exists ask_folder, (Ok (Some doc)). split; [|split].
    + assert (EI : entry_instance (files_of ask_disk) small_dir "x.htm" "x.htm.xml" (instance_struct ask_root)) by (apply entry_iff; eauto using ask_entry).
      apply (discover_iff _ _ _ _ _ _ _ EI). exists ask_end. split; [apply go_on_runs; constructor|]. split; [vm_compute; repeat constructor|reflexivity].
    + assert (FD : fdDocument ask_folder = option_map inline_source (decode_inline (Some ask_htm))) by (vm_compute; reflexivity).
      rewrite FD, E. exact R.
    + vm_compute. reflexivity.
Qed.
(** the fact of A is answered *)
Lemma ask_answered doc : knows ["nonNumeric"; "nonFraction"] ask_htm doc -> hDocument (ask_hydratable doc) = Some doc ->
  exists bytes, marshalled_expressable ask_outside (ask_hydratable doc) "a:A" "c" (Ok (Some bytes)).
Proof.
  intros [K1 K2] HD.
  assert (W : exists above, In (above, ix_fact "nonNumeric" "a:A" "c" []) (walk [] ask_htm)) by (eexists; simpl; do 2 right; left; reflexivity).
  destruct W as (above&W).
  assert (F : fact_element ["nonNumeric"; "nonFraction"] (ix_fact "nonNumeric" "a:A" "c" [])).
  { exists "nonNumeric". split; [now left|]. do 3 eexists; reflexivity. }
  pose proof (ask_fact _ _ "A" "c" W eq_refl) as IF.
  assert (S1 : sget "a:A" (docNames doc) = Some (XName "urn:a" "A")) by (apply K1; eauto 7).
  assert (S2 : sget "c" (docContexts doc) = Some true) by (apply K2; split; auto; eauto 8).
  set (h := ask_hydratable doc) in *.
  set (e := own_env ask_outside h). pose proof (own_env_from ask_outside h : expression_from ask_outside h e) as EF.
  assert (X : exists x, marshal_expressable e (Some doc) "a:A" "c" = Ok (Some x)).
  { unfold marshal_expressable. rewrite S1, S2. cbn [nspace nlocal]. eexists. vm_compute. reflexivity. }
  destruct X as (x&X). exists (jexpressable x), e. split; auto. rewrite HD, X. reflexivity.
Qed.
(** A fact written as a fraction is not found, although the instance reports it: the claim without
    the restriction to the two other kinds of facts is false. *)
Definition all_answered : Prop :=
  forall d dir name images pf sh tokens utr h file root data q facts w above x k n ref fa c out,
    inline_name name -> loaded d dir name images pf sh tokens utr h -> entry_at d dir root name file ->
    d_file d (PathModel.join [dir; name]) = Some data -> d_html d data = Some q ->
    well_written d dir root -> declared_at_html q -> conforming_facts q -> facts_written d dir root facts ->
    o_url w = d_url d -> o_schema w = global_schema_file d ->
    In (above, x) (walk [] q) -> fact_element all_facts x -> inline_fact_at above x k n ref ->
    fact_named (LoadSpec.declared d dir root) root facts n ref fa c ->
    marshalled_expressable w h k ref out -> exists bytes, out = Ok (Some bytes).
Lemma ask_only root file : entry_at ask_disk small_dir root "x.htm" file -> root = ask_root /\ file = "x.htm.xml".
Proof.
  intros (EF&ED&_).
  assert (F : file = "x.htm.xml").
  { destruct EF as [[_ ->]|[NI _]]; auto. exfalso. apply instance_iff in NI as [NI|NI]; discriminate NI. }
  split; auto. subst file. destruct ask_entry as (_&ED'&_). eapply document_fun; eauto.
Qed.
Lemma ask_reported : let fa := Fact "a.xsd#id_R" "f2" "c" "" (-2147483647) false "two" in
  fact_named (LoadSpec.declared ask_disk small_dir ask_root) ask_root
    [Fact "a.xsd#id_A" "f1" "c" "" (-2147483647) false "one"; fa] (XName "urn:a" "R") "c" fa (pair_concept "R").
Proof.
  cbv zeta. pose proof (ask_declares "R" (or_intror eq_refl)) as D. split; [exact D|]. split.
  - exists [Fact "a.xsd#id_A" "f1" "c" "" (-2147483647) false "one"], []. split; [reflexivity|]. split; [now split|]. intros y [<-|[]] [E _]. discriminate E.
  - exists (fact_saying "urn:a" "R" "f2" "two"). split; [simpl; auto 6|]. split; [do 3 eexists; reflexivity|].
    exists "urn:a", "R". split; [do 3 eexists; reflexivity|]. split; [discriminate|]. split; [discriminate|]. split; [eauto|].
    split; [req_tac|]. split; [apply attr_or_empty_iff; reflexivity|]. split; [apply attr_or_empty_iff; reflexivity|].
    split; [apply hydrate_precision_iff; reflexivity|]. split; [apply attr_bool_iff; reflexivity|reflexivity].
Qed.
Theorem C126_refuted : ~ all_answered.
Proof.
  intro C. destruct ask_loaded as (doc&K&HD&L). pose proof K as [K1 _].
  destruct (loaded_report _ _ _ _ _ _ _ _ _ (or_introl x_inline) L) as (file&root&i&EA&HI&R).
  pose proof (ask_only _ _ EA) as E.
  destruct E as [-> ->]. destruct (R ask_written) as (_&_&FW&_). clear R.
  assert (EI : iFacts i = [Fact "a.xsd#id_A" "f1" "c" "" (-2147483647) false "one"; Fact "a.xsd#id_R" "f2" "c" "" (-2147483647) false "two"]).
  { replace i with (snd (hd ("", i) (hInstances (ask_hydratable doc)))) by (rewrite HI; reflexivity). vm_compute. reflexivity. }
  rewrite EI in FW.
  assert (W : exists above, In (above, ix_fact "fraction" "a:R" "c" []) (walk [] ask_htm)) by (eexists; simpl; do 3 right; left; reflexivity).
  destruct W as (above&W).
  assert (NR : sget "a:R" (docNames doc) = None).
  { destruct (sget "a:R" (docNames doc)) as [n|] eqn:S; auto. exfalso. apply K1 in S as (ab&x&c&Hx&(l&Hl&N)&IF).
    destruct N as (a&j&ks&->). destruct IF as (A&_). fact_cases Hx; try (simpl in Hl; intuition discriminate).
    apply find_attr_of in A. destruct A as (?&A&?). discriminate A || (injection A; intros; subst; discriminate). }
  destruct (C _ _ _ _ _ _ _ _ _ _ _ _ _ _ ask_outside _ _ "a:R" (XName "urn:a" "R") "c" _ _ (Ok None) x_inline L EA eq_refl eq_refl
    ask_written ask_declared_at ask_conforming FW eq_refl eq_refl W
    (ex_intro _ "fraction" (conj (or_intror (or_intror (or_introl eq_refl))) (ex_intro _ _ (ex_intro _ _ (ex_intro _ _ eq_refl)))))
    (ask_fact _ _ "R" "c" W eq_refl) ask_reported) as (b&B); [|discriminate B].
  exists (own_env ask_outside (ask_hydratable doc)). split; [apply own_env_from|]. rewrite HD. unfold marshal_expressable. rewrite NR. reflexivity.
Qed.
Print Assumptions C126_refuted.

(** The hypotheses of C126 are met, with a fact that is answered. *)
Example C126_example : exists doc,
  let h := ask_hydratable doc in
  loaded ask_disk small_dir "x.htm" false ex_pf plain_order ex_tokens (Ok []) h /\ inline_name "x.htm" /\
  well_written ask_disk small_dir ask_root /\ declared_at_html ask_htm /\ conforming_facts ask_htm /\
  (exists facts contexts qe, understands ask_disk small_dir ask_root qe /\ facts_written ask_disk small_dir ask_root facts /\
     contexts_written ask_root qe (content_of qe ex_tokens (attributes ask_root)) contexts /\ simple facts contexts) /\
  exists bytes, marshalled_expressable ask_outside h "a:A" "c" (Ok (Some bytes)).
Proof.
  destruct ask_loaded as (doc&K&HD&L). exists doc. cbv zeta. split; auto. split; [apply x_inline|]. split; [exact ask_written|].
  split; [exact ask_declared_at|]. split; [exact ask_conforming|]. split; [|now apply ask_answered].
  destruct (loaded_report _ _ _ _ _ _ _ _ _ (or_introl x_inline) L) as (file&root&i&EA&HI&R).
  destruct (ask_only _ _ EA) as [-> ->]. destruct (R ask_written) as (U&_&FW&CW&_). clear R.
  eexists (iFacts i), (iContexts i), _. split; [exact U|]. split; [exact FW|]. split; [exact CW|].
  replace i with (snd (hd ("", i) (hInstances (ask_hydratable doc)))) by (rewrite HI; reflexivity).
  clear. vm_compute. split.
  - intros fa [<-|[<-|[]]]; (eexists; split; [now left|reflexivity]).
  - intros c [<-|[]]. auto.
Qed.
