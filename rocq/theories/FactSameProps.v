(** * FactSameProps: C165 (a fact looks the same whenever it is asked for) *)
From Verif Require Import GoBase GoSpec GoFacts AttrModel AttrSpec AttrProofs SchemaModel SchemaSpec SchemaProofs SchemaProps
  LinkbaseModel LinkbaseSpec LinkbaseProofs LinkbaseProps InstanceModel InstanceSpec InstanceProofs InstanceProps
  HydrateModel HydrateSpec HydrateProofs HydrateProps LabelModel LabelSpec LabelProofs LabelProps PeriodModel PeriodSpec PeriodProofs PeriodProps
  FactModel FactSpec FactProofs FactProps GridModel GridSpec GridProofs GridProps CalcModel CalcSpec CalcProofs CalcProps DefModel DefSpec DefProofs DefProps
  RenderModel RenderSpec RenderProofs RenderProps ExpressModel ExpressSpec ExpressProofs ExpressProps
  DiscoverModel DiscoverSpec DiscoverProofs DiscoverProps XmlModel XmlSpec XmlProofs XmlProps LoadModel LoadSpec LoadProofs LoadProps
  CatalogModel CatalogSpec CatalogProofs CatalogProps ReportModel ResponseModel ResponseSpec ResponseProofs ResponseProps EndToEndSpec EndToEndProps
  ReportSpec ReportProofs ReportProps AskSpec AskProps SteadySpec SteadyProofs.
Local Open Scope nat_scope.
Local Open Scope string_scope.

(** What an answer about a fact uses, as what a grid uses *)
Definition grid_like (e : xenv) : grid_env :=
  GridEnv (xe_contexts e) (xe_typed_order e) (xe_member_order e) (fun _ _ => CellEnv (xe_facts e) (xe_notes1 e) (xe_notes2 e) (xe_render e))
    (fun _ _ m => m) (fun m => m) (fun x => x).
Lemma grid_like_from w h e : expression_from w h e -> grid_from w h (grid_like e).
Proof.
  intro X. split; cbn; try apply X; intros; try apply X; auto.
Qed.
Lemma relevant_ext tree lbl cp cp' ty entity insts hrefs : (forall x, cp x = cp' x) ->
  get_relevant_contexts tree lbl cp ty entity insts hrefs = get_relevant_contexts tree lbl cp' ty entity insts hrefs.
Proof.
  intro E. unfold get_relevant_contexts. replace (factual_hrefs cp hrefs) with (factual_hrefs cp' hrefs); [reflexivity|].
  unfold factual_hrefs. induction hrefs as [|x l IH]; cbn; [reflexivity|]. rewrite E, IH. reflexivity.
Qed.
Lemma expressed_incl ref cols : incl (expressed ref cols) cols.
Proof. unfold expressed. destruct (find _ cols) as [r|] eqn:F; [|intros x []]. intros x [<-|[]]. now apply find_some in F. Qed.

(** C165: of a report with one instance, of which no concept is labelled by two linkbases and every typed member has one text: all
    computations of the answer about a fact come to the same end, and if that is an answer it has the same bytes, whatever the order
    in which maps are visited. *)
Theorem C165_same_partial : forall w h name ref o o', plain_report h ->
  marshalled_expressable w h name ref o -> marshalled_expressable w h name ref o' -> o = o'.
Proof.
  intros w h name ref o o' PR (e&X&->) (e'&X'&->). apply (f_equal (fun r => do x <- r; Ok (option_map jexpressable x))).
  unfold marshal_expressable. destruct (hDocument h) as [d|]; [|reflexivity].
  destruct (sget name (docNames d)) as [n|]; [|reflexivity]. destruct (sget ref (docContexts d)) as [b|]; [|reflexivity].
  rewrite (xf_query _ _ _ X), (xf_query _ _ _ X'). destruct (name_query _ _ _) as [found| |]; cbn [bind]; try reflexivity.
  set (href := match found with Some (x, _) => x | None => "" end).
  rewrite (visited_same _ PR _ _ (xf_facts _ _ _ X) (xf_facts _ _ _ X')). destruct (find_fact _ _ _) as [f|]; [|reflexivity].
  rewrite (visited_same _ PR _ _ (xf_first _ _ _ X) (xf_first _ _ _ X')). destruct (xe_first e') as [|i is]; [reflexivity|].
  destruct (get_context i ref) as [c|]; [|reflexivity].
  pose proof (labels_same h _ _ PR (xf_labels _ _ _ X) (xf_labels _ _ _ X')) as L.
  pose proof (grid_like_from _ _ _ X) as G. pose proof (grid_like_from _ _ _ X') as G'.
  rewrite (relevant_ext _ _ (xe_concept e) _ _ _ _ _ (xf_concept _ _ _ X)), (relevant_ext _ _ (xe_concept e') _ _ _ _ _ (xf_concept _ _ _ X')).
  rewrite (xf_tree _ _ _ X), (xf_tree _ _ _ X'), (xf_spanish _ _ _ X), (xf_spanish _ _ _ X').
  pose proof (contexts_same w h PR (grid_like e) (grid_like e') (xe_labels e) (xe_labels e') G G' L (ctxScheme c ++ "/" ++ ctxIdentifier c) [href]) as CS.
  cbn [grid_like ge_typed_order ge_instances] in CS. rewrite CS. clear CS.
  destruct (get_relevant_contexts _ _ _ _ _ _ _) as [[[[cols seg] scen] packs]| |] eqn:R; cbn [bind]; try reflexivity.
  pose proof (contexts_own w h (grid_like e') (xe_labels e') _ _ _ _ _ _ R) as OWN.
  pose proof (grid_same w h (grid_like e) (grid_like e') (xe_labels e') G G' (expressed ref cols) seg scen) as GS. cbn [grid_like ge_member_order] in GS.
  rewrite GS.
  2:{ rewrite Forall_forall in *. intros m Hm. apply OWN. apply in_flat_map in Hm as (r&Hr&Hm). apply in_flat_map. exists r. split; [eapply expressed_incl; eauto|auto]. }
  clear GS. destruct (get_member_grid _ _ _ _) as [[grid void]| |]; cbn [bind]; try reflexivity.
  destruct (pr_instance h PR) as (n0&i0&E0).
  rewrite (render_same w h (n0, i0) E0 _ _ (xf_render _ _ _ X) (xf_render _ _ _ X')). destruct (render _ _ _) as [m| |]; cbn [bind]; try reflexivity.
  rewrite (visited_same _ PR _ _ (xf_notes1 _ _ _ X) (xf_notes1 _ _ _ X')), (visited_same _ PR _ _ (xf_notes2 _ _ _ X) (xf_notes2 _ _ _ X')), L. reflexivity.
Qed.
Print Assumptions C165_same_partial.

(** Not so in general: with two label linkbases that call a concept differently, the answer shows the one or the other. *)
Definition calls_it (text : string) : label_linkbase :=
  LabelLinkbase "l.xml" [] [LabelLink "r" [Loc "a.xsd#id_A" "locA"]
     [LabelElem "labA" "http://www.xbrl.org/2003/role/label" "en-US" text]
     [LArc (S754_zero false) "http://www.xbrl.org/2003/arcrole/concept-label" "locA" "labA"]].
Definition with_labels (h : hydratable) (l : list (string * label_linkbase)) : hydratable :=
  Hydratable (hFolder h) (hRegistry h) (hDocument h) (hInstances h) (hSchemas h) l (hPresentation h) (hDefinition h) (hCalculation h).
Definition labelled_in (h : hydratable) (order : list label_linkbase) : xenv :=
  let e := own_env ask_outside h in
  XEnv (xe_first e) (xe_facts e) (xe_contexts e) (xe_notes1 e) (xe_notes2 e) (xe_query e) (get_label order) (xe_concept e) (xe_render e) (xe_tree e) (xe_spanish e)
    (xe_typed_order e) (xe_member_order e).
Lemma labelled_from h order : visited (hLabel h) order -> expression_from ask_outside h (labelled_in h order).
Proof.
  intro V. destruct (own_env_from ask_outside h). split; cbn in *; auto. intro href. exists order. auto.
Qed.
Definition two_names : list (string * label_linkbase) := [("l1.xml", calls_it "Assets"); ("l2.xml", calls_it "Property")].
Lemma ask_names doc : knows ["nonNumeric"; "nonFraction"] ask_htm doc -> sget "a:A" (docNames doc) = Some (XName "urn:a" "A") /\ sget "c" (docContexts doc) = Some true.
Proof.
  intros [K1 K2].
  assert (W : exists above, In (above, ix_fact "nonNumeric" "a:A" "c" []) (walk [] ask_htm)) by (eexists; simpl; do 2 right; left; reflexivity).
  destruct W as (above&W).
  assert (F : fact_element ["nonNumeric"; "nonFraction"] (ix_fact "nonNumeric" "a:A" "c" [])).
  { exists "nonNumeric". split; [now left|]. do 3 eexists; reflexivity. }
  pose proof (ask_fact _ _ "A" "c" W eq_refl) as IF. split; [apply K1; eauto 7|apply K2; split; auto; eauto 8].
Qed.
Theorem C165_refuted : exists w h name ref b b', (exists n i, hInstances h = [(n, i)]) /\
  marshalled_expressable w h name ref (Ok (Some b)) /\ marshalled_expressable w h name ref (Ok (Some b')) /\ b <> b'.
Proof.
  destruct ask_loaded as (doc&K&HD&L). destruct (ask_names doc K) as [S1 S2].
  set (h := with_labels (ask_hydratable doc) two_names).
  set (e := labelled_in h [calls_it "Assets"; calls_it "Property"]). set (e' := labelled_in h [calls_it "Property"; calls_it "Assets"]).
  assert (X : expression_from ask_outside h e) by (apply labelled_from; apply Permutation_refl).
  assert (X' : expression_from ask_outside h e') by (apply labelled_from; apply perm_swap).
  assert (A : exists x x', marshal_expressable e (Some doc) "a:A" "c" = Ok (Some x) /\ marshal_expressable e' (Some doc) "a:A" "c" = Ok (Some x') /\ jexpressable x <> jexpressable x').
  { unfold marshal_expressable. rewrite S1, S2. cbn [nspace nlocal]. do 2 eexists. split; [vm_compute; reflexivity|]. split; [vm_compute; reflexivity|]. vm_compute. discriminate. }
  destruct A as (x&x'&A&A'&N). exists ask_outside, h, "a:A", "c", (jexpressable x), (jexpressable x').
  assert (HD' : hDocument h = Some doc) by exact HD. split; [|split; [|split; [|exact N]]].
  - assert (I : length (hInstances h) = 1) by (vm_compute; reflexivity). destruct (hInstances h) as [|[n i] [|]]; try discriminate I. eauto.
  - exists e. split; [exact X|]. rewrite HD', A. reflexivity.
  - exists e'. split; [exact X'|]. rewrite HD', A'. reflexivity.
Qed.
Print Assumptions C165_refuted.

(** A report to which the theorem applies, with a fact that is answered *)
Example C165_example : exists h b, plain_report h /\ marshalled_expressable ask_outside h "a:A" "c" (Ok (Some b)).
Proof.
  destruct ask_loaded as (doc&K&HD&L). destruct (ask_answered doc K HD) as (b&M). exists (ask_hydratable doc), b. split; [|exact M]. split.
  - assert (I : length (hInstances (ask_hydratable doc)) = 1) by (vm_compute; reflexivity). destruct (hInstances _) as [|[n i] [|]]; try discriminate I. eauto.
  - intro href. assert (E : hLabel (ask_hydratable doc) = []) by (vm_compute; reflexivity). rewrite E. constructor.
  - assert (E : forall n i, In (n, i) (hInstances (ask_hydratable doc)) -> Forall (fun c => dcTyped (ctxSegment c) ++ dcTyped (ctxScenario c) = [])%list (iContexts i)).
    { vm_compute. intros n i [X|[]]. injection X as <- <-. repeat constructor. }
    intros n i c t I C T. specialize (E n i I). rewrite Forall_forall in E. rewrite (E c C) in T. destruct T.
Qed.
