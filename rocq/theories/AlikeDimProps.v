(** * AlikeDimProps: the dimensions, calculations and footnotes of C149, for two servers, or for one before and after a restart *)
From Verif Require Import DimNetSpec DimNetProps.
From Verif Require Import GoBase GoSpec GoFacts AttrModel AttrSpec AttrProofs SchemaModel SchemaSpec SchemaProofs SchemaProps
  LinkbaseModel LinkbaseSpec LinkbaseProofs LinkbaseProps InstanceModel InstanceSpec InstanceProofs InstanceProps
  HydrateModel HydrateSpec HydrateProofs HydrateProps LabelModel LabelSpec LabelProofs LabelProps PeriodModel PeriodSpec PeriodProofs PeriodProps
  FactModel FactSpec FactProofs FactProps GridModel GridSpec GridProofs GridProps CalcModel CalcSpec CalcProofs CalcProps DefModel DefSpec DefProofs DefProps
  RenderModel RenderSpec RenderProofs RenderProps ExpressModel ExpressSpec ExpressProofs ExpressProps
  DiscoverModel DiscoverSpec DiscoverProofs DiscoverProps XmlModel XmlSpec XmlProofs XmlProps LoadModel LoadSpec LoadProofs LoadProps
  CatalogModel CatalogSpec CatalogProofs CatalogProps ReportModel ResponseModel ResponseSpec ResponseProofs ResponseProps EndToEndSpec EndToEndProps
  ReportSpec ReportProofs ReportProps NetworkSpec NetworkProps AskSpec AskProps ColumnProps SteadySpec SteadyProofs SteadyProps SteadyCalcSpec SteadyCalcProps
  ImageModel ImageSpec ImageProofs ImageProps WebModel WebSpec WebProofs WebProps PathSpec RouterModel RouterSpec RouterProofs RouterProps.
From Verif Require CacheModel CacheSpec CacheProofs CacheProps.
From Verif Require Import ServerModel ServerSpec ServerProps ServedProps DocNameProps InertProps FactSameProps SameProofs SameProps AlikeProofs AlikeProps AlikeNetProps.
Local Open Scope nat_scope.
Local Open Scope string_scope.

Lemma locator_fun {A} role (lb lb' : linkbase A) : links_alike lb lb' -> map_locator_to_href role lb = map_locator_to_href role lb'.
Proof.
  intros (R&N&P). unfold map_locator_to_href. rewrite R. rewrite (locs_one role (lbLinks lb)) by auto.
  rewrite (locs_one role (lbLinks lb')) by (eapply Permutation_NoDup; [apply Permutation_map, P|exact N]). rewrite (find_links role _ _ N P). reflexivity.
Qed.
Lemma filter_one {A} role (l : list (link A)) : NoDup (map lRole l) ->
  filter (fun k => String.eqb (lRole k) role) l = match find (fun x => String.eqb (lRole x) role) l with Some k => [k] | None => [] end.
Proof.
  induction l as [|x l IH]; cbn; intro N; auto. inversion N as [|? ? N1 N2]; subst. destruct (String.eqb (lRole x) role) eqn:Q; [|apply IH; auto].
  apply String.eqb_eq in Q. rewrite IH by auto. destruct (find _ l) as [k|] eqn:F; [|reflexivity].
  apply find_some in F as [I E]. apply String.eqb_eq in E. elim N1. rewrite Q, <- E. now apply in_map.
Qed.
Lemma role_links_alike {A} role (lb lb' : linkbase A) : links_alike lb lb' -> role_links role lb = role_links role lb'.
Proof.
  intros (R&N&P). unfold role_links. rewrite R, filter_one, filter_one, (find_links role _ _ N P); auto.
  eapply Permutation_NoDup; [apply Permutation_map, P|exact N].
Qed.
Lemma first_alike {A} role (lbs lbs' : list (linkbase A)) : Forall2 links_alike lbs lbs' ->
  match first_link role lbs, first_link role lbs' with
  | Some (lb, k), Some (lb', k') => links_alike lb lb' /\ k = k'
  | None, None => True
  | _, _ => False
  end.
Proof.
  induction 1 as [|lb lb' lbs lbs' X F IH]; cbn [first_link]; auto. pose proof X as (R&N&P).
  rewrite <- R, <- (find_links role _ _ N P). destruct (existsb _ _); [|exact IH]. destruct (find _ _); [|exact IH]. auto.
Qed.

(** ** Sums *)
Lemma c_map_alike role lb lb' arcs : links_alike lb lb' -> c_map role lb arcs = c_map role lb' arcs.
Proof. intro X. unfold c_map, add_arc, c_struct_of. rewrite (locator_fun role lb lb' X). reflexivity. Qed.
Lemma source_ext tree lbl cp cp' genv entity cmap st fs : (forall x, cp x = cp' x) ->
  c_source tree lbl cp genv entity cmap st fs = c_source tree lbl cp' genv entity cmap st fs.
Proof.
  intro E. unfold c_source. destruct fs as [from slice]. cbv zeta.
  rewrite (collect_ext (contributing_of lbl cp cmap) (contributing_of lbl cp' cmap)) by (intro x; unfold contributing_of; now rewrite E).
  rewrite (relevant_ext _ _ cp cp') by exact E. rewrite E. reflexivity.
Qed.
Lemma items_alike tree lbl cp cp' genv entity order role lbs lbs' : (forall x, cp x = cp' x) -> Forall2 links_alike lbs lbs' ->
  get_summation_items tree lbl cp genv entity order role lbs = get_summation_items tree lbl cp' genv entity order role lbs'.
Proof.
  intros E F. unfold get_summation_items. rewrite !calc_link_eq by (intros ? []). pose proof (first_alike role _ _ F) as X.
  destruct (first_link role lbs) as [[lb k]|], (first_link role lbs') as [[lb' k']|]; try contradiction; auto. destruct X as [X <-].
  cbv zeta. rewrite (c_map_alike role lb lb' _ X). rewrite (foldM_ext _ (c_source tree lbl cp' genv entity (c_map role lb' (lArcs k)))); [reflexivity|].
  intros st fs _. now apply source_ext.
Qed.
Lemma linked_alike role lbs lbs' : Forall2 links_alike lbs lbs' -> linked role lbs = linked role lbs'.
Proof.
  intro F. unfold linked. rewrite !calc_link_eq by (intros ? []). pose proof (first_alike role _ _ F) as X.
  destruct (first_link role lbs) as [[lb k]|], (first_link role lbs') as [[lb' k']|]; try contradiction; auto.
Qed.
Lemma linked_any role lbs lbs' : Permutation lbs lbs' -> linked role lbs = linked role lbs'.
Proof.
  intro P. apply eq_true_iff_eq. rewrite !linked_iff. split; intros (lb&I&H); exists lb; (split; [|exact H]); [exact (Permutation_in _ P I)|exact (Permutation_in _ (Permutation_sym P) I)].
Qed.

(** ** Dimensions *)
Lemma hrefs_alike role arcs lbs lbs' : Forall2 links_alike lbs lbs' -> dimension_hrefs role arcs lbs = dimension_hrefs role arcs lbs'.
Proof.
  intro F. unfold dimension_hrefs. f_equal. induction F as [|lb lb' lbs lbs' X F IH]; cbn [flat_map]; auto.
  rewrite IH, (locator_fun role lb lb' X). reflexivity.
Qed.
Lemma root_alike tree lbl cp cp' genv entity role lb lb' nw dims st root : (forall x, cp x = cp' x) -> links_alike lb lb' ->
  d_root tree lbl cp genv entity role lb nw dims st root = d_root tree lbl cp' genv entity role lb' nw dims st root.
Proof.
  intros E X. unfold d_root. rewrite (locator_fun role lb lb' X). cbv zeta. destruct (get_effective_domain_grid _ _ _ _ _) as [a b].
  rewrite (relevant_ext _ _ cp cp') by exact E. reflexivity.
Qed.
Lemma link_alike tree lbl cp cp' genv dims dims' entity role lb lb' st k : (forall x, cp x = cp' x) -> links_alike lb lb' ->
  Forall2 links_alike (dims lb k) (dims' lb' k) ->
  d_link tree lbl cp genv dims entity role lb st k = d_link tree lbl cp' genv dims' entity role lb' st k.
Proof.
  intros E X D. unfold d_link. rewrite (hrefs_alike role _ _ _ D). cbv zeta. destruct (ge_destruct _ _) as [rs ls]. destruct (link_networks _ _) as [pr nw].
  apply foldM_ext. intros st' root _. now apply root_alike.
Qed.
Lemma roots_alike tree lbl cp cp' genv dims dims' entity role lbs lbs' : (forall x, cp x = cp' x) -> Forall2 links_alike lbs lbs' ->
  (forall lb lb' k, In lb lbs -> In lb' lbs' -> Forall2 links_alike (dims lb k) (dims' lb' k)) ->
  get_root_domains tree lbl cp genv dims entity role lbs = get_root_domains tree lbl cp' genv dims' entity role lbs'.
Proof.
  intros E F D. unfold get_root_domains. f_equal. generalize (DState [] [] [] []).
  induction F as [|lb lb' lbs lbs' X F IH]; intro st; cbn [foldM]; [reflexivity|].
  rewrite (role_links_alike role lb lb' X).
  rewrite (foldM_ext _ (d_link tree lbl cp' genv dims' entity role lb')).
  - destruct (foldM _ _ st) as [st'| |]; cbn [bind]; auto. apply IH. intros a b k I J. apply D; now right.
  - intros st' k _. apply link_alike; auto. apply D; now left.
Qed.
Lemma drs_alike fo lbl role order lbs lbs' : Forall2 links_alike lbs lbs' -> get_drs fo lbl role order lbs = get_drs fo lbl role order lbs'.
Proof.
  intro F. unfold get_drs. cbv zeta. replace (drs_links fo role lbs) with (drs_links fo role lbs'); [reflexivity|].
  unfold drs_links. induction F as [|lb lb' lbs lbs' X F IH]; cbn [flat_map]; auto. rewrite IH, (role_links_alike role lb lb' X). f_equal.
  apply flat_map_ext. intro k. apply map_ext. intro a. unfold drs_link_of. rewrite (locator_fun role lb lb' X), (locator_fun (daTargetRole a) lb lb' X). reflexivity.
Qed.

(** ** Two loads *)
Section Networks.
  Variables (d : disk) (dir name : string) (images images' : bool) (pf : string -> f64 * bool) (sh sh' : shuffles) (tokens : string -> list token) (utr : res registry).
  Variables (w : outside) (h h' : hydratable).
  Hypothesis S : supported name.
  Hypothesis O : orders sh.
  Hypothesis O' : orders sh'.
  Hypothesis L : loaded d dir name images pf sh tokens utr h.
  Hypothesis L' : loaded d dir name images' pf sh' tokens utr h'.
  Hypothesis ONE : forall file root ns, entry_at d dir root name file -> one_claim d dir root ns.
  Lemma definitions_alike order : visited (hDefinition h) order -> exists order', visited (hDefinition h') order' /\ Forall2 links_alike order order'.
  Proof.
    pose proof L as (fd0&doc0&D&_&H0). pose proof L' as (fd0'&doc0'&D'&_&H0').
    destruct (C102_instance_partial _ _ _ _ _ S D) as (fl&i&EI&_). destruct (C102_instance_partial _ _ _ _ _ S D') as (fl'&i'&EI'&_).
    destruct (outcome_exact _ _ _ _ _ _ _ EI D) as (_&K&_&_&_&_&M). destruct (outcome_exact _ _ _ _ _ _ _ EI' D') as (_&K'&_&_&_&_&M').
    apply entry_iff in EI as (root&EA&->). apply entry_iff in EI' as (root'&EA'&->).
    assert (root' = root) as -> by (eapply entry_root; [exact EA|exact EA']).
    apply C79_complete in H0 as (_&_&_&HP&_). apply C79_complete in H0' as (_&_&_&HP'&_).
    eapply loaded_alike; [|apply NoDup_Permutation; [exact (NoDup_map_inv _ _ (M Definitional))|exact (NoDup_map_inv _ _ (M' Definitional))|intros [x l]; rewrite (K Definitional), (K' Definitional); reflexivity]|exact HP|exact HP'].
    intros a k b b'. unfold hydrate_linkbase. destruct (negb _); [discriminate|]. intros [= <-] [= <-]. split; [reflexivity|]. cbn [lbLinks].
    split; [apply (C48_merge _ (shD sh k)); intro; apply O|apply C48_order_irrelevant; intro; [apply O|apply O']].
  Qed.
  Lemma calculations_alike order : visited (hCalculation h) order -> exists order', visited (hCalculation h') order' /\ Forall2 links_alike order order'.
  Proof.
    pose proof L as (fd0&doc0&D&_&H0). pose proof L' as (fd0'&doc0'&D'&_&H0').
    destruct (C102_instance_partial _ _ _ _ _ S D) as (fl&i&EI&_). destruct (C102_instance_partial _ _ _ _ _ S D') as (fl'&i'&EI'&_).
    destruct (outcome_exact _ _ _ _ _ _ _ EI D) as (_&K&_&_&_&_&M). destruct (outcome_exact _ _ _ _ _ _ _ EI' D') as (_&K'&_&_&_&_&M').
    apply entry_iff in EI as (root&EA&->). apply entry_iff in EI' as (root'&EA'&->).
    assert (root' = root) as -> by (eapply entry_root; [exact EA|exact EA']).
    apply C79_complete in H0 as (_&_&_&_&HP&_). apply C79_complete in H0' as (_&_&_&_&HP'&_).
    eapply loaded_alike; [|apply NoDup_Permutation; [exact (NoDup_map_inv _ _ (M Calculation))|exact (NoDup_map_inv _ _ (M' Calculation))|intros [x l]; rewrite (K Calculation), (K' Calculation); reflexivity]|exact HP|exact HP'].
    intros a k b b'. unfold hydrate_linkbase. destruct (negb _); [discriminate|]. intros [= <-] [= <-]. split; [reflexivity|]. cbn [lbLinks].
    split; [apply (C48_merge _ (shC sh k)); intro; apply O|apply C48_order_irrelevant; intro; [apply O|apply O']].
  Qed.
  Lemma grid_transfer g : grid_from w h g -> grid_from w h' g.
  Proof.
    destruct (loads_alike _ _ _ _ _ _ _ _ _ _ _ _ S L L' ONE) as (AL&I&_&_).
    intros [G1 G2 G3 G4 G5 G6 G7 G8 G9 G10]. split; try rewrite I; auto. intros i j. eapply render_transfer; [apply AL|exact I|apply G7].
  Qed.
  Lemma concepts_transfer x : concept_for w h x = concept_for w h' x.
  Proof. destruct (loads_alike _ _ _ _ _ _ _ _ _ _ _ _ S L L' ONE) as (AL&_&_&_). apply concept_transfer, AL. Qed.
  Lemma names_transfer lbl : labels_from h lbl -> labels_from h' lbl.
  Proof. pose proof (loads_labels _ _ _ _ _ _ _ _ _ _ _ _ S L L' ONE) as P. eapply labels_transfer; eauto. Qed.
  Lemma calculation_transfer entity role c : c_grids w h entity role c -> c_grids w h' entity role c.
  Proof.
    intros (lbl&g&o&lbs&F&G&P&V&->). destruct (calculations_alike lbs V) as (lbs'&V'&A). exists lbl, g, o, lbs'.
    split; [now apply names_transfer|]. split; [intro; now apply grid_transfer|]. split; [exact P|]. split; [exact V'|].
    apply items_alike; [apply concepts_transfer|exact A].
  Qed.
  Lemma linked_transfer role : linked role (map snd (hCalculation h)) = linked role (map snd (hCalculation h')).
  Proof.
    destruct (calculations_alike _ (Permutation_refl _)) as (lbs'&V'&A). rewrite (linked_alike role _ _ A). now apply linked_any.
  Qed.
  Lemma dimension_transfer entity role g : length (hDefinition h) <= 1 -> d_grids w h entity role g -> d_grids w h' entity role g.
  Proof.
    intros M (lbl&ge&dims&o&lbs&lbs2&F&G&DO&P&V&V2&->). rewrite <- (map_length snd) in M.
    assert (U : forall o, visited (hDefinition h) o -> o = map snd (hDefinition h)) by (intros x Vo; apply short_perm; auto).
    rewrite (U _ V), (U _ V2). destruct (definitions_alike _ (Permutation_refl _)) as (lbs'&V'&A).
    exists lbl, ge, (fun _ _ => lbs'), o, lbs', lbs'. split; [now apply names_transfer|]. split; [intro; now apply grid_transfer|].
    do 2 (split; [auto|]). do 2 (split; [exact V'|]). unfold d_grid_of.
    rewrite (roots_alike _ _ _ (concept_for w h') _ dims (fun _ _ => lbs') _ _ _ lbs'); [|apply concepts_transfer|exact A|intros lb lb' k _ _; now rewrite (U _ (DO lb k))].
    now rewrite (drs_alike _ _ _ _ _ _ A).
  Qed.
  Lemma definitions_length : length (hDefinition h) = length (hDefinition h').
  Proof.
    destruct (definitions_alike _ (Permutation_refl _)) as (lbs'&V'&A). apply two_length in A. rewrite (Permutation_length V'), !map_length in A. exact A.
  Qed.
End Networks.

(** C149, for two loads of one folder in which every namespace has one document: two answers for one network show the same dimensions, ... *)
Theorem C149_dimensions_loads_partial : forall d w dir name images images' pf sh sh' tokens utr h h' slug b1 b2, supported name -> orders sh -> orders sh' ->
  loaded d dir name images pf sh tokens utr h -> loaded d dir name images' pf sh' tokens utr h' ->
  (forall file root ns, entry_at d dir root name file -> one_claim d dir root ns) -> plain_report h -> length (hDefinition h) <= 1 ->
  marshalled_renderable w h slug (Ok (Some b1)) -> marshalled_renderable w h' slug (Ok (Some b2)) ->
  exists v1 v2 roots g, reads_as b1 v1 /\ reads_as b2 v2 /\ definition_of roots g v1 /\ definition_of roots g v2.
Proof.
  intros d w dir name images images' pf sh sh' tokens utr h h' slug b1 b2 S O O' L L' ONE PR A M1 M2.
  destruct (loads_alike _ _ _ _ _ _ _ _ _ _ _ _ S L L' ONE) as (AL&I&_&_). pose proof (loads_labels _ _ _ _ _ _ _ _ _ _ _ _ S L L' ONE) as PL.
  pose proof (plain_transfer h h' I PL PR) as PR'.
  destruct (answered w h slug b1 PR M1) as (e&r&nm&p&dg&v1&F&Q&J1&S1&R1&P1&D1&VP1&VD1).
  destruct (answered w h' slug b2 PR' M2) as (e'&r'&nm'&p'&dg'&v2&F'&Q'&J2&S2&R2&P2&D2&VP2&VD2).
  unfold own_insts in F, F'.
  rewrite (same_entities _ _ _ _ _ _ _ _ _ _ _ _ L' L _ _ (Permutation_refl _) (Permutation_refl _)),
    (same_roles _ _ _ _ _ _ _ _ _ _ _ _ L' L _ _ (Permutation_refl _) (Permutation_refl _)) in F'.
  rewrite F in F'. injection F' as <- <-.
  apply (dimension_transfer d dir name images' images pf sh' sh tokens utr w h' h S O' O L' L ONE) in D2;
    [|rewrite <- (definitions_length d dir name images images' pf sh sh' tokens utr h h' S O O' L L'); exact A].
  pose proof (d_same w h (stringify e) (rsRole r) dg dg' PR A D1 D2) as SM.
  assert (G : Forall2 same_root (dgRootDomains (grid_or zero_d dg)) (dgRootDomains (grid_or zero_d dg')) /\ dgDRS (grid_or zero_d dg) = dgDRS (grid_or zero_d dg')).
  { unfold same_d, both in SM. destruct dg as [[[g rs] ls]| |], dg' as [[[g' rs'] ls']| |]; cbn in *; try contradiction; auto. }
  destruct G as [G1 G2]. exists v1, v2, (map with_periods (dgRootDomains (grid_or zero_d dg))), (dgDRS (grid_or zero_d dg)). split; [exact J1|]. split; [exact J2|]. split; [exact VD1|].
  rewrite <- G2 in VD2. eapply the_member_impl; [|exact VD2]. intros u (A1&B). split; [|exact B].
  eapply the_member_impl; [|exact A1]. intros x. now apply same_list.
Qed.
Print Assumptions C149_dimensions_loads_partial.

(** ... the same sums, ... *)
Theorem C149_calculation_loads_partial : forall d w dir name images images' pf sh sh' tokens utr h h' slug b1 b2, supported name -> orders sh -> orders sh' ->
  loaded d dir name images pf sh tokens utr h -> loaded d dir name images' pf sh' tokens utr h' ->
  (forall file root ns, entry_at d dir root name file -> one_claim d dir root ns) -> plain_report h ->
  (forall role, SteadySpec.at_most_one (draws role) (map snd (hCalculation h))) ->
  marshalled_renderable w h slug (Ok (Some b1)) -> marshalled_renderable w h' slug (Ok (Some b2)) ->
  exists v1 v2 sums1 sums2, reads_as b1 v1 /\ reads_as b2 v2 /\ calculation_of sums1 v1 /\ calculation_of sums2 v2 /\ same_sums sums1 sums2.
Proof.
  intros d w dir name images images' pf sh sh' tokens utr h h' slug b1 b2 S O O' L L' ONE PR A M1 M2.
  destruct (calculated w h slug b1 M1) as (e&r&c&v1&F&J1&R1&C1&V1).
  destruct (calculated w h' slug b2 M2) as (e'&r'&c'&v2&F'&J2&R2&C2&V2).
  unfold own_insts in F, F'.
  rewrite (same_entities _ _ _ _ _ _ _ _ _ _ _ _ L' L _ _ (Permutation_refl _) (Permutation_refl _)),
    (same_roles _ _ _ _ _ _ _ _ _ _ _ _ L' L _ _ (Permutation_refl _) (Permutation_refl _)) in F'.
  rewrite F in F'. injection F' as <- <-.
  apply (calculation_transfer d dir name images' images pf sh' sh tokens utr w h' h S O' O L' L ONE) in C2.
  rewrite <- (linked_transfer d dir name images images' pf sh sh' tokens utr h h' S O O' L L') in V2.
  exists v1, v2. do 2 eexists. split; [exact J1|]. split; [exact J2|]. split; [exact V1|]. split; [exact V2|].
  pose proof (c_same w h (stringify e) (rsRole r) c c' PR (A _) C1 C2) as SM.
  destruct (linked _ _); cbn; auto.
  assert (X : Forall2 alike_item (grid_or [] c) (grid_or [] c')) by (destruct c as [[[? ?] ?]| |], c' as [[[? ?] ?]| |]; cbn in *; try contradiction; auto).
  clear - X. induction X as [|s s' l l' (E1&E2&E3&E4&E5&E6&E7&E8&E9) X IH]; cbn [map]; constructor; auto.
  unfold same_sum, timed. cbn [fst snd]. rewrite E4. auto 12.
Qed.
Print Assumptions C149_calculation_loads_partial.

(** ... and the same footnotes, up to their order. *)
Theorem C149_footnotes_loads_partial : forall d w dir name images images' pf sh sh' tokens utr h h' slug b1 b2, supported name -> orders sh -> orders sh' ->
  loaded d dir name images pf sh tokens utr h -> loaded d dir name images' pf sh' tokens utr h' ->
  (forall file root ns, entry_at d dir root name file -> one_claim d dir root ns) -> plain_report h ->
  marshalled_renderable w h slug (Ok (Some b1)) -> marshalled_renderable w h' slug (Ok (Some b2)) ->
  exists v1 v2, reads_as b1 v1 /\ reads_as b2 v2 /\
    ((forall role, SteadySpec.at_most_one (draws role) (map snd (hPresentation h))) ->
       exists grid1 grid2 notes1 notes2, presentation_notes grid1 notes1 v1 /\ presentation_notes grid2 notes2 v2 /\
         same_notes grid1 grid2 notes1 notes2) /\
    (length (hDefinition h) <= 1 ->
       exists roots1 roots2, dimension_notes roots1 v1 /\ dimension_notes roots2 v2 /\
         Forall2 (fun n1 n2 => same_notes (fst n1) (fst n2) (snd n1) (snd n2)) roots1 roots2).
Proof.
  intros d w dir name images images' pf sh sh' tokens utr h h' slug b1 b2 S O O' L L' ONE PR M1 M2.
  destruct (presented w h slug b1 M1) as (e&r&p&dg&v1&F&J1&R1&P1&D1&V1&W1).
  destruct (presented w h' slug b2 M2) as (e'&r'&p'&dg'&v2&F'&J2&R2&P2&D2&V2&W2).
  unfold own_insts in F, F'.
  rewrite (same_entities _ _ _ _ _ _ _ _ _ _ _ _ L' L _ _ (Permutation_refl _) (Permutation_refl _)),
    (same_roles _ _ _ _ _ _ _ _ _ _ _ _ L' L _ _ (Permutation_refl _) (Permutation_refl _)) in F'.
  rewrite F in F'. injection F' as <- <-. exists v1, v2. split; [exact J1|]. split; [exact J2|]. split.
  - intro A. do 4 eexists. split; [exact V1|]. split; [exact V2|].
    pose proof (presentation_transfer d dir name images' images pf sh' sh tokens utr w h' h S O' O L' L ONE _ _ _ P2) as P2'.
    pose proof (p_same w h (stringify e) (rsRole r) p p' PR (A _) P1 P2') as SM.
    destruct p as [[[g rs] ls]| |], p' as [[[g' rs'] ls']| |]; cbn in SM |- *; try contradiction; try (repeat split; constructor).
    exact (p_notes w h _ _ _ _ _ _ _ _ PR (A _) P1 P2').
  - intro A. do 2 eexists. split; [exact W1|]. split; [exact W2|].
    apply (dimension_transfer d dir name images' images pf sh' sh tokens utr w h' h S O' O L' L ONE) in D2;
      [|rewrite <- (definitions_length d dir name images images' pf sh sh' tokens utr h h' S O O' L L'); exact A].
    pose proof (d_same w h (stringify e) (rsRole r) dg dg' PR A D1 D2) as SM.
    assert (X : Forall2 same_root (dgRootDomains (grid_or zero_d dg)) (dgRootDomains (grid_or zero_d dg'))).
    { destruct dg as [[[g rs] ls]| |], dg' as [[[g' rs'] ls']| |]; cbn in SM |- *; try contradiction; try apply SM; constructor. }
    clear - X. induction X as [|x y l l' (_&_&_&_&_&_&_&_&_&N) X IH]; cbn [map]; constructor; auto.
Qed.
Print Assumptions C149_footnotes_loads_partial.

(** ... and for what servers send: two servers, or one before and after a restart, whatever they were asked before. *)
Lemma reads_one t v v' : reads_as t v -> reads_as t v' -> v = v'.
Proof. intros [J _] [_ U]. now apply U. Qed.
Theorem C149_grids_served_partial : forall w detect detect' files files' s s' id slug query query' p p', history w s -> history w s' -> entry_name_ok id ->
  entry_name_ok slug -> slug <> "facts" -> ~ (entry_named w id slug /\ inline_name slug) ->
  (forall name h, report_of w id name h -> plain_report h /\ length (hDefinition h) <= 1 /\
     (forall role, SteadySpec.at_most_one (draws role) (map snd (hPresentation h))) /\
     (forall role, SteadySpec.at_most_one (draws role) (map snd (hCalculation h)))) ->
  (forall name file root ns, entry_named w id name -> entry_at (w_disk w) (folder_at w id) root name file -> one_claim (w_disk w) (folder_at w id) root ns) ->
  exchanged detect files s "GET" ("/folders/" ++ id ++ "/" ++ slug) query (Answer (Some p)) -> status p = 200 -> body p <> "" ->
  exchanged detect' files' s' "GET" ("/folders/" ++ id ++ "/" ++ slug) query' (Answer (Some p')) -> status p' = 200 -> body p' <> "" ->
  exists v v', reads_as (body p) v /\ reads_as (body p') v' /\
    (exists rows members void facts periods, presentation_of rows members void facts periods v /\ presentation_of rows members void facts periods v') /\
    (exists roots g, definition_of roots g v /\ definition_of roots g v') /\
    (exists sums sums', calculation_of sums v /\ calculation_of sums' v' /\ same_sums sums sums') /\
    (exists grid grid' notes notes', presentation_notes grid notes v /\ presentation_notes grid' notes' v' /\ same_notes grid grid' notes notes') /\
    (exists roots roots', dimension_notes roots v /\ dimension_notes roots' v' /\
       Forall2 (fun n n' => same_notes (fst n) (fst n') (snd n) (snd n')) roots roots').
Proof.
  intros w detect detect' files files' s s' id slug query query' p p' H H' I J NF NI PR ONE X ST B X' ST' B'.
  destruct (network_sent _ _ _ _ _ _ _ _ H I J NF X ST B) as (name&h&R&M). destruct (network_sent _ _ _ _ _ _ _ _ H' I J NF X' ST' B') as (name'&h'&R'&M').
  pose proof R as [N (im&sh&O&L)]. pose proof R' as [N' (im'&sh'&O'&L')].
  destruct M as [(->&IN&_)|[S M]]; [elim NI; auto|]. destruct M' as [(->&IN&_)|[_ M']]; [elim NI; auto|].
  assert (name' = name) as -> by (eapply one_name; [exact N|exact N']). destruct (PR _ _ R) as (PR0&DL&AP&AC).
  pose proof (fun file root ns => ONE name file root ns N) as ONE0.
  destruct (C149_loads_partial _ _ _ _ _ _ _ _ _ _ _ _ _ _ _ _ S O O' L L' ONE0 PR0 M M') as (sj&r&v&v'&J1&J2&_&_&K).
  destruct (C149_dimensions_loads_partial _ _ _ _ _ _ _ _ _ _ _ _ _ _ _ _ S O O' L L' ONE0 PR0 DL M M') as (v2&v2'&roots&g&A1&A2&A3&A4).
  destruct (C149_calculation_loads_partial _ _ _ _ _ _ _ _ _ _ _ _ _ _ _ _ S O O' L L' ONE0 PR0 AC M M') as (v3&v3'&su&su'&B1&B2&B3&B4&B5).
  destruct (C149_footnotes_loads_partial _ _ _ _ _ _ _ _ _ _ _ _ _ _ _ _ S O O' L L' ONE0 PR0 M M') as (v4&v4'&C1&C2&C3&C4).
  rewrite (reads_one _ _ _ A1 J1) in *. rewrite (reads_one _ _ _ A2 J2) in *. rewrite (reads_one _ _ _ B1 J1) in *. rewrite (reads_one _ _ _ B2 J2) in *.
  rewrite (reads_one _ _ _ C1 J1) in *. rewrite (reads_one _ _ _ C2 J2) in *.
  exists v, v'. split; [exact J1|]. split; [exact J2|]. split; [exact (K (AP _))|]. split; [eauto|]. split; [eauto|]. split; [exact (C3 AP)|exact (C4 DL)].
Qed.
Print Assumptions C149_grids_served_partial.

(** ** A folder of which all this speaks: a row, a cube, a sum and a footnote *)
Definition whole_root : tree := xi "xbrl" [XAttr (XName "xmlns" "a") "urn:a"; XAttr (XName "xmlns" "t") "urn:a"]
  [schema_ref_to "a.xsd"; a_context; member_context; fact_in "c" "f1" "one"; fact_in "m" "f2" "two"; noted_links].
Definition whole_schema : tree := schema_tree "urn:a"
  [xs "annotation" [] [xs "appinfo" [] [linkbase_ref_to "presentation" "pre.xml"; linkbase_ref_to "definition" "def.xml"; linkbase_ref_to "calculation" "cal.xml";
     a_role "r" [lk "definition" [] [txt "010 - Cover"]]]];
   concept_tree "R"; concept_tree "A"; concept_tree "B"; concept_tree "H"; concept_tree "D"; concept_tree "M"; concept_tree "N"; concept_tree "E"].
Definition whole_disk : disk := small_disk [(in_dir "x.xml", whole_root); (in_dir "a.xsd", whole_schema);
  (in_dir "pre.xml", pair_links); (in_dir "def.xml", cubes_links); (in_dir "cal.xml", halves_sum)].
Definition whole_end : state := go_on (files_of whole_disk) small_dir 60
  (schema_ref (files_of whole_disk) small_dir (first_folder (files_of whole_disk) small_dir "x.xml") (instance_struct whole_root)).
Definition whole_folder : folder := DiscoverModel.finish "x.xml" (instance_struct whole_root) (fst whole_end).
Definition whole_report : hydratable :=
  match hydrate ex_pf plain_order (d_url whole_disk) (global_schema_file whole_disk) ex_tokens (Ok []) (Ok None) whole_folder with
  | Ok h => h | _ => Hydratable whole_folder [] None [] [] [] [] [] [] end.
Definition whole_outside : outside :=
  Outside (d_url whole_disk) (global_schema_file whole_disk) (Ok []) (Ok []) sample_tree (fun _ => []) (fun _ _ _ => None) (fun _ => None) (fun _ => "") (fun _ => None).
Lemma whole_entry : entry_at whole_disk small_dir whole_root "x.xml" "x.xml".
Proof. apply small_entry_at; [reflexivity|do 4 eexists; reflexivity]. Qed.
Lemma whole_loaded : loaded whole_disk small_dir "x.xml" false ex_pf plain_order ex_tokens (Ok []) whole_report.
Proof.
  exists whole_folder, (Ok None). split; [|split; [vm_compute; constructor|vm_compute; reflexivity]].
  assert (EI : entry_instance (files_of whole_disk) small_dir "x.xml" "x.xml" (instance_struct whole_root)) by (apply entry_iff; eauto using whole_entry).
  apply (discover_iff _ _ _ _ _ _ _ EI). exists whole_end. split; [apply go_on_runs; constructor|]. split; [vm_compute; repeat constructor|reflexivity].
Qed.
Lemma whole_plain_report : plain_report whole_report.
Proof.
  split.
  - assert (E : length (hInstances whole_report) = 1) by (vm_compute; reflexivity). destruct (hInstances whole_report) as [|[n i] [|? ?]]; try discriminate E. eauto.
  - intro href. assert (E : length (map snd (hLabel whole_report)) = 0) by (vm_compute; reflexivity). destruct (map snd (hLabel whole_report)) as [|x ?]; try discriminate E.
    constructor.
  - intros n i c t I C T.
    assert (E : forallb (fun x => forallb (fun c => forallb (fun t => Nat.leb (length (tmMap t)) 1) (dcTyped (ctxSegment c) ++ dcTyped (ctxScenario c))%list) (iContexts (snd x))) (hInstances whole_report) = true)
      by (vm_compute; reflexivity).
    rewrite forallb_forall in E. specialize (E _ I). rewrite forallb_forall in E. specialize (E _ C). rewrite forallb_forall in E. specialize (E _ T). now apply Nat.leb_le.
Qed.
Lemma whole_in x t : followed_at whole_disk small_dir whole_root x t -> t = whole_schema.
Proof.
  intro F. apply followed_at_local in F as [_ L]. apply small_document in L as [E N]. simpl in E. destruct N as (?&?&?&?&N).
  repeat destruct E as [E|E]; try contradiction; injection E as _ <-; auto; discriminate N.
Qed.
Lemma whole_followed x t : followed_at whole_disk small_dir whole_root x t -> x = "a.xsd".
Proof.
  intro F. destruct F as [h t ns R _ _|h0 g h t ns G R _ _|h0 g h t ns G R _].
  - destruct R as (y&Hy&(?&?&?&Ny)&Q). simpl in Hy. repeat destruct Hy as [<-|Hy]; try contradiction; try discriminate Ny.
    apply LinkbaseProofs.req_iff in Q. now injection Q.
  - exfalso. apply whole_in in G as ->. destruct R as (y&Hy&(?&?&?&Ny)&Q). simpl in Hy. repeat destruct Hy as [<-|Hy]; try contradiction; discriminate Ny.
  - exfalso. apply whole_in in G as ->. destruct R as (y&Hy&(?&?&?&Ny)&Q). simpl in Hy. repeat destruct Hy as [<-|Hy]; try contradiction; discriminate Ny.
Qed.
Lemma whole_claims ns x : claims_at whole_disk small_dir whole_root ns x -> x = "a.xsd".
Proof.
  intros [h t n R L T|h0 g h t n G R L T|h0 g h n G R].
  - apply (whole_followed h t). eapply fat_ref; eauto.
  - apply (whole_followed h t). eapply fat_include; eauto.
  - exfalso. apply whole_in in G as ->.
    destruct R as (y&Hy&(?&?&?&Ny)&Q). simpl in Hy. repeat destruct Hy as [<-|Hy]; try contradiction; discriminate Ny.
Qed.
Lemma whole_one name file root ns : entry_named (world_with whole_disk whole_outside) "f" name ->
  entry_at whole_disk (folder_at (world_with whole_disk whole_outside) "f") root name file -> one_claim whole_disk (folder_at (world_with whole_disk whole_outside) "f") root ns.
Proof.
  intros (b&_&E) EA. assert (name = "x.xml") as -> by (cbn in E; congruence).
  assert (root = whole_root) as -> by (eapply entry_root; [exact whole_entry|exact EA]). intros x x' C C'.
  change (claims_at whole_disk small_dir whole_root ns x) in C. change (claims_at whole_disk small_dir whole_root ns x') in C'. apply whole_claims in C, C'. congruence.
Qed.
Lemma few_draw {A} role (l : list (linkbase A)) : length l <= 1 -> SteadySpec.at_most_one (draws role) l.
Proof. destruct l as [|a [|b l]]; cbn; intro E; try (exfalso; lia); repeat constructor. Qed.
Example C149_grids_served_example : let w := world_with whole_disk whole_outside in (exists files s p, history w s /\ entry_name_ok "f" /\
  entry_name_ok pair_slug /\ pair_slug <> "facts" /\ ~ (entry_named w "f" pair_slug /\ inline_name pair_slug) /\
  (forall name h, report_of w "f" name h -> plain_report h /\ length (hDefinition h) <= 1 /\
     (forall role, SteadySpec.at_most_one (draws role) (map snd (hPresentation h))) /\
     (forall role, SteadySpec.at_most_one (draws role) (map snd (hCalculation h)))) /\
  (forall name file root ns, entry_named w "f" name -> entry_at (w_disk w) (folder_at w "f") root name file -> one_claim (w_disk w) (folder_at w "f") root ns) /\
  exchanged (fun _ => "") files s "GET" ("/folders/f/" ++ pair_slug) "" (Answer (Some p)) /\ status p = 200 /\ body p <> "") /\
  report_of w "f" "x.xml" whole_report /\
  match own_p whole_outside whole_report (stringify pair_entity) (rsRole pair_set), own_d whole_outside whole_report (stringify pair_entity) (rsRole pair_set),
    own_c whole_outside whole_report (stringify pair_entity) (rsRole pair_set) with
  | Ok (p, _, _), Ok (g, _, _), Ok (c, _, _) =>
      map ilHref (pgLabels p) = ["a.xsd#id_R"; "a.xsd#id_A"] /\ pgFootnotes p = ["see below"] /\
      map (fun rd => (rdHref rd, map ilHref (rdItems rd), map lbHref (rdDimensions rd))) (dgRootDomains g) = [("a.xsd#id_A", ["a.xsd#id_B"], ["a.xsd#id_D"])] /\
      map (fun s => (siHref s, map ccHref (siContributing s))) c = [("a.xsd#id_A", ["a.xsd#id_B"])]
  | _, _, _ => False end.
Proof.
  intro w.
  assert (RO : report_of w "f" "x.xml" whole_report).
  { split; [|exists false, plain_order; split; [exact plain_orders|exact whole_loaded]]. eexists. split; [vm_compute; reflexivity|reflexivity]. }
  split; [|split; [exact RO|vm_compute; repeat split]].
  assert (M : exists b, marshalled_renderable whole_outside whole_report pair_slug (Ok (Some b))).
  { apply (own_rendering whole_outside whole_report pair_slug pair_entity pair_set "urn:s/0"); vm_compute; try reflexivity; discriminate. }
  destruct M as (b&M). destruct (answered _ _ _ _ whole_plain_report M) as (_&_&_&_&_&v&_&_&[V _]&_). apply json_nonempty in V.
  assert (B : returned_renderable (out w) whole_report pair_slug (Ok (Some b))) by (inversion M; assumption).
  destruct (asked_once whole_disk whole_outside whole_report b eq_refl eq_refl whole_loaded B) as (files&s&p&A1&A2&A3&A4&A5&A6&<-).
  exists files, s, p. do 4 (split; [assumption|]). split; [intros [_ K]; apply inline_iff in K; vm_compute in K; destruct K; discriminate|].
  split; [|split; [exact whole_one|auto]].
  intros name h (N&im&sh&O&L). assert (name = "x.xml") as -> by (destruct N as (?&_&E); cbn in E; congruence).
  pose proof (fun file root ns => whole_one _ file root ns N) as ONE.
  destruct (loads_alike _ _ _ _ _ _ _ _ _ _ _ _ x_supported whole_loaded L ONE) as (_&EI&_).
  pose proof (loads_labels _ _ _ _ _ _ _ _ _ _ _ _ x_supported whole_loaded L ONE) as P.
  split; [exact (plain_transfer _ _ EI P whole_plain_report)|].
  destruct (presentations_alike _ _ _ _ _ _ _ _ _ _ _ _ x_supported plain_orders O whole_loaded L _ (Permutation_refl _)) as (op&VP&FP).
  destruct (calculations_alike _ _ _ _ _ _ _ _ _ _ _ _ x_supported plain_orders O whole_loaded L _ (Permutation_refl _)) as (oc&VC&FC).
  split; [|split; intro role; apply few_draw].
  - rewrite <- (definitions_length _ _ _ _ _ _ _ _ _ _ _ _ x_supported plain_orders O whole_loaded L). vm_compute. constructor.
  - rewrite <- (Permutation_length VP), <- (two_length _ _ _ FP). vm_compute. constructor.
  - rewrite <- (Permutation_length VC), <- (two_length _ _ _ FC). vm_compute. constructor.
Qed.
