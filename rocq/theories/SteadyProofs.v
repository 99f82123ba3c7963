(** * SteadyProofs: lemmas for C149 *)
From Coq Require Import String List Bool Arith Lia Permutation.
From Verif Require CalcProofs.
From Verif Require Import GoBase GoSpec GoFacts AttrModel SchemaModel LinkbaseModel InstanceModel HydrateModel LabelModel LabelProofs PeriodModel FactModel
  GridModel GridSpec GridProofs CalcModel DefModel RenderModel CatalogModel CatalogSpec CatalogProofs ResponseSpec ReportModel ReportSpec ReportProofs EndToEndSpec SteadySpec.
Import ListNotations.
Local Open Scope string_scope.

(** ** Lists *)
Lemma pairs_perm {A} (R : A -> A -> Prop) l l' : (forall x y, R x y -> R y x) -> Permutation l l' -> ForallOrdPairs R l -> ForallOrdPairs R l'.
Proof.
  intros S P. induction P as [|x l l' P IH|x y l|l l' l'' P1 IH1 P2 IH2]; intro F; auto.
  - inversion F as [|a b F1 F2]; subst. constructor; auto. eapply Permutation_Forall; eauto.
  - inversion F as [|a b F1 F2]; subst. inversion F2 as [|a b F3 F4]; subst. inversion F1; subst. constructor; [constructor; auto|constructor; auto].
Qed.
(** at most one of the steps of a loop does anything: their order does not matter *)
Lemma fold_perm {A B} (f : B -> A -> B) (P : A -> Prop) l l' : (forall x, P x \/ ~ P x) -> (forall x b, ~ P x -> f b x = b) ->
  Permutation l l' -> at_most_one P l -> forall b, fold_left f l b = fold_left f l' b.
Proof.
  intros D N H. unfold at_most_one. induction H as [|x l l' H IH|x y l|l l' l'' P1 IH1 P2 IH2]; intros M b; cbn; auto.
  - inversion M; subst. now apply IH.
  - inversion M as [|a c F1 F2]; subst. inversion F1 as [|a c E _]; subst. f_equal.
    destruct (D x) as [X|X], (D y) as [Y|Y]; [now destruct E| | |]; rewrite ?(N x), ?(N y) by auto; rewrite ?(N x), ?(N y) by auto; auto.
  - rewrite IH1 by auto. apply IH2. eapply pairs_perm; [|exact P1|exact M]. intros x y Nxy [Px Py]. auto.
Qed.
Lemma mapM_ext {A B} (f g : A -> res B) l : (forall x, In x l -> f x = g x) -> mapM f l = mapM g l.
Proof.
  induction l as [|x l IH]; intro H; cbn; auto. rewrite (H x) by now left. destruct (g x); cbn; auto. rewrite IH; auto. intros y Y. apply H. now right.
Qed.
Lemma foldM_ext {A B} (f g : A -> B -> res A) l : (forall a x, In x l -> f a x = g a x) -> forall a, foldM f l a = foldM g l a.
Proof.
  induction l as [|x l IH]; intros H a; cbn; auto. rewrite (H a x) by now left. destruct (g a x); cbn; auto. apply IH. intros b y Y. apply H. now right.
Qed.
Lemma flat_map_ext_in {A B} (f g : A -> list B) l : (forall x, In x l -> f x = g x) -> flat_map f l = flat_map g l.
Proof. induction l as [|x l IH]; intro H; cbn; auto. rewrite (H x), IH; auto; [intros y Y; apply H; now right|now left]. Qed.
Lemma short_perm {A} (l m : list A) : length m <= 1 -> Permutation l m -> l = m.
Proof.
  intros L P. destruct m as [|x [|y m]]; cbn in L; [apply Permutation_nil; now symmetry|apply Permutation_length_1_inv; now symmetry|lia].
Qed.

(** ** The labels *)
Lemma labels_concept_dec href lb : labels_concept href lb \/ ~ labels_concept href lb.
Proof.
  destruct (existsb (fun ll => existsb (fun l => String.eqb (locHref l) href) (lnLocs ll)) (llLinks lb)) eqn:E.
  - left. apply existsb_exists in E as (ll&L&E). apply existsb_exists in E as (l&K&E). apply String.eqb_eq in E. exists ll, l. auto.
  - right. intros (ll&l&L&K&H). assert (X : existsb (fun ll => existsb (fun l => String.eqb (locHref l) href) (lnLocs ll)) (llLinks lb) = true); [|congruence].
    apply existsb_exists. exists ll. split; auto. apply existsb_exists. exists l. split; auto. now apply String.eqb_eq.
Qed.
Lemma fold_idle {A B} (f : B -> A -> B) l : (forall b x, In x l -> f b x = b) -> forall b, fold_left f l b = b.
Proof. induction l as [|x l IH]; intros H b; cbn; auto. rewrite H by now left. apply IH. intros c y Y. apply H. now right. Qed.
Lemma get_label_any h href o o' : at_most_one (labels_concept href) (map snd (hLabel h)) -> visited (hLabel h) o -> visited (hLabel h) o' ->
  get_label o href = get_label o' href.
Proof.
  intros M V V'. unfold get_label, append_label_modifiers. apply (fold_perm _ (labels_concept href)).
  - apply labels_concept_dec.
  - intros lb p N. apply fold_idle. intros q ll L. apply fold_idle. intros q' l K. destruct (String.eqb_spec (locHref l) href) as [E|E]; auto.
    exfalso. apply N. exists ll, l. auto.
  - unfold visited in *. rewrite V. now symmetry.
  - eapply pairs_perm; [|symmetry; exact V|exact M]. intros x y Nxy [Px Py]. auto.
Qed.

(** ** The link that is shown *)
Lemma draws_dec {A} role (lb : linkbase A) : draws role lb \/ ~ draws role lb.
Proof.
  unfold draws. destruct (existsb (fun rr => String.eqb role (rrRoleURI rr)) (lbRoleRefs lb)) eqn:E1.
  - destruct (existsb (fun k => String.eqb (lRole k) role) (lbLinks lb)) eqn:E2.
    + left. apply existsb_exists in E1 as (rr&L&E1). apply existsb_exists in E2 as (k&K&E2). apply String.eqb_eq in E1, E2. split; [exists rr|exists k]; auto.
    + right. intros [_ (k&K&H)]. rewrite (proj2 (existsb_exists _ _)) in E2; [discriminate|]. exists k. split; auto. now apply String.eqb_eq.
  - right. intros [(rr&K&H) _]. rewrite (proj2 (existsb_exists _ _)) in E1; [discriminate|]. exists rr. split; auto. now apply String.eqb_eq.
Qed.
Definition own_link {A} role (lb : linkbase A) : option (linkbase A * link A) :=
  match (if existsb (fun rr => String.eqb role (rrRoleURI rr)) (lbRoleRefs lb) then find (fun k => String.eqb (lRole k) role) (lbLinks lb) else None) with
  | Some k => Some (lb, k) | None => None end.
Lemma own_link_draws {A} role (lb : linkbase A) : own_link role lb <> None -> draws role lb.
Proof.
  unfold own_link. destruct (existsb _ _) eqn:E; [|congruence]. destruct (find _ _) as [k|] eqn:F; [|congruence]. intros _.
  apply existsb_exists in E as (rr&I&E). apply String.eqb_eq in E. apply find_some in F as [F1 F2]. apply String.eqb_eq in F2. split; [exists rr|exists k]; auto.
Qed.
Lemma first_link_own {A} role (lbs : list (linkbase A)) : first_link role lbs = fold_left (fun a lb => match a with Some x => Some x | None => own_link role lb end) lbs None.
Proof.
  assert (S : forall x (l : list (linkbase A)), fold_left (fun a lb => match a with Some x => Some x | None => own_link role lb end) l (Some x) = Some x) by (induction l; cbn; auto).
  induction lbs as [|lb lbs IH]; cbn; auto. unfold own_link at 2. destruct (if existsb _ _ then _ else _) as [k|]; auto.
Qed.
Lemma first_link_any {A} role (l l' : list (linkbase A)) : at_most_one (draws role) l -> Permutation l l' -> first_link role l = first_link role l'.
Proof.
  intros M P. rewrite !first_link_own. apply (fold_perm _ (draws role)); auto.
  - apply draws_dec.
  - intros lb [x|] N; auto. destruct (own_link role lb) eqn:E; auto. exfalso. apply N, own_link_draws. congruence.
Qed.

(** ** Cells *)
Lemma render_same w h i : hInstances h = [(fst i, snd i)] -> forall e e', renders_from w h e -> renders_from w h e' -> forall f langs, render e f langs = render e' f langs.
Proof.
  intros ONE e e' R R'. assert (C : forall x, re_concept e x = re_concept e' x) by (intro x; rewrite (rf_concept _ _ _ R), (rf_concept _ _ _ R'); auto).
  assert (M : forall u, re_measurement e u = re_measurement e' u).
  { intro u. destruct (rf_measurement _ _ _ R u) as (o&V&->), (rf_measurement _ _ _ R' u) as (o'&V'&->). unfold visited in *. rewrite ONE in *. cbn in *.
    apply Permutation_sym, Permutation_length_1_inv in V, V'. congruence. }
  assert (F : forall g f, render_fact g e f = render_fact g e' f).
  { intros g f. unfold render_fact, render_text_block, sig_figs, render_numeric. rewrite C, M, (rf_html _ _ _ R), (rf_html _ _ _ R'), (rf_digits _ _ _ R), (rf_digits _ _ _ R'), (rf_percent _ _ _ R), (rf_percent _ _ _ R'). reflexivity. }
  assert (L : forall f langs m, render_langs e f langs m = render_langs e' f langs m).
  { intros f langs. induction langs as [|l langs IH]; intro m; cbn; auto. unfold render_english_fact, render_spanish_fact. rewrite !F.
    destruct (String.eqb l English); [destruct (render_fact "," e' f); cbn; auto|]. destruct (String.eqb l Español); [destruct (render_fact " " e' f); cbn; auto|].
    destruct (String.eqb l PureLabel); [destruct (render_fact "," e' f); cbn; auto|]. auto. }
  intros [f|] langs; cbn; auto. destruct (fIsNil f); auto.
Qed.

(** the same languages in another order *)
Definition same_names (l l' : list string) : Prop := forall x, In x l <-> In x l'.
Definition both {A} (R : A -> A -> Prop) (x y : res A) : Prop :=
  match x, y with Ok a, Ok b => R a b | Ok _, _ | _, Ok _ => False | _, _ => True end.
Lemma render_perm e f l l' : same_names l l' -> both (@Permutation _) (render e f l) (render e f l').
Proof.
  intro S. destruct f as [f|]; [|apply Permutation_refl]. destruct (fIsNil f) eqn:N; [cbn; rewrite N; apply Permutation_refl|].
  destruct (FactProps.C75_languages e f l N) as (m&E&M&K), (FactProps.C75_languages e f l' N) as (m'&E'&M'&K').
  pose proof (CalcProofs.render_agree _ _ _ _ _ _ E E') as A. rewrite E, E'. cbn.
  assert (KK : forall x, In x (map fst m) <-> In x (map fst m')) by (intro x; rewrite K, K'; specialize (S x); tauto).
  apply NoDup_Permutation; [exact (NoDup_map_inv _ _ M)|exact (NoDup_map_inv _ _ M')|].
  intros [k v]. split; intro H.
  - assert (H' : In k (map fst m')) by (apply KK, in_map_iff; exists (k, v); auto).
    apply in_map_iff in H' as ([k' v']&Ek&H'). cbn in Ek. subst k'. now rewrite (A k v v' H H').
  - assert (H' : In k (map fst m)) by (apply KK, in_map_iff; exists (k, v); auto).
    apply in_map_iff in H' as ([k' v']&Ek&H'). cbn in Ek. subst k'. now rewrite <- (A k v' v H' H).
Qed.
Lemma mapM_both {A B} (R : B -> B -> Prop) (f g : A -> res B) l : (forall x, In x l -> both R (f x) (g x)) -> both (Forall2 R) (mapM f l) (mapM g l).
Proof.
  induction l as [|x l IH]; intro H; cbn; [constructor|]. pose proof (H x (or_introl eq_refl)) as X.
  specialize (IH (fun y Y => H y (or_intror Y))).
  destruct (f x), (g x); cbn in *; try contradiction; auto. destruct (mapM f l), (mapM g l); cbn in *; try contradiction; auto.
Qed.
Definition same_facts (x y : list (list (list (string * fact_expression)))) : Prop := Forall2 (Forall2 (@Permutation _)) x y.
Lemma same_facts_nil : same_facts [] []. Proof. constructor. Qed.
Lemma destruct_same g g' x :
  (forall x, Permutation (fst (ge_destruct g x)) (fst x) /\ Permutation (snd (ge_destruct g x)) (snd x)) ->
  (forall x, Permutation (fst (ge_destruct g' x)) (fst x) /\ Permutation (snd (ge_destruct g' x)) (snd x)) ->
  same_names (snd (ge_destruct g x)) (snd (ge_destruct g' x)).
Proof.
  intros P P' n. destruct (P x) as [_ Q], (P' x) as [_ Q'].
  split; apply Permutation_in; [now rewrite Q, Q'|now rewrite Q, Q'].
Qed.

Section Table.
  Variables (w : outside) (h : hydratable).
  Hypothesis PR : plain_report h.
  Variables (g g' : grid_env) (lbl lbl' : string -> label_pack).
  Hypotheses (G : grid_from w h g) (G' : grid_from w h g') (L : forall x, lbl x = lbl' x).

  Lemma one_visited o : visited (hInstances h) o -> exists n i, hInstances h = [(n, i)] /\ o = [i].
  Proof.
    intro V. destruct (pr_instance h PR) as (n&i&E). exists n, i. split; auto. unfold visited in V. rewrite E in V. cbn in V.
    now apply Permutation_sym, Permutation_length_1_inv in V.
  Qed.
  Lemma visited_same o o' : visited (hInstances h) o -> visited (hInstances h) o' -> o = o'.
  Proof. intros V V'. destruct (one_visited _ V) as (n&i&E&->), (one_visited _ V') as (n'&i'&E'&->). congruence. Qed.

  Lemma typed_same n i c t : In (n, i) (hInstances h) -> In c (iContexts i) -> In t (dcTyped (ctxSegment c) ++ dcTyped (ctxScenario c)) ->
    ge_typed_order g c t = ge_typed_order g' c t.
  Proof.
    intros I C T. pose proof (pr_typed h PR n i c t I C T) as S. rewrite (short_perm _ _ S (gf_typed _ _ _ G c t)). symmetry. apply (short_perm _ _ S), (gf_typed _ _ _ G').
  Qed.
  Lemma members_same n i c : In (n, i) (hInstances h) -> In c (iContexts i) ->
    get_contextual_members (o_tree w) lbl (ge_typed_order g) c = get_contextual_members (o_tree w) lbl' (ge_typed_order g') c.
  Proof.
    intros I C. unfold get_contextual_members.
    assert (E : forall s l, explicit_members lbl s l = explicit_members lbl' s l) by (intros s l; apply map_ext; intro e; now rewrite !L).
    assert (EP : forall l, explicit_packs lbl l = explicit_packs lbl' l) by (intros l; apply flat_map_ext_in; intros e _; now rewrite !L).
    assert (TP : forall l, typed_packs lbl l = typed_packs lbl' l) by (intros l; apply flat_map_ext_in; intros e _; now rewrite !L).
    assert (T : forall l, incl l (dcTyped (ctxSegment c) ++ dcTyped (ctxScenario c)) -> typed_members lbl (ge_typed_order g) c l = typed_members lbl' (ge_typed_order g') c l).
    { intros l IN. apply flat_map_ext_in. intros t Ht. unfold get_typed_member. rewrite (typed_same n i c t I C (IN t Ht)), L. apply map_ext. intros [k v]. now rewrite L. }
    rewrite !E, !EP, !TP, !T; auto; intros t Ht; apply in_or_app; auto.
  Qed.
  Lemma contexts_same entity hrefs :
    get_relevant_contexts (o_tree w) lbl (concept_for w h) (ge_typed_order g) entity (ge_instances g) hrefs =
    get_relevant_contexts (o_tree w) lbl' (concept_for w h) (ge_typed_order g') entity (ge_instances g') hrefs.
  Proof.
    unfold get_relevant_contexts. destruct (factual_hrefs _ _) as [|x factual]; auto.
    rewrite (visited_same _ _ (gf_instances _ _ _ G) (gf_instances _ _ _ G')).
    rewrite (mapM_ext _ (rc_instance (o_tree w) lbl' (ge_typed_order g') entity (x :: factual))); auto.
    intros i Hi. destruct (one_visited _ (gf_instances _ _ _ G')) as (n&i0&E&E'). rewrite E' in Hi. destruct Hi as [<-|[]].
    unfold rc_instance. rewrite (foldM_ext _ (fun st href => foldM (rc_fact (o_tree w) lbl' (ge_typed_order g') entity i0 href) (iFacts i0) st)); auto.
    intros st href _. apply foldM_ext. intros st' f _. unfold rc_fact. destruct (existsb _ _); auto. destruct (String.eqb _ _); auto.
    destruct (get_context i0 (fContextRef f)) as [c|] eqn:C; auto. rewrite (members_same n i0 c); auto; [rewrite E; now left|].
    unfold get_context in C. now apply find_some in C.
  Qed.

  Definition cells_of (q : res (list (list (list (string * fact_expression))) * list (list (list nat)) * list string)) := do (facts, fg, notes) <- q; Ok facts.
  Lemma quadrant_same hrefs cols langs langs' : same_names langs langs' ->
    both same_facts (cells_of (get_factual_quadrant (o_tree w) (ge_cell g) (ge_id_order g) (ge_id_order_final g) hrefs cols langs))
      (cells_of (get_factual_quadrant (o_tree w) (ge_cell g') (ge_id_order g') (ge_id_order_final g') hrefs cols langs')).
  Proof.
    intro S. unfold get_factual_quadrant. destruct hrefs as [|x hrefs]; [constructor|]. destruct cols as [|y cols]; [constructor|].
    rewrite (mapM_ext _ (fun ih => mapM (fun jc => render (ce_render (ge_cell g' (fst ih) (fst jc)))
                   (fact_at (ge_cell g') (fst ih) (fst jc) (snd ih) (rcContextRef (snd jc))) langs) (numbered (y :: cols))) (numbered (x :: hrefs))).
    - assert (B : both same_facts
        (mapM (fun ih => mapM (fun jc => render (ce_render (ge_cell g' (fst ih) (fst jc)))
                   (fact_at (ge_cell g') (fst ih) (fst jc) (snd ih) (rcContextRef (snd jc))) langs) (numbered (y :: cols))) (numbered (x :: hrefs)))
        (mapM (fun ih => mapM (fun jc => render (ce_render (ge_cell g' (fst ih) (fst jc)))
                   (fact_at (ge_cell g') (fst ih) (fst jc) (snd ih) (rcContextRef (snd jc))) langs') (numbered (y :: cols))) (numbered (x :: hrefs)))).
      { apply mapM_both. intros ih _. apply mapM_both. intros jc _. now apply render_perm. }
      destruct (mapM _ _) as [rows| |], (mapM _ _) as [rows'| |]; cbn in B |- *; try contradiction; exact B.
    - intros ih _. apply mapM_ext. intros jc _. unfold fact_at. rewrite (visited_same _ _ (gf_facts _ _ _ G _ _) (gf_facts _ _ _ G' (fst ih) (fst jc))).
      destruct (pr_instance h PR) as (n&i&E). apply (render_same w h (n, i) E); [apply (gf_render _ _ _ G)|apply (gf_render _ _ _ G')].
  Qed.

  (** *** The member grid: the rows of explicit dimensions *)
  Definition own_dimension (m : relevant_member) : Prop := rmDimension m = Labelled (lbHref (rmDimension m)) (lbl' (lbHref (rmDimension m))).
  Definition tidy (maps : list (string * list (string * relevant_member))) : Prop :=
    forall d v k m, In (d, v) maps -> In (k, m) v -> rmDimension m = Labelled d (lbl' d).
  Lemma tidy_map seg ms : Forall own_dimension ms -> tidy (explicit_dimension_map seg ms).
  Proof.
    unfold explicit_dimension_map. intro F.
    assert (X : forall maps, tidy maps -> tidy (fold_left (fun m x =>
      match rmExplicit x with
      | Some e => if Bool.eqb (rmIsSegment x) seg then
          let d := lbHref (rmDimension x) in sset d (sset (lbHref e) x (match sget d m with Some v => v | None => [] end)) m else m
      | None => m end) ms maps)).
    { induction F as [|x ms X F IH]; intros maps T; cbn [fold_left]; auto. apply IH. destruct (rmExplicit x) as [e|]; auto. destruct (Bool.eqb _ _); auto.
      cbv zeta. intros d v k m I1 I2. apply LabelProofs.sset_In in I1 as [(->&->)|I1]; [|eapply T; eauto].
      apply LabelProofs.sset_In in I2 as [(->&->)|I2]; [exact X|]. destruct (sget _ maps) as [v|] eqn:E; [|destruct I2]. apply LabelProofs.sget_In in E. eapply T; eauto. }
    apply X. intros d v k m [].
  Qed.
  Lemma row_same o o' maps href : tidy maps -> (forall m, Permutation (o m) m) -> (forall m, Permutation (o' m) m) -> explicit_row o maps href = explicit_row o' maps href.
  Proof.
    intros T P P'. unfold explicit_row. destruct (sget href maps) as [v|] eqn:E; auto. apply LabelProofs.sget_In in E.
    destruct (o v) as [|[k m] l] eqn:O, (o' v) as [|[k' m'] l'] eqn:O'; auto.
    - pose proof (P v) as Q. rewrite O in Q. apply Permutation_nil in Q. pose proof (P' v) as Q'. rewrite O', Q in Q'. apply Permutation_sym, Permutation_nil in Q'. discriminate Q'.
    - pose proof (P' v) as Q. rewrite O' in Q. apply Permutation_nil in Q. pose proof (P v) as Q'. rewrite O, Q in Q'. apply Permutation_sym, Permutation_nil in Q'. discriminate Q'.
    - rewrite (T href v k m), (T href v k' m'); auto.
      + apply (Permutation_in _ (P' v)). rewrite O'. now left.
      + apply (Permutation_in _ (P v)). rewrite O. now left.
  Qed.
  Lemma grid_same cols seg scen : Forall own_dimension (flat_map rcMembers cols) ->
    get_member_grid (ge_member_order g) cols seg scen = get_member_grid (ge_member_order g') cols seg scen.
  Proof.
    intro F. unfold get_member_grid. destruct cols as [|c cols]; auto. unfold get_void_quadrant.
    rewrite (flat_map_ext_in _ (fun h => (explicit_row (ge_member_order g') (explicit_dimension_map true (dimension_members (c :: cols))) h ++
      explicit_row (ge_member_order g') (explicit_dimension_map false (dimension_members (c :: cols))) h)%list)); auto.
    intros x _. assert (F' : Forall own_dimension (dimension_members (c :: cols))).
    { unfold dimension_members. apply Forall_forall. intros m Hm. apply filter_In in Hm as [Hm _]. rewrite Forall_forall in F. auto. }
    rewrite !(row_same (ge_member_order g) (ge_member_order g')); auto using tidy_map; try apply (gf_members _ _ _ G); apply (gf_members _ _ _ G').
  Qed.
  Lemma contexts_own entity hrefs cols seg scen packs :
    get_relevant_contexts (o_tree w) lbl' (concept_for w h) (ge_typed_order g') entity (ge_instances g') hrefs = Ok (cols, seg, scen, packs) ->
    Forall own_dimension (flat_map rcMembers cols).
  Proof.
    intro E. apply Forall_forall. intros m Hm. apply in_flat_map in Hm as (r&Hr&Hm).
    destruct (relevant_spec (o_tree w) lbl' (concept_for w h) (ge_typed_order g') entity (ge_instances g') hrefs) as [[_ P]|[_ (css & F & Q)]]; [congruence|].
    rewrite Q in E. injection E as <- _ _ _. apply (Permutation_in _ (Permutation_sym (isort_perm _ _))) in Hr.
    apply in_map_iff in Hr as (c&<-&_).
    unfold mk_col in Hm. cbn [fst rcMembers] in Hm. unfold get_contextual_members in Hm. cbn [cxMembers] in Hm.
    rewrite !in_app_iff in Hm. unfold own_dimension.
    destruct Hm as [Hm|[Hm|[Hm|Hm]]].
    - apply in_map_iff in Hm as (e&<-&_). reflexivity.
    - apply in_flat_map in Hm as (t&_&Hm). apply in_map_iff in Hm as (e&<-&_). reflexivity.
    - apply in_map_iff in Hm as (e&<-&_). reflexivity.
    - apply in_flat_map in Hm as (t&_&Hm). apply in_map_iff in Hm as (e&<-&_). reflexivity.
  Qed.
End Table.

(** ** The presentation *)
Lemma labels_same h lbl lbl' : plain_report h -> labels_from h lbl -> labels_from h lbl' -> forall x, lbl x = lbl' x.
Proof.
  intros PR L L' x. destruct (L x) as (o&V&->), (L' x) as (o'&V'&->). apply (get_label_any h); auto. apply PR.
Qed.
(** two grids of which only the footnotes differ *)
Definition same_p (p p' : res (p_grid * list string * list string)) : Prop :=
  match p, p' with
  | Ok (g, rs, ls), Ok (g', rs', ls') => pgLabels g = pgLabels g' /\ pgPeriods g = pgPeriods g' /\ pgMembers g = pgMembers g' /\ pgVoid g = pgVoid g' /\
      same_facts (pgFacts g) (pgFacts g')
  | Ok _, _ | _, Ok _ => False
  | _, _ => True
  end.
Lemma cells_ok q q' : both same_facts (cells_of q) (cells_of q') ->
  match q, q' with Ok (f, _, _), Ok (f', _, _) => same_facts f f' | Ok _, _ | _, Ok _ => False | _, _ => True end.
Proof. unfold cells_of. destruct q as [[[f a] b]| |], q' as [[[f' a'] b']| |]; cbn; auto. Qed.
Lemma p_same w h entity role p p' : plain_report h -> at_most_one (draws role) (map snd (hPresentation h)) ->
  p_grids w h entity role p -> p_grids w h entity role p' -> same_p p p'.
Proof.
  intros PR M (lbl&g&lbs&L&G&V&->) (lbl'&g'&lbs'&L'&G'&V'&->). pose proof (labels_same h lbl lbl' PR L L') as E.
  unfold p_grid_of. assert (IL : get_indented_labels (o_tree w) lbl role lbs = get_indented_labels (o_tree w) lbl' role lbs').
  { unfold get_indented_labels. rewrite (first_link_any role lbs lbs').
    - destruct (first_link role lbs') as [[lb k]|]; auto. cbv zeta.
      rewrite (map_ext _ (fun x => IndentedLabel (map_locator_to_href role lb (fst x)) (lbl' (map_locator_to_href role lb (fst x))) (snd x))); auto.
      intro x. now rewrite E.
    - eapply pairs_perm; [|symmetry; exact V|exact M]. intros x y N [A B]. auto.
    - unfold visited in *. rewrite V. now symmetry. }
  rewrite IL. destruct (get_indented_labels (o_tree w) lbl' role lbs') as [labels packs].
  rewrite (contexts_same w h PR g g' lbl lbl' G G' E).
  destruct (get_relevant_contexts _ lbl' _ _ _ _ _) as [[[[cols seg] scen] cp]| |] eqn:C; cbn [bind]; try exact I.
  pose proof (destruct_same g g' (roles_and_langs (packs ++ cp)) (gf_destruct _ _ _ G) (gf_destruct _ _ _ G')) as LS.
  destruct (ge_destruct g _) as [rs ls], (ge_destruct g' _) as [rs' ls']. cbn [snd] in LS.
  pose proof (cells_ok _ _ (quadrant_same w h PR g g' G G' (map ilHref labels) cols ls ls' LS)) as Q.
  rewrite (grid_same w h g g' lbl' G G' cols seg scen (contexts_own w h g' lbl' _ _ _ _ _ _ C)).
  destruct (get_factual_quadrant _ (ge_cell g) _ _ _ _ _) as [[[f a] b]| |], (get_factual_quadrant _ (ge_cell g') _ _ _ _ _) as [[[f' a'] b']| |]; try contradiction; cbn [bind]; try exact I.
  - destruct (get_member_grid _ _ _ _) as [[m v]| |]; cbn; auto.
Qed.

(** ** The dimensions *)
Lemma fold_ext {A B} (f g : B -> A -> B) l : (forall b x, f b x = g b x) -> forall b, fold_left f l b = fold_left g l b.
Proof. intro H. induction l as [|x l IH]; intro b; cbn; auto. now rewrite H, IH. Qed.
Lemma foldO_ext {A B} (f g : B -> A -> option B) l : (forall b x, f b x = g b x) -> forall b, foldO f l b = foldO g l b.
Proof. intro H. induction l as [|x l IH]; intro b; cbn; auto. rewrite H. destruct (g b x); auto. Qed.
Section Domains.
  Variables (href_of : string -> string) (lbl lbl' : string -> label_pack).
  Hypothesis E : forall x, lbl x = lbl' x.
  Lemma default_same b st n : add_default href_of lbl b st n = add_default href_of lbl' b st n.
  Proof. unfold add_default. now rewrite E. Qed.
  Lemma traverse_same b : forall n st, traverse href_of lbl b n st = traverse href_of lbl' b n st.
  Proof.
    fix IH 1. intros [loc o children] st. cbn [traverse]. destruct (mem _ _ _); auto. rewrite E.
    match goal with |- fold_left _ _ ?s = _ => generalize s end. induction children as [|c children IHc]; intro s; cbn [fold_left]; auto. rewrite IH. apply IHc.
  Qed.
  Lemma effective_same w item dim : get_effective_domain href_of lbl w item dim = get_effective_domain href_of lbl' w item dim.
  Proof.
    unfold get_effective_domain. destruct (existsb _ _); auto.
    assert (A1 : forall dm incl st, included_defaults href_of lbl (nwHcDim w) (nwDimDefault w) dm incl st = included_defaults href_of lbl' (nwHcDim w) (nwDimDefault w) dm incl st).
    { intros. apply foldO_ext. intros. apply foldO_ext. intros. destruct (String.eqb _ _); auto. apply foldO_ext. intros. destruct (negb _); auto.
      apply foldO_ext. intros. apply default_same. }
    assert (A2 : forall excl st, excluded_defaults href_of lbl (nwHcDim w) (nwDimDefault w) excl st = excluded_defaults href_of lbl' (nwHcDim w) (nwDimDefault w) excl st).
    { intros. apply foldO_ext. intros. apply foldO_ext. intros. destruct (String.eqb _ _); auto. apply foldO_ext. intros. destruct (mem _ _ _); auto.
      apply foldO_ext. intros. apply default_same. }
    assert (A3 : forall b ds dm hs st, add_members href_of lbl b (nwHcDim w) (nwDimDomain w) ds dm hs st = add_members href_of lbl' b (nwHcDim w) (nwDimDomain w) ds dm hs st).
    { intros. apply fold_ext. intros. apply fold_ext. intros. destruct (String.eqb _ _); auto. apply fold_ext. intros. destruct (negb _); auto.
      apply fold_ext. intros. destruct (negb _); auto. apply fold_ext. intros. apply traverse_same. }
    rewrite A1. destruct (included_defaults _ lbl' _ _ _ _ _) as [s1|]; auto. rewrite A2. destruct (excluded_defaults _ lbl' _ _ _ _) as [s2|]; auto.
    cbv zeta. now rewrite !A3.
  Qed.
  Lemma domains_same w items dims : get_effective_domain_grid href_of lbl w items dims = get_effective_domain_grid href_of lbl' w items dims.
  Proof.
    unfold get_effective_domain_grid. f_equal.
    - apply map_ext. intro i. apply map_ext. intro d. now rewrite effective_same.
    - apply flat_map_ext_in. intros i _. apply flat_map_ext_in. intros d _. now rewrite effective_same.
  Qed.
End Domains.

(** ** Footnotes *)
Lemma cell_count o ns : length (cell_numbers o ns) = length (filter (fun kf => existsb (fun f => String.eqb (fnID f) (fst kf)) ns) o).
Proof.
  unfold cell_numbers. rewrite map_length. generalize 1. induction o as [|k o IH]; intro n; cbn [length seq combine filter snd]; auto.
  destruct (existsb _ ns); cbn [length]; now rewrite IH.
Qed.
Lemma filter_length {A} (f : A -> bool) l l' : Permutation l l' -> length (filter f l) = length (filter f l').
Proof.
  intro P. induction P as [|x l l' P IH|x y l|l l' l'' P IH P' IH']; cbn [filter]; auto.
  - destruct (f x); cbn [length]; now rewrite IH.
  - destruct (f x), (f y); reflexivity.
  - now rewrite IH.
Qed.
Lemma Forall2_map_same {A B C} (R : B -> C -> Prop) (f : A -> B) (g : A -> C) l : (forall x, R (f x) (g x)) -> Forall2 R (map f l) (map g l).
Proof. intro H. induction l; cbn; constructor; auto. Qed.
Lemma quadrant_notes w h g g' hrefs cols langs langs' facts fg notes facts' fg' notes' : plain_report h -> grid_from w h g -> grid_from w h g' ->
  get_factual_quadrant (o_tree w) (ge_cell g) (ge_id_order g) (ge_id_order_final g) hrefs cols langs = Ok (facts, fg, notes) ->
  get_factual_quadrant (o_tree w) (ge_cell g') (ge_id_order g') (ge_id_order_final g') hrefs cols langs' = Ok (facts', fg', notes') ->
  same_notes fg fg' notes notes'.
Proof.
  intros PR G G'. unfold get_factual_quadrant.
  destruct hrefs as [|x hrefs]; [|destruct cols as [|y cols]]; try (intros E E'; injection E as <- <- <-; injection E' as <- <- <-; repeat split; constructor).
  generalize (x :: hrefs) (y :: cols). clear x y hrefs cols. intros hrefs cols.
  destruct (mapM _ _) as [rows| |]; cbn [bind]; try discriminate. destruct (mapM _ _) as [rows'| |]; cbn [bind]; try discriminate.
  assert (N : map (fun ih => map (fun jc => notes_at (o_tree w) (ge_cell g) (fst ih) (fst jc) (snd ih) (rcContextRef (snd jc))) (numbered cols)) (numbered hrefs)
            = map (fun ih => map (fun jc => notes_at (o_tree w) (ge_cell g') (fst ih) (fst jc) (snd ih) (rcContextRef (snd jc))) (numbered cols)) (numbered hrefs)).
  { apply map_ext. intro ih. apply map_ext. intro jc. unfold notes_at, GridModel.fact_at.
    rewrite (visited_same h PR _ _ (gf_facts _ _ _ G (fst ih) (fst jc)) (gf_facts _ _ _ G' (fst ih) (fst jc))).
    rewrite (visited_same h PR _ _ (gf_notes1 _ _ _ G (fst ih) (fst jc)) (gf_notes1 _ _ _ G' (fst ih) (fst jc))).
    now rewrite (visited_same h PR _ _ (gf_notes2 _ _ _ G (fst ih) (fst jc)) (gf_notes2 _ _ _ G' (fst ih) (fst jc))). }
  rewrite N. clear N. match goal with |- context [numbered (map ?f (numbered hrefs))] => generalize (map f (numbered hrefs)) end. intro ns.
  generalize (fold_left add_footnotes (concat ns) []). intro ids. intros E E'. injection E as _ <- <-. injection E' as _ <- <-.
  assert (P : forall i j, Permutation (ge_id_order g i j ids) (ge_id_order g' i j ids)).
  { intros i j. eapply Permutation_trans; [apply (gf_ids _ _ _ G)|symmetry; apply (gf_ids _ _ _ G')]. }
  assert (F : Permutation (ge_id_order_final g ids) (ge_id_order_final g' ids)).
  { eapply Permutation_trans; [apply (gf_ids_final _ _ _ G)|symmetry; apply (gf_ids_final _ _ _ G')]. }
  split; [now apply Permutation_map|]. split.
  - apply Forall2_map_same. intro ir. apply Forall2_map_same. intro jn. rewrite !cell_count. now apply filter_length.
  - rewrite map_length, (Permutation_length (gf_ids_final _ _ _ G ids)). intro S. split.
    + now rewrite (short_perm _ _ S (gf_ids_final _ _ _ G ids)), (short_perm _ _ S (gf_ids_final _ _ _ G' ids)).
    + apply map_ext. intro ir. apply map_ext. intro jn. now rewrite (short_perm _ _ S (gf_ids _ _ _ G _ _ ids)), (short_perm _ _ S (gf_ids _ _ _ G' _ _ ids)).
Qed.

(** ** Roots *)
Definition same_root (r r' : root_domain) : Prop :=
  rdHref r = rdHref r' /\ rdLabel r = rdLabel r' /\ rdItems r = rdItems r' /\ rdPeriods r = rdPeriods r' /\ rdMembers r = rdMembers r' /\
  rdVoid r = rdVoid r' /\ same_facts (rdFacts r) (rdFacts r') /\ rdDomains r = rdDomains r' /\ rdDimensions r = rdDimensions r' /\
  same_notes (rdFootnoteGrid r) (rdFootnoteGrid r') (rdFootnotes r) (rdFootnotes r').
Definition same_state (s s' : d_state) : Prop :=
  Forall2 same_root (dsRet s) (dsRet s') /\ dsPacks s = dsPacks s' /\ same_names (dsLangs s) (dsLangs s').
Lemma foldM_both {A B} (R : A -> A -> Prop) (f g : A -> B -> res A) l : (forall a b x, R a b -> both R (f a x) (g b x)) ->
  forall a b, R a b -> both R (foldM f l a) (foldM g l b).
Proof.
  intro H. induction l as [|x l IH]; intros a b Rab; cbn; auto. pose proof (H a b x Rab) as X. destruct (f a x), (g b x); cbn in *; try contradiction; auto.
Qed.
Section Roots.
  Variables (w : outside) (h : hydratable).
  Hypothesis PR : plain_report h.
  Variables (genv genv' : nat -> grid_env) (lbl lbl' : string -> label_pack) (dims_order dims_order' : linkbase darc -> link darc -> list (linkbase darc)).
  Hypotheses (G : forall n, grid_from w h (genv n)) (G' : forall n, grid_from w h (genv' n)) (E : forall x, lbl x = lbl' x)
    (D : forall lb k, dims_order lb k = dims_order' lb k).
  Variables entity role : string.
  Lemma root_same lb nw dims st st' root : same_state st st' ->
    both same_state (d_root (o_tree w) lbl (concept_for w h) genv entity role lb nw dims st root) (d_root (o_tree w) lbl' (concept_for w h) genv' entity role lb nw dims st' root).
  Proof.
    intros (S1&S2&S4). unfold d_root. cbv zeta. rewrite (domains_same _ lbl lbl' E).
    rewrite (map_ext _ (fun x => IndentedLabel (map_locator_to_href role lb (fst x)) (lbl' (map_locator_to_href role lb (fst x))) (snd x)))
      by (intro x; now rewrite E).
    set (items := map _ (listing root 0)). set (hrefs := _ :: map ilHref items).
    destruct (get_effective_domain_grid _ _ _ _ _) as [edg edl].
    set (g := genv (length (dsRet st))). set (g' := genv' (length (dsRet st'))).
    rewrite (contexts_same w h PR g g' lbl lbl' (G _) (G' _) E).
    destruct (get_relevant_contexts _ lbl' _ _ _ _ _) as [[[[cols seg] scen] cp]| |] eqn:C; cbn [bind]; try exact I.
    rewrite (grid_same w h g g' lbl' (G _) (G' _) cols seg scen (contexts_own w h g' lbl' _ _ _ _ _ _ C)).
    destruct (get_member_grid _ _ _ _) as [[m v]| |]; cbn [bind]; try exact I.
    rewrite S2, !E. set (packs := (dsPacks st' ++ _)%list).
    pose proof (destruct_same g g' (roles_and_langs packs) (gf_destruct _ _ _ (G _)) (gf_destruct _ _ _ (G' _))) as LS.
    destruct (ge_destruct g _) as [rs ls], (ge_destruct g' _) as [rs' ls']. cbn [snd] in LS.
    assert (LL : same_names (dsLangs st ++ ls) (dsLangs st' ++ ls')) by (intro x; rewrite !in_app_iff, (S4 x), (LS x); reflexivity).
    pose proof (cells_ok _ _ (quadrant_same w h PR g g' (G _) (G' _) hrefs cols _ _ LL)) as Q.
    destruct (get_factual_quadrant _ (ge_cell g) _ _ _ _ _) as [[[f a] b]| |] eqn:Q1, (get_factual_quadrant _ (ge_cell g') _ _ _ _ _) as [[[f' a'] b']| |] eqn:Q2; try contradiction; cbn [bind both]; try exact I.
    split; [|cbn; auto]. cbn [dsRet]. apply Forall2_app; auto. constructor; [|constructor].
    unfold same_root; cbn. rewrite (map_ext _ (fun x => Labelled x (lbl' x))) by (intro; now rewrite E). repeat (split; [reflexivity|]). split; [exact Q|]. split; [reflexivity|]. split; [reflexivity|].
    exact (quadrant_notes w h g g' _ _ _ _ _ _ _ _ _ _ PR (G _) (G' _) Q1 Q2).
  Qed.
  Lemma link_same lb st st' k : same_state st st' ->
    both same_state (d_link (o_tree w) lbl (concept_for w h) genv dims_order entity role lb st k) (d_link (o_tree w) lbl' (concept_for w h) genv' dims_order' entity role lb st' k).
  Proof.
    intros (S1&S2&S4). unfold d_link. rewrite D. cbv zeta. rewrite (map_ext lbl lbl' E).
    match goal with |- context [ge_destruct (genv ?n) ?x] => match goal with |- context [ge_destruct (genv' ?n') x] =>
      pose proof (destruct_same (genv n) (genv' n') x (gf_destruct _ _ _ (G _)) (gf_destruct _ _ _ (G' _))) as LS;
      destruct (ge_destruct (genv n) x) as [rs ls], (ge_destruct (genv' n') x) as [rs' ls'] end end. cbn [snd] in LS.
    destruct (link_networks _ k) as [primary nw]. apply foldM_both; [intros; now apply root_same|]. split; cbn; auto. split; auto.
    intro x. rewrite !in_app_iff, (S4 x), (LS x). reflexivity.
  Qed.
  Lemma roots_same lbs : both (fun x y => Forall2 same_root (fst (fst x)) (fst (fst y)))
    (get_root_domains (o_tree w) lbl (concept_for w h) genv dims_order entity role lbs) (get_root_domains (o_tree w) lbl' (concept_for w h) genv' dims_order' entity role lbs).
  Proof.
    unfold get_root_domains. assert (X : both same_state (foldM (fun st lb => foldM (d_link (o_tree w) lbl (concept_for w h) genv dims_order entity role lb) (role_links role lb) st) lbs (DState [] [] [] []))
      (foldM (fun st lb => foldM (d_link (o_tree w) lbl' (concept_for w h) genv' dims_order' entity role lb) (role_links role lb) st) lbs (DState [] [] [] []))).
    { apply foldM_both; [|split; [constructor|split; [auto|intro; reflexivity]]]. intros a b lb S. apply foldM_both; auto. intros. now apply link_same. }
    destruct (foldM _ _ _) as [s| |], (foldM _ _ _) as [s'| |]; cbn [both bind] in *; try contradiction; auto. apply X.
  Qed.
End Roots.
Lemma drs_same format lbl lbl' role order order' lbs : (forall x, lbl x = lbl' x) -> (forall l, Permutation (order l) l) -> (forall l, Permutation (order' l) l) ->
  get_drs format lbl role order lbs = get_drs format lbl' role order' lbs.
Proof.
  intros E P P'. unfold get_drs. cbv zeta. f_equal. set (hs := drs_hrefs _).
  rewrite (map_ext _ (fun x => Labelled x (lbl' x))) by (intro; now rewrite E).
  assert (ND : NoDup hs) by apply GridProofs.dedup_NoDup.
  assert (K : forall o, (forall l, Permutation (o l) l) -> NoDup (map lbHref (map (fun x => Labelled x (lbl' x)) (o hs)))).
  { intros o O. rewrite map_map. cbn [lbHref]. rewrite map_id. eapply Permutation_NoDup; [symmetry; apply O|exact ND]. }
  apply (sorted_perm_unique (fun a b => slt (lbHref a) (lbHref b))).
  - intros x y _ _ L L'. exfalso. eapply slt_irrefl, slt_trans; eauto.
  - apply CalcProofs.sorted_strict, K, P.
  - apply CalcProofs.sorted_strict, K, P'.
  - rewrite <- !isort_perm. apply Permutation_map. now rewrite P, P'.
Qed.
Definition same_d (d d' : res (d_grid * list string * list string)) : Prop :=
  both (fun x y => Forall2 same_root (dgRootDomains (fst (fst x))) (dgRootDomains (fst (fst y))) /\ dgDRS (fst (fst x)) = dgDRS (fst (fst y))) d d'.
Lemma d_same w h entity role d d' : plain_report h -> length (hDefinition h) <= 1 -> d_grids w h entity role d -> d_grids w h entity role d' -> same_d d d'.
Proof.
  intros PR M (lbl&genv&dims&order&lbs&lbs2&L&G&DO&O&V&V2&->) (lbl'&genv'&dims'&order'&lbs'&lbs2'&L'&G'&DO'&O'&V'&V2'&->).
  pose proof (labels_same h lbl lbl' PR L L') as E. rewrite <- (map_length snd) in M.
  assert (U : forall o, visited (hDefinition h) o -> o = map snd (hDefinition h)) by (intros o Vo; apply short_perm; auto).
  rewrite (U _ V), (U _ V2), (U _ V'), (U _ V2'). unfold d_grid_of.
  pose proof (roots_same w h PR genv genv' lbl lbl' dims dims' G G' E (fun lb k => eq_trans (U _ (DO lb k)) (eq_sym (U _ (DO' lb k)))) entity role (map snd (hDefinition h))) as R.
  destruct (get_root_domains _ lbl _ _ _ _ _ _) as [[[r a] b]| |], (get_root_domains _ lbl' _ _ _ _ _ _) as [[[r' a'] b']| |]; cbn [both bind same_d] in *; try contradiction; try exact I.
  split; [exact R|]. cbn. now apply drs_same.
Qed.
