(** * ReportProofs: from the parts of a grid to its JSON *)
From Verif Require Import GoBase GoSpec GoFacts AttrModel AttrSpec AttrProofs SchemaModel SchemaSpec SchemaProofs SchemaProps
  LinkbaseModel LinkbaseSpec LinkbaseProofs LinkbaseProps InstanceModel InstanceSpec InstanceProofs InstanceProps
  HydrateModel HydrateSpec HydrateProofs HydrateProps LabelModel LabelSpec LabelProofs LabelProps PeriodModel PeriodSpec PeriodProofs PeriodProps
  FactModel FactSpec FactProofs FactProps GridModel GridSpec GridProofs GridProps CalcModel CalcSpec CalcProofs CalcProps DefModel DefSpec DefProofs DefProps
  RenderModel RenderSpec RenderProofs RenderProps
  DiscoverModel DiscoverSpec DiscoverProofs DiscoverProps XmlModel XmlSpec XmlProofs XmlProps LoadModel LoadSpec LoadProofs LoadProps
  CatalogModel CatalogSpec CatalogProofs CatalogProps ReportModel ResponseModel ResponseSpec ResponseProofs ResponseProps EndToEndSpec EndToEndProps ReportSpec.
Local Open Scope string_scope.

(** ** Grids do not fail *)
Definition no_error {A} (r : res A) : Prop := forall m, r <> Err m.
Lemma run_no_error {A} (l : list (A -> res A)) : (forall f, In f l -> forall a, no_error (f a)) -> forall a, no_error (run l a).
Proof.
  induction l as [|f l IH]; intros H a m; cbn [run]; [discriminate|].
  destruct (f a) as [b|e|] eqn:E; cbn [bind]; [|intros [= ->]; apply (H f (or_introl eq_refl) a _ E)|discriminate].
  apply IH. intros f' Hf'. apply H. now right.
Qed.
Lemma indents_no_error dims typed paren r : forall level st, no_error (make_indents dims typed r paren level st).
Proof.
  induction r as [l o cs IH] using rarc_rect'. intros level st m. rewrite make_indents_eq.
  assert (R : forall st, no_error (run (map (fun c => make_indents dims typed c paren (S level)) (isort by_order cs)) st)).
  { apply run_no_error. intros f Hf a. apply in_map_iff in Hf as (c&<-&Hc). apply isort_in in Hc.
    rewrite Forall_forall in IH. now apply IH. }
  destruct (match fst st with None => _ | Some _ => _ end) as [[dim ret]|]; [|discriminate].
  destruct (Nat.eqb level 1); [destruct dim as [x|]|]; cbn [bind]; try discriminate;
    (destruct (Nat.ltb 1 level && nonempty l); [|apply R]); (destruct (sget l typed); [|discriminate]);
    try (destruct dim; [apply R|discriminate]); apply R.
Qed.
Lemma member_grid_no_error mo cols seg scen : no_error (get_member_grid mo cols seg scen).
Proof.
  intro m. unfold get_member_grid. destruct cols as [|c0 cs0]; [discriminate|]. unfold get_void_quadrant. cbv zeta.
  destruct (make_indents _ _ (reduce_trees (isort locator_less seg)) _ _ _) as [st1|e|] eqn:E1; cbn [bind]; [|intros _; exact (indents_no_error _ _ _ _ _ _ _ E1)|discriminate].
  destruct (make_indents _ _ (reduce_trees (isort locator_less scen)) _ _ _) as [st2|e|] eqn:E2; cbn [bind]; [discriminate|intros _; exact (indents_no_error _ _ _ _ _ _ _ E2)|discriminate].
Qed.
Lemma contexts_no_error tree lbl concept_of typed_order subject insts hrefs : no_error (get_relevant_contexts tree lbl concept_of typed_order subject insts hrefs).
Proof.
  intro m. destruct (relevant_spec tree lbl concept_of typed_order subject insts hrefs) as [[_ ->]|[_ (css&_&->)]]; discriminate.
Qed.
Lemma quadrant_no_error tree env io iof hrefs cols langs : no_error (get_factual_quadrant tree env io iof hrefs cols langs).
Proof. intro m. destruct (quadrant_total tree env io iof hrefs cols langs) as (r&->). discriminate. Qed.

(** ** JSON *)
Lemma the_member_of fields v k R : object fields v -> NoDup (map fst fields) -> In (k, R) fields -> the_member v k R.
Proof.
  intros O N I. destruct (object_member _ _ _ _ O N I) as (x&Rx&E). exists x. split; auto. intro y. rewrite E. split.
  - apply part_nil.
  - intros ->. constructor.
Qed.
Lemma the_member_impl v k (R S : value -> Prop) : (forall x, R x -> S x) -> the_member v k R -> the_member v k S.
Proof. intros H (x&Rx&E). exists x. auto. Qed.
Lemma the_member_has v k R : the_member v k R -> has v k R.
Proof. intros (x&Rx&E). exists x. split; auto. now apply E. Qed.

Lemma collect_In {A B} (f : A -> option B) l y : In y (collect f l) -> exists x, In x l /\ f x = Some y.
Proof.
  induction l as [|x l IH]; cbn [collect]; [intros []|]. destruct (f x) as [z|] eqn:E.
  - intros [<-|H]; [exists x; simpl; auto|]. destruct (IH H) as (x'&?&?). exists x'. simpl; auto.
  - intro H. destruct (IH H) as (x'&?&?). exists x'. simpl; auto.
Qed.

Section Grid.
  Variable w : outside.
  Variable h : hydratable.
  Variable file : string.
  Variable i : instance.
  Variable concept_is : fact -> concept -> Prop.
  Hypothesis one : hInstances h = [(file, i)].
  Hypothesis has_concept : forall fa, In fa (iFacts i) -> exists k, concept_is fa k.
  Hypothesis is_concept : forall fa k, concept_is fa k -> concept_for w h (fHref fa) = Some k.

  Lemma visited_one l : visited (hInstances h) l -> l = [i].
  Proof. unfold visited. rewrite one. cbn. intro P. now apply Permutation_sym, Permutation_length_1_inv in P. Qed.

  Lemma columns_exact tree lbl typed_order subject insts hrefs cols seg scen packs :
    visited (hInstances h) insts ->
    get_relevant_contexts tree lbl (concept_for w h) typed_order subject insts hrefs = Ok (cols, seg, scen, packs) ->
    exists cs, cols = map (fun c => fst (mk_col tree lbl typed_order c)) cs /\
      (forall r, In r (seg ++ scen)%list <-> exists c t, In c cs /\ In t (dcTyped (ctxSegment c) ++ dcTyped (ctxScenario c))%list /\
         r = tree (tdom_arcs (tmArcs t)) typedDomainArcRole) /\
      NoDup (map ctxID cs) /\
      forall c, In c cs <-> subject = ctxScheme c ++ "/" ++ ctxIdentifier c /\
        exists fa k, In fa (iFacts i) /\ In (fHref fa) hrefs /\ concept_is fa k /\ cAbstract k = false /\
          first_such (fun c => ctxID c = fContextRef fa) (iContexts i) c.
  Proof.
    intros V E. apply visited_one in V. subst insts.
    destruct (relevant_spec tree lbl (concept_for w h) typed_order subject [i] hrefs) as [[_ P]|[_ (css & F & G)]]; [congruence|].
    rewrite G in E. injection E as <- <- <- _. inversion F as [|? cs ? ? [N H] F']; subst. inversion F'; subst. cbn [concat].
    rewrite app_nil_r.
    destruct (Permutation_map_inv (fun c => fst (mk_col tree lbl typed_order c)) cs
                (Permutation_sym (isort_perm context_less (map (fun c => fst (mk_col tree lbl typed_order c)) cs)))) as (cs'&E&P).
    exists cs'. split; [exact E|]. split; [|split].
    - intro r. split.
      + intro Hr. apply in_app_iff in Hr as [Hr|Hr]; apply in_flat_map in Hr as (c&Hc&Hr); cbn in Hr; apply in_map_iff in Hr as (t&<-&Ht);
          exists c, t; (split; [exact (Permutation_in _ P Hc)|]); (split; [apply in_or_app; auto|reflexivity]).
      + intros (c&t&Hc&Ht&->). apply (Permutation_in _ (Permutation_sym P)) in Hc. apply in_app_iff in Ht as [Ht|Ht]; apply in_app_iff; [left|right];
          apply in_flat_map; exists c; (split; [exact Hc|]); cbn; apply in_map_iff; eauto.
    - eapply Permutation_NoDup; [apply Permutation_map; exact P|exact N].
    - intro c. split.
      + intro Hc. apply (Permutation_in _ (Permutation_sym P)) in Hc. apply H in Hc as (fa&Hf&Hr&(k&K&A)&R&S). split; auto.
        exists fa, k. split; auto. split; auto. split; [|auto].
        destruct (has_concept fa Hf) as (k'&K'). pose proof (is_concept _ _ K') as K2. congruence.
      + intros (S&fa&k&Hf&Hr&K&A&R). apply (Permutation_in _ P), H. exists fa. split; auto. split; auto. split; [|auto].
        exists k. split; auto.
  Qed.

  Lemma header_shown es langs c v : languages (format_header es langs (period_string c)) v -> exists p, period_of c p /\ has v "Unlabelled" (shows p).
  Proof.
    intro L. destruct (mk_col_column (fun _ _ => RArc "" (f64_of_nat 0) []) (fun _ => []) (fun _ t => tmMap t)) with (c := c)
      as (_&(p&P&E)&_); [reflexivity|]. cbn [mk_col fst rcPeriod] in E. exists p. split; auto. rewrite E in L.
    assert (M : is_map [("Unlabelled", p)]) by (repeat constructor; simpl; auto).
    apply (map_of_entry _ _ _ _ _ L); [|apply (JsonProofs.san_text "Unlabelled")].
    apply (C52_header es langs _ "Unlabelled" p M). right. split; [now left|]. intros (_&N&_). now apply N.
  Qed.

  Lemma grid_json g lbl subject hrefs cols seg scen packs langs facts fg notes es langs' members void fields v :
    grid_from w h g ->
    get_relevant_contexts (o_tree w) lbl (concept_for w h) (ge_typed_order g) subject (ge_instances g) hrefs = Ok (cols, seg, scen, packs) ->
    get_factual_quadrant (o_tree w) (ge_cell g) (ge_id_order g) (ge_id_order_final g) hrefs cols langs = Ok (facts, fg, notes) ->
    (hrefs <> [] -> In "Unlabelled" langs) ->
    object fields v -> NoDup (map fst fields) ->
    incl (columns_fields (format_relevant_period es (get_period_headers cols) langs') members void) fields ->
    incl (facts_fields facts fg notes) fields ->
    exists cs, cols = map (fun c => fst (mk_col (o_tree w) lbl (ge_typed_order g) c)) cs /\
      (forall r, In r (seg ++ scen)%list <-> exists c t, In c cs /\ In t (dcTyped (ctxSegment c) ++ dcTyped (ctxScenario c))%list /\
         r = o_tree w (tdom_arcs (tmArcs t)) typedDomainArcRole) /\
      grid_shows (iFacts i) (iContexts i) concept_is subject (renders_from w h) v hrefs cs.
  Proof.
    intros GF EC EQ UL O ND I1 I2.
    destruct (columns_exact _ _ _ _ _ _ _ _ _ _ (gf_instances _ _ _ GF) EC) as (cs&->&TT&NC&IC).
    assert (QM : the_member v "FactualQuadrant" (list_of (list_of fact_value) facts)).
    { eapply the_member_of; eauto. apply I2. now left. }
    exists cs. split; [reflexivity|]. split; [exact TT|]. split; auto.
    - eapply the_member_impl; [|eapply (the_member_of _ _ "PeriodHeaders"); eauto; apply I1; now left].
      intros x (vs&->&F). exists vs. split; auto. unfold get_period_headers, format_relevant_period in F. rewrite !map_map in F.
      clear -F. revert vs F. induction cs as [|c cs IH]; intros vs F; cbn [map] in F; inversion F; subst; constructor; auto.
      eapply header_shown; eassumption.
    - eapply the_member_impl; [|exact QM]. intros x (vs&->&F). exists vs. split; auto.
      apply C17_factual_quadrant in EQ as [Q1 Q2]. split; [|split].
      + intros ->. destruct Q1 as (->&_&_); [now right|]. now inversion F.
      + intros NE. destruct hrefs as [|h0 hs].
        * destruct Q1 as (->&_&_); [now left|]. inversion F. reflexivity.
        * destruct Q2 as [[L _] _]; [discriminate|destruct cs; [congruence|discriminate]|]. now rewrite <- (Forall2_len _ _ _ F).
      + intros r Hr. destruct (Forall2_In_r _ _ _ _ F Hr) as (row&Hrow&(us&->&FU)). exists us. split; auto.
        rewrite <- (Forall2_len _ _ _ FU). destruct hrefs as [|h0 hs]; [destruct Q1 as (->&_&_); [now left|destruct Hrow]|].
        destruct cs as [|c cs]; [destruct Q1 as (->&_&_); [now right|destruct Hrow]|].
        destruct Q2 as [[_ L] _]; [discriminate|discriminate|]. rewrite (L _ Hrow). apply map_length.
    - intros a b href c Ha Hb. eapply the_member_impl; [|exact QM]. intros x (vs&->&F).
      assert (HP : forall i0 j, Permutation (ce_facts (ge_cell g i0 j)) [i]).
      { intros i0 j. rewrite (visited_one _ (gf_facts _ _ _ GF i0 j)). reflexivity. }
      assert (Hb' : nth_error (map (fun c => fst (mk_col (o_tree w) lbl (ge_typed_order g) c)) cs) b = Some (fst (mk_col (o_tree w) lbl (ge_typed_order g) c)))
        by exact (map_nth_error (fun c => fst (mk_col (o_tree w) lbl (ge_typed_order g) c)) b cs Hb).
      destruct (C18_one_instance _ _ _ _ _ _ _ _ _ _ _ _ _ _ _ HP EQ Ha Hb') as (m&(row&Hr&Hm)&C).
      destruct (Forall2_nth _ _ _ _ _ F Hr) as (y&Hy&(us&->&FU)). destruct (Forall2_nth _ _ _ _ _ FU Hm) as (u&Hu&U).
      exists vs, (JArr us). split; auto. split; auto. exists us, u. split; auto. split; auto.
      change (rcContextRef (fst (mk_col (o_tree w) lbl (ge_typed_order g) c))) with (ctxID c) in C.
      destruct C as [(fa&FS&R)|[NF ->]]; [left|right; split; auto].
      pose proof FS as FS'. apply first_such_In in FS' as [Hfa [EH _]]. destruct (has_concept _ Hfa) as (k&K). exists fa, k. split; auto. split; auto.
      destruct (fIsNil fa) eqn:NI; [left|right]; (split; [exact NI|]).
      + rewrite (proj2 (C75_no_fact _ langs _ NI)) in R. injection R as <-. exact U.
      + set (e := ce_render (ge_cell g a b)) in *. exists e, m. split; [apply gf_render; auto|].
        split; [rewrite (rf_concept _ _ _ (gf_render _ _ _ GF a b)); now apply is_concept|]. split; auto.
        destruct (C75_languages e fa langs NI) as (m'&R'&M&L). rewrite R in R'. injection R' as <-. split; auto.
        split; [apply L; split; [apply UL; intros ->; now destruct a|simpl; auto]|].
        intros lang x Hx. split; [apply (in_map fst) in Hx; now apply L in Hx|]. eapply C85_expression; eauto.
  Qed.

  (** ** The three kinds of grid *)
  Definition pure (p : label_pack) : Prop := is_pack p /\ exists t, holds p "Default" "Unlabelled" t.
  Lemma labels_pure lbl href : labels_from h lbl -> pure (lbl href).
  Proof.
    intro L. destruct (L href) as (order&_&->). split; [apply get_label_is_pack|]. exists href. apply C34_texts. auto.
  Qed.
  Lemma pure_last packs p : (forall q, In q packs -> is_pack q) -> pure p -> In "Unlabelled" (snd (roles_and_langs (packs ++ [p]))).
  Proof.
    intros A [P (t&m&Hm&Ht)]. apply C36_languages_partial.
    - intros q Hq. apply in_app_iff in Hq as [Hq|[<-|[]]]; auto.
    - exists "Default", p, m. split; [|split; [auto|apply (in_map fst) in Ht; exact Ht]].
      exists packs, []. split; [reflexivity|]. split; [apply (in_map fst) in Hm; exact Hm|intros ? []].
  Qed.
  Lemma pure_all packs : packs <> [] -> (forall q, In q packs -> pure q) -> In "Unlabelled" (snd (roles_and_langs packs)).
  Proof.
    intros N A. destruct (exists_last N) as (l&p&->). apply pure_last; [|apply A, in_or_app; simpl; auto].
    intros q Hq. apply A, in_or_app. auto.
  Qed.
  Lemma context_pure tree lbl concept_of typed_order entity insts hrefs cols seg scen packs : labels_from h lbl ->
    get_relevant_contexts tree lbl concept_of typed_order entity insts hrefs = Ok (cols, seg, scen, packs) ->
    forall p, In p packs -> pure p.
  Proof.
    intros LP E p Hp.
    destruct (relevant_spec tree lbl concept_of typed_order entity insts hrefs) as [[_ P]|[_ (css & F & Q)]]; [congruence|].
    rewrite Q in E. injection E as _ _ _ <-. apply in_flat_map in Hp. destruct Hp as (c & Hc & Hp).
    cbn in Hp. apply (context_packs _ tree typed_order) in Hp. destruct Hp as (x & d & -> & _). now apply labels_pure.
  Qed.

  (** the columns and cells of a grid *)
  Definition grid_data (subject : string) (hrefs : list string) (periods : list language_pack) members void facts fg notes : Prop :=
    exists g lbl cols seg scen packs langs, grid_from w h g /\
      get_relevant_contexts (o_tree w) lbl (concept_for w h) (ge_typed_order g) subject (ge_instances g) hrefs = Ok (cols, seg, scen, packs) /\
      get_factual_quadrant (o_tree w) (ge_cell g) (ge_id_order g) (ge_id_order_final g) hrefs cols langs = Ok (facts, fg, notes) /\
      (hrefs <> [] -> In "Unlabelled" langs) /\ periods = get_period_headers cols /\
      get_member_grid (ge_member_order g) cols seg scen = Ok (members, void).
  Lemma data_json subject hrefs periods facts fg notes es langs' members void fields v : grid_data subject hrefs periods members void facts fg notes ->
    object fields v -> NoDup (map fst fields) ->
    incl (columns_fields (format_relevant_period es periods langs') members void) fields ->
    incl (facts_fields facts fg notes) fields ->
    exists cs, grid_shows (iFacts i) (iContexts i) concept_is subject (renders_from w h) v hrefs cs.
  Proof. intros (g&lbl&cols&seg&scen&packs&langs&G&C&Q&U&->&_) O ND I1 I2.
    edestruct grid_json as (cs&_&_&GS); eauto.
  Qed.

  Lemma p_data entity role p pg roles langs : p_grids w h entity role p -> p = Ok (pg, roles, langs) ->
    grid_data entity (map ilHref (pgLabels pg)) (pgPeriods pg) (pgMembers pg) (pgVoid pg) (pgFacts pg) (pgFootnoteGrid pg) (pgFootnotes pg).
  Proof.
    intros (lbl&g&lbs&L&G&_&->). unfold p_grid_of.
    destruct (get_indented_labels _ _ _ _) as [labels packs] eqn:EL.
    destruct (get_relevant_contexts _ _ _ _ _ _ _) as [[[[cols seg] scen] cp]| |] eqn:E; cbn [bind]; try discriminate.
    destruct (ge_destruct _ _) as [rs ls] eqn:RL.
    destruct (get_factual_quadrant _ _ _ _ _ _ _) as [[[f g0] n]| |] eqn:F; cbn [bind]; try discriminate.
    destruct (get_member_grid _ _ _ _) as [[m v]| |] eqn:MG; cbn [bind]; try discriminate.
    intros [= <- _ _]. cbn [pgLabels pgPeriods pgMembers pgVoid pgFacts pgFootnoteGrid pgFootnotes].
    exists g, lbl, cols, seg, scen, cp, ls. split; auto. split; auto. split; auto. split; [|split; [reflexivity|exact MG]]. intro NE.
    change ls with (snd (rs, ls)). rewrite <- RL. eapply Permutation_in; [apply Permutation_sym, (gf_destruct _ _ _ G)|]. unfold get_indented_labels in EL.
    destruct (first_link role lbs) as [[lb k]|]; injection EL as <- <-; [|now contradiction NE].
    apply pure_all.
    - intro X. apply app_eq_nil in X as [X _]. apply NE. apply map_eq_nil in X. now rewrite X.
    - intros q Hq. apply in_app_iff in Hq as [Hq|Hq]; [|eapply context_pure; eauto].
      apply in_map_iff in Hq as (x&<-&Hx). apply in_map_iff in Hx as (y&<-&_). now apply labels_pure.
  Qed.
  Definition item_data (entity : string) (s : summation_item) : Prop :=
    grid_data entity (map ccHref (siContributing s) ++ [siHref s]) (siPeriods s) (siMembers s) (siVoid s) (siFacts s) (siFootnoteGrid s) (siFootnotes s).
  Lemma c_data entity role c items roles langs : c_grids w h entity role c -> c = Ok (items, roles, langs) -> Forall (item_data entity) items.
  Proof.
    intros (lbl&genv&order&lbs&L&G&_&_&->). unfold get_summation_items.
    destruct (calc_link role [] lbs) as [[lb k]|]; [|intros [= <- _ _]; constructor].
    cbv zeta. destruct (foldM _ _ _) as [st| |] eqn:E; cbn [bind]; try discriminate. intros [= <- _ _].
    enough (P : (forall q, In q (stPacks st) -> pure q) /\ Forall (item_data entity) (stItems st)).
    { apply Forall_forall. intros x Hx. rewrite isort_in in Hx. destruct P as [_ P]. rewrite Forall_forall in P. auto. }
    revert E. apply foldM_inv with (P := fun st => (forall q, In q (stPacks st) -> pure q) /\ Forall (item_data entity) (stItems st));
      [|split; [intros ? []|constructor]].
    intros a [from slice] a' [PA PI]. unfold c_source. cbv zeta. set (cs := collect _ _).
    destruct (get_relevant_contexts _ _ _ _ _ _ _) as [[[[cols seg] scen] cp]| |] eqn:E; cbn [bind]; try discriminate.
    destruct (ge_destruct _ _) as [rs ls] eqn:RL.
    destruct (get_factual_quadrant _ _ _ _ _ _ _) as [[[f g0] n]| |] eqn:F; cbn [bind]; try discriminate.
    assert (PP : forall q, In q (stPacks a ++ map ccLabel cs ++ [lbl from] ++ cp) -> pure q).
    { intros q Hq. rewrite !in_app_iff in Hq. destruct Hq as [Hq|[Hq|[[<-|[]]|Hq]]]; auto.
      - apply in_map_iff in Hq as (x&<-&Hx). apply collect_In in Hx as (y&_&Y). unfold contributing_of in Y.
        destruct (concept_for w h (csHref y)); [|discriminate Y]. injection Y as <-. now apply labels_pure.
      - now apply labels_pure.
      - eapply context_pure; eauto. }
    destruct (concept_for w h from); [|intros [= <-]; split; auto].
    destruct (get_member_grid _ _ _ _) as [[m v]| |] eqn:MG; cbn [bind]; try discriminate.
    intros [= <-]. cbn [stItems stPacks]. split; auto. apply Forall_app. split; auto. constructor; auto.
    exists (genv from), lbl, cols, seg, scen, cp, ls. cbn [siContributing siHref siMembers siVoid siFacts siPeriods siFootnoteGrid siFootnotes].
    split; auto. split; auto. split; auto. split; [|split; [reflexivity|exact MG]]. intros _. change ls with (snd (rs, ls)). rewrite <- RL. eapply Permutation_in; [apply Permutation_sym, (gf_destruct _ _ _ (G from))|]. apply pure_all; auto.
    intro X. apply app_eq_nil in X as [_ X]. apply app_eq_nil in X as [_ X]. discriminate X.
  Qed.
  Definition root_data (entity : string) (r : root_domain) : Prop :=
    grid_data entity (rdHref r :: map ilHref (rdItems r)) (rdPeriods r) (rdMembers r) (rdVoid r) (rdFacts r) (rdFootnoteGrid r) (rdFootnotes r).
  Lemma d_data entity role d dg roles langs : d_grids w h entity role d -> d = Ok (dg, roles, langs) -> Forall (root_data entity) (dgRootDomains dg).
  Proof.
    intros (lbl&genv&dims_order&order&lbs&lbs'&L&G&_&_&_&_&->). unfold d_grid_of, get_root_domains.
    destruct (foldM _ _ _) as [st| |] eqn:E; cbn [bind]; try discriminate. intros [= <- _ _]. cbn [dgRootDomains].
    set (P := fun st => (forall q, In q (dsPacks st) -> is_pack q) /\ Forall (root_data entity) (dsRet st)).
    enough (Q : P st) by apply Q. revert E. apply foldM_inv; [|split; [intros ? []|constructor]].
    intros a lb a' PA. apply foldM_inv; [|exact PA].
    clear a a' PA. intros a k a' PA. unfold d_link. destruct (ge_destruct _ _) as [r0 l0]. destruct (link_networks _ _) as [pr nw].
    apply foldM_inv; [|exact PA].
    clear a a' PA. intros a root a' [PP PR]. unfold d_root. destruct (get_effective_domain_grid _ _ _ _ _) as [ed el] eqn:ED.
    cbv zeta. destruct (get_relevant_contexts _ _ _ _ _ _ _) as [[[[cols seg] scen] cp]| |] eqn:E; cbn [bind]; try discriminate.
    destruct (get_member_grid _ _ _ _) as [[m v]| |] eqn:MG; cbn [bind]; try discriminate.
    destruct (ge_destruct _ _) as [rs ls] eqn:RL.
    destruct (get_factual_quadrant _ _ _ _ _ _ _) as [[[f g0] n]| |] eqn:F; cbn [bind]; try discriminate.
    intros [= <-].
    assert (LP : forall x, is_pack (lbl x)) by (intro x; now apply labels_pure).
    assert (K : forall q, In q (dsPacks a ++ map ilLabel (map (fun x => IndentedLabel (map_locator_to_href role lb (fst x)) (lbl (map_locator_to_href role lb (fst x))) (snd x)) (listing root 0)) ++ el ++ cp) -> is_pack q).
    { intros q Hq. rewrite !in_app_iff in Hq. destruct Hq as [Hq|[Hq|[Hq|Hq]]]; auto.
      - apply in_map_iff in Hq as (x&<-&Hx). apply in_map_iff in Hx as (y&<-&_). apply LP.
      - unfold get_effective_domain_grid in ED. apply (f_equal snd) in ED. cbn [snd] in ED. subst el. apply in_flat_map in Hq as (i0&_&Hq). apply in_flat_map in Hq as (d0&_&Hq).
        now apply (effective_packs (map_locator_to_href role lb) lbl nw i0 d0).
      - eapply context_pure in Hq; [apply Hq|exact L|exact E]. }
    split.
    - cbn [dsPacks]. intros q Hq. rewrite !in_app_iff in Hq.
      destruct Hq as [Hq|[Hq|[Hq|[Hq|[<-|[]]]]]]; [| | | |apply LP]; apply K; rewrite !in_app_iff; auto.
    - cbn [dsRet]. apply Forall_app. split; auto. constructor; auto.
      exists (genv (length (dsRet a))), lbl, cols, seg, scen, cp, (dsLangs a ++ ls)%list. cbn [rdHref rdItems rdPeriods rdMembers rdVoid rdFacts rdFootnoteGrid rdFootnotes].
      split; auto. split; auto. split; auto. split; [|split; [reflexivity|exact MG]]. intros _. apply in_or_app. right. change ls with (snd (rs, ls)). rewrite <- RL. eapply Permutation_in; [apply Permutation_sym, (gf_destruct _ _ _ (G _))|].
      rewrite !app_assoc. apply pure_last; [|now apply labels_pure]. rewrite <- !app_assoc. exact K.
  Qed.
End Grid.

(** ** Concepts *)
Section Concepts.
  Variable d : disk.
  Variable dir : string.
  Variable root : tree.
  Variable fd : folder.
  Hypothesis schemas : forall h f, In (h, f) (fdSchemas fd) <-> exists t, followed_at d dir root h t /\ f = schema_struct t.
  Hypothesis claimed : forall ns h, In (ns, h) (fdNamespaces fd) -> claims_at d dir root ns h.
  Hypothesis all_claimed : forall ns h, claims_at d dir root ns h -> exists h', In (ns, h') (fdNamespaces fd).
  Hypothesis plain : forall h t, known d dir root h t -> plain_declarations t.
  Hypothesis ids : identified d dir root.
  Hypothesis sound : qenv_ok (env_of fd (d_url d) (global_schema_file d)).

  Lemma declared_found order ns l href c : one_claim d dir root ns -> LoadSpec.declared d dir root ns l href c ->
    exists k, hash_query order (env_of fd (d_url d) (global_schema_file d)) href = Ok (k, c).
  Proof.
    intros O D. pose proof D as (h&t&cs&C&Nh&K&I&_).
    apply (declared_names d dir root fd) in D; auto. apply name_query_iff in D; auto.
    destruct (name_then_hash order _ ns l href c sound D) as (k&H&_); eauto.
    intros loc f cs' Hl Hd Hc. rewrite (O loc h (claimed _ _ Hl) C) in *. split; [eapply ids; eauto|].
    destruct cs' as [|c0 r]; [constructor|].
    apply (document_iff d dir root fd schemas h f c0 (c0 :: r) Hc (or_introl eq_refl)) in Hd as (t'&K'&->).
    apply concepts_of_iff in Hc; [|eauto]. eapply ids; eauto.
  Qed.
End Concepts.
