(** * SteadyProps: C149 (a network that is computed again looks the same) *)
From Coq Require Import String List Bool Arith Lia Permutation ZArith.
From Verif Require Import GoBase GoSpec GoFacts AttrModel AttrSpec AttrProofs SchemaModel SchemaSpec SchemaProofs SchemaProps
  LinkbaseModel LinkbaseSpec LinkbaseProofs LinkbaseProps InstanceModel InstanceSpec InstanceProofs InstanceProps
  HydrateModel HydrateSpec HydrateProofs HydrateProps LabelModel LabelSpec LabelProofs LabelProps PeriodModel PeriodSpec PeriodProofs PeriodProps
  FactModel FactSpec FactProofs FactProps GridModel GridSpec GridProofs GridProps CalcModel CalcSpec CalcProofs CalcProps DefModel DefSpec DefProofs DefProps
  RenderModel RenderSpec RenderProofs RenderProps ExpressModel ExpressSpec ExpressProofs ExpressProps
  DiscoverModel DiscoverSpec DiscoverProofs DiscoverProps XmlModel XmlSpec XmlProofs XmlProps LoadModel LoadSpec LoadProofs LoadProps
  CatalogModel CatalogSpec CatalogProofs CatalogProps ReportModel ResponseModel ResponseSpec ResponseProofs ResponseProps EndToEndSpec EndToEndProps
  ReportSpec ReportProofs ReportProps NetworkSpec NetworkProps DimNetSpec DimNetProps SteadySpec SteadyProofs.
Import ListNotations.
Local Open Scope string_scope.

(** ** What an answer shows of its grids *)
Lemma plain_all hs : Forall plain_header hs -> exists ps, hs = map (fun p => [("Unlabelled", p)]) ps.
Proof.
  induction 1 as [|x hs (p&->) F (ps&->)]; [now exists []|]. now exists (p :: ps).
Qed.
Lemma list_of_impl {A} (R S : A -> value -> Prop) l v : (forall a u, R a u -> S a u) -> list_of R l v -> list_of S l v.
Proof. intros H (vs&->&F). exists vs. split; auto. induction F; constructor; auto. Qed.
Lemma headers_shown es langs ps v : list_of languages (format_relevant_period es (map (fun p => [("Unlabelled", p)]) ps) langs) v -> list_of header_of ps v.
Proof.
  unfold format_relevant_period. rewrite map_map. intros (vs&->&F). exists vs. split; auto.
  revert vs F. induction ps as [|p ps IH]; cbn [map]; intros vs F; inversion F as [|a u l us X F']; subst; constructor; auto. clear - X.
  assert (M : is_map [("Unlabelled", p)]) by (repeat constructor; simpl; auto).
  apply (map_of_entry _ _ _ _ _ X); [|apply (JsonProofs.san_text "Unlabelled")].
  apply (C52_header es langs _ "Unlabelled" p M). right. split; [now left|]. intros (_&N&_). now apply N.
Qed.
Ltac keys := cbn; repeat constructor; simpl; intuition congruence.
Lemma presentation_shows es p ps langs u : pgPeriods p = map (fun p => [("Unlabelled", p)]) ps -> p_grid_value (format_p es langs p) u ->
  the_member u "IndentedLabels" (list_of (row_value "Indentation") (pgLabels p)) /\ table_of (pgMembers p) (pgVoid p) (pgFacts p) ps u.
Proof.
  intros E U. unfold p_grid_value in U. cbn [format_p pgLabels pgPeriods pgMembers pgVoid pgFacts pgFootnoteGrid pgFootnotes] in U. rewrite E in U.
  split; [eapply (the_member_of _ _ "IndentedLabels"); [exact U|keys|left; reflexivity]|]. repeat split.
  - eapply (the_member_of _ _ "ContextualMemberGrid"); [exact U|keys|do 2 right; left; reflexivity].
  - eapply (the_member_of _ _ "VoidQuadrant"); [exact U|keys|do 3 right; left; reflexivity].
  - eapply (the_member_of _ _ "FactualQuadrant"); [exact U|keys|do 4 right; left; reflexivity].
  - eapply the_member_impl; [|eapply (the_member_of _ _ "PeriodHeaders"); [exact U|keys|right; left; reflexivity]]. apply headers_shown.
Qed.
Lemma root_shows es r ps langs u : rdPeriods r = map (fun p => [("Unlabelled", p)]) ps -> root_value (format_root es langs r) u -> root_of (r, ps) u.
Proof.
  intros E U. unfold root_value in U. cbn [format_root rdHref rdLabel rdItems rdPeriods rdMembers rdVoid rdFacts rdFootnoteGrid rdFootnotes rdDomains rdDimensions] in U. rewrite E in U.
  unfold root_of. cbn [fst snd].
  split; [eapply (the_member_of _ _ "Href"); [exact U|keys|left; reflexivity]|].
  split; [eapply (the_member_of _ _ "Label"); [exact U|keys|right; left; reflexivity]|].
  split; [eapply (the_member_of _ _ "PrimaryItems"); [exact U|keys|do 2 right; left; reflexivity]|].
  split; [eapply (the_member_of _ _ "EffectiveDomainGrid"); [exact U|keys|do 9 right; left; reflexivity]|].
  split; [eapply (the_member_of _ _ "EffectiveDimensions"); [exact U|keys|do 10 right; left; reflexivity]|].
  repeat split.
  - eapply (the_member_of _ _ "ContextualMemberGrid"); [exact U|keys|do 4 right; left; reflexivity].
  - eapply (the_member_of _ _ "VoidQuadrant"); [exact U|keys|do 5 right; left; reflexivity].
  - eapply (the_member_of _ _ "FactualQuadrant"); [exact U|keys|do 6 right; left; reflexivity].
  - eapply the_member_impl; [|eapply (the_member_of _ _ "PeriodHeaders"); [exact U|keys|do 3 right; left; reflexivity]]. apply headers_shown.
Qed.
(** a list of roots with the periods of each *)
Definition with_periods (r : root_domain) : root_domain * list string := (r, map (fun h => match h with (_, p) :: _ => p | [] => "" end) (rdPeriods r)).
Lemma periods_back ps : map (fun h : list (string * string) => match h with (_, p) :: _ => p | [] => "" end) (map (fun p => [("Unlabelled", p)]) ps) = ps.
Proof. rewrite map_map. cbn. apply map_id. Qed.
Lemma roots_show es langs rs v : Forall (fun r => Forall plain_header (rdPeriods r)) rs -> list_of root_value (map (format_root es langs) rs) v ->
  list_of root_of (map with_periods rs) v.
Proof.
  intros PL (vs&->&F). exists vs. split; auto. revert vs F. induction PL as [|r rs P PL IH]; cbn [map]; intros vs F; inversion F as [|a u l us X F']; subst; constructor; auto.
  destruct (plain_all _ P) as (ps&E). unfold with_periods. rewrite E, periods_back. eapply root_shows; eauto.
Qed.
Lemma definition_shows es d langs u : Forall (fun r => Forall plain_header (rdPeriods r)) (dgRootDomains d) -> d_grid_value (format_d es langs d) u ->
  the_member u "RootDomains" (list_of root_of (map with_periods (dgRootDomains d))) /\
  the_member u "DRS" (fun x => the_member x "Nodes" (list_of concept_with_labels (drsNodes (dgDRS d))) /\ the_member x "Links" (list_of drs_link_value (drsLinks (dgDRS d)))).
Proof.
  intros PL U. unfold d_grid_value in U. cbn [format_d dgRootDomains dgDRS] in U. split.
  - eapply the_member_impl; [|eapply (the_member_of _ _ "RootDomains"); [exact U|keys|left; reflexivity]]. intros x. now apply roots_show.
  - eapply the_member_impl; [|eapply (the_member_of _ _ "DRS"); [exact U|keys|right; left; reflexivity]]. intros x X.
    split; [eapply (the_member_of _ _ "Nodes"); [exact X|keys|left; reflexivity]|eapply (the_member_of _ _ "Links"); [exact X|keys|right; left; reflexivity]].
Qed.
(** cells whose languages come in another order show the same *)
Lemma facts_shown facts facts' u : same_facts facts facts' -> list_of (list_of fact_value) facts' u -> list_of (list_of fact_value) facts u.
Proof.
  intros S (vs&->&F). exists vs. split; auto. revert vs F. induction S as [|r r' rs rs' X S IH]; intros vs F; inversion F as [|? u ? us Y F']; subst; constructor; auto.
  clear - X Y. destruct Y as (vs&->&F). exists vs. split; auto. revert vs F.
  induction X as [|c c' cs cs' P X IH]; intros vs F; inversion F as [|? u ? us Y F']; subst; constructor; auto.
  destruct Y as (l&ms&P'&Y). exists l, ms. split; auto. now rewrite P.
Qed.
Lemma table_shown members void facts facts' periods u : same_facts facts facts' -> table_of members void facts' periods u -> table_of members void facts periods u.
Proof.
  intros S (A&B&C&D). split; [exact A|]. split; [exact B|]. split; [|exact D]. eapply the_member_impl; [|exact C]. intro x. now apply facts_shown.
Qed.
(** roots of which only the footnotes and the orders of languages differ show the same *)
Lemma same_shown r r' u : same_root r r' -> root_of (with_periods r') u -> root_of (with_periods r) u.
Proof. intros (E1&E2&E3&E4&E5&E6&E7&E8&E9&_). unfold with_periods, root_of. cbn [fst snd]. rewrite E1, E2, E3, E4, E5, E6, E8, E9.
  intros (A1&A2&A3&A4&A5&T). repeat (split; [assumption|]). eapply table_shown; eauto. Qed.
Lemma same_list rs rs' v : Forall2 same_root rs rs' -> list_of root_of (map with_periods rs') v -> list_of root_of (map with_periods rs) v.
Proof.
  intros S (vs&->&F). exists vs. split; auto. revert vs F. induction S as [|r r' rs rs' X S IH]; cbn [map]; intros vs F; inversion F; subst; constructor; auto.
  eapply same_shown; eauto.
Qed.

(** ** One answer *)
Lemma answered w h slug b : plain_report h -> marshalled_renderable w h slug (Ok (Some b)) ->
  exists e r name p d v,
    find_slug slug (sorted_entities (own_insts h)) (sorted_relationship_sets (map snd (hSchemas h))) = Some (e, r) /\
    entity_query (o_names w) (eScheme e) (eChar e) = Ok name /\ reads_as b v /\
    the_member v "Subject" (subject_value (Subject name e)) /\ the_member v "RelationshipSet" (relationship_set r) /\
    p_grids w h (stringify e) (rsRole r) p /\ d_grids w h (stringify e) (rsRole r) d /\
    the_member v "PGrid" (fun u => the_member u "IndentedLabels" (list_of (row_value "Indentation") (pgLabels (grid_or zero_p p))) /\
      exists ps, pgPeriods (grid_or zero_p p) = map (fun p => [("Unlabelled", p)]) ps /\
        table_of (pgMembers (grid_or zero_p p)) (pgVoid (grid_or zero_p p)) (pgFacts (grid_or zero_p p)) ps u) /\
    the_member v "DGrid" (fun u => the_member u "RootDomains" (list_of root_of (map with_periods (dgRootDomains (grid_or zero_d d)))) /\
      the_member u "DRS" (fun x => the_member x "Nodes" (list_of concept_with_labels (drsNodes (dgDRS (grid_or zero_d d)))) /\
                                   the_member x "Links" (list_of drs_link_value (drsLinks (dgDRS (grid_or zero_d d)))))).
Proof.
  intros PR M. inversion M as [o R E|]; subst. inversion R as [|insts schemas e r p d c conf VI VS F PG DG CG NP ND NC ST DN EQ]; subst.
  rewrite (entities_perm _ _ (Permutation_sym VI)) in F. rewrite (rsets_perm _ _ (Permutation_sym VS)) in F.
  unfold marshal_renderable in EQ. rewrite (entities_perm _ _ (Permutation_sym VI)), (rsets_perm _ _ (Permutation_sym VS)), F in EQ.
  destruct (entity_query _ _ _) as [name| |] eqn:Q; cbn [bind renderable_bytes] in EQ; try discriminate EQ. injection EQ as EQ.
  exists e, r, name, p, d. unfold rendered in EQ. cbn [rnSet] in EQ.
  match type of EQ with context [Renderable r (Subject name e) (?g, ?a, ?b)] =>
    destruct (C119_renderable (linked (rsRole r) (map snd (hCalculation h))) r (Subject name e) g a b) as (v&J&V) end.
  rewrite EQ in J. exists v. split; [exact F|]. split; [exact Q|]. split; [exact J|].
  split; [eapply (the_member_of _ _ "Subject"); [exact V|keys|right; left; reflexivity]|].
  split; [eapply (the_member_of _ _ "RelationshipSet"); [exact V|keys|left; reflexivity]|].
  split; [exact PG|]. split; [exact DG|]. split.
  - eapply the_member_impl; [|eapply (the_member_of _ _ "PGrid"); [exact V|keys|do 4 right; left; reflexivity]]. intros u U. cbn [gdP] in U.
    assert (PL : Forall plain_header (pgPeriods (grid_or zero_p p))).
    { destruct p as [[[g rs] ls]| |]; cbn; try constructor. destruct PG as (lbl&ge&lbs&_&_&_&E). symmetry in E. eapply p_plain; exact E. }
    destruct (plain_all _ PL) as (ps&E). destruct (presentation_shows _ _ _ _ _ E U) as [A B]. split; [exact A|]. exists ps. split; [exact E|exact B].
  - eapply the_member_impl; [|eapply (the_member_of _ _ "DGrid"); [exact V|keys|do 5 right; left; reflexivity]]. intros u U. cbn [gdD] in U.
    assert (PL : Forall (fun r => Forall plain_header (rdPeriods r)) (dgRootDomains (grid_or zero_d d))).
    { destruct d as [[[g rs] ls]| |]; cbn; try constructor. destruct DG as (lbl&genv&dims&order&lbs&lbs'&_&_&_&_&_&_&E). symmetry in E. eapply d_plain; exact E. }
    exact (definition_shows _ _ _ _ PL U).
Qed.

(** C149: of a plain report, two answers for one network show the same subject and relationship set. If the role is drawn by at
    most one presentation linkbase they show the same presentation: rows, columns, members and cells. If there is at most one
    definition linkbase they show the same dimensions. Whatever the orders and the schedules of the two. *)
Theorem C149_same_partial :
  forall w h slug b1 b2, plain_report h ->
    marshalled_renderable w h slug (Ok (Some b1)) -> marshalled_renderable w h slug (Ok (Some b2)) ->
    exists s r v1 v2, reads_as b1 v1 /\ reads_as b2 v2 /\
      (the_member v1 "Subject" (subject_value s) /\ the_member v2 "Subject" (subject_value s)) /\
      (the_member v1 "RelationshipSet" (relationship_set r) /\ the_member v2 "RelationshipSet" (relationship_set r)) /\
      (at_most_one (draws (rsRole r)) (map snd (hPresentation h)) ->
         exists rows members void facts periods,
           presentation_of rows members void facts periods v1 /\ presentation_of rows members void facts periods v2) /\
      (length (hDefinition h) <= 1 -> exists roots d, definition_of roots d v1 /\ definition_of roots d v2).
Proof.
  intros w h slug b1 b2 PR M1 M2.
  destruct (answered w h slug b1 PR M1) as (e&r&name&p&d&v1&F&Q&J1&S1&R1&P1&D1&VP1&VD1).
  destruct (answered w h slug b2 PR M2) as (e'&r'&name'&p'&d'&v2&F'&Q'&J2&S2&R2&P2&D2&VP2&VD2).
  rewrite F in F'. injection F' as <- <-. rewrite Q in Q'. injection Q' as <-.
  exists (Subject name e), r, v1, v2. split; [exact J1|]. split; [exact J2|]. split; [now split|]. split; [now split|]. split.
  - intro A. pose proof (p_same w h (stringify e) (rsRole r) p p' PR A P1 P2) as S.
    assert (G : pgLabels (grid_or zero_p p) = pgLabels (grid_or zero_p p') /\ pgPeriods (grid_or zero_p p) = pgPeriods (grid_or zero_p p') /\
      pgMembers (grid_or zero_p p) = pgMembers (grid_or zero_p p') /\ pgVoid (grid_or zero_p p) = pgVoid (grid_or zero_p p') /\
      same_facts (pgFacts (grid_or zero_p p)) (pgFacts (grid_or zero_p p'))).
    { unfold same_p in S. destruct p as [[[g rs] ls]| |], p' as [[[g' rs'] ls']| |]; cbn in *; try contradiction; auto using same_facts_nil. }
    destruct G as (G1&G2&G3&G4&G5). rewrite <- G1, <- G2, <- G3, <- G4 in VP2.
    assert (X : exists ps, pgPeriods (grid_or zero_p p) = map (fun p => [("Unlabelled", p)]) ps) by (destruct VP1 as (x&(_&ps&E&_)&_); eauto).
    destruct X as (ps&E).
    assert (U : forall qs, pgPeriods (grid_or zero_p p) = map (fun p => [("Unlabelled", p)]) qs -> qs = ps).
    { intros qs E'. rewrite <- (periods_back ps), <- (periods_back qs). congruence. }
    exists (pgLabels (grid_or zero_p p)), (pgMembers (grid_or zero_p p)), (pgVoid (grid_or zero_p p)), (pgFacts (grid_or zero_p p)), ps.
    split; (eapply the_member_impl; [|eassumption]); intros u (A1&qs&E'&B); rewrite (U qs E') in B; (split; [exact A1|]); [exact B|].
    eapply table_shown; eauto.
  - intro A. pose proof (d_same w h (stringify e) (rsRole r) d d' PR A D1 D2) as S.
    assert (G : Forall2 same_root (dgRootDomains (grid_or zero_d d)) (dgRootDomains (grid_or zero_d d')) /\ dgDRS (grid_or zero_d d) = dgDRS (grid_or zero_d d')).
    { unfold same_d, both in S. destruct d as [[[g rs] ls]| |], d' as [[[g' rs'] ls']| |]; cbn in *; try contradiction; auto. }
    destruct G as [G1 G2]. exists (map with_periods (dgRootDomains (grid_or zero_d d))), (dgDRS (grid_or zero_d d)). split; [exact VD1|].
    rewrite <- G2 in VD2. eapply the_member_impl; [|exact VD2]. intros u (A1&B). split; [|exact B].
    eapply the_member_impl; [|exact A1]. intros x. now apply same_list.
Qed.
Print Assumptions C149_same_partial.

(** ** That is not all that is asked for *)
Definition orderly : list (nat * nat) := (repeat (0, 0) 9 ++ repeat (1, 0) 6 ++ repeat (2, 0) 6)%list.
Definition hasty : list (nat * nat) := ([(1, 0)] ++ repeat (0, 0) 4 ++ repeat (1, 0) 3 ++ repeat (0, 0) 5 ++ repeat (1, 0) 2 ++ repeat (2, 0) 6)%list.
Definition pair_start : rconf := started (own_p pair_outside pair_report (stringify pair_entity) (rsRole pair_set))
  (own_d pair_outside pair_report (stringify pair_entity) (rsRole pair_set)) (own_c pair_outside pair_report (stringify pair_entity) (rsRole pair_set)).
Definition pair_answer (sch : list (nat * nat)) : res (option string) :=
  match follow sch pair_start with
  | Some conf => renderable_bytes (fun role => linked role (map snd (hCalculation pair_report)))
      (marshal_renderable (fun _ _ => rendered (o_spanish pair_outside) (own_p pair_outside pair_report (stringify pair_entity) (rsRole pair_set))
         (own_d pair_outside pair_report (stringify pair_entity) (rsRole pair_set)) (own_c pair_outside pair_report (stringify pair_entity) (rsRole pair_set)) conf)
         (o_names pair_outside) (own_insts pair_report) (map snd (hSchemas pair_report)) pair_slug)
  | None => Panic
  end.
Lemma pair_answers sch b : pair_answer sch = Ok (Some b) ->
  (match follow sch pair_start with Some conf => forallb (fun t => match thTodo t with [] => true | _ => false end) (rcThreads conf) | None => false end) = true ->
  marshalled_renderable pair_outside pair_report pair_slug (Ok (Some b)).
Proof.
  unfold pair_answer. destruct (follow sch pair_start) as [conf|] eqn:F; [|discriminate]. intros E T. rewrite <- E. apply mr_returned.
  apply (rr_done pair_outside pair_report pair_slug _ _ pair_entity pair_set); try apply visited_own.
  - vm_compute. reflexivity.
  - apply own_p_grids.
  - apply own_d_grids.
  - apply own_c_grids.
  - vm_compute. discriminate.
  - vm_compute. discriminate.
  - vm_compute. discriminate.
  - eapply follow_steps. exact F.
  - intros t Ht. rewrite forallb_forall in T. specialize (T t Ht). now destruct (thTodo t).
Qed.
Lemma pair_plain_report : plain_report pair_report.
Proof.
  assert (L : hLabel pair_report = []) by (vm_compute; reflexivity).
  split.
  - assert (E : length (hInstances pair_report) = 1) by (vm_compute; reflexivity). destruct (hInstances pair_report) as [|[n i] [|? ?]]; try discriminate E. eauto.
  - intro href. rewrite L. constructor.
  - intros n i c t I C T. exfalso.
    assert (E : forallb (fun x => forallb (fun c => match (dcTyped (ctxSegment c) ++ dcTyped (ctxScenario c))%list with [] => true | _ => false end) (iContexts (snd x))) (hInstances pair_report) = true)
      by (vm_compute; reflexivity).
    rewrite forallb_forall in E. specialize (E _ I). rewrite forallb_forall in E. specialize (E _ C). cbn [snd] in *. now destruct (_ ++ _)%list.
Qed.

(** C149. Refuted: the goroutines append to shared slices, and what one has appended another may undo: the languages of two answers
    for one network differ. *)
Theorem C149_refuted :
  ~ (forall w h slug b1 b2, plain_report h -> marshalled_renderable w h slug (Ok (Some b1)) -> marshalled_renderable w h slug (Ok (Some b2)) -> b1 = b2).
Proof.
  intro H.
  destruct (pair_answer orderly) as [[b1|]| |] eqn:E1; try (vm_compute in E1; discriminate E1).
  destruct (pair_answer hasty) as [[b2|]| |] eqn:E2; try (vm_compute in E2; discriminate E2).
  assert (X : b1 = b2).
  { apply (H pair_outside pair_report pair_slug); [apply pair_plain_report| |];
      (eapply pair_answers; [eassumption|vm_compute; reflexivity]). }
  subst b2. rewrite <- E1 in E2. vm_compute in E2. discriminate E2.
Qed.
Print Assumptions C149_refuted.

(** Nor do the dimensions of two answers come in one order, if there are two definition linkbases, of which one says nothing. *)
Definition cubes_p := own_p cubes_outside cubes_report (stringify pair_entity) (rsRole pair_set).
Definition cubes_c := own_c cubes_outside cubes_report (stringify pair_entity) (rsRole pair_set).
Definition cubes_d (turn : list (linkbase darc) -> list (linkbase darc)) :=
  d_grid_of (o_tree cubes_outside) (own_labels cubes_report) (concept_for cubes_outside cubes_report) (fun _ => own_grid cubes_outside cubes_report)
    (fun _ _ => turn (map snd (hDefinition cubes_report))) (o_order cubes_outside) (fun l => l) (stringify pair_entity) (rsRole pair_set)
    (map snd (hDefinition cubes_report)) (map snd (hDefinition cubes_report)).
Definition has_dimensions (hrefs : list string) (v : value) : Prop :=
  the_member v "DGrid" (fun u => the_member u "RootDomains" (list_of (fun ds x => the_member x "EffectiveDimensions" (list_of concept_with_labels ds))
    [map (fun x => Labelled x (own_labels cubes_report x)) hrefs])).
Lemma cubes_answer turn g rs ls hrefs : (forall l, Permutation (turn l) l) -> cubes_d turn = Ok (g, rs, ls) ->
  map rdDimensions (dgRootDomains g) = [map (fun x => Labelled x (own_labels cubes_report x)) hrefs] ->
  exists b v, marshalled_renderable cubes_outside cubes_report pair_slug (Ok (Some b)) /\ reads_as b v /\ has_dimensions hrefs v.
Proof.
  intros T E H. set (d := cubes_d turn) in *.
  destruct (some_end cubes_p d cubes_c) as (conf&R&DN).
  assert (DG : d_grids cubes_outside cubes_report (stringify pair_entity) (rsRole pair_set) d).
  { exists (own_labels cubes_report), (fun _ => own_grid cubes_outside cubes_report), (fun _ _ => turn (map snd (hDefinition cubes_report))), (fun l => l),
      (map snd (hDefinition cubes_report)), (map snd (hDefinition cubes_report)).
    split; [apply own_labels_from|]. split; [intro; apply own_grid_from|]. split; [intros; apply T|].
    split; [intros; apply Permutation_refl|]. split; [apply visited_own|]. split; [apply visited_own|reflexivity]. }
  assert (F : find_slug pair_slug (sorted_entities (map snd (hInstances cubes_report))) (sorted_relationship_sets (map snd (hSchemas cubes_report))) = Some (pair_entity, pair_set))
    by (vm_compute; reflexivity).
  pose proof (rr_done cubes_outside cubes_report pair_slug _ _ pair_entity pair_set cubes_p d cubes_c conf (visited_own _) (visited_own _) F
    (own_p_grids _ _ _ _) DG (own_c_grids _ _ _ _) ltac:(vm_compute; discriminate) ltac:(rewrite E; discriminate) ltac:(vm_compute; discriminate) R DN) as M.
  apply mr_returned in M. unfold marshal_renderable in M. rewrite F in M.
  replace (entity_query _ _ _) with (Ok "urn:s/0") in M by (vm_compute; reflexivity).
  cbn [renderable_bytes bind rnSet] in M.
  unfold rendered in M. match type of M with context [Renderable pair_set (Subject ?name pair_entity) (?g, ?a, ?b)] =>
    destruct (C119_renderable (linked (rsRole pair_set) (map snd (hCalculation cubes_report))) pair_set (Subject name pair_entity) g a b) as (v&J&V) end.
  eexists. exists v. split; [exact M|]. split; [exact J|].
  cbn [gdD] in V. rewrite E in V. cbn [grid_or] in V. clear M J.
  eapply the_member_impl; [|eapply (the_member_of _ _ "DGrid"); [exact V|keys|do 5 right; left; reflexivity]]. clear V. intros u U.
  eapply the_member_impl; [|eapply (the_member_of _ _ "RootDomains"); [exact U|keys|left; reflexivity]]. clear U. intros x X.
  cbn [gdD format_d dgRootDomains] in X. rewrite <- H. destruct X as (vs&->&X). exists vs. split; auto. clear H E.
  revert vs X. induction (dgRootDomains g) as [|r rds IH]; cbn [map]; intros vs X; inversion X; subst; constructor; auto.
  eapply (the_member_of _ _ "EffectiveDimensions"); [eassumption|keys|do 10 right; left; reflexivity].
Qed.
Theorem C149_dimensions_refuted :
  plain_report cubes_report /\ loaded cubes_disk small_dir "x.xml" false ex_pf plain_order ex_tokens (Ok []) cubes_report /\
  exists b1 b2 v1 v2,
    marshalled_renderable cubes_outside cubes_report pair_slug (Ok (Some b1)) /\ reads_as b1 v1 /\ has_dimensions ["a.xsd#id_D"; "#D"] v1 /\
    marshalled_renderable cubes_outside cubes_report pair_slug (Ok (Some b2)) /\ reads_as b2 v2 /\ has_dimensions ["#D"; "a.xsd#id_D"] v2.
Proof.
  split; [|split; [exact cubes_loaded|]].
  - split.
    + assert (E : length (hInstances cubes_report) = 1) by (vm_compute; reflexivity). destruct (hInstances cubes_report) as [|[n i] [|? ?]]; try discriminate E. eauto.
    + intro href. replace (hLabel cubes_report) with (@nil (string * label_linkbase)) by (vm_compute; reflexivity). constructor.
    + intros n i c t I C T. exfalso.
      assert (E : forallb (fun x => forallb (fun c => match (dcTyped (ctxSegment c) ++ dcTyped (ctxScenario c))%list with [] => true | _ => false end) (iContexts (snd x))) (hInstances cubes_report) = true)
        by (vm_compute; reflexivity).
      rewrite forallb_forall in E. specialize (E _ I). rewrite forallb_forall in E. specialize (E _ C). cbn [snd] in *. now destruct (_ ++ _)%list.
  - destruct (cubes_d (fun l => l)) as [[[g1 r1] l1]| |] eqn:E1; try (exfalso; vm_compute in E1; discriminate E1).
    destruct (cubes_d (@rev _)) as [[[g2 r2] l2]| |] eqn:E2; try (exfalso; vm_compute in E2; discriminate E2).
    destruct (cubes_answer (fun l => l) g1 r1 l1 ["a.xsd#id_D"; "#D"]) as (b1&v1&M1&J1&H1); [auto|exact E1| |].
    { vm_compute in E1. injection E1 as <- _ _. vm_compute. reflexivity. }
    destruct (cubes_answer (@rev _) g2 r2 l2 ["#D"; "a.xsd#id_D"]) as (b2&v2&M2&J2&H2); [intro; symmetry; apply Permutation_rev|exact E2| |].
    { vm_compute in E2. injection E2 as <- _ _. vm_compute. reflexivity. }
    exists b1, b2, v1, v2. repeat (split; [assumption|]). assumption.
Qed.
Print Assumptions C149_dimensions_refuted.

(** ** Reports of which both parts of the theorem speak *)
Definition cube_schema : tree := schema_tree "urn:a"
  [xs "annotation" [] [xs "appinfo" [] [linkbase_ref_to "definition" "def.xml"; a_role "r" [lk "definition" [] [txt "010 - Cover"]]]];
   concept_tree "A"; concept_tree "B"; concept_tree "H"; concept_tree "D"; concept_tree "M"; concept_tree "N"].
Definition cube_disk : disk := small_disk [(in_dir "x.xml", cubes_root); (in_dir "a.xsd", cube_schema); (in_dir "def.xml", cubes_links)].
Definition cube_end : state := go_on (files_of cube_disk) small_dir 60
  (schema_ref (files_of cube_disk) small_dir (first_folder (files_of cube_disk) small_dir "x.xml") (instance_struct cubes_root)).
Definition cube_folder : folder := DiscoverModel.finish "x.xml" (instance_struct cubes_root) (fst cube_end).
Definition cube_report : hydratable :=
  match hydrate ex_pf plain_order (d_url cube_disk) (global_schema_file cube_disk) ex_tokens (Ok []) (Ok None) cube_folder with
  | Ok h => h | _ => Hydratable cube_folder [] None [] [] [] [] [] [] end.
Example C149_example :
  (plain_report pair_report /\ at_most_one (draws (rsRole pair_set)) (map snd (hPresentation pair_report)) /\
   exists b1 b2 v1 v2 rows members void facts periods, b1 <> b2 /\
     marshalled_renderable pair_outside pair_report pair_slug (Ok (Some b1)) /\ marshalled_renderable pair_outside pair_report pair_slug (Ok (Some b2)) /\
     reads_as b1 v1 /\ reads_as b2 v2 /\ presentation_of rows members void facts periods v1 /\ presentation_of rows members void facts periods v2) /\
  (plain_report cube_report /\ length (hDefinition cube_report) = 1 /\
   (exists b, marshalled_renderable cubes_outside cube_report pair_slug (Ok (Some b))) /\
   match own_d cubes_outside cube_report (stringify pair_entity) (rsRole pair_set) with
   | Ok (g, _, _) => map (fun rd => (rdHref rd, map ilHref (rdItems rd), map lbHref (rdDimensions rd))) (dgRootDomains g) = [("a.xsd#id_A", ["a.xsd#id_B"], ["a.xsd#id_D"])]
   | _ => False end).
Proof.
  assert (AM : at_most_one (draws (rsRole pair_set)) (map snd (hPresentation pair_report))).
  { assert (E : length (map snd (hPresentation pair_report)) = 1) by (vm_compute; reflexivity). destruct (map snd (hPresentation pair_report)) as [|x [|? ?]]; try discriminate E.
    constructor; constructor. }
  split; [split; [exact pair_plain_report|split; [exact AM|]]|].
  - destruct (pair_answer orderly) as [[b1|]| |] eqn:E1; try (exfalso; vm_compute in E1; discriminate E1).
    destruct (pair_answer hasty) as [[b2|]| |] eqn:E2; try (exfalso; vm_compute in E2; discriminate E2).
    assert (M1 : marshalled_renderable pair_outside pair_report pair_slug (Ok (Some b1))) by (eapply pair_answers; [exact E1|vm_compute; reflexivity]).
    assert (M2 : marshalled_renderable pair_outside pair_report pair_slug (Ok (Some b2))) by (eapply pair_answers; [exact E2|vm_compute; reflexivity]).
    destruct (answered _ _ _ _ pair_plain_report M1) as (e&r&name&p&d&v1&F&Q&J1&_&_&P1&_&VP1&_).
    destruct (answered _ _ _ _ pair_plain_report M2) as (e'&r'&name'&p'&d'&v2&F'&Q'&J2&_).
    assert (ER : r = pair_set).
    { assert (X : find_slug pair_slug (sorted_entities (own_insts pair_report)) (sorted_relationship_sets (map snd (hSchemas pair_report))) = Some (pair_entity, pair_set)) by (vm_compute; reflexivity).
      rewrite X in F. now injection F. }
    destruct (C149_same_partial _ _ _ _ _ pair_plain_report M1 M2) as (s&r2&u1&u2&[W1 U1]&[W2 U2]&_&[R1 _]&PP&_).
    assert (PP' : exists rows members void facts periods, presentation_of rows members void facts periods u1 /\ presentation_of rows members void facts periods u2).
    { apply PP. assert (E : length (map snd (hPresentation pair_report)) = 1) by (vm_compute; reflexivity). destruct (map snd (hPresentation pair_report)) as [|x [|? ?]]; try discriminate E.
      constructor; constructor. }
    destruct PP' as (rows&members&void&facts&periods&A&B).
    exists b1, b2, u1, u2, rows, members, void, facts, periods. split; [|repeat (split; [first [assumption|split; assumption]|]); assumption].
    intros ->. rewrite <- E1 in E2. vm_compute in E2. discriminate E2.
  - split; [|split; [vm_compute; reflexivity|split]].
    + split.
      * assert (E : length (hInstances cube_report) = 1) by (vm_compute; reflexivity). destruct (hInstances cube_report) as [|[n i] [|? ?]]; try discriminate E. eauto.
      * intro href. replace (hLabel cube_report) with (@nil (string * label_linkbase)) by (vm_compute; reflexivity). constructor.
      * intros n i c t I C T. exfalso.
        assert (E : forallb (fun x => forallb (fun c => match (dcTyped (ctxSegment c) ++ dcTyped (ctxScenario c))%list with [] => true | _ => false end) (iContexts (snd x))) (hInstances cube_report) = true)
          by (vm_compute; reflexivity).
        rewrite forallb_forall in E. specialize (E _ I). rewrite forallb_forall in E. specialize (E _ C). cbn [snd] in *. now destruct (_ ++ _)%list.
    + apply (own_rendering cubes_outside cube_report pair_slug pair_entity pair_set "urn:s/0"); vm_compute; try reflexivity; discriminate.
    + vm_compute. reflexivity.
Qed.
