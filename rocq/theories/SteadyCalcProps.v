(** * SteadyCalcProps: C149 for calculations and footnotes *)
From Coq Require Import String List Bool Arith Lia Permutation ZArith.
From Verif Require Import GoBase GoSpec GoFacts AttrModel AttrSpec AttrProofs SchemaModel SchemaSpec SchemaProofs SchemaProps
  LinkbaseModel LinkbaseSpec LinkbaseProofs LinkbaseProps InstanceModel InstanceSpec InstanceProofs InstanceProps
  HydrateModel HydrateSpec HydrateProofs HydrateProps LabelModel LabelSpec LabelProofs LabelProps PeriodModel PeriodSpec PeriodProofs PeriodProps
  FactModel FactSpec FactProofs FactProps GridModel GridSpec GridProofs GridProps CalcModel CalcSpec CalcProofs CalcProps DefModel DefSpec DefProofs DefProps
  RenderModel RenderSpec RenderProofs RenderProps ExpressModel ExpressSpec ExpressProofs ExpressProps
  DiscoverModel DiscoverSpec DiscoverProofs DiscoverProps XmlModel XmlSpec XmlProofs XmlProps LoadModel LoadSpec LoadProofs LoadProps
  CatalogModel CatalogSpec CatalogProofs CatalogProps ReportModel ResponseModel ResponseSpec ResponseProofs ResponseProps EndToEndSpec EndToEndProps
  ReportSpec ReportProofs ReportProps NetworkSpec NetworkProps DimNetSpec DimNetProps ColumnProps SteadySpec SteadyProofs SteadyProps SteadyCalcSpec.
Import ListNotations.
Local Open Scope string_scope.

Lemma labels_pure h lbl : labels_from h lbl -> forall x, get_pure_label (lbl x) = x.
Proof. intros L x. destruct (L x) as (o&_&->). apply pure_label_href. Qed.

(** ** Sums: cells agree on the languages they share *)
Definition alike_item (a b : summation_item) : Prop :=
  siHref a = siHref b /\ siLabel a = siLabel b /\ siBalance a = siBalance b /\ siPeriods a = siPeriods b /\
  siMembers a = siMembers b /\ siVoid a = siVoid b /\ siContributing a = siContributing b /\ same_cells (siFacts a) (siFacts b) /\
  same_notes (siFootnoteGrid a) (siFootnoteGrid b) (siFootnotes a) (siFootnotes b).

Section Sums.
  Variables (w : outside) (h : hydratable).
  Hypothesis PR : plain_report h.
  Variables (genv genv' : string -> grid_env) (lbl lbl' : string -> label_pack).
  Hypotheses (G : forall n, grid_from w h (genv n)) (G' : forall n, grid_from w h (genv' n)) (E : forall x, lbl x = lbl' x).
  Variable entity : string.

  Lemma contributing_same cmap slice : collect (contributing_of lbl (concept_for w h) cmap) slice = collect (contributing_of lbl' (concept_for w h) cmap) slice.
  Proof.
    assert (X : forall c, contributing_of lbl (concept_for w h) cmap c = contributing_of lbl' (concept_for w h) cmap c)
      by (intro c; unfold contributing_of; now rewrite E).
    unfold collect. induction slice as [|c slice IH]; cbn; auto. now rewrite X, IH.
  Qed.
End Sums.
Lemma quadrant_alike w h g g' hrefs cols langs langs' facts fg notes facts' fg' notes' : plain_report h -> grid_from w h g -> grid_from w h g' ->
  get_factual_quadrant (o_tree w) (ge_cell g) (ge_id_order g) (ge_id_order_final g) hrefs cols langs = Ok (facts, fg, notes) ->
  get_factual_quadrant (o_tree w) (ge_cell g') (ge_id_order g') (ge_id_order_final g') hrefs cols langs' = Ok (facts', fg', notes') ->
  same_cells facts facts'.
Proof.
  intros PR G G' E E'.
  destruct (quadrant_total (o_tree w) (ge_cell g') (ge_id_order g') (ge_id_order_final g') hrefs cols langs) as [[[f2 g2] n2] Q].
  pose proof (cells_ok _ _ (quadrant_same w h PR g g' G G' hrefs cols langs langs (fun x => iff_refl _))) as S. rewrite E, Q in S.
  assert (A : Forall2 (Forall2 agree) f2 facts') by (eapply quadrant_cells; [|exact Q|exact E']; intros; eapply render_agree; eauto).
  unfold same_cells. clear - S A. revert facts' A. induction S as [|r r2 rs rs2 X S IH]; intros facts' A; inversion A as [|? r3 ? rs3 Y A']; subst; constructor; auto.
  clear - X Y. revert r3 Y. induction X as [|c c2 cs cs2 P X IH]; intros r3 Y; inversion Y as [|? c3 ? cs3 Z Y']; subst; constructor; auto.
  intros lang x y I1 I2. eapply Z; [eapply Permutation_in; eauto|exact I2].
Qed.
Section Sums2.
  Variables (w : outside) (h : hydratable).
  Hypothesis PR : plain_report h.
  Variables (genv genv' : string -> grid_env) (lbl lbl' : string -> label_pack).
  Hypotheses (G : forall n, grid_from w h (genv n)) (G' : forall n, grid_from w h (genv' n)) (E : forall x, lbl x = lbl' x).
  Variable entity : string.
  Notation item := (item_of (o_tree w) lbl (concept_for w h) genv entity).
  Notation item' := (item_of (o_tree w) lbl' (concept_for w h) genv' entity).
  Notation step := (c_source (o_tree w) lbl (concept_for w h) genv entity).
  Notation step' := (c_source (o_tree w) lbl' (concept_for w h) genv' entity).

  Lemma item_other cmap langs langs' fs si : item cmap langs fs si -> exists si', item' cmap langs' fs si'.
  Proof.
    destruct fs as [from slice]. cbn.
    intros (k & cols & seg & scen & cp & mb & vd & fa & fg & no & E1 & E2 & E3 & E4 & ->).
    rewrite (contributing_same w h lbl lbl' E) in E2. rewrite (contexts_same w h PR (genv from) (genv' from) lbl lbl' (G _) (G' _) E) in E2.
    rewrite (grid_same w h (genv from) (genv' from) lbl' (G _) (G' _) cols seg scen (contexts_own w h (genv' from) lbl' _ _ _ _ _ _ E2)) in E4.
    destruct (quadrant_total (o_tree w) (ge_cell (genv' from)) (ge_id_order (genv' from)) (ge_id_order_final (genv' from))
                (map ccHref (collect (contributing_of lbl' (concept_for w h) cmap) slice) ++ [from])%list cols langs') as [[[f2 g2] n2] Q].
    eexists. do 10 eexists. repeat (split; [eassumption|]). reflexivity.
  Qed.
  Lemma item_alike cmap langs langs' fs si si' : item cmap langs fs si -> item' cmap langs' fs si' -> alike_item si si'.
  Proof.
    destruct fs as [from slice]. cbn.
    intros (k & cols & seg & scen & cp & mb & vd & fa & fg & no & E1 & E2 & E3 & E4 & ->)
           (k' & cols' & seg' & scen' & cp' & mb' & vd' & fa' & fg' & no' & E1' & E2' & E3' & E4' & ->).
    rewrite (contributing_same w h lbl lbl' E) in *. rewrite (contexts_same w h PR (genv from) (genv' from) lbl lbl' (G _) (G' _) E) in E2.
    rewrite E2 in E2'. injection E2' as <- <- <- <-.
    rewrite (grid_same w h (genv from) (genv' from) lbl' (G _) (G' _) cols seg scen (contexts_own w h (genv' from) lbl' _ _ _ _ _ _ E2)) in E4.
    rewrite E4 in E4'. injection E4' as <- <-. rewrite E1 in E1'. injection E1' as <-.
    unfold alike_item. cbn. rewrite E. repeat (split; [reflexivity|]).
    split; [exact (quadrant_alike w h (genv from) (genv' from) _ _ _ _ _ _ _ _ _ _ PR (G from) (G' from) E3 E3')|].
    exact (quadrant_notes w h (genv from) (genv' from) _ _ _ _ _ _ _ _ _ _ PR (G from) (G' from) E3 E3').
  Qed.
  Lemma step_other cmap st fs st' : step cmap st fs = Ok st' -> forall st2, exists st2', step' cmap st2 fs = Ok st2'.
  Proof.
    destruct fs as [from slice]. unfold c_source. intros H st2.
    rewrite (contributing_same w h lbl lbl' E) in H. rewrite (contexts_same w h PR (genv from) (genv' from) lbl lbl' (G _) (G' _) E) in H.
    destruct (get_relevant_contexts _ lbl' _ _ _ _ _) as [[[[cols seg] scen] cpacks]|?|] eqn:C; cbn [bind] in *; try discriminate.
    cbv zeta in *.
    destruct (ge_destruct (genv from) _) as [roles langs]. destruct (ge_destruct (genv' from) _) as [roles2 langs2].
    destruct (quadrant_total (o_tree w) (ge_cell (genv' from)) (ge_id_order (genv' from)) (ge_id_order_final (genv' from))
                (map ccHref (collect (contributing_of lbl' (concept_for w h) cmap) slice) ++ [from])%list cols langs2) as [[[facts fgrid] notes] ->]. cbn [bind].
    destruct (get_factual_quadrant _ _ _ _ _ _ _) as [[[? ?] ?]|?|]; cbn [bind] in H; try discriminate.
    destruct (concept_for w h from); [|eauto].
    rewrite (grid_same w h (genv from) (genv' from) lbl' (G _) (G' _) cols seg scen (contexts_own w h (genv' from) lbl' _ _ _ _ _ _ C)) in H.
    destruct (get_member_grid _ _ _ _) as [[? ?]|?|]; cbn [bind] in *; try discriminate. eauto.
  Qed.
  Lemma fold_other cmap l l' st st' : Permutation l l' -> foldM (step cmap) l st = Ok st' -> forall st2, exists st2', foldM (step' cmap) l' st2 = Ok st2'.
  Proof.
    intros P H. assert (F : Forall (fun fs => exists st st', step cmap st fs = Ok st') l).
    { clear P. revert st H. induction l as [|fs l IH]; intro st; cbn [foldM]; [constructor|].
      destruct (step cmap st fs) as [st1|?|] eqn:X; cbn [bind]; try discriminate. intro H. constructor; eauto. }
    apply fold_all. apply Forall_forall. intros fs Hfs st2. rewrite Forall_forall in F.
    destruct (F fs) as (s1&s2&X); [eapply Permutation_in; [symmetry; exact P|exact Hfs]|]. eapply step_other; eauto.
  Qed.
End Sums2.

Definition same_c (c c' : res (list summation_item * list string * list string)) : Prop :=
  match c, c' with
  | Ok (l, _, _), Ok (l', _, _) => Forall2 alike_item l l'
  | Ok _, _ | _, Ok _ => False
  | _, _ => True
  end.
Lemma c_ok w h entity role c c' r : plain_report h -> at_most_one (draws role) (map snd (hCalculation h)) ->
  c_grids w h entity role c -> c_grids w h entity role c' -> c = Ok r -> exists r', c' = Ok r'.
Proof.
  intros PR M (lbl&g&o&lbs&L&G&O&V&->) (lbl'&g'&o'&lbs'&L'&G'&O'&V'&->). pose proof (labels_same h lbl lbl' PR L L') as E.
  unfold get_summation_items. rewrite !calc_link_eq by (intros ? []). rewrite (first_link_any role lbs lbs').
  - destruct (first_link role lbs') as [[lb k]|]; [|eauto]. cbv zeta. destruct (foldM _ (o _) _) as [st|?|] eqn:F; cbn [bind]; try discriminate. intros _.
    destruct (fold_other w h PR g g' lbl lbl' G G' E entity (c_map role lb (lArcs k)) (o (c_map role lb (lArcs k))) (o' (c_map role lb (lArcs k))) _ _
      (Permutation_trans (O _) (Permutation_sym (O' _))) F (CState [] [] [] [])) as (st2&->). cbn [bind]. eauto.
  - eapply pairs_perm; [|symmetry; exact V|exact M]. intros x y N [A B]. auto.
  - unfold visited in *. rewrite V. now symmetry.
Qed.
Lemma c_same w h entity role c c' : plain_report h -> at_most_one (draws role) (map snd (hCalculation h)) ->
  c_grids w h entity role c -> c_grids w h entity role c' -> same_c c c'.
Proof.
  intros PR M C C'. pose proof (c_ok w h entity role c c') as K. pose proof (c_ok w h entity role c' c) as K'.
  destruct c as [[[l a] b]| |] eqn:EC, c' as [[[l' a'] b']| |] eqn:EC'; cbn;
    try (destruct (K _ PR M C C' eq_refl); discriminate); try (destruct (K' _ PR M C' C eq_refl); discriminate); auto.
  clear K K' EC EC'.
  destruct C as (lbl&g&o&lbs&L&G&O&V&X), C' as (lbl'&g'&o'&lbs'&L'&G'&O'&V'&X'). pose proof (labels_same h lbl lbl' PR L L') as E.
  assert (FL : first_link role lbs = first_link role lbs').
  { apply first_link_any; [|unfold visited in *; rewrite V; now symmetry]. eapply pairs_perm; [|symmetry; exact V|exact M]. intros x y N [A B]. auto. }
  symmetry in X, X'.
  destruct (grid_inv _ _ (labels_pure h lbl L) _ _ _ _ _ _ _ _ _ X) as [[F ->]|(lb & k & new & F & IM & ->)];
    destruct (grid_inv _ _ (labels_pure h lbl' L') _ _ _ _ _ _ _ _ _ X') as [[F' ->]|(lb' & k' & new' & F' & IM' & ->)]; try congruence; [constructor|].
  rewrite FL, F' in F. injection F as <- <-.
  eapply two_orders; [apply c_map_is_map|apply O|apply O'|exact IM|exact IM'|..].
  - intros fs si (ls & R). now apply item_href in R.
  - intros fs si (ls & R). now apply item_href in R.
  - intro fs. split; intros (si&ls&R).
    + destruct (item_other w h PR g g' lbl lbl' G G' E entity _ ls [] fs si R) as (si'&R'). eauto.
    + destruct (item_other w h PR g' g lbl' lbl G' G (fun x => eq_sym (E x)) entity _ ls [] fs si R) as (si'&R'). eauto.
  - intros fs si si' (ls&R) (ls'&R'). exact (item_alike w h PR g g' lbl lbl' G G' E entity _ _ _ _ _ _ R R').
Qed.

(** ** One answer *)
Definition timed (s : summation_item) : summation_item * list string := (s, map (fun h => match h with (_, p) :: _ => p | [] => "" end) (siPeriods s)).
Lemma sum_shows es langs s ps u : siPeriods s = map (fun p => [("Unlabelled", p)]) ps -> item_value (format_item es langs s) u -> sum_of (s, ps) u.
Proof.
  intros E U. unfold item_value in U. cbn [format_item siHref siLabel siBalance siPeriods siMembers siVoid siContributing siFacts siFootnoteGrid siFootnotes] in U. rewrite E in U.
  unfold sum_of. cbn [fst snd].
  split; [eapply (the_member_of _ _ "Href"); [exact U|keys|left; reflexivity]|].
  split; [eapply (the_member_of _ _ "Label"); [exact U|keys|right; left; reflexivity]|].
  split; [eapply (the_member_of _ _ "BalanceType"); [exact U|keys|do 2 right; left; reflexivity]|].
  split; [eapply (the_member_of _ _ "ContributingConcepts"); [exact U|keys|do 6 right; left; reflexivity]|].
  split; [repeat split|split; [eapply (the_member_of _ _ "FootnoteGrid"); [exact U|keys|do 8 right; left; reflexivity]|
    eapply (the_member_of _ _ "Footnotes"); [exact U|keys|do 9 right; left; reflexivity]]].
  - eapply (the_member_of _ _ "ContextualMemberGrid"); [exact U|keys|do 4 right; left; reflexivity].
  - eapply (the_member_of _ _ "VoidQuadrant"); [exact U|keys|do 5 right; left; reflexivity].
  - eapply (the_member_of _ _ "FactualQuadrant"); [exact U|keys|do 7 right; left; reflexivity].
  - eapply the_member_impl; [|eapply (the_member_of _ _ "PeriodHeaders"); [exact U|keys|do 3 right; left; reflexivity]]. apply headers_shown.
Qed.
Lemma sums_show es langs l v : Forall (fun s => Forall plain_header (siPeriods s)) l -> list_of item_value (map (format_item es langs) l) v ->
  list_of sum_of (map timed l) v.
Proof.
  intros PL (vs&->&F). exists vs. split; auto. revert vs F. induction PL as [|r rs P PL IH]; cbn [map]; intros vs F; inversion F as [|a u l us X F']; subst; constructor; auto.
  destruct (plain_all _ P) as (ps&E). unfold timed. rewrite E, periods_back. eapply sum_shows; eauto.
Qed.
Lemma calculated w h slug b : marshalled_renderable w h slug (Ok (Some b)) ->
  exists e r c v, find_slug slug (sorted_entities (own_insts h)) (sorted_relationship_sets (map snd (hSchemas h))) = Some (e, r) /\
    reads_as b v /\ the_member v "RelationshipSet" (relationship_set r) /\ c_grids w h (stringify e) (rsRole r) c /\
    calculation_of (if linked (rsRole r) (map snd (hCalculation h)) then Some (map timed (grid_or [] c)) else None) v.
Proof.
  intros M. inversion M as [o R E|]; subst. inversion R as [|insts schemas e r p d c conf VI VS F PG DG CG NP ND NC ST DN EQ]; subst.
  rewrite (entities_perm _ _ (Permutation_sym VI)) in F. rewrite (rsets_perm _ _ (Permutation_sym VS)) in F.
  unfold marshal_renderable in EQ. rewrite (entities_perm _ _ (Permutation_sym VI)), (rsets_perm _ _ (Permutation_sym VS)), F in EQ.
  destruct (entity_query _ _ _) as [name| |] eqn:Q; cbn [bind renderable_bytes] in EQ; try discriminate EQ. injection EQ as EQ.
  unfold rendered in EQ. cbn [rnSet] in EQ.
  match type of EQ with context [Renderable r (Subject name e) (?g, ?a, ?b)] =>
    destruct (C119_renderable (linked (rsRole r) (map snd (hCalculation h))) r (Subject name e) g a b) as (v&J&V) end.
  rewrite EQ in J. exists e, r, c, v. split; [exact F|]. split; [exact J|].
  split; [eapply (the_member_of _ _ "RelationshipSet"); [exact V|keys|left; reflexivity]|]. split; [exact CG|].
  unfold calculation_of. eapply the_member_impl; [|eapply (the_member_of _ _ "CGrid"); [exact V|keys|do 6 right; left; reflexivity]]. intros u U. cbn [gdC] in U.
  eapply the_member_impl; [|eapply (the_member_of _ _ "SummationItems"); [exact U|keys|left; reflexivity]]. intros x X.
  destruct (linked _ _); [|exact X]. eapply sums_show; [|exact X].
  destruct c as [[[g rs] ls]| |]; cbn; try constructor. destruct CG as (lbl&ge&o&lbs&_&_&_&_&E). symmetry in E. eapply c_plain; exact E.
Qed.

(** C149 for the calculation: of a plain report whose role is drawn by at most one calculation linkbase, two answers for one network
    show the same sums, with the same terms, columns and members; and in each language in which a cell of both shows a fact it shows
    the same; and the footnotes of each sum are the same, up to their order. *)
Theorem C149_calculation_partial :
  forall w h slug b1 b2, plain_report h ->
    marshalled_renderable w h slug (Ok (Some b1)) -> marshalled_renderable w h slug (Ok (Some b2)) ->
    exists r v1 v2, reads_as b1 v1 /\ reads_as b2 v2 /\
      (the_member v1 "RelationshipSet" (relationship_set r) /\ the_member v2 "RelationshipSet" (relationship_set r)) /\
      (at_most_one (draws (rsRole r)) (map snd (hCalculation h)) ->
         exists sums1 sums2, calculation_of sums1 v1 /\ calculation_of sums2 v2 /\ same_sums sums1 sums2).
Proof.
  intros w h slug b1 b2 PR M1 M2.
  destruct (calculated w h slug b1 M1) as (e&r&c&v1&F&J1&R1&C1&V1).
  destruct (calculated w h slug b2 M2) as (e'&r'&c'&v2&F'&J2&R2&C2&V2).
  rewrite F in F'. injection F' as <- <-. exists r, v1, v2. split; [exact J1|]. split; [exact J2|]. split; [now split|].
  intro A. do 2 eexists. split; [exact V1|]. split; [exact V2|]. pose proof (c_same w h (stringify e) (rsRole r) c c' PR A C1 C2) as S.
  destruct (linked _ _); cbn; auto.
  assert (X : Forall2 alike_item (grid_or [] c) (grid_or [] c')) by (destruct c as [[[? ?] ?]| |], c' as [[[? ?] ?]| |]; cbn in *; try contradiction; auto).
  clear - X. induction X as [|s s' l l' (E1&E2&E3&E4&E5&E6&E7&E8&E9) X IH]; cbn [map]; constructor; auto.
  unfold same_sum, timed. cbn [fst snd]. rewrite E4. auto 12.
Qed.
Print Assumptions C149_calculation_partial.

(** ** The footnotes of a presentation *)
Lemma p_notes w h entity role g rs ls g' rs' ls' : plain_report h -> at_most_one (draws role) (map snd (hPresentation h)) ->
  p_grids w h entity role (Ok (g, rs, ls)) -> p_grids w h entity role (Ok (g', rs', ls')) ->
  same_notes (pgFootnoteGrid g) (pgFootnoteGrid g') (pgFootnotes g) (pgFootnotes g').
Proof.
  intros PR M (lbl&e&lbs&L&G&V&X) (lbl'&e'&lbs'&L'&G'&V'&X'). pose proof (labels_same h lbl lbl' PR L L') as E. revert X X'.
  unfold p_grid_of. assert (IL : get_indented_labels (o_tree w) lbl role lbs = get_indented_labels (o_tree w) lbl' role lbs').
  { unfold get_indented_labels. rewrite (first_link_any role lbs lbs').
    - destruct (first_link role lbs') as [[lb k]|]; auto. cbv zeta.
      rewrite (map_ext _ (fun x => IndentedLabel (map_locator_to_href role lb (fst x)) (lbl' (map_locator_to_href role lb (fst x))) (snd x))); auto.
      intro x. now rewrite E.
    - eapply pairs_perm; [|symmetry; exact V|exact M]. intros x y N [A B]. auto.
    - unfold visited in *. rewrite V. now symmetry. }
  rewrite IL. destruct (get_indented_labels (o_tree w) lbl' role lbs') as [labels packs].
  rewrite (contexts_same w h PR e e' lbl lbl' G G' E).
  destruct (get_relevant_contexts _ lbl' _ _ _ _ _) as [[[[cols seg] scen] cp]| |]; cbn [bind]; try discriminate.
  destruct (ge_destruct e _) as [r1 l1], (ge_destruct e' _) as [r2 l2].
  destruct (get_factual_quadrant _ (ge_cell e) _ _ _ _ _) as [[[f a] b]| |] eqn:Q; cbn [bind]; try discriminate.
  destruct (get_factual_quadrant _ (ge_cell e') _ _ _ _ _) as [[[f' a'] b']| |] eqn:Q'; cbn [bind]; try (intros; discriminate).
  destruct (get_member_grid (ge_member_order e) _ _ _) as [[m v]| |]; cbn [bind]; try discriminate.
  destruct (get_member_grid (ge_member_order e') _ _ _) as [[m' v']| |]; cbn [bind]; try (intros; discriminate).
  intros X X'. injection X as -> _ _. injection X' as -> _ _. cbn. eapply quadrant_notes; [exact PR|exact G|exact G'|exact Q|exact Q'].
Qed.
Lemma presented w h slug b : marshalled_renderable w h slug (Ok (Some b)) ->
  exists e r p d v, find_slug slug (sorted_entities (own_insts h)) (sorted_relationship_sets (map snd (hSchemas h))) = Some (e, r) /\
    reads_as b v /\ the_member v "RelationshipSet" (relationship_set r) /\ p_grids w h (stringify e) (rsRole r) p /\
    d_grids w h (stringify e) (rsRole r) d /\ presentation_notes (pgFootnoteGrid (grid_or zero_p p)) (pgFootnotes (grid_or zero_p p)) v /\
    dimension_notes (map (fun r => (rdFootnoteGrid r, rdFootnotes r)) (dgRootDomains (grid_or zero_d d))) v.
Proof.
  intros M. inversion M as [o R E|]; subst. inversion R as [|insts schemas e r p d c conf VI VS F PG DG CG NP ND NC ST DN EQ]; subst.
  rewrite (entities_perm _ _ (Permutation_sym VI)) in F. rewrite (rsets_perm _ _ (Permutation_sym VS)) in F.
  unfold marshal_renderable in EQ. rewrite (entities_perm _ _ (Permutation_sym VI)), (rsets_perm _ _ (Permutation_sym VS)), F in EQ.
  destruct (entity_query _ _ _) as [name| |] eqn:Q; cbn [bind renderable_bytes] in EQ; try discriminate EQ. injection EQ as EQ.
  unfold rendered in EQ. cbn [rnSet] in EQ.
  match type of EQ with context [Renderable r (Subject name e) (?g, ?a, ?b)] =>
    destruct (C119_renderable (linked (rsRole r) (map snd (hCalculation h))) r (Subject name e) g a b) as (v&J&V) end.
  rewrite EQ in J. exists e, r, p, d, v. split; [exact F|]. split; [exact J|].
  split; [eapply (the_member_of _ _ "RelationshipSet"); [exact V|keys|left; reflexivity]|]. split; [exact PG|]. split; [exact DG|]. split.
  2: { eapply the_member_impl; [|eapply (the_member_of _ _ "DGrid"); [exact V|keys|do 5 right; left; reflexivity]]. intros u U. cbn [gdD] in U.
    unfold d_grid_value in U. cbn [format_d dgRootDomains dgDRS] in U.
    eapply the_member_impl; [|eapply (the_member_of _ _ "RootDomains"); [exact U|keys|left; reflexivity]]. intros x (vs&->&X). exists vs. split; auto.
    clear - X. revert vs X. induction (dgRootDomains (grid_or zero_d d)) as [|r rs IH]; cbn [map]; intros vs X; inversion X as [|? y ? ys Y X']; subst; constructor; auto.
    unfold root_value in Y. cbn [format_root rdHref rdLabel rdItems rdPeriods rdMembers rdVoid rdFacts rdFootnoteGrid rdFootnotes rdDomains rdDimensions] in Y. cbn [fst snd].
    split; [eapply (the_member_of _ _ "FootnoteGrid"); [exact Y|keys|do 7 right; left; reflexivity]|
      eapply (the_member_of _ _ "Footnotes"); [exact Y|keys|do 8 right; left; reflexivity]]. }
  unfold presentation_notes. eapply the_member_impl; [|eapply (the_member_of _ _ "PGrid"); [exact V|keys|do 4 right; left; reflexivity]]. intros u U. cbn [gdP] in U.
  unfold p_grid_value in U. cbn [format_p pgLabels pgPeriods pgMembers pgVoid pgFacts pgFootnoteGrid pgFootnotes] in U.
  split; [eapply (the_member_of _ _ "FootnoteGrid"); [exact U|keys|do 5 right; left; reflexivity]|
    eapply (the_member_of _ _ "Footnotes"); [exact U|keys|do 6 right; left; reflexivity]].
Qed.
(** C149 for the footnotes: of a plain report whose role is drawn by at most one presentation linkbase, two answers for one network
    list the same footnotes for the presentation, in some order, and give each cell as many numbers; and if there is at most one
    footnote, the same numbers. If there is at most one definition linkbase, the same holds of the roots of the dimensions. *)
Theorem C149_footnotes_partial :
  forall w h slug b1 b2, plain_report h ->
    marshalled_renderable w h slug (Ok (Some b1)) -> marshalled_renderable w h slug (Ok (Some b2)) ->
    exists r v1 v2, reads_as b1 v1 /\ reads_as b2 v2 /\
      (the_member v1 "RelationshipSet" (relationship_set r) /\ the_member v2 "RelationshipSet" (relationship_set r)) /\
      (at_most_one (draws (rsRole r)) (map snd (hPresentation h)) ->
         exists grid1 grid2 notes1 notes2, presentation_notes grid1 notes1 v1 /\ presentation_notes grid2 notes2 v2 /\
           same_notes grid1 grid2 notes1 notes2) /\
      (length (hDefinition h) <= 1 ->
         exists roots1 roots2, dimension_notes roots1 v1 /\ dimension_notes roots2 v2 /\
           Forall2 (fun n1 n2 => same_notes (fst n1) (fst n2) (snd n1) (snd n2)) roots1 roots2).
Proof.
  intros w h slug b1 b2 PR M1 M2.
  destruct (presented w h slug b1 M1) as (e&r&p&d&v1&F&J1&R1&P1&D1&V1&W1).
  destruct (presented w h slug b2 M2) as (e'&r'&p'&d'&v2&F'&J2&R2&P2&D2&V2&W2).
  rewrite F in F'. injection F' as <- <-. exists r, v1, v2. split; [exact J1|]. split; [exact J2|]. split; [now split|]. split.
  - intro A. do 4 eexists. split; [exact V1|]. split; [exact V2|]. pose proof (p_same w h (stringify e) (rsRole r) p p' PR A P1 P2) as S.
    destruct p as [[[g rs] ls]| |], p' as [[[g' rs'] ls']| |]; cbn in S |- *; try contradiction; try (repeat split; constructor).
    exact (p_notes w h _ _ _ _ _ _ _ _ PR A P1 P2).
  - intro A. do 2 eexists. split; [exact W1|]. split; [exact W2|]. pose proof (d_same w h (stringify e) (rsRole r) d d' PR A D1 D2) as S.
    assert (X : Forall2 same_root (dgRootDomains (grid_or zero_d d)) (dgRootDomains (grid_or zero_d d'))).
    { destruct d as [[[g rs] ls]| |], d' as [[[g' rs'] ls']| |]; cbn in S |- *; try contradiction; try apply S; constructor. }
    clear - X. induction X as [|x y l l' (_&_&_&_&_&_&_&_&_&N) X IH]; cbn [map]; constructor; auto.
Qed.
Print Assumptions C149_footnotes_partial.

(** ** A report with a sum, of which two answers differ *)
Definition halves_start : rconf := started (own_p halves_outside halves_report (stringify pair_entity) (rsRole pair_set))
  (own_d halves_outside halves_report (stringify pair_entity) (rsRole pair_set)) (own_c halves_outside halves_report (stringify pair_entity) (rsRole pair_set)).
Definition halves_answer (sch : list (nat * nat)) : res (option string) :=
  match follow sch halves_start with
  | Some conf => renderable_bytes (fun role => linked role (map snd (hCalculation halves_report)))
      (marshal_renderable (fun _ _ => rendered (o_spanish halves_outside) (own_p halves_outside halves_report (stringify pair_entity) (rsRole pair_set))
         (own_d halves_outside halves_report (stringify pair_entity) (rsRole pair_set)) (own_c halves_outside halves_report (stringify pair_entity) (rsRole pair_set)) conf)
         (o_names halves_outside) (own_insts halves_report) (map snd (hSchemas halves_report)) pair_slug)
  | None => Panic
  end.
Definition in_turn : list (nat * nat) := (orderly ++ repeat (2, 0) 3)%list.
Definition at_once : list (nat * nat) := ([(1, 0)] ++ repeat (0, 0) 4 ++ repeat (1, 0) 3 ++ repeat (0, 0) 5 ++ repeat (2, 0) 9 ++ repeat (1, 0) 2)%list.
Lemma halves_answers sch b : halves_answer sch = Ok (Some b) ->
  (match follow sch halves_start with Some conf => forallb (fun t => match thTodo t with [] => true | _ => false end) (rcThreads conf) | None => false end) = true ->
  marshalled_renderable halves_outside halves_report pair_slug (Ok (Some b)).
Proof.
  unfold halves_answer. destruct (follow sch halves_start) as [conf|] eqn:F; [|discriminate]. intros E T. rewrite <- E. apply mr_returned.
  apply (rr_done halves_outside halves_report pair_slug _ _ pair_entity pair_set); try apply visited_own.
  - vm_compute. reflexivity.
  - apply own_p_grids.
  - apply own_d_grids.
  - apply own_c_grids.
  - vm_compute. discriminate.
  - vm_compute. discriminate.
  - vm_compute. discriminate.
  - eapply follow_steps. exact F.
  - intros t Ht. rewrite forallb_forall in T. specialize (T t Ht). now destruct (thTodo t).
Qed.
Lemma halves_plain_report : plain_report halves_report.
Proof.
  split.
  - assert (E : length (hInstances halves_report) = 1) by (vm_compute; reflexivity). destruct (hInstances halves_report) as [|[n i] [|? ?]]; try discriminate E. eauto.
  - intro href. assert (E : length (map snd (hLabel halves_report)) = 1) by (vm_compute; reflexivity). destruct (map snd (hLabel halves_report)) as [|x [|? ?]]; try discriminate E.
    constructor; constructor.
  - intros n i c t I C T. exfalso.
    assert (E : forallb (fun x => forallb (fun c => match (dcTyped (ctxSegment c) ++ dcTyped (ctxScenario c))%list with [] => true | _ => false end) (iContexts (snd x))) (hInstances halves_report) = true)
      by (vm_compute; reflexivity).
    rewrite forallb_forall in E. specialize (E _ I). rewrite forallb_forall in E. specialize (E _ C). cbn [snd] in *. now destruct (_ ++ _)%list.
Qed.
(** Two answers that differ, of a report with the sum A of the one term B. *)
Example C149_calculation_example :
  plain_report halves_report /\ at_most_one (draws (rsRole pair_set)) (map snd (hCalculation halves_report)) /\
  linked (rsRole pair_set) (map snd (hCalculation halves_report)) = true /\
  (exists b1 b2, b1 <> b2 /\
     marshalled_renderable halves_outside halves_report pair_slug (Ok (Some b1)) /\ marshalled_renderable halves_outside halves_report pair_slug (Ok (Some b2))) /\
  match own_c halves_outside halves_report (stringify pair_entity) (rsRole pair_set) with
  | Ok (l, _, _) => map (fun s => (siHref s, map ccHref (siContributing s))) l = [("a.xsd#id_A", ["a.xsd#id_B"])]
  | _ => False end.
Proof.
  split; [exact halves_plain_report|]. split.
  { assert (E : length (map snd (hCalculation halves_report)) = 1) by (vm_compute; reflexivity). destruct (map snd (hCalculation halves_report)) as [|x [|? ?]]; try discriminate E.
    constructor; constructor. }
  split; [vm_compute; reflexivity|]. split; [|vm_compute; reflexivity].
  destruct (halves_answer in_turn) as [[b1|]| |] eqn:E1; try (exfalso; vm_compute in E1; discriminate E1).
  destruct (halves_answer at_once) as [[b2|]| |] eqn:E2; try (exfalso; vm_compute in E2; discriminate E2).
  exists b1, b2. split; [|split; eapply halves_answers; try eassumption; vm_compute; reflexivity].
  intros ->. rewrite <- E1 in E2. vm_compute in E2. discriminate E2.
Qed.
(** A plain report with a footnote: C149_footnotes_partial speaks of its answers. *)
Example C149_footnotes_example :
  plain_report noted_report /\ at_most_one (draws (rsRole pair_set)) (map snd (hPresentation noted_report)) /\
  (exists b, marshalled_renderable noted_outside noted_report pair_slug (Ok (Some b))) /\
  match own_p noted_outside noted_report (stringify pair_entity) (rsRole pair_set) with
  | Ok (g, _, _) => pgFootnotes g = ["see below"] /\ concat (concat (pgFootnoteGrid g)) = [1]
  | _ => False end.
Proof.
  split; [split|split; [|split; [exact noted_served|vm_compute; split; reflexivity]]].
  - assert (E : length (hInstances noted_report) = 1) by (vm_compute; reflexivity). destruct (hInstances noted_report) as [|[n i] [|? ?]]; try discriminate E. eauto.
  - intro href. assert (E : length (map snd (hLabel noted_report)) = 0) by (vm_compute; reflexivity). destruct (map snd (hLabel noted_report)) as [|x ?]; try discriminate E.
    constructor.
  - intros n i c t I C T.
    assert (E : forallb (fun x => forallb (fun c => forallb (fun t => Nat.leb (length (tmMap t)) 1) (dcTyped (ctxSegment c) ++ dcTyped (ctxScenario c))%list) (iContexts (snd x))) (hInstances noted_report) = true)
      by (vm_compute; reflexivity).
    rewrite forallb_forall in E. specialize (E _ I). rewrite forallb_forall in E. specialize (E _ C). rewrite forallb_forall in E. specialize (E _ T). now apply Nat.leb_le.
  - assert (E : length (map snd (hPresentation noted_report)) = 1) by (vm_compute; reflexivity). destruct (map snd (hPresentation noted_report)) as [|x [|? ?]]; try discriminate E.
    constructor; constructor.
Qed.
